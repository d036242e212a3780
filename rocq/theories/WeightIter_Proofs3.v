(** Proofs about quantity iterators: the weights. *)
From Verif Require Import Prelude QLemmas Streams_Model Selectors_Model Selectors_Proofs LinkRef_Model LinkRef_Spec LinkRef_Proofs
  Db_Model Db_Spec Db_Proofs Db_ProofsLocal Db_ProofsInv3 Db_ProofsRun Db_ProofsOps Db_ProofsOps3 Db_ProofsOps7 Reader_Model Reader_Spec Reader_Proofs Reader_Proofs2
  WeightIter_Model WeightIter_Spec WeightIter_Proofs WeightIter_Proofs2.
From Coq Require Import Permutation Sorted Lqa ZifyBool.
Local Open Scope Z_scope.
Local Notation row := Selectors_Model.row.
Local Notation total := WeightIter_Spec.total.
Local Notation amount := WeightIter_Spec.amount.
Local Notation translate := WeightIter_Model.translate.

Lemma find_weighs s g i : weights_wf s -> weighs s g i (option_map w_value (weight_find g i s)).
Proof.
  intros W. destruct (weight_find g i s) as [w|] eqn:E; cbn [option_map weighs].
  - unfold weight_find in E. apply find_some in E. destruct E as [Hw E]. apply weight_is_iff in E. exists w. tauto.
  - intros w Hw [E1 E2]. rewrite (weight_find_at g i s w W Hw E1 E2) in E. discriminate.
Qed.
Lemma weighs_fun s g i v v' : weights_wf s -> weighs s g i v -> weighs s g i v' -> v = v'.
Proof.
  intros W H H'. destruct v as [q|], v' as [q'|]; cbn [weighs] in *.
  - destruct H as (w & Hw & E1 & E2 & <-), H' as (w' & Hw' & E1' & E2' & <-).
    pose proof (weight_find_at g i s w W Hw E1 E2). pose proof (weight_find_at g i s w' W Hw' E1' E2'). congruence.
  - destruct H as (w & Hw & E1 & E2 & _). exfalso. eapply H'; eauto.
  - destruct H' as (w & Hw & E1 & E2 & _). exfalso. eapply H; eauto.
  - reflexivity.
Qed.

Lemma group_name_found s g : weights_wf s -> In g (d_groups s) -> group_by_name (g_name g) s = Some g.
Proof.
  intros W Hg. unfold group_by_name. destruct (find _ (d_groups s)) as [h|] eqn:E.
  - apply find_some in E. destruct E as [Hh E]. apply text_eqb_iff in E. f_equal. eapply nodup_map_inj; [apply (ww_groups _ W)| | |]; auto.
  - pose proof (find_none _ _ E g Hg) as X. cbv beta in X. now rewrite text_eqb_refl in X.
Qed.
Lemma group_name_none s n : (forall g, In g (d_groups s) -> g_name g <> n) -> group_by_name n s = None.
Proof.
  intros H. destruct (group_by_name n s) as [g|] eqn:E; [|reflexivity]. apply group_by_name_in in E. exfalso. eapply H; [apply E|apply E].
Qed.

Lemma NoDup_filter_map {A B} (f : A -> B) p l : NoDup (map f l) -> NoDup (map f (filter p l)).
Proof.
  induction l as [|a l IH]; cbn; auto. intros H. inversion H; subst. destruct (p a); auto. cbn. constructor; auto.
  rewrite in_map_iff in *. intros (x & X1 & X2). apply filter_In in X2. apply H2. exists x. tauto.
Qed.

Theorem select_spec ops x g c : ws_db x = run ops fresh -> In g (d_groups (ws_db x)) -> known_columns c (ws_db x) ->
  exists l, reads (qi_data (select_weights (g_name g) c x)) l /\ weights_of (ws_db x) (g_name g) (g_id g) c l.
Proof.
  intros E Hg Kn. pose proof (run_inv ops) as I. rewrite <- E in I. set (s := ws_db x) in *. cbn [select_weights qi_data]. fold s.
  exists (weight_items (g_name g) c s). split; [reflexivity|]. unfold weight_items. rewrite (group_name_found s g (i_weights _ I) Hg).
  constructor.
  - rewrite map_map. cbn [it_index]. unfold filter_by_label. apply NoDup_filter_map, NoDup_filter_map, (iw_unique _ (i_index _ I)).
  - intros r. rewrite map_map. cbn [it_index]. rewrite map_id, filter_In, (filter_by_label_iff _ _ _ (i_index _ I) Kn).
    rewrite negb_true_iff, Z.eqb_neq. tauto.
  - intros d Hd. apply in_map_iff in Hd. destruct Hd as (r & <- & Hr). cbn [it_attrs it_index it_value]. split; [reflexivity|].
    apply find_weighs, (i_weights _ I).
Qed.
Theorem select_unknown x name c : (forall g, In g (d_groups (ws_db x)) -> g_name g <> name) -> reads (qi_data (select_weights name c x)) [].
Proof. intros H. unfold select_weights, weight_items, reads. cbn [qi_data]. now rewrite (group_name_none _ _ H). Qed.

(** *** The sum of the weights *)

Definition valued_pairs (l : list item) : list (Z * Q) :=
  flat_map (fun d => match it_value d with Some v => [(ix_id (it_index d), v)] | None => [] end) l.
Lemma valued_pairs_in l i v : In (i, v) (valued_pairs l) <-> exists d, In d l /\ ix_id (it_index d) = i /\ it_value d = Some v.
Proof.
  unfold valued_pairs. rewrite in_flat_map. split.
  - intros (d & Hd & H). exists d. destruct (it_value d) as [q|]; [|easy]. destruct H as [[= <- <-]|[]]. auto.
  - intros (d & Hd & <- & E). exists d. rewrite E. split; [exact Hd|now left].
Qed.
Lemma valued_pairs_nodup l : NoDup (map (fun d => ix_id (it_index d)) l) -> NoDup (valued_pairs l).
Proof.
  induction l as [|d l IH]; intros H; [constructor|]. inversion H; subst. unfold valued_pairs in *. cbn [flat_map].
  destruct (it_value d) as [v|]; cbn [app]; [|auto]. constructor; [|auto]. intros X. apply H2.
  apply (valued_pairs_in l) in X. destruct X as (e & He & <- & _). apply in_map_iff. eauto.
Qed.
Lemma valued_pairs_sum l : (Qsum (map snd (valued_pairs l)) == Qsum (map value l))%Q.
Proof.
  induction l as [|d l IH]; [reflexivity|]. unfold valued_pairs in *. cbn [flat_map map]. rewrite map_app, Qsum_app, Qsum_cons, IH.
  unfold value. destruct (it_value d); cbn [map val]; rewrite ?Qsum_cons, Qsum_nil; cbn [snd]; lra.
Qed.

Theorem select_total s name g l : weights_wf s -> weights_ref s -> weights_of s name g [] l ->
  (total [(txt "weight", name)] l == group_total s g)%Q.
Proof.
  intros W Rf [O1 O2 O3]. unfold total, group_total.
  assert (E : filter (mine [(txt "weight", name)]) l = l).
  { clear -O3. induction l as [|d l IH]; [reflexivity|]. cbn [filter]. rewrite (proj2 (mine_iff _ d)) by (apply O3; now left).
    f_equal. apply IH. intros e He. apply O3. now right. }
  rewrite E, <- valued_pairs_sum.
  assert (P : Permutation (valued_pairs l) (map (fun w => (w_index w, w_value w)) (filter (fun w => w_group w =? g) (d_weights s)))).
  { apply NoDup_Permutation; [now apply valued_pairs_nodup| |].
    - assert (X : NoDup (map w_index (filter (fun w => w_group w =? g) (d_weights s)))).
      { pose proof (ww_unique _ W) as U. apply (NoDup_filter_map _ (fun w => w_group w =? g)) in U.
        assert (G : forall w, In w (filter (fun w => w_group w =? g) (d_weights s)) -> w_group w = g)
          by (intros w Hw; apply filter_In in Hw; lia).
        induction (filter _ (d_weights s)) as [|w ws IH]; [constructor|]. cbn [map] in *. inversion U; subst. constructor.
        - intros Hi. apply H1. apply in_map_iff in Hi. destruct Hi as (w' & Ew & Hw'). apply in_map_iff. exists w'. split; [|exact Hw'].
          rewrite Ew, (G w), (G w'); auto; [now right|now left].
        - apply IH; auto. intros w' Hw'. apply G. now right. }
      induction (filter _ (d_weights s)) as [|w ws IH]; [constructor|]. cbn [map] in *. inversion X; subst. constructor; [|auto].
      intros Hi. apply H1. apply in_map_iff in Hi. destruct Hi as (w' & Ew & Hw'). apply in_map_iff. exists w'. injection Ew as Ew _. auto.
    - intros [i v]. rewrite valued_pairs_in, in_map_iff. split.
      + intros (d & Hd & <- & Ev). destruct (O3 d Hd) as [_ O]. rewrite Ev in O. destruct O as (w & Hw & E1 & E2 & E3). exists w.
        rewrite filter_In. split; [congruence|]. split; [exact Hw|]. lia.
      + intros (w & Ew & Hw). injection Ew as <- <-. apply filter_In in Hw. destruct Hw as [Hw Eg].
        destruct (wr_index _ Rf w Hw) as (r & Hr & Er). assert (Hx : In r (map it_index l)).
        { apply O2. split; [exact Hr|]. pose proof (ww_defined _ W w Hw). split; [lia|easy]. }
        apply in_map_iff in Hx. destruct Hx as (d & Ed & Hd). exists d. split; [exact Hd|]. rewrite Ed. split; [exact Er|].
        destruct (O3 d Hd) as [_ O]. eapply weighs_fun; [exact W|exact O|]. cbn [weighs]. exists w. rewrite Ed. repeat split; auto. lia. }
  rewrite (Qsum_perm _ _ (Permutation_map snd P)), map_map. reflexivity.
Qed.

Lemma weights_lie_on ops x name g c l : ws_db x = run ops fresh -> weights_of (ws_db x) name g c l ->
  lies_on (d_hash (ws_db x)) l /\ forall a, (amount a 0 l == 0)%Q.
Proof.
  intros E [_ O2 _]. assert (X : forall d, In d l -> In (it_index d) (d_index (ws_db x)) /\ ix_id (it_index d) <> 0).
  { intros d Hd. destruct (proj1 (O2 (it_index d))) as (A & B & _); [now apply in_map|auto]. }
  split.
  - intros d Hd. rewrite E. apply (proj2 (i_hash _ (run_inv ops))). exists (it_index d). rewrite <- E. split; [now apply X|reflexivity].
  - intros a. unfold amount. assert (F : filter (fun d => mine a d && (ix_id (it_index d) =? 0)) l = []).
    { clear -X. induction l as [|d l IH]; [reflexivity|]. cbn [filter]. rewrite IH by (intros e He; apply X; now right).
      destruct (X d) as [_ H]; [now left|]. apply Z.eqb_neq in H. rewrite H. now rewrite andb_false_r. }
    rewrite F. reflexivity.
Qed.

(** From the stored weights to the far end of a route. *)
Theorem weights_chain upper ops x g xs out : made ops x -> In g (d_groups (ws_db x)) ->
  Forall (fun x => exists ops, made ops x) xs -> route_current (ws_id x) (d_hash (ws_db x)) xs ->
  reads (qi_data (translate_all upper (select_weights (g_name g) [] x) xs)) out ->
  exists ls, stages upper (select_weights (g_name g) [] x) xs ls /\ last ls [] = out /\
    let a := [(txt "weight", g_name g)] in
    (total a out + Qsum (map (amount a 0) (tl (removelast ls))) == group_total (ws_db x) (g_id g))%Q.
Proof.
  intros (Hh & Ho & E) Hg Hx Hc R. destruct (select_spec ops x g [] E Hg) as (l & Rl & Wl); [intros k v []|].
  destruct (weights_lie_on ops x _ _ _ l E Wl) as [L Z0].
  destruct (iter_chain upper xs (select_weights (g_name g) [] x) out Hx) as (ls & St & El & T); auto.
  { cbn [select_weights qi_hash]. rewrite E. apply hash_pos. }
  { intros d Hd. now rewrite (reads_fun _ _ _ Hd Rl). }
  exists ls. split; [exact St|]. split; [exact El|]. cbv zeta. specialize (T [(txt "weight", g_name g)]).
  destruct St as [Sl Sj]. destruct (Sj 0%nat) as (l0 & E0 & R0); [lia|]. cbn [firstn] in R0. unfold translate_all in R0. cbn [fold_left] in R0.
  destruct ls as [|l0' ls]; [discriminate|]. cbn in E0. injection E0 as ->. rewrite (reads_fun _ _ _ R0 Rl) in *. cbn [hd] in T.
  pose proof (i_weights _ (run_inv ops)) as W. pose proof (proj1 (refs_of ops Ho)) as Rf. rewrite <- E in W, Rf.
  rewrite (select_total (ws_db x) (g_name g) (g_id g) l W Rf Wl) in T.
  destruct ls as [|l1 ls]; [cbn [removelast tl map] in *; exact T|].
  change (removelast (l :: l1 :: ls)) with (l :: removelast (l1 :: ls)) in *. cbn [tl map] in *. rewrite Qsum_cons, Z0 in T. lra.
Qed.

(** *** The table *)

Lemma insert_name_perm g l : Permutation (insert_name g l) (g :: l).
Proof.
  induction l as [|h l IH]; cbn [insert_name]; [reflexivity|]. destruct (text_ltb _ _); [|reflexivity].
  rewrite IH. apply perm_swap.
Qed.
Lemma all_groups_perm s : Permutation (all_groups s) (d_groups s).
Proof. unfold all_groups. induction (d_groups s) as [|g l IH]; cbn [fold_right]; [reflexivity|]. rewrite insert_name_perm. now constructor. Qed.
Definition before_name (g h : group) : Prop := text_ltb (g_name g) (g_name h) = true.
Lemma insert_name_sorted g l : StronglySorted before_name l -> ~ In (g_name g) (map g_name l) -> StronglySorted before_name (insert_name g l).
Proof.
  induction 1 as [|h l S IH F]; intros Hn; cbn [insert_name]; [repeat constructor|]. destruct (text_ltb (g_name h) (g_name g)) eqn:E.
  - constructor; [apply IH; intros X; apply Hn; now right|]. apply Forall_forall. intros y Hy.
    apply (Permutation_in _ (insert_name_perm g l)) in Hy. destruct Hy as [<-|Hy]; [exact E|]. rewrite Forall_forall in F. now apply F.
  - assert (E2 : before_name g h).
    { unfold before_name. destruct (text_ltb (g_name g) (g_name h)) eqn:E2; [reflexivity|]. exfalso. apply Hn. left. now apply text_ltb_total. }
    constructor; [constructor; auto|]. constructor; [exact E2|]. rewrite Forall_forall in *. intros y Hy. eapply text_ltb_trans; [exact E2|now apply F].
Qed.
Lemma all_groups_sorted s : weights_wf s -> StronglySorted before_name (all_groups s).
Proof.
  intros W. destruct (ww_groups _ W) as [_ N]. unfold all_groups. induction (d_groups s) as [|g l IH]; cbn [fold_right]; [constructor|].
  cbn [map] in N. inversion N; subst. apply insert_name_sorted; [auto|]. intros X. apply H1.
  apply (Permutation_in _ (Permutation_map g_name (all_groups_perm (set_groups l s)))). exact X.
Qed.

Lemma weight_value_shows s i g : weights_wf s -> shows s (g_id g) i (weight_value s i g).
Proof.
  intros W. exists (option_map w_value (weight_find (g_id g) i s)). split; [now apply find_weighs|].
  unfold weight_value. now destruct (weight_find (g_id g) i s).
Qed.

Theorem table_spec ops names header x rows : ws_db x = run ops fresh -> get_weights names header x = Ok rows ->
  exists gs body, asked (ws_db x) names gs /\
    rows = (if header then [table_head (ws_db x) (ws_domain x) gs] else []) ++ body /\
    Forall2 (table_row (ws_db x) (ws_domain x) gs) (d_index (ws_db x)) body.
Proof.
  intros E H. pose proof (i_weights _ (run_inv ops)) as W. rewrite <- E in W. unfold get_weights in H. apply bind_ok in H.
  destruct H as (gs & Hg & H). cbv zeta in H. injection H as <-. exists gs. eexists. split; [|split].
  - unfold asked. destruct names as [ns|].
    + apply traverse_ok in Hg. clear -Hg. induction Hg as [|n g ns gs H F IH]; constructor; [|exact IH].
      destruct (group_by_name n (ws_db x)) as [h|] eqn:E; [|discriminate]. injection H as <-. now apply group_by_name_in.
    + injection Hg as <-. split; [apply all_groups_perm|now apply all_groups_sorted].
  - f_equal. destruct header; [|reflexivity]. f_equal. unfold table_head. cbn [map app]. f_equal. rewrite !map_app, map_map.
    f_equal. unfold if_domain. destruct (ws_domain x); reflexivity.
  - induction (d_index (ws_db x)) as [|r l IH]; cbn [map]; constructor; [|exact IH]. eexists. split; [cbn [app]; f_equal; unfold if_domain; reflexivity|].
    clear -W. induction gs as [|g gs IH]; cbn [map]; constructor; [now apply weight_value_shows|exact IH].
Qed.
Theorem table_error names header x : weights_wf (ws_db x) ->
  (get_weights names header x = Err ValueError /\
     exists ns n, names = Some ns /\ In n ns /\ forall g, In g (d_groups (ws_db x)) -> g_name g <> n) \/
  ((exists rows, get_weights names header x = Ok rows) /\
   forall ns n, names = Some ns -> In n ns -> exists g, In g (d_groups (ws_db x)) /\ g_name g = n).
Proof.
  intros W. unfold get_weights. destruct names as [ns|]; [|right; split; [cbn [bind]; eauto|discriminate]].
  set (f := fun n => match group_by_name n (ws_db x) with Some g => Ok g | None => Err ValueError end).
  destruct (traverse f ns) as [gs|e] eqn:E; cbn [bind].
  - right. split; [eauto|]. intros ns' n [= <-] Hn. apply traverse_ok in E. destruct (Forall2_in_l _ _ _ _ E Hn) as (g & _ & H). unfold f in H.
    destruct (group_by_name n (ws_db x)) as [h|] eqn:Eh; [|discriminate]. apply group_by_name_in in Eh. eauto.
  - left. assert (X : e = ValueError /\ exists n, In n ns /\ group_by_name n (ws_db x) = None).
    { clear -E. revert e E. induction ns as [|n ns IH]; intros e E; [discriminate|]. rewrite traverse_cons in E.
      unfold f at 1 in E. destruct (group_by_name n (ws_db x)) as [g|] eqn:Eg; cbn [bind] in E.
      - destruct (traverse f ns) as [gs|e'] eqn:E'; cbn [bind] in E; [discriminate|]. injection E as <-.
        destruct (IH _ eq_refl) as (Ee & n' & Hn & En). split; [exact Ee|]. exists n'. split; [now right|exact En].
      - injection E as <-. split; [reflexivity|]. exists n. split; [now left|exact Eg]. }
    destruct X as (-> & n & Hn & En). split; [reflexivity|]. exists ns, n. repeat split; auto. intros g Hg <-.
    rewrite (group_name_found _ g W Hg) in En. discriminate.
Qed.

(** *** The shape of the rows *)

Definition fits (qi : qiter) : Prop := forall data d, reads (qi_data qi) data -> In d data -> length (ix_labels (it_index d)) = length (qi_labels qi).
Lemma fits_rows qi rows data : fits qi -> reads (qi_data qi) data -> reads (rows_of qi) rows ->
  rows = map (item_row qi) data /\ Forall (fun r => length r = length (columns qi)) rows.
Proof.
  intros F R H. assert (E : rows = map (item_row qi) data).
  { apply (reads_fun (rows_of qi)); [exact H|]. unfold rows_of. rewrite R. clear. unfold reads.
    induction data as [|d data IH]; [reflexivity|]. cbn [chain smap map]. now rewrite IH. }
  split; [exact E|]. subst rows. apply Forall_forall. intros r Hr. apply in_map_iff in Hr. destruct Hr as (d & <- & Hd).
  unfold item_row, columns. rewrite !app_length, !map_length. cbn [length]. rewrite (F data d R Hd). unfold if_domain.
  destruct (qi_domain qi); reflexivity.
Qed.
Lemma select_fits ops name c x : ws_db x = run ops fresh -> fits (select_weights name c x).
Proof.
  intros E data d R Hd. cbn [select_weights qi_data qi_labels] in *. assert (X : data = weight_items name c (ws_db x)).
  { symmetry. now apply chain_inj. }
  subst data. unfold weight_items in Hd. destruct (group_by_name _ _); [|easy]. apply in_map_iff in Hd. destruct Hd as (r & <- & Hr).
  cbn [it_index]. apply filter_In in Hr. destruct Hr as [Hr _]. apply filter_In in Hr. destruct Hr as [Hr _]. rewrite E in *.
  apply (iw_arity _ (i_index _ (run_inv ops)) r Hr).
Qed.
Lemma translate_fits ops upper qi x : ws_db x = run ops fresh -> fits (translate upper qi x).
Proof.
  intros E data d R Hd. destruct (iter_lies_on upper qi x ops data E R) as [_ X]. apply X in Hd. cbn [translate qi_labels]. rewrite E in *.
  apply (iw_arity _ (i_index _ (run_inv ops)) _ Hd).
Qed.

Lemma item_row_shows qi d : row_shows (qi_domain qi) (qi_keys qi) d (item_row qi d).
Proof.
  unfold row_shows, item_row. eexists. split.
  - f_equal. unfold if_domain, with_domain, opt_num. destruct (qi_domain qi); cbn [app]; reflexivity.
  - induction (qi_keys qi) as [|k ks IH]; cbn [map]; constructor; [|exact IH]. unfold opt_text. destruct (dict_get k (it_attrs d)); reflexivity.
Qed.
Lemma rows_show qi rows data : fits qi -> reads (qi_data qi) data -> reads (rows_of qi) rows ->
  Forall2 (row_shows (qi_domain qi) (qi_keys qi)) data rows /\ Forall (fun r => length r = length (columns qi)) rows.
Proof.
  intros F R H. destruct (fits_rows qi rows data F R H) as [E L]. split; [|exact L]. subst rows. clear.
  induction data as [|d l IH]; cbn [map]; constructor; [apply item_row_shows|exact IH].
Qed.
Lemma columns_route upper name c x xs : columns (translate_all upper (select_weights name c x) xs) =
  d_labels (ws_db (last xs x)) ++ with_domain (ws_domain x) (txt "domain") [txt "weight"; txt "value"].
Proof.
  assert (G : forall xs qi, qi_keys (translate_all upper qi xs) = qi_keys qi /\ qi_domain (translate_all upper qi xs) = qi_domain qi /\
     qi_labels (translate_all upper qi xs) = last (map (fun y => d_labels (ws_db y)) xs) (qi_labels qi)).
  { clear. induction xs as [|y xs IH]; intros qi; [auto|]. rewrite translate_all_cons. destruct (IH (translate upper qi y)) as (A & B & C).
    rewrite A, B, C. repeat split; auto. cbn [map]. destruct xs as [|z xs]; [reflexivity|]. cbn [map]. clear. cbn [last].
    generalize (d_labels (ws_db z)). induction (map (fun y => d_labels (ws_db y)) xs) as [|u us IH]; intros v; [reflexivity|]. cbn [last] in *. destruct us; [reflexivity|]. apply (IH u). }
  unfold columns. destruct (G xs (select_weights name c x)) as (-> & -> & ->). cbn [select_weights qi_keys qi_domain qi_labels].
  f_equal.
  - revert x. induction xs as [|y xs IH]; intros x; [reflexivity|]. cbn [map last]. destruct xs as [|z xs]; [reflexivity|]. apply IH.
  - unfold if_domain, with_domain. destruct (ws_domain x); reflexivity.
Qed.
