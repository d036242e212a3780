(** Proofs about quantity iterators: amounts and totals. *)
From Verif Require Import Prelude QLemmas Streams_Model Selectors_Model Selectors_Proofs SelectorParse_Model LinkRef_Model LinkRef_Spec LinkRef_Proofs
  Db_Model Db_Spec Db_Proofs Db_ProofsLocal Db_ProofsRun Db_ProofsOps Db_ProofsOps3 Db_ProofsOps7 Reader_Model Reader_Spec Reader_Proofs Reader_Proofs2
  WeightIter_Model WeightIter_Spec WeightIter_Proofs.
From Coq Require Import Permutation Lqa ZifyBool.
Local Open Scope Z_scope.
Local Notation row := Selectors_Model.row.
Local Notation total := WeightIter_Spec.total.
Local Notation amount := WeightIter_Spec.amount.
Local Notation translate := WeightIter_Model.translate.

Lemma mine_iff a d : mine a d = true <-> it_attrs d = a.
Proof. apply row_eqb_iff. Qed.

(** *** The links *)

Lemma find_links_ok uid h s d dflt : find_links uid h s = Ok (d, dflt) ->
  exists k, find k_default (find_links_by_ref uid (d_links s)) = Some k /\ k_hash k = Some h /\ k_complete k = true /\ dflt = k_id k /\
  traverse (fun k => do s <- traverse parse_selector (k_selectors k); Ok (k_id k, Some s))
    (filter (fun k => k_complete k && negb (nil_b (k_selectors k))) (find_links_by_ref uid (d_links s))) = Ok d.
Proof.
  unfold find_links. destruct (find k_default _) as [k|] eqn:F; [|discriminate].
  destruct (k_hash k) as [h0|] eqn:Eh; [|discriminate].
  destruct (zs_eqb h0 h) eqn:Ez; [|discriminate]. destruct (k_complete k) eqn:Ec; [|discriminate]. cbn [negb orb].
  intros H. apply bind_ok in H. destruct H as (d' & Hd & H). injection H as <- <-. exists k.
  apply zs_eqb_iff in Ez. subst h0. auto.
Qed.

Theorem find_links_choice uid s h d dflt : link_table (d_links s) ->
  find_links uid h s = Ok (d, dflt) -> (exists k, In k (d_links s) /\ k_other k = uid) ->
  (exists k, fallback (d_links s) uid h k /\ k_id k = dflt) /\ NoDup (map fst d) /\
  (forall i sels, In (i, sels) d <-> exists k l, offered (d_links s) uid k /\ k_id k = i /\ sels = Some l /\
     Forall2 (fun t s => parse_selector t = Ok s) (k_selectors k) l).
Proof.
  intros [T1 _] H Hu. apply find_links_ok in H. destruct H as (dk & F & Eh & Ec & -> & Tr).
  rewrite (find_exact uid _ Hu) in *. set (m1 := find_by_other_unique_id uid (d_links s)) in *.
  assert (I1 : forall k, In k m1 <-> In k (d_links s) /\ k_other k = uid) by (intros; apply in_by_id).
  set (m3 := filter (fun k => k_complete k && negb (nil_b (k_selectors k))) m1) in *.
  apply traverse_ok in Tr.
  assert (I3 : forall k, In k m3 <-> offered (d_links s) uid k).
  { intros k. unfold m3, offered. rewrite filter_In, I1, andb_true_iff. destruct (k_selectors k); cbn [nil_b negb]; intuition congruence. }
  split; [|split].
  - apply find_some in F. destruct F as [F1 F2]. apply I1 in F1. exists dk. split; [|reflexivity].
    split; [|auto]. split; [apply F1|]. split; [apply F1|exact Eh].
  - assert (E : map fst d = map k_id m3).
    { clear -Tr. induction Tr as [|k b l l' H _ IH]; [reflexivity|]. cbn [map]. rewrite IH. f_equal.
      destruct (traverse parse_selector (k_selectors k)); cbn [bind] in H; [|discriminate]. injection H as <-. reflexivity. }
    rewrite E.
    assert (S : forall (f : link -> bool) l, NoDup (map k_id l) -> NoDup (map k_id (filter f l))).
    { clear. intros f l. induction l as [|a l IH]; cbn; auto. intros H. inversion H; subst.
      destruct (f a); auto. cbn. constructor; auto.
      rewrite in_map_iff in *. intros [x [X1 X2]]. apply filter_In in X2. apply H2. exists x. tauto. }
    apply S, S. exact T1.
  - intros i sels. split.
    + intros H. apply (Forall2_in_r _ _ _ _ Tr) in H. destruct H as (k & Hk & E).
      apply bind_ok in E. destruct E as (l & El & E). injection E as <- <-. exists k, l. rewrite <- I3. repeat split; auto. now apply traverse_ok.
    + intros (k & l & Hk & <- & -> & Fl). apply I3 in Hk. apply (Forall2_in_l _ _ _ _ Tr) in Hk. destruct Hk as (y & Hy & E).
      assert (Y : traverse parse_selector (k_selectors k) = Ok l).
      { clear -Fl. induction Fl as [|t s ts ss H _ IH]; [reflexivity|]. rewrite traverse_cons, H. cbn [bind]. rewrite IH. reflexivity. }
      rewrite Y in E. cbn [bind] in E. injection E as <-. exact Hy.
Qed.

Theorem find_links_fails uid h s : link_table (d_links s) -> (forall k, ~ fallback (d_links s) uid h k) ->
  (exists k, In k (d_links s) /\ k_other k = uid) -> find_links uid h s = Err RuntimeError.
Proof.
  intros T H Hu. unfold find_links. rewrite (find_exact uid _ Hu).
  destruct (find k_default _) as [k|] eqn:F; [|reflexivity]. apply find_some in F. destruct F as [F1 F2]. apply in_by_id in F1.
  destruct (negb _ || negb _) eqn:E; [reflexivity|]. exfalso. apply orb_false_iff in E. destruct E as [E1 E2].
  apply negb_false_iff in E1, E2. destruct (k_hash k) as [h0|] eqn:Eh; [|discriminate]. apply zs_eqb_iff in E1. subst h0.
  apply (H k). split; [|auto]. split; [apply F1|]. split; [apply F1|exact Eh].
Qed.
(** A space without any link of that id, file name or prefix. *)
Theorem find_links_none uid h s : find_links_by_ref uid (d_links s) = [] -> find_links uid h s = Err RuntimeError.
Proof. intros E. unfold find_links. now rewrite E. Qed.

Lemma chosen_hash uid h s fn upper a k : all_current (d_links s) uid h -> find_links uid h s = Ok fn ->
  get_link_id upper fn a = Ok k -> exists x, In x (d_links s) /\ k_id x = k /\ k_hash x = Some h.
Proof.
  intros C H Hk. destruct fn as [d dflt]. apply find_links_ok in H. destruct H as (dk & F & Eh & Ec & -> & Tr).
  apply get_link_id_in in Hk. cbn [fst snd] in Hk. destruct Hk as [Hk| ->].
  - apply in_map_iff in Hk. destruct Hk as (y & <- & Hy). apply traverse_ok in Tr. apply (Forall2_in_r _ _ _ _ Tr) in Hy.
    destruct Hy as (x & Hx & E). apply filter_In in Hx. destruct Hx as [Hx Hc]. apply andb_true_iff in Hc.
    apply bind_ok in E. destruct E as (l & _ & E). injection E as <-. exists x.
    split; [now apply find_links_sub in Hx|]. split; [reflexivity|]. apply C; [exact Hx|apply Hc|]. destruct (k_selectors x); [easy|discriminate].
  - apply find_some in F. exists dk. split; [eapply find_links_sub, (proj1 F)|auto].
Qed.

(** *** Amounts *)

Lemma replaced_amount target fn upper d out a k t : get_link_id upper fn a = Ok k ->
  replaced target (fun a k => get_link_id upper fn a = Ok k) d out ->
  (amount a t out == if mine a d then passes target k (ix_id (it_index d)) t (value d) else 0)%Q.
Proof.
  intros Hk. unfold replaced, value, passes. destruct (it_value d) as [v|].
  - intros (k' & Hk' & F). rewrite (applied_amount _ _ _ _ _ a t F). destruct (mine a d) eqn:E; [|lra]. apply mine_iff in E.
    rewrite E in Hk'. rewrite Hk in Hk'. injection Hk' as <-. cbn [val]. lra.
  - intros ->. unfold amount. cbn. destruct (mine a d); lra.
Qed.

Lemma concat_amount a t f data outs : Forall2 (fun d out => (amount a t out == if mine a d then f d else 0)%Q) data outs ->
  (amount a t (concat outs) == Qsum (map f (filter (mine a) data)))%Q.
Proof.
  induction 1 as [|d out data outs H F IH]; [reflexivity|]. cbn [concat filter]. rewrite amount_app, H, IH.
  destruct (mine a d); cbn [map]; rewrite ?Qsum_cons; lra.
Qed.
Lemma concat_total a f p data outs : Forall2 (fun d out => (total a out == if mine a d && p d then f d else 0)%Q) data outs ->
  (total a (concat outs) == Qsum (map f (filter (fun d => mine a d && p d) data)))%Q.
Proof.
  induction 1 as [|d out data outs H F IH]; [reflexivity|]. cbn [concat filter]. rewrite total_app, H, IH.
  destruct (mine a d && p d); cbn [map]; rewrite ?Qsum_cons; lra.
Qed.
Lemma Forall2_weaken {A B} (P Q : A -> B -> Prop) l l' : (forall a b, In a l -> P a b -> Q a b) -> Forall2 P l l' -> Forall2 Q l l'.
Proof. intros H F. induction F; constructor; [apply H; [now left|assumption]|]. apply IHF. intros a b Ha. apply H. now right. Qed.

Theorem iter_amounts upper qi x out data : reads (qi_data (translate upper qi x)) out -> reads (qi_data qi) data ->
  exists fn, find_links (qi_id qi) (qi_hash qi) (ws_db x) = Ok fn /\
  forall a k t, get_link_id upper fn a = Ok k ->
    (amount a t out == Qsum (map (fun d => passes (ws_db x) k (ix_id (it_index d)) t (value d)) (filter (mine a) data)))%Q.
Proof.
  intros H R. destruct (translate_rows _ _ _ _ H) as (fn & data' & outs & Hfn & R' & -> & F).
  rewrite (reads_fun _ _ _ R' R) in F. exists fn. split; [exact Hfn|]. intros a k t Hk. apply concat_amount.
  eapply Forall2_weaken; [|exact F]. intros d o _. now apply replaced_amount.
Qed.

Theorem iter_totals upper qi x ops out data : made ops x -> (forall i, In i (qi_hash qi) -> 0 <= i) ->
  all_current (d_links (ws_db x)) (qi_id qi) (qi_hash qi) -> lies_on (qi_hash qi) data ->
  reads (qi_data (translate upper qi x)) out -> reads (qi_data qi) data ->
  (forall a, total a out == placed a data)%Q.
Proof.
  intros (Hh & Ho & E) Hpos C L H R a. destruct (translate_rows _ _ _ _ H) as (fn & data' & outs & Hfn & R' & -> & F).
  rewrite (reads_fun _ _ _ R' R) in F. unfold placed.
  rewrite (concat_total a value (fun d => negb (ix_id (it_index d) =? 0))); [reflexivity|].
  eapply Forall2_weaken; [|exact F]. intros d o Hd Hr. unfold replaced in Hr. unfold value.
  destruct (it_value d) as [v|] eqn:Ev.
  - destruct Hr as (k & Hk & Fm). rewrite (applied_total _ _ _ _ _ a Fm). destruct (mine a d); cbn [andb]; [|reflexivity].
    destruct (chosen_hash _ _ _ _ _ _ _ C Hfn Hk) as (lk & Hl & <- & Eh). rewrite E in Hl |- *.
    pose proof (L d Hd) as Hi. destruct (Z.eqb_spec (ix_id (it_index d)) 0) as [E0|E0]; cbn [negb val].
    + rewrite E0. rewrite Qsum_zero; [lra|]. intros m Hm. apply filter_In in Hm. destruct Hm as [Hm Em].
      destruct (props_of ops Ho m Hm) as [P _]. destruct P as (p & Ep & Eq); [lia|]. unfold share. now rewrite Ep.
    + destruct (current_whole ops lk _ Hh Ho Hl Eh Hpos _ Hi E0) as [_ W]. rewrite W. lra.
  - subst o. unfold total. cbn. destruct (mine a d && _); reflexivity.
Qed.

Lemma placed_total a l : (placed a l + amount a 0 l == total a l)%Q.
Proof.
  unfold placed, amount, total. induction l as [|d l IH]; [reflexivity|]. cbn [filter].
  destruct (mine a d); cbn [andb]; [|exact IH]. destruct (ix_id (it_index d) =? 0); cbn [negb map]; rewrite !Qsum_cons; lra.
Qed.

Theorem iter_lies_on upper qi x ops out : ws_db x = run ops fresh -> reads (qi_data (translate upper qi x)) out ->
  lies_on (d_hash (ws_db x)) out /\ forall d, In d out -> In (it_index d) (d_index (ws_db x)).
Proof.
  intros E H. destruct (translate_rows _ _ _ _ H) as (fn & data & outs & _ & _ & -> & F).
  assert (X : forall d, In d (concat outs) -> In (it_index d) (d_index (ws_db x))).
  { intros d Hd. apply in_concat in Hd. destruct Hd as (o & Ho & Hd). destruct (Forall2_in_r _ _ _ _ F Ho) as (b & _ & Hr).
    unfold replaced in Hr. destruct (it_value b) as [v|]; [|now subst o]. destruct Hr as (k & _ & F2).
    destruct (Forall2_in_r _ _ _ _ F2 Hd) as (m & _ & Hm). apply Hm. }
  split; [|exact X]. intros d Hd. rewrite E. apply (proj2 (i_hash _ (run_inv ops))). exists (it_index d). rewrite <- E. auto.
Qed.
Lemma hash_pos ops : forall i, In i (d_hash (run ops fresh)) -> 0 <= i.
Proof.
  intros i Hi. destruct (i_hash _ (run_inv ops)) as [_ H]. apply H in Hi. destruct Hi as (r & Hr & <-).
  apply (iw_range _ (i_index _ (run_inv ops)) r Hr).
Qed.

(** *** Chains *)

Lemma translate_all_cons upper qi x xs : translate_all upper qi (x :: xs) = translate_all upper (translate upper qi x) xs.
Proof. reflexivity. Qed.
Lemma translate_all_reads upper xs : forall qi out, reads (qi_data (translate_all upper qi xs)) out -> exists data, reads (qi_data qi) data.
Proof.
  induction xs as [|x xs IH]; intros qi out H; [cbn in H; eauto|]. rewrite translate_all_cons in H. destruct (IH _ _ H) as [l Hl].
  destruct (translate_rows _ _ _ _ Hl) as (fn & data & outs & _ & R & _). eauto.
Qed.

Theorem iter_chain upper xs : forall qi out, Forall (fun x => exists ops, made ops x) xs ->
  (forall i, In i (qi_hash qi) -> 0 <= i) -> route_current (qi_id qi) (qi_hash qi) xs ->
  (forall data, reads (qi_data qi) data -> lies_on (qi_hash qi) data) ->
  reads (qi_data (translate_all upper qi xs)) out ->
  exists ls, stages upper qi xs ls /\ last ls [] = out /\
    forall a, (total a out + Qsum (map (amount a 0) (removelast ls)) == total a (hd [] ls))%Q.
Proof.
  induction xs as [|x xs IH]; intros qi out Hm Hpos Hc L H.
  - exists [out]. split; [|split; [reflexivity|]].
    + split; [reflexivity|]. intros j Hj. cbn in Hj. assert (j = 0%nat) as -> by lia. exists out. auto.
    + intros a. cbn [removelast map hd]. rewrite Qsum_nil. lra.
  - rewrite translate_all_cons in H. apply Forall_cons_iff in Hm. destruct Hm as [[ops Hx] Hm]. destruct Hc as [Hc1 Hc2].
    pose proof Hx as (Hh & Ho & E).
    destruct (IH (translate upper qi x) out Hm) as (ls & (Sl & Sj) & El & T); auto.
    { cbn [translate qi_hash]. rewrite E. apply hash_pos. }
    { intros data Hd. cbn [translate qi_hash]. now apply (iter_lies_on upper qi x ops). }
    destruct (Sj 0%nat) as (l1 & E1 & R1); [lia|]. cbn [firstn] in R1. unfold translate_all in R1. cbn [fold_left] in R1.
    destruct (translate_rows _ _ _ _ R1) as (fn & data & outs & _ & R & _). destruct ls as [|l1' ls]; [discriminate|].
    cbn in E1. injection E1 as ->. exists (data :: l1 :: ls). split; [split|split].
    + cbn [length] in *. lia.
    + intros j Hj. destruct j as [|j]; [exists data; split; [reflexivity|exact R]|]. cbn [length] in Hj. destruct (Sj j) as (l & E2 & R2); [lia|].
      exists l. split; [exact E2|exact R2].
    + exact El.
    + intros a. cbn [hd]. change (removelast (data :: l1 :: ls)) with (data :: removelast (l1 :: ls)). cbn [map]. rewrite Qsum_cons.
      specialize (T a). cbn [hd] in T. pose proof (iter_totals upper qi x ops l1 data Hx Hpos Hc1 (L _ R) R1 R a) as T2.
      pose proof (placed_total a data). lra.
Qed.

(** *** It succeeds *)

Theorem iter_succeeds upper qi x ops data fn : made ops x -> (forall i, In i (qi_hash qi) -> 0 <= i) ->
  all_current (d_links (ws_db x)) (qi_id qi) (qi_hash qi) -> lies_on (qi_hash qi) data -> reads (qi_data qi) data ->
  find_links (qi_id qi) (qi_hash qi) (ws_db x) = Ok fn ->
  (forall d, In d data -> it_value d <> None -> exists k, get_link_id upper fn (it_attrs d) = Ok k) ->
  exists out, reads (qi_data (translate upper qi x)) out.
Proof.
  intros (Hh & Ho & E) Hpos C L R Hfn Hk. unfold translate. cbn [qi_data]. rewrite Hfn, R. apply items_total.
  intros d Hd Hv. destruct (Hk d Hd Hv) as [k Ek]. exists k. split; [exact Ek|].
  destruct (chosen_hash _ _ _ _ _ _ _ C Hfn Ek) as (lk & Hl & <- & Eh). rewrite E in *. intros m Hm. split.
  - destruct (Z.eqb_spec (ix_id (it_index d)) 0) as [E0|E0].
    + apply filter_In in Hm. destruct Hm as [Hm Em]. destruct (props_of ops Ho m Hm) as [P _]. destruct P as (p & Ep & Eq); [lia|]. congruence.
    + destruct (current_whole ops lk _ Hh Ho Hl Eh Hpos _ (L d Hd) E0) as [W _]. destruct (W m Hm) as (p & Ep & _). congruence.
  - destruct (refs_of ops Ho) as [_ M]. apply filter_In in Hm. destruct (mr_ref_index _ M m (proj1 Hm)) as (r & Hr & Er). exists r. auto.
Qed.

(** *** The reader *)

Lemma find_make uid h s : all_current (d_links s) uid h -> forall fn, find_links uid h s = Ok fn -> 
  (exists k, In k (d_links s) /\ k_other k = uid) -> link_table (d_links s) -> make_get_link_id uid (d_links s) h = Ok fn.
Proof.
  intros C fn H Hu T. destruct fn as [d dflt]. apply find_links_ok in H. destruct H as (dk & F & Eh & Ec & -> & Tr).
  unfold make_get_link_id. set (m := find_links_by_ref uid (d_links s)) in *.
  set (p := fun k => match k_hash k with Some h0 => zs_eqb h0 h | None => false end).
  assert (Pd : p dk = true) by (unfold p; rewrite Eh; now apply zs_eqb_iff).
  pose proof (find_some _ _ F) as [F1 F2].
  assert (Hd : In dk (filter p m)) by (apply filter_In; auto).
  destruct m as [|z m0] eqn:Em; [easy|]. cbn [nil_b]. rewrite <- Em in *. clear Em z m0.
  destruct (filter p m) as [|z m0] eqn:Em; [easy|]. cbn [nil_b]. rewrite <- Em in *. clear Em z m0. cbv zeta.
  destruct (find k_default (filter p m)) as [dk'|] eqn:F'.
  - pose proof (find_some _ _ F') as [G1 G2]. apply filter_In in G1. assert (dk' = dk) as ->.
    { assert (I : forall k, In k m -> In k (d_links s) /\ k_other k = uid).
      { intros k Hk. unfold m in Hk. rewrite (find_exact uid _ Hu) in Hk. now apply in_by_id in Hk. }
      destruct (I _ F1), (I _ (proj1 G1)). apply T; congruence. }
    assert (Ef : filter (fun k => k_complete k && negb (nil_b (k_selectors k))) (filter p m) =
                 filter (fun k => k_complete k && negb (nil_b (k_selectors k))) m).
    { assert (X : forall k, In k m -> k_complete k && negb (nil_b (k_selectors k)) = true -> p k = true).
      { intros k Hk Hc. apply andb_true_iff in Hc. unfold p. rewrite (C k Hk (proj1 Hc)); [now apply zs_eqb_iff|]. destruct (k_selectors k); [easy|discriminate]. }
      clear -X. induction m as [|k m IH]; [reflexivity|]. cbn [filter]. rewrite <- IH; [|intros y Hy; apply X; now right].
      destruct (p k) eqn:Ep; cbn [filter]; [reflexivity|]. destruct (k_complete k && _) eqn:Ek; [|reflexivity].
      rewrite (X k) in Ep; [discriminate|now left|exact Ek]. }
    rewrite Ef, Tr. reflexivity.
  - exfalso. pose proof (find_none _ _ F' dk Hd). congruence.
Qed.

Theorem iter_reader upper qi x out data r r' : reader_wf r -> same_contents r data ->
  link_table (d_links (ws_db x)) -> (exists k, In k (d_links (ws_db x)) /\ k_other k = qi_id qi) ->
  all_current (d_links (ws_db x)) (qi_id qi) (qi_hash qi) ->
  (forall d, In d data -> ix_id (it_index d) <> 0) ->
  reads (qi_data qi) data -> reads (qi_data (translate upper qi x)) out ->
  Reader_Model.translate upper false (qi_id qi) (qi_hash qi) (ws_db x) r = Ok r' ->
  forall a t, In a (r_attrs r) -> (Reader_Spec.amount r' (a_id a) t == amount (a_attrs a) t out)%Q.
Proof.
  intros W Sc T Hu C Hz R H H' a t Ha. pose proof (rw_attrs _ W) as Nd. destruct (iter_amounts _ _ _ _ _ H R) as (fn & Hfn & A).
  pose proof (find_make _ _ _ C _ Hfn Hu T) as Hm.
  destruct (Reader_Proofs2.translate_amounts _ _ _ _ _ _ W H') as (fn' & Hfn' & A').
  rewrite Hm in Hfn'. injection Hfn' as <-. destruct (A' a Ha) as (k & Hk & A2). rewrite A2, (A _ k t Hk).
  clear -Sc Hz Ha W Nd. unfold same_contents in Sc. revert Hz. induction Sc as [|q d qs ds Hq F IH]; intros Hz; [reflexivity|].
  cbn [filter]. destruct Hq as (E1 & E2 & b & Hb & E3 & E4).
  assert (E : (q_attr q =? a_id a) = mine (a_attrs a) d).
  { apply eq_true_iff_eq. rewrite mine_iff, Z.eqb_eq, <- E3, <- E4. split; intros X.
    - f_equal. eapply nodup_map_inj; [apply (rw_ids _ W)| | |]; auto.
    - f_equal. eapply nodup_map_inj; [exact Nd| | |]; auto. }
  rewrite E. specialize (IH (fun y Hy => Hz y (or_intror Hy))). destruct (mine _ d); [|exact IH]. cbn [map]. rewrite !Qsum_cons, IH.
  unfold arrives, passes, value. rewrite E1, E2. destruct (Z.eqb_spec (ix_id (it_index d)) 0) as [E0|E0]; [|reflexivity].
  exfalso. apply (Hz d); [now left|exact E0].
Qed.
