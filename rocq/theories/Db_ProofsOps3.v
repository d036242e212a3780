(** Effects of single operations: deleting weights and mappings, policies, proportions. *)
From Verif Require Import Prelude QLemmas BitFlags_Model BitFlags_Spec BitFlags_Proofs Selectors_Model
  Selectors_Proofs LinkRef_Model LinkRef_Spec LinkRef_Proofs Db_Model Db_Spec Db_Proofs
  Db_ProofsLocal Db_ProofsMerge Db_ProofsRefresh Db_ProofsInv Db_ProofsInv2 Db_ProofsInv3
  Db_ProofsDelete Db_ProofsRun Db_ProofsOps Db_ProofsOps2.
From Coq Require Import ZifyBool ZifyNat Lqa.

Lemma filter_true {A} (l : list A) : filter (fun _ => true) l = l.
Proof. induction l as [|a l IH]; cbn; congruence. Qed.
Lemma bool_eq_iff (a b : bool) : a = b <-> (a = true <-> b = true).
Proof. destruct a, b; intuition congruence. Qed.

(** *** add_or_resolve (C35) *)

Lemma weight_find_at g i s w : weights_wf s -> In w (d_weights s) -> w_group w = g -> w_index w = i ->
  weight_find g i s = Some w.
Proof.
  intros W Hw Eg Ei. unfold weight_find.
  destruct (find_found (weight_is g i) (d_weights s) w Hw) as (x & Hx); [now apply weight_is_iff|].
  rewrite Hx. f_equal. apply find_some in Hx. destruct Hx as [Hx Ex]. apply weight_is_iff in Ex.
  apply (nodup_map_inj wkey (d_weights s)); auto; [apply (ww_unique _ W)|]. unfold wkey. destruct Ex. congruence.
Qed.

Lemma weight_update_at g i v s s' : weights_wf s -> weight_there s g i -> weight_update g i v s = Ok s' ->
  s' = set_weights (d_weights s') s /\ weight_at s' g i (Some v) /\
  (forall w, (w_group w, w_index w) <> (g, i) -> (In w (d_weights s') <-> In w (d_weights s))).
Proof.
  intros W (w0 & H0 & E1 & E2) H. unfold weight_update in H. destruct (negb (Qle_bool 0 v)); [discriminate|]. apply Ok_inj in H. subst s'.
  cbn [set_weights d_weights weight_at]. split; [reflexivity|]. split.
  - apply in_map_iff. exists w0. rewrite (proj2 (weight_is_iff g i w0)); auto.
  - intros w Hn. rewrite in_map_iff. split.
    + intros (x & Ex & Hx). destruct (weight_is g i x); subst w; auto. cbn in Hn. congruence.
    + intros Hw. exists w. split; auto. destruct (weight_is g i w) eqn:E; auto. apply weight_is_iff in E.
      destruct E as [<- <-]. congruence.
Qed.

Lemma add_or_resolve_spec g i v p s old : weights_wf s ->
  (exists x, In x (d_groups s) /\ g_id x = g) -> (0 < i)%Z -> (0 <= v)%Q -> weight_at s g i old ->
  match resolved p old v with
  | Some (q, c) => exists s', add_or_resolve g i v p s = Ok (s', c) /\ s' = set_weights (d_weights s') s /\
      weight_at s' g i (Some q) /\
      (forall w, (w_group w, w_index w) <> (g, i) -> (In w (d_weights s') <-> In w (d_weights s)))
  | None => exists e, add_or_resolve g i v p s = Err e
  end.
Proof.
  intros W (x & Hx & Ex) Hi Hv Ho. unfold add_or_resolve, weight_add.
  replace (i =? 0)%Z with false by lia. replace (i <? 0)%Z with false by lia.
  assert (Qv : Qle_bool 0 v = true) by now apply Qle_bool_iff. rewrite Qv. cbn [negb orb].
  destruct old as [q|]; cbn [weight_at] in Ho.
  - assert (Hth : weight_there s g i) by (eexists; split; [exact Ho|auto]).
    assert (Ee : existsb (weight_is g i) (d_weights s) = true).
    { apply existsb_exists. eexists. split; [exact Ho|]. now apply weight_is_iff. }
    rewrite Ee. rewrite (weight_find_at g i s _ W Ho eq_refl eq_refl). cbn [w_value].
    assert (Qq : (0 <= q)%Q) by (apply (ww_nonneg _ W _ Ho)).
    destruct p; cbn [resolved]; try (eexists; reflexivity).
    + exists s. split; auto. split; [now destruct s|]. split; [exact Ho|tauto].
    + destruct (weight_update g i v s) as [s'|e] eqn:Eu.
      * cbn [bind]. exists s'. split; auto. now apply weight_update_at.
      * unfold weight_update in Eu. rewrite Qv in Eu. discriminate.
    + destruct (weight_update g i (q + v) s) as [s'|e] eqn:Eu.
      * cbn [bind]. exists s'. split; auto. now apply weight_update_at.
      * unfold weight_update in Eu. rewrite (proj2 (Qle_bool_iff 0 (q + v))) in Eu; [discriminate|]. lra.
  - assert (Ee : existsb (weight_is g i) (d_weights s) = false).
    { apply existsb_false_iff. intros w Hw. destruct (weight_is g i w) eqn:E; auto. apply weight_is_iff in E.
      exfalso. apply Ho. exists w. tauto. }
    rewrite Ee. assert (Eg : existsb (fun y => (g_id y =? g)%Z) (d_groups s) = true).
    { apply existsb_exists. exists x. split; auto. lia. }
    rewrite Eg. cbn [negb]. rewrite andb_false_r. cbn [resolved]. 
    eexists. split; [reflexivity|]. cbn [set_weights d_weights weight_at]. split; [reflexivity|]. split.
    + apply in_app_iff. right. now left.
    + intros w Hn. rewrite in_app_iff. split; [|tauto]. intros [H|[H|[]]]; auto. subst w. cbn in Hn. congruence.
Qed.

Lemma add_or_resolve_refused g i v p s : (i = 0%Z \/ (v < 0)%Q) -> add_or_resolve g i v p s = Err ValueError.
Proof.
  intros H. unfold add_or_resolve, weight_add. destruct (i =? 0)%Z eqn:E; [reflexivity|].
  destruct H as [H|H]; [lia|]. destruct (Qle_bool 0 v) eqn:Q; [|reflexivity].
  apply Qle_bool_iff in Q. exfalso. revert H. apply Qle_not_lt. exact Q.
Qed.

(** *** Deleting weights (C48) *)

Lemma delete_weight_of_eq g i x :
  fst (delete_weight_of g i x) = weight_delete g i (fst x) /\
  snd (delete_weight_of g i x) = snd x || existsb (weight_is g i) (d_weights (fst x)).
Proof.
  unfold delete_weight_of, weight_find. destruct (find (weight_is g i) (d_weights (fst x))) as [w|] eqn:E.
  - apply find_some in E. destruct E as [Hw E]. assert (Ee : existsb (weight_is g i) (d_weights (fst x)) = true) by (apply existsb_exists; eauto).
    apply weight_is_iff in E. destruct E as [<- <-]. cbn [fst snd]. rewrite Ee. split; auto. now rewrite orb_true_r.
  - rewrite find_none_iff in E. assert (Ee : existsb (weight_is g i) (d_weights (fst x)) = false) by now apply existsb_false_iff.
    rewrite Ee, orb_false_r. split; auto. unfold weight_delete.
    rewrite (filter_ext_in' _ (fun _ => true)).
    + rewrite filter_true. now destruct x as [[] ?].
    + intros w Hw. now rewrite E.
Qed.

Definition weight_in (g : Z) (J : list Z) (w : weight) : bool := (w_group w =? g)%Z && existsb (Z.eqb (w_index w)) J.

Lemma delete_weight_list g J : forall x,
  fst (fold_left (fun x i => delete_weight_of g i x) J x) =
    set_weights (filter (fun w => negb (weight_in g J w)) (d_weights (fst x))) (fst x) /\
  snd (fold_left (fun x i => delete_weight_of g i x) J x) = snd x || existsb (weight_in g J) (d_weights (fst x)).
Proof.
  induction J as [|i J IH]; intros x; cbn [fold_left].
  - split.
    + rewrite (filter_ext_in' _ (fun _ => true)).
      * rewrite filter_true. now destruct x as [[] ?].
      * intros w _. unfold weight_in. cbn [existsb]. now rewrite andb_false_r.
    + assert (existsb (weight_in g []) (d_weights (fst x)) = false) as ->.
      { apply existsb_false_iff. intros w _. unfold weight_in. cbn [existsb]. now rewrite andb_false_r. }
      now rewrite orb_false_r.
  - destruct (IH (delete_weight_of g i x)) as [A B]. destruct (delete_weight_of_eq g i x) as [C D].
    rewrite A, B, C, D. unfold weight_delete. cbn [set_weights d_weights]. split.
    + rewrite filter_filter. unfold set_weights. cbn. f_equal. apply filter_ext_in'. intros w _.
      unfold weight_in, weight_is. cbn [existsb].
      destruct (w_group w =? g)%Z, (w_index w =? i)%Z; cbn; auto.
    + rewrite <- orb_assoc. f_equal. apply bool_eq_iff. rewrite orb_true_iff, !existsb_exists. split.
      * intros [(w & Hw & E)|(w & Hw & E)].
        -- exists w. split; auto. unfold weight_in, weight_is in *. cbn [existsb]. lia.
        -- apply filter_In in Hw. exists w. split; [tauto|]. unfold weight_in in *. cbn [existsb].
           apply andb_true_iff in E. destruct E as [-> ->]. now rewrite orb_true_r.
      * intros (w & Hw & E). destruct (weight_is g i w) eqn:Q; [left; eauto|right].
        exists w. split; [apply filter_In; rewrite Q; auto|]. unfold weight_in, weight_is in *. cbn [existsb] in E.
        destruct (w_group w =? g)%Z, (w_index w =? i)%Z; cbn in *; auto; discriminate.
Qed.

Definition row_ids (rows : list del_row) (s : db) : list Z :=
  flat_map (fun r => match index_find (dr_id r) s with
                     | None => []
                     | Some rec => if labels_eqb (dr_labels r) (ix_labels rec) then [ix_id rec] else []
                     end) rows.
Lemma row_ids_chosen rows s i : index_wf s -> (In i (row_ids rows s) <-> chosen_by_rows rows s i).
Proof.
  intros W. unfold row_ids, chosen_by_rows. rewrite in_flat_map. split.
  - intros (r & Hr & Hi). exists r. split; auto. destruct (index_find (dr_id r) s) as [rec|] eqn:E; [|contradiction].
    destruct (labels_eqb (dr_labels r) (ix_labels rec)) eqn:El; [|contradiction]. destruct Hi as [<-|[]].
    apply index_find_spec in E. apply labels_eqb_iff in El. split; [symmetry; tauto|]. rewrite El. destruct rec. tauto.
  - intros (r & Hr & Er & Hin). exists r. split; auto. subst i. rewrite (index_find_in _ _ _ W Hin). cbn [ix_labels ix_id].
    rewrite (proj2 (labels_eqb_iff _ _) eq_refl). now left.
Qed.
Lemma delete_weights_fold g rows s0 : forall x, d_index (fst x) = d_index s0 ->
  fold_left (fun x r =>
        match index_find (dr_id r) (fst x) with
        | None => x
        | Some rec => if labels_eqb (dr_labels r) (ix_labels rec)
                      then delete_weight_of g (ix_id rec) x else x
        end) rows x = fold_left (fun x i => delete_weight_of g i x) (row_ids rows s0) x.
Proof.
  induction rows as [|r rows IH]; intros x E; cbn [fold_left row_ids flat_map]; auto.
  assert (Ef : index_find (dr_id r) (fst x) = index_find (dr_id r) s0) by (unfold index_find; now rewrite E).
  rewrite Ef, fold_left_app. fold (row_ids rows s0).
  destruct (index_find (dr_id r) s0) as [rec|]; [|cbn [fold_left]; now apply IH].
  destruct (labels_eqb (dr_labels r) (ix_labels rec)); cbn [fold_left]; [|now apply IH].
  apply IH. rewrite (proj1 (delete_weight_of_eq g (ix_id rec) x)). exact E.
Qed.

(** What deleting the weights [J] of group [g] means. *)
Lemma unweighted_list g J s : In g (d_groups s) -> weights_wf s ->
  let s' := after_delete_weights g (fold_left (fun x i => delete_weight_of (g_id g) i x) J (s, false)) in
  unweighted (g_id g) (fun i => In i J) s s' /\ steps s s'.
Proof.
  intros Hg W. cbv zeta. destruct (delete_weight_list (g_id g) J (s, false)) as [A B]. cbn [fst snd orb] in A, B.
  unfold after_delete_weights. rewrite A, B.
  assert (Ein : forall w, weight_in (g_id g) J w = true <-> w_group w = g_id g /\ In (w_index w) J).
  { intros w. unfold weight_in. rewrite andb_true_iff, existsb_exists. split.
    - intros [H (i & Hi & E)]. split; [lia|]. now replace (w_index w) with i by lia.
    - intros [H Hi]. split; [lia|]. exists (w_index w). split; auto. lia. }
  assert (Sub : steps s (set_weights (filter (fun w => negb (weight_in (g_id g) J w)) (d_weights s)) s)).
  { cut (steps s (fst (fold_left (fun x i => delete_weight_of (g_id g) i x) J (s, false)))).
    { rewrite A. auto. }
    apply (fold_left_inv (fun x => steps s (fst x))); [apply st_refl|]. intros x i _ Hx. now apply st_delete_weight_of. }
  split.
  2: { destruct (existsb (weight_in (g_id g) J) (d_weights s) && g_complete g); auto. eapply st_trans; [exact Sub|apply st_set_complete]. }
  assert (Dw : d_weights (if existsb (weight_in (g_id g) J) (d_weights s) && g_complete g
     then set_complete (g_id g) false (set_weights (filter (fun w => negb (weight_in (g_id g) J w)) (d_weights s)) s)
     else set_weights (filter (fun w => negb (weight_in (g_id g) J w)) (d_weights s)) s) =
     filter (fun w => negb (weight_in (g_id g) J w)) (d_weights s)) by now destruct (_ && _).
  split.
  - destruct (_ && _); auto.
  - intros w. rewrite Dw, filter_In, negb_true_iff. rewrite <- not_true_iff_false, Ein. reflexivity.
  - intros Hn. assert (existsb (weight_in (g_id g) J) (d_weights s) = false) as ->.
    { apply existsb_false_iff. intros w Hw. rewrite <- not_true_iff_false, Ein. now apply Hn. }
    cbn [andb]. rewrite (filter_ext_in' _ (fun _ => true)).
    + rewrite filter_true. now destruct s.
    + intros w Hw. apply negb_true_iff. rewrite <- not_true_iff_false, Ein. now apply Hn.
  - intros (w & Hw & E) g' Hg' Eg. assert (Ex : existsb (weight_in (g_id g) J) (d_weights s) = true).
    { apply existsb_exists. exists w. split; auto. now apply Ein. }
    rewrite Ex in Hg'. cbn [andb] in Hg'. destruct (g_complete g) eqn:Ec.
    + cbn [set_complete set_groups set_weights d_groups] in Hg'. apply in_map_iff in Hg'. destruct Hg' as (g0 & E0 & H0).
      destruct (g_id g0 =? g_id g)%Z eqn:Q; subst g'; [reflexivity|lia].
    + cbn [set_weights d_groups] in Hg'. assert (g' = g); [|congruence].
      apply (nodup_map_inj g_id (d_groups s)); auto. apply (ww_groups _ W).
  - destruct (_ && _); auto. cbn. rewrite map_map. apply map_ext. intros x. now destruct (g_id x =? g_id g)%Z.
  - intros g' Hn. destruct (_ && _); [|reflexivity]. cbn [set_complete set_groups set_weights d_groups]. rewrite in_map_iff. split.
    + intros (x & Ex & Hx). destruct (g_id x =? g_id g)%Z eqn:Q; subst g'; auto. cbn in Hn. lia.
    + intros Hx. exists g'. split; auto. destruct (g_id g' =? g_id g)%Z eqn:Q; auto. lia.
Qed.

Lemma unweighted_ext l D D' s s' : (forall i, D i <-> D' i) -> unweighted l D s s' -> unweighted l D' s s'.
Proof.
  intros E [H1 H2 H3 H4 H5 H6]. split; auto.
  - intros w. rewrite H2, E. reflexivity.
  - intros H. apply H3. intros w Hw. rewrite E. now apply H.
  - intros (w & Hw & Q). apply H4. exists w. rewrite E. auto.
Qed.

Lemma unweighted_fk l D s s' : unweighted l D s s' -> weight_index_refs s -> map_index_refs s -> fk_ok s' = true.
Proof.
  intros U Rw Rm. apply fk_ok_iff. destruct (un_same _ _ _ _ U) as (A & B & C). split.
  - intros w Hw. apply (un_weights _ _ _ _ U) in Hw. destruct (Rw w (proj1 Hw)) as (r & Hr & Er). exists r. now rewrite A.
  - intros m Hm. rewrite B in Hm. destruct (Rm m Hm) as (r & Hr & Er). exists r. now rewrite A.
Qed.

Lemma step_delete_weights (body : db -> res db) g D s : inv s -> refs_if_enforced s ->
  (exists s', body s = Ok s' /\ unweighted (g_id g) D s s' /\ steps s s') ->
  snd (transact body s) = None /\ unweighted (g_id g) D s (fst (transact body s)).
Proof.
  intros I R (s' & E & U & St). unfold transact. rewrite E.
  assert (Fk : d_fk s' && negb (fk_ok s') = false).
  { destruct (d_fk s') eqn:Ef; auto. rewrite (steps_fk _ _ St) in Ef. destruct (R Ef). now rewrite (unweighted_fk _ _ _ _ U). }
  rewrite Fk. cbn [fst snd]. auto.
Qed.

Lemma group_by_name_iff n s g : weights_wf s -> In g (d_groups s) -> g_name g = n -> group_by_name n s = Some g.
Proof.
  intros W Hg En. unfold group_by_name. destruct (find_found (fun g => text_eqb (g_name g) n) (d_groups s) g Hg) as (x & Hx).
  { now apply text_eqb_iff. }
  rewrite Hx. f_equal. apply find_some in Hx. destruct Hx as [Hx Ex]. apply text_eqb_iff in Ex.
  apply (nodup_map_inj g_name (d_groups s)); auto; [apply (ww_groups _ W)|congruence].
Qed.

Lemma delete_weights_rows_effect g rows s : inv s -> refs_if_enforced s -> In g (d_groups s) -> rows <> [] ->
  let out := step (ODeleteWeightsRows (g_name g) rows) s in
  snd out = None /\ unweighted (g_id g) (chosen_by_rows rows s) s (fst out).
Proof.
  intros I R Hg Hr. cbv zeta. cbn [step]. apply step_delete_weights; auto.
  unfold delete_weights_rows. rewrite (group_by_name_iff _ _ g (i_weights _ I) Hg eq_refl).
  destruct rows as [|r rows]; [congruence|]. cbn [nil_b]. eexists. split; [reflexivity|].
  rewrite (delete_weights_fold (g_id g) (r :: rows) s (s, false) eq_refl).
  destruct (unweighted_list g (row_ids (r :: rows) s) s Hg (i_weights _ I)) as [U St]. split; auto.
  apply (unweighted_ext _ (fun i => In i (row_ids (r :: rows) s))); auto. intros i. apply row_ids_chosen, (i_index _ I).
Qed.
Lemma delete_weights_criteria_effect g c s : inv s -> refs_if_enforced s -> In g (d_groups s) -> c <> [] ->
  known_columns c s ->
  let out := step (ODeleteWeightsCriteria (g_name g) c) s in
  snd out = None /\ unweighted (g_id g) (chosen_by_criteria c s) s (fst out).
Proof.
  intros I R Hg Hc Kn. cbv zeta. cbn [step]. apply step_delete_weights; auto.
  unfold delete_weights_criteria. rewrite (group_by_name_iff _ _ g (i_weights _ I) Hg eq_refl).
  destruct c as [|r c]; [congruence|]. cbn [nil_b]. eexists. split; [reflexivity|].
  assert (Ef : forall l x, fold_left (fun x r => delete_weight_of (g_id g) (ix_id r) x) l x =
    fold_left (fun x i => delete_weight_of (g_id g) i x) (map ix_id l) x).
  { induction l as [|a l IH]; intros x; cbn; auto. }
  rewrite Ef.
  destruct (unweighted_list g (map ix_id (filter_by_label (r :: c) s)) s Hg (i_weights _ I)) as [U St]. split; auto.
  apply (unweighted_ext _ (fun i => In i (map ix_id (filter_by_label (r :: c) s)))); auto.
  intros i. apply chosen_criteria_iff; auto. apply (i_index _ I).
Qed.

(** *** Refreshing (C17) *)

Lemma refresh_spec l o s : inv s -> o <> 0%Z ->
  exists s', refresh_proportions l o s = Ok s' /\ s' = set_maps (d_maps s') s /\
    (forall l' o' i lv v, valued s' l' o' i lv v <-> valued s l' o' i lv v) /\
    (forall m, ~ (m_link m = l /\ m_other m = o) -> (In m (d_maps s') <-> In m (d_maps s))) /\
    follows_values l o s' /\
    (forall m, In m (from l o s') -> exists p, m_prop m = Some p /\ (0 <= p <= 1)%Q) /\
    (from l o s' <> [] -> (Qsum (map share (from l o s')) == 1)%Q).
Proof.
  intros I Ho. destruct (refresh_total l o s (i_maps _ I)) as (s' & H). exists s'. split; auto.
  destruct (refresh_reprop _ _ _ _ H) as [A B]. split; auto. split; [|split; [|split; [|split]]].
  - intros l' o' i lv v. rewrite (valued_of_noprop s s' (fun _ => true)).
    + unfold valued. split; intros (m & Q); exists m; tauto.
    + now rewrite filter_true.
  - intros m Hn. rewrite (refresh_eq _ _ _ _ H). cbn [set_maps d_maps]. rewrite in_map_iff. split.
    + intros (x & Ex & Hx). destruct (map_at l o x) eqn:Q; subst m; auto. exfalso. apply Hn.
      destruct (refreshed_prop o (from l o s) x) as (p & ->). apply map_at_iff in Q. exact Q.
    + intros Hm. exists m. split; auto. destruct (map_at l o m) eqn:Q; auto. apply map_at_iff in Q. contradiction.
  - apply follows_of_distributed; [eapply distributed_refresh; eauto|]. destruct (from l o s'); auto. right. discriminate.
  - intros m Hm. pose proof (distributed_refresh _ _ _ _ Ho H m Hm) as D. eexists. split; [exact D|].
    assert (Mw : maps_wf s') by (eapply maps_wf_prim; [eapply p_refresh; exact H|apply (i_maps _ I)]).
    apply from_in in Hm. eapply (mw_prop _ Mw); [apply Hm|exact D].
  - intros Hne. rewrite (from_refresh _ _ _ _ H) in *. apply refreshed_sum; auto. destruct (from l o s); [cbn in Hne; congruence|discriminate].
Qed.
