(** Effects of single operations. *)
From Verif Require Import Prelude QLemmas BitFlags_Model BitFlags_Proofs Selectors_Model
  Selectors_Proofs LinkRef_Model LinkRef_Spec LinkRef_Proofs Db_Model Db_Spec Db_Proofs
  Db_ProofsLocal Db_ProofsMerge Db_ProofsRefresh Db_ProofsInv Db_ProofsInv2 Db_ProofsInv3
  Db_ProofsDelete Db_ProofsRun.
From Coq Require Import ZifyBool ZifyNat Lqa.

(** *** Merging (C32) *)

Lemma merge_one_among i t j : among i t j = true -> merge_one i t j = t.
Proof. unfold among, merge_one. destruct (j =? i)%Z eqn:E; lia. Qed.
Lemma merge_one_out i t j : among i t j = false -> merge_one i t j = j.
Proof. unfold among, merge_one. destruct (j =? i)%Z eqn:E; lia. Qed.

Lemma wsum_merge P i t s s' : weight_merge i t s = Ok s' ->
  (wsum P s' == wsum (fun g j => P g (merge_one i t j)) s)%Q.
Proof.
  intros H. apply weight_merge_eq in H. subst s'. unfold wsum. cbn [set_weights d_weights].
  rewrite filter_app, map_app, Qsum_app, filter_map_swap, map_map. cbn [w_group w_value w_index].
  unfold merged_weights.
  rewrite (tallied_total Z.eqb 0%Q w_group (fun w q => (q + w_value w)%Q) Z.eqb_eq (fun g => P g t) (fun q => q) w_value).
  2: reflexivity. 2: intros; reflexivity.
  rewrite (Qsum_split (fun w => among i t (w_index w)) w_value (filter (fun w => P (w_group w) (merge_one i t (w_index w))) (d_weights s))).
  rewrite Qplus_comm. apply Qplus_comp.
  - apply Qsum_perm, Permutation.Permutation_map. unfold old_weights, weights_of_index.
    etransitivity; [apply perm_filter_cong, old_perm|]. rewrite !filter_filter.
    rewrite (filter_ext_in' _ (fun x => P (w_group x) (merge_one i t (w_index x)) && among i t (w_index x))); auto.
    intros x _. destruct (among i t (w_index x)) eqn:E; cbn [andb]; [|now rewrite andb_false_r].
    rewrite (merge_one_among _ _ _ E), andb_true_r. reflexivity.
  - rewrite !filter_filter.
    rewrite (filter_ext_in' _ (fun x => P (w_group x) (merge_one i t (w_index x)) && negb (among i t (w_index x)))); [reflexivity|].
    intros x _. destruct (among i t (w_index x)) eqn:E; cbn [andb negb]; [now rewrite andb_false_r|].
    rewrite (merge_one_out _ _ _ E), andb_true_r. reflexivity.
Qed.

Lemma msum_merge P i t s s' : map_merge i t s = Ok s' ->
  (msum m_value P s' == msum m_value (fun l o j lv => P l o (merge_one i t j) lv) s)%Q.
Proof.
  intros H. apply map_merge_eq in H. subst s'. unfold msum. cbn [set_maps d_maps].
  rewrite filter_app, map_app, Qsum_app, filter_map_swap, map_map.
  cbn [of_merged m_link m_other m_index m_level m_value].
  unfold merged_maps.
  rewrite (tallied_total mkey_eqb (0%Q, Some 0%Q) tkey tadd mkey_eqb_iff (fun k => P (fst (fst k)) (snd (fst k)) t (snd k)) fst m_value).
  2: reflexivity. 2: intros; reflexivity.
  rewrite (Qsum_split (fun w => among i t (m_index w)) m_value (filter (fun m => P (m_link m) (m_other m) (merge_one i t (m_index m)) (m_level m)) (d_maps s))).
  rewrite Qplus_comm. apply Qplus_comp.
  - apply Qsum_perm, Permutation.Permutation_map. unfold old_maps, maps_of_index.
    etransitivity; [apply perm_filter_cong, old_perm|]. rewrite !filter_filter.
    rewrite (filter_ext_in' _ (fun m => P (m_link m) (m_other m) (merge_one i t (m_index m)) (m_level m) && among i t (m_index m))); auto.
    intros x _. destruct (among i t (m_index x)) eqn:E; cbn [andb]; [|now rewrite andb_false_r].
    rewrite (merge_one_among _ _ _ E), andb_true_r. reflexivity.
  - rewrite !filter_filter.
    rewrite (filter_ext_in' _ (fun m => P (m_link m) (m_other m) (merge_one i t (m_index m)) (m_level m) && negb (among i t (m_index m)))); [reflexivity|].
    intros x _. destruct (among i t (m_index x)) eqn:E; cbn [andb negb]; [now rewrite andb_false_r|].
    rewrite (merge_one_out _ _ _ E), andb_true_r. reflexivity.
Qed.

Lemma shares_merge P i t s s' : map_merge i t s = Ok s' -> (forall m, In m (d_maps s) -> m_prop m <> None) ->
  (msum share P s' == msum share (fun l o j lv => P l o (merge_one i t j) lv) s)%Q.
Proof.
  intros H Hp. apply map_merge_eq in H. subst s'. unfold msum. cbn [set_maps d_maps].
  rewrite filter_app, map_app, Qsum_app, filter_map_swap, map_map.
  cbn [of_merged m_link m_other m_index m_level]. 
  change (fun x => share (of_merged t x)) with (fun kv : (Z * Z * list N) * (Q * option Q) => oshare (snd (snd kv))).
  unfold merged_maps.
  rewrite (tallied_total_prop (fun k => P (fst (fst k)) (snd (fst k)) t (snd k))).
  2: { intros m Hm _. apply Hp. apply old_maps_in in Hm. tauto. }
  rewrite (Qsum_split (fun w => among i t (m_index w)) share (filter (fun m => P (m_link m) (m_other m) (merge_one i t (m_index m)) (m_level m)) (d_maps s))).
  rewrite Qplus_comm. apply Qplus_comp.
  - apply Qsum_perm, Permutation.Permutation_map. unfold old_maps, maps_of_index.
    etransitivity; [apply perm_filter_cong, old_perm|]. rewrite !filter_filter.
    rewrite (filter_ext_in' _ (fun m => P (m_link m) (m_other m) (merge_one i t (m_index m)) (m_level m) && among i t (m_index m))); auto.
    intros x _. destruct (among i t (m_index x)) eqn:E; cbn [andb]; [|now rewrite andb_false_r].
    rewrite (merge_one_among _ _ _ E), andb_true_r. reflexivity.
  - rewrite !filter_filter.
    rewrite (filter_ext_in' _ (fun m => P (m_link m) (m_other m) (merge_one i t (m_index m)) (m_level m) && negb (among i t (m_index m)))); [reflexivity|].
    intros x _. destruct (among i t (m_index x)) eqn:E; cbn [andb negb]; [now rewrite andb_false_r|].
    rewrite (merge_one_out _ _ _ E), andb_true_r. reflexivity.
Qed.

Lemma merge_prop_some i t s s' : map_merge i t s = Ok s' -> (forall m, In m (d_maps s) -> m_prop m <> None) ->
  forall m, In m (d_maps s') -> m_prop m <> None.
Proof.
  intros H Hp m Hm. apply map_merge_eq in H. subst s'. cbn [set_maps d_maps] in Hm. apply in_app_iff in Hm.
  destruct Hm as [Hm|Hm].
  - apply filter_In in Hm. apply Hp. tauto.
  - apply in_map_iff in Hm. destruct Hm as ((k & v) & <- & Hkv). cbn [of_merged m_prop snd].
    eapply merged_maps_some; [exact Hkv|]. intros m Hm _. now apply Hp.
Qed.

Lemma weight_there_merge i t s s' g j : weight_merge i t s = Ok s' ->
  (weight_there s' g j <-> exists j0, weight_there s g j0 /\ merge_one i t j0 = j).
Proof.
  intros H. apply weight_merge_eq in H. subst s'. unfold weight_there. cbn [set_weights d_weights].
  destruct (merged_weights_spec i t s) as (_ & I & _). split.
  - intros (w & Hw & <- & <-). apply in_app_iff in Hw. destruct Hw as [Hw|Hw].
    + apply filter_In in Hw. destruct Hw as [Hw Ha]. exists (w_index w). split; [eauto|].
      apply merge_one_out. now apply negb_true_iff in Ha.
    + apply in_map_iff in Hw. destruct Hw as (gv & <- & Hgv). cbn [w_group w_index].
      destruct (proj1 (I (fst gv))) as (w & Hw & Ha & Eg); [now apply in_map|].
      exists (w_index w). split; [eauto|]. now apply merge_one_among.
  - intros (j0 & (w & Hw & <- & <-) & <-). destruct (among i t (w_index w)) eqn:Ea.
    + assert (Hin : In (w_group w) (map fst (merged_weights i t s))) by (apply I; eauto).
      apply in_map_iff in Hin. destruct Hin as (gv & Eg & Hin).
      eexists. split; [apply in_app_iff; right; apply in_map_iff; exists gv; split; [reflexivity|exact Hin]|].
      cbn. rewrite (merge_one_among _ _ _ Ea). auto.
    + exists w. split; [apply in_app_iff; left; apply filter_In; rewrite Ea; auto|].
      split; auto. now rewrite (merge_one_out _ _ _ Ea).
Qed.
Lemma map_there_merge i t s s' l o j lv : map_merge i t s = Ok s' ->
  (map_there s' l o j lv <-> exists j0, map_there s l o j0 lv /\ merge_one i t j0 = j).
Proof.
  intros H. apply map_merge_eq in H. subst s'. unfold map_there. cbn [set_maps d_maps].
  destruct (merged_maps_spec i t s) as (_ & I & _). split.
  - intros (m & Hm & <- & <- & <- & <-). apply in_app_iff in Hm. destruct Hm as [Hm|Hm].
    + apply filter_In in Hm. destruct Hm as [Hm Ha]. exists (m_index m). split; [eauto 10|].
      apply merge_one_out. now apply negb_true_iff in Ha.
    + apply in_map_iff in Hm. destruct Hm as (kv & <- & Hkv). cbn [of_merged m_link m_other m_index m_level].
      destruct (proj1 (I (fst kv))) as (m & Hm & Ha & Ek); [now apply in_map|].
      exists (m_index m). split; [|now apply merge_one_among]. exists m. rewrite <- Ek. cbn. auto.
  - intros (j0 & (m & Hm & <- & <- & <- & <-) & <-). destruct (among i t (m_index m)) eqn:Ea.
    + assert (Hin : In (tkey m) (map fst (merged_maps i t s))) by (apply I; eauto).
      apply in_map_iff in Hin. destruct Hin as (kv & Eg & Hin).
      exists (of_merged t kv). split; [apply in_app_iff; right; now apply in_map|].
      cbn. rewrite Eg, (merge_one_among _ _ _ Ea). cbn. auto.
    + exists m. split; [apply in_app_iff; left; apply filter_In; rewrite Ea; auto|].
      rewrite (merge_one_out _ _ _ Ea). auto.
Qed.

Lemma moved_id s s' : d_weights s' = d_weights s -> d_maps s' = d_maps s -> moved_by (fun j => j) s s'.
Proof.
  intros Ew Em. split; unfold weight_there, map_there, wsum, msum; rewrite ?Ew, ?Em; intros; try reflexivity.
  - split; [intros H; exists i; auto|intros (j & H & <-); exact H].
  - split; [intros H; exists i; auto|intros (j & H & <-); exact H].
  - split; auto. intros; reflexivity.
Qed.
Lemma moved_trans f g a b c : moved_by f a b -> moved_by g b c -> moved_by (fun j => g (f j)) a c.
Proof.
  intros [A1 A2 A3 A4 A5] [B1 B2 B3 B4 B5]. split.
  - intros x i. rewrite B1. split.
    + intros (j & H & <-). apply A1 in H. destruct H as (j0 & H & <-). eauto.
    + intros (j & H & <-). exists (f j). split; auto. apply A1. eauto.
  - intros P. rewrite B2. apply (A2 (fun x j => P x (g j))).
  - intros l o i lv. rewrite B3. split.
    + intros (j & H & <-). apply A3 in H. destruct H as (j0 & H & <-). eauto.
    + intros (j & H & <-). exists (f j). split; auto. apply A3. eauto.
  - intros P. rewrite B4. apply (A4 (fun l o j lv => P l o (g j) lv)).
  - intros H. destruct (A5 H) as [H1 H2]. destruct (B5 H1) as [H3 H4]. split; auto.
    intros P. rewrite H4. apply (H2 (fun l o j lv => P l o (g j) lv)).
Qed.

Lemma moved_merge i t s s1 s2 : weight_merge i t s = Ok s1 -> map_merge i t s1 = Ok s2 ->
  moved_by (merge_one i t) s s2.
Proof.
  intros H1 H2.
  assert (Em : d_maps s1 = d_maps s) by (rewrite (weight_merge_eq _ _ _ _ H1); reflexivity).
  assert (Ew : d_weights s2 = d_weights s1) by (rewrite (map_merge_eq _ _ _ _ H2); reflexivity).
  split.
  - intros g j. unfold weight_there at 1. rewrite Ew. fold (weight_there s1 g j). eapply weight_there_merge; eauto.
  - intros P. unfold wsum at 1. rewrite Ew. fold (wsum P s1). eapply wsum_merge; eauto.
  - intros l o j lv. rewrite (map_there_merge _ _ _ _ l o j lv H2). unfold map_there. rewrite Em. reflexivity.
  - intros P. rewrite (msum_merge P _ _ _ _ H2). unfold msum. rewrite Em. reflexivity.
  - intros Hp. rewrite <- Em in Hp. split; [eapply merge_prop_some; eauto|].
    intros P. rewrite (shares_merge P _ _ _ _ H2 Hp). unfold msum. rewrite Em. reflexivity.
Qed.

Lemma index_delete_data i s s' : index_delete i s = Ok s' ->
  d_weights s' = d_weights s /\ d_maps s' = d_maps s /\ (forall j, has_index s' j <-> has_index s j /\ j <> i).
Proof.
  intros H. unfold index_delete in H. repeat step_res H; subst s'.
  - split; [|split]; auto. intros j. unfold has_index. cbn [set_index set_labels_index d_index]. split.
    + intros (r & Hr & <-). apply filter_In in Hr. split; [exists r; tauto|lia].
    + intros ((r & Hr & <-) & Hn). exists r. split; auto. apply filter_In. split; auto. lia.
  - split; [|split]; auto. intros j. split; [|tauto]. intros Hj. split; auto. intros ->.
    destruct Hj as (r & Hr & Er). unfold index_find in E. apply find_none with (x := r) in E; auto. cbv beta in E. lia.
Qed.
Lemma index_update_data i labels s s' : index_update i labels s = Ok s' ->
  d_weights s' = d_weights s /\ d_maps s' = d_maps s /\ (forall j, has_index s' j <-> has_index s j).
Proof.
  intros H. destruct (index_update_ids _ _ _ _ H) as [E1 E2]. split; [|split].
  - rewrite E2. reflexivity.
  - rewrite E2. reflexivity.
  - intros j. now apply has_index_same_list.
Qed.

(** Any call: nothing is lost or made up. *)
Lemma update_loop_moved mg rows s st :
  fold_res (update_index_row mg) rows {| us_db := s; us_merged := []; us_updated := false |} = Ok st ->
  exists f, moved_by f s (us_db st) /\ forall j, has_index (us_db st) j -> has_index s j /\ f j = j.
Proof.
  apply (fold_res_inv (fun st => exists f, moved_by f s (us_db st) /\
    forall j, has_index (us_db st) j -> has_index s j /\ f j = j)).
  { exists (fun j => j). split; [now apply moved_id|]. auto. }
  clear st. intros st r st' _ (f & Hf & Hj) H. unfold update_index_row in H.
  step_res H; [injection H as <-; eauto|]. step_res H.
  2: { step_res H; [discriminate|]. injection H as <-. eauto. }
  step_res H. step_res H. injection H as <-. cbn [us_db].
  apply index_update_data in E2. destruct E2 as (Q1 & Q2 & Q3).
  assert (K : exists f, moved_by f s (us_db a) /\ forall j, has_index (us_db a) j -> has_index s j /\ f j = j).
  { step_res E1; [|injection E1 as <-; eauto]. step_res E1; [discriminate|].
    step_res E1. step_res E1. step_res E1. injection E1 as <-. cbn [us_db].
    match goal with H : index_delete _ _ = Ok _ |- _ => apply index_delete_data in H; destruct H as (D1 & D2 & D3) end.
    match goal with H1 : weight_merge ?i ?t _ = Ok _, H2 : map_merge ?i ?t _ = Ok _ |- _ =>
      pose proof (moved_merge _ _ _ _ _ H1 H2) as Mv; pose proof (weight_merge_eq _ _ _ _ H1) as W1;
      pose proof (map_merge_eq _ _ _ _ H2) as W2 end.
    eexists. split.
    - eapply moved_trans; [exact Hf|]. eapply moved_trans; [exact Mv|]. apply moved_id; eauto.
    - intros j Hx. apply D3 in Hx. destruct Hx as [Hx Hn].
      assert (Hx' : has_index (us_db st) j) by (rewrite W2, W1 in Hx; exact Hx).
      destruct (Hj j Hx') as [A B]. split; auto. rewrite B. unfold merge_one.
      destruct (j =? ix_id i0)%Z eqn:Q; auto. lia. }
  destruct K as (f' & K1 & K2). exists f'. split.
  - apply (moved_trans f' (fun j => j) _ _ _ K1). now apply moved_id.
  - intros j Hx. apply K2. now apply Q3.
Qed.

Lemma update_index_moved mg rows s s' : update_index mg rows s = Ok s' ->
  exists f, moved_by f s s' /\ forall j, has_index s' j -> has_index s j /\ f j = j.
Proof.
  intros H. unfold update_index in H. step_res H. apply Ok_inj in H.
  destruct (update_loop_moved _ _ _ _ E) as (f & A & B).
  destruct (us_merged a); subst s'; [eauto|].
  exists f. split; auto. apply (moved_trans f (fun j => j) _ _ _ A). now apply moved_id.
Qed.

(** One row that makes record [i] and record [t] equal. *)
Lemma update_one_merge s s' t i labels : inv s -> has_index s t ->
  In {| ix_id := i; ix_labels := labels |} (d_index s) -> i <> t ->
  update_index true [{| ur_id := t; ur_labels := labels; ur_blank := false |}] s = Ok s' ->
  i <> 0%Z /\ t <> 0%Z /\
  (forall r, In r (d_index s') <->
     r = {| ix_id := t; ix_labels := labels |} \/ In r (d_index s) /\ ix_id r <> t /\ ix_id r <> i) /\
  moved_by (merge_one i t) s s' /\
  (forall w, w_index w <> t -> w_index w <> i -> (In w (d_weights s') <-> In w (d_weights s))) /\
  (forall m, m_index m <> t -> m_index m <> i -> (In m (d_maps s') <-> In m (d_maps s))) /\
  map g_id (d_groups s') = map g_id (d_groups s) /\ map k_id (d_links s') = map k_id (d_links s).
Proof.
  intros I Ht Hi Hn H. pose proof (i_index _ I) as W.
  assert (Hl : existsb is_empty labels = false).
  { apply existsb_false_iff. intros x Hx. pose proof (iw_filled _ W _ x Hi Hx). destruct x; [congruence|reflexivity]. }
  assert (Ft : exists rec, index_find t s = Some rec /\ ix_id rec = t).
  { destruct Ht as (r & Hr & Er). unfold index_find.
    destruct (find_found (fun r => (ix_id r =? t)%Z) (d_index s) r Hr) as (x & Hx); [lia|].
    exists x. split; auto. apply find_some in Hx. lia. }
  destruct Ft as (rec & Ft & Et).
  assert (Fl : index_by_labels labels s = Some {| ix_id := i; ix_labels := labels |}).
  { unfold index_by_labels. destruct (find_found (fun r => labels_eqb (ix_labels r) labels) (d_index s) _ Hi) as (x & Hx).
    { now apply labels_eqb_iff. }
    rewrite Hx. f_equal. apply find_some in Hx. destruct Hx as [Hx Ex]. apply labels_eqb_iff in Ex.
    apply (iw_labels _ W); auto. }
  unfold update_index in H. cbn [fold_res] in H. apply bind_ok in H. destruct H as (st & R & H). apply Ok_inj in H.
  apply bind_ok in R. destruct R as (st' & R & R'). apply Ok_inj in R'. subst st'.
  unfold update_index_row in R. cbn [ur_blank ur_labels ur_id us_db us_merged us_updated orb] in R.
  rewrite Hl, Ft, Fl in R. cbn [negb ix_id] in R. rewrite Et in R.
  apply bind_ok in R. destruct R as (st1 & R1 & R).
  apply bind_ok in R1. destruct R1 as (s1 & M1 & R1).
  apply bind_ok in R1. destruct R1 as (s2 & M2 & R1).
  apply bind_ok in R1. destruct R1 as (s3 & M3 & R1). apply Ok_inj in R1. subst st1. cbn [us_db us_merged] in R.
  apply bind_ok in R. destruct R as (s4 & M4 & R). apply Ok_inj in R. subst st. cbn [us_db us_merged] in H.
  pose proof (moved_merge _ _ _ _ _ M1 M2) as Mv.
  pose proof (weight_merge_eq _ _ _ _ M1) as W1. pose proof (map_merge_eq _ _ _ _ M2) as W2.
  destruct (index_delete_data _ _ _ M3) as (D1 & D2 & D3). destruct (index_update_data _ _ _ _ M4) as (U1 & U2 & U3).
  assert (X2 : d_index s2 = d_index s) by (rewrite W2, W1; reflexivity).
  assert (Y2 : d_groups s2 = d_groups s /\ d_links s2 = d_links s) by (rewrite W2, W1; auto).
  assert (X3 : i <> 0%Z /\ s3 = set_index (filter (fun r => negb (ix_id r =? i)%Z) (d_index s)) s2).
  { unfold index_delete in M3. destruct (index_find i s2) eqn:Fi.
    - destruct (i =? 0)%Z eqn:E0; [discriminate|]. apply Ok_inj in M3. rewrite X2 in M3. split; [lia|congruence].
    - exfalso. unfold index_find in Fi. rewrite X2 in Fi. pose proof (find_none _ _ Fi _ Hi) as Q. cbn in Q. lia. }
  destruct X3 as [I0 X3].
  assert (F3 : exists x, index_find t s3 = Some x).
  { destruct Ht as (r & Hr & Er). unfold index_find. rewrite X3. cbn [set_index set_labels_index d_index].
    destruct (find_found (fun r => (ix_id r =? t)%Z) (filter (fun r => negb (ix_id r =? i)%Z) (d_index s)) r) as (x & Hx); eauto; [|lia].
    apply filter_In. split; auto. lia. }
  destruct F3 as (x & F3). unfold index_update in M4. rewrite F3 in M4.
  destruct (negb (length labels =? length (d_labels s3))); [discriminate|].
  destruct (t =? 0)%Z eqn:T0; [discriminate|]. rewrite Hl in M4.
  match type of M4 with (if ?b then _ else _) = _ => destruct b; [discriminate|] end.
  apply Ok_inj in M4.
  assert (X4 : d_index s' = map (fun r => if (ix_id r =? t)%Z then {| ix_id := t; ix_labels := labels |} else r) (filter (fun r => negb (ix_id r =? i)%Z) (d_index s)))
    by (rewrite <- H, <- M4, X3; reflexivity).
  assert (X5 : d_weights s' = d_weights s2 /\ d_maps s' = d_maps s2) by (rewrite <- H, <- M4, X3; auto).
  destruct X5 as [X5 X6].
  split; [exact I0|]. split; [lia|]. split; [|split; [|split; [|split; [|split]]]].
  - intros r. rewrite X4, in_map_iff. split.
    + intros (y & Ey & Hy). apply filter_In in Hy. destruct Hy as [Hy Ny]. destruct (ix_id y =? t)%Z eqn:E; [left; congruence|].
      subst r. right. split; auto. lia.
    + intros [-> | (Hr & N1 & N2)].
      * destruct Ht as (r & Hr & Er). exists r. rewrite Er, Z.eqb_refl. split; auto. apply filter_In. split; auto. lia.
      * exists r. replace (ix_id r =? t)%Z with false by lia. split; auto. apply filter_In. split; auto. lia.
  - apply (moved_trans _ (fun j => j) _ _ _ Mv). now apply moved_id.
  - intros w N1 N2. rewrite X5, W2. cbn [set_maps d_weights]. rewrite W1. cbn [set_weights d_weights].
    rewrite in_app_iff, filter_In. assert (A : among i t (w_index w) = false) by (unfold among; lia). rewrite A. cbn [negb].
    split; [|tauto]. intros [Q|Q]; [tauto|]. apply in_map_iff in Q. destruct Q as (gv & Q & _). subst w. cbn in N1. congruence.
  - intros m N1 N2. rewrite X6, W2. cbn [set_maps d_maps]. 
    assert (Em : d_maps s1 = d_maps s) by (rewrite W1; reflexivity). 
    rewrite in_app_iff, filter_In. assert (A : among i t (m_index m) = false) by (unfold among; lia). rewrite A, Em. cbn [negb].
    split; [|tauto]. intros [Q|Q]; [tauto|]. apply in_map_iff in Q. destruct Q as (gv & Q & _). subst m. cbn in N1. congruence.
  - rewrite <- H, <- M4, X3. cbn [raise_link_flags raise_group_flags set_groups set_links d_groups refresh_hash set_hash set_index set_labels_index].
    rewrite map_map. cbn [g_id]. now rewrite (proj1 Y2).
  - rewrite <- H, <- M4, X3. cbn [raise_link_flags raise_group_flags set_groups set_links d_links refresh_hash set_hash set_index set_labels_index].
    rewrite map_map. cbn [with_status k_id]. now rewrite (proj2 Y2).
Qed.

(** *** All reachable states *)

Lemma run_state ops : let s := run ops fresh in inv s /\ (d_fk s = true -> inv_fk s).
Proof.
  cbv zeta. induction ops as [|o ops IH] using rev_ind.
  - split; [apply inv_fresh|intros; apply inv_fk_fresh].
  - rewrite run_app. cbn [run]. destruct IH as [I F]. split; [now apply step_inv|].
    intros Hf. destruct (is_reopen_dec o) as [R|R].
    + destruct o; cbn in R; try contradiction. cbn in Hf. discriminate.
    + apply step_fk; auto. apply F. revert Hf.
      pose proof (step_steps o (run ops fresh) R) as St.
      assert (Eq : d_fk (fst (step o (run ops fresh))) = d_fk (run ops fresh)).
      { apply (steps_inv (fun t => d_fk t = d_fk (run ops fresh))) with (s := run ops fresh); [|exact St|reflexivity].
        intros a b P E. rewrite (fk_prim a b P). exact E. }
      congruence.
Qed.

(** *** Criteria *)

Lemma label_of_spec k cols : forall labels v, NoDup cols -> length labels = length cols ->
  (label_of k cols labels = Some v <-> exists n, nth_error cols n = Some k /\ nth_error labels n = Some v).
Proof.
  induction cols as [|c cols IH]; intros [|x labels] v N L; cbn in L; try discriminate.
  - cbn [label_of]. split; [discriminate|]. intros (n & Hn & _). destruct n; discriminate.
  - inversion N; subst. cbn [label_of]. destruct (text_eqb c k) eqn:E.
    + apply text_eqb_iff in E. subst c. split.
      * intros [= ->]. exists 0. auto.
      * intros ([|n] & Hn & Hv); cbn in Hn, Hv; [congruence|]. apply nth_error_In in Hn. contradiction.
    + rewrite IH; auto. split; intros (n & Hn & Hv).
      * exists (S n). auto.
      * destruct n; cbn in Hn, Hv; [|eauto]. injection Hn as ->. apply text_eqb_neq in E. congruence.
Qed.
Lemma label_of_some k cols : forall labels, length labels = length cols -> In k cols ->
  exists v, label_of k cols labels = Some v.
Proof.
  induction cols as [|c cols IH]; intros [|x labels] L Hk; cbn in L; try discriminate; [contradiction|].
  cbn [label_of]. destruct (text_eqb c k) eqn:E; eauto. destruct Hk as [->|Hk]; [|apply IH; auto].
  apply text_eqb_neq in E. congruence.
Qed.
Lemma filter_by_label_iff c s r : index_wf s -> known_columns c s ->
  (In r (filter_by_label c s) <-> In r (d_index s) /\ forall k v, In (k, v) c -> label_is s r k v).
Proof.
  intros W Kn. unfold filter_by_label. rewrite filter_In, forallb_forall. split; intros [Hr H]; split; auto.
  - intros k v Hkv. specialize (H _ Hkv). unfold criterion_holds in H. cbn [fst snd] in H.
    destruct (label_of_some k (d_labels s) (ix_labels r) (iw_arity _ W _ Hr) (Kn _ _ Hkv)) as (x & Ex).
    rewrite Ex in H. apply text_eqb_iff in H. subst x. unfold label_is.
    apply (label_of_spec k (d_labels s) (ix_labels r) v (iw_columns _ W) (iw_arity _ W _ Hr)). exact Ex.
  - intros [k v] Hkv. specialize (H _ _ Hkv). unfold criterion_holds. cbn [fst snd].
    apply (label_of_spec k (d_labels s) (ix_labels r) v (iw_columns _ W) (iw_arity _ W _ Hr)) in H.
    rewrite H. now apply text_eqb_iff.
Qed.
Lemma chosen_criteria_iff c s i : index_wf s -> known_columns c s ->
  (In i (map ix_id (filter_by_label c s)) <-> chosen_by_criteria c s i).
Proof.
  intros W Kn. rewrite in_map_iff. unfold chosen_by_criteria. split.
  - intros (r & Er & Hr). apply filter_by_label_iff in Hr; auto. exists r. tauto.
  - intros (r & Hr & Er & H). exists r. split; auto. apply filter_by_label_iff; auto.
Qed.

(** *** Deleting index records (C33) *)

Lemma index_find_none i s : index_find i s = None <-> ~ has_index s i.
Proof.
  unfold index_find. rewrite find_none_iff. split.
  - intros H (r & Hr & Er). specialize (H _ Hr). lia.
  - intros H x Hx. destruct (ix_id x =? i)%Z eqn:E; auto. exfalso. apply H. exists x. split; auto. lia.
Qed.
Lemma index_find_in i labels s : index_wf s -> In {| ix_id := i; ix_labels := labels |} (d_index s) ->
  index_find i s = Some {| ix_id := i; ix_labels := labels |}.
Proof.
  intros W H. destruct (index_find i s) as [r|] eqn:E.
  - apply index_find_spec in E. destruct E as [Hr Er]. f_equal. apply (nodup_map_inj ix_id (d_index s)); auto. apply (iw_unique _ W).
  - apply index_find_none in E. exfalso. apply E. eexists; split; [exact H|reflexivity].
Qed.

Lemma dels_chosen rows : forall s x x' D, index_wf s -> dels D s (fst x) -> nil_b D = negb (snd x) ->
  fold_res (fun x r =>
              match index_find (dr_id r) (fst x) with
              | None => Ok x
              | Some rec =>
                  if labels_eqb (ix_labels rec) (dr_labels r)
                  then do s' <- delete_index_record (ix_id rec) (fst x); Ok (s', true)
                  else Ok x
              end) rows x = Ok x' ->
  exists D', dels D' s (fst x') /\ nil_b D' = negb (snd x') /\
    (forall i, In i D' <-> In i D \/ chosen_by_rows rows s i).
Proof.
  induction rows as [|r rows IH]; intros s x x' D W Hd Hn H; cbn [fold_res] in H.
  - apply Ok_inj in H. subst x'. exists D. split; auto. split; auto. intros i. split; auto.
    intros [Hi|(r & [] & _)]; auto.
  - apply bind_ok in H. destruct H as (x1 & H1 & H2).
    pose proof (ds_index _ _ _ (dels_spec _ _ _ Hd)) as Ei.
    assert (Hx : exists D1, dels D1 s (fst x1) /\ nil_b D1 = negb (snd x1) /\
              forall i, In i D1 <-> In i D \/ chosen_by_rows [r] s i).
    { destruct (index_find (dr_id r) (fst x)) as [rec|] eqn:Ef.
      - apply index_find_spec in Ef. destruct Ef as [Hr Er].
        assert (Hr0 : In rec (d_index s) /\ ~ In (ix_id rec) D).
        { rewrite Ei in Hr. apply filter_In in Hr. destruct Hr as [A B]. split; auto. now apply outside_iff. }
        destruct (labels_eqb (ix_labels rec) (dr_labels r)) eqn:El.
        + apply labels_eqb_iff in El. apply bind_ok in H1. destruct H1 as (s1 & H1 & H1'). apply Ok_inj in H1'. subst x1.
          cbn [fst snd]. exists (ix_id rec :: D). split; [|split; [reflexivity|]].
          * eapply dels_snoc; [exact Hd|exists rec; auto|]. eapply delete_record_effect; [exists rec; auto|exact H1].
          * intros i. split.
            -- intros [<-|Hi]; auto. right. exists r. split; [now left|]. split; [congruence|].
               replace {| ix_id := ix_id rec; ix_labels := dr_labels r |} with rec by (rewrite <- El; now destruct rec). tauto.
            -- intros [Hi|(r1 & [<-|[]] & E1 & E2)]; [now right|]. left.  congruence.
        + apply Ok_inj in H1. subst x1. exists D. split; auto. split; auto. intros i. split; auto.
          intros [Hi|(r1 & [<-|[]] & E1 & E2)]; auto. exfalso.
          assert (rec = {| ix_id := i; ix_labels := dr_labels r |}).
          { apply (nodup_map_inj ix_id (d_index s)); auto; [apply (iw_unique _ W)|tauto|cbn; congruence]. }
          subst rec. cbn [ix_labels] in El. assert (labels_eqb (dr_labels r) (dr_labels r) = true) by now apply labels_eqb_iff.
          congruence.
      - apply Ok_inj in H1. subst x1. exists D. split; auto. split; auto. intros i. split; auto.
        intros [Hi|(r1 & [<-|[]] & E1 & E2)]; auto. apply index_find_none in Ef.
        destruct (in_dec Z.eq_dec i D) as [Hi|Hi]; auto. exfalso. apply Ef. subst i.
        eexists. split; [rewrite Ei; apply filter_In; split; [exact E2|]|reflexivity]. now apply outside_iff. }
    destruct Hx as (D1 & Hd1 & Hn1 & Hi1). destruct (IH s x1 x' D1 W Hd1 Hn1 H2) as (D2 & Hd2 & Hn2 & Hi2).
    exists D2. split; auto. split; auto. intros i. rewrite Hi2, Hi1. unfold chosen_by_rows. split.
    + intros [[A|(q & [<-|[]] & Q)]|(q & Hq & Q)]; auto; right; [exists r|exists q]; cbn; tauto.
    + intros [A|(q & [<-|Hq] & Q)]; auto; [left; right; exists r; cbn; tauto|right; exists q; tauto].
Qed.

Lemma follows_of_distributed l o s : distributed l o s -> from l o s = [] \/ from l o s <> [] -> follows_values l o s.
Proof.
  intros H _ m Hm. rewrite (H m Hm). eexists. split; [reflexivity|].
  destruct (Qeq_bool (Qsum (map m_value (from l o s))) 0) eqn:E.
  - unfold Qdiv. rewrite Qmult_1_l, Qmult_comm, Qmult_inv_r; [reflexivity|].
    destruct (from l o s); [contradiction|]. cbn [length]. unfold Qeq. cbn. lia.
  - apply Qeq_bool_neq in E. rewrite Qmult_comm. apply Qmult_div_r. exact E.
Qed.

Lemma valued_of_noprop s s' (p : mapping -> bool) : map noprop (d_maps s') = map noprop (filter p (d_maps s)) ->
  forall l o i lv v, valued s' l o i lv v <->
    exists m, In m (d_maps s) /\ p m = true /\ m_link m = l /\ m_other m = o /\ m_index m = i /\ m_level m = lv /\ m_value m = v.
Proof.
  intros E l o i lv v. unfold valued. split.
  - intros (m & Hm & A). assert (Hin : In (noprop m) (map noprop (filter p (d_maps s)))) by (rewrite <- E; now apply in_map).
    apply in_map_iff in Hin. destruct Hin as (m0 & E0 & H0). apply filter_In in H0. exists m0. 
    destruct H0 as [H0 Hp]. split; auto. split; auto. unfold noprop, with_prop in E0. injection E0 as -> -> -> -> ->. tauto.
  - intros (m & Hm & Hp & A). assert (Hin : In (noprop m) (map noprop (d_maps s'))).
    { rewrite E. apply in_map, filter_In. auto. }
    apply in_map_iff in Hin. destruct Hin as (m0 & E0 & H0). exists m0. split; auto.
    unfold noprop, with_prop in E0. injection E0 as -> -> -> -> ->. tauto.
Qed.

Lemma deleted_ext D D' s s' : (forall i, D i <-> D' i) -> deleted D s s' -> deleted D' s s'.
Proof.
  intros E [H1 H2 H3 H4 H5 H6 H7]. split; auto.
  - intros r. rewrite H1, E. reflexivity.
  - intros r. rewrite H2, E. reflexivity.
  - intros. rewrite H3, E. reflexivity.
  - intros l o Hl Ho (m & Hm & A & B). apply H4; auto. exists m. rewrite E. auto.
  - intros m Hl Hm. apply H5; auto. intros m0 A B C. apply (Hm m0); auto. now apply E.
Qed.

Lemma dels_deleted D s s' : dels_effect D s s' ->
  deleted (fun i => In i D) s (if nil_b D then s' else after_delete s').
Proof.
  intros E.
  assert (Em : d_maps (if nil_b D then s' else after_delete s') = d_maps s') by now destruct (nil_b D).
  assert (Ex : d_index (if nil_b D then s' else after_delete s') = d_index s') by now destruct (nil_b D).
  assert (Ew : d_weights (if nil_b D then s' else after_delete s') = d_weights s') by now destruct (nil_b D).
  destruct (dels_views _ _ _ E) as (Vg & Vl & _).
  assert (Ef : forall l o, from l o (if nil_b D then s' else after_delete s') = from l o s')
    by (intros; unfold from; now rewrite Em).
  destruct E as [_ E2 E3 E4 E5 E6 _]. split.
  - intros r. rewrite Ex, E2, filter_In, outside_iff. reflexivity.
  - intros r. rewrite Ew, E3, filter_In, outside_iff. reflexivity.
  - intros l o i lv v. transitivity (valued s' l o i lv v).
    { unfold valued. now rewrite Em. }
    rewrite (valued_of_noprop _ _ _ E4). unfold valued. split.
    + intros (m & Hm & Hp & A1 & A2 & A3 & A4 & A5). split; [exists m; tauto|]. apply outside_iff in Hp. congruence.
    + intros ((m & Hm & A1 & A2 & A3 & A4 & A5) & B). exists m. split; auto. split; [apply outside_iff; congruence|tauto].
  - intros l o Hl Ho (m & Hm & A & B). 
    destruct (E5 l o Hl) as [G Ds]; [exists m; auto|]. rewrite Ef. split.
    + pose proof (follows_of_distributed l o s' (Ds Ho)) as F. unfold follows_values in *. rewrite Ef. apply F.
      destruct (from l o s'); [now left|right; discriminate].
    + intros Hne. destruct (from l o s') as [|x q] eqn:Eq; [congruence|].
      assert (Hx : In x (from l o s')) by (rewrite Eq; now left). 
      destruct (Z_lt_le_dec 0 o) as [Hp|Hp].
      * rewrite <- Eq. apply (G x Hx). exact Hp.
      * (* negative source ids *)
        assert (Hpos : Qsum (map share (from l o s')) == 1).
        { assert (Hd := Ds Ho). 
          assert (Esh : map share (from l o s') = map share (map (refreshed o (from l o s')) (from l o s'))).
          { rewrite map_map. apply map_ext_in. intros y Hy. unfold share at 1. rewrite (Hd y Hy). unfold refreshed.
            destruct (o =? 0)%Z eqn:Q0; [lia|]. reflexivity. }
          rewrite Esh. apply refreshed_sum; auto. rewrite Eq. discriminate. }
        rewrite <- Eq. exact Hpos.
  - intros m Hl Hm. rewrite Em.
    assert (K : from (m_link m) (m_other m) s' = from (m_link m) (m_other m) s).
    { apply E6; auto. intros (m0 & A & B & C). apply (Hm m0); auto. }
    split; intros Hi.
    + assert (H : In m (from (m_link m) (m_other m) s')) by (apply from_in; auto). rewrite K in H. apply from_in in H. tauto.
    + assert (H : In m (from (m_link m) (m_other m) s)) by (apply from_in; auto). rewrite <- K in H. apply from_in in H. tauto.
  - destruct (nil_b D); [now rewrite Vg|]. cbn. rewrite map_map. cbn [g_id g_name]. now rewrite Vg.
  - destruct (nil_b D); [now rewrite Vl|]. cbn. rewrite map_map. cbn [with_status k_id k_other k_name k_default]. now rewrite Vl.
Qed.

Lemma delete_rows_deleted rows s s' : index_wf s -> delete_index_rows rows s = Ok s' ->
  deleted (chosen_by_rows rows s) s s'.
Proof.
  intros W H. unfold delete_index_rows in H. destruct (nil_b rows); [discriminate|].
  apply bind_ok in H. destruct H as (x & H1 & H2). apply Ok_inj in H2.
  destruct (dels_chosen rows s (s, false) x [] W (dels_nil s) eq_refl H1) as (D & Hd & Hn & Hi).
  apply (deleted_ext (fun i => In i D)).
  { intros i. rewrite Hi. cbn [In]. tauto. }
  subst s'. pose proof (dels_deleted D s (fst x) (dels_spec _ _ _ Hd)) as Q. rewrite Hn in Q. now destruct (snd x).
Qed.
Lemma delete_criteria_deleted c s s' : index_wf s -> known_columns c s ->
  delete_index_criteria c s = Ok s' -> deleted (chosen_by_criteria c s) s s'.
Proof.
  intros W Kn H. destruct (delete_criteria_dels _ _ _ W H) as (t & Hd & Et).
  apply (deleted_ext (fun i => In i (rev (map ix_id (filter_by_label c s))))).
  { intros i. rewrite <- in_rev. now apply chosen_criteria_iff. }
  pose proof (dels_deleted _ s t (dels_spec _ _ _ Hd)) as Q. subst s'.
  replace (nil_b (filter_by_label c s)) with (nil_b (rev (map ix_id (filter_by_label c s)))); auto.
  destruct (filter_by_label c s) as [|a l]; auto. cbn [map rev nil_b]. now destruct (rev (map ix_id l)).
Qed.
