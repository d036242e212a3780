(** Effects of update_index and delete_index. *)
From Verif Require Import Prelude QLemmas BitFlags_Model BitFlags_Proofs Selectors_Model
  Selectors_Proofs LinkRef_Model LinkRef_Spec LinkRef_Proofs Db_Model Db_Spec Db_Proofs
  Db_ProofsLocal Db_ProofsMerge Db_ProofsRefresh Db_ProofsInv.
From Coq Require Import ZifyBool ZifyNat Lqa.

Lemma steps_inv (P : db -> Prop) : (forall s s', prim s s' -> P s -> P s') ->
  forall s s', steps s s' -> P s -> P s'.
Proof. intros H s s' S. induction S; auto. intros Hs. eapply H; eauto. Qed.

Definition wtotal (P : Z -> bool) (s : db) : Q :=
  Qsum (map w_value (filter (fun w => P (w_group w)) (d_weights s))).
Definition mtotal (P : Z * Z * list N -> bool) (s : db) : Q :=
  Qsum (map m_value (filter (fun m => P (tkey m)) (d_maps s))).

Record upd_effect (s : db) (merged : list Z) (s' : db) : Prop := {
  ue_groups : d_groups s' = d_groups s;
  ue_links : d_links s' = d_links s;
  ue_hash : d_hash s' = d_hash s;
  ue_maps_wf : maps_wf s';
  ue_ids : forall i, has_index s' i -> has_index s i;
  ue_w : forall g i, has_index s' i -> has_weight s g i -> has_weight s' g i;
  ue_m : forall l i, has_index s' i -> has_map s l i -> has_map s' l i;
  ue_src : same_sources s s';
  ue_none : merged = [] -> map ix_id (d_index s') = map ix_id (d_index s) /\
              d_weights s' = d_weights s /\ d_maps s' = d_maps s;
  ue_pr : proportions_wf s -> proportions_wf s';
  ue_tw : forall P, (wtotal P s' == wtotal P s)%Q;
  ue_tm : forall P, (mtotal P s' == mtotal P s)%Q
}.

Lemma upd_trans a m1 b m2 c m : upd_effect a m1 b -> upd_effect b m2 c ->
  (m = [] -> m1 = [] /\ m2 = []) -> upd_effect a m c.
Proof.
  intros [] [] Hm. split; try congruence; auto.
  - intros l o. unfold same_sources in *. rewrite ue_src1. apply ue_src0.
  - intros E. destruct (Hm E) as [E1 E2]. destruct (ue_none0 E1) as (A & B & C).
    destruct (ue_none1 E2) as (A' & B' & C'). repeat split; congruence.
  - intros P. rewrite ue_tw1. apply ue_tw0.
  - intros P. rewrite ue_tm1. apply ue_tm0.
Qed.

Lemma weight_merge_has i t s s' g j : weight_merge i t s = Ok s' ->
  (j <> i \/ i = t) -> has_weight s g j -> has_weight s' g j.
Proof.
  intros H Hj (w & Hw & <- & <-). pose proof H as H0. apply weight_merge_eq in H. subst s'.
  unfold has_weight. cbn [set_weights d_weights].
  destruct (among i t (w_index w)) eqn:E.
  - destruct (merged_weights_spec i t s) as (_ & I & _).
    assert (Hin : In (w_group w) (map fst (merged_weights i t s))) by (apply I; eauto).
    apply in_map_iff in Hin. destruct Hin as ((g' & v) & Eg & Hin). cbn [fst] in Eg. subst g'.
    exists {| w_group := w_group w; w_index := t; w_value := v |}. split; [|split]; auto.
    + apply in_app_iff. right. apply in_map_iff. exists (w_group w, v). auto.
    + cbn [w_index]. unfold among in E. lia.
  - exists w. split; auto. apply in_app_iff. left. apply filter_In. rewrite E. auto.
Qed.
Lemma map_merge_has i t s s' l j : map_merge i t s = Ok s' ->
  (j <> i \/ i = t) -> has_map s l j -> has_map s' l j.
Proof.
  intros H Hj (m & Hm & <- & <-). pose proof H as H0. apply map_merge_eq in H. subst s'.
  unfold has_map. cbn [set_maps d_maps].
  destruct (among i t (m_index m)) eqn:E.
  - destruct (merged_maps_spec i t s) as (_ & I & _).
    assert (Hin : In (tkey m) (map fst (merged_maps i t s))) by (apply I; eauto).
    apply in_map_iff in Hin. destruct Hin as (kv & Eg & Hin).
    exists (of_merged t kv). split; [|split]; auto.
    + apply in_app_iff. right. apply in_map. exact Hin.
    + cbn. now rewrite Eg.
    + cbn. unfold among in E. lia.
  - exists m. split; auto. apply in_app_iff. left. apply filter_In. rewrite E. auto.
Qed.
Lemma map_merge_src i t s s' : map_merge i t s = Ok s' -> same_sources s s'.
Proof.
  intros H l o. apply map_merge_eq in H. subst s'. unfold has_src. cbn [set_maps d_maps].
  destruct (merged_maps_spec i t s) as (_ & I & _). split.
  - intros (m & Hm & <- & <-). apply in_app_iff in Hm. destruct Hm as [Hm|Hm].
    + apply filter_In in Hm. exists m. tauto.
    + apply in_map_iff in Hm. destruct Hm as (kv & <- & Hkv).
      destruct (proj1 (I (fst kv))) as (m & Hm & _ & Ek); [now apply in_map|].
      exists m. split; auto. destruct kv as [[[l o] lv] v]. unfold tkey in Ek. cbn in *. injection Ek. auto.
  - intros (m & Hm & <- & <-). destruct (among i t (m_index m)) eqn:E.
    + assert (Hin : In (tkey m) (map fst (merged_maps i t s))) by (apply I; eauto).
      apply in_map_iff in Hin. destruct Hin as (kv & Eg & Hin).
      exists (of_merged t kv). split; [apply in_app_iff; right; now apply in_map|].
      cbn. now rewrite Eg.
    + exists m. split; auto. apply in_app_iff. left. apply filter_In. rewrite E. auto.
Qed.

Definition at_key (l o : Z) (k : Z * Z * list N) : bool := (fst (fst k) =? l)%Z && (snd (fst k) =? o)%Z.
Lemma from_at l o s : from l o s = filter (fun m => at_key l o (tkey m)) (d_maps s).
Proof. reflexivity. Qed.

Lemma share_nonneg m : map_ok m = true -> (0 <= share m)%Q.
Proof.
  intros H. apply map_ok_iff in H. destruct H as (_ & H & _). unfold share.
  destruct (m_prop m); [apply H; auto|lra].
Qed.

Lemma map_merge_props i t s s' : map_merge i t s = Ok s' -> maps_wf s' ->
  proportions_wf s -> proportions_wf s'.
Proof.
  intros H W Hp. apply proportions_good. intros l o m Hm. pose proof Hm as Hm'. rewrite from_at in Hm'.
  apply filter_In in Hm'. destruct Hm' as [Hm' Ek].
  assert (Hsome : (0 <= o)%Z -> forall m, In m (d_maps s) -> at_key l o (tkey m) = true -> m_prop m <> None).
  { intros Ho m0 Hm0 E. assert (E2 : m_other m0 = o) by (unfold at_key, tkey in E; cbn in E; lia).
    destruct (Hp m0 Hm0) as [A B]. destruct (Z.eq_dec o 0) as [->|Hz].
    - destruct (A E2) as (p & -> & _). discriminate.
    - apply B. lia. }
  assert (Hshares : (0 <= o)%Z -> (Qsum (map share (from l o s')) == Qsum (map share (from l o s)))%Q).
  { intros Ho. rewrite !from_at. apply (map_merge_shares (at_key l o) i t); auto. }
  assert (Hsrc : exists m0, In m0 (from l o s)).
  { destruct (proj1 (map_merge_src i t s s' H l o)) as (m0 & Hm0 & E1 & E2).
    - exists m. unfold at_key, tkey in Ek; cbn in Ek. repeat split; auto; lia.
    - exists m0. apply from_in. auto. }
  destruct Hsrc as (m0 & Hm0). pose proof Hm0 as Hm0'. apply from_in in Hm0'. destruct Hm0' as (Hm0' & El & Eo).
  assert (Hne : (0 <= o)%Z -> m_prop m <> None).
  { intros Ho. pose proof (map_merge_eq _ _ _ _ H) as Es. rewrite Es in Hm'. cbn [set_maps d_maps] in Hm'.
    apply in_app_iff in Hm'. destruct Hm' as [Hf|Hg].
    - apply filter_In in Hf. apply (Hsome Ho m); tauto.
    - apply in_map_iff in Hg. destruct Hg as (kv & <- & Hkv). cbn [of_merged m_prop]. destruct kv as [k v].
      apply (merged_maps_some i t s k v Hkv). intros m1 Hm1 E1. apply (Hsome Ho); auto. rewrite E1.
      revert Ek. unfold at_key, tkey, of_merged; cbn. auto. }
  split.
  - intros ->. specialize (Hne ltac:(lia)). specialize (Hshares ltac:(lia)).
    assert (Hz : (Qsum (map share (from l 0 s)) == 0)%Q).
    { apply Qsum_zero. intros x Hx. apply from_in in Hx. destruct Hx as (Hx & _ & Ex).
      destruct (Hp x Hx) as [A _]. destruct (A Ex) as (p & Ep & E0). unfold share. rewrite Ep. exact E0. }
    apply maps_wf_alt in W. destruct W as [_ K].
    assert (Hle : (share m <= Qsum (map share (from l 0 s')))%Q).
    { apply Qsum_nonneg_le; [|now apply in_map]. intros y Hy. apply in_map_iff in Hy.
      destruct Hy as (x & <- & Hx). apply share_nonneg, K. apply from_in in Hx. tauto. }
    pose proof (share_nonneg m (K m Hm')) as Hge. unfold share in Hle, Hge.
    destruct (m_prop m) as [p|]; [|congruence]. exists p. split; auto. rewrite Hshares, Hz in Hle. lra.
  - intros Ho. split; [apply Hne; lia|]. rewrite Hshares by lia.
    destruct (Hp m0 Hm0') as [_ B]. rewrite <- El, <- Eo. apply B. lia.
Qed.

Lemma upd_merge i t s s' : i <> t \/ True -> maps_wf s ->
  (do s1 <- weight_merge i t s; do s2 <- map_merge i t s1; index_delete i s2) = Ok s' ->
  upd_effect s [i] s'.
Proof.
  intros _ W H. step_res H. step_res H.
  assert (W0 : maps_wf a0).
  { eapply (steps_inv maps_wf maps_wf_prim); [|exact W].
    eapply st_trans; [eapply st_weight_merge; exact E|eapply st_map_merge; exact E0]. }
  pose proof (weight_merge_eq _ _ _ _ E) as E1. pose proof (map_merge_eq _ _ _ _ E0) as E2.
  assert (D : d_groups s' = d_groups a0 /\ d_links s' = d_links a0 /\ d_hash s' = d_hash a0 /\
    d_weights s' = d_weights a0 /\ d_maps s' = d_maps a0 /\
    (forall j, has_index s' j -> has_index a0 j /\ j <> i)).
  { unfold index_delete in H. repeat step_res H; subst s'.
    - repeat split; auto.
      + destruct H as (r & Hr & <-). cbn in Hr. apply filter_In in Hr. exists r. tauto.
      + destruct H as (r & Hr & <-). cbn in Hr. apply filter_In in Hr. lia.
    - repeat split; auto. intros ->. destruct H as (r & Hr & Er).
      unfold index_find in E3. apply find_none with (x := r) in E3; auto. cbv beta in E3. lia. }
  destruct D as (G & L & Hh & Dw & Dm & Di).
  assert (Ha : d_maps a = d_maps s) by (rewrite E1; reflexivity).
  assert (Hw0 : d_weights a0 = d_weights a) by (rewrite E2; reflexivity).
  assert (Hsh : d_groups a0 = d_groups s /\ d_links a0 = d_links s /\ d_hash a0 = d_hash s /\ d_index a0 = d_index s).
  { rewrite E2, E1. auto. }
  destruct Hsh as (G0 & L0 & H0 & I0).
  split; try congruence; auto.
  - eapply maps_wf_ext; [|exact W0]. exact Dm.
  - intros j Hj. apply Di in Hj. destruct Hj as [Hj _]. unfold has_index in *. now rewrite I0 in Hj.
  - intros g j Hj Hg. unfold has_weight. rewrite Dw, Hw0. fold (has_weight a g j).
    eapply weight_merge_has; [exact E| |exact Hg]. left. apply Di. exact Hj.
  - intros l j Hj Hg. unfold has_map. rewrite Dm. fold (has_map a0 l j).
    eapply map_merge_has; [exact E0| |]; [left; apply Di; exact Hj|].
    unfold has_map. rewrite Ha. exact Hg.
  - intros l o. unfold has_src at 1. rewrite Dm. fold (has_src a0 l o).
    rewrite (map_merge_src _ _ _ _ E0 l o). unfold has_src. now rewrite Ha.
  - intros Hp. apply (props_same a0); auto. eapply map_merge_props; [exact E0|exact W0|].
    apply (props_same s); auto.
  - intros P. unfold wtotal. rewrite Dw, Hw0. apply (weight_merge_total P _ _ _ _ E).
  - intros P. unfold mtotal. rewrite Dm. rewrite (map_merge_total P _ _ _ _ E0). now rewrite Ha.
Qed.

Lemma upd_relabel i labels s s' m : maps_wf s -> index_update i labels s = Ok s' -> upd_effect s m s'.
Proof.
  intros W H. pose proof (maps_wf_prim _ _ (p_index_update _ _ _ _ H) W) as W'.
  destruct (index_update_ids _ _ _ _ H) as [Ei Es]. pose proof (ids_eq s s' Ei) as I.
  rewrite Es in *. split; auto; try reflexivity.
  - intros j. apply I.
  - intros l o. reflexivity.
Qed.

Lemma upd_effect_refl s : maps_wf s -> upd_effect s [] s.
Proof. intros W. split; auto; try reflexivity. intros l o. reflexivity. Qed.

Lemma update_loop_effect mg rows s st : maps_wf s ->
  fold_res (update_index_row mg) rows {| us_db := s; us_merged := []; us_updated := false |} = Ok st ->
  upd_effect s (us_merged st) (us_db st).
Proof.
  intros W. apply (fold_res_inv (fun st => upd_effect s (us_merged st) (us_db st))).
  { apply upd_effect_refl. exact W. }
  clear st. intros st r st' _ I H. unfold update_index_row in H.
  step_res H; [injection H as <-; auto|]. step_res H; [|repeat step_res H; subst; auto].
  step_res H. step_res H. injection H as <-. cbn [us_db us_merged].
  pose proof (ue_maps_wf _ _ _ I) as W1.
  assert (I1 : upd_effect s (us_merged a) (us_db a)).
  { step_res E1; [|injection E1 as <-; exact I]. step_res E1; [discriminate|].
    assert (E1' : exists b, (do s1 <- weight_merge (ix_id i0) (ix_id i) (us_db st);
        do s2 <- map_merge (ix_id i0) (ix_id i) s1; index_delete (ix_id i0) s2) = Ok b /\
        a = {| us_db := b; us_merged := ix_id i0 :: us_merged st; us_updated := us_updated st |}).
    { repeat step_res E1. subst a. eexists. split; [|reflexivity].
      match goal with H1 : weight_merge _ _ _ = Ok _, H2 : map_merge _ _ _ = Ok _ |- _ => rewrite H1; cbn [bind]; rewrite H2 end.
      cbn [bind]. assumption. }
    destruct E1' as (b & Eb & ->). cbn [us_db us_merged].
    apply upd_merge in Eb; auto. eapply upd_trans; [exact I|exact Eb|discriminate]. }
  eapply upd_trans; [exact I1| |].
  - eapply upd_relabel; [apply (ue_maps_wf _ _ _ I1)|exact E2].
  - intros E3. split; [exact E3|reflexivity].
Qed.

Lemma update_index_kept mg rows s s' : index_wf s -> maps_wf s -> update_index mg rows s = Ok s' -> kept s s'.
Proof.
  intros Wi W H. pose proof (steps_inv index_wf index_wf_prim _ _ (st_update_index _ _ _ _ H) Wi) as Wi'.
  unfold update_index in H. step_res H.
  apply update_loop_effect in E; auto. destruct a as [t m u]. cbn [us_db us_merged] in *.
  destruct E as [Eg El Eh Em Ei Ew Emp Es En Ep _ _]. injection H as H. destruct m as [|m0 ml].
  - subst s'. destruct (En eq_refl) as (E1 & E2 & E3). pose proof (ids_eq s t E1) as Hi. split.
    + apply hash_same; auto.
    + apply gsound_mono; auto. intros g Hg Hc. rewrite Eg in Hg. eauto.
    + apply lsound_mono; auto. intros g Hg Hc. rewrite El in Hg. eauto.
    + intros _ _. apply gfull_same; auto.
      * apply wkeys_eq. now rewrite E2.
      * rewrite Eg. eauto.
    + intros _ _ _. apply lfull_same; auto.
      * now apply maps_eq_targets.
      * rewrite El. eauto.
    + intros _ _. apply lhash_same; auto. rewrite El. eauto.
    + intros _ _ _. exact Ep.
    + apply lsrc_same; auto. rewrite El. eauto.
  - set (s1 := refresh_hash t) in *. set (s2 := raise_group_flags s1) in *.
    assert (Hi : forall i, has_index s2 i <-> has_index t i) by (intros; reflexivity).
    assert (Gs : group_flags_sound s -> group_flags_sound s2).
    { intros Hg. apply gsound_raised. revert Hg. apply (gsound_mono s s1); auto.
      intros g Hg Hc. change (d_groups s1) with (d_groups t) in Hg. rewrite Eg in Hg. eauto. }
    assert (Ls : link_flags_sound s -> link_flags_sound s2).
    { apply (lsound_mono s s2); auto.
      intros g Hg Hc. change (d_links s2) with (d_links t) in Hg. rewrite El in Hg. eauto. }
    subst s'. split.
    + intros _. assert (N : NoDup (map ix_id (d_index t))) by exact (iw_unique _ Wi').
      exact (hash_refreshed t N).
    + exact Gs.
    + intros Hl. apply (lsound_raised k_hash s2). auto.
    + intros _ _ _. exact (gfull_raised s1).
    + intros _ _ _ _. apply (lfull_raised k_hash s2).
    + intros _ _ Hh. revert Hh. apply lhash_same.
      * exact Es.
      * intros k Hk. cbn [raise_link_flags set_links d_links] in Hk. apply in_map_iff in Hk.
        destruct Hk as (k0 & <- & Hk). change (d_links s2) with (d_links t) in Hk. rewrite El in Hk.
        exists k0. auto.
    + intros _ _ _ Hp. exact (Ep Hp).
    + apply lsrc_same.
      * exact Es.
      * intros k Hk. cbn [raise_link_flags set_links d_links] in Hk. apply in_map_iff in Hk.
        destruct Hk as (k0 & <- & Hk). change (d_links s2) with (d_links t) in Hk. rewrite El in Hk.
        exists k0. auto.
Qed.

(** *** delete_index *)

(** The proportions of a source record are its values divided by their total. *)
Definition distributed (l o : Z) (s : db) : Prop :=
  forall m, In m (from l o s) ->
    m_prop m = Some (if Qeq_bool (Qsum (map m_value (from l o s))) 0
                     then 1 / inject_Z (Z.of_nat (length (from l o s)))
                     else m_value m / Qsum (map m_value (from l o s)))%Q.

Lemma distributed_refresh l o s s' : o <> 0%Z -> refresh_proportions l o s = Ok s' -> distributed l o s'.
Proof.
  intros Ho H m Hm. pose proof (from_refresh _ _ _ _ H) as Ef. rewrite Ef in *.
  assert (Ev : map m_value (map (refreshed o (from l o s)) (from l o s)) = map m_value (from l o s)).
  { rewrite map_map. apply map_ext. intros x. destruct (refreshed_prop o (from l o s) x) as (p & ->). reflexivity. }
  rewrite Ev, map_length. apply in_map_iff in Hm. destruct Hm as (m0 & <- & Hm).
  unfold refreshed. destruct (o =? 0)%Z eqn:E; [lia|]. reflexivity.
Qed.

Lemma refreshes_distributed los : forall s s', refreshes los s = Ok s' ->
  (forall l o, In (l, o) los -> o <> 0%Z -> distributed l o s') /\
  (forall l o, o <> 0%Z -> distributed l o s -> distributed l o s').
Proof.
  induction los as [|[l0 o0] los IH]; intros s s' H; unfold refreshes in H; cbn [fold_res fst snd] in H.
  - injection H as <-. split; auto. intros l o [].
  - step_res H. destruct (IH _ _ H) as [A B]. split.
    + intros l o [E1|Hin] Ho; auto. injection E1 as <- <-. apply B; auto. eapply distributed_refresh; eauto.
    + intros l o Ho D. apply B; auto. destruct (Z.eq_dec l l0) as [->|Hl]; [destruct (Z.eq_dec o o0) as [->|Ho']|].
      * eapply distributed_refresh; eauto.
      * unfold distributed. rewrite (from_refresh_other _ _ _ _ _ _ E); auto. congruence.
      * unfold distributed. rewrite (from_refresh_other _ _ _ _ _ _ E); auto. congruence.
Qed.

Definition pairs (os : list Z) (ls : list link) : list (Z * Z) :=
  flat_map (fun o => map (fun k => (k_id k, o)) ls) os.
Lemma pairs_in os ls l o : In (l, o) (pairs os ls) <-> In o os /\ exists k, In k ls /\ k_id k = l.
Proof.
  unfold pairs. rewrite in_flat_map. split.
  - intros (o' & Ho & H). apply in_map_iff in H. destruct H as (k & E & Hk). injection E as <- <-. eauto.
  - intros (Ho & k & Hk & <-). exists o. split; auto. apply in_map_iff. eauto.
Qed.

Lemma refresh_all_eq o s : refresh_all_links o s = refreshes (map (fun k => (k_id k, o)) (d_links s)) s.
Proof.
  unfold refresh_all_links, refreshes. generalize (d_links s) at 1 2. intros ls. revert s.
  induction ls as [|k ls IH]; intros s; cbn [fold_res map fst snd]; auto.
  destruct (refresh_proportions (k_id k) o s); cbn [bind]; auto.
Qed.
Lemma refresh_sources_eq os : forall s,
  fold_res (fun s o => refresh_all_links o s) os s = refreshes (pairs os (d_links s)) s.
Proof.
  induction os as [|o os IH]; intros s; [reflexivity|].
  cbn [fold_res pairs flat_map]. rewrite refreshes_app, refresh_all_eq.
  destruct (refreshes (map (fun k => (k_id k, o)) (d_links s)) s) as [s1|e] eqn:E; cbn [bind]; auto.
  rewrite IH. apply refreshes_spec in E. destruct E as [[Es _] _]. rewrite Es at 1. reflexivity.
Qed.

(** State after the removal of one record and its dependants, before the refresh. *)
Definition removed (i : Z) (s : db) : db :=
  set_maps (filter (fun m => negb (m_index m =? i)%Z) (d_maps s))
    (set_weights (filter (fun w => negb (w_index w =? i)%Z) (d_weights s)) s).

Definition sources_mapped_to (i : Z) (s : db) : list Z :=
  nodup Z.eq_dec (map m_other (maps_of_index i s)).

Lemma delete_record_eq i s :
  delete_index_record i s =
  if existsb (fun m => negb (bytes_eqb (m_level m) (full_level s))) (maps_of_index i s) then Err ValueError
  else do s3 <- refreshes (pairs (sources_mapped_to i s) (d_links s)) (removed i s); index_delete i s3.
Proof.
  unfold delete_index_record. cbv zeta. rewrite weight_deletes.
  set (s1 := set_weights _ s).
  change (maps_of_index i s1) with (maps_of_index i s).
  destruct (existsb _ (maps_of_index i s)); auto.
  rewrite refresh_sources_eq. rewrite map_deletes.
  assert (Es : set_maps (filter (fun m => negb (existsb (fun x => same_map x m) (maps_of_index i s))) (d_maps s1)) s1
             = removed i s).
  { unfold removed, s1, set_maps, set_weights; cbn. f_equal.
    - apply filter_ext_in'. intros w Hw. f_equal. destruct (w_index w =? i)%Z eqn:E.
      + apply existsb_exists. exists w. split; [apply filter_In; auto|]. apply weight_is_iff. auto.
      + apply existsb_false_iff. intros x Hx. apply filter_In in Hx. destruct Hx as [_ Hx].
        destruct (weight_is (w_group x) (w_index x) w) eqn:E1; auto. apply weight_is_iff in E1. lia.
    - apply filter_ext_in'. intros m Hm. f_equal. destruct (m_index m =? i)%Z eqn:E.
      + apply existsb_exists. exists m. split; [apply filter_In; auto|]. now apply same_map_iff.
      + apply existsb_false_iff. intros x Hx. apply filter_In in Hx. destruct Hx as [_ Hx].
        destruct (same_map x m) eqn:E1; auto. apply same_map_iff in E1. unfold mkey in E1.
        injection E1 as _ _ E1 _. lia. }
  rewrite Es. reflexivity.
Qed.

(** What the deletion of record [i] does. *)
Record del_effect (i : Z) (s s' : db) : Prop := {
  de_same : s' = set_index (d_index s') (set_maps (d_maps s') (set_weights (d_weights s') s));
  de_index : d_index s' = filter (fun r => negb (ix_id r =? i)%Z) (d_index s);
  de_weights : d_weights s' = filter (fun w => negb (w_index w =? i)%Z) (d_weights s);
  de_maps : map noprop (d_maps s') = map noprop (filter (fun m => negb (m_index m =? i)%Z) (d_maps s));
  de_fresh : forall l o, In o (sources_mapped_to i s) -> (exists k, In k (d_links s) /\ k_id k = l) ->
               good l o s' /\ (o <> 0%Z -> distributed l o s');
  de_keep : forall l o, (~ In o (sources_mapped_to i s) \/ ~ (exists k, In k (d_links s) /\ k_id k = l)) ->
              from l o s' = filter (fun m => negb (m_index m =? i)%Z) (from l o s)
}.

Lemma delete_record_effect i s s' : has_index s i -> delete_index_record i s = Ok s' -> del_effect i s s'.
Proof.
  intros Hi H. rewrite delete_record_eq in H. step_res H; [discriminate|]. step_res H.
  pose proof (refreshes_spec _ _ _ E0) as ([Ea Em] & G & _ & K).
  pose proof (refreshes_distributed _ _ _ E0) as [D _].
  unfold index_delete in H. destruct (index_find i a) as [r|] eqn:Ef.
  2: { exfalso. destruct Hi as (r & Hr & Er). unfold index_find in Ef.
       apply find_none with (x := r) in Ef; [cbv beta in Ef; lia|]. rewrite Ea. exact Hr. }
  step_res H; [discriminate|]. injection H as <-.
  assert (Ei : d_index a = d_index s) by (rewrite Ea; reflexivity).
  assert (Ew : d_weights a = filter (fun w => negb (w_index w =? i)%Z) (d_weights s)) by (rewrite Ea; reflexivity).
  split.
  - rewrite Ea. reflexivity.
  - cbn [set_index set_labels_index d_index]. now rewrite Ei.
  - exact Ew.
  - exact Em.
  - intros l o Ho Hk. assert (Hin : In (l, o) (pairs (sources_mapped_to i s) (d_links s))) by (apply pairs_in; auto).
    split; [exact (G l o Hin)|]. intros Hz. exact (D l o Hin Hz).
  - intros l o Hn. change (from l o (set_index _ a)) with (from l o a).
    rewrite K by (rewrite pairs_in; tauto).
    unfold from, removed. cbn [d_maps set_maps]. rewrite !filter_filter.
    apply filter_ext_in'. intros; apply andb_comm.
Qed.
