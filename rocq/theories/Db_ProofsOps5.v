(** Effects of single operations: deleting mappings, adding and editing links. *)
From Verif Require Import Prelude QLemmas BitFlags_Model BitFlags_Spec BitFlags_Proofs Selectors_Model
  Selectors_Proofs LinkRef_Model LinkRef_Spec LinkRef_Proofs Db_Model Db_Spec Db_Proofs
  Db_ProofsLocal Db_ProofsMerge Db_ProofsRefresh Db_ProofsInv Db_ProofsInv2 Db_ProofsInv3
  Db_ProofsDelete Db_ProofsRun Db_ProofsOps Db_ProofsOps2 Db_ProofsOps3 Db_ProofsOps4.
From Coq Require Import ZifyBool ZifyNat Lqa.

Lemma unmapped_fk l X s s' : unmapped l X s s' -> weight_index_refs s -> map_index_refs s -> fk_ok s' = true.
Proof.
  intros U Rw Rm. apply fk_ok_iff. destruct (un_rest _ _ _ _ U) as (A & B & C & _). split.
  - intros w Hw. rewrite B in Hw. destruct (Rw w Hw) as (r & Hr & Er). exists r. now rewrite A.
  - intros m Hm. destruct (proj1 (un_valued _ _ _ _ U (m_link m) (m_other m) (m_index m) (m_level m) (m_value m))) as (m0 & H0 & _ & _ & _ & E & _).
    { exists m. auto 10. }
    destruct (Rm m0 H0) as (r & Hr & Er). exists r. rewrite A. split; auto. congruence.
Qed.

Lemma step_unmapped (body : db -> res db) l X s s' : inv s -> refs_if_enforced s ->
  body s = Ok s' -> unmapped l X s s' -> steps s s' ->
  snd (transact body s) = None /\ fst (transact body s) = s'.
Proof.
  intros I R E U St. unfold transact. rewrite E.
  assert (Fk : d_fk s' && negb (fk_ok s') = false).
  { destruct (d_fk s') eqn:Ef; auto. rewrite (steps_fk _ _ St) in Ef. destruct (R Ef). now rewrite (unmapped_fk _ _ _ _ U). }
  rewrite Fk. auto.
Qed.

Lemma delete_mappings_rows_effect ref name rows k s : inv s -> refs_if_enforced s ->
  Forall (fun c => c <> []) (d_labels s) -> meant (d_links s) ref name true k -> rows <> [] ->
  let out := step (ODeleteMappingsRows ref name rows) s in
  snd out = None /\
  exists X, unmapped (k_id k) X s (fst out) /\
    (forall m, X m -> In m (d_maps s) /\ m_link m = k_id k /\ exists r, In r rows /\ row_means s r m) /\
    (forall m, In m (d_maps s) -> m_link m = k_id k -> (exists r, In r rows /\ row_means s r m) ->
       (forall m', In m' (d_maps s) -> m_link m' = m_link m -> m_other m' = m_other m -> m_index m' = m_index m -> m' = m) ->
       X m).
Proof.
  intros I R Hc Hk Hr. cbv zeta. apply get_link_iff in Hk; [|apply (i_links _ I)]. cbn [step].
  destruct (delete_mappings_rows_list (k_id k) s (i_maps _ I) (i_index _ I) Hc rows (s, false) []
              (fun m F => match F with end) eq_refl eq_refl) as (R1 & A & B & C & _ & D).
  assert (HR : forall m, In m R1 -> In m (d_maps s) /\ m_link m = k_id k) by (intros m Hm; destruct (C m Hm); tauto).
  destruct (unmapped_list (k_id k) R1 s (i_maps _ I) HR) as (s' & E & U).
  assert (Eb : delete_mappings_rows ref name rows s = Ok s').
  { unfold delete_mappings_rows. rewrite Hk. cbn [bind]. destruct rows as [|r rows]; [congruence|]. cbn [nil_b].
    rewrite A, B. destruct R1 as [|x R1]; cbn [nil_b negb] in *; exact E. }
  destruct (step_unmapped (delete_mappings_rows ref name rows) _ _ s s' I R Eb U (st_delete_mappings_rows _ _ _ _ _ Eb)) as [-> ->].
  split; auto. exists (fun m => In m R1). split; auto. split.
  - intros m Hm. destruct (C m Hm) as (Q1 & Q2 & [[]|Q3]). auto.
  - intros m Hm Hl Hrow Hu. apply D; auto. intros m' H1 H2. apply Hu; auto. congruence.
Qed.

(** Criteria. *)
Lemma inner_deletes (p : mapping -> bool) L : forall x R s0,
  fst x = fold_left (fun s m => map_delete m s) R s0 -> snd x = negb (nil_b R) ->
  let x' := fold_left (fun x m => if p m then (map_delete m (fst x), true) else x) L x in
  fst x' = fold_left (fun s m => map_delete m s) (R ++ filter p L) s0 /\ snd x' = negb (nil_b (R ++ filter p L)).
Proof.
  induction L as [|m L IH]; intros x R s0 E1 E2; cbn [fold_left filter]; cbv zeta.
  - now rewrite app_nil_r.
  - destruct (p m).
    + specialize (IH (map_delete m (fst x), true) (R ++ [m]) s0). cbv zeta in IH. cbn [fst snd] in IH.
      rewrite <- app_assoc in IH. cbn [app] in IH. apply IH.
      * rewrite fold_left_app. cbn [fold_left]. now rewrite E1.
      * now destruct R.
    + now apply IH.
Qed.
Lemma delete_mappings_criteria_list l (p : mapping -> bool) s0 recs : maps_wf s0 ->
  forall x R, (forall m, In m R -> In m (d_maps s0) /\ m_link m = l /\ p m = true) ->
  fst x = fold_left (fun s m => map_delete m s) R s0 -> snd x = negb (nil_b R) ->
  let x' := fold_left (fun x r =>
      fold_left (fun x m => if p m then (map_delete m (fst x), true) else x)
        (filter (fun m => (m_link m =? l)%Z && (m_index m =? ix_id r)%Z) (d_maps (fst x))) x) recs x in
  exists R', fst x' = fold_left (fun s m => map_delete m s) R' s0 /\ snd x' = negb (nil_b R') /\
    (forall m, In m R' <-> In m R \/ In m (d_maps s0) /\ m_link m = l /\ In (m_index m) (map ix_id recs) /\ p m = true).
Proof.
  intros M. induction recs as [|r recs IH]; intros x R HR E1 E2; cbv zeta; cbn [fold_left map].
  - exists R. split; auto. split; auto. intros m. cbn [In]. tauto.
  - destruct (deleted_maps_list R s0 M (fun m Hm => proj1 (HR m Hm))) as (s1 & F1 & F2 & Hin & _).
    set (L := filter (fun m => (m_link m =? l)%Z && (m_index m =? ix_id r)%Z) (d_maps (fst x))).
    assert (HL : forall m, In m L <-> In m (d_maps s0) /\ ~ In m R /\ m_link m = l /\ m_index m = ix_id r).
    { intros m. unfold L. rewrite filter_In, E1, F1, Hin. rewrite andb_true_iff, !Z.eqb_eq. tauto. }
    destruct (inner_deletes p L x R s0 E1 E2) as [G1 G2]. cbv zeta in G1, G2.
    assert (HR1 : forall m, In m (R ++ filter p L) -> In m (d_maps s0) /\ m_link m = l /\ p m = true).
    { intros m Hm. apply in_app_iff in Hm. destruct Hm as [Hm|Hm]; auto. apply filter_In in Hm. destruct Hm as [Hm Hp].
      apply HL in Hm. tauto. }
    destruct (IH _ _ HR1 G1 G2) as (R' & H1 & H2 & H3). exists R'. split; auto. split; auto.
    intros m. rewrite H3, in_app_iff, filter_In, HL. cbn [In]. destruct (in_dec mapping_dec m R); intuition.
Qed.

Lemma level_within_iff c s m : is_bytes (m_level m) ->
  (level_within (criteria_flags c s) m = true <-> within_criteria s c m).
Proof.
  intros Hb. unfold level_within, within_criteria, criteria_flags.
  set (fl := map (fun c0 => existsb (fun kv => text_eqb (fst kv) c0) c) (d_labels s)).
  assert (Hfl : forall n, bit_at fl n = true <-> exists k v, nth_error (d_labels s) n = Some k /\ In (k, v) c).
  { intros n. unfold bit_at, fl. split.
    - intros H. destruct (nth_error (d_labels s) n) as [k|] eqn:E.
      + assert (Ex : nth_error (map (fun c0 => existsb (fun kv => text_eqb (fst kv) c0) c) (d_labels s)) n = Some (existsb (fun kv => text_eqb (fst kv) k) c))
          by exact (map_nth_error (fun c0 => existsb (fun kv => text_eqb (fst kv) c0) c) n (d_labels s) E).
        rewrite (nth_error_nth _ _ false Ex) in H. apply existsb_exists in H. destruct H as ([k' v] & Hin & Ek).
        apply text_eqb_iff in Ek. cbn in Ek. subst k'. eauto.
      + rewrite nth_overflow in H; [discriminate|]. rewrite map_length. now apply nth_error_None.
    - intros (k & v & E & Hin).
      assert (Ex : nth_error (map (fun c0 => existsb (fun kv => text_eqb (fst kv) c0) c) (d_labels s)) n = Some (existsb (fun kv => text_eqb (fst kv) k) c))
        by exact (map_nth_error (fun c0 => existsb (fun kv => text_eqb (fst kv) c0) c) n (d_labels s) E).
      rewrite (nth_error_nth _ _ false Ex). apply existsb_exists. exists (k, v). split; auto. now apply text_eqb_iff. }
  rewrite bf_eqb_spec by (try apply bf_or_wf; try apply of_bits_wf; now apply of_bytes_wf).
  unfold same_bits. split.
  - intros H n Hn. apply Hfl. specialize (H n). rewrite or_spec, of_bytes_iter, Hn, orb_true_r in H.
    rewrite (of_bits_iter fl n) in H. exact H.
  - intros H n. rewrite or_spec, of_bytes_iter, (of_bits_iter fl n). destruct (byte_bit (m_level m) n) eqn:E.
    + rewrite (proj2 (Hfl n) (H n E)). reflexivity.
    + now rewrite orb_false_r.
Qed.

Lemma delete_mappings_criteria_effect ref name c k s : inv s -> refs_if_enforced s ->
  (forall m, In m (d_maps s) -> is_bytes (m_level m)) -> known_columns c s ->
  meant (d_links s) ref name true k -> c <> [] ->
  let out := step (ODeleteMappingsCriteria ref name c) s in
  snd out = None /\
  unmapped (k_id k) (fun m => m_link m = k_id k /\ chosen_by_criteria c s (m_index m) /\ within_criteria s c m) s (fst out).
Proof.
  intros I R Hb Kn Hk Hc. cbv zeta. apply get_link_iff in Hk; [|apply (i_links _ I)]. cbn [step].
  destruct (delete_mappings_criteria_list (k_id k) (level_within (criteria_flags c s)) s (filter_by_label c s)
     (i_maps _ I) (s, false) [] (fun m F => match F with end) eq_refl eq_refl) as (R1 & A & B & C).
  assert (HR : forall m, In m R1 -> In m (d_maps s) /\ m_link m = k_id k).
  { intros m Hm. apply C in Hm. destruct Hm as [[]|Hm]. tauto. }
  destruct (unmapped_list (k_id k) R1 s (i_maps _ I) HR) as (s' & E & U).
  assert (Eb : delete_mappings_criteria ref name c s = Ok s').
  { unfold delete_mappings_criteria. rewrite Hk. cbn [bind]. destruct c as [|r c]; [congruence|]. cbn [nil_b].
    cbv zeta in A, B |- *. rewrite A, B. destruct R1 as [|x R1]; cbn [nil_b negb] in *; exact E. }
  destruct (step_unmapped (delete_mappings_criteria ref name c) _ _ s s' I R Eb U (st_delete_mappings_criteria _ _ _ _ _ Eb)) as [-> ->].
  split; auto. eapply unmapped_ext; [|exact U]. intros m Hm. cbv beta. rewrite C, level_within_iff by auto.
  rewrite (chosen_criteria_iff c s (m_index m) (i_index _ I) Kn). cbn [In]. tauto.
Qed.

(** The flag is cleared exactly when a record lost its last mapping. *)
Lemma unmapped_cleared l X s s' k k' : unmapped l X s s' -> In k (d_links s) -> k_id k = l ->
  In k' (d_links s') -> k_id k' = l -> link_table (d_links s) -> link_flags_sound s -> k_complete k = true ->
  (k_complete k' = false <-> exists i, defined s i /\ (exists m, In m (d_maps s) /\ m_link m = l /\ m_index m = i) /\
     ~ exists m, In m (d_maps s') /\ m_link m = l /\ m_index m = i).
Proof.
  intros U Hk Ek Hk' Ek' T So Ec. pose proof (So k Hk Ec) as Lc. rewrite Ek in Lc.
  destruct (un_rest _ _ _ _ U) as (Ei & _).
  assert (Dx : (exists m, In m (d_maps s) /\ X m) -> (k_complete k' = false <-> ~ link_complete s' l)).
  { intros Hx. pose proof (un_flag _ _ _ _ U Hx k' Hk' Ek') as F. rewrite <- F. destruct (k_complete k'); intuition congruence. }
  split.
  - intros Hf.
    assert (Hn : ~ link_complete s' l).
    { intros Hc. assert (Hnx : forall m, In m (d_maps s) -> ~ X m).
      { intros m Hm Hx. apply (proj1 (Dx (ex_intro _ m (conj Hm Hx))) Hf). exact Hc. }
      pose proof (un_nothing _ _ _ _ U Hnx) as Es. subst s'. destruct T as [T _].
      assert (k = k') by (apply (nodup_map_inj k_id (d_links s)); auto; congruence). congruence. }
    assert (Hdec : exists i, In i (map ix_id (d_index s)) /\ i <> 0%Z /\ ~ exists m, In m (d_maps s') /\ m_link m = l /\ m_index m = i).
    { assert (E : mapping_is_complete l s' = false).
      { destruct (mapping_is_complete l s') eqn:Q; auto. exfalso. apply Hn. now apply link_complete_iff. }
      unfold mapping_is_complete in E. rewrite Ei in E.
      assert (Q : exists r, In r (d_index s) /\ (ix_id r =? 0)%Z || existsb (fun m => (m_link m =? l)%Z && (m_index m =? ix_id r)%Z) (d_maps s') = false).
      { clear -E. induction (d_index s) as [|a L IH]; cbn in E; [discriminate|]. apply andb_false_iff in E. destruct E as [E|E].
        - exists a. split; [now left|exact E].
        - destruct (IH E) as (r & Hr & Q). exists r. split; [now right|exact Q]. }
      destruct Q as (r & Hr & Q). apply orb_false_iff in Q. destruct Q as [Q1 Q2]. exists (ix_id r). split; [now apply in_map|].
      split; [lia|]. intros (m & Hm & A & B). rewrite existsb_false_iff in Q2. specialize (Q2 m Hm). lia. }
    destruct Hdec as (i & Hi & Hz & Hno). exists i.
    assert (Hdf : defined s i) by (split; [apply has_index_ids; exact Hi|exact Hz]). split; auto.
  - intros (i & Hi & (m & Hm & El & Em) & Hno).
    assert (Hx : ~ ~ X m).
    { intros Hx. apply Hno. destruct (proj2 (un_valued _ _ _ _ U (m_link m) (m_other m) (m_index m) (m_level m) (m_value m))) as (m' & H' & A & _ & B & _).
      - exists m. auto 10.
      - exists m'. split; auto. split; congruence. }
    destruct (k_complete k') eqn:Ek2; auto. exfalso. apply Hx. intros Hxm.
    assert (Hf : true = false); [|discriminate].
    apply (Dx (ex_intro _ m (conj Hm Hxm))). intros Hc. destruct (Hc i) as (m' & Q); [|apply Hno; exists m'; tauto].
    destruct Hi as [(r & Hr & Er) Hz]. split; auto. exists r. rewrite Ei. auto.
Qed.
