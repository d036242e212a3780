(** Effects of single operations: refusals, weights, links and mappings. *)
From Verif Require Import Prelude QLemmas BitFlags_Model BitFlags_Proofs Selectors_Model
  Selectors_Proofs LinkRef_Model LinkRef_Spec LinkRef_Proofs Db_Model Db_Spec Db_Proofs
  Db_ProofsLocal Db_ProofsMerge Db_ProofsRefresh Db_ProofsInv Db_ProofsInv2 Db_ProofsInv3
  Db_ProofsDelete Db_ProofsRun Db_ProofsOps.
From Coq Require Import ZifyBool ZifyNat Lqa.

Lemma bytes_eqb_spec a b : bytes_eqb a b = true <-> a = b.
Proof.
  revert b. induction a as [|x a IH]; intros [|y b]; cbn; try (split; [discriminate|discriminate]); [tauto|].
  rewrite andb_true_iff, N.eqb_eq, IH. split; [intros [-> ->]; auto|intros [= -> ->]; auto].
Qed.

Lemma delete_record_ok i s : maps_wf s -> has_index s i ->
  ((exists s', delete_index_record i s = Ok s') <->
   i <> 0%Z /\ forall m, In m (d_maps s) -> m_index m = i -> unambiguous s m).
Proof.
  intros M Hi. rewrite delete_record_eq.
  destruct (existsb (fun m => negb (bytes_eqb (m_level m) (full_level s))) (maps_of_index i s)) eqn:E.
  - split; [intros (s' & H); discriminate|]. intros [_ H]. exfalso. apply existsb_exists in E. destruct E as (m & Hm & Hl).
    apply filter_In in Hm. destruct Hm as [Hm Em]. apply negb_true_iff in Hl.
    assert (bytes_eqb (m_level m) (full_level s) = true); [|congruence]. apply bytes_eqb_spec. apply (H m Hm). lia.
  - assert (M' : maps_wf (removed i s)).
    { destruct M as [M1 M2 M3 M4]. split; cbn [removed set_maps d_maps].
      - apply nodup_map_filter. exact M1.
      - intros m Hm. apply filter_In in Hm. apply M2. tauto.
      - intros m p Hm. apply filter_In in Hm. apply M3. tauto.
      - intros m Hm. apply filter_In in Hm. apply M4. tauto. }
    destruct (refreshes_total (pairs (sources_mapped_to i s) (d_links s)) (removed i s) M') as (s1 & H1).
    rewrite H1. cbn [bind]. destruct (refreshes_spec _ _ _ H1) as ((Hs & _) & _).
    assert (Hf : exists r, index_find i s1 = Some r).
    { destruct (index_find i s1) eqn:Q; eauto. apply index_find_none in Q. exfalso. apply Q.
      destruct Hi as (r & Hr & Er). exists r. rewrite Hs. auto. }
    destruct Hf as (r & Hf). unfold index_delete. rewrite Hf. split.
    + intros (s' & H). destruct (i =? 0)%Z eqn:E0; [discriminate|]. split; [lia|]. intros m Hm Em.
      rewrite existsb_false_iff in E. specialize (E m). unfold maps_of_index in E. rewrite filter_In in E.
      unfold unambiguous. apply bytes_eqb_spec. apply negb_false_iff. apply E. split; auto. lia.
    + intros [Hn _]. destruct (i =? 0)%Z eqn:E0; [lia|]. eauto.
Qed.

(** Between two deletions. *)
Lemma dels_maps_in D s t i : dels_effect D s t -> ~ In i D ->
  ((forall m, In m (d_maps t) -> m_index m = i -> unambiguous t m) <->
   (forall m, In m (d_maps s) -> m_index m = i -> unambiguous s m)).
Proof.
  intros E Hi. assert (El : d_labels t = d_labels s) by (rewrite (ds_same _ _ _ E); reflexivity).
  unfold unambiguous. rewrite El. pose proof (valued_of_noprop _ _ _ (ds_maps _ _ _ E)) as V. split; intros H m Hm Em.
  - destruct (proj2 (V (m_link m) (m_other m) (m_index m) (m_level m) (m_value m))) as (m' & Hm' & _ & _ & A & B & _).
    { exists m. split; auto. split; [apply outside_iff; congruence|auto]. }
    rewrite <- B. apply H; auto. congruence.
  - destruct (proj1 (V (m_link m) (m_other m) (m_index m) (m_level m) (m_value m))) as (m' & Hm' & _ & _ & _ & A & B & _).
    { exists m. auto 10. }
    rewrite <- B. apply H; auto. congruence.
Qed.

Lemma delete_rows_ok rows : forall s x D, index_wf s -> maps_wf (fst x) -> dels D s (fst x) ->
  ((exists x', fold_res (fun x r =>
              match index_find (dr_id r) (fst x) with
              | None => Ok x
              | Some rec =>
                  if labels_eqb (ix_labels rec) (dr_labels r)
                  then do s' <- delete_index_record (ix_id rec) (fst x); Ok (s', true)
                  else Ok x
              end) rows x = Ok x') <-> deletable (fun i => chosen_by_rows rows s i /\ ~ In i D) s).
Proof.
  induction rows as [|r rows IH]; intros s x D W M Hd; cbn [fold_res].
  { split; [|eauto]. intros _ i ((q & [] & _) & _). }
  pose proof (dels_spec _ _ _ Hd) as Sp. pose proof (ds_index _ _ _ Sp) as Ei.
  assert (Skip : (forall i, chosen_by_rows [r] s i -> In i D) ->
    (deletable (fun i => chosen_by_rows (r :: rows) s i /\ ~ In i D) s <->
     deletable (fun i => chosen_by_rows rows s i /\ ~ In i D) s)).
  { intros Hr. unfold deletable. split; intros H i [Hc Hi]; apply H; split; auto.
    - destruct Hc as (q & Hq & Q). exists q. cbn. tauto.
    - destruct Hc as (q & [<-|Hq] & Q); [|exists q; tauto]. exfalso. apply Hi, Hr. exists r. cbn. tauto. }
  destruct (index_find (dr_id r) (fst x)) as [rec|] eqn:Ef.
  - apply index_find_spec in Ef. destruct Ef as [Hr Er].
    assert (Hr0 : In rec (d_index s) /\ ~ In (ix_id rec) D).
    { rewrite Ei in Hr. apply filter_In in Hr. destruct Hr as [A B]. split; auto. now apply outside_iff. }
    destruct (labels_eqb (ix_labels rec) (dr_labels r)) eqn:El.
    + apply labels_eqb_iff in El.
      assert (Ch : chosen_by_rows (r :: rows) s (ix_id rec)).
      { exists r. split; [now left|]. split; [congruence|].
        replace {| ix_id := ix_id rec; ix_labels := dr_labels r |} with rec by (rewrite <- El; now destruct rec). tauto. }
      pose proof (delete_record_ok (ix_id rec) (fst x) M (ex_intro _ rec (conj Hr eq_refl))) as Ok1.
      rewrite (dels_maps_in D s (fst x) (ix_id rec) Sp (proj2 Hr0)) in Ok1.
      destruct (delete_index_record (ix_id rec) (fst x)) as [s1|e] eqn:Ed.
      * cbn [bind].
        assert (Q : ix_id rec <> 0%Z /\ (forall m, In m (d_maps s) -> m_index m = ix_id rec -> unambiguous s m)) by (apply Ok1; eauto).
        assert (M1 : maps_wf s1).
        { eapply (steps_inv maps_wf); [exact maps_wf_prim|eapply st_delete_record; exact Ed|exact M]. }
        assert (Hd1 : dels (ix_id rec :: D) s s1).
        { eapply dels_snoc; [exact Hd|exists rec; auto|]. eapply delete_record_effect; [exists rec; auto|exact Ed]. }
        rewrite (IH s (s1, true) (ix_id rec :: D) W M1 Hd1). unfold deletable. split; intros H i [Hc Hi].
        -- destruct (Z.eq_dec i (ix_id rec)) as [->|Hne]; auto. apply H. split.
           ++ destruct Hc as (q & [<-|Hq] & Q1 & Q2); [congruence|exists q; auto].
           ++ intros [Q1|Q1]; [congruence|contradiction].
        -- apply H. split; [destruct Hc as (q & Hq & Q1); exists q; cbn; tauto|]. cbn in Hi. tauto.
      * cbn [bind]. split; [intros (x' & H); discriminate|]. intros H. exfalso.
        destruct (proj2 Ok1) as (s' & Hs); [|discriminate]. apply H. split; tauto.
    + cbn [bind]. rewrite (IH s x D W M Hd). symmetry. apply Skip.
      intros i (q & [<-|[]] & Q1 & Q2). exfalso.
      assert (rec = {| ix_id := i; ix_labels := dr_labels r |}).
      { apply (nodup_map_inj ix_id (d_index s)); auto; [apply (iw_unique _ W)|tauto|cbn; congruence]. }
      subst rec. cbn [ix_labels] in El. assert (labels_eqb (dr_labels r) (dr_labels r) = true) by now apply labels_eqb_iff.
      congruence.
  - cbn [bind]. rewrite (IH s x D W M Hd). symmetry. apply Skip. intros i (q & [<-|[]] & Q1 & Q2).
    apply index_find_none in Ef. destruct (in_dec Z.eq_dec i D) as [Hi|Hi]; auto. exfalso. apply Ef. subst i.
    eexists. split; [rewrite Ei; apply filter_In; split; [exact Q2|]|reflexivity]. now apply outside_iff.
Qed.

Lemma delete_list_ok l : forall s t D, NoDup (map ix_id l) -> (forall r, In r l -> In r (d_index s)) ->
  (forall r, In r l -> ~ In (ix_id r) D) -> maps_wf t -> dels D s t ->
  ((exists t', fold_res (fun s r => delete_index_record (ix_id r) s) l t = Ok t') <->
   deletable (fun i => In i (map ix_id l)) s).
Proof.
  induction l as [|r l IH]; intros s t D N Hi Ho M Hd; cbn [fold_res].
  { split; [intros _ i []|eauto]. }
  pose proof (dels_spec _ _ _ Hd) as Sp. cbn [map] in N. inversion N; subst.
  assert (Hr : In r (d_index t)).
  { rewrite (ds_index _ _ _ Sp). apply filter_In. split; [apply Hi; now left|]. apply outside_iff, Ho. now left. }
  pose proof (delete_record_ok (ix_id r) t M (ex_intro _ r (conj Hr eq_refl))) as Ok1.
  rewrite (dels_maps_in D s t (ix_id r) Sp (Ho r (or_introl eq_refl))) in Ok1.
  destruct (delete_index_record (ix_id r) t) as [t1|e] eqn:Ed; cbn [bind].
  - assert (Q : ix_id r <> 0%Z /\ (forall m, In m (d_maps s) -> m_index m = ix_id r -> unambiguous s m)) by (apply Ok1; eauto).
    assert (M1 : maps_wf t1).
    { eapply (steps_inv maps_wf); [exact maps_wf_prim|eapply st_delete_record; exact Ed|exact M]. }
    assert (Hd1 : dels (ix_id r :: D) s t1).
    { eapply dels_snoc; [exact Hd|exists r; auto|]. eapply delete_record_effect; [exists r; auto|exact Ed]. }
    rewrite (IH s t1 (ix_id r :: D)); auto.
    + unfold deletable. cbn [map]. split; intros H i Hc; [|apply H; now right]. destruct Hc as [<-|Hc]; auto.
    + intros x Hx. apply Hi. now right.
    + intros x Hx [E|E]; [|apply (Ho x); auto; now right]. apply H1. rewrite E. now apply in_map.
  - split; [intros (x' & H); discriminate|]. intros H. exfalso.
    destruct (proj2 Ok1) as (s' & Hs); [|discriminate]. apply H. now left.
Qed.

Lemma deleted_fk D s s' : deleted D s s' -> weight_index_refs s -> map_index_refs s -> fk_ok s' = true.
Proof.
  intros Hd Rw Rm. apply fk_ok_iff. split.
  - intros w Hw. apply (dl_weights _ _ _ Hd) in Hw. destruct Hw as [Hw Hn].
    destruct (Rw w Hw) as (r & Hr & Er). exists r. split; auto. apply (dl_index _ _ _ Hd). split; auto. now rewrite Er.
  - intros m Hm. destruct (proj1 (dl_maps _ _ _ Hd (m_link m) (m_other m) (m_index m) (m_level m) (m_value m))) as [(m0 & H0 & _ & _ & E & _) Hn].
    { exists m. auto 10. }
    destruct (Rm m0 H0) as (r & Hr & Er). exists r. split; [|congruence]. apply (dl_index _ _ _ Hd). split; auto. rewrite Er. now rewrite E.
Qed.
Definition refs_if_enforced (s : db) : Prop := d_fk s = true -> inv_fk s.

Lemma steps_fk s s' : steps s s' -> d_fk s' = d_fk s.
Proof.
  intros St. apply (steps_inv (fun t => d_fk t = d_fk s)) with (s := s); auto.
  intros a b P E. rewrite (fk_prim a b P). exact E.
Qed.

Lemma step_delete_rows rows s : inv s -> refs_if_enforced s ->
  let out := step (ODeleteIndexRows rows) s in
  (snd out = None <-> rows <> [] /\ deletable (chosen_by_rows rows s) s) /\
  (snd out = None -> deleted (chosen_by_rows rows s) s (fst out)) /\
  (snd out <> None -> fst out = s).
Proof.
  intros I R. cbv zeta. cbn [step]. 
  assert (Ok1 : (exists s', delete_index_rows rows s = Ok s') <-> rows <> [] /\ deletable (chosen_by_rows rows s) s).
  { unfold delete_index_rows. destruct rows as [|r rows]; cbn [nil_b].
    - split; [intros (s' & H); discriminate|intros [H _]; congruence].
    - pose proof (delete_rows_ok (r :: rows) s (s, false) [] (i_index _ I) (i_maps _ I) (dels_nil s)) as Q.
      split.
      + intros (s' & H). split; [discriminate|]. apply bind_ok in H. destruct H as (x & H & _).
        destruct Q as [Q _]. specialize (Q (ex_intro _ x H)). intros i Hi. apply Q. auto.
      + intros [_ H]. destruct Q as [_ Q]. destruct Q as (x & Hx).
        * intros i [Hi _]. now apply H.
        * cbv beta zeta in Hx |- *. rewrite Hx. cbn [bind]. eauto. }
  unfold transact. destruct (delete_index_rows rows s) as [s'|e] eqn:E.
  - pose proof (delete_rows_deleted _ _ _ (i_index _ I) E) as Hd.
    assert (Fk : d_fk s' && negb (fk_ok s') = false).
    { destruct (d_fk s') eqn:Ef; auto. rewrite (steps_fk _ _ (st_delete_rows _ _ _ E)) in Ef. destruct (R Ef).
      rewrite (deleted_fk _ _ _ Hd); auto. }
    rewrite Fk. cbn [fst snd]. split; [|split; [auto|congruence]]. split; [intros _; apply Ok1; eauto|auto].
  - cbn [fst snd]. split; [|split; [discriminate|auto]]. split; [discriminate|]. intros H. apply Ok1 in H.
    destruct H; discriminate.
Qed.

Lemma step_delete_criteria c s : inv s -> refs_if_enforced s -> known_columns c s ->
  let out := step (ODeleteIndexCriteria c) s in
  (snd out = None <-> c <> [] /\ deletable (chosen_by_criteria c s) s) /\
  (snd out = None -> deleted (chosen_by_criteria c s) s (fst out)) /\
  (snd out <> None -> fst out = s).
Proof.
  intros I R Kn. cbv zeta. cbn [step].
  assert (Ok1 : (exists s', delete_index_criteria c s = Ok s') <-> c <> [] /\ deletable (chosen_by_criteria c s) s).
  { unfold delete_index_criteria. destruct c as [|r c]; cbn [nil_b].
    - split; [intros (s' & H); discriminate|intros [H _]; congruence].
    - assert (N : NoDup (map ix_id (filter_by_label (r :: c) s))) by (apply nodup_map_filter, (iw_unique _ (i_index _ I))).
      assert (Hin : forall x, In x (filter_by_label (r :: c) s) -> In x (d_index s))
        by (intros x Hx; apply filter_In in Hx; tauto).
      pose proof (delete_list_ok _ s s [] N Hin (fun _ _ F => F) (i_maps _ I) (dels_nil s)) as Q.
      split.
      + intros (s' & H). split; [discriminate|]. apply bind_ok in H. destruct H as (x & H & _).
        destruct Q as [Q _]. specialize (Q (ex_intro _ x H)). intros i Hi. apply Q.
        apply chosen_criteria_iff; auto. apply (i_index _ I).
      + intros [_ H]. destruct Q as [_ Q]. destruct Q as (x & Hx).
        * intros i Hi. apply H. apply chosen_criteria_iff; auto. apply (i_index _ I).
        * cbv beta zeta in Hx |- *. rewrite Hx. cbn [bind]. eauto. }
  unfold transact. destruct (delete_index_criteria c s) as [s'|e] eqn:E.
  - pose proof (delete_criteria_deleted _ _ _ (i_index _ I) Kn E) as Hd.
    assert (Fk : d_fk s' && negb (fk_ok s') = false).
    { destruct (d_fk s') eqn:Ef; auto. rewrite (steps_fk _ _ (st_delete_criteria _ _ _ E)) in Ef. destruct (R Ef).
      rewrite (deleted_fk _ _ _ Hd); auto. }
    rewrite Fk. cbn [fst snd]. split; [|split; [auto|congruence]]. split; [intros _; apply Ok1; eauto|auto].
  - cbn [fst snd]. split; [|split; [discriminate|auto]]. split; [discriminate|]. intros H. apply Ok1 in H.
    destruct H; discriminate.
Qed.
