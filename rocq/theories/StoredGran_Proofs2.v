(** What the calls do to the index if they do not count a change. *)
From Verif Require Import Prelude QLemmas BitFlags_Model BitFlags_Proofs Selectors_Model
  Selectors_Proofs LinkRef_Model LinkRef_Spec LinkRef_Proofs Db_Model Db_Spec Db_Proofs Db_ProofsLocal Db_ProofsMerge
  Db_ProofsRefresh Db_ProofsInv Db_ProofsInv2 Db_ProofsInv3 Db_ProofsDelete Db_ProofsRun
  Granularity_Model StoredGran_Model StoredGran_Proofs.

Definition index_op (o : op) : bool :=
  match o with OInsertIndex _ _ _ _ _ | OUpdateIndex _ _ | ODeleteIndexRows _ | ODeleteIndexCriteria _ => true | _ => false end.

Lemma quiet_transact body s : (forall s', body s = Ok s' -> quiet s s') -> quiet s (fst (transact body s)).
Proof. intros H. apply (transact_fst body s (quiet s)); [apply quiet_refl|exact H]. Qed.

Lemma quiet_other o s : index_op o = false -> by_other_call o = false -> quiet s (fst (step o s)).
Proof.
  destruct o; cbn [step index_op by_other_call]; intros H1 H2; try discriminate; try (apply quiet_transact; intros s' H).
  - injection H as <-. split; reflexivity.
  - unfold add_weight_group in H. apply qsteps_quiet. repeat step_res H; subst; try (eapply qs_one, q_group_add; eassumption).
    injection H as <-. eapply qs_step; [eapply qs_one, q_group_add; eassumption|apply q_default].
  - unfold edit_weight_group in H. apply qsteps_quiet. repeat step_res H; subst; [eapply qs_one, q_group_update; eassumption|apply qs_refl].
  - unfold drop_weight_group in H. apply qsteps_quiet. repeat step_res H; subst; try apply qs_refl.
    assert (H1' := qs_one _ _ (q_group_delete s (g_id g))).
    destruct o as [i|]; auto. destruct (g_id g =? i)%Z; auto. eapply qs_step; [exact H1'|apply q_default].
  - apply qsteps_quiet. eapply qs_insert_weights, H.
  - apply qsteps_quiet. eapply qs_update_weights, H.
  - apply qsteps_quiet. eapply qs_delete_weights_rows, H.
  - apply qsteps_quiet. eapply qs_delete_weights_criteria, H.
  - apply qsteps_quiet. eapply qs_add_link, H.
  - apply qsteps_quiet. eapply qs_edit_link, H.
  - apply qsteps_quiet. unfold drop_link in H. step_res H. injection H as <-. apply qs_one, q_link_delete.
  - apply qsteps_quiet. eapply qs_insert_mappings2, H.
  - apply qsteps_quiet. eapply qs_insert_mappings, H.
  - apply qsteps_quiet. eapply qs_update_mappings, H.
  - apply qsteps_quiet. eapply qs_delete_mappings_rows, H.
  - apply qsteps_quiet. eapply qs_delete_mappings_criteria, H.
  - apply qsteps_quiet, qs_reify.
  - split; reflexivity.
Qed.

(** Label columns are changed by the calls for them only. *)
Lemma labels_prim s s' : @prim no_column s s' -> d_labels s' = d_labels s.
Proof.
  intros P. destruct P; try (match goal with H : @allowed _ = true |- _ => discriminate H end);
    try (solve [match goal with H : _ = Ok _ |- _ => eq_prim H; reflexivity | |- _ => reflexivity end]).
  - unfold group_delete. cbn [d_fk set_groups]. destruct (d_fk s); reflexivity.
  - unfold link_delete. cbn [d_fk set_links]. destruct (d_fk s); reflexivity.
Qed.
Lemma labels_kept o s : by_other_call o = false -> d_labels (fst (step o s)) = d_labels s.
Proof.
  intros H. destruct (is_reopen_dec o) as [Hr|Hr]; [destruct o; try (now destruct Hr); reflexivity|].
  assert (St : @steps no_column s (fst (step o s))).
  { apply step_steps_gen; auto. intros Hc. destruct o; try (now destruct Hc); discriminate H. }
  clear H Hr. remember (fst (step o s)) as s'. clear Heqs'. induction St as [s|s s1 s' H IH P]; [reflexivity|].
  rewrite (labels_prim _ _ P). exact IH.
Qed.

Definition same_ids (s s' : db) : Prop := map ix_id (d_index s') = map ix_id (d_index s).

(** insert_index without a new record: the ids stay, and without replacing the records do. *)
Lemma insert_quiet wsel wcols lp wp rows s s' : insert_index wsel wcols lp wp rows s = Ok s' ->
  label_inserted wsel wcols lp wp rows s = false ->
  same_ids s s' /\ (lp <> PReplace -> d_index s' = d_index s).
Proof.
  unfold insert_index, label_inserted. intros H F. step_res H; [discriminate|]. step_res H; [discriminate|]. step_res H.
  rewrite E1 in F. cbv beta iota delta [bind] in F. step_res H. rewrite E2 in F. repeat step_res H. subst s'. cbv zeta. rename a0 into st.
  assert (P : is_label st = false -> same_ids s (is_db st) /\ (lp <> PReplace -> d_index (is_db st) = d_index s)).
  { revert E2. apply (fold_res_inv (fun st => is_label st = false -> same_ids s (is_db st) /\ (lp <> PReplace -> d_index (is_db st) = d_index s))).
    - intros _. split; [reflexivity|auto].
    - intros st1 r st2 _ IH H. unfold insert_index_row in H. step_res H; [injection H as <-; auto|]. step_res H.
      assert (Q : is_label (fst a0) = false -> same_ids s (is_db (fst a0)) /\ (lp <> PReplace -> d_index (is_db (fst a0)) = d_index s)).
      { repeat step_res E3; subst; cbn [fst is_db is_label]; auto; try discriminate.
        intros Hl. destruct (IH Hl) as [I1 _]. split; [|congruence].
        unfold same_ids in *. rewrite <- I1.
        match goal with Hu : index_update _ _ _ = Ok _ |- _ => unfold index_update in Hu; repeat step_res Hu; subst; try reflexivity end.
        cbn. rewrite map_map. apply map_ext. intros x. match goal with |- context [(ix_id x =? ?z)%Z] => destruct (Z.eqb_spec (ix_id x) z) end; cbn; auto. }
      revert H. apply (fold_res_inv (fun st => is_label st = false -> same_ids s (is_db st) /\ (lp <> PReplace -> d_index (is_db st) = d_index s))); auto.
      intros st3 [og cc] st4 _ IH4 H5. unfold insert_index_weight in H5.
      repeat step_res H5; subst; auto; cbn [is_label is_db]; intros Hl; destruct (IH4 Hl) as [I1 I2];
        match goal with Hw : _ = Ok ?x |- context [?x] =>
          assert (Q2 : quiet (is_db st3) x) by (apply qprim_quiet; first [eapply q_weight_update; eassumption|eapply q_weight_add; eassumption]) end;
        destruct Q2 as [_ Q2]; unfold same_ids in *; rewrite Q2; auto. }
  cbn in F. rewrite F. cbn [orb]. destruct (is_weight st); exact (P F).
Qed.

Lemma update_quiet merge rows s s' : update_index merge rows s = Ok s' -> index_updated merge rows s = false -> d_index s' = d_index s.
Proof.
  unfold update_index, index_updated. intros H F. step_res H. rewrite E in F. injection H as <-. apply orb_false_iff in F. destruct F as [F1 F2].
  assert (P : us_updated a = false -> d_index (us_db a) = d_index s).
  { revert E. apply (fold_res_inv (fun st => us_updated st = false -> d_index (us_db st) = d_index s)); [auto|].
    intros st r st' _ IH H. unfold update_index_row in H. repeat step_res H; subst; auto; discriminate. }
  destruct (us_merged a); [auto|discriminate].
Qed.

Lemma delete_rows_quiet rows s s' : delete_index_rows rows s = Ok s' -> rows_deleted rows s = false -> d_index s' = d_index s.
Proof.
  unfold delete_index_rows, rows_deleted. intros H F. step_res H; [discriminate|]. step_res H. rewrite E0 in F. injection H as <-. rewrite F.
  assert (P : snd a = false -> d_index (fst a) = d_index s).
  { revert E0. apply (fold_res_inv (fun x => snd x = false -> d_index (fst x) = d_index s)); [auto|].
    intros x r x' _ IH H. repeat step_res H; subst; auto. discriminate. }
  auto.
Qed.
Lemma delete_criteria_quiet c s s' : delete_index_criteria c s = Ok s' -> nil_b (filter_by_label c s) = true -> d_index s' = d_index s.
Proof.
  unfold delete_index_criteria. intros H F. step_res H; [discriminate|]. cbv zeta in H. rewrite F in H.
  destruct (filter_by_label c s); [|discriminate F]. cbn in H. now injection H as <-.
Qed.
