(** Histories. *)
From Verif Require Import Prelude QLemmas BitFlags_Model Selectors_Model LinkRef_Model Db_Model Db_Spec Db_Proofs Db_ProofsLocal
  Db_ProofsRun Granularity_Model Granularity_Spec Granularity_Proofs Granularity_Proofs2 Granularity_Proofs3 Granularity_Properties
  StoredGran_Model StoredGran_Spec StoredGran_Proofs StoredGran_Proofs2 StoredGran_Proofs3.
From Coq Require Import Reals.

Lemma inv_structs x d : inv d -> inv (set_structs x d).
Proof.
  intros [A B C E F]. split.
  - destruct A; constructor; auto.
  - exact B.
  - destruct C; constructor; auto.
  - exact E.
  - destruct F; constructor; auto.
Qed.

Lemma known_ext d d' : d_index d' = d_index d -> forall r, known d' r <-> known d r.
Proof. intros E r. unfold known. now rewrite E. Qed.
Lemma classes_ext d d' bits bs : d_index d' = d_index d -> classes d' bits bs -> classes d bits bs.
Proof. intros E [C1 C2 C3 C4]. constructor; auto. intros r. rewrite C2. now apply known_ext. Qed.
Lemma right_ext d d' r : d_index d' = d_index d -> right d r -> right d' r.
Proof.
  intros E. unfold right. destruct (snd r) as [g|].
  - intros (H1 & (x & Hx) & H3). split; [exact H1|]. split; [exists x; now apply (known_ext d d' E)|].
    intros bs B. apply H3. exact (classes_ext d d' _ bs E B).
  - intros [H|H]; [now left|right]. intros x Hx. apply (H x). now apply (known_ext d d' E).
Qed.
Lemma all_right_with d defs rows : Forall (right d) rows -> all_right (with_rows d defs rows).
Proof. intros H. unfold all_right. cbn [gs_rows gs_db with_rows]. eapply Forall_impl; [|exact H]. intros r. now apply right_ext. Qed.

Record good (s : gspace) : Prop := {
  go_inv : inv (gs_db s);
  go_fits : fits (gs_db s) (gs_rows s);
  go_bits : d_structs (gs_db s) = map fst (gs_rows s)
}.
Lemma good_with d defs rows : inv d -> fits d rows -> good (with_rows d defs rows).
Proof. intros I F. constructor; [now apply inv_structs|exact F|reflexivity]. Qed.
Lemma good_fresh : good gfresh.
Proof. constructor; [apply inv_fresh|constructor|reflexivity]. Qed.

Lemma length_keep {A B} (l : list A) : forall (l' : list B) flags, length l' = length l -> length (keep flags l') = length (keep flags l).
Proof.
  induction l as [|a l IH]; intros [|b l'] [|[|] flags] E; cbn [keep length] in *; try discriminate; auto.
Qed.

Lemma fits_labels d d' rows : d_labels d' = d_labels d -> fits d rows -> fits d' rows.
Proof. intros E. unfold fits. now rewrite E. Qed.

Lemma step_inv' o d : inv d -> forall d' e, step o d = (d', e) -> inv d'.
Proof. intros I d' e E. pose proof (step_inv o d I) as H. now rewrite E in H. Qed.
Lemma labels_kept' o d : by_other_call o = false -> forall d' e, step o d = (d', e) -> d_labels d' = d_labels d.
Proof. intros I d' e E. pose proof (labels_kept o d I) as H. now rewrite E in H. Qed.

(** What becomes of the table in a call of Db_Model that returns. *)
Lemma regrade_cases o d s s' : good s -> by_other_call o = false -> step o (gs_db s) = (d, None) -> regrade o d s = Ok s' ->
  exists rows defs, s' = with_rows d defs rows /\ fits d rows /\ (gs_defs s = true -> map fst rows = map fst (gs_rows s)) /\
    (Forall (right d) rows \/ (rows = gs_rows s /\ same_ids (gs_db s) d /\ (careful (GDb o) -> d_index d = d_index (gs_db s)) /\
       (forall m u, o = OUpdateIndex m u -> d_index d = d_index (gs_db s)))).
Proof.
  intros [I F B] H1 E R. pose proof (step_inv' o _ I _ _ E) as I'. pose proof (labels_kept' o _ H1 _ _ E) as L.
  assert (F' : fits d (gs_rows s)) by (apply (fits_labels (gs_db s)); auto).
  assert (Again : (do rows <- refresh (gs_rows s) d; Ok (with_rows d (gs_defs s) rows)) = Ok s' ->
    exists rows defs, s' = with_rows d defs rows /\ fits d rows /\ (gs_defs s = true -> map fst rows = map fst (gs_rows s)) /\ (Forall (right d) rows \/
      (rows = gs_rows s /\ same_ids (gs_db s) d /\ (careful (GDb o) -> d_index d = d_index (gs_db s)) /\
       (forall m u, o = OUpdateIndex m u -> d_index d = d_index (gs_db s))))).
  { intros R'. apply bind_ok in R'. destruct R' as (rows & Er & R'). injection R' as <-.
    destruct (refresh_right d _ _ (i_index _ I') F' Er) as (A1 & A2 & A3). exists rows, (gs_defs s). auto. }
  assert (Same : forall (Hs : same_ids (gs_db s) d) (Hc : careful (GDb o) -> d_index d = d_index (gs_db s))
      (Hu : forall m u, o = OUpdateIndex m u -> d_index d = d_index (gs_db s)),
      Ok (with_rows d (gs_defs s) (gs_rows s)) = Ok s' ->
    exists rows defs, s' = with_rows d defs rows /\ fits d rows /\ (gs_defs s = true -> map fst rows = map fst (gs_rows s)) /\ (Forall (right d) rows \/
      (rows = gs_rows s /\ same_ids (gs_db s) d /\ (careful (GDb o) -> d_index d = d_index (gs_db s)) /\
       (forall m u, o = OUpdateIndex m u -> d_index d = d_index (gs_db s))))).
  { intros Hs Hc Hu R'. injection R' as <-. exists (gs_rows s), (gs_defs s). repeat split; auto. }
  assert (Eqs : forall x, d_index x = d_index (gs_db s) -> same_ids (gs_db s) x) by (intros x Ex; unfold same_ids; now rewrite Ex).
  assert (Ok_of : forall body, transact body (gs_db s) = (d, None) -> body (gs_db s) = Ok d).
  { intros body T. destruct (transact_cases body (gs_db s)) as [(x & Hb & T' & _)|(e & T')]; rewrite T' in T; [|discriminate T]. injection T as <-. exact Hb. }
  destruct (index_op o) eqn:Hi.
  - destruct o; try discriminate Hi; cbn [step] in E; apply Ok_of in E; cbn [regrade] in R.
    + destruct (label_inserted _ _ _ _ _ _) eqn:Fl.
      * unfold refresh_or_rebuild in R. destruct (gs_defs s) eqn:Ed.
        -- apply bind_ok in R. destruct R as (rs & Er & R). injection R as <-.
           destruct (refresh_right d _ _ (i_index _ I') F' Er) as (A1 & A2 & A3). exists rs, true. auto.
        -- apply bind_ok in R. destruct R as (rs & Er & R). injection R as <-.
           destruct (rebuild_right d _ _ (i_index _ I') Er) as (A1 & A2 & A3). exists rs, true. repeat split; auto. discriminate.
      * destruct (insert_quiet _ _ _ _ _ _ _ E Fl) as [Q1 Q2]. apply Same in R; auto.
        -- cbn [careful]. intros Hc. apply Q2. intros ->. exact Hc.
        -- discriminate.
    + destruct (index_updated _ _ _) eqn:Fl; [auto|]. pose proof (update_quiet _ _ _ _ E Fl) as Q. apply Same in R; auto.
    + destruct (rows_deleted _ _) eqn:Fl; [auto|]. pose proof (delete_rows_quiet _ _ _ E Fl) as Q. apply Same in R; auto.
    + destruct (nil_b _) eqn:Fl; [|auto]. pose proof (delete_criteria_quiet _ _ _ E Fl) as Q. apply Same in R; auto.
  - pose proof (quiet_other o (gs_db s) Hi H1) as [_ Q]. rewrite E in Q. cbn [fst] in Q.
    assert (R' : Ok (with_rows d (gs_defs s) (gs_rows s)) = Ok s') by (destruct o; try discriminate Hi; try discriminate H1; exact R).
    apply Same in R'; auto.
Qed.

Lemma step_err o d d' e : by_other_call o = false -> step o d = (d', Some e) -> d_index d' = d_index d.
Proof.
  intros H E. destruct (index_op o) eqn:Hi.
  - assert (T : forall body, transact body d = (d', Some e) -> d_index d' = d_index d).
    { intros body T. destruct (transact_cases body d) as [(x & Hb & T' & _)|(e' & T')]; rewrite T' in T; [discriminate T|]. now injection T as <- _. }
    destruct o; try discriminate Hi; exact (T _ E).
  - pose proof (quiet_other o d Hi H) as [_ Q]. now rewrite E in Q.
Qed.

Lemma drop_labels cols clash d d' : step (ODropColumns cols clash) d = (d', None) ->
  d_labels d' = keep (map (fun c => negb (existsb (text_eqb c) cols)) (d_labels d)) (d_labels d) /\ map ix_id (d_index d') = map ix_id (d_index d).
Proof.
  cbn [step]. intros T. destruct (transact_cases (drop_columns cols clash) d) as [(x & Hb & T' & _)|(e & T')]; rewrite T' in T; [|discriminate T].
  injection T as <-. unfold drop_columns in Hb. destruct cols; [discriminate|]. cbv zeta in Hb. step_res Hb; [discriminate|]. step_res Hb; [discriminate|].
  injection Hb as <-. split; [reflexivity|]. cbn. rewrite map_map. reflexivity.
Qed.
Lemma rename_labels m d d' : step (ORenameColumns m) d = (d', None) -> length (d_labels d') = length (d_labels d) /\ d_index d' = d_index d.
Proof.
  cbn [step]. intros T. destruct (transact_cases (rename_columns m) d) as [(x & Hb & T' & _)|(e & T')]; rewrite T' in T; [|discriminate T].
  injection T as <-. unfold rename_columns in Hb. repeat step_res Hb; try discriminate. subst x. cbn. split; [apply map_length|reflexivity].
Qed.

Lemma gstep_good o s : good s -> good (fst (gstep o s)).
Proof.
  intros G. pose proof G as [I F B]. destruct o as [o|cols pdefs|m|cols clash|pdefs]; cbn [gstep].
  - destruct (by_other_call o) eqn:H1; [exact G|]. destruct (step o (gs_db s)) as [d [e|]] eqn:E.
    + cbn [fst]. apply good_with; [exact (step_inv' _ _ I _ _ E)|]. apply (fits_labels (gs_db s)); auto. exact (labels_kept' _ _ H1 _ _ E).
    + unfold finish. destruct (regrade o d s) as [s'|e] eqn:R; [|exact G]. cbn [fst].
      destruct (regrade_cases o d s s' G H1 E R) as (rows & defs & -> & F' & _). apply good_with; auto. exact (step_inv' _ _ I _ _ E).
  - destruct (step (OAddColumns cols) (gs_db s)) as [d [e|]] eqn:E; [exact G|]. unfold finish.
    destruct (rebuild pdefs d) as [rows|e] eqn:R; [|exact G]. cbn [bind fst]. pose proof (step_inv' _ _ I _ _ E) as I'.
    apply good_with; [exact I'|]. exact (proj1 (proj2 (rebuild_right d pdefs rows (i_index _ I') R))).
  - destruct (step (ORenameColumns m) (gs_db s)) as [d [e|]] eqn:E; [exact G|]. cbn [fst].
    apply good_with; [exact (step_inv' _ _ I _ _ E)|]. destruct (rename_labels _ _ _ E) as [L _].
    unfold fits in *. now rewrite L.
  - cbv zeta. destruct (step (ODropColumns cols clash) (gs_db s)) as [d [e|]] eqn:E; [exact G|]. cbn [fst].
    apply good_with; [exact (step_inv' _ _ I _ _ E)|]. destruct (drop_labels _ _ _ _ E) as [L _].
    unfold fits in *. rewrite L. apply Forall_map. eapply Forall_impl; [|exact F]. intros r Hr. cbn [fst]. now apply length_keep.
  - unfold finish. destruct (rebuild pdefs (gs_db s)) as [rows|e] eqn:R; [|exact G]. cbn [bind fst].
    apply good_with; [exact I|]. exact (proj1 (proj2 (rebuild_right _ pdefs rows (i_index _ I) R))).
Qed.

Lemma grun_snoc ops o : grun (ops ++ [o]) = fst (gstep o (grun ops)).
Proof. unfold grun. rewrite fold_left_app. reflexivity. Qed.
Lemma grun_good ops : good (grun ops).
Proof. induction ops as [|o ops IH] using rev_ind; [apply good_fresh|]. rewrite grun_snoc. now apply gstep_good. Qed.

Lemma gstep_right o s : good s -> careful o -> all_right s -> all_right (fst (gstep o s)).
Proof.
  intros G C A. pose proof G as [I F B]. destruct o as [o|cols pdefs|m|cols clash|pdefs]; cbn [gstep].
  - destruct (by_other_call o) eqn:H1; [exact A|]. destruct (step o (gs_db s)) as [d [e|]] eqn:E.
    + cbn [fst]. apply all_right_with. pose proof (step_err _ _ _ _ H1 E) as Q. eapply Forall_impl; [|exact A]. intros r. now apply right_ext.
    + unfold finish. destruct (regrade o d s) as [s'|e] eqn:R; [|exact A]. cbn [fst].
      destruct (regrade_cases o d s s' G H1 E R) as (rows & defs & -> & F' & _ & [Ar|(-> & _ & Q & _)]); apply all_right_with; auto.
      eapply Forall_impl; [|exact A]. intros r. apply right_ext. exact (Q C).
  - destruct (step (OAddColumns cols) (gs_db s)) as [d [e|]] eqn:E; [exact A|]. unfold finish.
    destruct (rebuild pdefs d) as [rows|e] eqn:R; [|exact A]. cbn [bind fst]. pose proof (step_inv' _ _ I _ _ E) as I'.
    apply all_right_with. exact (proj1 (rebuild_right d pdefs rows (i_index _ I') R)).
  - destruct (step (ORenameColumns m) (gs_db s)) as [d [e|]] eqn:E; [exact A|]. cbn [fst].
    apply all_right_with. destruct (rename_labels _ _ _ E) as [_ Q]. eapply Forall_impl; [|exact A]. intros r. now apply right_ext.
  - destruct C.
  - unfold finish. destruct (rebuild pdefs (gs_db s)) as [rows|e] eqn:R; [|exact A]. cbn [bind fst].
    apply all_right_with. exact (proj1 (rebuild_right _ pdefs rows (i_index _ I) R)).
Qed.
Lemma grun_right ops : Forall careful ops -> all_right (grun ops).
Proof.
  induction ops as [|o ops IH] using rev_ind; intros C; [constructor|]. apply Forall_app in C. destruct C as [C1 C2].
  rewrite grun_snoc. apply gstep_right; [apply grun_good|now inversion C2|auto].
Qed.

Lemma same_ids_has d d' : same_ids d d' -> forall i, has_index d' i <-> has_index d i.
Proof. intros E i. rewrite !Db_ProofsRefresh.has_index_ids. unfold same_ids in E. now rewrite E. Qed.

Lemma gstep_heals o s s' : good s -> gstep o s = (s', None) -> changes o s s' \/ relabels o s s' -> all_right s'.
Proof.
  intros G E C. pose proof G as [I F B].
  assert (Stuck : same_ids (gs_db s) (gs_db s') -> match o with GPartition _ | GAddColumns _ _ => False | _ => True end ->
     (forall m u, o = GDb (OUpdateIndex m u) -> d_index (gs_db s') = d_index (gs_db s)) -> all_right s').
  { intros Q No Hu. exfalso. destruct C as [[(i & [[H1 H2]|[H1 H2]])|H]|H].
    - apply H2. now apply (same_ids_has _ _ Q).
    - apply H1. now apply (same_ids_has _ _ Q).
    - destruct o; auto.
    - unfold relabels in H. destruct o as [[]| | | |]; auto. apply H. symmetry. eapply Hu. reflexivity. }
  destruct o as [o|cols pdefs|m|cols clash|pdefs]; cbn [gstep] in E.
  - destruct (by_other_call o) eqn:H1.
    + injection E as <-. apply Stuck; auto. reflexivity.
    + destruct (step o (gs_db s)) as [d [e|]] eqn:Es; [discriminate E|]. unfold finish in E. destruct (regrade o d s) as [s1|e] eqn:R; [|discriminate E].
      injection E as <-. destruct (regrade_cases o d s s1 G H1 Es R) as (rows & defs & -> & F' & _ & [Ar|(-> & Q & _ & Qu)]); [now apply all_right_with|].
      apply Stuck; auto. intros m u Eo. injection Eo as ->. exact (Qu m u eq_refl).
  - destruct (step (OAddColumns cols) (gs_db s)) as [d [e|]] eqn:Es; [discriminate E|]. unfold finish in E.
    destruct (rebuild pdefs d) as [rows|e] eqn:R; [|discriminate E]. cbn [bind] in E. injection E as <-. pose proof (step_inv' _ _ I _ _ Es) as I'.
    apply all_right_with. exact (proj1 (rebuild_right d pdefs rows (i_index _ I') R)).
  - destruct (step (ORenameColumns m) (gs_db s)) as [d [e|]] eqn:Es; [discriminate E|]. injection E as <-.
    destruct (rename_labels _ _ _ Es) as [_ Q]. apply Stuck; [unfold same_ids; cbn; now rewrite Q|constructor|discriminate].
  - cbv zeta in E. destruct (step (ODropColumns cols clash) (gs_db s)) as [d [e|]] eqn:Es; [discriminate E|]. injection E as <-.
    destruct (drop_labels _ _ _ _ Es) as [_ Q]. apply Stuck; auto. discriminate.
  - unfold finish in E. destruct (rebuild pdefs (gs_db s)) as [rows|e] eqn:R; [|discriminate E]. cbn [bind] in E. injection E as <-.
    apply all_right_with. exact (proj1 (rebuild_right _ pdefs rows (i_index _ I) R)).
Qed.

(** *** What right granularities say *)

Lemma right_determined d bits a b : index_wf d -> length bits = length (d_labels d) -> right d (bits, a) -> right d (bits, b) -> a = b.
Proof. intros W L Ha Hb. apply (calc_right d bits _ W L) in Ha, Hb. congruence. Qed.

Lemma right_mono d r r' g g' : index_wf d -> length (fst r) = length (d_labels d) -> length (fst r') = length (d_labels d) ->
  right d r -> right d r' -> snd r = Some g -> snd r' = Some g' ->
  (forall n, nth_error (fst r) n = Some true -> nth_error (fst r') n = Some true) -> (g <= g')%R.
Proof.
  destruct r as [b o], r' as [b' o']. cbn [fst snd]. intros W L L' H H' -> -> M. apply (calc_right d _ _ W L) in H. apply (calc_right d _ _ W L') in H'.
  apply (C04_monotone (compress (d_labels d) b) (compress (d_labels d) b') d g g' W); auto.
  intros c Hc. apply in_compress in Hc. apply in_compress. destruct Hc as (n & E1 & E2). exists n. auto.
Qed.

Lemma right_finest d r w g : index_wf d -> length (fst r) = length (d_labels d) -> right d r -> right d (w, Some g) -> snd r = Some g ->
  length w = length (d_labels d) -> (forall n b, nth_error w n = Some b -> b = true) ->
  forall x y, known d x -> known d y -> alike (fst r) x y -> x = y.
Proof.
  destruct r as [b o]. cbn [fst snd]. intros W L H Hw -> Lw All x y Hx Hy A.
  apply (calc_right d _ _ W L) in H. apply (calc_right d _ _ W Lw) in Hw.
  assert (Ew : w = map (fun _ => true) (d_labels d)).
  { apply nth_error_ext. intros n. rewrite nth_error_map. destruct (nth_error w n) as [v|] eqn:E.
    - rewrite (All n v E). assert (Hn : n < length w) by (apply nth_error_Some; congruence).
      destruct (nth_error (d_labels d) n) eqn:E'; [reflexivity|]. apply nth_error_None in E'. lia.
    - apply nth_error_None in E. destruct (nth_error (d_labels d) n) eqn:E'; [|reflexivity]. 
      assert (n < length (d_labels d)) by (apply nth_error_Some; congruence). lia. }
  subst w. unfold structure_granularity in H, Hw. rewrite compress_all in Hw.
  destruct (C04_whole _ d g g W Hw H) as [_ [C _]]. apply (C eq_refl); auto.
  apply same_alike; auto; [exact (proj1 Hx)|exact (proj1 Hy)].
Qed.
