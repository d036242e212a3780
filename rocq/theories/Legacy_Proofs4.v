From Verif Require Import Prelude Partitions_Model Partitions_Spec Partitions_Proofs Columns_Model Columns_Spec Columns_Proofs
  Columns_Proofs2 Columns_Proofs3 Legacy_Model Legacy_Spec Legacy_Proofs Legacy_Proofs2 Legacy_Proofs3.
From Coq Require Import Permutation.
Local Open Scope nat_scope.

(* -------------------------------------------------------- removing *)
Definition thin (drop cols : list string) (k : kind) (auto : bool) (t : table) : table :=
  {| t_auto := auto; t_kind := k; t_cols := fixed k ++ keeps drop cols; t_rows := map (keep_row drop (fixed k ++ cols)) (t_rows t) |}.

Section Drop.
Context (drop cols : list string) (R : forall c, In c drop -> ~ reserved_name c).

Lemma wf_width auto k t r : table_wf auto k cols t -> In r (t_rows t) -> length r = length (fixed k ++ cols).
Proof. intros W Hr. now rewrite (tw_width _ _ _ _ W r Hr), (tw_cols _ _ _ _ W). Qed.
Lemma thin_ids auto k t : k <> KOther -> table_wf auto k cols t -> ids (thin drop cols k auto t) = ids t.
Proof.
  intros K W. unfold ids, thin. cbn [t_rows]. rewrite map_map. apply map_ext_in. intros r Hr. apply (keep_labels drop k cols r R); [|exact K].
  eapply wf_width; eauto.
Qed.
Lemma thin_labels auto k t : table_wf auto k cols t ->
  map (labels_in k) (t_rows (thin drop cols k auto t)) = map (keep_row drop cols) (map (labels_in k) (t_rows t)).
Proof.
  intros W. unfold thin. cbn [t_rows]. rewrite !map_map. apply map_ext_in. intros r Hr. apply (keep_labels drop k cols r R). eapply wf_width; eauto.
Qed.
Lemma thin_cells auto k t r : table_wf auto k cols t -> In r (t_rows (thin drop cols k auto t)) -> cells_ok k r = true.
Proof.
  intros W Hr. unfold thin in Hr. cbn [t_rows] in Hr. apply in_map_iff in Hr as (r0 & <- & Hr). unfold cells_ok.
  destruct (keep_labels drop k cols r0 R (wf_width _ _ _ _ W Hr)) as (_ & -> & _). apply keep_row_ok. exact (tw_cells _ _ _ _ W r0 Hr).
Qed.
Lemma no_clash_iff auto k t : table_wf auto k cols t ->
  no_clash drop cols t <-> NoDup (map (labels_in k) (t_rows (thin drop cols k auto t))).
Proof.
  intros W. rewrite (thin_labels auto k t W). unfold no_clash. rewrite (tw_kind _ _ _ _ W). split.
  - intro H. apply H. assert (X : forall r, In r (map (labels_in k) (t_rows t)) -> length r = length cols).
    { intros r Hr. apply in_map_iff in Hr as (r0 & <- & Hr). unfold labels_in. rewrite skipn_length, (wf_width _ _ _ _ W Hr), app_length. lia. }
    revert X. generalize (map (labels_in k) (t_rows t)). intros l X. induction l as [|r l IH]; cbn [map]; constructor.
    + apply keep_row_kept, X. now left.
    + apply IH. intros q Hq. apply X. now right.
  - intros N rows F. replace rows with (map (keep_row drop cols) (map (labels_in k) (t_rows t))); [exact N|].
    induction F as [|a b l l' H F IH]; cbn [map]; [reflexivity|]. rewrite <- (kept_fun _ _ _ _ H). cbn [map] in N. inversion N; subst. now rewrite IH.
Qed.
Lemma thin_wf auto k t : k <> KOther -> table_wf auto k cols t -> no_clash drop cols t -> table_wf auto k (keeps drop cols) (thin drop cols k auto t).
Proof.
  intros K W N. constructor; try reflexivity.
  - intros r Hr. cbn [thin t_rows t_cols] in *. apply in_map_iff in Hr as (r0 & <- & Hr).
    pose proof (keep_row_kept drop (fixed k ++ cols) r0 (wf_width _ _ _ _ W Hr)) as Q.
    assert (X : forall c r r', kept drop c r r' -> length r' = length (keeps drop c)).
    { clear. induction 1 as [|c cs v r r' N _ IH|c cs v r r' N _ IH]; [reflexivity| |]; unfold keeps in *; cbn [filter].
      - apply lmem_false in N. rewrite N. cbn [negb length]. now rewrite IH.
      - apply lmem_iff in N. rewrite N. exact IH. }
    rewrite (X _ _ _ Q), keeps_app, keeps_fixed by exact R. reflexivity.
  - intros r Hr. eapply thin_cells; eauto.
  - rewrite thin_ids by assumption. exact (tw_ids _ _ _ _ W).
  - now apply no_clash_iff.
Qed.
End Drop.

Lemma drop_body_run drop s cols : space_wf s cols -> (forall c, In c drop -> ~ reserved_name c) -> keeps drop cols <> [] ->
  exists ti tl ts seqs,
    (table_at s "label_index" ti /\ table_at s "label_location" tl /\ table_at s "label_structure" ts) /\
    (table_wf true KIndex cols ti /\ table_wf false KLocation cols tl /\ table_wf false KStructure cols ts /\
     In 0%Z (ids ti) /\ forall i, In i (ids ti) -> (0 <= i)%Z) /\
    lookup "label_index" seqs = Some (top_of (ids ti)) /\
    (forall n, In n (map fst seqs) -> n = "label_index"%string \/ In n (map fst (s_seqs s))) /\
    let s' := after (thin drop cols KIndex true ti) (thin drop cols KLocation false tl) (thin drop cols KStructure false ts) seqs (s_defs s) s in
    let clear := no_clash drop cols ti /\ no_clash drop cols tl /\ no_clash drop cols ts in
    (sound_refs s -> clear -> exists x, drop_body (keeps drop cols) (with_tx true (with_fk false s)) = Ok x /\ with_fk true (with_tx false x) = s') /\
    (~ sound_refs s -> drop_body (keeps drop cols) (with_tx true (with_fk false s)) = Err RuntimeError) /\
    (sound_refs s -> ~ clear -> drop_body (keeps drop cols) (with_tx true (with_fk false s)) = Err SqlIntegrityError).
Proof.
  intros W R Ne. destruct (sw_index _ _ W) as (ti & Ti & Wi & Z0 & Zp). destruct (sw_location _ _ W) as (tl & Tl & Wl).
  destruct (sw_structure _ _ W) as (ts & Ts & Ws). set (keep := keeps drop cols) in *.
  pose proof (wf_distinct _ _ W) as D. pose proof D as D'. apply fixed_distinct in D' as (D1 & D2 & D3).
  assert (U : existsb has_nul keep = false).
  { apply nul_exists. intros c Hc. apply filter_In in Hc as [Hc _]. exact (sw_nul _ _ W c Hc). }
  assert (Dk : sql_distinct (fixed_columns ++ keep) = true).
  { replace (fixed_columns ++ keep) with (filter (fun c => negb (lmem c drop)) (fixed_columns ++ cols)); [now apply sql_distinct_filter|].
    rewrite filter_app. f_equal. 
    assert (X : forall c, In c fixed_columns -> negb (lmem c drop) = true).
    { intros c Hc. apply negb_true_iff, lmem_false. intro Q. apply (R c Q). unfold reserved_name. unfold fixed_columns in Hc. cbn in Hc. cbn. tauto. }
    cbn [filter fixed_columns]. rewrite !X by (cbn; tauto). reflexivity. }
  assert (K1 : KIndex <> KOther) by discriminate. assert (K2 : KLocation <> KOther) by discriminate. assert (K3 : KStructure <> KOther) by discriminate.
  set (s0 := drop_constraints (with_tx true (with_fk false s))).
  destruct (remake_ok keep (Some keep) s0 ti tl ts Ti Tl Ts (sw_temp _ _ W) eq_refl Ne U Dk
              (good_some _ _ drop _ _ K1 Wi D1 R) (good_some _ _ drop _ _ K2 Wl D2 R)
              (good_some _ _ drop _ _ K3 Ws D3 R)) as (seqs & Rm & Q1 & Q2).
  cbn [what_of] in *. set (a := thin drop cols KIndex true ti). set (b := thin drop cols KLocation false tl). set (c := thin drop cols KStructure false ts).
  assert (Ea : remade KIndex true keep (Some (fixed KIndex ++ keep)) ti = a) by (unfold remade, a, thin, keep; now rewrite (sel_some _ _ drop _ _ Wi D1 R)).
  assert (Eb : remade KLocation false keep (Some (fixed KLocation ++ keep)) tl = b) by (unfold remade, b, thin, keep; now rewrite (sel_some _ _ drop _ _ Wl D2 R)).
  assert (Ec : remade KStructure false keep (Some (fixed KStructure ++ keep)) ts = c) by (unfold remade, c, thin, keep; now rewrite (sel_some _ _ drop _ _ Ws D3 R)).
  rewrite Ea, Eb, Ec in Rm. fold (put3 a b c (s_tabs s0)) in Rm.
  assert (Ia : ids a = ids ti) by (apply thin_ids; auto; discriminate). assert (Ib : ids b = ids tl) by (apply thin_ids; auto; discriminate).
  assert (Ic : ids c = ids ts) by (apply thin_ids; auto; discriminate).
  exists ti, tl, ts, seqs. split; [auto|]. split; [auto|]. split.
  { rewrite Q1. change (fixed KIndex ++ keep) with (fixed KIndex ++ keeps drop cols). rewrite (sel_some _ _ drop _ _ Wi D1 R).
    change (map row_id (map (keep_row drop (fixed KIndex ++ cols)) (t_rows ti))) with (ids a). rewrite Ia.
    destruct (t_rows ti) eqn:E; [|reflexivity]. unfold ids in Z0. rewrite E in Z0. destruct Z0. }
  split; [exact Q2|]. cbn zeta. rewrite drop_body_eq. fold s0. rewrite Rm. cbn [bind].
  match goal with |- context [verify_refs ?x] => set (s1 := x) end.
  assert (X : sound_refs s1 <-> sound_refs s) by (eapply (refs_put3 s _ ti tl ts a b c); eauto).
  assert (G : get_columns s1 = keep) by (unfold get_columns, s1; cbn [with_tabs s_tabs]; now rewrite lookup_index).
  assert (Ta : table_at s1 "label_index" a) by (unfold table_at, s1; cbn [with_tabs s_tabs]; apply lookup_index).
  assert (Tb : table_at s1 "label_location" b) by (unfold table_at, s1; cbn [with_tabs s_tabs]; apply lookup_location).
  assert (Tc : table_at s1 "label_structure" c) by (unfold table_at, s1; cbn [with_tabs s_tabs]; apply lookup_structure).
  assert (Un : unique_labels "label_index" s1 && unique_labels "label_location" s1 && unique_labels "label_structure" s1 = true <->
               no_clash drop cols ti /\ no_clash drop cols tl /\ no_clash drop cols ts).
  { rewrite !andb_true_iff, (unique_labels_iff s1 _ a Ta), (unique_labels_iff s1 _ b Tb), (unique_labels_iff s1 _ c Tc);
      try discriminate; try (intros r Hr; eapply thin_cells; eassumption).
    rewrite (no_clash_iff drop cols R _ _ _ Wi), (no_clash_iff drop cols R _ _ _ Wl), (no_clash_iff drop cols R _ _ _ Ws). tauto. }
  destruct (verify_refs_cases s1) as [[V ->]|[V ->]]; cbn [bind].
  - rewrite add_constraints_cases by (rewrite G; exact Ne).
    destruct (unique_labels "label_index" s1 && unique_labels "label_location" s1 && unique_labels "label_structure" s1) eqn:E.
    + split; [|split].
      * intros _ _. eexists. split; [reflexivity|]. reflexivity.
      * intro Q. destruct Q. now apply X.
      * intros _ Q. destruct Q. now apply Un.
    + split; [|split].
      * intros _ Q. apply Un in Q. discriminate.
      * intro Q. destruct Q. now apply X.
      * reflexivity.
  - split; [|split]; try reflexivity; intro Q; destruct V; now apply X.
Qed.

Lemma keeps_nonempty drop cols : keeps drop cols <> [] <-> exists c, In c cols /\ ~ In c drop.
Proof.
  split.
  - intro H. destruct (keeps drop cols) as [|c l] eqn:E; [congruence|]. exists c. assert (Q : In c (keeps drop cols)) by (rewrite E; now left).
    apply filter_In in Q as [Q1 Q2]. split; [exact Q1|]. apply negb_true_iff, lmem_false in Q2. exact Q2.
  - intros (c & H & N) E. assert (Q : In c (keeps drop cols)); [|rewrite E in Q; destruct Q]. apply filter_In. split; [exact H|].
    now apply negb_true_iff, lmem_false.
Qed.
Lemma reserved_none drop : existsb (fun c => lmem c all_reserved) drop = false <-> forall c, In c drop -> ~ reserved_name c.
Proof.
  rewrite <- Bool.not_true_iff_false, existsb_exists. split.
  - intros H c Hc Q. apply H. exists c. split; [exact Hc|now apply reserved_iff].
  - intros H (c & Hc & Q). apply reserved_iff in Q. exact (H c Hc Q).
Qed.

Theorem drop_run drop s cols : space_wf s cols ->
  (may_drop drop s cols <-> exists s', legacy_drop_labels drop s = (Ok tt, s')) /\
  forall s', legacy_drop_labels drop s = (Ok tt, s') ->
    is_dropped drop s s' /\ space_wf s' (keeps drop cols) /\ s_fk s' = true /\
    (exists t, table_at s' "label_index" t /\ lookup "label_index" (s_seqs s') = Some (top_of (ids t))) /\
    view s' = with_columns (keeps drop cols) (map (keep_cells drop cols) (c_structs (view s))) (view s).
Proof.
  intros W. assert (Main : forall s', legacy_drop_labels drop s = (Ok tt, s') -> s_tx s = false /\ (forall c, In c drop -> ~ reserved_name c) /\ keeps drop cols <> [] /\
     exists x, drop_body (keeps drop cols) (with_tx true (with_fk false s)) = Ok x /\ s' = with_fk true (with_tx false x)).
  { intros s' H. unfold legacy_drop_labels in H. destruct (s_tx s) eqn:T; [discriminate|].
    destruct (existsb (fun c => lmem c all_reserved) drop) eqn:E; [discriminate|]. rewrite (wf_get_columns s cols W) in H.
    change (filter (fun c => negb (lmem c drop)) cols) with (keeps drop cols) in H. destruct (keeps drop cols) as [|k keep] eqn:K; [discriminate|].
    destruct (existsb has_nul (k :: keep)); [discriminate|]. apply guarded_ok in H as (x & B & H); [|exact T].
    split; [reflexivity|]. split; [now apply reserved_none|]. split; [discriminate|]. eauto. }
  split.
  - split.
    + intros (T & S & R & Ne & C). apply keeps_nonempty in Ne.
      destruct (drop_body_run drop s cols W R Ne) as (ti & tl & ts & seqs & (Ti & Tl & Ts) & _ & _ & _ & Hs & _).
      destruct (Hs S) as (x & B & _).
      { split; [|split]; eapply C; try eassumption; cbn; tauto. }
      exists (with_fk true (with_tx false x)). unfold legacy_drop_labels. rewrite T, (proj2 (reserved_none drop) R), (wf_get_columns s cols W).
      change (filter (fun c => negb (lmem c drop)) cols) with (keeps drop cols). destruct (keeps drop cols) as [|k keep] eqn:K; [congruence|].
      replace (existsb has_nul (k :: keep)) with false; [exact (guarded_run _ _ _ T B)|]. symmetry. apply nul_exists. rewrite <- K. intros c Hc.
      apply filter_In in Hc as [Hc _]. exact (sw_nul _ _ W c Hc).
    + intros (s' & H). destruct (Main s' H) as (T & R & Ne & x & B & _).
      destruct (drop_body_run drop s cols W R Ne) as (ti & tl & ts & seqs & (Ti & Tl & Ts) & _ & _ & _ & _ & Hn & Hc).
      destruct (verify_refs_cases s) as [[S _]|[S _]]; [|rewrite (Hn S) in B; discriminate].
      split; [exact T|]. split; [exact S|]. split; [exact R|]. split; [now apply keeps_nonempty|].
      assert (Cl : forall n t, In n label_tables -> table_at s n t -> ~ ~ no_clash drop cols t).
      { intros n t N A Q. assert (Z : ~ (no_clash drop cols ti /\ no_clash drop cols tl /\ no_clash drop cols ts)).
        { unfold table_at in *. cbn [label_tables In] in N. destruct N as [<-|[<-|[<-|[]]]].
          - assert (t = ti) by congruence. subst. tauto.
          - assert (t = tl) by congruence. subst. tauto.
          - assert (t = ts) by congruence. subst. tauto. }
        rewrite (Hc S Z) in B. discriminate. }
      intros n t N A. assert (exists auto k, table_wf auto k cols t) as (auto & k & Wt).
      { unfold table_at in *. cbn [label_tables In] in N. destruct N as [<-|[<-|[<-|[]]]].
        - destruct (sw_index _ _ W) as (t' & T' & Wt & _). unfold table_at in T'. exists true, KIndex. congruence.
        - destruct (sw_location _ _ W) as (t' & T' & Wt). unfold table_at in T'. exists false, KLocation. congruence.
        - destruct (sw_structure _ _ W) as (t' & T' & Wt). unfold table_at in T'. exists false, KStructure. congruence. }
      specialize (Cl n t N A). rewrite (no_clash_iff drop cols R _ _ _ Wt) in *.
      destruct (ListDec.NoDup_dec (list_eq_dec (fun x y : scell => ltac:(decide equality; [apply Z.eq_dec|apply string_dec|decide equality; [apply Pos.eq_dec|apply Z.eq_dec]])))
                  (map (labels_in k) (t_rows (thin drop cols k auto t)))) as [G|G]; [exact G|destruct Cl; exact G].
  - intros s' H. destruct (Main s' H) as (T & R & Ne & x & B & ->).
    destruct (drop_body_run drop s cols W R Ne) as (ti & tl & ts & seqs & (Ti & Tl & Ts) & (Wi & Wl & Ws & Z0 & Zp) & Q1 & Q2 & Hs & Hn & Hc).
    destruct (verify_refs_cases s) as [[S _]|[S _]]; [|rewrite (Hn S) in B; discriminate].
    assert (Cl : no_clash drop cols ti /\ no_clash drop cols tl /\ no_clash drop cols ts).
    { assert (Dn : forall k auto t, table_wf auto k cols t -> no_clash drop cols t \/ ~ no_clash drop cols t).
      { intros k auto t Wt. rewrite (no_clash_iff drop cols R _ _ _ Wt).
        destruct (ListDec.NoDup_dec (list_eq_dec (fun x y : scell => ltac:(decide equality; [apply Z.eq_dec|apply string_dec|decide equality; [apply Pos.eq_dec|apply Z.eq_dec]])))
                  (map (labels_in k) (t_rows (thin drop cols k auto t)))) as [G|G]; [now left|now right]. }
      assert (Z : ~ ~ (no_clash drop cols ti /\ no_clash drop cols tl /\ no_clash drop cols ts)) by (intro Q; rewrite (Hc S Q) in B; discriminate).
      destruct (Dn _ _ _ Wi), (Dn _ _ _ Wl), (Dn _ _ _ Ws); tauto. }
    destruct (Hs S Cl) as (y & B' & E). assert (y = x) by congruence. subst y. rewrite E. clear B B' E Hs Hn Hc. destruct Cl as (C1 & C2 & C3).
    pose proof (wf_distinct _ _ W) as D.
    split; [|split; [|split; [|split]]].
    + split; [|split].
      * eapply related_put3; [exact Ti|exact Tl|exact Ts|reflexivity|].
        assert (X : forall auto k t, table_wf auto k cols t ->
           t_auto (thin drop cols k auto t) = t_auto t /\ t_kind (thin drop cols k auto t) = t_kind t /\
           without drop (t_cols t) (t_cols (thin drop cols k auto t)) /\ Forall2 (kept drop (t_cols t)) (t_rows t) (t_rows (thin drop cols k auto t))).
        { intros auto k t Wt. cbn [thin t_auto t_kind t_cols t_rows]. rewrite (tw_auto _ _ _ _ Wt), (tw_kind _ _ _ _ Wt), (tw_cols _ _ _ _ Wt).
          split; [reflexivity|]. split; [reflexivity|]. split.
          - replace (fixed k ++ keeps drop cols) with (keeps drop (fixed k ++ cols)) by (rewrite keeps_app, keeps_fixed by exact R; reflexivity). apply keeps_without.
          - assert (Y : forall r, In r (t_rows t) -> length r = length (fixed k ++ cols)) by (intros r Hr; eapply wf_width; eauto).
            revert Y. generalize (t_rows t). intro l. induction l as [|r l IH]; intro Y; cbn [map]; constructor; [apply keep_row_kept, Y; now left|].
            apply IH. intros q Hq. apply Y. now right. }
        intros t t' I. cbn [In] in I. destruct I as [[= <- <-]|[[= <- <-]|[[= <- <-]|[]]]]; apply X; assumption.
      * unfold rest_same, after. cbn. rewrite (sw_constraints _ _ W), T. auto.
      * reflexivity.
    + eapply after_wf; try eassumption; try (apply thin_wf; try assumption; discriminate).
      * rewrite thin_ids; try assumption. discriminate.
      * rewrite thin_ids; try assumption. discriminate.
      * assert (Fk : keeps drop fixed_columns = fixed_columns).
        { assert (X : forall c, In c fixed_columns -> negb (lmem c drop) = true).
          { intros c Hc. apply negb_true_iff, lmem_false. intro Q. apply (R c Q). unfold reserved_name. unfold fixed_columns in Hc. cbn in Hc. cbn. tauto. }
          unfold keeps. cbn [filter fixed_columns]. rewrite !X by (cbn; tauto). reflexivity. }
        rewrite <- Fk, <- keeps_app. now apply sql_distinct_filter.
      * intros c Hc. apply filter_In in Hc as [Hc _]. exact (sw_nul _ _ W c Hc).
    + reflexivity.
    + eexists. split; [unfold table_at, after; cbn [s_tabs]; apply lookup_index|]. cbn [after s_seqs]. rewrite Q1, thin_ids; try assumption; [reflexivity|discriminate].
    + unfold view at 1. unfold after, get_columns. cbn [s_tabs s_defs s_attrs s_display]. rewrite lookup_index, lookup_structure.
      unfold with_columns. f_equal.
      * unfold view. cbn [c_structs]. unfold table_at in Ts. rewrite Ts, !map_map. cbn [thin t_rows]. rewrite map_map. apply map_ext_in. intros r Hr.
        destruct (keep_labels drop KStructure cols r R (wf_width _ _ _ _ _ Ws Hr)) as (_ & -> & _).
        generalize (labels_in KStructure r). intro cells. clear. revert cells. induction cols as [|c cs IH]; intros [|v cells]; cbn; try reflexivity.
        destruct (lmem c drop); cbn [map]; now rewrite IH.
Qed.
