From Verif Require Import Prelude Partitions_Model Partitions_Spec Partitions_Proofs Columns_Model Columns_Spec Columns_Proofs
  Columns_Proofs2 Columns_Proofs3 Legacy_Model Legacy_Spec Legacy_Proofs Legacy_Proofs2.
From Coq Require Import Permutation.
Local Open Scope nat_scope.

Definition put3 (a b c : table) (l : list (string * table)) : list (string * table) :=
  put "label_structure" c (put "label_location" b (put "label_index" a l)).
Lemma lookup_index a b c l : lookup "label_index" (put3 a b c l) = Some a.
Proof. unfold put3. now rewrite !lookup_put. Qed.
Lemma lookup_location a b c l : lookup "label_location" (put3 a b c l) = Some b.
Proof. unfold put3. now rewrite !lookup_put. Qed.
Lemma lookup_structure a b c l : lookup "label_structure" (put3 a b c l) = Some c.
Proof. unfold put3. now rewrite !lookup_put. Qed.
Lemma lookup_other a b c l n : ~ In n label_tables -> lookup n (put3 a b c l) = lookup n l.
Proof.
  intro H. unfold put3. rewrite !lookup_put. cbn [label_tables In] in H.
  destruct (String.eqb_spec "label_structure" n); [tauto|]. destruct (String.eqb_spec "label_location" n); [tauto|].
  destruct (String.eqb_spec "label_index" n); [tauto|reflexivity].
Qed.
Lemma put3_in a b c l n : In n (map fst (put3 a b c l)) -> In n label_tables \/ In n (map fst l).
Proof.
  unfold put3. intro H. apply put_in in H as [->|H]; [left; cbn; tauto|]. apply put_in in H as [->|H]; [left; cbn; tauto|].
  apply put_in in H as [->|H]; [left; cbn; tauto|now right].
Qed.
Lemma label_tables_dec n : {In n label_tables} + {~ In n label_tables}.
Proof. apply in_dec, string_dec. Qed.

Lemma related_put3 (R : kind -> table -> table -> Prop) s s' a b c a' b' c' :
  table_at s "label_index" a -> table_at s "label_location" b -> table_at s "label_structure" c ->
  s_tabs s' = put3 a' b' c' (s_tabs s) ->
  (forall t t', In (t, t') [(a, a'); (b, b'); (c, c')] -> t_auto t' = t_auto t /\ t_kind t' = t_kind t /\ R (t_kind t) t t') ->
  tables_related R s s'.
Proof.
  intros A B C E H. unfold tables_related, table_at in *. rewrite E. split.
  - intros n N. now apply lookup_other.
  - intros n N. cbn [label_tables In] in N. destruct N as [<-|[<-|[<-|[]]]].
    + exists a, a'. rewrite lookup_index. split; [exact A|]. split; [reflexivity|]. apply H. now left.
    + exists b, b'. rewrite lookup_location. split; [exact B|]. split; [reflexivity|]. apply H. right. now left.
    + exists c, c'. rewrite lookup_structure. split; [exact C|]. split; [reflexivity|]. apply H. right. right. now left.
Qed.
Lemma refs_put3 s s' a b c a' b' c' :
  table_at s "label_index" a -> table_at s "label_location" b -> table_at s "label_structure" c ->
  s_tabs s' = put3 a' b' c' (s_tabs s) -> s_refs s' = s_refs s -> ids a' = ids a -> ids b' = ids b -> ids c' = ids c ->
  sound_refs s' <-> sound_refs s.
Proof.
  intros A B C E Er I1 I2 I3. apply sound_refs_same; [exact Er|]. intro n. rewrite E. destruct (label_tables_dec n) as [N|N].
  - cbn [label_tables In] in N. destruct N as [<-|[<-|[<-|[]]]]; [rewrite A, lookup_index|rewrite B, lookup_location|rewrite C, lookup_structure]; assumption.
  - rewrite lookup_other by exact N. now destruct (lookup n (s_tabs s)).
Qed.

Lemma guarded_err body s e s' : s_tx s = false -> guarded body s = (Err e, s') -> s' = with_fk true s.
Proof.
  intros T H. unfold guarded, pragma_fk in H. rewrite T in H. destruct (body _) as [x|x]; [discriminate|]. injection H as _ <-.
  cbn [with_fk s_tx]. now rewrite T.
Qed.
Lemma guarded_ok body s s' : s_tx s = false -> guarded body s = (Ok tt, s') ->
  exists x, body (with_tx true (with_fk false s)) = Ok x /\ s' = with_fk true (with_tx false x).
Proof.
  intros T H. unfold guarded, pragma_fk in H. rewrite T in H. destruct (body _) as [x|x] eqn:E; [|discriminate]. injection H as <-.
  exists x. split; reflexivity.
Qed.
Lemma guarded_run body s x : s_tx s = false -> body (with_tx true (with_fk false s)) = Ok x ->
  guarded body s = (Ok tt, with_fk true (with_tx false x)).
Proof. intros T H. unfold guarded, pragma_fk. rewrite T, H. reflexivity. Qed.

(* -------------------------------------------------------- renaming *)
Lemma wf_distinct s cols : space_wf s cols -> sql_distinct (fixed_columns ++ cols) = true.
Proof. intro W. apply case_distinct_iff. exact (sw_names _ _ W). Qed.

Definition after (a b c : table) (seqs : list (string * Z)) (defs : option (list labelset)) (s : sdb) : sdb :=
  {| s_tabs := put3 a b c (s_tabs s); s_seqs := seqs; s_constraints := true; s_refs := s_refs s; s_fk := true; s_tx := false;
     s_defs := defs; s_attrs := s_attrs s; s_display := s_display s |}.

Lemma after_wf a b c seqs defs s cols cols' : space_wf s cols ->
  table_wf true KIndex cols' a -> In 0%Z (ids a) -> (forall i, In i (ids a) -> (0 <= i)%Z) ->
  table_wf false KLocation cols' b -> table_wf false KStructure cols' c -> sql_distinct (fixed_columns ++ cols') = true ->
  (forall x, In x cols' -> ~ contains_nul x) -> (forall n, In n (map fst seqs) -> n = "label_index"%string \/ In n (map fst (s_seqs s))) ->
  space_wf (after a b c seqs defs s) cols'.
Proof.
  intros W A Z0 Zp B C D U Q. constructor; cbn [after s_tabs s_constraints s_seqs]; unfold table_at; cbn [after s_tabs].
  - exists a. rewrite lookup_index. auto.
  - exists b. rewrite lookup_location. auto.
  - exists c. rewrite lookup_structure. auto.
  - now apply case_distinct_iff.
  - exact U.
  - intros n N. destruct (sw_temp _ _ W n N) as [N1 N2]. split; intro H.
    + apply put3_in in H as [H|H]; [|auto]. cbn in N, H. intuition (subst; discriminate).
    + apply Q in H as [H|H]; [|auto]. cbn in N. subst n. intuition discriminate.
  - reflexivity.
Qed.

Lemma remade_none_wf auto k cols labels t : table_wf auto k cols t -> length labels = length cols -> table_wf auto k labels (remade k auto labels None t).
Proof.
  intros W L. constructor; cbn [remade t_auto t_kind t_cols t_rows]; rewrite ?sel_none; try reflexivity.
  - intros r Hr. rewrite (tw_width _ _ _ _ W r Hr), (tw_cols _ _ _ _ W), !app_length. lia.
  - exact (tw_cells _ _ _ _ W).
  - unfold ids. cbn [remade t_rows]. rewrite sel_none. exact (tw_ids _ _ _ _ W).
  - exact (tw_unique _ _ _ _ W).
Qed.

Lemma wf_unique s n auto k cols t : table_at s n t -> table_wf auto k cols t -> k <> KOther -> unique_labels n s = true.
Proof.
  intros T W K. apply (unique_labels_iff s n t T); rewrite (tw_kind _ _ _ _ W); [exact K| |].
  - exact (tw_cells _ _ _ _ W).
  - exact (tw_unique _ _ _ _ W).
Qed.

Lemma rename_body_run m s cols : space_wf s cols -> cols <> [] -> existsb has_nul (map (mapping_get m) cols) = false ->
  sql_distinct (fixed_columns ++ map (mapping_get m) cols) = true ->
  exists ti tl ts seqs, 
    (table_at s "label_index" ti /\ table_at s "label_location" tl /\ table_at s "label_structure" ts) /\
    (table_wf true KIndex cols ti /\ table_wf false KLocation cols tl /\ table_wf false KStructure cols ts /\
     In 0%Z (ids ti) /\ forall i, In i (ids ti) -> (0 <= i)%Z) /\
    lookup "label_index" seqs = Some (top_of (ids ti)) /\
    (forall n, In n (map fst seqs) -> n = "label_index"%string \/ In n (map fst (s_seqs s))) /\
    let names := map (mapping_get m) cols in
    let s' := after (remade KIndex true names None ti) (remade KLocation false names None tl) (remade KStructure false names None ts) seqs
                (match s_defs s with Some d => Some (map (map (mapping_get m)) d) | None => None end) s in
    (sound_refs s' <-> sound_refs s) /\
    (sound_refs s -> exists x, rename_body m names (with_tx true (with_fk false s)) = Ok x /\ with_fk true (with_tx false x) = s') /\
    (~ sound_refs s -> rename_body m names (with_tx true (with_fk false s)) = Err RuntimeError).
Proof.
  intros W Ne U D. destruct (sw_index _ _ W) as (ti & Ti & Wi & Z0 & Zp). destruct (sw_location _ _ W) as (tl & Tl & Wl).
  destruct (sw_structure _ _ W) as (ts & Ts & Ws). set (names := map (mapping_get m) cols).
  assert (Ln : length names = length cols) by apply map_length.
  assert (Nn : names <> []) by (unfold names; now apply cols_nonempty_map).
  set (s0 := drop_constraints (with_tx true (with_fk false s))).
  destruct (remake_ok names None s0 ti tl ts Ti Tl Ts (sw_temp _ _ W) eq_refl Nn U D
              (good_none _ _ _ names _ Wi Ln) (good_none _ _ _ names _ Wl Ln) (good_none _ _ _ names _ Ws Ln)) as (seqs & R & Q1 & Q2).
  cbn [what_of] in *. rewrite sel_none in Q1. fold (put3 (remade KIndex true names None ti) (remade KLocation false names None tl) (remade KStructure false names None ts) (s_tabs s0)) in R.
  exists ti, tl, ts, seqs. split; [auto|]. split; [auto|]. split.
  { rewrite Q1. unfold ids. destruct (t_rows ti) eqn:E; [|reflexivity]. unfold ids in Z0. rewrite E in Z0. destruct Z0. }
  split; [exact Q2|]. set (a := remade KIndex true names None ti) in *. set (b := remade KLocation false names None tl) in *.
  set (c := remade KStructure false names None ts) in *.
  assert (Ia : ids a = ids ti) by (unfold ids, a; cbn [remade t_rows]; now rewrite sel_none).
  assert (Ib : ids b = ids tl) by (unfold ids, b; cbn [remade t_rows]; now rewrite sel_none).
  assert (Ic : ids c = ids ts) by (unfold ids, c; cbn [remade t_rows]; now rewrite sel_none).
  cbn zeta. split.
  { eapply (refs_put3 s _ ti tl ts a b c); eauto. }
  rewrite rename_body_eq. fold s0. rewrite R. cbn [bind].
  match goal with |- context [verify_refs ?x] => set (s1 := x) end.
  assert (X : sound_refs s1 <-> sound_refs s).
  { eapply (refs_put3 s _ ti tl ts a b c); eauto. }
  destruct (verify_refs_cases s1) as [[V ->]|[V ->]]; cbn [bind].
  - split; [intros _|intro N; destruct N; now apply X].
    assert (G : get_columns s1 = names) by (unfold get_columns, s1; cbn [with_tabs s_tabs]; now rewrite lookup_index).
    rewrite add_constraints_cases by (rewrite G; exact Nn).
    rewrite (wf_unique s1 "label_index" true KIndex names a), (wf_unique s1 "label_location" false KLocation names b),
      (wf_unique s1 "label_structure" false KStructure names c); try discriminate;
      try (unfold table_at, s1; cbn [with_tabs s_tabs]; (apply lookup_index || apply lookup_location || apply lookup_structure));
      try (eapply remade_none_wf; eassumption).
    cbn [andb bind]. eexists. split; [reflexivity|]. unfold after, with_fk, with_tx, with_pdefs, with_constraints, s1, with_tabs, s0, drop_constraints. cbn.
    unfold rename_defs, prop_update_defs, get_all_defs. cbn. destruct (s_defs s); reflexivity.
  - split; [intro N; destruct V; now apply X|reflexivity].
Qed.

Lemma registered_view s x : In x (registered (view s)) <-> exists l, s_attrs s = Some l /\ In x l.
Proof.
  unfold registered, view. cbn [c_attrs]. destruct (s_attrs s) as [l|]; split.
  - intro H. eauto.
  - intros (l' & [= <-] & H). exact H.
  - intros [].
  - intros (l & H & _). discriminate.
Qed.
Lemma validate_view m s cols : space_wf s cols ->
  (validate_new (map snd m) (view s) = Ok tt /\ existsb (fun p => lmem (fst p) all_reserved) m = false <->
   forall old new, In (old, new) m -> ~ reserved_name old /\ ~ reserved_name new /\ ~ In new cols /\ ~ (exists l, s_attrs s = Some l /\ In new l)).
Proof.
  intro W. rewrite validate_ok. replace (c_columns (view s)) with cols by (symmetry; exact (wf_get_columns s cols W)).
  rewrite <- Bool.not_true_iff_false, existsb_exists. split.
  - intros [H1 H2] old new Hp. destruct (H1 new) as (A & B & C); [apply in_map_iff; exists (old, new); auto|]. rewrite registered_view in C.
    split; [|auto]. intro Q. apply H2. exists (old, new). split; [exact Hp|]. now apply reserved_iff.
  - intro H. split.
    + intros x Hx. apply in_map_iff in Hx as ([old new] & <- & Hp). destruct (H old new Hp) as (_ & A & B & C). rewrite registered_view. auto.
    + intros ([old new] & Hp & Q). apply reserved_iff in Q. destruct (H old new Hp) as (A & _). auto.
Qed.

Theorem rename_when m s cols : space_wf s cols -> NoDup (map fst m) ->
  (exists s', legacy_rename_labels m s = (Ok tt, s')) <-> may_rename m s cols.
Proof.
  intros W N. unfold legacy_rename_labels, may_rename. rewrite (wf_get_columns s cols W). split.
  - intros (s' & H). destruct (s_tx s) eqn:T; [discriminate|].
    destruct (validate_new (map snd m) (view s)) as [[]|] eqn:V; [|discriminate].
    destruct (existsb (fun p => lmem (fst p) all_reserved) m) eqn:R; [discriminate|].
    pose proof (proj1 (validate_view m s cols W) (conj V R)) as VR.
    destruct (new_columns m cols []) as [names|] eqn:C; [|discriminate]. apply new_columns_some in C. cbn [app] in C. subst names.
    destruct (guarded_ok _ _ _ T H) as (x & B & _). pose proof B as B0. rewrite rename_body_eq in B0.
    destruct (remake _ None _) as [y|] eqn:M; [|discriminate]. apply remake_needs in M as (M1 & M2 & M3).
    apply cols_nonempty_map in M1. destruct (rename_body_run m s cols W M1 M2 M3) as (ti & tl & ts & seqs & _ & _ & _ & _ & _ & Hs & Hn).
    repeat split; auto.
    + destruct (verify_refs_cases s) as [[S _]|[S _]]; [exact S|]. rewrite (Hn S) in B. discriminate.
    + apply (VR _ _ H0).
    + apply (VR _ _ H0).
    + apply (VR _ _ H0).
    + apply (VR _ _ H0).
    + exists (map (mapping_get m) cols). split; [apply names_map|]. split; [now apply case_distinct_iff|]. now apply nul_exists.
  - intros (T & Ne & S & VR & names & F & D & U). rewrite T. apply (validate_view m s cols W) in VR as [-> ->].
    apply names_fun in F; [|exact N]. subst names. apply case_distinct_iff in D. apply nul_exists in U.
    rewrite new_columns_ok.
    + cbn [app]. destruct (rename_body_run m s cols W Ne U D) as (ti & tl & ts & seqs & _ & _ & _ & _ & _ & Hs & _).
      destruct (Hs S) as (x & B & _). eexists. exact (guarded_run _ _ _ T B).
    + apply sql_distinct_app in D. cbn [app]. apply sql_distinct_nodup. tauto.
Qed.

Lemma map_fixed m k : (forall p, In p m -> ~ reserved_name (fst p)) -> Forall2 (new_name m) (fixed k) (fixed k).
Proof.
  intro H. assert (X : forall x, In x (fixed k) -> new_name m x x).
  { intros x Hx. right. split; [|reflexivity]. intro Q. apply in_map_iff in Q as (p & <- & Hp). apply (H p Hp). eapply fixed_reserved; eauto. }
  revert X. generalize (fixed k). intro l. induction l as [|x l IH]; intro X; constructor; [apply X; now left|]. apply IH. intros y Hy. apply X. now right.
Qed.

(** All about a successful call. *)
Theorem rename_run m s cols s' : space_wf s cols -> NoDup (map fst m) -> legacy_rename_labels m s = (Ok tt, s') ->
  is_renamed m s s' /\ space_wf s' (map (mapping_get m) cols) /\ s_fk s' = true /\
  (exists t, table_at s' "label_index" t /\ lookup "label_index" (s_seqs s') = Some (top_of (ids t))) /\
  view s' = with_defs (pview (rename_defs m (view s))) (with_columns (map (mapping_get m) cols) (c_structs (view s)) (view s)).
Proof.
  intros W N H. destruct (proj1 (rename_when m s cols W N) (ex_intro _ s' H)) as (T & Ne & S & VR & names & F & D & U).
  apply names_fun in F; [|exact N]. subst names. apply case_distinct_iff in D. pose proof U as U'. apply nul_exists in U'.
  destruct (rename_body_run m s cols W Ne U' D) as (ti & tl & ts & seqs & (Ti & Tl & Ts) & (Wi & Wl & Ws & Z0 & Zp) & Q1 & Q2 & _ & Hs & _).
  destruct (Hs S) as (x & B & E). unfold legacy_rename_labels in H. rewrite T, (wf_get_columns s cols W) in H.
  pose proof (proj2 (validate_view m s cols W) VR) as [V1 V2]. rewrite V1, V2 in H.
  rewrite new_columns_ok in H by (apply sql_distinct_app in D; cbn [app]; apply sql_distinct_nodup; tauto). cbn [app] in H.
  rewrite (guarded_run _ _ _ T B), E in H. injection H as <-. clear B E Hs.
  assert (Ln : length (map (mapping_get m) cols) = length cols) by apply map_length.
  set (names := map (mapping_get m) cols) in *.
  assert (KR : forall p, In p m -> ~ reserved_name (fst p)) by (intros [o n] Hp; exact (proj1 (VR o n Hp))).
  assert (FC : forall k, Forall2 (new_name m) (fixed k ++ cols) (fixed k ++ names)) by (intro k; apply Forall2_app; [now apply map_fixed|apply names_map]).
  split; [|split; [|split; [|split]]].
  - split; [|split].
    + eapply related_put3; [exact Ti|exact Tl|exact Ts|reflexivity|]. intros t t' I. cbn [In] in I.
      destruct I as [[= <- <-]|[[= <- <-]|[[= <- <-]|[]]]]; cbn [remade t_auto t_kind t_rows t_cols]; rewrite sel_none.
      * rewrite (tw_auto _ _ _ _ Wi), (tw_kind _ _ _ _ Wi), (tw_cols _ _ _ _ Wi). auto.
      * rewrite (tw_auto _ _ _ _ Wl), (tw_kind _ _ _ _ Wl), (tw_cols _ _ _ _ Wl). auto.
      * rewrite (tw_auto _ _ _ _ Ws), (tw_kind _ _ _ _ Ws), (tw_cols _ _ _ _ Ws). auto.
    + unfold rest_same, after. cbn. rewrite (sw_constraints _ _ W), T. auto.
    + unfold defs_of, after. cbn [s_defs]. destruct (s_defs s) as [d|]; [|constructor]. induction d; cbn [map]; constructor; auto using names_map.
  - eapply after_wf; try eassumption; try (eapply remade_none_wf; eassumption).
    + unfold ids. cbn [remade t_rows]. rewrite sel_none. exact Z0.
    + unfold ids. cbn [remade t_rows]. rewrite sel_none. exact Zp.
  - reflexivity.
  - eexists. split; [unfold table_at, after; cbn [s_tabs]; apply lookup_index|]. cbn [after s_seqs]. rewrite Q1. unfold ids. cbn [remade t_rows]. now rewrite sel_none.
  - unfold view at 1. unfold after, get_columns. cbn [s_tabs s_defs s_attrs s_display]. rewrite lookup_index, lookup_structure. cbn [remade t_cols t_rows fixed app skipn].
    rewrite sel_none. unfold with_defs, with_columns, rename_defs, pview, prop_update_defs, get_all_defs. cbn.
    rewrite Ts. destruct (s_defs s); reflexivity.
Qed.

(** A failing call. *)
Theorem rename_fails m s e s' : legacy_rename_labels m s = (Err e, s') -> s' = s \/ s' = with_fk true s.
Proof.
  unfold legacy_rename_labels. intro H. destruct (s_tx s) eqn:T; [injection H as _ <-; now left|].
  destruct (validate_new _ _); [|injection H as _ <-; now left]. destruct (existsb _ m); [injection H as _ <-; now left|].
  destruct (new_columns _ _ _); [|injection H as _ <-; now left]. right. eapply guarded_err; eauto.
Qed.
Theorem drop_fails m s e s' : legacy_drop_labels m s = (Err e, s') -> s' = s \/ s' = with_fk true s.
Proof.
  unfold legacy_drop_labels. intro H. destruct (s_tx s) eqn:T; [injection H as _ <-; now left|].
  destruct (existsb _ m); [injection H as _ <-; now left|]. destruct (filter _ _) as [|k keep]; [injection H as _ <-; now left|].
  destruct (existsb has_nul _); [injection H as _ <-; now left|]. right. eapply guarded_err; eauto.
Qed.
