(** C62: renaming and removing label columns by making the tables anew (for old versions of SQLite). *)
From Verif Require Import Prelude Partitions_Model Partitions_Spec Columns_Model Columns_Spec Columns_Proofs Columns_Proofs3
  Legacy_Model Legacy_Spec Legacy_Proofs Legacy_Proofs2 Legacy_Proofs3 Legacy_Proofs4 Legacy_Proofs5.
From Coq Require Import Ascii String List.
Local Open Scope list_scope.
Local Open Scope nat_scope.

(** The space of the examples: two label columns, four records of which the last one was deleted, two
    locations, three partitions, rows of other tables that refer to records and locations. *)
Definition rows2 (l : list (Z * string * string)) : list (list scell) :=
  map (fun p => let '(i, a, b) := p in [XInt i; XText a; XText b]) l.
Definition sample : sdb :=
  {| s_tabs :=
       [("label_index"%string, {| t_auto := true; t_kind := KIndex; t_cols := ["index_id"; "A"; "B"]%string;
          t_rows := rows2 [(0, "-", "-"); (1, "x", "p"); (2, "y", "q"); (3, "x", "q")]%Z%string |});
        ("weight_group"%string, {| t_auto := false; t_kind := KOther; t_cols := ["weight_group_id"]%string; t_rows := [[XInt 1]] |});
        ("label_location"%string, {| t_auto := false; t_kind := KLocation; t_cols := ["_location_id"; "A"; "B"]%string;
          t_rows := rows2 [(1, "x", ""); (2, "y", "q")]%Z%string |});
        ("label_structure"%string, {| t_auto := false; t_kind := KStructure; t_cols := ["_structure_id"; "_granularity"; "A"; "B"]%string;
          t_rows := [[XInt 1; XReal 0; XInt 0; XInt 0]; [XInt 2; XReal 1; XInt 1; XInt 0]; [XInt 3; XReal 2; XInt 1; XInt 1]] |})];
     s_seqs := [("label_index"%string, 4%Z)];
     s_constraints := true;
     s_refs := [{| r_table := "label_index"; r_key := 1; r_cascade := false |}; {| r_table := "weight_group"; r_key := 1; r_cascade := true |};
                {| r_table := "label_location"; r_key := 2; r_cascade := true |}];
     s_fk := true; s_tx := false; s_defs := Some [[]; ["A"%string]; ["A"; "B"]%string]; s_attrs := Some ["attr"%string]; s_display := None |}.
Lemma table_wf_by auto k cols t : k <> KOther -> t_auto t = auto -> t_kind t = k -> t_cols t = fixed k ++ cols ->
  forallb (fun r => Nat.eqb (List.length r) (List.length (t_cols t)) && cells_ok k r) (t_rows t) = true ->
  z_distinct (ids t) = true -> unique_cells (map (labels_in k) (t_rows t)) = true -> table_wf auto k cols t.
Proof.
  intros K A B C D E F. rewrite forallb_forall in D.
  assert (X : forall r, In r (t_rows t) -> List.length r = List.length (t_cols t) /\ cells_ok k r = true).
  { intros r Hr. apply D in Hr. apply andb_true_iff in Hr as [H1 H2]. now apply Nat.eqb_eq in H1. }
  constructor; auto; try (intros r Hr; now apply X).
  - now apply z_distinct_iff.
  - apply unique_cells_iff in F; [exact F|]. intros r Hr. apply in_map_iff in Hr as (r0 & <- & Hr). apply (ok_plain k); [exact K|]. now apply X.
Qed.
Lemma sample_wf : space_wf sample ["A"; "B"]%string.
Proof.
  constructor.
  - eexists. split; [reflexivity|]. split; [apply table_wf_by; try reflexivity; discriminate|]. split; [now left|].
    intros i Hi. cbn in Hi. intuition lia.
  - eexists. split; [reflexivity|]. apply table_wf_by; try reflexivity; discriminate.
  - eexists. split; [reflexivity|]. apply table_wf_by; try reflexivity; discriminate.
  - apply case_distinct_iff. reflexivity.
  - intros c Hc. apply has_nul_false. cbn in Hc. destruct Hc as [<-|[<-|[]]]; reflexivity.
  - intros n Hn. cbn in Hn. destruct Hn as [<-|[<-|[<-|[]]]]; cbn; intuition discriminate.
  - reflexivity.
Qed.
Lemma sample_refs : sound_refs sample.
Proof. now apply verify_refs_iff. Qed.

(** *** Renaming *)

(** A call that succeeds gives every row back under the new names and changes nothing else. *)
Theorem C62_rename m s cols s' : space_wf s cols -> NoDup (map fst m) -> legacy_rename_labels m s = (Ok tt, s') ->
  is_renamed m s s' /\ exists names, Forall2 (new_name m) cols names /\ get_columns s' = names /\ space_wf s' names.
Proof.
  intros W N H. destruct (rename_run m s cols s' W N H) as (A & B & _). split; [exact A|]. eexists. split; [apply names_map|].
  split; [exact (wf_get_columns _ _ B)|exact B].
Qed.
Print Assumptions C62_rename.

(** When it succeeds. *)
Theorem C62_rename_when m s cols : space_wf s cols -> NoDup (map fst m) ->
  (exists s', legacy_rename_labels m s = (Ok tt, s')) <-> may_rename m s cols.
Proof. exact (rename_when m s cols). Qed.
Print Assumptions C62_rename_when.

Example C62_rename_case :
  space_wf sample ["A"; "B"]%string /\ may_rename [("A", "county"); ("B", "A2")]%string sample ["A"; "B"]%string /\
  get_columns (snd (legacy_rename_labels [("A", "county"); ("B", "A2")]%string sample)) = ["county"; "A2"]%string /\
  fst (legacy_rename_labels [("A", "b")]%string sample) = Err SqlOperationalError /\
  fst (legacy_rename_labels [("A", "attr")]%string sample) = Err ToronError.
Proof.
  split; [exact sample_wf|]. split; [|repeat split; vm_compute; reflexivity]. apply C62_rename_when; [exact sample_wf| |].
  - repeat constructor; cbn; intuition discriminate.
  - eexists. rewrite (surjective_pairing (legacy_rename_labels _ _)). f_equal; vm_compute; reflexivity.
Qed.

(** *** Removing *)

(** A call that succeeds takes out the columns and their cells, keeps ids, order and all other cells, and
    changes nothing else. *)
Theorem C62_drop drop s cols s' : space_wf s cols -> legacy_drop_labels drop s = (Ok tt, s') ->
  is_dropped drop s s' /\ exists names, without drop cols names /\ get_columns s' = names /\ space_wf s' names.
Proof.
  intros W H. destruct (proj2 (drop_run drop s cols W) s' H) as (A & B & _). split; [exact A|]. eexists. split; [apply keeps_without|].
  split; [exact (wf_get_columns _ _ B)|exact B].
Qed.
Print Assumptions C62_drop.

Theorem C62_drop_when drop s cols : space_wf s cols ->
  (exists s', legacy_drop_labels drop s = (Ok tt, s')) <-> may_drop drop s cols.
Proof. intro W. symmetry. exact (proj1 (drop_run drop s cols W)). Qed.
Print Assumptions C62_drop_when.

(** The sample with one more column and partitions that stay apart. *)
Definition sample3 : sdb := 
  {| s_tabs :=
       [("label_index"%string, {| t_auto := true; t_kind := KIndex; t_cols := ["index_id"; "A"; "B"; "C"]%string;
          t_rows := [[XInt 0; XText "-"; XText "-"; XText "-"]; [XInt 2; XText "x"; XText "p"; XText "1"]; [XInt 5; XText "x"; XText "q"; XText "2"]]%string |});
        ("label_location"%string, {| t_auto := false; t_kind := KLocation; t_cols := ["_location_id"; "A"; "B"; "C"]%string;
          t_rows := [[XInt 1; XText "x"; XText "p"; XText ""]]%string |});
        ("label_structure"%string, {| t_auto := false; t_kind := KStructure; t_cols := ["_structure_id"; "_granularity"; "A"; "B"; "C"]%string;
          t_rows := [[XInt 1; XReal 0; XInt 0; XInt 0; XInt 0]; [XInt 2; XReal 1; XInt 1; XInt 1; XInt 1]] |})];
     s_seqs := [("label_index"%string, 5%Z)];
     s_constraints := true; s_refs := [{| r_table := "label_index"; r_key := 5; r_cascade := false |}; {| r_table := "label_location"; r_key := 1; r_cascade := true |}];
     s_fk := false; s_tx := false; s_defs := Some [[]; ["A"; "B"; "C"]%string]; s_attrs := None; s_display := None |}.
Lemma sample3_wf : space_wf sample3 ["A"; "B"; "C"]%string.
Proof.
  constructor.
  - eexists. split; [reflexivity|]. split; [apply table_wf_by; try reflexivity; discriminate|]. split; [now left|].
    intros i Hi. cbn in Hi. intuition lia.
  - eexists. split; [reflexivity|]. apply table_wf_by; try reflexivity; discriminate.
  - eexists. split; [reflexivity|]. apply table_wf_by; try reflexivity; discriminate.
  - apply case_distinct_iff. reflexivity.
  - intros c Hc. apply has_nul_false. cbn in Hc. destruct Hc as [<-|[<-|[<-|[]]]]; reflexivity.
  - intros n Hn. cbn in Hn. destruct Hn as [<-|[<-|[<-|[]]]]; cbn; intuition discriminate.
  - reflexivity.
Qed.
Definition index_rows (s : sdb) := option_map t_rows (lookup "label_index" (s_tabs s)).
Example C62_drop_case :
  space_wf sample3 ["A"; "B"; "C"]%string /\ may_drop ["B"; "no column"]%string sample3 ["A"; "B"; "C"]%string /\
  index_rows (snd (legacy_drop_labels ["B"; "no column"]%string sample3)) =
    Some [[XInt 0; XText "-"; XText "-"]; [XInt 2; XText "x"; XText "1"]; [XInt 5; XText "x"; XText "2"]]%string /\
  fst (legacy_drop_labels ["B"; "C"]%string sample3) = Err SqlIntegrityError /\
  fst (legacy_drop_labels ["A"; "B"; "C"]%string sample3) = Err RuntimeError.
Proof.
  split; [exact sample3_wf|]. split; [|repeat split; vm_compute; reflexivity]. apply C62_drop_when; [exact sample3_wf|].
  eexists. rewrite (surjective_pairing (legacy_drop_labels _ _)). f_equal; vm_compute; reflexivity.
Qed.

(** *** Errors *)

(** A call that fails, whatever the reason, leaves all data as it was. *)
Theorem C62_all_or_nothing s e s' : 
  (forall m, legacy_rename_labels m s = (Err e, s') -> same_data s s') /\
  (forall drop, legacy_drop_labels drop s = (Err e, s') -> same_data s s').
Proof.
  assert (X : s' = s \/ s' = with_fk true s -> same_data s s') by (intros [->| ->]; repeat split).
  split; intros x H; apply X; [eapply rename_fails|eapply drop_fails]; exact H.
Qed.
Print Assumptions C62_all_or_nothing.
Example C62_all_or_nothing_case : 
  fst (legacy_rename_labels [("A", "_Location_Id")]%string sample) = Err SqlOperationalError /\
  fst (legacy_drop_labels ["B"]%string sample) = Err SqlIntegrityError.
Proof. split; vm_compute; reflexivity. Qed.

(** Foreign keys are enforced after every call that succeeds, and after every call if they were before. *)
Theorem C62_keys_enforced s cols r s' : space_wf s cols ->
  (exists m, NoDup (map fst m) /\ legacy_rename_labels m s = (r, s')) \/ (exists drop, legacy_drop_labels drop s = (r, s')) ->
  r = Ok tt \/ s_fk s = true -> s_fk s' = true.
Proof.
  intros W H K. destruct r as [[]|e].
  - destruct H as [(m & N & H)|(drop & H)]; [now destruct (rename_run m s cols s' W N H) as (_ & _ & F & _)
                                            |now destruct (proj2 (drop_run drop s cols W) s' H) as (_ & _ & F & _)].
  - destruct K as [K|K]; [discriminate|]. assert (X : s' = s \/ s' = with_fk true s).
    { destruct H as [(m & _ & H)|(drop & H)]; [eapply rename_fails|eapply drop_fails]; exact H. }
    destruct X as [->| ->]; [exact K|reflexivity].
Qed.
Print Assumptions C62_keys_enforced.
Example C62_keys_case : s_fk sample3 = false /\ s_fk (snd (legacy_drop_labels ["B"]%string sample3)) = true /\
  s_fk sample = true /\ fst (legacy_drop_labels ["B"]%string sample) = Err SqlIntegrityError.
Proof. repeat split; vm_compute; reflexivity. Qed.

(** *** Compared with the calls for newer versions of SQLite *)

(** What the newer call does, the older function does as well (columns, definitions, structure, attributes,
    order of display). *)
Theorem C62_same_rename m s cols c : space_wf s cols -> NoDup (map fst m) -> cols <> [] -> (forall x, In x cols -> ~ reserved_name x) ->
  s_tx s = false -> sound_refs s -> rename_index_columns m (view s) = Ok c ->
  exists s', legacy_rename_labels m s = (Ok tt, s') /\ view s' = c.
Proof. exact (rename_modern m s cols c). Qed.
Print Assumptions C62_same_rename.
Theorem C62_same_drop drop s cols clash c ti tl : space_wf s cols -> s_tx s = false -> sound_refs s ->
  table_at s "label_index" ti -> table_at s "label_location" tl ->
  (clash = false <-> no_clash drop cols ti /\ no_clash drop cols tl) ->
  drop_index_columns drop clash (view s) = Ok c <-> exists s', legacy_drop_labels drop s = (Ok tt, s') /\ view s' = c.
Proof. exact (drop_modern drop s cols clash c ti tl). Qed.
Print Assumptions C62_same_drop.
Example C62_same_case :
  sound_refs sample /\
  (exists c, rename_index_columns [("A", "county"); ("B", "A2")]%string (view sample) = Ok c /\ c_columns c = ["county"; "A2"]%string) /\
  (exists c, drop_index_columns ["B"]%string false (view sample3) = Ok c /\ c_columns c = ["A"; "C"]%string).
Proof. split; [exact sample_refs|]. split; eexists; (split; [vm_compute; reflexivity|reflexivity]). Qed.

(** Finding: the older function renames in one step, the newer call one column after the other; a name that
    differs only in case from a column that is renamed as well is accepted by the older one alone. *)
Theorem C62_one_after_the_other_refuted : exists m s cols, space_wf s cols /\ sound_refs s /\ NoDup (map fst m) /\
  (forall p, In p m -> In (fst p) cols) /\ (exists s', legacy_rename_labels m s = (Ok tt, s')) /\
  rename_index_columns m (view s) = Err SqlOperationalError.
Proof.
  exists [("A", "b"); ("B", "c")]%string, sample, ["A"; "B"]%string. split; [exact sample_wf|]. split; [exact sample_refs|].
  split; [repeat constructor; cbn; intuition discriminate|]. split; [intros p Hp; cbn in Hp; destruct Hp as [<-|[<-|[]]]; cbn; tauto|].
  split; [|vm_compute; reflexivity]. eexists. rewrite (surjective_pairing (legacy_rename_labels _ _)). f_equal; vm_compute; reflexivity.
Qed.
Print Assumptions C62_one_after_the_other_refuted.

(** *** Ids given afterwards *)

(** After either call the next id is one more than the largest id that is present. *)
Theorem C62_next_id s cols s' labels s'' i t : space_wf s cols ->
  (exists m, NoDup (map fst m) /\ legacy_rename_labels m s = (Ok tt, s')) \/ (exists drop, legacy_drop_labels drop s = (Ok tt, s')) ->
  table_at s "label_index" t -> add_record labels s' = Ok (s'', i) ->
  In (i - 1)%Z (ids t) /\ forall j, In j (ids t) -> (j < i)%Z.
Proof.
  intros W H T A. destruct (sw_index _ _ W) as (ti & Ti & _ & Z0 & Zp). assert (ti = t) by (unfold table_at in *; congruence). subst ti.
  destruct H as [(m & N & H)|(drop & H)].
  - destruct (rename_run m s cols s' W N H) as (R & W' & _ & (t' & T' & Q) & _). pose proof (renamed_ids m s s' _ _ t t' W W' R T T') as E.
    rewrite <- E in *. exact (next_id s' t' labels s'' i T' Z0 Zp Q A).
  - destruct (drop_run drop s cols W) as [When Run]. destruct (Run s' H) as (R & W' & _ & (t' & T' & Q) & _).
    destruct (proj2 When (ex_intro _ s' H)) as (_ & _ & Rd & _). pose proof (dropped_ids drop s s' cols t t' W Rd R T T') as E.
    rewrite <- E in *. exact (next_id s' t' labels s'' i T' Z0 Zp Q A).
Qed.
Print Assumptions C62_next_id.
(** So ids go on as they would have, if the record with the last id that was given is still there. *)
Theorem C62_ids_go_on s cols s' labels s'' i labels0 s0 i0 t : space_wf s cols ->
  (exists m, NoDup (map fst m) /\ legacy_rename_labels m s = (Ok tt, s')) \/ (exists drop, legacy_drop_labels drop s = (Ok tt, s')) ->
  table_at s "label_index" t -> (exists q, lookup "label_index" (s_seqs s) = Some q /\ In q (ids t)) ->
  add_record labels s' = Ok (s'', i) -> add_record labels0 s = Ok (s0, i0) -> i = i0.
Proof.
  intros W H T (q & Q & I) A B. destruct (C62_next_id s cols s' labels s'' i t W H T A) as [X Y].
  apply (add_record_id _ _ _ _ t T) in B. rewrite Q in B. pose proof (top_of_max _ _ I). pose proof (top_of_max _ _ X).
  destruct (sw_index _ _ W) as (ti & Ti & _ & Z0 & Zp). assert (ti = t) by (unfold table_at in *; congruence). subst ti.
  pose proof (Y _ (top_of_in _ Z0 Zp)). lia.
Qed.
Print Assumptions C62_ids_go_on.
Definition id_of (r : res (sdb * Z)) : option Z := match r with Ok (_, i) => Some i | Err _ => None end.
Example C62_ids_case :
  id_of (add_record ["z"; "z"]%string (snd (legacy_drop_labels ["B"]%string sample3))) = Some 6%Z /\
  id_of (add_record ["z"; "z"; "z"]%string sample3) = Some 6%Z.
Proof. split; vm_compute; reflexivity. Qed.

(** Finding: if the record with the last id was deleted, its id is given to another record afterwards (the
    counter of the table is lost); without the call it is not. *)
Theorem C62_id_reused_refuted : exists s0 s1 i s2 m s3 s4 s5 j,
  s0 = new_space ["A"]%string /\ add_record ["x"]%string s0 = Ok (s1, i) /\ delete_record i s1 = Ok s2 /\
  legacy_rename_labels m s2 = (Ok tt, s3) /\
  add_record ["y"]%string s3 = Ok (s4, i) /\ add_record ["y"]%string s2 = Ok (s5, j) /\ j <> i.
Proof.
  exists (new_space ["A"]%string).
  destruct (add_record ["x"]%string (new_space ["A"]%string)) as [[s1 i]|] eqn:E1; [|discriminate].
  pose proof E1 as E1'. vm_compute in E1'. injection E1' as <- <-.
  eexists. exists 1%Z. eexists. exists [("A", "B")]%string. eexists. eexists. eexists. exists 2%Z.
  split; [reflexivity|]. split; [reflexivity|]. split; [vm_compute; reflexivity|].
  split; [vm_compute; reflexivity|]. split; [vm_compute; reflexivity|]. split; [vm_compute; reflexivity|discriminate].
Qed.
Print Assumptions C62_id_reused_refuted.

(** Finding: a space without label columns cannot be renamed at all, not even with an empty dictionary (the
    newer call accepts that). *)
Theorem C62_no_columns_refuted : exists s s', s = new_space [] /\ legacy_rename_labels [] s = (Err SqlOperationalError, s') /\
  rename_index_columns [] (view s) = Ok (view s).
Proof. exists (new_space []). eexists. split; [reflexivity|]. split; [vm_compute; reflexivity|reflexivity]. Qed.
Print Assumptions C62_no_columns_refuted.
