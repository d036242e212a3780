(** C63: names of columns in SQL statements. *)
From Verif Require Import Prelude Selectors_Model Quote_Model Quote_Spec Quote_Proofs Quote_Proofs2 Quote_Proofs3.

(** A name with quotes, a semicolon and a comment. *)
Definition nasty : text := txt "a"" TEXT); DROP TABLE label_index; --".
Lemma usable_by name : forallb (fun c => negb (c =? 0)%N && negb ((55296 <=? c)%N && (c <=? 57343)%N)) name = true -> usable name.
Proof.
  intros H c Hc. rewrite forallb_forall in H. apply H in Hc. apply andb_true_iff in Hc as [A B]. apply negb_true_iff in A, B.
  apply N.eqb_neq in A. split; [exact A|]. intros [L1 L2]. apply N.leb_le in L1, L2. rewrite L1, L2 in B. discriminate.
Qed.
Lemma nasty_usable : Forall usable [nasty; txt "county"].
Proof. constructor; [|constructor; [|constructor]]; apply usable_by; vm_compute; reflexivity. Qed.

(** *** One name *)

(** Names without surrogates and NUL can be used, no others. *)
Theorem C63_usable name : (exists q, format_identifier name = Ok q) <-> usable name.
Proof. destruct (format_cases name) as [[U E]|[U E]]; rewrite E; split; eauto; [intros (q & H); discriminate|contradiction]. Qed.
Print Assumptions C63_usable.

(** Wherever the text of a name is put between tokens, SQLite reads one name, which is the given one. *)
Theorem C63_one_name name q pre post : format_identifier name = Ok q -> complete pre -> hd 0%N post <> 34%N ->
  tokens (pre ++ q ++ post) = tokens pre ++ col name ++ tokens post.
Proof. intros F C H. apply format_ok in F. subst q. rewrite C. f_equal. exact (lex_name name post H). Qed.
Print Assumptions C63_one_name.
Lemma complete_select : complete (txt "SELECT ").
Proof. intro post. apply lex_seg. right. unfold flushes. cbn. now destruct (start _). Qed.
Example C63_one_name_case : complete (txt "SELECT ") /\ (exists q, format_identifier nasty = Ok q) /\
  tokens (txt "SELECT " ++ 34%N :: nasty) <> tokens (txt "SELECT ") ++ col nasty.
Proof. split; [exact complete_select|]. split; [apply C63_usable; pose proof nasty_usable as H; now inversion H|vm_compute; discriminate]. Qed.

(** Different names have different texts. *)
Theorem C63_different a b q : format_identifier a = Ok q -> format_identifier b = Ok q -> a = b.
Proof.
  intros A B. apply format_ok in A, B. assert (E : lex Between (q34 a ++ []) = lex Between (q34 b ++ [])) by congruence.
  rewrite !lex_name in E by discriminate. now injection E.
Qed.
Print Assumptions C63_different.

(** *** Statements that change the columns *)

Theorem C63_add_columns c : usable c -> exists l, add_sql c = Ok l /\ map tokens l =
  [sql "ALTER TABLE main . label_index ADD COLUMN" ++ index_col c;
   sql "ALTER TABLE main . label_location ADD COLUMN" ++ location_col c;
   sql "ALTER TABLE main . label_structure ADD COLUMN" ++ structure_col c].
Proof. exact (add_tokens c). Qed.
Print Assumptions C63_add_columns.
Theorem C63_rename_columns a b : usable a -> usable b -> exists l, rename_sql a b = Ok l /\ map tokens l =
  [sql "ALTER TABLE main . label_index RENAME COLUMN" ++ col a ++ sql "TO" ++ col b;
   sql "ALTER TABLE main . label_location RENAME COLUMN" ++ col a ++ sql "TO" ++ col b;
   sql "ALTER TABLE main . label_structure RENAME COLUMN" ++ col a ++ sql "TO" ++ col b].
Proof. exact (rename_tokens a b). Qed.
Print Assumptions C63_rename_columns.
Theorem C63_drop_columns c : usable c -> exists l, drop_sql c = Ok l /\ map tokens l =
  [sql "ALTER TABLE main . label_index DROP COLUMN" ++ col c;
   sql "ALTER TABLE main . label_location DROP COLUMN" ++ col c;
   sql "ALTER TABLE main . label_structure DROP COLUMN" ++ col c].
Proof. exact (drop_tokens c). Qed.
Print Assumptions C63_drop_columns.
Theorem C63_unique_indexes cs : Forall usable cs -> exists l, index_sql cs = Ok l /\ map tokens l =
  [sql "CREATE UNIQUE INDEX IF NOT EXISTS main . unique_index_label_columns ON label_index (" ++ cols cs ++ sql ")";
   sql "CREATE UNIQUE INDEX IF NOT EXISTS main . unique_location_label_columns ON label_location (" ++ cols cs ++ sql ")";
   sql "CREATE UNIQUE INDEX IF NOT EXISTS main . unique_structure_label_columns ON label_structure (" ++ cols cs ++ sql ")"].
Proof. exact (index_tokens cs). Qed.
Print Assumptions C63_unique_indexes.
Theorem C63_new_tables cs : Forall usable cs -> exists l, create_sql cs = Ok l /\ map tokens l =
  [sql "CREATE TABLE main . new_label_index ( index_id INTEGER PRIMARY KEY AUTOINCREMENT ," ++
     between (sql ",") (map index_col cs) ++ sql ")";
   sql "CREATE TABLE main . new_location ( _location_id INTEGER PRIMARY KEY ," ++
     between (sql ",") (map location_col cs) ++ sql ")";
   sql "CREATE TABLE main . new_structure ( _structure_id INTEGER PRIMARY KEY , _granularity REAL ," ++
     between (sql ",") (map structure_col cs) ++ sql ")"].
Proof. exact (create_tokens cs). Qed.
Print Assumptions C63_new_tables.
Theorem C63_copied_columns cs : Forall usable cs -> exists l, copy_sql cs = Ok l /\ map tokens l =
  [sql "INSERT INTO main . new_label_index SELECT index_id ," ++ cols cs ++ sql "FROM main . label_index";
   sql "INSERT INTO main . new_location SELECT _location_id ," ++ cols cs ++ sql "FROM main . label_location";
   sql "INSERT INTO main . new_structure SELECT _structure_id , _granularity ," ++ cols cs ++ sql "FROM main . label_structure"].
Proof. exact (copy_tokens cs). Qed.
Print Assumptions C63_copied_columns.
(** Names that cannot be used are refused before any statement. *)
Theorem C63_refused cs : ~ Forall usable cs ->
  index_sql cs = Err ValueError /\ create_sql cs = Err ValueError /\ copy_sql cs = Err ValueError /\
  (forall u, distinct_sql cs u = Err ValueError) /\ (forall what u, filter_sql what cs u = Err ValueError) /\
  location_sql cs = Err ValueError /\ (forall n, structure_update_sql cs n = Err ValueError) /\ granularity_sql cs = Err ValueError /\
  (forall c, cs = [c] -> add_sql c = Err ValueError /\ drop_sql c = Err ValueError) /\
  (forall a b, cs = [a; b] -> rename_sql a b = Err ValueError).
Proof.
  intro U. destruct (lists_error cs U) as (A & B & C). destruct (queries_error cs U) as (D & E & F & G).
  split; [exact A|]. split; [exact B|]. split; [exact C|]. split; [exact D|]. split; [intros; now apply filter_error|].
  split; [exact E|]. split; [exact F|]. split; [exact G|]. split.
  - intros c ->. assert (~ usable c) by (intro X; apply U; auto). split; [now apply add_error|now apply drop_error].
  - intros a b ->. apply rename_error. intros [X Y]. apply U. auto.
Qed.
Print Assumptions C63_refused.
Example C63_refused_case : ~ Forall usable [txt "a"; [97; 0; 98]%N] /\ ~ Forall usable [[55357]%N].
Proof.
  split; intro H; inversion H as [|? ? A B]; subst.
  - inversion B as [|? ? C _]; subst. destruct (C 0%N) as [X _]; [right; now left|now apply X].
  - destruct (A 55357%N) as [_ X]; [now left|]. apply X. lia.
Qed.
Example C63_statements_case : Forall usable [nasty; txt "county"] /\
  (exists l, create_sql [nasty; txt "county"] = Ok l /\ List.length (flat_map tokens l) = 111).
Proof. split; [exact nasty_usable|]. eexists. split; vm_compute; reflexivity. Qed.

(** *** Queries *)

Theorem C63_distinct cs u : Forall usable cs -> exists t, distinct_sql cs u = Ok t /\ tokens t =
  sql "SELECT DISTINCT" ++ cols cs ++ sql "FROM main . label_index" ++ (if u then [] else sql "WHERE index_id != 0").
Proof. exact (distinct_tokens cs u). Qed.
Print Assumptions C63_distinct.
Theorem C63_structure_update cs n : Forall usable cs -> exists t, structure_update_sql cs n = Ok t /\ tokens t =
  sql "UPDATE main . label_structure SET ( _granularity ," ++ cols cs ++ sql ") = ( ? ," ++ marks n ++ sql ") WHERE _structure_id = ?".
Proof. exact (update_tokens cs n). Qed.
Print Assumptions C63_structure_update.
Theorem C63_quantities_by_structure names bits m : Forall usable (map fst (combine names bits)) ->
  exists t, quantity_structure_sql names bits m = Ok t /\ tokens t =
  sql "SELECT a . quantity_id , a . _location_id , a . attribute_group_id , a . quantity_value FROM main . quantity a JOIN main . label_location b USING ( _location_id ) WHERE"
  ++ between (sql "AND") (map filled_b (combine names bits) ++
       match m with Some n => [sql "a . attribute_group_id IN (" ++ marks n ++ sql ")"] | None => [] end)
  ++ sql "ORDER BY a . _location_id".
Proof. exact (quantity_tokens names bits m). Qed.
Print Assumptions C63_quantities_by_structure.
Theorem C63_granularity cs : Forall usable cs -> exists t, granularity_sql cs = Ok t /\ tokens t =
  sql "WITH block ( cardinality ) AS ( SELECT CAST ( COUNT ( * ) AS REAL ) FROM main . label_index WHERE index_id > 0 GROUP BY" ++ cols cs ++
  sql ") , summand ( partition_coarseness ) AS ( SELECT SUM ( ( block . cardinality / :total_cardinality ) * LOG2 ( block . cardinality ) ) FROM block ) SELECT LOG2 ( :total_cardinality ) - partition_coarseness FROM summand".
Proof. exact (granularity_tokens cs). Qed.
Print Assumptions C63_granularity.

(** *** Results of the queries for records *)

(** The records found are exactly those that have the labels asked for, whatever the names of the columns. *)
Theorem C63_filter t criteria u : names_ok t -> l_key t = txt "index_id" -> Forall usable (map fst criteria) -> known t criteria ->
  exists rows, filter_by_label t criteria u = Ok rows /\ picked (wanted t criteria u) (l_rows t) rows.
Proof. exact (filter_run t criteria u). Qed.
Print Assumptions C63_filter.
Theorem C63_filter_ids t criteria u : names_ok t -> l_key t = txt "index_id" -> Forall usable (map fst criteria) -> known t criteria ->
  exists rows, filter_index_ids_by_label t criteria u = Ok (map fst rows) /\ picked (wanted t criteria u) (l_rows t) rows.
Proof. exact (filter_ids_run t criteria u). Qed.
Print Assumptions C63_filter_ids.
Theorem C63_find_location t criteria : names_ok t -> criteria <> [] -> Forall usable (map fst criteria) -> known t criteria ->
  exists rows, find_by_label t criteria = Ok rows /\ picked (meets t criteria) (l_rows t) rows.
Proof. exact (find_run t criteria). Qed.
Print Assumptions C63_find_location.
Theorem C63_by_structure t bits : names_ok t -> combine (l_names t) bits <> [] -> Forall usable (map fst (combine (l_names t) bits)) ->
  exists rows, find_by_structure t bits = Ok rows /\ picked (fits t bits) (l_rows t) rows.
Proof. exact (structure_run t bits). Qed.
Print Assumptions C63_by_structure.

Definition table_ : ltable := {| l_key := txt "index_id"; l_names := [nasty; txt "county"];
  l_rows := [(0%Z, [txt "-"; txt "-"]); (1%Z, [txt "x"; txt "p"]); (2%Z, [txt "y"; txt "p"]); (3%Z, [txt "x"; txt "'q'"])] |}.
Lemma names_by t : forallb (fun i => forallb (fun j => implb (same_name (nth i (l_key t :: l_names t) []) (nth j (l_key t :: l_names t) [])) (Nat.eqb i j))
    (seq 0 (S (length (l_names t))))) (seq 0 (S (length (l_names t)))) = true ->
  forallb (fun r : lrow => Nat.eqb (length (snd r)) (length (l_names t))) (l_rows t) = true -> names_ok t.
Proof.
  intros A B. constructor.
  - intros i j a b Hi Hj H. rewrite forallb_forall in A.
    assert (Li : i < S (length (l_names t))) by (change (S (length (l_names t))) with (length (l_key t :: l_names t)); apply nth_error_Some; congruence).
    assert (Lj : j < S (length (l_names t))) by (change (S (length (l_names t))) with (length (l_key t :: l_names t)); apply nth_error_Some; congruence).
    specialize (A i ltac:(apply in_seq; lia)). rewrite forallb_forall in A. specialize (A j ltac:(apply in_seq; lia)).
    unfold text in *. rewrite (nth_error_nth _ _ [] Hi), (nth_error_nth _ _ [] Hj) in A. apply same_iff in H. rewrite H in A. now apply Nat.eqb_eq in A.
  - rewrite forallb_forall in B. intros r Hr. now apply Nat.eqb_eq, B.
Qed.
Lemma table_ok : names_ok table_.
Proof. apply names_by; vm_compute; reflexivity. Qed.
Example C63_filter_case : names_ok table_ /\ known table_ [(txt "COUNTY", txt "p"); (nasty, txt "x")] /\
  filter_by_label table_ [(txt "COUNTY", txt "p"); (nasty, txt "x")] false = Ok [(1%Z, [txt "x"; txt "p"])] /\
  find_by_structure {| l_key := txt "_location_id"; l_names := [nasty; txt "county"]; l_rows := [(1%Z, [txt "x"; []]); (2%Z, [txt "x"; txt "p"])] |} [true; false]
    = Ok [(1%Z, [txt "x"; []])].
Proof.
  split; [exact table_ok|]. split; [|split; vm_compute; reflexivity].
  intros k v [H|[H|[]]]; injection H as <- <-; [exists (txt "county")|exists nasty]; (split; [cbn [l_names table_ In]; tauto|apply same_iff; vm_compute; reflexivity]).
Qed.

(** Finding: a criterion about a column that does not exist is no error.  SQLite takes the quoted name for a
    string: all records are returned if the value is the name itself, otherwise none. *)
Theorem C63_unknown_name t k v : usable k -> l_key t = txt "index_id" ->
  (forall n, In n (l_key t :: txt "rowid" :: txt "oid" :: txt "_rowid_" :: l_names t) -> ~ same_for_sqlite k n) ->
  select_index t [(k, v)] = Ok (if text_eqb k v then l_rows t else []).
Proof. exact (unknown_name t k v). Qed.
Print Assumptions C63_unknown_name.
Theorem C63_unknown_column_refuted : exists t k rows, names_ok t /\ ~ In k (l_names t) /\ usable k /\
  select_index t [(k, k)] = Ok rows /\ rows = l_rows t /\ rows <> [].
Proof.
  exists table_, (txt "town"). eexists. split; [exact table_ok|]. split; [cbn; intuition discriminate|].
  split; [apply usable_by; vm_compute; reflexivity|]. split; [vm_compute; reflexivity|]. split; [reflexivity|discriminate].
Qed.
Print Assumptions C63_unknown_column_refuted.
(** Finding: locations of a partition cannot be looked up in a space without label columns (the statement
    ends after WHERE). *)
Theorem C63_no_columns_refuted : exists t, names_ok t /\ l_names t = [] /\ find_by_structure t [] = Err SqlOperationalError.
Proof.
  exists {| l_key := txt "_location_id"; l_names := []; l_rows := [] |}. split; [apply names_by; vm_compute; reflexivity|].
  split; [reflexivity|now apply no_criteria_structure].
Qed.
Print Assumptions C63_no_columns_refuted.
