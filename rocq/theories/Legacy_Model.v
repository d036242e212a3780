(** Model of the functions that rename and remove label columns for old versions of SQLite, at the
    level of the SQL statements they execute.
    Sources: src/toron/dal1/label_manager.py lines 110-331 [legacy_rename_labels],
    [legacy_drop_labels], src/toron/dal1/schema.py lines 121-146 (tables), 252-350 (column
    definitions, constraints), 372-401 [verify_foreign_key_check].

    Simplifications that hold for the whole file:
    - the space uses the backend 'DAL1' (otherwise TypeError, lines 117-119 and 229-231);
    - names of columns are the bytes of their UTF-8 text, as in Columns_Model;
    - a row of another table that refers to an index record, a location, a weight group, an attribute
      group or a link is represented by the reference alone;
    - REAL numbers are exact rationals;
    - the triggers that protect the undefined record are removed and created together with the
      UNIQUE indexes. *)
From Verif Require Import Prelude Partitions_Model Columns_Model.

(** *** SQLite *)

(** A stored value. *)
Inductive scell := XInt (z : Z) | XText (t : string) | XReal (q : Q) | XNull.
Definition scell_eqb (a b : scell) : bool :=
  match a, b with
  | XInt x, XInt y => (x =? y)%Z
  | XText x, XText y => String.eqb x y
  | XReal x, XReal y => Qeq_bool x y
  | XNull, XNull => true
  | _, _ => false
  end.
Fixpoint cells_eqb (a b : list scell) : bool :=
  match a, b with
  | [], [] => true
  | x :: a', y :: b' => scell_eqb x y && cells_eqb a' b'
  | _, _ => false
  end.

(** The three tables with label columns, and other ones.  The kind determines the columns before the
    label columns (schema.py lines 126-142). *)
Inductive kind := KIndex | KLocation | KStructure | KOther.
Definition fixed (k : kind) : list string :=
  match k with
  | KIndex => ["index_id"%string]
  | KLocation => ["_location_id"%string]
  | KStructure => ["_structure_id"; "_granularity"]%string
  | KOther => []
  end.
(** The constraints on the value of a label column.  Models schema.py lines 272-287
    [column_def_label_index], [column_def_location], [column_def_structure]. *)
Definition cell_ok (k : kind) (c : scell) : bool :=
  match k, c with
  | KIndex, XText t => negb (String.eqb t "")
  | KLocation, XText _ => true
  | KStructure, XInt z => (z =? 0)%Z || (z =? 1)%Z
  | KOther, _ => true
  | _, _ => false
  end.
Definition labels_in (k : kind) (row : list scell) : list scell := skipn (length (fixed k)) row.
Definition cells_ok (k : kind) (row : list scell) : bool := forallb (cell_ok k) (labels_in k row).

Record table := { t_auto : bool; t_kind : kind; t_cols : list string; t_rows : list (list scell) }.
(** The INTEGER PRIMARY KEY is the first column of every table. *)
Definition row_id (row : list scell) : Z := match row with XInt i :: _ => i | _ => 0%Z end.
Definition ids (t : table) : list Z := map row_id (t_rows t).

(** A reference of another row: the table and the key it refers to, and whether the row is deleted with
    it (ON DELETE CASCADE). *)
Record ref := { r_table : string; r_key : Z; r_cascade : bool }.

(** One connection and its database.  [s_seqs]: the table 'sqlite_sequence'.  [s_constraints]: the
    UNIQUE indexes and triggers exist.  [s_fk]: foreign keys are enforced.  [s_tx]: inside a
    transaction.  The last three: properties of the space. *)
Record sdb := {
  s_tabs : list (string * table);
  s_seqs : list (string * Z);
  s_constraints : bool;
  s_refs : list ref;
  s_fk : bool;
  s_tx : bool;
  s_defs : option (list labelset);
  s_attrs : option (list string);
  s_display : option (list string)
}.
Definition with_tabs tabs seqs refs s :=
  {| s_tabs := tabs; s_seqs := seqs; s_constraints := s_constraints s; s_refs := refs; s_fk := s_fk s;
     s_tx := s_tx s; s_defs := s_defs s; s_attrs := s_attrs s; s_display := s_display s |}.
Definition with_constraints c s :=
  {| s_tabs := s_tabs s; s_seqs := s_seqs s; s_constraints := c; s_refs := s_refs s; s_fk := s_fk s;
     s_tx := s_tx s; s_defs := s_defs s; s_attrs := s_attrs s; s_display := s_display s |}.
Definition with_fk f s :=
  {| s_tabs := s_tabs s; s_seqs := s_seqs s; s_constraints := s_constraints s; s_refs := s_refs s; s_fk := f;
     s_tx := s_tx s; s_defs := s_defs s; s_attrs := s_attrs s; s_display := s_display s |}.
Definition with_tx x s :=
  {| s_tabs := s_tabs s; s_seqs := s_seqs s; s_constraints := s_constraints s; s_refs := s_refs s; s_fk := s_fk s;
     s_tx := x; s_defs := s_defs s; s_attrs := s_attrs s; s_display := s_display s |}.
Definition with_pdefs d s :=
  {| s_tabs := s_tabs s; s_seqs := s_seqs s; s_constraints := s_constraints s; s_refs := s_refs s; s_fk := s_fk s;
     s_tx := s_tx s; s_defs := d; s_attrs := s_attrs s; s_display := s_display s |}.

Fixpoint lookup {A} (n : string) (l : list (string * A)) : option A :=
  match l with [] => None | (m, a) :: l' => if String.eqb n m then Some a else lookup n l' end.
Definition set_key {A} (n : string) (a : A) (l : list (string * A)) : list (string * A) :=
  map (fun p => if String.eqb n (fst p) then (fst p, a) else p) l.
Definition drop_key {A} (n : string) (l : list (string * A)) : list (string * A) :=
  filter (fun p => negb (String.eqb n (fst p))) l.
Definition rename_key {A} (old new : string) (l : list (string * A)) : list (string * A) :=
  map (fun p => if String.eqb old (fst p) then (new, snd p) else p) l.

(** [CREATE TABLE] with the fixed columns of a kind and label columns.  [format_identifier] rejects NUL
    before anything is executed; without label columns the statement ends in a comma, which is a syntax
    error. *)
Definition create_table (n : string) (k : kind) (auto : bool) (labels : list string) (s : sdb) : res sdb :=
  if existsb has_nul labels then Err ValueError
  else match labels, lookup n (s_tabs s) with
       | [], _ => Err SqlOperationalError
       | _, Some _ => Err SqlOperationalError
       | _, None =>
           if negb (sql_distinct (fixed k ++ labels)) then Err SqlOperationalError
           else Ok (with_tabs (s_tabs s ++ [(n, {| t_auto := auto; t_kind := k; t_cols := fixed k ++ labels; t_rows := [] |})])
                              (s_seqs s) (s_refs s) s)
       end.

(** The value of a column in a row; a quoted name that is no column is a string. *)
Fixpoint value_of (col : string) (cols : list string) (row : list scell) : scell :=
  match cols, row with
  | c :: cols', v :: row' => if sql_same col c then v else value_of col cols' row'
  | _, _ => XText col
  end.
(** [SELECT *] or [SELECT] with columns. *)
Definition select_row (what : option (list string)) (cols : list string) (row : list scell) : list scell :=
  match what with None => row | Some l => map (fun c => value_of c cols row) l end.
Fixpoint z_distinct (l : list Z) : bool :=
  match l with [] => true | x :: l' => negb (existsb (Z.eqb x) l') && z_distinct l' end.
Definition top_of (l : list Z) : Z := fold_right Z.max 0%Z l.
(** [INSERT INTO dst SELECT ... FROM src].  An AUTOINCREMENT table remembers the largest id that was
    inserted. *)
Definition insert_select (dst src : string) (what : option (list string)) (s : sdb) : res sdb :=
  match lookup dst (s_tabs s), lookup src (s_tabs s) with
  | Some d, Some t =>
      let rows := map (select_row what (t_cols t)) (t_rows t) in
      let width := match what with None => length (t_cols t) | Some l => length l end in
      if negb (width =? length (t_cols d)) then Err SqlOperationalError
      else if negb (forallb (cells_ok (t_kind d)) rows) then Err SqlIntegrityError
      else if negb (z_distinct (ids d ++ map row_id rows)) then Err SqlIntegrityError
      else
        let d' := {| t_auto := t_auto d; t_kind := t_kind d; t_cols := t_cols d; t_rows := t_rows d ++ rows |} in
        let seqs := if negb (t_auto d) then s_seqs s
                    else let top := top_of (map row_id rows) in
                         match lookup dst (s_seqs s) with
                         | Some q => set_key dst (Z.max q top) (s_seqs s)
                         | None => match rows with [] => s_seqs s | _ => s_seqs s ++ [(dst, top)] end
                         end in
        Ok (with_tabs (set_key dst d' (s_tabs s)) seqs (s_refs s) s)
  | _, _ => Err SqlOperationalError
  end.

(** [DROP TABLE]: also removes the counter of the table.  With foreign keys enforced, all rows are deleted
    first: rows that refer to them are deleted too, or the statement fails. *)
Definition drop_table (n : string) (s : sdb) : res sdb :=
  match lookup n (s_tabs s) with
  | None => Err SqlOperationalError
  | Some _ =>
      let refers r := String.eqb n (r_table r) in
      if s_fk s && existsb (fun r => refers r && negb (r_cascade r)) (s_refs s) then Err SqlIntegrityError
      else Ok (with_tabs (drop_key n (s_tabs s)) (drop_key n (s_seqs s))
                         (if s_fk s then filter (fun r => negb (refers r)) (s_refs s) else s_refs s) s)
  end.

(** [ALTER TABLE old RENAME TO new]: also renames the counter. *)
Definition rename_table (old new : string) (s : sdb) : res sdb :=
  match lookup old (s_tabs s), lookup new (s_tabs s) with
  | Some _, None => Ok (with_tabs (rename_key old new (s_tabs s)) (rename_key old new (s_seqs s)) (s_refs s) s)
  | _, _ => Err SqlOperationalError
  end.

(** *** Functions of schema.py *)

(** Models src/toron/dal1/label_manager.py lines 45-49 [get_columns]. *)
Definition get_columns (s : sdb) : list string :=
  match lookup "label_index" (s_tabs s) with Some t => skipn 1 (t_cols t) | None => [] end.

(** Models schema.py lines 342-352 [drop_schema_constraints]. *)
Definition drop_constraints (s : sdb) : sdb := with_constraints false s.

Fixpoint unique_cells (rows : list (list scell)) : bool :=
  match rows with [] => true | r :: rows' => negb (existsb (cells_eqb r) rows') && unique_cells rows' end.
Definition unique_labels (n : string) (s : sdb) : bool :=
  match lookup n (s_tabs s) with
  | Some t => unique_cells (map (labels_in (t_kind t)) (t_rows t))
  | None => true
  end.
(** Models schema.py lines 290-339 [create_schema_constraints]. *)
Definition add_constraints (s : sdb) : res sdb :=
  match get_columns s with
  | [] => Ok (with_constraints true s)
  | _ => if unique_labels "label_index" s && unique_labels "label_location" s && unique_labels "label_structure" s
         then Ok (with_constraints true s) else Err SqlIntegrityError
  end.

(** Models schema.py lines 372-401 [verify_foreign_key_check]. *)
Definition ref_ok (s : sdb) (r : ref) : bool :=
  match lookup (r_table r) (s_tabs s) with
  | Some t => existsb (Z.eqb (r_key r)) (ids t)
  | None => false
  end.
Definition verify_refs (s : sdb) : res unit :=
  if forallb (ref_ok s) (s_refs s) then Ok tt else Err RuntimeError.

(** *** The two functions *)

(** The columns, structure rows and properties as Columns_Model sees them. *)
Definition bit_of (c : scell) : bool := match c with XInt z => negb (z =? 0)%Z | _ => false end.
Definition view (s : sdb) : cspace :=
  {| c_columns := get_columns s;
     c_defs := s_defs s;
     c_structs := match lookup "label_structure" (s_tabs s) with
                  | Some t => map (fun r => map bit_of (labels_in KStructure r)) (t_rows t)
                  | None => [] end;
     c_attrs := s_attrs s; c_display := s_display s |}.

(** One table is made anew: created under another name, filled, the old one removed, the new one renamed. *)
Definition rebuild_table (temp n : string) (k : kind) (auto : bool) (labels : list string)
  (what : option (list string)) (s : sdb) : res sdb :=
  do s <- create_table temp k auto labels s;
  do s <- insert_select temp n what s;
  do s <- drop_table n s;
  rename_table temp n s.

(** [PRAGMA foreign_keys]: no effect inside a transaction. *)
Definition pragma_fk (f : bool) (s : sdb) : sdb := if s_tx s then s else with_fk f s.
(** The frame of both functions (lines 170-220 and 267-331): foreign keys off, a transaction that is rolled
    back on errors, foreign keys on. *)
Definition guarded (body : sdb -> res sdb) (s : sdb) : res unit * sdb :=
  let s := pragma_fk false s in
  match body (with_tx true s) with
  | Ok s' => (Ok tt, pragma_fk true (with_tx false s'))
  | Err e => (Err e, pragma_fk true s)
  end.

(** Lines 160-167: the new names; the loop stops at a name that was there before. *)
Fixpoint new_columns (mapping : list (string * string)) (cols acc : list string) : res (list string) :=
  match cols with
  | [] => Ok acc
  | c :: cols' =>
      let n := mapping_get mapping c in
      if lmem n acc then Err ValueError else new_columns mapping cols' (acc ++ [n])
  end.

(** Lines 171-213. *)
Definition rename_body (mapping : list (string * string)) (cols : list string) (s : sdb) : res sdb :=
  let s := drop_constraints s in
  do s <- rebuild_table "new_label_index" "label_index" KIndex true cols None s;
  do s <- rebuild_table "new_location" "label_location" KLocation false cols None s;
  do s <- rebuild_table "new_structure" "label_structure" KStructure false cols None s;
  do _ <- verify_refs s;
  do s <- add_constraints s;
  Ok (with_pdefs (c_defs (rename_defs mapping (view s))) s).

(** Models label_manager.py lines 110-220 [legacy_rename_labels]. *)
Definition legacy_rename_labels (mapping : list (string * string)) (s : sdb) : res unit * sdb :=
  if s_tx s then (Err RuntimeError, s)
  else match validate_new (map snd mapping) (view s) with
  | Err e => (Err e, s)
  | Ok _ =>
      if existsb (fun p => lmem (fst p) all_reserved) mapping then (Err ValueError, s)
      else match new_columns mapping (get_columns s) [] with
      | Err e => (Err e, s)
      | Ok cols => guarded (rename_body mapping cols) s
      end
  end.

(** Lines 269-322. *)
Definition drop_body (keep : list string) (s : sdb) : res sdb :=
  let s := drop_constraints s in
  do s <- rebuild_table "new_label_index" "label_index" KIndex true keep (Some ("index_id"%string :: keep)) s;
  do s <- rebuild_table "new_location" "label_location" KLocation false keep (Some ("_location_id"%string :: keep)) s;
  do s <- rebuild_table "new_structure" "label_structure" KStructure false keep
            (Some ("_structure_id" :: "_granularity" :: keep)%string) s;
  do _ <- verify_refs s;
  add_constraints s.

(** Models label_manager.py lines 223-331 [legacy_drop_labels]. *)
Definition legacy_drop_labels (cols : list string) (s : sdb) : res unit * sdb :=
  if s_tx s then (Err RuntimeError, s)
  else if existsb (fun c => lmem c all_reserved) cols then (Err ValueError, s)
  else match filter (fun c => negb (lmem c cols)) (get_columns s) with
  | [] => (Err RuntimeError, s)
  | keep =>
      if existsb has_nul keep then (Err ValueError, s)
      else guarded (drop_body keep) s
  end.

(** *** Adding and removing index records, to see the ids that are given afterwards *)

(** Models src/toron/dal1/repositories.py lines 44-55 [IndexRepository.add].  An AUTOINCREMENT id is one
    more than the largest one of the counter and the table. *)
Definition add_record (labels : list string) (s : sdb) : res (sdb * Z) :=
  match lookup "label_index" (s_tabs s) with
  | None => Err SqlOperationalError
  | Some t =>
      let row := map XText labels in
      if negb (length labels =? length (skipn 1 (t_cols t))) then Err SqlOperationalError
      else if negb (forallb (cell_ok KIndex) row) then Err ValueError
      else if existsb (cells_eqb row) (map (labels_in KIndex) (t_rows t)) then Err ValueError
      else
        let top := Z.max (match lookup "label_index" (s_seqs s) with Some q => q | None => 0%Z end) (top_of (ids t)) in
        let i := (top + 1)%Z in
        if (9223372036854775807 <=? top)%Z then Err SqlOperationalError
        else Ok (with_tabs (set_key "label_index" {| t_auto := t_auto t; t_kind := t_kind t; t_cols := t_cols t;
                                                     t_rows := t_rows t ++ [XInt i :: row] |} (s_tabs s))
                           (match lookup "label_index" (s_seqs s) with
                            | Some _ => set_key "label_index" i (s_seqs s)
                            | None => s_seqs s ++ [("label_index"%string, i)] end)
                           (s_refs s) s, i)
  end.

(** Models repositories.py lines 83-87 [IndexRepository.delete] of a record without references. *)
Definition delete_record (i : Z) (s : sdb) : res sdb :=
  match lookup "label_index" (s_tabs s) with
  | None => Err SqlOperationalError
  | Some t =>
      if (i =? 0)%Z then Err SqlIntegrityError
      else Ok (with_tabs (set_key "label_index" {| t_auto := t_auto t; t_kind := t_kind t; t_cols := t_cols t;
                            t_rows := filter (fun r => negb (row_id r =? i)%Z) (t_rows t) |} (s_tabs s))
                         (s_seqs s) (s_refs s) s)
  end.

(** A new space (schema.py lines 121-249) with label columns added (label_manager.py lines 26-43): the
    undefined record has '-' in every label column. *)
Definition new_space (cols : list string) : sdb :=
  {| s_tabs := [("label_index"%string, {| t_auto := true; t_kind := KIndex; t_cols := fixed KIndex ++ cols;
                   t_rows := [XInt 0 :: map (fun _ => XText "-"%string) cols] |});
                ("label_location"%string, {| t_auto := false; t_kind := KLocation; t_cols := fixed KLocation ++ cols; t_rows := [] |});
                ("label_structure"%string, {| t_auto := false; t_kind := KStructure; t_cols := fixed KStructure ++ cols; t_rows := [] |})];
     s_seqs := [("label_index"%string, 0%Z)]; s_constraints := true; s_refs := []; s_fk := true; s_tx := false;
     s_defs := None; s_attrs := None; s_display := None |}.
