(** Model of loading mappings from standard input and of the table that is written for a link.
    Sources: src/toron/cli/command_mapping.py lines 361-445 [read_from_stdin], src/toron/mapper.py lines
    62-165 [Mapper.__init__] for cells of a CSV file.

    - The two spaces are different files, each with the state of Db_Model and its simplifications.
    - A CSV file is represented by its rows of strings: that [csv.reader] gives back what [csv.writer]
      wrote is shown in Csv_Properties.v.
    - The messages of the matching and of [insert_mappings2] are left out. *)
From Coq Require Import NArith.
From Verif Require Import Prelude BitFlags_Model Selectors_Model LinkRef_Model IndexCode_Model Db_Model
  Mapper_Model Elements_Model Streams_Model EdgeText_Model IndexCli_Model.
Local Open Scope nat_scope.

(** *** Numbers: SQLite's [sqlite3AtoF] *)

(** [sqlite3Isspace]. *)
Definition sql_space (c : N) : bool := ((c =? 32) || (9 <=? c) && (c <=? 13))%N.
Definition sql_digit (c : N) : bool := ((48 <=? c) && (c <=? 57))%N.
Fixpoint skip_space (t : text) : text :=
  match t with c :: t' => if sql_space c then skip_space t' else t | [] => [] end.
(** The digits at the front, as a number continuing [acc], their count, and the rest. *)
Fixpoint scan_number (acc : Z) (n : nat) (t : text) : Z * nat * text :=
  match t with
  | c :: t' => if sql_digit c then scan_number (10 * acc + (Z.of_N c - 48)) (S n) t' else (acc, n, t)
  | [] => (acc, n, [])
  end.
Definition scan_sign (t : text) : bool * text :=
  match t with c :: t' => if (c =? 45)%N then (true, t') else if (c =? 43)%N then (false, t') else (false, t) | [] => (false, []) end.
Definition signed (neg : bool) (z : Z) : Z := if neg then (- z)%Z else z.
(** A point and digits, continuing [acc]; the count of the digits. *)
Definition scan_fraction (acc : Z) (t : text) : Z * nat * text :=
  match t with c :: t' => if (c =? 46)%N then scan_number acc 0 t' else (acc, 0, t) | [] => (acc, 0, []) end.
(** The exponent; whether the letter e, if there is one, is followed by digits. *)
Definition scan_exponent (t : text) : Z * bool * text :=
  match t with
  | c :: t' =>
    if ((c =? 101) || (c =? 69))%N then
      let '(neg, t') := scan_sign t' in
      let '(e, k, t') := scan_number 0 0 t' in
      (signed neg e, negb (k =? 0), t')
    else (0%Z, true, t)
  | [] => (0%Z, true, [])
  end.
(** What SQLite makes of a text: the number in front, 0 if there is none, and whether the text is a
    number as a whole.  Simplification: exact numbers, without the limits of exponents. *)
Definition sqlite_real (t : text) : Q * bool :=
  let '(neg, t) := scan_sign (skip_space t) in
  let '(m, n, t) := scan_number 0 0 t in
  let '(m, f, t) := scan_fraction m t in
  let '(e, valid, t) := scan_exponent t in
  (inject_Z (signed neg m) * Qpower 10 (e - Z.of_nat f),
   negb (n + f =? 0) && valid && nil_b (skip_space t))%Q.

(** *** Loading the rows *)

(** Lines 123-165 of mapper.py: a value stored in column [mapping_value] is a number if the text is one;
    a text passes the CHECK and counts with the number in front of it (line 422).
    Simplification: cells that are no strings, which a CSV file does not have, count as empty. *)
Definition load_cells (s1 s2 : db) (acc : list source) (r : mapping_row) : res (list source) :=
  let a := {| sd_id := mr_id1 r; sd_loc := map code_text (mr_loc1 r); sd_level := bf_to_bytes (mr_level1 r) |} in
  let b := {| sd_id := mr_id2 r; sd_loc := map code_text (mr_loc2 r); sd_level := bf_to_bytes (mr_level2 r) |} in
  let '(q, number) := sqlite_real (code_text (Streams_Model.mr_value r)) in
  if negb (existsb (bytes_eqb (sd_level a)) (map level_of (d_structs s1))) then Err RuntimeError
  else if negb (existsb (bytes_eqb (sd_level b)) (map level_of (d_structs s2))) then Err RuntimeError
  else if number && negb (Qle_bool 0 q) then Err SqlIntegrityError
  else Ok (acc ++ [{| sr_run := Z.of_nat (length acc) + 1; sr_1 := a; sr_2 := b; sr_value := Some q |}]).
(** [for row in data: ...]. *)
Fixpoint load_stream (s1 s2 : db) (acc : list source) (data : stream mapping_row) : res (list source) :=
  match data with
  | Stop => Ok acc
  | Boom e => Err e
  | Item r rest => do acc' <- load_cells s1 s2 acc r; load_stream s1 s2 acc' rest
  end.

(** *** The command *)

(** A space: [unique_id], its bytes, the granularity of its structures, its data. *)
Record space := { sp_id : text; sp_bytes : list N; sp_gran : list bool -> option Q; sp_db : db }.
Definition node_of (x : space) : node := {| n_id_bytes := sp_bytes x; n_index_columns := d_labels (sp_db x) |}.
Inductive direction := Both | ToLeft | ToRight.
Record options := {
  o_link : text; o_direction : direction; o_limit : nat; o_overlapping : bool; o_incomplete : bool
}.
(** The messages: no link of that name from FILE2 to FILE1, from FILE1 to FILE2, or in either direction;
    the mapping loaded into a file is complete or not. *)
Inductive message := NoLinkToFile1 | NoLinkToFile2 | NoLink | Complete | Incomplete.
Record outcome := { r_1 : db; r_2 : db; r_log : list message; r_exit : res exit_code }.

(** Lines 366-373: [left_link], [right_link]; other errors than [ToronError] do not occur. *)
Definition finds_link (o : options) (from into : space) : bool :=
  match get_link (sp_id from) (Some (o_link o)) true (d_links (sp_db into)) with Ok _ => true | Err _ => false end.
(** Lines 375-391: the direction and the warnings, or the error message. *)
Definition resolve (o : options) (x1 x2 : space) : (direction * list message) + message :=
  let left_link := finds_link o x2 x1 in
  let right_link := finds_link o x1 x2 in
  match o_direction o with
  | Both =>
    if right_link && negb left_link then inl (ToRight, [NoLinkToFile1])
    else if left_link && negb right_link then inl (ToLeft, [NoLinkToFile2])
    else if negb left_link && negb right_link then inr NoLink
    else inl (Both, [])
  | ToLeft => if negb left_link then inr NoLinkToFile1 else inl (ToLeft, [])
  | ToRight => if negb right_link then inr NoLinkToFile2 else inl (ToRight, [])
  end.

Section Cli.
Context (todecimal : N -> option N) (show : Q -> text).

(** Lines 393-416: the rows to be loaded into FILE2 and into FILE1. *)
Definition build_mappings (o : options) (x1 x2 : space) (stdin : stream row) : res (list m_row * list m_row) :=
  let s1 := sp_db x1 in
  let s2 := sp_db x2 in
  do data <- normalize_mapping_data todecimal shorthand_name (node_of x1) (node_of x2) (o_link o) (DReader stdin) true None;
  do src <- load_stream s1 s2 [] data;
  do (l1, _) <- match_records (sp_gran x1) s1 (o_limit o) (o_overlapping o) (side_1 src) [];
  do (l2, _) <- match_records (sp_gran x2) s2 (o_limit o) (o_overlapping o) (side_2 src) [];
  if negb (o_incomplete o) && negb (is_fully_matched s1 s2 l1 l2) then Err ToronError
  else Ok (to_rows (iter_mappings src l1 l2), to_rows (iter_mappings src l2 l1)).

(** Lines 418-430 and 432-444: the rows are loaded; whether the link is complete afterwards is reported. *)
Definition load_into (o : options) (from into : space) (rows : list m_row) : db * res (list message) :=
  match transact (insert_mappings2 (sp_id from) (Some (o_link o)) rows) (sp_db into) with
  | (s, Some e) => (s, Err e)
  | (s, None) =>
    (s, do k <- get_link (sp_id from) (Some (o_link o)) true (d_links s);
        Ok [if k_complete k then Complete else Incomplete])
  end.

(** Models lines 361-445 [read_from_stdin]. *)
Definition read_from_stdin (o : options) (x1 x2 : space) (stdin : stream row) : outcome :=
  let s1 := sp_db x1 in
  let s2 := sp_db x2 in
  match resolve o x1 x2 with
  | inr m => {| r_1 := s1; r_2 := s2; r_log := [m]; r_exit := Ok ExitErr |}
  | inl (dir, log) =>
    match build_mappings o x1 x2 stdin with
    | Err e => {| r_1 := s1; r_2 := s2; r_log := log; r_exit := Err e |}
    | Ok (right_rows, left_rows) =>
      let '(s2', loaded2) := match dir with ToLeft => (s2, Ok []) | _ => load_into o x1 x2 right_rows end in
      match loaded2 with
      | Err e => {| r_1 := s1; r_2 := s2'; r_log := log; r_exit := Err e |}
      | Ok m2 =>
        let '(s1', loaded1) := match dir with ToRight => (s1, Ok []) | _ => load_into o x2 x1 left_rows end in
        match loaded1 with
        | Err e => {| r_1 := s1'; r_2 := s2'; r_log := log ++ m2; r_exit := Err e |}
        | Ok m1 => {| r_1 := s1'; r_2 := s2'; r_log := log ++ m2 ++ m1; r_exit := Ok ExitOk |}
        end
      end
    end
  end.

(** *** The table that is written *)

(** [csv.writer]: a string as it is, [None] as nothing, a float by its [repr]. *)
Definition opt_cell (t : option text) : cell := CText (match t with Some t => t | None => [] end).
Definition value_cell (v : option Q) : cell := CText (match v with Some q => show q | None => [] end).
(** Lines 555-584 of command_mapping.py: the cells of a row. *)
Definition row_to_cells (r : out_row) : list cell :=
  opt_cell (r_src_code r) :: map opt_cell (r_src_labels r) ++
  value_cell (r_value r) :: opt_cell (r_trg_code r) :: map opt_cell (r_trg_labels r) ++
  match r_ambiguous r with Some t => [opt_cell t] | None => [] end.
(** Models lines 471-606 [write_to_stdout] of command_mapping.py: the rows that are written (see
    Elements_Model.v). *)
Definition export_mapping (name : text) (header1 header2 : text) (x1 x2 : space) : res (list (list cell)) :=
  do (header, rows, _) <-
    write_to_stdout name (sp_id x1) (sp_bytes x1) (sp_bytes x2) header1 header2 (sp_db x1) (sp_db x2);
  Ok (map CText header :: map row_to_cells rows).
End Cli.
