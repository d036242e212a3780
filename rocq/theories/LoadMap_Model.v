(** Model of [toron.load_mapping]: a table with the labels of two spaces and values between them is
    matched with the records of both spaces and loaded as a link.
    Sources: src/toron/graph.py lines 71-107 [normalize_mapping_data], 273-352 [load_mapping];
    src/toron/mapper.py lines 444-855 [Mapper_OLD].

    - The two spaces are different files with the state of Db_Model and its simplifications; the match
      tables, [_refresh_proportions] and the weights are those of Mapper_Model with its simplifications.
    - A header cell or a label that is no string is rejected (the code writes labels as JSON and leaves
      the comparison to SQLite).
    - Names of columns that differ only in case, and the names [rowid], [oid] and [_rowid_], which SQLite
      takes for columns of the space, are not modelled.
    - Log messages are left out, the counters that they report are kept; so are the statistics that are
      logged after loading (see MapStats_Model.v). *)
From Coq Require Import NArith.
From Verif Require Import Prelude BitFlags_Model Streams_Model Selectors_Model LinkRef_Model Db_Model Reader_Model
  Mapper_Model Elements_Model EdgeText_Model MapCli_Model.
Local Notation cell := Streams_Model.cell.
Local Notation row := Streams_Model.row.
Local Notation data := Streams_Model.data.
Local Open Scope nat_scope.

Definition text_cell (c : cell) : res text := match c with CText t => Ok t | _ => Err TypeError end.
Definition domain_ : text := txt "domain".

(** *** Domains (graph.py lines 71-107) *)

(** [columns.index(name, start)]. *)
Fixpoint index_of (name : text) (i : nat) (columns : list text) : option nat :=
  match columns with
  | [] => None
  | c :: columns' => if text_eqb c name then Some i else index_of name (S i) columns'
  end.
(** Lines 81-89: the positions with the domain that is expected there. *)
Definition domain_indexes (value_pos : nat) (columns : list text) (left_domain right_domain : text) : list (nat * text) :=
  match (if is_empty left_domain then None else index_of domain_ 0 (firstn value_pos columns)) with
  | Some p => [(p, left_domain)] | None => [] end ++
  match (if is_empty right_domain then None else index_of domain_ (value_pos + 1) (skipn (value_pos + 1) columns)) with
  | Some p => [(p, right_domain)] | None => [] end.
(** [[x for i, x in enumerate(row) if i not in domain_indexes]]. *)
Fixpoint drop_at {A} (positions : list nat) (i : nat) (l : list A) : list A :=
  match l with
  | [] => []
  | x :: l' => if existsb (Nat.eqb i) positions then drop_at positions (S i) l' else x :: drop_at positions (S i) l'
  end.
(** Lines 91-102 [validate_and_parse]. *)
Definition validate_and_parse (indexes : list (nat * text)) (r : row) : res row :=
  do l <- row_cells r;
  do _ <- traverse (fun '(i, val) => do c <- cell_at l i; if cell_eqb c (CText val) then Ok tt else Err ValueError) indexes;
  Ok (RSeq (drop_at (map fst indexes) 0 l)).
Definition normalize_domains (s : stream row) (columns : list text) (link_name left_domain right_domain : text)
  : res (stream row * list text) :=
  do value_pos <- get_mapping_value_position shorthand_name (map CText columns) link_name;
  let indexes := domain_indexes value_pos columns left_domain right_domain in
  Ok (smap (validate_and_parse indexes) s, drop_at (map fst indexes) 0 columns).

(** *** Reading the rows (mapper.py lines 463-523) *)

(** A row of table [mapping_data]; the levels are those of the locations. *)
Record old_row := { or_run : Z; or_left : list text; or_right : list text; or_value : Q }.
(** [bytes(BitFlags(x != '' for x in location))]. *)
Definition old_level (loc : list text) : list N := bf_to_bytes (of_bits (map (fun x => negb (is_empty x)) loc)).
(** Column [mapping_value], REAL NOT NULL: a text that is no number is kept and counts as the number in
    front of it (line 841). *)
Definition stored_value (c : cell) : res Q :=
  match c with
  | CText t => Ok (fst (sqlite_real t))
  | COther z => Ok (inject_Z z)
  | CNone => Err SqlIntegrityError
  end.
(** Lines 503-523. *)
Definition read_row (value_pos : nat) (acc : list old_row) (r : row) : res (list old_row) :=
  do l <- row_cells r;
  if nil_b l then Ok acc
  else
    do loc1 <- traverse text_cell (firstn value_pos l);
    do loc2 <- traverse text_cell (skipn (value_pos + 1) l);
    do c <- cell_at l value_pos;
    do value <- stored_value c;
    Ok (acc ++ [{| or_run := Z.of_nat (length acc) + 1; or_left := loc1; or_right := loc2; or_value := value |}]).
Fixpoint read_rows (value_pos : nat) (acc : list old_row) (s : stream row) : res (list old_row) :=
  match s with
  | Stop => Ok acc
  | Boom e => Err e
  | Item r s' => do acc' <- read_row value_pos acc r; read_rows value_pos acc' s'
  end.
(** [Mapper_OLD(link_name, data, columns)]: the columns of the left side, of the right side, the rows. *)
Definition old_mapper (link_name : text) (s : stream row) (columns : list text) : res (list text * list text * list old_row) :=
  do (data, columns) <- normalize_tabular (DIter s) (Some (map CText columns));
  do columns <- traverse text_cell columns;
  do value_pos <- get_mapping_value_position shorthand_name (map CText columns) link_name;
  do rows <- read_rows value_pos [] data;
  Ok (firstn value_pos columns, skipn (value_pos + 1) columns, rows).

(** *** Matching one side (mapper.py lines 525-800) *)

(** Lines 563-566: the granularity of the structure row with these bytes, if there is one; the row
    without columns is left out. *)
Definition find_structure (gran : list bool -> option Q) (s : db) (lv : list N) : option (option Q) :=
  if nil_b lv then None
  else match find (fun b => bytes_eqb (level_of b) lv) (rev (d_structs s)) with
       | Some b => Some (gran b)
       | None => None
       end.
(** Lines 569-577: the level of the space for a level of the data. *)
Definition node_level (columns node_columns : list text) (lv : list N) : list N :=
  let mapped := compress columns (bf_iter (of_bytes lv)) in
  level_of (map (fun x => existsb (text_eqb x) mapped) node_columns).
Definition level_pair (gran : list bool -> option Q) (s : db) (columns : list text) (lv : list N) : list N * option (list N) :=
  let node := node_level columns (d_labels s) lv in
  (lv, match find_structure gran s node with Some _ => Some node | None => None end).
(** Line 580: the key, [-1] for an unknown level; [None] is a granularity that is not set. *)
Definition pair_key (gran : list bool -> option Q) (s : db) (p : list N * option (list N)) : option Q :=
  match snd p with
  | None => Some (-1)%Q
  | Some node => match find_structure gran s node with Some g => g | None => Some (-1)%Q end
  end.
(** Line 581: [sorted(..., reverse=True)], a stable sort. *)
Fixpoint insert_pair {A} (key : A -> Q) (x : A) (l : list A) : list A :=
  match l with
  | [] => [x]
  | y :: l' => if Qle_bool (key y) (key x) then x :: l else y :: insert_pair key x l'
  end.
Definition sort_pairs {A} (key : A -> Q) (l : list A) : list A := fold_right (insert_pair key) [] l.
(** Models lines 525-583 [_get_level_pairs]; to compare [None] is a [TypeError]. *)
Definition get_level_pairs (gran : list bool -> option Q) (s : db) (columns : list text) (levels : list (list N))
  : res (list (list N * option (list N))) :=
  let pairs := map (level_pair gran s columns) levels in
  if (1 <? length pairs) && existsb (fun p => match pair_key gran s p with None => true | Some _ => false end) pairs
  then Err TypeError
  else Ok (sort_pairs (fun p => match pair_key gran s p with Some q => q | None => 0%Q end) pairs).

(** Lines 698-699: the criteria, a dictionary. *)
Fixpoint criteria_set (k v : text) (d : list (text * text)) : list (text * text) :=
  match d with
  | [] => [(k, v)]
  | (k', v') :: d' => if text_eqb k k' then (k', v) :: d' else (k', v') :: criteria_set k v d'
  end.
Definition criteria_of (columns loc : list text) : list (text * text) :=
  fold_left (fun d kv => criteria_set (fst kv) (snd kv) d)
    (filter (fun kv => negb (is_empty (snd kv))) (combine columns loc)) [].
(** repositories.py lines 165-187 [filter_index_ids_by_label].  A name that is no column is a string
    (see Db_Model); [index_id] is a column with integers, to which a text that is a number is compared. *)
Definition old_criterion (cols : list text) (r : ixrec) (kv : text * text) : bool :=
  if text_eqb (fst kv) (txt "index_id") then
    let '(q, number) := sqlite_real (snd kv) in number && Qeq_bool q (inject_Z (ix_id r))
  else criterion_holds cols r kv.
Definition old_candidates (s : db) (columns loc : list text) : list Z :=
  map ix_id (filter (fun r => forallb (old_criterion (d_labels s) r) (criteria_of columns loc)) (d_index s)).

(** Lines 739-742. *)
Definition old_weight (s : db) (g i : Z) : option Q :=
  match find (weight_is g i) (d_weights s) with Some w => Some (w_value w) | None => None end.

(** Line 649: what is counted for the log. *)
Record old_counter := {
  oc_invalid : nat; oc_included : nat; oc_excluded : nat; oc_overlimit : nat; oc_highest : nat; oc_unweighted : nat
}.
Definition old_zero : old_counter := Build_old_counter 0 0 0 0 0 0.
Definition oc_add (invalid included excluded unweighted : nat) (c : old_counter) : old_counter :=
  Build_old_counter (oc_invalid c + invalid) (oc_included c + included) (oc_excluded c + excluded)
    (oc_overlimit c) (oc_highest c) (oc_unweighted c + unweighted).
Definition oc_over (n : nat) (c : old_counter) : old_counter :=
  Build_old_counter (oc_invalid c) (oc_included c) (oc_excluded c)
    (S (oc_overlimit c)) (Nat.max (oc_highest c) n) (oc_unweighted c).

(** Lines 733-761. *)
Definition old_insert (s : db) (g : Z) (lv : list N) (run : Z) (ids : list Z)
  (st : list hit * old_counter) : list hit * old_counter :=
  let pairs := map (fun i => (i, old_weight s g i)) ids in
  if (1 <? length pairs) && existsb (fun p => match snd p with None => true | Some _ => false end) pairs
  then (fst st, oc_add 0 0 0 1 (snd st))
  else (fst st ++ map (fun p => {| h_run := run; h_index := fst p; h_level := lv;
                                   h_weight := snd p; h_prop := None |}) pairs, snd st).
(** Lines 696-761: one row at level [lv] of the space; [e] is the run and the location. *)
Definition old_match_row (s : db) (g : Z) (limit : nat) (allow : bool) (columns : list text) (lv : list N)
  (st : list hit * old_counter) (e : Z * list text) : list hit * old_counter :=
  let all := old_candidates s columns (snd e) in
  let ids := firstn (limit + 1) all in
  if limit <? length ids then (fst st, oc_over (length ids + length (skipn (limit + 1) all)) (snd st))
  else if 1 <? length ids then
    if allow then
      old_insert s g lv (fst e) ids (fst st, oc_add 0 (length (filter (is_overlap lv (fst st)) ids)) 0 0 (snd st))
    else
      let kept := filter (fun i => negb (is_overlap lv (fst st) i)) ids in
      old_insert s g lv (fst e) kept (fst st, oc_add 0 0 (length ids - length kept) 0 (snd st))
  else old_insert s g lv (fst e) ids st.
(** [WHERE level=?]. *)
Definition old_at (lv : list N) (es : list (Z * list text)) : list (Z * list text) :=
  filter (fun e => bytes_eqb (old_level (snd e)) lv) es.
(** Lines 675-761: one pair of levels. *)
Definition old_match_level (s : db) (g : Z) (limit : nat) (allow : bool) (columns : list text) (es : list (Z * list text))
  (st : list hit * old_counter) (p : list N * option (list N)) : list hit * old_counter :=
  match snd p with
  | None => (fst st, oc_add (length (old_at (fst p) es)) 0 0 0 (snd st))
  | Some lv => fold_left (old_match_row s g limit allow columns lv) (old_at (fst p) es) st
  end.
(** Models lines 611-763 [match_records]; [es] are the runs and the locations of this side. *)
Definition old_match_records (gran : list bool -> option Q) (s : db) (limit : nat) (allow : bool) (columns : list text)
  (es : list (Z * list text)) : res (list hit * old_counter) :=
  let levels := distinct bytes_eqb (map (fun e => old_level (snd e)) es) in
  do g <- get_default_weight_group s;
  do pairs <- get_level_pairs gran s columns levels;
  let st := fold_left (old_match_level s g limit allow columns es) pairs ([], old_zero) in
  Ok (refresh_hits (fst st), snd st).

(** *** The mappings of a direction (mapper.py lines 802-848) *)

(** [from], [to]: the match tables of the source and the target.  ORDER BY is left out. *)
Definition old_joint (from to : list hit) : list (hit * hit) :=
  flat_map (fun a => map (fun b => (a, b)) (filter (fun b => (h_run b =? h_run a)%Z) to)) from.
Definition old_joint_rows (rows : list old_row) (from to : list hit) : list (Mapper_Model.pair_key * option Q) :=
  flat_map (fun r => map (fun p => ((h_index (fst p), h_index (snd p), h_level (snd p)),
                                    sql_mult (Some (or_value r)) (sql_mult (h_prop (fst p)) (h_prop (snd p)))))
              (filter (fun p => (h_run (fst p) =? or_run r)%Z) (old_joint from to))) rows.
Definition get_mappings (rows : list old_row) (from to : list hit) : list (Mapper_Model.pair_key * option Q) :=
  group_by pair_eqb sql_sum (old_joint_rows rows from to).

(** *** Loading (graph.py lines 273-352) *)

(** A space with its domain, and the file name that a link to it is given (normalize_filename_hints, lines
    110-146, is not modelled here). *)
Record lspace := { l_space : space; l_domain : text; l_hint : option text }.
Definition l_db (x : lspace) : db := sp_db (l_space x).
Record load_args := {
  la_link : text; la_direction : text; la_selectors : list text; la_default : option bool;
  la_limit : nat; la_overlapping : bool
}.
(** [sub in s]. *)
Fixpoint starts_with (sub s : text) : bool :=
  match sub, s with
  | [], _ => true
  | a :: sub', b :: s' => (a =? b)%N && starts_with sub' s'
  | _ :: _, [] => false
  end.
Fixpoint within (sub s : text) : bool :=
  starts_with sub s || match s with [] => false | _ :: s' => within sub s' end.

(** Lines 286-297: the rows that are loaded into the right space, and into the left space. *)
Definition build_old (a : load_args) (x1 x2 : lspace) (d : data) (columns : option (list cell)) : res (list m_row * list m_row) :=
  do (s, columns) <- normalize_tabular d columns;
  do columns <- traverse text_cell columns;
  do (s, columns) <- normalize_domains s columns (la_link a) (l_domain x1) (l_domain x2);
  do (columns1, columns2, rows) <- old_mapper (la_link a) s columns;
  do (l1, _) <- old_match_records (sp_gran (l_space x1)) (l_db x1) (la_limit a) (la_overlapping a) columns1
                  (map (fun r => (or_run r, or_left r)) rows);
  do (l2, _) <- old_match_records (sp_gran (l_space x2)) (l_db x2) (la_limit a) (la_overlapping a) columns2
                  (map (fun r => (or_run r, or_right r)) rows);
  Ok (to_rows (get_mappings rows l1 l2), to_rows (get_mappings rows l2 l1)).

(** The link that is added (lines 307-313; space.py lines 1656-1666). *)
Definition new_link (a : load_args) (from : lspace) : link :=
  {| k_id := 0; k_other := sp_id (l_space from); k_hint := l_hint from; k_name := la_link a;
     k_selectors := la_selectors a; k_default := false; k_hash := None; k_complete := false |}.
(** Lines 307-319 and 332-344: two transactions. *)
Definition load_link (a : load_args) (from into : lspace) (rows : list m_row) : db * option exn :=
  match transact (add_link (new_link a from) (la_default a)) (l_db into) with
  | (s, Some e) => (s, Some e)
  | (s, None) => transact (insert_mappings2 (sp_id (l_space from)) (Some (la_link a)) rows) s
  end.
Record loaded := { ld_left : db; ld_right : db; ld_exit : option exn }.
(** Models lines 273-352 [load_mapping]. *)
Definition load_mapping (a : load_args) (x1 x2 : lspace) (d : data) (columns : option (list cell)) : loaded :=
  match build_old a x1 x2 d columns with
  | Err e => {| ld_left := l_db x1; ld_right := l_db x2; ld_exit := Some e |}
  | Ok (right_rows, left_rows) =>
    let '(s2, e2) := if within (txt "->") (la_direction a) then load_link a x1 x2 right_rows else (l_db x2, None) in
    match e2 with
    | Some e => {| ld_left := l_db x1; ld_right := s2; ld_exit := Some e |}
    | None =>
      let '(s1, e1) := if within (txt "<-") (la_direction a) then load_link a x2 x1 left_rows else (l_db x1, None) in
      {| ld_left := s1; ld_right := s2; ld_exit := e1 |}
    end
  end.
