(** Model of label columns, registered attributes, display order and the structure
    table under every call that changes them.
    Source: src/toron/space.py lines 279-573, src/toron/data_service.py lines 78-107,
    690-710, 784-925 and 1004-1140, src/toron/dal1/label_manager.py lines 21-107. *)
From Coq Require Import Ascii.
From Verif Require Import Prelude Partitions_Model.

(** The part of a data space that concerns columns.  Names are the bytes of their
    UTF-8 text (names with surrogate codes, which [format_identifier] rejects, are
    left out).  [None] for a property that is not stored.  [c_structs] are the rows
    of 'label_structure' as bits in column order, without id and granularity. *)
Record cspace := {
  c_columns : list string;
  c_defs : option (list labelset);
  c_structs : list (list bool);
  c_attrs : option (list string);
  c_display : option (list string) }.

(** A new node. Models src/toron/dal1/schema.py lines 121-250. *)
Definition c_new : cspace :=
  {| c_columns := []; c_defs := None; c_structs := []; c_attrs := None; c_display := None |}.

Definition with_columns (cols : list string) (rows : list (list bool)) (s : cspace) : cspace :=
  {| c_columns := cols; c_defs := c_defs s; c_structs := rows; c_attrs := c_attrs s; c_display := c_display s |}.
Definition with_defs (p : pspace) (s : cspace) : cspace :=
  {| c_columns := c_columns s; c_defs := p_defs p; c_structs := c_structs s; c_attrs := c_attrs s; c_display := c_display s |}.
Definition with_structs (rows : list (list bool)) (s : cspace) : cspace :=
  with_columns (c_columns s) rows s.
Definition with_attrs (a : list string) (s : cspace) : cspace :=
  {| c_columns := c_columns s; c_defs := c_defs s; c_structs := c_structs s; c_attrs := Some a; c_display := c_display s |}.
Definition with_display (d : list string) (s : cspace) : cspace :=
  {| c_columns := c_columns s; c_defs := c_defs s; c_structs := c_structs s; c_attrs := c_attrs s; c_display := Some d |}.

(** What the partition functions of data_service.py see. *)
Definition pview (s : cspace) : pspace := {| p_columns := c_columns s; p_defs := c_defs s |}.

(* ------------------------------------------------------------------------ *)
(** ** Names *)

(** Models src/toron/dal1/schema.py lines 78-83 [RESERVED_IDENTIFIERS] together with
    src/toron/data_models.py lines 56-61 [COMMON_RESERVED_IDENTIFIERS]. *)
Definition all_reserved : list string :=
  ["index_id"; "_location_id"; "_structure_id"; "_granularity"; "domain"; "value"; "weight"]%string.

(** SQLite folds the case of ASCII letters when it compares column names. *)
Definition lower_byte (a : ascii) : ascii :=
  let n := nat_of_ascii a in
  if (65 <=? n) && (n <=? 90) then ascii_of_nat (n + 32) else a.
Fixpoint lower (t : string) : string :=
  match t with EmptyString => EmptyString | String a t' => String (lower_byte a) (lower t') end.
Definition sql_same (a b : string) : bool := String.eqb (lower a) (lower b).

(** Models src/toron/dal1/schema.py lines 252-269 [format_identifier] as far as errors
    go: NUL raises UnicodeEncodeError, which is a ValueError. *)
Fixpoint has_nul (t : string) : bool :=
  match t with EmptyString => false | String a t' => Ascii.eqb a zero || has_nul t' end.

(** Columns of the three tables that are not label columns. *)
Definition fixed_columns : list string :=
  ["index_id"; "_location_id"; "_structure_id"; "_granularity"]%string.

(** Models data_service.py lines 1039-1046 [get_registered_attributes]. *)
Definition registered (s : cspace) : list string :=
  match c_attrs s with Some a => a | None => [] end.

(** Models data_service.py lines 78-107 [validate_new_index_columns]. *)
Fixpoint validate_new (new : list string) (s : cspace) : res unit :=
  match new with
  | [] => Ok tt
  | col :: new' =>
      if lmem col all_reserved then Err ToronError
      else if lmem col (c_columns s) then Err ToronError
      else if lmem col (registered s) then Err ToronError
      else validate_new new' s
  end.

(* ------------------------------------------------------------------------ *)
(** ** The label manager *)

(** No two rows alike: what the UNIQUE index over the label columns checks. *)
Definition row_eqb (a b : list bool) : bool := if list_eq_dec Bool.bool_dec a b then true else false.
Fixpoint unique_rows (rows : list (list bool)) : bool :=
  match rows with
  | [] => true
  | r :: rows' => negb (existsb (row_eqb r) rows') && unique_rows rows'
  end.
(** Models src/toron/dal1/schema.py lines 290-321 [create_schema_constraints] for the
    structure table; without label columns no index is made. *)
Definition create_constraints (s : cspace) : res cspace :=
  match c_columns s with
  | [] => Ok s
  | _ => if unique_rows (c_structs s) then Ok s else Err SqlIntegrityError
  end.

(** The three ALTER TABLE statements for one new column (label_manager.py lines
    30-41): the name must be a legal identifier and new in all three tables; rows
    get the default, 0 in the structure table. *)
Definition alter_add (s : cspace) (col : string) : res cspace :=
  if has_nul col then Err ValueError
  else if existsb (sql_same col) (fixed_columns ++ c_columns s) then Err SqlOperationalError
  else Ok (with_columns (c_columns s ++ [col]) (map (fun r => r ++ [false]) (c_structs s)) s).
Fixpoint alter_adds (s : cspace) (cols : list string) : res cspace :=
  match cols with
  | [] => Ok s
  | col :: cols' => do s1 <- alter_add s col; alter_adds s1 cols'
  end.
(** Models label_manager.py lines 26-43 [add_columns].  Index records and locations
    stay distinct when a column with one value for all is added; only structure rows
    are followed here. *)
Definition lm_add_columns (cols : list string) (s : cspace) : res cspace :=
  do s1 <- alter_adds s cols;
  create_constraints s1.

(** The first column that SQLite takes for [old] gets the name [new]. *)
Fixpoint replace_first (old new : string) (cols : list string) : option (list string) :=
  match cols with
  | [] => None
  | c :: cols' =>
      if sql_same old c then Some (new :: cols')
      else match replace_first old new cols' with Some l => Some (c :: l) | None => None end
  end.
(** Do two columns have one name for SQLite? *)
Fixpoint sql_distinct (cols : list string) : bool :=
  match cols with [] => true | c :: cols' => negb (existsb (sql_same c) cols') && sql_distinct cols' end.
(** The three ALTER TABLE ... RENAME COLUMN of label_manager.py lines 63-78.  SQLite
    refuses when the column is missing or the changed table would have one name
    twice.  The old name is a label column here (the callers checked), so none of
    the fixed columns is renamed. *)
Definition alter_rename (s : cspace) (p : string * string) : res cspace :=
  let (old, new) := p in
  if has_nul old || has_nul new then Err ValueError
  else match replace_first old new (c_columns s) with
       | None => Err SqlOperationalError
       | Some cols =>
           if sql_distinct (fixed_columns ++ cols) then Ok (with_columns cols (c_structs s) s)
           else Err SqlOperationalError
       end.
(** Models label_manager.py lines 51-78 [rename_columns] (SQLite 3.25 or newer). *)
Fixpoint lm_rename_columns (s : cspace) (mapping : list (string * string)) : res cspace :=
  match mapping with
  | [] => Ok s
  | p :: mapping' => do s1 <- alter_rename s p; lm_rename_columns s1 mapping'
  end.

(** The cells of a row that belong to the columns that stay. *)
Fixpoint keep_cells (drop : list string) (cols : list string) (row : list bool) : list bool :=
  match cols, row with
  | c :: cols', b :: row' => if lmem c drop then keep_cells drop cols' row' else b :: keep_cells drop cols' row'
  | _, _ => []
  end.
(** Models label_manager.py lines 80-107 [drop_columns] (SQLite 3.35.5 or newer).
    [clash] tells whether two index records or two locations have the same labels in
    the columns that stay, in which case the UNIQUE index cannot be made. *)
Definition lm_drop_columns (drop : list string) (clash : bool) (s : cspace) : res cspace :=
  let s1 := with_columns (filter (fun c => negb (lmem c drop)) (c_columns s))
                         (map (keep_cells drop (c_columns s)) (c_structs s)) s in
  if clash then Err SqlIntegrityError else create_constraints s1.

(* ------------------------------------------------------------------------ *)
(** ** The structure table *)

(** [bits = [(x in pdef) for x in columns]], data_service.py line 813. *)
Definition bits_of (cols : list string) (pdef : labelset) : list bool := map (fun x => lmem x pdef) cols.

(** One [structure_repo.add(granularity, *bits)] (dal1/repositories.py lines 283-291):
    TypeError without bits, IntegrityError for a row that exists. *)
Definition struct_add (rows : list (list bool)) (bits : list bool) : res (list (list bool)) :=
  match bits with
  | [] => Err TypeError
  | _ => if existsb (row_eqb bits) rows then Err SqlIntegrityError else Ok (rows ++ [bits])
  end.
Fixpoint struct_adds (cols : list string) (rows : list (list bool)) (pdefs : list labelset)
  : res (list (list bool)) :=
  match pdefs with
  | [] => Ok rows
  | d :: pdefs' => do rows1 <- struct_add rows (bits_of cols d); struct_adds cols rows1 pdefs'
  end.
(** Models data_service.py lines 784-814 [rebuild_structure_table], without the
    granularity of the rows. *)
Definition rebuild (s : cspace) : res cspace :=
  match c_columns s, get_all_defs (pview s) with
  | _ :: _, [] => Err RuntimeError
  | cols, defs => do rows <- struct_adds cols [] (make_structure defs); Ok (with_structs rows s)
  end.

(** Models src/toron/data_models.py lines 564-590 [get_by_labels], as far as finding
    the row goes. *)
Definition get_by_labels (labels : list string) (s : cspace) : res (list bool) :=
  let bits := bits_of (c_columns s) labels in
  if existsb (row_eqb bits) (c_structs s) then Ok bits else Err KeyError.

(** Models data_service.py lines 700-710 [rename_partition_definitions]. *)
Fixpoint mapping_get (mapping : list (string * string)) (x : string) : string :=
  match mapping with [] => x | (old, new) :: m => if String.eqb old x then new else mapping_get m x end.
Definition rename_defs (mapping : list (string * string)) (s : cspace) : cspace :=
  with_defs (prop_update_defs (pview s) (map (map (mapping_get mapping)) (get_all_defs (pview s)))) s.

(* ------------------------------------------------------------------------ *)
(** ** Registered attributes and display order *)

(** The loop of data_service.py lines 1016-1030. *)
Fixpoint unique_attrs (cols : list string) (seen : list string) (attrs : list string) : res (list string) :=
  match attrs with
  | [] => Ok seen
  | a :: attrs' =>
      if lmem a all_reserved then Err ValueError
      else if lmem a cols then Err ValueError
      else if lmem a seen then Err ValueError
      else unique_attrs cols (seen ++ [a]) attrs'
  end.
(** Models data_service.py lines 1004-1036 [set_registered_attributes]. *)
Definition set_registered (attrs : list string) (s : cspace) : res cspace :=
  do l <- unique_attrs (c_columns s) [] attrs;
  Ok (with_attrs l s).

(** Models data_service.py lines 1089-1108 [get_labels_in_display_order]. *)
Definition display_order (s : cspace) : list string :=
  let display := match c_display s with Some d => d | None => [] end in
  display ++ filter (fun x => negb (lmem x display)) (c_columns s).
(** Models data_service.py lines 1071-1086 [set_labels_in_display_order]. *)
Definition set_display_order (labels : list string) (s : cspace) : res cspace :=
  match filter (fun x => negb (lmem x (c_columns s))) labels with
  | [] => Ok (with_display labels s)
  | _ => Err ValueError
  end.

(** [sequence.index(element)]. *)
Fixpoint index_of (e : string) (l : list string) : option nat :=
  match l with
  | [] => None
  | x :: l' => if String.eqb x e then Some 0%nat else match index_of e l' with Some n => Some (S n) | None => None end
  end.
(** [list.pop(i)] for a valid index: the rest. *)
Definition pop_at (i : nat) (l : list string) : list string := firstn i l ++ skipn (S i) l.
(** [list.insert(i, x)] for an index that is not negative. *)
Definition insert_at (i : nat) (x : string) (l : list string) : list string := firstn i l ++ x :: skipn i l.
(** Models data_service.py lines 1111-1140 [change_element_order]. *)
Definition change_element_order (l : list string) (element : string) (offset : Z) : res (list string) :=
  match index_of element l with
  | None => Err ToronError
  | Some pos =>
      let new_pos := (Z.of_nat pos + offset)%Z in
      let new_pos := Z.max 0 new_pos in
      let new_pos := Z.min new_pos (Z.of_nat (length l) - 1) in
      Ok (insert_at (Z.to_nat new_pos) element (pop_at pos l))
  end.

(* ------------------------------------------------------------------------ *)
(** ** Calls *)

(** Public calls.  [used] in [CAdd]: a quantity or a mapping uses the old whole
    space (space.py lines 492-507).  [clash] in [CDrop]: see [lm_drop_columns].  A
    mapping is a Python dict: its keys are distinct. *)
Inductive cop : Type :=
| CAdd (column : string) (columns : list string) (used : bool)
| CRename (mapping : list (string * string))
| CRenameLabel (old_label new_label : string)
| CDrop (column : string) (columns : list string) (clash : bool)
| CAddDefs (definition : labelset) (definitions : list labelset)
| CAddDef (definition : labelset)
| CDropDefs (definition : labelset) (definitions : list labelset)
| CRegister (attributes : list string)
| CMoveAttribute (attribute : string) (offset : Z)
| CMoveLabel (label : string) (offset : Z).

(** Models space.py lines 454-523 [add_index_columns]. *)
Definition add_index_columns (cols : list string) (used : bool) (s : cspace) : res cspace :=
  do _ <- validate_new cols s;
  let old_whole := c_columns s in
  do s1 <- lm_add_columns cols s;
  do p2 <- ds_add_partition_definition (c_columns s1) (pview s1);
  do s3 <- rebuild (with_defs p2 s1);
  do _ <- get_by_labels old_whole s3;
  if negb used
  then
    do p4 <- ds_remove_partition_definition old_whole (pview s3);
    rebuild (with_defs p4 s3)
  else Ok s3.

(** Models space.py lines 525-551 [rename_index_columns]. *)
Definition rename_index_columns (mapping : list (string * string)) (s : cspace) : res cspace :=
  if negb (forallb (fun p => lmem (fst p) (c_columns s)) mapping) then Err ToronError
  else
    do _ <- validate_new (map snd mapping) s;
    do s1 <- lm_rename_columns s mapping;
    Ok (rename_defs mapping s1).

(** Models space.py lines 420-447 [rename_label_column]. *)
Definition rename_label_column (old new : string) (s : cspace) : res cspace :=
  if negb (lmem old (c_columns s)) then Err ToronError
  else
    do _ <- validate_new [new] s;
    do s1 <- lm_rename_columns s [(old, new)];
    Ok (rename_defs [(old, new)] s1).

(** Models space.py lines 553-573 [drop_index_columns]. *)
Definition drop_index_columns (cols : list string) (clash : bool) (s : cspace) : res cspace :=
  if existsb (fun c => lmem c all_reserved) cols then Err ValueError
  else if lsubset (c_columns s) cols then Err RuntimeError
  else lm_drop_columns cols clash s.

(** Every call runs in a managed transaction.
    Models space.py lines 279-573 (for the partition calls lines 279-363). *)
Definition ccall (s : cspace) (o : cop) : res cspace :=
  match o with
  | CAdd c cs used => add_index_columns (c :: cs) used s
  | CRename mapping => rename_index_columns mapping s
  | CRenameLabel old new => rename_label_column old new s
  | CDrop c cs clash => drop_index_columns (c :: cs) clash s
  | CAddDefs d ds =>
      do p <- ds_add_partition_definitions (d :: ds) (pview s);
      rebuild (with_defs p s)
  | CAddDef d =>
      do p <- ds_add_partition_definition d (pview s);
      rebuild (with_defs p s)
  | CDropDefs d ds =>
      let drop := d :: ds in
      if lset_in (c_columns s) drop then Err ValueError
      else
        let keep := filter (fun x => negb (lset_in x drop)) (get_all_defs (pview s)) in
        rebuild (with_defs (prop_update_defs (pview s) (find_minimal [keep; [c_columns s]])) s)
  | CRegister attrs => set_registered attrs s
  | CMoveAttribute a offset =>
      do l <- change_element_order (registered s) a offset;
      set_registered l s
  | CMoveLabel l offset =>
      do l' <- change_element_order (display_order s) l offset;
      set_display_order l' s
  end.
Definition cstep (s : cspace) (o : cop) : cspace :=
  match ccall s o with Ok s' => s' | Err _ => s end.
Definition crun (s : cspace) (ops : list cop) : cspace := fold_left cstep ops s.
