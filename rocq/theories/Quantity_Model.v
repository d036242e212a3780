(** Model of the location, attribute group and quantity tables of a space and of the
    operations on quantities.

    Sources: src/toron/dal1/schema.py (tables and constraints), src/toron/dal1/repositories.py
    and src/toron/data_models.py (repository methods), src/toron/data_service.py and
    src/toron/space.py (operations).

    Simplifications that hold for the whole file:
    - tables are lists in storage order and a query returns matching rows in that order;
    - stored numbers are exact rationals; a value that SQLite does not store as a number
      (NULL or text that is not numeric) is [None], and [float()] refuses it too;
    - an attribute dictionary is an association list with distinct keys, and its JSON text
      with sorted keys is represented by the list sorted by key;
    - an input row is given with its columns resolved: label cells in storage order, the
      cells of the other columns by name;
    - a loop that reads with one cursor and writes with another reads all rows first;
    - rowids do not reach 2^63-1. *)
From Verif Require Import Prelude BitFlags_Model Selectors_Model LinkRef_Model Db_Model Reader_Model Mapper_Model.

(** schema.py lines 132-135 and 278-281: table [label_location]. *)
Record location := { l_id : Z; l_labels : list text }.
(** schema.py lines 162-166: table [attribute_group]. *)
Record agroup := { ag_id : Z; ag_attrs : row }.
(** schema.py lines 168-176: table [quantity]. *)
Record quantity := { qt_id : Z; qt_loc : Z; qt_attr : Z; qt_value : Q }.

(** A space with its quantities.  [s_domain]: property [domain], empty if absent;
    [s_registered]: property [registered_attributes]; [s_gran]: granularity stored with a
    structure row; [s_sels]: the parsed selectors of the weight groups that have any. *)
Record store := {
  s_db : db;
  s_gran : list bool -> option Q;
  s_sels : list (Z * list selector);
  s_domain : text;
  s_registered : list text;
  s_locs : list location;
  s_attrs : list agroup;
  s_quants : list quantity
}.
Definition set_tables l a q s :=
  {| s_db := s_db s; s_gran := s_gran s; s_sels := s_sels s; s_domain := s_domain s;
     s_registered := s_registered s; s_locs := l; s_attrs := a; s_quants := q |}.
Definition set_locs l s := set_tables l (s_attrs s) (s_quants s) s.
Definition set_attrs a s := set_tables (s_locs s) a (s_quants s) s.
Definition set_quants q s := set_tables (s_locs s) (s_attrs s) q s.
Definition set_db d s :=
  {| s_db := d; s_gran := s_gran s; s_sels := s_sels s; s_domain := s_domain s;
     s_registered := s_registered s; s_locs := s_locs s; s_attrs := s_attrs s; s_quants := s_quants s |}.

(** A new space. *)
Definition fresh_store : store :=
  {| s_db := fresh; s_gran := fun _ => None; s_sels := []; s_domain := []; s_registered := [];
     s_locs := []; s_attrs := []; s_quants := [] |}.

(** *** Repositories *)

(** Models data_models.py lines 471-495 [get_by_labels_add_if_missing] with repositories.py
    lines 206-211 [add] and 249-262 [find_by_label], which refuses an empty dictionary.  A
    rowid without AUTOINCREMENT is one more than the largest present one. *)
Definition get_location (labels : list text) (s : store) : res (store * Z) :=
  if nil_b labels then Err ValueError
  else match find (fun l => labels_eqb (l_labels l) labels) (s_locs s) with
  | Some l => Ok (s, l_id l)
  | None =>
      let i := (zmax (map l_id (s_locs s)) + 1)%Z in
      Ok (set_locs (s_locs s ++ [{| l_id := i; l_labels := labels |}]) s, i)
  end.

(** Models data_models.py lines 879-888 [get_by_value_add_if_missing] with repositories.py
    lines 559-566 [add] and 602-611 [get_by_value]. *)
Definition get_group (attrs : row) (s : store) : res (store * Z) :=
  let a := sort_keys attrs in
  match find (fun g => row_eqb (ag_attrs g) a) (s_attrs s) with
  | Some g => Ok (s, ag_id g)
  | None =>
      if existsb (fun p => is_empty (fst p) || is_empty (snd p)) attrs then Err ValueError
      else
        let i := (zmax (map ag_id (s_attrs s)) + 1)%Z in
        Ok (set_attrs (s_attrs s ++ [{| ag_id := i; ag_attrs := a |}]) s, i)
  end.

Definition quantity_is (l g : Z) (x : quantity) : bool := (qt_loc x =? l)%Z && (qt_attr x =? g)%Z.
(** Models repositories.py lines 695-714 [get_by_location_id_and_attribute_group_id]. *)
Definition quantity_find (l g : Z) (s : store) : option quantity := find (quantity_is l g) (s_quants s).

(** Models repositories.py lines 657-663 [QuantityRepository.add] with the CHECK and UNIQUE
    constraints of schema.py lines 172-175. *)
Definition quantity_add (l g : Z) (v : option Q) (s : store) : res store :=
  match v with
  | None => Err SqlIntegrityError
  | Some q =>
      if existsb (quantity_is l g) (s_quants s) then Err SqlIntegrityError
      else Ok (set_quants (s_quants s ++
             [{| qt_id := zmax (map qt_id (s_quants s)) + 1; qt_loc := l; qt_attr := g; qt_value := q |}]) s)
  end.

(** Models repositories.py lines 677-687 [QuantityRepository.update] of a record whose
    location and attribute group are unchanged. *)
Definition quantity_update (i : Z) (v : option Q) (s : store) : res store :=
  match v with
  | None => Err SqlIntegrityError
  | Some q => Ok (set_quants (map (fun x => if (qt_id x =? i)%Z
                then {| qt_id := qt_id x; qt_loc := qt_loc x; qt_attr := qt_attr x; qt_value := q |}
                else x) (s_quants s)) s)
  end.

(** Models repositories.py lines 237-241 and 590-594 [delete_and_cascade]; the cascade is done by
    the foreign keys (schema.py lines 173-174) if they are enforced. *)
Definition location_delete (i : Z) (s : store) : store :=
  set_tables (filter (fun l => negb (l_id l =? i)%Z) (s_locs s)) (s_attrs s)
    (if d_fk (s_db s) then filter (fun x => negb (qt_loc x =? i)%Z) (s_quants s) else s_quants s) s.
Definition group_delete (i : Z) (s : store) : store :=
  set_tables (s_locs s) (filter (fun g => negb (ag_id g =? i)%Z) (s_attrs s))
    (if d_fk (s_db s) then filter (fun x => negb (qt_attr x =? i)%Z) (s_quants s) else s_quants s) s.

(** *** Inserting quantities *)

(** A cell of an attribute column is a text or None. *)
Record q_row := {
  qr_domain : option text; qr_labels : list text; qr_cells : list (text * option text); qr_value : option Q
}.

Fixpoint cell (k : text) (cells : list (text * option text)) : option text :=
  match cells with
  | [] => None
  | (k', v) :: cells' => if text_eqb k k' then v else cell k cells'
  end.
(** [{k: row_dict[k] for k in names if row_dict[k]}]. *)
Definition attr_dict (names : list text) (cells : list (text * option text)) : row :=
  flat_map (fun k => match cell k cells with
                     | Some v => if is_empty v then [] else [(k, v)]
                     | None => []
                     end) (distinct text_eqb names).

(** What is counted for the log (space.py lines 2309 and 2424-2467). *)
Inductive event := NoAttrs | InvalidCategory | InvalidLabel | Ignored | Replaced | Summed | Inserted.

(** [BitFlags(labels) in structure]. *)
Definition in_structure (labels : list text) (s : store) : bool :=
  existsb (fun bits => bf_eqb (of_bits (map (fun v => negb (is_empty v)) labels)) (of_bits bits))
          (d_structs (s_db s)).

(** Models space.py lines 2385-2422: adding a quantity or resolving the conflict. *)
Definition put (pol : policy) (l g : Z) (v : option Q) (s : store) : res (store * event) :=
  match quantity_add l g v s with
  | Ok s' => Ok (s', Inserted)
  | Err e =>
      match quantity_find l g s with
      | None => Err e
      | Some x =>
          match pol with
          | PAbort => Err ValueError
          | PIgnore => Ok (s, Ignored)
          | PReplace => do s' <- quantity_update (qt_id x) v s; Ok (s', Replaced)
          | PSum =>
              match v with
              | None => Err ValueError
              | Some q => do s' <- quantity_update (qt_id x) (Some (qt_value x + q)%Q) s; Ok (s', Summed)
              end
          | PInvalid => Err ValueError
          end
      end
  end.

(** Models space.py lines 2340-2422: one row. *)
Definition insert_row (pol : policy) (any_label any_partition : bool)
  (st : store * list event) (r : q_row) : res (store * list event) :=
  let '(s, ev) := st in
  if match qr_domain r with Some d => negb (text_eqb d (s_domain s)) | None => false end
  then Err ValueError
  else
    let attrs := attr_dict (s_registered s) (qr_cells r) in
    if nil_b attrs then Ok (s, ev ++ [NoAttrs])
    else
      let known := in_structure (qr_labels r) s in
      if negb known && negb any_partition then Err ValueError
      else
        let found := negb (nil_b (candidates (s_db s) (qr_labels r))) in
        if negb found && negb any_label then Err ValueError
        else
          do lx <- get_location (qr_labels r) s;
          do gx <- get_group attrs (fst lx);
          do p <- put pol (snd lx) (snd gx) (qr_value r) (fst gx);
          Ok (fst p, ev ++ (if known then [] else [InvalidCategory]) ++
                     (if found then [] else [InvalidLabel]) ++ [snd p]).

(** Models space.py lines 2295-2467 [insert_quantities2]. *)
Definition insert_quantities2 (pol : policy) (any_label any_partition : bool) (rows : list q_row)
  (s : store) : res (store * list event) :=
  if nil_b (s_registered s) then Err ToronError
  else fold_res (insert_row pol any_label any_partition) rows (s, []).

(** Models space.py lines 2502-2578 [insert_quantities]: [names] are the attribute columns.
    The counters are left out. *)
Definition insert_row1 (names : list text) (s : store) (r : q_row) : res store :=
  if negb (is_empty (s_domain s)) &&
     negb (match qr_domain r with Some d => text_eqb d (s_domain s) | None => false end)
  then Ok s
  else
    let attrs := attr_dict names (qr_cells r) in
    if nil_b attrs then Ok s
    else
      do lx <- get_location (qr_labels r) s;
      do gx <- get_group attrs (fst lx);
      quantity_add (snd lx) (snd gx) (qr_value r) (fst gx).
Definition insert_quantities (names : list text) (rows : list q_row) (s : store) : res store :=
  let names := if is_empty (s_domain s) then names
               else filter (fun k => negb (text_eqb k (txt "domain"))) names in
  fold_res (insert_row1 names) rows s.

(** *** Selecting quantities *)

(** One row of the output: domain column, labels, attribute columns, value. *)
Record q_out := {
  qo_domain : list text; qo_labels : list text; qo_attrs : list (option text); qo_value : Q
}.
Definition domain_cells (s : store) : list text := if is_empty (s_domain s) then [] else [s_domain s].

(** Models repositories.py lines 568-578 [AttributeGroupRepository.get]. *)
Definition attrs_get (i : Z) (s : store) : res row :=
  match find (fun g => (ag_id g =? i)%Z) (s_attrs s) with
  | Some g => Ok (ag_attrs g)
  | None => Err KeyError
  end.

(** Models the loops of space.py lines 2490-2500, 2597-2609 and 2640-2650: the quantities of
    the given locations. *)
Definition select_at (cols : list text) (locs : list location) (s : store) : res (list q_out) :=
  traverse (fun lx => do a <- attrs_get (qt_attr (snd lx)) s;
                      Ok {| qo_domain := domain_cells s; qo_labels := l_labels (fst lx);
                            qo_attrs := map (fun k => dict_get k a) cols; qo_value := qt_value (snd lx) |})
    (flat_map (fun l => map (fun x => (l, x)) (filter (fun x => (qt_loc x =? l_id l)%Z) (s_quants s))) locs).

(** Models repositories.py lines 640-649 [get_all_attribute_names]. *)
Definition all_names (s : store) : list text := sorted_set (flat_map (fun g => map fst (ag_attrs g)) (s_attrs s)).

(** Models space.py lines 2469-2500 [select_quantities2] without the header. *)
Definition select_quantities2 (s : store) : res (list q_out) :=
  if nil_b (s_registered s) then Err ToronError else select_at (s_registered s) (s_locs s) s.
(** Models space.py lines 2580-2609 [select_quantities] without the header. *)
Definition select_quantities (s : store) : res (list q_out) := select_at (all_names s) (s_locs s) s.

(** *** Locations without a match *)

(** [any(filter_index_ids_by_label(criteria))]: true if some id is not zero. *)
Definition some_id (labels : list text) (s : store) : bool :=
  existsb (fun i => negb (i =? 0)%Z) (candidates (s_db s) labels).

(** Models data_service.py lines 170-183 [find_locations_without_index]. *)
Definition locations_without_index (s : store) : list location :=
  filter (fun l => negb (some_id (l_labels l) s)) (s_locs s).
(** Models data_service.py lines 186-194 [find_locations_without_structure]. *)
Definition locations_without_structure (s : store) : list location :=
  filter (fun l => negb (in_structure (l_labels l) s)) (s_locs s).
(** Models data_service.py lines 197-216 [find_nonmatching_locations]. *)
Definition nonmatching_locations (s : store) : list location :=
  filter (fun l => if negb (in_structure (l_labels l) s) then true else negb (some_id (l_labels l) s)) (s_locs s).

(** Models data_service.py lines 219-252 [count_nonmatching_locations]. *)
Record nm_counts := { nm_both : nat; nm_structure : nat; nm_index : nat }.
Definition count_nonmatching (s : store) : nm_counts :=
  fold_left (fun c l =>
      let st := negb (in_structure (l_labels l) s) in
      let ix := negb (some_id (l_labels l) s) in
      if st && ix then {| nm_both := S (nm_both c); nm_structure := nm_structure c; nm_index := nm_index c |}
      else if st then {| nm_both := nm_both c; nm_structure := S (nm_structure c); nm_index := nm_index c |}
      else if ix then {| nm_both := nm_both c; nm_structure := nm_structure c; nm_index := S (nm_index c) |}
      else c) (s_locs s) {| nm_both := 0; nm_structure := 0; nm_index := 0 |}.

(** Models space.py lines 2611-2650 and 2689-2729 without the header columns' names: the
    attribute columns are those of [get_all_attribute_names]. *)
Definition select_without_index (s : store) : res (list q_out) :=
  select_at (all_names s) (locations_without_index s) s.
Definition select_unmatched (s : store) : res (list q_out) :=
  select_at (all_names s) (nonmatching_locations s) s.

(** Models data_service.py lines 255-275 [find_attribute_groups_without_quantity] and
    [find_locations_without_quantity]. *)
Definition unused_groups (s : store) : list Z :=
  map ag_id (filter (fun g => negb (existsb (fun x => (qt_attr x =? ag_id g)%Z) (s_quants s))) (s_attrs s)).
Definition unused_locations (s : store) : list Z :=
  map l_id (filter (fun l => negb (existsb (fun x => (qt_loc x =? l_id l)%Z) (s_quants s))) (s_locs s)).

(** Models space.py lines 2652-2687 [delete_quantities_without_index]. *)
Definition delete_without_index (s : store) : store :=
  let doomed := map qt_id (flat_map (fun l => filter (fun x => (qt_loc x =? l_id l)%Z) (s_quants s))
                                    (locations_without_index s)) in
  let s1 := fold_left (fun s i => set_quants (filter (fun x => negb (qt_id x =? i)%Z) (s_quants s)) s) doomed s in
  let s2 := fold_left (fun s i => location_delete i s) (unused_locations s1) s1 in
  fold_left (fun s i => group_delete i s) (unused_groups s2) s2.

(** Models space.py lines 2731-2760 [delete_unmatched_quantities]. *)
Definition delete_unmatched (s : store) : store :=
  let s1 := fold_left (fun s i => location_delete i s) (map l_id (nonmatching_locations s)) s in
  fold_left (fun s i => group_delete i s) (unused_groups s1) s1.

(** *** Histories *)

(** [QIndex o] is an operation of Db_Model.  Adding and dropping label columns also changes
    the location table (label_manager.py lines 31-44 and 94-117): new columns are empty, and
    dropping fails if two locations become equal. *)
Inductive qop :=
| QIndex (o : op)
| QSetDomain (d : text)
| QRegister (names : list text)
| QSetGranularity (g : list bool -> option Q)
| QSetSelectors (l : list (Z * list selector))
| QInsert2 (pol : policy) (any_label any_partition : bool) (rows : list q_row)
| QInsert (names : list text) (rows : list q_row)
| QDeleteWithoutIndex
| QDeleteUnmatched.

Definition index_step (o : op) (s : store) : store * option exn :=
  match o with
  | OAddColumns cols =>
      match step o (s_db s) with
      | (d, None) => (set_locs (map (fun l => {| l_id := l_id l;
                                                 l_labels := l_labels l ++ map (fun _ => []) cols |}) (s_locs s))
                               (set_db d s), None)
      | (_, Some e) => (s, Some e)
      end
  | ODropColumns cols clash =>
      let flags := map (fun c => negb (existsb (text_eqb c) cols)) (d_labels (s_db s)) in
      let locs := map (fun l => {| l_id := l_id l; l_labels := keep flags (l_labels l) |}) (s_locs s) in
      match step (ODropColumns cols (clash || negb (distinct_labels (map l_labels locs)))) (s_db s) with
      | (d, None) => (set_locs locs (set_db d s), None)
      | (_, Some e) => (s, Some e)
      end
  | _ => let '(d, e) := step o (s_db s) in (set_db d s, e)
  end.

(** Models space.py lines 228-249 [_managed_transaction] around a body: see also C23. *)
Definition transact_q (r : res store) (s : store) : store * option exn :=
  match r with Ok s' => (s', None) | Err e => (s, Some e) end.

Definition qstep (o : qop) (s : store) : store * option exn :=
  match o with
  | QIndex o => index_step o s
  | QSetDomain d =>
      ({| s_db := s_db s; s_gran := s_gran s; s_sels := s_sels s; s_domain := d;
          s_registered := s_registered s; s_locs := s_locs s; s_attrs := s_attrs s; s_quants := s_quants s |}, None)
  | QRegister names =>
      ({| s_db := s_db s; s_gran := s_gran s; s_sels := s_sels s; s_domain := s_domain s;
          s_registered := names; s_locs := s_locs s; s_attrs := s_attrs s; s_quants := s_quants s |}, None)
  | QSetGranularity g =>
      ({| s_db := s_db s; s_gran := g; s_sels := s_sels s; s_domain := s_domain s;
          s_registered := s_registered s; s_locs := s_locs s; s_attrs := s_attrs s; s_quants := s_quants s |}, None)
  | QSetSelectors l =>
      ({| s_db := s_db s; s_gran := s_gran s; s_sels := l; s_domain := s_domain s;
          s_registered := s_registered s; s_locs := s_locs s; s_attrs := s_attrs s; s_quants := s_quants s |}, None)
  | QInsert2 pol al ap rows =>
      if forallb (fun r => length (qr_labels r) =? length (d_labels (s_db s))) rows
      then transact_q (do x <- insert_quantities2 pol al ap rows s; Ok (fst x)) s else (s, Some ValueError)
  | QInsert names rows =>
      if forallb (fun r => length (qr_labels r) =? length (d_labels (s_db s))) rows
      then transact_q (insert_quantities names rows s) s else (s, Some ValueError)
  | QDeleteWithoutIndex => (delete_without_index s, None)
  | QDeleteUnmatched => (delete_unmatched s, None)
  end.

Fixpoint qrun (ops : list qop) (s : store) : store :=
  match ops with
  | [] => s
  | o :: ops' => qrun ops' (fst (qstep o s))
  end.
