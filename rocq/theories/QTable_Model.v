(** The tables that the four calls for stored quantities yield, with and without their header.  They are generators: what
    was yielded before an exception is part of the result. *)
From Verif Require Import Prelude Selectors_Model LinkRef_Model Db_Model Reader_Model Mapper_Model Quantity_Model.

(** A cell of a row: a text, None or a number. *)
Inductive qcell := QcText (t : text) | QcNone | QcNum (q : Q).
(** The rows that were yielded and the exception that ended it, if any. *)
Definition table := (list (list qcell) * option exn)%type.

(** The row that is yielded for a quantity (space.py lines 2490-2500, 2600-2609, 2642-2650, 2721-2729); [cols] are the
    attribute columns, None if the variable has no value yet. *)
Definition table_row (cols : option (list text)) (s : store) (lx : location * quantity) : res (list qcell) :=
  do a <- attrs_get (qt_attr (snd lx)) s;
  match cols with
  | None => Err UnboundLocalError
  | Some cols =>
      Ok (map QcText (domain_cells s) ++ map QcText (l_labels (fst lx)) ++
          map (fun k => match dict_get k a with Some v => QcText v | None => QcNone end) cols ++
          [QcNum (qt_value (snd lx))])
  end.

Fixpoint yield_rows (f : location * quantity -> res (list qcell)) (l : list (location * quantity)) : table :=
  match l with
  | [] => ([], None)
  | lx :: l' =>
      match f lx with
      | Err e => ([], Some e)
      | Ok row => let t := yield_rows f l' in (row :: fst t, snd t)
      end
  end.

(** The loops over locations and their quantities (same lines). *)
Definition located (locs : list location) (s : store) : list (location * quantity) :=
  flat_map (fun l => map (fun x => (l, x)) (filter (fun x => (qt_loc x =? l_id l)%Z) (s_quants s))) locs.

(** The header (space.py lines 2488, 2598, 2636, 2712). *)
Definition table_header (cols : list text) (s : store) : list qcell :=
  map QcText ((if is_empty (s_domain s) then [] else [txt "domain"]) ++ d_labels (s_db s) ++ cols ++ [txt "quantity"]).
Definition with_header (h : list qcell) (t : table) : table := (h :: fst t, snd t).

(** Models space.py lines 2469-2500 [select_quantities2]. *)
Definition quantities2_table (header : bool) (s : store) : table :=
  if nil_b (s_registered s) then ([], Some ToronError)
  else
    let rows := yield_rows (table_row (Some (s_registered s)) s) (located (s_locs s) s) in
    if header then with_header (table_header (s_registered s) s) rows else rows.

(** Models space.py lines 2580-2609 [select_quantities]. *)
Definition quantities_table (header : bool) (s : store) : table :=
  let cols := all_names s in
  let rows := yield_rows (table_row (Some cols) s) (located (s_locs s) s) in
  if header then with_header (table_header cols s) rows else rows.

(** Models space.py lines 2611-2650 [select_quantities_without_index]: [attr_cols] gets its value only if there is a
    header. *)
Definition without_index_table (header : bool) (s : store) : table :=
  let cols := if header then Some (all_names s) else None in
  let rows := yield_rows (table_row cols s) (located (locations_without_index s) s) in
  if header then with_header (table_header (all_names s) s) rows else rows.

(** Models space.py lines 2689-2729 [select_unmatched_quantities], likewise. *)
Definition unmatched_table (header : bool) (s : store) : table :=
  let cols := if header then Some (all_names s) else None in
  let rows := yield_rows (table_row cols s) (located (nonmatching_locations s) s) in
  if header then with_header (table_header (all_names s) s) rows else rows.
