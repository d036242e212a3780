(** Model of reshaping wide tables into long ones.  Source: src/toron/_utils.py lines 253-356
    [wide_to_narrow] and 680-825 [wide_to_long]. *)
From Verif Require Import Prelude Selectors_Model Streams_Model.
Local Open Scope nat_scope.

(** A generator that yields some items for each item of an iterator; the items that were yielded
    before an error have been given out. *)
Fixpoint sflat {A B} (f : A -> list B * option exn) (s : stream A) : stream B :=
  match s with
  | Stop => Stop
  | Boom e => Boom e
  | Item a s' =>
    match f a with
    | (l, None) => chain l (sflat f s')
    | (l, Some e) => chain l (Boom e)
    end
  end.

(** [x in l]. *)
Definition cmem (x : cell) (l : list cell) : bool := existsb (cell_eqb x) l.
(** [zip_longest(a, b)]. *)
Fixpoint zip_longest (a b : list cell) : list (cell * cell) :=
  match a with
  | [] => map (fun y => (CNone, y)) b
  | x :: a' =>
    match b with
    | [] => (x, CNone) :: zip_longest a' []
    | y :: b' => (x, y) :: zip_longest a' b'
    end
  end.
(** [iter(row)]: the cells of a sequence, the keys of a mapping. *)
Definition iter_row (r : row) : option (list cell) :=
  match r with RSeq l => Some l | RMap d => Some (map fst d) | _ => None end.
(** [row.get(k)]. *)
Definition row_get (r : row) (k : cell) : res cell :=
  match r with RMap d => Ok (dict_get k d) | _ => Err AttributeError end.

(** The argument [cols_to_stack]: one name (a string or something that is not iterable), a collection,
    or an iterator that can be read only once. *)
Inductive stack_arg := SName (c : cell) | SCols (l : list cell) | SOnce (l : list cell).
(** Lines 773-775; then the names that the check of line 780 or 797 sees, and those that are left for
    the code after it: a check that succeeds has read all names. *)
Definition checked_cols (a : stack_arg) : list cell := match a with SName c => [c] | SCols l => l | SOnce l => l end.
Definition cols_after (a : stack_arg) : list cell := match a with SName c => [c] | SCols l => l | SOnce _ => [] end.

(** Lines 789-793: the rows for one row of a table of sequences. *)
Definition long_rows (header cols_to_keep cols_to_stack : list cell) (r : row) : list row * option exn :=
  match iter_row r with
  | None => ([], Some TypeError)
  | Some l =>
    let row_dict := dict_of (zip_longest header l) in
    let vals_to_keep := map (fun x => dict_get x row_dict) cols_to_keep in
    (map (fun col => RSeq (vals_to_keep ++ [col; dict_get col row_dict])) cols_to_stack, None)
  end.
(** Lines 804-810: the rows for one mapping. *)
Definition long_dicts (cols_to_keep cols_to_stack : list cell) (var_name val_name : cell) (r : row) : list row * option exn :=
  match traverse (row_get r) cols_to_keep with
  | Err e => ([], Some e)
  | Ok vals =>
    let items_to_keep := dict_of (combine cols_to_keep vals) in
    match traverse (row_get r) cols_to_stack with
    | Err e => ([], Some e)
    | Ok stacked =>
      (map (fun '(col, v) => RMap (dict_set val_name v (dict_set var_name col items_to_keep))) (combine cols_to_stack stacked), None)
    end
  end.

(** Models lines 697-825, the generator without its decorator.  The end of the data before a first
    item is a [StopIteration] inside a generator, that is a [RuntimeError]. *)
Definition wide_to_long_gen (d : data) (cols : stack_arg) (var_name val_name : cell) : stream row :=
  match iter_data d with
  | Err e => Boom e
  | Ok Stop => Boom RuntimeError
  | Ok (Boom e) => Boom e
  | Ok (Item first_item data) =>
    match first_item with
    | RSeq header =>
      if negb (forallb (fun col => cmem col header) (checked_cols cols)) then Boom ValueError
      else
        let cols_to_keep := filter (fun x => negb (cmem x (cols_after cols))) header in
        Item (RSeq (cols_to_keep ++ [var_name; val_name])) (sflat (long_rows header cols_to_keep (cols_after cols)) data)
    | RMap items =>
      let header := map fst items in
      if negb (forallb (fun col => cmem col header) (checked_cols cols)) then Boom ValueError
      else
        let cols_to_keep := filter (fun x => negb (cmem x (cols_after cols))) header in
        sflat (long_dicts cols_to_keep (cols_after cols) var_name val_name) (chain [first_item] data)
    | _ => Boom TypeError
    end
  end.
Definition wide_to_long (d : data) (cols : stack_arg) (var_name val_name : cell) : res (stream row) :=
  eagerly_initialize (wide_to_long_gen d cols var_name val_name).

(** Lines 336-355: the loop over [cols_to_stack] for one row. *)
Fixpoint narrow_rows (input_row kept : dict) (cols_to_stack : list cell) (var_name value_name : cell) : list row * option exn :=
  match cols_to_stack with
  | [] => ([], None)
  | var :: cols' =>
    match dict_find var input_row with
    | None => ([], Some KeyError)
    | Some value =>
      let '(l, e) := narrow_rows input_row kept cols' var_name value_name in
      (RMap (dict_set value_name value (dict_set var_name var kept)) :: l, e)
    end
  end.
(** Lines 321-355, one row.  Simplification: a row that is no mapping is a [TypeError] (among mappings
    a sequence may be taken for a mapping for a while). *)
Definition narrow_row (cols_to_stack : list cell) (var_name value_name : cell) (r : row) : list row * option exn :=
  match r with
  | RMap input_row =>
    if cmem var_name (map fst input_row) then ([], Some ValueError)
    else if cmem value_name (map fst input_row) then ([], Some ValueError)
    else
      let kept := filter (fun '(k, _) => negb (cmem k cols_to_stack)) input_row in
      narrow_rows input_row kept cols_to_stack var_name value_name
  | _ => ([], Some TypeError)
  end.
(** Models lines 253-356 [wide_to_narrow], a generator that is not run eagerly; [cols_to_stack] is a
    sequence. *)
Definition wide_to_narrow (d : data) (cols_to_stack : list cell) (var_name value_name : cell) : stream row :=
  match make_dictreaderlike d with
  | Err e => Boom e
  | Ok dict_rows => sflat (narrow_row cols_to_stack var_name value_name) dict_rows
  end.
