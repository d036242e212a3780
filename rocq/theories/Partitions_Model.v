(** Model of partition definitions and the structure they generate.
    Source: src/toron/partitions.py and the partition part of
    src/toron/data_service.py and src/toron/space.py. *)
From Verif Require Import Prelude.

(** A Python [set] of label names, given by a list of its elements.  Order and
    repetition in the list carry no meaning: every operation below treats two
    lists with the same elements alike. *)
Definition labelset := list string.

(** [x in s] for a Python set of strings. *)
Definition lmem (x : string) (s : labelset) : bool := existsb (String.eqb x) s.

(** [a <= b] for Python sets. *)
Definition lsubset (a b : labelset) : bool := forallb (fun x => lmem x b) a.

(** [a == b] for Python sets. *)
Definition lset_eqb (a b : labelset) : bool := lsubset a b && lsubset b a.

(** [len(s)] for a Python set (number of distinct elements). *)
Definition lset_len (s : labelset) : nat := length (nodup string_dec s).

(** [s in structure] for a Python list of sets (uses set equality). *)
Definition lset_in (s : labelset) (l : list labelset) : bool := existsb (lset_eqb s) l.

(** [itertools.combinations(l, k)], in the order itertools yields them. *)
Fixpoint combinations {A} (k : nat) (l : list A) {struct l} : list (list A) :=
  match k, l with
  | O, _ => [[]]
  | S _, [] => []
  | S k', x :: xs => map (cons x) (combinations k' xs) ++ combinations k xs
  end.

(** One pass of the inner loop body.
    Models src/toron/partitions.py lines 68-70. *)
Definition add_union (structure : list labelset) (subsequence : list labelset)
  : list labelset :=
  let unioned := concat subsequence in
  if lset_in unioned structure then structure else structure ++ [unioned].

(** Models src/toron/partitions.py lines 13-71 [make_structure]. *)
Definition make_structure (definitions : list labelset) : list labelset :=
  fold_left
    (fun structure len => fold_left add_union (combinations len definitions) structure)
    (seq 0 (S (length definitions))) [].

(** Python's [sorted(l, key=len)]: a stable insertion sort by ascending key. *)
Fixpoint insert_by_len (s : labelset) (l : list labelset) : list labelset :=
  match l with
  | [] => [s]
  | t :: l' => if lset_len s <=? lset_len t then s :: l else t :: insert_by_len s l'
  end.

Fixpoint sorted_by_len (l : list labelset) : list labelset :=
  match l with
  | [] => []
  | s :: l' => insert_by_len s (sorted_by_len l')
  end.

(** One pass of the loop. Models src/toron/partitions.py lines 95-97. *)
Definition add_if_new (definitions : list labelset) (definition : labelset)
  : list labelset :=
  if lset_in definition (make_structure definitions)
  then definitions else definitions ++ [definition].

(** Models src/toron/partitions.py lines 74-99
    [find_minimal_partition_generating_set]; [bases] is the tuple of iterables. *)
Definition find_minimal (bases : list (list labelset)) : list labelset :=
  fold_left add_if_new (sorted_by_len (concat bases)) [].

(* ------------------------------------------------------------------------ *)
(** ** The part of a data space that concerns partition definitions *)

(** Label columns in storage order, and the 'partition_definitions' property
    ([None] when the property row does not exist). *)
Record pspace := { p_columns : list string; p_defs : option (list labelset) }.

(** Models src/toron/data_service.py lines 690-698 [get_all_partition_definitions]. *)
Definition get_all_defs (s : pspace) : list labelset :=
  match p_defs s with Some d => d | None => [] end.

(** [property_repo.update(...)]: an SQL UPDATE, a no-op when the key is missing.
    Models src/toron/dal1/repositories.py lines 1266-1271. *)
Definition prop_update_defs (s : pspace) (d : list labelset) : pspace :=
  {| p_columns := p_columns s;
     p_defs := match p_defs s with Some _ => Some d | None => None end |}.

(** [add] falling back to [update], or [add_or_update]: afterwards the key holds
    the value.  Models src/toron/data_service.py lines 847-851 and 900-901. *)
Definition prop_set_defs (s : pspace) (d : list labelset) : pspace :=
  {| p_columns := p_columns s; p_defs := Some d |}.

(** Models src/toron/data_service.py lines 817-851 [add_partition_definitions].
    The warning about omitted definitions is not modelled. *)
Definition ds_add_partition_definitions (definitions : list labelset) (s : pspace)
  : res pspace :=
  if (length (p_columns s) =? 0)%nat then Err RuntimeError
  else if negb (forallb (fun f => lmem f (p_columns s)) (concat definitions))
  then Err ValueError
  else Ok (prop_set_defs s
             (find_minimal [definitions; get_all_defs s; [p_columns s]])).

(** Models src/toron/data_service.py lines 854-901 [add_partition_definition]. *)
Definition ds_add_partition_definition (definition : labelset) (s : pspace)
  : res pspace :=
  if (length (p_columns s) =? 0)%nat then Err RuntimeError
  else if negb (lsubset definition (p_columns s)) then Err ValueError
  else
    let existing := get_all_defs s in
    if lset_in definition existing then Err RuntimeError
    else
      let minimized := find_minimal [[definition]; existing; [p_columns s]] in
      if negb (lset_in definition minimized) then Err RuntimeError
      else Ok (prop_set_defs s minimized).

(** Models src/toron/data_service.py lines 904-924 [remove_partition_definition]. *)
Definition ds_remove_partition_definition (definition : labelset) (s : pspace)
  : res pspace :=
  if lset_eqb definition (p_columns s) then Err ToronIntegrityError
  else
    let keep := filter (fun x => negb (lset_eqb x definition)) (get_all_defs s) in
    Ok (prop_update_defs s (find_minimal [keep; [p_columns s]])).

(** [rebuild_structure_table] as far as errors go: it raises when there are
    columns but no definitions.  Models src/toron/data_service.py lines 804-814;
    the rebuilt rows themselves are [make_structure (get_all_defs s)]. *)
Definition ds_rebuild_check (s : pspace) : res pspace :=
  match p_columns s, get_all_defs s with
  | _ :: _, [] => Err RuntimeError
  | _, _ => Ok s
  end.

(** Public calls of DataSpace that change partition definitions. *)
Inductive pop : Type :=
| PAddMany (definition : labelset) (definitions : list labelset)
| PAddOne (definition : labelset)
| PDrop (definition : labelset) (definitions : list labelset).

(** Models src/toron/space.py lines 279-304, 306-327 and 329-363.  The whole call
    runs in a managed transaction, so an error leaves the state as it was. *)
Definition pcall (s : pspace) (o : pop) : res pspace :=
  match o with
  | PAddMany d ds =>
      do s1 <- ds_add_partition_definitions (d :: ds) s;
      ds_rebuild_check s1
  | PAddOne d =>
      do s1 <- ds_add_partition_definition d s;
      ds_rebuild_check s1
  | PDrop d ds =>
      let drop := d :: ds in
      if lset_in (p_columns s) drop then Err ValueError
      else
        let keep := filter (fun x => negb (lset_in x drop)) (get_all_defs s) in
        ds_rebuild_check
          (prop_update_defs s (find_minimal [keep; [p_columns s]]))
  end.

Definition pstep (s : pspace) (o : pop) : pspace :=
  match pcall s o with Ok s' => s' | Err _ => s end.

Definition prun (s : pspace) (ops : list pop) : pspace := fold_left pstep ops s.
