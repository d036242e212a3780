(** Specification for C37. *)
From Verif Require Import Prelude Selectors_Model Streams_Model Streams_Spec Reshape_Model.
Local Open Scope nat_scope.

Definition cell_eq_dec (a b : cell) : {a = b} + {a <> b}.
Proof. decide equality; [apply (list_eq_dec N.eq_dec) | apply Z.eq_dec]. Defined.
(** The columns that are not stacked, in order. *)
Definition kept (cols header : list cell) : list cell :=
  filter (fun x => if in_dec cell_eq_dec x cols then false else true) header.
(** The cell of a row under a column; a short row is continued with [None]. *)
Definition cell_under (header l : list cell) (c v : cell) : Prop :=
  exists i, nth_error header i = Some c /\ (nth_error l i = Some v \/ (nth_error l i = None /\ v = CNone)).
(** The long rows of one wide row: one for each stacked column, in order. *)
Definition long_block (header cols l : list cell) (block : list row) : Prop :=
  Forall2 (fun c r => exists kv v, r = RSeq (kv ++ [c; v]) /\ Forall2 (cell_under header l) (kept cols header) kv /\
                                   cell_under header l c v) cols block.
(** The same for mappings: the kept items, then the name of the stacked column and its value. *)
Definition long_dict_block (header cols : list cell) (var_name val_name : cell) (d : dict) (block : list row) : Prop :=
  Forall2 (fun c r => exists kv v, r = RMap (combine (kept cols header) kv ++ [(var_name, c); (val_name, v)]) /\
                                   Forall2 (value_of d) (kept cols header) kv /\ value_of d c v) cols block.
