(** Model of the checksum over index ids.
    Source: src/toron/_utils.py lines 470-523 [SequenceHash] and
    src/toron/data_service.py lines 110-124 [refresh_index_hash_property]. *)
From Verif Require Import Prelude IndexCode_Model.
Local Open Scope Z_scope.

(** A [SequenceHash] object: [_prev_value] and all the bytes given to
    [hash_obj.update] so far.  The digest is some function of those bytes (SHA-256
    itself is not modelled). *)
Record seqhash := { sh_prev : Z; sh_fed : list N }.

(** [int.to_bytes(length=8, byteorder='big')]: OverflowError when the value is
    negative or needs more than eight bytes. *)
Definition to_bytes8 (v : Z) : res (list N) :=
  if (v <? 0) || (2 ^ 64 <=? v) then Err OverflowError else Ok (be_bytes 8 (Z.to_N v)).

(** Models _utils.py lines 505-519 [add_value].  The object is mutable: what is
    returned is the object afterwards together with the exception, if any. *)
Definition add_value (h : seqhash) (value : Z) : seqhash * option exn :=
  if negb (sh_prev h <? value) then (h, Some ValueError)
  else
    match to_bytes8 value with
    | Err OverflowError => (h, Some ValueError)
    | Err e => (h, Some e)
    | Ok bytes =>
        let h1 := {| sh_prev := sh_prev h; sh_fed := sh_fed h ++ bytes |} in
        ({| sh_prev := value; sh_fed := sh_fed h1 |}, None)
    end.

(** The loop of lines 501-503; an exception leaves the loop. *)
Fixpoint add_values (h : seqhash) (values : list Z) : res seqhash :=
  match values with
  | [] => Ok h
  | v :: vs => match add_value h v with (h', None) => add_values h' vs | (_, Some e) => Err e end
  end.

(** Models _utils.py lines 497-503 [__init__].  [None] is the missing argument.  An
    empty list is falsy and an empty generator yields nothing: both skip the loop. *)
Definition new_seqhash (iterable : option (list Z)) : res seqhash :=
  let h := {| sh_prev := -1; sh_fed := [] |} in
  match iterable with
  | None => Ok h
  | Some [] => Ok h
  | Some values => add_values h values
  end.

(** A caller that feeds values one at a time and carries on after an error. *)
Fixpoint feed (h : seqhash) (values : list Z) : seqhash * list (option exn) :=
  match values with
  | [] => (h, [])
  | v :: vs => let '(h1, e) := add_value h v in
               let '(h2, es) := feed h1 vs in (h2, e :: es)
  end.

(** Models data_service.py lines 110-124: the bytes behind the stored 'index_hash'.
    [ids] are the index ids in the order of [find_all_index_ids(ordered=True)]. *)
Definition index_hash_bytes (ids : list Z) : res (list N) :=
  do h <- new_seqhash None;
  do h' <- add_values h ids;
  Ok (sh_fed h').
