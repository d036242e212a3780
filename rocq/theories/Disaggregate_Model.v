(** Model of disaggregating one quantity.  Source: src/toron/data_service.py.
    Values are exact rationals. *)
From Verif Require Import Prelude.

(** [get_weight(weight_group_id, index_id)] for a fixed weight group: [None] stands
    for the KeyError of a missing record. *)
Definition weights := Z -> option Q.

(** First loop.  Models src/toron/data_service.py lines 322-329. *)
Fixpoint group_weight (w : weights) (ids : list Z) (acc : Q) : res Q :=
  match ids with
  | [] => Ok acc
  | i :: ids' =>
      match w i with
      | Some v => group_weight w ids' (acc + v)%Q
      | None => if (i =? 0)%Z then group_weight w ids' acc else Err KeyError
      end
  end.

(** [0 in index_ids]. *)
Definition has_undefined (ids : list Z) : bool := existsb (Z.eqb 0) ids.

(** Models src/toron/data_service.py lines 293-379 [disaggregate_value].  The generator
    can only raise before it yields anything, so the result is an exception or the list
    of yielded pairs.  [index_ids] is given in iteration order. *)
Definition disaggregate_value (quantity_value : Q) (ids : list Z) (w : weights)
  : res (list (Z * Q)) :=
  do g <- group_weight w ids 0%Q;
  if negb (Qeq_bool g 0) then
    Ok (map (fun i => match w i with
                      | Some v => (i, quantity_value * (v / g))%Q
                      | None => (i, 0%Q)
                      end) ids)
  else
    let n := length ids in
    if 1 <? n then
      if negb (has_undefined ids) then
        let proportion := (1 / inject_Z (Z.of_nat n))%Q in
        Ok (map (fun i => (i, quantity_value * proportion)%Q) ids)
      else
        let proportion := (1 / inject_Z (Z.of_nat n - 1))%Q in
        Ok (map (fun i => if (i =? 0)%Z then (i, 0%Q)
                          else (i, quantity_value * proportion)%Q) ids)
    else
      match ids with
      | i :: _ => Ok [(i, quantity_value)]
      | [] => Err RuntimeError
      end.
