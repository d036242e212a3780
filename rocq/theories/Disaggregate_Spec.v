(** Specification vocabulary for C12 and C13. *)
From Verif Require Import Prelude.

(** The weight an id counts with; a missing weight counts as nothing. *)
Definition weight_or_zero (w : Z -> option Q) (i : Z) : Q :=
  match w i with Some v => v | None => 0%Q end.
Definition total_weight (w : Z -> option Q) (ids : list Z) : Q :=
  Qsum (map (weight_or_zero w) ids).

(** Number of ids other than the undefined record. *)
Definition defined_count (ids : list Z) : nat := length (filter (fun i => negb (i =? 0)%Z) ids).

(** Some record other than the undefined one has no weight. *)
Definition lacks_weight (w : Z -> option Q) (ids : list Z) : Prop :=
  exists i, In i ids /\ i <> 0%Z /\ w i = None.
