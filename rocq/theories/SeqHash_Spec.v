(** What the checksum over index ids is to do. *)
From Verif Require Import Prelude IndexCode_Spec.
From Coq Require Import Sorted.
Local Open Scope Z_scope.

(** The documented sequences: strictly increasing, from 0 up to [2 ^ 64 - 1]. *)
Definition legal (l : list Z) : Prop :=
  (forall i j x y, (i < j)%nat -> nth_error l i = Some x -> nth_error l j = Some y -> x < y) /\
  (forall x, In x l -> 0 <= x <= 18446744073709551615).

(** [bytes] is [l] written as eight-byte numbers, one after the other. *)
Inductive written : list Z -> list N -> Prop :=
| written_nil : written [] []
| written_snoc l bs v b : written l bs -> length b = 8%nat -> byte_list b -> Z.of_N (be_value b) = v ->
    written (l ++ [v]) (bs ++ b).

(** [kept vs es l]: [l] are the values of [vs] for which no error is recorded in [es]. *)
Inductive kept : list Z -> list (option exn) -> list Z -> Prop :=
| kept_nil : kept [] [] []
| kept_ok v vs es l : kept vs es l -> kept (v :: vs) (None :: es) (v :: l)
| kept_err v vs e es l : kept vs es l -> kept (v :: vs) (Some e :: es) l.
