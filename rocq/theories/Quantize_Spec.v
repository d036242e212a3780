(** Specification vocabulary for C14 and C15. *)
From Verif Require Import Prelude.
From Coq Require Import Qabs.

Definition whole (x : Q) : Prop := exists z : Z, (x == inject_Z z)%Q.

(** All values are on the same side of zero. *)
Definition one_sign (l : list (N * Q)) : Prop :=
  (forall i v, In (i, v) l -> (0 <= v)%Q) \/ (forall i v, In (i, v) l -> (v <= 0)%Q).

(** Number of 64-bit identifiers. *)
Definition two64 : N := 18446744073709551616%N.

(** An output item belongs to an input item: same id, moved by less than one. *)
Definition close (it o : N * Q) : Prop := fst it = fst o /\ (Qabs (snd o - snd it) < 1)%Q.

(** All values are whole, except possibly one. *)
Definition at_most_one_odd (out : list (N * Q)) : Prop :=
  (forall i v, In (i, v) out -> whole v) \/
  exists a p b, out = a ++ p :: b /\ (forall i v, In (i, v) (a ++ b) -> whole v).
