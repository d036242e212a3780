(** Specification vocabulary for C06. *)
From Verif Require Import Prelude.

(** Bit [i] of a sequence; positions past the end count as zero. *)
Definition bit_at (l : list bool) (i : nat) : bool := nth i l false.

(** Same bits once trailing zeros are ignored. *)
Definition same_bits (a b : list bool) : Prop := forall i, bit_at a i = bit_at b i.

(** A string of real bytes. *)
Definition is_bytes (l : list N) : Prop := Forall (fun b => (b < 256)%N) l.

(** Bit [i] of a byte string, most significant bit of each byte first. *)
Definition byte_bit (l : list N) (i : nat) : bool :=
  N.testbit (nth (i / 8) l 0%N) (N.of_nat (7 - i mod 8)).

(** [n] is the smallest multiple of eight not cutting off a set bit of [l]. *)
Definition tight_length (n : nat) (l : list bool) : Prop :=
  (exists k, n = 8 * k) /\
  (forall i, bit_at l i = true -> i < n) /\
  (n = 0 \/ exists i, n - 8 <= i < n /\ bit_at l i = true).
