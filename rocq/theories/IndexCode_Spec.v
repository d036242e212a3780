(** What index codes are to do, independent of how they are computed. *)
From Verif Require Import Prelude Selectors_Model.
Local Open Scope N_scope.

(** The range of an index id. *)
Definition fits (i : Z) : Prop := (- 2 ^ 63 <= i < 2 ^ 63)%Z.
Definition byte_list (l : list N) : Prop := Forall (fun b => b < 256) l.

(** The digit a character stands for, upper case or lower case. *)
Definition digit_of (c d : N) : Prop :=
  (c = 48 + d /\ d <= 9) \/ (c = 55 + d /\ 10 <= d <= 35) \/ (c = 87 + d /\ 10 <= d <= 35).

(** [numeral base t n]: digits, with single underscores between them, that stand for [n]. *)
Inductive numeral (base : N) : text -> N -> Prop :=
| num_digit c d : digit_of c d -> d < base -> numeral base [c] d
| num_more t n c d : numeral base t n -> digit_of c d -> d < base -> numeral base (t ++ [c]) (n * base + d)
| num_under t n c d : numeral base t n -> digit_of c d -> d < base -> numeral base (t ++ [95; c]) (n * base + d).
Definition blank (t : text) : Prop := Forall (fun c => 9 <= c <= 13 \/ c = 32) t.
(** [literal base t z]: what Python reads as [z] in that base. *)
Definition literal (base : N) (t : text) (z : Z) : Prop :=
  exists a sign pre u ds b n, t = a ++ sign ++ pre ++ u ++ ds ++ b /\ blank a /\ blank b /\
    (sign = [] \/ sign = [43] \/ sign = [45]) /\
    ((pre = [] /\ u = []) \/ (base = 16 /\ (pre = [48; 120] \/ pre = [48; 88]) /\ (u = [] \/ u = [95]))) /\
    numeral base ds n /\ z = (if list_eq_dec N.eq_dec sign [45%N] then - Z.of_N n else Z.of_N n)%Z.

(** Two byte strings of one length that agree except within four consecutive bytes. *)
Definition differ_within_32_bits (a b : list N) : Prop :=
  exists p x y q, a = p ++ x ++ q /\ b = p ++ y ++ q /\ length x = length y /\ (length x <= 4)%nat /\ x <> y.

(** The number that bytes stand for, first byte most significant. *)
Definition be_value (l : list N) : N := fold_left (fun v b => 256 * v + b) l 0.

(** A column has a code. *)
Definition has_code (is_code : text -> bool) (rows : list (list text)) (p : nat) : Prop :=
  exists row cell, In row rows /\ nth_error row p = Some cell /\ is_code cell = true.
