(** Specification for C46. *)
From Coq Require Import NArith Ascii String Qabs.
From Verif Require Import Prelude Selectors_Model FormatGran_Model.
Local Open Scope nat_scope.
Local Open Scope list_scope.

(** Equal values: the same number (the two zeros are equal), both [None], the same infinity, the same NaN. *)
Definition same (a b : gval) : Prop :=
  match a, b with
  | GNone, GNone => True
  | GNum s x, GNum t y => (signed s x == signed t y)%Q
  | GInf s, GInf t => s = t
  | GNan i, GNan j => i = j
  | _, _ => False
  end.
(** Every magnitude is a magnitude. *)
Definition wf (values : list gval) : Prop := forall s m, In (GNum s m) values -> (0 <= m)%Q.
Definition no_negative_zero (values : list gval) : Prop := forall m, In (GNum true m) values -> ~ (m == 0)%Q.
(** The number written with some digits. *)
Definition is_digit (c : N) : Prop := (48 <= c <= 57)%N.
Definition number (t : text) : N := fold_left (fun n c => (10 * n + (c - 48))%N) t 0%N.
(** A text that shows a number with some decimal places: a sign, digits before and after the point, and
    the number that is written differs by at most half a unit of the last place. *)
Definition shows (places : nat) (neg : bool) (mag : Q) (t : text) : Prop :=
  exists before after, t = (if neg then [45%N] else []) ++ before ++ [46%N] ++ after /\ before <> [] /\
    Forall is_digit before /\ Forall is_digit after /\ length after = places /\
    (Qabs (inject_Z (Z.of_N (number (before ++ after))) - mag * inject_Z (Z.of_N (10 ^ N.of_nat places))) <= 1 # 2)%Q.
Definition shows_value (places : nat) (x : gval) (t : text) : Prop :=
  match x with
  | GNone => t = txt "None"
  | GNum neg mag => shows places neg mag t
  | GInf neg => t = if neg then txt "-inf" else txt "inf"
  | GNan _ => t = txt "nan"
  end.
(** Padded on the left with spaces. *)
Definition padded (t t' : text) : Prop := exists n, t' = repeat 32%N n ++ t.
(** Two different numbers that Python writes alike with some number of places. *)
Definition collide (places : nat) (values : list gval) : Prop :=
  exists u v, In u (GNum false 0 :: values) /\ In v (GNum false 0 :: values) /\ ~ same u v /\ fmt places u = fmt places v.
