(** Model of the display of granularities.  Source: src/toron/formatters.py lines 45-92
    [format_granularity]. *)
From Coq Require Import NArith Ascii String Qround Decimal DecimalN.
From Verif Require Import Prelude Selectors_Model.
Local Open Scope nat_scope.
Local Open Scope list_scope.

(** A value: [None], a finite float by its sign and its exact magnitude (every rational magnitude is
    allowed, the floats are among them), an infinity, or a NaN (by its identity). *)
Inductive gval := GNone | GNum (neg : bool) (mag : Q) | GInf (neg : bool) | GNan (i : nat).
Definition signed (neg : bool) (mag : Q) : Q := if neg then Qopp mag else mag.
(** Equality of set elements: [is] or [==]; the two zeros are equal, a NaN equals only itself. *)
Definition gval_eqb (a b : gval) : bool :=
  match a, b with
  | GNone, GNone => true
  | GNum s x, GNum t y => Qeq_bool (signed s x) (signed t y)
  | GInf s, GInf t => eqb s t
  | GNan i, GNan j => i =? j
  | _, _ => false
  end.
Definition gmem (x : gval) (l : list gval) : bool := existsb (gval_eqb x) l.
(** [set(values)]: of equal values the first is kept. *)
Fixpoint gset_from (seen l : list gval) : list gval :=
  match l with [] => [] | x :: l' => if gmem x seen then gset_from seen l' else x :: gset_from (x :: seen) l' end.
(** Line 74: [set(granularity_values) | {0.0}]. *)
Definition unique_vals (values : list gval) : list gval :=
  let s := gset_from [] values in
  if gmem (GNum false 0) s then s else s ++ [GNum false 0].

(** Rounding to an integer, half to even, of a magnitude. *)
Definition round_half_even (x : Q) : N :=
  let f := Qfloor x in
  let r := (x - inject_Z f)%Q in
  match Qcompare r (1 # 2) with
  | Lt => Z.to_N f
  | Gt => Z.to_N (f + 1)
  | Eq => if Z.even f then Z.to_N f else Z.to_N (f + 1)
  end.
(** Decimal digits. *)
Fixpoint digits (u : Decimal.uint) : text :=
  match u with
  | Nil => []
  | D0 u => 48%N :: digits u | D1 u => 49%N :: digits u | D2 u => 50%N :: digits u | D3 u => 51%N :: digits u
  | D4 u => 52%N :: digits u | D5 u => 53%N :: digits u | D6 u => 54%N :: digits u | D7 u => 55%N :: digits u
  | D8 u => 56%N :: digits u | D9 u => 57%N :: digits u
  end.
Definition print_N (n : N) : text := digits (N.to_uint n).
(** [text.rjust(width, fill)]. *)
Definition rjust (fill : N) (width : nat) (t : text) : text := repeat fill (width - length t) ++ t.
(** [f'{x:.{precision}f}'] of a finite float: CPython prints the exact value correctly rounded to the
    given number of decimal places, half to even; the sign is kept also if all digits are zero.  Here
    the number of places is positive. *)
Definition fixed (precision : nat) (neg : bool) (mag : Q) : text :=
  let unit := (10 ^ N.of_nat precision)%N in
  let n := round_half_even (mag * inject_Z (Z.of_N unit))%Q in
  (if neg then [45%N] else []) ++ print_N (n / unit)%N ++ [46%N] ++ rjust 48%N precision (print_N (n mod unit)%N).
(** Lines 79-82: [f'{x:.{precision}f}' if x is not None else 'None']. *)
Definition fmt (precision : nat) (x : gval) : text :=
  match x with
  | GNone => txt "None"
  | GNum neg mag => fixed precision neg mag
  | GInf neg => if neg then txt "-inf" else txt "inf"
  | GNan _ => txt "nan"
  end.
(** [len({...})]: the number of different texts. *)
Fixpoint distinct_count (l : list text) : nat :=
  match l with [] => 0 | x :: l' => if existsb (text_eqb x) l' then distinct_count l' else S (distinct_count l') end.
Definition max_len (l : list text) : nat := fold_right (fun t n => Nat.max (length t) n) 0 l.

(** Lines 78-92: the loop over the precisions, [count] of them are left. *)
Fixpoint try_precisions (values unique : list gval) (precision count : nat) : res (list text) :=
  match count with
  | O => Err ValueError
  | S count' =>
    let rounded_vals := map (fmt precision) unique in
    if distinct_count rounded_vals =? length unique then
      let width := max_len rounded_vals in
      Ok (map (fun x => rjust 32%N width (fmt precision x)) values)
    else try_precisions values unique (S precision) count'
  end.
(** Lines 45-92: [range(3, 18)]. *)
Definition format_granularity (values : list gval) : res (list text) :=
  try_precisions values (unique_vals values) 3 15.
