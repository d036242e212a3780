(** C46: displayed granularities stay distinct. *)
From Coq Require Import NArith Ascii String Qabs Lqa.
From Verif Require Import Prelude Selectors_Model Selectors_Proofs FormatGran_Model FormatGran_Spec FormatGran_Proofs.
Local Open Scope nat_scope.
Local Open Scope list_scope.

(** Two values get the same text exactly if they are equal. *)
Theorem C46_distinct values out : wf values -> no_negative_zero values -> format_granularity values = Ok out ->
  forall i j x y, nth_error values i = Some x -> nth_error values j = Some y -> (nth_error out i = nth_error out j <-> same x y).
Proof. intros W Z E. destruct (gran_ok values out W Z E) as (p & w & _ & _ & _ & _ & H). exact H. Qed.
Print Assumptions C46_distinct.

(** One text for each value, all of one width; each shows its value with the same number of decimal
    places, between 3 and 17, correctly rounded, padded on the left. *)
Theorem C46_texts values out : wf values -> no_negative_zero values -> format_granularity values = Ok out ->
  exists places width, 3 <= places <= 17 /\
    Forall2 (fun x t => length t = width /\ exists t0, padded t0 t /\ shows_value places x t0) values out.
Proof.
  intros W Z E. destruct (gran_ok values out W Z E) as (p & w & L & _ & _ & F & _). exists p, w. split; [exact L|].
  clear - F. induction F as [|x t l o (t0 & _ & Pd & S & Ln) F IH]; constructor; eauto.
Qed.
Print Assumptions C46_texts.

(** The number of places is the least one from 3 on that tells apart all values and zero. *)
Theorem C46_least values out : wf values -> no_negative_zero values -> format_granularity values = Ok out ->
  exists places, 3 <= places <= 17 /\ Forall2 (fun x t => padded (fmt places x) t) values out /\
    ~ collide places values /\ forall q, 3 <= q < places -> collide q values.
Proof.
  intros W Z E. destruct (gran_ok values out W Z E) as (p & w & L & C & M & F & _). exists p. split; [exact L|]. split; [|auto].
  clear - F. induction F as [|x t l o (t0 & -> & Pd & _) F IH]; constructor; auto.
Qed.
Print Assumptions C46_least.

(** It raises exactly if no number of places up to 17 does; there is no other outcome. *)
Theorem C46_raises values : wf values -> no_negative_zero values ->
  (format_granularity values = Err ValueError <-> forall q, 3 <= q <= 17 -> collide q values) /\
  ((exists out, format_granularity values = Ok out) <-> exists q, 3 <= q <= 17 /\ ~ collide q values).
Proof. exact (gran_raises values). Qed.
Print Assumptions C46_raises.

(** Values that differ from each other and from zero by more than [10^-17] can be displayed. *)
Theorem C46_enough values : wf values -> no_negative_zero values ->
  (forall s x t y, In (GNum s x) (GNum false 0 :: values) -> In (GNum t y) (GNum false 0 :: values) -> ~ (signed s x == signed t y)%Q ->
     (1 < Qabs (signed s x - signed t y) * inject_Z (10 ^ 17))%Q) ->
  (forall i j, In (GNan i) values -> In (GNan j) values -> i = j) -> exists out, format_granularity values = Ok out.
Proof. exact (gran_enough values). Qed.
Print Assumptions C46_enough.

(** A positive value is never displayed as zero. *)
Theorem C46_positive values out i m : wf values -> no_negative_zero values -> format_granularity values = Ok out ->
  nth_error values i = Some (GNum false m) -> (0 < m)%Q ->
  exists t before after, nth_error out i = Some t /\ padded (before ++ [46%N] ++ after) t /\ Forall is_digit before /\ Forall is_digit after /\ number (before ++ after) <> 0%N.
Proof. exact (gran_positive values out i m). Qed.
Print Assumptions C46_positive.

(** *** Non-vacuity *)
Definition ex_values : list gval :=
  [GNum false (12650378635397704 # 1000000000000000); GNum false (12650325958503286 # 1000000000000000);
   GNum false (8297246124988996 # 1000000000000000); GNone; GNum false (12650378635397704 # 1000000000000000)].
Example C46_ex : format_granularity ex_values = Ok [txt "12.6504"; txt "12.6503"; txt " 8.2972"; txt "   None"; txt "12.6504"].
Proof. vm_compute. reflexivity. Qed.
Example C46_ex_hypotheses : wf ex_values /\ no_negative_zero ex_values.
Proof.
  split.
  - intros s m H. repeat destruct H as [H|H]; try discriminate; try (injection H as <- <-; lra). destruct H.
  - intros m H. repeat destruct H as [H|H]; try discriminate. destruct H.
Qed.
(** The smallest values: a value below half of [10^-17] cannot be told from zero. *)
Example C46_ex_raises : format_granularity [GNum false (1 # 2 ^ 60)] = Err ValueError.
Proof. vm_compute. reflexivity. Qed.

(** *** Findings: the hypothesis about negative zeros and the word "positive" are needed *)

(** Zeros of different sign are equal, yet they get different texts of different width. *)
Theorem C46_zero_text_refuted : exists values out, wf values /\ format_granularity values = Ok out /\
  exists i j x y t u, nth_error values i = Some x /\ nth_error values j = Some y /\ same x y /\
    nth_error out i = Some t /\ nth_error out j = Some u /\ t <> u /\ length t <> length u.
Proof.
  exists [GNum false 0; GNum true 0], [txt "0.000"; txt "-0.000"]. split.
  - intros s m H. repeat destruct H as [H|H]; try (injection H as <- <-; lra). destruct H.
  - split; [vm_compute; reflexivity|]. exists 0, 1, (GNum false 0), (GNum true 0), (txt "0.000"), (txt "-0.000").
    repeat split; try reflexivity; try discriminate.
Qed.
Print Assumptions C46_zero_text_refuted.
(** A negative zero and a small negative number are different, yet they can get the same text. *)
Theorem C46_zero_distinct_refuted : exists values out, wf values /\ format_granularity values = Ok out /\
  exists i j x y, nth_error values i = Some x /\ nth_error values j = Some y /\ ~ same x y /\ nth_error out i = nth_error out j.
Proof.
  exists [GNum false 0; GNum true 0; GNum true (1 # 10000)], [txt " 0.000"; txt "-0.000"; txt "-0.000"]. split.
  - intros s m H. repeat destruct H as [H|H]; try (injection H as <- <-; lra). destruct H.
  - split; [vm_compute; reflexivity|]. exists 1, 2, (GNum true 0), (GNum true (1 # 10000)). repeat split. cbn. lra.
Qed.
Print Assumptions C46_zero_distinct_refuted.
(** A small negative number is displayed with digits that are all zero. *)
Theorem C46_negative_refuted : exists values, wf values /\ no_negative_zero values /\ format_granularity values = Ok [txt "-0.000"] /\
  exists m, In (GNum true m) values /\ ~ (m == 0)%Q.
Proof.
  exists [GNum true (1 # 10000)]. split; [intros s m [H|[]]; injection H as <- <-; lra|].
  split; [intros m [H|[]]; injection H as <-; lra|]. split; [vm_compute; reflexivity|]. exists (1 # 10000). split; [left; reflexivity | lra].
Qed.
Print Assumptions C46_negative_refuted.
(** Two NaN objects cannot be displayed; one can, also repeatedly. *)
Theorem C46_nan_refuted : format_granularity [GNan 0; GNan 1] = Err ValueError /\ format_granularity [GNan 0; GNan 0] = Ok [txt "  nan"; txt "  nan"].
Proof. split; vm_compute; reflexivity. Qed.
Print Assumptions C46_nan_refuted.
