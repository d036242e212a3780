(** C10: printing and re-parsing selectors. *)
From Verif Require Import Prelude Selectors_Model Selectors_Spec SelectorParse_Model
  SelectorParse_Spec SelectorParse_Proofs.

(** Whatever text a selector was parsed from, printing it and parsing the print gives
    the same selector (the very same tree) provided its values are printable. *)
Theorem C10_round_trip t s printed : parse_selector t = Ok s -> values_printable s ->
  sel_str s = Ok printed -> parse_selector printed = Ok s.
Proof. exact (parse_print_parse t s printed). Qed.
Print Assumptions C10_round_trip.

(** The condition on values holds automatically for texts without single quotes. *)
Theorem C10_round_trip_double_quoted t s printed :
  ~ In 39%N t -> parse_selector t = Ok s ->
  sel_str s = Ok printed -> parse_selector printed = Ok s.
Proof. exact (parse_print_parse_double t s printed). Qed.
Print Assumptions C10_round_trip_double_quoted.

(** Every selector of the language prints, and its print parses back to it. *)
Theorem C10_language_round_trip s : in_language s ->
  sel_str s = Ok (print s) /\ parse_selector (print s) = Ok s.
Proof. exact (in_language_round s). Qed.
Print Assumptions C10_language_round_trip.

(** Conversely nothing else comes out of the parser, apart from self-containing
    objects and values that cannot be printed. *)
Theorem C10_parsed_in_language t s : parse_selector t = Ok s ->
  has_loop s = false -> values_printable s -> in_language s.
Proof. exact (parsed_in_language t s). Qed.
Print Assumptions C10_parsed_in_language.

(** Printing succeeds for every parsed selector that does not contain itself, and
    every such selector is covered by [C07_meaning]. *)
Theorem C10_parsed_is_proper t s : parse_selector t = Ok s -> has_loop s = false -> proper s.
Proof. exact (parse_proper t s). Qed.
Print Assumptions C10_parsed_is_proper.

(** The model's parser never runs out of fuel. *)
Theorem C10_fuel_suffices t : parse_fuel t <> PFuel.
Proof. exact (fuel_suffices t). Qed.
Print Assumptions C10_fuel_suffices.

(** Finding: without the condition the round trip fails: when a single-quoted
    value consists of a backslash and a double quote, the print is not parseable. *)
Theorem C10_round_trip_refuted : exists t s printed,
  parse_selector t = Ok s /\ sel_str s = Ok printed /\ parse_selector printed = Err SyntaxErr.
Proof.
  exists (txt "[A='\" ++ [34%N] ++ txt "']"). eexists. eexists.
  split; [vm_compute; reflexivity|]. split; vm_compute; reflexivity.
Qed.
Print Assumptions C10_round_trip_refuted.

(** Finding: [:is(:is([A],[B]))] parses to a selector that contains itself; printing
    it raises RecursionError. *)
Theorem C10_nested_is_refuted : exists s,
  parse_selector (txt ":is(:is([A],[B]))") = Ok s /\ sel_str s = Err RecursionError.
Proof. eexists. split; vm_compute; reflexivity. Qed.
Print Assumptions C10_nested_is_refuted.

(** Finding: a bare value is accepted by the grammar but rejected with a TypeError. *)
Theorem C10_unquoted_value_refuted : parse_selector (txt "[A=b]") = Err TypeError.
Proof. vm_compute. reflexivity. Qed.
Print Assumptions C10_unquoted_value_refuted.

Example C10_case :
  let q := [34%N] in
  let t := txt " [ A ~= " ++ q ++ txt "x\" ++ q ++ txt "y\\" ++ q ++ txt " I] :not( [B] , :is([C],:where([d-1])))" in
  ~ In 39%N t /\ exists s printed, parse_selector t = Ok s /\ sel_str s = Ok printed /\
  printed = txt "[A~=" ++ q ++ txt "x\" ++ q ++ txt "y\\" ++ q ++ txt " i]:not([B], :is([C], :where([d-1])))".
Proof.
  split; [vm_compute; intuition discriminate|]. eexists. eexists.
  split; [vm_compute; reflexivity|]. split; vm_compute; reflexivity.
Qed.
