(** C57: the description of an edge. *)
From Coq Require Import NArith.
From Verif Require Import Prelude Selectors_Model Selectors_Proofs Streams_Model EdgeText_Model EdgeText_Spec EdgeText_Proofs EdgeText_Proofs2.
From Coq Require Import Ascii String List.
Local Open Scope list_scope.
Local Open Scope N_scope.

(** Every description is read as what it says, whatever the white space between its parts. *)
Theorem C57_read s e : describes s e -> tidy e -> parse_edge_shorthand s = Some e.
Proof. exact (parse_tidy s e). Qed.
Print Assumptions C57_read.

(** What is read was written: the parts stand in the text in this order, and have no white space at their ends unless they
    are nothing but white space. *)
Theorem C57_sound s e : parse_edge_shorthand s = Some e -> describes s e /\
  (trimmed (e_name e) \/ lone (e_name e)) /\ (trimmed (e_file1 e) \/ lone (e_file1 e)) /\ (trimmed (e_file2 e) \/ lone (e_file2 e)).
Proof. exact (parse_describes s e). Qed.
Print Assumptions C57_sound.

(** Only texts that are no description are not read. *)
Theorem C57_none s : parse_edge_shorthand s = None <-> forall e, ~ describes s e.
Proof. exact (parse_none s). Qed.
Print Assumptions C57_none.

(** The value column of mapping data is the first whose header is the name of the link or describes an edge of that name. *)
Definition names_link (link c : text) : Prop := c = link \/ exists e, describes c e /\ e_name e = link.
Theorem C57_value_column link columns i : trimmed link ->
  (get_mapping_value_position shorthand_name (map CText columns) link = Ok i <->
   exists pre c post, columns = pre ++ c :: post /\ List.length pre = i /\ names_link link c /\ forall c', In c' pre -> ~ names_link link c').
Proof.
  intros Tl. unfold get_mapping_value_position.
  assert (Named : forall c, In c columns ->
    (text_eqb link c || match shorthand_name c with Some n => text_eqb link n | None => false end = true <-> names_link link c)).
  { intros c Hc. unfold names_link, shorthand_name. rewrite orb_true_iff. split.
    - intros [E|E]; [left; symmetry; now apply text_eqb_iff|]. right. destruct (parse_edge_shorthand c) as [e|] eqn:P; [|discriminate].
      apply text_eqb_iff in E. destruct (C57_sound c e P) as (De & _). exists e. split; auto.
    - intros [->|(e & De & E)]; [left; apply text_eqb_refl|]. right. destruct (parse_edge_shorthand c) as [e'|] eqn:P.
      + destruct (C57_sound c e' P) as (De' & T' & _). apply text_eqb_iff. rewrite <- E. apply (name_unique c); auto. now rewrite E.
      + exfalso. exact (proj1 (C57_none c) P e De). }
  clear Tl. assert (G : forall k, value_position_from shorthand_name k (map CText columns) link = Ok i <->
    exists pre c post, columns = pre ++ c :: post /\ (k + List.length pre = i)%nat /\ names_link link c /\ forall c', In c' pre -> ~ names_link link c').
  { induction columns as [|c columns IH]; intros k; cbn [map value_position_from].
    - split; [discriminate|]. intros (pre & c & post & E & _). destruct pre; discriminate.
    - destruct (text_eqb link c || match shorthand_name c with Some n => text_eqb link n | None => false end) eqn:B.
      + assert (Nc : names_link link c) by (apply Named; [now left|exact B]). split.
        * intros [= <-]. exists [], c, columns. split; [reflexivity|]. split; [apply Nat.add_0_r|]. split; [exact Nc|intros ? []].
        * intros (pre & c' & post & E & L & _ & F). destruct pre as [|p pre]; cbn [List.length] in *; [rewrite Nat.add_0_r in L; now subst|].
          cbn [app] in E. injection E as <- _. exfalso. exact (F c (or_introl eq_refl) Nc).
      + rewrite (IH (fun x Hx => Named x (or_intror Hx)) (S k)). assert (Nc : ~ names_link link c) by (intros Q; apply Named in Q; [congruence|now left]). split.
        * intros (pre & x & post & -> & L & Nx & F). exists (c :: pre), x, post. cbn [List.length]. split; [reflexivity|]. split; [lia|]. split; [exact Nx|].
          intros z [<-|Hz]; auto.
        * intros (pre & x & post & E & L & Nx & F). destruct pre as [|p pre]; cbn [app] in E; injection E as E1 E2; [exfalso; apply Nc; now rewrite E1|].
          exists pre, x, post. cbn [List.length] in L. split; [exact E2|]. split; [lia|]. split; [exact Nx|]. intros z Hz. apply F. now right. }
  rewrite (G 0%nat). reflexivity.
Qed.
Print Assumptions C57_value_column.

Definition pop_edge : edge := {| e_name := txt "population"; e_file1 := txt "my node-1"; e_direction := txt "-->"; e_file2 := txt "node2";
  e_selector := Some (txt "[a=b]"%string) |}.
Ltac trims := split; [intros c y Q; vm_compute in Q; injection Q as <- _; reflexivity|
  intros c y Q; apply (f_equal (@rev N)) in Q; rewrite rev_unit in Q; vm_compute in Q; injection Q as <- _; reflexivity].
Example C57_case :
  describes (txt " population :my node-1  --> node2 : [a=b] ") pop_edge /\ tidy pop_edge /\
  parse_edge_shorthand (txt " population :my node-1  --> node2 : [a=b] ") = Some pop_edge /\
  parse_edge_shorthand (txt "population: node1 <-> node2 :") =
    Some {| e_name := txt "population"; e_file1 := txt "node1"; e_direction := txt "<->"; e_file2 := txt "node2"; e_selector := None |} /\
  parse_edge_shorthand (txt "population: node1 --> node2 --> node3") = None /\
  parse_edge_shorthand (txt "population: node1-->node2") = None /\
  get_mapping_value_position shorthand_name (map CText [txt "code"; txt "population: a <-- b"; txt "population"]) (txt "population") = Ok 1%nat.
Proof.
  assert (P : parse_edge_shorthand (txt " population :my node-1  --> node2 : [a=b] ") = Some pop_edge) by (vm_compute; reflexivity).
  split; [apply (C57_sound _ _ P)|]. split; [split; [|split]; trims|]. split; [exact P|].
  split; [vm_compute; reflexivity|]. split; [vm_compute; reflexivity|]. split; vm_compute; reflexivity.
Qed.

(** Finding: names that are nothing but white space are accepted: the description of an edge without names is one. *)
Theorem C57_blank_names_refuted : exists s e, parse_edge_shorthand s = Some e /\ blank (e_name e) /\ blank (e_file1 e) /\ blank (e_file2 e).
Proof. exists (txt " :  ->  "). eexists. split; [vm_compute; reflexivity|]. split; [|split]; repeat constructor. Qed.
Print Assumptions C57_blank_names_refuted.
