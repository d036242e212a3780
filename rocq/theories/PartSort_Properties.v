(** C44: partition definitions are displayed completely and in order. *)
From Coq Require Import Ascii String Sorting.Sorted Sorting.Permutation.
From Verif Require Import Prelude Selectors_Model Selectors_Proofs PartSort_Model PartSort_Spec PartSort_Proofs.
Local Open Scope nat_scope.
Local Open Scope list_scope.

(** What is displayed is a rearrangement of what was given, with the whole space if it is missing; each
    definition is shown as its labels in label order; of two definitions the one comes first that
    has the first label on which they differ. *)
Theorem C44_display definitions labels : NoDup labels -> Forall (fun d => NoDup d /\ incl d labels) definitions ->
  exists todo order, displayed definitions labels todo /\ Permutation order todo /\
    StronglySorted (fun a b => before_def labels a b \/ agree_on labels a b) order /\
    sort_partition_definitions definitions labels = Ok (map (shown labels) order).
Proof. exact (display definitions labels). Qed.
Print Assumptions C44_display.

Theorem C44_whole_first definitions labels : NoDup labels -> labels <> [] -> Forall (fun d => NoDup d /\ incl d labels) definitions ->
  exists rest, sort_partition_definitions definitions labels = Ok (labels :: rest).
Proof. exact (whole_first definitions labels). Qed.
Print Assumptions C44_whole_first.

(** Each definition as often as it was given. *)
Theorem C44_as_often definitions labels out d (same : list text -> bool) :
  NoDup labels -> Forall (fun d => NoDup d /\ incl d labels) definitions -> incl d labels -> ~ same_set d labels ->
  (forall x, same x = true <-> same_set x d) -> sort_partition_definitions definitions labels = Ok out ->
  count_occ (list_eq_dec text_dec) out (shown labels d) = length (filter same definitions).
Proof.
  intros N F I Nw Hs E. pose proof (counts definitions labels out d same N F I Hs E) as C. unfold defs_dec in C. rewrite C. destruct (same labels) eqn:B; [|lia].
  exfalso. apply Hs in B. apply Nw. intro x. symmetry. apply B.
Qed.
Print Assumptions C44_as_often.
(** The whole space as often as it was given, and once if it was not. *)
Theorem C44_whole_once definitions labels out (same : list text -> bool) :
  NoDup labels -> labels <> [] -> Forall (fun d => NoDup d /\ incl d labels) definitions ->
  (forall x, same x = true <-> same_set x labels) -> sort_partition_definitions definitions labels = Ok out ->
  count_occ (list_eq_dec text_dec) out labels = Nat.max 1 (length (filter same definitions)).
Proof.
  intros N Ne F Hs E. pose proof (counts definitions labels out labels same N F (fun x H => H) Hs E) as C.
  rewrite shown_whole in C by (intro x; tauto). unfold defs_dec in C. rewrite C. rewrite (proj2 (Hs labels)) by (intro x; tauto).
  destruct (existsb same definitions) eqn:X; cbn [negb].
  - apply existsb_exists in X. destruct X as (d & I & B). assert (H : In d (filter same definitions)) by (apply filter_In; auto).
    destruct (filter same definitions); [destruct H | cbn [length]; lia].
  - assert (H : filter same definitions = []).
    { destruct (filter same definitions) as [|d l] eqn:G; [reflexivity|]. assert (H : In d (filter same definitions)) by (rewrite G; left; reflexivity).
      apply filter_In in H. assert (existsb same definitions = true) by (apply existsb_exists; eauto). congruence. }
    rewrite H. destruct labels; [congruence | reflexivity].
Qed.
Print Assumptions C44_whole_once.

(** It raises exactly if a definition mentions an unknown label, and then a [ValueError]; otherwise there
    is a result. *)
Theorem C44_raises definitions labels :
  (sort_partition_definitions definitions labels = Err ValueError <-> exists d x, In d definitions /\ In x d /\ ~ In x labels) /\
  ((exists out, sort_partition_definitions definitions labels = Ok out) <-> Forall (fun d => incl d labels) definitions).
Proof. exact (raises definitions labels). Qed.
Print Assumptions C44_raises.

(** Neither the order of the definitions nor the order in which Python iterates over a set matters. *)
Theorem C44_canonical defs1 defs2 labels perm : NoDup labels -> Forall (fun d => NoDup d /\ incl d labels) defs1 -> Forall (fun d => NoDup d /\ incl d labels) defs2 ->
  Permutation perm defs1 -> Forall2 same_set perm defs2 -> sort_partition_definitions defs1 labels = sort_partition_definitions defs2 labels.
Proof. exact (canonical defs1 defs2 labels perm). Qed.
Print Assumptions C44_canonical.

(** *** Non-vacuity *)
Definition ex_labels : list text := [txt "state"; txt "county"; txt "town"].
Definition ex_defs : list (list text) := [[txt "town"; txt "state"]; []; [txt "county"; txt "state"]; [txt "town"; txt "state"]].
Example C44_ex : sort_partition_definitions ex_defs ex_labels =
  Ok [ex_labels; [txt "state"; txt "county"]; [txt "state"; txt "town"]; [txt "state"; txt "town"]; []].
Proof. vm_compute. reflexivity. Qed.
Example C44_ex_hypotheses : NoDup ex_labels /\ Forall (fun d => NoDup d /\ incl d ex_labels) ex_defs.
Proof.
  assert (N : NoDup ex_labels).
  { unfold ex_labels. repeat constructor; cbn [In]; intro H; repeat destruct H as [H|H]; try exact H; revert H; vm_compute; discriminate. }
  split; [exact N|]. unfold ex_defs, ex_labels. repeat apply Forall_cons; try apply Forall_nil; split;
    try (repeat constructor; cbn [In]; intro H; repeat destruct H as [H|H]; try exact H; revert H; vm_compute; discriminate);
    intros x H; repeat destruct H as [<-|H]; cbn; auto; destruct H.
Qed.
Example C44_ex_raises : sort_partition_definitions [[txt "state"]; [txt "block"]] ex_labels = Err ValueError.
Proof. vm_compute. reflexivity. Qed.

(** *** Finding: the list of the caller is changed by the call, the whole space is added to it. *)
Theorem C44_argument_kept_refuted : exists definitions labels, NoDup labels /\ Forall (fun d => NoDup d /\ incl d labels) definitions /\
  definitions_after definitions labels <> definitions.
Proof.
  exists ex_defs, ex_labels. split; [apply C44_ex_hypotheses|]. split; [apply C44_ex_hypotheses|]. intro H. apply (f_equal (@length _)) in H. revert H. vm_compute. discriminate.
Qed.
Print Assumptions C44_argument_kept_refuted.
(** At least a second call changes nothing more and gives the same. *)
Theorem C44_second_call definitions labels :
  definitions_after (definitions_after definitions labels) labels = definitions_after definitions labels /\
  sort_partition_definitions (definitions_after definitions labels) labels = sort_partition_definitions definitions labels.
Proof. split; [apply again|]. unfold sort_partition_definitions. rewrite again. reflexivity. Qed.
Print Assumptions C44_second_call.
