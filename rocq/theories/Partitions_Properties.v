(** Property theorems C01, C02, C03. *)
From Verif Require Import Prelude Partitions_Model Partitions_Spec Partitions_Proofs.
From Coq Require Import Permutation.
Open Scope string_scope.

(** C01. A set belongs to the structure exactly when it is a union of some of the
    definitions; nothing is listed twice; the empty set is first; unions stay inside. *)
Theorem C01_structure_is_all_unions : forall defs : list (list string),
  (forall s, member s (make_structure defs) <-> union_of defs s) /\
  all_distinct (make_structure defs) /\
  (exists rest, make_structure defs = [] :: rest) /\
  (forall a b, member a (make_structure defs) -> member b (make_structure defs) ->
               member (a ++ b) (make_structure defs)).
Proof.
  exact (fun defs => conj (member_structure_union defs)
    (conj (make_structure_distinct defs)
      (conj (make_structure_head defs) (make_structure_closed defs)))).
Qed.
Print Assumptions C01_structure_is_all_unions.

(** The docstring example of partitions.py. *)
Example C01_example :
  make_structure [["A"]; ["B"]; ["B"; "C"]]
  = [[]; ["A"]; ["B"]; ["B"; "C"]; ["A"; "B"]; ["A"; "B"; "C"]].
Proof. vm_compute. reflexivity. Qed.

(** C02. Kept definitions: exactly the inputs that are not unions of other inputs;
    listed once each; generating the same unions; and no other collection generating
    the same unions is smaller.  Order of the inputs is irrelevant. *)
Theorem C02_minimal_generating_set : forall bases : list (list (list string)),
  incl (find_minimal bases) (concat bases) /\
  (forall d, member d (find_minimal bases) <->
             member d (concat bases) /\ irreducible (concat bases) d) /\
  all_distinct (find_minimal bases) /\
  (forall s, union_of (find_minimal bases) s <-> union_of (concat bases) s) /\
  (forall G, (forall s, union_of G s <-> union_of (concat bases) s) ->
             length (find_minimal bases) <= length G).
Proof.
  exact (fun bases => conj (mi_incl _ _ (find_minimal_inv bases))
   (conj (find_minimal_member bases)
    (conj (mi_distinct _ _ (find_minimal_inv bases))
     (conj (find_minimal_generates bases) (find_minimal_smallest bases))))).
Qed.
Print Assumptions C02_minimal_generating_set.

Theorem C02_order_independent : forall bases bases' d,
  Permutation (concat bases) (concat bases') ->
  member d (find_minimal bases) <-> member d (find_minimal bases').
Proof. exact find_minimal_perm. Qed.
Print Assumptions C02_order_independent.

Example C02_example :
  find_minimal [[["A"]; ["B"]; ["B"; "C"]]; [["A"; "C"]; ["C"]; ["C"; "D"]]]
  = [["A"]; ["B"]; ["C"]; ["C"; "D"]].
Proof. vm_compute. reflexivity. Qed.

(** The docstring promises the smallest possible list whose unions cover every given
    definition.  Read literally (new definitions allowed) that is false: six pairs
    over four labels are covered by the four singletons. *)
Theorem C02_smallest_cover_refuted :
  exists (bases : list (list (list string))) (G : list (list string)),
    (forall d, In d (concat bases) -> union_of G d) /\
    length G < length (find_minimal bases).
Proof.
  exists [[["1";"2"]; ["1";"3"]; ["1";"4"]; ["2";"3"]; ["2";"4"]; ["3";"4"]]],
         [["1"]; ["2"]; ["3"]; ["4"]].
  split.
  - intros d Hd. apply member_structure_union, lset_in_iff.
    cbn in Hd. repeat (destruct Hd as [<-|Hd]; [vm_compute; reflexivity|]). destruct Hd.
  - vm_compute. repeat constructor.
Qed.
Print Assumptions C02_smallest_cover_refuted.

(** C03. Starting from a space with label columns, every history of calls keeps the
    stored definitions distinct, irredundant, made of existing labels, and generating
    the whole space. *)
Theorem C03_history_invariant : forall cols ops,
  cols <> [] ->
  let s := prun {| p_columns := cols; p_defs := Some [cols] |} ops in
  p_columns s = cols /\
  all_distinct (get_all_defs s) /\
  (forall d, In d (get_all_defs s) -> irreducible (get_all_defs s) d) /\
  (forall d x, In d (get_all_defs s) -> In x d -> In x cols) /\
  member cols (make_structure (get_all_defs s)).
Proof. exact history_invariant. Qed.
Print Assumptions C03_history_invariant.

(** C03. Exactly which calls are accepted, and what the structure is afterwards. *)
Theorem C03_add_one_accepted_iff : forall s d,
  p_good s ->
  (exists s', pcall s (PAddOne d) = Ok s') <->
  (incl d (p_columns s) /\ ~ union_of (get_all_defs s) d).
Proof. exact add_one_accepts. Qed.
Print Assumptions C03_add_one_accepted_iff.

Theorem C03_add_many_accepted_iff : forall s d ds,
  p_good s ->
  (exists s', pcall s (PAddMany d ds) = Ok s') <->
  (forall e, In e (d :: ds) -> incl e (p_columns s)).
Proof. exact add_many_accepts. Qed.
Print Assumptions C03_add_many_accepted_iff.

Theorem C03_drop_accepted_iff : forall s d ds,
  p_good s ->
  (exists s', pcall s (PDrop d ds) = Ok s') <-> ~ member (p_columns s) (d :: ds).
Proof. exact drop_accepts. Qed.
Print Assumptions C03_drop_accepted_iff.

Theorem C03_effect : forall s o s',
  p_good s -> pcall s o = Ok s' ->
  forall u, member u (make_structure (get_all_defs s')) <->
    union_of match o with
             | PAddMany d ds => (d :: ds) ++ get_all_defs s
             | PAddOne d => d :: get_all_defs s
             | PDrop d ds =>
                 filter (fun x => negb (lset_in x (d :: ds))) (get_all_defs s)
                 ++ [p_columns s]
             end u.
Proof.
  exact (fun s o s' Hg Hc u =>
    iff_trans (member_structure_union _ u) (pcall_effect s o s' Hg Hc u)).
Qed.
Print Assumptions C03_effect.

Example C03_example :
  let s := prun {| p_columns := ["A"; "B"; "C"]; p_defs := Some [["A"; "B"; "C"]] |}
             [PAddMany ["A"] [["B"]; ["A"; "B"]]; PAddOne ["C"]; PDrop ["C"] [];
              PDrop ["C"; "B"; "A"] []; PAddOne ["Z"]] in
  get_all_defs s = [["A"]; ["B"]; ["A"; "B"; "C"]] /\ p_good s.
Proof. split; [vm_compute; reflexivity|]. apply prun_good, initial_good. discriminate. Qed.
