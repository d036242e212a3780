(** Specification for C44. *)
From Coq Require Import Sorting.Sorted Sorting.Permutation.
From Verif Require Import Prelude Selectors_Model.
Local Open Scope nat_scope.

Definition same_set (a b : list text) : Prop := forall x, In x a <-> In x b.
Definition text_dec : forall a b : text, {a = b} + {a <> b} := list_eq_dec N.eq_dec.
(** How a definition is shown: the labels of the space that it contains, in the order of the labels. *)
Definition shown (labels d : list text) : list text :=
  filter (fun x => if in_dec text_dec x d then true else false) labels.
(** [a] comes before [b]: they agree about some first labels, the next label is only in [a]. *)
Definition before_def (labels a b : list text) : Prop :=
  exists first x others, labels = first ++ x :: others /\ (forall y, In y first -> (In y a <-> In y b)) /\ In x a /\ ~ In x b.
Definition agree_on (labels a b : list text) : Prop := forall y, In y labels -> (In y a <-> In y b).
(** What has to be displayed: what is given, and the whole space unless there is none or it is given. *)
Definition displayed (definitions : list (list text)) (labels : list text) (todo : list (list text)) : Prop :=
  (todo = definitions /\ (labels = [] \/ exists d, In d definitions /\ same_set d labels)) \/
  (exists whole, todo = definitions ++ [whole] /\ same_set whole labels /\ NoDup whole /\ labels <> [] /\ forall d, In d definitions -> ~ same_set d labels).
