(** Specification vocabulary for C01-C03, independent of the model's helpers. *)
From Verif Require Import Prelude.

(** Two lists denote the same set of labels. *)
Definition same_set (a b : list string) : Prop := forall x, In x a <-> In x b.

(** [s] is the union of some sub-collection of [defs] (the empty sub-collection
    gives the empty set). *)
Definition union_of (defs : list (list string)) (s : list string) : Prop :=
  exists sub, incl sub defs /\ forall x, In x s <-> exists d, In d sub /\ In x d.

(** [s] is a member of the collection [l], sets compared by their elements. *)
Definition member (s : list string) (l : list (list string)) : Prop :=
  exists t, In t l /\ same_set t s.

(** No set is listed twice. *)
Inductive all_distinct : list (list string) -> Prop :=
| ad_nil : all_distinct []
| ad_cons s l : ~ member s l -> all_distinct l -> all_distinct (s :: l).

(** [d] cannot be written as the union of members of [defs] other than itself. *)
Definition irreducible (defs : list (list string)) (d : list string) : Prop :=
  ~ exists sub, incl sub defs /\ (forall e, In e sub -> ~ same_set e d) /\
                forall x, In x d <-> exists e, In e sub /\ In x e.
