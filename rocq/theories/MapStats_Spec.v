(** C56: what the statistics about a link's mappings must tell. *)
From Verif Require Import Prelude Selectors_Model LinkRef_Model Db_Model Db_Spec Elements_Spec.
Local Open Scope Z_scope.

(** The number of the ids with this property is [n]. *)
Definition how_many (P : Z -> Prop) (n : Z) : Prop := exists l, NoDup l /\ (forall i, In i l <-> P i) /\ Z.of_nat (length l) = n.

(** The undefined records always belong to each other; other records are matched by a mapping. *)
Definition matched_source (k : link) (src trg : db) (o : Z) : Prop := has_index src o /\ (o = 0 \/ mapped_source k trg o).
Definition missing_source (k : link) (src trg : db) (o : Z) : Prop := defined src o /\ ~ mapped_source k trg o.
(** Sources of mappings that do not exist (any more). *)
Definition stale_source (k : link) (src trg : db) (o : Z) : Prop := 0 < o /\ mapped_source k trg o /\ ~ has_index src o.
Definition matched_target (k : link) (trg : db) (i : Z) : Prop := has_index trg i /\ (i = 0 \/ mapped_target k trg i).
Definition missing_target (k : link) (trg : db) (i : Z) : Prop := defined trg i /\ ~ mapped_target k trg i.

(** The mapping matches both sides. *)
Definition clean (k : link) (src trg : db) : Prop :=
  (forall o, defined src o -> mapped_source k trg o) /\ (forall o, mapped_source k trg o -> has_index src o) /\
  (forall i, defined trg i -> mapped_target k trg i).
(** All sources are proper ids (C50 has a case with others). *)
Definition proper_sources (k : link) (trg : db) : Prop := forall o, mapped_source k trg o -> 0 <= o.
