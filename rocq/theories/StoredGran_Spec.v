(** What the stored granularities must be. *)
From Verif Require Import Prelude Selectors_Model LinkRef_Model Db_Model Db_Spec Granularity_Model Granularity_Spec StoredGran_Model.
From Coq Require Import Reals.

(** The records other than the undefined one. *)
Definition known (d : db) (r : ixrec) : Prop := In r (d_index d) /\ ix_id r <> 0%Z.
(** Two records have the same labels in the columns that are marked. *)
Definition alike (bits : list bool) (r r' : ixrec) : Prop :=
  forall n, nth_error bits n = Some true -> nth_error (ix_labels r) n = nth_error (ix_labels r') n.
(** The classes into which the marked columns divide the known records. *)
Record classes (d : db) (bits : list bool) (bs : list (list ixrec)) : Prop := {
  cl_some : forall b, In b bs -> b <> [];
  cl_all : forall r, In r (concat bs) <-> known d r;
  cl_once : NoDup (concat bs);
  cl_alike : forall b r r', In b bs -> In r b -> In r' (concat bs) -> (In r' b <-> alike bits r r')
}.

(** The granularity of a row is right: none if no column is marked or no record is known, and else
    the entropy of the classes. *)
Definition right (d : db) (r : srow) : Prop :=
  match snd r with
  | None => (forall n, nth_error (fst r) n <> Some true) \/ (forall x, ~ known d x)
  | Some g => (exists n, nth_error (fst r) n = Some true) /\ (exists x, known d x) /\
              forall bs, classes d (fst r) bs -> g = entropy bs
  end.
Definition all_right (s : gspace) : Prop := Forall (right (gs_db s)) (gs_rows s).

(** Calls that neither replace labels while inserting nor drop label columns. *)
Definition careful (o : gop) : Prop :=
  match o with
  | GDb (OInsertIndex _ _ PReplace _ _) => False
  | GDropColumns _ _ => False
  | _ => True
  end.

(** The call changed which records there are, or which partitions. *)
Definition changes (o : gop) (s s' : gspace) : Prop :=
  (exists i, (has_index (gs_db s) i /\ ~ has_index (gs_db s') i) \/ (~ has_index (gs_db s) i /\ has_index (gs_db s') i)) \/
  match o with GPartition _ | GAddColumns _ _ => True | _ => False end.
(** It changed the labels of a record through update_index. *)
Definition relabels (o : gop) (s s' : gspace) : Prop :=
  match o with GDb (OUpdateIndex _ _) => d_index (gs_db s) <> d_index (gs_db s') | _ => False end.

(** The marks of a set of label columns. *)
Definition marks (d : db) (pdef : list text) (bits : list bool) : Prop :=
  length bits = length (d_labels d) /\
  forall n c, nth_error (d_labels d) n = Some c -> (nth_error bits n = Some true <-> In c pdef).
