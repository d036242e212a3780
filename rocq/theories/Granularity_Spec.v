(** What granularity must be. *)
From Verif Require Import Prelude Selectors_Model LinkRef_Model Db_Model Db_Spec.
From Coq Require Import Reals Permutation.

(** [r] carries the label [v] in the column [c]. *)
Definition labelled (s : db) (r : ixrec) (c v : text) : Prop :=
  exists n, nth_error (d_labels s) n = Some c /\ nth_error (ix_labels r) n = Some v.
(** Two records fall in the same block. *)
Definition same_block (s : db) (cols : list text) (r r' : ixrec) : Prop :=
  forall c v, In c cols -> (labelled s r c v <-> labelled s r' c v).
(** The records other than the undefined one. *)
Definition defined (s : db) (r : ixrec) : Prop := In r (d_index s) /\ ix_id r <> 0%Z.

(** The blocks into which the columns split the records: none is empty, each record that is
    defined is in one, and records are in the same block if they carry the same labels. *)
Record blocks (s : db) (cols : list text) (bs : list (list ixrec)) : Prop := {
  bl_some : forall b, In b bs -> b <> [];
  bl_all : forall r, In r (concat bs) <-> defined s r;
  bl_once : NoDup (concat bs);
  bl_same : forall b r r', In b bs -> In r b -> In r' (concat bs) -> (In r' b <-> same_block s cols r r')
}.

(** Shannon entropy, in bits, of drawing a record and noting its block. *)
Definition bits_of (x : R) : R := (ln x / ln 2)%R.
Definition Rsum (l : list R) : R := fold_right Rplus 0%R l.
Definition entropy (bs : list (list ixrec)) : R :=
  let n := INR (length (concat bs)) in
  Rsum (map (fun b => (INR (length b) / n) * bits_of (n / INR (length b)))%R bs).
