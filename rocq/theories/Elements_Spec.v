(** C45, C53: what an export of a link's mappings must contain. *)
From Verif Require Import Prelude BitFlags_Spec Selectors_Model LinkRef_Model IndexCode_Model Db_Model Db_Spec Elements_Model.
Local Open Scope nat_scope.

(** The link of the target database [trg] named [name] to the space [src_id]. *)
Definition the_link (name src_id : text) (trg : db) (k : link) : Prop :=
  In k (d_links trg) /\ k_other k = src_id /\ k_name k = name.

Definition of_link (k : link) (trg : db) (m : mapping) : Prop := In m (d_maps trg) /\ m_link m = k_id k.
Definition mapped_target (k : link) (trg : db) (i : Z) : Prop := exists m, of_link k trg m /\ m_index m = i.
Definition mapped_source (k : link) (trg : db) (o : Z) : Prop := exists m, of_link k trg m /\ m_other m = o.

Definition shown (m : mapping) : element := (Some (m_other m), Some (m_index m), Some (m_level m), Some (m_value m)).
Definition lone_target (i : Z) : element := (None, Some i, None, None).
Definition lone_source (o : Z) : element := (Some o, None, None, None).
Definition undefined_pair : element := (Some 0%Z, Some 0%Z, None, Some 0%Q).

(** The whole export: the pair of the undefined records; the mappings of the link, each once; target
    records without a mapping if the link is not marked complete; source records without a mapping if
    the ids of the source are not those recorded with the link. *)
Definition exported (k : link) (src trg : db) (els : list element) : Prop :=
  exists ms rs ls,
    els = undefined_pair :: map shown ms ++ map lone_target rs ++ map lone_source ls /\
    (NoDup ms /\ forall m, In m ms <-> of_link k trg m) /\
    (NoDup rs /\ forall i, In i rs <-> k_complete k = false /\ defined trg i /\ ~ mapped_target k trg i) /\
    (NoDup ls /\ forall o, In o ls <-> k_hash k <> Some (d_hash src) /\ defined src o /\ ~ mapped_source k trg o).

(** Both sides of an element. *)
Definition el_source (e : element) : option Z := fst (fst (fst e)).
Definition el_target (e : element) : option Z := snd (fst (fst e)).

(** *** The CSV output *)

(** The labels shown for a record; none if the record does not exist. *)
Definition labels_of (s : db) (i : option Z) (labels : list (option text)) : Prop :=
  match i with
  | Some i => (exists r, In r (d_index s) /\ ix_id r = i /\ labels = map Some (ix_labels r)) \/
              (~ has_index s i /\ labels = map (fun _ => None) (d_labels s))
  | None => labels = map (fun _ => None) (d_labels s)
  end.
(** The code shown for a record: one that reads back as its id. *)
Definition code_of (bytes : list N) (i : option Z) (code : option text) : Prop :=
  match i, code with
  | Some i, Some t => forall todecimal, index_code_to_id todecimal t bytes = Ok i
  | None, None => True
  | _, _ => False
  end.
Definition row_of (src trg : db) (src_bytes trg_bytes : list N) (e : element) (r : out_row) : Prop :=
  code_of src_bytes (el_source e) (r_src_code r) /\ labels_of src (el_source e) (r_src_labels r) /\
  code_of trg_bytes (el_target e) (r_trg_code r) /\ labels_of trg (el_target e) (r_trg_labels r) /\
  r_value r = snd e.

(** [n] elements of the list have the property. *)
Inductive counted {A} (P : A -> Prop) : list A -> nat -> Prop :=
| counted_nil : counted P [] 0
| counted_yes a l n : P a -> counted P l n -> counted P (a :: l) (S n)
| counted_no a l n : ~ P a -> counted P l n -> counted P (a :: l) n.

(** *** C53: the ambiguous fields *)

(** The names of the columns that do not belong to the level, in order. *)
Fixpoint outside (n : nat) (names : list text) (level : list N) : list text :=
  match names with
  | [] => []
  | c :: names' => if byte_bit level n then outside (S n) names' level else c :: outside (S n) names' level
  end.
