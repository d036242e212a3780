(** What a link reference means, independent of the search in the model. *)
From Verif Require Import Prelude Selectors_Model Selectors_Spec SelectorParse_Model LinkRef_Model.

Definition toron_ext : text := txt ".toron".

(** Three ways for a reference to mention a link. *)
Definition by_id (ref : text) (k : link) : Prop := k_other k = ref.
Definition by_file (ref : text) (k : link) : Prop :=
  k_hint k = Some ref \/
  (~ exists stem, ref = stem ++ toron_ext) /\ k_hint k = Some (ref ++ toron_ext).
Definition by_prefix (ref : text) (k : link) : Prop :=
  (7 <= length ref)%nat /\ exists rest, k_other k = ref ++ rest.

(** Ids win over file names, file names win over prefixes. *)
Definition mentions (links : list link) (ref : text) (k : link) : Prop :=
  In k links /\
  (by_id ref k \/
   (forall x, In x links -> ~ by_id ref x) /\
   (by_file ref k \/
    (forall x, In x links -> ~ by_file ref x) /\ by_prefix ref k)).

Definition one_source (links : list link) (ref : text) : Prop :=
  forall x y, mentions links ref x -> mentions links ref y -> k_other x = k_other y.

(** The link meant by a reference and an optional name. *)
Definition meant (links : list link) (ref : text) (name : option text) (allow_default : bool)
  (k : link) : Prop :=
  ref <> [] /\ one_source links ref /\ mentions links ref k /\
  match name with
  | Some (c :: n) => k_name k = c :: n
  | _ => (forall x, mentions links ref x -> x = k) \/ (allow_default = true /\ k_default k = true)
  end.

(** Guaranteed by the table's UNIQUE constraints and primary key (see C30). *)
Definition link_table (links : list link) : Prop :=
  NoDup (map k_id links) /\
  (forall x y, In x links -> In y links -> k_other x = k_other y -> k_name x = k_name y -> x = y) /\
  (forall x y, In x links -> In y links -> k_other x = k_other y ->
     k_default x = true -> k_default y = true -> x = y).

(** Links of the space [uid] whose recorded hash is current. *)
Definition current (links : list link) (uid : text) (h : list Z) (k : link) : Prop :=
  In k links /\ k_other k = uid /\ k_hash k = Some h.
Definition eligible (links : list link) (uid : text) (h : list Z) (k : link) : Prop :=
  current links uid h k /\ k_complete k = true /\ k_selectors k <> [].
