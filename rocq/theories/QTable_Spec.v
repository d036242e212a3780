(** C75: what a table of quantities must show. *)
From Verif Require Import Prelude Selectors_Model LinkRef_Model Db_Model Db_Spec Reader_Model Mapper_Model Quantity_Model
  Quantity_Spec QTable_Model.

(** The cell for the attribute [k] of a group. *)
Definition attribute_cell (g : agroup) (k : text) (c : qcell) : Prop :=
  (exists v, In (k, v) (ag_attrs g) /\ c = QcText v) \/ ((forall v, ~ In (k, v) (ag_attrs g)) /\ c = QcNone).

(** A row tells of a quantity: the domain if there is one, the labels of its location, the values of the attribute columns,
    the number. *)
Definition tells (s : store) (cols : list text) (x : quantity) (row : list qcell) : Prop :=
  exists l g attrs, In l (s_locs s) /\ l_id l = qt_loc x /\ In g (s_attrs s) /\ ag_id g = qt_attr x /\
    Forall2 (attribute_cell g) cols attrs /\
    row = match s_domain s with [] => [] | d => [QcText d] end ++ map QcText (l_labels l) ++ attrs ++ [QcNum (qt_value x)].

(** The rows tell of the quantities located at [P], each once. *)
Definition tells_all (s : store) (cols : list text) (P : location -> Prop) (rows : list (list qcell)) : Prop :=
  exists xs, NoDup xs /\
    (forall x, In x xs <-> In x (s_quants s) /\ exists l, In l (s_locs s) /\ l_id l = qt_loc x /\ P l) /\
    Forall2 (tells s cols) xs rows.

(** The names of the columns. *)
Definition names_of (s : store) (cols : list text) : list qcell :=
  match s_domain s with [] => [] | _ => [QcText (txt "domain")] end ++ map QcText (d_labels (s_db s)) ++
  map QcText cols ++ [QcText (txt "quantity")].

(** A whole table: no exception, the names first, all rows as long as they, and then the quantities at [P]. *)
Definition shows (s : store) (cols : list text) (P : location -> Prop) (t : table) : Prop :=
  snd t = None /\ exists rows, fst t = names_of s cols :: rows /\
    (forall row, In row rows -> length row = length (names_of s cols)) /\ tells_all s cols P rows.

(** The columns are all names of attributes in use. *)
Definition names_in_use (s : store) (cols : list text) : Prop :=
  NoDup cols /\ forall k, In k cols <-> exists g v, In g (s_attrs s) /\ In (k, v) (ag_attrs g).

(** Some quantity is located at [P]. *)
Definition some_at (s : store) (P : location -> Prop) : Prop :=
  exists x l, In x (s_quants s) /\ In l (s_locs s) /\ l_id l = qt_loc x /\ P l.

(** Every quantity at [P] has its attribute group. *)
Definition grouped (s : store) (P : location -> Prop) : Prop :=
  forall x l, In x (s_quants s) -> In l (s_locs s) -> l_id l = qt_loc x -> P l ->
    exists g, In g (s_attrs s) /\ ag_id g = qt_attr x.
(** A table ends with a KeyError exactly if a quantity at [P] has no group. *)
Definition ends (s : store) (P : location -> Prop) (t : table) : Prop :=
  (snd t = None <-> grouped s P) /\ (snd t = None \/ snd t = Some KeyError).
