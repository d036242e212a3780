(** What the quantity tables must look like and what the operations must do to them,
    independent of ids and of the operations. *)
From Verif Require Import Prelude BitFlags_Model BitFlags_Spec Selectors_Model LinkRef_Model Db_Model Db_Spec
  Reader_Model Reader_Spec Mapper_Model Mapper_Spec Quantity_Model.

(** The tables: distinct ids, one location per tuple of labels, one group per attribute
    dictionary, at most one quantity per location and group. *)
Record store_wf (s : store) : Prop := {
  sw_loc_ids : NoDup (map l_id (s_locs s));
  sw_locs : forall x y, In x (s_locs s) -> In y (s_locs s) -> l_labels x = l_labels y -> x = y;
  sw_arity : forall l, In l (s_locs s) -> length (l_labels l) = length (d_labels (s_db s));
  sw_group_ids : NoDup (map ag_id (s_attrs s));
  sw_groups : forall x y, In x (s_attrs s) -> In y (s_attrs s) -> same_attrs (ag_attrs x) (ag_attrs y) -> x = y;
  sw_dicts : forall g, In g (s_attrs s) -> dict (ag_attrs g) /\ ag_attrs g <> [] /\
               forall k v, In (k, v) (ag_attrs g) -> k <> [] /\ v <> [];
  sw_sorted : forall g, In g (s_attrs s) -> sort_keys (ag_attrs g) = ag_attrs g;
  sw_quant_ids : NoDup (map qt_id (s_quants s));
  sw_one : NoDup (map (fun x => (qt_loc x, qt_attr x)) (s_quants s))
}.
(** Every quantity has its location and its attribute group. *)
Record store_ref (s : store) : Prop := {
  sr_loc : forall x, In x (s_quants s) -> exists l, In l (s_locs s) /\ l_id l = qt_loc x;
  sr_group : forall x, In x (s_quants s) -> exists g, In g (s_attrs s) /\ ag_id g = qt_attr x
}.

(** Value [q] is stored for the labels and attributes. *)
Definition stored (s : store) (labels : list text) (a : row) (q : Q) : Prop :=
  exists l g x, In l (s_locs s) /\ l_labels l = labels /\ In g (s_attrs s) /\ same_attrs (ag_attrs g) a /\
    In x (s_quants s) /\ qt_loc x = l_id l /\ qt_attr x = ag_id g /\ qt_value x = q.
Definition reads (s : store) (labels : list text) (a : row) (v : option Q) : Prop :=
  match v with Some q => stored s labels a q | None => forall q, ~ stored s labels a q end.
Definition same_value (a b : option Q) : Prop :=
  match a, b with Some x, Some y => (x == y)%Q | None, None => True | _, _ => False end.

(** The sum of everything stored. *)
Definition grand_total (s : store) : Q := Qsum (map qt_value (s_quants s)).

(** Everything but the tables of locations, attribute groups and quantities is the same. *)
Definition same_rest (s s' : store) : Prop :=
  s_db s' = s_db s /\ s_gran s' = s_gran s /\ s_sels s' = s_sels s /\ s_domain s' = s_domain s /\
  s_registered s' = s_registered s.

(** The attributes of an input row: those of the named columns that are filled in. *)
Definition names_value (names : list text) (cells : list (text * option text)) (k v : text) : Prop :=
  In k names /\ v <> [] /\ cell k cells = Some v.
Definition row_attrs (names : list text) (r : q_row) (a : row) : Prop :=
  dict a /\ forall k v, In (k, v) a <-> names_value names (qr_cells r) k v.
Definition has_attrs (names : list text) (r : q_row) : Prop := exists k v, names_value names (qr_cells r) k v.

(** [rows] goes to the labels and attributes. *)
Definition goes_to (names : list text) (labels : list text) (a : row) (r : q_row) : Prop :=
  qr_labels r = labels /\ has_attrs names r /\ row_attrs names r a.
(** [vs] are the values of the rows that go to the labels and attributes, in row order. *)
Definition incoming (names : list text) (rows : list q_row) (labels : list text) (a : row) (vs : list (option Q)) : Prop :=
  exists sel, (forall r, In r rows -> (sel r = true <-> goes_to names labels a r)) /\
    vs = map qr_value (filter sel rows).

(** What a policy makes of an old value and of new ones. *)
Definition settle (pol : policy) (old : option Q) (vs : list (option Q)) : option Q :=
  match pol, old with
  | PReplace, _ => match rev vs with v :: _ => v | [] => old end
  | PSum, Some q => Some (q + Qsum (map val vs))%Q
  | PSum, None => match vs with [] => None | _ => Some (Qsum (map val vs)) end
  | _, Some q => Some q
  | _, None => match vs with v :: _ => v | [] => None end
  end.

(** Levels and records a location refers to. *)
Definition structured (s : store) (labels : list text) : Prop :=
  exists bits, In bits (d_structs (s_db s)) /\
    same_bits bits (map (fun v => negb (is_empty v)) labels).
Definition matches (s : store) (labels : list text) (i : Z) : Prop :=
  exists r, In r (d_index (s_db s)) /\ ix_id r = i /\ agrees labels r.

(** A row that may be stored. *)
Definition row_ok (any_label any_partition : bool) (s : store) (r : q_row) : Prop :=
  (forall d, qr_domain r = Some d -> d = s_domain s) /\
  (has_attrs (s_registered s) r ->
     (any_partition = false -> structured s (qr_labels r)) /\
     (any_label = false -> exists i, matches s (qr_labels r) i)).

(** The location takes part in nothing the index knows about. *)
Definition nonmatching (s : store) (l : location) : Prop :=
  ~ structured s (l_labels l) \/ (forall i, matches s (l_labels l) i -> i = 0%Z).

(** The condition for a row to be stored, apart from conflicts and its value: with attributes,
    it needs labels and no attribute may have an empty name. *)
Definition storable (any_label any_partition : bool) (s : store) (r : q_row) : Prop :=
  row_ok any_label any_partition s r /\
  (has_attrs (s_registered s) r ->
     qr_labels r <> [] /\ ~ (exists v, names_value (s_registered s) (qr_cells r) [] v)).
(** No two rows go to the same place, and none to an occupied one. *)
Definition no_conflict (s : store) (rows : list q_row) : Prop :=
  forall labels a vs, dict a -> incoming (s_registered s) rows labels a vs ->
    length vs <= 1 /\ (vs <> [] -> forall q, ~ stored s labels a q).
Definition fits (s : store) (rows : list q_row) : Prop :=
  forall r, In r rows -> length (qr_labels r) = length (d_labels (s_db s)).
Definition numeric (s : store) (rows : list q_row) : Prop :=
  forall r, In r rows -> has_attrs (s_registered s) r -> qr_value r <> None.

(** The rows the older [insert_quantities] looks at: those of the space's domain. *)
Definition of_domain (s : store) (r : q_row) : Prop :=
  s_domain s = [] \/ qr_domain r = Some (s_domain s).

(** The space is reopened. *)
Definition reopens (o : qop) : Prop := o = QIndex OReopen.

(** An output row describes a quantity, with the values of the attributes [cols]. *)
Definition describes (s : store) (cols : list text) (x : quantity) (o : q_out) : Prop :=
  exists l g, In l (s_locs s) /\ l_id l = qt_loc x /\ In g (s_attrs s) /\ ag_id g = qt_attr x /\
    qo_domain o = (match s_domain s with [] => [] | d => [d] end) /\ qo_labels o = l_labels l /\
    qo_attrs o = map (fun k => dict_get k (ag_attrs g)) cols /\ qo_value o = qt_value x.
(** [outs] describes, without repetition, the quantities located at [P]. *)
Definition lists (s : store) (cols : list text) (P : location -> Prop) (outs : list q_out) : Prop :=
  exists xs, NoDup xs /\
    (forall x, In x xs <-> In x (s_quants s) /\ exists l, In l (s_locs s) /\ l_id l = qt_loc x /\ P l) /\
    Forall2 (describes s cols) xs outs.
(** The number of locations with a property. *)
Definition count_is (s : store) (P : location -> Prop) (n : nat) : Prop :=
  exists sel : location -> bool, (forall l, In l (s_locs s) -> (sel l = true <-> P l)) /\
    n = length (filter sel (s_locs s)).
(** No defined record of the index agrees with the labels. *)
Definition no_record (s : store) (l : location) : Prop :=
  forall i, matches s (l_labels l) i -> i = 0%Z.

(** What is left when the quantities located at [P] are gone: other quantities and the
    attribute groups they use. *)
Record removed (s s' : store) (P : location -> Prop) : Prop := {
  rm_quants : exists keepq, s_quants s' = filter keepq (s_quants s) /\
     forall x, In x (s_quants s) ->
       (keepq x = true <-> ~ exists l, In l (s_locs s) /\ l_id l = qt_loc x /\ P l);
  rm_attrs : exists keepa, s_attrs s' = filter keepa (s_attrs s) /\
     forall g, In g (s_attrs s) -> (keepa g = true <-> exists x, In x (s_quants s') /\ qt_attr x = ag_id g);
  rm_rest : same_rest s s'
}.

(** A file written from output rows, read as input rows. *)
Definition as_row (cols : list text) (o : q_out) : q_row :=
  {| qr_domain := match qo_domain o with [] => None | d :: _ => Some d end;
     qr_labels := qo_labels o; qr_cells := combine cols (qo_attrs o); qr_value := Some (qo_value o) |}.
(** Every attribute in use is registered. *)
Definition all_registered (s : store) : Prop :=
  forall g k v, In g (s_attrs s) -> In (k, v) (ag_attrs g) -> In k (s_registered s).
