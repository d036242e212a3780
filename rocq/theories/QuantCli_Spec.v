(** C61: what loading a table of quantities and writing one must achieve. *)
From Coq Require Import NArith Permutation.
From Verif Require Import Prelude Selectors_Model Db_Model Reader_Model Reader_Spec Mapper_Model MapCli_Spec Quantity_Model Quantity_Spec QuantCli_Model.
Local Open Scope nat_scope.

(** *** Rows of a table, by the names of its columns *)

(** In the row [r], the column [k] has the text [v].  Of several columns with this name it is the last one that the
    row reaches. *)
Definition says (columns r : list text) (k v : text) : Prop :=
  exists p, nth_error columns p = Some k /\ nth_error r p = Some v /\
    forall p', p < p' -> nth_error columns p' = Some k -> nth_error r p' = None.
Definition reaches (columns r : list text) (k : text) : Prop := exists v, says columns r k v.

(** The labels of a row in the order of the space, its attributes, and its value. *)
Definition labels_are (s : store) (columns r labels : list text) : Prop := Forall2 (says columns r) (d_labels (s_db s)) labels.
Definition attribute_is (s : store) (columns r : list text) (k v : text) : Prop :=
  In k (s_registered s) /\ v <> [] /\ says columns r k v.
Definition attributed (s : store) (columns r : list text) : Prop := exists k v, attribute_is s columns r k v.
Definition value_is (value_column : text) (columns r : list text) (v : option Q) : Prop :=
  match v with
  | Some q => exists t, says columns r value_column t /\ is_number t q
  | None => forall t q, says columns r value_column t -> ~ is_number t q
  end.
(** The row is about these labels and attributes. *)
Definition goes (s : store) (columns labels : list text) (a : row) (r : list text) : Prop :=
  labels_are s columns r labels /\ attributed s columns r /\ dict a /\
  forall k v, In (k, v) a <-> attribute_is s columns r k v.
(** [vs] are the values of the rows about these labels and attributes, in their order. *)
Definition coming (value_column : text) (s : store) (columns : list text) (rows : csv_file) (labels : list text) (a : row)
  (vs : list (option Q)) : Prop :=
  exists sel : list text -> bool, (forall r, In r rows -> (sel r = true <-> goes s columns labels a r)) /\
    Forall2 (value_is value_column columns) (filter sel rows) vs.
(** [n] rows are such. *)
Definition so_many (rows : csv_file) (P : list text -> Prop) (n : nat) : Prop :=
  exists sel : list text -> bool, (forall r, In r rows -> (sel r = true <-> P r)) /\ n = length (filter sel rows).

(** *** Tables that can be loaded *)

(** The cells that are looked at are there. *)
Definition complete (s : store) (columns r : list text) : Prop :=
  forall k, In k (d_labels (s_db s)) \/ In k (s_registered s) /\ In k columns -> reaches columns r k.
Definition of_partition (s : store) (columns r : list text) : Prop := forall labels, labels_are s columns r labels -> structured s labels.
Definition of_index (s : store) (columns r : list text) : Prop :=
  forall labels, labels_are s columns r labels -> exists i, matches s labels i.
Definition acceptable (any_label any_partition : bool) (s : store) (columns r : list text) : Prop :=
  (forall d, says columns r (txt "domain") d -> d = s_domain s) /\ complete s columns r /\
  (attributed s columns r ->
     d_labels (s_db s) <> [] /\ (forall v, ~ attribute_is s columns r [] v) /\
     (any_partition = false -> of_partition s columns r) /\ (any_label = false -> of_index s columns r)).
Definition all_numbers (value_column : text) (s : store) (columns : list text) (rows : csv_file) : Prop :=
  forall r, In r rows -> attributed s columns r -> exists q, value_is value_column columns r (Some q).
Definition refuses_existing (pol : policy) : Prop := pol = PAbort \/ pol = PInvalid.
Definition no_clash (value_column : text) (s : store) (columns : list text) (rows : csv_file) : Prop :=
  forall labels a vs, dict a -> coming value_column s columns rows labels a vs ->
    length vs <= 1 /\ (vs <> [] -> forall q, ~ stored s labels a q).
(** The columns the table must have. *)
Definition has_columns (value_column : text) (s : store) (columns : list text) : Prop :=
  In value_column columns /\ incl (d_labels (s_db s)) columns.

(** What is logged about quantities that were there before. *)
Definition kept_as (pol : policy) (e : event) : Prop :=
  pol = PIgnore /\ e = Ignored \/ pol = PReplace /\ e = Replaced \/ pol = PSum /\ e = Summed.

(** *** Written tables *)

(** The numbers of the space are printed so that they are read as the same numbers. *)
Definition prints (show : Q -> text) (s : store) : Prop := forall x, In x (s_quants s) -> is_number (show (qt_value x)) (qt_value x).
(** The row tells the quantity [x]. *)
Definition line_tells (show : Q -> text) (s : store) (x : quantity) (r : list text) : Prop :=
  exists l g, In l (s_locs s) /\ l_id l = qt_loc x /\ In g (s_attrs s) /\ ag_id g = qt_attr x /\
    r = (match s_domain s with [] => [] | d => [d] end) ++ l_labels l ++
        map (fun k => match dict_get k (ag_attrs g) with Some v => v | None => [] end) (s_registered s) ++ [show (qt_value x)].

(** A table written from [s] is understood by [t]: the names of its columns are different, [t] has the same labels
    in any order, knows the attributes and takes no other column for one, and has the same domain if [s] has one. *)
Record understands (s t : store) (columns : list text) : Prop := {
  un_columns : NoDup columns;
  un_labels : Permutation (d_labels (s_db t)) (d_labels (s_db s));
  un_attrs : incl (s_registered s) (s_registered t);
  un_others : forall k, In k (s_registered t) -> In k columns -> In k (s_registered s);
  un_domain : s_domain s <> [] -> s_domain t = s_domain s;
  un_no_domain : s_domain s = [] -> ~ In (txt "domain") columns
}.
(** Labels given by the names of the columns. *)
Definition placed (s : store) (f : text -> text) : list text := map f (d_labels (s_db s)).
(** Both spaces have a quantity for the same labels and attributes. *)
Definition clash (s t : store) : Prop :=
  exists f a q q', dict a /\ stored s (placed s f) a q /\ stored t (placed t f) a q'.
Definition one (v : option Q) : list (option Q) := match v with Some q => [Some q] | None => [] end.
