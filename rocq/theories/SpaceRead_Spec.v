(** What reading a space must deliver. *)
From Verif Require Import Prelude BitFlags_Model BitFlags_Spec Selectors_Model Selectors_Spec LinkRef_Model
  Db_Model Db_Spec Quantize_Spec Disaggregate_Spec Reader_Model Reader_Spec Mapper_Model Mapper_Spec
  Quantity_Model Quantity_Spec.
From Coq Require Import Qabs Permutation.

(** The structure table: distinct rows with a bit for every label column. *)
Record structs_ok (s : store) : Prop := {
  so_distinct : NoDup (d_structs (s_db s));
  so_arity : forall bits, In bits (d_structs (s_db s)) -> length bits = length (d_labels (s_db s));
  so_some : forall bits, In bits (d_structs (s_db s)) -> bits <> []
}.
(** One list of properly built selectors for a weight group. *)
Definition sels_ok (s : store) : Prop :=
  NoDup (map fst (s_sels s)) /\ forall i l x, In (i, l) (s_sels s) -> In x l -> proper x.

(** [x] is located at [labels] and has the attributes [a]. *)
Definition located (s : store) (x : quantity) (labels : list text) : Prop :=
  exists l, In l (s_locs s) /\ l_id l = qt_loc x /\ l_labels l = labels.
Definition attributed (s : store) (x : quantity) (a : row) : Prop :=
  exists g, In g (s_attrs s) /\ ag_id g = qt_attr x /\ ag_attrs g = a.
(** One of the selectors, if there are any, picks the attributes. *)
Definition picked (upper : text -> text) (sels : list selector) (a : row) : Prop :=
  sels <> [] -> exists sel, In sel sels /\ means upper a sel.
(** The quantities that reading takes into account. *)
Definition is_read (upper : text -> text) (sels : list selector) (s : store) (x : quantity) : Prop :=
  In x (s_quants s) /\
  (exists labels, located s x labels /\ structured s labels) /\
  (exists a, attributed s x a /\ picked upper sels a).

(** The attributes with the domain of the space, if it has one. *)
Definition with_domain (s : store) (a full : row) : Prop :=
  dict full /\ forall k v, In (k, v) full <->
    (s_domain s <> [] /\ k = txt "domain" /\ v = s_domain s) \/
    (~ (s_domain s <> [] /\ k = txt "domain") /\ In (k, v) a).
(** Of these, the attributes to sum by: all, or those named and the domain. *)
Definition to_show (s : store) (names : list text) (k : text) : Prop :=
  names = [] \/ In k names \/ (s_domain s <> [] /\ k = txt "domain").
Definition shown_attrs (s : store) (names : list text) (x : quantity) (a : row) : Prop :=
  dict a /\ exists own full, attributed s x own /\ with_domain s own full /\
    forall k v, In (k, v) a <-> In (k, v) full /\ to_show s names k.

(** The location is at a level than which no other level is finer. *)
Definition finest (s : store) (labels : list text) : Prop :=
  exists bits, In bits (d_structs (s_db s)) /\ same_bits bits (map (fun v => negb (is_empty v)) labels) /\
    forall b, In b (d_structs (s_db s)) ->
      match s_gran s b, s_gran s bits with
      | Some x, Some y => (x <= y)%Q
      | None, _ => True
      | Some _, None => False
      end.
(** Granularities are not negative. *)
Definition gran_ok (s : store) : Prop := forall bits q, s_gran s bits = Some q -> (0 <= q)%Q.

(** [d] lists the selectors of the weight groups that are marked complete. *)
Definition rules (s : store) (d : list (Z * option (list selector))) : Prop :=
  NoDup (map fst d) /\ forall i sels, In (i, sels) d ->
    exists l, sels = Some l /\ l <> [] /\ In (i, l) (s_sels s) /\
    exists g, In g (d_groups (s_db s)) /\ g_id g = i /\ g_complete g = true.
(** Each group that is marked complete and has selectors is there. *)
Definition all_rules (s : store) (d : list (Z * option (list selector))) : Prop :=
  forall g l, In g (d_groups (s_db s)) -> g_complete g = true -> In (g_id g, l) (s_sels s) -> l <> [] ->
    In (g_id g, Some l) d.
(** [g] is the weight group for the attributes [a]. *)
Definition uses (upper : text -> text) (s : store) (a : row) (g : Z) : Prop :=
  exists d, rules s d /\ all_rules s d /\
    (right_key upper a d g \/ ((forall k, ~ right_key upper a d k) /\ d_default (s_db s) = Some (Some g))).

(** [w] gives the weights of group [g]. *)
Definition weights_are (s : store) (g : Z) (w : Z -> option Q) : Prop :=
  forall i v, w i = Some v <->
    exists x, In x (d_weights (s_db s)) /\ w_group x = g /\ w_index x = i /\ w_value x = v.
(** [q] is divided among all records that match, by weight; equally, the undefined record
    excluded, if the weights add up to nothing. *)
Definition divided (s : store) (w : Z -> option Q) (labels : list text) (q : Q) (items : list (Z * Q)) : Prop :=
  NoDup (map fst items) /\ (forall i, In i (map fst items) <-> matches s labels i) /\
  let ids := map fst items in let t := Disaggregate_Spec.total_weight w ids in
  forall i x, In (i, x) items ->
    (~ (t == 0)%Q -> (x == q * weight_or_zero w i / t)%Q) /\
    ((t == 0)%Q -> (ids = [i] -> (x == q)%Q) /\ (ids <> [i] -> i = 0%Z -> (x == 0)%Q) /\
                   (ids <> [i] -> i <> 0%Z -> (x == q / inject_Z (Z.of_nat (defined_count ids)))%Q)).
(** The same total in whole parts, but for one, each moved by less than one. *)
Definition rounded (exact items : list (Z * Q)) : Prop :=
  (exists exact', Permutation exact exact' /\
     Forall2 (fun e p => fst e = fst p /\ (Qabs (snd p - snd e) < 1)%Q) exact' items) /\
  ((forall i v, In (i, v) items -> whole v) \/
   exists a p b, items = a ++ p :: b /\ forall i v, In (i, v) (a ++ b) -> whole v).

(** What a quantity of [q] at [labels] becomes. *)
Definition becomes (upper : text -> text) (quantize : bool) (s : store) (labels : list text) (a : row) (q : Q)
  (items : list (Z * Q)) : Prop :=
  (finest s labels -> exists i, matches s labels i /\ items = [(i, q)]) /\
  (~ finest s labels -> exists full g w exact,
     with_domain s a full /\ uses upper s full g /\ weights_are s g w /\ divided s w labels q exact /\
     if quantize then rounded exact items else items = exact).

(** A quantity with what became of it. *)
Record part := { p_quantity : quantity; p_attrs : row; p_items : list (Z * Q) }.
Definition part_data (p : part) : list datum :=
  map (fun iv => {| n_index := fst iv; n_attrs := p_attrs p; n_value := Some (snd iv) |}) (p_items p).

(** The default weight group is there and marked complete. *)
Definition default_ok (s : store) : Prop :=
  exists g, In g (d_groups (s_db s)) /\ d_default (s_db s) = Some (Some (g_id g)) /\ g_complete g = true.
(** A quantity can be read: some record matches its location, and at a level that is not the
    finest all of these that are defined have a weight. *)
Definition readable (upper : text -> text) (s : store) (x : quantity) : Prop :=
  exists labels a, located s x labels /\ attributed s x a /\
    (exists i, matches s labels i) /\
    (~ finest s labels -> exists full g, with_domain s a full /\ uses upper s full g /\
       forall i, matches s labels i -> i <> 0%Z -> weight_there (s_db s) g i).

(** A space whose tables are in order. *)
Record space_ok (s : store) : Prop := {
  sp_index : index_wf (s_db s); sp_weights : weights_wf (s_db s); sp_tables : store_wf s;
  sp_structs : structs_ok s; sp_sels : sels_ok s; sp_gran : gran_ok s
}.

(** What became of a quantity when it was read. *)
Record well_read (upper : text -> text) (quantize : bool) (names : list text) (s : store) (p : part) : Prop := {
  wr_attrs : shown_attrs s names (p_quantity p) (p_attrs p);
  wr_total : (Qsum (map snd (p_items p)) == qt_value (p_quantity p))%Q;
  wr_becomes : exists labels a, located s (p_quantity p) labels /\ attributed s (p_quantity p) a /\
    (forall i, In i (map fst (p_items p)) -> matches s labels i) /\ NoDup (map fst (p_items p)) /\ p_items p <> [] /\
    becomes upper quantize s labels a (qt_value (p_quantity p)) (p_items p)
}.

(** [x] is read and shown with the attributes [a]. *)
Definition reads_as (upper : text -> text) (sels : list selector) (names : list text) (s : store) (a : row) (x : quantity) : Prop :=
  is_read upper sels s x /\ exists a', shown_attrs s names x a' /\ same_attrs a' a.
