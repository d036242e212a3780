(** C42, C54: what upgrading a file must keep. *)
From Verif Require Import Prelude BitFlags_Spec Selectors_Model SelectorParse_Model Db_Model Reader_Model Migrations_Model.
From Coq Require Import Permutation Sorted.
Local Open Scope nat_scope.

Definition version_of (f : file) (v : string) : Prop := prop_get (txt "toron_schema_version") (f_props f) = Some (PStr (txt v)).

(** The number that a value stands for. *)
Definition number (v : value) : Q := match v with VInt z => inject_Z z | VReal q => q | VText q => q end.
(** The total of the quantities of a location and attribute group. *)
Definition total (f : file) (loc grp : Z) : Q :=
  Qsum (map (fun q => match q_loc q, q_grp q with
                      | Some l, Some g => if (l =? loc)%Z && (g =? grp)%Z then number (q_val q) else 0%Q
                      | _, _ => 0%Q end) (f_qtys f)).
(** The file has a quantity for the location and attribute group, with id [i]. *)
Definition has_qty (f : file) (loc grp i : Z) : Prop :=
  exists q, In q (f_qtys f) /\ q_loc q = Some loc /\ q_grp q = Some grp /\ q_id q = i.
(** No two rows for one location and attribute group. *)
Definition one_row_each (f : file) : Prop :=
  NoDup (map (fun q => (q_loc q, q_grp q)) (f_qtys f)) /\
  forall q, In q (f_qtys f) -> exists l g, q_loc q = Some l /\ q_grp q = Some g.

(** A mapping between the undefined records; also one from the undefined record to none. *)
Definition both_undefined (r : rel) : Prop := r_other r = 0%Z /\ (r_index r = Some 0%Z \/ r_index r = None).
(** The list with only the elements that have the property, in the same order. *)
Inductive only {A} (P : A -> Prop) : list A -> list A -> Prop :=
| only_nil : only P [] []
| only_keep x l l' : P x -> only P l l' -> only P (x :: l) (x :: l')
| only_drop x l l' : ~ P x -> only P l l' -> only P (x :: l) l'.
(** The row in the new table for a row of the old table. *)
Definition same_mapping (level : list N) (old new : rel) : Prop :=
  r_id new = r_id old /\ r_link new = r_link old /\ r_other new = r_other old /\ r_index new = r_index old /\
  r_val new = r_val old /\ r_prop new = r_prop old /\
  r_level new = Some (match r_level old with Some l => l | None => level end).
(** The level that has all columns. *)
Definition all_columns (f : file) (level : list N) : Prop :=
  forall i, byte_bit level i = (i <? length (f_columns f)).

(** References lead to rows. *)
Definition refers_to (o : option Z) (ids : list Z) : Prop := forall i, o = Some i -> In i ids.
Record references (f : file) : Prop := {
  rf_rel : forall r, In r (f_rels f) -> refers_to (r_link r) (map x_id (f_links f)) /\ refers_to (r_index r) (map fst (f_index f));
  rf_weight : forall w g i q, In (w, g, i, q) (f_weights f) -> refers_to g (f_wgroups f) /\ refers_to i (map fst (f_index f));
  rf_qty : forall q, In q (f_qtys f) -> refers_to (q_loc q) (map fst (f_locs f)) /\ refers_to (q_grp q) (map fst (f_agroups f))
}.

(** The constraints of the tables of version 0.2.0. *)
Record old_tables (f : file) : Prop := {
  ot_names : f_old_names f = true;
  ot_link_ids : NoDup (map x_id (f_links f));
  ot_link_names : NoDup (map (fun x => (x_name x, x_other x)) (f_links f));
  ot_link_default : NoDup (map x_other (filter x_default (f_links f)));
  ot_rel_ids : NoDup (map r_id (f_rels f));
  ot_rel_keys : forall a b l i, In a (f_rels f) -> In b (f_rels f) -> r_link a = Some l -> r_link b = Some l ->
                  r_other a = r_other b -> r_index a = Some i -> r_index b = Some i -> a = b;
  ot_rel_value : forall r, In r (f_rels f) -> (0 <= r_val r)%Q;
  ot_rel_prop : forall r p, In r (f_rels f) -> r_prop r = Some p -> (0 <= p <= 1)%Q;
  ot_qty_ids : NoDup (map q_id (f_qtys f));
  ot_index : NoDup (map snd (f_index f));
  ot_locs : NoDup (map snd (f_locs f));
  ot_structs : NoDup (map snd (f_structs f))
}.
(** What version 0.2.0 did not demand, but the new tables do: no missing references, the names of the new
    properties are free, the domain is an object and sums of integers are 64-bit integers. *)
Record upgradable (f : file) : Prop := {
  up_rel : forall r, In r (f_rels f) -> r_link r <> None /\ r_index r <> None;
  up_qty : forall q, In q (f_qtys f) -> q_loc q <> None /\ q_grp q <> None;
  up_refs : references f;
  up_domain : forall v, prop_get (txt "domain") (f_props f) = Some v -> exists d, v = PObj d;
  up_free : forall k, In k [txt "registered_attributes"; txt "partition_definitions"; txt "user_properties"; txt "created_date"] ->
              prop_get k (f_props f) = None;
  (** The integers together are small enough. *)
  up_sums : (fold_right (fun q n => match q_val q with VInt z => Z.abs z + n | _ => n end) 0 (f_qtys f) < 2 ^ 63)%Z
}.

(** Everything but names, quantities, mappings and properties. *)
Definition same_rest (a b : file) : Prop :=
  f_columns a = f_columns b /\ f_index a = f_index b /\ f_locs a = f_locs b /\ f_structs a = f_structs b /\
  f_wgroups a = f_wgroups b /\ f_weights a = f_weights b /\ f_agroups a = f_agroups b /\ f_links a = f_links b.

(** Ascending and without repetition. *)
Definition ascending (l : list text) : Prop := StronglySorted (fun a b => text_ltb a b = true) l.

(** The name that replaces a domain of several parts: the parts, ascending by key. *)
Definition domain_name (d : list (text * text)) (t : text) : Prop :=
  (exists v, d = [(txt "domain", v)] /\ t = v) \/
  ((forall v, d <> [(txt "domain", v)]) /\
   exists d', Permutation d d' /\ ascending (map fst d') /\
     t = join (txt "_") (map (fun p => fst p ++ txt "_" ++ snd p) d')).
