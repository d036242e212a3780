(** What readers should do, independent of the tables of the model. *)
From Verif Require Import Prelude Selectors_Model Db_Model Db_Spec Reader_Model.

(** NULL counts as nothing. *)
Definition val (v : option Q) : Q := match v with Some q => q | None => 0%Q end.
(** [v] is the sum of the values that are not NULL, NULL if there are none. *)
Definition null_sum (l : list (option Q)) (v : option Q) : Prop :=
  match v with
  | None => forall x, In x l -> x = None
  | Some q => (exists y, In (Some y) l) /\ (q == Qsum (map val l))%Q
  end.

(** Attribute dictionaries, whatever the order of their items. *)
Definition dict (a : row) : Prop := NoDup (map fst a).
Definition same_attrs (a b : row) : Prop := forall k, dict_get k a = dict_get k b.

(** [v] is the sum of the values of the input records that satisfy [P]. *)
Definition sum_where (P : datum -> Prop) (data : list datum) (v : option Q) : Prop :=
  exists sel : datum -> bool, (forall d, In d data -> (sel d = true <-> P d)) /\
    null_sum (map n_value (filter sel data)) v.

(** C19: [o] is the output record for the input record [d]. *)
Record describes (s : db) (data : list datum) (keys : list text) (d : datum) (o : out_row) : Prop := {
  de_labels : In {| ix_id := n_index d; ix_labels := o_labels o |} (d_index s);
  de_attrs : o_attrs o = map (fun k => dict_get k (n_attrs d)) keys;
  de_value : sum_where (fun e => n_index e = n_index d /\ same_attrs (n_attrs e) (n_attrs d)) data (o_value o)
}.

(** Contents of a reader. *)
Record reader_wf (r : reader) : Prop := {
  rw_ids : NoDup (map a_id (r_attrs r));
  rw_attrs : NoDup (map a_attrs (r_attrs r));
  rw_ref : forall q, In q (r_quants r) -> exists a, In a (r_attrs r) /\ a_id a = q_attr q
}.
Definition placed_in (s : db) (r : reader) : Prop :=
  forall q, In q (r_quants r) -> has_index s (q_index q).
Definition filled (r : reader) : Prop := forall q, In q (r_quants r) -> q_value q <> None.

(** The total of one attribute dictionary, and its amount at one record. *)
Definition total (r : reader) (a : Z) : Q :=
  Qsum (map (fun q => val (q_value q)) (filter (fun q => (q_attr q =? a)%Z) (r_quants r))).
Definition amount (r : reader) (a t : Z) : Q :=
  Qsum (map (fun q => val (q_value q))
            (filter (fun q => (q_attr q =? a)%Z && (q_index q =? t)%Z) (r_quants r))).
Definition same_dictionaries (r r' : reader) : Prop :=
  map (fun a => (a_id a, a_attrs a)) (r_attrs r') = map (fun a => (a_id a, a_attrs a)) (r_attrs r).

(** C18: what a quantity of [v] at source record [i] adds to target record [t] over link [l]. *)
Definition arrives (s : db) (l i t : Z) (v : Q) : Q :=
  if (i =? 0)%Z then (if (t =? 0)%Z then v else 0%Q)
  else (v * Qsum (map share (filter (fun m => (m_index m =? t)%Z) (from l i s))))%Q.
(** The number of mappings that share out that quantity to [t]. *)
Definition ways (s : db) (l i t : Z) : Q :=
  if (i =? 0)%Z then 0%Q
  else inject_Z (Z.of_nat (length (filter (fun m => (m_index m =? t)%Z) (from l i s)))).
(** Link [l] maps every one of the source ids [h] in shares that make up the whole. *)
Definition maps_whole (s : db) (l : Z) (h : list Z) : Prop :=
  forall i, In i h -> i <> 0%Z ->
    (forall m, In m (from l i s) -> exists p, m_prop m = Some p /\ (0 <= p)%Q) /\
    (Qsum (map share (from l i s)) == 1)%Q.

(** C20: the values of the pivot columns for a dictionary; the empty text for a missing one. *)
Definition pivot_key (columns : list text) (a : row) : list text :=
  map (fun c => match dict_get c a with Some v => v | None => [] end) columns.
Definition has_some (key : list text) : Prop := exists v, In v key /\ v <> [].

(** The records with labels of index [i] and pivot key [key]. *)
Definition in_cell (columns : list text) (r : reader) (i : Z) (key : list text) (q : quant) : Prop :=
  q_index q = i /\ exists a, In a (r_attrs r) /\ a_id a = q_attr q /\ pivot_key columns (a_attrs a) = key.
Definition quants_where (P : quant -> Prop) (r : reader) (v : option Q) : Prop :=
  exists sel : quant -> bool, (forall q, In q (r_quants r) -> (sel q = true <-> P q)) /\
    null_sum (map q_value (filter sel (r_quants r))) v.

(** [v] is the average, over the dictionaries with that pivot key that have values at [i], of
    their amounts at [i]. *)
Definition mean_where (columns : list text) (r : reader) (i : Z) (key : list text) (v : option Q) : Prop :=
  exists ids : list Z, NoDup ids /\
    (forall a, In a ids <->
       exists q, In q (r_quants r) /\ q_attr q = a /\ in_cell columns r i key q /\ q_value q <> None) /\
    match v with
    | None => ids = []
    | Some x => ids <> [] /\
        (x * inject_Z (Z.of_nat (length ids)) == Qsum (map (fun a => amount r a i) ids))%Q
    end.

(** A pivoted table with the cells [cell]: the header is a list of distinct labels, one for each
    pivot key in use; there is one row for each index record in use. *)
Record pivot_of (columns : list text) (s : db) (r : reader)
  (cell : Z -> list text -> option Q -> Prop) (p : pivoted) (keys : list (list text)) (ids : list Z) : Prop := {
  po_keys : NoDup keys;
  po_key : forall key, In key keys <->
             has_some key /\ exists a, In a (r_attrs r) /\ pivot_key columns (a_attrs a) = key;
  po_columns : p_columns p = map format_column keys;
  po_header : NoDup (p_columns p);
  po_sorted : StronglySorted Z.lt ids;
  po_id : forall i, In i ids <-> exists q key, In q (r_quants r) /\ in_cell columns r i key q /\ has_some key;
  po_rows : Forall2 (fun i row => In {| ix_id := i; ix_labels := fst row |} (d_index s) /\
                                  Forall2 (cell i) keys (snd row)) ids (p_rows p)
}.
