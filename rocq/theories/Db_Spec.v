(** What the tables of a space must look like, independent of the operations. *)
From Verif Require Import Prelude BitFlags_Model BitFlags_Spec Selectors_Model LinkRef_Model LinkRef_Spec Db_Model.
From Coq Require Export Sorting.Sorted.

Definition has_index (s : db) (i : Z) : Prop := exists r, In r (d_index s) /\ ix_id r = i.
(** A defined record is one other than the undefined record, whose id is 0. *)
Definition defined (s : db) (i : Z) : Prop := has_index s i /\ i <> 0%Z.

Definition undefined_record (s : db) : ixrec :=
  {| ix_id := 0; ix_labels := map (fun _ => txt "-") (d_labels s) |}.

(** C26: index records. *)
Record index_wf (s : db) : Prop := {
  iw_columns : NoDup (d_labels s);
  iw_unique : NoDup (map ix_id (d_index s));
  iw_range : forall r, In r (d_index s) -> (0 <= ix_id r <= d_seq s)%Z;
  iw_undefined : In (undefined_record s) (d_index s);
  iw_arity : forall r, In r (d_index s) -> length (ix_labels r) = length (d_labels s);
  iw_filled : forall r t, In r (d_index s) -> In t (ix_labels r) -> t <> [];
  iw_labels : forall x y, In x (d_index s) -> In y (d_index s) ->
                ix_labels x = ix_labels y -> x = y
}.

(** C27: the stored hash is that of the ascending list of the ids present. *)
Definition hash_wf (s : db) : Prop :=
  StronglySorted Z.lt (d_hash s) /\ forall i, In i (d_hash s) <-> has_index s i.

(** C28: weights. *)
Record weights_wf (s : db) : Prop := {
  ww_groups : NoDup (map g_id (d_groups s)) /\ NoDup (map g_name (d_groups s));
  ww_unique : NoDup (map (fun w => (w_group w, w_index w)) (d_weights s));
  ww_nonneg : forall w, In w (d_weights s) -> (0 <= w_value w)%Q;
  ww_defined : forall w, In w (d_weights s) -> (0 < w_index w)%Z
}.
Record weights_ref (s : db) : Prop := {
  wr_group : forall w, In w (d_weights s) -> exists g, In g (d_groups s) /\ g_id g = w_group w;
  wr_index : forall w, In w (d_weights s) -> has_index s (w_index w)
}.

(** C31: mappings. *)
Record maps_wf (s : db) : Prop := {
  mw_unique : NoDup (map (fun m => (m_link m, m_other m, m_index m, m_level m)) (d_maps s));
  mw_value : forall m, In m (d_maps s) -> (0 <= m_value m)%Q;
  mw_prop : forall m p, In m (d_maps s) -> m_prop m = Some p -> (0 <= p <= 1)%Q;
  mw_defined : forall m, In m (d_maps s) -> ~ (m_other m = 0%Z /\ m_index m = 0%Z)
}.
Record maps_ref (s : db) : Prop := {
  mr_link : forall m, In m (d_maps s) -> exists k, In k (d_links s) /\ k_id k = m_link m;
  mr_ref_index : forall m, In m (d_maps s) -> has_index s (m_index m)
}.

(** C29: completeness of weight groups. *)
Definition weight_complete (s : db) (g : Z) : Prop :=
  forall i, defined s i -> exists w, In w (d_weights s) /\ w_group w = g /\ w_index w = i.
Definition group_flags_sound (s : db) : Prop :=
  forall g, In g (d_groups s) -> g_complete g = true -> weight_complete s (g_id g).
Definition group_flags_exact (s : db) : Prop :=
  forall g, In g (d_groups s) -> (exists i, defined s i) ->
    (g_complete g = true <-> weight_complete s (g_id g)).

(** C50: completeness of links, recorded source ids, proportions. *)
Definition link_complete (s : db) (l : Z) : Prop :=
  forall i, defined s i -> exists m, In m (d_maps s) /\ m_link m = l /\ m_index m = i.
Definition link_flags_sound (s : db) : Prop :=
  forall k, In k (d_links s) -> k_complete k = true -> link_complete s (k_id k).
Definition link_flags_exact (s : db) : Prop :=
  forall k, In k (d_links s) -> (exists i, defined s i) ->
    (k_complete k = true <-> link_complete s (k_id k)).

(** The ids of the other space that a link is known to map, with 0 for its undefined
    record, ascending. *)
Definition sources_of (s : db) (l : Z) (h : list Z) : Prop :=
  StronglySorted Z.lt h /\
  forall o, In o h <->
    o = 0%Z \/ (0 < o)%Z /\ exists m, In m (d_maps s) /\ m_link m = l /\ m_other m = o.
Definition link_hashes (s : db) : Prop :=
  forall k, In k (d_links s) ->
    (forall h, k_hash k = Some h -> sources_of s (k_id k) h) /\
    (k_hash k = None -> forall m, In m (d_maps s) -> m_link m <> k_id k).

(** A recorded hash is that of the sources. *)
Definition link_sources (s : db) : Prop :=
  forall k h, In k (d_links s) -> k_hash k = Some h -> sources_of s (k_id k) h.

(** The mappings of one source record and link. *)
Definition from (l o : Z) (s : db) : list mapping :=
  filter (fun m => (m_link m =? l)%Z && (m_other m =? o)%Z) (d_maps s).
Definition share (m : mapping) : Q := match m_prop m with Some p => p | None => 0%Q end.

Definition proportions_wf (s : db) : Prop :=
  forall m, In m (d_maps s) ->
    (m_other m = 0%Z -> exists p, m_prop m = Some p /\ (p == 0)%Q) /\
    ((0 < m_other m)%Z -> m_prop m <> None /\
       (Qsum (map share (from (m_link m) (m_other m) s)) == 1)%Q).

(** Operations that do not themselves set a completeness flag or a source hash. *)
Definition honest (o : op) : Prop :=
  match o with
  | OAddGroup _ c _ => c = false
  | OEditGroup _ _ c => c = None
  | OAddLink k _ => k_hash k = None /\ k_complete k = false
  | OEditLink _ _ c => c_hash c = None /\ c_complete c = None
  | _ => True
  end.
Definition is_reopen (o : op) : Prop := match o with OReopen => True | _ => False end.

(** C32: the records of [s'] are those of [s] where the data of every record [j] moved to the
    record [f j] and was added up there. *)
Definition weight_there (s : db) (g i : Z) : Prop :=
  exists w, In w (d_weights s) /\ w_group w = g /\ w_index w = i.
Definition map_there (s : db) (l o i : Z) (lv : list N) : Prop :=
  exists m, In m (d_maps s) /\ m_link m = l /\ m_other m = o /\ m_index m = i /\ m_level m = lv.
Definition wsum (P : Z -> Z -> bool) (s : db) : Q :=
  Qsum (map w_value (filter (fun w => P (w_group w) (w_index w)) (d_weights s))).
Definition msum (x : mapping -> Q) (P : Z -> Z -> Z -> list N -> bool) (s : db) : Q :=
  Qsum (map x (filter (fun m => P (m_link m) (m_other m) (m_index m) (m_level m)) (d_maps s))).
Record moved_by (f : Z -> Z) (s s' : db) : Prop := {
  mv_weights : forall g i, weight_there s' g i <-> exists j, weight_there s g j /\ f j = i;
  mv_wsum : forall P, (wsum P s' == wsum (fun g j => P g (f j)) s)%Q;
  mv_maps : forall l o i lv, map_there s' l o i lv <-> exists j, map_there s l o j lv /\ f j = i;
  mv_msum : forall P, (msum m_value P s' == msum m_value (fun l o j lv => P l o (f j) lv) s)%Q;
  mv_share : (forall m, In m (d_maps s) -> m_prop m <> None) ->
    (forall m, In m (d_maps s') -> m_prop m <> None) /\
    forall P, (msum share P s' == msum share (fun l o j lv => P l o (f j) lv) s)%Q
}.
Definition merge_one (i target j : Z) : Z := if (j =? i)%Z then target else j.

(** C33: which mappings can be deleted together with their record. *)
Definition unambiguous (s : db) (m : mapping) : Prop :=
  m_level m = bf_to_bytes (of_bits (map (fun _ => true) (d_labels s))).

(** C35: what add_or_resolve does with the weight of one group and record. *)
Definition weight_at (s : db) (g i : Z) (v : option Q) : Prop :=
  match v with
  | Some q => In {| w_group := g; w_index := i; w_value := q |} (d_weights s)
  | None => ~ weight_there s g i
  end.
Definition resolved (p : policy) (old : option Q) (v : Q) : option (Q * code) :=
  match old, p with
  | None, _ => Some (v, CInserted)
  | Some q, PIgnore => Some (q, CSkipped)
  | Some _, PReplace => Some (v, COverwritten)
  | Some q, PSum => Some ((q + v)%Q, CSummed)
  | Some _, _ => None
  end.

(** C33, C48: the records chosen by the rows (id and labels must agree) or by criteria given
    as names of label columns with the required label. *)
Definition chosen_by_rows (rows : list del_row) (s : db) (i : Z) : Prop :=
  exists r, In r rows /\ dr_id r = i /\ In {| ix_id := i; ix_labels := dr_labels r |} (d_index s).
Definition label_is (s : db) (r : ixrec) (column value : text) : Prop :=
  exists n, nth_error (d_labels s) n = Some column /\ nth_error (ix_labels r) n = Some value.
Definition chosen_by_criteria (c : list (text * text)) (s : db) (i : Z) : Prop :=
  exists r, In r (d_index s) /\ ix_id r = i /\ forall k v, In (k, v) c -> label_is s r k v.
Definition known_columns (c : list (text * text)) (s : db) : Prop :=
  forall k v, In (k, v) c -> In k (d_labels s).

(** The mapping [m] but for its proportion. *)
Definition valued (s : db) (l o i : Z) (lv : list N) (v : Q) : Prop :=
  exists m, In m (d_maps s) /\ m_link m = l /\ m_other m = o /\ m_index m = i /\
            m_level m = lv /\ m_value m = v.
(** The proportions of the mappings of source record [o] follow their values. *)
Definition follows_values (l o : Z) (s : db) : Prop :=
  forall m, In m (from l o s) -> exists p, m_prop m = Some p /\
    (if Qeq_bool (Qsum (map m_value (from l o s))) 0
     then p * inject_Z (Z.of_nat (length (from l o s))) == 1
     else p * Qsum (map m_value (from l o s)) == m_value m)%Q.

Record deleted (D : Z -> Prop) (s s' : db) : Prop := {
  dl_index : forall r, In r (d_index s') <-> In r (d_index s) /\ ~ D (ix_id r);
  dl_weights : forall w, In w (d_weights s') <-> In w (d_weights s) /\ ~ D (w_index w);
  dl_maps : forall l o i lv v, valued s' l o i lv v <-> valued s l o i lv v /\ ~ D i;
  (** sources that lost a mapping are normalized again ... *)
  dl_sources : forall l o, (exists k, In k (d_links s) /\ k_id k = l) -> o <> 0%Z ->
    (exists m, In m (d_maps s) /\ m_other m = o /\ D (m_index m)) ->
    follows_values l o s' /\
    (from l o s' <> [] -> (Qsum (map share (from l o s')) == 1)%Q);
  (** ... and the others are as before. *)
  dl_others : forall m, (exists k, In k (d_links s) /\ k_id k = m_link m) ->
    (forall m0, In m0 (d_maps s) -> m_other m0 = m_other m -> ~ D (m_index m0)) ->
    (In m (d_maps s') <-> In m (d_maps s));
  dl_groups : map (fun g => (g_id g, g_name g)) (d_groups s') =
              map (fun g => (g_id g, g_name g)) (d_groups s);
  dl_links : map (fun k => (k_id k, k_other k, k_name k, k_default k)) (d_links s') =
             map (fun k => (k_id k, k_other k, k_name k, k_default k)) (d_links s)
}.
(** What makes the deletion of a set of records impossible. *)
Definition deletable (D : Z -> Prop) (s : db) : Prop :=
  forall i, D i -> i <> 0%Z /\ forall m, In m (d_maps s) -> m_index m = i -> unambiguous s m.

(** C48: weights of group [g] were removed, exactly those of the records in [D]. *)
Record unweighted (g : Z) (D : Z -> Prop) (s s' : db) : Prop := {
  un_same : d_index s' = d_index s /\ d_maps s' = d_maps s /\ d_links s' = d_links s;
  un_weights : forall w, In w (d_weights s') <-> In w (d_weights s) /\ ~ (w_group w = g /\ D (w_index w));
  un_none : (forall w, In w (d_weights s) -> ~ (w_group w = g /\ D (w_index w))) -> s' = s;
  un_cleared : (exists w, In w (d_weights s) /\ w_group w = g /\ D (w_index w)) ->
    forall x, In x (d_groups s') -> g_id x = g -> g_complete x = false;
  un_groups : map (fun g => (g_id g, g_name g)) (d_groups s') =
              map (fun g => (g_id g, g_name g)) (d_groups s);
  un_other_groups : forall x, g_id x <> g -> (In x (d_groups s') <-> In x (d_groups s))
}.

(** C48: mappings of link [l] were removed, exactly those in [X]. *)
Record unmapped (l : Z) (X : mapping -> Prop) (s s' : db) : Prop := {
  un_rest : d_index s' = d_index s /\ d_weights s' = d_weights s /\ d_groups s' = d_groups s /\
            d_labels s' = d_labels s;
  un_valued : forall l' o i lv v, valued s' l' o i lv v <->
    exists m, In m (d_maps s) /\ ~ X m /\ m_link m = l' /\ m_other m = o /\ m_index m = i /\
              m_level m = lv /\ m_value m = v;
  un_others : forall m, m_link m <> l -> (In m (d_maps s') <-> In m (d_maps s));
  un_nothing : (forall m, In m (d_maps s) -> ~ X m) -> s' = s;
  un_sources : (exists m, In m (d_maps s) /\ X m) -> forall o, (0 < o)%Z ->
    follows_values l o s' /\ (from l o s' <> [] -> (Qsum (map share (from l o s')) == 1)%Q);
  un_flag : (exists m, In m (d_maps s) /\ X m) -> forall k, In k (d_links s') -> k_id k = l ->
    (k_complete k = true <-> link_complete s' l);
  un_links : map (fun k => (k_id k, k_other k, k_name k, k_default k)) (d_links s') =
             map (fun k => (k_id k, k_other k, k_name k, k_default k)) (d_links s);
  un_other_links : forall k, k_id k <> l -> (In k (d_links s') <-> In k (d_links s))
}.
(** The mapping [m] is the one meant by a row for delete_mappings. *)
Definition row_means (s : db) (r : m_row) (m : mapping) : Prop :=
  m_other m = mr_other r /\ m_index m = mr_index r /\
  In {| ix_id := m_index m; ix_labels := mr_labels r |} (d_index s) /\
  (m_value m == mr_value r)%Q /\ unambiguous s m.
(** Every column that the level of [m] specifies is one of the criteria. *)
Definition within_criteria (s : db) (c : list (text * text)) (m : mapping) : Prop :=
  forall n, byte_bit (m_level m) n = true ->
    exists k v, nth_error (d_labels s) n = Some k /\ In (k, v) c.

(** C30: the table of links after a change that makes [new] a default or not. *)
Definition same_but_default (k k' : link) : Prop :=
  k_id k' = k_id k /\ k_other k' = k_other k /\ k_hint k' = k_hint k /\ k_name k' = k_name k /\
  k_selectors k' = k_selectors k /\ k_hash k' = k_hash k /\ k_complete k' = k_complete k.
(** A link that is not changed itself: it only loses its default status when another link
    to the space [other] takes it ([take]). *)
Definition bystander (take : bool) (other : text) (k k' : link) : Prop :=
  same_but_default k k' /\
  k_default k' = (if take && text_eqb (k_other k) other then false else k_default k).

(** A history in which the space is used through the connection that created it. *)
Definition one_session (ops : list op) : Prop := Forall (fun o => ~ is_reopen o) ops.
