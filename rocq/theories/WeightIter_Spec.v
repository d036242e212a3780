(** C59: what reading and translating weights must achieve. *)
From Verif Require Import Prelude Streams_Model Selectors_Model LinkRef_Model LinkRef_Spec Db_Model Db_Spec
  Reader_Model Reader_Spec WeightIter_Model.
From Coq Require Import Permutation Sorted.
Local Notation row := Selectors_Model.row.

(** Reading the stream gives exactly these elements and no error. *)
Definition reads {A} (s : stream A) (l : list A) : Prop := s = chain l Stop.

(** *** Amounts *)

Definition mine (a : row) (d : item) : bool := row_eqb (it_attrs d) a.
Definition value (d : item) : Q := val (it_value d).
(** What the tuples with these attributes add up to, altogether and at one record. *)
Definition total (a : row) (l : list item) : Q := Qsum (map value (filter (mine a) l)).
Definition amount (a : row) (t : Z) (l : list item) : Q :=
  Qsum (map value (filter (fun d => mine a d && (ix_id (it_index d) =? t)%Z) l)).

(** *** Weights *)

(** The weight of record [i] in group [g]. *)
Definition weighs (s : db) (g i : Z) (v : option Q) : Prop :=
  match v with
  | Some q => exists w, In w (d_weights s) /\ w_group w = g /\ w_index w = i /\ w_value w = q
  | None => forall w, In w (d_weights s) -> ~ (w_group w = g /\ w_index w = i)
  end.
(** The cell of the table: undefined records weigh nothing. *)
Definition shows (s : db) (g i : Z) (c : weight_cell) : Prop :=
  exists v, weighs s g i v /\ c = match v with Some q => WNum q | None => if (i =? 0)%Z then WNum 0 else WNone end.

(** *** Translation *)

(** The links of the space [uid] that a selector can choose: whether they are up to date is not checked. *)
Definition offered (links : list link) (uid : text) (k : link) : Prop :=
  In k links /\ k_other k = uid /\ k_complete k = true /\ k_selectors k <> [].
(** The default link, up to date and complete. *)
Definition fallback (links : list link) (uid : text) (h : list Z) (k : link) : Prop :=
  current links uid h k /\ k_complete k = true /\ k_default k = true.

(** One mapping applied to a tuple with the value [v]. *)
Definition applied (target : db) (d : item) (v : Q) (m : mapping) (x : item) : Prop :=
  In (it_index x) (d_index target) /\ ix_id (it_index x) = m_index m /\ it_attrs x = it_attrs d /\
  exists p, m_prop m = Some p /\ it_value x = Some (v * p)%Q.
(** A tuple is replaced by the shares of all mappings of its record; one without a value by nothing. *)
Definition replaced (target : db) (choice : row -> Z -> Prop) (d : item) (out : list item) : Prop :=
  match it_value d with
  | None => out = []
  | Some v => exists k, choice (it_attrs d) k /\ Forall2 (applied target d v) (from k (ix_id (it_index d)) target) out
  end.

(** The tuples lie on records of the space with index hash [h]. *)
Definition lies_on (h : list Z) (l : list item) : Prop := forall d, In d l -> In (ix_id (it_index d)) h.
(** All links of [uid] that can be chosen are up to date. *)
Definition all_current (links : list link) (uid : text) (h : list Z) : Prop :=
  forall k, In k (find_links_by_ref uid links) -> k_complete k = true -> k_selectors k <> [] -> k_hash k = Some h.

(** What a value at source record [i] adds to record [t] over the link [k]. *)
Definition passes (s : db) (k i t : Z) (v : Q) : Q :=
  (v * Qsum (map share (filter (fun m => (m_index m =? t)%Z) (from k i s))))%Q.
(** The part of the total that is not on the undefined record. *)
Definition placed (a : row) (l : list item) : Q :=
  Qsum (map value (filter (fun d => mine a d && negb (ix_id (it_index d) =? 0)%Z) l)).

(** A reader holds the same quantities as the tuples. *)
Definition same_contents (r : reader) (l : list item) : Prop :=
  Forall2 (fun q d => q_index q = ix_id (it_index d) /\ q_value q = it_value d /\
                      exists a, In a (r_attrs r) /\ a_id a = q_attr q /\ a_attrs a = it_attrs d) (r_quants r) l.

(** A space that can be made, under the id [uid]. *)
Definition made (ops : list op) (x : wspace) : Prop :=
  Forall honest ops /\ one_session ops /\ ws_db x = run ops fresh.

(** All links from each space to the next that a selector can choose are up to date. *)
Fixpoint route_current (uid : text) (h : list Z) (xs : list wspace) : Prop :=
  match xs with
  | [] => True
  | x :: xs' => all_current (d_links (ws_db x)) uid h /\ route_current (ws_id x) (d_hash (ws_db x)) xs'
  end.

(** The tuples at each stop of [qi >> x1 >> x2 >> ...], the first being those of [qi]. *)
Definition stages (upper : text -> text) (qi : qiter) (xs : list wspace) (ls : list (list item)) : Prop :=
  length ls = S (length xs) /\
  forall j, (j <= length xs)%nat -> exists l, nth_error ls j = Some l /\ reads (qi_data (translate_all upper qi (firstn j xs))) l.

(** *** Tables *)

(** The tuples of the weights called [name] of the records chosen by the criteria. *)
Record weights_of (s : db) (name : text) (g : Z) (c : list (text * text)) (l : list item) : Prop := {
  wo_once : NoDup (map (fun d => ix_id (it_index d)) l);
  wo_records : forall r, In r (map it_index l) <->
                 In r (d_index s) /\ ix_id r <> 0%Z /\ forall k v, In (k, v) c -> label_is s r k v;
  wo_item : forall d, In d l -> it_attrs d = [(txt "weight", name)] /\ weighs s g (ix_id (it_index d)) (it_value d)
}.
(** The weights of the group altogether. *)
Definition group_total (s : db) (g : Z) : Q := Qsum (map w_value (filter (fun w => (w_group w =? g)%Z) (d_weights s))).

(** The record [r] in the table of the weight groups [gs] of a space with the domain [dom]. *)
Definition table_row (s : db) (dom : text) (gs : list group) (r : ixrec) (cells : list weight_cell) : Prop :=
  exists ws, cells = [WId (ix_id r)] ++ (match dom with [] => [] | _ => [WText dom] end) ++ map WText (ix_labels r) ++ ws /\
    Forall2 (fun g c => shows s (g_id g) (ix_id r) c) gs ws.
Definition table_head (s : db) (dom : text) (gs : list group) : list weight_cell :=
  [WText (txt "index_id")] ++ (match dom with [] => [] | _ => [WText (txt "domain")] end) ++ map WText (d_labels s) ++
  map (fun g => WText (g_name g)) gs.
(** The groups asked for; all of them are in the order of their names. *)
Definition asked (s : db) (names : option (list text)) (gs : list group) : Prop :=
  match names with
  | Some ns => Forall2 (fun n g => In g (d_groups s) /\ g_name g = n) ns gs
  | None => Permutation gs (d_groups s) /\ StronglySorted (fun g h => text_ltb (g_name g) (g_name h) = true) gs
  end.

(** The domain, if there is one. *)
Definition with_domain {A} (dom : text) (a : A) (l : list A) : list A := match dom with [] => l | _ => a :: l end.
(** The row of a tuple: labels, domain, attributes, value. *)
Definition row_shows (dom : text) (keys : list text) (d : item) (r : list out_cell) : Prop :=
  exists attrs, r = map OText (ix_labels (it_index d)) ++ with_domain dom (OText dom)
                      (attrs ++ [match it_value d with Some q => ONum q | None => ONone end]) /\
    Forall2 (fun k c => match c with
                        | OText t => dict_get k (it_attrs d) = Some t
                        | ONone => dict_get k (it_attrs d) = None
                        | ONum _ => False
                        end) keys attrs.
