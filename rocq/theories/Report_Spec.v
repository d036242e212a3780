(** C73: what a call may say about its rows. *)
From Verif Require Import Prelude Selectors_Model BitFlags_Model LinkRef_Model Db_Model Db_Spec Report_Model.

(** The rows are done one after the other; [told s r ks s']: what may be counted ([ks]) for the row [r] if the space is [s]
    before the row and [s'] after it. *)
Inductive story {R K} (told : db -> R -> list K -> db -> Prop) : db -> list R -> list K -> db -> Prop :=
| story_nil s : story told s [] [] s
| story_cons s r ks s1 rows ks' s' : told s r ks s1 -> story told s1 rows ks' s' ->
    story told s (r :: rows) (ks ++ ks') s'.

Definition matches (s : db) (i : Z) (labels : list text) : Prop := In {| ix_id := i; ix_labels := labels |} (d_index s).
Definition differs (s : db) (i : Z) (labels : list text) : Prop :=
  exists other, other <> labels /\ matches s i other.

(** A row is left out because there is no record with its id or because that record has other labels. *)
Definition left_out (s : db) (i : Z) (labels : list text) (ks : list kind) (s' : db) : Prop :=
  s' = s /\ ((ks = [KNoIndex] /\ ~ has_index s i) \/ (ks = [KMismatch] /\ differs s i labels)).

(** delete_index. *)
Definition told_delete_index (s : db) (r : del_row) (ks : list kind) (s' : db) : Prop :=
  left_out s (dr_id r) (dr_labels r) ks s' \/
  (ks = [KDeleted] /\ matches s (dr_id r) (dr_labels r) /\ S (length (d_index s')) = length (d_index s) /\
   forall x, In x (d_index s') <-> In x (d_index s) /\ ix_id x <> dr_id r).

(** update_index: a record with the new labels is merged into the record of the row. *)
Definition relabelled (i : Z) (labels : list text) (x : ixrec) : ixrec :=
  if (ix_id x =? i)%Z then {| ix_id := i; ix_labels := labels |} else x.
Definition told_update_index (s : db) (r : upd_row) (ks : list kind) (s' : db) : Prop :=
  (ks = [KEmptyStr] /\ (ur_blank r = true \/ In [] (ur_labels r)) /\ s' = s) \/
  (ks = [KNoIndex] /\ ~ has_index s (ur_id r) /\ s' = s) \/
  (ks = [KUpdated] /\ has_index s (ur_id r) /\ (forall i, ~ matches s i (ur_labels r)) /\
   d_index s' = map (relabelled (ur_id r) (ur_labels r)) (d_index s)) \/
  (ks = [KMerged; KUpdated] /\ has_index s (ur_id r) /\
   exists j, matches s j (ur_labels r) /\ S (length (d_index s')) = length (d_index s) /\
     d_index s' = map (relabelled (ur_id r) (ur_labels r))
                      (filter (fun x => negb (ix_id x =? j)%Z) (d_index s))).

(** Weights. *)
Definition is_weight_of (g i : Z) (w : weight) : Prop := w_group w = g /\ w_index w = i.
Definition weighted (s : db) (g i : Z) : Prop := exists w, In w (d_weights s) /\ is_weight_of g i w.
Definition told_update_weights (g : Z) (s : db) (r : uw_row) (ks : list kind) (s' : db) : Prop :=
  let new := {| w_group := g; w_index := uw_id r; w_value := uw_value r |} in
  left_out s (uw_id r) (uw_labels r) ks s' \/
  (s' = set_weights (d_weights s') s /\ matches s (uw_id r) (uw_labels r) /\
   ((ks = [KUpdated] /\ weighted s g (uw_id r) /\ length (d_weights s') = length (d_weights s) /\
     forall w, In w (d_weights s') <-> w = new \/ (In w (d_weights s) /\ ~ is_weight_of g (uw_id r) w)) \/
    (ks = [KInserted] /\ ~ weighted s g (uw_id r) /\ d_weights s' = d_weights s ++ [new]))).
Definition told_delete_weights (g : Z) (s : db) (r : del_row) (ks : list kind) (s' : db) : Prop :=
  left_out s (dr_id r) (dr_labels r) ks s' \/
  (s' = set_weights (d_weights s') s /\ matches s (dr_id r) (dr_labels r) /\
   ((ks = [KNoWeight] /\ ~ weighted s g (dr_id r) /\ s' = s) \/
    (ks = [KDeleted] /\ weighted s g (dr_id r) /\ S (length (d_weights s')) = length (d_weights s) /\
     forall w, In w (d_weights s') <-> In w (d_weights s) /\ ~ is_weight_of g (dr_id r) w))).

(** Mappings. *)
Definition unknown_level (s : db) (lv : option (list N)) : Prop :=
  exists b, lv = Some b /\ b <> [] /\ forall bits, In bits (d_structs s) -> bf_eqb (of_bits bits) (of_bytes b) = false.
Definition is_mapping_of (l o i : Z) (m : mapping) : Prop := m_link m = l /\ m_other m = o /\ m_index m = i.
Definition mapped_to (s : db) (l o i : Z) : Prop := exists m, In m (d_maps s) /\ is_mapping_of l o i m.
Definition new_mapping (l : Z) (r : m_row) (lv : list N) : mapping :=
  {| m_link := l; m_other := mr_other r; m_index := mr_index r; m_level := lv; m_value := mr_value r; m_prop := None |}.

Definition told_insert_mappings (l : Z) (s : db) (r : m_row) (ks : list kind) (s' : db) : Prop :=
  left_out s (mr_index r) (mr_labels r) ks s' \/
  (s' = set_maps (d_maps s') s /\ matches s (mr_index r) (mr_labels r) /\
   ((ks = [KBadLevel] /\ unknown_level s (mr_level r) /\ s' = s) \/
    (ks = [KInserted] /\ ~ unknown_level s (mr_level r) /\
     exists lv, mr_level r = Some lv /\ d_maps s' = d_maps s ++ [new_mapping l r lv]))).
Definition told_update_mappings (l : Z) (s : db) (r : m_row) (ks : list kind) (s' : db) : Prop :=
  told_insert_mappings l s r ks s' /\ (ks = [KInserted] -> ~ mapped_to s l (mr_other r) (mr_index r)) \/
  (s' = set_maps (d_maps s') s /\ matches s (mr_index r) (mr_labels r) /\
   ks = [KUpdated] /\ ~ unknown_level s (mr_level r) /\ length (d_maps s') = length (d_maps s) /\
   exists m lv, In m (d_maps s) /\ is_mapping_of l (mr_other r) (mr_index r) m /\ mr_level r = Some lv /\
     forall x, In x (d_maps s') <->
       x = with_value_level m (mr_value r) lv \/ (In x (d_maps s) /\ x <> m)).
Definition told_delete_mappings (l : Z) (s : db) (r : m_row) (ks : list kind) (s' : db) : Prop :=
  left_out s (mr_index r) (mr_labels r) ks s' \/
  (s' = set_maps (d_maps s') s /\ matches s (mr_index r) (mr_labels r) /\
   ((ks = [KNoMapping] /\ ~ mapped_to s l (mr_other r) (mr_index r) /\ s' = s) \/
    exists m, In m (d_maps s) /\ is_mapping_of l (mr_other r) (mr_index r) m /\
      ((ks = [KValueMismatch] /\ ~ (m_value m == mr_value r)%Q /\ s' = s) \/
       (ks = [KApproximate] /\ (m_value m == mr_value r)%Q /\ m_level m <> whole_level s /\ s' = s) \/
       (ks = [KDeleted] /\ (m_value m == mr_value r)%Q /\ m_level m = whole_level s /\
        S (length (d_maps s')) = length (d_maps s) /\
        forall x, In x (d_maps s') <-> In x (d_maps s) /\ x <> m)))).

(** The warning: none if all that happened is what was expected; otherwise every kind of thing that happened, with its
    number, once, and at the end the number of expected ones. *)
Definition told_all (expected : kind) (ks : list kind) (msg : list (kind * nat)) : Prop :=
  NoDup (map fst msg) /\
  (forall k n, In (k, n) msg <-> (In k ks \/ k = expected) /\ n = count k ks) /\
  exists front, msg = front ++ [(expected, count expected ks)].
