(** What the changing calls count while they go through their rows, and the warning made of it. *)
From Verif Require Import Prelude Selectors_Model BitFlags_Model LinkRef_Model Db_Model.

(** The keys of the counters, in the order of the table [warning_text] (space.py lines 119-135).  The keys of the calls
    that are not modelled here are left out. *)
Inductive kind :=
| KEmptyStr | KNoIndex | KMismatch | KValueMismatch | KBadLevel | KApproximate | KNoWeight | KNoMapping
| KMerged | KInserted | KUpdated | KDeleted.

Definition kind_eq_dec (a b : kind) : {a = b} + {a <> b}.
Proof. decide equality. Defined.

(** [warning_text] (space.py lines 119-135): its keys in order. *)
Definition warning_order : list kind :=
  [KEmptyStr; KNoIndex; KMismatch; KValueMismatch; KBadLevel; KApproximate; KNoWeight; KNoMapping;
   KMerged; KInserted; KUpdated; KDeleted].

(** [key in counter]: a counter is given by the list of the keys that were counted. *)
Definition counted (k : kind) (ks : list kind) : bool := if in_dec kind_eq_dec k ks then true else false.
Definition count (k : kind) (ks : list kind) : nat := count_occ kind_eq_dec ks k.
(** [k == expected]. *)
Definition is_kind (k e : kind) : bool := if kind_eq_dec k e then true else false.

(** Models space.py lines 101-147 [warn_if_issues].  [None]: no warning.  Otherwise the entries of the message in order;
    each is a text that is fixed for its key, with the number in it.  The replaced text of update_mappings (lines
    2060-2064) changes no number and no order. *)
Definition warn_if_issues (expected : kind) (ks : list kind) : option (list (kind * nat)) :=
  if forallb (fun k => is_kind k expected) ks then None
  else Some (map (fun k => (k, count k ks))
                 (filter (fun k => counted k ks && negb (is_kind k expected)) warning_order ++ [expected])).

(** A loop over rows: [f] does one row, [kinds] gives the keys that are counted for it in the state before it. *)
Fixpoint tally_rows {S R} (f : S -> R -> res S) (kinds : S -> R -> list kind) (rows : list R) (s : S)
  : res (S * list kind) :=
  match rows with
  | [] => Ok (s, [])
  | r :: rows' =>
      do s1 <- f s r;
      do x <- tally_rows f kinds rows' s1;
      Ok (fst x, kinds s r ++ snd x)
  end.

(** *** update_index *)

(** Models space.py lines 915-962: what is counted for one row. *)
Definition update_index_kinds (st : upd_state) (r : upd_row) : list kind :=
  if ur_blank r || existsb is_empty (ur_labels r) then [KEmptyStr]
  else match index_find (ur_id r) (us_db st) with
  | None => [KNoIndex]
  | Some _ =>
      match index_by_labels (ur_labels r) (us_db st) with
      | Some _ => [KMerged; KUpdated]
      | None => [KUpdated]
      end
  end.

(** Models space.py lines 890-989 [update_index] with its counter. *)
Definition update_index_report (merge : bool) (rows : list upd_row) (s : db) : res (db * list kind) :=
  do x <- tally_rows (update_index_row merge) update_index_kinds rows
            {| us_db := s; us_merged := []; us_updated := false |};
  Ok (if (0 <? count KMerged (snd x)) then raise_link_flags (raise_group_flags (refresh_hash (us_db (fst x))))
      else us_db (fst x), snd x).

(** *** delete_index *)

(** Models space.py lines 1030-1057: one row. *)
Definition delete_index_row (s : db) (r : del_row) : res db :=
  match index_find (dr_id r) s with
  | None => Ok s
  | Some rec => if labels_eqb (ix_labels rec) (dr_labels r) then delete_index_record (ix_id rec) s else Ok s
  end.
Definition delete_index_kinds (s : db) (r : del_row) : list kind :=
  match index_find (dr_id r) s with
  | None => [KNoIndex]
  | Some rec => if labels_eqb (ix_labels rec) (dr_labels r) then [KDeleted] else [KMismatch]
  end.

(** Models space.py lines 1005-1114 [delete_index] with [data], with its counter. *)
Definition delete_index_report (rows : list del_row) (s : db) : res (db * list kind) :=
  if nil_b rows then Err TypeError
  else
    do x <- tally_rows delete_index_row delete_index_kinds rows s;
    Ok (if (0 <? count KDeleted (snd x)) then after_delete (fst x) else fst x, snd x).

(** *** update_weights and delete_weights *)

(** Models space.py lines 1420-1449: one row of update_weights. *)
Definition update_weights_row (g : Z) (s : db) (r : uw_row) : res db :=
  match index_find (uw_id r) s with
  | None => Ok s
  | Some rec =>
      if negb (labels_eqb (uw_labels r) (ix_labels rec)) then Ok s
      else match weight_find g (uw_id r) s with
      | Some _ => weight_update g (uw_id r) (uw_value r) s
      | None => weight_add g (uw_id r) (uw_value r) s
      end
  end.
Definition update_weights_kinds (g : Z) (s : db) (r : uw_row) : list kind :=
  match index_find (uw_id r) s with
  | None => [KNoIndex]
  | Some rec =>
      if negb (labels_eqb (uw_labels r) (ix_labels rec)) then [KMismatch]
      else match weight_find g (uw_id r) s with
      | Some _ => [KUpdated]
      | None => [KInserted]
      end
  end.

(** Models space.py lines 1391-1474 [update_weights] with its counter, which goes to the log. *)
Definition update_weights_report (n : text) (rows : list uw_row) (s : db) : res (db * list kind) :=
  match group_by_name n s with
  | None => Err KeyError
  | Some g =>
      do x <- tally_rows (update_weights_row (g_id g)) (update_weights_kinds (g_id g)) rows s;
      Ok (if (0 <? count KInserted (snd x)) && group_is_complete (g_id g) (fst x)
          then set_complete (g_id g) true (fst x) else fst x, snd x)
  end.

(** Models space.py lines 1523-1545: one row of delete_weights. *)
Definition delete_weights_row (g : Z) (s : db) (r : del_row) : res db :=
  match index_find (dr_id r) s with
  | None => Ok s
  | Some rec =>
      if negb (labels_eqb (dr_labels r) (ix_labels rec)) then Ok s
      else match weight_find g (ix_id rec) s with
      | Some w => Ok (weight_delete (w_group w) (w_index w) s)
      | None => Ok s
      end
  end.
Definition delete_weights_kinds (g : Z) (s : db) (r : del_row) : list kind :=
  match index_find (dr_id r) s with
  | None => [KNoIndex]
  | Some rec =>
      if negb (labels_eqb (dr_labels r) (ix_labels rec)) then [KMismatch]
      else match weight_find g (ix_id rec) s with
      | Some _ => [KDeleted]
      | None => [KNoWeight]
      end
  end.

(** Models space.py lines 1491-1579 [delete_weights] with [data], with its counter, which goes to the log. *)
Definition delete_weights_report (n : text) (rows : list del_row) (s : db) : res (db * list kind) :=
  match group_by_name n s with
  | None => Err KeyError
  | Some g =>
      if nil_b rows then Err TypeError
      else
        do x <- tally_rows (delete_weights_row (g_id g)) (delete_weights_kinds (g_id g)) rows s;
        Ok (if (0 <? count KDeleted (snd x)) && g_complete g then set_complete (g_id g) false (fst x) else fst x,
            snd x)
  end.

(** *** insert_mappings, update_mappings and delete_mappings *)

(** Models space.py lines 1889-1917: one row of insert_mappings. *)
Definition insert_mapping_row (l : Z) (s : db) (r : m_row) : res db :=
  match index_find (mr_index r) s with
  | None => Ok s
  | Some rec =>
      if negb (labels_eqb (mr_labels r) (ix_labels rec)) then Ok s
      else if bad_level (mr_level r) s then Ok s
      else match map_add l (mr_other r) (mr_index r) (mr_level r) (mr_value r) None s with
           | Ok s' => Ok s'
           | Err _ => Err PlainException
           end
  end.
Definition insert_mapping_kinds (s : db) (r : m_row) : list kind :=
  match index_find (mr_index r) s with
  | None => [KNoIndex]
  | Some rec =>
      if negb (labels_eqb (mr_labels r) (ix_labels rec)) then [KMismatch]
      else if bad_level (mr_level r) s then [KBadLevel] else [KInserted]
  end.

(** Models space.py lines 1855-1945 [insert_mappings] with its counter. *)
Definition insert_mappings_report (ref : text) (name : option text) (rows : list m_row) (s : db)
  : res (db * list kind) :=
  do k <- get_link ref name true (d_links s);
  do x <- tally_rows (insert_mapping_row (k_id k)) insert_mapping_kinds rows s;
  do s' <- (if (0 <? count KInserted (snd x)) then refresh_link (k_id k) (fst x) else Ok (fst x));
  Ok (s', snd x).

(** Models space.py lines 1981-2026: one row of update_mappings. *)
Definition update_mapping_row (l : Z) (s : db) (r : m_row) : res db :=
  match index_find (mr_index r) s with
  | None => Ok s
  | Some rec =>
      if negb (labels_eqb (mr_labels r) (ix_labels rec)) then Ok s
      else if bad_level (mr_level r) s then Ok s
      else match map_find l (mr_other r) (mr_index r) s with
      | Some m =>
          match mr_level r with
          | None => Err SqlIntegrityError
          | Some lv => map_update m (with_value_level m (mr_value r) lv) s
          end
      | None => map_add l (mr_other r) (mr_index r) (mr_level r) (mr_value r) None s
      end
  end.
Definition update_mapping_kinds (l : Z) (s : db) (r : m_row) : list kind :=
  match index_find (mr_index r) s with
  | None => [KNoIndex]
  | Some rec =>
      if negb (labels_eqb (mr_labels r) (ix_labels rec)) then [KMismatch]
      else if bad_level (mr_level r) s then [KBadLevel]
      else match map_find l (mr_other r) (mr_index r) s with
      | Some _ => [KUpdated]
      | None => [KInserted]
      end
  end.

(** Models space.py lines 1947-2064 [update_mappings] with its counter. *)
Definition update_mappings_report (ref : text) (name : option text) (rows : list m_row) (s : db)
  : res (db * list kind) :=
  do k <- get_link ref name true (d_links s);
  do x <- tally_rows (update_mapping_row (k_id k)) (update_mapping_kinds (k_id k)) rows s;
  do s' <- (if (0 <? count KInserted (snd x)) then refresh_link (k_id k) (fst x)
            else if (0 <? count KUpdated (snd x)) then
              fold_res (fun s o => refresh_proportions (k_id k) o s) (distinct_others (k_id k) (fst x)) (fst x)
            else Ok (fst x));
  Ok (s', snd x).

(** Models space.py lines 2128-2167: one row of delete_mappings. *)
Definition delete_mapping_row (l : Z) (s : db) (r : m_row) : res db :=
  match index_find (mr_index r) s with
  | None => Ok s
  | Some rec =>
      if negb (labels_eqb (mr_labels r) (ix_labels rec)) then Ok s
      else match map_find l (mr_other r) (mr_index r) s with
      | None => Ok s
      | Some m =>
          if negb (Qeq_bool (m_value m) (mr_value r)) then Ok s
          else if negb (bytes_eqb (m_level m) (whole_level s)) then Ok s
          else Ok (map_delete m s)
      end
  end.
Definition delete_mapping_kinds (l : Z) (s : db) (r : m_row) : list kind :=
  match index_find (mr_index r) s with
  | None => [KNoIndex]
  | Some rec =>
      if negb (labels_eqb (mr_labels r) (ix_labels rec)) then [KMismatch]
      else match map_find l (mr_other r) (mr_index r) s with
      | None => [KNoMapping]
      | Some m =>
          if negb (Qeq_bool (m_value m) (mr_value r)) then [KValueMismatch]
          else if negb (bytes_eqb (m_level m) (whole_level s)) then [KApproximate]
          else [KDeleted]
      end
  end.

(** Models space.py lines 2082-2209 [delete_mappings] with [data], with its counter. *)
Definition delete_mappings_report (ref : text) (name : option text) (rows : list m_row) (s : db)
  : res (db * list kind) :=
  do k <- get_link ref name true (d_links s);
  if nil_b rows then Err TypeError
  else
    do x <- tally_rows (delete_mapping_row (k_id k)) (delete_mapping_kinds (k_id k)) rows s;
    do s' <- (if (0 <? count KDeleted (snd x)) then refresh_link (k_id k) (fst x) else Ok (fst x));
    Ok (s', snd x).
