(** What the loading calls count while they go through their rows, and the numbers that go to the log. *)
From Verif Require Import Prelude Selectors_Model BitFlags_Model LinkRef_Model Db_Model Report_Model.

(** The keys of the counters of [insert_index], [insert_weights] and [insert_mappings2]. *)
Inductive load :=
| LEmptyLabels | LLabelInserted | LLabelIgnored | LLabelReplaced | LWeightInserted | LWeightIgnored | LWeightReplaced
| LNotRealnum | LNoIndex | LMismatch | LNoMatch | LUndefined | LInserted | LSkipped | LOverwritten | LSummed
| LBadLevel | LUndefinedPair.

Definition load_eq_dec (a b : load) : {a = b} + {a <> b}.
Proof. decide equality. Defined.

Definition tallied {K} (dec : forall a b : K, {a = b} + {a <> b}) (k : K) (ks : list K) : nat := count_occ dec ks k.

(** The lines with numbers that a call writes to the log: those of [always], and of [rest] those whose number is not 0. *)
Definition log_lines {K} (dec : forall a b : K, {a = b} + {a <> b}) (always rest : list K) (ks : list K)
  : list (K * nat) :=
  map (fun k => (k, tallied dec k ks)) (always ++ filter (fun k => 0 <? tallied dec k ks) rest).

(** A loop over rows: [f] does one row and gives the keys that are counted for it. *)
Fixpoint count_rows {S R} (f : S -> R -> res (S * list load)) (rows : list R) (s : S) : res (S * list load) :=
  match rows with
  | [] => Ok (s, [])
  | r :: rows' =>
      do x <- f s r;
      do y <- count_rows f rows' (fst x);
      Ok (fst y, snd x ++ snd y)
  end.

(** *** insert_index *)

(** Models space.py lines 701-733: one weight cell. *)
Definition load_weight (pol : policy) (i : Z) (s : db) (gc : option group * cell) : res (db * list load) :=
  match gc with
  | (None, _) => Ok (s, [])
  | (Some g, CEmpty) => Ok (s, [])
  | (Some g, CBad) => Err ValueError
  | (Some g, CNum v) =>
      match weight_find (g_id g) i s with
      | Some _ =>
          match pol with
          | PAbort => Err ValueError
          | PIgnore => Ok (s, [LWeightIgnored])
          | PReplace => do s' <- weight_update (g_id g) i v s; Ok (s', [LWeightReplaced])
          | _ => Err ValueError
          end
      | None => do s' <- weight_add (g_id g) i v s; Ok (s', [LWeightInserted])
      end
  end.

(** Models space.py lines 656-699: the record that a row means. *)
Definition load_label (pol : policy) (s : db) (r : ins_row) : res (db * Z * list load) :=
  match ir_id r with
  | Some i =>
      do rec <- index_get i s;
      if nil_b (ir_labels r) || labels_eqb (ir_labels r) (ix_labels rec) then Ok (s, i, [])
      else match pol with
      | PAbort => Err ValueError
      | PIgnore => Ok (s, i, [LLabelIgnored])
      | PReplace => do s' <- index_update i (ir_labels r) s; Ok (s', i, [LLabelReplaced])
      | _ => Err ValueError
      end
  | None =>
      match index_add (ir_labels r) s with
      | Ok (s', i) => Ok (s', i, [LLabelInserted])
      | Err ValueError =>
          match index_by_labels (ir_labels r) s with
          | Some rec => Ok (s, ix_id rec, [])
          | None => Err ValueError
          end
      | Err e => Err e
      end
  end.

(** Models space.py lines 646-733: one row. *)
Definition load_index_row (lpol wpol : policy) (gs : list (option group)) (s : db) (r : ins_row)
  : res (db * list load) :=
  if existsb is_empty (ir_labels r) then Ok (s, [LEmptyLabels])
  else
    do x <- load_label lpol s r;
    do y <- count_rows (load_weight wpol (snd (fst x))) (combine gs (ir_cells r)) (fst (fst x));
    Ok (fst y, snd x ++ snd y).

(** Models space.py lines 575-761 [insert_index] with its counter. *)
Definition insert_index_report (wsel : option (list text)) (wcols : list text) (lpol wpol : policy)
  (rows : list ins_row) (s : db) : res (db * list load) :=
  if match wsel with
     | Some names => existsb (fun n => negb (existsb (text_eqb n) wcols)) names
     | None => false end then Err KeyError
  else if nil_b (d_labels s) then Err PlainException
  else
    do sel <- match wsel with
      | None => Ok (d_groups s)
      | Some names => traverse (fun n => match group_by_name n s with
                                         | Some g => Ok g | None => Err KeyError end) names
      end;
    let gs := map (fun c => find (fun g => text_eqb (g_name g) c) sel) wcols in
    do x <- count_rows (load_index_row lpol wpol gs) rows s;
    let label := 0 <? tallied load_eq_dec LLabelInserted (snd x) in
    let weight := 0 <? tallied load_eq_dec LWeightInserted (snd x) in
    let s1 := if label then clear_link_flags (refresh_hash (fst x)) else fst x in
    Ok (if label || weight then refresh_group_flags s1 else s1, snd x).

(** Models space.py lines 767-791: the numbers in the log. *)
Definition insert_index_log : list load -> list (load * nat) :=
  log_lines load_eq_dec []
    [LLabelInserted; LLabelIgnored; LLabelReplaced; LEmptyLabels; LWeightInserted; LWeightIgnored; LWeightReplaced].

(** *** insert_weights *)

Definition code_load (c : code) : load :=
  match c with CInserted => LInserted | CSkipped => LSkipped | COverwritten => LOverwritten | CSummed => LSummed end.

(** Models space.py lines 1337-1356: the last part of a row. *)
Definition load_weight_of (gid : Z) (pol : policy) (rec : ixrec) (v : Q) (s : db) : res (db * list load) :=
  if (ix_id rec =? 0)%Z then Ok (s, [LUndefined])
  else match add_or_resolve gid (ix_id rec) v pol s with
  | Ok (s', c) => Ok (s', [code_load c])
  | Err _ => Err PlainException
  end.

(** Models space.py lines 1305-1356: one row. *)
Definition load_weights_row (gid : Z) (pol : policy) (s : db) (r : w_row) : res (db * list load) :=
  match wr_cell r with
  | CNum v =>
      match wr_id r with
      | Some i =>
          match index_find i s with
          | Some rec => if labels_eqb (wr_labels r) (ix_labels rec) then load_weight_of gid pol rec v s
                        else Ok (s, [LMismatch])
          | None => Ok (s, [LNoIndex])
          end
      | None =>
          match index_by_labels (wr_labels r) s with
          | Some rec => load_weight_of gid pol rec v s
          | None => Ok (s, [LNoMatch])
          end
      end
  | _ => Ok (s, [LNotRealnum])
  end.

(** Models space.py lines 1270-1360 [insert_weights] with its counter. *)
Definition insert_weights_report (n : text) (pol : policy) (rows : list w_row) (s : db) : res (db * list load) :=
  match pol with
  | PInvalid => Err ValueError
  | _ =>
      do s0 <- match group_by_name n s with Some _ => Ok s | None => group_add n false s end;
      match group_by_name n s0 with
      | None => Err KeyError
      | Some g =>
          do x <- count_rows (load_weights_row (g_id g) pol) rows s0;
          Ok (if (0 <? tallied load_eq_dec LInserted (snd x)) && group_is_complete (g_id g) (fst x)
              then set_complete (g_id g) true (fst x) else fst x, snd x)
      end
  end.

(** Models space.py lines 1362-1389: the numbers in the log. *)
Definition insert_weights_log : list load -> list (load * nat) :=
  log_lines load_eq_dec [LInserted]
    [LSkipped; LOverwritten; LSummed; LNotRealnum; LUndefined; LNoIndex; LMismatch; LNoMatch].

(** *** insert_mappings2 *)

(** Models space.py lines 1789-1815: one row. *)
Definition load_mapping_row (l : Z) (s : db) (r : m_row) : res (db * list load) :=
  if negb (existsb (fun bits =>
             match mr_level r with
             | None => negb (existsb (fun b => b) bits)
             | Some lv => existsb (fun b => b) bits && bytes_eqb (bf_to_bytes (of_bits bits)) lv
             end) (d_structs s)) then Ok (s, [LBadLevel])
  else if (mr_other r =? 0)%Z && (mr_index r =? 0)%Z then Ok (s, [LUndefinedPair])
  else do s' <- map_add l (mr_other r) (mr_index r) (mr_level r) (mr_value r) None s;
       Ok (s', [LInserted]).

(** Models space.py lines 1747-1853 [insert_mappings2] with its counter. *)
Definition insert_mappings2_report (ref : text) (name : option text) (rows : list m_row) (s : db)
  : res (db * list load) :=
  do k <- get_link ref name true (d_links s);
  do x <- count_rows (load_mapping_row (k_id k)) rows s;
  do s' <- (if 0 <? tallied load_eq_dec LInserted (snd x) then refresh_link (k_id k) (fst x) else Ok (fst x));
  Ok (s', snd x).

(** Models space.py lines 1817-1853: the numbers in the log; the line that no mappings were loaded has the number 0. *)
Definition insert_mappings2_log : list load -> list (load * nat) :=
  log_lines load_eq_dec [LInserted] [LUndefinedPair; LBadLevel].

(** *** The logs of the calls of [Report_Model] that give no warning *)

(** Models space.py lines 1455-1474: the log of [update_weights]. *)
Definition update_weights_log : list kind -> list (kind * nat) :=
  log_lines kind_eq_dec [KUpdated] [KInserted; KNoIndex; KMismatch].
(** Models space.py lines 1569-1579: the log of [delete_weights]. *)
Definition delete_weights_log : list kind -> list (kind * nat) :=
  log_lines kind_eq_dec [KDeleted] [KMismatch; KNoIndex; KNoWeight].
