(** Model of the granularities stored with the structure table and of the calls that set them.

    Sources: src/toron/data_service.py lines 784-814 [rebuild_structure_table], lines 927-986
    [refresh_structure_granularity], [refresh_or_rebuild_structure_granularity];
    src/toron/space.py lines 279-363, 420-573, 575-770, 890-989, 1018-1112;
    src/toron/dal1/repositories.py lines 278-345 [StructureRepository].

    Simplifications that hold for the whole file:
    - those of Db_Model and Granularity_Model: in particular granularities are real numbers;
    - which partitions a call defines is not computed here (see C01-C03 and C52): the sets of
      label columns that make_structure yields are part of the call;
    - rows are told apart by their bits, not by their id, and stand in storage order; every row is
      updated by itself, so that the order of [get_all] does not matter here. *)
From Verif Require Import Prelude Selectors_Model LinkRef_Model Db_Model Granularity_Model.
From Coq Require Import Reals.

(** schema.py lines 137-141 and 284-287: a row of [label_structure], bits and granularity. *)
Definition srow := (list bool * option R)%type.
(** [gs_rows]: the structure table, of which [d_structs (gs_db s)] shows the bits.  [gs_defs]: the
    property [partition_definitions] is there and is not empty. *)
Record gspace := { gs_db : db; gs_defs : bool; gs_rows : list srow }.
Definition with_rows (d : db) (defs : bool) (rows : list srow) : gspace :=
  {| gs_db := set_structs (map fst rows) d; gs_defs := defs; gs_rows := rows |}.
(** A new space. *)
Definition gfresh : gspace := {| gs_db := fresh; gs_defs := false; gs_rows := [] |}.

(** Models data_service.py lines 784-814 [rebuild_structure_table] for the sets [pdefs], which
    lines 817-846 [add_partition_definitions] have checked; the computation of optimizations.py is
    used (line 793). *)
Definition rebuild (pdefs : list (list text)) (d : db) : res (list srow) :=
  if nil_b (d_labels d) then Err RuntimeError
  else if negb (forallb (forallb (fun c => existsb (text_eqb c) (d_labels d))) pdefs) then Err ValueError
  else traverse (fun pdef => do g <- optimized_granularity pdef d;
                             Ok (map (fun c => existsb (text_eqb c) pdef) (d_labels d), g)) pdefs.

(** Models data_service.py lines 927-946 [refresh_structure_granularity]. *)
Definition refresh (rows : list srow) (d : db) : res (list srow) :=
  traverse (fun r => do g <- structure_granularity (fst r) d; Ok (fst r, g)) rows.

(** Models data_service.py lines 949-986 [refresh_or_rebuild_structure_granularity]; the structure
    of the whole space alone is the empty set and the whole. *)
Definition refresh_or_rebuild (d : db) (s : gspace) : res gspace :=
  if gs_defs s then do rows <- refresh (gs_rows s) d; Ok (with_rows d true rows)
  else do rows <- rebuild [[]; d_labels d] d; Ok (with_rows d true rows).

(** [counter['label_inserted']] of a call of insert_index that returns (space.py lines 628-733; see
    [insert_index] in Db_Model). *)
Definition label_inserted (wsel : option (list text)) (wcols : list text) (lpol wpol : policy)
  (rows : list ins_row) (s : db) : bool :=
  match (
    do sel <- match wsel with
      | None => Ok (d_groups s)
      | Some names => traverse (fun n => match group_by_name n s with
                                         | Some g => Ok g | None => Err KeyError end) names
      end;
    fold_res (insert_index_row lpol wpol (map (fun c => find (fun g => text_eqb (g_name g) c) sel) wcols)) rows
      {| is_db := s; is_label := false; is_weight := false |})
  with Ok st => is_label st | Err _ => false end.
(** [counter['merged'] or counter['updated']] (space.py line 961). *)
Definition index_updated (merge : bool) (rows : list upd_row) (s : db) : bool :=
  match fold_res (update_index_row merge) rows {| us_db := s; us_merged := []; us_updated := false |} with
  | Ok st => negb (nil_b (us_merged st)) || us_updated st
  | Err _ => false
  end.
(** [counter['deleted']] (space.py line 1066) with [data]. *)
Definition rows_deleted (rows : list del_row) (s : db) : bool :=
  match fold_res (fun x r =>
              match index_find (dr_id r) (fst x) with
              | None => Ok x
              | Some rec =>
                  if labels_eqb (ix_labels rec) (dr_labels r)
                  then do s' <- delete_index_record (ix_id rec) (fst x); Ok (s', true)
                  else Ok x
              end) rows (s, false) with
  | Ok x => snd x
  | Err _ => false
  end.

(** What a call that returns does to the structure table; [d] is the database after it.  Models
    space.py lines 738-753 (insert_index), 961-968 (update_index), 1066-1078 (delete_index); the
    other calls leave the table alone. *)
Definition regrade (o : op) (d : db) (s : gspace) : res gspace :=
  let again := do rows <- refresh (gs_rows s) d; Ok (with_rows d (gs_defs s) rows) in
  let same := Ok (with_rows d (gs_defs s) (gs_rows s)) in
  match o with
  | OInsertIndex wsel wcols lp wp rows =>
      if label_inserted wsel wcols lp wp rows (gs_db s) then refresh_or_rebuild d s else same
  | OUpdateIndex merge rows => if index_updated merge rows (gs_db s) then again else same
  | ODeleteIndexRows rows => if rows_deleted rows (gs_db s) then again else same
  | ODeleteIndexCriteria c => if nil_b (filter_by_label c (gs_db s)) then same else again
  | _ => same
  end.

(** Calls.  [GDb] is a call of Db_Model that concerns neither label columns nor partitions; with
    such a call it does nothing, as they are given by the other four. *)
Inductive gop :=
| GDb (o : op)
| GAddColumns (cols : list text) (pdefs : list (list text))
| GRenameColumns (m : list (text * text))
| GDropColumns (cols : list text) (clash : bool)
| GPartition (pdefs : list (list text)).

Definition by_other_call (o : op) : bool :=
  match o with OAddColumns _ | ORenameColumns _ | ODropColumns _ _ | OSetStructure _ => true | _ => false end.

(** Every call runs in a transaction (but reify_mappings, which keeps what it did). *)
Definition finish (x : res gspace) (s : gspace) : gspace * option exn :=
  match x with Ok s' => (s', None) | Err e => (s, Some e) end.
Definition gstep (o : gop) (s : gspace) : gspace * option exn :=
  match o with
  | GDb o =>
      if by_other_call o then (s, None)
      else match step o (gs_db s) with
           | (d, None) => finish (regrade o d s) s
           | (d, Some e) => (with_rows d (gs_defs s) (gs_rows s), Some e)
           end
  | GAddColumns cols pdefs =>
      (** space.py lines 454-523 [add_index_columns]; the table is made anew in the end. *)
      match step (OAddColumns cols) (gs_db s) with
      | (d, None) => finish (do rows <- rebuild pdefs d; Ok (with_rows d true rows)) s
      | (_, Some e) => (s, Some e)
      end
  | GRenameColumns m =>
      (** space.py lines 420-447 and 525-551: the table is left alone. *)
      match step (ORenameColumns m) (gs_db s) with
      | (d, None) => (with_rows d (gs_defs s) (gs_rows s), None)
      | (_, Some e) => (s, Some e)
      end
  | GDropColumns cols clash =>
      (** space.py lines 553-573 [drop_index_columns]: the columns of the table are removed. *)
      let flags := map (fun c => negb (existsb (text_eqb c) cols)) (d_labels (gs_db s)) in
      match step (ODropColumns cols clash) (gs_db s) with
      | (d, None) => (with_rows d (gs_defs s) (map (fun r => (keep flags (fst r), snd r)) (gs_rows s)), None)
      | (_, Some e) => (s, Some e)
      end
  | GPartition pdefs =>
      (** space.py lines 279-363: adding and dropping partition definitions. *)
      finish (do rows <- rebuild pdefs (gs_db s); Ok (with_rows (gs_db s) true rows)) s
  end.
Definition grun (ops : list gop) : gspace := fold_left (fun s o => fst (gstep o s)) ops gfresh.
