From Verif Require Import Prelude Partitions_Model Partitions_Spec Partitions_Proofs Columns_Model Columns_Spec Columns_Proofs
  Columns_Proofs2 Columns_Proofs3 Legacy_Model Legacy_Spec Legacy_Proofs.
From Coq Require Import Permutation.
Local Open Scope nat_scope.

Lemma rename_body_eq m cols s : rename_body m cols s =
  (do s <- remake cols None (drop_constraints s); do _ <- verify_refs s; do s <- add_constraints s;
   Ok (with_pdefs (c_defs (rename_defs m (view s))) s)).
Proof.
  unfold rename_body, remake. cbn [what_of]. destruct (rebuild_table "new_label_index" _ _ _ _ _ _) as [s1|]; cbn [bind]; [|reflexivity].
  destruct (rebuild_table "new_location" _ _ _ _ _ _) as [s2|]; cbn [bind]; [|reflexivity].
  destruct (rebuild_table "new_structure" _ _ _ _ _ _) as [s3|]; reflexivity.
Qed.
Lemma drop_body_eq keep s : drop_body keep s =
  (do s <- remake keep (Some keep) (drop_constraints s); do _ <- verify_refs s; add_constraints s).
Proof.
  unfold drop_body, remake. cbn [what_of fixed app]. destruct (rebuild_table "new_label_index" _ _ _ _ _ _) as [s1|]; cbn [bind]; [|reflexivity].
  destruct (rebuild_table "new_location" _ _ _ _ _ _) as [s2|]; cbn [bind]; [|reflexivity].
  destruct (rebuild_table "new_structure" _ _ _ _ _ _) as [s3|]; reflexivity.
Qed.

(* -------------------------------------------------------- the wished tables *)
Lemma wf_get_columns s cols : space_wf s cols -> get_columns s = cols.
Proof. intros W. destruct (sw_index _ _ W) as (t & T & X & _). unfold get_columns. rewrite T, (tw_cols _ _ _ _ X). reflexivity. Qed.

Lemma sel_none t : sel_rows None t = t_rows t.
Proof. unfold sel_rows, select_row. apply map_id. Qed.

Lemma good_none auto k cols labels t : table_wf auto k cols t -> length labels = length cols -> good_rows k labels None t.
Proof.
  intros W L. unfold good_rows. cbn [what_of]. rewrite sel_none. split; [|split].
  - rewrite (tw_cols _ _ _ _ W), !app_length. lia.
  - apply forallb_forall. exact (tw_cells _ _ _ _ W).
  - exact (tw_ids _ _ _ _ W).
Qed.

(* -------------------------------------------------------- kept cells *)
Fixpoint keep_row (drop cols : list string) (row : list scell) : list scell :=
  match cols, row with
  | c :: cols', v :: row' => if lmem c drop then keep_row drop cols' row' else v :: keep_row drop cols' row'
  | _, _ => []
  end.
Lemma keep_row_kept drop cols row : length row = length cols -> kept drop cols row (keep_row drop cols row).
Proof.
  revert row. induction cols as [|c cols IH]; intros [|v row] L; cbn in L; try discriminate; cbn [keep_row]; [constructor|].
  destruct (lmem c drop) eqn:E.
  - apply kept_out; [now apply lmem_iff|]. apply IH. lia.
  - apply kept_in; [now apply lmem_false|]. apply IH. lia.
Qed.
Lemma kept_fun drop cols row r : kept drop cols row r -> r = keep_row drop cols row.
Proof.
  induction 1 as [|c cols v row r N K IH|c cols v row r N K IH]; cbn [keep_row]; [reflexivity| |].
  - apply lmem_false in N. rewrite N. now f_equal.
  - apply lmem_iff in N. rewrite N. exact IH.
Qed.
Definition keeps (drop : list string) (cols : list string) : list string := filter (fun c => negb (lmem c drop)) cols.
Lemma keeps_without drop cols : without drop cols (keeps drop cols).
Proof.
  induction cols as [|c cols IH]; cbn [keeps filter]; [constructor|]. destruct (lmem c drop) eqn:E; cbn [negb].
  - apply wo_out; [now apply lmem_iff|exact IH].
  - apply wo_in; [now apply lmem_false|exact IH].
Qed.
Lemma keeps_app drop a b : keeps drop (a ++ b) = keeps drop a ++ keeps drop b.
Proof. apply filter_app. Qed.
Lemma keeps_fixed drop k : (forall c, In c drop -> ~ reserved_name c) -> keeps drop (fixed k) = fixed k.
Proof.
  intros H. assert (X : forall c, In c (fixed k) -> negb (lmem c drop) = true).
  { intros c Hc. apply negb_true_iff, lmem_false. intro Q. apply (H c Q). unfold reserved_name. destruct k; cbn in Hc; cbn; intuition (subst; tauto). }
  unfold keeps. revert X. generalize (fixed k). intros l X. induction l as [|c l IH]; [reflexivity|]. cbn [filter]. rewrite (X c (or_introl eq_refl)).
  f_equal. apply IH. intros d Hd. apply X. now right.
Qed.
Lemma value_keep drop cols row : sql_distinct cols = true -> length row = length cols ->
  map (fun c => value_of c cols row) (keeps drop cols) = keep_row drop cols row.
Proof.
  revert row. induction cols as [|c cols IH]; intros [|v row] D L; cbn in L; try discriminate; [reflexivity|].
  apply sql_distinct_cons in D as [F D]. cbn [keeps filter keep_row]. fold (keeps drop cols).
  assert (X : map (fun x => value_of x (c :: cols) (v :: row)) (keeps drop cols) = keep_row drop cols row).
  { rewrite <- (IH row D) by lia. apply map_ext_in. intros x Hx. apply filter_In in Hx as [Hx _]. cbn [value_of].
    now rewrite sql_sym, (F x Hx). }
  destruct (lmem c drop); cbn [negb map]; [exact X|]. rewrite X. f_equal. cbn [value_of]. now rewrite sql_refl.
Qed.
Lemma keep_row_app drop a b row : length row = length (a ++ b) ->
  keep_row drop (a ++ b) row = keep_row drop a (firstn (length a) row) ++ keep_row drop b (skipn (length a) row).
Proof.
  revert row. induction a as [|c a IH]; intros row L; [reflexivity|]. destruct row as [|v row]; [discriminate|]. cbn [app keep_row length firstn skipn].
  cbn in L. rewrite (IH row) by lia. now destruct (lmem c drop).
Qed.
Lemma keep_row_all drop a row : keeps drop a = a -> length row = length a -> keep_row drop a row = row.
Proof.
  revert row. induction a as [|c a IH]; intros [|v row] K L; cbn in L; try discriminate; [reflexivity|]. cbn [keep_row]. unfold keeps in K. cbn [filter] in K.
  destruct (lmem c drop) eqn:E; cbn [negb] in K.
  - exfalso. assert (Q : In c (filter (fun c => negb (lmem c drop)) a)) by (rewrite K; now left). apply filter_In in Q as [_ Q]. now rewrite E in Q.
  - f_equal. apply IH; [injection K as K; exact K|lia].
Qed.
Lemma keep_labels drop k cols row : (forall c, In c drop -> ~ reserved_name c) -> length row = length (fixed k ++ cols) ->
  keep_row drop (fixed k ++ cols) row = firstn (length (fixed k)) row ++ keep_row drop cols (labels_in k row) /\
  labels_in k (keep_row drop (fixed k ++ cols) row) = keep_row drop cols (labels_in k row) /\
  (k <> KOther -> row_id (keep_row drop (fixed k ++ cols) row) = row_id row).
Proof.
  intros R L. assert (LF : length (firstn (length (fixed k)) row) = length (fixed k)).
  { rewrite app_length in L. apply firstn_length_le. lia. }
  assert (E : keep_row drop (fixed k ++ cols) row = firstn (length (fixed k)) row ++ keep_row drop cols (labels_in k row)).
  { rewrite keep_row_app by exact L. f_equal. apply keep_row_all; [now apply keeps_fixed|exact LF]. }
  split; [exact E|]. rewrite E. split.
  - unfold labels_in at 1. rewrite skipn_app, LF, Nat.sub_diag. cbn [skipn]. rewrite <- LF at 1. now rewrite skipn_all.
  - intros K. destruct row as [|v row]; [destruct k; cbn in L; try discriminate; congruence|]. destruct k; [reflexivity..|congruence].
Qed.
Lemma keep_row_ok drop k cols cells : forallb (cell_ok k) cells = true -> forallb (cell_ok k) (keep_row drop cols cells) = true.
Proof.
  revert cells. induction cols as [|c cols IH]; intros [|v cells] H; cbn [keep_row]; try reflexivity. cbn [forallb] in H.
  apply andb_true_iff in H as [H1 H2]. destruct (lmem c drop); [auto|]. cbn [forallb]. rewrite H1. now apply IH.
Qed.

(** The rows that the SELECT with the columns that stay gives. *)
Lemma sel_some auto k drop cols t : table_wf auto k cols t -> sql_distinct (fixed k ++ cols) = true -> (forall c, In c drop -> ~ reserved_name c) ->
  sel_rows (Some (fixed k ++ keeps drop cols)) t = map (keep_row drop (fixed k ++ cols)) (t_rows t).
Proof.
  intros W D R. unfold sel_rows. apply map_ext_in. intros r Hr. cbn [select_row]. rewrite (tw_cols _ _ _ _ W).
  rewrite <- (value_keep drop) by (rewrite ?D, ?(tw_width _ _ _ _ W r Hr), ?(tw_cols _ _ _ _ W); reflexivity).
  now rewrite keeps_app, keeps_fixed by exact R.
Qed.
Lemma good_some auto k drop cols t : k <> KOther -> table_wf auto k cols t -> sql_distinct (fixed k ++ cols) = true ->
  (forall c, In c drop -> ~ reserved_name c) -> good_rows k (keeps drop cols) (Some (keeps drop cols)) t.
Proof.
  intros K W D R. unfold good_rows. cbn [what_of]. rewrite (sel_some auto k drop cols t W D R).
  assert (L : forall r, In r (t_rows t) -> length r = length (fixed k ++ cols)) by (intros r Hr; rewrite (tw_width _ _ _ _ W r Hr), (tw_cols _ _ _ _ W); reflexivity).
  split; [reflexivity|]. split.
  - apply forallb_forall. intros r Hr. apply in_map_iff in Hr as (r0 & <- & Hr). unfold cells_ok.
    destruct (keep_labels drop k cols r0 R (L r0 Hr)) as (_ & -> & _). apply keep_row_ok. exact (tw_cells _ _ _ _ W r0 Hr).
  - rewrite map_map. rewrite (map_ext_in _ row_id); [exact (tw_ids _ _ _ _ W)|]. intros r Hr. now apply (keep_labels drop k cols r R (L r Hr)).
Qed.

(* -------------------------------------------------------- unique labels *)
Lemma unique_labels_iff s n t : table_at s n t -> t_kind t <> KOther -> (forall r, In r (t_rows t) -> cells_ok (t_kind t) r = true) ->
  unique_labels n s = true <-> NoDup (map (labels_in (t_kind t)) (t_rows t)).
Proof.
  intros T K C. unfold unique_labels. rewrite T. apply unique_cells_iff. intros r Hr. apply in_map_iff in Hr as (r0 & <- & Hr).
  apply (ok_plain (t_kind t)); [exact K|]. exact (C r0 Hr).
Qed.
Lemma add_constraints_cases s : get_columns s <> [] ->
  add_constraints s = if unique_labels "label_index" s && unique_labels "label_location" s && unique_labels "label_structure" s
                      then Ok (with_constraints true s) else Err SqlIntegrityError.
Proof. unfold add_constraints. destruct (get_columns s); [congruence|reflexivity]. Qed.

(* -------------------------------------------------------- names *)
Lemma new_columns_ok m cols : forall acc, NoDup (acc ++ map (mapping_get m) cols) -> new_columns m cols acc = Ok (acc ++ map (mapping_get m) cols).
Proof.
  induction cols as [|c cols IH]; intros acc N; cbn [new_columns map]; [now rewrite app_nil_r|]. cbn [map] in N.
  destruct (lmem (mapping_get m c) acc) eqn:E.
  - apply lmem_iff in E. apply NoDup_remove_2 in N. destruct N. apply in_app_iff. now left.
  - replace (acc ++ mapping_get m c :: map (mapping_get m) cols) with ((acc ++ [mapping_get m c]) ++ map (mapping_get m) cols) in * by now rewrite <- app_assoc.
    apply IH, N.
Qed.
Lemma new_columns_some m cols : forall acc l, new_columns m cols acc = Ok l -> l = acc ++ map (mapping_get m) cols.
Proof.
  induction cols as [|c cols IH]; intros acc l H; cbn [new_columns map] in *; [injection H as <-; now rewrite app_nil_r|].
  destruct (lmem _ acc); [discriminate|]. apply IH in H. now rewrite <- app_assoc in H.
Qed.
Lemma mapping_get_name m x : new_name m x (mapping_get m x).
Proof.
  unfold new_name. induction m as [|[a b] m IH]; cbn [mapping_get map fst In]; [right; tauto|]. destruct (String.eqb_spec a x) as [->|N]; [left; now left|].
  destruct IH as [IH|[IH E]]; [left; now right|]. right. split; [|exact E]. intros [Q|Q]; [congruence|auto].
Qed.
Lemma new_name_fun m x y : NoDup (map fst m) -> new_name m x y -> y = mapping_get m x.
Proof.
  intros N H. unfold new_name in H. induction m as [|[a b] m IH]; cbn [mapping_get map fst In] in *; [destruct H as [[]|[_ H]]; exact H|].
  inversion N as [|? ? N1 N2]; subst. destruct (String.eqb_spec a x) as [->|Q].
  - destruct H as [[H|H]|[H _]]; [congruence| |destruct H; now left]. destruct N1. now apply (in_map fst) in H.
  - apply IH; [exact N2|]. destruct H as [[H|H]|[H E]]; [congruence|now left|right]. split; [|exact E]. intro G. apply H. now right.
Qed.
Lemma names_map m cols : Forall2 (new_name m) cols (map (mapping_get m) cols).
Proof. induction cols; cbn [map]; constructor; auto using mapping_get_name. Qed.
Lemma names_fun m cols l : NoDup (map fst m) -> Forall2 (new_name m) cols l -> l = map (mapping_get m) cols.
Proof. intros N H. induction H as [|x y cols l H _ IH]; cbn [map]; [reflexivity|]. now rewrite (new_name_fun m x y N H), IH. Qed.
Lemma get_reserved m x : (forall p, In p m -> ~ reserved_name (fst p)) -> reserved_name x -> mapping_get m x = x.
Proof. intros H R. apply mapping_get_out. intro Q. apply in_map_iff in Q as (p & <- & Hp). exact (H p Hp R). Qed.
Lemma fixed_reserved k x : In x (fixed k) -> reserved_name x.
Proof. unfold reserved_name. destruct k; cbn; tauto. Qed.
Lemma nul_exists l : existsb has_nul l = false <-> forall c, In c l -> ~ contains_nul c.
Proof.
  rewrite <- Bool.not_true_iff_false, existsb_exists. split.
  - intros H c Hc Q. apply H. exists c. split; [exact Hc|]. now apply has_nul_iff.
  - intros H (c & Hc & Q). apply has_nul_iff in Q. exact (H c Hc Q).
Qed.
Lemma cols_nonempty_map (m : list (string * string)) cols : map (mapping_get m) cols <> [] <-> cols <> [].
Proof. destruct cols; cbn; split; congruence. Qed.
