(** Loading a table is loading its rows one after the other. *)
From Coq Require Import NArith Permutation.
From Verif Require Import Prelude Selectors_Model Selectors_Proofs Reader_Model LinkRef_Model LinkRef_Proofs IndexCode_Model
  Db_Model Db_Spec Db_Proofs Db_ProofsLocal Db_ProofsRun Db_ProofsOps Db_ProofsOps2 Db_ProofsOps3
  Streams_Model Streams_Spec Streams_Proofs IndexCli_Model IndexCli_Spec IndexCli_Proofs.
Local Open Scope nat_scope.
Local Notation group := Db_Model.group.

Lemma fold_res_app {A S} (f : S -> A -> res S) l m s : fold_res f (l ++ m) s = do s' <- fold_res f l s; fold_res f m s'.
Proof. revert s. induction l as [|a l IH]; intros s; cbn [fold_res app bind]; [reflexivity|]. destruct (f s a); cbn [bind]; auto. Qed.
Lemma fold_res_map {A B S} (f : S -> B -> res S) (g : A -> B) l : forall s, fold_res f (map g l) s = fold_res (fun s a => f s (g a)) l s.
Proof. induction l as [|a l IH]; intros s; cbn [fold_res map]; [reflexivity|]. destruct (f s (g a)); cbn [bind]; auto. Qed.
Lemma fold_res_ext {A S} (f g : S -> A -> res S) l : (forall s a, In a l -> f s a = g s a) -> forall s, fold_res f l s = fold_res g l s.
Proof.
  induction l as [|a l IH]; intros H s; cbn [fold_res]; [reflexivity|]. rewrite (H s a) by now left. destruct (g s a); cbn [bind]; auto.
  apply IH. intros s' b Hb. apply H. now right.
Qed.
Lemma combine_app {A B} (a a' : list A) (b b' : list B) : length a = length b -> combine (a ++ a') (b ++ b') = combine a b ++ combine a' b'.
Proof. revert b. induction a as [|x a IH]; intros [|y b] H; try discriminate; cbn; [reflexivity|]. f_equal. apply IH. injection H as H. exact H. Qed.

Section Load.
Context (todecimal : N -> option N) (show : Q -> text) (read_float : text -> option Q).

Definition named (groups : list group) (c : cell) : bool := existsb (fun g => text_eqb (g_name g) (name_of c)) groups.
Definition group_of (groups : list group) (n : text) : option group := find (fun g => text_eqb (g_name g) n) groups.
Lemma named_group_of groups c : named groups c = match group_of groups (name_of c) with Some _ => true | None => false end.
Proof.
  unfold named, group_of. induction groups as [|g l IH]; cbn [existsb find]; [reflexivity|]. destruct (text_eqb (g_name g) (name_of c)); auto.
Qed.
Lemma group_of_none groups n : (forall g, In g groups -> g_name g <> n) -> group_of groups n = None.
Proof.
  intros H. unfold group_of. destruct (find (fun g => text_eqb (g_name g) n) groups) as [g|] eqn:E; auto. apply find_some in E.
  destruct E as [Hg E]. apply text_eqb_iff in E. now apply H in Hg.
Qed.
Lemma group_of_some groups g : NoDup (map g_name groups) -> In g groups -> group_of groups (g_name g) = Some g.
Proof.
  intros Nd Hg. unfold group_of. induction groups as [|h l IH]; [destruct Hg|]. cbn [find]. inversion Nd; subst.
  destruct (text_eqb (g_name h) (g_name g)) eqn:E.
  - apply text_eqb_iff in E. destruct Hg as [->|Hg]; auto. exfalso. apply H1. rewrite E. now apply in_map.
  - destruct Hg as [->|Hg]; [rewrite text_eqb_refl in E; discriminate|]. auto.
Qed.

Lemma weight_cells_ok groups cols : forall pre l, length cols <= length l ->
  weight_cells read_float groups (length pre) cols (pre ++ l) =
  Ok (map (fun cv => if named groups (fst cv) then weight_cell read_float (snd cv) else CEmpty) (combine cols l)).
Proof.
  induction cols as [|c cols IH]; intros pre l H; cbn [weight_cells combine map]; [reflexivity|].
  destruct l as [|v l]; [cbn in H; lia|]. cbn [combine map fst snd]. fold (named groups c).
  unfold cell_at at 1. rewrite nth_error_app2 by lia. rewrite Nat.sub_diag. cbn [nth_error bind].
  specialize (IH (pre ++ [v]) l). rewrite app_length, <- app_assoc in IH. cbn [length app] in IH. rewrite Nat.add_1_r in IH.
  rewrite IH by (cbn in H; lia). destruct (named groups c); reflexivity.
Qed.

(** One row, after its columns have been found. *)
Definition label_part (lpol : policy) (id : option Z) (labels : list text) (st : ins_state) : res (ins_state * Z) :=
  match id with
  | Some i =>
      do rec <- index_get i (is_db st);
      if nil_b labels || labels_eqb labels (ix_labels rec) then Ok (st, i)
      else match lpol with
      | PAbort => Err ValueError
      | PIgnore => Ok (st, i)
      | PReplace => do s <- index_update i labels (is_db st);
                    Ok ({| is_db := s; is_label := is_label st; is_weight := is_weight st |}, i)
      | _ => Err ValueError
      end
  | None =>
      match index_add labels (is_db st) with
      | Ok (s, i) => Ok ({| is_db := s; is_label := true; is_weight := is_weight st |}, i)
      | Err ValueError =>
          match index_by_labels labels (is_db st) with
          | Some rec => Ok (st, ix_id rec)
          | None => Err ValueError
          end
      | Err e => Err e
      end
  end.
Definition weight_item (groups : list group) (wt : group -> text) (g : group) : option group * Db_Model.cell :=
  (group_of groups (g_name g), if named groups (CText (g_name g)) then weight_cell read_float (CText (wt g)) else CEmpty).
Definition apply_row (lpol wpol : policy) (groups : list group) (G : list group) (id : option Z) (labels : list text) (wt : group -> text)
    (st : ins_state) : res ins_state :=
  do x <- label_part lpol id labels st;
  fold_res (fun st g => insert_index_weight wpol (snd x) st (weight_item groups wt g)) G (fst x).

Definition the_cells (c0 : cell) (labels : list text) (wt : group -> text) (G : list group) : list cell :=
  c0 :: map CText labels ++ map (fun g => CText (wt g)) G.

Lemma skipped pol i groups l : (forall cv, In cv l -> group_of groups (name_of (fst cv)) = None) -> forall st,
  fold_res (insert_index_weight pol i) (map (fun cv => (group_of groups (name_of (fst cv)), if named groups (fst cv) then weight_cell read_float (snd cv) else CEmpty)) l) st = Ok st.
Proof.
  induction l as [|cv l IH]; intros H st; cbn [map fold_res]; [reflexivity|]. rewrite (H cv) by now left. cbn [insert_index_weight bind].
  apply IH. intros x Hx. apply H. now right.
Qed.

Lemma row_items pol i groups c0 L v0 labels wt (G : list group) st : length labels = length L ->
  (forall g, In g groups -> g_name g <> name_of c0 /\ ~ In (g_name g) L) ->
  let columns := the_cells c0 L g_name G in
  let cells := map (fun cv => if named groups (fst cv) then weight_cell read_float (snd cv) else CEmpty) (combine columns (the_cells v0 labels wt G)) in
  fold_res (insert_index_weight pol i) (combine (map (fun c => find (fun g => text_eqb (g_name g) c) groups) (map name_of columns)) cells) st =
  fold_res (fun st g => insert_index_weight pol i st (weight_item groups wt g)) G st.
Proof.
  intros Ln Hg columns cells.
  assert (E : combine (map (fun c => find (fun g => text_eqb (g_name g) c) groups) (map name_of columns)) cells =
    map (fun cv => (group_of groups (name_of (fst cv)), if named groups (fst cv) then weight_cell read_float (snd cv) else CEmpty))
      (combine columns (the_cells v0 labels wt G))).
  { unfold cells. assert (Lc : length columns = length (the_cells v0 labels wt G)) by (unfold columns, the_cells; cbn [length]; rewrite !app_length, !map_length; lia).
    revert Lc. generalize (the_cells v0 labels wt G) columns. clear.
    intros l c. revert l. induction c as [|x c IH]; intros [|y l] H; try discriminate; cbn [map combine fst snd]; [reflexivity|]. f_equal. apply IH. now injection H. }
  rewrite E. unfold columns, the_cells. rewrite !app_comm_cons, combine_app by (cbn [length]; rewrite !map_length; lia).
  rewrite map_app, fold_res_app, skipped.
  - cbn [bind]. replace (combine (map (fun g => CText (g_name g)) G) (map (fun g => CText (wt g)) G)) with (map (fun g => (CText (g_name g), CText (wt g))) G).
    + rewrite map_map, fold_res_map. apply fold_res_ext. intros s g _. reflexivity.
    + clear. induction G; cbn; congruence.
  - intros [c v] Hc. apply in_combine_l in Hc. cbn [fst]. apply group_of_none. intros g Hin. destruct (Hg g Hin) as [H1 H2].
    destruct Hc as [<-|Hc]; auto. apply in_map_iff in Hc. destruct Hc as (x & <- & Hx). intros En. apply H2. rewrite En. exact Hx.
Qed.

Definition finish (st : ins_state) : db :=
  let s1 := if is_label st then clear_link_flags (refresh_hash (is_db st)) else is_db st in
  if is_label st || is_weight st then refresh_group_flags s1 else s1.
Definition start (t : db) : ins_state := {| is_db := t; is_label := false; is_weight := false |}.

(** The table of some records; [first] and [idof]: the first cell of the rows and the id that it means. *)
Lemma table_fold lpol wpol t c0 L (G : list group) (R : list ixrec) first idof wt :
  d_labels t = L -> L <> [] -> NoDup (the_cells c0 L g_name G) ->
  (forall g, In g (d_groups t) -> g_name g <> name_of c0 /\ ~ In (g_name g) L) ->
  (forall r, In r R -> length (ix_labels r) = length L /\ (forall x, In x (ix_labels r) -> x <> [])) ->
  (forall r, In r R -> raw_index_id todecimal (the_cells c0 L g_name G) (the_cells (first r) (ix_labels r) (wt r) G) = Ok (idof r)) ->
  insert_index_table todecimal read_float lpol wpol
    (reader_of (the_cells c0 L g_name G :: map (fun r => the_cells (first r) (ix_labels r) (wt r) G) R)) t =
  do st <- fold_res (fun st r => apply_row lpol wpol (d_groups t) G (idof r) (ix_labels r) (wt r) st) R (start t);
  Ok (finish st).
Proof.
  intros EL HL Nd Hg HR Hid. unfold insert_index_table. rewrite reader_of_cons. unfold normalize_tabular. cbn [iter_data bind given].
  rewrite EL. destruct (nil_b L) eqn:En; [destruct L; [congruence|discriminate]|].
  unfold the_cells at 1. rewrite label_positions_ok by auto. cbn [bind].
  assert (Er : resolve_rows todecimal read_float (d_groups t) (seq 1 (length L)) (the_cells c0 L g_name G)
      (reader_of (map (fun r => the_cells (first r) (ix_labels r) (wt r) G) R)) =
    (map (fun r => {| ir_id := idof r; ir_labels := ix_labels r;
       ir_cells := map (fun cv => if named (d_groups t) (fst cv) then weight_cell read_float (snd cv) else CEmpty)
                     (combine (the_cells c0 L g_name G) (the_cells (first r) (ix_labels r) (wt r) G)) |}) R, None)).
  { clear - HR Hid Nd. induction R as [|r R IH]; [reflexivity|]. cbn [map]. rewrite reader_of_cons. cbn [resolve_rows].
    destruct (HR r) as [Hlen Hne]; [now left|].
    unfold resolve_row. cbn [row_cells bind]. unfold the_cells at 1. cbn iota. fold (the_cells (first r) (ix_labels r) (wt r) G).
    rewrite <- Hlen at 1. unfold the_cells at 1. rewrite labels_read. cbn [bind].
    destruct (existsb is_empty (ix_labels r)) eqn:Ee.
    { apply existsb_exists in Ee. destruct Ee as (x & Hx & Ex). destruct x; [|discriminate]. exfalso. now apply (Hne [] Hx). }
    fold (the_cells (first r) (ix_labels r) (wt r) G). rewrite (Hid r) by now left. cbn [bind].
    pose proof (weight_cells_ok (d_groups t) (the_cells c0 L g_name G) [] (the_cells (first r) (ix_labels r) (wt r) G)) as Ew.
    cbn [length app] in Ew. rewrite Ew; [|unfold the_cells; cbn [length]; rewrite !app_length, !map_length; lia]. cbn [bind].
    rewrite IH; auto; intros x Hx; [apply HR | apply Hid]; now right. }
  unfold the_cells at 1 in Er. unfold the_cells at 1. rewrite Er. cbn [map].
  unfold insert_index. rewrite EL, En. cbn [bind].
  rewrite fold_res_map.
  match goal with |- context [fold_res ?f R ?st] => set (f1 := f) end.
  rewrite (fold_res_ext f1 (fun st r => apply_row lpol wpol (d_groups t) G (idof r) (ix_labels r) (wt r) st)).
  - unfold start. destruct (fold_res _ R _); reflexivity.
  - intros st r Hr. destruct (HR r Hr) as [Hlen Hne]. unfold f1, insert_index_row. cbn [ir_labels ir_id ir_cells].
    destruct (existsb is_empty (ix_labels r)) eqn:Ee.
    { apply existsb_exists in Ee. destruct Ee as (x & Hx & Ex). destruct x; [|discriminate]. exfalso. now apply (Hne [] Hx). }
    unfold apply_row, label_part. match goal with |- bind ?x _ = bind ?y _ => change y with x; destruct x as [[st' i]|e] end; cbn [bind]; [|reflexivity].
    cbn [fst snd]. exact (row_items wpol i (d_groups t) c0 L (first r) (ix_labels r) (wt r) G st' Hlen Hg).
Qed.
End Load.
