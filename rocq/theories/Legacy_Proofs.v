From Verif Require Import Prelude Partitions_Model Partitions_Spec Partitions_Proofs Columns_Model Columns_Spec Columns_Proofs
  Columns_Proofs2 Columns_Proofs3 Legacy_Model Legacy_Spec.
From Coq Require Import Permutation.
Local Open Scope nat_scope.

(* -------------------------------------------------------- keyed lists *)
Definition put {A} (n : string) (a : A) (l : list (string * A)) : list (string * A) := drop_key n l ++ [(n, a)].

Lemma lookup_in {A} n (l : list (string * A)) a : lookup n l = Some a -> In n (map fst l).
Proof.
  induction l as [|[m b] l IH]; cbn [lookup map fst In]; [discriminate|]. destruct (String.eqb_spec n m) as [->|E]; [now left|]. intro H. right. auto.
Qed.
Lemma lookup_none {A} n (l : list (string * A)) : ~ In n (map fst l) -> lookup n l = None.
Proof. intro H. destruct (lookup n l) eqn:E; [|reflexivity]. destruct H. eapply lookup_in; eauto. Qed.
Lemma lookup_app {A} n (l l' : list (string * A)) : lookup n (l ++ l') = match lookup n l with Some a => Some a | None => lookup n l' end.
Proof. induction l as [|[m b] l IH]; cbn [lookup app]; [reflexivity|]. destruct (String.eqb n m); auto. Qed.
Lemma lookup_drop {A} n m (l : list (string * A)) : lookup m (drop_key n l) = if String.eqb n m then None else lookup m l.
Proof.
  unfold drop_key. induction l as [|[x b] l IH]; cbn [filter lookup fst]; [now destruct (String.eqb n m)|].
  destruct (String.eqb_spec n x) as [->|E]; cbn [negb].
  - rewrite IH. destruct (String.eqb_spec x m) as [->|F]; [reflexivity|]. destruct (String.eqb_spec m x); [congruence|reflexivity].
  - cbn [lookup]. rewrite IH. destruct (String.eqb_spec m x) as [->|F]; [|reflexivity]. destruct (String.eqb_spec n x); [congruence|reflexivity].
Qed.
Lemma lookup_put {A} n m (a : A) l : lookup m (put n a l) = if String.eqb n m then Some a else lookup m l.
Proof.
  unfold put. rewrite lookup_app, lookup_drop. cbn [lookup]. rewrite (String.eqb_sym m n). destruct (String.eqb n m); [reflexivity|].
  now destruct (lookup m l).
Qed.
Lemma drop_key_in {A} n m (l : list (string * A)) : In m (map fst (drop_key n l)) -> In m (map fst l).
Proof. unfold drop_key. rewrite !in_map_iff. intros (p & <- & H). apply filter_In in H. exists p. tauto. Qed.
Lemma put_in {A} n m (a : A) l : In m (map fst (put n a l)) -> m = n \/ In m (map fst l).
Proof.
  unfold put. rewrite map_app, in_app_iff. cbn [map fst In]. intros [H|[H|[]]]; [right; eapply drop_key_in; eauto|left; congruence].
Qed.
Lemma set_key_out {A} n (a : A) l : ~ In n (map fst l) -> set_key n a l = l.
Proof.
  unfold set_key. intro H. rewrite <- (map_id l) at 2. apply map_ext_in. intros p Hp. destruct (String.eqb_spec n (fst p)) as [E|E]; [|reflexivity].
  destruct H. rewrite E. now apply in_map.
Qed.
Lemma set_key_last {A} n (a b : A) l : ~ In n (map fst l) -> set_key n a (l ++ [(n, b)]) = l ++ [(n, a)].
Proof.
  intro H. unfold set_key. rewrite map_app. change (map _ l) with (set_key n a l). rewrite set_key_out by exact H. cbn [map fst].
  now rewrite String.eqb_refl.
Qed.
Lemma drop_key_last {A} n m (b : A) l : m <> n -> drop_key n (l ++ [(m, b)]) = drop_key n l ++ [(m, b)].
Proof.
  intro H. unfold drop_key. rewrite filter_app. cbn [filter fst]. destruct (String.eqb_spec n m); [congruence|reflexivity].
Qed.
Lemma rename_key_out {A} n m (l : list (string * A)) : ~ In n (map fst l) -> rename_key n m l = l.
Proof.
  unfold rename_key. intro H. rewrite <- (map_id l) at 2. apply map_ext_in. intros p Hp. destruct (String.eqb_spec n (fst p)) as [E|E]; [|reflexivity].
  destruct H. rewrite E. now apply in_map.
Qed.
Lemma rename_key_last {A} n m (b : A) l : ~ In n (map fst l) -> rename_key n m (l ++ [(n, b)]) = l ++ [(m, b)].
Proof.
  intro H. unfold rename_key. rewrite map_app. change (map _ l) with (rename_key n m l). rewrite rename_key_out by exact H. cbn [map fst snd].
  now rewrite String.eqb_refl.
Qed.

(* ------------------------------------------------------------ small checks *)
Lemma z_distinct_iff l : z_distinct l = true <-> NoDup l.
Proof.
  induction l as [|x l IH]; cbn [z_distinct]; [split; [constructor|reflexivity]|].
  rewrite andb_true_iff, negb_true_iff, IH. assert (E : existsb (Z.eqb x) l = false <-> ~ In x l).
  { rewrite <- Bool.not_true_iff_false, existsb_exists. split; intros H Q; apply H.
    - exists x. split; [exact Q|apply Z.eqb_refl].
    - destruct Q as (y & Hy & E). apply Z.eqb_eq in E. now subst. }
  rewrite E. split; [intros [H1 H2]; now constructor|inversion 1; auto].
Qed.

Definition plain (c : scell) : Prop := match c with XReal _ => False | _ => True end.
Lemma scell_eqb_iff a b : plain a -> scell_eqb a b = true <-> a = b.
Proof.
  destruct a as [x|x|x|], b as [y|y|y|]; cbn; intro P; try (split; [discriminate|discriminate]); try contradiction.
  - rewrite Z.eqb_eq. split; congruence.
  - rewrite String.eqb_eq. split; congruence.
  - tauto.
Qed.
Lemma cells_eqb_iff a : Forall plain a -> forall b, cells_eqb a b = true <-> a = b.
Proof.
  induction 1 as [|x a P F IH]; intros [|y b]; cbn [cells_eqb]; try (split; [discriminate|discriminate]); [tauto|].
  rewrite andb_true_iff, scell_eqb_iff, IH by exact P. split; [intros [-> ->]; reflexivity|intros [= -> ->]; auto].
Qed.
Lemma unique_cells_iff rows : (forall r, In r rows -> Forall plain r) -> (unique_cells rows = true <-> NoDup rows).
Proof.
  induction rows as [|r rows IH]; intros P; cbn [unique_cells]; [split; [constructor|reflexivity]|].
  rewrite andb_true_iff, negb_true_iff, IH by (intros; apply P; now right).
  assert (E : existsb (cells_eqb r) rows = false <-> ~ In r rows).
  { rewrite <- Bool.not_true_iff_false, existsb_exists. split; intros H Q; apply H.
    - exists r. split; [exact Q|]. apply cells_eqb_iff; auto. apply P. now left.
    - destruct Q as (y & Hy & E). apply cells_eqb_iff in E; [now subst|]. apply P. now left. }
  rewrite E. split; [intros [H1 H2]; now constructor|inversion 1; auto].
Qed.
Lemma ok_plain k cells : k <> KOther -> forallb (cell_ok k) cells = true -> Forall plain cells.
Proof.
  intros K H. rewrite forallb_forall in H. apply Forall_forall. intros c Hc. apply H in Hc. destruct k, c; cbn in *; congruence || exact I.
Qed.

(* -------------------------------------------------------- one table made anew *)
Definition sel_rows (what : option (list string)) (t : table) : list (list scell) := map (select_row what (t_cols t)) (t_rows t).
Definition remade (k : kind) (auto : bool) (labels : list string) (what : option (list string)) (t : table) : table :=
  {| t_auto := auto; t_kind := k; t_cols := fixed k ++ labels; t_rows := sel_rows what t |}.
Definition seqs_after (n : string) (auto : bool) (rows : list (list scell)) (seqs : list (string * Z)) : list (string * Z) :=
  if auto then match rows with [] => drop_key n seqs | _ => put n (top_of (map row_id rows)) seqs end else drop_key n seqs.

Lemma rebuild_ok temp n k auto labels what s t : table_at s n t -> temp <> n -> ~ In temp (map fst (s_tabs s)) ->
  ~ In temp (map fst (s_seqs s)) -> s_fk s = false -> labels <> [] -> existsb has_nul labels = false ->
  sql_distinct (fixed k ++ labels) = true ->
  match what with None => length (t_cols t) | Some l => length l end = length (fixed k ++ labels) ->
  forallb (cells_ok k) (sel_rows what t) = true -> NoDup (map row_id (sel_rows what t)) ->
  rebuild_table temp n k auto labels what s =
    Ok (with_tabs (put n (remade k auto labels what t) (s_tabs s)) (seqs_after n auto (sel_rows what t) (s_seqs s)) (s_refs s) s).
Proof.
  intros T Tn Nt Ns F L U D W C I. unfold rebuild_table, create_table. rewrite U.
  destruct labels as [|l0 labels]; [congruence|]. rewrite (lookup_none temp _ Nt), D. cbn [negb bind].
  unfold insert_select. cbn [with_tabs s_tabs s_seqs s_refs]. rewrite !lookup_app, (lookup_none temp _ Nt). cbn [lookup]. rewrite String.eqb_refl.
  unfold table_at in T. rewrite T. cbn [t_cols t_kind t_rows t_auto ids map app]. fold (sel_rows what t). rewrite W, Nat.eqb_refl, C. cbn [negb].
  rewrite (proj2 (z_distinct_iff _) I). cbn [negb]. rewrite (lookup_none temp _ Ns), set_key_last by exact Nt. cbn [bind].
  unfold drop_table. cbn [with_tabs s_tabs s_seqs s_refs s_fk]. rewrite F, lookup_app, T. cbn [andb bind].
  unfold rename_table. cbn [with_tabs s_tabs s_seqs s_refs s_fk]. rewrite !lookup_drop, String.eqb_refl.
  destruct (String.eqb_spec n temp) as [E|_]; [congruence|]. rewrite lookup_app, (lookup_none temp _ Nt). cbn [lookup]. rewrite String.eqb_refl.
  rewrite drop_key_last by exact Tn. rewrite rename_key_last by (intro Q; apply Nt; eapply drop_key_in; eauto).
  unfold with_tabs. cbn [s_constraints s_fk s_tx s_defs s_attrs s_display]. f_equal. f_equal. unfold seqs_after.
  destruct auto; cbn [negb].
  - destruct (sel_rows what t) as [|r rows] eqn:R.
    + apply rename_key_out. intro Q. apply Ns. eapply drop_key_in; eauto.
    + rewrite drop_key_last by exact Tn. apply rename_key_last. intro Q. apply Ns. eapply drop_key_in; eauto.
  - apply rename_key_out. intro Q. apply Ns. eapply drop_key_in; eauto.
Qed.

Lemma rebuild_err temp n k auto labels what s : 
  labels = [] \/ existsb has_nul labels = true \/ sql_distinct (fixed k ++ labels) = false ->
  exists e, rebuild_table temp n k auto labels what s = Err e.
Proof.
  intros H. unfold rebuild_table, create_table. destruct (existsb has_nul labels) eqn:U; [eexists; reflexivity|].
  destruct labels as [|l0 labels]; [eexists; reflexivity|]. destruct (lookup temp (s_tabs s)); [eexists; reflexivity|].
  destruct H as [H|[H|H]]; try discriminate. rewrite H. eexists. reflexivity.
Qed.

(* -------------------------------------------------------- three tables *)
Lemma fixed_distinct cols : sql_distinct (fixed_columns ++ cols) = true <->
  sql_distinct (fixed KIndex ++ cols) = true /\ sql_distinct (fixed KLocation ++ cols) = true /\ sql_distinct (fixed KStructure ++ cols) = true.
Proof.
  rewrite !sql_distinct_app. assert (sql_distinct fixed_columns = true) by reflexivity. assert (sql_distinct (fixed KIndex) = true) by reflexivity.
  assert (sql_distinct (fixed KLocation) = true) by reflexivity. assert (sql_distinct (fixed KStructure) = true) by reflexivity.
  unfold fixed_columns, fixed. cbn [In]. split.
  - intros (_ & D & X). repeat split; auto; intros x y Hx Hy; apply X; auto; tauto.
  - intros ((_ & D & X1) & (_ & _ & X2) & (_ & _ & X3)). repeat split; auto. intros x y Hx Hy.
    destruct Hx as [Hx|[Hx|[Hx|[Hx|[]]]]]; auto.
Qed.

Definition what_of (drop : option (list string)) (k : kind) : option (list string) :=
  match drop with None => None | Some keep => Some (fixed k ++ keep) end.
(** The three statements groups, in both functions. *)
Definition remake (labels : list string) (what : option (list string)) (s : sdb) : res sdb :=
  do s <- rebuild_table "new_label_index" "label_index" KIndex true labels (what_of what KIndex) s;
  do s <- rebuild_table "new_location" "label_location" KLocation false labels (what_of what KLocation) s;
  rebuild_table "new_structure" "label_structure" KStructure false labels (what_of what KStructure) s.

Definition good_rows (k : kind) (labels : list string) (what : option (list string)) (t : table) : Prop :=
  match what_of what k with None => length (t_cols t) | Some l => length l end = length (fixed k ++ labels) /\
  forallb (cells_ok k) (sel_rows (what_of what k) t) = true /\ NoDup (map row_id (sel_rows (what_of what k) t)).

Lemma remake_ok labels what s ti tl ts :
  table_at s "label_index" ti -> table_at s "label_location" tl -> table_at s "label_structure" ts ->
  (forall n, In n temp_names -> ~ In n (map fst (s_tabs s)) /\ ~ In n (map fst (s_seqs s))) -> s_fk s = false ->
  labels <> [] -> existsb has_nul labels = false -> sql_distinct (fixed_columns ++ labels) = true ->
  good_rows KIndex labels what ti -> good_rows KLocation labels what tl -> good_rows KStructure labels what ts ->
  exists seqs, remake labels what s = Ok (with_tabs
    (put "label_structure" (remade KStructure false labels (what_of what KStructure) ts)
      (put "label_location" (remade KLocation false labels (what_of what KLocation) tl)
        (put "label_index" (remade KIndex true labels (what_of what KIndex) ti) (s_tabs s)))) seqs (s_refs s) s) /\
    lookup "label_index" seqs = (match sel_rows (what_of what KIndex) ti with [] => None
                                 | _ => Some (top_of (map row_id (sel_rows (what_of what KIndex) ti))) end) /\
    (forall n, In n (map fst seqs) -> n = "label_index"%string \/ In n (map fst (s_seqs s))).
Proof.
  intros Ti Tl Ts Nt F L U D (W1 & C1 & I1) (W2 & C2 & I2) (W3 & C3 & I3). apply fixed_distinct in D as (D1 & D2 & D3).
  destruct (Nt "new_label_index"%string) as [A1 B1]; [now left|]. destruct (Nt "new_location"%string) as [A2 B2]; [right; now left|].
  destruct (Nt "new_structure"%string) as [A3 B3]; [right; right; now left|].
  unfold remake. rewrite (rebuild_ok _ _ _ _ _ _ s ti) by (assumption || discriminate). cbn [bind].
  set (s1 := with_tabs _ _ _ _).
  assert (Q1 : forall n, In n (map fst (seqs_after "label_index" true (sel_rows (what_of what KIndex) ti) (s_seqs s))) -> n = "label_index"%string \/ In n (map fst (s_seqs s))).
  { intros n H. unfold seqs_after in H. destruct (sel_rows _ ti); [right; eapply drop_key_in; eauto|]. apply put_in in H. tauto. }
  rewrite (rebuild_ok _ _ _ _ _ _ s1 tl); try assumption; try discriminate.
  - cbn [bind]. set (s2 := with_tabs _ _ _ s1).
    rewrite (rebuild_ok _ _ _ _ _ _ s2 ts); try assumption; try discriminate.
    + eexists. split; [reflexivity|]. subst s2 s1. cbn [with_tabs s_seqs]. split.
      * unfold seqs_after. rewrite !lookup_drop. cbn [String.eqb Ascii.eqb Bool.eqb]. destruct (sel_rows _ ti); [now rewrite lookup_drop|].
        now rewrite lookup_put.
      * intros n H. unfold seqs_after at 1 2 in H. apply drop_key_in, drop_key_in in H. auto.
    + subst s2 s1. unfold table_at in *. cbn [with_tabs s_tabs]. rewrite !lookup_put. exact Ts.
    + subst s2 s1. cbn [with_tabs s_tabs]. intro H. apply put_in in H as [H|H]; [discriminate|]. apply put_in in H as [H|H]; [discriminate|auto].
    + subst s2 s1. cbn [with_tabs s_seqs]. intro H. unfold seqs_after at 1 in H. apply drop_key_in in H. apply Q1 in H as [H|H]; [discriminate|auto].
  - subst s1. unfold table_at in *. cbn [with_tabs s_tabs]. rewrite !lookup_put. exact Tl.
  - subst s1. cbn [with_tabs s_tabs]. intro H. apply put_in in H as [H|H]; [discriminate|auto].
  - subst s1. cbn [with_tabs s_seqs]. intro H. apply Q1 in H as [H|H]; [discriminate|auto].
Qed.

Lemma rebuild_needs temp n k auto labels what s s' : rebuild_table temp n k auto labels what s = Ok s' ->
  labels <> [] /\ existsb has_nul labels = false /\ sql_distinct (fixed k ++ labels) = true.
Proof.
  intro H. split; [|split].
  - intro Q. destruct (rebuild_err temp n k auto labels what s) as (e & E); [now left|congruence].
  - destruct (existsb has_nul labels) eqn:U; [|reflexivity]. destruct (rebuild_err temp n k auto labels what s) as (e & E); [tauto|congruence].
  - destruct (sql_distinct (fixed k ++ labels)) eqn:U; [reflexivity|]. destruct (rebuild_err temp n k auto labels what s) as (e & E); [tauto|congruence].
Qed.
Lemma remake_needs labels what s s' : remake labels what s = Ok s' ->
  labels <> [] /\ existsb has_nul labels = false /\ sql_distinct (fixed_columns ++ labels) = true.
Proof.
  unfold remake. destruct (rebuild_table "new_label_index" _ _ _ _ _ s) as [s1|] eqn:E1; cbn [bind]; [|discriminate].
  destruct (rebuild_table "new_location" _ _ _ _ _ s1) as [s2|] eqn:E2; cbn [bind]; [|discriminate]. intro E3.
  apply rebuild_needs in E1 as (A & B & C1), E2 as (_ & _ & C2), E3 as (_ & _ & C3). rewrite fixed_distinct. tauto.
Qed.

(* -------------------------------------------------------- references *)
Lemma verify_refs_iff s : verify_refs s = Ok tt <-> sound_refs s.
Proof.
  unfold verify_refs, sound_refs, table_at. destruct (forallb (ref_ok s) (s_refs s)) eqn:E.
  - split; [intros _|reflexivity]. rewrite forallb_forall in E. intros r Hr. apply E in Hr. unfold ref_ok in Hr.
    destruct (lookup (r_table r) (s_tabs s)) as [t|]; [|discriminate]. exists t. split; [reflexivity|]. apply existsb_exists in Hr.
    destruct Hr as (i & Hi & Q). apply Z.eqb_eq in Q. now subst.
  - split; [discriminate|]. intro H. assert (forallb (ref_ok s) (s_refs s) = true); [|congruence]. apply forallb_forall. intros r Hr.
    destruct (H r Hr) as (t & T & I). unfold ref_ok. rewrite T. apply existsb_exists. exists (r_key r). split; [exact I|apply Z.eqb_refl].
Qed.
Lemma verify_refs_cases s : (sound_refs s /\ verify_refs s = Ok tt) \/ (~ sound_refs s /\ verify_refs s = Err RuntimeError).
Proof.
  destruct (verify_refs s) as [[]|e] eqn:E; [left|right]; rewrite <- verify_refs_iff.
  - auto.
  - split; [congruence|]. unfold verify_refs in E. destruct (forallb _ _); congruence.
Qed.
Lemma sound_refs_same s s' : s_refs s' = s_refs s ->
  (forall n, match lookup n (s_tabs s), lookup n (s_tabs s') with Some t, Some t' => ids t' = ids t | None, None => True | _, _ => False end) ->
  sound_refs s' <-> sound_refs s.
Proof.
  intros R X. unfold sound_refs, table_at. rewrite R. split; intros H r Hr; destruct (H r Hr) as (t & T & I); specialize (X (r_table r)); rewrite T in X.
  - destruct (lookup (r_table r) (s_tabs s)) as [t0|]; [|contradiction]. exists t0. rewrite <- X. auto.
  - destruct (lookup (r_table r) (s_tabs s')) as [t0|]; [|contradiction]. exists t0. rewrite X. auto.
Qed.
