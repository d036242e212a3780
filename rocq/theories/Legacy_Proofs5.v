From Verif Require Import Prelude Partitions_Model Partitions_Spec Partitions_Proofs Columns_Model Columns_Spec Columns_Proofs
  Columns_Proofs2 Columns_Proofs3 Legacy_Model Legacy_Spec Legacy_Proofs Legacy_Proofs2 Legacy_Proofs3 Legacy_Proofs4.
From Coq Require Import Permutation.
Local Open Scope nat_scope.

(* -------------------------------------------------------- the same as with new versions of SQLite *)
Theorem rename_modern m s cols c : space_wf s cols -> NoDup (map fst m) -> cols <> [] -> (forall x, In x cols -> ~ reserved_name x) ->
  s_tx s = false -> sound_refs s -> rename_index_columns m (view s) = Ok c ->
  exists s', legacy_rename_labels m s = (Ok tt, s') /\ view s' = c.
Proof.
  intros W N Ne Rv T S H. apply rename_index_columns_cols in H as (K & V & s1 & L & E).
  assert (Cv : c_columns (view s) = cols) by exact (wf_get_columns s cols W). rewrite Cv in *.
  pose proof (wf_distinct _ _ W) as D. pose proof (lm_rename_spec _ _ _ L) as (L0 & L1 & L2 & L3 & L4 & _ & L5).
  assert (C : c_columns s1 = map (mapping_get m) cols).
  { rewrite <- Cv. apply lm_rename_map; auto.
    - rewrite Cv. exact D.
    - intros x Hx. rewrite Cv. apply in_map_iff in Hx as (p & <- & Hp). auto.
    - intros x Hx Hy. apply in_map_iff in Hy as (p & <- & Hp). destruct (V _ Hx) as (_ & F & _). apply F. auto. }
  assert (M : may_rename m s cols).
  { split; [exact T|]. split; [exact Ne|]. split; [exact S|]. split.
    - intros old new Hp. destruct (V new) as (A & B & F); [apply in_map_iff; exists (old, new); auto|]. rewrite registered_view in F.
      split; [apply Rv; exact (K _ Hp)|auto].
    - exists (map (mapping_get m) cols). split; [apply names_map|]. split.
      + apply case_distinct_iff. change table_columns with fixed_columns. rewrite <- C. apply L0. now rewrite Cv.
      + intros x Hx. rewrite <- C in Hx. destruct (L5 x Hx) as [Q|Q]; [now apply has_nul_false|]. rewrite Cv in Q. exact (sw_nul _ _ W x Q). }
  destruct (proj2 (rename_when m s cols W N) M) as (s' & H'). exists s'. split; [exact H'|].
  destruct (rename_run m s cols s' W N H') as (_ & _ & _ & _ & Ev). rewrite Ev, E. unfold rename_defs, with_defs, with_columns, pview. cbn.
  rewrite C, L1, L2, L3, L4. reflexivity.
Qed.

Lemma bit_inj a b : forallb (cell_ok KStructure) a = true -> forallb (cell_ok KStructure) b = true -> map bit_of a = map bit_of b -> a = b.
Proof.
  revert b. induction a as [|x a IH]; intros [|y b] A B E; cbn in *; try discriminate; [reflexivity|].
  apply andb_true_iff in A as [A1 A2], B as [B1 B2]. injection E as E1 E2. rewrite (IH b A2 B2 E2). f_equal.
  destruct x as [x|x|x|], y as [y|y|y|]; cbn in *; try discriminate. apply orb_true_iff in A1, B1. rewrite !Z.eqb_eq in *. f_equal.
  destruct A1, B1; subst; cbn in E1; congruence.
Qed.
Lemma NoDup_map_iff {A B} (f : A -> B) l : (forall x y, In x l -> In y l -> f x = f y -> x = y) -> NoDup (map f l) <-> NoDup l.
Proof.
  intro I. split; [apply NoDup_map_inv|]. intro N. induction N as [|x l Hx N IH]; cbn [map]; constructor.
  - intro Q. apply in_map_iff in Q as (y & E & Hy). apply Hx. rewrite <- (I y x); auto; [now right|now left].
  - apply IH. intros; apply I; auto; now right.
Qed.

Theorem drop_modern drop s cols clash c ti tl : space_wf s cols -> s_tx s = false -> sound_refs s ->
  table_at s "label_index" ti -> table_at s "label_location" tl ->
  (clash = false <-> no_clash drop cols ti /\ no_clash drop cols tl) ->
  drop_index_columns drop clash (view s) = Ok c <-> exists s', legacy_drop_labels drop s = (Ok tt, s') /\ view s' = c.
Proof.
  intros W T S Ti Tl Cl. destruct (drop_run drop s cols W) as [When Run]. destruct (sw_structure _ _ W) as (ts & Ts & Ws).
  assert (Cv : c_columns (view s) = cols) by exact (wf_get_columns s cols W).
  assert (Key : drop_index_columns drop clash (view s) = Ok c <->
    may_drop drop s cols /\ c = with_columns (keeps drop cols) (map (keep_cells drop cols) (c_structs (view s))) (view s)).
  { unfold drop_index_columns, lm_drop_columns. rewrite Cv. fold (keeps drop cols).
    destruct (existsb (fun c => lmem c all_reserved) drop) eqn:R.
    { split; [discriminate|]. intros [(_ & _ & Q & _) _]. pose proof (proj2 (reserved_none drop) Q). congruence. }
    pose proof (proj1 (reserved_none drop) R) as R0. clear R. rename R0 into R. destruct (lsubset cols drop) eqn:L.
    { split; [discriminate|]. intros [(_ & _ & _ & (x & Hx & Nx) & _) _]. apply lsubset_iff in L. destruct Nx. now apply L. }
    assert (Ne : exists x, In x cols /\ ~ In x drop).
    { apply keeps_nonempty. intro Q. assert (lsubset cols drop = true); [|congruence]. apply lsubset_iff. intros x Hx.
      destruct (lmem x drop) eqn:E; [now apply lmem_iff|]. assert (Z : In x (keeps drop cols)) by (apply filter_In; rewrite E; auto). rewrite Q in Z. destruct Z. }
    destruct clash.
    { split; [discriminate|]. intros [(_ & _ & _ & _ & Q) _]. exfalso. enough (true = false) by discriminate. apply Cl.
      split; eapply Q; try eassumption; cbn; tauto. }
    destruct (proj1 Cl eq_refl) as [N1 N2].
    assert (Us : unique_rows (map (keep_cells drop cols) (c_structs (view s))) = true <-> no_clash drop cols ts).
    { rewrite unique_rows_iff, (no_clash_iff drop cols R _ _ _ Ws), (thin_labels drop cols R _ _ _ Ws). unfold view. cbn [c_structs].
      unfold table_at in Ts. rewrite Ts. 
      replace (map (keep_cells drop cols) (map (fun r => map bit_of (labels_in KStructure r)) (t_rows ts)))
        with (map (map bit_of) (map (keep_row drop cols) (map (labels_in KStructure) (t_rows ts)))).
      - apply NoDup_map_iff. intros x y Hx Hy. apply in_map_iff in Hx as (x0 & <- & Hx), Hy as (y0 & <- & Hy).
        apply in_map_iff in Hx as (x1 & <- & Hx), Hy as (y1 & <- & Hy). apply bit_inj; apply keep_row_ok; apply (tw_cells _ _ _ _ Ws); assumption.
      - rewrite !map_map. apply map_ext. intro r. generalize (labels_in KStructure r). intro cells. clear. revert cells.
        induction cols as [|x cs IH]; intros [|v cells]; cbn; try reflexivity. destruct (lmem x drop); cbn [map]; now rewrite IH. }
    unfold create_constraints. cbn [with_columns c_columns c_structs]. apply keeps_nonempty in Ne. destruct (keeps drop cols) as [|k0 keep] eqn:K; [congruence|].
    rewrite <- K in *. split.
    - destruct (unique_rows _) eqn:E; [|discriminate]. intro H. injection H as <-. pose proof (proj1 Us eq_refl) as E2. split; [|reflexivity].
      split; [exact T|]. split; [exact S|]. split; [exact R|]. split; [now apply keeps_nonempty|]. intros n t N A. unfold table_at in *.
      cbn [label_tables In] in N. destruct N as [<-|[<-|[<-|[]]]]; [replace t with ti by congruence|replace t with tl by congruence|replace t with ts by congruence]; assumption.
    - intros [(_ & _ & _ & _ & Q) ->]. rewrite (proj2 Us); [reflexivity|]. eapply Q; try eassumption. cbn. tauto. }
  rewrite Key. split.
  - intros [M ->]. apply When in M as (s' & H). exists s'. split; [exact H|]. apply (Run s' H).
  - intros (s' & H & <-). split; [apply When; eauto|]. apply (Run s' H).
Qed.

(* -------------------------------------------------------- ids *)
Lemma top_of_max l i : In i l -> (i <= top_of l)%Z.
Proof. induction l as [|x l IH]; intros H; [destruct H|]. cbn [top_of fold_right]. fold (top_of l). destruct H as [->|H]; [lia|]. specialize (IH H). lia. Qed.
Lemma top_of_in l : In 0%Z l -> (forall i, In i l -> (0 <= i)%Z) -> In (top_of l) l.
Proof.
  intros H P. assert (X : top_of l = 0%Z \/ In (top_of l) l).
  { clear H P. induction l as [|x l IH]; [now left|]. cbn [top_of fold_right]. fold (top_of l).
    destruct (Z.max_spec x (top_of l)) as [[_ ->]|[_ ->]]; [destruct IH; [now left|right; now right]|right; now left]. }
  destruct X as [->|X]; assumption.
Qed.
Lemma add_record_id labels s s' i t : table_at s "label_index" t -> add_record labels s = Ok (s', i) ->
  i = (Z.max (match lookup "label_index" (s_seqs s) with Some q => q | None => 0 end) (top_of (ids t)) + 1)%Z.
Proof.
  intros T H. unfold add_record in H. unfold table_at in T. rewrite T in H. destruct (negb _); [discriminate|]. destruct (negb _); [discriminate|].
  destruct (existsb _ _); [discriminate|]. destruct (_ <=? _)%Z; [discriminate|]. injection H as _ <-. reflexivity.
Qed.
Lemma next_id s' t labels s'' i : table_at s' "label_index" t -> In 0%Z (ids t) -> (forall j, In j (ids t) -> (0 <= j)%Z) ->
  lookup "label_index" (s_seqs s') = Some (top_of (ids t)) -> add_record labels s' = Ok (s'', i) ->
  In (i - 1)%Z (ids t) /\ forall j, In j (ids t) -> (j < i)%Z.
Proof.
  intros T Z0 Zp Q H. apply (add_record_id _ _ _ _ t T) in H. rewrite Q, Z.max_id in H. subst i. split.
  - replace (top_of (ids t) + 1 - 1)%Z with (top_of (ids t)) by lia. now apply top_of_in.
  - intros j Hj. apply top_of_max in Hj. lia.
Qed.
Lemma renamed_ids m s s' cols cols' t t' : space_wf s cols -> space_wf s' cols' -> is_renamed m s s' ->
  table_at s "label_index" t -> table_at s' "label_index" t' -> ids t' = ids t.
Proof.
  intros _ _ ((_ & X) & _) T T'. destruct (X "label_index"%string) as (a & b & A & B & _ & _ & R & _); [now left|]. unfold table_at in *.
  replace t' with b by congruence. replace t with a by congruence. unfold ids. now rewrite R.
Qed.
Lemma kept_id drop cols r r' : kept drop cols r r' -> (forall c0 l, cols = c0 :: l -> ~ In c0 drop) -> row_id r' = row_id r.
Proof. intros K H. inversion K; subst; try reflexivity. exfalso. eapply H; [reflexivity|assumption]. Qed.
Lemma dropped_ids drop s s' cols t t' : space_wf s cols -> (forall c, In c drop -> ~ reserved_name c) -> is_dropped drop s s' ->
  table_at s "label_index" t -> table_at s' "label_index" t' -> ids t' = ids t.
Proof.
  intros W R ((_ & X) & _) T T'. destruct (X "label_index"%string) as (a & b & A & B & _ & _ & _ & F); [now left|]. unfold table_at in *.
  destruct (sw_index _ _ W) as (ti & Ti & Wi & _). unfold table_at in Ti.
  assert (b = t') by congruence. assert (a = t) by congruence. assert (ti = t) by congruence. subst. unfold ids. rewrite (tw_cols _ _ _ _ Wi) in F.
  induction F as [|r r' l l' K F IH]; cbn [map]; [reflexivity|]. rewrite IH. f_equal. eapply kept_id; [exact K|]. intros c0 l0 [= <- _] Q.
  apply (R _ Q). unfold reserved_name. cbn. tauto.
Qed.
