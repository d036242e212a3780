(** Proofs about granularity. *)
From Verif Require Import Prelude Selectors_Model Selectors_Proofs LinkRef_Model Db_Model Db_Spec Granularity_Model Granularity_Spec.
From Coq Require Import Reals Permutation Lra Lia.
Local Open Scope R_scope.

(** *** Keys *)

Lemma key_eqb_iff a : forall b, key_eqb a b = true <-> a = b.
Proof.
  induction a as [|[x|] a IH]; intros [|[y|] b]; cbn [key_eqb]; try (split; congruence).
  - rewrite Bool.andb_true_iff, text_eqb_iff, IH. split; [intros [-> ->]; auto|]. intros E. inversion E; auto.
  - rewrite IH. split; [intros ->; auto|]. intros E. inversion E; auto.
Qed.

Definition D (s : db) : list ixrec := filter (fun r => negb (ix_id r =? 0)%Z) (d_index s).
Lemma in_D s r : In r (D s) <-> defined s r.
Proof. unfold D, defined. rewrite filter_In, Bool.negb_true_iff, Z.eqb_neq. tauto. Qed.
Lemma D_pos s : index_wf s -> D s = filter (fun r => (0 <? ix_id r)%Z) (d_index s).
Proof.
  intros W. unfold D. assert (H : forall r, In r (d_index s) -> (0 <= ix_id r)%Z) by (intros r Hr; apply (iw_range _ W r Hr)).
  clear W. induction (d_index s) as [|r l IH]; auto. cbn [filter]. rewrite IH by (intros; apply H; now right).
  specialize (H r (or_introl eq_refl)). destruct (Z.eqb_spec (ix_id r) 0), (Z.ltb_spec 0 (ix_id r)); cbn; auto; lia.
Qed.
Lemma nodup_D s : index_wf s -> NoDup (D s).
Proof. intros W. apply NoDup_filter. exact (NoDup_map_inv _ _ (iw_unique _ W)). Qed.

Lemma distinct_in k : forall l seen, In k (distinct seen l) <-> In k l /\ ~ In k seen.
Proof.
  induction l as [|x l IH]; intros seen; cbn [distinct]; [cbn; tauto|].
  destruct (existsb (key_eqb x) seen) eqn:E.
  - rewrite IH. apply existsb_exists in E. destruct E as (y & Hy & E). apply key_eqb_iff in E. subst y. cbn.
    split; [tauto|]. intros [[<-|H] Hn]; tauto.
  - cbn [In]. rewrite IH. assert (Hx : ~ In x seen).
    { intros H. assert (existsb (key_eqb x) seen = true) by (apply existsb_exists; exists x; rewrite key_eqb_iff; auto). congruence. }
    cbn. destruct (list_eq_dec (fun a b : option text => ltac:(decide equality; apply (list_eq_dec N.eq_dec))) x k) as [->|N]; [tauto|]. tauto.
Qed.
Lemma distinct_nodup : forall l seen, NoDup (distinct seen l).
Proof.
  induction l as [|x l IH]; intros seen; cbn [distinct]; [constructor|]. destruct (existsb (key_eqb x) seen); auto.
  constructor; auto. rewrite distinct_in. cbn. tauto.
Qed.

(** *** Sums *)

Lemma Rsum_cons a l : Rsum (a :: l) = a + Rsum l. Proof. reflexivity. Qed.
Lemma Rsum_app a b : Rsum (a ++ b) = Rsum a + Rsum b.
Proof. induction a as [|x a IH]; cbn [app]; rewrite ?Rsum_cons, ?IH; cbn; lra. Qed.
Lemma Rsum_perm a b : Permutation a b -> Rsum a = Rsum b.
Proof. induction 1; rewrite ?Rsum_cons; try lra; auto. Qed.
Lemma Rsum_scale {A} c (f : A -> R) l : Rsum (map (fun a => c * f a) l) = c * Rsum (map f l).
Proof. induction l as [|x l IH]; cbn [map]; rewrite ?Rsum_cons, ?IH; cbn; lra. Qed.
Lemma Rsum_ext {A} (f g : A -> R) l : (forall a, In a l -> f a = g a) -> Rsum (map f l) = Rsum (map g l).
Proof. induction l as [|x l IH]; intros H; cbn [map]; auto. rewrite !Rsum_cons, IH, (H x); auto; [now left|]. intros; apply H; now right. Qed.
Lemma Rsum_const {A} c (l : list A) : Rsum (map (fun _ => c) l) = INR (length l) * c.
Proof. induction l as [|x l IH]; cbn [map length]; rewrite ?Rsum_cons, ?IH, ?S_INR; cbn; lra. Qed.
Lemma Rsum_plus {A} (f g : A -> R) l : Rsum (map (fun a => f a + g a) l) = Rsum (map f l) + Rsum (map g l).
Proof. induction l as [|x l IH]; cbn [map]; rewrite ?Rsum_cons, ?IH; cbn; lra. Qed.
Lemma Rsum_le {A} (f g : A -> R) l : (forall a, In a l -> f a <= g a) -> Rsum (map f l) <= Rsum (map g l).
Proof.
  induction l as [|x l IH]; intros H; cbn [map]; rewrite ?Rsum_cons; [lra|].
  specialize (H x (or_introl eq_refl)) as Hx. assert (Rsum (map f l) <= Rsum (map g l)) by (apply IH; intros; apply H; now right). lra.
Qed.
Lemma Rsum_le_eq {A} (f g : A -> R) l : (forall a, In a l -> f a <= g a) -> Rsum (map f l) = Rsum (map g l) ->
  forall a, In a l -> f a = g a.
Proof.
  induction l as [|x l IH]; intros H E a; [easy|]. cbn [map] in E. rewrite !Rsum_cons in E.
  specialize (H x (or_introl eq_refl)) as Hx. assert (Hl : forall b, In b l -> f b <= g b) by (intros; apply H; now right).
  pose proof (Rsum_le f g l Hl). intros [<-|Ha]; [lra|]. apply IH; auto. lra.
Qed.
Lemma fold_Rsum {A} (f : A -> R) l : forall acc, fold_left (fun acc a => acc + f a) l acc = acc + Rsum (map f l).
Proof. induction l as [|x l IH]; intros acc; cbn [fold_left map]; rewrite ?IH, ?Rsum_cons; cbn; lra. Qed.
Lemma fold_Rplus l acc : fold_left Rplus l acc = acc + Rsum l.
Proof. revert acc. induction l as [|x l IH]; intros acc; cbn [fold_left]; rewrite ?IH, ?Rsum_cons; cbn; lra. Qed.

(** Summing over the distinct keys the sums of the records with the key. *)
Lemma Rsum_by_key {A} (k : A -> list (option text)) (f : A -> R) (l : list A) : forall keys, NoDup keys -> (forall a, In a l -> In (k a) keys) ->
  Rsum (map (fun x => Rsum (map f (filter (fun a => key_eqb x (k a)) l))) keys) = Rsum (map f l).
Proof.
  induction l as [|a l IH]; intros keys N H.
  - cbn [filter map]. change (Rsum []) with 0. rewrite Rsum_const. lra.
  - cbn [map]. rewrite Rsum_cons, <- (IH keys) by (auto; intros; apply H; now right).
    specialize (H a (or_introl eq_refl)). clear IH. induction keys as [|x keys IHk]; [easy|]. inversion N; subst.
    cbn [map filter]. rewrite !Rsum_cons. destruct H as [->|H].
    + replace (key_eqb (k a) (k a)) with true by (symmetry; now apply key_eqb_iff). cbn [map]. rewrite Rsum_cons.
      rewrite (Rsum_ext (fun x => Rsum (map f (if key_eqb x (k a) then a :: filter (fun a0 => key_eqb x (k a0)) l else filter (fun a0 => key_eqb x (k a0)) l)))
                 (fun x => Rsum (map f (filter (fun a => key_eqb x (k a)) l)))); [lra|].
      intros y Hy. destruct (key_eqb y (k a)) eqn:E; auto. apply key_eqb_iff in E. subst. easy.
    + destruct (key_eqb x (k a)) eqn:E; [apply key_eqb_iff in E; subst; easy|].
      assert (N' : NoDup keys) by assumption. specialize (IHk N' H). cbn [filter] in IHk. rewrite IHk. lra.
Qed.

(** The number of records in the block of a record. *)
Definition size (s : db) (cols : list text) (r : ixrec) : nat :=
  length (filter (fun r' => key_eqb (key s cols r) (key s cols r')) (D s)).
Definition per_record (s : db) (cols : list text) : R :=
  log2 (INR (length (D s))) - / INR (length (D s)) * Rsum (map (fun r => log2 (INR (size s cols r))) (D s)).

Lemma block_sum s cols n : forall keys, NoDup keys -> (forall r, In r (D s) -> In (key s cols r) keys) ->
  Rsum (map (fun x => let b := length (filter (fun r => key_eqb x (key s cols r)) (D s)) in (INR b / n) * log2 (INR b)) keys) =
  / n * Rsum (map (fun r => log2 (INR (size s cols r))) (D s)).
Proof.
  intros keys N H. rewrite <- (Rsum_by_key (key s cols) (fun r => log2 (INR (size s cols r))) (D s) keys N H), <- Rsum_scale.
  apply Rsum_ext. intros x Hx. cbv zeta.
  rewrite (Rsum_ext _ (fun _ => log2 (INR (length (filter (fun r => key_eqb x (key s cols r)) (D s)))))).
  - rewrite Rsum_const. unfold Rdiv. lra.
  - intros r Hr. apply filter_In in Hr. destruct Hr as [_ E]. apply key_eqb_iff in E. subst x. reflexivity.
Qed.

Lemma criteria_key s cols labels r : length labels = length cols ->
  forallb (fun c => key_eqb [label_at (d_labels s) (ix_labels r) (fst c)] [snd c]) (combine cols labels) = key_eqb labels (key s cols r).
Proof.
  intros L. apply Bool.eq_true_iff_eq. rewrite forallb_forall, key_eqb_iff. unfold key.
  revert labels L. induction cols as [|c cols IH]; intros [|v labels] L; try discriminate L; cbn [combine map]; [split; easy|].
  injection L as L. specialize (IH labels L). split.
  - intros H. f_equal; [|apply IH; intros x Hx; apply H; now right]. specialize (H (c, v) (or_introl eq_refl)). apply key_eqb_iff in H. now inversion H.
  - intros E. inversion E as [[E1 E2]]. intros x [<-|Hx]; [cbn [fst snd]; now apply key_eqb_iff|]. rewrite E2 in IH. rewrite <- E2 in *.
    apply IH; auto.
Qed.

Lemma known s cols : forallb (fun c => existsb (text_eqb c) (d_labels s)) cols = true <-> incl cols (d_labels s).
Proof.
  rewrite forallb_forall. unfold incl. split; intros H c Hc; specialize (H c Hc); [apply existsb_exists in H; destruct H as (y & Hy & E); apply text_eqb_iff in E; now subst|].
  apply existsb_exists. exists c. rewrite text_eqb_iff. auto.
Qed.

Lemma granularity_eq cols s : cols <> [] -> incl cols (d_labels s) -> D s <> [] ->
  calculate_granularity cols s = Ok (Some (per_record s cols)).
Proof.
  intros Hc Hi Hd. unfold calculate_granularity. destruct cols as [|c0 cols0]; [easy|]. set (cols := c0 :: cols0) in *.
  unfold cardinality. fold (D s). destruct (Nat.eqb_spec (length (D s)) 0) as [E|_]; [apply length_zero_iff_nil in E; easy|].
  apply known in Hi. rewrite Hi. cbn [negb]. do 2 f_equal. rewrite fold_Rsum. unfold per_record, find_distinct_labels. fold (D s).
  rewrite <- (block_sum s cols (INR (length (D s))) (distinct [] (map (key s cols) (D s)))).
  - rewrite Rplus_0_l. f_equal. apply Rsum_ext. intros labels Hl. cbv zeta.
    apply distinct_in in Hl. destruct Hl as [Hl _]. apply in_map_iff in Hl. destruct Hl as (r & <- & _).
    replace (length (filter_index_ids_by_label (combine cols (key s cols r)) s)) with (length (filter (fun r0 => key_eqb (key s cols r) (key s cols r0)) (D s))); auto.
    unfold filter_index_ids_by_label. rewrite map_length. f_equal. unfold D. 
    assert (L : length (key s cols r) = length cols) by apply map_length. revert L. generalize (key s cols r) as k. intros k L.
    induction (d_index s) as [|x l IH]; auto. cbn [filter]. rewrite (criteria_key s cols k x L).
    destruct (negb (ix_id x =? 0)%Z); cbn [filter]; rewrite ?Bool.andb_true_r, ?Bool.andb_false_r; destruct (key_eqb k (key s cols x)); rewrite ?IH; auto.
  - apply distinct_nodup.
  - intros r Hr. apply distinct_in. split; [now apply in_map|easy].
Qed.

(** *** The optimized computation *)

Lemma count_group_keys k l : forall x, In x (map fst (count_group k l)) <-> x = k \/ In x (map fst l).
Proof.
  induction l as [|[k' n] l IH]; intros x; cbn [count_group map fst]; [cbn; intuition congruence|].
  destruct (key_eqb k k') eqn:E; cbn [map fst In]; [apply key_eqb_iff in E; subst; intuition congruence|]. rewrite IH. tauto.
Qed.
Lemma count_group_nodup k l : NoDup (map fst l) -> NoDup (map fst (count_group k l)).
Proof.
  induction l as [|[k' n] l IH]; intros N; cbn [count_group map fst]; [repeat constructor; easy|].
  cbn [map fst] in N. inversion N; subst. destruct (key_eqb k k') eqn:E; cbn [map fst]; constructor; auto.
  rewrite count_group_keys. intros [->|H]; auto. assert (key_eqb k k = true) by now apply key_eqb_iff. congruence.
Qed.
Lemma count_group_in k l x n : NoDup (map fst l) -> In (x, n) (count_group k l) <->
  (x <> k /\ In (x, n) l) \/ (x = k /\ ((n = 1%nat /\ ~ In k (map fst l)) \/ exists m, In (k, m) l /\ n = S m)).
Proof.
  induction l as [|[k' m] l IH]; intros N; cbn [count_group].
  - cbn. split.
    + intros [E|[]]. inversion E; subst. right. auto.
    + intros [[_ []]|[-> [[-> _]|(m & [] & _)]]]. now left.
  - cbn [map fst] in N. inversion N; subst. specialize (IH H2). destruct (key_eqb k k') eqn:E.
    + apply key_eqb_iff in E. subst k'. cbn [In map fst]. split.
      * intros [E|H]; [inversion E; subst; right; split; auto; right; exists m; auto|].
        left. split; auto. intros ->. apply H1. apply (in_map fst) in H. exact H.
      * intros [[Hx [E|H]]|[-> [[_ H]|(m' & [E|H] & ->)]]]; [inversion E; congruence|now right|tauto|inversion E; subst; now left|].
        exfalso. apply H1. apply (in_map fst) in H. exact H.
    + assert (k <> k') by (intros ->; assert (key_eqb k' k' = true) by (now apply key_eqb_iff); congruence).
      cbn [In map fst]. rewrite IH. split.
      * intros [E0|[[Hx H0]|[-> [[-> H0]|(m' & H0 & ->)]]]].
        -- inversion E0; subst. left. split; auto.
        -- left; auto.
        -- right. split; auto. left. split; auto. intros [->|]; auto.
        -- right. split; auto. right. exists m'. auto.
      * intros [[Hx [E0|H0]]|[-> [[-> H0]|(m' & [E0|H0] & ->)]]]; auto.
        -- right. right. split; auto. left. tauto.
        -- inversion E0; congruence.
        -- right. right. split; auto. right. exists m'. auto.
Qed.

Definition countk (k : list (option text)) (l : list (list (option text))) : nat := length (filter (key_eqb k) l).
Lemma group_counts_ok l : NoDup (map fst (group_counts l)) /\ forall k n, In (k, n) (group_counts l) <-> In k l /\ n = countk k l.
Proof.
  unfold group_counts. induction l as [|k l IH] using rev_ind; [split; [constructor|cbn; tauto]|].
  rewrite fold_left_app. cbn [fold_left]. destruct IH as [N IH]. split; [now apply count_group_nodup|].
  intros x n. rewrite (count_group_in _ _ _ _ N). unfold countk. rewrite filter_app, app_length, in_app_iff. cbn [filter In length].
  assert (Hin : forall y, In y (map fst (fold_left (fun acc k0 => count_group k0 acc) l [])) <-> In y l).
  { intros y. rewrite in_map_iff. split; [intros ([y' m] & <- & H); apply IH in H; tauto|]. intros H. exists (y, countk y l). split; auto. apply IH; auto. }
  destruct (key_eqb x k) eqn:E.
  - apply key_eqb_iff in E. subst x. rewrite Hin. cbn [length]. split.
    + intros [[H _]|[_ [[-> H]|(m & H & ->)]]]; [easy| |].
      * split; auto. fold (countk k l). replace (countk k l) with 0%nat; auto. symmetry. apply length_zero_iff_nil.
        destruct (filter (key_eqb k) l) as [|y f] eqn:Ef; auto. assert (In y (filter (key_eqb k) l)) by (rewrite Ef; now left).
        apply filter_In in H0. destruct H0 as [H0 E0]. apply key_eqb_iff in E0. subst y. easy.
      * apply IH in H. destruct H as [H ->]. split; auto. unfold countk. lia.
    + intros [_ ->]. right. split; auto. destruct (in_dec (list_eq_dec (fun a b : option text => ltac:(decide equality; apply (list_eq_dec N.eq_dec)))) k l) as [H|H].
      * right. exists (countk k l). split; [apply IH; auto|unfold countk; lia].
      * left. split; auto. replace (filter (key_eqb k) l) with (@nil (list (option text))); auto. symmetry.
        destruct (filter (key_eqb k) l) as [|y f] eqn:Ef; auto. assert (In y (filter (key_eqb k) l)) by (rewrite Ef; now left).
        apply filter_In in H0. destruct H0 as [H0 E0]. apply key_eqb_iff in E0. subst y. easy.
  - assert (x <> k) by (intros ->; assert (key_eqb k k = true) by (now apply key_eqb_iff); congruence).
    rewrite Nat.add_0_r, IH. fold (countk x l). intuition congruence.
Qed.

Lemma countk_map s cols k : countk k (map (key s cols) (D s)) = length (filter (fun r => key_eqb k (key s cols r)) (D s)).
Proof. unfold countk. induction (D s) as [|r l IH]; auto. cbn [map filter]. destruct (key_eqb k (key s cols r)); cbn [length]; auto. Qed.

Theorem optimized_eq cols s : index_wf s -> optimized_granularity cols s = calculate_granularity cols s.
Proof.
  intros W. destruct cols as [|c0 cols0]; [reflexivity|]. set (cols := c0 :: cols0).
  assert (Hc : cols <> []) by discriminate.
  destruct (D s) as [|r0 l0] eqn:Ed.
  { unfold optimized_granularity, calculate_granularity, cardinality. fold (D s). rewrite Ed. reflexivity. }
  destruct (forallb (fun c => existsb (text_eqb c) (d_labels s)) cols) eqn:Ek.
  2:{ unfold optimized_granularity, calculate_granularity, cardinality. fold (D s). rewrite Ek. reflexivity. }
  assert (Hd : D s <> []) by (rewrite Ed; discriminate).
  rewrite (granularity_eq cols s Hc (proj1 (known s cols) Ek) Hd).
  unfold optimized_granularity. subst cols. unfold cardinality. fold (D s). set (cols := c0 :: cols0) in *.
  destruct (Nat.eqb_spec (length (D s)) 0) as [E|_]; [apply length_zero_iff_nil in E; easy|].
  rewrite Ek. cbn [negb]. f_equal. rewrite <- (D_pos s W). 
  destruct (group_counts_ok (map (key s cols) (D s))) as [N G].
  unfold sql_sum. destruct (map (fun n => INR n / INR (length (D s)) * log2 (INR n)) (map snd (group_counts (map (key s cols) (D s))))) eqn:Em.
  - exfalso. assert (H : In (key s cols r0, countk (key s cols r0) (map (key s cols) (D s))) (group_counts (map (key s cols) (D s)))).
    { apply G. split; auto. apply in_map. rewrite Ed. now left. }
    destruct (group_counts (map (key s cols) (D s))); [easy|discriminate Em].
  - rewrite <- Em, fold_Rplus, Rplus_0_l. unfold per_record. do 2 f_equal.
    rewrite <- (block_sum s cols (INR (length (D s))) (map fst (group_counts (map (key s cols) (D s)))) N).
    + rewrite !map_map. apply Rsum_ext. intros [k n] H. cbn [fst snd]. apply G in H. destruct H as [_ ->]. rewrite countk_map. reflexivity.
    + intros r' Hr. apply in_map_iff. exists (key s cols r', countk (key s cols r') (map (key s cols) (D s))). split; auto. apply G. split; auto. now apply in_map.
Qed.
