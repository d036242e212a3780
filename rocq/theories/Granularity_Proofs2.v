(** Proofs about granularity: range, refinement, entropy. *)
From Verif Require Import Prelude Selectors_Model Selectors_Proofs LinkRef_Model Db_Model Db_Spec Granularity_Model Granularity_Spec Granularity_Proofs.
From Coq Require Import Reals Permutation Lra Lia.
Local Open Scope R_scope.

(** *** Blocks *)

Lemma label_at_labelled cols : forall labels c v, NoDup cols ->
  (label_at cols labels c = Some v <-> exists n, nth_error cols n = Some c /\ nth_error labels n = Some v).
Proof.
  induction cols as [|k cols IH]; intros [|w labels] c v N; cbn [label_at].
  - split; [easy|]. intros ([|n] & H & _); discriminate H.
  - split; [easy|]. intros ([|n] & H & _); discriminate H.
  - split; [easy|]. intros ([|n] & _ & H); discriminate H.
  - inversion N; subst. destruct (text_eqb c k) eqn:E.
    + apply text_eqb_iff in E. subst k. split; [intros E; inversion E; subst; exists 0%nat; auto|].
      intros ([|n] & H & H'); [cbn in H'; congruence|]. cbn in H. apply nth_error_In in H. easy.
    + rewrite IH by auto. split; intros (n & H & H').
      * exists (S n). auto.
      * destruct n as [|n]; [cbn in H; inversion H; subst; rewrite text_eqb_refl in E; discriminate|]. exists n. auto.
Qed.
Lemma same_key s cols r r' : NoDup (d_labels s) -> (key s cols r = key s cols r' <-> same_block s cols r r').
Proof.
  intros N. unfold key, same_block, labelled. split.
  - intros E c v Hc. rewrite <- !label_at_labelled by auto. 
    assert (E' : label_at (d_labels s) (ix_labels r) c = label_at (d_labels s) (ix_labels r') c).
    { clear - E Hc. induction cols as [|x cols IH]; [easy|]. cbn [map] in E. inversion E. destruct Hc as [->|Hc]; auto. }
    rewrite E'. tauto.
  - intros H. apply map_ext_in. intros c Hc. specialize (H c). setoid_rewrite <- label_at_labelled in H; auto.
    destruct (label_at (d_labels s) (ix_labels r) c) as [v|]; [symmetry; apply H; auto|].
    destruct (label_at (d_labels s) (ix_labels r') c) as [v|]; auto. apply H; auto.
Qed.
Lemma same_block_incl s cols cols' r r' : incl cols cols' -> same_block s cols' r r' -> same_block s cols r r'.
Proof. intros I H c v Hc. apply H, I, Hc. Qed.

Definition members (s : db) (cols : list text) (r : ixrec) : list ixrec := filter (fun r' => key_eqb (key s cols r) (key s cols r')) (D s).
Lemma in_members s cols r r' : NoDup (d_labels s) -> (In r' (members s cols r) <-> defined s r' /\ same_block s cols r r').
Proof. intros N. unfold members. rewrite filter_In, in_D, key_eqb_iff, same_key by auto. tauto. Qed.
Lemma size_pos s cols r : defined s r -> (1 <= size s cols r)%nat.
Proof.
  intros H. apply in_D in H. unfold size. destruct (filter _ (D s)) eqn:E; [|cbn; lia].
  assert (Hr : In r (filter (fun r' => key_eqb (key s cols r) (key s cols r')) (D s))) by (apply filter_In; rewrite key_eqb_iff; auto). rewrite E in Hr. easy.
Qed.
Lemma size_le s cols r : (size s cols r <= length (D s))%nat.
Proof. unfold size. induction (D s) as [|x l IH]; cbn [filter length]; auto. destruct key_eqb; cbn [length]; lia. Qed.
Lemma size_mono s cols cols' r : index_wf s -> incl cols cols' -> (size s cols' r <= size s cols r)%nat.
Proof.
  intros W I. pose proof (nodup_D s W) as N. apply (NoDup_incl_length (NoDup_filter _ N)). intros x Hx.
  apply (in_members s cols' r x (iw_columns _ W)) in Hx. apply (in_members s cols r x (iw_columns _ W)). destruct Hx as [Hx Hs]. split; auto. exact (same_block_incl s cols cols' r x I Hs).
Qed.
Lemma size_same s cols cols' r : index_wf s -> incl cols cols' -> size s cols' r = size s cols r ->
  forall r', defined s r' -> (same_block s cols r r' <-> same_block s cols' r r').
Proof.
  intros W I E r' Hr. split; [|apply same_block_incl; auto]. intros H.
  assert (Hin : In r' (members s cols r)) by (apply in_members; auto; apply (iw_columns _ W)).
  assert (Hincl : incl (members s cols r) (members s cols' r)).
  { apply (NoDup_length_incl (NoDup_filter _ (nodup_D s W))).
    - unfold size in E. unfold members. rewrite E. apply le_n.
    - intros x Hx. apply (in_members s cols' r x (iw_columns _ W)) in Hx. apply (in_members s cols r x (iw_columns _ W)). destruct Hx as [Hx Hs]. split; auto. exact (same_block_incl s cols cols' r x I Hs). }
  apply Hincl in Hin. apply in_members in Hin; [tauto|apply (iw_columns _ W)].
Qed.

(** *** Logarithms *)

Lemma ln2_pos : 0 < ln 2. Proof. rewrite <- ln_1. apply ln_increasing; lra. Qed.
Lemma log2_lt a b : 0 < a -> a < b -> log2 a < log2 b.
Proof.
  intros Ha Hb. unfold log2, Rdiv. apply Rmult_lt_compat_r; [apply Rinv_0_lt_compat, ln2_pos|]. now apply ln_increasing.
Qed.
Lemma log2_le a b : 0 < a -> a <= b -> log2 a <= log2 b.
Proof. intros Ha [H|<-]; [left; now apply log2_lt|lra]. Qed.
Lemma log2_inj a b : 0 < a -> 0 < b -> log2 a = log2 b -> a = b.
Proof.
  intros Ha Hb E. destruct (Rtotal_order a b) as [H|[H|H]]; auto; [apply log2_lt in H|apply log2_lt in H]; lra.
Qed.
Lemma log2_div a b : 0 < a -> 0 < b -> log2 (a / b) = log2 a - log2 b.
Proof. intros Ha Hb. unfold log2, Rdiv at 2. rewrite ln_mult, ln_Rinv by (auto; now apply Rinv_0_lt_compat). lra. Qed.
Lemma log2_1 : log2 1 = 0. Proof. unfold log2. rewrite ln_1. lra. Qed.
Lemma INR_pos n : (1 <= n)%nat -> 0 < INR n. Proof. intros H. apply lt_0_INR. lia. Qed.

(** *** The granularity *)

Section G.
Context (s : db) (W : index_wf s) (Hd : D s <> []).
Let n := INR (length (D s)).
Lemma n_pos : 0 < n.
Proof. apply INR_pos. destruct (D s); [easy|cbn; lia]. Qed.
Lemma size_pos' cols r : In r (D s) -> 0 < INR (size s cols r).
Proof. intros H. apply INR_pos, size_pos, in_D, H. Qed.

Lemma per_record_alt cols : per_record s cols = / n * Rsum (map (fun r => log2 n - log2 (INR (size s cols r))) (D s)).
Proof.
  pose proof n_pos as Hn. unfold per_record. fold n.
  rewrite (Rsum_ext (fun r => log2 n - log2 (INR (size s cols r))) (fun r => log2 n + (-1) * log2 (INR (size s cols r)))) by (intros; lra).
  rewrite Rsum_plus, Rsum_const, (Rsum_scale (-1) (fun r => log2 (INR (size s cols r)))). fold n. field. lra.
Qed.
Lemma term_range cols r : In r (D s) -> 0 <= log2 n - log2 (INR (size s cols r)) <= log2 n.
Proof.
  intros H. pose proof (size_pos' cols r H) as Hp. assert (log2 (INR (size s cols r)) <= log2 n).
  { apply log2_le; auto. apply le_INR, size_le. }
  assert (0 <= log2 (INR (size s cols r))).
  { rewrite <- log2_1. apply log2_le; [lra|]. change 1 with (INR 1). apply le_INR, size_pos, in_D, H. }
  lra.
Qed.
Lemma scaled_le a b : / n * a <= / n * b <-> a <= b.
Proof.
  pose proof n_pos as Hn. assert (0 < / n) by now apply Rinv_0_lt_compat. split; intros H1; [eapply Rmult_le_reg_l; eauto|].
  apply Rmult_le_compat_l; lra.
Qed.
Lemma per_record_range cols : 0 <= per_record s cols <= log2 n.
Proof.
  rewrite per_record_alt. pose proof n_pos as Hn. assert (0 < / n) by now apply Rinv_0_lt_compat. split.
  - apply Rmult_le_pos; [lra|]. assert (E : 0 = Rsum (map (fun _ => 0) (D s))) by (rewrite Rsum_const; lra). rewrite E. apply Rsum_le. intros r Hr. apply term_range, Hr.
  - assert (E : log2 n = / n * Rsum (map (fun _ => log2 n) (D s))) by (rewrite Rsum_const; fold n; field; lra).
    eapply Rle_trans; [|right; symmetry; exact E]. apply scaled_le, Rsum_le. intros r Hr. apply term_range, Hr.
Qed.
Lemma per_record_mono cols cols' : incl cols cols' -> per_record s cols <= per_record s cols'.
Proof.
  intros I. rewrite !per_record_alt. apply scaled_le, Rsum_le. intros r Hr.
  assert (log2 (INR (size s cols' r)) <= log2 (INR (size s cols r))); [|lra].
  apply log2_le; [now apply size_pos'|]. apply le_INR, size_mono; auto.
Qed.
Lemma per_record_eq cols cols' : incl cols cols' ->
  (per_record s cols = per_record s cols' <->
   forall r r', defined s r -> defined s r' -> (same_block s cols r r' <-> same_block s cols' r r')).
Proof.
  intros I. rewrite !per_record_alt. pose proof n_pos as Hn. split.
  - intros E r r' Hr Hr'. apply Rmult_eq_reg_l in E; [|apply Rinv_neq_0_compat; lra].
    pose proof (Rsum_le_eq _ _ (D s) (fun a Ha => ltac:(
      assert (log2 (INR (size s cols' a)) <= log2 (INR (size s cols a))) by (apply log2_le; [now apply size_pos'|]; apply le_INR, size_mono; auto);
      refine (_ : log2 n - log2 (INR (size s cols a)) <= log2 n - log2 (INR (size s cols' a))); lra)) E r (proj2 (in_D s r) Hr)) as Er. cbv beta in Er.
    apply size_same; auto. apply INR_eq. apply log2_inj; try (apply size_pos', in_D, Hr). lra.
  - intros H. f_equal. apply Rsum_ext. intros r Hr. do 3 f_equal. unfold size. f_equal.
    apply filter_ext_in. intros x Hx. apply Bool.eq_true_iff_eq. rewrite !key_eqb_iff, !same_key by apply (iw_columns _ W). apply H; now apply in_D.
Qed.
(** The greatest value: every block has one record. *)
Lemma per_record_max cols : per_record s cols = log2 n <->
  forall r r', defined s r -> defined s r' -> same_block s cols r r' -> r = r'.
Proof.
  rewrite per_record_alt. pose proof n_pos as Hn. split.
  - intros E r r' Hr Hr' Hb. assert (E0 : log2 n = / n * Rsum (map (fun _ => log2 n) (D s))) by (rewrite Rsum_const; fold n; field; lra).
    pose proof (eq_trans E E0) as E'. clear E E0. rename E' into E.
    apply Rmult_eq_reg_l in E; [|apply Rinv_neq_0_compat; lra].
    pose proof (Rsum_le_eq (fun r => log2 n - log2 (INR (size s cols r))) (fun _ => log2 n) (D s) (fun a Ha => proj2 (term_range cols a Ha)) E r (proj2 (in_D s r) Hr)) as Er.
    cbv beta in Er. assert (E1 : log2 (INR (size s cols r)) = log2 1) by (rewrite log2_1; lra).
    apply log2_inj in E1; [|apply size_pos', in_D, Hr|lra]. change 1 with (INR 1) in E1. apply INR_eq in E1.
    assert (H1 : In r (members s cols r)) by (apply in_members; [apply (iw_columns _ W)|]; split; auto; intros c v _; tauto).
    assert (H2 : In r' (members s cols r)) by (apply in_members; [apply (iw_columns _ W)|]; split; auto).
    change (size s cols r) with (length (members s cols r)) in E1. destruct (members s cols r) as [|a [|b l]]; try discriminate E1.
    destruct H1 as [<-|[]]. destruct H2 as [<-|[]]. reflexivity.
  - intros H. rewrite (Rsum_ext _ (fun _ => log2 n)).
    + rewrite Rsum_const. fold n. field. lra.
    + intros r Hr. replace (size s cols r) with 1%nat; [change (INR 1) with 1; rewrite log2_1; lra|].
      apply Nat.le_antisymm; [apply size_pos, in_D, Hr|]. change (length (members s cols r) <= length [r])%nat.
      apply (NoDup_incl_length (NoDup_filter _ (nodup_D s W))). intros x Hx. left.
      apply (in_members s cols r x (iw_columns _ W)) in Hx. apply H; try tauto. now apply in_D.
Qed.
(** The least value: there is one block. *)
Lemma per_record_min cols : per_record s cols = 0 <->
  forall r r', defined s r -> defined s r' -> same_block s cols r r'.
Proof.
  rewrite per_record_alt. pose proof n_pos as Hn. split.
  - intros E r r' Hr Hr'. assert (E0 : 0 = / n * Rsum (map (fun _ => 0) (D s))) by (rewrite Rsum_const; fold n; field; lra).
    pose proof (eq_trans E E0) as E'. clear E E0. rename E' into E.
    apply Rmult_eq_reg_l in E; [|apply Rinv_neq_0_compat; lra].
    pose proof (Rsum_le_eq (fun _ => 0) (fun r => log2 n - log2 (INR (size s cols r))) (D s) (fun a Ha => proj1 (term_range cols a Ha)) (eq_sym E) r (proj2 (in_D s r) Hr)) as Er.
    cbv beta in Er. assert (E1 : INR (size s cols r) = n) by (apply log2_inj; [apply size_pos', in_D, Hr|lra|lra]). apply INR_eq in E1.
    assert (Hi : incl (D s) (members s cols r)).
    { apply (NoDup_length_incl (NoDup_filter _ (nodup_D s W))); [unfold size in E1; unfold members; rewrite E1; apply le_n|]. intros x Hx. unfold members in Hx. apply filter_In in Hx. tauto. }
    apply in_D in Hr'. apply Hi in Hr'. apply in_members in Hr'; [tauto|apply (iw_columns _ W)].
  - intros H. rewrite (Rsum_ext _ (fun _ => 0)); [rewrite Rsum_const; lra|]. intros r Hr.
    replace (size s cols r) with (length (D s)); [fold n; lra|]. unfold size. f_equal. symmetry.
    transitivity (filter (fun _ => true) (D s)); [|clear; induction (D s) as [|x l IH]; cbn; congruence].
    apply filter_ext_in. intros x Hx. apply key_eqb_iff, same_key; [apply (iw_columns _ W)|]. apply H; now apply in_D.
Qed.

(** Entropy of any list of blocks. *)
Lemma entropy_eq cols bs : blocks s cols bs -> per_record s cols = entropy bs.
Proof.
  intros B. rewrite per_record_alt. unfold entropy. pose proof n_pos as Hn.
  assert (P : Permutation (D s) (concat bs)).
  { apply NoDup_Permutation; [now apply nodup_D|apply (bl_once _ _ _ B)|]. intros r. rewrite in_D. symmetry. apply (bl_all _ _ _ B). }
  rewrite <- (Permutation_length P). fold n. rewrite (Rsum_perm _ _ (Permutation_map _ P)), <- Rsum_scale.
  assert (Hsz : forall b r, In b bs -> In r b -> size s cols r = length b).
  { intros b r Hb Hr. assert (Hrc : In r (concat bs)) by (apply in_concat; eauto). unfold size. apply Permutation_length, NoDup_Permutation.
    - apply NoDup_filter, nodup_D, W.
    - pose proof (bl_once _ _ _ B) as N. apply in_split in Hb. destruct Hb as (l1 & l2 & ->). rewrite concat_app in N. cbn [concat] in N.
      clear - N. induction (concat l1) as [|x l IH]; [|inversion N; auto]. cbn in N. revert N. induction b as [|y b IHb]; intros N; [constructor|]. cbn in N. inversion N; subst. constructor; auto. intros H. apply H1, in_app_iff. auto.
    - intros x. change (In x (members s cols r) <-> In x b). rewrite (in_members s cols r x (iw_columns _ W)), <- (bl_all _ _ _ B).
      split; [intros [Hx Hs]; now apply (bl_same _ _ _ B b r x Hb Hr Hx)|]. intros Hx. assert (In x (concat bs)) by (apply in_concat; eauto). split; auto. now apply (bl_same _ _ _ B b r x Hb Hr). }
  pose proof (bl_some _ _ _ B) as Hne. clear B P. induction bs as [|b bs IH]; [reflexivity|].
  cbn [concat map]. rewrite map_app, Rsum_app, Rsum_cons, IH by (intros; try apply Hne; try eapply Hsz; eauto; now right). f_equal.
  rewrite (Rsum_ext _ (fun _ => / n * (log2 n - log2 (INR (length b))))).
  - rewrite Rsum_const. change bits_of with log2. rewrite log2_div; [field; lra|auto|].
    apply INR_pos. specialize (Hne b (or_introl eq_refl)). destruct b; [easy|cbn; lia].
  - intros r Hr. rewrite (Hsz b r); auto. now left.
Qed.
End G.

(** The blocks exist. *)
Lemma blocks_exist s cols : index_wf s -> exists bs, blocks s cols bs.
Proof.
  intros W. pose proof (iw_columns _ W) as Nc.
  set (keys := distinct [] (map (key s cols) (D s))).
  set (f := fun x => filter (fun r => key_eqb x (key s cols r)) (D s)).
  assert (Nk : NoDup keys) by apply distinct_nodup.
  assert (Hf : forall x r, In r (f x) <-> In r (D s) /\ key s cols r = x).
  { intros x r. unfold f. rewrite filter_In, key_eqb_iff. intuition congruence. }
  assert (Hk : forall x, In x keys <-> exists r, In r (D s) /\ key s cols r = x).
  { intros x. unfold keys. rewrite distinct_in, in_map_iff. split; [intros [(r & <- & H) _]; eauto|]. intros (r & H & <-). split; [eauto|easy]. }
  assert (Hc : forall r, In r (concat (map f keys)) <-> In r (D s)).
  { intros r. rewrite in_concat. split.
    - intros (b & Hb & Hr). apply in_map_iff in Hb. destruct Hb as (x & <- & _). apply Hf in Hr. tauto.
    - intros H. exists (f (key s cols r)). split; [apply in_map, Hk; eauto|apply Hf; auto]. }
  exists (map f keys). constructor.
  - intros b Hb. apply in_map_iff in Hb. destruct Hb as (x & <- & Hx). apply Hk in Hx. destruct Hx as (r & Hr & E).
    intros E0. assert (H : In r (f x)) by (apply Hf; auto). rewrite E0 in H. easy.
  - intros r. rewrite Hc. apply in_D.
  - clear Hk Hc. induction keys as [|x keys IH]; [constructor|]. inversion Nk; subst. cbn [map concat].
    assert (Hd : forall r, In r (f x) -> ~ In r (concat (map f keys))).
    { intros r Hr H. apply Hf in Hr. destruct Hr as [_ Er]. apply in_concat in H. destruct H as (b & Hb & Hr).
      apply in_map_iff in Hb. destruct Hb as (y & <- & Hy). apply Hf in Hr. destruct Hr as [_ Er']. congruence. }
    specialize (IH H2). assert (Nf : NoDup (f x)) by (apply NoDup_filter, nodup_D, W).
    clear - IH Nf Hd. induction (f x) as [|a l IHl]; auto. inversion Nf; subst. cbn [app]. constructor.
    + rewrite in_app_iff. intros [H|H]; auto. apply (Hd a); [now left|exact H].
    + apply IHl; auto. intros r Hr. apply Hd. now right.
  - intros b r r' Hb Hr Hr'. apply in_map_iff in Hb. destruct Hb as (x & <- & Hx). apply Hf in Hr. destruct Hr as [Hr E].
    rewrite Hf, <- same_key by auto. apply Hc in Hr'. split; [intros [_ E']; congruence|]. intros E'. split; auto. congruence.
Qed.

(** *** Statements about the computation *)

Lemma D_nil s : D s = [] <-> forall r, ~ defined s r.
Proof.
  split.
  - intros E r Hr. apply in_D in Hr. rewrite E in Hr. easy.
  - intros H. destruct (D s) as [|r l] eqn:E; auto. exfalso. apply (H r), in_D. rewrite E. now left.
Qed.
Lemma granularity_none cols s : calculate_granularity cols s = Ok None <-> cols = [] \/ forall r, ~ defined s r.
Proof.
  rewrite <- D_nil. unfold calculate_granularity, cardinality. fold (D s). destruct cols as [|c cols]; [split; auto|].
  destruct (Nat.eqb_spec (length (D s)) 0) as [E|E].
  - apply length_zero_iff_nil in E. rewrite E. split; auto.
  - destruct (negb _); split; try discriminate; intros [H|H]; try discriminate H; rewrite H in E; now destruct E.
Qed.
Lemma granularity_some cols s g : calculate_granularity cols s = Ok (Some g) <->
  cols <> [] /\ incl cols (d_labels s) /\ D s <> [] /\ g = per_record s cols.
Proof.
  split.
  - intros E. assert (Hc : cols <> []) by (intros ->; discriminate E).
    assert (Hd : D s <> []).
    { intros Ed. assert (En : calculate_granularity cols s = Ok None) by (apply granularity_none; right; now apply D_nil). congruence. }
    assert (Hi : incl cols (d_labels s)).
    { apply known. destruct (forallb _ cols) eqn:Ek; auto. unfold calculate_granularity in E. destruct cols; [easy|]. rewrite Ek in E. destruct (cardinality s =? 0)%nat; discriminate E. }
    rewrite (granularity_eq cols s Hc Hi Hd) in E. inversion E; subst. auto.
  - intros (Hc & Hi & Hd & ->). now apply granularity_eq.
Qed.
