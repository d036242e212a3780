From Verif Require Import Prelude QLemmas Disaggregate_Model Disaggregate_Spec.
From Coq Require Import Lqa.

Lemma group_weight_ok w ids : ~ lacks_weight w ids -> forall acc,
  exists g, group_weight w ids acc = Ok g /\ (g == acc + total_weight w ids)%Q.
Proof.
  induction ids as [|i ids IH]; intros H acc.
  - exists acc. split; [reflexivity|]. unfold total_weight. cbn [map]. rewrite Qsum_nil. ring.
  - assert (H' : ~ lacks_weight w ids).
    { intros [j [Hj R]]. apply H. exists j. split; [right; exact Hj|exact R]. }
    cbn [group_weight]. unfold total_weight. cbn [map]. rewrite Qsum_cons. fold (total_weight w ids).
    unfold weight_or_zero at 1. destruct (w i) as [v|] eqn:E.
    + destruct (IH H' (acc + v)%Q) as [g [Eg Hg]]. exists g. split; [exact Eg|]. rewrite Hg. ring.
    + destruct (Z.eqb_spec i 0) as [->|Hi].
      * destruct (IH H' acc) as [g [Eg Hg]]. exists g. split; [exact Eg|]. rewrite Hg. ring.
      * exfalso. apply H. exists i. repeat split; auto. left. reflexivity.
Qed.

Lemma group_weight_err w ids : lacks_weight w ids -> forall acc, group_weight w ids acc = Err KeyError.
Proof.
  induction ids as [|i ids IH]; intros [j [Hj [Hne Hw]]] acc; [destruct Hj|].
  cbn [group_weight]. destruct Hj as [->|Hj].
  - rewrite Hw. destruct (Z.eqb_spec j 0); [contradiction|reflexivity].
  - assert (H : lacks_weight w ids) by (exists j; auto).
    destruct (w i); [apply IH; exact H|]. destruct (i =? 0)%Z; [apply IH; exact H|reflexivity].
Qed.

Lemma has_undefined_iff ids : has_undefined ids = true <-> In 0%Z ids.
Proof.
  unfold has_undefined. rewrite existsb_exists. split.
  - intros [x [Hx E]]. apply Z.eqb_eq in E. subst x. exact Hx.
  - intros H. exists 0%Z. split; [exact H|reflexivity].
Qed.

Lemma count_split ids : NoDup ids -> In 0%Z ids -> length ids = S (defined_count ids).
Proof.
  unfold defined_count. induction ids as [|i ids IH]; intros Hnd Hin; [destruct Hin|].
  inversion Hnd as [|? ? Hni Hnd']; subst. cbn. destruct (Z.eqb_spec i 0) as [->|Hi]; cbn.
  - f_equal. clear IH Hin Hnd Hnd'. induction ids as [|j ids IH]; [reflexivity|]. cbn.
    destruct (Z.eqb_spec j 0) as [->|Hj]; cbn; [exfalso; apply Hni; left; reflexivity|].
    f_equal. apply IH. intros H. apply Hni. right. exact H.
  - f_equal. apply IH; [exact Hnd'|]. destruct Hin as [H|H]; [congruence|exact H].
Qed.

Lemma count_all ids : ~ In 0%Z ids -> length ids = defined_count ids.
Proof.
  unfold defined_count. induction ids as [|i ids IH]; intros H; [reflexivity|]. cbn.
  destruct (Z.eqb_spec i 0) as [->|Hi]; cbn; [exfalso; apply H; left; reflexivity|].
  f_equal. apply IH. intros H'. apply H. right. exact H'.
Qed.

Lemma Qsum_skip_zero c ids :
  (Qsum (map (fun i : Z => if (i =? 0)%Z then 0 else c) ids) == inject_Z (Z.of_nat (defined_count ids)) * c)%Q.
Proof.
  unfold defined_count. induction ids as [|i ids IH]; cbn [map filter]; rewrite ?Qsum_nil, ?Qsum_cons; [cbn; ring|].
  rewrite IH. destruct (i =? 0)%Z; cbn [negb length]; [ring|].
  rewrite Nat2Z.inj_succ. unfold Z.succ. rewrite inject_Z_plus. ring.
Qed.

(** Everything about one call: what is yielded for each id. *)
Lemma disaggregate_shares q ids w : NoDup ids -> ids <> [] -> ~ lacks_weight w ids ->
  exists share, disaggregate_value q ids w = Ok (map (fun i => (i, share i)) ids) /\
    (~ (total_weight w ids == 0)%Q ->
       forall i, In i ids -> (share i == q * (weight_or_zero w i / total_weight w ids))%Q) /\
    ((total_weight w ids == 0)%Q ->
       (forall i, ids = [i] -> (share i == q)%Q) /\
       (length ids > 1 -> forall i, In i ids ->
          (i = 0%Z -> (share i == 0)%Q) /\
          (i <> 0%Z -> (share i == q / inject_Z (Z.of_nat (defined_count ids)))%Q))).
Proof.
  intros Hnd Hne Hw. unfold disaggregate_value.
  destruct (group_weight_ok w ids Hw 0%Q) as [g [Eg Hg]]. rewrite Eg. cbn [bind].
  assert (Hg' : (g == total_weight w ids)%Q) by (rewrite Hg; ring). clear Hg.
  destruct (Qeq_bool g 0) eqn:Eq; cbn [negb].
  - apply Qeq_bool_iff in Eq.
    destruct (Nat.ltb_spec 1 (length ids)) as [Hl|Hl].
    + destruct (has_undefined ids) eqn:Eu; cbn [negb].
      * apply has_undefined_iff in Eu. pose proof (count_split ids Hnd Eu) as Hc.
        exists (fun i => if (i =? 0)%Z then 0%Q else (q * (1 / inject_Z (Z.of_nat (length ids) - 1)))%Q).
        split; [f_equal; apply map_ext; intros i; destruct (i =? 0)%Z; reflexivity|].
        split; [intros H; exfalso; apply H; rewrite <- Hg'; exact Eq|]. intros _. split.
        { intros i ->. cbn in Hl. lia. }
        intros _ i Hi. split.
        { intros ->. reflexivity. }
        { intros Hi0. destruct (Z.eqb_spec i 0); [contradiction|].
          replace (Z.of_nat (length ids) - 1)%Z with (Z.of_nat (defined_count ids)) by lia.
          unfold Qdiv. ring. }
      * assert (Hn0 : ~ In 0%Z ids).
        { intros H. apply has_undefined_iff in H. congruence. }
        exists (fun i => (q * (1 / inject_Z (Z.of_nat (length ids))))%Q).
        split; [reflexivity|]. split; [intros H; exfalso; apply H; rewrite <- Hg'; exact Eq|].
        intros _. split; [intros i ->; cbn in Hl; lia|]. intros _ i Hi. split; [intros ->; contradiction|].
        intros _. rewrite <- (count_all ids Hn0). unfold Qdiv. ring.
    + destruct ids as [|i [|j ids]]; [congruence| |cbn in Hl; lia].
      exists (fun _ => q). split; [reflexivity|].
      split; [intros H; exfalso; apply H; rewrite <- Hg'; exact Eq|]. intros _. split.
      * intros. reflexivity.
      * cbn. lia.
  - assert (Hne0 : ~ (g == 0)%Q) by (intros H; apply Qeq_bool_iff in H; congruence).
    exists (fun i => match w i with Some v => (q * (v / g))%Q | None => 0%Q end).
    split; [f_equal; apply map_ext; intros i; destruct (w i); reflexivity|]. split.
    + intros _ i Hi. unfold weight_or_zero. rewrite <- Hg'.
      destruct (w i); [reflexivity|]. unfold Qdiv. ring.
    + intros H. exfalso. apply Hne0. rewrite Hg'. exact H.
Qed.

Lemma defined_pos ids : NoDup ids -> length ids > 1 -> defined_count ids > 0.
Proof.
  intros Hnd Hl. destruct (in_dec Z.eq_dec 0%Z ids) as [H|H].
  - pose proof (count_split ids Hnd H). lia.
  - pose proof (count_all ids H). lia.
Qed.

Lemma disaggregate_conserves q ids w : NoDup ids -> ids <> [] -> ~ lacks_weight w ids ->
  exists out, disaggregate_value q ids w = Ok out /\ map fst out = ids /\
    (Qsum (map snd out) == q)%Q.
Proof.
  intros Hnd Hne Hw. destruct (disaggregate_shares q ids w Hnd Hne Hw) as [share [E [H1 H2]]].
  eexists. split; [exact E|]. rewrite !map_map. cbn [fst snd]. split; [apply map_id|].
  destruct (Qeq_dec (total_weight w ids) 0) as [Ht|Ht].
  - destruct (H2 Ht) as [H3 H4].
    destruct (Nat.ltb_spec 1 (length ids)) as [Hl|Hl].
    + rewrite (Qsum_ext share (fun i => if (i =? 0)%Z then 0%Q else (q / inject_Z (Z.of_nat (defined_count ids)))%Q)).
      * rewrite Qsum_skip_zero. field. apply inject_nat_pos. apply defined_pos; [exact Hnd|lia].
      * intros i Hi. destruct (H4 Hl i Hi) as [Ha Hb]. destruct (Z.eqb_spec i 0); auto.
    + destruct ids as [|i [|j ids]]; [congruence| |cbn in Hl; lia]. cbn [map]. rewrite Qsum_cons, Qsum_nil, (H3 i eq_refl). ring.
  - rewrite (Qsum_ext share (fun i => ((q / total_weight w ids) * weight_or_zero w i)%Q)).
    + rewrite Qsum_scale. fold (total_weight w ids). field. exact Ht.
    + intros i Hi. rewrite (H1 Ht i Hi). field. exact Ht.
Qed.

Lemma disaggregate_raises q ids w :
  (lacks_weight w ids -> disaggregate_value q ids w = Err KeyError) /\
  (ids = [] -> disaggregate_value q ids w = Err RuntimeError).
Proof.
  split; [|intros ->; reflexivity].
  intros H. unfold disaggregate_value. rewrite (group_weight_err w ids H). reflexivity.
Qed.

Lemma in_map_share ids (share : Z -> Q) i x :
  In (i, x) (map (fun j => (j, share j)) ids) -> In i ids /\ x = share i.
Proof.
  intros H. apply in_map_iff in H. destruct H as [j [Hj Hin]]. inversion Hj; subst. auto.
Qed.

Lemma lacks_dec w ids : lacks_weight w ids \/ ~ lacks_weight w ids.
Proof.
  induction ids as [|i ids IH]; [right; intros [i [[] _]]|].
  destruct IH as [[j [Hj R]]|IH]; [left; exists j; split; [right; exact Hj|exact R]|].
  destruct (Z.eq_dec i 0) as [Hi|Hi].
  - right. intros [j [[<-|Hj] [R1 R2]]]; [contradiction|]. apply IH. exists j. auto.
  - destruct (w i) eqn:E.
    + right. intros [j [[<-|Hj] [R1 R2]]]; [congruence|]. apply IH. exists j. auto.
    + left. exists i. split; [left; reflexivity|auto].
Qed.

Lemma ok_not_lacks q ids w out : disaggregate_value q ids w = Ok out -> ids <> [] /\ ~ lacks_weight w ids.
Proof.
  intros H. destruct (disaggregate_raises q ids w) as [H1 H2]. split.
  - intros E. rewrite (H2 E) in H. discriminate.
  - intros E. rewrite (H1 E) in H. discriminate.
Qed.

Lemma disaggregate_proportional q ids w out i x : NoDup ids ->
  disaggregate_value q ids w = Ok out -> In (i, x) out ->
  (~ (total_weight w ids == 0)%Q -> (x == q * weight_or_zero w i / total_weight w ids)%Q) /\
  ((total_weight w ids == 0)%Q ->
     (ids = [i] -> (x == q)%Q) /\
     (ids <> [i] -> i = 0%Z -> (x == 0)%Q) /\
     (ids <> [i] -> i <> 0%Z -> (x == q / inject_Z (Z.of_nat (defined_count ids)))%Q)).
Proof.
  intros Hnd E Hin. destruct (ok_not_lacks _ _ _ _ E) as [Hne Hw].
  destruct (disaggregate_shares q ids w Hnd Hne Hw) as [share [E' [H1 H2]]].
  rewrite E in E'. inversion E'; subst out. apply in_map_share in Hin. destruct Hin as [Hi ->].
  split.
  - intros Ht. rewrite (H1 Ht i Hi). unfold Qdiv. ring.
  - intros Ht. destruct (H2 Ht) as [H3 H4]. split; [apply H3|].
    assert (Hlen : ids <> [i] -> length ids > 1).
    { intros Hn. destruct ids as [|a [|b ids]]; [destruct Hi| |cbn; lia].
      destruct Hi as [->|[]]. congruence. }
    split; intros Hn Hi0; apply (H4 (Hlen Hn) i Hi); exact Hi0.
Qed.

Lemma disaggregate_nonneg q ids w out i x : NoDup ids -> (0 <= q)%Q ->
  (forall j v, w j = Some v -> (0 <= v)%Q) ->
  disaggregate_value q ids w = Ok out -> In (i, x) out -> (0 <= x)%Q.
Proof.
  intros Hnd Hq Hv E Hin.
  assert (Hwz : forall j, (0 <= weight_or_zero w j)%Q).
  { intros j. unfold weight_or_zero. destruct (w j) eqn:Ej; [eapply Hv; eauto|lra]. }
  assert (Ht : (0 <= total_weight w ids)%Q).
  { apply Qsum_nonneg. intros y Hy. apply in_map_iff in Hy. destruct Hy as [j [<- _]]. apply Hwz. }
  destruct (disaggregate_proportional q ids w out i x Hnd E Hin) as [H1 H2].
  destruct (Qeq_dec (total_weight w ids) 0) as [Hz|Hz].
  - destruct (H2 Hz) as [H3 [H4 H5]].
    destruct (list_eq_dec Z.eq_dec ids [i]) as [Hl|Hl]; [rewrite (H3 Hl); exact Hq|].
    destruct (Z.eq_dec i 0) as [Hi|Hi]; [rewrite (H4 Hl Hi); lra|].
    rewrite (H5 Hl Hi). apply Qmult_le_0_compat; [exact Hq|]. apply Qinv_le_0_compat.
    unfold Qle, inject_Z. cbn. lia.
  - rewrite (H1 Hz). unfold Qdiv. apply Qmult_le_0_compat; [|apply Qinv_le_0_compat; exact Ht].
    apply Qmult_le_0_compat; auto.
Qed.
