(** Loading an exported table into another space. *)
From Coq Require Import NArith Permutation.
From Verif Require Import Prelude Selectors_Model Selectors_Proofs Reader_Model LinkRef_Model LinkRef_Proofs IndexCode_Model IndexCode_Spec
  Db_Model Db_Spec Db_Proofs Db_ProofsLocal Db_ProofsRun Db_ProofsOps Db_ProofsOps2 Db_ProofsOps3
  Streams_Model Streams_Spec Streams_Proofs IndexCli_Model IndexCli_Spec IndexCli_Proofs IndexCli_Proofs2 IndexCli_Proofs3.
Local Open Scope nat_scope.
Local Notation group := Db_Model.group.

(** *** Merging weights *)
Lemma merged_ext pol (new new' old : text -> list text -> Q -> Prop) : (forall n l q, new n l q <-> new' n l q) ->
  forall n l q, merged pol new old n l q <-> merged pol new' old n l q.
Proof.
  intros H n l q. unfold merged. destruct pol.
  1,2,4,5: rewrite H; tauto.
  rewrite H. split; (intros [A|[A B]]; [now left|right; split; auto; intros x Hx; apply (B x), H, Hx]).
Qed.
Definition apart (a b : text -> list text -> Q -> Prop) : Prop := forall n l x y, a n l x -> b n l y -> False.
Lemma merged_twice pol (a b w0 w1 : text -> list text -> Q -> Prop) : apart a b -> (forall n l q, w1 n l q <-> merged pol a w0 n l q) ->
  forall n l q, merged pol b w1 n l q <-> merged pol (fun n l q => a n l q \/ b n l q) w0 n l q.
Proof.
  intros Ap H n l q. unfold merged in *. destruct pol.
  1,2,4,5: rewrite H; split;
    [intros [[A|[A B]]|[A B]];
       [now left|right; split; [now left|exact B]|right; split; [now right|intros x Hx; apply (B x), H; now left]]
    |intros [A|[[A|A] B]];
       [left; now left|left; right; split; assumption
       |right; split; [exact A|intros x Hx; apply H in Hx; destruct Hx as [Hx|[Hx _]]; [now apply (B x)|eapply Ap; eauto]]]].
  split.
  - intros [A|[A B]]; [left; now right|]. apply H in A. destruct A as [A|[A C]]; [left; now left|]. right. split; auto.
    intros x [Hx|Hx]; [now apply (C x)|now apply (B x)].
  - intros [[A|A]|[A B]].
    + right. split; [apply H; now left|]. intros x Hx. eapply Ap; eauto.
    + now left.
    + right. split; [apply H; right; split; auto; intros x Hx; apply (B x); now left|]. intros x Hx. apply (B x). now right.
Qed.

Section Into.
Context (t : db).

(** What stays while rows are loaded; [b]: how many ids are left. *)
Record keeps (b : Z) (s : db) : Prop := {
  k_iw : index_wf s; k_ww : weights_wf s; k_at : weights_attached s;
  k_same : d_groups s = d_groups t /\ d_labels s = d_labels t /\ d_maps s = d_maps t /\ d_fk s = d_fk t /\ d_structs s = d_structs t;
  k_incl : incl (d_index t) (d_index s);
  k_seq : (d_seq s + b <= max_id)%Z
}.
Definition outcome (pol : policy) (b : Z) (new : text -> list text -> Q -> Prop) (Ls : list (list text)) (st : ins_state) (r : res ins_state) : Prop :=
  (exists st', r = Ok st' /\ keeps b (is_db st') /\ incl (d_index (is_db st)) (d_index (is_db st')) /\
     (forall l, has_labels (is_db st') l <-> has_labels (is_db st) l \/ In l Ls) /\
     (forall n l q, weighs (is_db st') n l q <-> merged pol new (weighs (is_db st)) n l q) /\
     (strict pol -> ~ conflict new (weighs (is_db st)))) \/
  (r = Err ValueError /\ strict pol /\ conflict new (weighs (is_db st))).

Lemma outcome_bind pol b b' new1 new2 L1 L2 st r1 k : outcome pol b' new1 L1 st r1 -> apart new1 new2 ->
  (forall st', r1 = Ok st' -> keeps b' (is_db st') -> incl (d_index (is_db st)) (d_index (is_db st')) -> outcome pol b new2 L2 st' (k st')) ->
  outcome pol b (fun n l q => new1 n l q \/ new2 n l q) (L1 ++ L2) st (do s <- r1; k s).
Proof.
  intros [(st1 & -> & K1 & I1 & E1 & M1 & C1)|(-> & S1 & C1)] Ap H; cbn [bind].
  - specialize (H st1 eq_refl K1 I1). destruct H as [(st2 & -> & K2 & I2 & E2 & M2 & C2)|(-> & S2 & C2)].
    + left. exists st2. split; auto. split; auto. split; [eapply incl_tran; eauto|]. split.
      { intros l. rewrite E2, E1, in_app_iff. tauto. }
      split; [intros n l q; rewrite M2; now apply merged_twice|].
      intros Hs (n & l & x & y & [A|A] & B); [apply (C1 Hs); exists n, l, x, y; auto|]. apply (C2 Hs). exists n, l, x, y. split; auto.
      apply M1. destruct Hs as [Hs1 Hs2]. unfold merged. destruct pol; try congruence; auto.
    + right. split; auto. split; auto. destruct C2 as (n & l & x & y & A & B). exists n, l, x, y. split; auto.
      apply M1 in B. unfold merged in B. destruct S2 as [Hs1 Hs2].
      destruct pol; try congruence; destruct B as [B|[B _]]; auto; exfalso; eapply Ap; eauto.
  - right. split; auto. split; auto. destruct C1 as (n & l & x & y & A & B). exists n, l, x, y. auto.
Qed.
Lemma outcome_ext pol b new new' L L' st r : (forall n l q, new n l q <-> new' n l q) -> (forall l, In l L <-> In l L') ->
  outcome pol b new L st r -> outcome pol b new' L' st r.
Proof.
  intros H HL [(st' & -> & K & I & E & M & C)|(-> & S & C)].
  - left. exists st'. split; auto. split; auto. split; auto. split; [intros l; rewrite E, HL; tauto|].
    split; [intros n l q; rewrite M; now apply merged_ext|]. intros Hs (n & l & x & y & A & B). apply (C Hs). exists n, l, x, y. split; auto. now apply H.
  - right. split; auto. split; auto. destruct C as (n & l & x & y & A & B). exists n, l, x, y. split; auto. now apply H.
Qed.
Lemma outcome_same pol b st new : keeps b (is_db st) -> (forall n l q, ~ new n l q) -> outcome pol b new [] st (Ok st).
Proof.
  intros K H. left. exists st. split; auto. split; auto. split; [apply incl_refl|]. split; [intros l; cbn [In]; tauto|]. split.
  - intros n l q. unfold merged. destruct pol.
    1,2,4,5: split; [auto|intros [A|[A _]]; auto; now apply H in A].
    split; [intros A; right; split; auto|intros [A|[A _]]; auto; now apply H in A].
  - intros _ (n & l & x & y & A & _). now apply H in A.
Qed.

(** *** One weight *)
Lemma weighs_find b s g x : keeps b s -> In g (d_groups t) -> In x (d_index s) -> forall q,
  weighs s (g_name g) (ix_labels x) q <-> exists w, weight_find (g_id g) (ix_id x) s = Some w /\ w_value w = q.
Proof.
  intros [W Ww _ (Eg & _) _ _] Hg Hx q. split.
  - intros (g' & x' & w & Hg' & En & Hx' & El & Hw & Wg & Wi & Wv). exists w. split; auto.
    rewrite Eg in Hg'. assert (g' = g). { apply (nodup_map_inj g_name (d_groups t)); auto. rewrite <- Eg. apply (ww_groups _ Ww). }
    assert (x' = x) by now apply (iw_labels _ W). subst. now apply weight_find_at.
  - intros (w & E & Ev). unfold weight_find in E. apply find_some in E. destruct E as [Hw E]. apply weight_is_iff in E. destruct E as [E1 E2].
    exists g, x, w. rewrite Eg. auto 10.
Qed.
Lemma keeps_weights b s s' ws : keeps b s -> s' = set_weights ws s -> weights_wf s' -> weights_attached s' -> keeps b s'.
Proof.
  intros [W Ww A S I Q'] -> W' A'. constructor; auto. eapply index_wf_ext; [..|exact W]; reflexivity.
Qed.

Lemma weight_step pol b st x g v : keeps b (is_db st) -> In x (d_index (is_db st)) -> ix_id x <> 0%Z -> In g (d_groups t) -> (0 <= v)%Q ->
  outcome pol b (fun n l q => n = g_name g /\ l = ix_labels x /\ q = v) [] st (insert_index_weight pol (ix_id x) st (Some g, CNum v)).
Proof.
  intros K Hx Hi Hg Hv. pose proof (weighs_find b _ g x K Hg Hx) as Hw. destruct st as [s lb wt]. cbn [is_db] in *. cbn [insert_index_weight is_db].
  pose proof K as [W Ww At (Eg & El & Em & Ef & Es) In0 Sq].
  assert (Qv : Qle_bool 0 v = true) by now apply Qle_bool_iff.
  pose proof (iw_range _ W x Hx) as Rg.
  destruct (weight_find (g_id g) (ix_id x) s) as [w|] eqn:E.
  - assert (Hold : weighs s (g_name g) (ix_labels x) (w_value w)) by (apply Hw; eauto).
    assert (Hstrict : strict pol -> conflict (fun n l q => n = g_name g /\ l = ix_labels x /\ q = v) (weighs s)).
    { intros _. exists (g_name g), (ix_labels x), v, (w_value w). auto. }
    destruct pol; try (right; split; [reflexivity|]; split; [split; discriminate|]; apply Hstrict; split; discriminate).
    + left. eexists. split; [reflexivity|]. cbn [is_db]. split; auto. split; [apply incl_refl|]. split; [intros l; cbn [In]; tauto|]. split.
      * intros n l q. unfold merged. split; auto. intros [A|[(-> & -> & ->) A]]; auto. exfalso. now apply (A (w_value w)).
      * intros [A _]. congruence.
    + destruct (weight_update (g_id g) (ix_id x) v s) as [s'|e] eqn:Eu; [|unfold weight_update in Eu; rewrite Qv in Eu; discriminate].
      cbn [bind]. left. eexists. split; [reflexivity|]. cbn [is_db].
      unfold weight_find in E. apply find_some in E. destruct E as [Hin E]. apply weight_is_iff in E.
      assert (Hth : weight_there s (g_id g) (ix_id x)) by (exists w; tauto).
      pose proof (weights_wf_prim _ _ (p_weight_update _ _ _ _ _ Eu) Ww) as Ww'.
      destruct (weight_update_at _ _ _ _ _ Ww Hth Eu) as (Es' & A1 & A2). cbn [weight_at] in A1.
      assert (Ei' : d_index s' = d_index s) by (rewrite Es'; reflexivity). assert (Eg' : d_groups s' = d_groups s) by (rewrite Es'; reflexivity).
      split.
      { eapply keeps_weights; eauto. intros y Hy. unfold has_index. rewrite Ei'.
        destruct (Z.eq_dec (w_group y) (g_id g)) as [Y1|Y1], (Z.eq_dec (w_index y) (ix_id x)) as [Y2|Y2];
          try (apply (At y), A2; auto; congruence). exists x. auto. }
      split; [rewrite Ei'; apply incl_refl|]. split; [intros l; unfold has_labels; rewrite Ei'; cbn [In]; tauto|]. split.
      * intros n l q. unfold merged. split.
        -- intros (g1 & x1 & w1 & H1 & H2 & H3 & H4 & H5 & H6 & H7 & H8). rewrite Eg' in H1. rewrite Ei' in H3.
           destruct (Z.eq_dec (w_group w1) (g_id g)) as [Y1|Y1], (Z.eq_dec (w_index w1) (ix_id x)) as [Y2|Y2].
           1: { left. assert (g1 = g). { apply (nodup_map_inj g_id (d_groups s)); [apply (ww_groups _ Ww)|auto|now rewrite Eg|congruence]. }
             assert (x1 = x) by (apply (nodup_map_inj ix_id (d_index s)); [apply (iw_unique _ W)|auto|auto|congruence]). subst g1 x1.
             assert (w1 = {| w_group := g_id g; w_index := ix_id x; w_value := v |}).
             { apply (nodup_map_inj (fun w => (w_group w, w_index w)) (d_weights s')); [apply (ww_unique _ Ww')|auto|auto|]. cbn. congruence. }
             subst w1. cbn in H8. subst. auto. }
           all: right; split; [exists g1, x1, w1; assert (Hw1 : In w1 (d_weights s)) by (apply A2; auto; congruence); auto 10|];
             intros y (-> & -> & _); apply (iw_labels _ W) in H4; auto; subst x1;
             apply (nodup_map_inj g_name (d_groups s)) in H2; [|apply (ww_groups _ Ww)|auto|now rewrite Eg]; subst g1; contradiction.
        -- intros [(-> & -> & ->)|[(g1 & x1 & w1 & H1 & H2 & H3 & H4 & H5 & H6 & H7 & H8) A]].
           ++ exists g, x, {| w_group := g_id g; w_index := ix_id x; w_value := v |}. rewrite Ei', Eg', Eg. auto 10.
           ++ exists g1, x1, w1. rewrite Ei', Eg'. assert (In w1 (d_weights s')).
              { apply A2; auto. intros [= Y1 Y2]. apply (A v). split; [|split; auto].
                - rewrite <- H2. f_equal. apply (nodup_map_inj g_id (d_groups s)); [apply (ww_groups _ Ww)|auto|now rewrite Eg|congruence].
                - rewrite <- H4. f_equal. apply (nodup_map_inj ix_id (d_index s)); [apply (iw_unique _ W)|auto|auto|congruence]. }
              auto 10.
      * intros [_ A]. congruence.
  - assert (Hno : forall q, ~ weighs s (g_name g) (ix_labels x) q) by (intros q A; apply Hw in A; destruct A as (w & A & _); discriminate).
    destruct (weight_add (g_id g) (ix_id x) v s) as [s'|e] eqn:Ea.
    + cbn [bind]. left. eexists. split; [reflexivity|]. cbn [is_db].
      destruct (weights_wf_add _ _ _ _ _ Ww Ea) as [Ww' Es'].
      set (w0 := {| w_group := g_id g; w_index := ix_id x; w_value := v |}) in *.
      assert (Hin : forall w, In w (d_weights s') <-> In w (d_weights s) \/ w = w0).
      { intros w. rewrite Es'. cbn [set_weights d_weights]. rewrite in_app_iff. cbn [In]. intuition auto. }
      assert (Ei' : d_index s' = d_index s) by (rewrite Es'; reflexivity). assert (Eg' : d_groups s' = d_groups s) by (rewrite Es'; reflexivity).
      split.
      { eapply keeps_weights; eauto. intros y Hy. unfold has_index. rewrite Ei'. apply Hin in Hy. destruct Hy as [Hy| ->]; [now apply At|]. exists x. auto. }
      split; [rewrite Ei'; apply incl_refl|]. split; [intros l; unfold has_labels; rewrite Ei'; cbn [In]; tauto|].
      assert (Hu : forall n l q, weighs s' n l q <-> weighs s n l q \/ n = g_name g /\ l = ix_labels x /\ q = v).
      { intros n l q. split.
        - intros (g1 & x1 & w1 & H1 & H2 & H3 & H4 & H5 & H6 & H7 & H8). rewrite Eg' in H1. rewrite Ei' in H3. apply Hin in H5. destruct H5 as [H5| ->].
          + left. exists g1, x1, w1. auto 10.
          + right. cbn in H6, H7, H8. assert (g1 = g). { apply (nodup_map_inj g_id (d_groups s)); [apply (ww_groups _ Ww)|auto|now rewrite Eg|congruence]. }
            assert (x1 = x) by (apply (nodup_map_inj ix_id (d_index s)); [apply (iw_unique _ W)|auto|auto|congruence]). subst. auto.
        - intros [(g1 & x1 & w1 & H1 & H2 & H3 & H4 & H5 & H6)|(-> & -> & ->)].
          + exists g1, x1, w1. rewrite Ei', Eg'. assert (In w1 (d_weights s')) by (apply Hin; auto). tauto.
          + exists g, x, w0. rewrite Ei', Eg', Eg. assert (In w0 (d_weights s')) by (apply Hin; auto). auto 10. }
      split.
      * intros n l q. rewrite Hu. unfold merged. destruct pol.
        1,2,4,5: split; [intros [A|(-> & -> & ->)]; auto|intros [A|[A _]]; auto].
        split; [|tauto]. intros [A|A]; auto. right. split; auto. intros y (-> & -> & _). now apply Hno in A.
      * intros _ (n & l & y & z & (-> & -> & _) & A). now apply Hno in A.
    + exfalso. unfold weight_add in Ea. rewrite Qv in Ea. cbn [negb] in Ea.
      replace (ix_id x =? 0)%Z with false in Ea by lia. replace (ix_id x <? 0)%Z with false in Ea by lia.
      unfold weight_find in E. replace (existsb (weight_is (g_id g) (ix_id x)) (d_weights s)) with false in Ea.
      2: { symmetry. destruct (existsb (weight_is (g_id g) (ix_id x)) (d_weights s)) eqn:Ex; auto. apply existsb_exists in Ex. destruct Ex as (w & Hin & Ew).
           eapply find_none in E; [|exact Hin]. congruence. }
      replace (existsb (fun x0 => (g_id x0 =? g_id g)%Z) (d_groups s)) with true in Ea; [rewrite andb_false_r in Ea; discriminate|].
      symmetry. apply existsb_exists. exists g. rewrite Eg. split; auto. lia.
Qed.
End Into.
