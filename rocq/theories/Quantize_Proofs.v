From Verif Require Import Prelude QLemmas Quantize_Model Quantize_Spec.
From Coq Require Import Qabs Lqa Permutation Sorted ZifyN.

(* -------------------------------------------------------- splitmix64 *)
Open Scope N_scope.

Lemma land_mask x : N.land x mask64 = x mod two64.
Proof.
  change mask64 with (N.ones 64). rewrite N.land_ones. reflexivity.
Qed.

Definition unxor (k : N) (y : N) : N := N.lxor (N.lxor y (N.shiftr y k)) (N.shiftr y (2 * k)).

Lemma shiftr_small x k : x < two64 -> 64 <= k -> N.shiftr x k = 0.
Proof.
  intros Hx Hk. rewrite N.shiftr_div_pow2. apply N.div_small. change two64 with (2 ^ 64) in Hx.
  eapply N.lt_le_trans; [exact Hx|]. apply N.pow_le_mono_r; [discriminate|exact Hk].
Qed.

Lemma unxor_spec k x : x < two64 -> 64 <= 3 * k ->
  unxor k (N.lxor x (N.shiftr x k)) = x.
Proof.
  intros Hx Hk. unfold unxor. rewrite !N.shiftr_lxor, !N.shiftr_shiftr.
  replace (k + k) with (2 * k) by lia. replace (k + 2 * k) with (3 * k) by lia.
  rewrite (shiftr_small x (3 * k) Hx Hk). rewrite N.lxor_0_r.
  set (a := N.shiftr x k). set (b := N.shiftr x (2 * k)).
  apply N.bits_inj. intros i. rewrite !N.lxor_spec.
  destruct (N.testbit x i), (N.testbit a i), (N.testbit b i); reflexivity.
Qed.

Lemma lxor_two64 x y : x < two64 -> y < two64 -> N.lxor x y < two64.
Proof.
  intros Hx Hy. change two64 with (2 ^ 64) in *.
  assert (H : N.lxor x y mod 2 ^ 64 = N.lxor x y).
  { rewrite <- !N.land_ones. apply N.bits_inj. intros i. rewrite N.land_spec, !N.lxor_spec.
    rewrite <- (N.mod_small x (2 ^ 64) Hx), <- (N.mod_small y (2 ^ 64) Hy).
    rewrite <- !N.land_ones, !N.land_spec. destruct (N.testbit (N.ones 64) i); cbn.
    - rewrite !andb_true_r. reflexivity.
    - rewrite !andb_false_r. reflexivity. }
  rewrite <- H. apply N.mod_lt. discriminate.
Qed.

Lemma shiftr_two64 x k : x < two64 -> N.shiftr x k < two64.
Proof.
  intros Hx. rewrite N.shiftr_div_pow2. eapply N.le_lt_trans; [|exact Hx].
  apply N.div_le_upper_bound; [apply N.pow_nonzero; discriminate|].
  pose proof (N.pow_nonzero 2 k). assert (2 ^ k <> 0) by (apply N.pow_nonzero; discriminate). nia.
Qed.

Lemma xs_two64 x k : x < two64 -> N.lxor x (N.shiftr x k) < two64.
Proof. intros H. apply lxor_two64; [exact H|apply shiftr_two64; exact H]. Qed.

Lemma unxor_inv k y : y < two64 -> 64 <= 3 * k ->
  N.lxor (unxor k y) (N.shiftr (unxor k y) k) = y.
Proof.
  intros Hy Hk. unfold unxor. rewrite !N.shiftr_lxor, !N.shiftr_shiftr.
  replace (k + k) with (2 * k) by lia. replace (2 * k + k) with (3 * k) by lia.
  rewrite (shiftr_small y (3 * k) Hy Hk).
  apply N.bits_inj. intros i. rewrite !N.lxor_spec, N.bits_0.
  destruct (N.testbit y i), (N.testbit (N.shiftr y k) i), (N.testbit (N.shiftr y (2 * k)) i); reflexivity.
Qed.

Lemma unxor_two64 k y : y < two64 -> unxor k y < two64.
Proof. intros H. unfold unxor. apply lxor_two64; [apply lxor_two64|]; auto using shiftr_two64. Qed.


Definition unsplitmix (y : N) : N :=
  let y := unxor 31 y in
  let y := unxor 27 ((y * 3573116690164977347) mod two64) in
  let y := unxor 30 ((y * 10871156337175269513) mod two64) in
  (y + 7046029254386353131) mod two64.

Lemma mod_two64 x : x mod two64 < two64.
Proof. apply N.mod_lt. discriminate. Qed.

Lemma mul_inv x c d : x < two64 -> (c * d) mod two64 = 1 ->
  ((x * c) mod two64 * d) mod two64 = x.
Proof.
  intros Hx Hcd. rewrite N.mul_mod_idemp_l by discriminate.
  rewrite <- N.mul_assoc, N.mul_mod, Hcd, N.mul_1_r, N.mod_mod by discriminate.
  apply N.mod_small. exact Hx.
Qed.

Lemma unsplitmix_splitmix x : x < two64 -> unsplitmix (splitmix64 x) = x.
Proof.
  intros Hx. unfold splitmix64, unsplitmix. rewrite !land_mask. cbv zeta.
  set (a := (x + 11400714819323198485) mod two64).
  assert (Ha : a < two64) by apply mod_two64.
  set (xa := N.lxor a (N.shiftr a 30)).
  assert (Hxa : xa < two64) by (apply xs_two64; exact Ha).
  set (b := (xa * 13787848793156543929) mod two64).
  assert (Hb : b < two64) by apply mod_two64.
  set (xb := N.lxor b (N.shiftr b 27)).
  assert (Hxb : xb < two64) by (apply xs_two64; exact Hb).
  set (c := (xb * 10723151780598845931) mod two64).
  assert (Hc : c < two64) by apply mod_two64.
  rewrite (unxor_spec 31 c Hc) by lia.
  unfold c. rewrite (mul_inv xb 10723151780598845931 3573116690164977347 Hxb eq_refl).
  unfold xb. rewrite (unxor_spec 27 b Hb) by lia.
  unfold b. rewrite (mul_inv xa 13787848793156543929 10871156337175269513 Hxa eq_refl).
  unfold xa. rewrite (unxor_spec 30 a Ha) by lia.
  unfold a. rewrite N.add_mod_idemp_l by discriminate. rewrite <- N.add_assoc.
  change (11400714819323198485 + 7046029254386353131) with two64.
  rewrite <- (N.mul_1_l two64) at 1. rewrite N.mod_add by discriminate. apply N.mod_small. exact Hx.
Qed.

Lemma splitmix_unsplitmix y : y < two64 -> splitmix64 (unsplitmix y) = y.
Proof.
  intros Hy. unfold splitmix64, unsplitmix. rewrite !land_mask. cbv zeta.
  set (c := unxor 31 y). assert (Hc : c < two64) by (apply unxor_two64; exact Hy).
  set (mb := (c * 3573116690164977347) mod two64). assert (Hmb : mb < two64) by apply mod_two64.
  set (b := unxor 27 mb). assert (Hb : b < two64) by (apply unxor_two64; exact Hmb).
  set (ma := (b * 10871156337175269513) mod two64). assert (Hma : ma < two64) by apply mod_two64.
  set (a := unxor 30 ma). assert (Ha : a < two64) by (apply unxor_two64; exact Hma).
  assert (Ea : ((a + 7046029254386353131) mod two64 + 11400714819323198485) mod two64 = a).
  { rewrite N.add_mod_idemp_l by discriminate. rewrite <- N.add_assoc.
    change (7046029254386353131 + 11400714819323198485) with two64.
    rewrite <- (N.mul_1_l two64) at 1. rewrite N.mod_add by discriminate. apply N.mod_small. exact Ha. }
  rewrite Ea. unfold a. rewrite (unxor_inv 30 ma Hma) by lia.
  unfold ma. rewrite (mul_inv b 10871156337175269513 13787848793156543929 Hb eq_refl).
  unfold b. rewrite (unxor_inv 27 mb Hmb) by lia.
  unfold mb. rewrite (mul_inv c 3573116690164977347 10723151780598845931 Hc eq_refl).
  unfold c. apply (unxor_inv 31 y Hy). lia.
Qed.

Lemma splitmix_range x : splitmix64 x < two64.
Proof. unfold splitmix64. rewrite !land_mask. apply xs_two64, mod_two64. Qed.

Lemma unsplitmix_range y : unsplitmix y < two64.
Proof. unfold unsplitmix. apply mod_two64. Qed.

Lemma splitmix_bijective :
  (forall x, x < two64 -> splitmix64 x < two64) /\
  (forall x y, x < two64 -> y < two64 -> splitmix64 x = splitmix64 y -> x = y) /\
  (forall y, y < two64 -> exists x, x < two64 /\ splitmix64 x = y).
Proof.
  split; [|split].
  - intros x _. apply splitmix_range.
  - intros x y Hx Hy E. rewrite <- (unsplitmix_splitmix x Hx), E. apply unsplitmix_splitmix. exact Hy.
  - intros y Hy. exists (unsplitmix y). split; [apply unsplitmix_range|apply splitmix_unsplitmix; exact Hy].
Qed.
Close Scope N_scope.

(* ----------------------------------------------------------- sorting *)
Definition mag (e : entry) : Q := Qabs (e_frac e).

Lemma key_lt_iff a b : key_lt a b = true <->
  (mag b < mag a)%Q \/ ((mag a == mag b)%Q /\ (splitmix64 (e_id a) < splitmix64 (e_id b))%N).
Proof.
  unfold key_lt. fold (mag a) (mag b). rewrite orb_true_iff, andb_true_iff, negb_true_iff, Qeq_bool_iff, N.ltb_lt.
  assert (H : Qle_bool (- mag b) (- mag a) = false <-> (mag b < mag a)%Q).
  { destruct (Qle_bool (- mag b) (- mag a)) eqn:E.
    - apply Qle_bool_iff in E. split; [discriminate|]. intros H. lra.
    - split; [|reflexivity]. intros _. apply Qnot_le_lt. intros H.
      assert (- mag b <= - mag a)%Q as H' by lra. apply Qle_bool_iff in H'. congruence. }
  rewrite H. split; intros [H1|[H1 H2]]; auto; right; (split; [lra|exact H2]).
Qed.

Definition key_le (a b : entry) : Prop := key_lt b a = false.

Lemma key_le_iff a b : key_le a b <->
  (mag b < mag a)%Q \/ ((mag a == mag b)%Q /\ (splitmix64 (e_id a) <= splitmix64 (e_id b))%N).
Proof.
  unfold key_le. destruct (key_lt b a) eqn:E.
  - apply key_lt_iff in E. split; [discriminate|]. intros [H|[H1 H2]]; destruct E as [E|[E1 E2]]; try lra; lia.
  - split; [|reflexivity]. intros _.
    assert (H : ~ key_lt b a = true) by congruence. rewrite key_lt_iff in H.
    destruct (Qlt_le_dec (mag b) (mag a)) as [Hl|Hl]; [left; exact Hl|right].
    assert (Hge : ~ (mag a < mag b)%Q) by (intros H'; apply H; left; exact H').
    apply Qnot_lt_le in Hge. split; [lra|].
    destruct (N.le_gt_cases (splitmix64 (e_id a)) (splitmix64 (e_id b))) as [Hn|Hn]; [exact Hn|].
    exfalso. apply H. right. split; [lra|exact Hn].
Qed.

Lemma key_le_trans a b c : key_le a b -> key_le b c -> key_le a c.
Proof.
  rewrite !key_le_iff. intros [H1|[H1 H1']] [H2|[H2 H2']].
  - left. lra.
  - left. lra.
  - left. lra.
  - right. split; [lra|lia].
Qed.

Lemma key_lt_le a b : key_lt a b = true -> key_le a b.
Proof. rewrite key_lt_iff, key_le_iff. intros [H|[H1 H2]]; [auto|]. right. split; [exact H1|lia]. Qed.

Lemma insert_perm x l : Permutation (x :: l) (insert_entry x l).
Proof.
  induction l as [|y l IH]; cbn [insert_entry]; [auto|]. destruct (key_lt y x); [|auto].
  eapply perm_trans; [apply perm_swap|]. constructor. exact IH.
Qed.
Lemma sort_perm l : Permutation l (sort_entries l).
Proof.
  induction l as [|x l IH]; cbn; [auto|]. eapply perm_trans; [|apply insert_perm]. constructor. exact IH.
Qed.
Lemma insert_sorted x l : StronglySorted key_le l -> StronglySorted key_le (insert_entry x l).
Proof.
  induction 1 as [|y l HS IH HF]; cbn [insert_entry]; [repeat constructor|].
  destruct (key_lt y x) eqn:E.
  - constructor; [exact IH|]. rewrite Forall_forall in *. intros z Hz.
    apply (Permutation_in _ (Permutation_sym (insert_perm x l))) in Hz.
    destruct Hz as [<-|Hz]; [apply key_lt_le; exact E|apply HF; exact Hz].
  - constructor; [constructor; assumption|]. constructor; [exact E|].
    rewrite Forall_forall in *. intros z Hz. eapply key_le_trans; [exact E|apply HF; exact Hz].
Qed.
Lemma sort_sorted l : StronglySorted key_le (sort_entries l).
Proof. induction l as [|x l IH]; cbn; [constructor|apply insert_sorted; exact IH]. Qed.

Lemma sorted_unique {A} (R : A -> A -> Prop) l1 : forall l2,
  StronglySorted R l1 -> StronglySorted R l2 -> Permutation l1 l2 ->
  (forall a b, In a l1 -> In b l1 -> R a b -> R b a -> a = b) -> l1 = l2.
Proof.
  induction l1 as [|x l1 IH]; intros l2 H1 H2 HP Hanti.
  - apply Permutation_nil in HP. auto.
  - destruct l2 as [|y l2]; [apply Permutation_sym, Permutation_nil in HP; discriminate|].
    inversion H1 as [|? ? S1 F1]; subst. inversion H2 as [|? ? S2 F2]; subst.
    rewrite Forall_forall in F1, F2.
    assert (x = y) as <-.
    { assert (Hx : In x (y :: l2)) by (eapply Permutation_in; [exact HP|left; reflexivity]).
      assert (Hy : In y (x :: l1)) by (eapply Permutation_in; [apply Permutation_sym; exact HP|left; reflexivity]).
      destruct Hx as [Hx|Hx]; [auto|]. destruct Hy as [Hy|Hy]; [auto|].
      apply Hanti; [left; reflexivity|right; exact Hy|apply F1; exact Hy|apply F2; exact Hx]. }
    f_equal. apply IH; [exact S1|exact S2|eapply Permutation_cons_inv; exact HP|].
    intros a b Ha Hb. apply Hanti; right; assumption.
Qed.

Lemma sum_whole_acc l : forall acc, fold_left (fun acc e => acc + e_whole e)%Z l acc = (acc + sum_whole l)%Z.
Proof.
  unfold sum_whole. induction l as [|e l IH]; intros acc; cbn [fold_left]; [lia|].
  rewrite IH, (IH (0 + e_whole e)%Z). lia.
Qed.
Lemma sum_whole_cons e l : sum_whole (e :: l) = (e_whole e + sum_whole l)%Z.
Proof. unfold sum_whole at 1. cbn [fold_left]. rewrite sum_whole_acc. lia. Qed.
Lemma sum_whole_perm l l' : Permutation l l' -> sum_whole l = sum_whole l'.
Proof. induction 1; rewrite ?sum_whole_cons; lia. Qed.

Lemma NoDup_map_inj {A B} (f : A -> B) l a b : NoDup (map f l) -> In a l -> In b l -> f a = f b -> a = b.
Proof.
  induction l as [|x l IH]; intros Hnd Ha Hb E; [destruct Ha|]. inversion Hnd as [|? ? Hni Hnd']; subst.
  destruct Ha as [<-|Ha], Hb as [<-|Hb]; auto.
  - exfalso. apply Hni. rewrite E. apply in_map. exact Hb.
  - exfalso. apply Hni. rewrite <- E. apply in_map. exact Ha.
Qed.

Lemma quantize_order items items' T :
  NoDup (map fst items) -> (forall i v, In (i, v) items -> (i < two64)%N) ->
  Permutation items items' -> quantize_values items T = quantize_values items' T.
Proof.
  intros Hnd H64 HP. unfold quantize_values.
  assert (HPe : Permutation (map split_item items) (map split_item items')) by (apply Permutation_map; exact HP).
  assert (Hs : sort_entries (map split_item items) = sort_entries (map split_item items')).
  { apply (sorted_unique key_le); try apply sort_sorted.
    - eapply perm_trans; [apply Permutation_sym, sort_perm|]. eapply perm_trans; [exact HPe|apply sort_perm].
    - intros a b Ha Hb Hab Hba.
      apply (Permutation_in _ (Permutation_sym (sort_perm _))) in Ha.
      apply (Permutation_in _ (Permutation_sym (sort_perm _))) in Hb.
      apply key_le_iff in Hab. apply key_le_iff in Hba.
      assert (Hid : splitmix64 (e_id a) = splitmix64 (e_id b)).
      { destruct Hab as [H|[H H']], Hba as [G|[G G']]; try lra. lia. }
      apply (NoDup_map_inj e_id (map split_item items)); auto.
      + rewrite map_map. exact Hnd.
      + apply in_map_iff in Ha. destruct Ha as [[i v] [<- Ha]].
        apply in_map_iff in Hb. destruct Hb as [[j u] [<- Hb]]. cbn in *.
        apply splitmix_bijective; [eapply H64; eauto|eapply H64; eauto|exact Hid]. }
  rewrite Hs, (sum_whole_perm _ _ HPe). reflexivity.
Qed.

(* ------------------------------------------------------------- modf *)
Lemma trunc_nonneg x : (0 <= x)%Q ->
  (0 <= trunc x)%Z /\ (0 <= frac x)%Q /\ (frac x < 1)%Q.
Proof.
  intros H. destruct x as [n d]. unfold Qle in H. cbn in H. unfold frac, trunc. cbn [Qnum Qden].
  assert (Hn : (0 <= n)%Z) by lia. rewrite Z.quot_div_nonneg by lia.
  pose proof (Z.div_mod n (Z.pos d) ltac:(lia)) as E. pose proof (Z.mod_pos_bound n (Z.pos d) ltac:(lia)) as B.
  split; [apply Z.div_pos; lia|]. unfold Qle, Qlt, Qminus, Qplus, Qopp, inject_Z. cbn.
  split; nia.
Qed.

Lemma frac_split x : (x == inject_Z (trunc x) + frac x)%Q.
Proof. unfold frac. ring. Qed.

(* ------------------------------------------------- the largest remainders *)
Definition desc_frac (a b : entry) : Prop := (e_frac b <= e_frac a)%Q.

Lemma take_pos l : StronglySorted desc_frac l ->
  (forall e, In e l -> (0 <= e_frac e)%Q /\ (e_frac e < 1)%Q) -> forall n,
  (inject_Z (Z.of_nat n) <= Qsum (map e_frac l))%Q ->
  (n <= length l)%nat /\ (forall e, In e (firstn n l) -> (0 < e_frac e)%Q).
Proof.
  induction 1 as [|x l HS IH HF]; intros Hb n Hn.
  - change (Qsum (map e_frac [])) with 0%Q in Hn. destruct n as [|n]; [cbn; split; [lia|intros e []]|].
    exfalso. unfold Qle, inject_Z in Hn. cbn in Hn. lia.
  - destruct n as [|n]; [cbn; split; [lia|intros e []]|].
    cbn [map] in Hn. rewrite Qsum_cons in Hn.
    rewrite Nat2Z.inj_succ in Hn. unfold Z.succ in Hn. rewrite inject_Z_plus in Hn.
    assert (Hn0 : (0 <= inject_Z (Z.of_nat n))%Q) by (unfold Qle, inject_Z; cbn; lia).
    destruct (Hb x (or_introl eq_refl)) as [Hx0 Hx1]. change (inject_Z 1) with 1%Q in Hn.
    assert (Hx : (0 < e_frac x)%Q).
    { apply Qnot_le_lt. intros Hle.
      assert (Hz : (Qsum (map e_frac l) == 0)%Q).
      { apply Qsum_zero. intros e He. rewrite Forall_forall in HF. specialize (HF e He). unfold desc_frac in HF.
        destruct (Hb e (or_intror He)) as [H0 _]. lra. }
      rewrite Hz in Hn. lra. }
    destruct (IH (fun e He => Hb e (or_intror He)) n) as [H1 H2]; [lra|].
    cbn [firstn length]. split; [lia|]. intros e [<-|He]; [exact Hx|apply H2; exact He].
Qed.

Lemma sum_below_length l : (forall e : entry, In e l -> (e_frac e < 1)%Q) ->
  (Qsum (map e_frac l) <= inject_Z (Z.of_nat (length l)))%Q.
Proof.
  induction l as [|x l IH]; intros H.
  - apply Qle_refl.
  - cbn [map length]. rewrite Qsum_cons, Nat2Z.inj_succ. unfold Z.succ. rewrite inject_Z_plus.
    assert (e_frac x < 1)%Q by (apply H; left; reflexivity).
    assert (Qsum (map e_frac l) <= inject_Z (Z.of_nat (length l)))%Q by (apply IH; intros e He; apply H; right; exact He).
    change (inject_Z 1) with 1%Q. lra.
Qed.

Lemma sum_split items :
  (Qsum (map snd items) == inject_Z (sum_whole (map split_item items)) + Qsum (map e_frac (map split_item items)))%Q.
Proof.
  induction items as [|[i v] items IH]; [reflexivity|].
  cbn [map]. rewrite !Qsum_cons, sum_whole_cons, inject_Z_plus, IH. cbn [snd split_item e_whole e_frac].
  rewrite (frac_split v) at 1. ring.
Qed.

Lemma whole_Z z : whole (inject_Z z).
Proof. exists z. reflexivity. Qed.

Lemma Forall2_map_both {A B C} (R : B -> C -> Prop) (f : A -> B) (g : A -> C) l :
  (forall x, In x l -> R (f x) (g x)) -> Forall2 R (map f l) (map g l).
Proof. induction l as [|x l IH]; intros H; constructor; [apply H; left; reflexivity|apply IH; intros y Hy; apply H; right; exact Hy]. Qed.

Lemma Forall2_map_r {A B} (R : A -> B -> Prop) (g : A -> B) l :
  (forall x, In x l -> R x (g x)) -> Forall2 R l (map g l).
Proof. intros H. rewrite <- (map_id l) at 1. apply Forall2_map_both. exact H. Qed.

Lemma Qabs_lt1 x : (-1 < x)%Q -> (x < 1)%Q -> (Qabs x < 1)%Q.
Proof. intros H1 H2. apply Qabs_case; intros; lra. Qed.

Lemma sum_inject_whole l : (Qsum (map (fun e => inject_Z (e_whole e)) l) == inject_Z (sum_whole l))%Q.
Proof.
  induction l as [|e l IH]; [reflexivity|]. cbn [map]. rewrite Qsum_cons, sum_whole_cons, inject_Z_plus, IH. reflexivity.
Qed.

Lemma quantize_nonneg items T :
  (forall i v, In (i, v) items -> (0 <= v)%Q) -> (Qsum (map snd items) == T)%Q ->
  exists items' out, quantize_values items T = (out, None) /\
    Permutation items items' /\ Forall2 close items' out /\
    (Qsum (map snd out) == T)%Q /\ at_most_one_odd out.
Proof.
  intros Hpos Hsum. unfold quantize_values.
  set (l := map split_item items).
  destruct (Permutation_map_inv split_item items (Permutation_sym (sort_perm l))) as [items' [Hs HP]].
  assert (HPP : Permutation items items') by exact HP.
  rewrite Hs. set (r := (T - inject_Z (sum_whole l))%Q).
  assert (Hfr : forall it, In it items' -> (0 <= frac (snd it))%Q /\ (frac (snd it) < 1)%Q /\ True).
  { intros [i v] Hin. cbn. destruct (trunc_nonneg v) as [_ [H1 H2]]; [|auto].
    apply (Hpos i). eapply Permutation_in; [apply Permutation_sym; exact HPP|exact Hin]. }
  assert (Hfe : forall e, In e (map split_item items') -> (0 <= e_frac e)%Q /\ (e_frac e < 1)%Q).
  { intros e He. apply in_map_iff in He. destruct He as [it [<- Hin]]. cbn. destruct (Hfr it Hin) as [H1 [H2 _]]. auto. }
  assert (Hr : (r == Qsum (map e_frac (map split_item items')))%Q).
  { unfold r. rewrite <- Hsum, (sum_split items). fold l.
    assert (HPl : Permutation l (map split_item items')) by (apply Permutation_map; exact HPP).
    rewrite (Qsum_perm _ _ (Permutation_map e_frac HPl)). ring. }
  assert (Hr0 : (0 <= r)%Q).
  { rewrite Hr. apply Qsum_nonneg. intros x Hx. apply in_map_iff in Hx. destruct Hx as [e [<- He]]. apply Hfe. exact He. }
  destruct (trunc_nonneg r Hr0) as [Hn [Hf0 Hf1]].
  set (n := Z.abs_nat (trunc r)).
  assert (HnZ : Z.of_nat n = trunc r) by (unfold n; lia).
  assert (HS : StronglySorted desc_frac (map split_item items')).
  { rewrite <- Hs. pose proof (sort_sorted l) as HSl. rewrite Hs in HSl. rewrite Hs.
    clear - HSl Hfe. induction HSl as [|x m HS IH HF]; constructor.
    - apply IH. intros e He. apply Hfe. right. exact He.
    - rewrite Forall_forall in *. intros y Hy. specialize (HF y Hy). apply key_le_iff in HF.
      destruct (Hfe x (or_introl eq_refl)) as [Hx _]. destruct (Hfe y (or_intror Hy)) as [Hy' _].
      unfold desc_frac, mag in *. rewrite (Qabs_pos _ Hx), (Qabs_pos _ Hy') in HF.
      destruct HF as [HF|[HF _]]; lra. }
  assert (Hle : (inject_Z (Z.of_nat n) <= Qsum (map e_frac (map split_item items')))%Q).
  { rewrite <- Hr, HnZ. pose proof (frac_split r). lra. }
  destruct (take_pos _ HS Hfe n Hle) as [Hlen Htake]. rewrite map_length in Hlen.
  rewrite !firstn_map, !skipn_map. rewrite firstn_map in Htake.
  assert (HT0 : (0 <= T)%Q).
  { rewrite <- Hsum. apply Qsum_nonneg. intros x Hx. apply in_map_iff in Hx. destruct Hx as [[i v] [<- Hin]].
    eapply Hpos; eauto. }
  assert (Hinc : increment T = 1%Z) by (unfold increment; apply Qle_bool_iff in HT0; rewrite HT0; reflexivity).
  rewrite Hinc. rewrite map_map.
  set (A := firstn n items') in *. set (B := skipn n items') in *.
  assert (HAB : items' = A ++ B) by (symmetry; apply firstn_skipn).
  assert (HlenA : length A = n) by (unfold A; apply firstn_length_le; exact Hlen).
  assert (HsumAll : (Qsum (map (fun e => inject_Z (e_whole e)) (map split_item (A ++ B))) == T - r)%Q).
  { rewrite <- HAB, sum_inject_whole. unfold r.
    rewrite <- (sum_whole_perm _ _ (Permutation_map split_item HPP)). fold l. ring. }
  rewrite !map_map, map_app, Qsum_app in HsumAll. cbn [split_item e_whole] in HsumAll.
  assert (HcloseA : Forall2 close A (map (fun x => (e_id (split_item x), inject_Z (e_whole (split_item x) + 1))) A)).
  { apply Forall2_map_r. intros it Hit. split; [reflexivity|]. cbn [snd split_item e_whole e_id].
    rewrite inject_Z_plus. change (inject_Z 1) with 1%Q.
    assert (Hp : (0 < frac (snd it))%Q).
    { apply (Htake (split_item it)). apply in_map. exact Hit. }
    destruct (Hfr it) as [H1 [H2 _]]; [rewrite HAB; apply in_or_app; left; exact Hit|].
    pose proof (frac_split (snd it)). apply Qabs_lt1; lra. }
  assert (HsumA : (Qsum (map snd (map (fun x => (e_id (split_item x), inject_Z (e_whole (split_item x) + 1))) A))
                   == Qsum (map (fun x => inject_Z (trunc (snd x))) A) + inject_Z (trunc r))%Q).
  { rewrite map_map. cbn [snd split_item e_whole].
    rewrite (Qsum_ext _ (fun x => inject_Z (trunc (snd x)) + 1)%Q).
    - rewrite Qsum_plus, Qsum_const, HlenA, HnZ. ring.
    - intros x _. rewrite inject_Z_plus. reflexivity. }
  assert (HwA : forall i v, In (i, v) (map (fun x => (e_id (split_item x), inject_Z (e_whole (split_item x) + 1))) A) -> whole v).
  { intros i v Hin. apply in_map_iff in Hin. destruct Hin as [x [E _]]. inversion E. apply whole_Z. }
  assert (HcloseP : forall L, (forall x, In x L -> In x items') ->
     Forall2 close L (map (fun e => (e_id e, inject_Z (e_whole e))) (map split_item L))).
  { intros L HL. rewrite map_map. apply Forall2_map_r. intros it Hit. split; [reflexivity|].
    cbn [snd split_item e_whole]. destruct (Hfr it (HL it Hit)) as [H1 [H2 _]].
    pose proof (frac_split (snd it)). apply Qabs_lt1; lra. }
  assert (HsumP : forall L, (Qsum (map snd (map (fun e => (e_id e, inject_Z (e_whole e))) (map split_item L)))
     == Qsum (map (fun x => inject_Z (trunc (snd x))) L))%Q).
  { intros L. rewrite !map_map. reflexivity. }
  assert (HwP : forall L i v, In (i, v) (map (fun e => (e_id e, inject_Z (e_whole e))) (map split_item L)) -> whole v).
  { intros L i v Hin. apply in_map_iff in Hin. destruct Hin as [x [E _]]. inversion E. apply whole_Z. }
  pose proof (frac_split r) as Hrs.
  destruct (Qeq_bool (frac r) 0) eqn:Ef; cbn [negb].
  - apply Qeq_bool_iff in Ef. exists items'. eexists. split; [reflexivity|]. split; [exact HPP|]. split; [|split].
    + rewrite HAB. apply Forall2_app; [exact HcloseA|]. apply HcloseP. intros x Hx. rewrite HAB. apply in_or_app. right. exact Hx.
    + rewrite map_app, Qsum_app, HsumA, HsumP. lra.
    + left. intros i v Hin. apply in_app_or in Hin. destruct Hin as [Hin|Hin]; [eapply HwA; eauto|eapply HwP; eauto].
  - assert (Hfne : ~ (frac r == 0)%Q) by (intros H; apply Qeq_bool_iff in H; congruence).
    destruct B as [|it B'] eqn:EB.
    + exfalso. assert (Hlast : (Qsum (map e_frac (map split_item items')) <= inject_Z (Z.of_nat n))%Q).
      { rewrite <- HlenA. rewrite HAB, app_nil_r. rewrite <- (map_length split_item A). apply sum_below_length.
        intros e He. apply Hfe. rewrite HAB, app_nil_r. exact He. }
      rewrite <- Hr, HnZ in Hlast. lra.
    + exists items'. eexists. split; [cbn [map]; reflexivity|]. split; [exact HPP|].
      assert (Hit : In it items') by (rewrite HAB; apply in_or_app; right; left; reflexivity).
      split; [|split].
      * rewrite HAB. apply Forall2_app; [exact HcloseA|]. constructor.
        -- split; [reflexivity|]. cbn [snd split_item e_whole]. destruct (Hfr it Hit) as [H1 [H2 _]].
           pose proof (frac_split (snd it)). apply Qabs_lt1; lra.
        -- apply HcloseP. intros x Hx. rewrite HAB. apply in_or_app. right. right. exact Hx.
      * rewrite map_app, Qsum_app, HsumA. cbn [map]. rewrite Qsum_cons, HsumP. cbn [snd split_item e_whole].
        cbn [map] in HsumAll. rewrite Qsum_cons in HsumAll. lra.
      * right. eexists _, _, _. split; [reflexivity|]. intros i v Hin. apply in_app_or in Hin.
        destruct Hin as [Hin|Hin]; [eapply HwA; eauto|eapply HwP; eauto].
Qed.

(* ------------------------------------------------------------ negation *)
Definition negi (it : N * Q) : N * Q := (fst it, (- snd it)%Q).

Lemma trunc_opp x : trunc (- x) = (- trunc x)%Z.
Proof. unfold trunc. cbn. apply Z.quot_opp_l. lia. Qed.
Lemma frac_opp x : frac (- x) = (- frac x)%Q.
Proof.
  unfold frac. rewrite trunc_opp. destruct x as [n d]. unfold Qminus, Qplus, Qopp, inject_Z. cbn.
  f_equal. lia.
Qed.
Lemma Qabs_opp_eq x : Qabs (- x) = Qabs x.
Proof. destruct x as [n d]. cbn. rewrite Z.abs_opp. reflexivity. Qed.

Definition nege (e : entry) : entry :=
  {| e_id := e_id e; e_frac := (- e_frac e)%Q; e_whole := (- e_whole e)%Z |}.
Lemma split_negi it : split_item (negi it) = nege (split_item it).
Proof. unfold split_item, negi, nege. cbn. rewrite frac_opp, trunc_opp. reflexivity. Qed.
Lemma key_lt_nege a b : key_lt (nege a) (nege b) = key_lt a b.
Proof. unfold key_lt. cbn [nege e_frac e_id]. rewrite !Qabs_opp_eq. reflexivity. Qed.
Lemma insert_nege x l : insert_entry (nege x) (map nege l) = map nege (insert_entry x l).
Proof.
  induction l as [|y l IH]; [reflexivity|]. cbn [map insert_entry]. rewrite key_lt_nege.
  destruct (key_lt y x); cbn [map]; [rewrite IH|]; reflexivity.
Qed.
Lemma sort_nege l : sort_entries (map nege l) = map nege (sort_entries l).
Proof. induction l as [|x l IH]; [reflexivity|]. cbn [map sort_entries]. rewrite IH. apply insert_nege. Qed.
Lemma sum_whole_nege l : sum_whole (map nege l) = (- sum_whole l)%Z.
Proof. induction l as [|e l IH]; [reflexivity|]. cbn [map]. rewrite !sum_whole_cons, IH. cbn. lia. Qed.

Lemma quantize_neg items T : ~ (T == 0)%Q ->
  quantize_values (map negi items) (- T) =
  (map negi (fst (quantize_values items T)), snd (quantize_values items T)).
Proof.
  intros HT. unfold quantize_values. rewrite map_map.
  rewrite (map_ext _ (fun x => nege (split_item x)) split_negi), <- (map_map split_item nege).
  set (l := map split_item items). rewrite sort_nege, sum_whole_nege.
  assert (Hr : (- T - inject_Z (- sum_whole l))%Q = (- (T - inject_Z (sum_whole l)))%Q).
  { destruct T as [n d]. unfold Qminus, Qplus, Qopp, inject_Z. cbn. f_equal. lia. }
  rewrite Hr. set (r := (T - inject_Z (sum_whole l))%Q). rewrite trunc_opp, frac_opp.
  replace (Z.abs_nat (- trunc r)) with (Z.abs_nat (trunc r)) by lia.
  assert (Hinc : increment (- T) = (- increment T)%Z).
  { unfold increment. destruct (Qle_bool 0 T) eqn:E1; destruct (Qle_bool 0 (- T)) eqn:E2; try reflexivity; exfalso.
    - apply Qle_bool_iff in E1. apply Qle_bool_iff in E2. apply HT. lra.
    - assert (~ (0 <= T)%Q) by (intros H; apply Qle_bool_iff in H; congruence).
      assert (~ (0 <= - T)%Q) by (intros H'; apply Qle_bool_iff in H'; congruence).
      apply Qnot_le_lt in H. apply Qnot_le_lt in H0. lra. }
  rewrite Hinc. rewrite firstn_map, skipn_map. set (s := sort_entries l). set (n := Z.abs_nat (trunc r)).
  assert (Hq : Qeq_bool (- frac r) 0 = Qeq_bool (frac r) 0).
  { destruct (Qeq_bool (frac r) 0) eqn:E.
    - apply Qeq_bool_iff in E. apply Qeq_bool_iff. rewrite E. reflexivity.
    - destruct (Qeq_bool (- frac r) 0) eqn:E2; [|reflexivity]. exfalso. apply Qeq_bool_iff in E2.
      assert (H : (frac r == 0)%Q) by lra. apply Qeq_bool_iff in H. congruence. }
  rewrite Hq.
  assert (HF : map (fun e => (e_id e, inject_Z (e_whole e + - increment T))) (map nege (firstn n s)) =
               map negi (map (fun e => (e_id e, inject_Z (e_whole e + increment T))) (firstn n s))).
  { rewrite !map_map. apply map_ext. intros e. unfold negi. cbn. f_equal. unfold Qopp, inject_Z. cbn. f_equal. lia. }
  assert (HP : forall L, map (fun e => (e_id e, inject_Z (e_whole e))) (map nege L) =
               map negi (map (fun e => (e_id e, inject_Z (e_whole e))) L)).
  { intros L. rewrite !map_map. apply map_ext. intros e. reflexivity. }
  destruct (Qeq_bool (frac r) 0); cbn [negb fst snd].
  - rewrite HF, HP, map_app. reflexivity.
  - destruct (skipn n s) as [|e s'] eqn:Es; cbn [map fst snd].
    + rewrite HF. reflexivity.
    + rewrite HF, HP, map_app. cbn [map]. f_equal. f_equal. f_equal. unfold negi. cbn [fst snd nege e_id e_whole].
      f_equal. destruct (frac r) as [a b]. unfold Qplus, Qopp, inject_Z. cbn. f_equal. lia.
Qed.

Lemma negi_inv it : (fst (negi (negi it)), snd (negi (negi it))) = it.
Proof. destruct it as [i [n d]]. unfold negi, Qopp. cbn. rewrite Z.opp_involutive. reflexivity. Qed.
Lemma negi_negi it : negi (negi it) = it.
Proof. destruct it as [i [n d]]. unfold negi, Qopp. cbn. rewrite Z.opp_involutive. reflexivity. Qed.

Lemma Qsum_negi l : (Qsum (map snd (map negi l)) == - Qsum (map snd l))%Q.
Proof.
  induction l as [|it l IH]; [reflexivity|]. cbn [map]. rewrite !Qsum_cons, IH. cbn. ring.
Qed.

Lemma quantize_total items T : one_sign items -> (Qsum (map snd items) == T)%Q ->
  exists items' out, quantize_values items T = (out, None) /\
    Permutation items items' /\ Forall2 close items' out /\
    (Qsum (map snd out) == T)%Q /\ at_most_one_odd out.
Proof.
  intros [Hpos|Hneg] Hsum; [apply quantize_nonneg; assumption|].
  destruct (Qeq_dec T 0) as [HT|HT].
  - apply quantize_nonneg; [|exact Hsum]. intros i v Hin.
    assert (Hall : forall y, In y (map snd (map negi items)) -> (0 <= y)%Q).
    { intros y Hy. rewrite map_map in Hy. apply in_map_iff in Hy. destruct Hy as [[j u] [<- Hj]]. cbn.
      specialize (Hneg j u Hj). lra. }
    assert (Hv : In (- v)%Q (map snd (map negi items))).
    { rewrite map_map. apply in_map_iff. exists (i, v). split; [reflexivity|exact Hin]. }
    pose proof (Qsum_nonneg_le _ _ Hall Hv) as Hle. rewrite Qsum_negi, Hsum, HT in Hle. lra.
  - destruct (quantize_nonneg (map negi items) (- T)) as [its [out [E [HP [HC [HS HO]]]]]].
    + intros i v Hin. apply in_map_iff in Hin. destruct Hin as [[j u] [E Hj]]. inversion E; subst.
      specialize (Hneg _ _ Hj). cbn. lra.
    + rewrite Qsum_negi, Hsum. reflexivity.
    + rewrite (quantize_neg items T HT) in E. inversion E as [[E1 E2]].
      destruct (quantize_values items T) as [o x] eqn:EQ. cbn in E1, E2. subst x.
      exists (map negi its), o. split; [reflexivity|]. split; [|split; [|split]].
      * rewrite <- (map_id items). rewrite (map_ext _ (fun x => negi (negi x)) (fun x => eq_sym (negi_negi x))).
        rewrite <- map_map. apply Permutation_map. exact HP.
      * subst out. clear - HC. remember (map negi o) as no eqn:Eo. revert o Eo.
        induction HC as [|a b its no Hab HF IH]; intros o Eo.
        { destruct o; [constructor|discriminate]. }
        { destruct o as [|p o]; [discriminate|]. cbn in Eo. inversion Eo; subst. cbn [map]. constructor; [|apply IH; reflexivity].
          destruct Hab as [H1 H2]. unfold negi in *; cbn [fst snd] in *. split; [exact H1|].
          assert (Hq : (snd p - - snd a == - (- snd p - snd a))%Q) by ring.
          rewrite Hq, Qabs_opp. exact H2. }
      * subst out. rewrite Qsum_negi in HS. lra.
      * subst out. destruct HO as [HO|[a [p [b [Eo HO]]]]].
        { left. intros i v Hin. destruct (HO i (- v)%Q) as [z Hz].
          - apply in_map_iff. exists (i, v). split; [reflexivity|exact Hin].
          - exists (- z)%Z. rewrite inject_Z_opp. lra. }
        { right. exists (map negi a), (negi p), (map negi b).
          split.
          - rewrite <- (map_id o). rewrite (map_ext _ (fun x => negi (negi x)) (fun x => eq_sym (negi_negi x))).
            rewrite <- map_map, Eo, map_app. reflexivity.
          - intros i v Hin. rewrite <- map_app in Hin. apply in_map_iff in Hin. destruct Hin as [[j u] [E' Hin]].
            inversion E'; subst. destruct (HO _ _ Hin) as [z Hz]. exists (- z)%Z. rewrite inject_Z_opp. cbn. lra. }
Qed.

Lemma whole_sum l : (forall i v, In (i, v) l -> whole v) -> whole (Qsum (map (@snd N Q) l)).
Proof.
  induction l as [|[i v] l IH]; intros H.
  - exists 0%Z. reflexivity.
  - cbn [map]. rewrite Qsum_cons. destruct (H i v (or_introl eq_refl)) as [z Hz].
    destruct IH as [y Hy]; [intros j u Hj; apply (H j u); right; exact Hj|].
    exists (z + y)%Z. rewrite inject_Z_plus. cbn [snd]. lra.
Qed.

Lemma quantize_whole_total items T : one_sign items -> (Qsum (map snd items) == T)%Q -> whole T ->
  forall i v, In (i, v) (fst (quantize_values items T)) -> whole v.
Proof.
  intros H1 H2 [t Ht]. destruct (quantize_total items T H1 H2) as [its [out [E [_ [_ [HS HO]]]]]].
  rewrite E. cbn [fst]. destruct HO as [HO|[a [p [b [Eo HO]]]]]; [exact HO|].
  intros i v Hin. destruct (whole_sum (a ++ b) HO) as [w Hw].
  rewrite Eo in Hin. apply in_app_or in Hin. destruct Hin as [Hin|[Hin|Hin]].
  - apply (HO i v). apply in_or_app. left. exact Hin.
  - subst p. exists (t - w)%Z. rewrite Eo, map_app in HS. cbn [map] in HS. rewrite Qsum_app, Qsum_cons in HS.
    rewrite map_app, Qsum_app in Hw. cbn [snd] in HS. unfold Z.sub. rewrite inject_Z_plus, inject_Z_opp. lra.
  - apply (HO i v). apply in_or_app. right. exact Hin.
Qed.
