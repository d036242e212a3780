(** CRC-32 detects every error burst of up to 32 bits. *)
From Coq Require Import NArith.
From Verif Require Import Prelude Selectors_Model IndexCode_Model IndexCode_Spec.
Local Open Scope N_scope.

Lemma small_shift n k : n < 2 ^ k <-> N.shiftr n k = 0.
Proof. rewrite N.shiftr_div_pow2, N.div_small_iff; [reflexivity | apply N.pow_nonzero; lia]. Qed.
Lemma small_lxor a b k : a < 2 ^ k -> b < 2 ^ k -> N.lxor a b < 2 ^ k.
Proof. rewrite !small_shift, N.shiftr_lxor. intros -> ->. reflexivity. Qed.
Lemma small_high n k i : n < 2 ^ k -> k <= i -> N.testbit n i = false.
Proof.
  intros Hn Hi. replace i with ((i - k) + k) by lia. rewrite <- N.shiftr_spec by lia.
  apply small_shift in Hn. rewrite Hn. apply N.bits_0.
Qed.

Lemma odd_lxor a b : N.odd (N.lxor a b) = xorb (N.odd a) (N.odd b).
Proof. rewrite <- !N.bit0_odd. apply N.lxor_spec. Qed.

Lemma crc_bit_lxor a b : crc_bit (N.lxor a b) = N.lxor (crc_bit a) (crc_bit b).
Proof.
  unfold crc_bit. rewrite N.shiftr_lxor, odd_lxor. apply N.bits_inj. intro i.
  destruct (N.odd a), (N.odd b); cbn [xorb]; rewrite ?N.lxor_spec, ?N.bits_0;
    destruct (N.testbit (N.shiftr a 1) i), (N.testbit (N.shiftr b 1) i), (N.testbit crc_poly i); reflexivity.
Qed.
Lemma crc_bit_double x : crc_bit (2 * x) = x.
Proof.
  unfold crc_bit. rewrite N.odd_mul. cbn [N.odd andb]. rewrite N.lxor_0_r, N.shiftr_div_pow2.
  change (2 ^ 1) with 2. rewrite N.mul_comm, N.div_mul by lia. reflexivity.
Qed.
Lemma crc_bit_small s : s < 2 ^ 32 -> crc_bit s < 2 ^ 32.
Proof.
  intro H. unfold crc_bit. apply small_lxor.
  - rewrite N.shiftr_div_pow2. change (2 ^ 1) with 2. apply N.le_lt_trans with s; [|exact H]. apply N.div_le_upper_bound; lia.
  - destruct (N.odd s); reflexivity.
Qed.
Lemma crc_bit_kernel s : s < 2 ^ 32 -> crc_bit s = 0 -> s = 0.
Proof.
  intros H H0. assert (O : N.odd s = false).
  { assert (B : N.testbit (crc_bit s) 31 = false) by (rewrite H0; reflexivity).
    unfold crc_bit in B. rewrite N.lxor_spec, N.shiftr_spec in B by lia.
    rewrite (small_high s 32) in B by (try assumption; lia). destruct (N.odd s); [discriminate B | reflexivity]. }
  unfold crc_bit in H0. rewrite O, N.lxor_0_r, N.shiftr_div_pow2 in H0. change (2 ^ 1) with 2 in H0.
  rewrite <- N.negb_even in O. apply Bool.negb_false_iff, N.even_spec in O. destruct O as [m ->].
  rewrite N.mul_comm, N.div_mul in H0 by lia. lia.
Qed.
Lemma crc_bit_inj a b : a < 2 ^ 32 -> b < 2 ^ 32 -> crc_bit a = crc_bit b -> a = b.
Proof.
  intros Ha Hb H. apply N.lxor_eq, crc_bit_kernel; [apply small_lxor; assumption|].
  rewrite crc_bit_lxor, H. apply N.lxor_nilpotent.
Qed.

Lemma iter_small k s : s < 2 ^ 32 -> Nat.iter k crc_bit s < 2 ^ 32.
Proof. intro H. induction k as [|k IH]; [exact H|]. cbn [Nat.iter nat_rect]. apply crc_bit_small, IH. Qed.
Lemma iter_inj k a b : a < 2 ^ 32 -> b < 2 ^ 32 -> Nat.iter k crc_bit a = Nat.iter k crc_bit b -> a = b.
Proof.
  intros Ha Hb. induction k as [|k IH]; [auto|]. intro H. apply IH.
  apply (crc_bit_inj (Nat.iter k crc_bit a) (Nat.iter k crc_bit b)); [apply iter_small; assumption .. | exact H].
Qed.
Lemma iter_shift k s x : Nat.iter k crc_bit (N.lxor s (2 ^ N.of_nat k * x)) = N.lxor (Nat.iter k crc_bit s) x.
Proof.
  revert x. induction k as [|k IH]; intro x.
  - change (2 ^ N.of_nat 0) with 1. rewrite N.mul_1_l. reflexivity.
  - rewrite Nat2N.inj_succ, N.pow_succ_r'. cbn [Nat.iter nat_rect].
    replace (2 * 2 ^ N.of_nat k * x) with (2 ^ N.of_nat k * (2 * x)) by lia.
    fold (Nat.iter k crc_bit (N.lxor s (2 ^ N.of_nat k * (2 * x)))). fold (Nat.iter k crc_bit s).
    rewrite IH, crc_bit_lxor, crc_bit_double. reflexivity.
Qed.

(** The value of bytes, first byte least significant. *)
Fixpoint le_value (l : list N) : N := match l with [] => 0 | b :: l' => b + 256 * le_value l' end.
Lemma byte_lxor b x : b < 256 -> b + 256 * x = N.lxor (256 * x) b.
Proof.
  intro H. rewrite N.add_comm. rewrite N.add_nocarry_lxor; [reflexivity|]. apply N.bits_inj. intro i. rewrite N.land_spec, N.bits_0.
  destruct (N.lt_ge_cases i 8) as [L|L].
  - replace (256 * x) with (x * 2 ^ 8) by lia. rewrite N.mul_pow2_bits_low by exact L. reflexivity.
  - rewrite (small_high b 8) by assumption. apply Bool.andb_false_r.
Qed.
Lemma le_small l : byte_list l -> le_value l < 2 ^ (8 * N.of_nat (length l)).
Proof.
  induction 1 as [|b l Hb _ IH]; [reflexivity|]. cbn [le_value length]. rewrite Nat2N.inj_succ.
  replace (8 * N.succ (N.of_nat (length l))) with (8 + 8 * N.of_nat (length l)) by lia. rewrite N.pow_add_r.
  change (2 ^ 8) with 256. nia.
Qed.
Lemma le_inj a b : byte_list a -> byte_list b -> length a = length b -> le_value a = le_value b -> a = b.
Proof.
  intro Ha. revert b. induction Ha as [|x a Hx _ IH]; intros [|y b] Hb L H; try discriminate L; [reflexivity|].
  inversion_clear Hb as [|? ? Hy Hb']. cbn [le_value] in H. cbn [length] in L.
  assert (x = y /\ le_value a = le_value b) as [-> E] by (split; lia).
  f_equal. apply IH; [exact Hb' | lia | exact E].
Qed.
Lemma crc_bytes l s : byte_list l -> fold_left crc_byte l s = Nat.iter (8 * length l) crc_bit (N.lxor s (le_value l)).
Proof.
  intro Hl. revert s. induction Hl as [|b l Hb _ IH]; intro s.
  - cbn. rewrite N.lxor_0_r. reflexivity.
  - cbn [fold_left le_value length]. rewrite IH.
    replace (8 * S (length l))%nat with (8 * length l + 8)%nat by lia.
    assert (E : forall m k x, Nat.iter (m + k) crc_bit x = Nat.iter m crc_bit (Nat.iter k crc_bit x)).
    { intros m k x. induction m as [|m IHm]; [reflexivity|]. cbn [Nat.add Nat.iter nat_rect]. f_equal. exact IHm. }
    rewrite E. f_equal. unfold crc_byte. rewrite <- iter_shift. f_equal. change (2 ^ N.of_nat 8) with 256.
    rewrite byte_lxor by exact Hb. rewrite !N.lxor_assoc. f_equal. apply N.lxor_comm.
Qed.

Lemma fold_small l s : byte_list l -> s < 2 ^ 32 -> fold_left crc_byte l s < 2 ^ 32.
Proof.
  intro Hl. revert s. induction Hl as [|b l Hb _ IH]; intros s Hs; [exact Hs|]. cbn [fold_left]. apply IH.
  unfold crc_byte. apply iter_small, small_lxor; [exact Hs|]. apply N.lt_trans with 256; [exact Hb | reflexivity].
Qed.
Lemma fold_inj l s t : byte_list l -> s < 2 ^ 32 -> t < 2 ^ 32 -> fold_left crc_byte l s = fold_left crc_byte l t -> s = t.
Proof.
  intro Hl. revert s t. induction Hl as [|b l Hb _ IH]; intros s t Hs Ht H; [exact H|]. cbn [fold_left] in H.
  assert (Hb' : b < 2 ^ 32) by (apply N.lt_trans with 256; [exact Hb | reflexivity]).
  apply IH in H; [|unfold crc_byte; apply iter_small, small_lxor; assumption ..].
  unfold crc_byte in H. apply iter_inj in H; [|apply small_lxor; assumption ..].
  apply (f_equal (fun x => N.lxor x b)) in H. rewrite !N.lxor_assoc, N.lxor_nilpotent, !N.lxor_0_r in H. exact H.
Qed.

Lemma crc32_small l : byte_list l -> crc32 l < 2 ^ 32.
Proof. intro H. unfold crc32. apply small_lxor; [apply fold_small; [exact H | reflexivity] | reflexivity]. Qed.
Lemma crc32_mask l : byte_list l -> N.land (crc32 l) 0xFFFFFFFF = crc32 l.
Proof. intro H. change 0xFFFFFFFF with (N.ones 32). rewrite N.land_ones. apply N.mod_small, crc32_small, H. Qed.

Lemma byte_list_app a b : byte_list (a ++ b) <-> byte_list a /\ byte_list b.
Proof. apply Forall_app. Qed.

Theorem crc32_burst a b : byte_list a -> byte_list b -> differ_within_32_bits a b -> crc32 a <> crc32 b.
Proof.
  intros Ha Hb (p & x & y & q & -> & -> & L & L4 & Ne) H. apply Ne. clear Ne.
  apply byte_list_app in Ha. destruct Ha as [Hp Ha]. apply byte_list_app in Ha. destruct Ha as [Hx Hq].
  apply byte_list_app in Hb. destruct Hb as [_ Hb]. apply byte_list_app in Hb. destruct Hb as [Hy _].
  unfold crc32 in H. apply (f_equal (fun x => N.lxor x 0xFFFFFFFF)) in H.
  rewrite !N.lxor_assoc, N.lxor_nilpotent, !N.lxor_0_r in H. rewrite !fold_left_app in H.
  assert (Sp : fold_left crc_byte p 0xFFFFFFFF < 2 ^ 32) by (apply fold_small; [exact Hp | reflexivity]).
  revert Sp H. generalize (fold_left crc_byte p 0xFFFFFFFF). intros s Sp H.
  apply fold_inj in H; [|exact Hq | apply fold_small; assumption ..].
  assert (V : forall l, byte_list l -> (length l <= 4)%nat -> le_value l < 2 ^ 32).
  { intros l Hl Ll. apply N.lt_le_trans with (1 := le_small l Hl). apply N.pow_le_mono_r; lia. }
  rewrite !crc_bytes, L in H by assumption.
  apply iter_inj in H; [|apply small_lxor; [exact Sp | apply V; [assumption | lia]] ..].
  apply (f_equal (fun x => N.lxor s x)) in H. rewrite <- !N.lxor_assoc, N.lxor_nilpotent, !N.lxor_0_l in H.
  apply le_inj; assumption.
Qed.

(** *** Packing *)
Lemma be_bytes_length k n : length (be_bytes k n) = k.
Proof. revert n. induction k as [|k IH]; intro n; [reflexivity|]. cbn [be_bytes]. rewrite app_length, IH. cbn. lia. Qed.
Lemma be_bytes_bytes k n : byte_list (be_bytes k n).
Proof.
  revert n. induction k as [|k IH]; intro n; [constructor|]. cbn [be_bytes]. apply byte_list_app. split; [apply IH|].
  constructor; [apply N.mod_lt; lia | constructor].
Qed.
Lemma be_value_snoc l b : be_value (l ++ [b]) = 256 * be_value l + b.
Proof. unfold be_value. rewrite fold_left_app. reflexivity. Qed.
Lemma be_bytes_value k n : n < 256 ^ N.of_nat k -> be_value (be_bytes k n) = n.
Proof.
  revert n. induction k as [|k IH]; intros n H.
  - change (256 ^ N.of_nat 0) with 1 in H. cbn. lia.
  - cbn [be_bytes]. rewrite be_value_snoc. rewrite Nat2N.inj_succ, N.pow_succ_r' in H. rewrite IH.
    + rewrite <- N.div_mod by lia. reflexivity.
    + apply N.div_lt_upper_bound; lia.
Qed.
Lemma be_value_inj a b : byte_list a -> byte_list b -> length a = length b -> be_value a = be_value b -> a = b.
Proof.
  intro Ha. revert b. induction a as [|x a IH] using rev_ind; intros b Hb L H.
  - destruct b; [reflexivity | discriminate L].
  - destruct b as [|y b _] using rev_ind; [rewrite app_length in L; cbn in L; lia|].
    rewrite !app_length in L. cbn [length] in L. rewrite !be_value_snoc in H.
    apply byte_list_app in Ha. apply byte_list_app in Hb. destruct Ha as [Ha Hx]. destruct Hb as [Hb Hy].
    inversion_clear Hx. inversion_clear Hy.
    assert (x = y /\ be_value a = be_value b) as [-> E] by (split; lia).
    f_equal. apply IH; try assumption. lia.
Qed.
Lemma be_value_small l : byte_list l -> be_value l < 256 ^ N.of_nat (length l).
Proof.
  induction l as [|b l IH] using rev_ind; intro H; [reflexivity|].
  apply byte_list_app in H. destruct H as [H Hb]. inversion_clear Hb. specialize (IH H).
  rewrite be_value_snoc, app_length. cbn [length]. replace (length l + 1)%nat with (S (length l)) by lia.
  rewrite Nat2N.inj_succ, N.pow_succ_r'. nia.
Qed.

Lemma pack_ok i : fits i -> exists l, pack_i64_be i = Ok l /\ byte_list l /\ length l = 8%nat /\ Z.of_N (be_value l) = (i mod 2 ^ 64)%Z.
Proof.
  intros [H1 H2]. unfold pack_i64_be.
  replace ((- 2 ^ 63 <=? i) && (i <? 2 ^ 63))%Z with true by (symmetry; apply andb_true_intro; split; lia).
  eexists. split; [reflexivity|]. split; [apply be_bytes_bytes|]. split; [apply be_bytes_length|].
  pose proof (Z.mod_pos_bound i (2 ^ 64) ltac:(lia)) as B. rewrite be_bytes_value by (change (256 ^ N.of_nat 8) with (2 ^ 64); lia). lia.
Qed.
Lemma pack_err i : ~ fits i -> pack_i64_be i = Err StructError.
Proof.
  intro H. unfold pack_i64_be. destruct ((- 2 ^ 63 <=? i) && (i <? 2 ^ 63))%Z eqn:E; [|reflexivity].
  exfalso. apply H. apply andb_prop in E. unfold fits. lia.
Qed.
Lemma fits_dec i : fits i \/ ~ fits i.
Proof. unfold fits. lia. Qed.
(** The same high half. *)
Lemma be_split l k : byte_list l -> (k <= length l)%nat ->
  be_value l = 256 ^ N.of_nat (length l - k) * be_value (firstn k l) + be_value (skipn k l).
Proof.
  intros H Hk. rewrite <- (firstn_skipn k l) at 1.
  assert (E : forall b a, be_value (a ++ b) = 256 ^ N.of_nat (length b) * be_value a + be_value b).
  { intro b. induction b as [|x b IH] using rev_ind; intro a.
    - rewrite app_nil_r. change (N.of_nat (length (@nil N))) with 0. rewrite N.pow_0_r. change (be_value []) with 0. lia.
    - rewrite app_assoc, !be_value_snoc, IH, app_length. cbn [length].
      replace (length b + 1)%nat with (S (length b)) by lia. rewrite Nat2N.inj_succ, N.pow_succ_r'. lia. }
  rewrite E, skipn_length. reflexivity.
Qed.
Lemma pack_same_high i j a b : fits i -> fits j -> i <> j -> (i / 2 ^ 32 = j / 2 ^ 32)%Z ->
  pack_i64_be i = Ok a -> pack_i64_be j = Ok b -> differ_within_32_bits a b.
Proof.
  intros Hi Hj Ne Hd Pa Pb.
  destruct (pack_ok i Hi) as (a' & Pa' & Ba & La & Va). rewrite Pa in Pa'. injection Pa' as <-.
  destruct (pack_ok j Hj) as (b' & Pb' & Bb & Lb & Vb). rewrite Pb in Pb'. injection Pb' as <-.
  pose proof (be_split a 4 Ba ltac:(lia)) as Sa. pose proof (be_split b 4 Bb ltac:(lia)) as Sb.
  rewrite La in Sa. rewrite Lb in Sb. change (256 ^ N.of_nat (8 - 4)) with (2 ^ 32) in *.
  assert (Fa : byte_list (firstn 4 a)) by (rewrite <- (firstn_skipn 4 a) in Ba; apply byte_list_app in Ba; apply Ba).
  assert (Ga : byte_list (skipn 4 a)) by (rewrite <- (firstn_skipn 4 a) in Ba; apply byte_list_app in Ba; apply Ba).
  assert (Fb : byte_list (firstn 4 b)) by (rewrite <- (firstn_skipn 4 b) in Bb; apply byte_list_app in Bb; apply Bb).
  assert (Gb : byte_list (skipn 4 b)) by (rewrite <- (firstn_skipn 4 b) in Bb; apply byte_list_app in Bb; apply Bb).
  pose proof (be_value_small _ Ga) as Ka. pose proof (be_value_small _ Gb) as Kb.
  rewrite skipn_length, La in Ka. rewrite skipn_length, Lb in Kb. change (256 ^ N.of_nat (8 - 4)) with (2 ^ 32) in *.
  assert (E : be_value (firstn 4 a) = be_value (firstn 4 b)).
  { destruct Hi, Hj. pose proof (Z.div_mod i (2 ^ 32) ltac:(lia)). pose proof (Z.div_mod j (2 ^ 32) ltac:(lia)).
    pose proof (Z.mod_pos_bound i (2 ^ 32) ltac:(lia)). pose proof (Z.mod_pos_bound j (2 ^ 32) ltac:(lia)).
    pose proof (Z.div_mod i (2 ^ 64) ltac:(lia)). pose proof (Z.div_mod j (2 ^ 64) ltac:(lia)).
    pose proof (Z.mod_pos_bound i (2 ^ 64) ltac:(lia)). pose proof (Z.mod_pos_bound j (2 ^ 64) ltac:(lia)).
    change (2 ^ 64)%Z with (4294967296 * 4294967296)%Z in *. change (2 ^ 32)%Z with 4294967296%Z in *. change (2 ^ 32) with 4294967296 in *.
    change (2 ^ 63)%Z with 9223372036854775808%Z in *.
    assert (D : (i / (4294967296 * 4294967296) = j / (4294967296 * 4294967296))%Z).
    { rewrite <- !Z.div_div by lia. rewrite Hd. reflexivity. }
    lia. }
  exists (firstn 4 a), (skipn 4 a), (skipn 4 b), []. rewrite !app_nil_r, firstn_skipn.
  assert (E' : firstn 4 a = firstn 4 b) by (apply be_value_inj; try assumption; rewrite !firstn_length; lia).
  split; [reflexivity|]. split; [rewrite E'; symmetry; apply firstn_skipn|]. rewrite !skipn_length, La, Lb.
  split; [reflexivity|]. split; [lia|]. intro Es. apply Ne.
  assert (a = b) by (rewrite <- (firstn_skipn 4 a), <- (firstn_skipn 4 b), E', Es; reflexivity). subst b.
  rewrite Va in Vb. destruct Hi, Hj.
  pose proof (Z.div_mod i (2 ^ 64) ltac:(lia)). pose proof (Z.div_mod j (2 ^ 64) ltac:(lia)).
  assert (D : (i / 2 ^ 64 = j / 2 ^ 64)%Z).
  { change (2 ^ 64)%Z with (2 ^ 32 * 2 ^ 32)%Z. rewrite <- !Z.div_div by lia. rewrite Hd. reflexivity. }
  lia.
Qed.
