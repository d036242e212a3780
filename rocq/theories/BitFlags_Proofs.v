From Verif Require Import Prelude BitFlags_Model BitFlags_Spec.
From Coq Require Import ZifyBool ZifyNat ZifyN.
Ltac Zify.zify_post_hook ::= Z.div_mod_to_equations.

Lemma get_bit_testbit b i : get_bit b i = N.testbit b i.
Proof.
  unfold get_bit.
  replace (N.testbit b i) with (N.testbit (N.shiftr b i) 0)
    by (rewrite N.shiftr_spec'; f_equal; lia).
  generalize (N.shiftr b i). intros n.
  change 1%N with (N.ones 1) at 1. rewrite N.land_ones. change (2 ^ 1)%N with 2%N.
  rewrite N.bit0_odd. rewrite <- N.bit0_odd, <- N.bit0_mod.
  destruct (N.testbit n 0); reflexivity.
Qed.

Lemma nth_flat_map_byte bs : forall i,
  nth i (bytes_to_bitstream bs) false = byte_bit bs i.
Proof.
  induction bs as [|b bs IH]; intros i.
  - unfold byte_bit. replace (nth (i / 8) [] 0%N) with 0%N by (destruct (i / 8); reflexivity).
    rewrite N.bits_0. destruct i; reflexivity.
  - unfold bytes_to_bitstream. cbn [flat_map].
    destruct (Nat.lt_ge_cases i 8) as [Hlt|Hge].
    + rewrite app_nth1 by (cbn; lia). unfold byte_bit.
      replace (i / 8) with 0 by lia. replace (i mod 8) with i by lia. cbn [nth].
      rewrite <- get_bit_testbit.
      do 8 (destruct i as [|i]; [reflexivity|]). lia.
    + rewrite app_nth2 by (cbn; lia). cbn [length map].
      fold (bytes_to_bitstream bs). rewrite IH. unfold byte_bit.
      replace (i / 8) with (S ((i - 8) / 8)) by lia.
      replace ((i - 8) mod 8) with (i mod 8) by lia. reflexivity.
Qed.

Lemma length_bitstream bs : length (bytes_to_bitstream bs) = length bs * 8.
Proof.
  induction bs as [|b bs IH]; [reflexivity|].
  unfold bytes_to_bitstream in *. cbn [flat_map]. rewrite app_length, IH. cbn. lia.
Qed.

Lemma nth_rstrip0 bs : forall i, nth i (rstrip0 bs) 0%N = nth i bs 0%N.
Proof.
  induction bs as [|b bs IH]; intros i; [reflexivity|]. cbn [rstrip0].
  destruct (rstrip0 bs) as [|r rs] eqn:E.
  - destruct (N.eqb_spec b 0) as [->|Hb].
    + destruct i; cbn; [reflexivity|]. rewrite <- IH. destruct i; reflexivity.
    + destruct i; cbn; [reflexivity|]. rewrite <- IH. destruct i; reflexivity.
  - destruct i; cbn [nth]; [reflexivity|]. rewrite <- IH. reflexivity.
Qed.

Lemma byte_bit_rstrip0 bs i : byte_bit (rstrip0 bs) i = byte_bit bs i.
Proof. unfold byte_bit. rewrite nth_rstrip0. reflexivity. Qed.

Lemma rstrip0_last bs : rstrip0 bs = [] \/ exists l b, rstrip0 bs = l ++ [b] /\ b <> 0%N.
Proof.
  induction bs as [|b bs IH]; [left; reflexivity|]. cbn [rstrip0].
  destruct (rstrip0 bs) as [|r rs] eqn:E.
  - destruct (N.eqb_spec b 0); [left; reflexivity|right; exists [], b; auto].
  - right. destruct IH as [IH|[l [x [IH Hx]]]]; [discriminate|].
    exists (b :: l), x. rewrite IH. auto.
Qed.

Lemma rstrip0_id l b : b <> 0%N -> rstrip0 (l ++ [b]) = l ++ [b].
Proof.
  intros Hb. induction l as [|x l IH]; cbn.
  - destruct (N.eqb_spec b 0); [contradiction|reflexivity].
  - rewrite IH. destruct (l ++ [b]) eqn:E; [destruct l; discriminate|reflexivity].
Qed.

Lemma rstrip0_idem bs : rstrip0 (rstrip0 bs) = rstrip0 bs.
Proof.
  destruct (rstrip0_last bs) as [->|[l [b [-> Hb]]]]; [reflexivity|].
  apply rstrip0_id. exact Hb.
Qed.

Lemma rstrip0_bytes bs : is_bytes bs -> is_bytes (rstrip0 bs).
Proof.
  unfold is_bytes. induction bs as [|b bs IH]; intros H; [exact H|].
  inversion H as [|? ? Hb Hbs]; subst. specialize (IH Hbs). cbn.
  destruct (rstrip0 bs); [destruct (b =? 0)%N; auto|auto].
Qed.

(** Bytes are determined by their bits. *)
Lemma byte_ext x y : (x < 256)%N -> (y < 256)%N ->
  (forall k, k < 8 -> N.testbit x (N.of_nat (7 - k)) = N.testbit y (N.of_nat (7 - k))) -> x = y.
Proof.
  intros Hx Hy H. apply N.bits_inj. intros n.
  destruct (N.lt_ge_cases n 8) as [Hn|Hn].
  - specialize (H (7 - N.to_nat n) ltac:(lia)).
    replace (N.of_nat (7 - (7 - N.to_nat n))) with n in H by lia. exact H.
  - assert (forall z, (z < 256)%N -> N.testbit z n = false) as Hz.
    { intros z Hz. destruct (N.eq_dec z 0) as [->|Hnz]; [apply N.bits_0|].
      apply N.bits_above_log2. apply N.log2_lt_pow2; [lia|].
      apply N.lt_le_trans with (2 ^ 8)%N; [exact Hz|]. apply N.pow_le_mono_r; lia. }
    rewrite !Hz; auto.
Qed.

Lemma stripped_ext : forall a b, is_bytes a -> is_bytes b ->
  (forall i, byte_bit a i = byte_bit b i) -> forall k, nth k a 0%N = nth k b 0%N.
Proof.
  intros a b Ha Hb H k.
  assert (forall l, is_bytes l -> (nth k l 0 < 256)%N) as Hl.
  { intros l Hl. destruct (Nat.lt_ge_cases k (length l)) as [Hlt|Hge].
    - unfold is_bytes in Hl. rewrite Forall_forall in Hl. apply Hl, nth_In, Hlt.
    - rewrite nth_overflow; [lia|exact Hge]. }
  apply byte_ext; auto. intros j Hj.
  specialize (H (8 * k + j)). unfold byte_bit in H.
  replace ((8 * k + j) / 8) with k in H by lia.
  replace ((8 * k + j) mod 8) with j in H by lia. exact H.
Qed.

Lemma stripped_eq : forall a b,
  (forall k, nth k a 0%N = nth k b 0%N) -> rstrip0 a = rstrip0 b.
Proof.
  assert (Hz : forall l, (forall k, nth k l 0%N = 0%N) -> rstrip0 l = []).
  { induction l as [|x l IH]; intros H; [reflexivity|]. cbn.
    rewrite IH by (intros k; exact (H (S k))). pose proof (H 0) as H0. cbn in H0. subst x. reflexivity. }
  induction a as [|x a IH]; intros b H.
  - symmetry. apply Hz. intros k. rewrite <- H. destruct k; reflexivity.
  - destruct b as [|y b].
    + apply Hz. intros k. rewrite H. destruct k; reflexivity.
    + cbn. rewrite (IH b) by (intros k; exact (H (S k))).
      pose proof (H 0) as H0. cbn in H0. subst y. reflexivity.
Qed.

Lemma bytes_eqb_iff a : forall b, bytes_eqb a b = true <-> a = b.
Proof.
  induction a as [|x a IH]; destruct b as [|y b]; cbn; split; try congruence; intros H.
  - apply andb_prop in H. destruct H as [H1 H2]. apply N.eqb_eq in H1. apply IH in H2. congruence.
  - inversion H; subst. rewrite N.eqb_refl. cbn. apply IH. reflexivity.
Qed.

(* --------------------------------------------------------------- packing *)
Lemma eight_ind (P : list bool -> Prop) :
  P [] ->
  (forall l, 0 < length l < 8 -> P l) ->
  (forall a b c d e f g h l, P l -> P (a :: b :: c :: d :: e :: f :: g :: h :: l)) ->
  forall l, P l.
Proof.
  intros H0 Hs Hl.
  assert (forall n l, length l <= n -> P l) as Hn.
  { induction n as [|n IHn]; intros l Hlen.
    - destruct l; [exact H0|cbn in Hlen; lia].
    - destruct (Nat.lt_ge_cases (length l) 8) as [Hlt|Hge].
      + destruct l as [|x l]; [exact H0|]. apply Hs. cbn in *. lia.
      + do 8 (destruct l as [|? l]; [cbn in Hge; lia|]).
        apply Hl. apply IHn. cbn in Hlen. lia. }
  intros l. apply (Hn (length l) l). lia.
Qed.

Lemma words_short l : 0 < length l < 8 ->
  eight_bit_words l = [l ++ repeat false (8 - length l)].
Proof. intros H. do 8 (destruct l as [|? l]; [cbn in *; try lia; reflexivity|]). cbn in H. lia. Qed.

Definition unpack (byte : N) : list bool := map (get_bit byte) [7; 6; 5; 4; 3; 2; 1; 0]%N.

Lemma unpack_word a b c d e f g h :
  unpack (word_to_byte [a; b; c; d; e; f; g; h]) = [a; b; c; d; e; f; g; h] /\
  (word_to_byte [a; b; c; d; e; f; g; h] < 256)%N.
Proof. destruct a, b, c, d, e, f, g, h; vm_compute; split; reflexivity. Qed.

Lemma unpack_words l :
  (exists n, bytes_to_bitstream (map word_to_byte (eight_bit_words l)) = l ++ repeat false n) /\
  is_bytes (map word_to_byte (eight_bit_words l)).
Proof.
  induction l as [|l Hl|a b c d e f g h l [[n IH] IHb]] using eight_ind.
  - split; [exists 0; reflexivity|constructor].
  - rewrite words_short by exact Hl.
    assert (Hx : exists a b c d e f g h, l ++ repeat false (8 - length l) = [a; b; c; d; e; f; g; h]).
    { do 8 (destruct l as [|? l]; [cbn in *; try lia; repeat eexists|]). cbn in Hl; lia. }
    destruct Hx as (a & b & c & d & e & f & g & h & Hx).
    destruct (unpack_word a b c d e f g h) as [Hu Hb].
    split.
    + exists (8 - length l). cbn [map]. unfold bytes_to_bitstream. cbn [flat_map].
      rewrite Hx at 1. fold (unpack (word_to_byte [a; b; c; d; e; f; g; h])).
      rewrite Hu, app_nil_r. symmetry. exact Hx.
    + cbn [map]. rewrite Hx. constructor; [exact Hb|constructor].
  - destruct (unpack_word a b c d e f g h) as [Hu Hb]. split.
    + exists n. cbn [eight_bit_words map]. unfold bytes_to_bitstream in *. cbn [flat_map].
      fold (unpack (word_to_byte [a; b; c; d; e; f; g; h])). rewrite Hu, IH. reflexivity.
    + cbn [eight_bit_words map]. constructor; assumption.
Qed.

Lemma bit_at_pad l n i : bit_at (l ++ repeat false n) i = bit_at l i.
Proof.
  unfold bit_at. destruct (Nat.lt_ge_cases i (length l)) as [H|H].
  - apply app_nth1. exact H.
  - rewrite app_nth2, (nth_overflow l) by exact H.
    destruct (Nat.lt_ge_cases (i - length l) n) as [H2|H2].
    + apply nth_repeat.
    + apply nth_overflow. rewrite repeat_length. exact H2.
Qed.

Lemma of_bits_iter l : same_bits (bf_iter (of_bits l)) l.
Proof.
  intros i. unfold bit_at, bf_iter, of_bits. cbn [bf_bytes].
  unfold bitstream_to_bytes. rewrite nth_flat_map_byte, byte_bit_rstrip0, <- nth_flat_map_byte.
  destruct (unpack_words l) as [[n Hn] _]. rewrite Hn. apply bit_at_pad.
Qed.

Definition bf_wf (x : bitflags) : Prop :=
  is_bytes (bf_bytes x) /\ rstrip0 (bf_bytes x) = bf_bytes x.

Lemma of_bits_wf l : bf_wf (of_bits l).
Proof.
  split; cbn.
  - apply rstrip0_bytes. apply unpack_words.
  - apply rstrip0_idem.
Qed.

Lemma of_bytes_wf bs : is_bytes bs -> bf_wf (of_bytes bs).
Proof. intros H. split; cbn; [apply rstrip0_bytes; exact H|apply rstrip0_idem]. Qed.

Lemma bf_iter_length x : length (bf_iter x) = bf_len x.
Proof. apply length_bitstream. Qed.

Lemma bf_tight x : bf_wf x -> tight_length (bf_len x) (bf_iter x).
Proof.
  intros [Hb Hs]. split; [|split].
  - exists (length (bf_bytes x)). unfold bf_len. lia.
  - intros i Hi. rewrite <- bf_iter_length. unfold bit_at in Hi.
    destruct (Nat.lt_ge_cases i (length (bf_iter x))) as [H|H]; [exact H|].
    rewrite nth_overflow in Hi by exact H. discriminate.
  - destruct (rstrip0_last (bf_bytes x)) as [H|[l [b [H Hne]]]]; rewrite Hs in H.
    + left. unfold bf_len. rewrite H. reflexivity.
    + right. unfold bf_len, bf_iter. rewrite H, app_length. cbn [length].
      assert (Hlt : (b < 256)%N).
      { rewrite H in Hb. unfold is_bytes in Hb. apply Forall_app in Hb.
        destruct Hb as [_ Hb]. inversion Hb; assumption. }
      assert (exists k, k < 8 /\ N.testbit b (N.of_nat (7 - k)) = true) as [k [Hk Hbit]].
      { destruct (forallb (fun k => negb (N.testbit b (N.of_nat (7 - k)))) (seq 0 8)) eqn:E.
        - exfalso. apply Hne. apply byte_ext; [exact Hlt|reflexivity|].
          intros k Hk. rewrite N.bits_0. rewrite forallb_forall in E.
          specialize (E k). rewrite in_seq in E. specialize (E ltac:(lia)).
          destruct (N.testbit b _); [discriminate|reflexivity].
        - assert (exists k, In k (seq 0 8) /\ negb (N.testbit b (N.of_nat (7 - k))) = false) as [k [Hin Hk]].
          { clear -E. induction (seq 0 8) as [|k ks IH]; [discriminate|]. cbn in E.
            apply andb_false_iff in E. destruct E as [E|E].
            - exists k. split; [left; reflexivity|exact E].
            - destruct (IH E) as [k' [H1 H2]]. exists k'. split; [right; exact H1|exact H2]. }
          rewrite in_seq in Hin. exists k. split; [lia|].
          destruct (N.testbit b _); [reflexivity|discriminate]. }
      exists (8 * length l + k). split; [lia|].
      unfold bit_at. rewrite nth_flat_map_byte. unfold byte_bit.
      replace ((8 * length l + k) / 8) with (length l) by lia.
      replace ((8 * length l + k) mod 8) with k by lia.
      rewrite nth_middle. exact Hbit.
Qed.

Lemma bf_eqb_spec x y : bf_wf x -> bf_wf y ->
  (bf_eqb x y = true <-> same_bits (bf_iter x) (bf_iter y)).
Proof.
  intros [Hx Sx] [Hy Sy]. unfold bf_eqb. rewrite bytes_eqb_iff. split.
  - intros H i. unfold bf_iter. rewrite H. reflexivity.
  - intros H. rewrite <- Sx, <- Sy. apply stripped_eq. apply stripped_ext; auto.
    intros i. specialize (H i). unfold bit_at, bf_iter in H.
    rewrite !nth_flat_map_byte in H. exact H.
Qed.

Lemma bf_eqb_iterable_spec x l : bf_wf x ->
  (bf_eqb_iterable x l = true <-> same_bits (bf_iter x) l).
Proof.
  intros Hx. change (bf_eqb_iterable x l) with (bf_eqb x (of_bits l)).
  rewrite (bf_eqb_spec x (of_bits l) Hx (of_bits_wf l)). pose proof (of_bits_iter l) as H.
  split; intros H2 i; rewrite H2; [apply H|symmetry; apply H].
Qed.

Lemma of_bytes_round x : bf_wf x -> of_bytes (bf_to_bytes x) = x.
Proof. intros [_ Hs]. destruct x as [b]. unfold of_bytes, bf_to_bytes. cbn in *. rewrite Hs. reflexivity. Qed.

Lemma of_bytes_iter bs i : bit_at (bf_iter (of_bytes bs)) i = byte_bit bs i.
Proof.
  unfold bit_at, bf_iter, of_bytes. cbn [bf_bytes].
  rewrite nth_flat_map_byte, byte_bit_rstrip0. reflexivity.
Qed.

Lemma getitem_spec x i :
  bf_getitem x i =
    let n := Z.of_nat (length (bf_iter x)) in
    if (0 <=? i)%Z && (i <? n)%Z then Ok (bit_at (bf_iter x) (Z.to_nat i))
    else if (- n <=? i)%Z && (i <? 0)%Z then Ok (bit_at (bf_iter x) (Z.to_nat (n + i)))
    else Err IndexError.
Proof.
  cbv zeta. rewrite bf_iter_length. unfold bf_getitem.
  assert (Hin : forall j, (0 <= j < Z.of_nat (bf_len x))%Z ->
    match nth_error (bf_bytes x) (Z.to_nat (j / 8)) with
    | None => Err IndexError
    | Some byte => Ok (get_bit byte (Z.to_N (7 - j mod 8)))
    end = Ok (bit_at (bf_iter x) (Z.to_nat j))).
  { intros j Hj. unfold bit_at, bf_iter. rewrite nth_flat_map_byte. unfold byte_bit.
    unfold bf_len in Hj.
    assert (Hlt : Z.to_nat (j / 8) < length (bf_bytes x)) by lia.
    rewrite (nth_error_nth' _ 0%N Hlt).
    rewrite get_bit_testbit.
    replace (Z.to_nat j / 8) with (Z.to_nat (j / 8)) by lia.
    replace (Z.to_N (7 - j mod 8)) with (N.of_nat (7 - Z.to_nat j mod 8)) by lia. reflexivity. }
  destruct (Z.ltb_spec i 0) as [Hi|Hi].
  - destruct (Z.leb_spec 0 i); [lia|]. cbn [andb].
    destruct (Z.leb_spec 0 (Z.of_nat (bf_len x) + i)) as [H1|H1]; cbn [andb negb].
    + destruct (Z.ltb_spec (Z.of_nat (bf_len x) + i) (Z.of_nat (bf_len x))); [|lia]. cbn [negb].
      destruct (Z.leb_spec (- Z.of_nat (bf_len x)) i); [|lia]. cbn [andb].
      apply Hin. lia.
    + destruct (Z.leb_spec (- Z.of_nat (bf_len x)) i); [lia|]. reflexivity.
  - destruct (Z.leb_spec 0 i); [|lia]. cbn [andb].
    destruct (Z.ltb_spec i (Z.of_nat (bf_len x))) as [H1|H1]; cbn [negb].
    + apply Hin. lia.
    + destruct (_ <=? i)%Z; reflexivity.
Qed.

Lemma nth_zip_or a : forall b k, nth k (zip_or a b) 0%N = N.lor (nth k a 0%N) (nth k b 0%N).
Proof.
  induction a as [|x a IH]; intros b k.
  - cbn. destruct k; reflexivity.
  - destruct b as [|y b]; cbn [zip_or].
    + destruct k; cbn [nth]; rewrite N.lor_0_r; reflexivity.
    + destruct k; cbn [nth]; [reflexivity|apply IH].
Qed.

Lemma or_spec x y i :
  bit_at (bf_iter (bf_or x y)) i = bit_at (bf_iter x) i || bit_at (bf_iter y) i.
Proof.
  unfold bf_or. rewrite of_bytes_iter. unfold bit_at, bf_iter. rewrite !nth_flat_map_byte.
  unfold byte_bit. rewrite nth_zip_or, N.lor_spec. reflexivity.
Qed.

Lemma zip_or_bytes a : forall b, is_bytes a -> is_bytes b -> is_bytes (zip_or a b).
Proof.
  induction a as [|x a IH]; intros b Ha Hb; [exact Hb|].
  destruct b as [|y b]; [exact Ha|]. cbn.
  inversion Ha; inversion Hb; subst. constructor; [|apply IH; assumption].
  assert (Hz : forall n z, (z < 256)%N -> (8 <= n)%N -> N.testbit z n = false).
  { intros n z Hz Hn. destruct (N.eq_dec z 0) as [->|Hnz]; [apply N.bits_0|].
    apply N.bits_above_log2. apply N.log2_lt_pow2; [lia|].
    apply N.lt_le_trans with (2 ^ 8)%N; [exact Hz|]. apply N.pow_le_mono_r; lia. }
  destruct (N.eq_dec (N.lor x y) 0) as [->|Hne]; [lia|].
  change 256%N with (2 ^ 8)%N. apply N.log2_lt_pow2; [lia|].
  destruct (N.lt_ge_cases (N.log2 (N.lor x y)) 8) as [H|H]; [exact H|].
  exfalso. pose proof (N.bit_log2 _ Hne) as Hbit.
  rewrite N.lor_spec, !Hz in Hbit; auto. discriminate.
Qed.

Lemma bf_or_wf x y : bf_wf x -> bf_wf y -> bf_wf (bf_or x y).
Proof. intros [Hx _] [Hy _]. apply of_bytes_wf. apply zip_or_bytes; assumption. Qed.
