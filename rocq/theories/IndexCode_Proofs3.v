(** The shape of codes, and finding the column of codes. *)
From Coq Require Import NArith DecimalN HexadecimalN DecimalPos HexadecimalPos HexadecimalFacts ZifyBool ZifyN ZifyNat.
From Verif Require Import Prelude Selectors_Model IndexCode_Model IndexCode_Spec IndexCode_Proofs IndexCode_Proofs2.
Local Open Scope N_scope.

Fixpoint hlen (u : Hexadecimal.uint) : nat :=
  match u with
  | Hexadecimal.Nil => 0%nat
  | Hexadecimal.D0 u | Hexadecimal.D1 u | Hexadecimal.D2 u | Hexadecimal.D3 u | Hexadecimal.D4 u | Hexadecimal.D5 u
  | Hexadecimal.D6 u | Hexadecimal.D7 u | Hexadecimal.D8 u | Hexadecimal.D9 u | Hexadecimal.Da u | Hexadecimal.Db u
  | Hexadecimal.Dc u | Hexadecimal.Dd u | Hexadecimal.De u | Hexadecimal.Df u => S (hlen u)
  end.
Lemma hex_chars_length u : length (hex_chars u) = hlen u.
Proof. induction u; cbn [hex_chars length hlen]; auto. Qed.
Lemma hlen_acc u : forall p, Npos p * 16 ^ N.of_nat (hlen u) <= Npos (Pos.of_hex_uint_acc u p).
Proof.
  assert (St : forall v p q, (16 * Npos p <= Npos q) -> Npos q * 16 ^ N.of_nat (hlen v) <= Npos (Pos.of_hex_uint_acc v q) ->
    Npos p * 16 ^ N.of_nat (S (hlen v)) <= Npos (Pos.of_hex_uint_acc v q)).
  { intros v p q H1 H2. rewrite Nat2N.inj_succ, N.pow_succ_r'. eapply N.le_trans; [|exact H2]. nia. }
  induction u; intro p; [cbn; lia|..]; cbn [hlen Pos.of_hex_uint_acc]; (apply St; [lia | apply IHu]).
Qed.
Lemma hex_no_leading_zero n : n = 0 \/ forall u, N.to_hex_uint n <> Hexadecimal.D0 u.
Proof.
  destruct n as [|p]; [auto|]. right. intros u E.
  pose proof (HexadecimalN.Unsigned.to_of (N.to_hex_uint (Npos p))) as T. rewrite HexadecimalN.Unsigned.of_to in T. rewrite E in T.
  unfold Hexadecimal.unorm in T. cbn [Hexadecimal.nzhead] in T.
  destruct (Hexadecimal.nzhead u) eqn:E2; try discriminate T.
  - injection T as ->. pose proof (HexadecimalN.Unsigned.of_to (Npos p)) as O. rewrite E in O. discriminate O.
  - exfalso. revert E2. clear. induction u; cbn [Hexadecimal.nzhead]; try discriminate. exact IHu.
Qed.
Lemma hlen_small n k : n < 16 ^ N.succ (N.of_nat k) -> (hlen (N.to_hex_uint n) <= S k)%nat.
Proof.
  intro H. destruct (hex_no_leading_zero n) as [-> | Nz]; [cbn; lia|].
  pose proof (HexadecimalN.Unsigned.of_to n) as O. destruct (N.to_hex_uint n) as [|u|u|u|u|u|u|u|u|u|u|u|u|u|u|u|u]; [cbn; lia | destruct (Nz u eq_refl) | ..];
  cbn [hlen]; apply le_n_S; cbn [N.of_hex_uint Pos.of_hex_uint] in O;
  (match type of O with Npos (Pos.of_hex_uint_acc _ ?q) = _ => pose proof (hlen_acc u q) as A end; rewrite O in A;
   destruct (Nat.le_gt_cases (hlen u) k) as [L|L]; [exact L|]; exfalso;
   assert (16 ^ N.succ (N.of_nat k) <= 16 ^ N.of_nat (hlen u)) by (apply N.pow_le_mono_r; lia); nia).
Qed.
Lemma format_08X_length n : n < 2 ^ 32 -> length (format_08X n) = 8%nat.
Proof.
  intro H. unfold format_08X. rewrite app_length, repeat_length.
  assert (L : (length (hex_chars (N.to_hex_uint n)) <= 8)%nat) by (rewrite hex_chars_length; apply (hlen_small n 7); exact H).
  lia.
Qed.
Lemma dec_no_leading_zero n : n = 0 \/ hd 0 (dec_chars (N.to_uint n)) <> 48.
Proof.
  destruct n as [|p]; [auto|]. right. intro H.
  assert (exists u, N.to_uint (Npos p) = Decimal.D0 u) as [u E].
  { destruct (N.to_uint (Npos p)) as [|u|u|u|u|u|u|u|u|u|u]; cbn [dec_chars hd] in H; try discriminate H. eauto. }
  pose proof (DecimalN.Unsigned.to_of (N.to_uint (Npos p))) as T. rewrite DecimalN.Unsigned.of_to in T. rewrite E in T.
  unfold Decimal.unorm in T. cbn [Decimal.nzhead] in T.
  destruct (Decimal.nzhead u) eqn:E2; try discriminate T.
  - injection T as ->. pose proof (DecimalN.Unsigned.of_to (Npos p)) as O. rewrite E in O. discriminate O.
  - exfalso. revert E2. clear. induction u; cbn [Decimal.nzhead]; try discriminate. exact IHu.
Qed.

Theorem code_shape i u t : byte_list u -> index_id_to_code i u = Ok t ->
  exists sign ds hs, t = sign ++ ds ++ [88] ++ hs /\ (sign = if (i <? 0)%Z then [45] else []) /\
    Forall dec_digit ds /\ ds <> [] /\ (hd 0 ds = 48 -> i = 0%Z) /\ Forall hex_digit hs /\ length hs = 8%nat.
Proof.
  intros Hu H. destruct (code_inv i u t H Hu) as (F & l & P & B & ->).
  exists (if (i <? 0)%Z then [45] else []), (dec_chars (N.to_uint (Z.abs_N i))), (format_08X (crc32 (l ++ u))).
  split; [unfold format_dec; rewrite <- app_assoc; reflexivity|]. split; [reflexivity|]. split; [apply dec_chars_digits|].
  split; [apply dec_nonempty|]. split.
  - intro E. destruct (dec_no_leading_zero (Z.abs_N i)); [lia | congruence].
  - split; [apply (format_08X_chars (fun _ => None))|]. exact (format_08X_length (crc32 (l ++ u)) (crc32_small (l ++ u) (proj2 (byte_list_app l u) (conj B Hu)))).
Qed.
Theorem code_fits i u t : index_id_to_code i u = Ok t -> fits i.
Proof.
  intro H. destruct (fits_dec i) as [F|F]; [exact F|]. unfold index_id_to_code in H. rewrite pack_err in H by exact F. discriminate.
Qed.
Theorem code_overflow i u : ~ fits i -> index_id_to_code i u = Err StructError.
Proof. intro F. unfold index_id_to_code. rewrite pack_err by exact F. reflexivity. Qed.

Section Pos.
Local Open Scope nat_scope.
Context (todecimal : N -> option N).
Context (u : list N).
Notation is_code := (fun t => is_index_code todecimal t u).

Lemma is_code_iff t : is_code t = Ok true <-> exists i, index_code_to_id todecimal t u = Ok i.
Proof.
  unfold is_index_code. destruct (index_code_to_id todecimal t u) as [i|e] eqn:E; [split; [eauto | reflexivity]|].
  split; [|intros [i H]; discriminate]. destruct (code_errors _ _ _ _ E) as [-> | ->]; discriminate.
Qed.

Context (f : text -> bool).
(** The number of rows with a code at a position. *)
Definition code_at (p : nat) (row : list text) : nat :=
  match nth_error row p with Some c => if f c then 1 else 0 | None => 0 end.
Definition codes_at (p : nat) (rows : list (list text)) : nat := fold_right (fun row n => code_at p row + n) 0 rows.
Definition decided (row : list text) : Prop := Forall (fun c => is_code c = Ok (f c)) row.
Definition at_ (counter : list nat) p : nat := nth p counter 0.

Lemma count_row_ok row : decided row -> forall counter, exists counter', count_row todecimal counter row u = Ok counter' /\
  forall p, at_ counter' p = at_ counter p + code_at p row.
Proof.
  induction 1 as [|c row Hc _ IH]; intro counter; cbn [count_row].
  - exists counter. split; [reflexivity|]. intro p. unfold code_at. destruct p; cbn [nth_error]; lia.
  - rewrite Hc. cbn [bind]. destruct counter as [|n counter].
    + destruct (IH []) as (k' & -> & Hk). cbn [bind]. eexists. split; [reflexivity|]. intros [|p].
      * cbn. unfold code_at. cbn. destruct (f c); reflexivity.
      * change (at_ k' p = at_ [] (S p) + code_at p row). rewrite Hk. unfold at_. destruct p; reflexivity.
    + destruct (IH counter) as (k' & -> & Hk). cbn [bind]. eexists. split; [reflexivity|]. intros [|p].
      * cbn. unfold code_at. cbn. destruct (f c); reflexivity.
      * change (at_ k' p = at_ counter p + code_at p row). apply Hk.
Qed.
Lemma count_rows_ok rows : Forall decided rows -> forall counter, exists counter', count_rows todecimal counter rows u = Ok counter' /\
  forall p, at_ counter' p = at_ counter p + codes_at p rows.
Proof.
  induction 1 as [|row rows Hr _ IH]; intro counter; cbn [count_rows].
  - exists counter. split; [reflexivity|]. intro p. cbn [codes_at fold_right]. lia.
  - destruct (count_row_ok row Hr counter) as (k & -> & Hk). cbn [bind]. destruct (IH k) as (k' & -> & Hk').
    exists k'. split; [reflexivity|]. intro p. rewrite Hk', Hk. change (codes_at p (row :: rows)) with (code_at p row + codes_at p rows). lia.
Qed.
Lemma positive_iff counter : forall base q, In q (positive_positions base counter) <-> exists p, q = base + p /\ 0 < at_ counter p.
Proof.
  induction counter as [|n counter IH]; intros base q; cbn [positive_positions].
  - split; [intros [] | intros ([|p] & _ & H); cbn in H; lia].
  - rewrite in_app_iff, IH. split.
    + intros [H | (p & -> & Hp)].
      * destruct (Nat.ltb_spec 0 n) as [L|L]; [|destruct H]. destruct H as [<-|[]]. exists 0. split; [lia | exact L].
      * exists (S p). split; [lia | exact Hp].
    + intros ([|p] & -> & Hp); cbn in Hp.
      * left. destruct (Nat.ltb_spec 0 n); [left; lia | lia].
      * right. exists p. split; [lia | exact Hp].
Qed.
Lemma positive_nodup counter : forall base, NoDup (positive_positions base counter).
Proof.
  induction counter as [|n counter IH]; intro base; cbn [positive_positions]; [constructor|].
  destruct (0 <? n); [|apply IH]. constructor; [|apply IH]. intro H. apply positive_iff in H. destruct H as (p & E & _). lia.
Qed.
Lemma codes_pos rows p : 0 < codes_at p rows <-> has_code f rows p.
Proof.
  unfold has_code. induction rows as [|row rows IH]; cbn [codes_at fold_right].
  - split; [lia | intros (r & c & [] & _)].
  - fold (codes_at p rows). split.
    + intro H. destruct (code_at p row) eqn:E.
      * destruct (proj1 IH) as (r & c & Hr & Hc); [lia|]. exists r, c. split; [right; exact Hr | exact Hc].
      * unfold code_at in E. destruct (nth_error row p) as [c|] eqn:En; [|discriminate]. destruct (f c) eqn:Ef; [|discriminate].
        exists row, c. split; [left; reflexivity | auto].
    + intros (r & c & [-> | Hr] & Hn & Hf).
      * unfold code_at. rewrite Hn, Hf. lia.
      * assert (0 < codes_at p rows) by (apply IH; exists r, c; auto). lia.
Qed.
Theorem position_iff rows : Forall decided rows ->
  (forall p, get_index_code_position todecimal rows u = Ok p <-> has_code f rows p /\ forall q, has_code f rows q -> q = p) /\
  (forall e, get_index_code_position todecimal rows u = Err e -> e = RuntimeError).
Proof.
  intro H. destruct (count_rows_ok rows H []) as (k & E & Hk). unfold get_index_code_position. rewrite E. cbn [bind].
  assert (M : forall q, In q (positive_positions 0 k) <-> has_code f rows q).
  { intro q. rewrite positive_iff. rewrite <- codes_pos. split.
    - intros (p & -> & Hp). rewrite Hk in Hp. unfold at_ in Hp. destruct p; exact Hp.
    - intro Hq. exists q. split; [reflexivity|]. rewrite Hk. lia. }
  pose proof (positive_nodup k 0) as Nd. destruct (positive_positions 0 k) as [|p [|p' l]] eqn:Ep.
  - split; [|intros e He; congruence]. intro p. split; [discriminate|]. intros [Hp _]. apply M in Hp. destruct Hp.
  - split; [|intros e He; congruence]. intro q. split.
    + intro Hq. injection Hq as ->. split; [apply M; left; reflexivity|]. intros q' Hq'. apply M in Hq'. destruct Hq' as [->|[]]. reflexivity.
    + intros [Hq _]. apply M in Hq. destruct Hq as [->|[]]. reflexivity.
  - split; [|intros e He; congruence]. intro q. split; [discriminate|]. intros [_ Hu]. exfalso.
    assert (p = p') as -> by (rewrite (Hu p), (Hu p') by (apply M; cbn; auto); reflexivity).
    inversion_clear Nd as [|? ? Ni _]. apply Ni. left. reflexivity.
Qed.
End Pos.
