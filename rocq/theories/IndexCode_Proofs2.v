(** Reading and writing of integers, and the theorems about codes. *)
From Coq Require Import NArith DecimalN HexadecimalN DecimalPos HexadecimalPos ZifyBool ZifyN ZifyNat.
From Verif Require Import Prelude Selectors_Model IndexCode_Model IndexCode_Spec IndexCode_Proofs.
Local Open Scope N_scope.

Ltac bdestruct_all :=
  repeat match goal with
  | |- context [(?a <=? ?b)] => destruct (N.leb_spec a b)
  | |- context [(?a <? ?b)] => destruct (N.ltb_spec a b)
  | |- context [(?a =? ?b)] => destruct (N.eqb_spec a b)
  end; cbn [andb orb].

Lemma digit_value_iff c d : digit_value c = Some d <-> digit_of c d.
Proof.
  unfold digit_value, digit_of. bdestruct_all; split; intro H'; try (injection H' as <-); try discriminate; try lia; f_equal; lia.
Qed.
Lemma is_digit_iff base c : is_digit base c = true <-> exists d, digit_of c d /\ d < base.
Proof.
  unfold is_digit. split.
  - destruct (digit_value c) as [d|] eqn:E; [|discriminate]. intro H. exists d. split; [apply digit_value_iff, E | lia].
  - intros (d & H & L). apply digit_value_iff in H. rewrite H. lia.
Qed.
Lemma digit_not c d : digit_of c d -> c <> 95 /\ c <> 43 /\ c <> 45 /\ c_space c = false.
Proof. unfold digit_of, c_space. intro H. repeat split; try lia. Qed.

(** *** Scanning *)
Lemma scan_sound base s : forall pu acc n rest t0, scan_digits base pu acc s = Some (n, rest) -> numeral base t0 acc ->
  exists ds, s = ds ++ rest /\ numeral base (t0 ++ (if pu then [95] else []) ++ ds) n.
Proof.
  induction s as [|c s IH]; intros pu acc n rest t0 H Ht; cbn [scan_digits] in H.
  - destruct pu; [discriminate|]. injection H as <- <-. exists []. cbn. rewrite app_nil_r. auto.
  - destruct (N.eqb_spec c 95) as [->|N95].
    + destruct pu; [discriminate|]. destruct (IH true _ _ _ _ H Ht) as (ds & -> & Hn). exists (95 :: ds). auto.
    + destruct (is_digit base c) eqn:D.
      * destruct (proj1 (is_digit_iff _ _) D) as (d & Dd & Ld). pose proof (proj2 (digit_value_iff _ _) Dd) as Ev. rewrite Ev in H.
        assert (Hn' : numeral base (t0 ++ (if pu then [95] else []) ++ [c]) (acc * base + d)).
        { destruct pu; [apply (num_under base t0) | apply (num_more base t0)]; assumption. }
        destruct (IH false _ _ _ _ H Hn') as (ds & -> & Hn). exists (c :: ds). split; [reflexivity|].
        rewrite <- !app_assoc in Hn. exact Hn.
      * destruct pu; [discriminate|]. injection H as <- <-. exists []. cbn. rewrite app_nil_r. auto.
Qed.
Lemma scan_complete base t n : numeral base t n -> forall more, scan_digits base false 0 (t ++ more) = scan_digits base false n more.
Proof.
  assert (step : forall c d acc pu more, digit_of c d -> d < base ->
    scan_digits base pu acc (c :: more) = scan_digits base false (acc * base + d) more).
  { intros c d acc pu more Hd L. cbn [scan_digits]. destruct (digit_not c d Hd) as (N95 & _). apply N.eqb_neq in N95. rewrite N95.
    rewrite (proj2 (is_digit_iff base c)) by eauto. rewrite (proj2 (digit_value_iff c d) Hd). reflexivity. }
  induction 1 as [c d Hd L | t n c d Ht IH Hd L | t n c d Ht IH Hd L]; intro more.
  - change ([c] ++ more) with (c :: more). rewrite (step c d) by assumption. reflexivity.
  - rewrite <- app_assoc, IH. apply step; assumption.
  - rewrite <- app_assoc, IH. change ([95; c] ++ more) with (95 :: c :: more).
    change (scan_digits base false n (95 :: c :: more)) with (scan_digits base true n (c :: more)). apply step; assumption.
Qed.
Lemma scan_stop base n s : match s with [] => True | c :: _ => is_digit base c = false /\ c <> 95 end -> scan_digits base false n s = Some (n, s).
Proof. destruct s as [|c s]; [reflexivity|]. intros [D N]. cbn. apply N.eqb_neq in N. rewrite N, D. reflexivity. Qed.
Lemma numeral_head base t n : numeral base t n -> exists c r, t = c :: r /\ is_digit base c = true /\
  match r with [] => True | x :: _ => is_digit base x = true \/ x = 95 end.
Proof.
  induction 1 as [c d Hd L | t n c d Ht (c0 & r & -> & D & M) Hd L | t n c d Ht (c0 & r & -> & D & M) Hd L].
  - exists c, []. split; [reflexivity|]. split; [apply is_digit_iff; eauto | exact I].
  - exists c0, (r ++ [c]). split; [reflexivity|]. split; [exact D|]. destruct r; cbn; [|exact M]. left. apply is_digit_iff. eauto.
  - exists c0, (r ++ [95; c]). split; [reflexivity|]. split; [exact D|]. destruct r; cbn; [|exact M]. right. reflexivity.
Qed.

Lemma space_iff c : c_space c = true <-> 9 <= c <= 13 \/ c = 32.
Proof. unfold c_space. bdestruct_all; split; intro; try reflexivity; try discriminate; lia. Qed.
Lemma skip_split s : exists a, s = a ++ skip_spaces s /\ blank a /\ match skip_spaces s with [] => True | c :: _ => c_space c = false end.
Proof.
  induction s as [|c s (a & E & B & M)].
  - exists []. repeat split. constructor.
  - cbn [skip_spaces]. destruct (c_space c) eqn:S.
    + exists (c :: a). split; [cbn; rewrite <- E; reflexivity|]. split; [|exact M]. constructor; [apply space_iff, S | exact B].
    + exists []. split; [reflexivity|]. split; [constructor | exact S].
Qed.
Lemma skip_blank a s : blank a -> skip_spaces (a ++ s) = skip_spaces s.
Proof. induction 1 as [|c a Hc _ IH]; [reflexivity|]. cbn [app skip_spaces]. rewrite (proj2 (space_iff c) Hc). exact IH. Qed.
Lemma skip_none s : match s with [] => True | c :: _ => c_space c = false end -> skip_spaces s = s.
Proof. destruct s as [|c s]; [reflexivity|]. intro H. cbn. rewrite H. reflexivity. Qed.

Definition ascii (t : text) : Prop := Forall (fun c => c < 127) t.
Section Int.
Context (todecimal : N -> option N).
Notation py_int := (py_int todecimal).
Notation to_ascii := (to_ascii todecimal).
Lemma ascii_id t : ascii t -> map to_ascii t = t.
Proof.
  induction 1 as [|c t Hc _ IH]; [reflexivity|]. cbn [map]. rewrite IH. f_equal. unfold IndexCode_Model.to_ascii.
  apply N.ltb_lt in Hc. rewrite Hc. reflexivity.
Qed.

Lemma py_int_sound base t z : base = 10 \/ base = 16 -> ascii t -> py_int base t = Some z -> literal base t z.
Proof.
  intros Hb Ha H. unfold IndexCode_Model.py_int in H. rewrite (ascii_id t Ha) in H.
  destruct (skip_split t) as (a & Et & Ba & _). revert H. generalize dependent (skip_spaces t). intros s1 Et H. subst t. clear Ha.
  destruct (read_sign s1) as [neg s2] eqn:Es.
  assert (Sg : exists sign, s1 = sign ++ s2 /\ (sign = [] \/ sign = [43] \/ sign = [45]) /\ neg = (if list_eq_dec N.eq_dec sign [45] then true else false)).
  { unfold read_sign in Es. destruct s1 as [|c s1']; [injection Es as <- <-; exists []; auto|].
    destruct (N.eqb_spec c 43) as [->|]; [injection Es as <- <-; exists [43]; auto|].
    destruct (N.eqb_spec c 45) as [->|]; injection Es as <- <-; [exists [45]; auto | exists []; auto]. }
  destruct Sg as (sign & -> & Hsign & ->). clear Es.
  assert (Pr : exists pre u, s2 = pre ++ u ++ skip_prefix base s2 /\
    ((pre = [] /\ u = []) \/ (base = 16 /\ (pre = [48; 120] \/ pre = [48; 88]) /\ (u = [] \/ u = [95])))).
  { unfold skip_prefix. destruct s2 as [|c [|x s']]; [exists [], []; auto .. |].
    destruct (N.eqb_spec base 16) as [B|B]; [|exists [], []; auto]. destruct (N.eqb_spec c 48) as [->|]; [|exists [], []; auto].
    cbn [andb]. destruct (N.eqb_spec x 120) as [->|]; [|destruct (N.eqb_spec x 88) as [->|]; [|exists [], []; auto]]; cbn [orb].
    - destruct s' as [|y s'']; [exists [48; 120], []; auto 10|]. unfold drop_underscore. destruct (N.eqb_spec y 95) as [->|].
      + exists [48; 120], [95]. auto 10.
      + exists [48; 120], []. auto 10.
    - destruct s' as [|y s'']; [exists [48; 88], []; auto 10|]. unfold drop_underscore. destruct (N.eqb_spec y 95) as [->|].
      + exists [48; 88], [95]. auto 10.
      + exists [48; 88], []. auto 10. }
  destruct Pr as (pre & u & E2 & Hpre). revert H E2. generalize (skip_prefix base s2). intros s3 H ->.
  destruct s3 as [|c s3]; [discriminate|]. destruct (is_digit base c) eqn:D; [|discriminate].
  destruct (scan_digits base false 0 (c :: s3)) as [[n rest]|] eqn:Sc; [|discriminate].
  destruct (skip_split rest) as (b & Er & Bb & _). destruct (skip_spaces rest) as [|]; [|discriminate]. rewrite app_nil_r in Er. subst rest.
  cbn [scan_digits] in Sc. destruct (proj1 (is_digit_iff _ _) D) as (d & Dd & Ld). destruct (digit_not c d Dd) as (N95 & _).
  apply N.eqb_neq in N95. rewrite N95, D, (proj2 (digit_value_iff c d) Dd) in Sc. change (0 * base + d) with d in Sc.
  destruct (scan_sound _ _ _ _ _ _ [c] Sc (num_digit base c d Dd Ld)) as (ds & -> & Hn).
  injection H as <-. exists a, sign, pre, u, (c :: ds), b, n.
  split; [reflexivity|]. split; [exact Ba|]. split; [exact Bb|]. split; [exact Hsign|]. split; [exact Hpre|].
  split; [exact Hn|]. destruct (list_eq_dec N.eq_dec sign [45]); reflexivity.
Qed.

Lemma blank_head b : blank b -> match b with [] => True | c :: _ => is_digit 10 c = false /\ is_digit 16 c = false /\ c <> 95 /\ c <> 120 /\ c <> 88 end.
Proof.
  destruct b as [|c b]; [trivial|]. intro H. inversion_clear H as [|? ? Hc _].
  assert (digit_value c = None) as V by (unfold digit_value; bdestruct_all; try reflexivity; lia).
  unfold is_digit. rewrite V. repeat split; lia.
Qed.
Lemma py_int_complete base t z : base = 10 \/ base = 16 -> ascii t -> literal base t z -> py_int base t = Some z.
Proof.
  intros Hb Ha (a & sign & pre & u & ds & b & n & -> & Ba & Bb & Hsign & Hpre & Hn & ->).
  unfold IndexCode_Model.py_int. rewrite (ascii_id _ Ha). clear Ha. rewrite skip_blank by exact Ba.
  destruct (numeral_head _ _ _ Hn) as (c & r & Ed & D & M).
  assert (Dig : exists d, digit_of c d /\ d < base) by (apply is_digit_iff, D). destruct Dig as (d & Dd & Ld).
  destruct (digit_not c d Dd) as (N95 & N43 & N45 & Nsp).
  assert (Nosp : match sign ++ pre ++ u ++ ds ++ b with [] => True | x :: _ => c_space x = false end).
  { destruct Hsign as [->|[->| ->]]; [|reflexivity ..]. destruct Hpre as [[-> ->]|(_ & [->| ->] & _)]; [|reflexivity ..].
    subst ds. exact Nsp. }
  rewrite skip_none by exact Nosp.
  assert (Sg : read_sign (sign ++ pre ++ u ++ ds ++ b) = ((if list_eq_dec N.eq_dec sign [45] then true else false), pre ++ u ++ ds ++ b)).
  { destruct Hsign as [->|[->| ->]]; [|reflexivity ..]. cbn [app list_eq_dec list_rec list_rect].
    destruct Hpre as [[-> ->]|(_ & [->| ->] & _)]; [|reflexivity ..]. subst ds. cbn [app]. unfold read_sign.
    apply N.eqb_neq in N43. apply N.eqb_neq in N45. rewrite N43, N45. reflexivity. }
  rewrite Sg.
  assert (Pr : skip_prefix base (pre ++ u ++ ds ++ b) = ds ++ b).
  { pose proof (blank_head b Bb) as Hbh. destruct Hpre as [[-> ->]|(-> & Hp & Hu)].
    - cbn [app]. subst ds. destruct Hb as [-> | ->].
      + cbn [app]. unfold skip_prefix. destruct (r ++ b); reflexivity.
      + assert (X : forall x s, r ++ b = x :: s -> x <> 120 /\ x <> 88).
        { intros x s E. destruct r as [|y r']; cbn [app] in E.
          - subst b. destruct Hbh as (_ & _ & _ & ? & ?). auto.
          - injection E as <- <-. destruct M as [M | ->]; [|split; discriminate].
            split; intros ->; discriminate M. }
        cbn [app]. unfold skip_prefix. destruct (r ++ b) as [|x s] eqn:E; [reflexivity|].
        destruct (X x s eq_refl) as [X1 X2]. apply N.eqb_neq in X1. apply N.eqb_neq in X2. rewrite X1, X2, Bool.andb_false_r. reflexivity.
    - assert (Du : drop_underscore (u ++ ds ++ b) = ds ++ b).
      { destruct Hu as [->| ->]; [|reflexivity]. subst ds. cbn [app]. unfold drop_underscore. apply N.eqb_neq in N95. rewrite N95. reflexivity. }
      destruct Hp as [->| ->]; exact Du. }
  rewrite Pr.
  replace (ds ++ b) with (c :: (r ++ b)) at 1 by (subst ds; reflexivity). rewrite D.
  replace (c :: r ++ b) with (ds ++ b) by (subst ds; reflexivity).
  rewrite (scan_complete _ _ _ Hn).
  rewrite scan_stop.
  - pose proof (skip_blank b [] Bb) as Sk. rewrite app_nil_r in Sk. rewrite Sk. cbn [skip_spaces].
    destruct (list_eq_dec N.eq_dec sign [45]); reflexivity.
  - pose proof (blank_head b Bb) as Hbh. destruct b as [|x b']; [exact I|]. destruct Hbh as (? & ? & ? & _).
    destruct Hb as [->| ->]; auto.
Qed.
Theorem py_int_iff base t z : base = 10 \/ base = 16 -> ascii t -> (py_int base t = Some z <-> literal base t z).
Proof. intros; split; [apply py_int_sound | apply py_int_complete]; assumption. Qed.

(** *** Formatting *)
Ltac scan_step :=
  match goal with |- scan_digits ?b false ?p (?c :: ?s) = scan_digits _ _ ?a _ =>
    let v := eval vm_compute in (digit_value c) in
    match v with Some ?d => transitivity (scan_digits b false (p * b + d) s); [reflexivity|];
      replace (p * b + d) with a by lia; reflexivity end end.
Lemma dec_scan_acc u : forall p, scan_digits 10 false (Npos p) (dec_chars u) = Some (Npos (Pos.of_uint_acc u p), []).
Proof.
  induction u as [|u IH|u IH|u IH|u IH|u IH|u IH|u IH|u IH|u IH|u IH]; intro p; [reflexivity|..];
    (etransitivity; [|apply IH]); cbn [dec_chars]; scan_step.
Qed.
Lemma dec_scan u : scan_digits 10 false 0 (dec_chars u) = Some (N.of_uint u, []).
Proof.
  induction u as [|u IH|u IH|u IH|u IH|u IH|u IH|u IH|u IH|u IH|u IH]; [reflexivity | exact IH | ..];
    exact (dec_scan_acc u _).
Qed.
Lemma hex_scan_acc u : forall p, scan_digits 16 false (Npos p) (hex_chars u) = Some (Npos (Pos.of_hex_uint_acc u p), []).
Proof.
  induction u as [|u IH|u IH|u IH|u IH|u IH|u IH|u IH|u IH|u IH|u IH|u IH|u IH|u IH|u IH|u IH|u IH]; intro p; [reflexivity|..];
    (etransitivity; [|apply IH]); cbn [hex_chars]; scan_step.
Qed.
Lemma hex_scan u : scan_digits 16 false 0 (hex_chars u) = Some (N.of_hex_uint u, []).
Proof.
  induction u as [|u IH|u IH|u IH|u IH|u IH|u IH|u IH|u IH|u IH|u IH|u IH|u IH|u IH|u IH|u IH|u IH]; [reflexivity | exact IH | ..];
    exact (hex_scan_acc u _).
Qed.
Lemma zeros_scan k s : scan_digits 16 false 0 (repeat 48 k ++ s) = scan_digits 16 false 0 s.
Proof. induction k as [|k IH]; [reflexivity|]. exact IH. Qed.

Definition dec_digit (c : N) : Prop := 48 <= c <= 57.
Definition hex_digit (c : N) : Prop := 48 <= c <= 57 \/ 65 <= c <= 70.
Lemma dec_chars_digits u : Forall dec_digit (dec_chars u).
Proof. induction u; cbn [dec_chars]; constructor; try assumption; unfold dec_digit; lia. Qed.
Lemma hex_chars_digits u : Forall hex_digit (hex_chars u).
Proof. induction u; cbn [hex_chars]; constructor; try assumption; unfold hex_digit; lia. Qed.
Lemma dec_nonempty n : dec_chars (N.to_uint n) <> [].
Proof.
  destruct n as [|p]; [discriminate|]. intro H.
  assert (E : N.to_uint (Npos p) = Decimal.Nil) by (destruct (N.to_uint (Npos p)); cbn in H; try discriminate; reflexivity).
  pose proof (DecimalN.Unsigned.of_to (Npos p)) as O. rewrite E in O. discriminate O.
Qed.
Lemma hex_nonempty n : hex_chars (N.to_hex_uint n) <> [].
Proof.
  destruct n as [|p]; [discriminate|]. intro H.
  assert (E : N.to_hex_uint (Npos p) = Hexadecimal.Nil) by (destruct (N.to_hex_uint (Npos p)); cbn in H; try discriminate; reflexivity).
  pose proof (HexadecimalN.Unsigned.of_to (Npos p)) as O. rewrite E in O. discriminate O.
Qed.
Lemma format_dec_chars i : Forall (fun c => c = 45 \/ dec_digit c) (format_dec i).
Proof.
  unfold format_dec. apply Forall_app. split; [destruct (i <? 0)%Z; repeat constructor|].
  eapply Forall_impl; [|apply dec_chars_digits]. cbn. auto.
Qed.
Lemma format_08X_chars n : Forall hex_digit (format_08X n).
Proof.
  unfold format_08X. apply Forall_app. split; [|apply hex_chars_digits]. apply Forall_forall. intros c Hc.
  apply repeat_spec in Hc. subst c. unfold hex_digit. lia.
Qed.
Lemma format_dec_ascii i : ascii (format_dec i).
Proof. eapply Forall_impl; [|apply format_dec_chars]. unfold dec_digit. cbn. lia. Qed.
Lemma format_08X_ascii n : ascii (format_08X n).
Proof. eapply Forall_impl; [|apply format_08X_chars]. unfold hex_digit. cbn. lia. Qed.

Lemma py_int_dec i : py_int 10 (format_dec i) = Some i.
Proof.
  unfold IndexCode_Model.py_int. rewrite (ascii_id _ (format_dec_ascii i)). unfold format_dec.
  pose proof (dec_scan (N.to_uint (Z.abs_N i))) as Sc. rewrite DecimalN.Unsigned.of_to in Sc.
  pose proof (dec_chars_digits (N.to_uint (Z.abs_N i))) as Dg. pose proof (dec_nonempty (Z.abs_N i)) as Ne.
  destruct (dec_chars (N.to_uint (Z.abs_N i))) as [|c s]; [congruence|].
  inversion_clear Dg as [|? ? Hc _]. unfold dec_digit in Hc.
  assert (Hsp : c_space c = false) by (unfold c_space; bdestruct_all; try reflexivity; lia).
  assert (Hdg : is_digit 10 c = true) by (apply is_digit_iff; exists (c - 48); unfold digit_of; lia).
  assert (N43 : (c =? 43) = false) by lia. assert (N45 : (c =? 45) = false) by lia.
  assert (Pf : skip_prefix 10 (c :: s) = c :: s) by (unfold skip_prefix; destruct s; reflexivity).
  destruct (Z.ltb_spec i 0) as [L|L]; cbn [app skip_spaces].
  - change (c_space 45) with false. cbn [read_sign]. change (45 =? 43) with false. change (45 =? 45) with true. cbv iota.
    rewrite Pf, Hdg, Sc. cbn [skip_spaces]. f_equal. lia.
  - rewrite Hsp. unfold read_sign. rewrite N43, N45. rewrite Pf, Hdg, Sc. cbn [skip_spaces]. f_equal. lia.
Qed.
Lemma py_int_hex n : py_int 16 (format_08X n) = Some (Z.of_N n).
Proof.
  unfold IndexCode_Model.py_int. rewrite (ascii_id _ (format_08X_ascii n)).
  assert (Sc : scan_digits 16 false 0 (format_08X n) = Some (n, [])).
  { unfold format_08X. rewrite zeros_scan, hex_scan, HexadecimalN.Unsigned.of_to. reflexivity. }
  pose proof (format_08X_chars n) as Dg.
  assert (Ne : format_08X n <> []) by (unfold format_08X; intro E; apply app_eq_nil in E; destruct E as [_ E]; revert E; apply hex_nonempty).
  destruct (format_08X n) as [|c s]; [congruence|]. inversion_clear Dg as [|? ? Hc Dg']. unfold hex_digit in Hc.
  assert (Hsp : c_space c = false) by (unfold c_space; bdestruct_all; try reflexivity; lia).
  assert (Hdg : is_digit 16 c = true).
  { apply is_digit_iff. destruct Hc; [exists (c - 48) | exists (c - 55)]; unfold digit_of; lia. }
  assert (N43 : (c =? 43) = false) by lia. assert (N45 : (c =? 45) = false) by lia.
  assert (Pf : skip_prefix 16 (c :: s) = c :: s).
  { unfold skip_prefix. destruct s as [|x s]; [reflexivity|]. inversion_clear Dg' as [|? ? Hx _]. unfold hex_digit in Hx.
    replace ((x =? 120) || (x =? 88)) with false by (symmetry; apply Bool.orb_false_intro; lia). rewrite Bool.andb_false_r. reflexivity. }
  cbn [skip_spaces]. rewrite Hsp. unfold read_sign. rewrite N43, N45, Pf, Hdg, Sc. reflexivity.
Qed.

Lemma partition_app d h : ~ In 88 d -> partition_X (d ++ 88 :: h) = (d, h).
Proof.
  induction d as [|c d IH]; intro H; [reflexivity|]. cbn [app partition_X].
  destruct (N.eqb_spec c 88) as [->|]; [exfalso; apply H; left; reflexivity|]. rewrite IH; [reflexivity|].
  intro Hi. apply H. right. exact Hi.
Qed.
Lemma partition_inv s : (exists d h, s = d ++ 88 :: h /\ ~ In 88 d /\ partition_X s = (d, h)) \/ (~ In 88 s /\ partition_X s = (s, [])).
Proof.
  induction s as [|c s IH]; [right; auto|]. cbn [partition_X]. destruct (N.eqb_spec c 88) as [->|Nc].
  - left. exists [], s. auto.
  - destruct IH as [(d & h & -> & Hd & E) | [Hs E]]; rewrite E.
    + left. exists (c :: d), h. split; [reflexivity|]. split; [|reflexivity]. intros [?|?]; auto.
    + right. split; [|reflexivity]. intros [?|?]; auto.
Qed.
Lemma format_dec_no_X i : ~ In 88 (format_dec i).
Proof. intro H. pose proof (format_dec_chars i) as F. rewrite Forall_forall in F. specialize (F 88 H). unfold dec_digit in F. lia. Qed.

Notation index_code_to_id := (index_code_to_id todecimal).

Theorem code_round_trip i u : fits i -> exists t, index_id_to_code i u = Ok t /\ index_code_to_id t u = Ok i.
Proof.
  intro H. destruct (pack_ok i H) as (l & P & _). unfold index_id_to_code. rewrite P. cbn [bind].
  eexists. split; [reflexivity|]. unfold IndexCode_Model.index_code_to_id. cbn [app].
  rewrite (partition_app _ _ (format_dec_no_X i)). rewrite py_int_dec, py_int_hex, P. cbn [bind]. rewrite Z.eqb_refl. reflexivity.
Qed.

Lemma code_inv i u t : index_id_to_code i u = Ok t -> byte_list u ->
  fits i /\ exists l, pack_i64_be i = Ok l /\ byte_list l /\ t = format_dec i ++ 88 :: format_08X (crc32 (l ++ u)).
Proof.
  intros H Hu. destruct (fits_dec i) as [F|F].
  - split; [exact F|]. destruct (pack_ok i F) as (l & P & B & _). unfold index_id_to_code in H. rewrite P in H. cbn [bind] in H.
    exists l. split; [exact P|]. split; [exact B|]. rewrite crc32_mask in H by (apply byte_list_app; auto). injection H as <-. reflexivity.
  - unfold index_id_to_code in H. rewrite pack_err in H by exact F. discriminate.
Qed.

(** What is accepted. *)
Theorem code_accepts t u i : ascii t -> byte_list u ->
  (index_code_to_id t u = Ok i <->
   exists d h l, t = d ++ 88 :: h /\ ~ In 88 d /\ literal 10 d i /\ literal 16 h (Z.of_N (crc32 (l ++ u))) /\
     byte_list l /\ length l = 8%nat /\ Z.of_N (be_value l) = (i mod 2 ^ 64)%Z /\ fits i).
Proof.
  intros Ha Hu. unfold IndexCode_Model.index_code_to_id. destruct (partition_inv t) as [(d & h & E & Hd & ->) | [Hs ->]].
  - assert (Ad : ascii d /\ ascii h).
    { subst t. apply Forall_app in Ha. destruct Ha as [A1 A2]. inversion_clear A2. auto. }
    destruct Ad as [Ad Ah]. split.
    + destruct (py_int 10 d) as [i'|] eqn:E1; [|discriminate]. destruct (py_int 16 h) as [k|] eqn:E2; [|discriminate].
      destruct (fits_dec i') as [F|F]; [|rewrite pack_err by exact F; discriminate].
      destruct (pack_ok i' F) as (l & -> & B & L & V). cbn [bind].
      rewrite crc32_mask by (apply byte_list_app; auto). destruct (Z.eqb_spec k (Z.of_N (crc32 (l ++ u)))) as [->|]; [|discriminate].
      intro H. injection H as <-. exists d, h, l. split; [exact E|]. split; [exact Hd|].
      split; [apply py_int_iff; auto|]. split; [apply py_int_iff; auto|]. auto.
    + intros (d' & h' & l & E' & Hd' & Ld & Lh & B & L & V & F).
      assert (d' = d /\ h' = h) as [-> ->].
      { rewrite E in E'. pose proof (partition_app d h Hd) as P1. pose proof (partition_app d' h' Hd') as P2.
        rewrite E' in P1. rewrite P1 in P2. injection P2 as -> ->. auto. }
      apply py_int_iff in Ld; [|auto ..]. apply py_int_iff in Lh; [|auto ..]. rewrite Ld, Lh.
      destruct (pack_ok i F) as (l' & -> & B' & L' & V').
      assert (l' = l) as -> by (apply be_value_inj; try assumption; lia).
      cbn [bind]. rewrite crc32_mask by (apply byte_list_app; auto). rewrite Z.eqb_refl. reflexivity.
  - split.
    + destruct (py_int 10 t); discriminate.
    + intros (d' & h' & l & E' & _). exfalso. apply Hs. rewrite E'. apply in_or_app. right. left. reflexivity.
Qed.
Lemma code_errors t u e : index_code_to_id t u = Err e -> e = ValueError \/ e = StructError.
Proof.
  unfold IndexCode_Model.index_code_to_id. destruct (partition_X t) as [d h]. destruct (py_int 10 d) as [i|]; [|intro H; injection H; auto].
  destruct (py_int 16 h) as [k|]; [|intro H; injection H; auto].
  destruct (fits_dec i) as [F|F]; [|rewrite pack_err by exact F; intro H; injection H; auto].
  destruct (pack_ok i F) as (l & -> & _). cbn [bind]. destruct (k =? _)%Z; [discriminate|]. intro H; injection H; auto.
Qed.

(** Characters beyond ASCII stand for the digits and blanks they mean. *)
Lemma code_unicode t u : (forall c d, todecimal c = Some d -> d <= 9) -> index_code_to_id t u = index_code_to_id (map to_ascii t) u.
Proof.
  intro Hd.
  assert (Idem : forall c, to_ascii (to_ascii c) = to_ascii c).
  { intro c. unfold IndexCode_Model.to_ascii. destruct (N.ltb_spec c 127) as [L|L]; [apply N.ltb_lt in L; rewrite L; reflexivity|].
    destruct (isspace c); [reflexivity|]. destruct (todecimal c) as [d|] eqn:E; [|reflexivity]. specialize (Hd _ _ E).
    replace (48 + d <? 127) with true by lia. reflexivity. }
  assert (X : forall c, (to_ascii c =? 88) = (c =? 88)).
  { intro c. unfold IndexCode_Model.to_ascii. destruct (N.ltb_spec c 127) as [L|L]; [reflexivity|].
    destruct (isspace c); [cbn; lia|]. destruct (todecimal c) as [d|] eqn:E; [specialize (Hd _ _ E); lia | cbn; lia]. }
  assert (P : forall s, partition_X (map to_ascii s) = let '(a, b) := partition_X s in (map to_ascii a, map to_ascii b)).
  { induction s as [|c s IH]; [reflexivity|]. cbn [map partition_X]. rewrite X. destruct (c =? 88); [reflexivity|].
    rewrite IH. destruct (partition_X s). reflexivity. }
  assert (I : forall base s, py_int base (map to_ascii s) = py_int base s).
  { intros base s. unfold IndexCode_Model.py_int. rewrite map_map. rewrite (map_ext _ _ Idem). reflexivity. }
  unfold IndexCode_Model.index_code_to_id. rewrite P. destruct (partition_X t) as [a b]. rewrite !I. reflexivity.
Qed.

(** *** Detection *)
Lemma literal_unique base t z z' : base = 10 \/ base = 16 -> ascii t -> literal base t z -> literal base t z' -> z = z'.
Proof. intros Hb Ha H1 H2. apply py_int_iff in H1; try assumption. apply py_int_iff in H2; try assumption. congruence. Qed.
Theorem code_detects i j bi bj u t d h d' : fits i -> fits j -> byte_list u ->
  byte_list bi -> length bi = 8%nat -> Z.of_N (be_value bi) = (i mod 2 ^ 64)%Z ->
  byte_list bj -> length bj = 8%nat -> Z.of_N (be_value bj) = (j mod 2 ^ 64)%Z ->
  differ_within_32_bits bi bj -> index_id_to_code i u = Ok t -> t = d ++ 88 :: h -> ~ In 88 d ->
  ascii d' -> ~ In 88 d' -> literal 10 d' j -> index_code_to_id (d' ++ 88 :: h) u = Err ValueError.
Proof.
  intros Fi Fj Hu Bi Li Vi Bj Lj Vj Df Hc Et Hd Ad' Hd' Ld'.
  destruct (code_inv _ _ _ Hc Hu) as (_ & l & P & B & E). destruct (pack_ok i Fi) as (l1 & P1 & B1 & L1 & V1).
  rewrite P in P1. injection P1 as <-. assert (l = bi) as -> by (apply be_value_inj; try assumption; lia).
  assert (Eh : h = format_08X (crc32 (bi ++ u))).
  { rewrite Et in E. pose proof (partition_app d h Hd) as Q1. pose proof (partition_app _ (format_08X (crc32 (bi ++ u))) (format_dec_no_X i)) as Q2.
    rewrite <- E, Q1 in Q2. injection Q2. auto. }
  unfold IndexCode_Model.index_code_to_id. rewrite (partition_app d' h Hd').
  apply py_int_iff in Ld'; [|auto|exact Ad']. rewrite Ld'. subst h. rewrite py_int_hex.
  destruct (pack_ok j Fj) as (l2 & -> & B2 & L2 & V2). assert (l2 = bj) as -> by (apply be_value_inj; try assumption; lia).
  cbn [bind]. rewrite crc32_mask by (apply byte_list_app; auto).
  destruct (Z.eqb_spec (Z.of_N (crc32 (bi ++ u))) (Z.of_N (crc32 (bj ++ u)))) as [Eq|]; [|reflexivity].
  exfalso. revert Eq. intro Eq. apply N2Z.inj in Eq. revert Eq. apply crc32_burst; [apply byte_list_app; auto .. |].
  destruct Df as (p & x & y & q & -> & -> & Lx & L4 & Ne). exists p, x, y, (q ++ u). rewrite <- !app_assoc. auto.
Qed.
Theorem code_detects_low i j u t d h d' : fits i -> fits j -> byte_list u -> i <> j -> (i / 2 ^ 32 = j / 2 ^ 32)%Z ->
  index_id_to_code i u = Ok t -> t = d ++ 88 :: h -> ~ In 88 d ->
  ascii d' -> ~ In 88 d' -> literal 10 d' j -> index_code_to_id (d' ++ 88 :: h) u = Err ValueError.
Proof.
  intros Fi Fj Hu Ne Hh. destruct (pack_ok i Fi) as (bi & Pi & Bi & Li & Vi). destruct (pack_ok j Fj) as (bj & Pj & Bj & Lj & Vj).
  apply (code_detects i j bi bj); try assumption. exact (pack_same_high i j bi bj Fi Fj Ne Hh Pi Pj).
Qed.
(** A code of another space. *)
Theorem code_detects_space i u v t : byte_list u -> byte_list v -> differ_within_32_bits u v ->
  index_id_to_code i u = Ok t -> index_code_to_id t v = Err ValueError.
Proof.
  intros Hu Hv Df Hc. destruct (code_inv _ _ _ Hc Hu) as (Fi & l & P & B & ->).
  unfold IndexCode_Model.index_code_to_id. rewrite (partition_app _ _ (format_dec_no_X i)), py_int_dec, py_int_hex, P. cbn [bind].
  rewrite crc32_mask by (apply byte_list_app; auto).
  destruct (Z.eqb_spec (Z.of_N (crc32 (l ++ u))) (Z.of_N (crc32 (l ++ v)))) as [Eq|]; [|reflexivity].
  exfalso. apply N2Z.inj in Eq. revert Eq. apply crc32_burst; [apply byte_list_app; auto .. |].
  destruct Df as (p & x & y & q & -> & -> & Lx & L4 & Ne). exists (l ++ p), x, y, q. rewrite <- !app_assoc. auto.
Qed.
End Int.
