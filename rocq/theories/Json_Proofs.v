(** The scanner accepts exactly the grammar. *)
From Coq Require Import Nnat.
From Verif Require Import Prelude Selectors_Model Json_Model Json_Spec FileOpen_Proofs.
Local Open Scope N_scope.

Ltac ncase H := match type of H with
  | context[N.eqb ?a ?b] => destruct (N.eqb_spec a b)
  | context[N.leb ?a ?b] => destruct (N.leb_spec a b)
  | context[N.ltb ?a ?b] => destruct (N.ltb_spec a b)
  end.
Ltac napp := cbn [app]; repeat (rewrite <- app_assoc; cbn [app]); reflexivity.
Ltac llen L := repeat (rewrite app_length in L || (progress cbn [length] in L)).
Ltac gcase := match goal with
  | |- context[N.eqb ?a ?b] => destruct (N.eqb_spec a b)
  | |- context[N.leb ?a ?b] => destruct (N.leb_spec a b)
  | |- context[N.ltb ?a ?b] => destruct (N.ltb_spec a b)
  end.

(** * White space *)

Lemma is_ws_iff : forall c, is_ws c = true <-> In c [32; 9; 10; 13].
Proof.
  intros c. unfold is_ws. cbn [In]. repeat gcase; cbn; split; intro H; try discriminate; auto;
    try (intuition congruence); subst; auto 6.
Qed.

Lemma ws_split : forall t, exists w, t = w ++ ws t /\ Ws w.
Proof.
  induction t as [|c t [w [E W]]]; cbn.
  - exists []. split; [reflexivity|constructor].
  - destruct (is_ws c) eqn:C.
    + exists (c :: w). cbn. rewrite <- E. split; [reflexivity|]. constructor; [apply is_ws_iff; exact C|exact W].
    + exists []. split; [reflexivity|constructor].
Qed.

Lemma ws_app : forall w t, Ws w -> ws (w ++ t) = ws t.
Proof.
  induction w as [|c w IH]; intros t W; [reflexivity|]. inversion W; subst. cbn.
  rewrite (proj2 (is_ws_iff c) H1). apply IH. exact H2.
Qed.

Lemma ws_all : forall w, Ws w -> ws w = [].
Proof. intros w W. rewrite <- (app_nil_r w). rewrite ws_app by exact W. reflexivity. Qed.

Lemma ws_head : forall c t, is_ws c = false -> ws (c :: t) = c :: t.
Proof. intros c t H. cbn. rewrite H. reflexivity. Qed.

(** * Strings *)

Lemma hexval_iff : forall c v, hexval c = Some v <-> HexDigit c v.
Proof.
  intros c v. unfold hexval, HexDigit. repeat gcase; cbn [andb]; split; intro HH; try discriminate;
    try (injection HH as <-); try (f_equal; lia); lia.
Qed.

Lemma hex4_iff : forall a b c d u, hex4 a b c d = Some u <-> Hex4 [a; b; c; d] u.
Proof.
  intros a b c d u. unfold hex4, Hex4. split.
  - destruct (hexval a) as [x|] eqn:A; [|discriminate]. destruct (hexval b) as [y|] eqn:B; [|discriminate].
    destruct (hexval c) as [z|] eqn:C; [|discriminate]. destruct (hexval d) as [w|] eqn:D; [|discriminate].
    intros [= <-]. exists a, b, c, d, x, y, z, w. rewrite !hexval_iff in *. repeat split; auto. lia.
  - intros (a' & b' & c' & d' & x & y & z & w & E & A & B & C & D & U). injection E as <- <- <- <-.
    apply hexval_iff in A, B, C, D. rewrite A, B, C, D. f_equal. subst. lia.
Qed.

Lemma hex4_len : forall h u, Hex4 h u -> exists a b c d, h = [a; b; c; d].
Proof. intros h u (a & b & c & d & x & y & z & w & E & _). eauto. Qed.

Lemma hex4_fun : forall h u u', Hex4 h u -> Hex4 h u' -> u = u'.
Proof.
  intros h u u' H H'. destruct (hex4_len _ _ H) as (a & b & c & d & ->).
  apply hex4_iff in H, H'. congruence.
Qed.

Lemma is_high_iff : forall u, is_high u = true <-> High u.
Proof. intros u. unfold is_high, High. repeat gcase; cbn; split; intro; try discriminate; auto; lia. Qed.
Lemma is_low_iff : forall u, is_low u = true <-> Low u.
Proof. intros u. unfold is_low, Low. repeat gcase; cbn; split; intro; try discriminate; auto; lia. Qed.

Lemma simple_esc_iff : forall e x, simple_esc e = Some x <-> In (e, x) escapes.
Proof.
  intros e x. unfold simple_esc, escapes. cbn [In]. split.
  - intro H. repeat (ncase H; [injection H as <-; subst; auto 9|]). discriminate.
  - intro H. repeat (destruct H as [H|H]; [injection H as <- <-; reflexivity|]). destruct H.
Qed.

Lemma cons_fst_inv : forall {A B} (a : A) (r : option (list A * B)) l b,
  cons_fst a r = Some (l, b) -> exists l', l = a :: l' /\ r = Some (l', b).
Proof. intros A B a [[l' b']|] l b H; cbn in H; [injection H as <- <-; eauto|discriminate]. Qed.

Lemma scanstring_sound_n : forall n t s r, (length t <= n)%nat -> scanstring t = Some (s, r) ->
  exists e, t = e ++ 34 :: r /\ Chars e s.
Proof.
  induction n as [|n IH]; intros t s r L H; (destruct t as [|c t]; [discriminate|]); [cbn in L; lia|].
  cbn in L. cbn [scanstring] in H.
  ncase H; [injection H as <- <-; subst; exists []; split; [reflexivity|constructor]|].
  ncase H.
  - subst c. destruct t as [|e t]; [discriminate|]. ncase H.
    + subst e. destruct t as [|h1 [|h2 [|h3 [|h4 t]]]]; try discriminate. cbn in L.
      destruct (hex4 h1 h2 h3 h4) as [u|] eqn:U; [|discriminate]. apply hex4_iff in U.
      assert (Single : ~ (High u /\ exists h' w e', Hex4 h' w /\ Low w /\ t = 92 :: 117 :: h' ++ e') ->
                       cons_fst u (scanstring t) = Some (s, r) ->
                       exists e, 92 :: 117 :: h1 :: h2 :: h3 :: h4 :: t = e ++ 34 :: r /\ Chars e s).
      { intros N H0. apply cons_fst_inv in H0. destruct H0 as (s' & -> & H0).
        apply IH in H0; [|lia]. destruct H0 as (e & -> & C).
        exists (92 :: 117 :: [h1; h2; h3; h4] ++ e). split; [reflexivity|].
        apply Ch_uni; [exact U| |exact C]. intros (Hi & h' & w & e' & X & Lo & ->).
        apply N. split; [exact Hi|]. exists h', w, (e' ++ 34 :: r). repeat split; auto; try apply X; try apply Lo.
        cbn. rewrite <- app_assoc. reflexivity. }
      destruct (is_high u) eqn:Hi.
      * destruct t as [|b [|e' [|k1 [|k2 [|k3 [|k4 t]]]]]];
          try (apply Single in H; [exact H|]; intros (_ & h' & w & e'' & X & _ & E);
               destruct (hex4_len _ _ X) as (? & ? & ? & ? & ->); discriminate).
        destruct ((b =? 92) && (e' =? 117)) eqn:B.
        -- apply andb_prop in B. destruct B as [B1 B2]. apply N.eqb_eq in B1, B2. subst b e'.
           destruct (hex4 k1 k2 k3 k4) as [w|] eqn:W; [|discriminate]. apply hex4_iff in W.
           destruct (is_low w) eqn:Lo.
           ++ apply cons_fst_inv in H. destruct H as (s' & -> & H). cbn in L. apply IH in H; [|lia].
              destruct H as (e & -> & C).
              exists (92 :: 117 :: [h1; h2; h3; h4] ++ 92 :: 117 :: [k1; k2; k3; k4] ++ e). split; [reflexivity|].
              apply Ch_pair; auto; [apply is_high_iff; exact Hi|apply is_low_iff; exact Lo].
           ++ apply Single; [|exact H]. intros (_ & h' & w' & e'' & X & Lo' & E).
              destruct (hex4_len _ _ X) as (? & ? & ? & ? & ->). injection E as <- <- <- <- ->.
              rewrite (hex4_fun _ _ _ X W) in Lo'. apply is_low_iff in Lo'. congruence.
        -- apply Single; [|exact H]. intros (_ & h' & w' & e'' & X & Lo' & E). injection E as -> -> E.
           cbn in B. discriminate.
      * apply Single; [|exact H]. intros (Hi' & _). apply is_high_iff in Hi'. congruence.
    + destruct (simple_esc e) as [x|] eqn:E; [|discriminate]. apply cons_fst_inv in H.
      destruct H as (s' & -> & H). cbn in L. apply IH in H; [|lia]. destruct H as (e0 & -> & C).
      exists (92 :: e :: e0). split; [reflexivity|]. apply Ch_esc; [apply simple_esc_iff; exact E|exact C].
  - ncase H; [discriminate|]. apply cons_fst_inv in H. destruct H as (s' & -> & H). apply IH in H; [|lia].
    destruct H as (e & -> & C). exists (c :: e). split; [reflexivity|]. constructor; auto.
Qed.

Lemma scanstring_sound : forall t s r, scanstring t = Some (s, r) -> exists e, t = e ++ 34 :: r /\ Chars e s.
Proof. intros t s r. apply (scanstring_sound_n (length t)). lia. Qed.

Lemma scanstring_complete : forall e s, Chars e s -> forall r, scanstring (e ++ 34 :: r) = Some (s, r).
Proof.
  induction 1 as [|c e s C1 C2 C3 H IH|l x e s E H IH|h u e s U N H IH|h u h' w e s U Hi W Lo H IH];
    intros r; cbn [app scanstring].
  - reflexivity.
  - destruct (N.eqb_spec c 34); [congruence|]. destruct (N.eqb_spec c 92); [congruence|].
    destruct (N.ltb_spec c 32); [lia|]. rewrite IH. reflexivity.
  - cbn [N.eqb Pos.eqb]. apply simple_esc_iff in E. destruct (N.eqb_spec l 117) as [->|_]; [discriminate|].
    rewrite E, IH. reflexivity.
  - destruct (hex4_len _ _ U) as (a & b & c & d & ->). cbn [app N.eqb Pos.eqb].
    rewrite (proj2 (hex4_iff a b c d u) U).
    destruct (is_high u) eqn:Hi; [|rewrite IH; reflexivity].
    assert (K : cons_fst u (scanstring (e ++ 34 :: r)) = Some (u :: s, r)) by (rewrite IH; reflexivity).
    destruct (e ++ 34 :: r) as [|b1 [|e1 [|k1 [|k2 [|k3 [|k4 t]]]]]] eqn:E; try exact K.
    destruct ((b1 =? 92) && (e1 =? 117)) eqn:B; [|exact K].
    apply andb_prop in B. destruct B as [B1 B2]. apply N.eqb_eq in B1, B2. subst b1 e1.
    destruct (hex4 k1 k2 k3 k4) as [w|] eqn:W.
    + destruct (is_low w) eqn:Lo; [|exact K]. exfalso. apply N. split; [apply is_high_iff; exact Hi|].
      apply is_low_iff in Lo. apply hex4_iff in W.
      exists [k1; k2; k3; k4], w.
      assert (Q : forall n, (n < 6)%nat -> nth n (e ++ 34 :: r) 0 = 34 -> False).
      { intros n Ln Q. rewrite E in Q. destruct W as (? & ? & ? & ? & ? & ? & ? & ? & Eq & D1 & D2 & D3 & D4 & _).
        injection Eq as -> -> -> ->. unfold HexDigit in *.
        do 6 (destruct n as [|n]; [cbn [nth] in Q; lia|]). lia. }
      assert (Le : (6 <= length e)%nat).
      { destruct (Nat.le_gt_cases 6 (length e)) as [G|G]; [exact G|exfalso].
        apply (Q (length e)); [exact G|]. rewrite app_nth2 by lia. rewrite Nat.sub_diag. reflexivity. }
      destruct e as [|x1 [|x2 [|x3 [|x4 [|x5 [|x6 e]]]]]]; cbn in Le; try lia.
      cbn in E. injection E as -> -> -> -> -> -> E. exists e. split; [exact W|]. split; [exact Lo|reflexivity].
    + cbn [scanstring] in K. cbn [N.eqb Pos.eqb] in K. rewrite W in K. discriminate K.
  - destruct (hex4_len _ _ U) as (a & b & c & d & ->). destruct (hex4_len _ _ W) as (a' & b' & c' & d' & ->).
    cbn [app N.eqb Pos.eqb].
    rewrite (proj2 (hex4_iff a b c d u) U), (proj2 (hex4_iff a' b' c' d' w) W).
    rewrite (proj2 (is_high_iff u) Hi), (proj2 (is_low_iff w) Lo). cbn [andb]. rewrite IH. reflexivity.
Qed.

(** * Numbers *)

Lemma is_digit_iff : forall c, is_digit c = true <-> Digit c.
Proof. intros c. unfold is_digit, Digit. repeat gcase; cbn; split; intro; try discriminate; auto; lia. Qed.

Lemma digits_sound : forall t d r, digits t = (d, r) -> t = d ++ r /\ Forall Digit d.
Proof.
  induction t as [|c t IH]; intros d r H; cbn in H.
  - injection H as <- <-. split; [reflexivity|constructor].
  - destruct (is_digit c) eqn:C.
    + destruct (digits t) as [d' r'] eqn:D. injection H as <- <-. destruct (IH _ _ eq_refl) as [-> F].
      split; [reflexivity|]. constructor; [apply is_digit_iff; exact C|exact F].
    + injection H as <- <-. split; [reflexivity|constructor].
Qed.

Definition nodigit (r : text) : Prop := match r with [] => True | c :: _ => ~ Digit c end.

Lemma digits_complete : forall d r, Forall Digit d -> nodigit r -> digits (d ++ r) = (d, r).
Proof.
  induction d as [|c d IH]; intros r F N; cbn.
  - destruct r as [|c r]; [reflexivity|]. cbn in N. cbn. destruct (is_digit c) eqn:C; [|reflexivity].
    apply is_digit_iff in C. contradiction.
  - inversion F; subst. rewrite (proj2 (is_digit_iff c) H1), (IH r H2 N). reflexivity.
Qed.

Lemma digits_val_from : forall d a, fold_left (fun a c => a * 10 + (c - 48)) d a
  = a * 10 ^ N.of_nat (length d) + dval d.
Proof.
  induction d as [|c d IH]; intros a; cbn [fold_left dval length].
  - cbn. lia.
  - rewrite IH, Nat2N.inj_succ, N.pow_succ_r'. lia.
Qed.

Lemma digits_val_dval : forall d, digits_val d = dval d.
Proof. intros d. unfold digits_val. rewrite digits_val_from. lia. Qed.

Lemma scan_int_sound : forall t i r, scan_int t = Some (i, r) -> t = i ++ r /\ IntPart i.
Proof.
  intros [|c t] i r H; [discriminate|]. cbn [scan_int] in H. ncase H.
  - injection H as <- <-. subst. split; [reflexivity|left; reflexivity].
  - destruct (is_digit c) eqn:C; [|discriminate]. cbn in H. rewrite C in H.
    destruct (digits t) as [d r'] eqn:D. injection H as <- <-. apply digits_sound in D. destruct D as [-> F].
    split; [reflexivity|]. right. exists c, d. split; [reflexivity|]. split; [|exact F].
    apply is_digit_iff in C. unfold Digit in C. lia.
Qed.

Lemma scan_int_complete : forall i r, IntPart i -> nodigit r -> scan_int (i ++ r) = Some (i, r).
Proof.
  intros i r [->|(c & d & -> & C & F)] N; [reflexivity|]. cbn [app scan_int].
  destruct (N.eqb_spec c 48); [lia|].
  assert (D : is_digit c = true) by (apply is_digit_iff; unfold Digit; lia).
  rewrite D. cbn [digits]. rewrite D, (digits_complete d r F N). reflexivity.
Qed.

Lemma scan_frac_sound : forall t f r, scan_frac t = (f, r) -> t = f ++ r /\ (f = [] \/ FracPart f).
Proof.
  intros [|c t] f r H; cbn in H; [injection H as <- <-; auto|].
  ncase H; [|injection H as <- <-; auto]. destruct (digits t) as [d r'] eqn:D.
  destruct d as [|d0 d]; injection H as <- <-; [auto|]. apply digits_sound in D. destruct D as [-> F]. subst.
  split; [reflexivity|]. right. exists (d0 :: d). repeat split; auto. discriminate.
Qed.

Lemma scan_frac_complete : forall f r, FracPart f -> nodigit r -> scan_frac (f ++ r) = (f, r).
Proof.
  intros f r (d & -> & Ne & F) N. cbn. rewrite (digits_complete d r F N). destruct d; [congruence|reflexivity].
Qed.

Lemma scan_exp_sound : forall t e r, scan_exp t = (e, r) -> t = e ++ r /\ (e = [] \/ ExpPart e).
Proof.
  intros [|c t] e r H; cbn in H; [injection H as <- <-; auto|].
  destruct ((c =? 101) || (c =? 69)) eqn:C; [|injection H as <- <-; auto].
  assert (C' : c = 101 \/ c = 69) by (apply orb_prop in C; rewrite !N.eqb_eq in C; exact C).
  destruct t as [|s t]; [injection H as <- <-; auto|].
  destruct ((s =? 43) || (s =? 45)) eqn:S'.
  - assert (S2 : s = 43 \/ s = 45) by (apply orb_prop in S'; rewrite !N.eqb_eq in S'; exact S').
    destruct (digits t) as [d r'] eqn:D. destruct d as [|d0 d]; injection H as <- <-; [auto|].
    apply digits_sound in D. destruct D as [-> F]. split; [reflexivity|]. right.
    exists c, [s], (d0 :: d). repeat split; auto; try discriminate. destruct S2; subst; auto.
  - destruct (digits (s :: t)) as [d r'] eqn:D. destruct d as [|d0 d]; injection H as <- <-; [auto|].
    apply digits_sound in D. destruct D as [-> F]. split; [reflexivity|]. right.
    exists c, [], (d0 :: d). repeat split; auto. discriminate.
Qed.

Lemma scan_exp_complete : forall e r, ExpPart e -> nodigit r -> scan_exp (e ++ r) = (e, r).
Proof.
  intros e r (c & s & d & -> & C & S' & Ne & F) N.
  assert (C' : (c =? 101) || (c =? 69) = true) by (destruct C; subst; reflexivity).
  cbn [app scan_exp]. rewrite <- app_assoc.
  destruct S' as [->|S'].
  - cbn [app]. rewrite C'. destruct d as [|d0 d]; [congruence|]. cbn [app].
    assert (D0 : (d0 =? 43) || (d0 =? 45) = false).
    { inversion F; subst. unfold Digit in H1. repeat gcase; cbn; auto; lia. }
    rewrite D0, app_comm_cons, (digits_complete (d0 :: d) r F N). reflexivity.
  - assert (S2 : exists x, s = [x] /\ (x =? 43) || (x =? 45) = true) by (destruct S'; subst; eauto).
    destruct S2 as (x & -> & X). cbn [app]. rewrite C', X, (digits_complete d r F N).
    destruct d; [congruence|reflexivity].
Qed.

(** What may follow a value. *)
Definition delim (r : text) : Prop :=
  match r with [] => True | c :: _ => In c [32; 9; 10; 13; 44; 93; 125] end.

Lemma delim_stop : forall r, delim r -> nodigit r /\ scan_frac r = ([], r) /\ scan_exp r = ([], r).
Proof.
  intros [|c r] D; [cbn; auto|]. cbn [delim In] in D. split.
  - cbn. unfold Digit. intuition lia.
  - destruct D as [<-|[<-|[<-|[<-|[<-|[<-|[<-|[]]]]]]]]; split; reflexivity.
Qed.

Lemma int_head : forall i, IntPart i -> exists c d, i = c :: d /\ Digit c.
Proof.
  intros i [->|(c & d & -> & C & _)].
  - exists 48, []. split; [reflexivity|]. unfold Digit. lia.
  - exists c, d. split; [reflexivity|]. unfold Digit. lia.
Qed.

Section G.
Context (consts : bool).

Lemma scan_number_sound : forall t v r, scan_number t = Some (v, r) ->
  exists n, t = n ++ r /\ Value consts n v.
Proof.
  intros t v r H. unfold scan_number in H.
  assert (K : forall sign t1, t = sign ++ t1 -> (sign = [] \/ sign = [45]) ->
     match scan_int t1 with
     | None => None
     | Some (i, t2) =>
        let '(f, t3) := scan_frac t2 in
        let '(e, t4) := scan_exp t3 in
        match f ++ e with
        | [] => Some (JInt (match sign with [] => Z.of_N (digits_val i) | _ => - Z.of_N (digits_val i) end), t2)
        | _ => Some (JReal (sign ++ i ++ f ++ e), t4)
        end
     end = Some (v, r) -> exists n, t = n ++ r /\ Value consts n v).
  { intros sign t1 -> Sg K. destruct (scan_int t1) as [[i t2]|] eqn:I; [|discriminate].
    apply scan_int_sound in I. destruct I as [-> I].
    destruct (scan_frac t2) as [f t3] eqn:F. destruct (scan_exp t3) as [e t4] eqn:E.
    apply scan_frac_sound in F. destruct F as [-> F]. apply scan_exp_sound in E. destruct E as [-> E].
    destruct (f ++ e) as [|x y] eqn:FE.
    - apply app_eq_nil in FE. destruct FE as [-> ->]. cbn [app] in K. injection K as <- <-.
      exists (sign ++ i). split; [rewrite <- app_assoc; reflexivity|].
      rewrite digits_val_dval. destruct Sg as [->| ->]; cbn; [apply V_int|apply V_neg]; exact I.
    - injection K as <- <-. exists (sign ++ i ++ f ++ e). rewrite <- FE.
      split; [rewrite <- !app_assoc; reflexivity|].
      apply V_real. exists sign, i, f, e. repeat split; auto. congruence. }
  destruct t as [|c t]; [apply (K [] []); auto|]. ncase H.
  - subst. apply (K [45] t); auto.
  - apply (K [] (c :: t)); auto.
Qed.

Lemma scan_number_gen : forall s i f e r, (s = [] \/ s = [45]) -> IntPart i -> (f = [] \/ FracPart f) ->
  (e = [] \/ ExpPart e) -> delim r ->
  scan_number (s ++ i ++ f ++ e ++ r) =
    Some (match f ++ e with
          | [] => JInt (match s with [] => Z.of_N (dval i) | _ => - Z.of_N (dval i) end)
          | _ => JReal (s ++ i ++ f ++ e)
          end, r).
Proof.
  intros s i f e r Sg I F E D. destruct (delim_stop r D) as (ND & SF & SE).
  assert (H0 : match s ++ i ++ f ++ e ++ r with
               | c :: r0 => if c =? 45 then ([45], r0) else ([], s ++ i ++ f ++ e ++ r)
               | [] => ([], s ++ i ++ f ++ e ++ r) end = (s, i ++ f ++ e ++ r)).
  { destruct Sg as [->| ->]; [|reflexivity]. destruct (int_head i I) as (c & d & -> & Dc). cbn.
    unfold Digit in Dc. destruct (N.eqb_spec c 45); [lia|reflexivity]. }
  unfold scan_number.
  match goal with |- (let '(_, _) := ?m in _) = _ => replace m with (s, i ++ f ++ e ++ r) by (symmetry; exact H0) end.
  assert (N1 : nodigit (e ++ r)).
  { destruct E as [->|(c & s' & d & -> & C & _)]; [exact ND|]. cbn. unfold Digit. destruct C; lia. }
  assert (N2 : nodigit (f ++ e ++ r)).
  { destruct F as [->|(d & -> & _)]; [exact N1|]. cbn. unfold Digit. lia. }
  rewrite (scan_int_complete i _ I N2).
  assert (F1 : scan_frac (f ++ e ++ r) = (f, e ++ r)).
  { destruct F as [->|F]; [|apply scan_frac_complete; assumption].
    destruct E as [->|(c & s' & d & -> & C & _)]; [exact SF|]. cbn. destruct C; subst; reflexivity. }
  assert (E1 : scan_exp (e ++ r) = (e, r)).
  { destruct E as [->|E]; [exact SE|apply scan_exp_complete; assumption]. }
  rewrite F1, E1, digits_val_dval. destruct (f ++ e) as [|x y] eqn:FE; [|rewrite <- FE; reflexivity].
  apply app_eq_nil in FE. destruct FE as [-> ->]. reflexivity.
Qed.

(** * Values *)

Definition vstart (c : N) : Prop :=
  ~ In c [32; 9; 10; 13] /\ c <> 93 /\ c <> 125.

Lemma digit_vstart : forall c, Digit c -> vstart c.
Proof. intros c D. unfold Digit, vstart in *. cbn [In]. repeat split; [intuition lia|lia|lia]. Qed.

Lemma value_head : forall t v, Value consts t v -> exists c t', t = c :: t' /\ vstart c.
Proof.
  intros t v H.
  assert (K : forall c, vstart c -> forall t', exists c0 t0, c :: t' = c0 :: t0 /\ vstart c0) by eauto.
  destruct H as [ | | |C|C|C|i I|i I|t L|e s C|w W|t l E|w W|t l E];
    try (apply K; unfold vstart; cbn [In]; repeat split; [intuition discriminate|discriminate|discriminate]).
  - destruct (int_head i I) as (c & d & -> & D). apply K, digit_vstart, D.
  - destruct L as (s & i & f & e & -> & Sg & I & _). destruct Sg as [->| ->].
    + destruct (int_head i I) as (c & d & -> & D). cbn. apply K, digit_vstart, D.
    + cbn. apply K. unfold vstart. cbn [In]. repeat split; [intuition discriminate|discriminate|discriminate].
Qed.

Lemma vstart_ws : forall c t, vstart c -> ws (c :: t) = c :: t.
Proof.
  intros c t [V _]. apply ws_head. destruct (is_ws c) eqn:W; [|reflexivity].
  apply is_ws_iff in W. contradiction.
Qed.

Lemma startswith_app : forall w t, startswith t w = true -> exists r, t = w ++ r.
Proof.
  induction w as [|c w IH]; intros t H; [exists t; reflexivity|].
  destruct t as [|x t]; [discriminate|]. cbn in H. apply andb_prop in H. destruct H as [E H].
  apply N.eqb_eq in E. destruct (IH t H) as [r ->]. exists r. cbn. congruence.
Qed.

Lemma scan_word_sound : forall t v r, scan_word consts t = Some (v, r) ->
  exists n, t = n ++ r /\ Value consts n v.
Proof.
  intros t v r H. unfold scan_word in H.
  assert (K : forall w x, (if startswith t (txt w) then Some (x, skipn (length (txt w)) t) else None) = Some (v, r) ->
    x = v /\ t = txt w ++ r).
  { intros w x K. destruct (startswith t (txt w)) eqn:S0; [|discriminate]. injection K as -> <-.
    split; [reflexivity|]. destruct (startswith_app _ _ S0) as [q ->].
    rewrite skipn_app, skipn_all, Nat.sub_diag. reflexivity. }
  repeat match type of H with
  | match (if startswith t (txt ?w) then Some (?x, ?y) else None) with _ => _ end = _ =>
      destruct (if startswith t (txt w) then Some (x, y) else None) as [[x1 y1]|] eqn:E0;
      [injection H as -> ->; apply K in E0; destruct E0 as [<- E0]; exists (txt w); split; [exact E0|constructor]|clear E0]
  end.
  destruct consts eqn:C; [|discriminate].
  repeat match type of H with
  | match (if startswith t (txt ?w) then Some (?x, ?y) else None) with _ => _ end = _ =>
      destruct (if startswith t (txt w) then Some (x, y) else None) as [[x1 y1]|] eqn:E0;
      [injection H as -> ->; apply K in E0; destruct E0 as [<- E0]; exists (txt w); split; [exact E0|constructor; reflexivity]|clear E0]
  end.
  apply K in H. destruct H as [<- H]. exists (txt "-Infinity"). split; [exact H|constructor; reflexivity].
Qed.

Lemma scan_sound_all : forall n,
  (forall t v r, scan consts n t = Some (v, r) -> exists x, t = x ++ r /\ Value consts x v) /\
  (forall t l r, scan_arr consts n t = Some (l, r) -> exists x, t = x ++ 93 :: r /\ Elems consts x l) /\
  (forall t l r, scan_obj consts n t = Some (l, r) -> exists x, t = x ++ 125 :: r /\ Members consts x l).
Proof.
  induction n as [|n (IHv & IHa & IHo)]; [repeat split; intros; discriminate|].
  split; [|split].
  - intros t v r H. cbn [scan] in H. destruct t as [|c t]; [discriminate|]. ncase H.
    + subst c. destruct (scanstring t) as [[s r']|] eqn:S0; [|discriminate]. injection H as <- <-.
      apply scanstring_sound in S0. destruct S0 as (e & -> & C). exists (34 :: e ++ [34]).
      split; [napp|apply V_str; exact C].
    + ncase H.
      * subst c. destruct (ws_split t) as (w & E & W). destruct (ws t) as [|d t'] eqn:WT; [discriminate|]. ncase H.
        -- subst d. injection H as <- <-. exists (123 :: w ++ [125]).
           split; [rewrite E; napp|apply V_obj0; exact W].
        -- destruct (scan_obj consts n (d :: t')) as [[kv r'']|] eqn:O; [|discriminate].
           injection H as <- <-. apply IHo in O. destruct O as (x & Ex & M).
           exists (123 :: (w ++ x) ++ [125]). split; [rewrite E, Ex; napp|].
           apply V_obj. inversion M; subst; rewrite (app_assoc w); [apply M_one|apply M_more]; auto;
             (apply Forall_app; split; assumption).
      * ncase H.
        -- subst c. destruct (ws_split t) as (w & E & W). destruct (ws t) as [|d t'] eqn:WT; [discriminate|]. ncase H.
           ++ subst d. injection H as <- <-. exists (91 :: w ++ [93]).
              split; [rewrite E; napp|apply V_arr0; exact W].
           ++ destruct (scan_arr consts n (d :: t')) as [[l r'']|] eqn:A; [|discriminate].
              injection H as <- <-. apply IHa in A. destruct A as (x & Ex & M).
              exists (91 :: (w ++ x) ++ [93]). split; [rewrite E, Ex; napp|].
              apply V_arr. inversion M; subst; rewrite (app_assoc w); [apply E_one|apply E_more]; auto;
                (apply Forall_app; split; assumption).
        -- destruct (scan_word consts (c :: t)) as [[x y]|] eqn:Wd.
           ++ injection H as -> ->. apply scan_word_sound. exact Wd.
           ++ apply scan_number_sound. exact H.
  - intros t l r H. cbn [scan_arr] in H. destruct (scan consts n t) as [[v r0]|] eqn:V; [|discriminate].
    apply IHv in V. destruct V as (x & -> & V). destruct (ws_split r0) as (w & E & W).
    destruct (ws r0) as [|c r'] eqn:WR; [discriminate|]. ncase H.
    + subst c. injection H as <- <-. exists ([] ++ x ++ w).
      split; [rewrite E; napp|]. apply E_one; auto. constructor.
    + ncase H; [|discriminate]. subst c. apply cons_fst_inv in H. destruct H as (l' & -> & H).
      apply IHa in H. destruct H as (x' & Ex & El). destruct (ws_split r') as (w2 & E2 & W2).
      exists ([] ++ x ++ w ++ 44 :: w2 ++ x'). split.
      * rewrite E, E2, Ex. napp.
      * apply E_more; auto; [constructor|]. inversion El; subst; rewrite (app_assoc w2); [apply E_one|apply E_more]; auto;
          (apply Forall_app; split; assumption).
  - intros t l r H. cbn [scan_obj] in H. destruct t as [|q t]; [discriminate|]. ncase H; [|discriminate]. subst q.
    destruct (scanstring t) as [[k r1]|] eqn:S0; [|discriminate]. apply scanstring_sound in S0.
    destruct S0 as (e & -> & C). destruct (ws_split r1) as (w1 & E1 & W1).
    destruct (ws r1) as [|d r2] eqn:WR1; [discriminate|]. ncase H; [|discriminate]. subst d.
    destruct (scan consts n (ws r2)) as [[v r3]|] eqn:V; [|discriminate]. apply IHv in V.
    destruct V as (x & Ex & V). destruct (ws_split r2) as (w2 & E2 & W2).
    destruct (ws_split r3) as (w3 & E3 & W3).
    destruct (ws r3) as [|c r4] eqn:WR3; [discriminate|]. ncase H.
    + subst c. injection H as <- <-. exists ([] ++ (34 :: e ++ [34]) ++ w1 ++ 58 :: w2 ++ x ++ w3). split.
      * rewrite E1, E2, Ex, E3. napp.
      * apply M_one; auto. constructor.
    + ncase H; [|discriminate]. subst c. apply cons_fst_inv in H. destruct H as (l' & -> & H).
      apply IHo in H. destruct H as (x' & Ex' & El). destruct (ws_split r4) as (w4 & E4 & W4).
      exists ([] ++ (34 :: e ++ [34]) ++ w1 ++ 58 :: w2 ++ x ++ w3 ++ 44 :: w4 ++ x'). split.
      * rewrite E1, E2, Ex, E3, E4, Ex'. napp.
      * apply M_more; auto; [constructor|]. inversion El; subst; rewrite (app_assoc w4); [apply M_one|apply M_more]; auto;
          (apply Forall_app; split; assumption).
Qed.

Scheme Value_mind := Minimality for Value Sort Prop
with Elems_mind := Minimality for Elems Sort Prop
with Members_mind := Minimality for Members Sort Prop.
Combined Scheme grammar_ind from Value_mind, Elems_mind, Members_mind.

Lemma delim_ws : forall w c r, Ws w -> In c [44; 93; 125] -> delim (w ++ c :: r).
Proof.
  intros [|x w] c r W I; cbn [app delim In] in *; [intuition|]. inversion W; subst. cbn [In] in *. intuition.
Qed.

Lemma word_none_digit : forall c t, Digit c -> scan_word consts (c :: t) = None.
Proof.
  intros c t D. unfold Digit in D. unfold scan_word.
  assert (K : forall w x, (forall a b, txt w = a :: b -> ~ 48 <= a <= 57) -> txt w <> [] ->
     (if startswith (c :: t) (txt w) then Some (x : json, skipn (length (txt w)) (c :: t)) else None) = None).
  { intros w x N Ne. destruct (txt w) as [|a b]; [congruence|]. cbn. specialize (N a b eq_refl).
    destruct (N.eqb_spec a c); [lia|reflexivity]. }
  assert (Q : forall w, (match txt w with [] => false | a :: _ => negb ((48 <=? a) && (a <=? 57)) end = true) ->
    (forall a b, txt w = a :: b -> ~ 48 <= a <= 57) /\ txt w <> []).
  { intros w E. destruct (txt w) as [|a b]; [discriminate|]. split; [|discriminate].
    intros a' b' [= <- <-] X. apply negb_true_iff in E. rewrite andb_false_iff in E.
    destruct E as [E|E]; apply N.leb_gt in E; lia. }
  rewrite !K; try (apply Q; reflexivity). destruct consts; reflexivity.
Qed.

Lemma word_none_neg : forall c t, Digit c -> scan_word consts (45 :: c :: t) = None.
Proof.
  intros c t D. unfold Digit in D. unfold scan_word.
  assert (E : startswith (45 :: c :: t) (txt "-Infinity") = false).
  { change (txt "-Infinity") with (45 :: 73 :: txt "nfinity"). cbn [startswith].
    destruct (N.eqb_spec 73 c); [lia|reflexivity]. }
  rewrite E. destruct consts; reflexivity.
Qed.

Lemma digit_branches : forall c n t, Digit c -> scan consts (S n) (c :: t) = scan_number (c :: t).
Proof.
  intros c n t D. cbn [scan]. rewrite word_none_digit by exact D. unfold Digit in D. repeat gcase; try lia. reflexivity.
Qed.

Lemma neg_branches : forall c n t, Digit c -> scan consts (S n) (45 :: c :: t) = scan_number (45 :: c :: t).
Proof. intros c n t D. cbn [scan]. rewrite word_none_neg by exact D. reflexivity. Qed.

Lemma num_scan : forall s i f e r n, (s = [] \/ s = [45]) -> IntPart i -> (f = [] \/ FracPart f) ->
  (e = [] \/ ExpPart e) -> delim r ->
  scan consts (S n) (s ++ i ++ f ++ e ++ r) =
    Some (match f ++ e with
          | [] => JInt (match s with [] => Z.of_N (dval i) | _ => - Z.of_N (dval i) end)
          | _ => JReal (s ++ i ++ f ++ e)
          end, r).
Proof.
  intros s i f e r n Sg I F E D. rewrite <- (scan_number_gen s i f e r Sg I F E D).
  destruct (int_head i I) as (c & d & -> & Dc). destruct Sg as [->| ->]; cbn [app].
  - apply digit_branches, Dc.
  - apply neg_branches, Dc.
Qed.

Lemma scan_complete_all :
  (forall t v, Value consts t v -> forall r n, delim r -> (2 * length t <= n + 1)%nat ->
     scan consts n (t ++ r) = Some (v, r)) /\
  (forall t l, Elems consts t l -> forall r n, (2 * length t <= n)%nat ->
     scan_arr consts n (ws (t ++ 93 :: r)) = Some (l, r)) /\
  (forall t l, Members consts t l -> forall r n, (2 * length t <= n)%nat ->
     scan_obj consts n (ws (t ++ 125 :: r)) = Some (l, r)).
Proof.
  apply (grammar_ind consts
    (fun t v => forall r n, delim r -> (2 * length t <= n + 1)%nat -> scan consts n (t ++ r) = Some (v, r))
    (fun t l => forall r n, (2 * length t <= n)%nat -> scan_arr consts n (ws (t ++ 93 :: r)) = Some (l, r))
    (fun t l => forall r n, (2 * length t <= n)%nat -> scan_obj consts n (ws (t ++ 125 :: r)) = Some (l, r))).
  - intros r n _ L. destruct n as [|n]; [cbn in L; lia|]. reflexivity.
  - intros r n _ L. destruct n as [|n]; [cbn in L; lia|]. reflexivity.
  - intros r n _ L. destruct n as [|n]; [cbn in L; lia|]. reflexivity.
  - intros C r n _ L. destruct n as [|n]; [cbn in L; lia|]. rewrite C. reflexivity.
  - intros C r n _ L. destruct n as [|n]; [cbn in L; lia|]. rewrite C. reflexivity.
  - intros C r n _ L. destruct n as [|n]; [cbn in L; lia|]. rewrite C. reflexivity.
  - intros i I r n D L. destruct n as [|n]; [destruct (int_head i I) as (c & d & -> & _); cbn in L; lia|].
    apply (num_scan [] i [] [] r n); auto.
  - intros i I r n D L. destruct n as [|n]; [cbn in L; lia|].
    apply (num_scan [45] i [] [] r n); auto.
  - intros t (s & i & f & e & -> & Sg & I & F & E & Ne) r n D L.
    destruct n as [|n].
    { destruct (int_head i I) as (c & d & -> & _). rewrite !app_length in L. cbn [length] in L. lia. }
    rewrite <- !app_assoc. rewrite (num_scan s i f e r n Sg I F E D).
    destruct (f ++ e); [congruence|reflexivity].
  - intros e s C r n D L. destruct n as [|n]; [cbn in L; lia|]. cbn [app scan N.eqb Pos.eqb].
    rewrite <- app_assoc. cbn [app]. rewrite (scanstring_complete e s C). reflexivity.
  - intros w W r n D L. destruct n as [|n]; [cbn in L; lia|]. cbn [app scan N.eqb Pos.eqb].
    rewrite <- app_assoc. rewrite ws_app by exact W. reflexivity.
  - intros t l E IH r n D L. destruct n as [|n]; [cbn in L; lia|]. cbn [app scan N.eqb Pos.eqb].
    rewrite <- app_assoc. cbn [app].
    assert (H : exists c q, ws (t ++ 93 :: r) = c :: q /\ c <> 93).
    { destruct E as [w t w' v W V W'|w t w' v t' l W V W' E]; destruct (value_head t v) as (c & q & -> & Vs); auto;
        rewrite <- !app_assoc, ws_app by exact W; cbn [app]; rewrite vstart_ws by exact Vs;
        eexists c, _; (split; [reflexivity|apply Vs]). }
    destruct H as (c & q & Eq & Nc). specialize (IH r n). rewrite Eq in *.
    destruct (N.eqb_spec c 93); [contradiction|].
    rewrite IH; [reflexivity|]. cbn [length] in L. rewrite app_length in L. cbn in L. lia.
  - intros w W r n D L. destruct n as [|n]; [cbn in L; lia|]. cbn [app scan N.eqb Pos.eqb].
    rewrite <- app_assoc. rewrite ws_app by exact W. reflexivity.
  - intros t l E IH r n D L. destruct n as [|n]; [cbn in L; lia|]. cbn [app scan N.eqb Pos.eqb].
    rewrite <- app_assoc. cbn [app].
    assert (H : exists q, ws (t ++ 125 :: r) = 34 :: q).
    { destruct E as [w e k w1 w2 t w' v W C W1 W2 V W'|w e k w1 w2 t w' v t' l W C W1 W2 V W' E];
        rewrite <- !app_assoc, ws_app by exact W; cbn [app]; rewrite ws_head by reflexivity; eexists; reflexivity. }
    destruct H as (q & Eq). specialize (IH r n). rewrite Eq in *. cbn [N.eqb Pos.eqb].
    rewrite IH; [reflexivity|]. cbn [length] in L. rewrite app_length in L. cbn in L. lia.
  - intros w t w' v W V IH W' r n L. rewrite !app_length in L.
    destruct (value_head t v V) as (c & q & Et & Vs).
    destruct n as [|n]; [rewrite Et in L; cbn in L; lia|].
    rewrite <- !app_assoc, ws_app by exact W.
    replace (ws (t ++ w' ++ 93 :: r)) with (t ++ w' ++ 93 :: r) by (rewrite Et; cbn [app]; rewrite vstart_ws by exact Vs; reflexivity).
    cbn [scan_arr]. rewrite IH; [|apply delim_ws; [exact W'|cbn; auto]|lia].
    rewrite ws_app by exact W'. reflexivity.
  - intros w t w' v t' l W V IH W' E IHE r n L. rewrite !app_length in L. cbn [length] in L.
    destruct (value_head t v V) as (c & q & Et & Vs).
    destruct n as [|n]; [lia|].
    rewrite <- !app_assoc, ws_app by exact W. cbn [app].
    replace (ws (t ++ w' ++ 44 :: t' ++ 93 :: r)) with (t ++ w' ++ 44 :: t' ++ 93 :: r) by (rewrite Et; cbn [app]; rewrite vstart_ws by exact Vs; reflexivity).
    cbn [scan_arr]. rewrite IH; [|apply delim_ws; [exact W'|cbn; auto]|lia].
    rewrite ws_app by exact W'. rewrite ws_head by reflexivity. cbn [N.eqb Pos.eqb].
    rewrite IHE by lia. reflexivity.
  - intros w e k w1 w2 t w' v W C W1 W2 V IH W' r n L. llen L.
    destruct (value_head t v V) as (c & q & Et & Vs).
    destruct n as [|n]; [lia|].
    rewrite <- !app_assoc, ws_app by exact W. cbn [app]. rewrite ws_head by reflexivity.
    cbn [scan_obj N.eqb Pos.eqb]. rewrite <- !app_assoc. cbn [app]. rewrite (scanstring_complete e k C).
    rewrite ws_app by exact W1. rewrite ws_head by reflexivity. cbn [N.eqb Pos.eqb].
    repeat (rewrite <- app_assoc || (progress cbn [app])). rewrite ws_app by exact W2.
    replace (ws (t ++ w' ++ 125 :: r)) with (t ++ w' ++ 125 :: r) by (rewrite Et; cbn [app]; rewrite vstart_ws by exact Vs; reflexivity).
    rewrite IH; [|apply delim_ws; [exact W'|cbn; auto]|lia].
    rewrite ws_app by exact W'. reflexivity.
  - intros w e k w1 w2 t w' v t' l W C W1 W2 V IH W' E IHE r n L. llen L.
    destruct (value_head t v V) as (c & q & Et & Vs).
    destruct n as [|n]; [lia|].
    rewrite <- !app_assoc, ws_app by exact W. cbn [app]. rewrite ws_head by reflexivity.
    cbn [scan_obj N.eqb Pos.eqb]. rewrite <- !app_assoc. cbn [app]. rewrite (scanstring_complete e k C).
    rewrite ws_app by exact W1. rewrite ws_head by reflexivity. cbn [N.eqb Pos.eqb].
    repeat (rewrite <- app_assoc || (progress cbn [app])). rewrite ws_app by exact W2. cbn [app].
    replace (ws (t ++ w' ++ 44 :: t' ++ 125 :: r)) with (t ++ w' ++ 44 :: t' ++ 125 :: r) by (rewrite Et; cbn [app]; rewrite vstart_ws by exact Vs; reflexivity).
    rewrite IH; [|apply delim_ws; [exact W'|cbn; auto]|lia].
    rewrite ws_app by exact W'. rewrite ws_head by reflexivity. cbn [N.eqb Pos.eqb].
    rewrite IHE by lia. reflexivity.
Qed.

Theorem scan_doc_iff : forall t v, scan_doc consts t = Some v <-> Doc consts t v.
Proof.
  intros t v. unfold scan_doc, Doc. split.
  - destruct (scan consts (2 * length t + 1) (ws t)) as [[v' r]|] eqn:S0; [|discriminate].
    intro H. destruct (ws_split r) as (w' & E' & W'). destruct (ws r); [|discriminate]. injection H as ->.
    rewrite app_nil_r in E'. apply scan_sound_all in S0. destruct S0 as (x & Ex & V).
    destruct (ws_split t) as (w & E & W). exists w, x, r. rewrite <- Ex. repeat split; auto. rewrite E'. exact W'.
  - intros (w & t' & w' & -> & W & V & W'). rewrite ws_app by exact W.
    destruct (value_head t' v V) as (c & q & Et & Vs).
    replace (ws (t' ++ w')) with (t' ++ w') by (rewrite Et; cbn [app]; rewrite vstart_ws by exact Vs; reflexivity).
    rewrite (proj1 scan_complete_all t' v V).
    + rewrite ws_all by exact W'. reflexivity.
    + destruct w' as [|x w']; [exact I|]. inversion W'; subst. cbn [delim In] in *. intuition.
    + rewrite !app_length. lia.
Qed.

End G.
