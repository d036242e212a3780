(** Proofs for C58: reading numbers. *)
From Coq Require Import NArith ZifyBool ZifyN ZifyNat Lia.
From Verif Require Import Prelude QLemmas Selectors_Model LinkRef_Model Streams_Model IndexCli_Model MapCli_Model MapCli_Spec.
Local Open Scope nat_scope.

Definition not_digit_first (t : text) : Prop := match t with c :: _ => sql_digit c = false | [] => True end.
Lemma sql_digit_iff c : sql_digit c = true <-> (48 <= c <= 57)%N.
Proof. unfold sql_digit. lia. Qed.
Lemma sql_space_iff c : sql_space c = true <-> (c = 32 \/ 9 <= c <= 13)%N.
Proof. unfold sql_space. lia. Qed.

Definition from_digits (a : Z) (t : text) : Z := fold_left (fun a c => (10 * a + (Z.of_N c - 48))%Z) t a.
Lemma scan_number_spec t : forall a n, exists ds rest, t = ds ++ rest /\ digits ds /\ not_digit_first rest /\
  scan_number a n t = (from_digits a ds, n + length ds, rest).
Proof.
  induction t as [|c t IH]; intros a n; cbn [scan_number].
  - exists [], []. repeat split; auto; [constructor|]. cbn. now rewrite Nat.add_0_r.
  - destruct (sql_digit c) eqn:E.
    + destruct (IH (10 * a + (Z.of_N c - 48))%Z (S n)) as (ds & rest & -> & D & F & ->). exists (c :: ds), rest.
      repeat split; auto; [constructor; auto; now apply sql_digit_iff|]. cbn [from_digits fold_left length].
      f_equal. f_equal. lia.
    + exists [], (c :: t). repeat split; auto; [constructor|]. cbn. now rewrite Nat.add_0_r.
Qed.
Lemma skip_space_spec t : exists a b, t = a ++ b /\ blank a /\ skip_space t = b /\ match b with c :: _ => sql_space c = false | [] => True end.
Proof.
  induction t as [|c t IH]; cbn [skip_space]; [exists [], []; repeat split; auto; constructor|].
  destruct (sql_space c) eqn:E.
  - destruct IH as (a & b & -> & A & B & C). exists (c :: a), b. repeat split; auto. constructor; auto. now apply sql_space_iff.
  - exists [], (c :: t). repeat split; auto. constructor.
Qed.
Lemma scan_sign_spec t : exists s k rest, t = s ++ rest /\ sign s k /\ 
  scan_sign t = ((k =? -1)%Z, rest) /\ (s = [] -> match rest with c :: _ => c <> 45%N /\ c <> 43%N | [] => True end).
Proof.
  destruct t as [|c t]; cbn [scan_sign]; [exists [], 1%Z, []; repeat split; auto; constructor|].
  destruct (c =? 45)%N eqn:E; [exists [45%N], (-1)%Z, t; repeat split; [cbn; f_equal; lia|constructor|discriminate]|].
  destruct (c =? 43)%N eqn:E'; [exists [43%N], 1%Z, t; repeat split; [cbn; f_equal; lia|constructor|discriminate]|].
  exists [], 1%Z, (c :: t). repeat split; try constructor; lia.
Qed.
Lemma signed_sign s k z : sign s k -> signed (k =? -1)%Z z = (k * z)%Z.
Proof. intros []; [change (z = 1 * z)%Z|change (z = 1 * z)%Z|change (- z = -1 * z)%Z]; lia. Qed.

Lemma from_digits_app a b c : from_digits a (b ++ c) = from_digits (from_digits a b) c.
Proof. unfold from_digits. apply fold_left_app. Qed.

(** Digits in front of a text, followed by something that is no digit, are as many as can be. *)
Lemma digits_longest a : forall b a' b', digits a -> not_digit_first b -> digits a' -> a ++ b = a' ++ b' -> exists c, a = a' ++ c /\ b' = c ++ b.
Proof.
  induction a as [|x a IH]; intros b a' b' D N D' E.
  - destruct a' as [|y a']; [exists []; auto|]. cbn in E. subst b. inversion D'; subst. cbn in N.
    rewrite (proj2 (sql_digit_iff y)) in N by auto. discriminate.
  - inversion D; subst. destruct a' as [|y a']; [exists (x :: a); auto|]. cbn in E. inversion E; subst.
    inversion D'; subst. destruct (IH b a' b' H2 N H5 H3) as (c & -> & ->). exists c. auto.
Qed.

Lemma sign_first s k c t : sign s k -> s = c :: t -> c = 43%N \/ c = 45%N.
Proof. intros [] E; inversion E; auto. Qed.
Lemma sign_len s k : sign s k -> length s <= 1.
Proof. intros []; cbn; lia. Qed.


(** The whole scan, taken apart. *)
Lemma real_parts t q b : sqlite_real t = (q, b) ->
  exists a s k ip ft fs et e rest valid junk,
    t = a ++ s ++ ip ++ ft ++ et ++ rest /\ blank a /\ sign s k /\ digits ip /\ fraction ft fs /\
    (match s ++ ip ++ ft ++ et ++ rest with c :: _ => sql_space c = false | [] => True end) /\
    (s = [] -> match ip ++ ft ++ et ++ rest with c :: _ => c <> 45%N /\ c <> 43%N | [] => True end) /\
    not_digit_first (ft ++ et ++ rest) /\ not_digit_first (et ++ rest) /\
    (ft = [] -> match et ++ rest with c :: _ => c <> 46%N | [] => True end) /\
    ((valid = true /\ exponent et e /\ (et <> [] -> not_digit_first rest) /\ junk = rest /\
       (et = [] -> match rest with c :: _ => c <> 101%N /\ c <> 69%N | [] => True end)) \/
     (valid = false /\ et = [] /\ e = 0%Z /\ exists c s' r, rest = c :: s' ++ r /\ (c = 101%N \/ c = 69%N) /\ (exists k', sign s' k') /\
        (s' = [] -> match r with c :: _ => c <> 45%N /\ c <> 43%N | [] => True end) /\ not_digit_first r /\ junk = r)) /\
    (q == inject_Z (k * number_of (ip ++ fs)) * Qpower 10 (e - Z.of_nat (length fs)))%Q /\
    b = negb (length (ip ++ fs) =? 0) && valid && nil_b (skip_space junk).
Proof.
  unfold sqlite_real. destruct (skip_space_spec t) as (a & t1 & -> & Ba & -> & Fa).
  destruct (scan_sign_spec t1) as (s & k & t2 & -> & Sk & -> & Fs).
  destruct (scan_number_spec t2 0 0) as (ip & t3 & -> & Di & Ni & ->). cbn [Nat.add].
  assert (F : exists ft fs t4, t3 = ft ++ t4 /\ fraction ft fs /\ scan_fraction (from_digits 0 ip) t3 = (from_digits 0 (ip ++ fs), length fs, t4) /\ not_digit_first t4 /\
    (ft = [] -> match t4 with c :: _ => c <> 46%N | [] => True end)).
  { unfold scan_fraction. destruct t3 as [|c t3]; [exists [], [], []; split; [reflexivity|]; split; [constructor|]; rewrite (app_nil_r ip); repeat split; auto|].
    destruct (c =? 46)%N eqn:E.
    - destruct (scan_number_spec t3 (from_digits 0 ip) 0) as (fs & t4 & -> & Df & Nf & ->).
      exists (46%N :: fs), fs, t4. rewrite from_digits_app. repeat split; auto; [cbn; f_equal; lia|now constructor|discriminate].
    - exists [], [], (c :: t3). rewrite (app_nil_r ip). repeat split; auto; [constructor|lia]. }
  destruct F as (ft & fs & t4 & -> & Ff & -> & Nf & Df).
  assert (X : exists et e rest valid junk, t4 = et ++ rest /\ scan_exponent t4 = (e, valid, junk) /\
    ((valid = true /\ exponent et e /\ (et <> [] -> not_digit_first rest) /\ junk = rest /\
       (et = [] -> match rest with c :: _ => c <> 101%N /\ c <> 69%N | [] => True end)) \/
     (valid = false /\ et = [] /\ e = 0%Z /\ exists c s' r, rest = c :: s' ++ r /\ (c = 101%N \/ c = 69%N) /\ (exists k', sign s' k') /\
        (s' = [] -> match r with c :: _ => c <> 45%N /\ c <> 43%N | [] => True end) /\ not_digit_first r /\ junk = r))).
  { unfold scan_exponent. destruct t4 as [|c t4].
    - exists [], 0%Z, [], true, []. split; [reflexivity|]. split; [reflexivity|]. left. split; [reflexivity|]. split; [constructor|]. split; [easy|]. split; [reflexivity|easy].
    - destruct ((c =? 101) || (c =? 69))%N eqn:E.
      + destruct (scan_sign_spec t4) as (s' & k' & t5 & -> & Sk' & -> & Fs').
        destruct (scan_number_spec t5 0 0) as (ds & t6 & -> & Dd & Nd & ->). cbn [Nat.add]. rewrite (signed_sign s' k') by exact Sk'.
        destruct ds as [|d ds].
        * cbn [app length Nat.eqb negb from_digits fold_left]. exists [], 0%Z, (c :: s' ++ t6), false, t6. split; [reflexivity|].
          split; [f_equal; f_equal; lia|]. right. split; [reflexivity|]. split; [reflexivity|]. split; [reflexivity|].
          exists c, s', t6. split; [reflexivity|]. split; [lia|]. split; [eauto|]. split; [exact Fs'|]. auto.
        * exists (c :: s' ++ d :: ds), (k' * from_digits 0 (d :: ds))%Z, t6, true, t6.
          split; [cbn; f_equal; rewrite <- app_assoc; reflexivity|]. split; [reflexivity|]. left. split; [reflexivity|].
          split; [constructor; auto; [lia|discriminate]|]. split; [auto|]. split; [reflexivity|discriminate].
      + exists [], 0%Z, (c :: t4), true, (c :: t4). split; [reflexivity|]. split; [reflexivity|]. left.
        split; [reflexivity|]. split; [constructor|]. split; [easy|]. split; [reflexivity|]. intros _. lia. }
  destruct X as (et & e & rest & valid & junk & -> & -> & X).
  intros H. inversion H; subst q b. clear H.
  exists a, s, k, ip, ft, fs, et, e, rest, valid, junk. 
  split; [reflexivity|]. split; [exact Ba|]. split; [exact Sk|]. split; [exact Di|]. split; [exact Ff|]. split; [exact Fa|]. split; [exact Fs|].
  split; [exact Ni|]. split; [exact Nf|]. split; [exact Df|]. split; [exact X|].
  split; [rewrite (signed_sign s k) by exact Sk; reflexivity|]. rewrite app_length. reflexivity.
Qed.

Definition first_not (P : N -> Prop) (t : text) : Prop := match t with c :: _ => ~ P c | [] => True end.
Lemma sign_same s k s' k' x x' : sign s k -> sign s' k' -> s ++ x = s' ++ x' ->
  (s = [] -> match x with c :: _ => c <> 45%N /\ c <> 43%N | [] => True end) ->
  (s' = [] -> match x' with c :: _ => c <> 45%N /\ c <> 43%N | [] => True end) -> s = s' /\ k = k' /\ x = x'.
Proof.
  intros [] [] E A B; cbn in E; try discriminate; try (inversion E; auto; fail).
  - subst x. destruct (A eq_refl) as [? ?]. contradiction.
  - subst x. destruct (A eq_refl) as [? ?]. contradiction.
  - subst x'. destruct (B eq_refl) as [? ?]. contradiction.
  - subst x'. destruct (B eq_refl) as [? ?]. contradiction.
Qed.
Lemma blank_digit b c d x : blank b -> digits (c :: d) -> b = (c :: d) ++ x -> False.
Proof. intros B D ->. inversion B; subst. inversion D; subst. lia. Qed.
Lemma exponent_first et e c x : exponent et e -> et = c :: x -> c = 101%N \/ c = 69%N.
Proof. intros [|c' s k ds C] E; inversion E; subst; auto. Qed.
Lemma no_sign_digit d ds x : digits (d :: ds) -> match (d :: ds) ++ x with c :: _ => c <> 45%N /\ c <> 43%N | [] => True end.
Proof. intros D. inversion D; subst. cbn. lia. Qed.

(** What follows the fraction. *)
Lemma exponents et e rest et' e' b' valid :
  et ++ rest = et' ++ b' -> exponent et' e' ->
  ((valid = true /\ exponent et e /\ (et <> [] -> not_digit_first rest) /\ (et = [] -> match rest with c :: _ => c <> 101%N /\ c <> 69%N | [] => True end)) \/
   (valid = false /\ et = [] /\ exists c s' r, rest = c :: s' ++ r /\ (c = 101%N \/ c = 69%N) /\ (exists k', sign s' k') /\
        (s' = [] -> match r with c :: _ => c <> 45%N /\ c <> 43%N | [] => True end) /\ not_digit_first r)) ->
  length et' <= length et /\ (blank b' -> valid = true /\ et = et' /\ rest = b' /\ e = e').
Proof.
  intros E X' C. inversion X' as [|c' s' k' ds' Hc' Hs' Hd' Hn']; subst.
  - cbn in E. split; [cbn; lia|]. intros B. destruct C as [(-> & X & _)|(-> & -> & c & s' & r & -> & C & _)].
    + inversion X as [|c s k ds Hc Hs Hd Hn]; subst; [repeat split; auto|]. subst. cbn in B. inversion B; subst. lia.
    + cbn in E. subst b'. inversion B; subst. lia.
  - destruct ds' as [|d' ds']; [congruence|]. destruct C as [(-> & X & N & M)|(-> & -> & c & s2 & r & -> & C & (k2 & S2) & F & N)].
    + inversion X as [|c s k ds Hc Hs Hd Hn]; subst.
      * exfalso. cbn in E. subst rest. specialize (M eq_refl). cbn in M. lia.
      * destruct ds as [|d ds]; [congruence|]. cbn in E. inversion E as [[Ec E']]. clear E.
        rewrite <- !app_assoc in E'. apply (sign_same s k s' k') in E'; auto; try (intros; now apply no_sign_digit).
        destruct E' as (-> & -> & E'). 
        destruct (digits_longest (d :: ds) rest (d' :: ds') b' Hd (N ltac:(discriminate)) Hd' E') as (z & Ez & ->).
        split; [cbn [length]; rewrite !app_length, Ez, app_length; lia|]. intros B. destruct z as [|z0 z].
        { rewrite app_nil_r in Ez. inversion Ez; subst. repeat split; auto. }
        exfalso. apply (blank_digit ((z0 :: z) ++ rest) z0 z rest B); [|reflexivity].
        unfold digits in *. rewrite Ez in Hd. apply Forall_app in Hd. apply Hd.
    + exfalso. cbn in E. inversion E as [[Ec E']]. clear E. rewrite <- app_assoc in E'. apply (sign_same s2 k2 s' k') in E'; auto; try (intros; now apply no_sign_digit).
      destruct E' as (_ & _ & ->). inversion Hd'; subst. cbn in N. rewrite (proj2 (sql_digit_iff d')) in N by auto. discriminate.
Qed.

(** A number in front of the text is within the one that is found. *)
Lemma parts_longest s k ip ft fs et e rest valid n' q' b' :
  sign s k -> digits ip -> fraction ft fs ->
  (s = [] -> match ip ++ ft ++ et ++ rest with c :: _ => c <> 45%N /\ c <> 43%N | [] => True end) ->
  not_digit_first (ft ++ et ++ rest) -> not_digit_first (et ++ rest) -> (ft = [] -> match et ++ rest with c :: _ => c <> 46%N | [] => True end) ->
  ((valid = true /\ exponent et e /\ (et <> [] -> not_digit_first rest) /\ (et = [] -> match rest with c :: _ => c <> 101%N /\ c <> 69%N | [] => True end)) \/
   (valid = false /\ et = [] /\ exists c s' r, rest = c :: s' ++ r /\ (c = 101%N \/ c = 69%N) /\ (exists k', sign s' k') /\
        (s' = [] -> match r with c :: _ => c <> 45%N /\ c <> 43%N | [] => True end) /\ not_digit_first r)) ->
  numeral n' q' -> s ++ ip ++ ft ++ et ++ rest = n' ++ b' ->
  ip ++ fs <> [] /\ length n' <= length (s ++ ip ++ ft ++ et) /\
  (blank b' -> valid = true /\ rest = b' /\ (q' == inject_Z (k * number_of (ip ++ fs)) * Qpower 10 (e - Z.of_nat (length fs)))%Q).
Proof.
  intros S D F Fs N1 N2 P X (s' & k' & ip' & ft' & fs' & et' & e' & -> & S' & D' & F' & NE & X' & Q') E.
  rewrite <- !app_assoc in E.
  apply (sign_same s k s' k') in E; auto.
  2:{ intros _. destruct ip' as [|d ip']; [|now apply no_sign_digit]. inversion F' as [|ds' Hd']; subst; [cbn in NE; congruence|]. cbn. lia. }
  destruct E as (<- & <- & E). rewrite !app_length.
  destruct (digits_longest ip _ ip' _ D N1 D' E) as (z & -> & E1). 
  assert (NE' : z ++ ip' ++ fs' <> []) by (destruct z; [exact NE|discriminate]).
  destruct z as [|z0 z].
  2:{ (* digits left out *)
    unfold digits in D. apply Forall_app in D. destruct D as [_ Dz]. inversion Dz as [|? ? Hz Dz']; subst.
    inversion F' as [Ef1 Ef2|ds' Hd' Ef1 Ef2]; subst; [|cbn in E1; inversion E1; subst; lia].
    inversion X' as [Ee1 Ee2|c' s' k' ds' Hc' Hs' Hd' Hn' Ee1 Ee2]; subst; [|cbn in E1; inversion E1; subst; lia].
    cbn [app] in E1. split; [destruct ip'; discriminate|]. split; [rewrite app_length; cbn [length]; lia|].
    intros B. exfalso. subst b'. eapply blank_digit; [exact B|exact Dz|reflexivity]. }
  rewrite app_nil_r in *. cbn [app] in E1. clear E NE'.
  inversion F as [Ef1 Ef2|ds Hd Ef1 Ef2]; subst; inversion F' as [Ef1' Ef2'|ds' Hd' Ef1' Ef2']; subst.
  - cbn [app] in E1. destruct (exponents et e rest et' e' b' valid (eq_sym E1) X' X) as [L K]. split; [exact NE|]. split; [lia|].
    intros B. destruct (K B) as (-> & -> & -> & ->). repeat split; auto.
  - exfalso. specialize (P eq_refl). cbn [app] in E1. rewrite <- E1 in P. cbn in P. congruence.
  - cbn [app] in E1. rewrite app_nil_r in NE. split; [destruct ip'; [congruence|discriminate]|].
    inversion X' as [Ee1 Ee2|c' s' k' ds' Hc' Hs' Hd' Hn' Ee1 Ee2]; subst; [|cbn in E1; inversion E1; subst; lia].
    split; [cbn; lia|]. intros B. exfalso. cbn in E1. subst b'. inversion B; subst. lia.
  - cbn [app] in E1. inversion E1 as [E2]. symmetry in E2.
    destruct (digits_longest fs _ fs' _ Hd N2 Hd' E2) as (z & -> & E3). split.
    { intros Z. apply app_eq_nil in Z. destruct Z as [-> Z]. apply app_eq_nil in Z. destruct Z as [-> _]. cbn in NE. congruence. }
    destruct z as [|z0 z].
    + cbn [app] in E3. rewrite app_nil_r in *. destruct (exponents et e rest et' e' b' valid (eq_sym E3) X' X) as [L K]. split; [cbn; lia|].
      intros B. destruct (K B) as (-> & -> & -> & ->). repeat split; auto.
    + unfold digits in Hd. apply Forall_app in Hd. destruct Hd as [_ Dz]. inversion Dz as [|? ? Hz Dz']; subst.
      inversion X' as [Ee1 Ee2|c' s' k' ds' Hc' Hs' Hd'' Hn' Ee1 Ee2]; subst; [|cbn in E3; inversion E3; subst; lia].
      split; [cbn [length app]; rewrite app_length; cbn [length]; lia|].
      intros B. exfalso. cbn in E3. subst b'. eapply blank_digit; [exact B|exact Dz|reflexivity].
Qed.

Lemma blank_prefix a x a' x' : blank a -> (match x with c :: _ => sql_space c = false | [] => True end) ->
  blank a' -> (match x' with c :: _ => sql_space c = false | [] => False end) -> a ++ x = a' ++ x' -> a = a' /\ x = x'.
Proof.
  revert a'. induction a as [|c a IH]; intros a' B F B' F' E.
  - destruct a' as [|c' a']; [auto|]. exfalso. cbn in E. subst x. inversion B'; subst. apply sql_space_iff in H1. congruence.
  - destruct a' as [|c' a'].
    + exfalso. cbn in E. subst x'. inversion B; subst. apply sql_space_iff in H1. congruence.
    + cbn in E. inversion E; subst. inversion B; subst. inversion B'; subst. destruct (IH a') as [-> ->]; auto.
Qed.
Lemma numeral_first n q b : numeral n q -> match n ++ b with c :: _ => sql_space c = false | [] => False end.
Proof.
  intros (s & k & ip & ft & fs & et & e & -> & S & D & F & NE & X & _). unfold sql_space. inversion S; subst; cbn [app]; try lia.
  destruct ip as [|c ip]; [|cbn [app]; inversion D; subst; lia].
  inversion F; subst; [cbn in NE; congruence|]. cbn [app]. lia.
Qed.
Lemma skip_space_nil t : nil_b (skip_space t) = true <-> blank t.
Proof.
  destruct (skip_space_spec t) as (a & b & -> & A & -> & C). split.
  - destruct b; [|discriminate]. rewrite app_nil_r. auto.
  - intros B. unfold blank in *. apply Forall_app in B. destruct B as [_ B]. destruct b as [|c b]; [reflexivity|].
    inversion B; subst. apply sql_space_iff in H1. congruence.
Qed.

(** Which number a text counts as. *)
Lemma real_spec t q b : sqlite_real t = (q, b) ->
  counts_as t q /\ (b = true <-> exists q', is_number t q') /\ (forall q', is_number t q' -> (q' == q)%Q).
Proof.
  intros H. destruct (real_parts t q b H) as (a & s & k & ip & ft & fs & et & e & rest & valid & junk & -> & Ba & S & D & F & Fa & Fs & N1 & N2 & P & X & Q & ->).
  assert (X' : (valid = true /\ exponent et e /\ (et <> [] -> not_digit_first rest) /\ (et = [] -> match rest with c :: _ => c <> 101%N /\ c <> 69%N | [] => True end)) \/
   (valid = false /\ et = [] /\ exists c s' r, rest = c :: s' ++ r /\ (c = 101%N \/ c = 69%N) /\ (exists k', sign s' k') /\
        (s' = [] -> match r with c :: _ => c <> 45%N /\ c <> 43%N | [] => True end) /\ not_digit_first r)).
  { destruct X as [(-> & A & B & _ & C)|(-> & A & _ & c & s' & r & -> & B & C & E & G & _)]; [left; auto|right]. split; [auto|]. split; [auto|].
    exists c, s', r. repeat split; auto; apply E; auto. }
  assert (Xe : exponent et e) by (destruct X as [(_ & A & _)|(_ & -> & -> & _)]; [exact A|constructor]).
  assert (Any : forall a' n' q' b', a ++ s ++ ip ++ ft ++ et ++ rest = a' ++ n' ++ b' -> blank a' -> numeral n' q' ->
    ip ++ fs <> [] /\ s ++ ip ++ ft ++ et ++ rest = n' ++ b' /\ length n' <= length (s ++ ip ++ ft ++ et) /\
    (blank b' -> valid = true /\ rest = b' /\ (q' == q)%Q)).
  { intros a' n' q' b' E A' M. apply blank_prefix in E; auto; [|exact (numeral_first n' q' b' M)]. destruct E as [-> E].
    destruct (parts_longest s k ip ft fs et e rest valid n' q' b' S D F Fs N1 N2 P X' M E) as (A & B & C). split; [exact A|]. split; [exact E|]. split; [exact B|].
    intros G. destruct (C G) as (U & V & W). repeat split; auto. now rewrite W, Q. }
  assert (Have : ip ++ fs <> [] -> numeral (s ++ ip ++ ft ++ et) q).
  { intros NE. exists s, k, ip, ft, fs, et, e. repeat split; auto. }
  assert (Dec : ip ++ fs = [] \/ ip ++ fs <> []) by (destruct (ip ++ fs); [left; reflexivity|right; discriminate]).
  split; [|split].
  - destruct Dec as [Z|NE].
    + right. split.
      * intros a' n' b' q' E A' M. destruct (Any a' n' q' b' E A' M) as [C _]. congruence.
      * rewrite Q, Z. cbn [number_of fold_left]. rewrite Z.mul_0_r. ring.
    + left. exists a, (s ++ ip ++ ft ++ et), rest. rewrite <- !app_assoc. split; [reflexivity|]. split; [exact Ba|]. split; [now apply Have|].
      intros n' b' q' E M. rewrite <- ?app_assoc in E. rewrite ?app_assoc. 
      destruct (Any a n' q' b') as (_ & _ & L & _); auto; [rewrite <- E; now rewrite ?app_assoc|]. rewrite ?app_assoc in L. exact L.
  - split.
    + intros B. apply andb_prop in B. destruct B as [B J]. apply andb_prop in B. destruct B as [L V]. subst valid.
      destruct X as [(_ & _ & _ & -> & _)|(? & _)]; [|discriminate]. apply skip_space_nil in J.
      exists q, a, (s ++ ip ++ ft ++ et), rest. rewrite <- !app_assoc. split; [reflexivity|]. split; [exact Ba|]. split; [apply Have|exact J].
      intros Z. rewrite Z in L. discriminate.
    + intros (q' & a' & n' & b' & E & A' & M & B'). destruct (Any a' n' q' b' E A' M) as (NE & _ & _ & W). destruct (W B') as (-> & -> & _).
      destruct X as [(_ & _ & _ & -> & _)|(? & _)]; [|discriminate]. rewrite (proj2 (skip_space_nil b') B').
      destruct (ip ++ fs); [congruence|reflexivity].
  - intros q' (a' & n' & b' & E & A' & M & B'). destruct (Any a' n' q' b' E A' M) as (_ & _ & _ & W). apply W, B'.
Qed.
