From Coq Require Import NArith Ascii String Qround Qabs Decimal DecimalN DecimalPos DecimalFacts Sorting.Sorted Lqa.
From Verif Require Import Prelude Selectors_Model Selectors_Proofs FormatGran_Model FormatGran_Spec.
Local Open Scope nat_scope.
Local Open Scope list_scope.

(** *** Decimal digits *)
Lemma number_app a b : number (a ++ b) = fold_left (fun n c => (10 * n + (c - 48))%N) b (number a).
Proof. unfold number. apply fold_left_app. Qed.
Lemma digits_acc u : forall p, fold_left (fun n c => (10 * n + (c - 48))%N) (digits u) (Npos p) = Npos (Pos.of_uint_acc u p).
Proof.
  induction u; intro p; cbn [digits fold_left Pos.of_uint_acc]; [reflexivity|..];
    match goal with |- fold_left _ _ ?x = Npos (Pos.of_uint_acc _ ?y) => replace x with (Npos y) by lia; apply IHu end.
Qed.
Lemma number_digits u : number (digits u) = N.of_uint u.
Proof.
  unfold number. induction u; cbn [digits fold_left]; try reflexivity; try exact IHu;
    match goal with |- fold_left _ _ ?x = _ => let y := eval vm_compute in x in change x with y end; rewrite digits_acc; reflexivity.
Qed.
Lemma number_print n : number (print_N n) = n.
Proof. unfold print_N. rewrite number_digits. apply DecimalN.Unsigned.of_to. Qed.
Lemma digits_digit u : Forall is_digit (digits u).
Proof. induction u; cbn [digits]; constructor; auto; unfold is_digit; lia. Qed.
Lemma print_digit n : Forall is_digit (print_N n).
Proof. apply digits_digit. Qed.
Lemma print_nonempty n : print_N n <> [].
Proof.
  unfold print_N. destruct n as [|p]; [discriminate|]. intro H. pose proof (DecimalPos.Unsigned.to_uint_nonnil p) as N.
  cbn [N.to_uint] in H. destruct (Pos.to_uint p); cbn [digits] in H; try discriminate. apply N. reflexivity.
Qed.
Lemma number_lower t : forall a, (a * 10 ^ N.of_nat (length t) <= fold_left (fun n c => (10 * n + (c - 48))%N) t a)%N.
Proof.
  induction t as [|c t IH]; intro a; cbn [length fold_left]; [rewrite N.pow_0_r; lia|].
  rewrite Nat2N.inj_succ, N.pow_succ_r'. etransitivity; [|apply IH]. set (P := (10 ^ N.of_nat (length t))%N). rewrite N.mul_add_distr_r. nia.
Qed.
Lemma unorm_fix n : unorm (N.to_uint n) = N.to_uint n.
Proof. rewrite <- DecimalN.Unsigned.to_of. rewrite DecimalN.Unsigned.of_to. reflexivity. Qed.
Lemma nzhead_not_D0 d : forall d', nzhead d <> D0 d'.
Proof. induction d; cbn [nzhead]; intros; auto; discriminate. Qed.
Lemma print_head n : n <> 0%N -> exists c t, print_N n = c :: t /\ (49 <= c <= 57)%N.
Proof.
  intro H. unfold print_N. pose proof (unorm_fix n) as U. pose proof (number_print n) as V. unfold print_N in V.
  destruct (N.to_uint n) as [|d|d|d|d|d|d|d|d|d|d] eqn:E; cbn [digits] in *; try (eexists; eexists; split; [reflexivity | lia]).
  - exfalso. apply H. rewrite <- V. reflexivity.
  - exfalso. unfold unorm in U. cbn [nzhead] in U. destruct (nzhead d) eqn:Z; try discriminate.
    + injection U as <-. apply H. rewrite <- V. reflexivity.
    + exact (nzhead_not_D0 d _ Z).
Qed.
Lemma print_length n p : (n < 10 ^ N.of_nat p)%N -> 0 < p -> length (print_N n) <= p.
Proof.
  intros L P. destruct (N.eq_dec n 0) as [->|H]; [cbn; lia|]. destruct (print_head n H) as (c & t & E & C).
  assert (B : (10 ^ N.of_nat (length t) <= n)%N).
  { rewrite <- (number_print n), E. unfold number. cbn [fold_left]. etransitivity; [|apply number_lower]. nia. }
  rewrite E. cbn [length]. assert (N.of_nat (length t) < N.of_nat p)%N by (apply N.pow_lt_mono_r_iff with (a := 10%N); lia). lia.
Qed.
Lemma number_zeros k t : number (repeat 48%N k ++ t) = number t.
Proof.
  rewrite number_app. assert (Z : number (repeat 48%N k) = 0%N); [|rewrite Z; reflexivity].
  induction k as [|k IH]; [reflexivity|]. cbn [repeat]. change (48%N :: repeat 48%N k) with ([48%N] ++ repeat 48%N k). rewrite number_app. exact IH.
Qed.
Lemma rjust_length fill w t : length t <= w -> length (rjust fill w t) = w.
Proof. intro L. unfold rjust. rewrite app_length, repeat_length. lia. Qed.
Lemma fold_shift t : forall a, fold_left (fun n c => (10 * n + (c - 48))%N) t a = (a * 10 ^ N.of_nat (length t) + fold_left (fun n c => (10 * n + (c - 48))%N) t 0)%N.
Proof.
  induction t as [|c t IH]; intro a; cbn [length fold_left]; [rewrite N.pow_0_r; lia|].
  rewrite IH. rewrite (IH (10 * 0 + (c - 48))%N). rewrite Nat2N.inj_succ, N.pow_succ_r'. lia.
Qed.
Lemma number_concat a b : number (a ++ b) = (number a * 10 ^ N.of_nat (length b) + number b)%N.
Proof. rewrite number_app. apply fold_shift. Qed.

(** *** Rounding *)
Lemma round_close x : (0 <= x)%Q -> (Qabs (inject_Z (Z.of_N (round_half_even x)) - x) <= 1 # 2)%Q.
Proof.
  intro P. unfold round_half_even. pose proof (Qfloor_le x) as L. pose proof (Qlt_floor x) as U.
  assert (F : (0 <= Qfloor x)%Z) by (change 0%Z with (Qfloor 0); apply Qfloor_resp_le; exact P).
  rewrite inject_Z_plus in U. change (inject_Z 1) with 1%Q in U.
  assert (A : (inject_Z (Z.of_N (Z.to_N (Qfloor x))) == inject_Z (Qfloor x))%Q) by (rewrite Z2N.id by exact F; reflexivity).
  assert (B : (inject_Z (Z.of_N (Z.to_N (Qfloor x + 1))) == inject_Z (Qfloor x) + 1)%Q) by (rewrite Z2N.id by lia; rewrite inject_Z_plus; reflexivity).
  apply Qabs_Qle_condition.
  destruct (Qcompare (x - inject_Z (Qfloor x)) (1 # 2)) eqn:C.
  - apply Qeq_alt in C. destruct (Z.even (Qfloor x)); [rewrite A | rewrite B]; split; lra.
  - apply Qlt_alt in C. rewrite A. split; lra.
  - apply Qgt_alt in C. rewrite B. split; lra.
Qed.
Lemma round_comp x y : (x == y)%Q -> round_half_even x = round_half_even y.
Proof.
  intro E. unfold round_half_even. rewrite (Qfloor_comp x y E).
  replace (Qcompare (x - inject_Z (Qfloor y)) (1 # 2)) with (Qcompare (y - inject_Z (Qfloor y)) (1 # 2)); [reflexivity|].
  apply Qcompare_comp; [rewrite E; reflexivity | reflexivity].
Qed.
Lemma fixed_comp p s x y : (x == y)%Q -> fixed p s x = fixed p s y.
Proof. intro E. unfold fixed. rewrite (round_comp (x * _) (y * inject_Z (Z.of_N (10 ^ N.of_nat p)))); [reflexivity | rewrite E; reflexivity]. Qed.
Lemma fixed_reads p s x : 0 < p -> exists before after, fixed p s x = (if s then [45%N] else []) ++ before ++ [46%N] ++ after /\ before <> [] /\
  Forall is_digit before /\ Forall is_digit after /\ length after = p /\ number (before ++ after) = round_half_even (x * inject_Z (Z.of_N (10 ^ N.of_nat p))).
Proof.
  intro P. unfold fixed. set (unit := (10 ^ N.of_nat p)%N). set (n := round_half_even (x * inject_Z (Z.of_N unit))).
  assert (U : unit <> 0%N) by (apply N.pow_nonzero; lia). assert (M : (n mod unit < unit)%N) by (apply N.mod_lt; exact U).
  exists (print_N (n / unit)), (rjust 48%N p (print_N (n mod unit))).
  assert (L : length (rjust 48%N p (print_N (n mod unit))) = p) by (apply rjust_length, print_length; assumption).
  split; [reflexivity|]. split; [apply print_nonempty|]. split; [apply print_digit|]. split.
  - unfold rjust. apply Forall_app. split; [|apply print_digit]. apply Forall_forall. intros c I. apply repeat_spec in I. subst. unfold is_digit. lia.
  - split; [exact L|]. rewrite number_concat, L. unfold rjust. rewrite number_zeros, !number_print. fold unit. rewrite N.mul_comm. symmetry. apply N.div_mod. exact U.
Qed.
Lemma fmt_shows p x : 0 < p -> (forall s m, x = GNum s m -> (0 <= m)%Q) -> shows_value p x (fmt p x).
Proof.
  intros P W. destruct x as [|s m|s|i]; cbn [shows_value fmt]; try reflexivity.
  destruct (fixed_reads p s m P) as (b & a & E & Nb & Db & Da & L & V). exists b, a. split; [exact E|]. split; [exact Nb|]. split; [exact Db|]. split; [exact Da|]. split; [exact L|].
  rewrite V. apply round_close. apply Qmult_le_0_compat; [apply (W s m eq_refl)|]. change 0%Q with (inject_Z 0). rewrite <- Zle_Qle. lia.
Qed.

(** *** Values *)
Lemma eqb_same a b : gval_eqb a b = true <-> same a b.
Proof.
  destruct a as [|s x|s|i], b as [|t y|t|j]; cbn [gval_eqb same]; try (split; [discriminate | tauto]); try tauto.
  - apply Qeq_bool_iff.
  - apply eqb_true_iff.
  - apply Nat.eqb_eq.
Qed.
Lemma same_refl a : same a a.
Proof. destruct a; cbn; auto; reflexivity. Qed.
Lemma same_sym a b : same a b -> same b a.
Proof. destruct a, b; cbn; auto; intro H; symmetry; exact H. Qed.
Lemma same_trans a b c : same a b -> same b c -> same a c.
Proof. destruct a, b, c; cbn; try tauto; intros H H'; etransitivity; eauto. Qed.
Lemma gmem_same x l : gmem x l = true <-> exists y, In y l /\ same x y.
Proof. unfold gmem. rewrite existsb_exists. split; intros (y & I & E); exists y; split; auto; apply eqb_same; exact E. Qed.
Lemma gset_in l : forall seen x, In x (gset_from seen l) -> In x l /\ forall y, In y seen -> ~ same x y.
Proof.
  induction l as [|a l IH]; intros seen x I; cbn [gset_from] in I; [destruct I|]. destruct (gmem a seen) eqn:E.
  - apply IH in I. destruct I as [I H]. split; [right; exact I | exact H].
  - destruct I as [<-|I].
    + split; [left; reflexivity|]. intros y Iy S. assert (gmem a seen = true); [|congruence]. apply gmem_same. eauto.
    + apply IH in I. destruct I as [I H]. split; [right; exact I|]. intros y Iy. apply H. right. exact Iy.
Qed.
Lemma gset_pairs l : forall seen, StronglySorted (fun a b => ~ same a b) (gset_from seen l).
Proof.
  induction l as [|a l IH]; intro seen; cbn [gset_from]; [constructor|]. destruct (gmem a seen); [apply IH|]. constructor; [apply IH|].
  apply Forall_forall. intros x I S. apply gset_in in I. destruct I as [_ H]. apply (H a (or_introl eq_refl)). apply same_sym. exact S.
Qed.
Lemma gset_covers l : forall seen x, In x l -> exists y, In y (seen ++ gset_from seen l) /\ same x y.
Proof.
  induction l as [|a l IH]; intros seen x I; [destruct I|]. cbn [gset_from]. destruct I as [<-|I].
  - destruct (gmem a seen) eqn:E.
    + apply gmem_same in E. destruct E as (y & Iy & S). exists y. split; [apply in_app_iff; left; exact Iy | exact S].
    + exists a. split; [apply in_elt | apply same_refl].
  - destruct (gmem a seen); [apply IH; exact I|]. destruct (IH (a :: seen) x I) as (y & Iy & S). exists y. split; [|exact S].
    cbn [app In] in Iy. rewrite in_app_iff in *. cbn [In]. tauto.
Qed.
Lemma pairs_snoc (l : list gval) z : StronglySorted (fun a b => ~ same a b) l -> (forall x, In x l -> ~ same x z) -> StronglySorted (fun a b => ~ same a b) (l ++ [z]).
Proof.
  intros S H. induction S as [|x l S IH F]; cbn [app]; [constructor; constructor|]. constructor; [apply IH; intros; apply H; right; assumption|].
  apply Forall_app. split; [exact F|]. constructor; [apply H; left; reflexivity | constructor].
Qed.
Lemma unique_spec values : let U := unique_vals values in
  StronglySorted (fun a b => ~ same a b) U /\ (forall x, In x U -> In x (GNum false 0 :: values)) /\ (forall x, In x (GNum false 0 :: values) -> exists y, In y U /\ same x y).
Proof.
  cbv zeta. unfold unique_vals. destruct (gmem (GNum false 0) (gset_from [] values)) eqn:E.
  - split; [apply gset_pairs|]. split; [intros x I; apply gset_in in I; right; tauto|]. intros x [<-|I].
    + apply gmem_same in E. exact E.
    + apply (gset_covers values [] x I).
  - split.
    + apply pairs_snoc; [apply gset_pairs|]. intros x I S. assert (gmem (GNum false 0) (gset_from [] values) = true); [|congruence].
      apply gmem_same. exists x. split; [exact I | apply same_sym; exact S].
    + split.
      * intros x I. apply in_app_iff in I. destruct I as [I|[<-|[]]]; [apply gset_in in I; right; tauto | left; reflexivity].
      * intros x [<-|I].
        -- exists (GNum false 0). split; [apply in_elt | apply same_refl].
        -- destruct (gset_covers values [] x I) as (y & Iy & S). exists y. split; [apply in_app_iff; left; exact Iy | exact S].
Qed.
Lemma fmt_same p values a b : wf values -> no_negative_zero values -> In a (GNum false 0 :: values) -> In b (GNum false 0 :: values) -> same a b -> fmt p a = fmt p b.
Proof.
  intros W Z Ia Ib. destruct a as [|s x|s|i], b as [|t y|t|j]; cbn [same fmt]; try tauto; try (intros ->; reflexivity). intro E.
  assert (P : forall s m, In (GNum s m) (GNum false 0 :: values) -> (0 <= m)%Q /\ (s = true -> ~ (m == 0)%Q)).
  { intros s' m [H|H]; [injection H as <- <-; split; [lra | discriminate]|]. split; [exact (W s' m H)|]. intros ->. exact (Z m H). }
  destruct (P s x Ia) as [Px Zx], (P t y Ib) as [Py Zy].
  destruct s, t; cbn [signed] in E.
  - apply fixed_comp. lra.
  - exfalso. apply (Zx eq_refl). lra.
  - exfalso. apply (Zy eq_refl). lra.
  - apply fixed_comp. exact E.
Qed.

(** *** The search for the precision *)
Lemma count_le l : distinct_count l <= length l.
Proof. induction l as [|x l IH]; cbn [distinct_count length]; [lia|]. destruct (existsb (text_eqb x) l); lia. Qed.
Lemma count_nodup l : distinct_count l = length l <-> NoDup l.
Proof.
  induction l as [|x l IH]; cbn [distinct_count length]; [split; [constructor | reflexivity]|].
  assert (M : existsb (text_eqb x) l = true <-> In x l).
  { rewrite existsb_exists. split; [intros (y & I & E); apply text_eqb_iff in E; subst; exact I | intro I; exists x; split; [exact I | apply text_eqb_refl]]. }
  destruct (existsb (text_eqb x) l) eqn:E.
  - pose proof (count_le l). split; [lia|]. intro N. inversion N; subst. exfalso. tauto.
  - split.
    + intro H. constructor; [intro I; apply M in I; discriminate | apply IH; lia].
    + intro N. inversion N; subst. f_equal. apply IH. assumption.
Qed.
Lemma nodup_collide p values : wf values -> no_negative_zero values -> (NoDup (map (fmt p) (unique_vals values)) <-> ~ collide p values).
Proof.
  intros W Z. destruct (unique_spec values) as (Pw & Sub & Cov). split.
  - intros N (u & v & Iu & Iv & Ns & E). destruct (Cov u Iu) as (u' & Iu' & Su), (Cov v Iv) as (v' & Iv' & Sv).
    assert (Eu : fmt p u' = fmt p v').
    { rewrite <- (fmt_same p values u u' W Z Iu (Sub _ Iu') Su), <- (fmt_same p values v v' W Z Iv (Sub _ Iv') Sv). exact E. }
    assert (u' = v') as <-; [|apply Ns; eapply same_trans; [exact Su | apply same_sym; exact Sv]].
    clear - N Iu' Iv' Eu. revert Iu' Iv'. generalize dependent (unique_vals values). induction l as [|x l IH]; intros N Iu Iv; [destruct Iu|].
    cbn [map] in N. inversion_clear N as [|? ? Nx N1]. destruct Iu as [<-|Iu], Iv as [<-|Iv]; auto; exfalso; apply Nx; [rewrite Eu | rewrite <- Eu]; apply in_map; assumption.
  - intro C. assert (H : forall u v, In u (unique_vals values) -> In v (unique_vals values) -> ~ same u v -> fmt p u <> fmt p v).
    { intros u v Iu Iv Ns E. apply C. exists u, v. auto. }
    revert Pw H. clear. generalize (unique_vals values). induction l as [|x l IH]; intros S H; cbn [map]; constructor.
    + intro I. apply in_map_iff in I. destruct I as (y & E & Iy). inversion_clear S as [|? ? S1 F]. rewrite Forall_forall in F.
      apply (H x y); [left; reflexivity | right; exact Iy | apply F; exact Iy | congruence].
    + inversion_clear S. apply IH; auto. intros; apply H; auto; right; assumption.
Qed.
Lemma try_spec values unique : forall count p,
  (exists q, p <= q < p + count /\ NoDup (map (fmt q) unique) /\ (forall q', p <= q' < q -> ~ NoDup (map (fmt q') unique)) /\
     try_precisions values unique p count = Ok (map (fun x => rjust 32%N (max_len (map (fmt q) unique)) (fmt q x)) values)) \/
  ((forall q, p <= q < p + count -> ~ NoDup (map (fmt q) unique)) /\ try_precisions values unique p count = Err ValueError).
Proof.
  induction count as [|count IH]; intro p; cbn [try_precisions]; [right; split; [intros; lia | reflexivity]|].
  destruct (Nat.eqb_spec (distinct_count (map (fmt p) unique)) (length unique)) as [E|E]; rewrite <- (map_length (fmt p) unique) in E; rewrite count_nodup in E.
  - left. exists p. split; [lia|]. split; [exact E|]. split; [intros; lia | reflexivity].
  - destruct (IH (S p)) as [(q & L & N & M & T)|(M & T)].
    + left. exists q. split; [lia|]. split; [exact N|]. split; [|exact T]. intros q' L'. destruct (Nat.eq_dec q' p) as [->|Ne]; [exact E | apply M; lia].
    + right. split; [|exact T]. intros q L. destruct (Nat.eq_dec q p) as [->|Ne]; [exact E | apply M; lia].
Qed.
Lemma max_len_in t l : In t l -> length t <= max_len l.
Proof. unfold max_len. induction l as [|x l IH]; intro I; [destruct I|]. cbn [fold_right]. destruct I as [->|I]; [lia | specialize (IH I); lia]. Qed.
Lemma fmt_head p x : exists c t, fmt p x = c :: t /\ c <> 32%N.
Proof.
  destruct x as [|s m|s|i]; cbn [fmt]; try (eexists; eexists; split; [reflexivity | discriminate]).
  - unfold fixed. destruct s; cbn [app]; [eexists; eexists; split; [reflexivity | discriminate]|].
    pose proof (print_nonempty (round_half_even (m * inject_Z (Z.of_N (10 ^ N.of_nat p))) / 10 ^ N.of_nat p)) as N.
    pose proof (print_digit (round_half_even (m * inject_Z (Z.of_N (10 ^ N.of_nat p))) / 10 ^ N.of_nat p)) as D.
    destruct (print_N _) as [|c t]; [congruence|]. inversion D; subst. exists c. eexists. split; [reflexivity|]. unfold is_digit in *. lia.
  - destruct s; eexists; eexists; split; try reflexivity; discriminate.
Qed.
Lemma rjust_inj w a b : (exists c t, a = c :: t /\ c <> 32%N) -> (exists c t, b = c :: t /\ c <> 32%N) -> rjust 32%N w a = rjust 32%N w b -> a = b.
Proof.
  intros (c & t & -> & Hc) (d & u & -> & Hd). unfold rjust. generalize (w - length (c :: t)), (w - length (d :: u)). clear w.
  induction n as [|n IH]; intros [|m] E; cbn [repeat app] in E; try (injection E; intros; congruence). injection E as E. eauto.
Qed.

Theorem gran_ok values out : wf values -> no_negative_zero values -> format_granularity values = Ok out ->
  exists places width, 3 <= places <= 17 /\ ~ collide places values /\ (forall q, 3 <= q < places -> collide q values) /\
    Forall2 (fun x t => exists t0, t0 = fmt places x /\ padded t0 t /\ shows_value places x t0 /\ length t = width) values out /\
    forall i j x y, nth_error values i = Some x -> nth_error values j = Some y -> (nth_error out i = nth_error out j <-> same x y).
Proof.
  intros W Z E. destruct (unique_spec values) as (Pw & Sub & Cov). unfold format_granularity in E.
  destruct (try_spec values (unique_vals values) 15 3) as [(q & L & N & M & T)|(_ & T)]; rewrite T in E; [|discriminate]. injection E as <-. clear T.
  assert (Wd : forall x, In x values -> length (fmt q x) <= max_len (map (fmt q) (unique_vals values))).
  { intros x I. destruct (Cov x (or_intror I)) as (y & Iy & S). rewrite (fmt_same q values x y W Z (or_intror I) (Sub _ Iy) S). apply max_len_in, in_map, Iy. }
  set (width := max_len (map (fmt q) (unique_vals values))) in *. pose proof (proj1 (nodup_collide q values W Z) N) as C.
  exists q, width. split; [lia|]. split; [exact C|]. split.
  { intros q' L'. specialize (M q' L'). rewrite (nodup_collide q' values W Z) in M.
    destruct (unique_spec values) as (Pw' & Sub' & _). 
    assert (Dec : forall l, StronglySorted (fun a b => ~ same a b) l -> (forall x, In x l -> In x (GNum false 0 :: values)) -> NoDup (map (fmt q') l) \/ collide q' values).
    { induction l as [|x l IH]; intros S Sb; [left; constructor|]. inversion_clear S as [|? ? S1 F]. destruct IH as [IH|IH]; auto; [intros; apply Sb; right; assumption|].
      destruct (in_dec (list_eq_dec N.eq_dec) (fmt q' x) (map (fmt q') l)) as [I|I]; [|left; cbn [map]; constructor; assumption].
      right. apply in_map_iff in I. destruct I as (y & Ey & Iy). rewrite Forall_forall in F. exists x, y.
      split; [apply Sb; left; reflexivity|]. split; [apply Sb; right; exact Iy|]. split; [apply F; exact Iy | congruence]. }
    destruct (Dec _ Pw' Sub') as [D|D]; [|exact D]. exfalso. apply M. apply (nodup_collide q' values W Z). exact D. }
  split.
  - clear - L W Wd. assert (G : forall l, (forall x, In x l -> In x values) ->
      Forall2 (fun x t => exists t0, t0 = fmt q x /\ padded t0 t /\ shows_value q x t0 /\ length t = width) l (map (fun x => rjust 32%N width (fmt q x)) l)); [|apply G; auto].
    induction l as [|x l IH]; intro S; cbn [map]; constructor; [|apply IH; intros; apply S; right; assumption].
    assert (I : In x values) by (apply S; left; reflexivity). exists (fmt q x). split; [reflexivity|]. split; [eexists; reflexivity|]. split.
    + apply fmt_shows; [lia|]. intros s m ->. exact (W s m I).
    + apply rjust_length, Wd, I.
  - intros i j x y Ei Ej. rewrite !nth_error_map, Ei, Ej. cbn [option_map]. split.
    + intro H. injection H as H. apply rjust_inj in H; try apply fmt_head. destruct (gval_eqb x y) eqn:G; [apply eqb_same; exact G|].
      exfalso. apply C. exists x, y. split; [right; eapply nth_error_In; eauto|]. split; [right; eapply nth_error_In; eauto|].
      split; [|exact H]. intro S. apply eqb_same in S. congruence.
    + intro S. do 2 f_equal. apply (fmt_same q values); auto; right; eapply nth_error_In; eauto.
Qed.
Lemma collide_dec p values : wf values -> no_negative_zero values -> collide p values \/ ~ collide p values.
Proof.
  intros W Z. destruct (Nat.eq_dec (distinct_count (map (fmt p) (unique_vals values))) (length (map (fmt p) (unique_vals values)))) as [E|E]; rewrite count_nodup in E.
  - right. apply nodup_collide; assumption.
  - left. destruct (unique_spec values) as (Pw & Sub & _). revert E.
    assert (Dec : forall l, StronglySorted (fun a b => ~ same a b) l -> (forall x, In x l -> In x (GNum false 0 :: values)) -> NoDup (map (fmt p) l) \/ collide p values).
    { induction l as [|x l IH]; intros S Sb; [left; constructor|]. inversion_clear S as [|? ? S1 F]. destruct IH as [IH|IH]; auto; [intros; apply Sb; right; assumption|].
      destruct (in_dec (list_eq_dec N.eq_dec) (fmt p x) (map (fmt p) l)) as [I|I]; [|left; cbn [map]; constructor; assumption].
      right. apply in_map_iff in I. destruct I as (y & Ey & Iy). rewrite Forall_forall in F. exists x, y.
      split; [apply Sb; left; reflexivity|]. split; [apply Sb; right; exact Iy|]. split; [apply F; exact Iy | congruence]. }
    destruct (Dec _ Pw Sub) as [D|D]; [contradiction | auto].
Qed.
Theorem gran_raises values : wf values -> no_negative_zero values ->
  (format_granularity values = Err ValueError <-> forall q, 3 <= q <= 17 -> collide q values) /\
  ((exists out, format_granularity values = Ok out) <-> exists q, 3 <= q <= 17 /\ ~ collide q values).
Proof.
  intros W Z. unfold format_granularity. destruct (try_spec values (unique_vals values) 15 3) as [(q & L & N & M & T)|(M & T)]; rewrite T.
  - pose proof (proj1 (nodup_collide q values W Z) N) as C. split.
    + split; [discriminate|]. intro H. exfalso. apply C, H. lia.
    + split; [|eauto]. intros _. exists q. split; [lia | exact C].
  - split; split.
    + intros _ q L. destruct (collide_dec q values W Z) as [C|C]; [exact C|]. exfalso. apply (M q); [lia|]. apply nodup_collide; assumption.
    + reflexivity.
    + intros [out E]. discriminate.
    + intros (q & L & C). exfalso. apply (M q); [lia|]. apply nodup_collide; assumption.
Qed.

(** *** Values that are far enough from each other *)
Lemma fixed_point p s m : In 46%N (fixed p s m).
Proof. unfold fixed. rewrite !in_app_iff. right. right. left. left. reflexivity. Qed.
Lemma split_point a b a' b' : Forall is_digit a -> Forall is_digit a' -> a ++ [46%N] ++ b = a' ++ [46%N] ++ b' -> a = a' /\ b = b'.
Proof.
  intro D. revert a'. induction D as [|c a Hc D IH]; intros a' D' E; destruct a' as [|c' a']; cbn [app] in E.
  - injection E as E. auto.
  - injection E as E1 E2. inversion_clear D'. unfold is_digit in *. lia.
  - injection E as E1 E2. unfold is_digit in *. lia.
  - injection E as E1 E2. inversion_clear D'. subst. destruct (IH a' H0 E2) as [-> ->]. auto.
Qed.
Lemma fixed_inj p s t x y : 0 < p -> fixed p s x = fixed p t y -> s = t /\
  round_half_even (x * inject_Z (Z.of_N (10 ^ N.of_nat p))) = round_half_even (y * inject_Z (Z.of_N (10 ^ N.of_nat p))).
Proof.
  intros P E. destruct (fixed_reads p s x P) as (b & a & E1 & Nb & Db & _ & _ & V). destruct (fixed_reads p t y P) as (b' & a' & E2 & Nb' & Db' & _ & _ & V').
  rewrite E1, E2 in E. clear E1 E2.
  assert (H : forall d : text, Forall is_digit d -> forall r r', 45%N :: r = d ++ r' -> d = []).
  { intros d D r r' H. destruct d as [|c d]; [reflexivity|]. injection H as <- _. inversion_clear D. unfold is_digit in *. lia. }
  destruct s, t; cbn [app] in E.
  - injection E as E. change (46%N :: a) with ([46%N] ++ a) in E. change (46%N :: a') with ([46%N] ++ a') in E. apply split_point in E; auto. destruct E as [-> ->]. split; [reflexivity | congruence].
  - exfalso. apply Nb'. eapply H; eauto.
  - exfalso. apply Nb. symmetry in E. eapply H; eauto.
  - change (46%N :: a) with ([46%N] ++ a) in E. change (46%N :: a') with ([46%N] ++ a') in E. apply split_point in E; auto. destruct E as [-> ->]. split; [reflexivity | congruence].
Qed.
Lemma fixed_close p s t x y : 0 < p -> (0 <= x)%Q -> (0 <= y)%Q -> fixed p s x = fixed p t y ->
  (Qabs (signed s x - signed t y) * inject_Z (Z.of_N (10 ^ N.of_nat p)) <= 1)%Q.
Proof.
  intros P Px Py E. destruct (fixed_inj p s t x y P E) as [-> R]. set (u := inject_Z (Z.of_N (10 ^ N.of_nat p))) in *.
  assert (Pu : (0 <= u)%Q) by (unfold u; change 0%Q with (inject_Z 0); rewrite <- Zle_Qle; lia).
  pose proof (round_close (x * u) (Qmult_le_0_compat _ _ Px Pu)) as Cx. pose proof (round_close (y * u) (Qmult_le_0_compat _ _ Py Pu)) as Cy.
  rewrite R in Cx. apply Qabs_Qle_condition in Cx, Cy. destruct Cx as [Cx1 Cx2], Cy as [Cy1 Cy2].
  assert (A : (Qabs (signed t x - signed t y) == Qabs (x - y))%Q).
  { destruct t; cbn [signed]; [|reflexivity]. rewrite <- Qabs_opp. apply Qabs_wd. lra. }
  rewrite A. rewrite <- (Qabs_pos u Pu), <- Qabs_Qmult. apply Qabs_Qle_condition. split; lra.
Qed.
Theorem gran_enough values : wf values -> no_negative_zero values ->
  (forall s x t y, In (GNum s x) (GNum false 0 :: values) -> In (GNum t y) (GNum false 0 :: values) -> ~ (signed s x == signed t y)%Q ->
     (1 < Qabs (signed s x - signed t y) * inject_Z (10 ^ 17))%Q) ->
  (forall i j, In (GNan i) values -> In (GNan j) values -> i = j) -> exists out, format_granularity values = Ok out.
Proof.
  intros W Z Far Nan. apply gran_raises; auto. exists 17. split; [lia|]. intros (u & v & Iu & Iv & Ns & E).
  assert (P : forall s m, In (GNum s m) (GNum false 0 :: values) -> (0 <= m)%Q).
  { intros s' m [H|H]; [injection H as <- <-; lra | exact (W s' m H)]. }
  assert (Pt : forall p s m t, fixed p s m = t -> ~ In 46%N t -> False) by (intros p s m t <- H; apply H, fixed_point).
  assert (Ns' : forall t, In t [txt "None"; txt "inf"; txt "-inf"; txt "nan"] -> ~ In 46%N t).
  { intros t H J. repeat destruct H as [<-|H]; try (destruct H); revert J; vm_compute; intuition discriminate. }
  destruct u as [|s x|s|i], v as [|t y|t|j]; cbn [same fmt] in *; try (apply Ns; exact I);
    try (eapply Pt; [exact E | apply Ns'; cbn; tauto]); try (symmetry in E; eapply Pt; [exact E | apply Ns'; cbn; tauto]);
    try (destruct s; discriminate E); try (destruct t; discriminate E); try discriminate E.
  - pose proof (fixed_close 17 s t x y ltac:(lia) (P _ _ Iu) (P _ _ Iv) E) as C. specialize (Far s x t y Iu Iv Ns).
    change (Z.of_N (10 ^ N.of_nat 17)) with (10 ^ 17)%Z in C. lra.
  - eapply Pt; [exact E|]. apply Ns'. destruct t; cbn; tauto.
  - symmetry in E. eapply Pt; [exact E|]. apply Ns'. destruct s; cbn; tauto.
  - destruct s, t; try discriminate E; apply Ns; reflexivity.
  - destruct Iu as [Iu|Iu]; [discriminate|]. destruct Iv as [Iv|Iv]; [discriminate|]. apply Ns. auto.
Qed.
(** A positive number is not shown as zero. *)
Theorem gran_positive values out i m : wf values -> no_negative_zero values -> format_granularity values = Ok out ->
  nth_error values i = Some (GNum false m) -> (0 < m)%Q ->
  exists t before after, nth_error out i = Some t /\ padded (before ++ [46%N] ++ after) t /\ Forall is_digit before /\ Forall is_digit after /\ number (before ++ after) <> 0%N.
Proof.
  intros W Z E Ei Pm. destruct (gran_ok values out W Z E) as (p & w & L & C & _ & F & _).
  assert (G : forall l o, Forall2 (fun x t => exists t0, t0 = fmt p x /\ padded t0 t /\ shows_value p x t0 /\ length t = w) l o ->
    forall k x, nth_error l k = Some x -> exists t, nth_error o k = Some t /\ padded (fmt p x) t).
  { intros l o F0. induction F0 as [|x t l o (t0 & -> & Pd & _) F0 IH]; intros [|k] y H; try discriminate; cbn [nth_error] in *; [injection H as <-; eauto | auto]. }
  destruct (G _ _ F i _ Ei) as (t & Et & Pd). cbn [fmt] in Pd. destruct (fixed_reads p false m ltac:(lia)) as (b & a & Ef & _ & Db & Da & _ & V).
  exists t, b, a. rewrite Ef in Pd. cbn [app] in Pd. split; [exact Et|]. split; [exact Pd|]. split; [exact Db|]. split; [exact Da|].
  intro Zr. apply C. exists (GNum false m), (GNum false 0). split; [right; eapply nth_error_In; eauto|]. split; [left; reflexivity|]. split; [cbn; lra|].
  cbn [fmt]. unfold fixed. rewrite <- V, Zr.
  rewrite (round_comp (0 * inject_Z (Z.of_N (10 ^ N.of_nat p))) 0) by lra. reflexivity.
Qed.
