From Verif Require Import Prelude IndexCode_Model IndexCode_Spec IndexCode_Proofs SeqHash_Model SeqHash_Spec.
From Coq Require Import NArith ZArith Lia ZifyBool ZifyN ZifyNat.
Local Open Scope Z_scope.

(** Accepted history: the object holds the last value and the bytes of the values. *)
Definition holds (l : list Z) (h : seqhash) : Prop :=
  legal l /\ written l (sh_fed h) /\ sh_prev h = last l (-1).

Lemma legal_nil : legal [].
Proof. split; [intros [|i] j x y _ H; discriminate H | intros x []]. Qed.

Lemma last_nth (l : list Z) d : l <> [] -> nth_error l (length l - 1) = Some (last l d).
Proof.
  intro H. destruct (exists_last H) as (l' & x & ->). rewrite last_last, app_length. cbn [length].
  rewrite nth_error_app2 by lia. replace (length l' + 1 - 1 - length l')%nat with O by lia. reflexivity.
Qed.

Lemma last_in_legal l : legal l -> -1 <= last l (-1).
Proof.
  intros [_ R]. destruct l as [|a l]; [cbn; lia|]. assert (H : a :: l <> []) by discriminate.
  pose proof (last_nth (a :: l) (-1) H) as E. apply nth_error_In in E. specialize (R _ E). lia.
Qed.

Lemma legal_snoc l v : legal (l ++ [v]) <-> legal l /\ last l (-1) < v < 2 ^ 64.
Proof.
  split.
  - intros [I R]. assert (L : legal l).
    { split.
      - intros i j x y Hij Hi Hj. apply (I i j x y Hij); rewrite nth_error_app1; try assumption; apply nth_error_Some; congruence.
      - intros x Hx. apply R. apply in_app_iff. now left. }
    split; [exact L|]. assert (Rv : 0 <= v <= 18446744073709551615) by (apply R, in_app_iff; right; left; reflexivity).
    split; [|lia]. destruct l as [|a l]; [cbn; lia|]. assert (H : a :: l <> []) by discriminate.
    pose proof (last_nth (a :: l) (-1) H) as E.
    apply (I (length (a :: l) - 1)%nat (length (a :: l)) _ v).
    + cbn [length]. lia.
    + rewrite nth_error_app1; [exact E | cbn [length]; lia].
    + rewrite nth_error_app2 by lia. rewrite Nat.sub_diag. reflexivity.
  - intros [L V]. pose proof (last_in_legal _ L) as B. destruct L as [I R]. split.
    + intros i j x y Hij Hi Hj. destruct (Nat.lt_ge_cases j (length l)) as [Hl|Hl].
      * rewrite nth_error_app1 in Hi, Hj by lia. exact (I i j x y Hij Hi Hj).
      * assert (j = length l) as ->.
        { assert (j < length (l ++ [v]))%nat by (apply nth_error_Some; congruence). rewrite app_length in H. cbn in H. lia. }
        rewrite nth_error_app2, Nat.sub_diag in Hj by lia. injection Hj as <-. rewrite nth_error_app1 in Hi by lia.
        assert (H : l <> []) by (intros ->; destruct i; discriminate Hi). pose proof (last_nth l (-1) H) as E.
        destruct (Nat.eq_dec i (length l - 1)) as [->|N].
        -- rewrite E in Hi. injection Hi as <-. lia.
        -- specialize (I i (length l - 1)%nat x _ ltac:(lia) Hi E). lia.
    + intros x Hx. apply in_app_iff in Hx as [Hx|[<-|[]]]; [exact (R x Hx)|lia].
Qed.

Lemma add_value_ok l h v : holds l h -> last l (-1) < v < 2 ^ 64 ->
  exists h', add_value h v = (h', None) /\ holds (l ++ [v]) h'.
Proof.
  intros (L & W & P) V. pose proof (last_in_legal _ L) as B. unfold add_value, to_bytes8. rewrite P.
  replace (last l (-1) <? v) with true by lia. replace ((v <? 0) || (2 ^ 64 <=? v)) with false by lia. cbn [negb].
  eexists. split; [reflexivity|]. split; [apply legal_snoc; auto|]. split; [|cbn [sh_prev]; rewrite last_last; reflexivity].
  cbn [sh_fed]. apply written_snoc; [exact W | apply be_bytes_length | apply be_bytes_bytes |].
  rewrite be_bytes_value; [lia|]. change (256 ^ N.of_nat 8)%N with (2 ^ 64)%N. lia.
Qed.

Lemma add_value_err l h v : holds l h -> ~ (last l (-1) < v < 2 ^ 64) -> add_value h v = (h, Some ValueError).
Proof.
  intros (L & W & P) V. pose proof (last_in_legal _ L) as B. unfold add_value, to_bytes8. rewrite P.
  destruct (last l (-1) <? v) eqn:E; [|reflexivity]. replace ((v <? 0) || (2 ^ 64 <=? v)) with true by lia. reflexivity.
Qed.

Definition start : seqhash := {| sh_prev := -1; sh_fed := [] |}.
Lemma holds_start : holds [] start.
Proof. split; [apply legal_nil|]. split; [constructor | reflexivity]. Qed.

Lemma legal_app l m : legal (l ++ m) -> legal l.
Proof.
  revert l. induction m as [|v m IH]; intros l H; [rewrite app_nil_r in H; exact H|].
  replace (l ++ v :: m) with ((l ++ [v]) ++ m) in H by (rewrite <- app_assoc; reflexivity).
  apply IH, legal_snoc in H. tauto.
Qed.

Lemma add_values_cases vs : forall l h, holds l h ->
  (legal (l ++ vs) /\ exists h', add_values h vs = Ok h' /\ holds (l ++ vs) h') \/
  (~ legal (l ++ vs) /\ add_values h vs = Err ValueError).
Proof.
  induction vs as [|v vs IH]; intros l h H.
  - rewrite app_nil_r. left. split; [apply H|]. exists h. auto.
  - replace (l ++ v :: vs) with ((l ++ [v]) ++ vs) by (rewrite <- app_assoc; reflexivity). cbn [add_values].
    destruct (Z_lt_dec (last l (-1)) v) as [A|A]; [destruct (Z_lt_dec v (2 ^ 64)) as [B|B]|].
    + destruct (add_value_ok l h v H (conj A B)) as (h' & -> & H'). exact (IH _ _ H').
    + right. rewrite (add_value_err l h v H) by tauto. split; [|reflexivity]. intro G. apply legal_app, legal_snoc in G. tauto.
    + right. rewrite (add_value_err l h v H) by tauto. split; [|reflexivity]. intro G. apply legal_app, legal_snoc in G. tauto.
Qed.

Lemma new_some vs : new_seqhash (Some vs) = add_values start vs.
Proof. destruct vs; reflexivity. Qed.

Lemma accepts vs : (exists h, new_seqhash (Some vs) = Ok h) <-> legal vs.
Proof.
  rewrite new_some. destruct (add_values_cases vs [] start holds_start) as [(L & h & E & _)|(L & E)]; cbn [app] in L.
  - split; [intros _; exact L | intros _; exists h; exact E].
  - split; [intros (h & E'); congruence | tauto].
Qed.
Lemma rejects vs : ~ legal vs -> new_seqhash (Some vs) = Err ValueError.
Proof.
  intro N. rewrite new_some. destruct (add_values_cases vs [] start holds_start) as [(L & _)|(_ & E)]; [destruct (N L)|exact E].
Qed.
Lemma fed_written vs h : new_seqhash (Some vs) = Ok h -> written vs (sh_fed h).
Proof.
  rewrite new_some. intro E. destruct (add_values_cases vs [] start holds_start) as [(_ & h' & E' & H)|(_ & E')]; [|congruence].
  rewrite E in E'. injection E' as <-. apply H.
Qed.
Lemma written_length l bs : written l bs -> length bs = (8 * length l)%nat.
Proof. induction 1 as [|l bs v b W IH Lb B V]; [reflexivity|]. rewrite !app_length, IH, Lb. cbn [length]. lia. Qed.

Lemma app_inj_tail_len {A} (a b c d : list A) : length b = length d -> a ++ b = c ++ d -> a = c /\ b = d.
Proof.
  intros L E. assert (Ha : length a = length c) by (apply (f_equal (@length A)) in E; rewrite !app_length in E; lia).
  revert c Ha E. induction a as [|x a IH]; intros [|y c] Ha E; try discriminate Ha; [auto|].
  injection E as -> E. injection Ha as Ha. destruct (IH c Ha E) as [-> ->]. auto.
Qed.

Lemma written_inj l bs : written l bs -> forall m, written m bs -> l = m.
Proof.
  induction 1 as [|l bs v b W IH Lb B V]; intros m M.
  - inversion M as [|m' bs' v' b' W' Lb' B' V' E1 E2]; subst; [reflexivity|]. destruct bs' as [|? bs']; [|discriminate]. cbn in E2. subst. discriminate Lb'.
  - inversion M as [E1 E2|m' bs' v' b' W' Lb' B' V' E1 E2].
    + subst. destruct bs; [|discriminate]. cbn in E2. rewrite <- E2 in Lb. discriminate Lb.
    + apply app_inj_tail_len in E2 as [E3 E4]; [|congruence]. subst. rewrite (IH m' W'). reflexivity.
Qed.
Lemma written_fun l b1 : written l b1 -> forall b2, written l b2 -> b1 = b2.
Proof.
  induction 1 as [|l bs v b W IH Lb B V]; intros b2 M.
  - inversion M as [|m' bs' v' b' W' Lb' B' V' E1 E2]; subst; [reflexivity|]. destruct m'; discriminate.
  - inversion M as [E1 E2|m' bs' v' b' W' Lb' B' V' E1 E2]; [destruct l; discriminate|].
    apply app_inj_tail in E1 as [E1 E3]. subst m'. rewrite (IH _ W'). f_equal. apply be_value_inj; [assumption..|congruence|lia].
Qed.

Lemma injective vs ws h k : new_seqhash (Some vs) = Ok h -> new_seqhash (Some ws) = Ok k -> sh_fed h = sh_fed k -> vs = ws.
Proof. intros H K E. apply fed_written in H, K. rewrite E in H. exact (written_inj _ _ H _ K). Qed.

Lemma incremental vs ws h : new_seqhash (Some vs) = Ok h ->
  add_values h ws = new_seqhash (Some (vs ++ ws)).
Proof.
  rewrite !new_some. revert h. generalize start. induction vs as [|v vs IH]; intros s h E; cbn [add_values app] in *; [injection E as <-; reflexivity|].
  destruct (add_value s v) as [s' [e|]]; [discriminate E|]. exact (IH _ _ E).
Qed.

Lemma feed_spec vs : forall l h, holds l h -> forall h' es, feed h vs = (h', es) ->
  exists k, kept vs es k /\ holds (l ++ k) h' /\ (forall e, In (Some e) es -> e = ValueError).
Proof.
  induction vs as [|v vs IH]; intros l h H h' es E; cbn [feed] in E.
  - injection E as <- <-. exists []. rewrite app_nil_r. split; [constructor|]. split; [exact H | intros e []].
  - destruct (add_value h v) as [h1 e1] eqn:E1. destruct (feed h1 vs) as [h2 es2] eqn:E2. injection E as <- <-.
    destruct (Z_lt_dec (last l (-1)) v) as [A|A]; [destruct (Z_lt_dec v (2 ^ 64)) as [B|B]|].
    + destruct (add_value_ok l h v H (conj A B)) as (h3 & E3 & H3). rewrite E1 in E3. injection E3 as -> ->.
      destruct (IH _ _ H3 _ _ E2) as (k & K & Hk & X). exists (v :: k). split; [constructor; exact K|].
      split; [rewrite <- app_assoc in Hk; exact Hk|]. intros e [D|I]; [discriminate D|auto].
    + rewrite (add_value_err l h v H) in E1 by tauto. injection E1 as <- <-.
      destruct (IH _ _ H _ _ E2) as (k & K & Hk & X). exists k. split; [constructor; exact K|]. split; [exact Hk|]. intros e [D|I]; [congruence|auto].
    + rewrite (add_value_err l h v H) in E1 by tauto. injection E1 as <- <-.
      destruct (IH _ _ H _ _ E2) as (k & K & Hk & X). exists k. split; [constructor; exact K|]. split; [exact Hk|]. intros e [D|I]; [congruence|auto].
Qed.

Lemma feed_start vs h es : feed start vs = (h, es) ->
  exists k, kept vs es k /\ new_seqhash (Some k) = Ok h /\ (forall e, In (Some e) es -> e = ValueError).
Proof.
  intro E. destruct (feed_spec vs [] start holds_start h es E) as (k & K & Hk & X). cbn [app] in Hk. exists k. split; [exact K|]. split; [|exact X].
  destruct (proj2 (accepts k) (proj1 Hk)) as (h' & E'). rewrite E'. f_equal. rewrite new_some in E'.
  destruct (add_values_cases k [] start holds_start) as [(_ & h2 & E2 & H2)|(_ & E2)]; [|congruence].
  rewrite E' in E2. injection E2 as <-. cbn [app] in H2. destruct Hk as (_ & W & P), H2 as (_ & W2 & P2).
  pose proof (written_fun _ _ W _ W2). destruct h, h'; cbn in *; congruence.
Qed.

(** A value is rejected only when it does not continue the accepted ones. *)
Lemma add_value_iff vs h v : new_seqhash (Some vs) = Ok h ->
  (snd (add_value h v) = None <-> legal (vs ++ [v])) /\
  (snd (add_value h v) <> None -> add_value h v = (h, Some ValueError)).
Proof.
  intro E. rewrite new_some in E. destruct (add_values_cases vs [] start holds_start) as [(_ & h2 & E2 & H2)|(_ & E2)]; [|congruence].
  rewrite E in E2. injection E2 as <-. cbn [app] in H2. rewrite legal_snoc.
  destruct (Z_lt_dec (last vs (-1)) v) as [A|A]; [destruct (Z_lt_dec v (2 ^ 64)) as [B|B]|].
  - destruct (add_value_ok vs h v H2 (conj A B)) as (h3 & E3 & H3). rewrite E3. cbn [snd]. split; [|congruence]. split; [intros _|reflexivity]. split; [apply H2|lia].
  - rewrite (add_value_err vs h v H2) by tauto. cbn [snd]. split; [|reflexivity]. split; [discriminate|]. lia.
  - rewrite (add_value_err vs h v H2) by tauto. cbn [snd]. split; [|reflexivity]. split; [discriminate|]. lia.
Qed.

Lemma index_hash_is ids : index_hash_bytes ids = (do h <- new_seqhash (Some ids); Ok (sh_fed h)).
Proof. unfold index_hash_bytes. rewrite new_some. reflexivity. Qed.

Lemma index_hash_distinguishes ids js : legal ids -> legal js ->
  exists a b, index_hash_bytes ids = Ok a /\ index_hash_bytes js = Ok b /\ (a = b <-> ids = js).
Proof.
  intros I J. apply accepts in I as (h & E). apply accepts in J as (k & F). exists (sh_fed h), (sh_fed k).
  rewrite !index_hash_is, E, F. split; [reflexivity|]. split; [reflexivity|]. split; [intro X; exact (injective _ _ _ _ E F X)|].
  intros ->. congruence.
Qed.
