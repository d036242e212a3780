(** Proofs about the description of an edge: at most one tidy reading. *)
From Coq Require Import NArith.
From Verif Require Import Prelude Selectors_Model EdgeText_Model EdgeText_Spec EdgeText_Proofs.
Local Open Scope N_scope.

Lemma split_at {A} (c : A) a b a' b' : a ++ c :: b = a' ++ c :: b' -> ~ In c a -> ~ In c a' -> a = a' /\ b = b'.
Proof.
  revert a'. induction a as [|x a IH]; intros [|y a'] E N N'; cbn [app] in E.
  - injection E as ->. auto.
  - injection E as -> _. exfalso. apply N'. now left.
  - injection E as -> _. exfalso. apply N. now left.
  - injection E as -> E. destruct (IH a' E) as [-> ->]; auto; intros Q; [apply N|apply N']; now right.
Qed.
Lemma blank_not c w : isspace c = false -> blank w -> ~ In c w.
Proof. intros H W Hi. unfold blank in W. rewrite Forall_forall in W. rewrite (W c Hi) in H. discriminate. Qed.

Lemma blank_prefix w w' x x' : blank w -> blank w' -> (forall c y, x = c :: y -> isspace c = false) -> (forall c y, x' = c :: y -> isspace c = false) ->
  x <> [] -> x' <> [] -> w ++ x = w' ++ x' -> w = w' /\ x = x'.
Proof.
  revert w'. induction w as [|a w IH]; intros [|b w'] W W' T T' N N' E; cbn [app] in E.
  - auto.
  - subst x. inversion W' as [|? ? Hb _]. rewrite (T b (w' ++ x') eq_refl) in Hb. discriminate.
  - subst x'. inversion W as [|? ? Hb _]. rewrite (T' a (w ++ x) eq_refl) in Hb. discriminate.
  - injection E as -> E. inversion W; inversion W'; subst. destruct (IH w') as [-> ->]; auto.
Qed.
Lemma trimmed_rev x : trimmed x -> forall c y, rev x = c :: y -> isspace c = false.
Proof. intros [_ T] c y E. apply (T c (rev y)). apply (f_equal (@rev _)) in E. now rewrite rev_involutive in E. Qed.

Lemma trim_unique w1 x w2 w1' x' w2' : blank w1 -> blank w2 -> blank w1' -> blank w2' -> trimmed x -> x <> [] -> x' <> [] ->
  trimmed x' \/ lone x' -> w1 ++ x ++ w2 = w1' ++ x' ++ w2' -> x = x'.
Proof.
  intros B1 B2 B1' B2' T N N' [T'|(c & -> & Hc)] E.
  - destruct x as [|a x]; [congruence|]. destruct x' as [|a' x']; [congruence|].
    destruct (blank_prefix w1 w1' ((a :: x) ++ w2) ((a' :: x') ++ w2')) as [-> E']; auto; try discriminate.
    + intros c y [= <- _]. exact (proj1 T a x eq_refl).
    + intros c y [= <- _]. exact (proj1 T' a' x' eq_refl).
    + apply (f_equal (@rev _)) in E'. rewrite !rev_app_distr in E'.
      destruct (blank_prefix (rev w2) (rev w2') (rev (a :: x)) (rev (a' :: x'))) as [_ R]; auto.
      * now apply Forall_rev.
      * now apply Forall_rev.
      * now apply trimmed_rev.
      * now apply trimmed_rev.
      * intros Q. apply (f_equal (@rev _)) in Q. rewrite rev_involutive in Q. discriminate.
      * intros Q. apply (f_equal (@rev _)) in Q. rewrite rev_involutive in Q. discriminate.
      * apply (f_equal (@rev _)) in R. now rewrite !rev_involutive in R.
  - exfalso. destruct x as [|a x]; [congruence|]. pose proof (proj1 T a x eq_refl) as Ha.
    assert (B : blank (w1' ++ [c] ++ w2')) by (apply Forall_app; split; auto; apply Forall_app; split; auto).
    rewrite <- E in B. apply Forall_app in B. destruct B as [_ B]. inversion B as [|? ? Q _]. congruence.
Qed.

Definition angle (c : N) : Prop := c = 60 \/ c = 62.
Definition flat (p : text) : Prop := forall c, In c p -> ~ angle c.
Definition ends_blank (p : text) : Prop := exists q c, p = q ++ [c] /\ isspace c = true.
Definition starts_blank (p : text) : Prop := exists q c, p = c :: q /\ isspace c = true.

Lemma dir_prefix l d r X : is_direction d -> d ++ r = l ++ X -> l = [] \/ l = [45] \/ l = [45; 45] \/ exists x, In x l /\ angle x.
Proof.
  intros D E.
  assert (A : forall x y (s : text), (x :: y) ++ r = l ++ X -> angle x -> l = [] \/ exists x, In x l /\ angle x).
  { intros x y _ Q Ax. destruct l as [|z l]; [auto|]. right. cbn in Q. injection Q as <- _. exists x. split; [now left|auto]. }
  unfold is_direction in D. cbn [In] in D. destruct D as [<-|[<-|[<-|[<-|[<-|[<-|[]]]]]]].
  - destruct l as [|x1 [|x2 l]]; [auto|cbn in E; injection E as <- _; auto|]. cbn in E. injection E as <- <- _. right. right. right. exists 62. split; [cbn; auto|now right].
  - destruct l as [|x1 [|x2 [|x3 l]]]; [auto|cbn in E; injection E as <- _; auto|cbn in E; injection E as <- <- _; auto|].
    cbn in E. injection E as <- <- <- _. right. right. right. exists 62. split; [cbn; auto|now right].
  - destruct (A 60 (txt "->") [] E) as [Q|Q]; [now left|auto|auto].
  - destruct (A 60 (txt "-->") [] E) as [Q|Q]; [now left|auto|auto].
  - destruct (A 60 (txt "-") [] E) as [Q|Q]; [now left|auto|auto].
  - destruct (A 60 (txt "--") [] E) as [Q|Q]; [now left|auto|auto].
Qed.
Lemma dir_solid d : is_direction d -> forall c, In c d -> isspace c = false.
Proof.
  intros D c Hc. unfold is_direction in D. cbn [In] in D. destruct D as [<-|[<-|[<-|[<-|[<-|[<-|[]]]]]]]; cbn in Hc;
    repeat (destruct Hc as [<-|Hc]; [reflexivity|]); destruct Hc.
Qed.
Lemma solid_prefix d d' r r' : (forall c, In c d -> isspace c = false) -> (forall c, In c d' -> isspace c = false) ->
  starts_blank r -> starts_blank r' -> d ++ r = d' ++ r' -> d = d' /\ r = r'.
Proof.
  intros S S' (q & c & -> & Hc) (q' & c' & -> & Hc'). revert d' S'. induction d as [|x d IH]; intros [|y d'] S' E; cbn [app] in E.
  - auto.
  - injection E as -> _. rewrite (S' y) in Hc; [discriminate|now left].
  - injection E as -> _. rewrite (S c') in Hc'; [discriminate|now left].
  - injection E as -> E. destruct (IH (fun c Hc => S c (or_intror Hc)) d') as [-> Q]; auto. intros z Hz. apply S'. now right.
Qed.
Lemma dir_first l d r d' r' : is_direction d -> is_direction d' -> flat l -> l = [] \/ ends_blank l ->
  starts_blank r -> starts_blank r' -> d ++ r = l ++ d' ++ r' -> l = [] /\ d = d' /\ r = r'.
Proof.
  intros D D' F L R R' E.
  assert (l = []) as ->.
  { destruct (dir_prefix _ _ _ _ D E) as [Q|[Q|[Q|(x & Hx & A)]]]; [exact Q| | |exfalso; exact (F x Hx A)].
    - destruct L as [L|(m & b & Em & Hb)]; [exact L|]. exfalso. rewrite Q in Em. destruct m as [|? [|? ?]]; try discriminate.
      injection Em as <-. discriminate.
    - destruct L as [L|(m & b & Em & Hb)]; [exact L|]. exfalso. rewrite Q in Em. destruct m as [|? [|? [|? ?]]]; try discriminate.
      injection Em as _ <-. discriminate. }
  split; [reflexivity|]. exact (solid_prefix d d' r r' (dir_solid d D) (dir_solid d' D') R R' E).
Qed.
Lemma app_cases {A} (a b c d : list A) : a ++ b = c ++ d -> (exists l, c = a ++ l /\ b = l ++ d) \/ (exists l, a = c ++ l /\ d = l ++ b).
Proof.
  revert c. induction a as [|x a IH]; intros [|y c] E; cbn [app] in *.
  - left. exists []. auto.
  - left. exists (y :: c). auto.
  - right. exists (x :: a). auto.
  - injection E as -> E. destruct (IH _ E) as [(l & -> & ->)|(l & -> & ->)]; [left|right]; exists l; auto.
Qed.
Lemma dir_split P d r P' d' r' : is_direction d -> is_direction d' -> flat P -> flat P' -> ends_blank P -> ends_blank P' ->
  starts_blank r -> starts_blank r' -> P ++ d ++ r = P' ++ d' ++ r' -> P = P' /\ d = d' /\ r = r'.
Proof.
  assert (Suf : forall (P l : text), ends_blank (P ++ l) -> l = [] \/ ends_blank l).
  { intros Q l (q & c & E & Hc). destruct l as [|x l]; [now left|]. right.
    destruct (exists_last (l := x :: l) ltac:(discriminate)) as (m & b & Em).
    rewrite Em in E |- *. rewrite app_assoc in E. apply app_inj_tail in E. destruct E as [_ ->]. exists m, c. auto. }
  intros D D' F F' B B' R R' E. destruct (app_cases _ _ _ _ E) as [(l & -> & Q)|(l & -> & Q)].
  - destruct (dir_first l d r d' r') as (-> & -> & ->); auto; [|now apply (Suf P)|now rewrite app_nil_r].
    intros c Hc. apply F'. apply in_app_iff. auto.
  - destruct (dir_first l d' r' d r) as (-> & -> & ->); auto; [|now apply (Suf P')|now rewrite app_nil_r].
    intros c Hc. apply F. apply in_app_iff. auto.
Qed.

Lemma bracketed_trimmed x : bracketed x -> trimmed x /\ x <> [].
Proof.
  intros (y & -> & _). split; [|discriminate]. split.
  - intros c z [= <- _]. reflexivity.
  - intros c z Q. rewrite app_assoc in Q. apply app_inj_tail in Q. destruct Q as [_ <-]. reflexivity.
Qed.
Lemma ending_unique t sel sel' : ending sel t -> ending sel' t -> sel = sel'.
Proof.
  intros E E'. destruct sel as [x|], sel' as [x'|]; cbn [ending] in *.
  - destruct E as (w & w' & -> & W & W' & B), E' as (v & v' & Q & V & V' & B').
    destruct (bracketed_trimmed _ B) as [T N], (bracketed_trimmed _ B') as [T' N']. f_equal. cbn [app] in Q. injection Q as Q.
    exact (trim_unique w x w' v x' v' W W' V V' T N N' (or_introl T') Q).
  - exfalso. destruct E as (w & w' & -> & W & W' & B). destruct (bracketed_trimmed _ B) as [[T _] N]. destruct x as [|a x]; [congruence|].
    specialize (T a x eq_refl). destruct E' as [V|(v & Q & V)].
    + inversion V. discriminate.
    + cbn [app] in Q. injection Q as <-. apply Forall_app in V. destruct V as [_ V]. inversion V. congruence.
  - exfalso. destruct E' as (w & w' & -> & W & W' & B). destruct (bracketed_trimmed _ B) as [[T _] N]. destruct x' as [|a x]; [congruence|].
    specialize (T a x eq_refl). destruct E as [V|(v & Q & V)].
    + inversion V. discriminate.
    + cbn [app] in Q. injection Q as <-. apply Forall_app in V. destruct V as [_ V]. inversion V. congruence.
  - reflexivity.
Qed.
Lemma ending_shape t sel : ending sel t -> blank t \/ exists u, t = [58] ++ u.
Proof.
  destruct sel as [x|]; cbn [ending].
  - intros (w & w' & -> & _). right. eauto.
  - intros [B|(w & -> & _)]; [auto|right; eauto].
Qed.
Lemma word_not c x : word x -> In c reserved -> ~ In c x.
Proof. intros [_ W] R Hi. exact (W c Hi R). Qed.
Lemma no_in c a b x : isspace c = false -> In c reserved -> blank a -> word x -> blank b -> ~ In c (a ++ x ++ b).
Proof.
  intros S R A X B. rewrite !in_app_iff. intros [Q|[Q|Q]]; [exact (blank_not c a S A Q)|exact (word_not c x X R Q)|exact (blank_not c b S B Q)].
Qed.

Lemma describes_unique s e e' : describes s e -> describes s e' -> tidy e ->
  (trimmed (e_name e') \/ lone (e_name e')) -> (trimmed (e_file1 e') \/ lone (e_file1 e')) -> (trimmed (e_file2 e') \/ lone (e_file2 e')) ->
  e = e'.
Proof.
  intros (w1 & w2 & w3 & w4 & w5 & w6 & t & -> & W1 & W2 & W3 & W4 & W5 & W6 & N4 & N5 & Wn & Wf & Wg & D & En)
    (v1 & v2 & v3 & v4 & v5 & v6 & u & E & V1 & V2 & V3 & V4 & V5 & V6 & M4 & M5 & Vn & Vf & Vg & D' & En') (T1 & T2 & T3) L1 L2 L3.
  destruct e as [n f1 d f2 sel], e' as [n' f1' d' f2' sel']. cbn [e_name e_file1 e_direction e_file2 e_selector] in *.
  destruct (split_at 58 (w1 ++ n ++ w2) (w3 ++ f1 ++ w4 ++ d ++ w5 ++ f2 ++ w6 ++ t)
                        (v1 ++ n' ++ v2) (v3 ++ f1' ++ v4 ++ d' ++ v5 ++ f2' ++ v6 ++ u)) as [E1 E2].
  { rewrite <- !app_assoc. exact E. }
  { apply no_in; auto. cbn. tauto. }
  { apply no_in; auto. cbn. tauto. }
  assert (n = n') by exact (trim_unique w1 n w2 v1 n' v2 W1 W2 V1 V2 T1 (proj1 Wn) (proj1 Vn) L1 E1). subst n'.
  assert (FL : forall a b x, blank a -> word x -> blank b -> flat (a ++ x ++ b)).
  { intros a b x A X B c Hc [-> | ->]; revert Hc; apply no_in; auto; cbn; tauto. }
  assert (EB : forall a x b, blank b -> b <> [] -> ends_blank (a ++ x ++ b)).
  { intros a x b B N. destruct (exists_last N) as (m & c & ->). exists (a ++ x ++ m), c. rewrite <- !app_assoc. split; auto.
    apply Forall_app in B. destruct B as [_ B]. now inversion B. }
  assert (SB : forall a (x : text), blank a -> a <> [] -> starts_blank (a ++ x)).
  { intros a x A N. destruct a as [|c a]; [congruence|]. exists (a ++ x), c. split; auto. now inversion A. }
  destruct (dir_split (w3 ++ f1 ++ w4) d (w5 ++ f2 ++ w6 ++ t) (v3 ++ f1' ++ v4) d' (v5 ++ f2' ++ v6 ++ u)) as (E3 & <- & E4); auto.
  { rewrite <- !app_assoc. exact E2. }
  assert (f1 = f1') by exact (trim_unique w3 f1 w4 v3 f1' v4 W3 W4 V3 V4 T2 (proj1 Wf) (proj1 Vf) L2 E3). subst f1'.
  assert (Q : f2 = f2' /\ sel = sel').
  { destruct (ending_shape _ _ En) as [Bt|(t' & Et)], (ending_shape _ _ En') as [Bu|(u' & Eu)].
    - split.
      + apply (trim_unique w5 f2 (w6 ++ t) v5 f2' (v6 ++ u)); auto; try (apply Forall_app; auto); [apply (proj1 Wg)|apply (proj1 Vg)].
      + destruct sel as [x|]; [destruct En as (? & ? & Q & _); rewrite Q in Bt; inversion Bt; discriminate|].
        destruct sel' as [x|]; [destruct En' as (? & ? & Q & _); rewrite Q in Bu; inversion Bu; discriminate|]. reflexivity.
    - exfalso. assert (In 58 (w5 ++ f2 ++ w6 ++ t)) by (rewrite E4, Eu, !in_app_iff; cbn; tauto).
      revert H. rewrite (app_assoc f2), (app_assoc w5). rewrite in_app_iff. intros [Q|Q]; revert Q; [|apply blank_not; auto].
      rewrite <- ?app_assoc. apply no_in; auto. cbn. tauto.
    - exfalso. assert (In 58 (v5 ++ f2' ++ v6 ++ u)) by (rewrite <- E4, Et, !in_app_iff; cbn; tauto).
      revert H. rewrite (app_assoc f2'), (app_assoc v5). rewrite in_app_iff. intros [Q|Q]; revert Q; [|apply blank_not; auto].
      rewrite <- ?app_assoc. apply no_in; auto. cbn. tauto.
    - destruct (split_at 58 (w5 ++ f2 ++ w6) t' (v5 ++ f2' ++ v6) u') as [E5 ->].
      { rewrite Et, Eu in E4. rewrite <- !app_assoc. exact E4. }
      { apply no_in; auto. cbn. tauto. }
      { apply no_in; auto. cbn. tauto. }
      split.
      + exact (trim_unique w5 f2 w6 v5 f2' v6 W5 W6 V5 V6 T3 (proj1 Wg) (proj1 Vg) L3 E5).
      + rewrite Et in En. rewrite Eu in En'. exact (ending_unique _ _ _ En En'). }
  destruct Q as [-> ->]. reflexivity.
Qed.

Lemma name_unique s e e' : describes s e -> describes s e' -> trimmed (e_name e) -> (trimmed (e_name e') \/ lone (e_name e')) -> e_name e = e_name e'.
Proof.
  intros (w1 & w2 & w3 & w4 & w5 & w6 & t & -> & W1 & W2 & W3 & W4 & W5 & W6 & N4 & N5 & Wn & Wf & Wg & D & En)
    (v1 & v2 & v3 & v4 & v5 & v6 & u & E & V1 & V2 & V3 & V4 & V5 & V6 & M4 & M5 & Vn & Vf & Vg & D' & En') T1 L1.
  destruct e as [n f1 d f2 sel], e' as [n' f1' d' f2' sel']. cbn [e_name e_file1 e_direction e_file2 e_selector] in *.
  destruct (split_at 58 (w1 ++ n ++ w2) (w3 ++ f1 ++ w4 ++ d ++ w5 ++ f2 ++ w6 ++ t)
                        (v1 ++ n' ++ v2) (v3 ++ f1' ++ v4 ++ d' ++ v5 ++ f2' ++ v6 ++ u)) as [E1 E2].
  { rewrite <- !app_assoc. exact E. }
  { apply no_in; auto. cbn. tauto. }
  { apply no_in; auto. cbn. tauto. }
  exact (trim_unique w1 n w2 v1 n' v2 W1 W2 V1 V2 T1 (proj1 Wn) (proj1 Vn) L1 E1).
Qed.

Lemma parse_some s e : parse_edge_shorthand s = Some e -> exists r, hd_error (edge_pattern s) = Some (e, r).
Proof. unfold parse_edge_shorthand. destruct (edge_pattern s) as [|[x r] l]; [discriminate|]. intros [= <-]. exists r. reflexivity. Qed.
Lemma parse_none s : parse_edge_shorthand s = None <-> forall e, ~ describes s e.
Proof.
  unfold parse_edge_shorthand. destruct (edge_pattern s) as [|[x r] l] eqn:E.
  - split; auto. intros _ e De. apply in_edge_pattern in De. destruct De as (r & H). rewrite E in H. destruct H.
  - split; [discriminate|]. intros H. exfalso. apply (H x). apply in_edge_pattern. exists r. rewrite E. now left.
Qed.
Lemma parse_describes s e : parse_edge_shorthand s = Some e -> describes s e /\
  (trimmed (e_name e) \/ lone (e_name e)) /\ (trimmed (e_file1 e) \/ lone (e_file1 e)) /\ (trimmed (e_file2 e) \/ lone (e_file2 e)).
Proof.
  intros H. destruct (parse_some s e H) as (r & Q). split; [|exact (first_tidy s e r Q)]. apply in_edge_pattern. exists r.
  destruct (edge_pattern s); [discriminate|]. left. now injection Q.
Qed.
Lemma parse_tidy s e : describes s e -> tidy e -> parse_edge_shorthand s = Some e.
Proof.
  intros De T. destruct (parse_edge_shorthand s) as [e'|] eqn:E.
  - destruct (parse_describes s e' E) as (De' & A & B & C). f_equal. symmetry. now apply (describes_unique s).
  - exfalso. exact (proj1 (parse_none s) E e De).
Qed.
