(** Proofs about the description of an edge. *)
From Coq Require Import NArith.
From Verif Require Import Prelude Selectors_Model EdgeText_Model EdgeText_Spec.
Local Open Scope N_scope.

(** *** The patterns *)
Lemma in_pseq {A B} (p : pattern A) (q : A -> pattern B) s x :
  In x (pseq p q s) <-> exists a r, In (a, r) (p s) /\ In x (q a r).
Proof.
  unfold pseq. rewrite in_flat_map. split.
  - intros ([a r] & H & K). exists a, r. auto.
  - intros (a & r & H & K). exists (a, r). auto.
Qed.
Lemma in_runs cl s a b : In (a, b) (runs cl s) <-> s = a ++ b /\ Forall (fun c => cl c = true) a.
Proof.
  revert a b. induction s as [|c s IH]; intros a b; cbn [runs In].
  - split.
    + intros [[= <- <-]|[]]. auto.
    + intros [E _]. left. destruct a; [|discriminate]. cbn in E. now subst.
  - split.
    + intros [[= <- <-]|H]; [auto|]. destruct (cl c) eqn:E; [|destruct H]. apply in_map_iff in H.
      destruct H as ([x y] & [= <- <-] & H). apply IH in H. destruct H as [-> F]. split; auto.
    + intros [E F]. destruct a as [|d a]; [left; cbn in E; now subst|]. right. cbn in E. injection E as <- ->.
      inversion F as [|? ? Hc F']. subst. rewrite Hc. apply in_map_iff. exists (a, b). split; auto. apply IH. auto.
Qed.
Lemma runs_cons cl s : runs cl s = ([], s) :: tl (runs cl s).
Proof. destruct s; reflexivity. Qed.
(** Runs are ordered by length. *)
Lemma runs_sorted cl s l1 a b l2 : runs cl s = l1 ++ (a, b) :: l2 -> forall a' b', In (a', b') (runs cl s) ->
  ((length a' < length a)%nat -> In (a', b') l1) /\ ((length a < length a')%nat -> In (a', b') l2).
Proof.
  revert l1 a b l2. induction s as [|c s IH]; intros l1 a b l2 E a' b' H; cbn [runs] in *.
  - destruct l1 as [|z l1]; cbn in E.
    + injection E as <- <- <-. destruct H as [[= <- <-]|[]]. split; intros; lia.
    + injection E as _ E. destruct l1; discriminate.
  - destruct l1 as [|z l1]; cbn [app] in E.
    + injection E as <- <- E. destruct H as [[= <- <-]|H]; [split; intros; cbn in *; lia|]. split; [cbn; lia|]. intros _. now rewrite <- E.
    + injection E as <- E. destruct H as [[= <- <-]|H]; [split; intros Q; [now left|cbn in Q; lia]|].
      destruct (cl c); [|destruct H]. apply in_map_iff in H. destruct H as ([x y] & [= <- <-] & H).
      assert (S : exists m1 u m2, l1 = map (fun x => (c :: fst x, snd x)) m1 /\ (a, b) = (c :: fst u, snd u) /\
                  l2 = map (fun x => (c :: fst x, snd x)) m2 /\ runs cl s = m1 ++ u :: m2).
      { clear - E. revert l1 E. induction (runs cl s) as [|u r IHr]; intros l1 E; cbn [map] in E; [destruct l1; discriminate|].
        destruct l1 as [|z l1]; cbn [app] in E.
        - injection E as E1 E2 E3. exists [], u, r. split; [reflexivity|]. split; [now rewrite <- E1, <- E2|]. now split.
        - injection E as <- E. destruct (IHr _ E) as (m1 & v & m2 & -> & Q & -> & ->). exists (u :: m1), v, m2. auto. }
      destruct S as (m1 & [u1 u2] & m2 & -> & [= -> ->] & -> & R). destruct (IH _ _ _ _ R x y H) as [A B]. cbn [length].
      split; intros Q.
      * right. apply in_map_iff. exists (x, y). split; auto. apply A. cbn [fst] in Q. lia.
      * apply in_map_iff. exists (x, y). split; auto. apply B. cbn [fst] in Q. lia.
Qed.

Lemma in_star cl s a b : In (a, b) (star cl s) <-> s = a ++ b /\ Forall (fun c => cl c = true) a.
Proof. unfold star. now rewrite <- in_rev, in_runs. Qed.
Lemma in_tl cl s a b : In (a, b) (tl (runs cl s)) <-> In (a, b) (runs cl s) /\ a <> [].
Proof.
  rewrite (runs_cons cl s) at 2. cbn [In]. split.
  - intros H. split; [auto|]. intros ->. pose proof (runs_cons cl s) as E. destruct s as [|c s]; cbn [runs tl] in H; [destruct H|].
    destruct (cl c); [|destruct H]. apply in_map_iff in H. destruct H as (x & Q & _). discriminate.
  - intros [[[= <- <-]|H] N]; [congruence|exact H].
Qed.
Lemma in_plus cl s a b : In (a, b) (plus cl s) <-> s = a ++ b /\ Forall (fun c => cl c = true) a /\ a <> [].
Proof. unfold plus. rewrite <- in_rev, in_tl, in_runs. tauto. Qed.
Lemma in_lazy cl s a b : In (a, b) (plus_lazy cl s) <-> s = a ++ b /\ Forall (fun c => cl c = true) a /\ a <> [].
Proof. unfold plus_lazy. rewrite in_tl, in_runs. tauto. Qed.
Lemma in_literal t s a b : In (a, b) (literal t s) <-> a = t /\ s = t ++ b.
Proof.
  revert s a b. induction t as [|c t IH]; intros s a b; cbn [literal].
  - cbn [In app]. split; [intros [[= <- <-]|[]]; auto|intros [-> ->]; auto].
  - destruct s as [|d s]; [split; [intros []|intros [_ Q]; discriminate]|]. destruct (c =? d) eqn:E.
    + apply N.eqb_eq in E. subst d. rewrite in_map_iff. split.
      * intros ([x y] & [= <- <-] & H). apply IH in H. destruct H as [-> ->]. auto.
      * intros [-> Q]. injection Q as ->. exists (t, b). split; auto. apply IH. auto.
    + split; [intros []|]. intros [-> Q]. injection Q as <- _. rewrite N.eqb_refl in E. discriminate.
Qed.
Lemma in_alternatives ts s a b : In (a, b) (alternatives ts s) <-> In a ts /\ s = a ++ b.
Proof.
  unfold alternatives. rewrite in_flat_map. split.
  - intros (t & Ht & H). apply in_literal in H. destruct H as [-> ->]. auto.
  - intros [Ht ->]. exists a. split; auto. apply in_literal. auto.
Qed.
Lemma in_optional {A} (p : pattern A) s o b : In (o, b) (optional p s) <->
  match o with Some a => In (a, b) (p s) | None => b = s end.
Proof.
  unfold optional. rewrite in_app_iff, in_map_iff. cbn [In]. destruct o as [a|]; split.
  - intros [([x y] & [= <- <-] & H)|[Q|[]]]; [exact H|discriminate].
  - intros H. left. exists (a, b). auto.
  - intros [(x & Q & _)|[[= <-]|[]]]; [discriminate|auto].
  - intros ->. right. now left.
Qed.
Lemma in_at_end s u b : In (u, b) (at_end s) <-> b = s /\ (s = [] \/ s = [10]).
Proof.
  destruct u. unfold at_end. destruct s as [|c s]; [cbn [In]; split; [intros [[= <-]|[]]; auto|intros [-> _]; auto]|].
  destruct (N.eq_dec c 10) as [->|N].
  - destruct s; cbn [In]; [split; [intros [[= <-]|[]]; auto|intros [-> _]; auto]|].
    split; [intros []|intros [_ [Q|Q]]; discriminate].
  - split; [|intros [_ [Q|Q]]; [discriminate|injection Q as Q _; contradiction]].
    intros H. exfalso. destruct c as [|p]; [destruct H|].
    do 4 (try (destruct p as [p|p|]; try (destruct H))). destruct s; [congruence|destruct H].
Qed.

Lemma name_char_iff c : name_char c = true <-> ~ In c reserved.
Proof.
  unfold name_char. rewrite negb_true_iff, <- not_true_iff_false, existsb_exists. fold reserved. split.
  - intros H Hi. apply H. exists c. split; auto. apply N.eqb_refl.
  - intros H (x & Hx & E). apply N.eqb_eq in E. now subst.
Qed.
Lemma word_iff x : word x <-> Forall (fun c => name_char c = true) x /\ x <> [].
Proof.
  unfold word. rewrite Forall_forall. split; intros [A B]; split; auto; intros c Hc; [apply name_char_iff|apply name_char_iff]; auto.
Qed.

(** *** The pattern finds exactly the descriptions *)
Definition sel_pattern : pattern (option (option text)) :=
  optional (pseq (literal colon) (fun _ => pseq ws (fun _ => optional selector_text))).
Lemma in_selector_text s a b : In (a, b) (selector_text s) <-> s = a ++ b /\ bracketed a.
Proof.
  unfold selector_text. rewrite in_pseq. split.
  - intros (x & r & H & K). apply in_literal in H. destruct H as [-> ->]. apply in_pseq in K. destruct K as (y & r' & H & K).
    apply in_star in H. destruct H as [-> F]. apply in_pseq in K. destruct K as (z & r'' & H & K). apply in_literal in H.
    destruct H as [-> ->]. cbn [pret In] in K. destruct K as [[= <- <-]|[]]. split.
    + cbn [app]. f_equal. now rewrite <- !app_assoc.
    + exists y. split; auto. intros Hi. rewrite Forall_forall in F. specialize (F 10 Hi). discriminate.
  - intros [-> (y & -> & N)]. exists [91], (y ++ [93] ++ b). split; [apply in_literal; split; auto; cbn [app]; f_equal; now rewrite <- app_assoc|].
    apply in_pseq. exists y, ([93] ++ b). split; [apply in_star; split; auto|].
    + apply Forall_forall. intros c Hc. unfold not_newline. apply negb_true_iff, N.eqb_neq. intros ->. contradiction.
    + apply in_pseq. exists [93], b. split; [apply in_literal; auto|]. left. reflexivity.
Qed.

Lemma ends_with_blank s u b w : In (u, b) (at_end s) -> blank w -> blank (w ++ s).
Proof. intros H W. apply in_at_end in H. apply Forall_app. split; auto. destruct H as [_ [->| ->]]; repeat constructor. Qed.

Lemma in_ending s sel : (exists o r1 w r2 u r3, In (o, r1) (sel_pattern s) /\ In (w, r2) (ws r1) /\ In (u, r3) (at_end r2) /\
    sel = match o with Some x => x | None => None end) <-> ending sel s.
Proof.
  unfold ending. split.
  - intros (o & r1 & w & r2 & u & r3 & A & B & C & ->). apply in_star in B. destruct B as [-> F].
    pose proof (ends_with_blank _ _ _ w C F) as W. apply in_optional in A. destruct o as [o|].
    + apply in_pseq in A. destruct A as (x & r & H & A). apply in_literal in H. destruct H as [-> ->].
      apply in_pseq in A. destruct A as (v & r' & H & A). apply in_star in H. destruct H as [-> V].
      apply in_optional in A. destruct o as [t|].
      * apply in_selector_text in A. destruct A as [-> Bk]. exists v, (w ++ r2). auto.
      * subst r'. right. exists (v ++ (w ++ r2)). split; auto. apply Forall_app. auto.
    + rewrite <- A. left. exact W.
  - destruct sel as [x|].
    + intros (w & w' & -> & W & W' & Bk). exists (Some (Some x)), w', w', [], tt, [].
      split; [|split; [apply in_star; rewrite app_nil_r; auto|split; [apply in_at_end; auto|reflexivity]]].
      apply in_optional, in_pseq. exists colon, (w ++ x ++ w'). split; [apply in_literal; auto|]. apply in_pseq. exists w, (x ++ w').
      split; [apply in_star; auto|]. apply in_optional, in_selector_text. auto.
    + intros [W|(w & -> & W)].
      * exists None, s, s, [], tt, []. split; [now apply in_optional|].
        split; [apply in_star; rewrite app_nil_r; auto|split; [apply in_at_end; auto|reflexivity]].
      * exists (Some None), [], [], [], tt, []. split; [|split; [now left|split; [apply in_at_end; auto|reflexivity]]].
        apply in_optional, in_pseq. exists colon, w. split; [apply in_literal; auto|]. apply in_pseq. exists w, [].
        split; [apply in_star; rewrite app_nil_r; auto|]. now apply in_optional.
Qed.

Lemma in_edge_pattern s e : (exists r, In (e, r) (edge_pattern s)) <-> describes s e.
Proof.
  unfold edge_pattern, describes. fold sel_pattern. split.
  - intros (r & H).
    apply in_pseq in H. destruct H as (w1 & r1 & A1 & H). apply in_star in A1. destruct A1 as [-> W1].
    apply in_pseq in H. destruct H as (n & r2 & A2 & H). apply in_lazy in A2. destruct A2 as (-> & Wn & Nn).
    apply in_pseq in H. destruct H as (w2 & r3 & A3 & H). apply in_star in A3. destruct A3 as [-> W2].
    apply in_pseq in H. destruct H as (c & r4 & A4 & H). apply in_literal in A4. destruct A4 as [-> ->].
    apply in_pseq in H. destruct H as (w3 & r5 & A5 & H). apply in_star in A5. destruct A5 as [-> W3].
    apply in_pseq in H. destruct H as (f1 & r6 & A6 & H). apply in_lazy in A6. destruct A6 as (-> & Wf & Nf).
    apply in_pseq in H. destruct H as (w4 & r7 & A7 & H). apply in_plus in A7. destruct A7 as (-> & W4 & N4).
    apply in_pseq in H. destruct H as (d & r8 & A8 & H). apply in_alternatives in A8. destruct A8 as (D & ->).
    apply in_pseq in H. destruct H as (w5 & r9 & A9 & H). apply in_plus in A9. destruct A9 as (-> & W5 & N5).
    apply in_pseq in H. destruct H as (f2 & r10 & A10 & H). apply in_lazy in A10. destruct A10 as (-> & Wg & Ng).
    apply in_pseq in H. destruct H as (w6 & r11 & A11 & H). apply in_star in A11. destruct A11 as (-> & W6).
    apply in_pseq in H. destruct H as (o & r12 & A12 & H).
    apply in_pseq in H. destruct H as (w7 & r13 & A13 & H).
    apply in_pseq in H. destruct H as (u & r14 & A14 & H).
    cbn [pret In] in H. destruct H as [H|[]]. injection H as <- <-. cbn [e_name e_file1 e_direction e_file2 e_selector].
    exists w1, w2, w3, w4, w5, w6, r11. split; [now rewrite ?app_assoc|].
    do 6 (split; [assumption|]). split; [exact N4|]. split; [exact N5|]. do 3 (split; [now apply word_iff|]). split; [exact D|].
    apply in_ending. exists o, r12, w7, r13, u, r14. auto.
  - intros (w1 & w2 & w3 & w4 & w5 & w6 & t & -> & W1 & W2 & W3 & W4 & W5 & W6 & N4 & N5 & Wn & Wf & Wg & D & E).
    apply word_iff in Wn, Wf, Wg. destruct Wn as [Wn Nn], Wf as [Wf Nf], Wg as [Wg Ng].
    apply in_ending in E. destruct E as (o & r1 & w7 & r2 & u & r3 & A & B & C & Es).
    exists r3.
    apply in_pseq. eexists w1, _. split; [apply in_star; split; [reflexivity|auto]|].
    apply in_pseq. eexists (e_name e), _. split; [apply in_lazy; split; [reflexivity|auto]|].
    apply in_pseq. eexists w2, _. split; [apply in_star; split; [reflexivity|auto]|].
    apply in_pseq. eexists colon, _. split; [apply in_literal; split; [reflexivity|reflexivity]|].
    apply in_pseq. eexists w3, _. split; [apply in_star; split; [reflexivity|auto]|].
    apply in_pseq. eexists (e_file1 e), _. split; [apply in_lazy; split; [reflexivity|auto]|].
    apply in_pseq. eexists w4, _. split; [apply in_plus; split; [reflexivity|auto]|].
    apply in_pseq. eexists (e_direction e), _. split; [apply in_alternatives; split; [exact D|reflexivity]|].
    apply in_pseq. eexists w5, _. split; [apply in_plus; split; [reflexivity|auto]|].
    apply in_pseq. eexists (e_file2 e), _. split; [apply in_lazy; split; [reflexivity|auto]|].
    apply in_pseq. eexists w6, _. split; [apply in_star; split; [reflexivity|auto]|].
    apply in_pseq. exists o, r1. split; [exact A|].
    apply in_pseq. exists w7, r2. split; [exact B|].
    apply in_pseq. exists u, r3. split; [exact C|]. left. rewrite <- Es. destruct e. reflexivity.
Qed.

(** *** Which description is found first *)
Lemma hd_flat_map {A B} (f : A -> list B) l y : hd_error (flat_map f l) = Some y ->
  exists l1 x l2, l = l1 ++ x :: l2 /\ (forall z, In z l1 -> f z = []) /\ hd_error (f x) = Some y.
Proof.
  induction l as [|a l IH]; cbn [flat_map]; [discriminate|]. destruct (f a) as [|b fa] eqn:E; cbn [app].
  - intros H. destruct (IH H) as (l1 & x & l2 & -> & Z & Q). exists (a :: l1), x, l2. split; [reflexivity|]. split; auto.
    intros z [<-|Hz]; auto.
  - cbn [hd_error]. intros [= <-]. exists [], a, l. split; auto. split; [intros z []|]. now rewrite E.
Qed.
Lemma hd_pseq {A B} (p : pattern A) (q : A -> pattern B) s y : hd_error (pseq p q s) = Some y ->
  exists a b, In (a, b) (p s) /\ hd_error (q a b) = Some y.
Proof.
  intros H. destruct (hd_flat_map _ _ _ H) as (l1 & [a b] & l2 & E & _ & Q). exists a, b. split; auto. rewrite E. apply in_elt.
Qed.

(** White space before a name, greedy. *)
Definition greedy_space (p : pattern text) : Prop := p = ws \/ p = ws1.
Lemma greedy_first {B} p (q : text -> pattern B) s y : greedy_space p -> hd_error (pseq p q s) = Some y ->
  exists a b, In (a, b) (p s) /\ hd_error (q a b) = Some y /\
    forall c b', b = c :: b' -> isspace c = true -> q (a ++ [c]) b' = [].
Proof.
  intros G H. destruct (hd_flat_map _ _ _ H) as (l1 & [a b] & l2 & E & Z & Q). exists a, b. cbn [fst snd] in *.
  assert (Hin : In (a, b) (p s)) by (rewrite E; apply in_elt).
  split; [exact Hin|]. split; [exact Q|]. intros c b' -> Hc.
  apply (Z (a ++ [c], b')).
  assert (R : In (a ++ [c], b') (runs isspace s)).
  { apply in_runs. destruct G as [->| ->].
    - apply in_star in Hin. destruct Hin as [-> F]. rewrite <- app_assoc. split; auto. apply Forall_app; auto.
    - apply in_plus in Hin. destruct Hin as (-> & F & _). rewrite <- app_assoc. split; auto. apply Forall_app; auto. }
  assert (L : (length a < length (a ++ [c]))%nat) by (rewrite app_length; cbn; lia).
  destruct G as [->| ->].
  - unfold ws, star in E. apply (f_equal (@rev _)) in E. rewrite rev_involutive, rev_app_distr in E. cbn [rev] in E. rewrite <- app_assoc in E.
    apply in_rev. exact (proj2 (runs_sorted _ _ _ _ _ _ E _ _ R) L).
  - unfold ws1, plus in E. apply (f_equal (@rev _)) in E. rewrite rev_involutive, rev_app_distr in E. cbn [rev] in E. rewrite <- app_assoc in E.
    apply in_rev. assert (E' : runs isspace s = (([], s) :: rev l2) ++ (a, c :: b') :: rev l1) by (rewrite runs_cons, E; reflexivity).
    exact (proj2 (runs_sorted _ _ _ _ _ _ E' _ _ R) L).
Qed.
Lemma lazy_first {B} cl (q : text -> pattern B) s y : hd_error (pseq (plus_lazy cl) q s) = Some y ->
  exists a b, In (a, b) (plus_lazy cl s) /\ hd_error (q a b) = Some y /\
    forall a' c, a = a' ++ [c] -> a' <> [] -> q a' (c :: b) = [].
Proof.
  intros H. destruct (hd_flat_map _ _ _ H) as (l1 & [a b] & l2 & E & Z & Q). exists a, b. cbn [fst snd] in *.
  assert (Hin : In (a, b) (plus_lazy cl s)) by (rewrite E; apply in_elt).
  split; [exact Hin|]. split; [exact Q|]. intros a' c -> Na.
  apply (Z (a', c :: b)). apply in_lazy in Hin. destruct Hin as (-> & F & _).
  assert (R : In (a', c :: b) (runs cl ((a' ++ [c]) ++ b))).
  { apply in_runs. rewrite <- app_assoc. split; auto. now apply Forall_app in F. }
  assert (L : (length a' < length (a' ++ [c]))%nat) by (rewrite app_length; cbn; lia).
  unfold plus_lazy in E. assert (E' : runs cl ((a' ++ [c]) ++ b) = (([], (a' ++ [c]) ++ b) :: l1) ++ (a' ++ [c], b) :: l2) by (rewrite runs_cons, E; reflexivity).
  destruct (proj1 (runs_sorted _ _ _ _ _ _ E' _ _ R) L) as [Q'|Q']; [|exact Q']. injection Q' as Q' _. congruence.
Qed.

(** A name between white space is found without the white space at its ends. *)
Definition same_ways {B} (k : text -> pattern B) : Prop := forall x x' b, k x b = [] -> k x' b = [].
Lemma trim_stage {B} p p' (k : text -> pattern B) s y : greedy_space p -> greedy_space p' -> same_ways k ->
  hd_error (pseq p (fun _ => pseq (plus_lazy name_char) (fun x => pseq p' (fun _ => k x))) s) = Some y ->
  exists x b, (trimmed x \/ lone x) /\ hd_error (k x b) = Some y.
Proof.
  intros G G' S H. destruct (greedy_first _ _ _ _ G H) as (a & b & Ha & H1 & P1).
  destruct (lazy_first _ _ _ _ H1) as (x & b2 & Hx & H2 & P2). destruct (hd_pseq _ _ _ _ H2) as (w & b3 & Hw & H3).
  apply in_lazy in Hx. destruct Hx as (Eb & Fx & Nx). exists x, b3. split; [|exact H3].
  assert (K : forall z b, In (z, b3) (p' b) -> forall x', k x' b3 <> []).
  { intros z b' _ x' Q. apply (S x' x) in Q. rewrite Q in H3. discriminate. }
  assert (Ne : k x b3 <> []) by (intros Q; rewrite Q in H3; discriminate).
  assert (Lead : forall c z, x = c :: z -> isspace c = true -> z = []).
  { intros c z -> Hc. destruct z as [|d z]; [auto|exfalso]. cbn [app] in Eb. specialize (P1 c ((d :: z) ++ b2) Eb Hc).
    assert (Q : exists v, In v (pseq (plus_lazy name_char) (fun x => pseq p' (fun _ => k x)) ((d :: z) ++ b2))).
    { destruct (k (d :: z) b3) as [|v l] eqn:Ek; [exfalso; exact (K w b2 Hw (d :: z) Ek)|]. exists v. apply in_pseq.
      exists (d :: z), b2. split; [apply in_lazy; split; auto; split; [now inversion Fx|discriminate]|]. apply in_pseq.
      exists w, b3. split; auto. rewrite Ek. now left. }
    destruct Q as (v & Q). rewrite P1 in Q. destruct Q. }
  assert (Trail : forall c z, x = z ++ [c] -> isspace c = true -> z = []).
  { intros c z -> Hc. destruct z as [|d z]; [auto|exfalso]. specialize (P2 (d :: z) c eq_refl ltac:(discriminate)).
    assert (Q : exists v, In v (pseq p' (fun _ => k (d :: z)) (c :: b2))).
    { destruct (k (d :: z) b3) as [|v l] eqn:Ek; [exfalso; exact (K w b2 Hw (d :: z) Ek)|]. exists v. apply in_pseq.
      exists (c :: w), b3. split; [|rewrite Ek; now left]. destruct G' as [->| ->].
      - apply in_star in Hw. destruct Hw as [-> F]. apply in_star. auto.
      - apply in_plus in Hw. destruct Hw as (-> & F & _). apply in_plus. split; auto. split; [auto|discriminate]. }
    destruct Q as (v & Q). rewrite P2 in Q. destruct Q. }
  destruct x as [|c [|d z]]; [congruence| |].
  - destruct (isspace c) eqn:Hc; [right; now exists c|]. left. split.
    + intros c' y' [= <- <-]. exact Hc.
    + intros c' y' Q. destruct y' as [|? [|? ?]]; [|discriminate|discriminate]. now injection Q as <-.
  - left. split.
    + intros c' y' [= <- <-]. destruct (isspace c) eqn:Hc; auto. specialize (Lead c (d :: z) eq_refl Hc). discriminate.
    + intros c' y' Q. destruct (isspace c') eqn:Hc; auto. specialize (Trail c' y' Q Hc). subst y'. discriminate.
Qed.

Lemma pseq_empty {A B B'} (p : pattern A) (q : A -> pattern B) (q' : A -> pattern B') :
  (forall a s, q a s = [] -> q' a s = []) -> forall s, pseq p q s = [] -> pseq p q' s = [].
Proof.
  intros H s E. unfold pseq in *. induction (p s) as [|[a b] l IH]; cbn [flat_map fst snd] in *; auto.
  apply app_eq_nil in E. destruct E as [E1 E2]. rewrite (H _ _ E1). now rewrite IH.
Qed.

Lemma first_tidy s e r : hd_error (edge_pattern s) = Some (e, r) ->
  (trimmed (e_name e) \/ lone (e_name e)) /\ (trimmed (e_file1 e) \/ lone (e_file1 e)) /\ (trimmed (e_file2 e) \/ lone (e_file2 e)).
Proof.
  intros H. unfold edge_pattern in H.
  apply trim_stage in H; [|now left|now left|].
  2:{ intros x x' b. repeat (apply pseq_empty; intros ? ?). discriminate. }
  destruct H as (name & b1 & T1 & H). apply hd_pseq in H. destruct H as (c & b2 & _ & H).
  apply trim_stage in H; [|now left|now right|].
  2:{ intros x x' b. repeat (apply pseq_empty; intros ? ?). discriminate. }
  destruct H as (file1 & b3 & T2 & H). apply hd_pseq in H. destruct H as (d & b4 & _ & H).
  apply trim_stage in H; [|now right|now left|].
  2:{ intros x x' b. repeat (apply pseq_empty; intros ? ?). discriminate. }
  destruct H as (file2 & b5 & T3 & H). apply hd_pseq in H. destruct H as (o & b6 & _ & H).
  apply hd_pseq in H. destruct H as (w & b7 & _ & H). apply hd_pseq in H. destruct H as (u & b8 & _ & H).
  cbn [pret hd_error] in H. injection H as <- <-. cbn [e_name e_file1 e_file2]. auto.
Qed.
