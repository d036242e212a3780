From Verif Require Import Prelude Selectors_Model Selectors_Spec.
From Coq Require Import Permutation ZifyBool Sorted.

(* ---------------------------------------------------------------- texts *)
Lemma text_eqb_iff a : forall b, text_eqb a b = true <-> a = b.
Proof.
  induction a as [|x a IH]; destruct b as [|y b]; cbn; split; try congruence; intros H.
  - apply andb_prop in H. destruct H as [H1 H2]. apply N.eqb_eq in H1. apply IH in H2. congruence.
  - inversion H; subst. rewrite N.eqb_refl. apply IH. reflexivity.
Qed.

Lemma text_eqb_refl a : text_eqb a a = true.
Proof. apply text_eqb_iff. reflexivity. Qed.

Lemma startswith_iff a : forall b, startswith b a = true <-> exists rest, b = a ++ rest.
Proof.
  induction a as [|x a IH]; intros b; cbn.
  - split; [intros _; exists b; reflexivity|reflexivity].
  - destruct b as [|y b].
    + split; [discriminate|intros [r Hr]; discriminate].
    + split; intros H.
      * apply andb_prop in H. destruct H as [H1 H2]. apply N.eqb_eq in H1.
        apply IH in H2. destruct H2 as [r ->]. exists r. subst y. reflexivity.
      * destruct H as [r Hr]. inversion Hr; subst. rewrite N.eqb_refl. cbn.
        apply IH. exists r. reflexivity.
Qed.

Lemma endswith_iff a b : endswith b a = true <-> exists pre, b = pre ++ a.
Proof.
  unfold endswith. rewrite startswith_iff. split; intros [r Hr].
  - exists (rev r). rewrite <- (rev_involutive b), Hr, rev_app_distr, rev_involutive. reflexivity.
  - exists (rev r). rewrite Hr, rev_app_distr. reflexivity.
Qed.

Lemma contains_iff a b : contains b a = true <-> exists pre post, b = pre ++ a ++ post.
Proof.
  induction b as [|y b IH].
  - cbn. rewrite orb_false_r, startswith_iff. split.
    + intros [r Hr]. exists [], r. exact Hr.
    + intros [p [q H]]. symmetry in H. apply app_eq_nil in H. destruct H as [_ H].
      exists q. symmetry. exact H.
  - cbn [contains]. rewrite orb_true_iff, startswith_iff, IH. split.
    + intros [[r Hr]|[p [q H]]].
      * exists [], r. exact Hr.
      * exists (y :: p), q. rewrite H. reflexivity.
    + intros [p [q H]]. destruct p as [|z p].
      * left. exists q. exact H.
      * right. inversion H; subst. exists p, q. reflexivity.
Qed.

Lemma isspace_iff c : isspace c = true <-> is_space c.
Proof.
  unfold is_space. split.
  - intros H. unfold isspace in H. cbn [In].
    assert (H' : (9 <= c <= 13 \/ 28 <= c <= 32 \/ c = 133 \/ c = 160 \/ c = 5760 \/
       8192 <= c <= 8202 \/ c = 8232 \/ c = 8233 \/ c = 8239 \/ c = 8287 \/ c = 12288)%N) by lia.
    lia.
  - intros H. cbn [In] in H. repeat (destruct H as [<-|H]; [reflexivity|]). destruct H.
Qed.

(* ---------------------------------------------------------------- split *)
Definition nows (w : text) : Prop := forall c, In c w -> ~ is_space c.
Definition occurs (w b : text) : Prop :=
  exists pre post, b = pre ++ w ++ post /\
    (pre = [] \/ exists p c, pre = p ++ [c] /\ is_space c) /\
    (post = [] \/ exists c p, post = c :: p /\ is_space c).

Lemma prefix_cmp {A} (a b c d : list A) : a ++ b = c ++ d ->
  (exists e, c = a ++ e /\ b = e ++ d) \/ (exists e, a = c ++ e /\ d = e ++ b).
Proof.
  revert c. induction a as [|x a IH]; intros c H.
  - left. exists c. split; [reflexivity|exact H].
  - destruct c as [|y c].
    + right. exists (x :: a). split; [reflexivity|]. symmetry. exact H.
    + cbn in H. inversion H; subst. destruct (IH _ H2) as [[e [-> He]]|[e [-> He]]].
      * left. exists e. split; [reflexivity|exact He].
      * right. exists e. split; [reflexivity|exact He].
Qed.

Lemma split_aux_iff w : w <> [] -> nows w -> forall b cur, nows cur ->
  (In w (split_aux cur b) <-> occurs w (rev cur ++ b)).
Proof.
  intros Hw Hnw. induction b as [|c b IH]; intros cur Hcur.
  - assert (Hx : occurs w (rev cur ++ []) <-> w = rev cur).
    { rewrite app_nil_r. split.
      - intros [pre [post [H [Hpre Hpost]]]].
        assert (Hall : forall z, In z (rev cur) -> ~ is_space z)
          by (intros z Hz; apply Hcur; apply in_rev; exact Hz).
        assert (pre = []) as ->.
        { destruct Hpre as [->|[p [z [-> Hz]]]]; [reflexivity|]. exfalso.
          apply (Hall z); [|exact Hz]. rewrite H. rewrite <- app_assoc. apply in_or_app. right.
          left. reflexivity. }
        assert (post = []) as ->.
        { destruct Hpost as [->|[z [p [-> Hz]]]]; [reflexivity|]. exfalso.
          apply (Hall z); [|exact Hz]. rewrite H. cbn. apply in_or_app. right. left. reflexivity. }
        rewrite H. cbn. rewrite app_nil_r. reflexivity.
      - intros ->. exists [], []. cbn. rewrite app_nil_r. auto. }
    rewrite Hx. cbn. destruct cur as [|z cur].
    + cbn. split; [intros []|]. intros ->. apply Hw. reflexivity.
    + cbn [In]. split; [intros [H|[]]; symmetry; exact H|intros ->; left; reflexivity].
  - cbn [split_aux]. destruct (isspace c) eqn:Ec.
    + apply isspace_iff in Ec.
      assert (Hsplit : In w (match cur with [] => split_aux [] b | _ => rev cur :: split_aux [] b end)
                       <-> (w = rev cur \/ In w (split_aux [] b))).
      { destruct cur as [|z cur].
        - split; [auto|]. intros [H|H]; [|exact H]. cbn in H. exfalso. apply Hw. exact H.
        - cbn [In]. split; intros [H|H]; auto. }
      rewrite Hsplit, (IH [] ltac:(intros z [])). cbn [rev app]. split.
      * intros [H|[pre [post [H [Hpre Hpost]]]]].
        -- subst w. exists [], (c :: b). split; [reflexivity|]. split; [left; reflexivity|].
           right. exists c, b. auto.
        -- exists (rev cur ++ c :: pre), post. split; [rewrite H, <- app_assoc; reflexivity|].
           split; [|exact Hpost]. right. destruct Hpre as [->|[p [z [-> Hz]]]].
           ++ exists (rev cur), c. auto.
           ++ exists (rev cur ++ c :: p), z. split; [rewrite <- app_assoc; reflexivity|exact Hz].
      * intros [pre [post [H [Hpre Hpost]]]]. destruct Hpre as [->|[p [z [-> Hz]]]].
        -- left. cbn in H. destruct (prefix_cmp _ _ _ _ H) as [[e [He1 He2]]|[e [He1 He2]]].
           ++ destruct e as [|x e].
              ** rewrite app_nil_r in He1. exact He1.
              ** cbn in He2. inversion He2; subst x. exfalso. apply (Hnw c); [|exact Ec].
                 rewrite He1. apply in_or_app. right. left. reflexivity.
           ++ destruct e as [|x e].
              ** rewrite app_nil_r in He1. symmetry. exact He1.
              ** exfalso. destruct Hpost as [->|[y [q [-> Hy]]]]; [discriminate|].
                 cbn in He2. inversion He2; subst y.
                 apply (Hcur x); [|exact Hy]. apply in_rev. rewrite He1.
                 apply in_or_app. right. left. reflexivity.
        -- right. destruct (prefix_cmp _ _ _ _ H) as [[e [He1 He2]]|[e [He1 He2]]].
           ++ destruct e as [|x e].
              ** exfalso. rewrite app_nil_r in He1. apply (Hcur z); [|exact Hz].
                 apply in_rev. rewrite <- He1. apply in_or_app. right. left. reflexivity.
              ** cbn in He2. inversion He2; subst x. exists e, post.
                 split; [reflexivity || exact H2|]. split; [|exact Hpost].
                 destruct e as [|y e] using rev_ind; [left; reflexivity|clear IHe].
                 right. exists e, y. split; [reflexivity|].
                 change (rev cur ++ c :: e ++ [y]) with (rev cur ++ (c :: e) ++ [y]) in He1.
                 rewrite app_assoc in He1. apply app_inj_tail in He1. destruct He1 as [_ ->]. exact Hz.
           ++ exfalso. apply (Hcur z); [|exact Hz]. apply in_rev. rewrite He1.
              apply in_or_app. left. apply in_or_app. right. left. reflexivity.
    + rewrite (IH (c :: cur)).
      * cbn [rev]. rewrite <- app_assoc. reflexivity.
      * intros z [<-|Hz]; [|apply Hcur; exact Hz]. rewrite <- isspace_iff. congruence.
Qed.

Lemma split_aux_words b : forall cur, nows cur ->
  forall w, In w (split_aux cur b) -> w <> [] /\ nows w.
Proof.
  induction b as [|c b IH]; intros cur Hcur w.
  - cbn. destruct cur as [|z cur]; [intros []|]. cbn [In]. intros [<-|[]]. split.
    + cbn. intros H. apply app_eq_nil in H. destruct H as [_ H]. discriminate.
    + intros x Hx. apply Hcur. apply in_rev. exact Hx.
  - cbn [split_aux]. destruct (isspace c) eqn:Ec.
    + destruct cur as [|z cur].
      * apply IH. intros x [].
      * intros [<-|Hin].
        -- split; [cbn; intros H; apply app_eq_nil in H; destruct H as [_ H]; discriminate|].
           intros x Hx. apply Hcur. apply in_rev. exact Hx.
        -- apply (IH []); [intros x []|exact Hin].
    + apply IH. intros z [<-|Hz]; [|apply Hcur; exact Hz]. rewrite <- isspace_iff. congruence.
Qed.

Lemma split_iff w b : In w (split b) <-> word_of w b.
Proof.
  unfold split, word_of. split.
  - intros H. destruct (split_aux_words b [] ltac:(intros x []) w H) as [H1 H2].
    split; [exact H1|]. split; [exact H2|].
    exact (proj1 (split_aux_iff w H1 H2 b [] ltac:(intros x [])) H).
  - intros [H1 [H2 H3]]. exact (proj2 (split_aux_iff w H1 H2 b [] ltac:(intros x [])) H3).
Qed.

Lemma op_match_iff o v b : op_match o v b = true <-> op_holds o v b.
Proof.
  destruct o; cbn [op_match op_holds].
  - rewrite text_eqb_iff. split; auto.
  - rewrite existsb_exists. split.
    + intros [w [Hw He]]. apply text_eqb_iff in He. subst w. apply split_iff. exact Hw.
    + intros H. exists v. split; [apply split_iff; exact H|apply text_eqb_refl].
  - rewrite orb_true_iff, startswith_iff, text_eqb_iff. split.
    + intros [[r Hr]|H]; [right; exists r; rewrite <- app_assoc in Hr; exact Hr|left; auto].
    + intros [H|[r Hr]]; [right; auto|left; exists r; rewrite <- app_assoc; exact Hr].
  - apply startswith_iff.
  - apply endswith_iff.
  - apply contains_iff.
Qed.

(* ----------------------------------------------------------------- rows *)
Lemma row_get_holds r k : holds r k (row_get r k).
Proof.
  induction r as [|[k' v] r IH]; cbn; [constructor|].
  destruct (text_eqb k k') eqn:E.
  - apply text_eqb_iff in E. subst k'. constructor.
  - constructor; [|exact IH]. intros ->. rewrite text_eqb_refl in E. discriminate.
Qed.

Lemma holds_det r k v : holds r k v -> v = row_get r k.
Proof.
  induction 1 as [|k v r|k k' v' r v Hne Hh IH]; cbn; [reflexivity| |].
  - rewrite text_eqb_refl. reflexivity.
  - destruct (text_eqb k k') eqn:E; [apply text_eqb_iff in E; contradiction|exact IH].
Qed.

Lemma holds_ex (r : row) k (P : text -> Prop) : (exists v, holds r k v /\ P v) <-> P (row_get r k).
Proof.
  split.
  - intros [v [Hv HP]]. apply holds_det in Hv. subst v. exact HP.
  - intros H. exists (row_get r k). split; [apply row_get_holds|exact H].
Qed.

(* ----------------------------------------------------- induction on trees *)
Lemma selector_ind' (P : selector -> Prop) :
  (forall a o v ic, P (SSimple a o v ic)) ->
  (forall c l, Forall P l -> P (SCont c l)) ->
  (forall c, P (SLoop c)) ->
  forall s, P s.
Proof.
  intros H1 H2 H3. fix IH 1. intros [a o v ic|c l|c]; [apply H1| |apply H3].
  apply H2. induction l as [|x l IHl]; constructor; [apply IH|exact IHl].
Qed.

Lemma proper_members c l : proper (SCont c l) -> l <> [] /\ Forall proper l.
Proof.
  cbn. intros [Hne H]. split; [exact Hne|]. clear Hne.
  induction l as [|x l IH]; constructor; [apply H|apply IH, H].
Qed.

Section Means.
Context (upper : text -> text).

(** The boolean a proper selector evaluates to. *)
Lemma scan_ok stop (f : selector -> res bool) l :
  (forall s, In s l -> exists b, f s = Ok b) ->
  exists b, scan stop f l = Ok b /\ (b = stop <-> exists s, In s l /\ f s = Ok stop).
Proof.
  induction l as [|x l IH]; intros H; cbn.
  - exists (negb stop). split; [reflexivity|]. split; [destruct stop; discriminate|].
    intros [s [[] _]].
  - destruct (H x (or_introl eq_refl)) as [b Hb]. rewrite Hb. cbn [bind].
    destruct (Bool.eqb b stop) eqn:E.
    + apply eqb_prop in E. subst b. exists stop. split; [reflexivity|].
      split; [intros _; exists x; auto|reflexivity].
    + destruct (IH (fun s Hs => H s (or_intror Hs))) as [b' [Hb' Hiff]].
      exists b'. split; [exact Hb'|]. rewrite Hiff. split.
      * intros [s [Hs Hf]]. exists s. auto.
      * intros [s [[<-|Hs] Hf]]; [|exists s; auto]. rewrite Hf in Hb. inversion Hb; subst.
        rewrite eqb_reflx in E. discriminate.
Qed.

Lemma any_means r l : fold_right (fun x P => means upper r x \/ P) False l <->
  exists s, In s l /\ means upper r s.
Proof.
  induction l as [|x l IH]; cbn; [split; [intros []|intros [s [[] _]]]|].
  rewrite IH. split.
  - intros [H|[s [Hs H]]]; [exists x; auto|exists s; auto].
  - intros [s [[<-|Hs] H]]; [left; exact H|right; exists s; auto].
Qed.
Lemma none_means r l : fold_right (fun x P => ~ means upper r x /\ P) True l <->
  forall s, In s l -> ~ means upper r s.
Proof.
  induction l as [|x l IH]; cbn; [split; [intros _ s []|auto]|].
  rewrite IH. split.
  - intros [H1 H2] s [<-|Hs]; auto.
  - intros H. split; [apply H; left; reflexivity|intros s Hs; apply H; right; exact Hs].
Qed.
Lemma all_means r l : fold_right (fun x P => means upper r x /\ P) True l <->
  forall s, In s l -> means upper r s.
Proof.
  induction l as [|x l IH]; cbn; [split; [intros _ s []|auto]|].
  rewrite IH. split.
  - intros [H1 H2] s [<-|Hs]; auto.
  - intros H. split; [apply H; left; reflexivity|intros s Hs; apply H; right; exact Hs].
Qed.

Lemma call_means r s : proper s ->
  exists b, call upper r s = Ok b /\ (b = true <-> means upper r s).
Proof.
  induction s as [a o v ic|c l IH|c] using selector_ind'; intros Hp.
  - destruct o as [o|].
    + cbn in Hp. destruct v as [[|x v]|]; try contradiction. cbn [call simple_call means].
      eexists. split; [reflexivity|].
      destruct ic; rewrite holds_ex; apply op_match_iff.
    + eexists. split; [reflexivity|]. cbn [means]. rewrite holds_ex.
      destruct (row_get r a); split; congruence.
  - apply proper_members in Hp. destruct Hp as [_ Hp].
    rewrite Forall_forall in IH, Hp.
    assert (IH' : forall s, In s l -> exists b, call upper r s = Ok b /\ (b = true <-> means upper r s))
      by (intros s Hs; apply IH; auto).
    assert (Hok : forall s, In s l -> exists b, call upper r s = Ok b)
      by (intros s Hs; destruct (IH' s Hs) as [b [Hb _]]; eauto).
    assert (Ht : forall s, In s l -> (call upper r s = Ok true <-> means upper r s)).
    { intros s Hs. destruct (IH' s Hs) as [b [Hb Hm]]. rewrite Hb, <- Hm.
      split; [intros H; inversion H; reflexivity|intros ->; reflexivity]. }
    assert (Hany : exists b, scan true (call upper r) l = Ok b /\
                             (b = true <-> exists s, In s l /\ means upper r s)).
    { destruct (scan_ok true _ l Hok) as [b [Hb Hiff]]. exists b. split; [exact Hb|].
      rewrite Hiff. split; intros [s [Hs H]]; exists s; (split; [exact Hs|]); apply Ht; auto. }
    destruct c; cbn [call means].
    + setoid_rewrite any_means. exact Hany.
    + setoid_rewrite none_means. destruct Hany as [b [Hb Hiff]]. rewrite Hb. cbn [bind].
      exists (negb b). split; [reflexivity|]. split.
      * intros Hn s Hs Hm. assert (b = true) by (apply Hiff; eauto). subst b. discriminate.
      * intros H. destruct b; [|reflexivity]. exfalso.
        destruct (proj1 Hiff eq_refl) as [s [Hs Hm]]. exact (H s Hs Hm).
    + setoid_rewrite any_means. exact Hany.
    + setoid_rewrite all_means. destruct (scan_ok false _ l Hok) as [b [Hb Hiff]].
      exists b. split; [exact Hb|]. split.
      * intros -> s Hs. apply Ht; [exact Hs|]. destruct (Hok s Hs) as [b' Hb'].
        destruct b'; [exact Hb'|]. exfalso.
        assert (true = false) by (apply Hiff; eauto). discriminate.
      * intros H. destruct b; [reflexivity|]. exfalso.
        destruct (proj1 Hiff eq_refl) as [s [Hs Hf]].
        specialize (H s Hs). apply Ht in H; [|exact Hs]. congruence.
  - destruct Hp.
Qed.

Lemma call_true_iff r s : proper s -> (call upper r s = Ok true <-> means upper r s).
Proof.
  intros Hp. destruct (call_means r s Hp) as [b [Hb Hm]]. rewrite Hb, <- Hm.
  split; [intros H; inversion H; reflexivity|intros ->; reflexivity].
Qed.
End Means.

(* ------------------------------------------------------- constructors *)
Lemma mk_simple_ok attr op val ic s :
  mk_simple attr op val ic = Ok s -> proper s.
Proof.
  unfold mk_simple. destruct (xorb _ _) eqn:E1; [discriminate|].
  destruct (ic && negb (truthy op && truthy val)) eqn:E2; [discriminate|].
  destruct op as [t|].
  - destruct (op_of_text t) as [o|] eqn:Eo; [|discriminate]. intros H; inversion H; subst. cbn.
    assert (Ht : t <> []) by (intros ->; vm_compute in Eo; discriminate).
    destruct t as [|y t]; [congruence|]. cbn in E1. destruct val as [[|x v]|]; cbn in *; try discriminate. exact I.
  - intros H; inversion H; subst. cbn in *. destruct val as [[|x v]|]; cbn in *; try discriminate;
      destruct ic; try discriminate; auto.
Qed.

Definition same_class (c : container) (s : selector) : Prop :=
  match s with SCont c' _ => c = c' | SLoop c' => c = c' | SSimple _ _ _ _ => False end.

Lemma container_eqb_iff a b : container_eqb a b = true <-> a = b.
Proof. destruct a, b; cbn; split; congruence. Qed.

Lemma mk_container_cases c l : l <> [] ->
  (mk_container c l = SCont c l) \/
  (exists x, l = [x] /\ (c = CAny \/ c = CCompound) /\ ~ same_class c x /\ mk_container c l = x) \/
  (exists x, l = [x] /\ (c = CAny \/ c = CCompound) /\ same_class c x /\ mk_container c l = SLoop c).
Proof.
  intros Hne. destruct l as [|x [|y l]]; [congruence| |left; destruct c; reflexivity].
  destruct c; cbn; auto; right; destruct x as [a o v ic|c' m|c'];
    try (destruct c'); cbn;
    (left; eexists; repeat split; auto; cbn; congruence) ||
    (right; eexists; repeat split; auto; cbn; congruence) || idtac.
Qed.

(* ------------------------------------------------------------ equality *)
Lemma key_ind' (P : key -> Prop) :
  (forall a o v ic, P (KSimple a o v ic)) ->
  (forall c l, Forall P l -> P (KSet c l)) ->
  (forall c, P (KLoop c)) ->
  forall k, P k.
Proof.
  intros H1 H2 H3. fix IH 1. intros [a o v ic|c l|c]; [apply H1| |apply H3].
  apply H2. induction l as [|x l IHl]; constructor; [apply IH|exact IHl].
Qed.

Fixpoint key_ok (k : key) : Prop :=
  match k with
  | KSimple _ _ _ _ => True
  | KSet _ l => fold_right (fun x P => key_ok x /\ P) True l
  | KLoop _ => False
  end.

Lemma sel_op_eqb_iff a b : sel_op_eqb a b = true <-> a = b.
Proof. destruct a, b; cbn; split; congruence. Qed.

Lemma opt_eqb_iff {A} (f : A -> A -> bool) (Hf : forall a b, f a b = true <-> a = b) x y :
  opt_eqb f x y = true <-> x = y.
Proof.
  destruct x, y; cbn; split; try congruence.
  - intros H. apply Hf in H. congruence.
  - intros H. inversion H. apply Hf. reflexivity.
Qed.

Lemma key_eqb_simple a o v i a' o' v' i' :
  key_eqb (KSimple a o v i) (KSimple a' o' v' i') = true <->
  (a = a' /\ o = o' /\ v = v' /\ i = i').
Proof.
  cbn. rewrite !andb_true_iff, text_eqb_iff, (opt_eqb_iff _ sel_op_eqb_iff),
    (opt_eqb_iff _ text_eqb_iff), Bool.eqb_true_iff. tauto.
Qed.

Lemma key_eqb_set c l c' l' :
  key_eqb (KSet c l) (KSet c' l') = true <->
  (c = c' /\ (forall x, In x l -> exists y, In y l' /\ key_eqb x y = true) /\
   (forall y, In y l' -> exists x, In x l /\ key_eqb x y = true)).
Proof.
  cbn. rewrite !andb_true_iff, container_eqb_iff, !forallb_forall.
  split.
  - intros [[H1 H2] H3]. split; [exact H1|]. split.
    + intros x Hx. apply existsb_exists. apply H2. exact Hx.
    + intros y Hy. apply existsb_exists. apply (H3 y Hy).
  - intros [H1 [H2 H3]]. split; [split; [exact H1|]|].
    + intros x Hx. apply existsb_exists. apply H2. exact Hx.
    + intros y Hy. apply existsb_exists. apply (H3 y Hy).
Qed.

Lemma key_ok_members c l : key_ok (KSet c l) -> Forall key_ok l.
Proof. cbn. induction l as [|x l IH]; intros H; constructor; [apply H|apply IH, H]. Qed.

Lemma key_eqb_refl k : key_ok k -> key_eqb k k = true.
Proof.
  induction k as [a o v i|c l IH|c] using key_ind'; intros Hk.
  - apply key_eqb_simple. auto.
  - apply key_ok_members in Hk. rewrite Forall_forall in IH, Hk.
    apply key_eqb_set. split; [reflexivity|]. split; intros x Hx; exists x; auto.
  - destruct Hk.
Qed.

Lemma key_eqb_sym k : forall k', key_eqb k k' = true -> key_eqb k' k = true.
Proof.
  induction k as [a o v i|c l IH|c] using key_ind'; intros k'; [| |discriminate].
  - destruct k' as [a' o' v' i'| |]; [|discriminate|discriminate].
    rewrite !key_eqb_simple. intuition congruence.
  - destruct k' as [|c' l'|]; [discriminate| |discriminate].
    rewrite Forall_forall in IH. rewrite !key_eqb_set. intros [H1 [H2 H3]].
    split; [congruence|]. split.
    + intros y Hy. destruct (H3 y Hy) as [x [Hx He]]. exists x. auto.
    + intros x Hx. destruct (H2 x Hx) as [y [Hy He]]. exists y. auto.
Qed.

Lemma key_eqb_trans k : forall k' k'',
  key_eqb k k' = true -> key_eqb k' k'' = true -> key_eqb k k'' = true.
Proof.
  induction k as [a o v i|c l IH|c] using key_ind'; intros k' k''; [| |discriminate].
  - destruct k' as [a' o' v' i'| |]; [|discriminate|discriminate].
    destruct k'' as [a'' o'' v'' i''| |]; [|discriminate|discriminate].
    rewrite !key_eqb_simple. intuition congruence.
  - destruct k' as [|c' l'|]; [discriminate| |discriminate].
    destruct k'' as [|c'' l''|]; [discriminate| |discriminate].
    rewrite Forall_forall in IH. rewrite !key_eqb_set. intros [H1 [H2 H3]] [G1 [G2 G3]].
    split; [congruence|]. split.
    + intros x Hx. destruct (H2 x Hx) as [y [Hy He]]. destruct (G2 y Hy) as [z [Hz Hf]].
      exists z. split; [exact Hz|]. eapply IH; eauto.
    + intros z Hz. destruct (G3 z Hz) as [y [Hy Hf]]. destruct (H3 y Hy) as [x [Hx He]].
      exists x. split; [exact Hx|]. eapply IH; eauto.
Qed.

Section Equality.
Context (upper lower : text -> text).

Lemma proper_no_loop s : proper s -> has_loop s = false.
Proof.
  induction s as [a o v ic|c l IH|c] using selector_ind'; intros Hp; [reflexivity| |destruct Hp].
  apply proper_members in Hp. destruct Hp as [_ Hp]. rewrite Forall_forall in IH, Hp. cbn.
  destruct (existsb has_loop l) eqn:E; [|reflexivity]. apply existsb_exists in E.
  destruct E as [x [Hx He]]. rewrite (IH x Hx (Hp x Hx)) in He. discriminate.
Qed.

Lemma no_loop_key_ok s : has_loop s = false -> key_ok (get_key lower s).
Proof.
  induction s as [a o v ic|c l IH|c] using selector_ind'; intros Hp; [exact I| |discriminate].
  cbn in *. induction l as [|x l IHl]; [exact I|]. cbn in *.
  apply orb_false_iff in Hp. inversion IH as [|? ? Hx Hl]; subst.
  split; [apply Hx, Hp|apply IHl; [exact Hl|apply Hp]].
Qed.

Lemma equal_same_calls (Hcase : forall a b, lower a = lower b -> upper a = upper b) s1 :
  forall s2, proper s1 -> proper s2 ->
    key_eqb (get_key lower s1) (get_key lower s2) = true ->
    forall r, means upper r s1 <-> means upper r s2.
Proof.
  induction s1 as [a o v ic|c l IH|c] using selector_ind'; intros s2 Hp1 Hp2 He r.
  - destruct s2 as [a' o' v' ic'| |]; [|discriminate|discriminate].
    cbn [get_key] in He. apply key_eqb_simple in He. destruct He as [Ha [Ho [Hv Hi]]].
    subst a' o' ic'. destruct o as [o|]; [|reflexivity].
    cbn in Hp1, Hp2. destruct v as [[|x v]|]; try contradiction.
    destruct v' as [[|x' v']|]; try contradiction.
    destruct ic; cbn [andb truthy option_map] in Hv.
    + inversion Hv as [Hv']. apply Hcase in Hv'. cbn [means]. rewrite Hv'. reflexivity.
    + inversion Hv; subst. reflexivity.
  - destruct s2 as [|c' l'|]; [discriminate| |discriminate].
    cbn [get_key] in He. apply key_eqb_set in He. destruct He as [<- [H1 H2]].
    apply proper_members in Hp1. apply proper_members in Hp2.
    destruct Hp1 as [_ Hp1], Hp2 as [_ Hp2]. rewrite Forall_forall in IH, Hp1, Hp2.
    assert (F1 : forall x, In x l -> exists y, In y l' /\ (means upper r x <-> means upper r y)).
    { intros x Hx. destruct (H1 (get_key lower x) (in_map _ _ _ Hx)) as [ky [Hky He]].
      apply in_map_iff in Hky. destruct Hky as [y [<- Hy]]. exists y. split; [exact Hy|].
      apply IH; auto. }
    assert (F2 : forall y, In y l' -> exists x, In x l /\ (means upper r x <-> means upper r y)).
    { intros y Hy. destruct (H2 (get_key lower y) (in_map _ _ _ Hy)) as [kx [Hkx He]].
      apply in_map_iff in Hkx. destruct Hkx as [x [<- Hx]]. exists x. split; [exact Hx|].
      apply IH; auto. }
    destruct c; cbn [means]; rewrite ?any_means, ?none_means, ?all_means.
    + split; intros [x [Hx Hm]]; [destruct (F1 x Hx) as [y [Hy E]]|destruct (F2 x Hx) as [y [Hy E]]];
        exists y; split; auto; apply E; exact Hm.
    + split; intros H x Hx Hm; [destruct (F2 x Hx) as [y [Hy E]]|destruct (F1 x Hx) as [y [Hy E]]];
        apply (H y Hy); apply E; exact Hm.
    + split; intros [x [Hx Hm]]; [destruct (F1 x Hx) as [y [Hy E]]|destruct (F2 x Hx) as [y [Hy E]]];
        exists y; split; auto; apply E; exact Hm.
    + split; intros H x Hx; [destruct (F2 x Hx) as [y [Hy E]]|destruct (F1 x Hx) as [y [Hy E]]];
        apply E; apply (H y Hy).
  - destruct Hp1.
Qed.
End Equality.

(* --------------------------------------------------------- specificity *)
Lemma spec_ltb_pair a b c d :
  spec_ltb [a; b] [c; d] = true <-> pair_lt (a, b) (c, d).
Proof. unfold pair_lt. cbn. lia. Qed.

Lemma pair_le_total p q : pair_le p q \/ pair_lt q p.
Proof.
  destruct p as [a b], q as [c d]. unfold pair_le, pair_lt. cbn.
  destruct (Z.lt_trichotomy a c) as [H|[H|H]]; destruct (Z.lt_trichotomy b d) as [H'|[H'|H']];
    subst; intuition (try lia; try (left; left; congruence)).
Qed.
Lemma pair_le_refl p : pair_le p p.
Proof. left. reflexivity. Qed.
Lemma pair_lt_irrefl p : ~ pair_lt p p.
Proof. unfold pair_lt. lia. Qed.
Lemma pair_lt_trans p q r : pair_lt p q -> pair_lt q r -> pair_lt p r.
Proof. unfold pair_lt. lia. Qed.
Lemma pair_le_trans p q r : pair_le p q -> pair_le q r -> pair_le p r.
Proof.
  intros [->|H1] [->|H2]; try (left; reflexivity); right; auto. eapply pair_lt_trans; eauto.
Qed.
Lemma pair_le_antisym p q : pair_le p q -> pair_le q p -> p = q.
Proof.
  intros [->|H1] [H2|H2]; auto. exfalso. exact (pair_lt_irrefl p (pair_lt_trans _ _ _ H1 H2)).
Qed.
Lemma pair_le_not_lt p q : pair_le p q -> ~ pair_lt q p.
Proof.
  intros [->|H] H2; [exact (pair_lt_irrefl _ H2)|]. exact (pair_lt_irrefl _ (pair_lt_trans _ _ _ H H2)).
Qed.

Definition lst (p : Z * Z) : spec_t := [fst p; snd p].

Lemma lst_inj p q : lst p = lst q -> p = q.
Proof. destruct p, q. unfold lst. cbn. intros H. inversion H. reflexivity. Qed.

Lemma spec_max_lst p q : exists m, spec_max (lst p) (lst q) = lst m /\
  (m = p \/ m = q) /\ pair_le p m /\ pair_le q m.
Proof.
  unfold spec_max. destruct (spec_ltb (lst p) (lst q)) eqn:E.
  - apply spec_ltb_pair in E. exists q. split; [reflexivity|].
    split; [auto|]. split; [|apply pair_le_refl]. right. destruct p, q; exact E.
  - exists p. split; [reflexivity|]. split; [auto|]. split; [apply pair_le_refl|].
    destruct (pair_le_total q p) as [H|H]; [exact H|]. exfalso.
    destruct p, q. apply spec_ltb_pair in H. unfold lst in E. cbn [fst snd] in E. congruence.
Qed.

Lemma fold_max_lst ps : forall p, exists m,
  fold_left spec_max (map lst ps) (lst p) = lst m /\ In m (p :: ps) /\
  (forall q, In q (p :: ps) -> pair_le q m).
Proof.
  induction ps as [|q ps IH]; intros p.
  - exists p. cbn. split; [reflexivity|]. split; [auto|]. intros q [<-|[]]. apply pair_le_refl.
  - cbn [map fold_left]. destruct (spec_max_lst p q) as [m [-> [Hm [Hp Hq]]]].
    destruct (IH m) as [m' [-> [Hin Hle]]]. exists m'. split; [reflexivity|]. split.
    + destruct Hin as [<-|Hin]; [destruct Hm as [->| ->]; cbn; auto|cbn; auto].
    + intros x [<-|[<-|Hx]].
      * eapply pair_le_trans; [exact Hp|]. apply Hle. left. reflexivity.
      * eapply pair_le_trans; [exact Hq|]. apply Hle. left. reflexivity.
      * apply Hle. right. exact Hx.
Qed.

Lemma fold_plus_lst ps : forall p,
  fold_left zip_plus (map lst ps) (lst p) =
  lst (fst p + fold_right Z.add 0 (map fst ps), snd p + fold_right Z.add 0 (map snd ps))%Z.
Proof.
  induction ps as [|q ps IH]; intros p; cbn [map fold_left].
  - cbn. rewrite !Z.add_0_r. destruct p; reflexivity.
  - cbn [zip_plus lst]. change [(fst p + fst q)%Z; (snd p + snd q)%Z] with
      (lst (fst p + fst q, snd p + snd q)%Z).
    replace (zip_plus (lst p) (lst q)) with (lst (fst p + fst q, snd p + snd q)%Z) by reflexivity.
    rewrite IH. cbn [fst snd fold_right map]. unfold lst; cbn [fst snd]. rewrite !Z.add_assoc. reflexivity.
Qed.

Lemma specificity_ok s : proper s -> exists p, specificity s = Ok (lst p) /\ spec_of s p.
Proof.
  induction s as [a o v ic|c l IH|c] using selector_ind'; intros Hp; [| |destruct Hp].
  - destruct o as [o|]; cbn in Hp.
    + destruct v as [[|x v]|]; try contradiction. exists (1, 1)%Z. split; [reflexivity|].
      constructor. discriminate.
    + exists (1, 0)%Z. destruct Hp as [-> [->| ->]]; (split; [reflexivity|constructor; auto]).
  - apply proper_members in Hp. destruct Hp as [Hne Hp].
    assert (Ht : exists ps, traverse specificity l = Ok (map lst ps) /\ Forall2 spec_of l ps).
    { clear Hne. induction l as [|x l IHl]; [exists []; split; [reflexivity|constructor]|].
      inversion IH as [|? ? Hx Hl]; subst. inversion Hp as [|? ? Px Pl]; subst.
      destruct (Hx Px) as [p [E S]]. destruct (IHl Hl Pl) as [ps [E' S']].
      exists (p :: ps). split; [cbn; rewrite E; cbn [bind]; fold (traverse specificity); rewrite E'; reflexivity|].
      constructor; assumption. }
    destruct Ht as [ps [Ht HF]].
    assert (Hmax : forall c, c = CAny \/ c = CNot -> exists p,
              (do sp <- traverse specificity l; spec_max_list sp) = Ok (lst p) /\
              spec_of (SCont c l) p).
    { intros c' Hc'. rewrite Ht. cbn [bind]. destruct l as [|x l]; [congruence|].
      inversion HF as [|? p ? ps' Sx Sl]; subst. cbn [map spec_max_list].
      destruct (fold_max_lst ps' p) as [m [-> [Hin Hle]]]. exists m. split; [reflexivity|].
      assert (Hs : exists s, In s (x :: l) /\ spec_of s m).
      { destruct Hin as [<-|Hin]; [exists x; split; [left; reflexivity|exact Sx]|].
        clear -Sl Hin. induction Sl as [|y q l ps Hy Sl IH]; [destruct Hin|].
        destruct Hin as [<-|Hin]; [exists y; split; [right; left; reflexivity|exact Hy]|].
        destruct (IH Hin) as [s [Hs H]]; exists s; (split; [|exact H]).
        destruct Hs as [Hs|Hs]; [left; exact Hs|right; right; exact Hs]. }
      destruct Hs as [s [Hs Hsm]]. eapply so_max; eauto.
      intros y [<-|Hy].
      - exists p. split; [exact Sx|]. apply Hle. left. reflexivity.
      - clear -Sl Hy Hle. assert (Hle' : forall q, In q ps' -> pair_le q m)
          by (intros q Hq; apply Hle; right; exact Hq). clear Hle.
        induction Sl as [|z q l ps Hz Sl IH]; [destruct Hy|].
        destruct Hy as [<-|Hy]; [exists q; split; [exact Hz|apply Hle'; left; reflexivity]|].
        apply IH; [exact Hy|]. intros q' Hq'. apply Hle'. right. exact Hq'. }
    destruct c; cbn [specificity].
    + apply Hmax. auto.
    + apply Hmax. auto.
    + exists (0, 0)%Z. split; [reflexivity|constructor].
    + rewrite Ht. cbn [bind]. eexists. split; [|apply so_sum; exact HF].
      destruct l as [|x l]; [congruence|]. inversion HF as [|? p ? ps' Sx Sl]; subst.
      cbn [map spec_sum]. rewrite fold_plus_lst. reflexivity.
Qed.

Lemma Forall2_In_l {A B} (R : A -> B -> Prop) l l' x :
  Forall2 R l l' -> In x l -> exists y, In y l' /\ R x y.
Proof.
  induction 1 as [|a b l l' Hab HF IH]; intros Hx; [destruct Hx|].
  destruct Hx as [<-|Hx]; [exists b; split; [left; reflexivity|exact Hab]|].
  destruct (IH Hx) as [y [Hy H]]. exists y. split; [right; exact Hy|exact H].
Qed.

Lemma spec_of_det s : forall p q, spec_of s p -> spec_of s q -> p = q.
Proof.
  induction s as [a o v ic|c l IH|c] using selector_ind'; intros p q Hp Hq.
  - inversion Hp; inversion Hq; subst; try reflexivity; congruence.
  - rewrite Forall_forall in IH. inversion Hp as [| | |c1 l1 s1 m1 Hc1 Hs1 Hm1 Ha1|l1 ps1 HF1]; subst.
    + inversion Hq as [| | |c2 l2 s2 m2 Hc2 Hs2 Hm2 Ha2|]; subst; [reflexivity|].
      destruct Hc2; discriminate.
    + inversion Hq as [| | |c2 l2 s2 m2 Hc2 Hs2 Hm2 Ha2|l2 ps2 HF2]; subst;
        [destruct Hc1; discriminate| |destruct Hc1; discriminate].
      destruct (Ha2 s1 Hs1) as [n1 [Hn1 L1]]. destruct (Ha1 s2 Hs2) as [n2 [Hn2 L2]].
      rewrite (IH s1 Hs1 _ _ Hn1 Hm1) in L1. rewrite (IH s2 Hs2 _ _ Hn2 Hm2) in L2.
      apply pair_le_antisym; assumption.
    + inversion Hq as [| | |c2 l2 s2 m2 Hc2 Hs2 Hm2 Ha2|l2 ps2 HF2]; subst; [destruct Hc2; discriminate|].
      assert (ps1 = ps2) as ->; [|reflexivity].
      clear Hp Hq. revert ps2 HF2. induction HF1 as [|x p l ps Hx HF IHF]; intros ps2 HF2.
      * inversion HF2. reflexivity.
      * inversion HF2 as [|? p' ? ps' Hx' HF']; subst. f_equal.
        -- apply (IH x); [left; reflexivity|exact Hx|exact Hx'].
        -- apply IHF; [|exact HF']. intros y Hy. apply IH. right. exact Hy.
  - inversion Hp.
Qed.

Lemma spec_of_nonneg s : forall p, spec_of s p -> (0 <= snd p <= fst p)%Z.
Proof.
  induction s as [a o v ic|c l IH|c] using selector_ind'; intros p Hp.
  - inversion Hp; subst; cbn; lia.
  - rewrite Forall_forall in IH. inversion Hp as [| | |c1 l1 s1 m1 Hc1 Hs1 Hm1 Ha1|l1 ps1 HF1]; subst.
    + cbn. lia.
    + apply (IH s1 Hs1). exact Hm1.
    + cbn [fst snd]. clear Hp. induction HF1 as [|x p l ps Hx HF IHF]; cbn; [lia|].
      pose proof (IH x (or_introl eq_refl) p Hx).
      specialize (IHF (fun y Hy => IH y (or_intror Hy))). lia.
  - inversion Hp.
Qed.

(** Permuting members, and adding a member to a compound. *)
Lemma Forall2_perm {A B} (R : A -> B -> Prop) l l' : Permutation l l' ->
  forall ps, Forall2 R l ps -> exists ps', Permutation ps ps' /\ Forall2 R l' ps'.
Proof.
  induction 1 as [|x l l' HP IH|x y l|l l' l'' HP1 IH1 HP2 IH2]; intros ps HF.
  - inversion HF. exists []. auto.
  - inversion HF as [|? p ? ps0 Hx HF0]; subst. destruct (IH _ HF0) as [ps' [HP' HF']].
    exists (p :: ps'). auto.
  - inversion HF as [|? p ? ps0 Hx HF0]; subst. inversion HF0 as [|? q ? ps1 Hy HF1]; subst.
    exists (q :: p :: ps1). split; [constructor|]. auto.
  - destruct (IH1 _ HF) as [ps' [HP' HF']]. destruct (IH2 _ HF') as [ps'' [HP'' HF'']].
    exists ps''. split; [eapply perm_trans; eauto|exact HF''].
Qed.

Lemma sum_perm l l' : Permutation l l' -> fold_right Z.add 0%Z l = fold_right Z.add 0%Z l'.
Proof. induction 1; cbn; lia. Qed.

Lemma spec_of_perm c l l' p : Permutation l l' ->
  spec_of (SCont c l) p -> spec_of (SCont c l') p.
Proof.
  intros HP Hs. inversion Hs as [| | |c1 l1 s1 m1 Hc1 Hs1 Hm1 Ha1|l1 ps1 HF1]; subst.
  - constructor.
  - eapply so_max; eauto.
    + eapply Permutation_in; eauto.
    + intros x Hx. apply Ha1. eapply Permutation_in; [apply Permutation_sym|]; eauto.
  - destruct (Forall2_perm _ _ _ HP _ HF1) as [ps' [HP' HF']].
    rewrite (sum_perm _ _ (Permutation_map fst HP')), (sum_perm _ _ (Permutation_map snd HP')).
    constructor. exact HF'.
Qed.

Lemma proper_forall c l : l <> [] -> Forall proper l -> proper (SCont c l).
Proof.
  intros Hne H. cbn. split; [exact Hne|]. clear Hne. induction H; cbn; auto.
Qed.

Lemma spec_of_perm_eq c l l' : l <> [] -> Forall proper l -> Permutation l l' ->
  specificity (SCont c l) = specificity (SCont c l').
Proof.
  intros Hne Hl HP.
  assert (Hne' : l' <> []) by (intros ->; apply Permutation_sym, Permutation_nil in HP; contradiction).
  assert (Hl' : Forall proper l') by (eapply Permutation_Forall; eauto).
  destruct (specificity_ok _ (proper_forall c l Hne Hl)) as [p [E S]].
  destruct (specificity_ok _ (proper_forall c l' Hne' Hl')) as [p' [E' S']].
  rewrite E, E'. do 2 f_equal. eapply spec_of_det; [|exact S']. eapply spec_of_perm; eauto.
Qed.

Lemma spec_compound_grows l x p q :
  spec_of (SCont CCompound l) p -> spec_of x q ->
  spec_of (SCont CCompound (x :: l)) (fst q + fst p, snd q + snd p)%Z /\
  pair_le p (fst q + fst p, snd q + snd p)%Z.
Proof.
  intros Hp Hx. inversion Hp as [| | |? ? ? ? Hc|l1 ps HF]; subst; [destruct Hc; discriminate|].
  split.
  - apply (so_sum (x :: l) (q :: ps)). constructor; assumption.
  - pose proof (spec_of_nonneg _ _ Hx). unfold pair_le, pair_lt. cbn [fst snd].
    destruct q as [q1 q2]. cbn in *.
    destruct (Z.eq_dec q1 0) as [->|Hn]; [left; f_equal; lia|right; lia].
Qed.

(* -------------------------------------------- greatest unique specificity *)
Section Greatest.
Context (upper : text -> text) (K : Type).

Lemma spec_eqb_iff a : forall b, spec_eqb a b = true <-> a = b.
Proof.
  induction a as [|x a IH]; destruct b as [|y b]; cbn; split; try congruence; intros H.
  - apply andb_prop in H. destruct H as [H1 H2]. apply Z.eqb_eq in H1. apply IH in H2. congruence.
  - inversion H; subst. rewrite Z.eqb_refl. apply IH. reflexivity.
Qed.

Lemma best_of_spec r sels : Forall proper sels -> forall acc,
  exists o, best_of upper r sels (option_map lst acc) = Ok (option_map lst o) /\
    match o with
    | None => acc = None /\ forall s, In s sels -> ~ means upper r s
    | Some m =>
        (forall a, acc = Some a -> pair_le a m) /\
        (forall s n, In s sels -> means upper r s -> spec_of s n -> pair_le n m) /\
        ((acc = Some m) \/
         (acc = None /\ m = (0, 0)%Z /\ exists s n, In s sels /\ means upper r s /\ spec_of s n /\ pair_le n (0, 0)%Z) \/
         (exists s, In s sels /\ means upper r s /\ spec_of s m))
    end.
Proof.
  induction sels as [|s sels IH]; intros Hp acc.
  - exists acc. split; [reflexivity|]. destruct acc as [a|].
    + split; [intros a' H; inversion H; apply pair_le_refl|]. split; [intros s n []|]. left. reflexivity.
    + split; [reflexivity|intros s []].
  - inversion Hp as [|? ? Hs Hps]; subst. cbn [best_of].
    destruct (call_means upper r s Hs) as [b [Hb Hm]]. rewrite Hb. cbn [bind].
    destruct b.
    + assert (Hms : means upper r s) by (apply Hm; reflexivity).
      destruct (specificity_ok s Hs) as [n [En Sn]]. rewrite En. cbn [bind].
      set (a0 := match acc with Some a => a | None => (0, 0)%Z end).
      assert (Ha0 : match option_map lst acc with Some a => a | None => [0; 0]%Z end = lst a0)
        by (destruct acc; reflexivity).
      rewrite Ha0. destruct (spec_max_lst a0 n) as [m [Em [Hor [L1 L2]]]]. rewrite Em.
      destruct (IH Hps (Some m)) as [o [Eo Ho]]. cbn [option_map] in Eo. exists o. split; [exact Eo|].
      destruct o as [m'|]; [|destruct Ho; discriminate].
      destruct Ho as [H1 [H2 H3]]. specialize (H1 m eq_refl).
      split; [|split].
      * intros a ->. eapply pair_le_trans; [exact L1|exact H1].
      * intros s' n' [<-|Hin] Hm' Hs'.
        -- rewrite (spec_of_det _ _ _ Hs' Sn). eapply pair_le_trans; eauto.
        -- eapply H2; eauto.
      * destruct H3 as [H3|[[H3 _]|[s' [Hin H3]]]]; [|discriminate|right; right; exists s'; split; [right; exact Hin|exact H3]].
        inversion H3; subst m'. destruct Hor as [->| ->].
        -- unfold a0 in *. destruct acc as [a|]; [left; reflexivity|]. right. left.
           split; [reflexivity|]. split; [reflexivity|]. exists s, n. split; [left; reflexivity|]. auto.
        -- right. right. exists s. split; [left; reflexivity|]. auto.
    + assert (Hms : ~ means upper r s) by (intros H; apply Hm in H; discriminate).
      destruct (IH Hps acc) as [o [Eo Ho]]. exists o. split; [exact Eo|].
      destruct o as [m|].
      * destruct Ho as [H1 [H2 H3]]. split; [exact H1|]. split.
        -- intros s' n' [<-|Hin] Hm' Hs'; [contradiction|eapply H2; eauto].
        -- destruct H3 as [H3|[[H3 [H4 [s' [n' [Hin H5]]]]]|[s' [Hin H3]]]].
           ++ left. exact H3.
           ++ right. left. split; [exact H3|]. split; [exact H4|]. exists s', n'.
              split; [right; exact Hin|exact H5].
           ++ right. right. exists s'. split; [right; exact Hin|exact H3].
      * destruct Ho as [H1 H2]. split; [exact H1|]. intros s' [<-|Hin]; auto.
Qed.

Lemma pair_le_zero s n : spec_of s n -> pair_le n (0, 0)%Z -> n = (0, 0)%Z.
Proof.
  intros Hs Hle. pose proof (spec_of_nonneg _ _ Hs). destruct n as [a b].
  unfold pair_le, pair_lt in Hle. cbn in *. destruct Hle as [H0|H0]; [exact H0|]. exfalso. lia.
Qed.

Lemma best_of_best r sels : Forall proper sels ->
  (exists m, best_of upper r sels None = Ok (Some (lst m)) /\ best upper r (Some sels) m) \/
  (best_of upper r sels None = Ok None /\ forall m, ~ best upper r (Some sels) m).
Proof.
  intros Hp. destruct (best_of_spec r sels Hp None) as [o [Eo Ho]]. cbn [option_map] in Eo.
  destruct o as [m|].
  - left. exists m. split; [exact Eo|]. destruct Ho as [_ [H2 H3]].
    exists sels. split; [reflexivity|]. split; [|exact H2].
    destruct H3 as [H3|[[_ [-> [s [n [Hin [Hm [Hs Hle]]]]]]]|H3]]; [discriminate| |exact H3].
    rewrite (pair_le_zero _ _ Hs Hle) in Hs. exists s. auto.
  - right. split; [exact Eo|]. intros m [l [H [[s [Hin [Hm _]]] _]]]. inversion H; subst.
    destruct Ho as [_ Ho]. exact (Ho s Hin Hm).
Qed.

Lemma best_det r sels m n : best upper r sels m -> best upper r sels n -> m = n.
Proof.
  intros [l [-> [[s [Hs [Hm Sm]]] Hall]]] [l' [H [[s' [Hs' [Hm' Sm']]] Hall']]].
  inversion H; subst l'. apply pair_le_antisym; eauto.
Qed.

Definition dict := list (K * option (list selector)).
Definition dict_proper (d : dict) : Prop :=
  forall k l, In (k, Some l) d -> Forall proper l.

Lemma collect_spec r (d : dict) : dict_proper d ->
  exists ps, collect upper K r d = Ok (map (fun x => (lst (fst x), snd x)) ps) /\
    (forall m k, In (m, k) ps <-> exists sels, In (k, sels) d /\ best upper r sels m) /\
    (NoDup (map fst d) -> NoDup (map snd ps)).
Proof.
  induction d as [|[k sels] d IH]; intros Hd.
  - exists []. split; [reflexivity|]. split; [|intros _; constructor].
    intros m k. split; [intros []|intros [s [[] _]]].
  - destruct (IH (fun k l Hin => Hd k l (or_intror Hin))) as [ps [E [Hin Hnd]]].
    cbn [collect].
    assert (Hb : (exists m, best_of upper r (match sels with Some l => l | None => [] end) None = Ok (Some (lst m))
                    /\ best upper r sels m) \/
                 (best_of upper r (match sels with Some l => l | None => [] end) None = Ok None
                    /\ forall m, ~ best upper r sels m)).
    { destruct sels as [l|].
      - apply best_of_best. apply (Hd k). left. reflexivity.
      - right. split; [reflexivity|]. intros m [l [H _]]. discriminate. }
    destruct Hb as [[m [Eb Hb]]|[Eb Hb]]; rewrite Eb; cbn [bind]; rewrite E; cbn [bind].
    + exists ((m, k) :: ps). split; [reflexivity|]. split.
      * intros m' k'. cbn [In]. rewrite Hin. split.
        -- intros [H|[s [Hs Hs']]]; [inversion H; subst; exists sels; auto|exists s; auto].
        -- intros [s [[H|Hs] Hs']]; [|right; exists s; auto].
           inversion H; subst. left. f_equal. eapply best_det; eauto.
      * cbn. intros H. inversion H as [|? ? Hni Hnd']; subst. constructor; [|apply Hnd; exact Hnd'].
        intros Hk. apply Hni. apply in_map_iff in Hk. destruct Hk as [[m' k'] [<- Hk]].
        apply Hin in Hk. destruct Hk as [s [Hs _]]. apply in_map_iff. exists (k', s). auto.
    + exists ps. split; [reflexivity|]. split.
      * intros m' k'. rewrite Hin. split.
        -- intros [s [Hs Hs']]. exists s. split; [right; exact Hs|exact Hs'].
        -- intros [s [[H|Hs] Hs']]; [inversion H; subst; destruct (Hb _ Hs')|exists s; auto].
      * cbn. intros H. inversion H; subst. auto.
Qed.

(* sorting *)
Definition pk := ((Z * Z) * K)%type.
Definition wire (x : pk) : spec_t * K := (lst (fst x), snd x).
Definition desc (x y : pk) : Prop := pair_le (fst y) (fst x).

Fixpoint ins (x : pk) (l : list pk) : list pk :=
  match l with
  | [] => [x]
  | y :: l' => if spec_ltb (lst (fst x)) (lst (fst y)) then y :: ins x l' else x :: l
  end.
Lemma insert_wire x l : insert_desc K (wire x) (map wire l) = map wire (ins x l).
Proof.
  induction l as [|y l IH]; [reflexivity|]. cbn [map insert_desc ins]. cbn [wire fst].
  destruct (spec_ltb _ _); cbn; [rewrite <- IH; reflexivity|reflexivity].
Qed.
Fixpoint srt (l : list pk) : list pk :=
  match l with [] => [] | x :: l' => ins x (srt l') end.
Lemma sort_wire l : sort_desc K (map wire l) = map wire (srt l).
Proof. induction l as [|x l IH]; [reflexivity|]. cbn [map sort_desc srt]. rewrite IH. apply insert_wire. Qed.
Lemma ins_perm x l : Permutation (x :: l) (ins x l).
Proof.
  induction l as [|y l IH]; cbn [ins]; [auto|]. destruct (spec_ltb (lst (fst x)) (lst (fst y))); [|auto].
  eapply perm_trans; [apply perm_swap|]. constructor. exact IH.
Qed.
Lemma srt_perm l : Permutation l (srt l).
Proof.
  induction l as [|x l IH]; cbn; [auto|]. eapply perm_trans; [|apply ins_perm]. constructor. exact IH.
Qed.
Lemma lst_lt p q : spec_ltb (lst p) (lst q) = true <-> pair_lt p q.
Proof. destruct p, q. apply spec_ltb_pair. Qed.
Lemma ins_sorted x l : StronglySorted desc l -> StronglySorted desc (ins x l).
Proof.
  induction 1 as [|y l HS IH HF]; cbn [ins]; [repeat constructor|].
  destruct (spec_ltb (lst (fst x)) (lst (fst y))) eqn:E.
  - apply lst_lt in E. constructor; [exact IH|].
    rewrite Forall_forall in *. intros z Hz.
    apply (Permutation_in _ (Permutation_sym (ins_perm x l))) in Hz.
    destruct Hz as [<-|Hz]; [right; exact E|apply HF; exact Hz].
  - assert (Hxy : desc x y).
    { unfold desc. destruct (pair_le_total (fst y) (fst x)) as [H|H]; [exact H|].
      apply lst_lt in H. congruence. }
    constructor; [constructor; assumption|]. constructor; [exact Hxy|].
    rewrite Forall_forall in *. intros z Hz. unfold desc in *. eapply pair_le_trans; [apply HF; exact Hz|exact Hxy].
Qed.
Lemma srt_sorted l : StronglySorted desc (srt l).
Proof. induction l as [|x l IH]; cbn; [constructor|apply ins_sorted; exact IH]. Qed.

(* first unique *)
Definition unique_in (l : list pk) (x : pk) : Prop :=
  exists a b, l = a ++ x :: b /\ (forall y, In y (a ++ b) -> fst y <> fst x).

(** Every strictly greater value that occurs, occurs at two positions. *)
Definition shared_above (l : list pk) (m : Z * Z) : Prop :=
  forall y, In y l -> pair_lt m (fst y) -> ~ unique_in l y.

Lemma unique_cons_ne y l x : fst y <> fst x -> (unique_in (y :: l) x <-> unique_in l x).
Proof.
  intros Hne. split.
  - intros [a [b [H Hall]]]. destruct a as [|z a]; cbn in H; inversion H; subst; [congruence|].
    exists a, b. split; [reflexivity|]. intros w Hw. apply Hall. cbn. right. exact Hw.
  - intros [a [b [-> Hall]]]. exists (y :: a), b. split; [reflexivity|].
    intros w [<-|Hw]; [exact Hne|apply Hall; exact Hw].
Qed.

(** Dropping the leading run equal to [s]. *)
Fixpoint drop_run (s : Z * Z) (l : list pk) : list pk :=
  match l with
  | [] => []
  | y :: l' => if spec_eqb (lst s) (lst (fst y)) then drop_run s l' else l
  end.

Lemma first_unique_drop l s :
  first_unique K (map wire l) (Some (lst s)) = first_unique K (map wire (drop_run s l)) (Some (lst s)).
Proof.
  induction l as [|y l IH]; [reflexivity|]. cbn [drop_run].
  destruct (spec_eqb (lst s) (lst (fst y))) eqn:E; [|reflexivity].
  rewrite <- IH. cbn [map first_unique wire]. rewrite E. reflexivity.
Qed.

Lemma first_unique_noskip l s :
  (match l with y :: _ => fst y <> s | [] => True end) ->
  first_unique K (map wire l) (Some (lst s)) = first_unique K (map wire l) None.
Proof.
  destruct l as [|y l]; [reflexivity|]. intros Hne. cbn [map first_unique wire].
  destruct (spec_eqb (lst s) (lst (fst y))) eqn:E.
  - apply spec_eqb_iff, lst_inj in E. congruence.
  - reflexivity.
Qed.

Lemma drop_run_spec s l : StronglySorted desc l -> (forall y, In y l -> pair_le (fst y) s) ->
  exists run, l = run ++ drop_run s l /\ (forall y, In y run -> fst y = s) /\
    (forall y, In y (drop_run s l) -> pair_lt (fst y) s) /\ StronglySorted desc (drop_run s l).
Proof.
  induction l as [|y l IH]; intros HS Hle.
  - exists []. cbn. repeat split; auto; try (intros y []); constructor.
  - inversion HS as [|? ? HS' HF]; subst. cbn [drop_run].
    destruct (spec_eqb (lst s) (lst (fst y))) eqn:E.
    + apply spec_eqb_iff, lst_inj in E.
      destruct (IH HS' (fun z Hz => Hle z (or_intror Hz))) as [run [H1 [H2 [H3 H4]]]].
      exists (y :: run). split; [cbn; congruence|]. split; [|auto].
      intros z [<-|Hz]; auto.
    + exists []. split; [reflexivity|]. split; [intros z []|]. split; [|exact HS].
      assert (Hy : pair_lt (fst y) s).
      { destruct (Hle y (or_introl eq_refl)) as [H|H]; [|exact H].
        exfalso. rewrite H in E. rewrite (proj2 (spec_eqb_iff (lst s) (lst s)) eq_refl) in E. discriminate. }
      intros z [<-|Hz]; [exact Hy|]. rewrite Forall_forall in HF. specialize (HF z Hz). unfold desc in HF.
      destruct HF as [->|HF]; [exact Hy|eapply pair_lt_trans; eauto].
Qed.

Lemma first_unique_cons2 x x' l :
  first_unique K (map wire (x :: x' :: l)) None =
  if spec_eqb (lst (fst x)) (lst (fst x'))
  then first_unique K (map wire (x' :: l)) (Some (lst (fst x))) else Some (snd x).
Proof. reflexivity. Qed.

Lemma first_unique_spec n : forall l, length l <= n -> StronglySorted desc l ->
  match first_unique K (map wire l) None with
  | Some k => exists x, snd x = k /\ In x l /\ unique_in l x /\ shared_above l (fst x)
  | None => forall x, ~ unique_in l x
  end.
Proof.
  induction n as [|n IHn]; intros l Hlen HS.
  - destruct l; [|cbn in Hlen; lia]. cbn. intros x [a [b [H _]]]. destruct a; discriminate.
  - destruct l as [|x l].
    { cbn. intros x [a [b [H _]]]. destruct a; discriminate. }
    inversion HS as [|? ? HS' HF]; subst. rewrite Forall_forall in HF.
    assert (Hle : forall y, In y l -> pair_le (fst y) (fst x)) by (intros y Hy; apply HF; exact Hy).
    assert (Huniq : (forall y, In y l -> fst y <> fst x) ->
      exists x0, snd x0 = snd x /\ In x0 (x :: l) /\ unique_in (x :: l) x0 /\ shared_above (x :: l) (fst x0)).
    { intros Hne. exists x. split; [reflexivity|]. split; [left; reflexivity|]. split.
      - exists [], l. split; [reflexivity|exact Hne].
      - intros y [<-|Hy] Hlt; [destruct (pair_lt_irrefl _ Hlt)|].
        destruct (pair_le_not_lt _ _ (Hle y Hy) Hlt). }
    destruct l as [|x' l].
    { cbn. apply Huniq. intros y []. }
    rewrite first_unique_cons2.
    destruct (spec_eqb (lst (fst x)) (lst (fst x'))) eqn:E.
    + apply spec_eqb_iff, lst_inj in E.
      rewrite first_unique_drop.
      destruct (drop_run_spec (fst x) (x' :: l) HS' Hle) as [run [H1 [H2 [H3 H4]]]].
      remember (drop_run (fst x) (x' :: l)) as rest eqn:Hdef. clear Hdef.
      rewrite first_unique_noskip.
      2:{ destruct rest as [|z rest']; [exact I|]. intros Hz.
          apply (pair_lt_irrefl (fst x)). rewrite <- Hz at 1. apply H3. left. reflexivity. }
      assert (Hrest : length rest <= n).
      { apply (f_equal (@length pk)) in H1. rewrite app_length in H1. cbn in *. lia. }
      specialize (IHn rest Hrest H4).
      assert (Hrun : run <> []).
      { intros ->. cbn in H1. apply (pair_lt_irrefl (fst x)). rewrite E at 1. apply H3. rewrite <- H1. left. reflexivity. }
      (* uniqueness in the whole list is uniqueness in the rest *)
      assert (Hu : forall y, unique_in (x :: x' :: l) y <-> unique_in rest y).
      { intros y. split.
        - intros Hy.
          assert (Hny : fst y <> fst x).
          { intros Hy'. destruct Hy as [a [b [H Hall]]]. destruct a as [|z a]; cbn in H; inversion H; subst.
            - apply (Hall x'); [left; reflexivity|]. congruence.
            - apply (Hall z); [left; reflexivity|]. congruence. }
          apply unique_cons_ne in Hy; [|congruence]. rewrite H1 in Hy.
          clear -Hy H2 Hny. induction run as [|z run IH]; [exact Hy|]. cbn in Hy.
          apply unique_cons_ne in Hy; [|rewrite (H2 z (or_introl eq_refl)); congruence].
          apply IH; [|exact Hy]. intros w Hw. apply H2. right. exact Hw.
        - intros Hy.
          assert (Hny : fst y <> fst x).
          { intros Hy'. destruct Hy as [a [b [H Hall]]]. apply (pair_lt_irrefl (fst x)).
            rewrite <- Hy' at 1. apply H3. rewrite H. apply in_or_app. right. left. reflexivity. }
          apply unique_cons_ne; [congruence|]. rewrite H1.
          clear -Hy H2 Hny. induction run as [|z run IH]; [exact Hy|]. cbn.
          apply unique_cons_ne; [rewrite (H2 z (or_introl eq_refl)); congruence|].
          apply IH. intros w Hw. apply H2. right. exact Hw. }
      destruct (first_unique K (map wire rest) None) as [k|].
      * destruct IHn as [y [Hk [Hy [Huy Hsh]]]]. exists y. split; [exact Hk|].
        split; [right; rewrite H1; apply in_or_app; right; exact Hy|].
        split; [apply Hu; exact Huy|].
        intros z Hz Hlt Huz. apply Hu in Huz. refine (Hsh z _ Hlt Huz).
        destruct Huz as [a [b [H _]]]. rewrite H. apply in_or_app. right. left. reflexivity.
      * intros y Hy. apply Hu in Hy. exact (IHn y Hy).
    + apply Huniq. intros y Hy Hyx.
      assert (Hx' : fst x' = fst x).
      { apply pair_le_antisym; [apply Hle; left; reflexivity|].
        rewrite <- Hyx. destruct Hy as [<-|Hy]; [apply pair_le_refl|].
        inversion HS' as [|? ? _ HF']; subst. rewrite Forall_forall in HF'. apply HF'. exact Hy. }
      rewrite Hx' in E. rewrite (proj2 (spec_eqb_iff _ _) eq_refl) in E. discriminate.
Qed.

(** With distinct keys, "not unique at its position" is "another key has it". *)
Lemma unique_iff l x : NoDup (map snd l) -> In x l ->
  (unique_in l x <-> forall y, In y l -> fst y = fst x -> snd y = snd x).
Proof.
  intros Hnd Hin. split.
  - intros [a [b [-> Hall]]] y Hy He. apply in_app_or in Hy. destruct Hy as [Hy|[<-|Hy]].
    + exfalso. apply (Hall y); [apply in_or_app; left; exact Hy|exact He].
    + reflexivity.
    + exfalso. apply (Hall y); [apply in_or_app; right; exact Hy|exact He].
  - intros H. apply in_split in Hin. destruct Hin as [a [b ->]]. exists a, b. split; [reflexivity|].
    intros y Hy He. rewrite map_app in Hnd. cbn in Hnd. apply NoDup_remove_2 in Hnd. apply Hnd.
    rewrite <- (H y); [rewrite <- map_app; apply in_map; exact Hy| |exact He].
    apply in_app_or in Hy. apply in_or_app. destruct Hy as [Hy|Hy]; [left; exact Hy|right; right; exact Hy].
Qed.

Lemma not_unique_other (Kdec : forall a b : K, {a = b} + {a <> b}) l x :
  NoDup (map snd l) -> In x l -> ~ unique_in l x ->
  exists y, In y l /\ fst y = fst x /\ snd y <> snd x.
Proof.
  intros Hnd Hin Hnu.
  destruct (existsb (fun y => spec_eqb (lst (fst y)) (lst (fst x)) && if Kdec (snd y) (snd x) then false else true) l) eqn:E.
  - apply existsb_exists in E. destruct E as [y [Hy He]]. apply andb_prop in He. destruct He as [H1 H2].
    apply spec_eqb_iff, lst_inj in H1. exists y. split; [exact Hy|]. split; [exact H1|].
    destruct (Kdec (snd y) (snd x)); [discriminate|assumption].
  - exfalso. apply Hnu. apply unique_iff; [exact Hnd|exact Hin|].
    intros y Hy He. destruct (Kdec (snd y) (snd x)) as [H|H]; [exact H|]. exfalso.
    assert (existsb (fun y => spec_eqb (lst (fst y)) (lst (fst x)) && if Kdec (snd y) (snd x) then false else true) l = true); [|congruence].
    apply existsb_exists. exists y. split; [exact Hy|]. rewrite He.
    rewrite (proj2 (spec_eqb_iff _ _) eq_refl). destruct (Kdec _ _); [contradiction|reflexivity].
Qed.

Lemma greatest_unique_spec (Kdec : forall a b : K, {a = b} + {a <> b}) r (d : dict) default :
  NoDup (map fst d) -> dict_proper d ->
  (exists k, greatest_unique upper K r d default = Ok k /\ right_key upper r d k) \/
  (greatest_unique upper K r d default = Ok default /\ forall k, ~ right_key upper r d k).
Proof.
  intros Hnd Hd. destruct (collect_spec r d Hd) as [ps [E [Hin Hnd']]]. specialize (Hnd' Hnd).
  unfold greatest_unique. rewrite E. cbn [bind].
  change (map (fun x => (lst (fst x), snd x)) ps) with (map wire ps). rewrite sort_wire.
  pose proof (srt_perm ps) as HP. pose proof (srt_sorted ps) as HS.
  assert (Hnds : NoDup (map snd (srt ps))) by (eapply Permutation_NoDup; [apply Permutation_map; exact HP|exact Hnd']).
  assert (Hins : forall x, In x (srt ps) <-> exists sels, In (snd x, sels) d /\ best upper r sels (fst x)).
  { intros [m k]. cbn. rewrite <- Hin. split; apply Permutation_in; [apply Permutation_sym|]; exact HP. }
  assert (Hright : forall x, In x (srt ps) -> unique_in (srt ps) x -> shared_above (srt ps) (fst x) ->
                   right_key upper r d (snd x)).
  { intros x Hx Hu Hsh. destruct (proj1 (Hins x) Hx) as [sels [Hs Hb]].
    exists sels, (fst x). split; [exact Hs|]. split; [exact Hb|]. split.
    - intros k' sels' Hk' Hb'. rewrite (unique_iff _ _ Hnds Hx) in Hu.
      apply (Hu (fst x, k')); [|reflexivity]. apply Hins. exists sels'. auto.
    - intros k1 s1 m1 Hk1 Hb1 Hlt.
      assert (H1 : In (m1, k1) (srt ps)) by (apply Hins; exists s1; auto).
      specialize (Hsh (m1, k1) H1 Hlt).
      destruct (not_unique_other Kdec _ _ Hnds H1 Hsh) as [[m2 k2] [Hy [He Hne]]].
      cbn in He, Hne. subst m2. apply Hins in Hy. destruct Hy as [s2 [Hs2 Hb2]].
      exists k2, s2. auto. }
  pose proof (first_unique_spec (length (srt ps)) (srt ps) (le_n _) HS) as Hfu.
  destruct (first_unique K (map wire (srt ps)) None) as [k|].
  - left. destruct Hfu as [x [Hk [Hx [Hu Hsh]]]]. exists k. split; [reflexivity|].
    subst k. apply Hright; assumption.
  - right. split; [reflexivity|]. intros k [sels [m [Hk [Hb [Huq _]]]]].
    assert (Hx : In (m, k) (srt ps)) by (apply Hins; exists sels; auto).
    apply (Hfu (m, k)). apply unique_iff; [exact Hnds|exact Hx|].
    intros [m' k'] Hy He. cbn in *. subst m'. apply Hins in Hy. destruct Hy as [s' [Hs' Hb']].
    apply (Huq k' s'); assumption.
Qed.

Lemma right_key_unique r (d : dict) k1 k2 :
  right_key upper r d k1 -> right_key upper r d k2 -> k1 = k2.
Proof.
  intros [s1 [m1 [H1 [B1 [U1 A1]]]]] [s2 [m2 [H2 [B2 [U2 A2]]]]].
  destruct (pair_le_total m1 m2) as [[->|H]|H].
  - exact (U2 _ _ H1 B1).
  - exfalso. destruct (A1 k2 s2 m2 H2 B2 H) as [k' [s' [Hne [Hk' Hb']]]]. apply Hne. exact (U2 _ _ Hk' Hb').
  - exfalso. destruct (A2 k1 s1 m1 H1 B1 H) as [k' [s' [Hne [Hk' Hb']]]]. apply Hne. exact (U1 _ _ Hk' Hb').
Qed.

Lemma right_key_perm r (d d' : dict) k : Permutation d d' ->
  right_key upper r d k -> right_key upper r d' k.
Proof.
  intros HP [s [m [H [B [U A]]]]]. exists s, m. repeat split.
  - eapply Permutation_in; eauto.
  - exact B.
  - intros k' s' H' B'. apply (U k' s'); [|exact B']. eapply Permutation_in; [apply Permutation_sym|]; eauto.
  - intros k1 s1 m1 H1 B1 Hlt.
    destruct (A k1 s1 m1) as [k2 [s2 [Hne [H2 B2]]]]; [eapply Permutation_in; [apply Permutation_sym|]; eauto|exact B1|exact Hlt|].
    exists k2, s2. repeat split; auto. eapply Permutation_in; eauto.
Qed.

Lemma greatest_unique_iff (Kdec : forall a b : K, {a = b} + {a <> b}) r (d : dict) default :
  NoDup (map fst d) -> dict_proper d ->
  exists a, greatest_unique upper K r d default = Ok a /\
    (forall k, right_key upper r d k -> a = k) /\
    ((forall k, ~ right_key upper r d k) -> a = default).
Proof.
  intros Hnd Hd. destruct (greatest_unique_spec Kdec r d default Hnd Hd) as [[k [E R]]|[E R]].
  - exists k. split; [exact E|]. split; [intros k' R'; eapply right_key_unique; eauto|].
    intros H. destruct (H k R).
  - exists default. split; [exact E|]. split; [intros k R'; destruct (R k R')|reflexivity].
Qed.

Lemma greatest_unique_order (Kdec : forall a b : K, {a = b} + {a <> b}) r (d d' : dict) default :
  NoDup (map fst d) -> dict_proper d -> Permutation d d' ->
  greatest_unique upper K r d default = greatest_unique upper K r d' default.
Proof.
  intros Hnd Hd HP.
  assert (Hnd' : NoDup (map fst d')) by (eapply Permutation_NoDup; [apply Permutation_map; exact HP|exact Hnd]).
  assert (Hd' : dict_proper d').
  { intros k l H. apply (Hd k). eapply Permutation_in; [apply Permutation_sym|]; eauto. }
  destruct (greatest_unique_spec Kdec r d default Hnd Hd) as [[k [E R]]|[E R]];
  destruct (greatest_unique_spec Kdec r d' default Hnd' Hd') as [[k' [E' R']]|[E' R']]; rewrite E, E'.
  - f_equal. eapply right_key_unique; [exact R|]. eapply right_key_perm; [apply Permutation_sym|]; eauto.
  - destruct (R' k). eapply right_key_perm; eauto.
  - destruct (R k'). eapply right_key_perm; [apply Permutation_sym|]; eauto.
  - reflexivity.
Qed.
End Greatest.

(* ---------------------------------------------- constructed containers *)
Lemma constructed upper r c l : l <> [] -> Forall proper l ->
  (forall x, l = [x] -> same_class c x -> c <> CAny /\ c <> CCompound) ->
  proper (mk_container c l) /\
  (means upper r (mk_container c l) <-> means upper r (SCont c l)).
Proof.
  intros Hne Hl Hs. destruct (mk_container_cases c l Hne) as [E|[[x [-> [Hc [_ E]]]]|[x [-> [Hc [H E]]]]]].
  - rewrite E. split; [apply proper_forall; assumption|reflexivity].
  - rewrite E. inversion Hl; subst. split; [assumption|]. destruct Hc; subst c; cbn; tauto.
  - exfalso. destruct (Hs x eq_refl H) as [H1 H2]. destruct Hc; congruence.
Qed.

Lemma eq_equivalence lower :
  (forall s, proper s -> sel_eqb lower s s = Ok true) /\
  (forall s1 s2, sel_eqb lower s1 s2 = Ok true -> sel_eqb lower s2 s1 = Ok true) /\
  (forall s1 s2 s3, sel_eqb lower s1 s2 = Ok true -> sel_eqb lower s2 s3 = Ok true ->
     sel_eqb lower s1 s3 = Ok true).
Proof.
  unfold sel_eqb. split; [|split].
  - intros s Hp. rewrite (proper_no_loop s Hp). cbn [orb].
    rewrite key_eqb_refl; [reflexivity|]. apply no_loop_key_ok, proper_no_loop, Hp.
  - intros s1 s2. rewrite orb_comm. destruct (has_loop s2 || has_loop s1); [discriminate|].
    intros H. inversion H as [H']. rewrite H'. rewrite (key_eqb_sym _ _ H'). reflexivity.
  - intros s1 s2 s3. destruct (has_loop s1), (has_loop s2), (has_loop s3); cbn; try discriminate.
    intros H1 H2. inversion H1 as [H1']. inversion H2 as [H2'].
    f_equal. rewrite H1'. exact (key_eqb_trans _ _ _ H1' H2').
Qed.

Lemma equal_same_results upper lower
  (Hcase : forall a b, lower a = lower b -> upper a = upper b) s1 s2 r :
  proper s1 -> proper s2 -> sel_eqb lower s1 s2 = Ok true -> call upper r s1 = call upper r s2.
Proof.
  intros H1 H2. unfold sel_eqb. rewrite (proper_no_loop _ H1), (proper_no_loop _ H2). cbn [orb].
  intros H. inversion H as [H']. pose proof (equal_same_calls upper lower Hcase s1 s2 H1 H2 H' r) as Hm.
  destruct (call_means upper r s1 H1) as [b1 [E1 M1]]. destruct (call_means upper r s2 H2) as [b2 [E2 M2]].
  rewrite E1, E2. f_equal. destruct b1, b2; try reflexivity; exfalso.
  - assert (false = true) by (apply M2, Hm, M1; reflexivity). discriminate.
  - assert (false = true) by (apply M1, Hm, M2; reflexivity). discriminate.
Qed.

Lemma specificity_pair s : proper s ->
  exists a b, specificity s = Ok [a; b]%Z /\ spec_of s (a, b) /\ (0 <= b <= a)%Z.
Proof.
  intros H. destruct (specificity_ok s H) as [[a b] [E S]]. exists a, b.
  split; [exact E|]. split; [exact S|exact (spec_of_nonneg _ _ S)].
Qed.

Lemma specificity_grows l x p : l <> [] -> Forall proper l -> proper x ->
  specificity (SCont CCompound l) = Ok [fst p; snd p] ->
  exists q, specificity (SCont CCompound (x :: l)) = Ok [fst q; snd q] /\ pair_le p q.
Proof.
  intros Hne Hl Hx E.
  destruct (specificity_ok _ (proper_forall CCompound l Hne Hl)) as [p' [E' S]].
  rewrite E in E'. inversion E' as [[H1 H2]]. destruct p as [p1 p2], p' as [p1' p2']. cbn in *. subst.
  destruct (specificity_ok _ Hx) as [q [Eq Sq]].
  destruct (spec_compound_grows l x _ _ S Sq) as [S' Hle].
  assert (Hp : proper (SCont CCompound (x :: l))).
  { apply proper_forall; [discriminate|constructor; assumption]. }
  destruct (specificity_ok _ Hp) as [m [Em Sm]]. exists m. split; [exact Em|].
  rewrite (spec_of_det _ _ _ Sm S'). exact Hle.
Qed.

(** ASCII case mapping, an instance on which the case hypothesis holds. *)
Definition ascii_upper (t : text) : text :=
  map (fun c => if (97 <=? c)%N && (c <=? 122)%N then (c - 32)%N else c) t.
Definition ascii_lower (t : text) : text :=
  map (fun c => if (65 <=? c)%N && (c <=? 90)%N then (c + 32)%N else c) t.
Lemma ascii_case a : forall b, ascii_lower a = ascii_lower b -> ascii_upper a = ascii_upper b.
Proof.
  induction a as [|x a IH]; intros [|y b] H; try discriminate; [reflexivity|].
  unfold ascii_lower, ascii_upper in *. cbn [map] in *. inversion H as [[H1 H2]]. f_equal; [|apply IH; exact H2].
  destruct ((65 <=? x) && (x <=? 90))%N eqn:E1; destruct ((65 <=? y) && (y <=? 90))%N eqn:E2;
  destruct ((97 <=? x) && (x <=? 122))%N eqn:E3; destruct ((97 <=? y) && (y <=? 122))%N eqn:E4; lia.
Qed.
