From Coq Require Import Sorting.Sorted Sorting.Permutation.
From Verif Require Import Prelude Selectors_Model Selectors_Proofs LinkRef_Proofs PartSort_Model PartSort_Spec.
Local Open Scope nat_scope.

(** *** Sets *)
Lemma tmem_in x l : tmem x l = true <-> In x l.
Proof.
  unfold tmem. rewrite existsb_exists. split.
  - intros (y & I & E). apply text_eqb_iff in E. subst. exact I.
  - intro I. exists x. split; [exact I | apply text_eqb_refl].
Qed.
Lemma set_eqb_same a b : set_eqb a b = true <-> same_set a b.
Proof.
  unfold set_eqb, same_set. rewrite andb_true_iff, !forallb_forall. split.
  - intros [H1 H2] x. split; intro I; apply tmem_in; auto.
  - intro H. split; intros x I; apply tmem_in, H, I.
Qed.
Lemma set_of_in x l : In x (set_of l) <-> In x l.
Proof.
  induction l as [|y l IH]; cbn [set_of]; [tauto|]. destruct (tmem y l) eqn:E.
  - apply tmem_in in E. rewrite IH. cbn [In]. split; [auto | intros [->|H]; auto].
  - cbn [In]. rewrite IH. tauto.
Qed.
Lemma set_of_nodup l : NoDup (set_of l).
Proof.
  induction l as [|y l IH]; cbn [set_of]; [constructor|]. destruct (tmem y l) eqn:E; [exact IH|]. constructor; [|exact IH].
  rewrite set_of_in. intro I. apply tmem_in in I. congruence.
Qed.
Lemma after_displayed definitions labels : displayed definitions labels (definitions_after definitions labels).
Proof.
  unfold definitions_after, displayed. destruct (set_of labels) as [|x w] eqn:E.
  - left. split; [reflexivity|]. left. destruct labels as [|y l]; [reflexivity|]. assert (H : In y (set_of (y :: l))) by (apply set_of_in; left; reflexivity). rewrite E in H. destruct H.
  - rewrite <- E. destruct (existsb (set_eqb (set_of labels)) definitions) eqn:X.
    + left. split; [reflexivity|]. right. apply existsb_exists in X. destruct X as (d & I & S). exists d. split; [exact I|].
      apply set_eqb_same in S. intro z. rewrite <- (S z), set_of_in. tauto.
    + right. exists (set_of labels). split; [reflexivity|]. split; [intro z; apply set_of_in|]. split; [apply set_of_nodup|]. split; [intros ->; discriminate|].
      intros d I S. assert (T : existsb (set_eqb (set_of labels)) definitions = true); [|congruence].
      apply existsb_exists. exists d. split; [exact I|]. apply set_eqb_same. intro z. rewrite set_of_in, (S z). tauto.
Qed.

(** *** Sorting *)
Lemma insert_by_perm {A K} (ltb : K -> K -> bool) (x : A * K) l : Permutation (insert_by ltb x l) (x :: l).
Proof.
  induction l as [|y l IH]; cbn [insert_by]; [apply Permutation_refl|]. destruct (ltb (snd y) (snd x)); [|apply Permutation_refl].
  eapply Permutation_trans; [apply perm_skip, IH | apply perm_swap].
Qed.
Lemma sort_by_perm {A K} (ltb : K -> K -> bool) (l : list (A * K)) : Permutation (sort_by ltb l) l.
Proof. induction l as [|x l IH]; cbn [sort_by]; [constructor|]. eapply Permutation_trans; [apply insert_by_perm | apply perm_skip, IH]. Qed.
Section Sorting.
Context {A K : Type} (ltb : K -> K -> bool).
Context (asym : forall a b, ltb a b = true -> ltb b a = false).
Context (trans : forall a b c, ltb b a = false -> ltb c b = false -> ltb c a = false).
Definition key_le (x y : A * K) : Prop := ltb (snd y) (snd x) = false.
Lemma insert_by_sorted x l : StronglySorted key_le l -> StronglySorted key_le (insert_by ltb x l).
Proof.
  intro S. induction S as [|y l S IH F]; cbn [insert_by]; [constructor; constructor|]. destruct (ltb (snd y) (snd x)) eqn:E.
  - constructor; [exact IH|]. apply Forall_forall. intros z Iz. apply (Permutation_in _ (insert_by_perm ltb x l)) in Iz. destruct Iz as [<-|Iz].
    + unfold key_le. apply asym. exact E.
    + rewrite Forall_forall in F. apply F. exact Iz.
  - constructor; [constructor; assumption|]. constructor; [exact E|]. rewrite Forall_forall in *. intros z Iz. unfold key_le. eapply trans; [exact E | apply F; exact Iz].
Qed.
Lemma sort_by_sorted l : StronglySorted key_le (sort_by ltb l).
Proof. induction l; cbn [sort_by]; [constructor | apply insert_by_sorted; assumption]. Qed.
End Sorting.
Lemma sorted_map {A B} (R : B -> B -> Prop) (f : A -> B) l : StronglySorted (fun a b => R (f a) (f b)) l -> StronglySorted R (map f l).
Proof. induction 1 as [|x l S IH F]; cbn [map]; constructor; [exact IH|]. apply Forall_forall. intros y Iy. apply in_map_iff in Iy. destruct Iy as (a & <- & Ia). rewrite Forall_forall in F. auto. Qed.
Lemma sorted_impl {A} (R R' : A -> A -> Prop) l : (forall a b, In a l -> In b l -> R a b -> R' a b) -> StronglySorted R l -> StronglySorted R' l.
Proof.
  intros H S. induction S as [|x l S IH F]; constructor.
  - apply IH. intros a b Ia Ib. apply H; right; assumption.
  - rewrite Forall_forall in *. intros y Iy. apply H; [left; reflexivity | right; exact Iy | auto].
Qed.
Lemma sorted_app {A} (R : A -> A -> Prop) a b : StronglySorted R a -> StronglySorted R b -> (forall x y, In x a -> In y b -> R x y) -> StronglySorted R (a ++ b).
Proof.
  intros S Sb H. induction S as [|x l S IH F]; cbn [app]; [exact Sb|]. constructor; [apply IH; intros; apply H; auto; right; auto|].
  apply Forall_forall. intros y Iy. apply in_app_iff in Iy. destruct Iy as [Iy|Iy]; [rewrite Forall_forall in F; auto | apply H; [left; reflexivity | exact Iy]].
Qed.
Lemma sorted_rev {A} (R : A -> A -> Prop) l : StronglySorted R l -> StronglySorted (fun a b => R b a) (rev l).
Proof.
  induction 1 as [|x l S IH F]; cbn [rev]; [constructor|]. apply sorted_app; [exact IH | constructor; constructor|].
  intros y z Iy [<-|[]]. apply in_rev in Iy. rewrite Forall_forall in F. auto.
Qed.
Lemma sorted_unique {A} (R : A -> A -> Prop) : forall l m, StronglySorted R l -> StronglySorted R m -> Permutation l m ->
  (forall a b, In a l -> In b l -> R a b -> R b a -> a = b) -> l = m.
Proof.
  induction l as [|x l IH]; intros m S S' P An; [apply Permutation_nil in P; congruence|].
  destruct m as [|y m]; [symmetry in P; apply Permutation_nil in P; discriminate|].
  inversion_clear S as [|? ? S1 F]. inversion_clear S' as [|? ? S1' F']. rewrite Forall_forall in F, F'.
  assert (x = y) as <-.
  { assert (Iy : In y (x :: l)) by (apply (Permutation_in y (Permutation_sym P)); left; reflexivity).
    assert (Ix : In x (y :: m)) by (apply (Permutation_in x P); left; reflexivity).
    destruct Iy as [E|Iy]; [exact E|]. destruct Ix as [E|Ix]; [auto|]. apply An; auto; [left; reflexivity | right; exact Iy]. }
  f_equal. apply IH; auto; [apply Permutation_cons_inv in P; exact P|]. intros a b Ia Ib. apply An; right; assumption.
Qed.

(** *** The order of definitions *)
Lemma bools_asym : forall a b, bools_ltb a b = true -> bools_ltb b a = false.
Proof. induction a as [|x a IH]; intros [|y b]; cbn [bools_ltb]; auto; try discriminate. destruct x, y; cbn; auto; discriminate. Qed.
Lemma bools_trans : forall a b c, bools_ltb b a = false -> bools_ltb c b = false -> bools_ltb c a = false.
Proof.
  induction a as [|x a IH]; intros [|y b] [|z c]; cbn [bools_ltb]; auto; try discriminate.
  destruct x, y, z; cbn; auto; try discriminate; apply IH.
Qed.
Lemma tmem_false x l : tmem x l = false <-> ~ In x l.
Proof. rewrite <- tmem_in. destruct (tmem x l); split; congruence. Qed.
Lemma catkey_before labels a b : bools_ltb (catkey labels b) (catkey labels a) = true <-> before_def labels a b.
Proof.
  unfold catkey. induction labels as [|x labels IH]; cbn [map bools_ltb].
  - split; [discriminate|]. intros (f & y & o & E & _). destruct f; discriminate.
  - destruct (tmem x b) eqn:Eb, (tmem x a) eqn:Ea; cbn [eqb negb andb]; rewrite ?tmem_in, ?tmem_false in *.
    + rewrite IH. split; intros (f & y & o & E & Ag & Ha & Hb).
      * exists (x :: f), y, o. split; [cbn; congruence|]. split; [|auto]. intros z [<-|Iz]; [tauto | auto].
      * destruct f as [|z f]; cbn [app] in E; injection E as <- E; [contradiction|]. exists f, y, o. split; [exact E|]. split; [intros; apply Ag; right; auto | auto].
    + split; [discriminate|]. intros (f & y & o & E & Ag & Ha & Hb). destruct f as [|z f]; cbn [app] in E; injection E as <- E; [contradiction|].
      destruct (Ag x (or_introl eq_refl)) as [_ H]. tauto.
    + split; [|reflexivity]. intros _. exists [], x, labels. split; [reflexivity|]. split; [intros ? []|]. auto.
    + rewrite IH. split; intros (f & y & o & E & Ag & Ha & Hb).
      * exists (x :: f), y, o. split; [cbn; congruence|]. split; [|auto]. intros z [<-|Iz]; [tauto | auto].
      * destruct f as [|z f]; cbn [app] in E; injection E as <- E; [contradiction|]. exists f, y, o. split; [exact E|]. split; [intros; apply Ag; right; auto | auto].
Qed.
Lemma before_total labels a b : before_def labels a b \/ agree_on labels a b \/ before_def labels b a.
Proof.
  induction labels as [|x labels IH]; [right; left; intros y []|].
  destruct (in_dec text_dec x a) as [Ha|Ha], (in_dec text_dec x b) as [Hb|Hb].
  2: left; exists [], x, labels; split; [reflexivity|]; split; [intros ? [] | auto].
  2: right; right; exists [], x, labels; split; [reflexivity|]; split; [intros ? [] | auto].
  - destruct IH as [(f & y & o & -> & Ag & H)|[Ag|(f & y & o & -> & Ag & H)]].
    + left. exists (x :: f), y, o. split; [reflexivity|]. split; [|auto]. intros z [<-|Iz]; [tauto | auto].
    + right. left. intros y [<-|Iy]; [tauto | auto].
    + right. right. exists (x :: f), y, o. split; [reflexivity|]. split; [|auto]. intros z [<-|Iz]; [tauto | auto].
  - destruct IH as [(f & y & o & -> & Ag & H)|[Ag|(f & y & o & -> & Ag & H)]].
    + left. exists (x :: f), y, o. split; [reflexivity|]. split; [|auto]. intros z [<-|Iz]; [tauto | auto].
    + right. left. intros y [<-|Iy]; [tauto | auto].
    + right. right. exists (x :: f), y, o. split; [reflexivity|]. split; [|auto]. intros z [<-|Iz]; [tauto | auto].
Qed.
Lemma before_asym labels a b : before_def labels a b -> ~ before_def labels b a.
Proof. rewrite <- !catkey_before. intros H H'. apply bools_asym in H. congruence. Qed.
Lemma before_agree labels a b : before_def labels a b -> ~ agree_on labels a b.
Proof. intros (f & x & o & -> & _ & Ha & Hb) Ag. apply Hb, Ag; [apply in_elt | exact Ha]. Qed.
Definition first_or_same labels a b := before_def labels a b \/ agree_on labels a b.
Lemma not_before labels a b : ~ before_def labels b a <-> first_or_same labels a b.
Proof.
  unfold first_or_same. split.
  - intro H. destruct (before_total labels a b) as [H1|[H1|H1]]; tauto.
  - intros [H|H] H'; [exact (before_asym _ _ _ H H')|]. apply (before_agree _ _ _ H'). intros y Iy. symmetry. auto.
Qed.
Lemma order_spec labels todo : exists order, sorted_reverse bools_ltb (catkey labels) todo = order /\ Permutation order todo /\
  StronglySorted (first_or_same labels) order.
Proof.
  eexists. split; [reflexivity|]. unfold sorted_reverse, sorted. split.
  - eapply Permutation_trans; [apply Permutation_sym, Permutation_rev|].
    eapply Permutation_trans; [apply Permutation_map, sort_by_perm|]. rewrite map_map. cbn [fst]. rewrite map_id. apply Permutation_sym, Permutation_rev.
  - apply sorted_rev. apply sorted_map with (R := fun a b => first_or_same labels b a).
    eapply sorted_impl; [|apply (sort_by_sorted bools_ltb bools_asym bools_trans)].
    assert (G : forall x, In x (sort_by bools_ltb (map (fun a => (a, catkey labels a)) (rev todo))) -> snd x = catkey labels (fst x)).
    { intros x Ix. apply (Permutation_in _ (sort_by_perm _ _)) in Ix. apply in_map_iff in Ix. destruct Ix as (a & <- & _). reflexivity. }
    intros x y Ix Iy L. unfold key_le in L. rewrite (G x Ix), (G y Iy) in L. apply not_before. rewrite <- catkey_before. rewrite L. discriminate.
Qed.

(** *** The labels of a definition *)
Lemma index_some labels : forall i x j, label_to_index labels i x = Some j -> i <= j /\ nth_error labels (j - i) = Some x.
Proof.
  induction labels as [|y labels IH]; intros i x j H; cbn [label_to_index] in H; [discriminate|].
  destruct (label_to_index labels (S i) x) as [k|] eqn:E.
  - injection H as <-. apply IH in E. destruct E as [L E]. split; [lia|]. replace (k - i) with (S (k - S i)) by lia. exact E.
  - destruct (text_eqb x y) eqn:T; [|discriminate]. injection H as <-. apply text_eqb_iff in T. subst. split; [lia|]. rewrite Nat.sub_diag. reflexivity.
Qed.
Lemma index_none labels : forall i x, label_to_index labels i x = None <-> ~ In x labels.
Proof.
  induction labels as [|y labels IH]; intros i x; cbn [label_to_index In]; [split; auto|].
  specialize (IH (S i) x). destruct (label_to_index labels (S i) x) as [k|].
  - split; [discriminate|]. intro H. exfalso. apply H. right. destruct (in_dec text_dec x labels) as [I|N]; [exact I|]. apply IH in N. discriminate.
  - assert (N : ~ In x labels) by (apply IH; reflexivity). destruct (text_eqb x y) eqn:T.
    + apply text_eqb_iff in T. subst. split; [discriminate | intro H; exfalso; apply H; left; reflexivity].
    + split; [|reflexivity]. intros _ [->|I]; [rewrite text_eqb_refl in T; discriminate | contradiction].
Qed.
Lemma shown_in labels d x : In x (shown labels d) <-> In x labels /\ In x d.
Proof. unfold shown. rewrite filter_In. destruct (in_dec text_dec x d); split; intros [H1 H2]; split; auto; discriminate. Qed.
Lemma shown_sorted labels d : NoDup labels ->
  forall f, (forall i x, nth_error labels i = Some x -> f x = i) -> StronglySorted (fun a b => f a <= f b) (shown labels d).
Proof.
  intros N f Hf. assert (G : StronglySorted (fun a b => f a <= f b) labels).
  { clear d. assert (H : forall l k, (forall i x, nth_error l i = Some x -> f x = k + i) -> StronglySorted (fun a b => f a <= f b) l).
    { induction l as [|x l IH]; intros k H; constructor.
      - apply (IH (S k)). intros i y E. rewrite (H (S i) y E). lia.
      - apply Forall_forall. intros y Iy. apply In_nth_error in Iy. destruct Iy as [i E]. rewrite (H 0 x eq_refl), (H (S i) y E). lia. }
    apply (H labels 0). exact Hf. }
  unfold shown. clear Hf N. induction G as [|x l S IH F]; cbn [filter]; [constructor|]. destruct (in_dec text_dec x d); [|exact IH]. constructor; [exact IH|].
  rewrite Forall_forall in *. intros y Iy. apply filter_In in Iy. apply F. tauto.
Qed.
Definition index_in (labels : list text) (x : text) : nat := match label_to_index labels 0 x with Some i => i | None => 0 end.
Lemma index_in_nth labels i x : NoDup labels -> nth_error labels i = Some x -> index_in labels x = i.
Proof.
  intros N E. unfold index_in. destruct (label_to_index labels 0 x) as [j|] eqn:T.
  - apply index_some in T. destruct T as [_ T]. rewrite Nat.sub_0_r in T. apply (proj1 (NoDup_nth_error labels) N); [apply nth_error_Some; congruence | congruence].
  - apply index_none in T. exfalso. apply T. eapply nth_error_In. exact E.
Qed.
Lemma keyed_ok labels cat : incl cat labels ->
  traverse (fun x => match label_to_index labels 0 x with Some i => Ok (x, i) | None => Err ValueError end) cat = Ok (map (fun x => (x, index_in labels x)) cat).
Proof.
  induction cat as [|x cat IH]; intro I; [reflexivity|]. rewrite traverse_cons.
  destruct (label_to_index labels 0 x) as [i|] eqn:E.
  - cbn [bind]. rewrite IH by (intros y Iy; apply I; right; exact Iy). cbn [bind map]. replace (index_in labels x) with i by (unfold index_in; rewrite E; reflexivity). reflexivity.
  - apply index_none in E. exfalso. apply E, I. left. reflexivity.
Qed.
Lemma keyed_err labels cat x : In x cat -> ~ In x labels ->
  traverse (fun x => match label_to_index labels 0 x with Some i => Ok (x, i) | None => Err ValueError end) cat = Err ValueError.
Proof.
  induction cat as [|y cat IH]; intros I N; [destruct I|]. rewrite traverse_cons. destruct (label_to_index labels 0 y) as [i|] eqn:E; [|reflexivity].
  cbn [bind]. destruct I as [->|I]; [apply (index_none labels 0 x) in N; congruence|]. rewrite IH by assumption. reflexivity.
Qed.
Lemma sort_labels_shown labels cat : NoDup labels -> NoDup cat -> incl cat labels -> sort_labels labels cat = Ok (shown labels cat).
Proof.
  intros N Nc I. unfold sort_labels. rewrite keyed_ok by exact I. cbn [bind]. f_equal.
  set (kd := map (fun x => (x, index_in labels x)) cat).
  assert (P : Permutation (map fst (sort_by Nat.ltb kd)) cat).
  { eapply Permutation_trans; [apply Permutation_map, sort_by_perm|]. unfold kd. rewrite map_map. cbn [fst]. rewrite map_id. apply Permutation_refl. }
  assert (Inj : forall a b, In a labels -> In b labels -> index_in labels a = index_in labels b -> a = b).
  { intros a b Ia Ib E. apply In_nth_error in Ia. apply In_nth_error in Ib. destruct Ia as [i Ea], Ib as [j Eb].
    rewrite (index_in_nth _ _ _ N Ea), (index_in_nth _ _ _ N Eb) in E. congruence. }
  apply sorted_unique with (R := fun a b => index_in labels a <= index_in labels b).
  - apply sorted_map with (f := @fst text nat). eapply sorted_impl; [|apply (sort_by_sorted Nat.ltb)].
    + assert (G : forall x, In x (sort_by Nat.ltb kd) -> snd x = index_in labels (fst x)).
      { intros x Ix. apply (Permutation_in _ (sort_by_perm _ _)) in Ix. apply in_map_iff in Ix. destruct Ix as (a & <- & _). reflexivity. }
      intros x y Ix Iy L. unfold key_le in L. rewrite (G x Ix), (G y Iy) in L. apply Nat.ltb_ge in L. exact L.
    + intros a b H. apply Nat.ltb_lt in H. apply Nat.ltb_ge. lia.
    + intros a b c H1 H2. apply Nat.ltb_ge in H1, H2. apply Nat.ltb_ge. lia.
  - apply shown_sorted; [exact N|]. intros i x E. apply index_in_nth; assumption.
  - eapply Permutation_trans; [exact P|]. apply NoDup_Permutation; [exact Nc | apply NoDup_filter; exact N|].
    intro x. rewrite shown_in. split; [intro H; split; [apply I|]; exact H | tauto].
  - intros a b Ia Ib L1 L2. apply Inj; [apply I; apply (Permutation_in _ P); exact Ia | apply I; apply (Permutation_in _ P); exact Ib | lia].
Qed.

(** *** The whole function *)
Lemma displayed_in definitions labels todo d : displayed definitions labels todo -> In d todo -> In d definitions \/ (same_set d labels /\ NoDup d).
Proof. intros [[-> _]|(w & -> & S & N & _)] I; [auto|]. apply in_app_iff in I. destruct I as [I|[<-|[]]]; auto. Qed.
Theorem display definitions labels : NoDup labels -> Forall (fun d => NoDup d /\ incl d labels) definitions ->
  exists todo order, displayed definitions labels todo /\ Permutation order todo /\ StronglySorted (first_or_same labels) order /\
    sort_partition_definitions definitions labels = Ok (map (shown labels) order).
Proof.
  intros N F. pose proof (after_displayed definitions labels) as D. destruct (order_spec labels (definitions_after definitions labels)) as (order & E & P & S).
  exists (definitions_after definitions labels), order. split; [exact D|]. split; [exact P|]. split; [exact S|].
  unfold sort_partition_definitions. rewrite E.
  assert (G : forall d, In d order -> NoDup d /\ incl d labels).
  { intros d I. apply (Permutation_in _ P) in I. destruct (displayed_in _ _ _ _ D I) as [I'|[Sd Nd]]; [rewrite Forall_forall in F; auto|].
    split; [exact Nd|]. intros x Ix. apply Sd. exact Ix. }
  clear - G N. induction order as [|d order IH]; [reflexivity|]. rewrite traverse_cons. destruct (G d (or_introl eq_refl)) as [Nd Id].
  rewrite (sort_labels_shown labels d N Nd Id). cbn [bind]. rewrite IH by (intros; apply G; right; assumption). reflexivity.
Qed.
Lemma traverse_dec {A B} (f : A -> res B) e l : (forall a, In a l -> (exists b, f a = Ok b) \/ f a = Err e) ->
  ((exists a, In a l /\ f a = Err e) /\ traverse f l = Err e) \/ ((forall a, In a l -> exists b, f a = Ok b) /\ exists out, traverse f l = Ok out).
Proof.
  induction l as [|a l IH]; intro H; [right; split; [intros ? [] | exists []; reflexivity]|]. rewrite traverse_cons.
  destruct (H a (or_introl eq_refl)) as [[b E]|E]; rewrite E; cbn [bind].
  - destruct IH as [[(x & Ix & Ex) T]|[Al [out T]]]; [intros; apply H; right; assumption| |]; rewrite T; cbn [bind].
    + left. split; [exists x; split; [right; exact Ix | exact Ex] | reflexivity].
    + right. split; [intros x [<-|Ix]; eauto | eauto].
  - left. split; [exists a; split; [left; reflexivity | exact E] | reflexivity].
Qed.
Theorem raises definitions labels :
  (sort_partition_definitions definitions labels = Err ValueError <-> exists d x, In d definitions /\ In x d /\ ~ In x labels) /\
  ((exists out, sort_partition_definitions definitions labels = Ok out) <-> Forall (fun d => incl d labels) definitions).
Proof.
  unfold sort_partition_definitions. pose proof (after_displayed definitions labels) as D. destruct (order_spec labels (definitions_after definitions labels)) as (order & E & P & S). rewrite E.
  assert (H1 : forall d, incl d labels -> exists b, sort_labels labels d = Ok b).
  { intros d I. unfold sort_labels. rewrite keyed_ok by exact I. cbn [bind]. eauto. }
  assert (H2 : forall d x, In x d -> ~ In x labels -> sort_labels labels d = Err ValueError).
  { intros d x I N. unfold sort_labels. rewrite (keyed_err labels d x I N). reflexivity. }
  assert (H3 : forall d, incl d labels \/ exists x, In x d /\ ~ In x labels).
  { intro d. induction d as [|x d IH]; [left; intros ? []|]. destruct (in_dec text_dec x labels) as [I|N]; [|right; exists x; split; [left; reflexivity | exact N]].
    destruct IH as [IH|(y & Iy & Ny)]; [left; intros y [<-|Iy]; auto | right; exists y; split; [right; exact Iy | exact Ny]]. }
  assert (H4 : forall d, In d definitions -> In d order).
  { intros d I. apply (Permutation_in _ (Permutation_sym P)). destruct D as [[-> _]|(w & -> & _)]; [exact I | apply in_app_iff; left; exact I]. }
  assert (H5 : forall d, In d order -> In d definitions \/ same_set d labels).
  { intros d I. apply (Permutation_in _ P) in I. destruct (displayed_in _ _ _ _ D I) as [H|[H _]]; auto. }
  destruct (traverse_dec (sort_labels labels) ValueError order) as [[(d & Id & Ed) T]|[Al [out T]]].
  { intros d _. destruct (H3 d) as [I|(x & Ix & Nx)]; [left; auto | right; eapply H2; eauto]. }
  - rewrite T. assert (X : exists d x, In d definitions /\ In x d /\ ~ In x labels).
    { destruct (H3 d) as [I|(x & Ix & Nx)]; [destruct (H1 d I); congruence|]. destruct (H5 d Id) as [J|J]; [eauto|]. apply J in Ix. contradiction. }
    split; [tauto|]. split; [intros [o Ho]; discriminate|]. intro F. destruct X as (d' & x & I' & Ix & Nx). rewrite Forall_forall in F. exfalso. exact (Nx (F d' I' x Ix)).
  - rewrite T. split; split.
    + discriminate.
    + intros (d & x & I & Ix & Nx). destruct (Al d (H4 d I)) as [b Eb]. rewrite (H2 d x Ix Nx) in Eb. discriminate.
    + intros _. apply Forall_forall. intros d I. destruct (H3 d) as [J|(x & Ix & Nx)]; [exact J|]. destruct (Al d (H4 d I)) as [b Eb]. rewrite (H2 d x Ix Nx) in Eb. discriminate.
    + intros _. eauto.
Qed.

Lemma shown_agree labels a b : agree_on labels a b <-> shown labels a = shown labels b.
Proof.
  split.
  - intro Ag. unfold shown. apply filter_ext_in. intros x Ix. specialize (Ag x Ix). destruct (in_dec text_dec x a), (in_dec text_dec x b); tauto.
  - intros E y Iy. pose proof (shown_in labels a y) as Ha. pose proof (shown_in labels b y) as Hb. rewrite E in Ha. tauto.
Qed.
Lemma before_shown labels a b : before_def labels (shown labels a) (shown labels b) <-> before_def labels a b.
Proof.
  split; intros (f & x & o & E & Ag & Ha & Hb); exists f, x, o; (split; [exact E|]);
    assert (Ix : In x labels) by (rewrite E; apply in_elt); assert (If : forall y, In y f -> In y labels) by (intros y Iy; rewrite E; apply in_app_iff; left; exact Iy).
  - split; [|rewrite shown_in in Ha, Hb; tauto]. intros y Iy. specialize (Ag y Iy). rewrite !shown_in in Ag. specialize (If y Iy). tauto.
  - split; [|rewrite !shown_in; tauto]. intros y Iy. specialize (Ag y Iy). rewrite !shown_in. tauto.
Qed.
Lemma shown_whole labels w : same_set w labels -> shown labels w = labels.
Proof.
  intro S. unfold shown. assert (G : forall l, incl l labels -> filter (fun x => if in_dec text_dec x w then true else false) l = l); [|apply G; intros x I; exact I].
  induction l as [|x l IH]; intro I; [reflexivity|]. cbn [filter]. destruct (in_dec text_dec x w) as [J|J]; [f_equal; apply IH; intros y Iy; apply I; right; exact Iy|].
  exfalso. apply J, S, I. left. reflexivity.
Qed.
Theorem whole_first definitions labels : NoDup labels -> labels <> [] -> Forall (fun d => NoDup d /\ incl d labels) definitions ->
  exists rest, sort_partition_definitions definitions labels = Ok (labels :: rest).
Proof.
  intros N Ne F. destruct (display definitions labels N F) as (todo & order & D & P & S & E).
  assert (W : exists w, In w order /\ same_set w labels).
  { destruct D as [[-> [H|(d & I & Sd)]]|(w & -> & Sw & _)]; [contradiction| |].
    - exists d. split; [apply (Permutation_in _ (Permutation_sym P)); exact I | exact Sd].
    - exists w. split; [apply (Permutation_in _ (Permutation_sym P)); apply in_app_iff; right; left; reflexivity | exact Sw]. }
  destruct W as (w & Iw & Sw). destruct order as [|d order]; [destruct Iw|]. exists (map (shown labels) order). rewrite E. cbn [map]. f_equal. f_equal.
  destruct Iw as [->|Iw]; [apply shown_whole; exact Sw|]. inversion_clear S as [|? ? _ Fd]. rewrite Forall_forall in Fd.
  transitivity (shown labels w); [|apply shown_whole; exact Sw]. apply shown_agree. destruct (Fd w Iw) as [(f & x & o & -> & _ & _ & Nx)|Ag]; [|exact Ag]. exfalso. apply Nx, Sw, in_elt.
Qed.
Definition defs_dec : forall a b : list text, {a = b} + {a <> b} := list_eq_dec text_dec.
Definition rows_like (labels d : list text) (l : list (list text)) : nat := count_occ defs_dec (map (shown labels) l) (shown labels d).
Lemma count_perm (l m : list (list text)) x : Permutation l m -> count_occ defs_dec l x = count_occ defs_dec m x.
Proof. induction 1 as [|y l m P IH|y z l|]; cbn [count_occ]; [reflexivity| | |congruence]; repeat (destruct (defs_dec _ _)); lia. Qed.
Lemma shown_same labels a b : incl a labels -> incl b labels -> (shown labels a = shown labels b <-> same_set a b).
Proof.
  intros Ia Ib. rewrite <- shown_agree. unfold agree_on, same_set. split; intros H x; [|intros _; apply H].
  split; intro I; [apply H in I | apply H in I]; auto.
Qed.
Lemma count_like labels l d (b : list text -> bool) : incl d labels -> Forall (fun x => incl x labels) l -> (forall x, b x = true <-> same_set x d) ->
  count_occ defs_dec (map (shown labels) l) (shown labels d) = length (filter b l).
Proof.
  intros I F Hb. induction F as [|x l Ix F IH]; [reflexivity|]. cbn [map count_occ filter]. destruct (defs_dec (shown labels x) (shown labels d)) as [E|E].
  - apply shown_same in E; auto. apply Hb in E. rewrite E. cbn [length]. congruence.
  - destruct (b x) eqn:B; [|exact IH]. exfalso. apply E, shown_same; auto. apply Hb. exact B.
Qed.
Theorem counts definitions labels out d (b : list text -> bool) : NoDup labels -> Forall (fun d => NoDup d /\ incl d labels) definitions -> incl d labels ->
  (forall x, b x = true <-> same_set x d) -> sort_partition_definitions definitions labels = Ok out ->
  count_occ defs_dec out (shown labels d) =
    length (filter b definitions) + (if b labels then if negb (existsb b definitions) then if labels then 0 else 1 else 0 else 0).
Proof.
  intros N F Id Hb E. destruct (display definitions labels N F) as (todo & order & D & P & S & E'). rewrite E in E'. injection E' as ->.
  rewrite (count_perm _ _ _ (Permutation_map (shown labels) P)).
  assert (Ft : Forall (fun x => incl x labels) todo).
  { apply Forall_forall. intros x Ix. destruct (displayed_in _ _ _ _ D Ix) as [J|[J _]]; [rewrite Forall_forall in F; apply F; exact J | intros y Iy; apply J; exact Iy]. }
  rewrite (count_like labels todo d b Id Ft Hb).
  assert (Hs : forall x, b x = true -> b labels = true -> same_set x labels) by (intros x H1 H2 y; apply Hb in H1, H2; rewrite (H1 y), (H2 y); tauto).
  destruct D as [[-> C]|(w & -> & Sw & Nw & Ne & C)].
  - destruct (b labels) eqn:Bl; [|lia]. destruct C as [->|(d' & I' & S')]; [destruct (negb _); lia|].
    assert (X : existsb b definitions = true); [|rewrite X; cbn [negb]; lia]. apply existsb_exists. exists d'. split; [exact I'|]. apply Hb. intro y. apply Hb in Bl. rewrite (S' y). apply Bl.
  - rewrite filter_app, app_length. cbn [filter]. destruct (b labels) eqn:Bl.
    + assert (Bw : b w = true) by (apply Hb; intro y; apply Hb in Bl; rewrite (Sw y); apply Bl). rewrite Bw.
      assert (X : existsb b definitions = false); [|rewrite X; destruct labels; [congruence | reflexivity]].
      destruct (existsb b definitions) eqn:X; [|reflexivity]. apply existsb_exists in X. destruct X as (x & Ix & Bx). exfalso. apply (C x Ix). apply Hs; [exact Bx | reflexivity].
    + destruct (b w) eqn:Bw; [|cbn [length]; lia]. exfalso. apply Hb in Bw. assert (Bl' : b labels = true); [|congruence]. apply Hb. intro y. rewrite <- (Sw y). apply Bw.
Qed.
(** The result is determined by the collection of the given sets. *)
Lemma sorted_rows labels order : StronglySorted (first_or_same labels) order -> StronglySorted (first_or_same labels) (map (shown labels) order).
Proof.
  intro S. apply sorted_map with (f := shown labels). eapply sorted_impl; [|exact S]. intros a b _ _ [H|H]; [left; apply before_shown; exact H|right].
  apply shown_agree in H. rewrite H. intros y _. tauto.
Qed.
Theorem canonical defs1 defs2 labels perm : NoDup labels -> Forall (fun d => NoDup d /\ incl d labels) defs1 -> Forall (fun d => NoDup d /\ incl d labels) defs2 ->
  Permutation perm defs1 -> Forall2 same_set perm defs2 -> sort_partition_definitions defs1 labels = sort_partition_definitions defs2 labels.
Proof.
  intros N F1 F2 Pp S2. destruct (display defs1 labels N F1) as (t1 & o1 & D1 & P1 & So1 & E1). destruct (display defs2 labels N F2) as (t2 & o2 & D2 & P2 & So2 & E2).
  rewrite E1, E2. f_equal.
  assert (Ex : (exists d, In d defs1 /\ same_set d labels) <-> (exists d, In d defs2 /\ same_set d labels)).
  { assert (G : (exists d, In d perm /\ same_set d labels) <-> (exists d, In d defs2 /\ same_set d labels)).
    { clear - S2. induction S2 as [|a b l m H S2 IH]; [split; intros (d & [] & _)|]. split.
      - intros (d & [<-|I] & Sd); [exists b; split; [left; reflexivity | intro y; rewrite <- (H y); apply Sd]|].
        destruct (proj1 IH (ex_intro _ d (conj I Sd))) as (d' & I' & Sd'). exists d'. split; [right; exact I' | exact Sd'].
      - intros (d & [<-|I] & Sd); [exists a; split; [left; reflexivity | intro y; rewrite (H y); apply Sd]|].
        destruct (proj2 IH (ex_intro _ d (conj I Sd))) as (d' & I' & Sd'). exists d'. split; [right; exact I' | exact Sd']. }
    rewrite <- G. split; intros (d & I & Sd); exists d; split; auto; [apply (Permutation_in _ (Permutation_sym Pp)) | apply (Permutation_in _ Pp)]; exact I. }
  assert (M : Permutation (map (shown labels) defs1) (map (shown labels) defs2)).
  { eapply Permutation_trans; [apply Permutation_map, Permutation_sym, Pp|]. clear - S2. induction S2 as [|a b l m H S2 IH]; [constructor|]. cbn [map].
    replace (shown labels a) with (shown labels b); [constructor; exact IH|]. symmetry. apply shown_agree. intros y _. apply H. }
  assert (T : Permutation (map (shown labels) t1) (map (shown labels) t2)).
  { destruct D1 as [[-> C1]|(w1 & -> & Sw1 & _ & Ne1 & C1)]; destruct D2 as [[-> C2]|(w2 & -> & Sw2 & _ & Ne2 & C2)].
    - exact M.
    - exfalso. destruct C1 as [C1|C1]; [contradiction|]. apply Ex in C1. destruct C1 as (d & I & Sd). exact (C2 d I Sd).
    - exfalso. destruct C2 as [C2|C2]; [contradiction|]. apply Ex in C2. destruct C2 as (d & I & Sd). exact (C1 d I Sd).
    - rewrite !map_app. cbn [map]. rewrite (shown_whole labels w1 Sw1), (shown_whole labels w2 Sw2). apply Permutation_app_tail. exact M. }
  apply sorted_unique with (R := first_or_same labels); [apply sorted_rows; exact So1 | apply sorted_rows; exact So2| |].
  - eapply Permutation_trans; [apply Permutation_map, P1|]. eapply Permutation_trans; [exact T | apply Permutation_map, Permutation_sym, P2].
  - intros a b Ia Ib H1 H2. apply in_map_iff in Ia, Ib. destruct Ia as (x & <- & _), Ib as (y & <- & _).
    apply shown_agree. destruct H1 as [H1|H1].
    + exfalso. destruct H2 as [H2|H2]; [exact (before_asym _ _ _ H1 H2)|]. apply (before_agree _ _ _ H1). intros z Iz. symmetry. auto.
    + intros z Iz. specialize (H1 z Iz). rewrite !shown_in in H1. tauto.
Qed.
Theorem again definitions labels : definitions_after (definitions_after definitions labels) labels = definitions_after definitions labels.
Proof.
  unfold definitions_after. destruct (set_of labels) as [|x w] eqn:E; [reflexivity|]. rewrite <- E.
  destruct (existsb (set_eqb (set_of labels)) definitions) eqn:X; [rewrite X; reflexivity|].
  rewrite existsb_app. cbn [existsb]. assert (G : set_eqb (set_of labels) (set_of labels) = true) by (apply set_eqb_same; intro; tauto). rewrite G, orb_true_r. reflexivity.
Qed.
