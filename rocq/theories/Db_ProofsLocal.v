(** Invariants that every primitive change preserves. *)
From Verif Require Import Prelude QLemmas BitFlags_Model BitFlags_Proofs Selectors_Model
  Selectors_Proofs LinkRef_Model LinkRef_Spec LinkRef_Proofs Db_Model Db_Spec Db_Proofs.
From Coq Require Import ZifyBool ZifyNat Lqa.

Ltac open_prim H :=
  first [ progress unfold index_add in H | progress unfold index_update in H | progress unfold index_delete in H
        | progress unfold group_add in H | progress unfold group_update in H | progress unfold weight_add in H
        | progress unfold weight_update in H | progress unfold link_add in H | progress unfold link_update in H
        | progress unfold map_add in H | progress unfold map_update in H | progress unfold refresh_proportions in H
        | progress unfold add_columns in H | progress unfold rename_columns in H | progress unfold drop_columns in H ];
  cbv zeta in H; repeat step_res H.
Ltac eq_prim H := open_prim H; try (injection H as <- <-); subst.
(** The case of a primitive that does not touch the tables concerned. *)
Ltac frame lem :=
  try (solve [ match goal with
    | H : _ = Ok _ |- _ => eq_prim H; (eapply lem; [..|eassumption]; reflexivity)
    | |- _ => eapply lem; [..|eassumption]; reflexivity
    end ]).

Lemma find_none_iff {A} (f : A -> bool) l : find f l = None <-> forall x, In x l -> f x = false.
Proof.
  split; [apply find_none|]. induction l as [|a l IH]; intros H; cbn; auto.
  rewrite (H a) by now left. apply IH. intros x Hx. apply H. now right.
Qed.
Lemma existsb_false_iff {A} (f : A -> bool) l :
  existsb f l = false <-> forall x, In x l -> f x = false.
Proof.
  rewrite <- not_true_iff_false, existsb_exists. split.
  - intros H x Hx. destruct (f x) eqn:E; auto. exfalso. eauto.
  - intros H (x & Hx & E). rewrite (H x Hx) in E. discriminate.
Qed.
Lemma zmax_ge l x : In x l -> (x <= zmax l)%Z.
Proof.
  induction l as [|a l IH]; cbn; [tauto|]. intros [->|H]; [lia|]. specialize (IH H). unfold zmax in IH. lia.
Qed.
Lemma nodup_snoc {A} (l : list A) x : NoDup l -> ~ In x l -> NoDup (l ++ [x]).
Proof.
  intros H Hx. apply nodup_app; auto; [repeat constructor; cbn; tauto|].
  intros y Hy [<-|[]]. auto.
Qed.
Lemma nodup_map_filter {A B} (f : A -> B) p l : NoDup (map f l) -> NoDup (map f (filter p l)).
Proof.
  induction l as [|a l IH]; cbn; intros H; auto. inversion H; subst.
  destruct (p a); cbn; auto. constructor; auto.
  intros Hin. apply H2. apply in_map_iff in Hin. destruct Hin as (x & E & Hx).
  apply filter_In in Hx. apply in_map_iff. exists x. tauto.
Qed.
Lemma nodup_map_inj {A B} (f : A -> B) l x y :
  NoDup (map f l) -> In x l -> In y l -> f x = f y -> x = y.
Proof.
  induction l as [|a l IH]; cbn; intros N; [tauto|]. inversion N as [|u v Hn Hd]; subst.
  intros [<-|Hx] [<-|Hy] E; auto.
  - exfalso. apply Hn. rewrite E. now apply in_map.
  - exfalso. apply Hn. rewrite <- E. now apply in_map.
Qed.

Lemma nodup_map_in {A B} (f : A -> B) l :
  (forall x y, In x l -> In y l -> f x = f y -> x = y) -> NoDup l -> NoDup (map f l).
Proof.
  induction l as [|a l IH]; intros H N; cbn [map]; [constructor|].
  inversion N as [|u v Hn Hd]; subst. constructor.
  - intros Hin. apply in_map_iff in Hin. destruct Hin as (x & E & Hx).
    apply Hn. rewrite <- (H x a); auto; [now right|now left].
  - apply IH; auto. intros x y Hx Hy. apply H; now right.
Qed.

(** *** Index records *)

Lemma index_wf_ext s s' : d_labels s' = d_labels s -> d_index s' = d_index s -> d_seq s' = d_seq s ->
  index_wf s -> index_wf s'.
Proof.
  intros E1 E2 E3 []. split; unfold undefined_record in *; rewrite ?E1, ?E2, ?E3; auto.
Qed.

Lemma index_find_spec i s r : index_find i s = Some r -> In r (d_index s) /\ ix_id r = i.
Proof. unfold index_find. intros H. apply find_some in H. destruct H. split; auto. lia. Qed.

Lemma keep_map {A B} (f : A -> B) fl : forall l, keep fl (map f l) = map f (keep fl l).
Proof. induction fl as [|[|] fl IH]; intros [|x l]; cbn; auto. now rewrite IH. Qed.
Lemma keep_in {A} fl : forall (l : list A) x, In x (keep fl l) -> In x l.
Proof.
  induction fl as [|[|] fl IH]; intros [|y l] x; cbn; auto; try tauto. intros [->|H]; eauto.
Qed.
Lemma keep_length {A B} fl : forall (l : list A) (l' : list B),
  length l = length l' -> length (keep fl l) = length (keep fl l').
Proof.
  induction fl as [|[|] fl IH]; intros [|x l] [|y l']; cbn; intros H; auto; try discriminate.
Qed.
Lemma keep_nodup {A} fl : forall (l : list A), NoDup l -> NoDup (keep fl l).
Proof.
  induction fl as [|[|] fl IH]; intros [|x l] H; cbn; auto using NoDup_nil; inversion H; subst; auto.
  constructor; auto. intros Hin. apply keep_in in Hin. contradiction.
Qed.
Lemma distinct_labels_nodup l : distinct_labels l = true -> NoDup l.
Proof.
  induction l as [|x l IH]; cbn; intros H; constructor; apply andb_true_iff in H; destruct H as [H1 H2]; auto.
  intros Hin. apply negb_true_iff, existsb_false_iff with (x := x) in H1; auto.
  rewrite <- not_true_iff_false, labels_eqb_iff in H1. auto.
Qed.
Lemma nodup_length_eq {A} (dec : forall x y : A, {x = y} + {x <> y}) l :
  length (nodup dec l) = length l -> NoDup l.
Proof.
  intros H. induction l as [|a l IH]; [constructor|]. cbn in H.
  assert (Hle : length (nodup dec l) <= length l).
  { clear. induction l as [|b l IH]; cbn; auto. destruct (in_dec dec b l); cbn; lia. }
  destruct (in_dec dec a l); cbn in H; [lia|]. constructor; auto.
Qed.

Lemma text_eqb_neq a b : text_eqb a b = false <-> a <> b.
Proof. rewrite <- not_true_iff_false, text_eqb_iff. tauto. Qed.

Lemma existsb_text_in c l : existsb (text_eqb c) l = true <-> In c l.
Proof.
  rewrite existsb_exists. split.
  - intros (x & H & E). apply text_eqb_iff in E. now subst.
  - intros H. exists c. split; auto. apply text_eqb_iff. reflexivity.
Qed.

Lemma length_nat_eqb a b : negb (a =? b) = false -> a = b.
Proof. intros H. apply negb_false_iff, Nat.eqb_eq in H. exact H. Qed.

Lemma index_wf_add s s' labels i : index_wf s -> index_add labels s = Ok (s', i) ->
  index_wf s' /\ (d_seq s < i)%Z.
Proof.
  intros [Wc Wu Wr Wz Wa Wf Wl] H. unfold index_add in H. destruct labels as [|t0 tl]; [discriminate|].
  set (labels := t0 :: tl) in *. repeat step_res H. subst s' i.
  assert (Hseq : (d_seq s < Z.max (d_seq s) (zmax (map ix_id (d_index s))) + 1)%Z) by lia.
  split; auto. apply length_nat_eqb in E.
  split; unfold set_index_seq; cbn -[Z.max]; auto.
  - rewrite map_app. apply nodup_snoc; auto. cbn [map ix_id]. intros Hin.
    apply zmax_ge in Hin. lia.
  - intros r Hr. apply in_app_iff in Hr. destruct Hr as [Hr|[<-|[]]]; cbn [ix_id].
    + specialize (Wr r Hr). lia.
    + pose proof (Wr _ Wz) as Hz. cbn in Hz. lia.
  - apply in_app_iff. left. exact Wz.
  - intros r Hr. apply in_app_iff in Hr. destruct Hr as [Hr|[<-|[]]]; auto.
  - intros r t Hr. apply in_app_iff in Hr. destruct Hr as [Hr|[<-|[]]]; eauto. cbn [ix_labels].
    intros Ht ->. apply existsb_false_iff with (x := []) in E0; auto. discriminate.
  - unfold labels_clash in E1. rewrite existsb_false_iff in E1.
    assert (Hn : forall r, In r (d_index s) -> ix_labels r <> labels).
    { intros r Hr Er. specialize (E1 r Hr). cbv beta in E1.
      rewrite <- not_true_iff_false, labels_eqb_iff in E1. auto. }
    intros x y Hx Hy E3. apply in_app_iff in Hx, Hy.
    destruct Hx as [Hx|[<-|[]]], Hy as [Hy|[<-|[]]]; auto; cbn [ix_labels] in E3.
    + exfalso. eapply Hn; eauto.
    + exfalso. symmetry in E3. eapply Hn; eauto.
Qed.

Lemma index_wf_update s s' i labels : index_wf s -> index_update i labels s = Ok s' -> index_wf s'.
Proof.
  intros W H. pose proof W as [Wc Wu Wr Wz Wa Wf Wl]. unfold index_update in H. repeat step_res H.
  2: { subst; exact W. }
  subst s'. apply length_nat_eqb in E.
  set (f := fun r => if (ix_id r =? i)%Z then {| ix_id := i; ix_labels := labels |} else r).
  assert (Hf : forall r, ix_id (f r) = ix_id r).
  { intros r. unfold f. destruct (ix_id r =? i)%Z eqn:Ei; cbn; lia. }
  split; unfold set_index, set_labels_index, undefined_record in *; cbn [d_labels d_index d_seq] in *; auto.
  - rewrite map_map, (map_ext _ ix_id); auto.
  - intros r Hr. apply in_map_iff in Hr. destruct Hr as (r0 & <- & Hr). rewrite Hf. auto.
  - apply in_map_iff. eexists. split; [|exact Wz]. unfold f. cbn [ix_id].
    destruct (0 =? i)%Z eqn:Ei; auto. lia.
  - intros r Hr. apply in_map_iff in Hr. destruct Hr as (r0 & <- & Hr). unfold f.
    destruct (ix_id r0 =? i)%Z; auto.
  - intros r t Hr. apply in_map_iff in Hr. destruct Hr as (r0 & <- & Hr). unfold f.
    destruct (ix_id r0 =? i)%Z; eauto. cbn [ix_labels]. intros Ht ->.
    apply existsb_false_iff with (x := []) in E2; auto. discriminate.
  - unfold labels_clash in E3. rewrite existsb_false_iff in E3.
    assert (Hn : forall r, In r (d_index s) -> ix_id r <> i -> ix_labels r <> labels).
    { intros r Hr Hi Er. specialize (E3 r). rewrite filter_In in E3.
      assert (labels_eqb (ix_labels r) labels = false) as E4 by (apply E3; split; auto; lia).
      rewrite <- not_true_iff_false, labels_eqb_iff in E4. auto. }
    intros x y Hx Hy E4. apply in_map_iff in Hx, Hy.
    destruct Hx as (x0 & <- & Hx), Hy as (y0 & <- & Hy). unfold f in *.
    destruct (ix_id x0 =? i)%Z eqn:Ex, (ix_id y0 =? i)%Z eqn:Ey; cbn [ix_labels] in E4; auto.
    + exfalso. apply (Hn y0); auto; lia.
    + exfalso. apply (Hn x0); auto; lia.
Qed.

Lemma index_wf_delete s s' i : index_wf s -> index_delete i s = Ok s' -> index_wf s'.
Proof.
  intros W H. pose proof W as [Wc Wu Wr Wz Wa Wf Wl]. unfold index_delete in H. repeat step_res H.
  2: { subst; exact W. }
  subst s'. split; unfold set_index, set_labels_index, undefined_record in *; cbn [d_labels d_index d_seq] in *; auto.
  - now apply nodup_map_filter.
  - intros r Hr. apply filter_In in Hr. apply Wr; tauto.
  - apply filter_In. split; auto. cbn [ix_id]. lia.
  - intros r Hr. apply filter_In in Hr. apply Wa; tauto.
  - intros r t Hr. apply filter_In in Hr. apply Wf; tauto.
  - intros x y Hx Hy. apply filter_In in Hx, Hy. apply Wl; tauto.
Qed.

Lemma app_inv_both {A} (a b c d : list A) : length a = length c -> a ++ b = c ++ d -> a = c.
Proof.
  revert c; induction a as [|x a IH]; intros [|y c] H E; cbn in *; auto; try discriminate.
  injection E as -> E. f_equal. apply IH; auto.
Qed.

Lemma Ok_inj {A} (a b : A) : Ok a = Ok b -> a = b.
Proof. congruence. Qed.

Lemma index_wf_add_columns s s' c : index_wf s -> add_columns c s = Ok s' -> index_wf s'.
Proof.
  intros W H. pose proof W as [Wc Wu Wr Wz Wa Wf Wl]. unfold add_columns in H. destruct c as [|c0 cl]; [discriminate|].
  set (c := c0 :: cl) in *. step_res H; [discriminate|]. step_res H; [discriminate|]. apply Ok_inj in H. subst s'. apply length_nat_eqb in E0.
  apply nodup_length_eq in E0. rewrite existsb_false_iff in E.
  split; unfold set_index, set_labels_index, undefined_record in *; cbn [d_labels d_index d_seq] in *; auto.
  - apply nodup_app; auto. intros x Hx Hc. specialize (E x Hc). cbv beta in E.
    rewrite <- not_true_iff_false, existsb_text_in in E. auto.
  - rewrite map_map. cbn [ix_id]. exact Wu.
  - intros r Hr. apply in_map_iff in Hr. destruct Hr as (r0 & <- & Hr). cbn [ix_id]. auto.
  - apply in_map_iff. eexists. split; [|exact Wz]. cbn [ix_id ix_labels].
    now rewrite map_app.
  - intros r Hr. apply in_map_iff in Hr. destruct Hr as (r0 & <- & Hr). cbn [ix_labels].
    rewrite !app_length, map_length. now rewrite Wa.
  - intros r t Hr. apply in_map_iff in Hr. destruct Hr as (r0 & <- & Hr). cbn [ix_labels].
    rewrite in_app_iff, in_map_iff. intros [Ht|(x & <- & _)]; [eauto|discriminate].
  - intros x y Hx Hy E4. apply in_map_iff in Hx, Hy.
    destruct Hx as (x0 & <- & Hx), Hy as (y0 & <- & Hy). cbn [ix_labels] in E4.
    apply app_inv_both in E4; [|now rewrite !Wa].
    rewrite (Wl x0 y0); auto.
Qed.

Lemma index_wf_rename s s' m : index_wf s -> rename_columns m s = Ok s' -> index_wf s'.
Proof.
  intros W H. pose proof W as [Wc Wu Wr Wz Wa Wf Wl]. unfold rename_columns in H. repeat step_res H. subst s'.
  rewrite existsb_false_iff in E0. apply length_nat_eqb in E1. rewrite <- (map_length snd m) in E1.
  apply nodup_length_eq in E1.
  split; unfold set_index, set_labels_index, undefined_record in *; cbn [d_labels d_index d_seq] in *; auto.
  - apply nodup_map_in; auto.
    intros x y Hx Hy. destruct (find (fun p => text_eqb (fst p) x) m) as [p|] eqn:Ex;
      destruct (find (fun p => text_eqb (fst p) y) m) as [q|] eqn:Ey.
    + apply find_some in Ex, Ey. destruct Ex as [Ix Ex], Ey as [Iy Ey].
      apply text_eqb_iff in Ex, Ey. intros Es.
      assert (p = q) as -> by (eapply nodup_map_inj; eauto). congruence.
    + apply find_some in Ex. destruct Ex as [Ix Ex]. intros Es. subst y.
      specialize (E0 p Ix). cbv beta in E0. rewrite <- not_true_iff_false, existsb_text_in in E0. tauto.
    + apply find_some in Ey. destruct Ey as [Iy Ey]. intros Es. subst x.
      specialize (E0 q Iy). cbv beta in E0. rewrite <- not_true_iff_false, existsb_text_in in E0. tauto.
    + auto.
  - rewrite map_map. exact Wz.
  - intros r Hr. rewrite map_length. auto.
Qed.

Lemma index_wf_drop s s' c b : index_wf s -> drop_columns c b s = Ok s' -> index_wf s'.
Proof.
  intros W H. pose proof W as [Wc Wu Wr Wz Wa Wf Wl]. unfold drop_columns in H. destruct c as [|c0 cl]; [discriminate|].
  set (c := c0 :: cl) in *. cbv zeta in H. repeat step_res H. subst s'.
  set (fl := map (fun c1 => negb (existsb (text_eqb c1) c)) (d_labels s)) in *.
  apply orb_false_iff in E0. destruct E0 as [_ E0]. apply negb_false_iff, distinct_labels_nodup in E0.
  split; unfold set_structs, set_labels_index, undefined_record in *; cbn [d_labels d_index d_seq] in *; auto.
  - now apply keep_nodup.
  - rewrite map_map. cbn [ix_id]. exact Wu.
  - intros r Hr. apply in_map_iff in Hr. destruct Hr as (r0 & <- & Hr). cbn [ix_id]. auto.
  - apply in_map_iff. eexists. split; [|exact Wz]. cbn [ix_id ix_labels].
    now rewrite keep_map.
  - intros r Hr. apply in_map_iff in Hr. destruct Hr as (r0 & <- & Hr). cbn [ix_labels].
    apply keep_length. auto.
  - intros r t Hr. apply in_map_iff in Hr. destruct Hr as (r0 & <- & Hr). cbn [ix_labels].
    intros Ht. apply keep_in in Ht. eauto.
  - intros x y Hx Hy E4. exact (nodup_map_inj ix_labels _ x y E0 Hx Hy E4).
Qed.

Lemma index_wf_prim s s' : prim s s' -> index_wf s -> index_wf s'.
Proof.
  intros P W. destruct P; frame index_wf_ext.
  - eapply index_wf_add; eauto.
  - eapply index_wf_update; eauto.
  - eapply index_wf_delete; eauto.
  - unfold group_delete. cbn [d_fk set_groups]. destruct (d_fk s); eapply index_wf_ext; try exact W; reflexivity.
  - unfold link_delete. cbn [d_fk set_links]. destruct (d_fk s); eapply index_wf_ext; try exact W; reflexivity.
  - eapply index_wf_add_columns; eauto.
  - eapply index_wf_rename; eauto.
  - eapply index_wf_drop; eauto.
Qed.

(** *** Ids never come back *)

Definition grows (s s' : db) : Prop :=
  (d_seq s <= d_seq s')%Z /\ forall i, has_index s' i -> has_index s i \/ (d_seq s < i)%Z.

Lemma grows_ext s s' : map ix_id (d_index s') = map ix_id (d_index s) -> d_seq s' = d_seq s -> grows s s'.
Proof.
  intros E1 E2. split; [lia|]. intros i (r & Hr & <-). left.
  apply (in_map ix_id) in Hr. rewrite E1 in Hr. apply in_map_iff in Hr.
  destruct Hr as (r0 & E & Hr). exists r0. auto.
Qed.
Lemma grows_prim s s' : prim s s' -> index_wf s -> grows s s'.
Proof.
  intros P W. destruct P;
    try (solve [match goal with H : _ = Ok _ |- _ => eq_prim H; (apply grows_ext; reflexivity)
           | |- _ => apply grows_ext; reflexivity end]).
  - destruct (index_wf_add _ _ _ _ W H) as [_ Hi]. unfold index_add in H.
    destruct labels; [discriminate|]. repeat step_res H. subst s' i.
    split; cbn -[Z.max]; [lia|]. intros i (r & Hr & <-). cbn -[Z.max] in Hr.
    apply in_app_iff in Hr. destruct Hr as [Hr|[<-|[]]]; [left; exists r; auto|right; exact Hi].
  - unfold index_update in H. repeat step_res H; subst; apply grows_ext; try reflexivity.
    cbn. rewrite map_map. apply map_ext. intros r. destruct (ix_id r =? i)%Z eqn:Ei; cbn; lia.
  - unfold index_delete in H. repeat step_res H; subst; [|now apply grows_ext].
    split; cbn; [lia|]. intros j (r & Hr & <-). cbn in Hr. apply filter_In in Hr.
    left. exists r. tauto.
  - unfold group_delete. cbn [d_fk set_groups]. destruct (d_fk s); apply grows_ext; reflexivity.
  - unfold link_delete. cbn [d_fk set_links]. destruct (d_fk s); apply grows_ext; reflexivity.
  - eq_prim H. apply grows_ext; [|reflexivity]. cbn. rewrite map_map. reflexivity.
  - eq_prim H. apply grows_ext; [|reflexivity]. cbn. rewrite map_map. reflexivity.
Qed.

(** *** Weights *)

Definition wkey (w : weight) : Z * Z := (w_group w, w_index w).

Lemma weights_wf_ext s s' : d_groups s' = d_groups s -> d_weights s' = d_weights s ->
  weights_wf s -> weights_wf s'.
Proof. intros E1 E2 []. split; rewrite ?E1, ?E2; auto. Qed.

Lemma weight_is_iff g i w : weight_is g i w = true <-> w_group w = g /\ w_index w = i.
Proof. unfold weight_is. lia. Qed.

Lemma Qle_bool_0 v : negb (Qle_bool 0 v) = false -> (0 <= v)%Q.
Proof. intros H. apply negb_false_iff in H. apply Qle_bool_iff. exact H. Qed.

Lemma weights_wf_add s s' g i v : weights_wf s -> weight_add g i v s = Ok s' ->
  weights_wf s' /\ s' = set_weights (d_weights s ++ [{| w_group := g; w_index := i; w_value := v |}]) s.
Proof.
  intros [[Wg Wn] Wu Wv Wd] H. unfold weight_add in H. repeat step_res H. subst s'. split; auto.
  apply Qle_bool_0 in E0. rewrite existsb_false_iff in E2.
  split; cbn [d_groups d_weights set_weights]; auto.
  - rewrite map_app. apply nodup_snoc; auto. cbn [map w_group w_index]. intros Hin.
    apply in_map_iff in Hin. destruct Hin as (w & Ew & Hw). specialize (E2 w Hw).
    injection Ew as Eg Ei. rewrite <- not_true_iff_false, weight_is_iff in E2. auto.
  - intros w Hw. apply in_app_iff in Hw. destruct Hw as [Hw|[<-|[]]]; auto.
  - intros w Hw. apply in_app_iff in Hw. destruct Hw as [Hw|[<-|[]]]; auto. cbn. lia.
Qed.

Lemma weight_update_keys g i v s s' : weight_update g i v s = Ok s' ->
  map wkey (d_weights s') = map wkey (d_weights s).
Proof.
  intros H. unfold weight_update in H. repeat step_res H. subst s'. cbn [set_weights d_weights].
  rewrite map_map. apply map_ext. intros w. destruct (weight_is g i w) eqn:Ew; auto.
  apply weight_is_iff in Ew. unfold wkey; cbn. destruct Ew; congruence.
Qed.

Lemma zmax_fresh l : ~ In (zmax l + 1)%Z l.
Proof. intros H. apply zmax_ge in H. lia. Qed.

Lemma weights_wf_prim s s' : prim s s' -> weights_wf s -> weights_wf s'.
Proof.
  intros P W. destruct P; frame weights_wf_ext; pose proof W as [[Wi Wn] Wu Wv Wd].
  - unfold group_add in H. repeat step_res H. subst s'. unfold group_by_name in E.
    rewrite find_none_iff in E. split; cbn [d_groups d_weights set_groups]; auto.
    rewrite !map_app. split; apply nodup_snoc; auto; cbn [map g_id g_name].
    + apply zmax_fresh.
    + intros Hin. apply in_map_iff in Hin. destruct Hin as (x & Ex & Hx). specialize (E x Hx).
      cbv beta in E. rewrite <- not_true_iff_false, text_eqb_iff in E. auto.
  - unfold group_update in H. repeat step_res H. subst s'. rewrite existsb_false_iff in E.
    split; cbn [d_groups d_weights set_groups]; auto. rewrite !map_map. split.
    + rewrite (map_ext _ g_id); auto. intros x. destruct (g_id x =? g_id g)%Z eqn:Ex; auto. lia.
    + apply nodup_map_in.
      * intros x y Hx Hy. pose proof (E x Hx) as E1. pose proof (E y Hy) as E2. cbv beta in E1, E2.
        destruct (g_id x =? g_id g)%Z eqn:Ex, (g_id y =? g_id g)%Z eqn:Ey; intros En.
        -- eapply nodup_map_inj; [exact Wi| | |]; auto. lia.
        -- cbn [negb andb] in E2. rewrite <- not_true_iff_false, text_eqb_iff in E2. congruence.
        -- cbn [negb andb] in E1. rewrite <- not_true_iff_false, text_eqb_iff in E1. congruence.
        -- eapply nodup_map_inj; [exact Wn| | |]; auto.
      * eapply NoDup_map_inv. exact Wi.
  - split; cbn [d_groups d_weights set_groups]; auto. rewrite !map_map. cbn [g_id g_name]. auto.
  - assert (W1 : weights_wf (set_groups (filter (fun g => negb (g_id g =? i)%Z) (d_groups s)) s)).
    { split; cbn [d_groups d_weights set_groups]; auto. split; now apply nodup_map_filter. }
    unfold group_delete. cbn [d_fk set_groups]. destruct (d_fk s); auto. destruct W1 as [Wg Wu' Wv' Wd'].
    split; cbn [d_groups d_weights set_groups set_weights] in *; auto.
    + now apply nodup_map_filter.
    + intros w Hw. apply filter_In in Hw. apply Wv; tauto.
    + intros w Hw. apply filter_In in Hw. apply Wd; tauto.
  - eapply weights_wf_add; eauto.
  - assert (Hk := weight_update_keys _ _ _ _ _ H). unfold weight_update in H. repeat step_res H. subst s'.
    apply Qle_bool_0 in E. split; cbn [d_groups d_weights set_weights] in *; auto.
    + unfold wkey in Hk. rewrite Hk. exact Wu.
    + intros w Hw. apply in_map_iff in Hw. destruct Hw as (w0 & <- & Hw).
      destruct (weight_is g i w0); auto.
    + intros w Hw. apply in_map_iff in Hw. destruct Hw as (w0 & <- & Hw).
      destruct (weight_is g i w0) eqn:Ew; auto. apply weight_is_iff in Ew. cbn.
      destruct Ew as [_ <-]. auto.
  - split; cbn [d_groups d_weights set_weights weight_delete] in *; auto.
    + now apply nodup_map_filter.
    + intros w Hw. apply filter_In in Hw. apply Wv; tauto.
    + intros w Hw. apply filter_In in Hw. apply Wd; tauto.
  - unfold link_delete. cbn [d_fk set_links]. destruct (d_fk s); eapply weights_wf_ext; try exact W; reflexivity.
Qed.

(** *** Links *)

Lemma link_table_sub p l : link_table l -> link_table (filter p l).
Proof.
  intros (A & B & C). split; [|split].
  - now apply nodup_map_filter.
  - intros x y Hx Hy. apply filter_In in Hx, Hy. apply B; tauto.
  - intros x y Hx Hy. apply filter_In in Hx, Hy. apply C; tauto.
Qed.

Lemma link_clash_false k l : link_clash k l = false ->
  forall x, In x l -> k_other x = k_other k ->
    k_name x <> k_name k /\ (k_default x = true -> k_default k = true -> False).
Proof.
  unfold link_clash. rewrite existsb_false_iff. intros H x Hx Eo. specialize (H x Hx). cbv beta in H.
  rewrite (proj2 (text_eqb_iff _ _) Eo) in H. cbn [andb] in H. apply orb_false_iff in H.
  destruct H as [H1 H2]. split.
  - rewrite <- not_true_iff_false, text_eqb_iff in H1. exact H1.
  - intros A B. rewrite A, B in H2. discriminate.
Qed.

Lemma link_table_prim s s' : prim s s' -> link_table (d_links s) -> link_table (d_links s').
Proof.
  intros P W. destruct P;
    try (solve [match goal with H : _ = Ok _ |- _ => eq_prim H; exact W | |- _ => exact W end]).
  - unfold group_delete. cbn [d_fk set_groups]. destruct (d_fk s); exact W.
  - unfold link_add in H. step_res H; [discriminate|]. injection H as <-.
    cbn [d_links set_links]. destruct W as (A & B & C). pose proof (link_clash_false _ _ E) as D.
    split; [|split].
    + rewrite map_app. apply nodup_snoc; auto. cbn [map k_id with_id]. apply zmax_fresh.
    + intros x y Hx Hy. apply in_app_iff in Hx, Hy.
      destruct Hx as [Hx|[<-|[]]], Hy as [Hy|[<-|[]]]; auto; cbn [k_other k_name with_id]; intros Eo En.
      * exfalso. destruct (D x Hx Eo). auto.
      * exfalso. symmetry in Eo. destruct (D y Hy Eo). auto.
    + intros x y Hx Hy. apply in_app_iff in Hx, Hy.
      destruct Hx as [Hx|[<-|[]]], Hy as [Hy|[<-|[]]]; auto; cbn [k_other k_default with_id]; intros Eo E1 E2.
      * exfalso. destruct (D x Hx Eo). auto.
      * exfalso. symmetry in Eo. destruct (D y Hy Eo). auto.
  - unfold link_update in H. step_res H; [discriminate|]. injection H as <-.
    cbn [d_links set_links]. destruct W as (A & B & C). pose proof (link_clash_false _ _ E) as D.
    assert (D' : forall x, In x (d_links s) -> (k_id x =? k_id k)%Z = false -> k_other x = k_other k ->
      k_name x <> k_name k /\ (k_default x = true -> k_default k = true -> False)).
    { intros x Hx Ex Eo. apply D; auto. apply filter_In. split; auto. now rewrite Ex. }
    split; [|split].
    + rewrite map_map, (map_ext _ k_id); auto. intros x. destruct (k_id x =? k_id k)%Z eqn:Ex; auto. lia.
    + intros x y Hx Hy. apply in_map_iff in Hx, Hy.
      destruct Hx as (x0 & <- & Hx), Hy as (y0 & <- & Hy).
      destruct (k_id x0 =? k_id k)%Z eqn:Ex, (k_id y0 =? k_id k)%Z eqn:Ey; auto; intros Eo En.
      * exfalso. symmetry in Eo. destruct (D' y0 Hy Ey Eo). auto.
      * exfalso. destruct (D' x0 Hx Ex Eo). auto.
    + intros x y Hx Hy. apply in_map_iff in Hx, Hy.
      destruct Hx as (x0 & <- & Hx), Hy as (y0 & <- & Hy).
      destruct (k_id x0 =? k_id k)%Z eqn:Ex, (k_id y0 =? k_id k)%Z eqn:Ey; auto; intros Eo E1 E2.
      * exfalso. symmetry in Eo. destruct (D' y0 Hy Ey Eo). auto.
      * exfalso. destruct (D' x0 Hx Ex Eo). auto.
  - cbn [d_links set_links]. destruct W as (A & B & C). split; [|split].
    + rewrite map_map. exact A.
    + intros x y Hx Hy. apply in_map_iff in Hx, Hy.
      destruct Hx as (x0 & <- & Hx), Hy as (y0 & <- & Hy). cbn [k_other k_name with_status].
      intros Eo En. now rewrite (B x0 y0).
    + intros x y Hx Hy. apply in_map_iff in Hx, Hy.
      destruct Hx as (x0 & <- & Hx), Hy as (y0 & <- & Hy). cbn [k_other k_default with_status].
      intros Eo E1 E2. now rewrite (C x0 y0).
  - unfold link_delete. cbn [d_fk set_links]. destruct (d_fk s); apply link_table_sub, W.
Qed.

(** *** Mappings *)

Definition mkey (m : mapping) : Z * Z * Z * list N := (m_link m, m_other m, m_index m, m_level m).

Lemma maps_wf_ext s s' : d_maps s' = d_maps s -> maps_wf s -> maps_wf s'.
Proof. intros E []. split; rewrite ?E; auto. Qed.

Lemma same_map_iff a b : same_map a b = true <-> mkey a = mkey b.
Proof.
  unfold same_map, mkey. rewrite !andb_true_iff, !Z.eqb_eq, bytes_eqb_iff.
  split; [intros [[[-> ->] ->] ->]; auto|intros E; injection E; auto].
Qed.
Lemma same_map_neq a b : same_map a b = false <-> mkey a <> mkey b.
Proof. rewrite <- not_true_iff_false, same_map_iff. tauto. Qed.

Lemma map_ok_iff m : map_ok m = true <->
  (0 <= m_value m)%Q /\ (forall p, m_prop m = Some p -> (0 <= p <= 1)%Q) /\
  ~ (m_other m = 0%Z /\ m_index m = 0%Z).
Proof.
  unfold map_ok. rewrite !andb_true_iff, Qle_bool_iff, negb_true_iff.
  assert ((m_other m =? 0)%Z && (m_index m =? 0)%Z = false <-> ~ (m_other m = 0%Z /\ m_index m = 0%Z)) as -> by lia.
  destruct (m_prop m) as [p|].
  - rewrite andb_true_iff, !Qle_bool_iff. split.
    + intros [[A B] C]. repeat split; auto; injection H as <-; tauto.
    + intros (A & B & C). destruct (B p eq_refl). auto.
  - split; [intros [[A _] B]; repeat split; auto; discriminate|tauto].
Qed.

Lemma maps_wf_alt s : maps_wf s <->
  NoDup (map mkey (d_maps s)) /\ (forall m, In m (d_maps s) -> map_ok m = true).
Proof.
  split.
  - intros [Wu Wv Wp Wd]. split; auto. intros m Hm. apply map_ok_iff. repeat split; auto; eapply Wp; eauto.
  - intros [A B]. split; auto; intros m; intros; (apply B, map_ok_iff in H || apply B, map_ok_iff in H0); try tauto.
    destruct H as (_ & H & _). auto.
Qed.

Lemma refresh_maps l o s s' : refresh_proportions l o s = Ok s' ->
  exists f, d_maps s' = map f (d_maps s) /\
    (forall m, In m (d_maps s) -> exists p, f m = with_prop m p) /\
    (forall m, map_at l o m = false -> f m = m) /\
    (forall m, In m (d_maps s) -> map_at l o m = true -> map_ok (f m) = true).
Proof.
  unfold refresh_proportions. cbv zeta.
  set (new := refreshed o (filter (map_at l o) (d_maps s))).
  intros H. repeat step_res H. subst s'. cbn [d_maps set_maps].
  exists (fun m => if map_at l o m then new m else m). split; [|split; [|split]]; auto.
  - intros m Hm. destruct (map_at l o m); [|exists (m_prop m); now destruct m].
    unfold new, refreshed. destruct (o =? 0)%Z; eexists; reflexivity.
  - intros m ->. reflexivity.
  - intros m Hm Em. rewrite Em. apply negb_false_iff in E0. rewrite forallb_forall in E0.
    apply E0. apply filter_In. auto.
Qed.

Lemma maps_wf_prim s s' : prim s s' -> maps_wf s -> maps_wf s'.
Proof.
  intros P W. destruct P; frame maps_wf_ext; rewrite maps_wf_alt in *; destruct W as [Wu Wk].
  - unfold group_delete. cbn [d_fk set_groups]. destruct (d_fk s); auto.
  - unfold link_delete. cbn [d_fk set_links]. destruct (d_fk s); auto. cbn [d_maps set_maps set_links]. split.
    + now apply nodup_map_filter.
    + intros m Hm. apply filter_In in Hm. apply Wk. tauto.
  - unfold map_add in H. destruct lv as [lv|]; [|step_res H; discriminate]. cbv zeta in H.
    set (m := {| m_link := l |}) in *. step_res H; [discriminate|]. step_res H; [discriminate|].
    step_res H; [discriminate|]. step_res H; [discriminate|]. injection H as <-.
    cbn [d_maps set_maps]. apply negb_false_iff in E0. rewrite existsb_false_iff in E1. split.
    + rewrite map_app. apply nodup_snoc; auto. cbn [map]. intros Hin. apply in_map_iff in Hin.
      destruct Hin as (x & Ex & Hx). specialize (E1 x Hx). apply same_map_neq in E1. auto.
    + intros x Hx. apply in_app_iff in Hx. destruct Hx as [Hx|[<-|[]]]; auto.
  - cbn [d_maps set_maps map_delete]. split.
    + now apply nodup_map_filter.
    + intros x Hx. apply filter_In in Hx. apply Wk. tauto.
  - unfold map_update in H. repeat step_res H. subst s'. cbn [d_maps set_maps].
    apply negb_false_iff in E. rewrite existsb_false_iff in E0. split.
    + rewrite map_map. apply nodup_map_in.
      * intros x y Hx Hy. pose proof (E0 x Hx) as Ex. pose proof (E0 y Hy) as Ey. cbv beta in Ex, Ey.
        destruct (same_map m x) eqn:Sx, (same_map m y) eqn:Sy; intros En.
        -- apply same_map_iff in Sx, Sy. eapply nodup_map_inj; [exact Wu| | |]; auto. congruence.
        -- cbn [negb andb] in Ey. apply same_map_neq in Ey. congruence.
        -- cbn [negb andb] in Ex. apply same_map_neq in Ex. congruence.
        -- eapply nodup_map_inj; [exact Wu| | |]; auto.
      * eapply NoDup_map_inv. exact Wu.
    + intros x Hx. apply in_map_iff in Hx. destruct Hx as (x0 & <- & Hx).
      destruct (same_map m x0); auto.
  - destruct (refresh_maps _ _ _ _ H) as (f & -> & Hf & Hf0 & Hk). split.
    + rewrite map_map, (map_ext_in _ mkey); auto. intros m Hm. destruct (Hf m Hm) as (p & ->). reflexivity.
    + intros x Hx. apply in_map_iff in Hx. destruct Hx as (x0 & <- & Hx).
      destruct (map_at l o x0) eqn:Ex; auto. rewrite Hf0; auto.
Qed.

(** *** References kept by enforced foreign keys *)

Lemma fk_prim s s' : prim s s' -> d_fk s' = d_fk s.
Proof.
  intros P. destruct P; try (solve [match goal with H : _ = Ok _ |- _ => eq_prim H; reflexivity | |- _ => reflexivity end]).
  - unfold group_delete. cbn [d_fk set_groups]. destruct (d_fk s) eqn:E; exact E.
  - unfold link_delete. cbn [d_fk set_links]. destruct (d_fk s) eqn:E; exact E.
Qed.

Definition group_refs (s : db) : Prop :=
  forall w, In w (d_weights s) -> exists g, In g (d_groups s) /\ g_id g = w_group w.
Definition link_refs (s : db) : Prop :=
  forall m, In m (d_maps s) -> exists k, In k (d_links s) /\ k_id k = m_link m.

Lemma group_refs_ext s s' : d_groups s' = d_groups s -> d_weights s' = d_weights s ->
  group_refs s -> group_refs s'.
Proof. unfold group_refs. intros -> ->. auto. Qed.
Lemma link_refs_ext s s' : d_links s' = d_links s -> d_maps s' = d_maps s ->
  link_refs s -> link_refs s'.
Proof. unfold link_refs. intros -> ->. auto. Qed.

Lemma group_refs_prim s s' : prim s s' -> d_fk s = true -> group_refs s -> group_refs s'.
Proof.
  intros P F W. destruct P; frame group_refs_ext; unfold group_refs in *.
  - unfold group_add in H. repeat step_res H. subst s'. cbn [d_groups d_weights set_groups].
    intros w Hw. destruct (W w Hw) as (g & Hg & Eg). exists g. split; auto. apply in_app_iff. auto.
  - unfold group_update in H. repeat step_res H. subst s'. cbn [d_groups d_weights set_groups].
    intros w Hw. destruct (W w Hw) as (g0 & Hg & Eg).
    exists (if (g_id g0 =? g_id g)%Z then g else g0). split.
    + apply in_map_iff. exists g0. auto.
    + destruct (g_id g0 =? g_id g)%Z eqn:E1; auto. lia.
  - cbn [d_groups d_weights set_groups]. intros w Hw. destruct (W w Hw) as (g0 & Hg & Eg).
    eexists. split; [apply in_map_iff; exists g0; split; [reflexivity|exact Hg]|]. exact Eg.
  - unfold group_delete. cbn [d_fk set_groups]. rewrite F. cbn [d_groups d_weights set_groups set_weights].
    intros w Hw. apply filter_In in Hw. destruct Hw as [Hw Ew]. destruct (W w Hw) as (g0 & Hg & Eg).
    exists g0. split; auto. apply filter_In. split; auto. rewrite Eg. exact Ew.
  - unfold weight_add in H. rewrite F in H. repeat step_res H. subst s'.
    cbn [d_groups d_weights set_weights]. cbn [andb] in *.
    match goal with H : negb (existsb _ (d_groups s)) = false |- _ => apply negb_false_iff, existsb_exists in H; destruct H as (g0 & Hg & Eg) end.
    intros w Hw. apply in_app_iff in Hw. destruct Hw as [Hw|[<-|[]]]; auto.
    exists g0. cbn. split; auto. lia.
  - unfold weight_update in H. repeat step_res H. subst s'. cbn [d_groups d_weights set_weights].
    intros w Hw. apply in_map_iff in Hw. destruct Hw as (w0 & <- & Hw).
    destruct (W w0 Hw) as (g0 & Hg & Eg). exists g0. split; auto.
    destruct (weight_is g i w0) eqn:Ew; auto. apply weight_is_iff in Ew. cbn. destruct Ew; congruence.
  - cbn [d_groups d_weights set_weights weight_delete]. intros w Hw. apply filter_In in Hw. apply W. tauto.
  - unfold link_delete. cbn [d_fk set_links]. destruct (d_fk s); exact W.
Qed.

Lemma link_refs_prim s s' : prim s s' -> d_fk s = true -> link_refs s -> link_refs s'.
Proof.
  intros P F W. destruct P; frame link_refs_ext; unfold link_refs in *.
  - unfold group_delete. cbn [d_fk set_groups]. destruct (d_fk s); exact W.
  - unfold link_add in H. repeat step_res H. subst s'. cbn [d_links d_maps set_links].
    intros m Hm. destruct (W m Hm) as (g & Hg & Eg). exists g. split; auto. apply in_app_iff. auto.
  - unfold link_update in H. repeat step_res H. subst s'. cbn [d_links d_maps set_links].
    intros m Hm. destruct (W m Hm) as (g0 & Hg & Eg).
    exists (if (k_id g0 =? k_id k)%Z then k else g0). split.
    + apply in_map_iff. exists g0. auto.
    + destruct (k_id g0 =? k_id k)%Z eqn:E1; auto. lia.
  - cbn [d_links d_maps set_links]. intros w Hw. destruct (W w Hw) as (g0 & Hg & Eg).
    eexists. split; [apply in_map_iff; exists g0; split; [reflexivity|exact Hg]|]. exact Eg.
  - unfold link_delete. cbn [d_fk set_links]. rewrite F. cbn [d_links d_maps set_links set_maps].
    intros w Hw. apply filter_In in Hw. destruct Hw as [Hw Ew]. destruct (W w Hw) as (g0 & Hg & Eg).
    exists g0. split; auto. apply filter_In. split; auto. rewrite Eg. exact Ew.
  - unfold map_add in H. rewrite F in H. destruct lv as [lv|]; [|step_res H; discriminate].
    cbv zeta in H. repeat step_res H. subst s'. cbn [d_links d_maps set_maps]. cbn [andb] in *.
    match goal with H : negb (existsb _ (d_links s)) = false |- _ => apply negb_false_iff, existsb_exists in H; destruct H as (g0 & Hg & Eg) end.
    intros w Hw. apply in_app_iff in Hw. destruct Hw as [Hw|[<-|[]]]; auto.
    exists g0. cbn. split; auto. lia.
  - cbn [d_links d_maps set_maps map_delete]. intros w Hw. apply filter_In in Hw. apply W. tauto.
  - unfold map_update in H. repeat step_res H. subst s'. cbn [d_links d_maps set_maps].
    intros w Hw. apply in_map_iff in Hw. destruct Hw as (w0 & <- & Hw).
    destruct (W w0 Hw) as (g0 & Hg & Eg). exists g0. split; auto.
    destruct (same_map m w0) eqn:Ew; auto. apply same_map_iff in Ew. injection Ew. congruence.
  - destruct (refresh_maps _ _ _ _ H) as (f & Ef & Hf & _ & _).
    assert (d_links s' = d_links s) as -> by (unfold refresh_proportions in H; cbv zeta in H; repeat step_res H; subst; reflexivity).
    rewrite Ef. intros w Hw. apply in_map_iff in Hw. destruct Hw as (w0 & <- & Hw).
    destruct (Hf w0 Hw) as (p & ->). apply (W w0 Hw).
Qed.

(** Operations other than those on columns keep the label columns. *)
Lemma prim_labels s s' : prim (co := no_column) s s' -> d_labels s' = d_labels s.
Proof.
  intros P. destruct P; try discriminate;
    try (solve [match goal with H : _ = Ok _ |- _ => eq_prim H; reflexivity | |- _ => reflexivity end]).
  - unfold group_delete. cbn [d_fk set_groups]. now destruct (d_fk s).
  - unfold link_delete. cbn [d_fk set_links]. now destruct (d_fk s).
Qed.
Lemma step_labels o s : ~ is_columns o -> d_labels (fst (step o s)) = d_labels s.
Proof.
  intros Hc. destruct (match o with OReopen => true | _ => false end) eqn:E; [destruct o; try discriminate; reflexivity|].
  assert (Hr : ~ is_reopen o) by (destruct o; cbn; auto; discriminate).
  pose proof (step_steps_gen (co := no_column) o s Hr ltac:(tauto)) as St. induction St; auto. rewrite <- IHSt. now apply prim_labels.
Qed.
