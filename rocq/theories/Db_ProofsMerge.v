(** Merging the weights and mappings of index records. *)
From Verif Require Import Prelude QLemmas BitFlags_Model BitFlags_Proofs Selectors_Model
  Selectors_Proofs LinkRef_Model LinkRef_Spec LinkRef_Proofs Db_Model Db_Spec Db_Proofs Db_ProofsLocal.
From Coq Require Import ZifyBool ZifyNat Lqa.

(** *** Tallies *)
Section Tally.
Context {A K V : Type} (eqb : K -> K -> bool) (zero : V) (key : A -> K) (f : A -> V -> V).
Hypothesis eqb_iff : forall a b, eqb a b = true <-> a = b.

Definition tallied (l : list A) : list (K * V) :=
  fold_left (fun d a => tally eqb zero (key a) (f a) d) l [].

Lemma tally_keys k g d x : In x (map fst (tally eqb zero k g d)) <-> x = k \/ In x (map fst d).
Proof.
  induction d as [|[k' v] d IH]; cbn [tally]; [cbn; intuition congruence|].
  destruct (eqb k' k) eqn:E; cbn [map fst In].
  - apply eqb_iff in E. subst. intuition congruence.
  - rewrite IH. tauto.
Qed.
Lemma tally_nodup k g d : NoDup (map fst d) -> NoDup (map fst (tally eqb zero k g d)).
Proof.
  induction d as [|[k' v] d IH]; cbn [tally]; intros N; [repeat constructor; cbn; tauto|].
  cbn [map fst] in N. inversion N as [|u w Hn Hd]; subst.
  destruct (eqb k' k) eqn:E; cbn [map fst]; [exact N|]. constructor; auto.
  rewrite tally_keys. intros [->|H]; auto. assert (eqb k k = true) by now apply eqb_iff. congruence.
Qed.
Lemma tally_in k g d k1 v1 : NoDup (map fst d) -> In (k1, v1) (tally eqb zero k g d) ->
  (k1 <> k /\ In (k1, v1) d) \/
  (k1 = k /\ ((exists v, In (k, v) d /\ v1 = g v) \/ (~ In k (map fst d) /\ v1 = g zero))).
Proof.
  induction d as [|[k' v] d IH]; cbn [tally]; intros N H.
  - destruct H as [H|[]]. injection H as <- <-. right. split; auto.
  - cbn [map fst] in N. inversion N as [|u w Hn Hd]; subst.
    destruct (eqb k' k) eqn:E.
    + apply eqb_iff in E. subst k'. destruct H as [H|H].
      * injection H as <- <-. right. split; auto. left. exists v. split; auto. now left.
      * left. split; [|now right]. intros ->. apply Hn. apply (in_map fst) in H. exact H.
    + destruct H as [H|H].
      * injection H as <- <-. left. split; [|now left]. intros ->.
        assert (eqb k k = true) by now apply eqb_iff. congruence.
      * destruct (IH Hd H) as [[H1 H2]|[-> [(v2 & H1 & H2)|[H1 H2]]]].
        -- left. split; auto. now right.
        -- right. split; auto. left. exists v2. split; auto. now right.
        -- right. split; auto. right. split; auto. cbn [map fst]. intros [->|Hin]; auto.
           assert (eqb k k = true) by now apply eqb_iff. congruence.
Qed.

Lemma tallied_snoc l a : tallied (l ++ [a]) = tally eqb zero (key a) (f a) (tallied l).
Proof. unfold tallied. now rewrite fold_left_app. Qed.

Lemma tallied_spec l :
  NoDup (map fst (tallied l)) /\
  (forall k, In k (map fst (tallied l)) <-> exists a, In a l /\ key a = k) /\
  (forall k v, In (k, v) (tallied l) ->
     v = fold_left (fun v a => if eqb (key a) k then f a v else v) l zero).
Proof.
  induction l as [|a l IH] using rev_ind.
  - cbn. repeat split; try (constructor; fail); try tauto. intros (a & [] & _).
  - destruct IH as (N & I & Vv). rewrite tallied_snoc. split; [|split].
    + now apply tally_nodup.
    + intros k. rewrite tally_keys, I. split.
      * intros [->|(b & Hb & E)]; [exists a|exists b]; rewrite in_app_iff; cbn; auto.
      * intros (b & Hb & E). apply in_app_iff in Hb. destruct Hb as [Hb|[<-|[]]]; eauto.
    + intros k v H. rewrite fold_left_app. cbn [fold_left].
      destruct (tally_in _ _ _ _ _ N H) as [[H1 H2]|[-> [(v2 & H1 & ->)|[H1 ->]]]].
      * destruct (eqb (key a) k) eqn:E; [apply eqb_iff in E; congruence|]. auto.
      * rewrite (proj2 (eqb_iff (key a) (key a)) eq_refl). f_equal. auto.
      * rewrite (proj2 (eqb_iff (key a) (key a)) eq_refl). f_equal.
        assert (Hz : forall b, In b l -> eqb (key b) (key a) = false).
        { intros b Hb. destruct (eqb (key b) (key a)) eqn:E; auto. apply eqb_iff in E.
          exfalso. apply H1, I. eauto. }
        clear - Hz. revert Hz. generalize zero. induction l as [|b l IH]; intros z Hz; cbn [fold_left]; auto.
        rewrite (Hz b) by now left. apply IH. intros c Hc. apply Hz. now right.
Qed.

(** Totals over any set of keys. *)
Lemma tallied_total (P : K -> bool) (phi : V -> Q) (x : A -> Q) l :
  (phi zero == 0)%Q -> (forall a v, In a l -> P (key a) = true -> (phi (f a v) == phi v + x a)%Q) ->
  (Qsum (map (fun kv => phi (snd kv)) (filter (fun kv => P (fst kv)) (tallied l)))
   == Qsum (map x (filter (fun a => P (key a)) l)))%Q.
Proof.
  intros Hz. induction l as [|a l IH] using rev_ind; intros Hf; [reflexivity|].
  rewrite tallied_snoc, filter_app, map_app, Qsum_app, <- IH;
    [|intros b v Hb; apply Hf; apply in_app_iff; auto].
  assert (Ha : forall v, P (key a) = true -> (phi (f a v) == phi v + x a)%Q).
  { intros v. apply Hf. apply in_app_iff. right. now left. }
  clear IH Hf. cbn [filter].
  induction (tallied l) as [|[k' v] d IHd]; cbn [tally filter fst].
  - destruct (P (key a)) eqn:Ep; cbn [map]; [|reflexivity].
    rewrite !Qsum_cons. cbn [map snd]. rewrite Ha, Hz by auto. cbn [Qsum fold_right]. ring.
  - destruct (eqb k' (key a)) eqn:E; cbn [filter fst].
    + apply eqb_iff in E. subst k'. destruct (P (key a)) eqn:Ep; cbn [map snd].
      * rewrite !Qsum_cons, Ha by auto. cbn [map Qsum fold_right]. ring.
      * cbn [Qsum fold_right]. ring.
    + destruct (P k'); cbn [map snd].
      * rewrite !Qsum_cons, IHd. ring.
      * exact IHd.
Qed.
End Tally.

Lemma fold_add_sum {A} (p : A -> bool) (x : A -> Q) l : forall z,
  (fold_left (fun v a => if p a then v + x a else v) l z == z + Qsum (map x (filter p l)))%Q.
Proof.
  induction l as [|a l IH]; intros z; cbn [fold_left filter map]; [cbn; ring|].
  rewrite IH. destruct (p a); cbn [map]; [|reflexivity]. rewrite Qsum_cons. ring.
Qed.

(** *** Weights *)

Definition among (i t : Z) (j : Z) : bool := (j =? t)%Z || (j =? i)%Z.

Lemma merge_ids_in i t j : In j (merge_ids i t) <-> among i t j = true.
Proof.
  unfold merge_ids, among. destruct (i =? t)%Z eqn:E; cbn [In]; lia.
Qed.
Lemma merge_ids_nodup i t : NoDup (merge_ids i t).
Proof. unfold merge_ids. destruct (i =? t)%Z eqn:E; repeat constructor; cbn; lia. Qed.

Definition old_weights (i t : Z) (s : db) : list weight :=
  flat_map (fun j => weights_of_index j s) (merge_ids i t).
Definition merged_weights (i t : Z) (s : db) : list (Z * Q) :=
  tallied Z.eqb 0%Q w_group (fun w q => (q + w_value w)%Q) (old_weights i t s).

Lemma old_weights_in i t s w : In w (old_weights i t s) <-> In w (d_weights s) /\ among i t (w_index w) = true.
Proof.
  unfold old_weights, weights_of_index. rewrite in_flat_map. split.
  - intros (j & Hj & Hw). apply filter_In in Hw. apply merge_ids_in in Hj. destruct Hw as [Hw Ej].
    split; auto. assert (w_index w = j) as -> by lia. exact Hj.
  - intros [Hw Ha]. exists (w_index w). rewrite merge_ids_in, filter_In. repeat split; auto. lia.
Qed.

Lemma weight_deletes l : forall s,
  fold_left (fun s w => weight_delete (w_group w) (w_index w) s) l s =
  set_weights (filter (fun w => negb (existsb (fun x => weight_is (w_group x) (w_index x) w) l)) (d_weights s)) s.
Proof.
  induction l as [|x l IH]; intros s; cbn [fold_left existsb].
  - destruct s; unfold set_weights; cbn. f_equal. symmetry. clear.
    induction d_weights as [|w l IH]; cbn; auto. now rewrite IH.
  - rewrite IH. unfold weight_delete, set_weights; cbn. f_equal.
    induction (d_weights s) as [|w ws IHw]; cbn; auto.
    destruct (weight_is (w_group x) (w_index x) w) eqn:E; cbn; auto.
    destruct (existsb _ l); cbn; rewrite IHw; auto.
Qed.

Lemma filter_ext_in' {A} (f g : A -> bool) l : (forall x, In x l -> f x = g x) -> filter f l = filter g l.
Proof.
  induction l as [|a l IH]; intros H; cbn; auto. rewrite (H a) by now left.
  rewrite IH; auto. intros x Hx. apply H. now right.
Qed.

Lemma weight_adds t l : forall s s',
  fold_res (fun s gv => weight_add (fst gv) t (snd gv) s) l s = Ok s' ->
  s' = set_weights (d_weights s ++ map (fun gv => {| w_group := fst gv; w_index := t; w_value := snd gv |}) l) s.
Proof.
  induction l as [|gv l IH]; intros s s' H; cbn [fold_res] in H.
  - injection H as <-. cbn [map]. rewrite app_nil_r. now destruct s.
  - step_res H. apply IH in H. subst s'. unfold weight_add in E. repeat step_res E. subst a.
    cbn [set_weights d_weights map]. unfold set_weights; cbn. now rewrite <- app_assoc.
Qed.

Lemma weight_merge_eq i t s s' : weight_merge i t s = Ok s' ->
  s' = set_weights (filter (fun w => negb (among i t (w_index w))) (d_weights s) ++
         map (fun gv => {| w_group := fst gv; w_index := t; w_value := snd gv |}) (merged_weights i t s)) s.
Proof.
  unfold weight_merge. cbv zeta. fold (old_weights i t s). intros H.
  apply weight_adds in H. subst s'. rewrite weight_deletes. cbn [set_weights d_weights].
  unfold set_weights at 1 3; cbn. f_equal. f_equal.
  apply filter_ext_in'. intros w Hw. f_equal.
  destruct (among i t (w_index w)) eqn:E.
  - apply existsb_exists. exists w. split; [apply old_weights_in; auto|]. apply weight_is_iff. auto.
  - apply existsb_false_iff. intros x Hx. apply old_weights_in in Hx.
    destruct (weight_is (w_group x) (w_index x) w) eqn:E1; auto. apply weight_is_iff in E1.
    destruct E1 as [_ E1]. rewrite E1 in E. destruct Hx. congruence.
Qed.

Lemma merged_weights_spec i t s :
  NoDup (map fst (merged_weights i t s)) /\
  (forall g, In g (map fst (merged_weights i t s)) <->
     exists w, In w (d_weights s) /\ among i t (w_index w) = true /\ w_group w = g) /\
  (forall g v, In (g, v) (merged_weights i t s) ->
     (v == Qsum (map w_value (filter (fun w => (w_group w =? g)%Z) (old_weights i t s))))%Q).
Proof.
  destruct (tallied_spec Z.eqb 0%Q w_group (fun w q => (q + w_value w)%Q) Z.eqb_eq (old_weights i t s))
    as (N & I & Vv).
  split; [exact N|]. split.
  - intros g. rewrite (I g). split.
    + intros (w & Hw & E). apply old_weights_in in Hw. exists w. tauto.
    + intros (w & Hw & E1 & E2). exists w. rewrite old_weights_in. tauto.
  - intros g v H. apply Vv in H. rewrite H, fold_add_sum. ring.
Qed.

(** *** Mappings *)

Definition tkey (m : mapping) : Z * Z * list N := (m_link m, m_other m, m_level m).
Definition tadd (m : mapping) (vp : Q * option Q) : Q * option Q :=
  (fst vp + m_value m, prop_add (snd vp) (m_prop m))%Q.
Definition old_maps (i t : Z) (s : db) : list mapping :=
  flat_map (fun j => maps_of_index j s) (merge_ids i t).
Definition merged_maps (i t : Z) (s : db) : list ((Z * Z * list N) * (Q * option Q)) :=
  tallied mkey_eqb (0%Q, Some 0%Q) tkey tadd (old_maps i t s).
Definition of_merged (t : Z) (kv : (Z * Z * list N) * (Q * option Q)) : mapping :=
  {| m_link := fst (fst (fst kv)); m_other := snd (fst (fst kv)); m_index := t;
     m_level := snd (fst kv); m_value := fst (snd kv); m_prop := snd (snd kv) |}.

Lemma mkey_eqb_iff a b : mkey_eqb a b = true <-> a = b.
Proof.
  destruct a as [[a1 a2] a3], b as [[b1 b2] b3]. unfold mkey_eqb. cbn [fst snd].
  rewrite !andb_true_iff, !Z.eqb_eq, bytes_eqb_iff.
  split; [intros [[-> ->] ->]; auto|intros E; injection E; auto].
Qed.

Lemma old_maps_in i t s m : In m (old_maps i t s) <-> In m (d_maps s) /\ among i t (m_index m) = true.
Proof.
  unfold old_maps, maps_of_index. rewrite in_flat_map. split.
  - intros (j & Hj & Hw). apply filter_In in Hw. apply merge_ids_in in Hj. destruct Hw as [Hw Ej].
    split; auto. assert (m_index m = j) as -> by lia. exact Hj.
  - intros [Hw Ha]. exists (m_index m). rewrite merge_ids_in, filter_In. repeat split; auto. lia.
Qed.

Lemma map_deletes l : forall s,
  fold_left (fun s m => map_delete m s) l s =
  set_maps (filter (fun m => negb (existsb (fun x => same_map x m) l)) (d_maps s)) s.
Proof.
  induction l as [|x l IH]; intros s; cbn [fold_left existsb].
  - destruct s; unfold set_maps; cbn. f_equal. symmetry. clear.
    induction d_maps as [|w l IH]; cbn; auto. now rewrite IH.
  - rewrite IH. unfold map_delete, set_maps; cbn. f_equal.
    induction (d_maps s) as [|w ws IHw]; cbn; auto.
    destruct (same_map x w) eqn:E; cbn; auto.
    destruct (existsb _ l); cbn; rewrite IHw; auto.
Qed.

Lemma map_deletes_index (p : mapping -> bool) l s :
  (forall m, In m l -> In m (d_maps s) /\ p m = true) ->
  (forall m, In m (d_maps s) -> p m = true -> In m l) ->
  NoDup (map mkey (d_maps s)) ->
  fold_left (fun s m => map_delete m s) l s = set_maps (filter (fun m => negb (p m)) (d_maps s)) s.
Proof.
  intros H1 H2 N. rewrite map_deletes. f_equal. apply filter_ext_in'. intros m Hm. f_equal.
  destruct (p m) eqn:E.
  - apply existsb_exists. exists m. split; auto. now apply same_map_iff.
  - apply existsb_false_iff. intros x Hx. destruct (same_map x m) eqn:E1; auto.
    apply same_map_iff in E1. destruct (H1 x Hx) as [Hx1 Hx2].
    assert (x = m) by (eapply nodup_map_inj; eauto). congruence.
Qed.

Lemma map_adds t l : forall s s',
  fold_res (fun s (kv : (Z * Z * list N) * (Q * option Q)) =>
              let '((l, o, lv), (v, p)) := kv in map_add l o t (Some lv) v p s) l s = Ok s' ->
  s' = set_maps (d_maps s ++ map (of_merged t) l) s.
Proof.
  induction l as [|[[[l0 o] lv] [v p]] l IH]; intros s s' H; cbn [fold_res] in H.
  - injection H as <-. cbn [map]. rewrite app_nil_r. now destruct s.
  - step_res H. apply IH in H. subst s'. unfold map_add in E. cbv zeta in E. repeat step_res E. subst a.
    cbn [set_maps d_maps map]. unfold set_maps; cbn. now rewrite <- app_assoc.
Qed.

Lemma map_merge_eq i t s s' : map_merge i t s = Ok s' ->
  s' = set_maps (filter (fun m => negb (among i t (m_index m))) (d_maps s) ++
         map (of_merged t) (merged_maps i t s)) s.
Proof.
  unfold map_merge. cbv zeta. fold (old_maps i t s). intros H.
  change (fold_left _ (old_maps i t s) []) with (merged_maps i t s) in H.
  apply map_adds in H. subst s'. rewrite map_deletes. cbn [set_maps d_maps].
  unfold set_maps at 1 3; cbn. f_equal. f_equal.
  apply filter_ext_in'. intros w Hw. f_equal.
  destruct (among i t (m_index w)) eqn:E.
  - apply existsb_exists. exists w. split; [apply old_maps_in; auto|]. apply same_map_iff. auto.
  - apply existsb_false_iff. intros x Hx. apply old_maps_in in Hx.
    destruct (same_map x w) eqn:E1; auto. apply same_map_iff in E1. unfold mkey in E1.
    injection E1 as _ _ E1 _. rewrite <- E1 in E. destruct Hx. congruence.
Qed.

Lemma fold_tadd_fst (p : mapping -> bool) l : forall z,
  fst (fold_left (fun v a => if p a then tadd a v else v) l z) =
  fold_left (fun v a => if p a then (v + m_value a)%Q else v) l (fst z).
Proof.
  induction l as [|a l IH]; intros z; cbn [fold_left]; auto. rewrite IH. now destruct (p a).
Qed.

Lemma merged_maps_spec i t s :
  NoDup (map fst (merged_maps i t s)) /\
  (forall k, In k (map fst (merged_maps i t s)) <->
     exists m, In m (d_maps s) /\ among i t (m_index m) = true /\ tkey m = k) /\
  (forall k v, In (k, v) (merged_maps i t s) ->
     (fst v == Qsum (map m_value (filter (fun m => mkey_eqb (tkey m) k) (old_maps i t s))))%Q).
Proof.
  destruct (tallied_spec mkey_eqb (0%Q, Some 0%Q) tkey tadd mkey_eqb_iff (old_maps i t s)) as (N & I & Vv).
  split; [exact N|]. split.
  - intros g. rewrite (I g). split.
    + intros (w & Hw & E). apply old_maps_in in Hw. exists w. tauto.
    + intros (w & Hw & E1 & E2). exists w. rewrite old_maps_in. tauto.
  - intros g v H. apply Vv in H. rewrite H, fold_tadd_fst, fold_add_sum. cbn [fst]. ring.
Qed.

Lemma fold_tadd_none (p : mapping -> bool) l : forall z,
  snd (fold_left (fun v a => if p a then tadd a v else v) l z) <> None <->
  snd z <> None /\ forall a, In a l -> p a = true -> m_prop a <> None.
Proof.
  induction l as [|a l IH]; intros z; cbn [fold_left]; [cbn; tauto|]. rewrite IH.
  destruct (p a) eqn:E.
  - unfold tadd at 1; cbn [snd]. split.
    + intros [H1 H2]. destruct (snd z), (m_prop a) eqn:Ea; cbn in H1; try congruence.
      split; [discriminate|]. intros b [<-|Hb]; auto. congruence.
    + intros [H1 H2]. assert (m_prop a <> None) by (apply H2; [now left|auto]).
      split; [destruct (snd z), (m_prop a); cbn; congruence|]. intros b Hb. apply H2. now right.
  - split; intros [H1 H2]; split; auto.
    + intros b [<-|Hb]; [congruence|auto].
    + intros b Hb. apply H2. now right.
Qed.

Lemma merged_maps_some i t s k v : In (k, v) (merged_maps i t s) ->
  (forall m, In m (d_maps s) -> tkey m = k -> m_prop m <> None) -> snd v <> None.
Proof.
  intros H Hm. destruct (tallied_spec mkey_eqb (0%Q, Some 0%Q) tkey tadd mkey_eqb_iff (old_maps i t s)) as (_ & _ & Vv).
  apply Vv in H. subst v. apply fold_tadd_none. split; [discriminate|].
  intros a Ha E. apply old_maps_in in Ha. apply mkey_eqb_iff in E. apply Hm; tauto.
Qed.

(** Totals before and after a merge, over any set of keys. *)
Lemma perm_filter {A} (p : A -> bool) l : Permutation.Permutation l (filter p l ++ filter (fun x => negb (p x)) l).
Proof.
  induction l as [|a l IH]; cbn; auto. destruct (p a); cbn.
  - now constructor.
  - etransitivity; [apply Permutation.perm_skip, IH|]. apply Permutation.Permutation_middle.
Qed.
Lemma Qsum_split {A} (p : A -> bool) (f : A -> Q) l :
  (Qsum (map f l) == Qsum (map f (filter p l)) + Qsum (map f (filter (fun x => negb (p x)) l)))%Q.
Proof.
  rewrite <- Qsum_app, <- map_app. apply Qsum_perm, Permutation.Permutation_map, perm_filter.
Qed.

Lemma old_perm {A} (idx : A -> Z) i t (l : list A) :
  Permutation.Permutation (flat_map (fun j => filter (fun m => (idx m =? j)%Z) l) (merge_ids i t))
    (filter (fun m => among i t (idx m)) l).
Proof.
  unfold merge_ids, among. destruct (i =? t)%Z eqn:E; cbn [flat_map]; rewrite app_nil_r.
  - rewrite (filter_ext_in' (fun m => (idx m =? t)%Z) (fun m => (idx m =? t)%Z || (idx m =? i)%Z)); auto.
    intros x _. lia.
  - induction l as [|a l IH]; cbn; auto.
    destruct (idx a =? t)%Z eqn:E1, (idx a =? i)%Z eqn:E2; cbn; auto; try lia.
    etransitivity; [symmetry; apply Permutation.Permutation_middle|]. now constructor.
Qed.

Lemma filter_map_swap {A B} (p : B -> bool) (f : A -> B) l :
  filter p (map f l) = map f (filter (fun x => p (f x)) l).
Proof. induction l as [|a l IH]; cbn; auto. destruct (p (f a)); cbn; now rewrite IH. Qed.

Lemma filter_filter {A} (p q : A -> bool) l : filter p (filter q l) = filter (fun x => q x && p x) l.
Proof. induction l as [|a l IH]; cbn; auto. destruct (q a); cbn; [destruct (p a); now rewrite IH|auto]. Qed.

Lemma perm_filter_cong {A} (p : A -> bool) l l' :
  Permutation.Permutation l l' -> Permutation.Permutation (filter p l) (filter p l').
Proof.
  induction 1 as [|x l l' H IH|x y l|l1 l2 l3 H1 IH1 H2 IH2]; cbn; auto.
  - destruct (p x); auto.
  - destruct (p y), (p x); auto. constructor.
  - etransitivity; eauto.
Qed.

Lemma weight_merge_total (P : Z -> bool) i t s s' : weight_merge i t s = Ok s' ->
  (Qsum (map w_value (filter (fun w => P (w_group w)) (d_weights s'))) ==
   Qsum (map w_value (filter (fun w => P (w_group w)) (d_weights s))))%Q.
Proof.
  intros H. apply weight_merge_eq in H. subst s'. cbn [set_weights d_weights].
  rewrite filter_app, map_app, Qsum_app, filter_map_swap, map_map. cbn [w_group w_value].
  unfold merged_weights.
  rewrite (tallied_total Z.eqb 0%Q w_group (fun w q => (q + w_value w)%Q) Z.eqb_eq P (fun q => q) w_value).
  2: reflexivity. 2: intros; reflexivity.
  rewrite (Qsum_split (fun w => among i t (w_index w)) w_value (filter _ (d_weights s))).
  rewrite Qplus_comm. apply Qplus_comp.
  - apply Qsum_perm, Permutation.Permutation_map. unfold old_weights, weights_of_index.
    etransitivity; [apply perm_filter_cong, old_perm|]. rewrite !filter_filter.
    rewrite (filter_ext_in' _ (fun x => P (w_group x) && among i t (w_index x))); auto.
    intros; apply andb_comm.
  - rewrite !filter_filter.
    rewrite (filter_ext_in' _ (fun x => P (w_group x) && negb (among i t (w_index x)))); [reflexivity|].
    intros; apply andb_comm.
Qed.

Lemma map_merge_total (P : Z * Z * list N -> bool) i t s s' : map_merge i t s = Ok s' ->
  (Qsum (map m_value (filter (fun m => P (tkey m)) (d_maps s'))) ==
   Qsum (map m_value (filter (fun m => P (tkey m)) (d_maps s))))%Q.
Proof.
  intros H. apply map_merge_eq in H. subst s'. cbn [set_maps d_maps].
  rewrite filter_app, map_app, Qsum_app, filter_map_swap, map_map.
  rewrite (filter_ext_in' (fun x => P (tkey (of_merged t x))) (fun kv => P (fst kv)));
    [|intros [[[l o] lv] v] _; reflexivity].
  change (fun x => m_value (of_merged t x)) with (fun x : (Z * Z * list N) * (Q * option Q) => fst (snd x)).
  unfold merged_maps.
  rewrite (tallied_total mkey_eqb (0%Q, Some 0%Q) tkey tadd mkey_eqb_iff P fst m_value).
  2: reflexivity. 2: intros; reflexivity.
  rewrite (Qsum_split (fun w => among i t (m_index w)) m_value (filter _ (d_maps s))).
  rewrite Qplus_comm. apply Qplus_comp.
  - apply Qsum_perm, Permutation.Permutation_map. unfold old_maps, maps_of_index.
    etransitivity; [apply perm_filter_cong, old_perm|]. rewrite !filter_filter.
    rewrite (filter_ext_in' _ (fun x => P (tkey x) && among i t (m_index x))); auto.
    intros; apply andb_comm.
  - rewrite !filter_filter.
    rewrite (filter_ext_in' _ (fun x => P (tkey x) && negb (among i t (m_index x)))); [reflexivity|].
    intros; apply andb_comm.
Qed.

Definition oshare (p : option Q) : Q := match p with Some q => q | None => 0%Q end.

Lemma tallied_total_prop (P : Z * Z * list N -> bool) l :
  (forall m, In m l -> P (tkey m) = true -> m_prop m <> None) ->
  (Qsum (map (fun kv => oshare (snd (snd kv)))
     (filter (fun kv => P (fst kv)) (tallied mkey_eqb (0%Q, Some 0%Q) tkey tadd l))) ==
   Qsum (map share (filter (fun m => P (tkey m)) l)))%Q.
Proof.
  intros Hm. induction l as [|a l IH] using rev_ind; [reflexivity|].
  rewrite tallied_snoc, filter_app, map_app, Qsum_app, <- IH;
    [|intros b Hb; apply Hm; apply in_app_iff; auto].
  destruct (tallied_spec mkey_eqb (0%Q, Some 0%Q) tkey tadd mkey_eqb_iff l) as (N & I & Vv).
  assert (Hs : forall k v, In (k, v) (tallied mkey_eqb (0%Q, Some 0%Q) tkey tadd l) -> P k = true -> snd v <> None).
  { intros k v H Hp. apply Vv in H. subst v. apply fold_tadd_none. split; [discriminate|].
    intros b Hb E. apply mkey_eqb_iff in E. apply Hm; [apply in_app_iff; auto|congruence]. }
  assert (Ha : P (tkey a) = true -> m_prop a <> None) by (apply Hm; apply in_app_iff; right; now left).
  clear IH Hm N I Vv. cbn [filter]. revert Hs.
  induction (tallied mkey_eqb (0%Q, Some 0%Q) tkey tadd l) as [|[k' v] d IHd]; intros Hs; cbn [tally filter fst].
  - destruct (P (tkey a)) eqn:Ep; cbn [map]; [|reflexivity].
    rewrite !Qsum_cons. cbn [map snd tadd prop_add fst]. unfold share.
    destruct (m_prop a) eqn:Ea; [|exfalso; apply Ha; auto]. cbn. ring.
  - destruct (mkey_eqb k' (tkey a)) eqn:E; cbn [filter fst].
    + apply mkey_eqb_iff in E. subst k'. destruct (P (tkey a)) eqn:Ep; cbn [map snd].
      * rewrite !Qsum_cons. unfold tadd; cbn [snd].
        assert (Hv : snd v <> None) by (apply (Hs (tkey a)); auto; now left).
        unfold share. destruct (snd v) as [q|] eqn:Ev; [|congruence].
        destruct (m_prop a) eqn:Ea; [|exfalso; apply Ha; auto]. cbn. ring.
      * cbn. ring.
    + destruct (P k'); cbn [map snd].
      * rewrite !Qsum_cons, IHd; [ring|]. intros k w Hk. apply Hs. now right.
      * apply IHd. intros k w Hk. apply Hs. now right.
Qed.

Lemma map_merge_shares (P : Z * Z * list N -> bool) i t s s' : map_merge i t s = Ok s' ->
  (forall m, In m (d_maps s) -> P (tkey m) = true -> m_prop m <> None) ->
  (Qsum (map share (filter (fun m => P (tkey m)) (d_maps s'))) ==
   Qsum (map share (filter (fun m => P (tkey m)) (d_maps s))))%Q.
Proof.
  intros H Hm. apply map_merge_eq in H. subst s'. cbn [set_maps d_maps].
  rewrite filter_app, map_app, Qsum_app, filter_map_swap, map_map.
  rewrite (filter_ext_in' (fun x => P (tkey (of_merged t x))) (fun kv => P (fst kv)));
    [|intros [[[l o] lv] v] _; reflexivity].
  change (fun x => share (of_merged t x)) with
    (fun x : (Z * Z * list N) * (Q * option Q) => oshare (snd (snd x))).
  unfold merged_maps. rewrite tallied_total_prop by (intros m H1; apply old_maps_in in H1; apply Hm; tauto).
  rewrite (Qsum_split (fun w => among i t (m_index w)) share (filter _ (d_maps s))).
  rewrite Qplus_comm. apply Qplus_comp.
  - apply Qsum_perm, Permutation.Permutation_map. unfold old_maps, maps_of_index.
    etransitivity; [apply perm_filter_cong, old_perm|]. rewrite !filter_filter.
    rewrite (filter_ext_in' _ (fun x => P (tkey x) && among i t (m_index x))); auto.
    intros; apply andb_comm.
  - rewrite !filter_filter.
    rewrite (filter_ext_in' _ (fun x => P (tkey x) && negb (among i t (m_index x)))); [reflexivity|].
    intros; apply andb_comm.
Qed.
