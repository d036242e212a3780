(** Proofs about inserting quantities. *)
From Verif Require Import Prelude QLemmas BitFlags_Model BitFlags_Spec BitFlags_Proofs Selectors_Model Selectors_Proofs
  LinkRef_Model LinkRef_Proofs Db_Model Db_Spec Db_Proofs Db_ProofsLocal Reader_Model Reader_Spec Reader_Proofs
  Mapper_Model Mapper_Spec Mapper_Proofs Quantity_Model Quantity_Spec.
From Coq Require Import Permutation Lqa.
From Coq Require Import ZifyBool ZifyNat ZifyN.
Local Open Scope nat_scope.

Lemma same_attrs_refl a : same_attrs a a. Proof. intros k. reflexivity. Qed.
Lemma same_attrs_sym a b : same_attrs a b -> same_attrs b a. Proof. intros H k. now rewrite H. Qed.
Lemma same_attrs_trans a b c : same_attrs a b -> same_attrs b c -> same_attrs a c.
Proof. intros H G k. now rewrite H. Qed.

Lemma same_rest_refl s : same_rest s s. Proof. repeat split. Qed.
Lemma same_rest_trans a b c : same_rest a b -> same_rest b c -> same_rest a c.
Proof. unfold same_rest. intros (A1 & A2 & A3 & A4 & A5) (B1 & B2 & B3 & B4 & B5). repeat split; congruence. Qed.

Lemma stored_unique s labs a q1 q2 : store_wf s -> stored s labs a q1 -> stored s labs a q2 -> q1 = q2.
Proof.
  intros W (l1 & g1 & x1 & A1 & A2 & A3 & A4 & A5 & A6 & A7 & A8) (l2 & g2 & x2 & B1 & B2 & B3 & B4 & B5 & B6 & B7 & B8).
  assert (l1 = l2) by (apply (sw_locs s W); auto; congruence).
  assert (g1 = g2) by (apply (sw_groups s W); auto; eapply same_attrs_trans; [exact A4|now apply same_attrs_sym]).
  subst l2 g2.
  assert (x1 = x2). { apply (nodup_map_inj _ _ _ _ (sw_one s W)); auto. congruence. }
  congruence.
Qed.

Lemma fresh_id {A} (f : A -> Z) (l : list A) x : In x l -> f x <> (zmax (map f l) + 1)%Z.
Proof. intros H. pose proof (zmax_ge (map f l) (f x) (in_map f l x H)). lia. Qed.

Lemma snoc_unique {A B} (f : A -> B) (l : list A) x : NoDup (map f l) -> (forall y, In y l -> f y <> f x) -> NoDup (map f (l ++ [x])).
Proof.
  intros H G. rewrite map_app. apply nodup_snoc; auto. intros E. apply in_map_iff in E. destruct E as (y & E & Hy). now apply (G y).
Qed.

(** *** Locations and groups *)

Record got_location (s s1 : store) (labs : list text) (i : Z) : Prop := {
  gl_rest : same_rest s s1;
  gl_attrs : s_attrs s1 = s_attrs s;
  gl_quants : s_quants s1 = s_quants s;
  gl_here : exists l, In l (s_locs s1) /\ l_labels l = labs /\ l_id l = i;
  gl_old : forall l, In l (s_locs s) -> In l (s_locs s1);
  gl_new : forall l, In l (s_locs s1) -> In l (s_locs s) \/
             l_labels l = labs /\ l_id l = i /\ (forall y, In y (s_locs s) -> l_id y <> i)
}.

Lemma get_location_ok labs s s1 i : store_wf s -> length labs = length (d_labels (s_db s)) ->
  get_location labs s = Ok (s1, i) -> store_wf s1 /\ got_location s s1 labs i.
Proof.
  intros W Hl H. unfold get_location in H.
  destruct (nil_b labs) eqn:En; [discriminate|].
  destruct (find _ (s_locs s)) as [l|] eqn:E; inversion H; subst; clear H.
  - apply find_some in E. destruct E as [Hi E]. apply labels_eqb_iff in E.
    split; [exact W|]. constructor; auto using same_rest_refl. now exists l.
  - assert (Hn : forall y, In y (s_locs s) -> l_labels y <> labs).
    { intros y Hy Ey. apply (find_none _ _ E) in Hy. apply labels_eqb_iff in Ey. congruence. }
    set (i := (zmax (map l_id (s_locs s)) + 1)%Z).
    split.
    + destruct W as [W1 W2 W3 W4 W5 W6 W7 W8 W9]. constructor; cbn; auto.
      * apply snoc_unique; auto. intros y Hy. now apply fresh_id.
      * intros x y Hx Hy. apply in_app_iff in Hx, Hy.
        destruct Hx as [Hx|[<-|[]]], Hy as [Hy|[<-|[]]]; cbn [l_labels]; auto.
        -- intros Ex. now destruct (Hn _ Hx).
        -- intros Ex. now destruct (Hn _ Hy).
      * intros l Hx. apply in_app_iff in Hx. destruct Hx as [Hx|[<-|[]]]; auto.
    + constructor; cbn; auto using same_rest_refl.
      * unfold same_rest. cbn. auto.
      * eexists. split; [apply in_app_iff; right; left; reflexivity|]. auto.
      * intros l Hx. apply in_app_iff. now left.
      * intros l Hx. apply in_app_iff in Hx. destruct Hx as [Hx|[<-|[]]]; auto. right. cbn [l_labels l_id].
        repeat split; auto. intros y Hy. now apply fresh_id.
Qed.

Record got_group (s s1 : store) (a : row) (i : Z) : Prop := {
  gg_rest : same_rest s s1;
  gg_locs : s_locs s1 = s_locs s;
  gg_quants : s_quants s1 = s_quants s;
  gg_here : exists g, In g (s_attrs s1) /\ same_attrs (ag_attrs g) a /\ ag_id g = i;
  gg_old : forall g, In g (s_attrs s) -> In g (s_attrs s1);
  gg_new : forall g, In g (s_attrs s1) -> In g (s_attrs s) \/
             same_attrs (ag_attrs g) a /\ ag_id g = i /\ (forall y, In y (s_attrs s) -> ag_id y <> i)
}.

Lemma same_attrs_sort a : dict a -> same_attrs (sort_keys a) a.
Proof. intros H k. now apply dict_get_sort. Qed.

Lemma sort_keys_idem a : dict a -> sort_keys (sort_keys a) = sort_keys a.
Proof. intros H. apply sort_keys_same; auto using dict_sort, same_attrs_sort. Qed.

Lemma get_group_ok a s s1 i : store_wf s -> dict a -> a <> [] ->
  get_group a s = Ok (s1, i) -> store_wf s1 /\ got_group s s1 a i.
Proof.
  intros W Hd Hne H. unfold get_group in H.
  destruct (find _ (s_attrs s)) as [g|] eqn:E; [inversion H; subst; clear H|].
  - apply find_some in E. destruct E as [Hi E]. apply row_eqb_iff in E.
    split; [exact W|]. constructor; auto using same_rest_refl. exists g. repeat split; auto.
    rewrite E. now apply same_attrs_sort.
  - destruct (existsb _ a) eqn:Ee; [discriminate|]. inversion H; subst; clear H.
    assert (Hn : forall y, In y (s_attrs s) -> ~ same_attrs (ag_attrs y) a).
    { intros y Hy Ey. pose proof (find_none _ _ E y Hy) as F. cbn in F.
      assert (ag_attrs y = sort_keys a).
      { rewrite <- (sw_sorted s W y Hy). apply sort_keys_same; auto. apply (sw_dicts s W y Hy). }
      apply row_eqb_iff in H. congruence. }
    set (i := (zmax (map ag_id (s_attrs s)) + 1)%Z).
    split.
    + destruct W as [W1 W2 W3 W4 W5 W6 W7 W8 W9]. constructor; cbn; auto.
      * apply snoc_unique; auto. intros y Hy. now apply fresh_id.
      * intros x y Hx Hy. apply in_app_iff in Hx, Hy.
        destruct Hx as [Hx|[<-|[]]], Hy as [Hy|[<-|[]]]; cbn [ag_attrs]; auto.
        -- intros Ex. destruct (Hn _ Hx). eapply same_attrs_trans; [exact Ex|]. now apply same_attrs_sort.
        -- intros Ex. destruct (Hn _ Hy). eapply same_attrs_trans; [apply same_attrs_sym, Ex|]. now apply same_attrs_sort.
      * intros g Hg. apply in_app_iff in Hg. destruct Hg as [Hg|[<-|[]]]; auto. cbn [ag_attrs]. repeat split.
        -- now apply dict_sort.
        -- intros En. pose proof (Permutation_length (sort_keys_perm a)) as L. rewrite En in L. destruct a; [easy|discriminate].
        -- apply (Permutation_in _ (Permutation_sym (sort_keys_perm a))) in H. intros ->.
           assert (existsb (fun p => is_empty (fst p) || is_empty (snd p)) a = true) by (apply existsb_exists; eauto). congruence.
        -- apply (Permutation_in _ (Permutation_sym (sort_keys_perm a))) in H. intros ->.
           assert (existsb (fun p => is_empty (fst p) || is_empty (snd p)) a = true).
           { apply existsb_exists. eexists. split; [exact H|]. apply orb_true_r. } congruence.
      * intros g Hg. apply in_app_iff in Hg. destruct Hg as [Hg|[<-|[]]]; auto. cbn [ag_attrs]. now apply sort_keys_idem.
    + constructor; cbn; auto.
      * unfold same_rest. cbn. auto.
      * eexists. split; [apply in_app_iff; right; left; reflexivity|]. cbn [ag_attrs ag_id]. split; auto. now apply same_attrs_sort.
      * intros g Hx. apply in_app_iff. now left.
      * intros g Hx. apply in_app_iff in Hx. destruct Hx as [Hx|[<-|[]]]; auto. right. cbn [ag_attrs ag_id].
        repeat split; auto using same_attrs_sort. intros y Hy. now apply fresh_id.
Qed.

Lemma got_location_ref s s1 labs i : got_location s s1 labs i -> store_ref s ->
  store_ref s1 /\ forall l a q, stored s1 l a q <-> stored s l a q.
Proof.
  intros [G1 G2 G3 G4 G5 G6] [R1 R2]. split.
  - constructor; rewrite G3; intros x Hx.
    + destruct (R1 x Hx) as (l & Hl & El). eauto.
    + rewrite G2. auto.
  - intros l a q. unfold stored. rewrite G2, G3. split; intros (l' & g & x & A1 & A2 & A3 & A4 & A5 & A6 & A7 & A8).
    + destruct (G6 l' A1) as [Hl|(B1 & B2 & B3)].
      * exists l', g, x. repeat split; auto.
      * destruct (R1 x A5) as (y & Hy & Ey). destruct (B3 y Hy). congruence.
    + exists l', g, x. repeat split; auto.
Qed.
Lemma got_group_ref s s1 a i : got_group s s1 a i -> store_ref s ->
  store_ref s1 /\ forall l a q, stored s1 l a q <-> stored s l a q.
Proof.
  intros [G1 G2 G3 G4 G5 G6] [R1 R2]. split.
  - constructor; rewrite G3; intros x Hx.
    + rewrite G2. auto.
    + destruct (R2 x Hx) as (l & Hl & El). eauto.
  - intros l b q. unfold stored. rewrite G2, G3. split; intros (l' & g & x & A1 & A2 & A3 & A4 & A5 & A6 & A7 & A8).
    + destruct (G6 g A3) as [Hl|(B1 & B2 & B3)].
      * exists l', g, x. repeat split; auto.
      * destruct (R2 x A5) as (y & Hy & Ey). destruct (B3 y Hy). congruence.
    + exists l', g, x. repeat split; auto.
Qed.

(** *** One quantity *)

Lemma quantity_is_iff l g x : quantity_is l g x = true <-> qt_loc x = l /\ qt_attr x = g.
Proof. unfold quantity_is. rewrite andb_true_iff, !Z.eqb_eq. reflexivity. Qed.

(** The tables after a value was put at location [l] and group [g]. *)
Record put_at (s s' : store) (l g : Z) (old new : option Q) : Prop := {
  pa_rest : same_rest s s';
  pa_locs : s_locs s' = s_locs s;
  pa_attrs : s_attrs s' = s_attrs s;
  pa_other : forall x, quantity_is l g x = false -> (In x (s_quants s') <-> In x (s_quants s));
  pa_old : match old with
           | Some q => exists x, In x (s_quants s) /\ quantity_is l g x = true /\ qt_value x = q
           | None => forall x, In x (s_quants s) -> quantity_is l g x = false
           end;
  pa_new : exists q x, new = Some q /\ In x (s_quants s') /\ quantity_is l g x = true /\ qt_value x = q;
  pa_total : (grand_total s' + val old == grand_total s + val new)%Q
}.

Lemma find_quantity l g s : match quantity_find l g s with
  | Some x => In x (s_quants s) /\ quantity_is l g x = true
  | None => forall x, In x (s_quants s) -> quantity_is l g x = false
  end.
Proof.
  unfold quantity_find. destruct (find _ _) as [x|] eqn:E; [now apply find_some in E|]. intros x Hx. now apply (find_none _ _ E).
Qed.

Lemma map_change_ids {A B} (f : A -> B) (h : A -> A) l : (forall x, f (h x) = f x) -> map f (map h l) = map f l.
Proof. intros H. rewrite map_map. now apply map_ext. Qed.

Lemma quantity_add_ok l g v s s' : store_wf s -> quantity_add l g v s = Ok s' ->
  store_wf s' /\ put_at s s' l g None v.
Proof.
  intros W H. unfold quantity_add in H. destruct v as [q|]; [|discriminate].
  destruct (existsb _ _) eqn:E; [discriminate|]. inversion H; subst; clear H.
  assert (Hn : forall x, In x (s_quants s) -> quantity_is l g x = false).
  { intros x Hx. destruct (quantity_is l g x) eqn:Ex; auto. assert (existsb (quantity_is l g) (s_quants s) = true) by (apply existsb_exists; eauto). congruence. }
  set (x0 := {| qt_id := zmax (map qt_id (s_quants s)) + 1; qt_loc := l; qt_attr := g; qt_value := q |}).
  assert (H0 : quantity_is l g x0 = true) by (apply quantity_is_iff; auto).
  split.
  - destruct W as [W1 W2 W3 W4 W5 W6 W7 W8 W9]. constructor; cbn; auto.
    + apply snoc_unique; auto. intros y Hy. now apply fresh_id.
    + apply (snoc_unique (fun x => (qt_loc x, qt_attr x))); auto. intros y Hy Ey. apply Hn in Hy. cbn in Ey. inversion Ey as [[E1 E2]].
      assert (quantity_is l g y = true) by (apply quantity_is_iff; auto). congruence.
  - constructor; cbn [set_quants set_tables s_locs s_attrs s_quants]; auto.
    + unfold same_rest. cbn. auto.
    + intros x Hx. rewrite in_app_iff. cbn [In]. split; [|tauto]. intros [H|[<-|[]]]; auto. congruence.
    + exists q, x0. repeat split; auto. apply in_app_iff. right. now left.
    + unfold grand_total. cbn [set_quants set_tables s_quants val]. rewrite map_app, Qsum_app. cbn [map]. rewrite Qsum_cons, Qsum_nil. unfold x0; cbn [qt_value]. lra.
Qed.

Lemma Qsum_change (l : list quantity) i q x : NoDup (map qt_id l) -> In x l -> qt_id x = i ->
  (Qsum (map qt_value (map (fun y => if (qt_id y =? i)%Z
       then {| qt_id := qt_id y; qt_loc := qt_loc y; qt_attr := qt_attr y; qt_value := q |} else y) l)) + qt_value x
   == Qsum (map qt_value l) + q)%Q.
Proof.
  induction l as [|y l IH]; [easy|]. cbn [map In]. intros N Hx Ex. inversion N as [|? ? Hn N']; subst.
  rewrite !Qsum_cons. destruct Hx as [->|Hx].
  - rewrite Z.eqb_refl. cbn [qt_value].
    assert (E : map qt_value (map (fun y => if (qt_id y =? qt_id x)%Z
       then {| qt_id := qt_id y; qt_loc := qt_loc y; qt_attr := qt_attr y; qt_value := q |} else y) l) = map qt_value l).
    { rewrite map_map. apply map_ext_in. intros y Hy. destruct (qt_id y =? qt_id x)%Z eqn:Ey; auto.
      apply Z.eqb_eq in Ey. destruct Hn. rewrite <- Ey. now apply in_map. }
    rewrite E. lra.
  - destruct (qt_id y =? qt_id x)%Z eqn:Ey.
    + apply Z.eqb_eq in Ey. destruct Hn. rewrite Ey. now apply in_map.
    + specialize (IH N' Hx eq_refl). lra.
Qed.

Lemma quantity_update_ok l g v s s' x : store_wf s -> In x (s_quants s) -> quantity_is l g x = true ->
  quantity_update (qt_id x) v s = Ok s' -> store_wf s' /\ put_at s s' l g (Some (qt_value x)) v.
Proof.
  intros W Hx Ex H. unfold quantity_update in H. destruct v as [q|]; [|discriminate]. inversion H; subst; clear H.
  set (h := fun y => if (qt_id y =? qt_id x)%Z
       then {| qt_id := qt_id y; qt_loc := qt_loc y; qt_attr := qt_attr y; qt_value := q |} else y).
  assert (Hh : forall y, qt_id (h y) = qt_id y /\ qt_loc (h y) = qt_loc y /\ qt_attr (h y) = qt_attr y).
  { intros y. unfold h. destruct (_ =? _)%Z; auto. }
  pose proof (sw_quant_ids s W) as Ni. apply quantity_is_iff in Ex.
  split.
  - destruct W as [W1 W2 W3 W4 W5 W6 W7 W8 W9]. constructor; cbn; auto.
    + rewrite map_change_ids; auto. intros y. apply Hh.
    + rewrite (map_change_ids (fun x => (qt_loc x, qt_attr x))); auto. intros y. destruct (Hh y) as (_ & -> & ->). auto.
  - constructor; cbn [set_quants set_tables s_locs s_attrs s_quants]; auto.
    + unfold same_rest. cbn. auto.
    + intros y Hy. rewrite in_map_iff. split.
      * intros (z & Ez & Hz). unfold h in Ez. destruct (qt_id z =? qt_id x)%Z eqn:E; [|congruence].
        apply Z.eqb_eq in E. assert (z = x) by (apply (nodup_map_inj _ _ _ _ Ni); auto). subst z y.
        exfalso. apply not_true_iff_false in Hy. apply Hy. now apply quantity_is_iff.
      * intros Hz. exists y. split; auto. unfold h. destruct (qt_id y =? qt_id x)%Z eqn:E; auto.
        apply Z.eqb_eq in E. assert (y = x) by (apply (nodup_map_inj _ _ _ _ Ni); auto). subst y.
        exfalso. apply not_true_iff_false in Hy. apply Hy. now apply quantity_is_iff.
    + exists x. repeat split; auto. now apply quantity_is_iff.
    + exists q, (h x). repeat split.
      * now apply in_map.
      * apply quantity_is_iff. destruct (Hh x) as (_ & -> & ->). auto.
      * unfold h. now rewrite Z.eqb_refl.
    + unfold grand_total. cbn [s_quants set_quants set_tables val]. now apply (Qsum_change (s_quants s) (qt_id x) q x).
Qed.

(** What [put] does. *)
Lemma put_ok pol l g v s s' e : store_wf s -> put pol l g v s = Ok (s', e) ->
  exists old new, store_wf s' /\ put_at s s' l g old new /\ same_value new (settle pol old [v]) /\
    (v = None -> pol = PIgnore /\ old <> None) /\
    ((pol = PAbort \/ pol = PInvalid) -> old = None).
Proof.
  intros W H. unfold put in H. destruct (quantity_add l g v s) as [s1|e1] eqn:Ea.
  - inversion H; subst; clear H. destruct (quantity_add_ok _ _ _ _ _ W Ea) as [W' P].
    destruct v as [q|]; [|discriminate]. exists None, (Some q). split; [exact W'|]. split; [exact P|].
    split; [destruct pol; cbn [settle same_value rev app map val]; try reflexivity; rewrite ?Qsum_cons, ?Qsum_nil; lra|].
    split; [discriminate|auto].
  - pose proof (find_quantity l g s) as F. destruct (quantity_find l g s) as [x|]; [|discriminate]. destruct F as [Hx Ex].
    destruct pol; try discriminate.
    + inversion H; subst; clear H. exists (Some (qt_value x)), (Some (qt_value x)).
      split; [exact W|]. split.
      { constructor; auto using same_rest_refl. - reflexivity. - eauto. - exists (qt_value x), x. auto. - reflexivity. }
      cbn [settle same_value]. split; [reflexivity|]. split; [|intros [?|?]; discriminate]. intros _. split; auto. discriminate.
    + destruct (quantity_update (qt_id x) v s) as [s1|] eqn:Eu; [|discriminate]. cbn [bind] in H. inversion H; subst; clear H.
      destruct (quantity_update_ok _ _ _ _ _ _ W Hx Ex Eu) as [W' P].
      destruct v as [q|]; [|discriminate]. exists (Some (qt_value x)), (Some q). split; [exact W'|]. split; [exact P|].
      cbn [settle same_value rev app]. split; [reflexivity|]. split; [discriminate|intros [?|?]; discriminate].
    + destruct v as [q|]; [|discriminate]. destruct (quantity_update _ _ s) as [s1|] eqn:Eu; [|discriminate]. cbn [bind] in H. inversion H; subst; clear H.
      destruct (quantity_update_ok _ _ _ _ _ _ W Hx Ex Eu) as [W' P].
      exists (Some (qt_value x)), (Some (qt_value x + q)%Q). split; [exact W'|]. split; [exact P|].
      cbn [settle same_value map val]. rewrite Qsum_cons, Qsum_nil. split; [lra|]. split; [discriminate|intros [?|?]; discriminate].
Qed.

(** In terms of labels and attributes. *)
Lemma put_at_stored s s' l g loc grp old new : store_wf s -> put_at s s' l g old new ->
  In loc (s_locs s) -> l_id loc = l -> In grp (s_attrs s) -> ag_id grp = g ->
  reads s (l_labels loc) (ag_attrs grp) old /\ reads s' (l_labels loc) (ag_attrs grp) new /\
  (forall labs a q, ~ (labs = l_labels loc /\ same_attrs a (ag_attrs grp)) -> (stored s' labs a q <-> stored s labs a q)).
Proof.
  intros W [P1 P2 P3 P4 P5 P6 P7] Hl El Hg Eg. split; [|split].
  - destruct old as [q|]; cbn [reads].
    + destruct P5 as (x & Hx & Ex & Ev). apply quantity_is_iff in Ex. exists loc, grp, x. repeat split; auto; try congruence. 
      all: intuition congruence.
    + intros q (l' & g' & x & A1 & A2 & A3 & A4 & A5 & A6 & A7 & A8).
      assert (l' = loc) by (apply (sw_locs s W); auto). assert (g' = grp) by (apply (sw_groups s W); auto). subst l' g'.
      apply P5 in A5. apply not_true_iff_false in A5. apply A5. apply quantity_is_iff. split; congruence.
  - destruct P6 as (q & x & -> & Hx & Ex & Ev). cbn [reads]. apply quantity_is_iff in Ex. exists loc, grp, x.
    rewrite P2, P3. repeat split; auto; intuition congruence.
  - intros labs a q Hd. unfold stored. rewrite P2, P3.
    split; intros (l' & g' & x & A1 & A2 & A3 & A4 & A5 & A6 & A7 & A8); exists l', g', x; repeat split; auto.
    + apply P4; auto. apply not_true_iff_false. intros E. apply quantity_is_iff in E. destruct E as [E1 E2].
      assert (l' = loc) by (apply (nodup_map_inj l_id _ _ _ (sw_loc_ids s W)); auto; congruence).
      assert (g' = grp) by (apply (nodup_map_inj ag_id _ _ _ (sw_group_ids s W)); auto; congruence).
      subst l' g'. apply Hd. split; auto. now apply same_attrs_sym.
    + apply P4; auto. apply not_true_iff_false. intros E. apply quantity_is_iff in E. destruct E as [E1 E2].
      assert (l' = loc) by (apply (nodup_map_inj l_id _ _ _ (sw_loc_ids s W)); auto; congruence).
      assert (g' = grp) by (apply (nodup_map_inj ag_id _ _ _ (sw_group_ids s W)); auto; congruence).
      subst l' g'. apply Hd. split; auto. now apply same_attrs_sym.
Qed.
