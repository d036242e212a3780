(** Proofs about inserting rows of quantities. *)
From Verif Require Import Prelude QLemmas BitFlags_Model BitFlags_Spec BitFlags_Proofs Selectors_Model Selectors_Proofs
  LinkRef_Model LinkRef_Proofs Db_Model Db_Spec Db_Proofs Db_ProofsLocal Reader_Model Reader_Spec Reader_Proofs
  Mapper_Model Mapper_Spec Mapper_Proofs Quantity_Model Quantity_Spec Quantity_Proofs.
From Coq Require Import Permutation Lqa.
From Coq Require Import ZifyBool ZifyNat ZifyN.
Local Open Scope nat_scope.

Lemma nil_b_iff {A} (l : list A) : nil_b l = true <-> l = [].
Proof. destruct l; cbn; split; congruence. Qed.
Lemma nil_b_false {A} (l : list A) : nil_b l = false <-> l <> [].
Proof. destruct l; cbn; split; congruence. Qed.

(** *** Attributes of a row *)

Lemma in_attr_dict names cells k v : In (k, v) (attr_dict names cells) <-> names_value names cells k v.
Proof.
  unfold attr_dict, names_value. rewrite in_flat_map. split.
  - intros (k' & Hk & H). rewrite (in_distinct text_eqb text_eqb_iff) in Hk.
    destruct (cell k' cells) as [w|] eqn:E; [|easy]. destruct (is_empty w) eqn:Ee; [easy|].
    destruct H as [H|[]]. inversion H; subst. repeat split; auto. intros ->. discriminate.
  - intros (Hk & Hv & E). exists k. rewrite (in_distinct text_eqb text_eqb_iff). split; auto. rewrite E.
    destruct v; [easy|]. now left.
Qed.

Lemma attr_dict_dict names cells : dict (attr_dict names cells).
Proof.
  unfold dict, attr_dict. assert (N : NoDup (distinct text_eqb names)) by (apply nodup_distinct; apply text_eqb_iff).
  induction N as [|k l Hn N IH]; cbn [flat_map]; [constructor|]. rewrite map_app. apply nodup_app; auto.
  - destruct (cell k cells) as [v|]; [destruct (is_empty v)|]; repeat constructor; easy.
  - intros x Hx Hy. apply Hn. assert (x = k) as ->.
    { destruct (cell k cells) as [v|]; [destruct (is_empty v)|]; cbn in Hx; intuition. }
    apply in_map_iff in Hy. destruct Hy as ([k' v'] & E & Hy). cbn in E. subst k'.
    apply in_flat_map in Hy. destruct Hy as (k2 & H2 & Hy). destruct (cell k2 cells) as [w|]; [|easy].
    destruct (is_empty w); [easy|]. destruct Hy as [Hy|[]]. inversion Hy; subst. auto.
Qed.

Lemma row_attrs_dict names r : row_attrs names r (attr_dict names (qr_cells r)).
Proof. split; [apply attr_dict_dict|]. intros k v. apply in_attr_dict. Qed.

Lemma has_attrs_iff names r : has_attrs names r <-> attr_dict names (qr_cells r) <> [].
Proof.
  split.
  - intros (k & v & H) E. apply in_attr_dict in H. now rewrite E in H.
  - intros H. destruct (attr_dict names (qr_cells r)) as [|[k v] l] eqn:E; [easy|]. exists k, v. apply in_attr_dict. rewrite E. now left.
Qed.

Lemma dict_ext a b : dict a -> dict b -> (forall k v, In (k, v) a <-> In (k, v) b) -> same_attrs a b.
Proof.
  intros Ha Hb H k. destruct (dict_get k a) as [v|] eqn:E.
  - symmetry. apply dict_get_in; auto. apply H. now apply dict_get_in.
  - symmetry. destruct (dict_get k b) as [v|] eqn:E2; auto. apply dict_get_in in E2; auto. apply H in E2. apply dict_get_in in E2; auto. congruence.
Qed.
Lemma same_attrs_in a b : dict a -> dict b -> same_attrs a b -> forall k v, In (k, v) a <-> In (k, v) b.
Proof. intros Ha Hb H k v. rewrite <- !dict_get_in by assumption. now rewrite H. Qed.

Lemma row_attrs_same names r a : row_attrs names r a <-> dict a /\ same_attrs a (attr_dict names (qr_cells r)).
Proof.
  split.
  - intros [Hd H]. split; auto. apply dict_ext; auto using attr_dict_dict. intros k v. rewrite in_attr_dict. apply H.
  - intros [Hd H]. split; auto. intros k v. rewrite <- in_attr_dict. apply same_attrs_in; auto using attr_dict_dict.
Qed.

(** *** Settling *)

Lemma same_value_refl v : same_value v v. Proof. destruct v; cbn; auto. reflexivity. Qed.
Lemma same_value_sym a b : same_value a b -> same_value b a.
Proof. destruct a, b; cbn; auto. intros H. now symmetry. Qed.
Lemma same_value_trans a b c : same_value a b -> same_value b c -> same_value a c.
Proof. destruct a, b, c; cbn; try tauto. intros H G. now rewrite H. Qed.

Lemma settle_cong pol a b vs : same_value a b -> same_value (settle pol a vs) (settle pol b vs).
Proof.
  destruct a as [x|], b as [y|]; cbn [same_value]; try tauto; intros H; destruct pol; cbn [settle same_value]; auto using same_value_refl.
  - destruct (rev vs) as [|[v|] l]; cbn; auto. reflexivity.
  - now rewrite H.
Qed.

Lemma settle_chain pol old v vs : (v = None -> pol = PIgnore /\ old <> None) ->
  same_value (settle pol (settle pol old [v]) vs) (settle pol old (v :: vs)).
Proof.
  intros Hv. destruct v as [q|].
  - destruct pol, old as [o|]; cbn [settle same_value map val rev app]; try reflexivity.
    + destruct (rev vs) as [|w l] eqn:E; cbn [app]; apply same_value_refl.
    + destruct (rev vs) as [|w l] eqn:E; cbn [app]; apply same_value_refl.
    + rewrite !Qsum_cons, Qsum_nil. lra.
    + rewrite !Qsum_cons, Qsum_nil. lra.
  - destruct Hv as [-> Ho]; auto. destruct old; [|easy]. reflexivity.
Qed.

(** *** Reading *)

Lemma stored_same s labs a b q : same_attrs a b -> stored s labs a q -> stored s labs b q.
Proof.
  intros H (l & g & x & A1 & A2 & A3 & A4 & A5). exists l, g, x. repeat split; try tauto. eapply same_attrs_trans; [exact A4|exact H].
Qed.
Lemma reads_same s labs a b v : same_attrs a b -> reads s labs a v -> reads s labs b v.
Proof.
  intros H. destruct v as [q|]; cbn [reads]; [apply stored_same; auto|]. intros G q Hq. apply (G q). eapply stored_same; [apply same_attrs_sym, H|exact Hq].
Qed.
Lemma reads_unique s labs a v w : store_wf s -> reads s labs a v -> reads s labs a w -> v = w.
Proof.
  intros W. destruct v as [x|], w as [y|]; cbn [reads]; intros H G; auto.
  - f_equal. eapply stored_unique; eauto.
  - now destruct (G x).
  - now destruct (H y).
Qed.
Lemma reads_ext s s' labs a v : (forall q, stored s' labs a q <-> stored s labs a q) -> reads s labs a v -> reads s' labs a v.
Proof. intros H. destruct v as [q|]; cbn [reads]; [apply H|]. intros G q Hq. apply (G q). now apply H. Qed.

(** *** One row *)

Record row_effect (pol : policy) (s s' : store) (labs : list text) (A : row) (v old new : option Q) : Prop := {
  re_old : reads s labs A old;
  re_new : reads s' labs A new;
  re_value : same_value new (settle pol old [v]);
  re_none : v = None -> pol = PIgnore /\ old <> None;
  re_abort : pol = PAbort \/ pol = PInvalid -> old = None;
  re_other : forall l a q, ~ (l = labs /\ same_attrs a A) -> (stored s' l a q <-> stored s l a q);
  re_total : (grand_total s' + val old == grand_total s + val new)%Q
}.

Lemma put_at_ref s s' l g loc grp old new : put_at s s' l g old new ->
  In loc (s_locs s) -> l_id loc = l -> In grp (s_attrs s) -> ag_id grp = g -> store_ref s -> store_ref s'.
Proof.
  intros [P1 P2 P3 P4 P5 P6 P7] Hl El Hg Eg [R1 R2]. constructor; rewrite ?P2, ?P3; intros x Hx; destruct (quantity_is l g x) eqn:E.
  - apply quantity_is_iff in E. exists loc. split; auto. destruct E. congruence.
  - apply R1. now apply P4.
  - apply quantity_is_iff in E. exists grp. split; auto. destruct E. congruence.
  - apply R2. now apply P4.
Qed.

Lemma tables_total s s' : s_quants s' = s_quants s -> grand_total s' = grand_total s.
Proof. unfold grand_total. now intros ->. Qed.

Lemma wf_put pol labs A v s s1 i s2 j s3 e : store_wf s -> store_ref s -> length labs = length (d_labels (s_db s)) ->
  dict A -> A <> [] -> get_location labs s = Ok (s1, i) -> get_group A s1 = Ok (s2, j) -> put pol i j v s2 = Ok (s3, e) ->
  store_wf s3 /\ store_ref s3 /\ same_rest s s3 /\ exists old new, row_effect pol s s3 labs A v old new.
Proof.
  intros W R Hl Hd Hne E1 E2 E3.
  destruct (get_location_ok _ _ _ _ W Hl E1) as [W1 G1].
  destruct (got_location_ref _ _ _ _ G1 R) as [R1 S1].
  destruct (get_group_ok _ _ _ _ W1 Hd Hne E2) as [W2 G2].
  destruct (got_group_ref _ _ _ _ G2 R1) as [R2 S2].
  destruct (put_ok _ _ _ _ _ _ _ W2 E3) as (old & new & W3 & P & Hs & Hn & Ha).
  destruct (gl_here _ _ _ _ G1) as (loc & Hloc & Eloc & Eid).
  destruct (gg_here _ _ _ _ G2) as (grp & Hgrp & Egrp & Egid).
  assert (Hloc2 : In loc (s_locs s2)) by (rewrite (gg_locs _ _ _ _ G2); auto).
  destruct (put_at_stored _ _ _ _ _ _ _ _ W2 P Hloc2 Eid Hgrp Egid) as (Q1 & Q2 & Q3).
  assert (Hst : forall l a q, stored s2 l a q <-> stored s l a q) by (intros; rewrite S2; apply S1).
  split; [exact W3|]. split; [eapply put_at_ref; eauto|]. split.
  { eapply same_rest_trans; [apply (gl_rest _ _ _ _ G1)|]. eapply same_rest_trans; [apply (gg_rest _ _ _ _ G2)|apply (pa_rest _ _ _ _ _ _ P)]. }
  exists old, new. subst labs. constructor; auto.
  - apply (reads_ext s2 s); [intros q; symmetry; apply Hst|]. eapply reads_same; eauto.
  - eapply reads_same; eauto.
  - intros l a q Hna. rewrite Q3; [apply Hst|]. intros [-> Hs']. apply Hna. split; auto. eapply same_attrs_trans; eauto.
  - rewrite (pa_total _ _ _ _ _ _ P), (tables_total s s2); [reflexivity|]. rewrite (gg_quants _ _ _ _ G2). apply (gl_quants _ _ _ _ G1).
Qed.

Lemma insert_row_ok pol al ap s ev r s' ev' : store_wf s -> store_ref s -> length (qr_labels r) = length (d_labels (s_db s)) ->
  insert_row pol al ap (s, ev) r = Ok (s', ev') ->
  store_wf s' /\ store_ref s' /\ same_rest s s' /\
  (attr_dict (s_registered s) (qr_cells r) = [] -> s' = s) /\
  (attr_dict (s_registered s) (qr_cells r) <> [] ->
     exists old new, row_effect pol s s' (qr_labels r) (attr_dict (s_registered s) (qr_cells r)) (qr_value r) old new).
Proof.
  intros W R Hl H. unfold insert_row in H.
  destruct (match qr_domain r with Some d => _ | None => false end); [discriminate|].
  set (A := attr_dict (s_registered s) (qr_cells r)) in *. destruct (nil_b A) eqn:En.
  - inversion H; subst. apply nil_b_iff in En. split; auto. split; auto. split; [apply same_rest_refl|]. split; auto. intros; congruence.
  - apply nil_b_false in En. destruct (negb _ && negb ap); [discriminate|]. destruct (negb _ && negb al); [discriminate|].
    apply bind_ok in H. destruct H as ([s1 i] & E1 & H). cbn [fst snd] in H.
    apply bind_ok in H. destruct H as ([s2 j] & E2 & H). cbn [fst snd] in H.
    apply bind_ok in H. destruct H as ([s3 e] & E3 & H). cbn [fst snd] in H. inversion H; subst; clear H.
    destruct (wf_put pol _ A _ _ _ _ _ _ _ _ W R Hl (attr_dict_dict _ _) En E1 E2 E3) as (W3 & R3 & Hr & E).
    split; [exact W3|]. split; [exact R3|]. split; [exact Hr|]. split; [intros; contradiction|]. intros _. exact E.
Qed.

(** *** All rows *)

(** What each row of a loop does to the store: rows that are not [taken] do nothing. *)
Inductive chain (pol : policy) (taken : q_row -> bool) (A : q_row -> row) : list q_row -> store -> store -> Prop :=
| ch_nil s : chain pol taken A [] s s
| ch_cons r rows s s1 s' : store_wf s1 -> store_ref s1 -> same_rest s s1 ->
    (taken r = false -> s1 = s) ->
    (taken r = true -> exists old new, row_effect pol s s1 (qr_labels r) (A r) (qr_value r) old new) ->
    chain pol taken A rows s1 s' -> chain pol taken A (r :: rows) s s'.

Definition hits (taken : q_row -> bool) (A : q_row -> row) (labs : list text) (a : row) (r : q_row) : bool :=
  taken r && (labels_eqb (qr_labels r) labs && row_eqb (sort_keys a) (sort_keys (A r))).

Lemma chain_effect pol taken A rows : (forall r, dict (A r)) ->
  forall s s', store_wf s -> store_ref s -> chain pol taken A rows s s' ->
  store_wf s' /\ store_ref s' /\ same_rest s s' /\
  (forall labs a old v, dict a -> reads s labs a old -> reads s' labs a v ->
     let vs := map qr_value (filter (hits taken A labs a) rows) in
     same_value v (settle pol old vs) /\
     (pol <> PIgnore -> ~ In None vs) /\
     (pol = PAbort \/ pol = PInvalid -> length vs <= 1 /\ (vs <> [] -> old = None))) /\
  (pol = PSum \/ pol = PAbort ->
     grand_total s' == grand_total s + Qsum (map (fun r => val (qr_value r)) (filter taken rows)))%Q.
Proof.
  intros HA. induction rows as [|r rows IH]; intros s s' W R H; inversion H; subst; clear H.
  - split; auto. split; auto. split; [apply same_rest_refl|]. split.
    + intros labs a old v Hd Ho Hv. cbn [filter map]. assert (v = old) by (eapply reads_unique; eauto). subst v.
      split; [destruct pol, old; cbn [settle rev map same_value]; rewrite ?Qsum_nil; try reflexivity; auto; lra|]. split; [auto|]. intros _. split; [cbn; lia|easy].
    + intros _. cbn [filter map]. rewrite Qsum_nil. lra.
  - match goal with
    | H1 : store_wf s1, H2 : store_ref s1, H3 : same_rest s s1, H4 : _ -> s1 = s, H5 : _ -> exists old new, _, H6 : chain _ _ _ rows _ _ |- _ =>
        rename H1 into W1; rename H2 into R1; rename H3 into Hr; rename H4 into Hnil; rename H5 into Heff; rename H6 into H
    end.
    destruct (IH _ _ W1 R1 H) as (W' & R' & Hr' & Hk & Ht).
    split; auto. split; auto. split; [eapply same_rest_trans; eauto|].
    destruct (taken r) eqn:En.
    + destruct (Heff eq_refl) as (o1 & n1 & [F1 F2 F3 F4 F5 F6 F7]). split.
      * intros labs a old v Hd Ho Hv. cbn [filter]. destruct (hits taken A labs a r) eqn:Eg.
        -- cbn [map]. unfold hits in Eg. rewrite !andb_true_iff, labels_eqb_iff, row_eqb_iff in Eg.
           destruct Eg as (_ & E2 & Es). subst labs. apply sort_keys_same in Es; auto.
           assert (o1 = old). { eapply reads_unique; [exact W|exact F1|]. eapply reads_same; eauto. } subst o1.
           assert (Hn1 : reads s1 (qr_labels r) a n1) by (eapply reads_same; [apply same_attrs_sym, Es|exact F2]).
           destruct (Hk (qr_labels r) a n1 v Hd Hn1 Hv) as (K1 & K2 & K3). cbv zeta in K1, K2, K3.
           set (vs := map qr_value (filter (hits taken A (qr_labels r) a) rows)) in *. split; [|split].
           ++ eapply same_value_trans; [exact K1|]. eapply same_value_trans; [apply settle_cong, F3|]. now apply settle_chain.
           ++ intros Hp [E|Hi]; [|now apply K2]. destruct (F4 E). contradiction.
           ++ intros Hp. destruct (K3 Hp) as [K4 K5]. specialize (F5 Hp).
              assert (vs = []) as ->.
              { destruct vs as [|w vs]; auto. exfalso. assert (n1 = None) by (apply K5; discriminate). subst n1 old.
                destruct (qr_value r); [destruct Hp as [-> | ->]; exact F3|]. destruct (F4 eq_refl). destruct Hp; congruence. }
              split; [cbn; lia|auto].
        -- apply Hk; auto. apply (reads_ext s); auto. intros q. apply F6. intros [E2 Es]. apply not_true_iff_false in Eg. apply Eg.
           unfold hits. rewrite En, !andb_true_iff, labels_eqb_iff, row_eqb_iff, sort_keys_same; auto.
      * intros Hp. specialize (Ht Hp). cbn [filter]. rewrite En. cbn [map].
        rewrite Qsum_cons, Ht.
        assert (val n1 == val o1 + val (qr_value r))%Q.
        { destruct (qr_value r) as [q|]; [|destruct (F4 eq_refl); destruct Hp; congruence].
          destruct Hp as [-> | ->].
          - destruct o1, n1; cbn [settle same_value val map] in *; rewrite ?Qsum_cons, ?Qsum_nil in F3; try tauto; lra.
          - rewrite (F5 (or_introl eq_refl)) in F3 |- *. destruct n1; cbn [settle same_value val] in *; [lra|tauto]. }
        lra.
    + rewrite (Hnil eq_refl) in *. split.
      * intros labs a old v Hd Ho Hv. cbn [filter].
        assert (hits taken A labs a r = false) as ->. { unfold hits. now rewrite En. }
        now apply Hk.
      * intros Hp. cbn [filter]. rewrite En. now apply Ht.
Qed.

(** The loop of [insert_quantities2]. *)
Definition taken2 (names : list text) (r : q_row) : bool := negb (nil_b (attr_dict names (qr_cells r))).
Lemma insert_chain pol al ap rows : forall s ev s' ev', store_wf s -> store_ref s ->
  (forall r, In r rows -> length (qr_labels r) = length (d_labels (s_db s))) ->
  fold_res (insert_row pol al ap) rows (s, ev) = Ok (s', ev') ->
  chain pol (taken2 (s_registered s)) (fun r => attr_dict (s_registered s) (qr_cells r)) rows s s'.
Proof.
  induction rows as [|r rows IH]; intros s ev s' ev' W R Hl H; cbn [fold_res] in H.
  - inversion H; subst. constructor.
  - apply bind_ok in H. destruct H as ([s1 ev1] & E1 & H).
    destruct (insert_row_ok _ _ _ _ _ _ _ _ W R (Hl r (or_introl eq_refl)) E1) as (W1 & R1 & Hr & Hnil & Heff).
    assert (Hl1 : forall x, In x rows -> length (qr_labels x) = length (d_labels (s_db s1))).
    { intros x Hx. destruct Hr as (-> & _). apply Hl. now right. }
    assert (Hreg : s_registered s1 = s_registered s) by apply Hr.
    specialize (IH _ _ _ _ W1 R1 Hl1 H). rewrite Hreg in IH.
    econstructor; [exact W1|exact R1|exact Hr| | |exact IH]; unfold taken2; rewrite ?negb_false_iff, ?negb_true_iff, ?nil_b_iff, ?nil_b_false; auto.
Qed.

(** The loop of [insert_quantities]. *)
Definition right_domain (s : store) (r : q_row) : bool :=
  is_empty (s_domain s) || match qr_domain r with Some d => text_eqb d (s_domain s) | None => false end.
Definition taken1 (s : store) (names : list text) (r : q_row) : bool := right_domain s r && taken2 names r.
Lemma insert1_chain names rows : forall s s', store_wf s -> store_ref s ->
  (forall r, In r rows -> length (qr_labels r) = length (d_labels (s_db s))) ->
  fold_res (insert_row1 names) rows s = Ok s' ->
  chain PAbort (taken1 s names) (fun r => attr_dict names (qr_cells r)) rows s s'.
Proof.
  induction rows as [|r rows IH]; intros s s' W R Hl H; cbn [fold_res] in H.
  - inversion H; subst. constructor.
  - apply bind_ok in H. destruct H as (s1 & E1 & H).
    assert (K : store_wf s1 /\ store_ref s1 /\ same_rest s s1 /\ (taken1 s names r = false -> s1 = s) /\
      (taken1 s names r = true -> exists old new, row_effect PAbort s s1 (qr_labels r) (attr_dict names (qr_cells r)) (qr_value r) old new)).
    { unfold insert_row1 in E1. unfold taken1, right_domain, taken2. destruct (is_empty (s_domain s)) eqn:Ed; cbn [negb andb orb] in *.
      1: destruct (nil_b (attr_dict names (qr_cells r))) eqn:En; cbn [negb].
      3: destruct (match qr_domain r with Some d => text_eqb d (s_domain s) | None => false end) eqn:Eq; cbn [negb andb] in *.
      3: destruct (nil_b (attr_dict names (qr_cells r))) eqn:En; cbn [negb].
      1,3,5: inversion E1; subst; split; [auto|]; split; [auto|]; split; [apply same_rest_refl|]; split; [auto|discriminate].
      all: apply nil_b_false in En; apply bind_ok in E1; destruct E1 as ([t1 i] & G1 & E1); cbn [fst snd] in E1;
        apply bind_ok in E1; destruct E1 as ([t2 j] & G2 & E1); cbn [fst snd] in E1;
        assert (Ep : put PAbort i j (qr_value r) t2 = Ok (s1, Inserted)) by (unfold put; now rewrite E1);
        destruct (wf_put PAbort _ _ _ _ _ _ _ _ _ _ W R (Hl r (or_introl eq_refl)) (attr_dict_dict _ _) En G1 G2 Ep) as (W3 & R3 & Hr & E);
        (split; [exact W3|]; split; [exact R3|]; split; [exact Hr|]; split; [discriminate|auto]). }
    destruct K as (W1 & R1 & Hr & Hnil & Heff).
    assert (Hl1 : forall x, In x rows -> length (qr_labels x) = length (d_labels (s_db s1))).
    { intros x Hx. destruct Hr as (-> & _). apply Hl. now right. }
    specialize (IH _ _ W1 R1 Hl1 H).
    assert (Ht : taken1 s1 names = taken1 s names). { unfold taken1, right_domain. destruct Hr as (_ & _ & _ & -> & _). reflexivity. }
    rewrite Ht in IH. econstructor; [exact W1|exact R1|exact Hr|exact Hnil|exact Heff|exact IH].
Qed.

(** A value can always be read. *)
Lemma reads_total s labs a : store_wf s -> dict a -> exists v, reads s labs a v.
Proof.
  intros W Hd.
  destruct (find (fun l => labels_eqb (l_labels l) labs) (s_locs s)) as [l|] eqn:El.
  2: { exists None. intros q (l & g & x & Hl & E & _). pose proof (find_none _ _ El l Hl) as N. cbn in N.
       assert (labels_eqb (l_labels l) labs = true) by now apply labels_eqb_iff. congruence. }
  apply find_some in El. destruct El as [Hl El]. apply labels_eqb_iff in El.
  destruct (find (fun g => row_eqb (ag_attrs g) (sort_keys a)) (s_attrs s)) as [g|] eqn:Eg.
  2: { exists None. intros q (l' & g & x & _ & _ & Hg & Hs & _). pose proof (find_none _ _ Eg g Hg) as N. cbn in N.
       assert (row_eqb (ag_attrs g) (sort_keys a) = true); [|congruence]. apply row_eqb_iff. rewrite <- (sw_sorted s W g Hg).
       apply sort_keys_same; auto. apply (sw_dicts s W g Hg). }
  apply find_some in Eg. destruct Eg as [Hg Eg]. apply row_eqb_iff in Eg. rewrite <- (sw_sorted s W g Hg) in Eg. apply sort_keys_same in Eg; auto; [|apply (sw_dicts s W g Hg)].
  pose proof (find_quantity (l_id l) (ag_id g) s) as F. destruct (quantity_find (l_id l) (ag_id g) s) as [x|].
  - destruct F as [Hx Ex]. apply quantity_is_iff in Ex. destruct Ex as [X1 X2]. exists (Some (qt_value x)), l, g, x. repeat split; auto.
  - exists None. intros q (l' & g' & x & Hl' & El' & Hg' & Hs & Hx & X1 & X2 & _).
    assert (l' = l) by (apply (sw_locs s W); auto; congruence). subst l'.
    assert (g' = g) by (apply (sw_groups s W); auto; eapply same_attrs_trans; [exact Hs|apply same_attrs_sym, Eg]). subst g'.
    assert (quantity_is (l_id l) (ag_id g) x = true) by (apply quantity_is_iff; auto). rewrite (F x Hx) in *. discriminate.
Qed.

(** *** Acceptance *)

Lemma in_candidates_iff s labs i : index_wf (s_db s) -> In i (candidates (s_db s) labs) <-> matches s labs i.
Proof.
  intros W. pose proof (in_candidates (s_db s) {| sd_id := None; sd_loc := labs; sd_level := [] |} i W eq_refl) as H.
  cbn [sd_loc] in H. rewrite H. unfold refers, matches. cbn [sd_id sd_loc]. split; [tauto|]. intros (r & Hr & E & Ha). split; [exists r; auto|exists r; auto].
Qed.

Lemma in_structure_iff s labs : in_structure labs s = true <-> structured s labs.
Proof.
  unfold in_structure, structured. rewrite existsb_exists.
  assert (K : forall x bits, bf_eqb (of_bits x) (of_bits bits) = true <-> same_bits bits x).
  { intros x bits. rewrite bf_eqb_spec by apply of_bits_wf. split; intros H i; specialize (H i).
    - now rewrite (of_bits_iter x i), (of_bits_iter bits i) in H.
    - now rewrite (of_bits_iter x i), (of_bits_iter bits i). }
  split; intros (bits & Hb & E); exists bits; split; auto; now apply K.
Qed.

Lemma insert_row_storable pol al ap s ev r x : index_wf (s_db s) -> store_wf s ->
  insert_row pol al ap (s, ev) r = Ok x -> storable al ap s r.
Proof.
  intros W SW H. destruct x as [s' ev'].
  unfold insert_row in H.
  destruct (match qr_domain r with Some d => negb (text_eqb d (s_domain s)) | None => false end) eqn:Ed; [discriminate|].
  assert (Hd : forall d, qr_domain r = Some d -> d = s_domain s).
  { intros d E. rewrite E in Ed. apply negb_false_iff in Ed. now apply text_eqb_iff. }
  set (A := attr_dict (s_registered s) (qr_cells r)) in *. destruct (nil_b A) eqn:En.
  - apply nil_b_iff in En. assert (Hn : ~ has_attrs (s_registered s) r) by (rewrite has_attrs_iff; auto).
    split; [split; auto; tauto|tauto].
  - destruct (negb (in_structure (qr_labels r) s) && negb ap) eqn:E1; [discriminate|].
    destruct (negb (negb (nil_b (candidates (s_db s) (qr_labels r)))) && negb al) eqn:E2; [discriminate|].
    split; [split; [auto|]|].
    + intros _. split.
      * intros ->. rewrite andb_true_r, negb_false_iff in E1. now apply in_structure_iff.
      * intros ->. rewrite andb_true_r, negb_involutive, nil_b_false in E2. destruct (candidates _ _) as [|i l] eqn:Ec; [easy|].
        exists i. apply in_candidates_iff; auto. rewrite Ec. now left.
    + intros _. apply bind_ok in H. destruct H as ([s1 i] & G1 & H). cbn [fst snd] in H.
      apply bind_ok in H. destruct H as ([s2 j] & G2 & H). split.
      * intros E. unfold get_location in G1. rewrite E in G1. discriminate.
      * intros (v & Hv). unfold get_group in G2. apply in_attr_dict in Hv. fold A in Hv.
        assert (Hat : s_attrs s1 = s_attrs s).
        { unfold get_location in G1. destruct (nil_b (qr_labels r)); [discriminate|]. destruct (find _ _); inversion G1; reflexivity. }
        destruct (find _ (s_attrs s1)) as [g|] eqn:Ef.
        -- apply find_some in Ef. destruct Ef as [Hg Ef]. apply row_eqb_iff in Ef. rewrite Hat in Hg.
           destruct (sw_dicts s SW g Hg) as (_ & _ & Hk). apply (Permutation_in _ (sort_keys_perm A)) in Hv. rewrite <- Ef in Hv. now destruct (Hk _ _ Hv).
        -- assert (existsb (fun p => is_empty (fst p) || is_empty (snd p)) A = true) as E by (apply existsb_exists; eexists; split; [exact Hv|reflexivity]).
           now rewrite E in G2.
Qed.

Lemma get_location_total labs s : labs <> [] -> exists s1 i, get_location labs s = Ok (s1, i).
Proof.
  intros H. unfold get_location. apply nil_b_false in H. rewrite H. destruct (find _ _); eauto.
Qed.
Lemma get_group_total a s : (forall k v, In (k, v) a -> k <> [] /\ v <> []) -> exists s1 i, get_group a s = Ok (s1, i).
Proof.
  intros H. unfold get_group. destruct (find _ _); eauto. match goal with |- context [existsb ?f a] => destruct (existsb f a) eqn:E end; eauto.
  apply existsb_exists in E. destruct E as ([k v] & Hi & E). destruct (H k v Hi). cbn in E. destruct k, v; easy.
Qed.

Lemma storable_row pol al ap s ev r : index_wf (s_db s) -> storable al ap s r ->
  attr_dict (s_registered s) (qr_cells r) <> [] ->
  exists s1 i s2 j, get_location (qr_labels r) s = Ok (s1, i) /\ get_group (attr_dict (s_registered s) (qr_cells r)) s1 = Ok (s2, j) /\
    (forall s3 e, put pol i j (qr_value r) s2 = Ok (s3, e) -> exists ev', insert_row pol al ap (s, ev) r = Ok (s3, ev')) /\
    (forall e, put pol i j (qr_value r) s2 = Err e -> insert_row pol al ap (s, ev) r = Err e).
Proof.
  intros W [[Hd Hok] Hs] Hne. apply has_attrs_iff in Hne as Ha. destruct (Hok Ha) as [Hp Hlab]. destruct (Hs Ha) as [Hl Hk].
  set (A := attr_dict (s_registered s) (qr_cells r)) in *.
  destruct (get_location_total (qr_labels r) s Hl) as (s1 & i & E1).
  destruct (get_group_total A s1) as (s2 & j & E2).
  { intros k v Hi. apply in_attr_dict in Hi. split; [|apply Hi]. intros ->. apply Hk. eauto. }
  exists s1, i, s2, j. split; [exact E1|]. split; [exact E2|].
  assert (E : forall X : res (store * list event), insert_row pol al ap (s, ev) r =
    do p <- put pol i j (qr_value r) s2; Ok (fst p, ev ++ (if in_structure (qr_labels r) s then [] else [InvalidCategory]) ++
      (if negb (nil_b (candidates (s_db s) (qr_labels r))) then [] else [InvalidLabel]) ++ [snd p])).
  { intros _. unfold insert_row. fold A.
    assert (match qr_domain r with Some d => negb (text_eqb d (s_domain s)) | None => false end = false) as ->.
    { destruct (qr_domain r) as [d|]; auto. apply negb_false_iff, text_eqb_iff. auto. }
    apply nil_b_false in Hne. rewrite Hne.
    assert (negb (in_structure (qr_labels r) s) && negb ap = false) as ->.
    { destruct ap; [apply andb_false_r|]. rewrite andb_true_r, negb_false_iff. apply in_structure_iff. auto. }
    assert (negb (negb (nil_b (candidates (s_db s) (qr_labels r)))) && negb al = false) as ->.
    { destruct al; [apply andb_false_r|]. rewrite andb_true_r, negb_involutive, nil_b_false. destruct (Hlab eq_refl) as (m & Hm).
      apply in_candidates_iff in Hm; auto. intros E. now rewrite E in Hm. }
    rewrite E1. cbn [bind fst snd]. rewrite E2. reflexivity. }
  specialize (E (Err KeyError)). split.
  - intros s3 e Ep. rewrite E, Ep. cbn [bind fst snd]. eauto.
  - intros e Ep. rewrite E, Ep. reflexivity.
Qed.
