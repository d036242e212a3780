(** Acceptance of rows and histories of quantity operations. *)
From Verif Require Import Prelude QLemmas BitFlags_Model BitFlags_Spec BitFlags_Proofs Selectors_Model Selectors_Proofs
  LinkRef_Model LinkRef_Proofs Db_Model Db_Spec Db_Proofs Db_ProofsLocal Db_ProofsInv Db_ProofsRun Reader_Model Reader_Spec Reader_Proofs
  Mapper_Model Mapper_Spec Mapper_Proofs Quantity_Model Quantity_Spec Quantity_Proofs Quantity_Proofs2.
From Coq Require Import Permutation Lqa.
From Coq Require Import ZifyBool ZifyNat ZifyN.
Local Open Scope nat_scope.

(** *** Incoming values *)

Lemma hits2_iff names labs a r : dict a ->
  hits (taken2 names) (fun r => attr_dict names (qr_cells r)) labs a r = true <-> goes_to names labs a r.
Proof.
  intros Hd. unfold hits, taken2, goes_to. rewrite !andb_true_iff, labels_eqb_iff, negb_true_iff, nil_b_false, has_attrs_iff, row_eqb_iff.
  rewrite sort_keys_same by auto using attr_dict_dict. rewrite row_attrs_same. tauto.
Qed.
Lemma incoming_iff names rows labs a vs : dict a ->
  incoming names rows labs a vs <->
  vs = map qr_value (filter (hits (taken2 names) (fun r => attr_dict names (qr_cells r)) labs a) rows).
Proof.
  intros Hd. split.
  - intros (sel & Hs & ->). f_equal. apply filter_ext_in. intros r Hr. apply eq_true_iff_eq. rewrite Hs by auto. symmetry. now apply hits2_iff.
  - intros ->. eexists. split; [|reflexivity]. intros r _. now apply hits2_iff.
Qed.

Lemma right_domain_iff s r : right_domain s r = true <-> of_domain s r.
Proof.
  unfold right_domain, of_domain. rewrite orb_true_iff, is_empty_iff. destruct (qr_domain r) as [d|].
  - rewrite text_eqb_iff. split; intros [H|H]; auto; right; congruence.
  - split; intros [H|H]; auto; discriminate.
Qed.

(** *** Effect of the insert functions *)

Theorem insert2_effect pol al ap rows s s' ev : store_wf s -> store_ref s -> fits s rows ->
  insert_quantities2 pol al ap rows s = Ok (s', ev) ->
  store_wf s' /\ store_ref s' /\ same_rest s s' /\
  forall labels a old vs, dict a -> reads s labels a old -> incoming (s_registered s) rows labels a vs ->
    exists new, reads s' labels a new /\ same_value new (settle pol old vs) /\
      (pol <> PIgnore -> ~ In None vs) /\ (pol = PAbort \/ pol = PInvalid -> length vs <= 1 /\ (vs <> [] -> old = None)).
Proof.
  intros W R Hf H. unfold insert_quantities2 in H. destruct (nil_b _); [discriminate|].
  destruct (chain_effect _ _ _ _ (fun r => attr_dict_dict _ _) _ _ W R (insert_chain _ _ _ _ _ _ _ _ W R Hf H)) as (W' & R' & Hr & Hk & _).
  split; auto. split; auto. split; auto. intros labels a old vs Hd Ho Hv. apply incoming_iff in Hv; auto. subst vs.
  destruct (reads_total s' labels a W' Hd) as [new Hn]. exists new. split; auto.
Qed.

Theorem insert2_total pol al ap rows s s' ev (sel : q_row -> bool) : store_wf s -> store_ref s -> fits s rows ->
  pol = PSum \/ pol = PAbort -> (forall r, In r rows -> (sel r = true <-> has_attrs (s_registered s) r)) ->
  insert_quantities2 pol al ap rows s = Ok (s', ev) ->
  (grand_total s' == grand_total s + Qsum (map (fun r => val (qr_value r)) (filter sel rows)))%Q.
Proof.
  intros W R Hf Hp Hs H. unfold insert_quantities2 in H. destruct (nil_b _); [discriminate|].
  destruct (chain_effect _ _ _ _ (fun r => attr_dict_dict _ _) _ _ W R (insert_chain _ _ _ _ _ _ _ _ W R Hf H)) as (_ & _ & _ & _ & Ht).
  rewrite (Ht Hp). rewrite (filter_ext_in sel (taken2 (s_registered s)) rows); [reflexivity|].
  intros r Hr. apply eq_true_iff_eq. rewrite Hs by auto. unfold taken2. rewrite negb_true_iff, nil_b_false. apply has_attrs_iff.
Qed.

Definition names1 (s : store) (names : list text) : list text :=
  if is_empty (s_domain s) then names else filter (fun k => negb (text_eqb k (txt "domain"))) names.
Theorem insert1_effect names rows s s' : store_wf s -> store_ref s -> fits s rows ->
  insert_quantities names rows s = Ok s' ->
  store_wf s' /\ store_ref s' /\ same_rest s s' /\
  forall labels a old (sel : q_row -> bool), dict a -> reads s labels a old ->
    (forall r, In r rows -> (sel r = true <-> of_domain s r /\ goes_to (names1 s names) labels a r)) ->
    let vs := map qr_value (filter sel rows) in
    exists new, reads s' labels a new /\ same_value new (settle PAbort old vs) /\
      ~ In None vs /\ length vs <= 1 /\ (vs <> [] -> old = None).
Proof.
  intros W R Hf H. unfold insert_quantities in H. fold (names1 s names) in H.
  destruct (chain_effect _ _ _ _ (fun r => attr_dict_dict _ _) _ _ W R (insert1_chain _ _ _ _ W R Hf H)) as (W' & R' & Hr & Hk & _).
  split; auto. split; auto. split; auto. intros labels a old sel Hd Ho Hs vs.
  destruct (reads_total s' labels a W' Hd) as [new Hn]. exists new. split; auto.
  destruct (Hk labels a old new Hd Ho Hn) as (K1 & K2 & K3).
  assert (E : vs = map qr_value (filter (hits (taken1 s (names1 s names)) (fun r => attr_dict (names1 s names) (qr_cells r)) labels a) rows)).
  { unfold vs. f_equal. apply filter_ext_in. intros r Hr'. apply eq_true_iff_eq. rewrite Hs by auto.
    rewrite <- hits2_iff by auto. rewrite <- right_domain_iff. unfold hits, taken1. rewrite !andb_true_iff. tauto. }
  rewrite E. split; [exact K1|]. split; [apply K2; discriminate|]. destruct (K3 (or_introl eq_refl)). auto.
Qed.

(** *** Acceptance *)

Lemma storable_rest al ap s s' r : same_rest s s' -> storable al ap s' r <-> storable al ap s r.
Proof.
  intros (E1 & _ & _ & E2 & E3). unfold storable, row_ok, structured, matches. rewrite E1, E2, E3. tauto.
Qed.

Lemma put_total pol l g q s : pol <> PAbort -> pol <> PInvalid -> exists s' e, put pol l g (Some q) s = Ok (s', e).
Proof.
  intros H1 H2. unfold put, quantity_add. destruct (existsb _ _) eqn:E; eauto.
  unfold quantity_find. destruct (find _ _) as [x|] eqn:F; [|]. 
  - destruct pol; try contradiction; cbn [quantity_update bind]; eauto.
  - exfalso. apply existsb_exists in E. destruct E as (x & Hx & Ex). pose proof (find_none _ _ F x Hx). congruence.
Qed.
Lemma put_free pol l g q s : (forall x, In x (s_quants s) -> quantity_is l g x = false) -> exists s' e, put pol l g (Some q) s = Ok (s', e).
Proof.
  intros H. unfold put, quantity_add. destruct (existsb _ _) eqn:E; eauto.
  apply existsb_exists in E. destruct E as (x & Hx & Ex). rewrite (H x Hx) in Ex. discriminate.
Qed.

Lemma rows_accept pol al ap rows : forall s ev, index_wf (s_db s) -> store_wf s -> store_ref s -> fits s rows -> numeric s rows ->
  (forall r, In r rows -> storable al ap s r) ->
  pol <> PAbort /\ pol <> PInvalid \/ no_conflict s rows ->
  exists s' ev', fold_res (insert_row pol al ap) rows (s, ev) = Ok (s', ev').
Proof.
  induction rows as [|r rows IH]; intros s ev WI W R Hf Hn Hs Hc; cbn [fold_res]; eauto.
  assert (Hrow : exists s1 ev1, insert_row pol al ap (s, ev) r = Ok (s1, ev1)).
  { destruct (attr_dict (s_registered s) (qr_cells r)) as [|p A'] eqn:EA.
    - unfold insert_row. rewrite EA. cbn [nil_b].
      assert (match qr_domain r with Some d => negb (text_eqb d (s_domain s)) | None => false end = false) as ->; [|eauto].
      destruct (Hs r (or_introl eq_refl)) as [[Hd _] _].
      destruct (qr_domain r) as [d|]; auto. apply negb_false_iff, text_eqb_iff. auto.
    - assert (HA : attr_dict (s_registered s) (qr_cells r) <> []) by (rewrite EA; discriminate).
      destruct (storable_row pol al ap s ev r WI (Hs r (or_introl eq_refl)) HA) as (s1 & i & s2 & j & E1 & E2 & Hok & _).
      assert (Hv := Hn r (or_introl eq_refl) (proj2 (has_attrs_iff _ _) HA)).
      destruct (qr_value r) as [q|]; [|easy]. clear Hv.
      assert (exists s3 e, put pol i j (Some q) s2 = Ok (s3, e)) as (s3 & e & Ep).
      { destruct Hc as [[Hc1 Hc2]|Hc]; [now apply put_total|]. apply put_free. intros x Hx. destruct (quantity_is i j x) eqn:Ex; auto. exfalso.
        destruct (get_location_ok _ _ _ _ W (Hf r (or_introl eq_refl)) E1) as [W1 G1].
        destruct (got_location_ref _ _ _ _ G1 R) as [R1 S1].
        destruct (get_group_ok _ _ _ _ W1 (attr_dict_dict _ _) HA E2) as [W2 G2].
        destruct (got_group_ref _ _ _ _ G2 R1) as [R2 S2].
        destruct (gl_here _ _ _ _ G1) as (loc & Hloc & Eloc & Eid).
        destruct (gg_here _ _ _ _ G2) as (grp & Hgrp & Egrp & Egid).
        assert (Hst : stored s2 (qr_labels r) (attr_dict (s_registered s) (qr_cells r)) (qt_value x)).
        { apply quantity_is_iff in Ex. destruct Ex. exists loc, grp, x. rewrite (gg_locs _ _ _ _ G2). repeat split; auto; congruence. }
        apply S2, S1 in Hst. destruct (Hc (qr_labels r) (attr_dict (s_registered s) (qr_cells r)) _ (attr_dict_dict _ _) (proj2 (incoming_iff _ _ _ _ _ (attr_dict_dict _ _)) eq_refl)) as [_ Hc2].
        refine (Hc2 _ _ Hst). cbn [filter].
        assert (hits (taken2 (s_registered s)) (fun r => attr_dict (s_registered s) (qr_cells r)) (qr_labels r) (attr_dict (s_registered s) (qr_cells r)) r = true) as ->; [|discriminate].
        apply hits2_iff; [apply attr_dict_dict|]. split; auto. split; [now apply has_attrs_iff|apply row_attrs_dict]. }
      destruct (Hok s3 e Ep) as (ev' & Eok). eauto. }
  destruct Hrow as (s1 & ev1 & E1). rewrite E1. cbn [bind].
  destruct (insert_row_ok _ _ _ _ _ _ _ _ W R (Hf r (or_introl eq_refl)) E1) as (W1 & R1 & Hr & Hnil & Heff).
  pose proof Hr as (D1 & _ & _ & D2 & D3). apply IH; auto.
  - now rewrite D1.
  - intros x Hx. rewrite D1. apply Hf. now right.
  - intros x Hx. rewrite D3. apply Hn. now right.
  - intros x Hx. apply (storable_rest al ap s s1 x Hr), Hs. now right.
  - destruct Hc as [Hc|Hc]; auto. right. intros labs a vs Hd Hv. rewrite D3 in Hv. apply incoming_iff in Hv; auto.
    destruct (Hc labs a _ Hd (proj2 (incoming_iff _ _ _ _ _ Hd) eq_refl)) as [C1 C2]. cbn [filter] in C1, C2.
    destruct (hits _ _ labs a r) eqn:Eh.
    + cbn [map length] in C1. subst vs. split; [lia|]. intros Hne. exfalso. destruct (filter _ rows); [now apply Hne|]. cbn in C1. lia.
    + subst vs. split; auto. intros Hne q Hq. apply (C2 Hne q).
      destruct (attr_dict (s_registered s) (qr_cells r)) as [|p A'] eqn:EA; [now rewrite <- Hnil|].
      destruct (Heff ltac:(discriminate)) as (o1 & n1 & F). apply (re_other _ _ _ _ _ _ _ _ F labs a q); auto.
      intros [El Es]. apply not_true_iff_false in Eh. apply Eh. apply hits2_iff; auto. split; auto. rewrite <- EA in Es. split; [apply has_attrs_iff; rewrite EA; discriminate|].
      apply row_attrs_same. auto.
Qed.

Lemma rows_storable pol al ap rows : forall s ev x, index_wf (s_db s) -> store_wf s -> store_ref s -> fits s rows ->
  fold_res (insert_row pol al ap) rows (s, ev) = Ok x -> forall r, In r rows -> storable al ap s r.
Proof.
  induction rows as [|r rows IH]; intros s ev x WI W R Hf H y Hy; [easy|]. cbn [fold_res] in H. apply bind_ok in H. destruct H as ([s1 ev1] & E1 & H).
  destruct Hy as [<-|Hy]; [eapply insert_row_storable; eauto|].
  destruct (insert_row_ok _ _ _ _ _ _ _ _ W R (Hf r (or_introl eq_refl)) E1) as (W1 & R1 & Hr & _).
  apply (storable_rest al ap s s1 y Hr). eapply IH; eauto.
  - now rewrite (proj1 Hr).
  - intros z Hz. rewrite (proj1 Hr). apply Hf. now right.
Qed.

Theorem insert2_accepts pol al ap rows s : index_wf (s_db s) -> store_wf s -> store_ref s -> fits s rows -> numeric s rows ->
  (exists s' ev, insert_quantities2 pol al ap rows s = Ok (s', ev)) <->
  s_registered s <> [] /\ (forall r, In r rows -> storable al ap s r) /\
  (pol = PAbort \/ pol = PInvalid -> no_conflict s rows).
Proof.
  intros WI W R Hf Hn. split.
  - intros (s' & ev & H). pose proof H as H0. unfold insert_quantities2 in H. destruct (nil_b (s_registered s)) eqn:E; [discriminate|].
    split; [now apply nil_b_false|]. split; [eapply rows_storable; eauto|].
    intros Hp labels a vs Hd Hv. destruct (insert2_effect _ _ _ _ _ _ _ W R Hf H0) as (_ & _ & _ & Hk).
    destruct (reads_total s labels a W Hd) as [old Ho]. destruct (Hk labels a old vs Hd Ho Hv) as (new & _ & _ & _ & Hk').
    destruct (Hk' Hp) as [K1 K2]. split; auto. intros Hne q Hq. rewrite (K2 Hne) in Ho. exact (Ho q Hq).
  - intros (Hr & Hs & Hc). unfold insert_quantities2. apply nil_b_false in Hr. rewrite Hr. apply rows_accept; auto.
    destruct pol; auto; left; split; discriminate.
Qed.

(** *** Histories *)

Lemma length_keep {A B} (flags : list bool) (l : list A) (m : list B) : length l = length m -> length (keep flags l) = length (keep flags m).
Proof.
  revert l m. induction flags as [|f flags IH]; intros [|x l] [|y m] H; cbn in *; try discriminate; auto; destruct f; cbn; auto.
Qed.

Lemma index_step_wf o s : store_wf s -> store_wf (fst (index_step o s)).
Proof.
  intros W. destruct (match o with OAddColumns _ | ODropColumns _ _ => true | _ => false end) eqn:Ec.
  - destruct o; try discriminate; unfold index_step.
    + cbn [step]. unfold transact. destruct (add_columns cols (s_db s)) as [d|e] eqn:E; cbn [fst]; [|exact W].
      destruct (d_fk d && negb (fk_ok d)); cbn [fst]; [exact W|]. unfold add_columns in E. destruct cols as [|c cols]; [discriminate|].
      destruct (existsb _ _); [discriminate|]. destruct (negb _); [discriminate|]. injection E as <-.
      destruct W as [W1 W2 W3 W4 W5 W6 W7 W8 W9]. constructor; cbn [set_locs set_tables set_db s_locs s_attrs s_quants s_db]; auto.
      * rewrite map_map. exact W1.
      * intros x y Hx Hy E. apply in_map_iff in Hx, Hy. destruct Hx as (x' & <- & Hx), Hy as (y' & <- & Hy).
        cbn [l_labels] in E. apply app_inv_tail in E. now rewrite (W2 x' y' Hx Hy E).
      * intros l Hl. apply in_map_iff in Hl. destruct Hl as (l' & <- & Hl). cbn [l_labels set_labels_index d_labels].
        rewrite !app_length, map_length, (W3 l' Hl). reflexivity.
    + set (flags := map (fun c => negb (existsb (text_eqb c) cols)) (d_labels (s_db s))). set (locs := map _ (s_locs s)). cbn [step]. unfold transact.
      destruct (drop_columns cols _ (s_db s)) as [d|e] eqn:E; cbn [fst]; [|exact W].
      destruct (d_fk d && negb (fk_ok d)); cbn [fst]; [exact W|]. unfold drop_columns in E. destruct cols as [|c cols]; [discriminate|].
      fold flags in E. destruct (forallb negb flags); [discriminate|].
      destruct (clash || negb (distinct_labels (map l_labels locs)) || _) eqn:Eb; [discriminate|]. injection E as <-.
      apply orb_false_iff in Eb. destruct Eb as [Eb _]. apply orb_false_iff in Eb. destruct Eb as [_ Eb]. apply negb_false_iff in Eb.
      apply distinct_labels_nodup in Eb.
      destruct W as [W1 W2 W3 W4 W5 W6 W7 W8 W9]. constructor; cbn [set_locs set_tables set_db s_locs s_attrs s_quants s_db]; auto.
      * unfold locs. rewrite map_map. exact W1.
      * intros x y Hx Hy E. eapply nodup_map_inj; eauto.
      * intros l Hl. unfold locs in Hl. apply in_map_iff in Hl. destruct Hl as (l' & <- & Hl). cbn [l_labels set_structs set_labels_index d_labels].
        apply length_keep. auto.
  - assert (E : fst (index_step o s) = set_db (fst (step o (s_db s))) s).
    { unfold index_step. destruct o; try discriminate; destruct (step _ (s_db s)); reflexivity. }
    rewrite E. assert (Hl : length (d_labels (fst (step o (s_db s)))) = length (d_labels (s_db s))).
    { destruct (match o with ORenameColumns _ => true | _ => false end) eqn:Er.
      - destruct o; try discriminate. cbn [step]. unfold transact. destruct (rename_columns m (s_db s)) as [d|e] eqn:Em; [|reflexivity].
        destruct (d_fk d && negb (fk_ok d)); [reflexivity|]. cbn [fst]. unfold rename_columns in Em. destruct (existsb _ _); [discriminate|].
        destruct (existsb _ _); [discriminate|]. destruct (negb _); [discriminate|]. injection Em as <-. cbn [set_labels_index d_labels]. apply map_length.
      - rewrite step_labels; auto. destruct o; try discriminate; cbn; auto. }
    destruct W as [W1 W2 W3 W4 W5 W6 W7 W8 W9]. constructor; cbn [set_db s_locs s_attrs s_quants s_db]; auto. intros l Hx. rewrite Hl. auto.
Qed.

Lemma index_step_ref o s : store_ref s -> store_ref (fst (index_step o s)).
Proof.
  intros [R1 R2]. unfold index_step. destruct o; try (solve [destruct (step _ (s_db s)) as [d e]; constructor; cbn [fst set_db s_locs s_attrs s_quants]; auto]).
  - destruct (step _ (s_db s)) as [d [e|]]; constructor; cbn [fst set_locs set_tables set_db s_locs s_attrs s_quants]; auto.
    intros x Hx. destruct (R1 x Hx) as (l & Hl & E). eexists. split; [apply in_map_iff; exists l; split; [reflexivity|exact Hl]|exact E].
  - set (flags := map (fun c => negb (existsb (text_eqb c) cols)) (d_labels (s_db s))). set (locs := map _ (s_locs s)). destruct (step _ (s_db s)) as [d [e|]]; constructor; cbn [fst set_locs set_tables set_db s_locs s_attrs s_quants]; auto.
    intros x Hx. destruct (R1 x Hx) as (l & Hl & E). eexists. split; [apply in_map_iff; exists l; split; [reflexivity|exact Hl]|exact E].
Qed.

(** Removing rows. *)
Lemma nodup_map_sub {A B} (f : A -> B) p l : NoDup (map f l) -> NoDup (map f (filter p l)).
Proof. apply nodup_map_filter. Qed.
Lemma wf_sub s pl pa pq : store_wf s ->
  store_wf (set_tables (filter pl (s_locs s)) (filter pa (s_attrs s)) (filter pq (s_quants s)) s).
Proof.
  intros [W1 W2 W3 W4 W5 W6 W7 W8 W9]. constructor; cbn [set_tables s_locs s_attrs s_quants s_db]; try (apply nodup_map_sub; auto; fail).
  - intros x y Hx Hy E. apply filter_In in Hx, Hy. apply W2; tauto.
  - intros l Hl. apply filter_In in Hl. apply W3; tauto.
  - intros x y Hx Hy E. apply filter_In in Hx, Hy. apply W5; tauto.
  - intros g Hg. apply filter_In in Hg. apply W6; tauto.
  - intros g Hg. apply filter_In in Hg. apply W7; tauto.
Qed.

Definition zin (l : list Z) (x : Z) : bool := existsb (Z.eqb x) l.
Lemma zin_iff l x : zin l x = true <-> In x l.
Proof. unfold zin. rewrite existsb_exists. split; [intros (y & H & E); apply Z.eqb_eq in E; now subst|intros H; exists x; split; auto; apply Z.eqb_refl]. Qed.
Lemma zin_false l x : zin l x = false <-> ~ In x l.
Proof. rewrite <- zin_iff. now destruct (zin l x). Qed.

Lemma filter_all {A} (f : A -> bool) l : (forall x, In x l -> f x = true) -> filter f l = l.
Proof. induction l as [|a l IH]; intros H; cbn; auto. rewrite (H a) by now left. f_equal. apply IH. intros x Hx. apply H. now right. Qed.
Lemma filter_true {A} (l : list A) : filter (fun _ => true) l = l.
Proof. now apply filter_all. Qed.
Lemma filter_twice {A} (f g : A -> bool) l : filter f (filter g l) = filter (fun x => g x && f x) l.
Proof. induction l as [|a l IH]; cbn; auto. destruct (g a); cbn; rewrite IH; auto. Qed.

Lemma delete_locations ids : forall s, fold_left (fun s i => location_delete i s) ids s =
  set_tables (filter (fun l => negb (zin ids (l_id l))) (s_locs s)) (s_attrs s)
    (if d_fk (s_db s) then filter (fun x => negb (zin ids (qt_loc x))) (s_quants s) else s_quants s) s.
Proof.
  induction ids as [|i ids IH]; intros s; cbn [fold_left].
  - rewrite !filter_all by reflexivity. destruct s; unfold set_tables; cbn. now destruct (d_fk s_db).
  - rewrite IH. unfold location_delete. cbn [set_tables s_locs s_attrs s_quants s_db]. unfold set_tables. cbn [s_db s_gran s_sels s_domain s_registered].
    rewrite filter_twice. f_equal.
    + apply filter_ext. intros l. unfold zin. cbn [existsb]. now rewrite negb_orb.
    + destruct (d_fk (s_db s)); auto. rewrite filter_twice. apply filter_ext. intros x. unfold zin. cbn [existsb]. now rewrite negb_orb.
Qed.
Lemma delete_groups ids : forall s, fold_left (fun s i => group_delete i s) ids s =
  set_tables (s_locs s) (filter (fun g => negb (zin ids (ag_id g))) (s_attrs s))
    (if d_fk (s_db s) then filter (fun x => negb (zin ids (qt_attr x))) (s_quants s) else s_quants s) s.
Proof.
  induction ids as [|i ids IH]; intros s; cbn [fold_left].
  - rewrite !filter_all by reflexivity. destruct s; unfold set_tables; cbn. now destruct (d_fk s_db).
  - rewrite IH. unfold group_delete. cbn [set_tables s_locs s_attrs s_quants s_db]. unfold set_tables. cbn [s_db s_gran s_sels s_domain s_registered].
    rewrite filter_twice. f_equal.
    + apply filter_ext. intros l. unfold zin. cbn [existsb]. now rewrite negb_orb.
    + destruct (d_fk (s_db s)); auto. rewrite filter_twice. apply filter_ext. intros x. unfold zin. cbn [existsb]. now rewrite negb_orb.
Qed.
Lemma delete_quants ids : forall s, fold_left (fun s i => set_quants (filter (fun x => negb (qt_id x =? i)%Z) (s_quants s)) s) ids s =
  set_quants (filter (fun x => negb (zin ids (qt_id x))) (s_quants s)) s.
Proof.
  induction ids as [|i ids IH]; intros s; cbn [fold_left].
  - rewrite !filter_all by reflexivity. destruct s; reflexivity.
  - rewrite IH. unfold set_quants, set_tables. cbn [s_db s_gran s_sels s_domain s_registered s_locs s_attrs s_quants]. f_equal.
    rewrite filter_twice. apply filter_ext. intros x. unfold zin. cbn [existsb]. now rewrite negb_orb.
Qed.

(** Deleting unused groups and locations touches nothing else. *)
Lemma in_unused_groups s i : In i (unused_groups s) <-> (exists g, In g (s_attrs s) /\ ag_id g = i) /\ forall x, In x (s_quants s) -> qt_attr x <> i.
Proof.
  unfold unused_groups. rewrite in_map_iff. split.
  - intros (g & <- & H). apply filter_In in H. destruct H as [Hg H]. apply negb_true_iff in H. split; [eauto|]. intros x Hx E.
    rewrite <- not_true_iff_false, existsb_exists in H. apply H. exists x. split; auto. now apply Z.eqb_eq.
  - intros ((g & Hg & E) & H). exists g. split; auto. apply filter_In. split; auto. apply negb_true_iff. rewrite <- not_true_iff_false, existsb_exists.
    intros (x & Hx & Ex). apply Z.eqb_eq in Ex. apply (H x Hx). congruence.
Qed.
Lemma in_unused_locations s i : In i (unused_locations s) <-> (exists l, In l (s_locs s) /\ l_id l = i) /\ forall x, In x (s_quants s) -> qt_loc x <> i.
Proof.
  unfold unused_locations. rewrite in_map_iff. split.
  - intros (g & <- & H). apply filter_In in H. destruct H as [Hg H]. apply negb_true_iff in H. split; [eauto|]. intros x Hx E.
    rewrite <- not_true_iff_false, existsb_exists in H. apply H. exists x. split; auto. now apply Z.eqb_eq.
  - intros ((g & Hg & E) & H). exists g. split; auto. apply filter_In. split; auto. apply negb_true_iff. rewrite <- not_true_iff_false, existsb_exists.
    intros (x & Hx & Ex). apply Z.eqb_eq in Ex. apply (H x Hx). congruence.
Qed.

Lemma drop_unused_groups s : fold_left (fun s i => group_delete i s) (unused_groups s) s =
  set_attrs (filter (fun g => existsb (fun x => (qt_attr x =? ag_id g)%Z) (s_quants s)) (s_attrs s)) s.
Proof.
  rewrite delete_groups. unfold set_attrs. f_equal.
  - apply filter_ext_in. intros g Hg. apply eq_true_iff_eq. rewrite negb_true_iff, zin_false, in_unused_groups, existsb_exists. split.
    + intros H. destruct (existsb (fun x => (qt_attr x =? ag_id g)%Z) (s_quants s)) eqn:E; [apply existsb_exists in E; exact E|].
      exfalso. apply H. split; [eauto|]. intros x Hx Ex. rewrite <- not_true_iff_false, existsb_exists in E. apply E. exists x. split; auto. now apply Z.eqb_eq.
    + intros (x & Hx & Ex) [_ H]. apply Z.eqb_eq in Ex. exact (H x Hx Ex).
  - destruct (d_fk (s_db s)); auto. apply filter_all. intros x Hx. apply negb_true_iff, zin_false. rewrite in_unused_groups. intros [_ H]. now apply (H x Hx).
Qed.
Lemma drop_unused_locations s : fold_left (fun s i => location_delete i s) (unused_locations s) s =
  set_locs (filter (fun l => existsb (fun x => (qt_loc x =? l_id l)%Z) (s_quants s)) (s_locs s)) s.
Proof.
  rewrite delete_locations. unfold set_locs. f_equal.
  - apply filter_ext_in. intros g Hg. apply eq_true_iff_eq. rewrite negb_true_iff, zin_false, in_unused_locations, existsb_exists. split.
    + intros H. destruct (existsb (fun x => (qt_loc x =? l_id g)%Z) (s_quants s)) eqn:E; [apply existsb_exists in E; exact E|].
      exfalso. apply H. split; [eauto|]. intros x Hx Ex. rewrite <- not_true_iff_false, existsb_exists in E. apply E. exists x. split; auto. now apply Z.eqb_eq.
    + intros (x & Hx & Ex) [_ H]. apply Z.eqb_eq in Ex. exact (H x Hx Ex).
  - destruct (d_fk (s_db s)); auto. apply filter_all. intros x Hx. apply negb_true_iff, zin_false. rewrite in_unused_locations. intros [_ H]. now apply (H x Hx).
Qed.

(** The deleting operations in one piece. *)
Definition used_group (qs : list quantity) (g : agroup) : bool := existsb (fun x => (qt_attr x =? ag_id g)%Z) qs.
Definition used_location (qs : list quantity) (l : location) : bool := existsb (fun x => (qt_loc x =? l_id l)%Z) qs.

Lemma delete_unmatched_eq s :
  let dead := map l_id (nonmatching_locations s) in
  let qs := if d_fk (s_db s) then filter (fun x => negb (zin dead (qt_loc x))) (s_quants s) else s_quants s in
  delete_unmatched s = set_tables (filter (fun l => negb (zin dead (l_id l))) (s_locs s)) (filter (used_group qs) (s_attrs s)) qs s.
Proof.
  cbv zeta. unfold delete_unmatched. rewrite drop_unused_groups, delete_locations. unfold set_attrs, set_tables. cbn [s_db s_gran s_sels s_domain s_registered s_locs s_attrs s_quants].
  reflexivity.
Qed.
Lemma delete_without_index_eq s :
  let dead := map qt_id (flat_map (fun l => filter (fun x => (qt_loc x =? l_id l)%Z) (s_quants s)) (locations_without_index s)) in
  let qs := filter (fun x => negb (zin dead (qt_id x))) (s_quants s) in
  delete_without_index s = set_tables (filter (used_location qs) (s_locs s)) (filter (used_group qs) (s_attrs s)) qs s.
Proof.
  cbv zeta. unfold delete_without_index. rewrite drop_unused_groups, drop_unused_locations, delete_quants.
  unfold set_attrs, set_locs, set_quants, set_tables. cbn [s_db s_gran s_sels s_domain s_registered s_locs s_attrs s_quants].
  reflexivity.
Qed.

Lemma set_tables_self s : set_tables (filter (fun _ => true) (s_locs s)) (filter (fun _ => true) (s_attrs s)) (s_quants s) s = s.
Proof. rewrite !filter_true. now destruct s. Qed.

Lemma delete_unmatched_wf s : store_wf s -> store_wf (delete_unmatched s).
Proof.
  intros W. rewrite delete_unmatched_eq. cbv zeta. destruct (d_fk (s_db s)).
  - now apply wf_sub.
  - pose proof (wf_sub s (fun l => negb (zin (map l_id (nonmatching_locations s)) (l_id l))) (used_group (s_quants s)) (fun _ => true) W) as H.
    now rewrite filter_true in H.
Qed.
Lemma delete_without_index_wf s : store_wf s -> store_wf (delete_without_index s).
Proof. intros W. rewrite delete_without_index_eq. now apply wf_sub. Qed.

Lemma used_group_ref s g x : In x (s_quants s) -> ag_id g = qt_attr x -> used_group (s_quants s) g = true.
Proof. intros Hx E. apply existsb_exists. exists x. split; auto. now apply Z.eqb_eq. Qed.

Lemma delete_unmatched_ref s : d_fk (s_db s) = true -> store_ref s -> store_ref (delete_unmatched s).
Proof.
  intros F [R1 R2]. rewrite delete_unmatched_eq. cbv zeta. rewrite F. constructor; cbn [set_tables s_locs s_attrs s_quants]; intros x Hx.
  - pose proof Hx as Hx'. apply filter_In in Hx'. destruct Hx' as [H1 H2]. destruct (R1 x H1) as (l & Hl & E). exists l. split; auto. apply filter_In. split; auto. now rewrite E.
  - pose proof Hx as Hx'. apply filter_In in Hx'. destruct Hx' as [H1 H2]. destruct (R2 x H1) as (g & Hg & E). exists g. split; auto. apply filter_In. split; auto.
    apply existsb_exists. exists x. split; auto. now apply Z.eqb_eq.
Qed.
Lemma delete_without_index_ref s : store_ref s -> store_ref (delete_without_index s).
Proof.
  intros [R1 R2]. rewrite delete_without_index_eq. constructor; cbn [set_tables s_locs s_attrs s_quants]; intros x Hx;
    pose proof Hx as Hx'; apply filter_In in Hx'; destruct Hx' as [H1 H2].
  - destruct (R1 x H1) as (l & Hl & E). exists l. split; auto. apply filter_In. split; auto. apply existsb_exists. exists x. split; auto. now apply Z.eqb_eq.
  - destruct (R2 x H1) as (g & Hg & E). exists g. split; auto. apply filter_In. split; auto. apply existsb_exists. exists x. split; auto. now apply Z.eqb_eq.
Qed.

(** *** All histories *)

Lemma fits_b s rows : forallb (fun r => length (qr_labels r) =? length (d_labels (s_db s))) rows = true <-> fits s rows.
Proof. rewrite forallb_forall. unfold fits. split; intros H r Hr; specialize (H r Hr); [now apply Nat.eqb_eq|now apply Nat.eqb_eq]. Qed.

(** A store whose quantities may have lost their locations: only the ids matter for the
    invariant, and [get_location] still gives distinct ones. *)
Lemma wf_put_only pol labs A v s s1 i s2 j s3 e : store_wf s -> length labs = length (d_labels (s_db s)) ->
  dict A -> A <> [] -> get_location labs s = Ok (s1, i) -> get_group A s1 = Ok (s2, j) -> put pol i j v s2 = Ok (s3, e) ->
  store_wf s3 /\ same_rest s s3.
Proof.
  intros W Hl Hd Hne E1 E2 E3.
  destruct (get_location_ok _ _ _ _ W Hl E1) as [W1 G1].
  destruct (get_group_ok _ _ _ _ W1 Hd Hne E2) as [W2 G2].
  destruct (put_ok _ _ _ _ _ _ _ W2 E3) as (old & new & W3 & P & _). split; auto.
  eapply same_rest_trans; [apply (gl_rest _ _ _ _ G1)|]. eapply same_rest_trans; [apply (gg_rest _ _ _ _ G2)|apply (pa_rest _ _ _ _ _ _ P)].
Qed.
Lemma insert_row_wf pol al ap s ev r s' ev' : store_wf s -> length (qr_labels r) = length (d_labels (s_db s)) ->
  insert_row pol al ap (s, ev) r = Ok (s', ev') -> store_wf s' /\ same_rest s s'.
Proof.
  intros W Hl H. unfold insert_row in H.
  destruct (match qr_domain r with Some d => _ | None => false end); [discriminate|].
  destruct (nil_b (attr_dict _ _)) eqn:En; [inversion H; subst; auto using same_rest_refl|].
  apply nil_b_false in En. destruct (negb _ && negb ap); [discriminate|]. destruct (negb _ && negb al); [discriminate|].
  apply bind_ok in H. destruct H as ([s1 i] & E1 & H). cbn [fst snd] in H.
  apply bind_ok in H. destruct H as ([s2 j] & E2 & H). cbn [fst snd] in H.
  apply bind_ok in H. destruct H as ([s3 e] & E3 & H). cbn [fst snd] in H. inversion H; subst; clear H.
  eapply wf_put_only; eauto using attr_dict_dict.
Qed.
Lemma insert2_wf pol al ap rows : forall s ev s' ev', store_wf s -> fits s rows ->
  fold_res (insert_row pol al ap) rows (s, ev) = Ok (s', ev') -> store_wf s' /\ same_rest s s'.
Proof.
  induction rows as [|r rows IH]; intros s ev s' ev' W Hf H; cbn [fold_res] in H; [inversion H; subst; auto using same_rest_refl|].
  apply bind_ok in H. destruct H as ([s1 ev1] & E1 & H).
  destruct (insert_row_wf _ _ _ _ _ _ _ _ W (Hf r (or_introl eq_refl)) E1) as [W1 Hr].
  destruct (IH s1 ev1 s' ev' W1) as [W' Hr']; auto.
  - intros x Hx. rewrite (proj1 Hr). apply Hf. now right.
  - split; auto. eapply same_rest_trans; eauto.
Qed.
Lemma insert1_wf names rows : forall s s', store_wf s -> fits s rows ->
  fold_res (insert_row1 names) rows s = Ok s' -> store_wf s' /\ same_rest s s'.
Proof.
  induction rows as [|r rows IH]; intros s s' W Hf H; cbn [fold_res] in H; [inversion H; subst; auto using same_rest_refl|].
  apply bind_ok in H. destruct H as (s1 & E1 & H).
  assert (K : store_wf s1 /\ same_rest s s1).
  { unfold insert_row1 in E1. destruct (_ && _); [inversion E1; subst; auto using same_rest_refl|].
    destruct (nil_b (attr_dict _ _)) eqn:En; [inversion E1; subst; auto using same_rest_refl|]. apply nil_b_false in En.
    apply bind_ok in E1. destruct E1 as ([t1 i] & G1 & E1). cbn [fst snd] in E1.
    apply bind_ok in E1. destruct E1 as ([t2 j] & G2 & E1). cbn [fst snd] in E1.
    assert (Ep : put PAbort i j (qr_value r) t2 = Ok (s1, Inserted)) by (unfold put; now rewrite E1).
    exact (wf_put_only PAbort _ _ _ _ _ _ _ _ _ _ W (Hf r (or_introl eq_refl)) (attr_dict_dict _ _) En G1 G2 Ep). }
  destruct K as [W1 Hr]. destruct (IH s1 s' W1) as [W' Hr']; auto.
  - intros x Hx. rewrite (proj1 Hr). apply Hf. now right.
  - split; auto. eapply same_rest_trans; eauto.
Qed.

Lemma wf_other s s' : s_locs s' = s_locs s -> s_attrs s' = s_attrs s -> s_quants s' = s_quants s -> s_db s' = s_db s ->
  store_wf s -> store_wf s'.
Proof. intros E1 E2 E3 E4 [W1 W2 W3 W4 W5 W6 W7 W8 W9]. constructor; rewrite ?E1, ?E2, ?E3, ?E4; auto. Qed.
Lemma ref_other s s' : s_locs s' = s_locs s -> s_attrs s' = s_attrs s -> s_quants s' = s_quants s ->
  store_ref s -> store_ref s'.
Proof. intros E1 E2 E3 [R1 R2]. constructor; rewrite ?E1, ?E2, ?E3; auto. Qed.

Lemma qstep_wf o s : store_wf s -> store_wf (fst (qstep o s)).
Proof.
  intros W. destruct o; cbn [qstep]; try (cbn [fst]; eapply wf_other; [..|exact W]; reflexivity).
  - now apply index_step_wf.
  - destruct (forallb _ rows) eqn:Ef; [|exact W]. apply fits_b in Ef. unfold transact_q.
    destruct (insert_quantities2 pol any_label any_partition rows s) as [[s' ev]|e] eqn:E; cbn [bind fst]; [|exact W].
    unfold insert_quantities2 in E. destruct (nil_b _); [discriminate|]. eapply insert2_wf; eauto.
  - destruct (forallb _ rows) eqn:Ef; [|exact W]. apply fits_b in Ef. unfold transact_q.
    destruct (insert_quantities names rows s) as [s'|e] eqn:E; cbn [bind fst]; [|exact W].
    unfold insert_quantities in E. eapply insert1_wf; eauto.
  - now apply delete_without_index_wf.
  - now apply delete_unmatched_wf.
Qed.

Lemma qstep_ref o s : store_wf s -> store_ref s -> d_fk (s_db s) = true \/ o <> QDeleteUnmatched -> store_ref (fst (qstep o s)).
Proof.
  intros W R F. destruct o; cbn [qstep]; try (cbn [fst]; eapply ref_other; [..|exact R]; reflexivity).
  - now apply index_step_ref.
  - destruct (forallb _ rows) eqn:Ef; [|exact R]. apply fits_b in Ef. unfold transact_q.
    destruct (insert_quantities2 pol any_label any_partition rows s) as [[s' ev]|e] eqn:E; cbn [bind fst]; [|exact R].
    eapply insert2_effect; eauto.
  - destruct (forallb _ rows) eqn:Ef; [|exact R]. apply fits_b in Ef. unfold transact_q.
    destruct (insert_quantities names rows s) as [s'|e] eqn:E; cbn [bind fst]; [|exact R].
    eapply insert1_effect; eauto.
  - now apply delete_without_index_ref.
  - destruct F as [F|F]; [|easy]. now apply delete_unmatched_ref.
Qed.

Lemma index_step_db o s : exists o', s_db (fst (index_step o s)) = fst (step o' (s_db s)) /\ (is_reopen o' -> o = OReopen).
Proof.
  unfold index_step. destruct o;
    try (solve [match goal with |- context [step ?o (s_db s)] => exists o; split; [destruct (step o (s_db s)); reflexivity|cbn; tauto] end]).
  - exists (OAddColumns cols). cbn [step]. unfold transact. destruct (add_columns cols (s_db s)) as [d|e]; [destruct (d_fk d && negb (fk_ok d))|]; (split; [reflexivity|cbn; tauto]).
  - match goal with |- context [step (ODropColumns cols ?c) (s_db s)] => exists (ODropColumns cols c); set (c0 := c) end.
    cbn [step]. unfold transact. destruct (drop_columns cols c0 (s_db s)) as [d|e]; [destruct (d_fk d && negb (fk_ok d))|]; (split; [reflexivity|cbn; tauto]).
Qed.

Lemma qstep_db o s : s_db (fst (qstep o s)) = s_db s \/
  exists o', s_db (fst (qstep o s)) = fst (step o' (s_db s)) /\ (is_reopen o' -> o = QIndex OReopen).
Proof.
  destruct o; cbn [qstep]; auto.
  - right. destruct (index_step_db o s) as (o' & E & H). exists o'. split; auto. intros Hr. now rewrite (H Hr).
  - left. destruct (forallb _ rows) eqn:Ef; [|auto]. unfold transact_q.
    destruct (insert_quantities2 pol any_label any_partition rows s) as [[s' ev]|e] eqn:E; cbn [bind fst]; auto.
    unfold insert_quantities2 in E. destruct (nil_b _); [discriminate|]. clear -E Ef. revert E. generalize (@nil event) as ev0. intros ev0 E.
    revert s ev0 E Ef. induction rows as [|r rows IH]; intros s ev0 E Ef; cbn [fold_res] in E; [now inversion E|].
    apply bind_ok in E. destruct E as ([s1 ev1] & E1 & E).
    assert (Hr : s_db s1 = s_db s).
    { clear -E1. unfold insert_row in E1. destruct (match qr_domain r with Some d => _ | None => false end); [discriminate|].
      destruct (nil_b (attr_dict _ _)); [now inversion E1|]. destruct (_ && _); [discriminate|]. destruct (_ && _); [discriminate|].
      apply bind_ok in E1. destruct E1 as ([t1 i] & G1 & E1). cbn [fst snd] in E1.
      apply bind_ok in E1. destruct E1 as ([t2 j] & G2 & E1). cbn [fst snd] in E1.
      apply bind_ok in E1. destruct E1 as ([t3 e] & G3 & E1). inversion E1; subst. cbn [fst].
      unfold get_location in G1. destruct (nil_b (qr_labels r)); [discriminate|].
      assert (s_db t1 = s_db s) as <- by (destruct (find _ (s_locs s)); inversion G1; reflexivity).
      assert (s_db t2 = s_db t1) as <-.
      { unfold get_group in G2. destruct (find _ (s_attrs t1)); [inversion G2; reflexivity|]. match type of G2 with (if ?b then _ else _) = _ => destruct b end; [discriminate|inversion G2; reflexivity]. }
      unfold put, quantity_add, quantity_update in G3. destruct (qr_value r); [destruct (existsb _ _)|]; try (destruct (quantity_find _ _ _)); try destruct pol; cbn in G3; try discriminate; inversion G3; reflexivity. }
    rewrite <- Hr. eapply IH; eauto. cbn [forallb] in Ef. apply andb_true_iff in Ef. rewrite Hr. apply Ef.
  - left. destruct (forallb _ rows) eqn:Ef; [|auto]. unfold transact_q.
    destruct (insert_quantities names rows s) as [s'|e] eqn:E; cbn [bind fst]; auto.
    unfold insert_quantities in E. clear Ef. revert E. generalize (if is_empty (s_domain s) then names else filter (fun k => negb (text_eqb k (txt "domain"))) names) as nm. intros nm E.
    revert s E. induction rows as [|r rows IH]; intros s E; cbn [fold_res] in E; [now inversion E|].
    apply bind_ok in E. destruct E as (s1 & E1 & E).
    assert (Hr : s_db s1 = s_db s).
    { clear -E1. unfold insert_row1 in E1. destruct (_ && _); [now inversion E1|].
      destruct (nil_b (attr_dict _ _)); [now inversion E1|].
      apply bind_ok in E1. destruct E1 as ([t1 i] & G1 & E1). cbn [fst snd] in E1.
      apply bind_ok in E1. destruct E1 as ([t2 j] & G2 & E1). cbn [fst snd] in E1.
      unfold get_location in G1. destruct (nil_b (qr_labels r)); [discriminate|].
      assert (s_db t1 = s_db s) as <- by (destruct (find _ (s_locs s)); inversion G1; reflexivity).
      assert (s_db t2 = s_db t1) as <-.
      { unfold get_group in G2. destruct (find _ (s_attrs t1)); [inversion G2; reflexivity|]. match type of G2 with (if ?b then _ else _) = _ => destruct b end; [discriminate|inversion G2; reflexivity]. }
      unfold quantity_add in E1. destruct (qr_value r); [destruct (existsb _ _)|]; try discriminate; inversion E1; reflexivity. }
    rewrite <- Hr. now apply IH.
  - left. rewrite delete_without_index_eq. reflexivity.
  - left. rewrite delete_unmatched_eq. reflexivity.
Qed.

(** The index side of a history is a history of Db_Model. *)
Lemma qrun_db ops : forall s d0 pre, s_db s = run pre d0 ->
  exists ops', s_db (qrun ops s) = run (pre ++ ops') d0 /\
    (Forall (fun o => ~ reopens o) ops -> Forall (fun o => ~ is_reopen o) ops').
Proof.
  induction ops as [|o ops IH]; intros s d0 pre E; cbn [qrun].
  - exists []. rewrite app_nil_r. split; auto.
  - destruct (qstep_db o s) as [H|(o' & H & Hr)].
    + destruct (IH (fst (qstep o s)) d0 pre) as (ops' & E' & F); [congruence|]. exists ops'. split; auto. intros G. inversion G; auto.
    + assert (E1 : s_db (fst (qstep o s)) = run (pre ++ [o']) d0).
      { rewrite H, E. clear. revert d0. induction pre as [|p pre IH]; intros d0; cbn [run app]; auto. }
      destruct (IH _ _ _ E1) as (ops' & E' & F). exists (o' :: ops'). rewrite <- app_assoc in E'. split; auto.
      intros G. inversion G; subst. constructor; auto. intros Hx. apply Hr in Hx. contradiction.
Qed.
Lemma qrun_run ops : exists ops', s_db (qrun ops fresh_store) = run ops' fresh /\
  (Forall (fun o => ~ reopens o) ops -> Forall (fun o => ~ is_reopen o) ops').
Proof. exact (qrun_db ops fresh_store fresh [] eq_refl). Qed.

Lemma fresh_store_wf : store_wf fresh_store.
Proof. constructor; cbn; try constructor; easy. Qed.
Lemma qrun_wf ops : forall s, store_wf s -> store_wf (qrun ops s).
Proof. induction ops as [|o ops IH]; intros s W; cbn [qrun]; auto. apply IH, qstep_wf, W. Qed.
Lemma qrun_index ops : index_wf (s_db (qrun ops fresh_store)).
Proof. destruct (qrun_run ops) as (ops' & -> & _). apply run_inv. Qed.

Lemma qrun_app a : forall b s, qrun (a ++ b) s = qrun b (qrun a s).
Proof. induction a as [|o a IH]; intros b s; cbn [qrun app]; auto. Qed.
Lemma qrun_ref_kept ops : forall s, store_wf s -> store_ref s -> Forall (fun o => o <> QDeleteUnmatched) ops -> store_ref (qrun ops s).
Proof.
  induction ops as [|o ops IH]; intros s W R H; cbn [qrun]; auto. inversion H; subst. apply IH; auto using qstep_wf, qstep_ref.
Qed.
Lemma qrun_ref ops1 ops2 : Forall (fun o => ~ reopens o) ops1 -> Forall (fun o => o <> QDeleteUnmatched) ops2 ->
  store_ref (qrun (ops1 ++ ops2) fresh_store).
Proof.
  intros H1 H2. rewrite qrun_app. apply qrun_ref_kept; auto; [apply qrun_wf, fresh_store_wf|].
  clear H2. induction ops1 as [|o ops IH] using rev_ind; [constructor; easy|].
  apply Forall_app in H1. destruct H1 as [H1 H2]. rewrite qrun_app. cbn [qrun]. apply qstep_ref; auto; [apply qrun_wf, fresh_store_wf|].
  left. destruct (qrun_run ops) as (ops' & -> & F). apply (run_fk ops' (F H1)).
Qed.
