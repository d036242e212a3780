(** Proofs about the whole upgrade. *)
From Verif Require Import Prelude QLemmas BitFlags_Model BitFlags_Spec BitFlags_Proofs Selectors_Model Selectors_Proofs
  SelectorParse_Model LinkRef_Model Db_Model Db_Proofs Db_ProofsLocal Reader_Model Reader_Proofs
  Migrations_Model Migrations_Spec Migrations_Proofs.
From Coq Require Import Permutation Sorted Lqa.
Local Open Scope nat_scope.

Definition level_of (f : file) : list N := bf_to_bytes (of_bits (map (fun _ => true) (f_columns f))).
Lemma level_all f : all_columns f (level_of f).
Proof.
  intros i. unfold level_of. transitivity (bit_at (bf_iter (of_bits (map (fun _ => true) (f_columns f)))) i).
  - unfold bit_at, bf_iter. symmetry. apply nth_flat_map_byte.
  - pose proof (of_bits_iter (map (fun _ => true) (f_columns f)) i) as Q. rewrite Q. unfold bit_at. clear.
    revert i. induction (f_columns f) as [|c l IH]; intros [|i]; cbn [map nth length]; auto.
    rewrite IH. symmetry. apply (eq_true_iff_eq). rewrite !Nat.ltb_lt. lia.
Qed.

(** The result of a successful upgrade. *)
Lemma migrate_020 now f f' : migrate (PStr (txt "0.2.0")) now f = Ok f' ->
  exists rs qs p5 ps, step01 f = Ok f /\ step02 (level_of f) f = Ok (with_rels rs f) /\
    step03 (with_rels rs f) = Ok (with_qtys qs (with_rels rs f)) /\
    step05 (with_names false (with_qtys qs (with_rels rs f))) = Ok (with_props p5 (with_names false (with_qtys qs (with_rels rs f)))) /\
    step06 now (with_props p5 (with_names false (with_qtys qs (with_rels rs f)))) = Ok f' /\
    f' = with_props ps (with_names false (with_qtys qs (with_rels rs f))) /\
    references f'.
Proof.
  unfold migrate. cbv zeta. rewrite text_eqb_refl. intros H. apply bind_ok in H. destruct H as (f6 & H & C).
  apply bind_ok in H. destruct H as (f1 & S1 & H). apply bind_ok in H. destruct H as (f2 & S2 & H).
  apply bind_ok in H. destruct H as (f3 & S3 & H). apply bind_ok in H. destruct H as (f4 & S4 & H).
  apply bind_ok in H. destruct H as (f5 & S5 & S6).
  assert (f1 = f).
  { unfold step01 in S1. destruct (negb (f_old_names f)); [discriminate|]. destruct (_ && _) in S1; [|discriminate]. now apply Ok_inj in S1. }
  subst f1. destruct (step02_spec _ _ _ S2) as (E2 & _). destruct (step03_spec _ _ S3) as (E3 & _).
  unfold step04 in S4. apply Ok_inj in S4. subst f4.
  assert (E5 : f5 = with_props (f_props f5) (with_names false f3)).
  { unfold step05 in S5. apply bind_ok in S5. destruct S5 as (d & _ & S5). cbv zeta in S5. apply bind_ok in S5. destruct S5 as (p1 & _ & S5).
    apply bind_ok in S5. destruct S5 as (p2 & _ & S5). apply Ok_inj in S5. subst f5. reflexivity. }
  assert (E6 : f6 = with_props (f_props f6) f5).
  { unfold step06 in S6. apply bind_ok in S6. destruct S6 as (p1 & _ & S6). apply bind_ok in S6. destruct S6 as (p2 & _ & S6).
    apply Ok_inj in S6. subst f6. reflexivity. }
  destruct (foreign_key_check f6) eqn:K; [|discriminate]. apply foreign_key_iff in K.
  assert (f' = f6).
  { unfold create_schema_constraints in C. destruct (f_old_names f6); [discriminate|]. destruct (nil_b (f_columns f6)); [now apply Ok_inj in C|].
    destruct (_ && _) in C; [|discriminate]. now apply Ok_inj in C. }
  subst f'. exists (f_rels f2), (f_qtys f3), (f_props f5), (f_props f6).
  rewrite <- E2. rewrite E2 in E3 at 1. rewrite <- E2 in E3. split; [exact S1|]. split; [exact S2|].
  rewrite <- E3. split; [exact S3|]. rewrite <- E5. split; [exact S5|]. split; [exact S6|]. split; [|exact K].
  rewrite E6 at 1. rewrite E5 at 1. reflexivity.
Qed.
Lemma migrate_030 now f f' : migrate (PStr (txt "0.3.0")) now f = Ok f' ->
  exists ps, step06 now f = Ok f' /\ f' = with_props ps f /\ references f'.
Proof.
  unfold migrate. cbv zeta. change (text_eqb (txt "0.3.0") (txt "0.2.0")) with false. cbv iota. rewrite text_eqb_refl.
  intros H. apply bind_ok in H. destruct H as (f6 & S6 & C).
  assert (E6 : f6 = with_props (f_props f6) f).
  { unfold step06 in S6. apply bind_ok in S6. destruct S6 as (p1 & _ & S6). apply bind_ok in S6. destruct S6 as (p2 & _ & S6).
    apply Ok_inj in S6. subst f6. reflexivity. }
  destruct (foreign_key_check f6) eqn:K; [|discriminate]. apply foreign_key_iff in K.
  assert (f' = f6).
  { unfold create_schema_constraints in C. destruct (f_old_names f6); [discriminate|]. destruct (nil_b (f_columns f6)); [now apply Ok_inj in C|].
    destruct (_ && _) in C; [|discriminate]. now apply Ok_inj in C. }
  subst f'. exists (f_props f6). auto.
Qed.

(** The call. *)
Lemma apply_ok ro tx now c c' v : version_of (c_file c) v -> text_eqb (txt v) (txt "0.3.1") = false ->
  apply_migrations ro tx now c = (c', None) ->
  ro = false /\ tx = false /\ c_fk c' = true /\ migrate (PStr (txt v)) now (c_file c) = Ok (c_file c').
Proof.
  intros V N. unfold apply_migrations. rewrite V, N. destruct ro; [discriminate|]. destruct tx; [discriminate|].
  destruct (migrate (PStr (txt v)) now (c_file c)); [|discriminate]. intros [= <-]. auto.
Qed.

(** *** C42 *)
Lemma sum_step_num a v b : sum_step a v = Ok b -> (forall q, a <> VText q) -> forall q, b <> VText q.
Proof.
  destruct a, v; cbn [sum_step]; try (intros H; apply Ok_inj in H; subst b; discriminate).
  destruct (in_i64 (z + z0)); [|discriminate]. intros H. apply Ok_inj in H. subst b. discriminate.
Qed.
Lemma sum_values_num vs : forall a b, fold_res sum_step vs a = Ok b -> (forall q, a <> VText q) -> forall q, b <> VText q.
Proof.
  induction vs as [|v vs IH]; intros a b H Ha; cbn [fold_res] in H.
  - apply Ok_inj in H. now subst.
  - apply bind_ok in H. destruct H as (c & H1 & H). apply (IH _ _ H). exact (sum_step_num _ _ _ H1 Ha).
Qed.
Lemma step03_num f f' : step03 f = Ok f' -> forall r q, In r (f_qtys f') -> q_val r <> VText q.
Proof.
  unfold step03. intros H. apply bind_ok in H. destruct H as (rows & T & H). destruct (_ && _) in H; [|discriminate].
  apply Ok_inj in H. subst f'. cbn [with_qtys f_qtys]. apply traverse_ok in T.
  induction T as [|k r ks rs G T IH]; intros x q Hx; [destruct Hx|]. destruct Hx as [<-|Hx]; [|now apply IH].
  unfold group_row in G. destruct (filter _ _) as [|y rest] in G; [discriminate|]. apply bind_ok in G. destruct G as (v & S & G).
  destruct k as [[l|] [g|]]; try discriminate. apply Ok_inj in G. subst r. cbn [q_val].
  exact (sum_values_num _ _ _ S ltac:(discriminate) q).
Qed.

Lemma only_filter {A} (P : A -> Prop) (p : A -> bool) l : (forall x, p x = true <-> P x) -> only P l (filter p l).
Proof.
  intros H. induction l as [|x l IH]; cbn [filter]; [constructor|]. destruct (p x) eqn:E.
  - apply only_keep; auto. now apply H.
  - apply only_drop; auto. intros Q. apply H in Q. congruence.
Qed.

Lemma c42_quantities now f f' : migrate (PStr (txt "0.2.0")) now f = Ok f' ->
  (forall l g, total f' l g == total f l g)%Q /\ one_row_each f' /\
  (forall l g i, has_qty f' l g i <-> has_qty f l g i /\ forall j, has_qty f l g j -> (i <= j)%Z) /\
  (forall q x, In q (f_qtys f') -> q_val q <> VText x).
Proof.
  intros H. destruct (migrate_020 _ _ _ H) as (rs & qs & p5 & ps & _ & _ & S3 & _ & _ & -> & _).
  assert (T := fun l g => step03_total _ _ l g S3). assert (X := step03_num _ _ S3). apply step03_spec in S3.
  cbn [with_qtys with_rels f_qtys] in *. destruct S3 as (_ & _ & N & G & C).
  split; [exact T|]. split; [|split; [|exact X]].
  - split; [exact N|]. intros q Hq. destruct (G q Hq) as (_ & L & Gr & _). destruct (q_loc q), (q_grp q); try congruence. eauto.
  - intros l g i. unfold has_qty. cbn [f_qtys with_props with_names with_qtys with_rels]. split.
    + intros (r & Hr & L & Gr & <-). destruct (G r Hr) as (_ & _ & _ & _ & (q & Hq & K & E) & M).
      assert (Kr : qty_key r = (Some l, Some g)) by (unfold qty_key; congruence). split.
      * exists q. unfold qty_key in K. injection K as K1 K2. repeat split; auto; congruence.
      * intros j (q' & Hq' & L' & G' & <-). apply M; auto. unfold qty_key in *. congruence.
    + intros ((q & Hq & L & Gr & <-) & M). destruct (C q Hq) as (r & Hr & Kr).
      destruct (G r Hr) as (_ & _ & _ & _ & (q2 & Hq2 & K2 & E2) & M2).
      exists r. split; auto. unfold qty_key in *. rewrite Kr in K2. injection K2 as K3 K4. injection Kr as K5 K6.
      split; [congruence|]. split; [congruence|]. 
      assert (A : (q_id r <= q_id q)%Z) by (apply M2; auto; congruence).
      assert (B : (q_id q <= q_id q2)%Z) by (apply M; exists q2; repeat split; auto; congruence). lia.
Qed.

Lemma c42_mappings now f f' : migrate (PStr (txt "0.2.0")) now f = Ok f' ->
  exists level kept, all_columns f level /\ only (fun r => ~ both_undefined r) (f_rels f) kept /\
    Forall2 (same_mapping level) kept (f_rels f').
Proof.
  intros H. destruct (migrate_020 _ _ _ H) as (rs & qs & p5 & ps & _ & S2 & _ & _ & _ & -> & _).
  apply step02_spec in S2. destruct S2 as (_ & _ & _ & F & _).
  exists (level_of f), (filter keeps (f_rels f)). split; [apply level_all|]. split; [|exact F].
  apply only_filter, keeps_iff.
Qed.
Lemma c42_new_mappings now f f' : migrate (PStr (txt "0.2.0")) now f = Ok f' ->
  NoDup (map r_id (f_rels f')) /\ NoDup (map rel_key (f_rels f')) /\
  forall r, In r (f_rels f') -> (exists l i lv, r_link r = Some l /\ r_index r = Some i /\ r_level r = Some lv) /\
    ~ both_undefined r /\ (0 <= r_val r)%Q /\ forall p, r_prop r = Some p -> (0 <= p <= 1)%Q.
Proof.
  intros H. destruct (migrate_020 _ _ _ H) as (rs & qs & p5 & ps & _ & S2 & _ & _ & _ & -> & _).
  apply step02_spec in S2. destruct S2 as (_ & N1 & N2 & _ & O). cbn [with_rels f_rels] in *.
  split; [exact N1|]. split; [exact N2|]. intros r Hr. specialize (O r Hr). unfold rel_ok in O.
  destruct (r_link r) as [l|] eqn:El; [|discriminate]. destruct (r_index r) as [i|] eqn:Ei; [|discriminate].
  destruct (r_level r) as [lv|] eqn:Ev; [|discriminate]. rewrite !andb_true_iff in O. destruct O as [[O1 O2] O3].
  apply Qle_bool_iff in O1. split; [eauto 8|]. split; [|split; [exact O1|]].
  - intros (A & [B|B]); [|congruence]. rewrite A in O3. assert (i = 0%Z) by congruence. subst i. discriminate.
  - intros p Ep. rewrite Ep in O2. rewrite andb_true_iff, !Qle_bool_iff in O2. exact O2.
Qed.

(** *** Properties *)
Lemma step05_props f f' j : step05 f = Ok f' ->
  exists dom keys,
    match prop_get (txt "domain") (f_props f) with
    | Some v => exists d, v = PObj d /\ dom = domain_text d
    | None => True end /\
    keys = sorted_set (flat_map (fun g => map fst (snd g)) (f_agroups f)) /\
    prop_get (txt "registered_attributes") (f_props f) = None /\
    prop_get j (f_props f') =
      if text_eqb (txt "toron_schema_version") j then match prop_get j (f_props f) with Some _ => Some (PStr (txt "0.3.0")) | None => None end
      else if text_eqb (txt "domain") j then match prop_get j (f_props f) with Some _ => Some (PStr dom) | None => None end
      else if text_eqb (txt "registered_attributes") j then Some (PTexts keys)
      else if text_eqb (txt "discrete_categories") j then None
      else if text_eqb (txt "partition_definitions") j then
        match prop_get (txt "discrete_categories") (f_props f) with Some v => Some v | None => prop_get j (f_props f) end
      else prop_get j (f_props f).
Proof.
  unfold step05. intros H. apply bind_ok in H. destruct H as (dom & D & H). cbv zeta in H.
  apply bind_ok in H. destruct H as (p1 & I & H). apply bind_ok in H. destruct H as (p2 & R & H). apply Ok_inj in H. subst f'.
  cbn [with_props f_props]. exists dom. eexists. split; [|split; [reflexivity|]].
  { destruct (prop_get (txt "domain") (f_props f)) as [[t|d|l|t]|]; auto; try discriminate. exists d. apply Ok_inj in D. auto. }
  assert (Hn : txt "discrete_categories" <> txt "partition_definitions") by discriminate.
  assert (IG := fun j => prop_get_insert _ _ _ _ j I). assert (RG := fun j => prop_get_rename _ _ _ _ j Hn R).
  split.
  { destruct (IG j) as [Q _]. rewrite prop_get_set in Q. exact Q. }
  rewrite prop_get_set, RG.
  destruct (text_eqb (txt "toron_schema_version") j) eqn:E1.
  { apply text_eqb_iff in E1. subst j.
    rewrite (proj2 (IG (txt "toron_schema_version"))), prop_get_set. reflexivity. }
  destruct (text_eqb (txt "domain") j) eqn:E2.
  { apply text_eqb_iff in E2. subst j.
    rewrite (proj2 (IG (txt "domain"))), prop_get_set. reflexivity. }
  destruct (text_eqb (txt "registered_attributes") j) eqn:E3.
  { apply text_eqb_iff in E3. subst j.
    rewrite (proj2 (IG (txt "registered_attributes"))). reflexivity. }
  destruct (text_eqb (txt "discrete_categories") j) eqn:E4; [reflexivity|].
  destruct (text_eqb (txt "partition_definitions") j) eqn:E5.
  { apply text_eqb_iff in E5. subst j.
    rewrite (proj2 (IG (txt "discrete_categories"))), (proj2 (IG (txt "partition_definitions"))), !prop_get_set. reflexivity. }
  rewrite (proj2 (IG j)), E3, prop_get_set, E2. reflexivity.
Qed.
Lemma step06_props now f f' j : step06 now f = Ok f' ->
  prop_get (txt "user_properties") (f_props f) = None /\ prop_get (txt "created_date") (f_props f) = None /\
  prop_get j (f_props f') =
    if text_eqb (txt "toron_schema_version") j then match prop_get j (f_props f) with Some _ => Some (PStr (txt "0.3.1")) | None => None end
    else if text_eqb (txt "user_properties") j then Some (PObj [])
    else if text_eqb (txt "created_date") j then Some (PStr now)
    else prop_get j (f_props f).
Proof.
  unfold step06. intros H. apply bind_ok in H. destruct H as (p1 & I & H). apply bind_ok in H. destruct H as (p2 & J & H).
  apply Ok_inj in H. subst f'. cbn [with_props f_props].
  assert (IG := fun j => prop_get_insert _ _ _ _ j I). assert (JG := fun j => prop_get_insert _ _ _ _ j J).
  split; [apply (IG j)|]. split; [destruct (JG j) as [Q _]; rewrite (proj2 (IG (txt "created_date"))) in Q; exact Q|].
  rewrite prop_get_set.
  destruct (text_eqb (txt "toron_schema_version") j) eqn:E1.
  { apply text_eqb_iff in E1. subst j.
    rewrite (proj2 (JG _)), (proj2 (IG _)). reflexivity. }
  destruct (text_eqb (txt "user_properties") j) eqn:E2.
  { apply text_eqb_iff in E2. subst j. rewrite (proj2 (JG _)), (proj2 (IG _)). reflexivity. }
  rewrite (proj2 (JG j)), (proj2 (IG j)), E2. reflexivity.
Qed.
