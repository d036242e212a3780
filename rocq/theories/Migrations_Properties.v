(** C42, C54: upgrading old files. *)
From Verif Require Import Prelude QLemmas BitFlags_Model BitFlags_Spec Selectors_Model Selectors_Proofs SelectorParse_Model
  Db_Model Reader_Model Migrations_Model Migrations_Spec Migrations_Proofs Migrations_Proofs2 Migrations_Proofs3.
From Coq Require Import Permutation Sorted Ascii String List.
Local Open Scope list_scope.
Local Open Scope nat_scope.

(** In all theorems the file has any contents; [c] and [c'] are the connection before and after the call, and
    None is the outcome without an exception. *)

(** *** C42 *)

(** Totals are kept; there is one row for each location and attribute group that had one, with the
    smallest id; and the values are numbers. *)
Theorem C42_quantities ro tx now c c' : version_of (c_file c) "0.2.0" -> apply_migrations ro tx now c = (c', None) ->
  let f := c_file c in let f' := c_file c' in
  (forall l g, total f' l g == total f l g)%Q /\ one_row_each f' /\
  (forall l g i, has_qty f' l g i <-> has_qty f l g i /\ forall j, has_qty f l g j -> (i <= j)%Z) /\
  (forall q x, In q (f_qtys f') -> q_val q <> VText x).
Proof. intros V H. apply (apply_ok _ _ _ _ _ _ V eq_refl) in H. exact (c42_quantities now _ _ (proj2 (proj2 (proj2 H)))). Qed.
Print Assumptions C42_quantities.

(** Exactly the mappings between undefined records are dropped; the others keep everything, except that a
    missing level is replaced by that of all columns. *)
Theorem C42_mappings ro tx now c c' : version_of (c_file c) "0.2.0" -> apply_migrations ro tx now c = (c', None) ->
  exists level kept, all_columns (c_file c) level /\ only (fun r => ~ both_undefined r) (f_rels (c_file c)) kept /\
    Forall2 (same_mapping level) kept (f_rels (c_file c')).
Proof. intros V H. apply (apply_ok _ _ _ _ _ _ V eq_refl) in H. exact (c42_mappings now _ _ (proj2 (proj2 (proj2 H)))). Qed.
Print Assumptions C42_mappings.
(** The new table satisfies its constraints. *)
Theorem C42_new_mappings ro tx now c c' : version_of (c_file c) "0.2.0" -> apply_migrations ro tx now c = (c', None) ->
  NoDup (map r_id (f_rels (c_file c'))) /\
  NoDup (map (fun r => (r_link r, r_other r, r_index r, r_level r)) (f_rels (c_file c'))) /\
  forall r, In r (f_rels (c_file c')) ->
    (exists l i lv, r_link r = Some l /\ r_index r = Some i /\ r_level r = Some lv) /\
    ~ both_undefined r /\ (0 <= r_val r)%Q /\ forall p, r_prop r = Some p -> (0 <= p <= 1)%Q.
Proof. intros V H. apply (apply_ok _ _ _ _ _ _ V eq_refl) in H. exact (c42_new_mappings now _ _ (proj2 (proj2 (proj2 H)))). Qed.
Print Assumptions C42_new_mappings.

(** Files that satisfy the constraints of version 0.2.0 and what the new tables demand in addition are upgraded. *)
Theorem C42_succeeds now c : version_of (c_file c) "0.2.0" -> old_tables (c_file c) -> upgradable (c_file c) ->
  exists c', apply_migrations false false now c = (c', None).
Proof.
  intros V O U. destruct (migrate_020_ok now _ O U) as (f' & E). unfold apply_migrations. rewrite V.
  change (text_eqb (txt "0.2.0") (txt "0.3.1")) with false. cbv iota. rewrite E. eauto.
Qed.
Print Assumptions C42_succeeds.

(** The file of the project's own test. *)
Definition old_props : list (text * pval) :=
  [(txt "toron_schema_version", PStr (txt "0.2.0")); (txt "toron_app_version", PStr (txt "0.1.0"));
   (txt "unique_id", PStr (txt "1111")); (txt "discrete_categories", POther (txt "[[b, c, a]]"));
   (txt "domain", PObj [(txt "foo", txt "bar"); (txt "baz", txt "qux")])].
Definition row3 (i : Z) (a b c : string) : Z * list text := (i, [txt a; txt b; txt c]).
Definition quant (i l g z : Z) : qty := {| q_id := i; q_loc := Some l; q_grp := Some g; q_val := VInt z |}.
Definition relat (i o t : Z) (lv : option (list N)) (v : Z) : rel :=
  {| r_id := i; r_link := Some 1%Z; r_other := o; r_index := Some t; r_level := lv; r_val := inject_Z v; r_prop := Some 1%Q |}.
Definition old_file : file :=
  {| f_old_names := true; f_columns := [txt "label_a"; txt "label_b"; txt "label_c"];
     f_index := [row3 0 "-" "-" "-"; row3 1 "1A" "1B" "1C"; row3 2 "2A" "2B" "2C"; row3 3 "3A" "3B" "3C"];
     f_locs := [row3 1 "1A" "1B" "1C"; row3 2 "2A" "2B" "2C"; row3 3 "3A" "3B" "3C"];
     f_structs := [(1%Z, [false; false; false]); (2%Z, [true; true; true])];
     f_wgroups := [1%Z]; f_weights := [(1, Some 1, Some 1, 10%Q); (2, Some 1, Some 2, 20%Q); (3, Some 1, Some 3, 15%Q)]%Z;
     f_agroups := [(1%Z, [(txt "category", txt "one")]); (2%Z, [(txt "category", txt "two")])];
     f_qtys := [quant 1 1 1 15; quant 2 2 1 10; quant 3 3 2 20; quant 4 2 1 35; quant 5 1 2 10];
     f_links := [{| x_id := 1; x_other := txt "2222"; x_hint := Some (txt "node2.toron"); x_name := txt "weight"; x_descr := None;
                    x_selectors := None; x_default := true; x_user := None; x_hash := Some (txt "b78d"); x_complete := true |}];
     f_rels := [relat 1 0 0 None 0; relat 2 1 1 (Some [224%N]) 10; relat 3 2 1 None 70; relat 4 3 2 None 20;
                relat 5 4 2 (Some [192%N]) 60; relat 6 5 3 (Some [192%N]) 30; relat 7 6 3 (Some [128%N]) 50];
     f_props := old_props |}.
Definition old_conn (f : file) : conn := {| c_file := f; c_fk := false |}.

Example C42_case :
  version_of old_file "0.2.0" /\ old_tables old_file /\ upgradable old_file /\
  let out := apply_migrations false false (txt "now") (old_conn old_file) in
  snd out = None /\
  map (fun q => (q_id q, q_loc q, q_grp q, q_val q)) (f_qtys (c_file (fst out))) =
    [(1, Some 1, Some 1, VInt 15); (2, Some 2, Some 1, VInt 45); (3, Some 3, Some 2, VInt 20); (5, Some 1, Some 2, VInt 10)]%Z /\
  map (fun r => (r_id r, r_other r, r_index r, r_level r)) (f_rels (c_file (fst out))) =
    [(2%Z, 1%Z, Some 1%Z, Some [224%N]); (3%Z, 2%Z, Some 1%Z, Some [224%N]); (4%Z, 3%Z, Some 2%Z, Some [224%N]);
     (5%Z, 4%Z, Some 2%Z, Some [192%N]); (6%Z, 5%Z, Some 3%Z, Some [192%N]); (7%Z, 6%Z, Some 3%Z, Some [128%N])] /\
  f_props (c_file (fst out)) =
    [(txt "toron_schema_version", PStr (txt "0.3.1")); (txt "toron_app_version", PStr (txt "0.1.0"));
     (txt "unique_id", PStr (txt "1111")); (txt "partition_definitions", POther (txt "[[b, c, a]]"));
     (txt "domain", PStr (txt "baz_qux_foo_bar")); (txt "registered_attributes", PTexts [txt "category"]);
     (txt "user_properties", PObj []); (txt "created_date", PStr (txt "now"))].
Proof.
  split; [reflexivity|]. split; [|split; [|vm_compute; repeat split; reflexivity]].
  - assert (ND : forall A (dec : forall x y : A, {x = y} + {x <> y}) l, unique dec l = true -> NoDup l) by (intros A dec l; apply unique_iff).
    split.
    + reflexivity.
    + apply (ND _ Z.eq_dec). reflexivity.
    + apply (ND _ (pair_dec text_dec text_dec)). reflexivity.
    + apply (ND _ text_dec). reflexivity.
    + apply (ND _ Z.eq_dec). reflexivity.
    + intros a b l i Ha Hb _ _ E1 E2 E3. cbn [old_file f_rels In] in Ha, Hb.
      repeat (destruct Ha as [<-|Ha]; [repeat (destruct Hb as [<-|Hb]; [first [reflexivity | discriminate E1 | discriminate E2 | discriminate E3 | (cbn in *; congruence)]|]); destruct Hb|]).
      destruct Ha.
    + intros r Hr. cbn [old_file f_rels In] in Hr. repeat (destruct Hr as [<-|Hr]; [discriminate|]). destruct Hr.
    + intros r p Hr. cbn [old_file f_rels In] in Hr. repeat (destruct Hr as [<-|Hr]; [intros [= <-]; split; discriminate|]). destruct Hr.
    + apply (ND _ Z.eq_dec). reflexivity.
    + apply (ND _ (list_eq_dec text_dec)). reflexivity.
    + apply (ND _ (list_eq_dec text_dec)). reflexivity.
    + apply (ND _ (list_eq_dec bool_dec)). reflexivity.
  - split.
    + intros r Hr. cbn [old_file f_rels In] in Hr. repeat (destruct Hr as [<-|Hr]; [split; discriminate|]). destruct Hr.
    + intros q Hq. cbn [old_file f_qtys In] in Hq. repeat (destruct Hq as [<-|Hq]; [split; discriminate|]). destruct Hq.
    + apply foreign_key_iff. vm_compute. reflexivity.
    + intros v [= <-]. eauto.
    + intros k Hk. cbn [In] in Hk. repeat (destruct Hk as [<-|Hk]; [reflexivity|]). destruct Hk.
    + vm_compute. reflexivity.
Qed.

(** Findings.  A mapping whose target is missing (NULL) is dropped without notice if its source is the
    undefined record; with any other source the file cannot be upgraded.  A text among the quantities
    is replaced by a number. *)
Theorem C42_null_target_refuted : exists c c' r,
  version_of (c_file c) "0.2.0" /\ apply_migrations false false (txt "now") c = (c', None) /\
  In r (f_rels (c_file c)) /\ ~ (r_other r = 0%Z /\ r_index r = Some 0%Z) /\
  ~ exists r', In r' (f_rels (c_file c')) /\ r_id r' = r_id r.
Proof.
  set (r := {| r_id := 8; r_link := Some 1%Z; r_other := 0; r_index := None; r_level := None; r_val := 5; r_prop := None |}).
  exists (old_conn (with_rels [r] old_file)). eexists. exists r.
  split; [reflexivity|]. split; [vm_compute; reflexivity|]. split; [now left|]. split; [intros [_ Q]; discriminate|].
  intros (r' & [] & _).
Qed.
Print Assumptions C42_null_target_refuted.
Theorem C42_null_blocks_refuted : exists f,
  version_of f "0.2.0" /\ old_tables f /\
  snd (apply_migrations false false (txt "now") (old_conn f)) = Some SqlIntegrityError.
Proof.
  exists (with_rels [{| r_id := 8; r_link := Some 1%Z; r_other := 3; r_index := None; r_level := None; r_val := 5; r_prop := None |}] old_file).
  split; [reflexivity|]. split; [|vm_compute; reflexivity].
  destruct C42_case as (_ & O & _). destruct O. split; auto; cbn [with_rels f_rels].
  - repeat constructor. intros [].
  - intros a b l i [<-|[]] [<-|[]] _ _ _ _ _. reflexivity.
  - intros r [<-|[]]. discriminate.
  - intros r p [<-|[]]. discriminate.
Qed.
Print Assumptions C42_null_blocks_refuted.
Theorem C42_text_quantity_refuted : exists c c' q q',
  version_of (c_file c) "0.2.0" /\ old_tables (c_file c) /\ upgradable (c_file c) /\
  apply_migrations false false (txt "now") c = (c', None) /\
  In q (f_qtys (c_file c)) /\ q_val q = VText 0 /\
  In q' (f_qtys (c_file c')) /\ q_id q' = q_id q /\ q_val q' = VReal 0.
Proof.
  set (q := {| q_id := 1; q_loc := Some 1%Z; q_grp := Some 1%Z; q_val := VText 0 |}).
  exists (old_conn (with_qtys [q] old_file)). do 2 eexists. eexists.
  split; [reflexivity|]. split; [|split].
  - destruct C42_case as (_ & O & _). destruct O. split; auto; cbn [old_conn c_file with_qtys f_qtys map].
  - destruct C42_case as (_ & _ & U & _). destruct U. destruct up_refs. split; auto; cbn [old_conn c_file with_qtys f_qtys map].
    + intros x [<-|[]]. split; discriminate.
    + split; auto. intros x [<-|[]]. split; intros i [= <-]; now left.
  - split; [vm_compute; reflexivity|]. split; [left; reflexivity|]. split; [reflexivity|].
    split; [left; reflexivity|]. split; reflexivity.
Qed.
Print Assumptions C42_text_quantity_refuted.

(** *** C54 *)

(** A call that fails leaves the file as it was. *)
Theorem C54_all_or_nothing ro tx now c c' e : apply_migrations ro tx now c = (c', Some e) -> c_file c' = c_file c.
Proof.
  unfold apply_migrations. destruct (prop_get _ _) as [v|]; [|intros [= <- _]; reflexivity].
  destruct (match v with PStr v => text_eqb v (txt "0.3.1") | _ => false end); [discriminate|].
  destruct ro; [intros [= <- _]; reflexivity|]. destruct tx; [intros [= <- _]; reflexivity|].
  destruct (migrate v now (c_file c)); [discriminate|]. intros [= <- _]. reflexivity.
Qed.
Print Assumptions C54_all_or_nothing.

(** Read-only files and open transactions: an up-to-date file is accepted, an outdated one refused. *)
Theorem C54_refused ro tx now c : ro = true \/ tx = true ->
  fst (apply_migrations ro tx now c) = c /\
  (snd (apply_migrations ro tx now c) = None <-> version_of (c_file c) "0.3.1").
Proof.
  intros R. unfold apply_migrations, version_of. destruct (prop_get _ _) as [v|]; [|split; [auto|split; discriminate]].
  destruct (match v with PStr v => text_eqb v (txt "0.3.1") | _ => false end) eqn:E.
  - split; [reflexivity|]. split; auto. intros _. destruct v; try discriminate. apply text_eqb_iff in E. now subst.
  - assert (N : Some v <> Some (PStr (txt "0.3.1"))).
    { intros [= ->]. rewrite text_eqb_refl in E. discriminate. }
    destruct ro; [split; [reflexivity|split; [discriminate|contradiction]]|].
    destruct tx; [split; [reflexivity|split; [discriminate|contradiction]]|]. destruct R; discriminate.
Qed.
Print Assumptions C54_refused.

(** The upgraded file has the new version, and a second call changes nothing. *)
Theorem C54_once ro tx now c c' v : version_of (c_file c) v -> v = "0.2.0"%string \/ v = "0.3.0"%string ->
  apply_migrations ro tx now c = (c', None) ->
  version_of (c_file c') "0.3.1" /\ references (c_file c') /\ c_fk c' = true /\
  forall ro' tx' now', apply_migrations ro' tx' now' c' = (c', None).
Proof.
  intros V Hv H.
  assert (X : version_of (c_file c') "0.3.1" /\ references (c_file c') /\ c_fk c' = true).
  { destruct Hv as [-> | ->].
    - apply (apply_ok _ _ _ _ _ _ V eq_refl) in H. destruct H as (_ & _ & K & H).
      destruct (migrate_020 _ _ _ H) as (rs & qs & p5 & ps & _ & _ & _ & S5 & S6 & _ & R).
      split; [|auto]. unfold version_of. rewrite (proj2 (proj2 (step06_props _ _ _ (txt "toron_schema_version") S6))).
      destruct (step05_props _ _ (txt "toron_schema_version") S5) as (dom & keys & _ & _ & _ & E).
      rewrite text_eqb_refl in *. cbn [with_props with_names with_qtys with_rels f_props] in *. unfold version_of in V.
      rewrite E, V. reflexivity.
    - apply (apply_ok _ _ _ _ _ _ V eq_refl) in H. destruct H as (_ & _ & K & H).
      destruct (migrate_030 _ _ _ H) as (ps & S6 & _ & R). split; [|auto]. unfold version_of.
      rewrite (proj2 (proj2 (step06_props _ _ _ (txt "toron_schema_version") S6))), text_eqb_refl, V. reflexivity. }
  destruct X as (X1 & X2 & X3). split; [exact X1|]. split; [exact X2|]. split; [exact X3|].
  intros ro' tx' now'. unfold apply_migrations. rewrite X1, text_eqb_refl. reflexivity.
Qed.
Print Assumptions C54_once.

(** Columns, records, locations, structure, weights, attribute groups and links are untouched; from version
    0.3.0 so are quantities and mappings. *)
Theorem C54_rest ro tx now c c' v : version_of (c_file c) v -> v = "0.2.0"%string \/ v = "0.3.0"%string ->
  apply_migrations ro tx now c = (c', None) ->
  same_rest (c_file c') (c_file c) /\
  (v = "0.3.0"%string -> f_qtys (c_file c') = f_qtys (c_file c) /\ f_rels (c_file c') = f_rels (c_file c)).
Proof.
  intros V [-> | ->] H; apply (apply_ok _ _ _ _ _ _ V eq_refl) in H; destruct H as (_ & _ & _ & H).
  - destruct (migrate_020 _ _ _ H) as (rs & qs & p5 & ps & _ & _ & _ & _ & _ & E & _). rewrite E. split; [|discriminate].
    repeat split.
  - destruct (migrate_030 _ _ _ H) as (ps & _ & E & _). rewrite E. split; repeat split.
Qed.
Print Assumptions C54_rest.

(** The properties after upgrading from version 0.2.0. *)
Theorem C54_properties ro tx now c c' : version_of (c_file c) "0.2.0" -> apply_migrations ro tx now c = (c', None) ->
  let old k := prop_get (txt k) (f_props (c_file c)) in let new k := prop_get (txt k) (f_props (c_file c')) in
  (exists keys, new "registered_attributes"%string = Some (PTexts keys) /\ ascending keys /\
     forall k, In k keys <-> exists i d v, In (i, d) (f_agroups (c_file c)) /\ In (k, v) d) /\
  (forall v, old "discrete_categories"%string = Some v -> new "partition_definitions"%string = Some v) /\
  (old "discrete_categories"%string = None -> new "partition_definitions"%string = old "partition_definitions"%string) /\
  new "discrete_categories"%string = None /\
  new "user_properties"%string = Some (PObj []) /\ new "created_date"%string = Some (PStr now) /\
  (forall d, old "domain"%string = Some (PObj d) -> NoDup (map fst d) ->
     exists t, new "domain"%string = Some (PStr t) /\ domain_name d t) /\
  (old "domain"%string = None -> new "domain"%string = None) /\
  (forall k, ~ In k [txt "registered_attributes"; txt "discrete_categories"; txt "partition_definitions"; txt "user_properties";
                     txt "created_date"; txt "domain"; txt "toron_schema_version"] ->
     prop_get k (f_props (c_file c')) = prop_get k (f_props (c_file c))).
Proof.
  intros V H. apply (apply_ok _ _ _ _ _ _ V eq_refl) in H. destruct H as (_ & _ & _ & H).
  destruct (migrate_020 _ _ _ H) as (rs & qs & p5 & ps & _ & _ & _ & S5 & S6 & _ & _). cbv zeta.
  assert (A := fun j => step06_props _ _ _ j S6). assert (B := fun j => step05_props _ _ j S5).
  cbn [with_props with_names with_qtys with_rels f_props f_agroups] in A, B.
  assert (G : forall j, prop_get j (f_props (c_file c')) =
    if text_eqb (txt "toron_schema_version") j then match prop_get j p5 with Some _ => Some (PStr (txt "0.3.1")) | None => None end
    else if text_eqb (txt "user_properties") j then Some (PObj [])
    else if text_eqb (txt "created_date") j then Some (PStr now)
    else prop_get j p5) by (intros j; apply A). clear A S5 S6 H.
  split; [|split; [|split; [|split; [|split; [|split; [|split; [|split]]]]]]].
  - destruct (B (txt "registered_attributes")) as (dom & keys & _ & Ek & _ & E). cbn in E.
    destruct (sorted_set_spec (flat_map (fun g => map fst (snd g)) (f_agroups (c_file c)))) as [S I].
    exists keys. rewrite G. cbn. rewrite E. split; [reflexivity|]. subst keys. split; [exact S|].
    intros k. rewrite I, in_flat_map. split.
    + intros ((i & d) & Hg & Hk). apply in_map_iff in Hk. destruct Hk as ((k' & v) & <- & Hv). exists i, d, v. auto.
    + intros (i & d & v & Hg & Hv). exists (i, d). split; auto. apply in_map_iff. exists (k, v). auto.
  - intros v Hv. destruct (B (txt "partition_definitions")) as (dom & keys & _ & _ & _ & E). cbn in E. rewrite G. cbn. rewrite E.
    cbn in Hv. rewrite Hv. reflexivity.
  - intros Hv. destruct (B (txt "partition_definitions")) as (dom & keys & _ & _ & _ & E). cbn in E. rewrite G. cbn. rewrite E.
    cbn in Hv. rewrite Hv. reflexivity.
  - destruct (B (txt "discrete_categories")) as (dom & keys & _ & _ & _ & E). cbn in E. rewrite G. cbn. exact E.
  - rewrite G. reflexivity.
  - rewrite G. reflexivity.
  - intros d Hd N. destruct (B (txt "domain")) as (dom & keys & D & _ & _ & E). cbn in E, D, Hd. rewrite G. cbn. rewrite E.
    rewrite Hd in D. rewrite Hd. destruct D as (d' & [= <-] & ->). exists (domain_text d). split; [reflexivity|]. now apply domain_text_spec.
  - intros Hd. destruct (B (txt "domain")) as (dom & keys & _ & _ & _ & E). cbn in E, Hd. rewrite G. cbn. rewrite E, Hd. reflexivity.
  - intros k Hk. cbn [In] in Hk. destruct (B k) as (dom & keys & _ & _ & _ & E). rewrite G.
    assert (N : forall t, t <> k -> text_eqb t k = false) by (intros t Ht; apply not_true_iff_false; intros Q; now apply text_eqb_iff in Q).
    rewrite !N by tauto. rewrite E, !N by tauto. reflexivity.
Qed.
Print Assumptions C54_properties.

(** Findings.  Different domains can get the same name. *)
Theorem C54_domain_refuted : exists d1 d2 t, NoDup (map fst d1) /\ NoDup (map fst d2) /\ ~ Permutation d1 d2 /\
  forall d, In d [d1; d2] -> exists f c',
    prop_get (txt "domain") (f_props f) = Some (PObj d) /\ version_of f "0.2.0" /\
    apply_migrations false false (txt "now") (old_conn f) = (c', None) /\
    prop_get (txt "domain") (f_props (c_file c')) = Some (PStr t).
Proof.
  exists [(txt "a", txt "b_c_d")], [(txt "a", txt "b"); (txt "c", txt "d")], (txt "a_b_c_d").
  split; [repeat constructor; intros []|]. split; [repeat constructor; cbn; [intros [Q|[]]; discriminate|intros []]|].
  split; [intros Q; apply Permutation_length in Q; discriminate|].
  intros d [<-|[<-|[]]].
  - exists (with_props (prop_set (txt "domain") (PObj [(txt "a", txt "b_c_d")]) old_props) old_file). eexists.
    split; [reflexivity|]. split; [reflexivity|]. split; [vm_compute; reflexivity|]. reflexivity.
  - exists (with_props (prop_set (txt "domain") (PObj [(txt "a", txt "b"); (txt "c", txt "d")]) old_props) old_file). eexists.
    split; [reflexivity|]. split; [reflexivity|]. split; [vm_compute; reflexivity|]. reflexivity.
Qed.
Print Assumptions C54_domain_refuted.

(** A file that has a weight of a group that no longer exists (see C28_orphan_weights_refuted) cannot be
    upgraded, hence not be opened. *)
Theorem C54_orphans_refuted : exists f, version_of f "0.3.0" /\ f_old_names f = false /\
  snd (apply_migrations false false (txt "now") (old_conn f)) = Some RuntimeError.
Proof.
  exists {| f_old_names := false; f_columns := [txt "a"]; f_index := [(0%Z, [txt "-"]); (1%Z, [txt "x"])]; f_locs := []; f_structs := [];
     f_wgroups := []; f_weights := [(1%Z, Some 1%Z, Some 1%Z, 10%Q)]; f_agroups := []; f_qtys := []; f_links := []; f_rels := [];
     f_props := [(txt "toron_schema_version", PStr (txt "0.3.0"))] |}.
  vm_compute. repeat split; reflexivity.
Qed.
Print Assumptions C54_orphans_refuted.

(** Any other version: the file is never changed. *)
Theorem C54_other_version ro tx now c v : version_of (c_file c) v -> v <> "0.2.0"%string -> v <> "0.3.0"%string ->
  c_file (fst (apply_migrations ro tx now c)) = c_file c.
Proof.
  intros V N2 N3. unfold apply_migrations. rewrite V. destruct (text_eqb (txt v) (txt "0.3.1")); [reflexivity|].
  destruct ro; [reflexivity|]. destruct tx; [reflexivity|].
  assert (Inj : forall a b, txt a = txt b -> a = b).
  { clear. intros a b H. unfold txt in H. rewrite <- (string_of_list_ascii_of_string a), <- (string_of_list_ascii_of_string b). f_equal.
    revert H. generalize (list_ascii_of_string a), (list_ascii_of_string b). clear.
    induction l as [|x l IH]; intros [|y m]; cbn [map]; try discriminate; auto. intros [= H1 H2].
    f_equal; auto. rewrite <- (Ascii.ascii_N_embedding x), <- (Ascii.ascii_N_embedding y). now f_equal. }
  destruct (migrate (PStr (txt v)) now (c_file c)) as [f|] eqn:M; [|reflexivity]. cbn [fst c_file].
  unfold migrate in M. cbv zeta in M.
  destruct (text_eqb (txt v) (txt "0.2.0")) eqn:E2; [apply text_eqb_iff, Inj in E2; contradiction|].
  destruct (text_eqb (txt v) (txt "0.3.0")) eqn:E3; [apply text_eqb_iff, Inj in E3; contradiction|].
  cbn [bind] in M. destruct (foreign_key_check (c_file c)); [|discriminate]. unfold create_schema_constraints in M.
  destruct (f_old_names (c_file c)); [discriminate|]. destruct (LinkRef_Model.nil_b (f_columns (c_file c))); [congruence|].
  destruct (_ && _) in M; congruence.
Qed.
Print Assumptions C54_other_version.

(** Finding: a file of a later version than the program knows is accepted without an exception. *)
Theorem C54_later_version_refuted : exists f, version_of f "0.4.0" /\
  snd (apply_migrations false false (txt "now") (old_conn f)) = None.
Proof.
  exists {| f_old_names := false; f_columns := [txt "a"]; f_index := [(0%Z, [txt "-"]); (1%Z, [txt "x"])]; f_locs := []; f_structs := [];
     f_wgroups := []; f_weights := []; f_agroups := []; f_qtys := []; f_links := []; f_rels := [];
     f_props := [(txt "toron_schema_version", PStr (txt "0.4.0"))] |}.
  vm_compute. repeat split; reflexivity.
Qed.
Print Assumptions C54_later_version_refuted.

Example C54_case : exists c c', version_of (c_file c) "0.3.0" /\ apply_migrations false false (txt "now") c = (c', None) /\
  f_props (c_file c') = [(txt "toron_schema_version", PStr (txt "0.3.1")); (txt "user_properties", PObj []); (txt "created_date", PStr (txt "now"))].
Proof.
  exists (old_conn {| f_old_names := false; f_columns := [txt "a"]; f_index := [(0%Z, [txt "-"]); (1%Z, [txt "x"])]; f_locs := []; f_structs := [];
     f_wgroups := [1%Z]; f_weights := [(1%Z, Some 1%Z, Some 1%Z, 10%Q)]; f_agroups := []; f_qtys := []; f_links := []; f_rels := [];
     f_props := [(txt "toron_schema_version", PStr (txt "0.3.0"))] |}).
  eexists. split; [reflexivity|]. split; [vm_compute; reflexivity|]. reflexivity.
Qed.
