(** When the upgrade succeeds. *)
From Verif Require Import Prelude QLemmas BitFlags_Model BitFlags_Spec BitFlags_Proofs Selectors_Model Selectors_Proofs
  SelectorParse_Model LinkRef_Model Db_Model Db_Proofs Db_ProofsLocal Reader_Model Reader_Proofs
  Migrations_Model Migrations_Spec Migrations_Proofs Migrations_Proofs2.
From Coq Require Import Permutation Sorted Lqa.
Local Open Scope nat_scope.

Lemma nodup_map_inj {A B} (f : A -> B) l : NoDup l -> (forall x y, In x l -> In y l -> f x = f y -> x = y) -> NoDup (map f l).
Proof.
  induction 1 as [|x l Hx N IH]; intros Hf; cbn [map]; constructor.
  - intros Q. apply in_map_iff in Q. destruct Q as (y & E & Hy). apply Hx. rewrite <- (Hf y x); auto; [now right|now left].
  - apply IH. intros; apply Hf; auto; now right.
Qed.
Lemma nodup_map_filter {A B} (f : A -> B) p l : NoDup (map f l) -> NoDup (map f (filter p l)).
Proof.
  induction l as [|x l IH]; cbn [map filter]; intros N; [constructor|]. inversion_clear N as [|? ? Hx N'].
  destruct (p x); cbn [map]; auto. constructor; auto. intros Q. apply Hx. apply in_map_iff in Q. destruct Q as (y & E & Hy).
  apply filter_In in Hy. apply in_map_iff. exists y. tauto.
Qed.

Lemma step02_total lv f : old_tables f -> upgradable f -> exists rs, step02 lv f = Ok (with_rels rs f).
Proof.
  intros O U. unfold step02. cbv zeta. set (rows := map (fill_level lv) (filter keeps (f_rels f))).
  assert (A : forallb rel_ok rows = true).
  { apply forallb_forall. unfold rows. intros r Hr. apply in_map_iff in Hr. destruct Hr as (o & <- & Ho). apply filter_In in Ho.
    destruct Ho as [Ho Hk]. destruct (up_rel _ U o Ho) as [L I]. unfold rel_ok. cbn [fill_level r_link r_index r_level r_val r_prop r_other].
    unfold keeps in Hk. destruct (r_link o); [|congruence]. destruct (r_index o) as [i|]; [|congruence].
    pose proof (ot_rel_value _ O o Ho) as V. pose proof (fun p => ot_rel_prop _ O o p Ho) as P.
    destruct (r_level o); rewrite !andb_true_iff, Qle_bool_iff; (split; [split; [exact V|]|]).
    1,3: destruct (r_prop o) as [p|]; auto; specialize (P p eq_refl); rewrite andb_true_iff, !Qle_bool_iff; exact P.
    1,2: rewrite negb_andb in Hk; exact Hk. }
  assert (N : NoDup (filter keeps (f_rels f))).
  { apply (NoDup_map_inv r_id), nodup_map_filter, (ot_rel_ids _ O). }
  assert (B : NoDup (map r_id rows)).
  { unfold rows. rewrite map_map. cbn [fill_level r_id]. apply (nodup_map_filter r_id), (ot_rel_ids _ O). }
  assert (C : NoDup (map rel_key rows)).
  { unfold rows. rewrite map_map. apply nodup_map_inj; auto. intros x y Hx Hy E. apply filter_In in Hx, Hy.
    unfold rel_key in E. cbn [fill_level r_link r_index r_level r_other] in E. injection E as E1 E2 E3 _.
    destruct (up_rel _ U x (proj1 Hx)) as [L I]. destruct (r_link x) as [l|] eqn:El; [|congruence]. destruct (r_index x) as [i|] eqn:Ei; [|congruence].
    apply (ot_rel_keys _ O x y l i); auto; tauto || congruence. }
  rewrite A, (proj2 (unique_iff _ _) B), (proj2 (unique_iff _ _) C). cbn [andb]. eauto.
Qed.

(** Sums stay in range. *)
Definition weight_of (vs : list value) : Z := fold_right (fun v n => match v with VInt z => Z.abs z + n | _ => n end)%Z 0%Z vs.
Lemma weight_pos vs : (0 <= weight_of vs)%Z.
Proof. unfold weight_of. induction vs as [|v vs IH]; cbn [fold_right]; [lia|]. destruct v; lia. Qed.
Lemma sum_total vs : forall a, match a with VInt z => (Z.abs z + weight_of vs < 2 ^ 63)%Z | _ => True end ->
  exists b, fold_res sum_step vs a = Ok b.
Proof.
  induction vs as [|v vs IH]; intros a H; cbn [fold_res]; [eauto|].
  pose proof (weight_pos vs) as P.
  assert (S : exists b, sum_step a v = Ok b /\ match b with VInt z => (Z.abs z + weight_of vs < 2 ^ 63)%Z | _ => True end).
  { destruct a as [z|q|q], v as [y|p|p]; cbn [sum_step]; try (eexists; split; [reflexivity|exact I]).
    change (weight_of (VInt y :: vs)) with (Z.abs y + weight_of vs)%Z in H.
    assert (R : in_i64 (z + y) = true) by (unfold in_i64; apply andb_true_iff; rewrite Z.leb_le, Z.ltb_lt; split; lia).
    rewrite R. eexists. split; [reflexivity|]. cbv beta iota. lia. }
  destruct S as (b & -> & Hb). cbn [bind]. now apply IH.
Qed.
Lemma weight_filter (p : qty -> bool) qs :
  (weight_of (map q_val (filter p qs)) <= fold_right (fun q n => match q_val q with VInt z => Z.abs z + n | _ => n end) 0 qs)%Z.
Proof.
  induction qs as [|q qs IH]; cbn [filter fold_right]; [cbn; lia|]. pose proof (weight_pos (map q_val (filter p qs))) as P.
  destruct (p q); cbn [map]; unfold weight_of in *; cbn [fold_right]; destruct (q_val q); lia.
Qed.

Lemma step03_total_ok f : old_tables f -> upgradable f -> forall rs,
  exists qs, step03 (with_rels rs f) = Ok (with_qtys qs (with_rels rs f)).
Proof.
  intros O U rs. unfold step03. cbn [with_rels f_qtys]. set (qs := f_qtys f).
  destruct (traverse_total (group_row qs) (first_keys [] qs)) as (rows & T).
  { intros k Hk. apply first_keys_spec in Hk. destruct Hk as (_ & q & Hq & E). unfold group_row. fold (key_is k).
    destruct (filter (key_is k) qs) as [|q0 rest] eqn:F.
    { assert (Q : In q (filter (key_is k) qs)) by (apply filter_In; split; auto; now apply key_is_iff). rewrite F in Q. destruct Q. }
    destruct (sum_total (map q_val (q0 :: rest)) (VInt 0)) as (v & S).
    { rewrite <- F. pose proof (weight_filter (key_is k) qs). pose proof (up_sums _ U). fold qs in H0. cbn [Z.abs]. lia. }
    unfold sum_values. rewrite S. cbn [bind]. destruct (up_qty _ U q Hq) as [L G]. unfold qty_key in E. subst k.
    destruct (q_loc q), (q_grp q); try congruence. eauto. }
  rewrite T. cbn [bind]. apply traverse_ok in T.
  assert (G : Forall2 (grouped qs) (first_keys [] qs) rows).
  { clear - T. induction T; constructor; auto. now apply group_row_spec. }
  assert (K : map qty_key rows = first_keys [] qs).
  { clear - G. induction G as [|k r ks rows H G IH]; cbn [map]; auto. rewrite IH. f_equal. apply H. }
  assert (N2 : NoDup (map qty_key rows)) by (rewrite K; apply first_keys_spec).
  assert (N1 : NoDup (map q_id rows)).
  { apply nodup_map_inj; [exact (NoDup_map_inv _ _ N2)|]. intros x y Hx Hy E.
    assert (X : forall r, In r rows -> exists q, In q qs /\ qty_key q = qty_key r /\ q_id q = q_id r).
    { intros r Hr. clear - G Hr. induction G as [|k r' ks rows H G IH]; [destruct Hr|]. destruct Hr as [<-|Hr]; auto.
      destruct H as (H1 & _ & _ & _ & (q & Q1 & Q2 & Q3) & _). exists q. repeat split; auto; congruence. }
    destruct (X x Hx) as (a & A1 & A2 & A3), (X y Hy) as (b & B1 & B2 & B3).
    assert (a = b).
    { pose proof (ot_qty_ids _ O) as N. fold qs in N. clear - N A1 B1 A3 B3 E. assert (Q : q_id a = q_id b) by congruence. clear - N A1 B1 Q.
      induction qs as [|z l IH]; [destruct A1|]. cbn [map] in N. inversion_clear N as [|? ? Hz Nl].
      destruct A1 as [->|A1], B1 as [->|B1]; auto.
      - exfalso. apply Hz. rewrite Q. now apply in_map.
      - exfalso. apply Hz. rewrite <- Q. now apply in_map. }
    subst b. assert (Q : qty_key x = qty_key y) by congruence. clear - N2 Hx Hy Q.
    induction rows as [|z l IH]; [destruct Hx|]. cbn [map] in N2. inversion_clear N2 as [|? ? Hz Nl].
    destruct Hx as [->|Hx], Hy as [->|Hy]; auto.
    - exfalso. apply Hz. rewrite Q. now apply in_map.
    - exfalso. apply Hz. rewrite <- Q. now apply in_map. }
  rewrite (proj2 (unique_iff _ _) N1), (proj2 (unique_iff _ _) N2). cbn [andb]. eauto.
Qed.

Lemma prop_insert_ok k v l : prop_get k l = None -> exists l', prop_insert k v l = Ok l'.
Proof. unfold prop_insert. intros ->. eauto. Qed.

Lemma migrate_020_ok now f : old_tables f -> upgradable f -> exists f', migrate (PStr (txt "0.2.0")) now f = Ok f'.
Proof.
  intros O U. unfold migrate. cbv zeta. rewrite text_eqb_refl. fold (level_of f).
  assert (S1 : step01 f = Ok f).
  { unfold step01. rewrite (ot_names _ O). cbn [negb].
    now rewrite (proj2 (unique_iff _ _) (ot_link_ids _ O)), (proj2 (unique_iff _ _) (ot_link_names _ O)), (proj2 (unique_iff _ _) (ot_link_default _ O)). }
  rewrite S1. cbn [bind]. destruct (step02_total (level_of f) f O U) as (rs & S2). rewrite S2. cbn [bind].
  destruct (step03_total_ok f O U rs) as (qs & S3). rewrite S3. cbn [bind step04].
  set (f4 := with_names false (with_qtys qs (with_rels rs f))).
  assert (P4 : f_props f4 = f_props f) by reflexivity.
  assert (Free : forall k, In k [txt "registered_attributes"; txt "partition_definitions"; txt "user_properties"; txt "created_date"] ->
              prop_get k (f_props f4) = None) by (rewrite P4; exact (up_free _ U)).
  assert (S5 : exists p5, step05 f4 = Ok (with_props p5 f4)).
  { unfold step05. rewrite P4.
    assert (D : exists dom, match prop_get (txt "domain") (f_props f) with
      | Some (PObj d) => Ok (domain_text d) | Some _ => Err PlainException | None => Ok [] end = Ok dom).
    { destruct (prop_get (txt "domain") (f_props f)) as [v|] eqn:E; [|eauto]. destruct (up_domain _ U v E) as (d & ->). eauto. }
    destruct D as (dom & ->). cbn [bind]. cbv zeta.
    destruct (prop_insert_ok (txt "registered_attributes") (PTexts (sorted_set (flat_map (fun g => map fst (snd g)) (f_agroups f4))))
      (prop_set (txt "domain") (PStr dom) (f_props f))) as (p1 & I).
    { rewrite prop_get_set. change (text_eqb (txt "domain") (txt "registered_attributes")) with false. cbv iota.
      rewrite <- P4. apply Free. now left. }
    rewrite I. cbn [bind]. unfold prop_rename.
    assert (Q : prop_get (txt "partition_definitions") p1 = None).
    { rewrite (proj2 (prop_get_insert _ _ _ _ (txt "partition_definitions") I)), prop_get_set.
      change (text_eqb (txt "registered_attributes") (txt "partition_definitions")) with false.
      change (text_eqb (txt "domain") (txt "partition_definitions")) with false. cbv iota. rewrite <- P4. apply Free. right. now left. }
    rewrite Q. destruct (prop_get (txt "discrete_categories") p1); cbn [bind]; eauto. }
  destruct S5 as (p5 & S5). rewrite S5. cbn [bind].
  assert (G5 : forall j, In j [txt "user_properties"; txt "created_date"] -> prop_get j p5 = None).
  { intros j Hj. assert (Q : prop_get j (f_props (with_props p5 f4)) = prop_get j (f_props f4)).
    { destruct (step05_props _ _ j S5) as (dom & keys & _ & _ & _ & E). rewrite E.
      destruct Hj as [<-|[<-|[]]]; reflexivity. }
    cbn [with_props f_props] in Q. rewrite Q. apply Free. destruct Hj as [<-|[<-|[]]]; [right; right; now left|right; right; right; now left]. }
  assert (S6 : exists ps, step06 now (with_props p5 f4) = Ok (with_props ps f4)).
  { unfold step06. cbn [with_props f_props].
    destruct (prop_insert_ok (txt "user_properties") (PObj []) p5) as (p1 & I); [apply G5; now left|].
    rewrite I. cbn [bind].
    destruct (prop_insert_ok (txt "created_date") (PStr now) p1) as (p2 & J).
    { rewrite (proj2 (prop_get_insert _ _ _ _ (txt "created_date") I)).
      change (text_eqb (txt "user_properties") (txt "created_date")) with false. cbv iota. apply G5. right. now left. }
    rewrite J. cbn [bind]. eexists. reflexivity. }
  destruct S6 as (ps & S6). rewrite S6. cbn [bind].
  assert (R : references (with_props ps f4)).
  { destruct (up_refs _ U) as [R1 R2 R3]. apply step02_spec in S2. destruct S2 as (_ & _ & _ & F & _).
    apply step03_spec in S3. destruct S3 as (_ & _ & _ & G & _). cbn [with_rels with_qtys f_rels f_qtys] in F, G.
    split; cbn [f4 with_props with_names with_qtys with_rels f_rels f_qtys f_weights f_links f_index f_locs f_agroups f_wgroups].
    - intros r Hr. assert (X : exists o, In o (f_rels f) /\ r_link r = r_link o /\ r_index r = r_index o).
      { assert (Y : forall o, In o (filter keeps (f_rels f)) -> In o (f_rels f)) by (intros o Ho; apply filter_In in Ho; tauto).
        clear - F Hr Y. induction F as [|o r' os rs' H F IH]; [destruct Hr|]. destruct Hr as [<-|Hr].
        - exists o. split; [apply Y; now left|]. unfold same_mapping in H. tauto.
        - apply IH; auto. intros; apply Y. now right. }
      destruct X as (o & Ho & -> & ->). auto.
    - exact R2.
    - intros q Hq. destruct (G q Hq) as (_ & _ & _ & _ & (o & Ho & K & _) & _). unfold qty_key in K. injection K as <- <-. auto. }
  apply foreign_key_iff in R. rewrite R. unfold create_schema_constraints.
  cbn [f4 with_props with_names with_qtys with_rels f_old_names f_columns f_index f_locs f_structs].
  destruct (nil_b (f_columns f)); [eauto|].
  rewrite (proj2 (unique_iff _ _) (ot_index _ O)), (proj2 (unique_iff _ _) (ot_locs _ O)), (proj2 (unique_iff _ _) (ot_structs _ O)).
  cbn [andb]. eauto.
Qed.
