(** Effects of single operations: links. *)
From Verif Require Import Prelude QLemmas Selectors_Model
  Selectors_Proofs LinkRef_Model LinkRef_Spec LinkRef_Proofs Db_Model Db_Spec Db_Proofs
  Db_ProofsLocal Db_ProofsMerge Db_ProofsRefresh Db_ProofsInv Db_ProofsInv2 Db_ProofsInv3
  Db_ProofsDelete Db_ProofsRun Db_ProofsOps Db_ProofsOps2 Db_ProofsOps3.
From Coq Require Import ZifyBool ZifyNat Lqa.

Definition cleared (p : link -> bool) (s0 s : db) : Prop :=
  s = set_links (map (fun x => if p x then with_default false x else x) (d_links s0)) s0.

Lemma link_clash_iff k l : link_clash k l = true <->
  exists x, In x l /\ k_other x = k_other k /\ (k_name x = k_name k \/ k_default x = true /\ k_default k = true).
Proof.
  unfold link_clash. rewrite existsb_exists. split; intros (x & Hx & H); exists x; (split; [exact Hx|]).
  - apply andb_true_iff in H. destruct H as [A B]. apply text_eqb_iff in A. split; auto.
    apply orb_true_iff in B. destruct B as [B|B]; [left; now apply text_eqb_iff|right; now apply andb_true_iff].
  - destruct H as [A B]. apply andb_true_iff. split; [now apply text_eqb_iff|]. apply orb_true_iff.
    destruct B as [B|B]; [left; now apply text_eqb_iff|right; now apply andb_true_iff].
Qed.
Lemma link_clash_none k l : link_clash k l = false <->
  forall x, In x l -> k_other x = k_other k -> k_name x <> k_name k /\ ~ (k_default x = true /\ k_default k = true).
Proof.
  rewrite <- not_true_iff_false, link_clash_iff. split.
  - intros H x Hx E. split; intros Q; apply H; exists x; auto.
  - intros H (x & Hx & E & Q). destruct (H x Hx E). tauto.
Qed.

Lemma cleared_step p s0 s k : link_table (d_links s0) -> cleared p s0 s -> In k (d_links s0) ->
  exists s2, link_update (with_default false k) s = Ok s2 /\ cleared (fun x => p x || (k_id x =? k_id k)%Z) s0 s2.
Proof.
  intros (T1 & T2 & T3) C Hk. unfold cleared in *. unfold link_update. cbn [with_default k_id].
  assert (Nc : link_clash (with_default false k) (filter (fun x => negb (k_id x =? k_id k)%Z) (d_links s)) = false).
  { apply link_clash_none. intros x Hx E. cbn in E. split; [|cbn; intros [_ Q]; discriminate].
    intros En. cbn in En. apply filter_In in Hx. destruct Hx as [Hx Hn]. rewrite C in Hx. cbn in Hx.
    apply in_map_iff in Hx. destruct Hx as (y & Ey & Hy).
    assert (y = k). { apply T2; auto; [destruct (p y); subst x; cbn in *; auto|destruct (p y); subst x; cbn in *; auto]. }
    subst y. destruct (p k); subst x; cbn in Hn; lia. }
  rewrite Nc. eexists. split; [reflexivity|]. rewrite C. cbn [set_links d_links]. rewrite map_map. unfold set_links. cbn. f_equal.
  apply map_ext_in. intros x Hx. destruct (p x); cbn [orb with_default k_id].
  - destruct (k_id x =? k_id k)%Z eqn:E; auto. replace x with k; auto. apply (nodup_map_inj k_id (d_links s0)); auto. lia.
  - destruct (k_id x =? k_id k)%Z eqn:E; auto. replace x with k; auto. apply (nodup_map_inj k_id (d_links s0)); auto. lia.
Qed.

Lemma cleared_list (q : link -> bool) ks : forall p s0 s, link_table (d_links s0) -> cleared p s0 s ->
  (forall k, In k ks -> In k (d_links s0)) ->
  exists s2, fold_res (fun s k => if q k then link_update (with_default false k) s else Ok s) ks s = Ok s2 /\
    cleared (fun x => p x || existsb (fun k => q k && (k_id x =? k_id k)%Z) ks) s0 s2.
Proof.
  induction ks as [|k ks IH]; intros p s0 s T C Hi; cbn [fold_res existsb].
  - exists s. split; auto. unfold cleared in *. rewrite C. unfold set_links. cbn. f_equal. apply map_ext. intros x. now rewrite orb_false_r.
  - destruct (q k) eqn:Q.
    + destruct (cleared_step p s0 s k T C (Hi k (or_introl eq_refl))) as (s1 & E1 & C1). rewrite E1. cbn [bind].
      destruct (IH _ s0 s1 T C1 (fun x Hx => Hi x (or_intror Hx))) as (s2 & E2 & C2). exists s2. split; auto.
      unfold cleared in *. rewrite C2. unfold set_links. cbn. f_equal. apply map_ext. intros x. cbn [andb]. now rewrite orb_assoc.
    + cbn [bind andb orb]. apply IH; auto. intros x Hx. apply Hi. now right.
Qed.

Lemma bystander_cleared take o k :
  bystander take o k (if take && text_eqb (k_other k) o then with_default false k else k).
Proof.
  unfold bystander, same_but_default. destruct (take && text_eqb (k_other k) o); cbn; tauto.
Qed.
Lemma bystander_eq take o k k' : bystander take o k k' -> k' = (if take && text_eqb (k_other k) o then with_default false k else k).
Proof.
  intros ((A & B & C & D & E & F & G) & H). destruct k, k'. cbn in *. subst.
  destruct (take && text_eqb k_other o); reflexivity.
Qed.

Lemma others_in uid links k : In k (find_by_other_unique_id uid links) <-> In k links /\ k_other k = uid.
Proof. unfold find_by_other_unique_id. rewrite filter_In, text_eqb_iff. reflexivity. Qed.

(** add_link *)
Lemma add_link_effect new dflt s : link_table (d_links s) ->
  let d := match dflt with Some b => b | None => nil_b (find_by_other_unique_id (k_other new) (d_links s)) end in
  ((exists k, In k (d_links s) /\ k_other k = k_other new /\ k_name k = k_name new) /\ add_link new dflt s = Err ToronError) \/
  ((forall k, In k (d_links s) -> k_other k = k_other new -> k_name k <> k_name new) /\
   exists i s', add_link new dflt s = Ok s' /\ ~ In i (map k_id (d_links s)) /\
     s' = set_links (map (fun x => if d && text_eqb (k_other x) (k_other new) then with_default false x else x) (d_links s)
                     ++ [with_id i (with_default d new)]) s).
Proof.
  intros T d. unfold add_link. set (others := find_by_other_unique_id (k_other new) (d_links s)) in *.
  destruct (existsb (fun k => text_eqb (k_name k) (k_name new)) others) eqn:E.
  { left. split; auto. apply existsb_exists in E. destruct E as (k & Hk & En). apply others_in in Hk. apply text_eqb_iff in En.
    exists k. tauto. }
  right. rewrite existsb_false_iff in E. split.
  { intros k Hk Eo En. assert (Hi : In k others) by (apply others_in; auto). specialize (E k Hi). apply text_eqb_neq in E. congruence. }
  fold d.
  assert (K : exists s1, (if d then fold_res (fun s k => if k_default k then link_update (with_default false k) s else Ok s) others s else Ok s) = Ok s1 /\
    s1 = set_links (map (fun x => if d && text_eqb (k_other x) (k_other new) then with_default false x else x) (d_links s)) s).
  { destruct d.
    - destruct (cleared_list k_default others (fun _ => false) s s T) as (s1 & E1 & C1).
      + unfold cleared. rewrite map_id. now destruct s.
      + intros k Hk. apply others_in in Hk. tauto.
      + exists s1. split; auto. unfold cleared in C1. rewrite C1. unfold set_links. cbn. f_equal. apply map_ext_in. intros x Hx.
        destruct (text_eqb (k_other x) (k_other new)) eqn:Eo.
        * destruct (k_default x) eqn:Ed.
          -- assert (existsb (fun k => k_default k && (k_id x =? k_id k)%Z) others = true) as ->; auto.
             apply existsb_exists. exists x. split; [apply others_in; split; auto; now apply text_eqb_iff|]. rewrite Ed. cbn. lia.
          -- destruct (existsb (fun k => k_default k && (k_id x =? k_id k)%Z) others); auto. destruct x; cbn in *. now rewrite Ed.
        * assert (existsb (fun k => k_default k && (k_id x =? k_id k)%Z) others = false) as ->; auto.
          apply existsb_false_iff. intros k Hk. apply others_in in Hk. destruct Hk as [Hk Ek]. destruct (k_id x =? k_id k)%Z eqn:Q; [|apply andb_false_r].
          destruct T as [T1 _]. assert (x = k) by (apply (nodup_map_inj k_id (d_links s)); auto; lia). subst x. apply text_eqb_neq in Eo. congruence.
    - exists s. split; auto. rewrite map_id. now destruct s. }
  destruct K as (s1 & -> & E1). cbn [bind]. unfold link_add.
  assert (Nc : link_clash (with_default d new) (d_links s1) = false).
  { apply link_clash_none. intros x Hx Eo. cbn in Eo |- *. rewrite E1 in Hx. cbn in Hx. apply in_map_iff in Hx. destruct Hx as (y & Ey & Hy).
    assert (Eyo : k_other y = k_other new) by (destruct (d && text_eqb (k_other y) (k_other new)); subst x; auto).
    split.
    - assert (Hi : In y others) by (apply others_in; auto). specialize (E y Hi). apply text_eqb_neq in E.
      destruct (d && text_eqb (k_other y) (k_other new)); subst x; auto.
    - intros [A B]. rewrite B, Eyo in Ey. rewrite (proj2 (text_eqb_iff _ _) eq_refl) in Ey. cbn in Ey. subst x. cbn in A. discriminate. }
  assert (Eids : map k_id (d_links s1) = map k_id (d_links s)).
  { rewrite E1. cbn. rewrite map_map. apply map_ext. intros x. now destruct (d && text_eqb (k_other x) (k_other new)). }
  rewrite Nc, Eids. eexists _, _. split; [reflexivity|]. split; [apply zmax_fresh|]. rewrite E1. reflexivity.
Qed.

Lemma step_add_link new dflt s : inv s -> refs_if_enforced s ->
  let out := step (OAddLink new dflt) s in
  (snd out = None <-> forall k, In k (d_links s) -> k_other k = k_other new -> k_name k <> k_name new) /\
  (snd out <> None -> fst out = s) /\
  (snd out = None -> exists k', In k' (d_links (fst out)) /\ ~ In (k_id k') (map k_id (d_links s)) /\
     k_other k' = k_other new /\ k_name k' = k_name new /\
     (k_default k' = true <-> dflt = Some true \/ dflt = None /\ forall k, In k (d_links s) -> k_other k <> k_other new) /\
     (forall k2, In k2 (d_links (fst out)) <-> k2 = k' \/ exists k, In k (d_links s) /\ bystander (k_default k') (k_other new) k k2) /\
     fst out = set_links (d_links (fst out)) s).
Proof.
  intros I R. cbv zeta. cbn [step]. pose proof (i_links _ I) as T.
  destruct (add_link_effect new dflt s T) as [((k & Hk & Eo & En) & E)|(Hn & i & s' & E & Hi & Es)].
  - unfold transact. rewrite E. cbn [fst snd]. split; [|split; [auto|discriminate]]. split; [discriminate|].
    intros H. exfalso. apply (H k); auto.
  - set (d := match dflt with Some b => b | None => nil_b (find_by_other_unique_id (k_other new) (d_links s)) end) in *.
    assert (Fk : d_fk s' && negb (fk_ok s') = false).
    { rewrite Es. cbn [set_links d_fk]. destruct (d_fk s) eqn:Ef; auto. destruct (R Ef) as [_ _ _ F1 F2 _].
      assert (fk_ok s = true) by (apply fk_ok_iff; auto). cbn [andb]. apply negb_false_iff. exact H. }
    unfold transact. rewrite E, Fk. cbn [fst snd]. split; [tauto|]. split; [congruence|]. intros _.
    exists (with_id i (with_default d new)). split; [rewrite Es; cbn; apply in_app_iff; right; now left|].
    split; [exact Hi|]. split; [reflexivity|]. split; [reflexivity|]. split; [|split].
    + cbn [with_id with_default k_default]. unfold d. destruct dflt as [b|].
      * destruct b; split; intros; auto; [discriminate|]. destruct H as [H|[H _]]; discriminate.
      * destruct (find_by_other_unique_id (k_other new) (d_links s)) as [|x l] eqn:Q; cbn [nil_b].
        -- split; auto. intros _. right. split; auto. intros k Hk Ek.
           assert (Hin : In k (find_by_other_unique_id (k_other new) (d_links s))) by (apply others_in; auto). rewrite Q in Hin. exact Hin.
        -- split; [discriminate|]. intros [H|[_ H]]; [discriminate|]. exfalso.
           assert (Hin : In x (find_by_other_unique_id (k_other new) (d_links s))) by (rewrite Q; now left). apply others_in in Hin.
           apply (H x); tauto.
    + intros k2. rewrite Es. cbn [set_links d_links]. rewrite in_app_iff, in_map_iff. cbn [with_id with_default k_default In]. split.
      * intros [(x & Ex & Hx)|[<-|[]]]; auto. right. exists x. split; auto. subst k2. apply bystander_cleared.
      * intros [->|(k & Hk & B)]; auto. left. exists k. split; auto. symmetry. now apply bystander_eq.
    + rewrite Es. reflexivity.
Qed.

(** edit_link *)
Lemma edit_link_effect ref name c k s s' : link_table (d_links s) -> meant (d_links s) ref (Some name) true k ->
  edit_link ref name c s = Ok s' ->
  s' = set_links (map (fun x => if (k_id x =? k_id k)%Z then apply_changes c k
         else if match c_default c with Some true => text_eqb (k_other x) (k_other k) | _ => false end
              then with_default false x else x) (d_links s)) s.
Proof.
  intros T Hk H. apply get_link_iff in Hk; auto. unfold edit_link in H. rewrite Hk in H. cbn [bind] in H.
  apply get_link_in in Hk.
  set (b := match c_default c with Some true => true | _ => false end).
  assert (K : exists s1, match c_default c with
    | Some true => fold_res (fun s m => link_update (with_default false m) s)
                     (find_by_other_unique_id (k_other k) (d_links s)) s
    | _ => Ok s end = Ok s1 /\
    s1 = set_links (map (fun x => if b && text_eqb (k_other x) (k_other k) then with_default false x else x) (d_links s)) s).
  { assert (Triv : b = false -> exists s1, Ok s = Ok s1 /\ s1 = set_links (map (fun x => if b && text_eqb (k_other x) (k_other k) then with_default false x else x) (d_links s)) s).
    { intros ->. exists s. split; auto. cbn [andb]. rewrite map_id. now destruct s. }
    unfold b in *. destruct (c_default c) as [[]|]; auto. cbn [andb]. clear Triv.
    destruct (cleared_list (fun _ => true) (find_by_other_unique_id (k_other k) (d_links s)) (fun _ => false) s s T) as (s1 & E1 & C1).
    + unfold cleared. rewrite map_id. now destruct s.
    + intros x Hx. apply others_in in Hx. tauto.
    + exists s1. split; auto. unfold cleared in C1. rewrite C1. unfold set_links. cbn. f_equal. apply map_ext_in. intros x Hx.
      destruct (text_eqb (k_other x) (k_other k)) eqn:Eo.
      * assert (existsb (fun k0 => (k_id x =? k_id k0)%Z) (find_by_other_unique_id (k_other k) (d_links s)) = true) as ->; auto.
        apply existsb_exists. exists x. split; [apply others_in; split; auto; now apply text_eqb_iff|]. lia.
      * assert (existsb (fun k0 => (k_id x =? k_id k0)%Z) (find_by_other_unique_id (k_other k) (d_links s)) = false) as ->; auto.
        apply existsb_false_iff. intros y Hy. apply others_in in Hy. destruct Hy as [Hy Ey]. destruct (k_id x =? k_id y)%Z eqn:Q; auto.
        destruct T as [T1 _]. assert (x = y) by (apply (nodup_map_inj k_id (d_links s)); auto; lia). subst x. apply text_eqb_neq in Eo. congruence. }
  destruct K as (s1 & E1 & Es1). rewrite E1 in H. cbn [bind] in H. unfold link_update in H.
  match type of H with (if ?x then _ else _) = _ => destruct x; [discriminate|] end. apply Ok_inj in H. subst s'. rewrite Es1.
  unfold set_links. cbn. f_equal. rewrite map_map. apply map_ext. intros x. unfold b.
  destruct (c_default c) as [[]|]; cbn [andb]; try reflexivity.
  destruct (text_eqb (k_other x) (k_other k)); cbn; destruct (k_id x =? k_id k)%Z; auto.
Qed.

Lemma step_edit_link ref name c k s : inv s -> refs_if_enforced s -> meant (d_links s) ref (Some name) true k ->
  let out := step (OEditLink ref name c) s in
  (snd out <> None -> fst out = s) /\
  (snd out = None -> In (apply_changes c k) (d_links (fst out)) /\
     (forall k2, In k2 (d_links (fst out)) <-> k2 = apply_changes c k \/
        exists x, In x (d_links s) /\ x <> k /\ bystander (match c_default c with Some true => true | _ => false end) (k_other k) x k2) /\
     fst out = set_links (d_links (fst out)) s).
Proof.
  intros I R Hk. cbv zeta. cbn [step]. pose proof (i_links _ I) as T.
  destruct (transact_cases (edit_link ref name c) s) as [(s' & E & Et & _)|(e & Et)]; rewrite Et; cbn [fst snd].
  2: { split; auto. discriminate. }
  split; [congruence|]. intros _. pose proof (edit_link_effect _ _ _ _ _ _ T Hk E) as Es.
  assert (Hin : In k (d_links s)) by (apply get_link_iff in Hk; auto; now apply get_link_in in Hk).
  assert (Hid : forall x, In x (d_links s) -> (k_id x =? k_id k)%Z = true <-> x = k).
  { intros x Hx. split; [|intros ->; lia]. intros Q. destruct T as [T1 _]. apply (nodup_map_inj k_id (d_links s)); auto. lia. }
  rewrite Es. cbn [set_links d_links]. split; [|split; [|reflexivity]].
  - apply in_map_iff. exists k. rewrite Z.eqb_refl. auto.
  - intros k2. rewrite in_map_iff. split.
    + intros (x & Ex & Hx). destruct (k_id x =? k_id k)%Z eqn:Q; [now left|]. right. exists x. split; auto. split.
      { intros ->. lia. }
      subst k2. pose proof (bystander_cleared (match c_default c with Some true => true | _ => false end) (k_other k) x) as B.
      destruct (c_default c) as [[]|]; exact B.
    + intros [->|(x & Hx & Hn & B)].
      * exists k. rewrite Z.eqb_refl. auto.
      * exists x. split; auto. destruct (k_id x =? k_id k)%Z eqn:Q; [exfalso; apply Hn, Hid; auto|].
        apply bystander_eq in B. subst k2. destruct (c_default c) as [[]|]; reflexivity.
Qed.

Lemma step_drop_link ref name k s : inv s -> refs_if_enforced s -> meant (d_links s) ref (Some name) true k ->
  let out := step (ODropLink ref name) s in
  snd out = None /\
  (forall x, In x (d_links (fst out)) <-> In x (d_links s) /\ x <> k) /\
  (d_fk s = true -> forall m, In m (d_maps (fst out)) <-> In m (d_maps s) /\ m_link m <> k_id k) /\
  fst out = set_maps (d_maps (fst out)) (set_links (d_links (fst out)) s).
Proof.
  intros I R Hk. cbv zeta. cbn [step]. pose proof (i_links _ I) as T.
  apply get_link_iff in Hk; auto. unfold transact, drop_link. rewrite Hk. cbn [bind]. apply get_link_in in Hk.
  assert (Fk : d_fk (link_delete (k_id k) s) && negb (fk_ok (link_delete (k_id k) s)) = false).
  { unfold link_delete. cbn [set_links d_fk]. destruct (d_fk s) eqn:Ef; [|cbn [set_links d_fk]; now rewrite Ef].
    destruct (R Ef) as [_ _ _ F1 F2 _]. cbn [set_maps d_fk set_links]. rewrite Ef. cbn [andb]. apply negb_false_iff, fk_ok_iff. split.
    - exact F1.
    - intros m Hm. cbn in Hm. apply filter_In in Hm. apply F2. tauto. }
  rewrite Fk. cbn [fst snd]. split; auto.
  assert (El : d_links (link_delete (k_id k) s) = filter (fun x => negb (k_id x =? k_id k)%Z) (d_links s))
    by (unfold link_delete; cbn [set_links d_fk]; now destruct (d_fk s)).
  split; [|split].
  - intros x. rewrite El, filter_In. split; intros [A B]; split; auto.
    + intros ->. lia.
    + destruct (k_id x =? k_id k)%Z eqn:Q; auto. exfalso. apply B. destruct T as [T1 _]. apply (nodup_map_inj k_id (d_links s)); auto. lia.
  - intros Ef m. unfold link_delete. cbn [set_links d_fk]. rewrite Ef. cbn. rewrite filter_In. split; intros [A B]; split; auto; lia.
  - unfold link_delete. cbn [set_links d_fk]. destruct (d_fk s); reflexivity.
Qed.

(** Every operation but one: failing changes nothing. *)
Lemma failed_changes_nothing o s : (forall r n c, o <> OReify r n c) -> snd (step o s) <> None -> fst (step o s) = s.
Proof.
  intros Hn H. assert (T : forall body, step o s = transact body s -> fst (step o s) = s).
  { intros body E. rewrite E in *. destruct (transact_cases body s) as [(s' & _ & Et & _)|(e & Et)]; rewrite Et in *; cbn [fst snd] in *; auto. congruence. }
  destruct o; try (eapply T; reflexivity); [exfalso; eapply Hn; reflexivity|]. cbn in H. congruence.
Qed.
