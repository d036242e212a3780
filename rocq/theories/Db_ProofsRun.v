(** Invariants of all histories. *)
From Verif Require Import Prelude QLemmas BitFlags_Model BitFlags_Proofs Selectors_Model
  Selectors_Proofs LinkRef_Model LinkRef_Spec LinkRef_Proofs Db_Model Db_Spec Db_Proofs
  Db_ProofsLocal Db_ProofsMerge Db_ProofsRefresh Db_ProofsInv Db_ProofsInv2 Db_ProofsInv3
  Db_ProofsDelete.
From Coq Require Import ZifyBool ZifyNat Lqa.

Record inv (s : db) : Prop := {
  i_index : index_wf s;
  i_hash : hash_wf s;
  i_weights : weights_wf s;
  i_links : link_table (d_links s);
  i_maps : maps_wf s
}.

Lemma inv_fresh : inv fresh.
Proof.
  split.
  - split; cbn.
    + constructor.
    + repeat constructor; auto.
    + intros r [<-|[]]. cbn. lia.
    + left. reflexivity.
    + intros r [<-|[]]. reflexivity.
    + intros r t [<-|[]] [].
    + intros x y [<-|[]] [<-|[]]. auto.
  - split; cbn; [repeat constructor|]. intros i. unfold has_index. cbn. split.
    + intros [<-|[]]. eauto.
    + intros (r & [<-|[]] & <-). auto.
  - split; cbn; try tauto; try constructor; constructor.
  - repeat split; cbn; try tauto. constructor.
  - split; cbn; try tauto. constructor.
Qed.

Lemma transact_cases body s : (exists s', body s = Ok s' /\ transact body s = (s', None) /\
     (d_fk s' = true -> fk_ok s' = true)) \/ (exists e, transact body s = (s, Some e)).
Proof.
  unfold transact. destruct (body s) as [s'|e]; [|right; eauto].
  destruct (d_fk s' && negb (fk_ok s')) eqn:E; [right; eauto|left].
  exists s'. repeat split; auto. intros F. rewrite F in E. cbn in E. now apply negb_false_iff in E.
Qed.
Lemma transact_fst body s (P : db -> Prop) : P s -> (forall s', body s = Ok s' -> P s') ->
  P (fst (transact body s)).
Proof.
  intros H0 H. destruct (transact_cases body s) as [(s' & Hb & -> & _)|(e & ->)]; cbn [fst]; auto.
Qed.

Lemma step_kept o s : honest o -> inv s -> kept s (fst (step o s)).
Proof.
  intros Ho [Ix Hh Wt Lk Mp].
  destruct o; cbn [step honest] in *;
    try (apply (transact_fst _ s (kept s)); [apply kept_refl|intros s' H]).
  - eapply insert_index_kept; eauto.
  - eapply update_index_kept; eauto.
  - eapply delete_rows_kept; eauto.
  - eapply delete_criteria_kept; eauto.
  - injection H as <-. apply default_kept.
  - subst complete. eapply add_group_kept; eauto.
  - subst complete. eapply edit_group_kept; eauto.
  - eapply drop_group_kept; eauto.
  - eapply insert_weights_kept; eauto.
  - eapply update_weights_kept; eauto.
  - eapply delete_weights_rows_kept; eauto.
  - eapply delete_weights_criteria_kept; eauto.
  - destruct Ho. eapply add_link_kept; eauto.
  - destruct Ho. eapply edit_link_kept; eauto.
  - eapply drop_link_kept; eauto.
  - eapply insert_mappings2_kept; eauto.
  - eapply insert_mappings_kept; eauto.
  - eapply update_mappings_kept; eauto.
  - eapply delete_mappings_rows_kept; eauto.
  - eapply delete_mappings_criteria_kept; eauto.
  - apply reify_kept; auto.
  - eapply add_columns_kept; eauto.
  - eapply rename_columns_kept; eauto.
  - eapply drop_columns_kept; eauto.
  - injection H as <-. apply structs_kept.
  - split; intros; assumption.
Qed.

(** Operations that set flags themselves. *)
Lemma honest_or o : honest o \/ forall s,
  d_index (fst (step o s)) = d_index s /\ d_hash (fst (step o s)) = d_hash s /\
  d_maps (fst (step o s)) = d_maps s.
Proof.
  set (P := fun s t => d_index t = d_index s /\ d_hash t = d_hash s /\ d_maps t = d_maps s).
  assert (Pr : forall s, P s s) by (intros; unfold P; auto).
  assert (Pt : forall a b c, P a b -> P b c -> P a c) by (unfold P; intuition congruence).
  assert (Pu : forall k s s', link_update k s = Ok s' -> P s s').
  { intros k s s' H. unfold link_update in H. step_res H; [discriminate|]. injection H as <-. unfold P. auto. }
  destruct o; cbn [honest]; auto.
  - destruct complete; auto. right. intros s. cbn [step]. apply (transact_fst _ s (P s)); [apply Pr|].
    intros s' H. unfold add_weight_group in H. cbv zeta in H. step_res H; [discriminate|]. step_res H.
    apply group_add_eq in E0. rewrite E0 in H. repeat step_res H; subst; try discriminate.
    + unfold set_default_weight_group in H. injection H as <-. unfold P. auto.
    + unfold P. auto.
  - destruct complete; auto. right. intros s. cbn [step]. apply (transact_fst _ s (P s)); [apply Pr|].
    intros s' H. unfold edit_weight_group in H. step_res H; [|injection H as <-; apply Pr].
    unfold group_update in H. step_res H; [discriminate|]. injection H as <-. unfold P. auto.
  - right. intros s. cbn [step]. apply (transact_fst _ s (P s)); [apply Pr|].
    intros s' H. unfold add_link in H. cbv zeta in H. step_res H; [discriminate|]. step_res H.
    apply (Pt _ a).
    + destruct (match dflt with Some b => b | None => _ end); [|injection E0 as <-; apply Pr].
      revert E0. apply (fold_res_inv (P s)); [apply Pr|]. intros t m t' _ Ht H1.
      destruct (k_default m); [|injection H1 as <-; auto]. eapply Pt; eauto.
    + unfold link_add in H. step_res H; [discriminate|]. injection H as <-. unfold P. auto.
  - right. intros s. cbn [step]. apply (transact_fst _ s (P s)); [apply Pr|].
    intros s' H. unfold edit_link in H. step_res H. step_res H. apply (Pt _ a0); [|eapply Pu; eauto].
    destruct (c_default c) as [[|]|]; try (injection E0 as <-; apply Pr).
    revert E0. apply (fold_res_inv (P s)); [apply Pr|]. intros t m t' _ Ht H1. eapply Pt; eauto.
Qed.

Lemma is_reopen_dec o : is_reopen o \/ ~ is_reopen o.
Proof. destruct o; cbn; auto. Qed.

Lemma step_inv o s : inv s -> inv (fst (step o s)).
Proof.
  intros I. destruct (is_reopen_dec o) as [R|R].
  { destruct o; cbn in R; try contradiction. destruct I as [I1 I2 I3 I4 I5]. cbn [step fst]. split.
    - eapply index_wf_ext; [..|exact I1]; reflexivity.
    - exact I2.
    - eapply weights_wf_ext; [..|exact I3]; reflexivity.
    - exact I4.
    - eapply maps_wf_ext; [|exact I5]; reflexivity. }
  pose proof (step_steps o s R) as St. destruct I as [I1 I2 I3 I4 I5]. split.
  - eapply (steps_inv index_wf); [exact index_wf_prim|exact St|exact I1].
  - destruct (honest_or o) as [H|H].
    + apply (ke_hash _ _ (step_kept o s H (Build_inv _ I1 I2 I3 I4 I5))). exact I2.
    + destruct (H s) as (H1 & H2 & _). eapply hash_same; [|exact H2|exact I2].
      intros i. unfold has_index. now rewrite H1.
  - eapply (steps_inv weights_wf); [exact weights_wf_prim|exact St|exact I3].
  - eapply (steps_inv (fun s => link_table (d_links s))); [exact link_table_prim|exact St|exact I4].
  - eapply (steps_inv maps_wf); [exact maps_wf_prim|exact St|exact I5].
Qed.

Lemma run_app a b s : run (a ++ b) s = run b (run a s).
Proof. revert s. induction a as [|o a IH]; intros s; cbn [run app]; auto. Qed.

Lemma run_inv_from ops s : inv s -> inv (run ops s).
Proof. revert s. induction ops as [|o ops IH]; intros s I; cbn [run]; auto. apply IH, step_inv, I. Qed.
Lemma run_inv ops : inv (run ops fresh).
Proof. apply run_inv_from, inv_fresh. Qed.

(** *** Ids are not reused *)

Lemma grows_refl s : grows s s.
Proof. split; [lia|auto]. Qed.
Lemma grows_trans a b c : grows a b -> grows b c -> grows a c.
Proof.
  intros [A1 A2] [B1 B2]. split; [lia|]. intros i Hi. destruct (B2 i Hi) as [H|H]; [auto|right; lia].
Qed.
Lemma step_grows o s : inv s -> grows s (fst (step o s)).
Proof.
  intros I. destruct (is_reopen_dec o) as [R|R].
  { destruct o; cbn in R; try contradiction. apply grows_ext; reflexivity. }
  pose proof (step_steps o s R) as St. pose proof (i_index _ I) as Ix. clear I R.
  assert (K : index_wf (fst (step o s)) /\ grows s (fst (step o s))); [|apply K].
  induction St as [s0|s0 s1 s' St IH P].
  - split; auto using grows_refl.
  - destruct (IH Ix) as [W G]. split; [eapply index_wf_prim; eauto|].
    eapply grows_trans; [exact G|]. eapply grows_prim; eauto.
Qed.
Lemma run_grows ops s : inv s -> grows s (run ops s).
Proof.
  revert s. induction ops as [|o ops IH]; intros s I; cbn [run]; [apply grows_refl|].
  eapply grows_trans; [apply step_grows, I|]. apply IH, step_inv, I.
Qed.

Lemma ids_not_reused ops1 ops2 ops3 i :
  has_index (run ops1 fresh) i -> ~ has_index (run (ops1 ++ ops2) fresh) i ->
  ~ has_index (run (ops1 ++ ops2 ++ ops3) fresh) i.
Proof.
  rewrite !run_app. intros H1 H2 H3.
  assert (I1 : inv (run ops1 fresh)) by apply run_inv.
  assert (I2 : inv (run ops2 (run ops1 fresh))) by now apply run_inv_from.
  destruct (run_grows ops3 _ I2) as [_ G]. destruct (G i H3) as [H|H]; [contradiction|].
  destruct (run_grows ops2 _ I1) as [Q _].
  destruct H1 as (r & Hr & <-). pose proof (iw_range _ (i_index _ I1) r Hr). lia.
Qed.

(** *** Foreign keys *)

Record inv_fk (s : db) : Prop := {
  f_fk : d_fk s = true;
  f_group : group_refs s;
  f_link : link_refs s;
  f_weight_index : weight_index_refs s;
  f_map_index : map_index_refs s;
  f_props : proportions_wf s
}.

Lemma fk_ok_iff s : fk_ok s = true <-> weight_index_refs s /\ map_index_refs s.
Proof.
  unfold fk_ok, weight_index_refs, map_index_refs, has_index. rewrite andb_true_iff, !forallb_forall. split.
  - intros [A B]. split.
    + intros w Hw. specialize (A w Hw). apply existsb_exists in A. destruct A as (r & Hr & E). exists r. split; auto. lia.
    + intros w Hw. specialize (B w Hw). apply existsb_exists in B. destruct B as (r & Hr & E). exists r. split; auto. lia.
  - intros [A B]. split.
    + intros w Hw. destruct (A w Hw) as (r & Hr & E). apply existsb_exists. exists r. split; auto. lia.
    + intros w Hw. destruct (B w Hw) as (r & Hr & E). apply existsb_exists. exists r. split; auto. lia.
Qed.

Lemma step_fk o s : ~ is_reopen o -> inv s -> inv_fk s -> inv_fk (fst (step o s)).
Proof.
  intros R I [F1 F2 F3 F4 F5 F6]. pose proof (step_steps o s R) as St.
  assert (Fk : d_fk (fst (step o s)) = true).
  { revert F1. apply (steps_inv (fun s => d_fk s = true)) with (s := s); [|exact St].
    intros a b P E. rewrite (fk_prim a b P). exact E. }
  assert (Refs : group_refs (fst (step o s)) /\ link_refs (fst (step o s))).
  { apply (steps_inv (fun s => d_fk s = true /\ group_refs s /\ link_refs s)) with (s := s); [|exact St|auto].
    intros a b P (E & G & L). rewrite (fk_prim a b P). split; auto. split;
      [eapply group_refs_prim|eapply link_refs_prim]; eauto. }
  assert (Ix : weight_index_refs (fst (step o s)) /\ map_index_refs (fst (step o s))).
  { assert (T : forall body, step o s = transact body s ->
        weight_index_refs (fst (step o s)) /\ map_index_refs (fst (step o s))).
    { intros body E. rewrite E in *. destruct (transact_cases body s) as [(s' & _ & Et & Hf)|(e & Et)];
        rewrite Et in *; cbn [fst] in *; auto. apply fk_ok_iff. auto. }
    destruct o; cbn in R; try (eapply T; reflexivity); try tauto.
    cbn [step]. destruct (reify_nolevel ref name criteria s (i_maps _ I)) as [A B]. split.
    - rewrite A. exact F4.
    - intros m Hm. destruct (nolevel_in _ _ _ B Hm) as (m' & Hm' & _ & _ & E & _). rewrite <- E.
      rewrite A. exact (F5 m' Hm'). }
  split; try tauto.
  destruct (honest_or o) as [H|H].
  - apply (ke_pr _ _ (step_kept o s H I)); auto. apply (i_maps _ (step_inv o s I)).
  - destruct (H s) as (_ & _ & Hm). eapply props_same; [exact Hm|exact F6].
Qed.

Lemma inv_fk_fresh : inv_fk fresh.
Proof. split; try (intros x []). reflexivity. Qed.

Lemma run_fk_from ops : forall s, Forall (fun o => ~ is_reopen o) ops -> inv s -> inv_fk s -> inv_fk (run ops s).
Proof.
  induction ops as [|o ops IH]; intros s H I F; cbn [run]; auto. inversion H; subst.
  apply IH; auto using step_inv. apply step_fk; auto.
Qed.
Lemma run_fk ops : Forall (fun o => ~ is_reopen o) ops -> inv_fk (run ops fresh).
Proof. intros H. apply run_fk_from; auto using inv_fresh, inv_fk_fresh. Qed.

(** *** Flags *)

Lemma run_sound ops : Forall honest ops ->
  group_flags_sound (run ops fresh) /\ link_flags_sound (run ops fresh).
Proof.
  intros H. assert (K : forall s, inv s -> group_flags_sound s -> link_flags_sound s ->
    group_flags_sound (run ops s) /\ link_flags_sound (run ops s)).
  { induction H as [|o ops Ho H IH]; intros s I A B; cbn [run]; auto.
    pose proof (step_kept o s Ho I) as K. apply IH; [now apply step_inv|now apply (ke_gs _ _ K)|now apply (ke_ls _ _ K)]. }
  apply K; [apply inv_fresh|intros g []|intros k []].
Qed.

Lemma run_sources ops : Forall honest ops -> link_sources (run ops fresh).
Proof.
  intros H. assert (K : forall s, inv s -> link_sources s -> link_sources (run ops s)).
  { induction H as [|o ops Ho H IH]; intros s I A; cbn [run]; auto.
    pose proof (step_kept o s Ho I) as K. apply IH; [now apply step_inv|now apply (ke_lx _ _ K)]. }
  apply K; [apply inv_fresh|intros k h []].
Qed.

Lemma run_full ops : Forall honest ops -> Forall (fun o => ~ is_reopen o) ops ->
  group_flags_full (run ops fresh) /\ link_flags_full (run ops fresh) /\ link_hashes (run ops fresh).
Proof.
  intros H R. assert (K : forall s, inv s -> inv_fk s -> group_flags_full s -> link_flags_full s -> link_hashes s ->
    group_flags_full (run ops s) /\ link_flags_full (run ops s) /\ link_hashes (run ops s)).
  { induction H as [|o ops Ho H IH]; intros s I F A B C; cbn [run]; auto. inversion R; subst.
    pose proof (step_kept o s Ho I) as K. destruct F as [F1 F2 F3 F4 F5 F6] eqn:Fe. apply IH; auto.
    - now apply step_inv.
    - apply step_fk; auto.
    - now apply (ke_gf _ _ K).
    - now apply (ke_lf _ _ K).
    - now apply (ke_lh _ _ K). }
  apply K; [apply inv_fresh|apply inv_fk_fresh|intros g []|intros k []|intros k []].
Qed.

Lemma run_exact ops : Forall honest ops -> Forall (fun o => ~ is_reopen o) ops ->
  group_flags_exact (run ops fresh) /\ link_flags_exact (run ops fresh) /\ link_hashes (run ops fresh).
Proof.
  intros H R. destruct (run_sound ops H) as [S1 S2]. destruct (run_full ops H R) as (F1 & F2 & F3).
  split; [|split; [|exact F3]].
  - intros g Hg He. split; [now apply S1|now apply F1].
  - intros k Hk He. split; [now apply S2|now apply F2].
Qed.
