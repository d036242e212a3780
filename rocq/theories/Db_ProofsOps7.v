(** What a new weight group or link starts with. *)
From Verif Require Import Prelude QLemmas Selectors_Model
  Selectors_Proofs LinkRef_Model LinkRef_Spec LinkRef_Proofs Db_Model Db_Spec Db_Proofs
  Db_ProofsLocal Db_ProofsMerge Db_ProofsRefresh Db_ProofsInv Db_ProofsInv2 Db_ProofsInv3
  Db_ProofsDelete Db_ProofsRun Db_ProofsOps Db_ProofsOps2 Db_ProofsOps3 Db_ProofsOps6.
From Coq Require Import ZifyBool ZifyNat Lqa.

Lemma refs_of ops : one_session ops -> weights_ref (run ops fresh) /\ maps_ref (run ops fresh).
Proof.
  intros H. destruct (run_fk ops H) as [_ G L W M _]. split; split; auto.
Qed.
Lemma props_of ops : one_session ops -> proportions_wf (run ops fresh).
Proof. intros H. apply (f_props _ (run_fk ops H)). Qed.

Lemma group_add_new n c s s' : group_add n c s = Ok s' ->
  exists i, s' = set_groups (d_groups s ++ [{| g_id := i; g_name := n; g_complete := c |}]) s /\
    ~ In i (map g_id (d_groups s)).
Proof.
  unfold group_add. intros H. destruct (group_by_name n s); [discriminate|]. apply Ok_inj in H. subst s'.
  eexists. split; [reflexivity|]. apply zmax_fresh.
Qed.

Lemma new_group_empty n c d s : weights_ref s -> snd (step (OAddGroup n c d) s) = None ->
  exists g, In g (d_groups (fst (step (OAddGroup n c d) s))) /\ g_name g = n /\
    (forall x, In x (d_groups s) -> g_id x <> g_id g) /\
    forall w, In w (d_weights (fst (step (OAddGroup n c d) s))) -> w_group w <> g_id g.
Proof.
  intros R. cbn [step]. destruct (transact_cases (add_weight_group n c d) s) as [(s' & E & -> & _)|(e & ->)]; cbn [fst snd];
    [|discriminate]. intros _. unfold add_weight_group in E. cbv zeta in E. destruct (group_by_name n s); [discriminate|].
  apply bind_ok in E. destruct E as (s1 & E1 & E). apply group_add_new in E1. destruct E1 as (i & E1 & Hi).
  assert (P : d_groups s' = d_groups s1 /\ d_weights s' = d_weights s1).
  { destruct (match d with None => _ | Some b => b end); [|apply Ok_inj in E; now subst].
    destruct (group_by_name n s1); [|discriminate]. unfold set_default_weight_group in E. apply Ok_inj in E. now subst. }
  destruct P as [P1 P2]. rewrite P1, P2, E1. cbn. eexists. split; [apply in_app_iff; right; left; reflexivity|].
  split; [reflexivity|]. cbn. split.
  - intros x Hx Q. apply Hi. rewrite <- Q. now apply in_map.
  - intros w Hw Q. destruct (wr_group _ R w Hw) as (g & Hg & Eg). apply Hi. rewrite <- Q, <- Eg. now apply in_map.
Qed.

Lemma new_link_empty new d s : inv s -> refs_if_enforced s -> maps_ref s -> snd (step (OAddLink new d) s) = None ->
  exists k, In k (d_links (fst (step (OAddLink new d) s))) /\ k_other k = k_other new /\ k_name k = k_name new /\
    (forall x, In x (d_links s) -> k_id x <> k_id k) /\
    forall m, In m (d_maps (fst (step (OAddLink new d) s))) -> m_link m <> k_id k.
Proof.
  intros I R M H. destruct (step_add_link new d s I R) as (_ & _ & K). specialize (K H).
  destruct K as (k & Hk & Hn & Eo & En & _ & _ & Es). exists k. split; auto. split; auto. split; auto. split.
  - intros x Hx Q. apply Hn. rewrite <- Q. now apply in_map.
  - rewrite Es. cbn. intros m Hm Q. destruct (mr_link _ M m Hm) as (k0 & Hk0 & Ek). apply Hn. rewrite <- Q, <- Ek. now apply in_map.
Qed.

Lemma same_hash ops1 ops2 : d_hash (run ops1 fresh) = d_hash (run ops2 fresh) <->
  forall i, has_index (run ops1 fresh) i <-> has_index (run ops2 fresh) i.
Proof.
  destruct (i_hash _ (run_inv ops1)) as [S1 H1], (i_hash _ (run_inv ops2)) as [S2 H2]. split.
  - intros E i. rewrite <- H1, <- H2, E. reflexivity.
  - intros E. apply sorted_ext; auto. intros i. rewrite H1, H2. auto.
Qed.

Lemma run_snoc ops o : run (ops ++ [o]) fresh = fst (step o (run ops fresh)).
Proof. rewrite run_app. reflexivity. Qed.

Lemma step_update_moved mg rows s s' : step (OUpdateIndex mg rows) s = (s', None) ->
  exists f, moved_by f s s' /\ forall j, has_index s' j -> has_index s j /\ f j = j.
Proof.
  cbn [step]. intros H. destruct (transact_cases (update_index mg rows) s) as [(t & E & Et & _)|(e & Et)]; rewrite Et in H;
    [|discriminate]. injection H as <-. eapply update_index_moved; eauto.
Qed.
Lemma step_update_merge s s' t i labels : inv s -> has_index s t ->
  In {| ix_id := i; ix_labels := labels |} (d_index s) -> i <> t ->
  step (OUpdateIndex true [{| ur_id := t; ur_labels := labels; ur_blank := false |}]) s = (s', None) ->
  i <> 0%Z /\ t <> 0%Z /\
  (forall r, In r (d_index s') <->
     r = {| ix_id := t; ix_labels := labels |} \/ In r (d_index s) /\ ix_id r <> t /\ ix_id r <> i) /\
  moved_by (merge_one i t) s s' /\
  (forall w, w_index w <> t -> w_index w <> i -> (In w (d_weights s') <-> In w (d_weights s))) /\
  (forall m, m_index m <> t -> m_index m <> i -> (In m (d_maps s') <-> In m (d_maps s))) /\
  map g_id (d_groups s') = map g_id (d_groups s) /\ map k_id (d_links s') = map k_id (d_links s).
Proof.
  intros I Ht Hi Hn H. cbn [step] in H.
  destruct (transact_cases (update_index true [{| ur_id := t; ur_labels := labels; ur_blank := false |}]) s)
    as [(u & E & Et & _)|(e & Et)]; rewrite Et in H; [|discriminate]. injection H as <-. eapply update_one_merge; eauto.
Qed.
