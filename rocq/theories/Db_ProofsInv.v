(** Effects of the operations on ids, completeness, source hashes and proportions. *)
From Verif Require Import Prelude QLemmas BitFlags_Model BitFlags_Proofs Selectors_Model
  Selectors_Proofs LinkRef_Model LinkRef_Spec LinkRef_Proofs Db_Model Db_Spec Db_Proofs
  Db_ProofsLocal Db_ProofsMerge Db_ProofsRefresh.
From Coq Require Import ZifyBool ZifyNat Lqa.

(** *** The invariants and what they depend on *)

Definition group_flags_full (s : db) : Prop :=
  forall g, In g (d_groups s) -> (exists i, defined s i) ->
    weight_complete s (g_id g) -> g_complete g = true.
Definition link_flags_full (s : db) : Prop :=
  forall k, In k (d_links s) -> (exists i, defined s i) ->
    link_complete s (k_id k) -> k_complete k = true.

Definition same_ids (s s' : db) : Prop := forall i, has_index s' i <-> has_index s i.
Definition same_weights (s s' : db) : Prop := forall g i, has_weight s' g i <-> has_weight s g i.
Definition same_targets (s s' : db) : Prop := forall l i, has_map s' l i <-> has_map s l i.
Definition same_sources (s s' : db) : Prop := forall l o, has_src s' l o <-> has_src s l o.

Lemma ids_eq s s' : map ix_id (d_index s') = map ix_id (d_index s) -> same_ids s s'.
Proof. intros E i. now rewrite !has_index_ids, E. Qed.
Lemma wkeys_eq s s' : map wkey (d_weights s') = map wkey (d_weights s) -> same_weights s s'.
Proof.
  intros E g i.
  assert (H : forall s, has_weight s g i <-> In (g, i) (map wkey (d_weights s))).
  { intros s0. unfold has_weight. rewrite in_map_iff. split.
    - intros (w & Hw & <- & <-). exists w. auto.
    - intros (w & Ew & Hw). exists w. unfold wkey in Ew. injection Ew. auto. }
  now rewrite !H, E.
Qed.
Lemma maps_eq_targets s s' : d_maps s' = d_maps s -> same_targets s s'.
Proof. intros E l i. unfold has_map. now rewrite E. Qed.
Lemma maps_eq_sources s s' : d_maps s' = d_maps s -> same_sources s s'.
Proof. intros E l i. unfold has_src. now rewrite E. Qed.

Lemma weight_complete_mono s s' g :
  (forall i, has_index s' i -> has_index s i) ->
  (forall i, has_index s' i -> has_weight s g i -> has_weight s' g i) ->
  weight_complete s g -> weight_complete s' g.
Proof. intros H1 H2 H i [Hi Hz]. apply H2; auto. apply H. split; auto. Qed.
Lemma link_complete_mono s s' l :
  (forall i, has_index s' i -> has_index s i) ->
  (forall i, has_index s' i -> has_map s l i -> has_map s' l i) ->
  link_complete s l -> link_complete s' l.
Proof. intros H1 H2 H i [Hi Hz]. apply H2; auto. apply H. split; auto. Qed.

Lemma gsound_mono s s' :
  (forall i, has_index s' i -> has_index s i) ->
  (forall g i, has_index s' i -> has_weight s g i -> has_weight s' g i) ->
  (forall g, In g (d_groups s') -> g_complete g = true ->
     exists g0, In g0 (d_groups s) /\ g_id g0 = g_id g /\ g_complete g0 = true) ->
  group_flags_sound s -> group_flags_sound s'.
Proof.
  intros H1 H2 H3 H g Hg Ec. destruct (H3 g Hg Ec) as (g0 & Hg0 & <- & Ec0).
  eapply weight_complete_mono; eauto.
Qed.
Lemma gfull_same s s' : same_ids s s' -> same_weights s s' ->
  (forall g, In g (d_groups s') -> exists g0, In g0 (d_groups s) /\ g_id g0 = g_id g /\
     (g_complete g0 = true -> g_complete g = true)) ->
  group_flags_full s -> group_flags_full s'.
Proof.
  intros H1 H2 H3 H g Hg (i & Hi & Hz) Hc. destruct (H3 g Hg) as (g0 & Hg0 & E & Ec).
  apply Ec, H; auto.
  - exists i. split; auto. now apply H1.
  - rewrite E. revert Hc. apply weight_complete_mono; intros; [now apply H1|now apply H2].
Qed.
Lemma lsound_mono s s' :
  (forall i, has_index s' i -> has_index s i) ->
  (forall l i, has_index s' i -> has_map s l i -> has_map s' l i) ->
  (forall k, In k (d_links s') -> k_complete k = true ->
     exists k0, In k0 (d_links s) /\ k_id k0 = k_id k /\ k_complete k0 = true) ->
  link_flags_sound s -> link_flags_sound s'.
Proof.
  intros H1 H2 H3 H g Hg Ec. destruct (H3 g Hg Ec) as (g0 & Hg0 & <- & Ec0).
  eapply link_complete_mono; eauto.
Qed.
Lemma lfull_same s s' : same_ids s s' -> same_targets s s' ->
  (forall k, In k (d_links s') -> exists k0, In k0 (d_links s) /\ k_id k0 = k_id k /\
     (k_complete k0 = true -> k_complete k = true)) ->
  link_flags_full s -> link_flags_full s'.
Proof.
  intros H1 H2 H3 H g Hg (i & Hi & Hz) Hc. destruct (H3 g Hg) as (g0 & Hg0 & E & Ec).
  apply Ec, H; auto.
  - exists i. split; auto. now apply H1.
  - rewrite E. revert Hc. apply link_complete_mono; intros; [now apply H1|now apply H2].
Qed.
Lemma sources_same s s' l h : (forall o, has_src s' l o <-> has_src s l o) ->
  sources_of s l h -> sources_of s' l h.
Proof.
  intros H [S I]. split; auto. intros o. rewrite I. specialize (H o). unfold has_src in H. rewrite H. reflexivity.
Qed.
Lemma lhash_same s s' : same_sources s s' ->
  (forall k, In k (d_links s') -> exists k0, In k0 (d_links s) /\ k_id k0 = k_id k /\ k_hash k0 = k_hash k) ->
  link_hashes s -> link_hashes s'.
Proof.
  intros H1 H2 H k Hk. destruct (H2 k Hk) as (k0 & Hk0 & E & Eh). destruct (H k0 Hk0) as [A B].
  rewrite E, Eh in *. split.
  - intros h Hh. eapply sources_same; [|apply A; exact Hh]. intros o. apply H1.
  - intros Hn m Hm Em. destruct (proj1 (H1 (k_id k) (m_other m))) as (m0 & Hm0 & E1 & E2).
    { exists m. auto. } apply (B Hn m0 Hm0). exact E1.
Qed.
Lemma lsrc_same s s' : same_sources s s' ->
  (forall k, In k (d_links s') -> exists k0, In k0 (d_links s) /\ k_id k0 = k_id k /\ k_hash k0 = k_hash k) ->
  link_sources s -> link_sources s'.
Proof.
  intros H1 H2 H k h Hk Hh. destruct (H2 k Hk) as (k0 & Hk0 & E & Eh). rewrite <- Eh in Hh.
  specialize (H k0 h Hk0 Hh). rewrite E in H. eapply sources_same; [|exact H]. intros o. apply H1.
Qed.
Lemma props_same s s' : d_maps s' = d_maps s -> proportions_wf s -> proportions_wf s'.
Proof. unfold proportions_wf, from. intros ->. auto. Qed.
Lemma hash_same s s' : same_ids s s' -> d_hash s' = d_hash s -> hash_wf s -> hash_wf s'.
Proof. intros H1 H2 [S I]. split; rewrite H2; auto. intros i. rewrite I. symmetry. apply H1. Qed.

(** *** What is done at the end of an operation *)

Lemma gsound_refreshed s : group_flags_sound (refresh_group_flags s).
Proof.
  intros g Hg Ec. cbn [refresh_group_flags set_groups d_groups] in Hg. apply in_map_iff in Hg.
  destruct Hg as (g0 & <- & Hg). cbn [g_complete g_id] in *. apply group_complete_iff in Ec. exact Ec.
Qed.
Lemma gfull_refreshed s : group_flags_full (refresh_group_flags s).
Proof.
  intros g Hg _ Hc. cbn [refresh_group_flags set_groups d_groups] in Hg. apply in_map_iff in Hg.
  destruct Hg as (g0 & <- & Hg). cbn [g_complete g_id] in *. apply group_complete_iff. exact Hc.
Qed.
Lemma gsound_raised s : group_flags_sound s -> group_flags_sound (raise_group_flags s).
Proof.
  intros H g Hg Ec. cbn [raise_group_flags set_groups d_groups] in Hg. apply in_map_iff in Hg.
  destruct Hg as (g0 & <- & Hg). cbn [g_complete g_id] in *. apply orb_true_iff in Ec.
  destruct Ec as [Ec|Ec]; [exact (H g0 Hg Ec)|]. apply group_complete_iff in Ec. exact Ec.
Qed.
Lemma gfull_raised s : group_flags_full (raise_group_flags s).
Proof.
  intros g Hg _ Hc. cbn [raise_group_flags set_groups d_groups] in Hg. apply in_map_iff in Hg.
  destruct Hg as (g0 & <- & Hg). cbn [g_complete g_id] in *. apply orb_true_iff. right.
  apply group_complete_iff. exact Hc.
Qed.
Lemma lsound_raised h s : link_flags_sound s ->
  link_flags_sound (set_links (map (fun k => with_status (h k)
      (k_complete k || mapping_is_complete (k_id k) s) k) (d_links s)) s).
Proof.
  intros H g Hg Ec. cbn [set_links d_links] in Hg. apply in_map_iff in Hg.
  destruct Hg as (g0 & <- & Hg). cbn [k_complete k_id with_status] in *. apply orb_true_iff in Ec.
  destruct Ec as [Ec|Ec]; [exact (H g0 Hg Ec)|]. apply link_complete_iff in Ec. exact Ec.
Qed.
Lemma lfull_raised h s :
  link_flags_full (set_links (map (fun k => with_status (h k)
      (k_complete k || mapping_is_complete (k_id k) s) k) (d_links s)) s).
Proof.
  intros g Hg _ Hc. cbn [set_links d_links] in Hg. apply in_map_iff in Hg.
  destruct Hg as (g0 & <- & Hg). cbn [k_complete k_id with_status] in *. apply orb_true_iff. right.
  apply link_complete_iff. exact Hc.
Qed.
Lemma lhash_refreshed s : link_hashes (refresh_links s).
Proof.
  intros g Hg. cbn [refresh_links set_links d_links] in Hg. apply in_map_iff in Hg.
  destruct Hg as (g0 & <- & Hg). cbn [k_hash k_id with_status]. split; [|discriminate].
  intros h Hh. injection Hh as <-. exact (distinct_others_spec (k_id g0) s).
Qed.

(** *** insert_index *)

Record ins_effect (s : db) (label weight : bool) (s' : db) : Prop := {
  ie_groups : d_groups s' = d_groups s;
  ie_links : d_links s' = d_links s;
  ie_maps : d_maps s' = d_maps s;
  ie_hash : d_hash s' = d_hash s;
  ie_wf : index_wf s' /\ (d_seq s <= d_seq s')%Z;
  ie_ids : label = false -> map ix_id (d_index s') = map ix_id (d_index s);
  ie_new : label = true -> exists i, has_index s' i /\ (d_seq s < i)%Z;
  ie_weights : weight = false -> map wkey (d_weights s') = map wkey (d_weights s)
}.

Lemma ins_weights s lb wt s1 s2 : ins_effect s lb wt s1 ->
  (exists w, s2 = set_weights w s1 /\ map wkey w = map wkey (d_weights s1)) -> ins_effect s lb wt s2.
Proof.
  intros [] (w & -> & E). split; cbn [set_weights d_groups d_links d_maps d_hash d_index d_seq d_weights]; auto.
  - destruct ie_wf0. split; auto. eapply index_wf_ext; [..|eassumption]; reflexivity.
  - intros Hw. rewrite E. auto.
Qed.

Lemma index_update_ids i labels s s' : index_update i labels s = Ok s' ->
  map ix_id (d_index s') = map ix_id (d_index s) /\ s' = set_index (d_index s') s.
Proof.
  intros H. unfold index_update in H. repeat step_res H; subst; cbn [set_index set_labels_index d_index].
  - split; [|reflexivity]. rewrite map_map. apply map_ext. intros r.
    destruct (ix_id r =? i)%Z eqn:Ei; cbn; lia.
  - split; auto. now destruct s'.
Qed.
Lemma has_index_same_list s s' i : map ix_id (d_index s') = map ix_id (d_index s) ->
  (has_index s' i <-> has_index s i).
Proof. intros E. now rewrite !has_index_ids, E. Qed.

Lemma insert_loop_effect gs lp wp rows s st : index_wf s ->
  fold_res (insert_index_row lp wp gs) rows {| is_db := s; is_label := false; is_weight := false |} = Ok st ->
  ins_effect s (is_label st) (is_weight st) (is_db st).
Proof.
  intros W. apply (fold_res_inv (fun st => ins_effect s (is_label st) (is_weight st) (is_db st))).
  { split; cbn [is_db is_label is_weight]; auto; [split; auto; lia|discriminate]. }
  clear st. intros st r st' _ I H. unfold insert_index_row in H. step_res H; [injection H as <-; auto|].
  step_res H.
  assert (I1 : ins_effect s (is_label (fst a)) (is_weight (fst a)) (is_db (fst a))).
  { repeat step_res E0; subst; cbn [fst is_db is_label is_weight]; auto; destruct I.
    - match goal with H : index_update _ _ _ = Ok _ |- _ => pose proof (index_update_ids _ _ _ _ H) as [Ei Es];
        pose proof (p_index_update _ _ _ _ H) as Pi end.
      destruct ie_wf0 as [Iw Is]. pose proof (index_wf_prim _ _ Pi Iw) as Iw'.
      rewrite Es in *. split; cbn [set_index set_labels_index d_groups d_links d_maps d_hash d_index d_seq d_weights] in *; auto.
      + intros Hl. rewrite Ei. auto.
      + intros Hl. destruct (ie_new0 Hl) as (j & Hj & Hs). exists j. split; auto.
        apply (has_index_same_list (is_db st)); auto.
    - match goal with H : index_add _ _ = Ok _ |- _ => rename H into Ha end.
      destruct ie_wf0 as [Iw Is]. destruct (index_wf_add _ _ _ _ Iw Ha) as [Iw' Hi].
      unfold index_add in Ha. destruct (ir_labels r); [discriminate|]. repeat step_res Ha. subst.
      split; cbn [set_index_seq d_groups d_links d_maps d_hash d_index d_seq d_weights] in *; auto.
      + split; auto. lia.
      + discriminate.
      + intros _. eexists. split; [|eapply Z.le_lt_trans; [exact Is|exact Hi]].
        eexists. split; [cbn [set_index_seq d_index]; apply in_app_iff; right; left; reflexivity|reflexivity]. }
  clear I E E0. revert H. apply (fold_res_inv (fun st => ins_effect s (is_label st) (is_weight st) (is_db st))); auto.
  intros st1 [og cc] st1' _ J H. unfold insert_index_weight in H.
  repeat step_res H; subst; cbn [is_db is_label is_weight]; auto.
  - eapply ins_weights; [exact J|].
    match goal with H : weight_update _ _ _ _ = Ok _ |- _ => pose proof (weight_update_keys _ _ _ _ _ H) as Ek;
      unfold weight_update in H; repeat step_res H; subst end.
    eexists. split; [reflexivity|exact Ek].
  - match goal with H : weight_add _ _ _ _ = Ok _ |- _ => unfold weight_add in H; repeat step_res H; subst end.
    destruct J. split; cbn [set_weights d_groups d_links d_maps d_hash d_index d_seq d_weights]; auto; [|discriminate].
    destruct ie_wf0. split; auto. eapply index_wf_ext; [..|eassumption]; reflexivity.
Qed.

(** What the whole operation leaves. *)
Definition map_index_refs (s : db) : Prop := forall m, In m (d_maps s) -> has_index s (m_index m).
Definition weight_index_refs (s : db) : Prop := forall w, In w (d_weights s) -> has_index s (w_index w).

Record kept (s s' : db) : Prop := {
  ke_hash : hash_wf s -> hash_wf s';
  ke_gs : group_flags_sound s -> group_flags_sound s';
  ke_ls : link_flags_sound s -> link_flags_sound s';
  ke_gf : d_fk s = true -> group_refs s -> group_flags_full s -> group_flags_full s';
  ke_lf : d_fk s = true -> link_refs s -> map_index_refs s -> link_flags_full s -> link_flags_full s';
  ke_lh : d_fk s = true -> link_refs s -> link_hashes s -> link_hashes s';
  ke_pr : d_fk s = true -> link_refs s -> maps_wf s' -> proportions_wf s -> proportions_wf s';
  ke_lx : link_sources s -> link_sources s'
}.

Lemma insert_index_kept a b c d e s s' : index_wf s -> insert_index a b c d e s = Ok s' -> kept s s'.
Proof.
  intros W H. unfold insert_index in H. repeat step_res H. subst s'. cbv zeta.
  rename E2 into Hl. apply insert_loop_effect in Hl; auto. destruct Hl as [Eg El Em Eh [Iw Is] Ei En Ew].
  destruct a1 as [t lb wt]. cbn [is_db is_label is_weight] in *.
  assert (Hids : lb = false -> same_ids s t) by (intros L; apply ids_eq; auto).
  assert (Hw : wt = false -> same_weights s t) by (intros L; apply wkeys_eq; auto).
  set (s1 := if lb then clear_link_flags (refresh_hash t) else t).
  assert (F1 : d_groups s1 = d_groups t /\ d_weights s1 = d_weights t /\ d_maps s1 = d_maps t /\ d_index s1 = d_index t).
  { unfold s1. destruct lb; auto. }
  destruct F1 as (G1 & W1 & M1 & I1).
  set (s2 := if lb || wt then refresh_group_flags s1 else s1).
  assert (F2 : d_weights s2 = d_weights t /\ d_maps s2 = d_maps t /\ d_index s2 = d_index t /\
               d_links s2 = d_links s1 /\ d_hash s2 = d_hash s1).
  { unfold s2. destruct (lb || wt); auto. }
  destruct F2 as (W2 & M2 & I2 & L2 & H2).
  assert (Hi2 : forall i, has_index s2 i <-> has_index t i) by (unfold has_index; rewrite I2; tauto).
  assert (Hm2 : same_targets s s2) by (apply maps_eq_targets; congruence).
  assert (Hs2 : same_sources s s2) by (apply maps_eq_sources; congruence).
  split.
  - intros Hh. destruct lb eqn:Lb.
    + pose proof (hash_refreshed t (iw_unique _ Iw)) as [S I]. split; rewrite H2; unfold s1; cbn [clear_link_flags set_links d_hash]; auto.
    + apply (hash_same s); auto.
      * intros i. rewrite Hi2. now apply Hids.
      * rewrite H2. exact Eh.
  - intros Hg. unfold s2. destruct (lb || wt) eqn:B; [apply gsound_refreshed|].
    apply orb_false_iff in B. destruct B as [-> ->]. cbn in s1. unfold s1.
    apply (gsound_mono s); auto; intros; try (apply Hids; auto); try (apply Hw; auto).
    rewrite Eg in *. eauto.
  - intros Hk k Hk2 Ek. rewrite L2 in Hk2. unfold s1 in Hk2. destruct lb eqn:Lb.
    + cbn [clear_link_flags set_links d_links] in Hk2. apply in_map_iff in Hk2.
      destruct Hk2 as (k0 & <- & _). discriminate Ek.
    + rewrite El in Hk2. apply (link_complete_mono s); auto; intros.
      * apply Hids; auto. now apply Hi2.
      * now apply Hm2.
  - intros _ _ Hg. unfold s2. destruct (lb || wt) eqn:B; [apply gfull_refreshed|].
    apply orb_false_iff in B. destruct B as [-> ->]. cbn in s1. unfold s1.
    apply (gfull_same s); auto. rewrite Eg. intros g Hg'. exists g. auto.
  - intros _ _ Hr Hf. destruct lb eqn:Lb.
    + intros k _ _ Hc. exfalso. destruct (En eq_refl) as (i & Hi & Hs).
      assert (Hz : (0 <= d_seq s)%Z) by (pose proof (iw_range _ W _ (iw_undefined _ W)); cbn in *; lia).
      destruct (Hc i) as (m & Hm & Q1 & Q2). { split; [now apply Hi2|lia]. }
      rewrite M2, Em in Hm. destruct (Hr m Hm) as (r & Hr' & Er).
      pose proof (iw_range _ W r Hr'). lia.
    + apply (lfull_same s); auto.
      * intros i. rewrite Hi2. now apply Hids.
      * rewrite L2. unfold s1. rewrite El. eauto.
  - intros _ _ Hh. apply (lhash_same s); auto. intros k Hk. rewrite L2 in Hk. unfold s1 in Hk.
    destruct lb; [|rewrite El in Hk; exists k; auto].
    cbn [clear_link_flags refresh_hash set_hash set_links d_links] in Hk. rewrite El in Hk.
    apply in_map_iff in Hk. destruct Hk as (k0 & <- & Hk). exists k0. auto.
  - intros _ _ _ Hp. apply (props_same s); auto. congruence.
  - apply (lsrc_same s); auto. intros k Hk. rewrite L2 in Hk. unfold s1 in Hk.
    destruct lb; [|rewrite El in Hk; exists k; auto].
    cbn [clear_link_flags refresh_hash set_hash set_links d_links] in Hk. rewrite El in Hk.
    apply in_map_iff in Hk. destruct Hk as (k0 & <- & Hk). exists k0. auto.
Qed.
