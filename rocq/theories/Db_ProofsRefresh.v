(** Sorting ids, completeness tests and refreshed proportions. *)
From Verif Require Import Prelude QLemmas BitFlags_Model BitFlags_Proofs Selectors_Model
  Selectors_Proofs LinkRef_Model LinkRef_Spec LinkRef_Proofs Db_Model Db_Spec Db_Proofs
  Db_ProofsLocal Db_ProofsMerge.
From Coq Require Import ZifyBool ZifyNat Lqa.

Lemma zinsert_in x l y : In y (zinsert x l) <-> y = x \/ In y l.
Proof.
  induction l as [|a l IH]; cbn [zinsert]; [cbn; intuition|].
  destruct (x <=? a)%Z; cbn [In]; [intuition|]. rewrite IH. intuition.
Qed.
Lemma zsort_in l y : In y (zsort l) <-> In y l.
Proof.
  induction l as [|a l IH]; cbn; [tauto|]. fold (zsort l). rewrite zinsert_in, IH. intuition.
Qed.
Lemma zinsert_sorted x l : StronglySorted Z.lt l -> ~ In x l -> StronglySorted Z.lt (zinsert x l).
Proof.
  induction l as [|a l IH]; cbn [zinsert]; intros S N; [repeat constructor|].
  inversion S as [|u v S1 F]; subst. destruct (x <=? a)%Z eqn:E.
  - constructor; auto. rewrite Forall_forall in *. intros y [<-|Hy]; [cbn in N; lia|].
    specialize (F y Hy). cbn in N. lia.
  - constructor; [apply IH; auto; intros H; apply N; now right|].
    rewrite Forall_forall in *. intros y Hy. apply zinsert_in in Hy. destruct Hy as [->|Hy]; auto. lia.
Qed.
Lemma zsort_sorted l : NoDup l -> StronglySorted Z.lt (zsort l).
Proof.
  induction l as [|a l IH]; cbn; intros N; [constructor|]. fold (zsort l).
  inversion N; subst. apply zinsert_sorted; auto. now rewrite zsort_in.
Qed.

Lemma has_index_ids s i : has_index s i <-> In i (map ix_id (d_index s)).
Proof. unfold has_index. rewrite in_map_iff. split; intros (r & A & B); exists r; auto. Qed.

Lemma hash_refreshed s : NoDup (map ix_id (d_index s)) -> hash_wf (refresh_hash s).
Proof.
  intros N. split; cbn [refresh_hash set_hash d_hash].
  - now apply zsort_sorted.
  - intros i. rewrite zsort_in. symmetry. apply (has_index_ids s).
Qed.

Definition has_weight (s : db) (g i : Z) : Prop :=
  exists w, In w (d_weights s) /\ w_group w = g /\ w_index w = i.
Definition has_map (s : db) (l i : Z) : Prop :=
  exists m, In m (d_maps s) /\ m_link m = l /\ m_index m = i.
Definition has_src (s : db) (l o : Z) : Prop :=
  exists m, In m (d_maps s) /\ m_link m = l /\ m_other m = o.

Lemma group_complete_iff g s : group_is_complete g s = true <-> weight_complete s g.
Proof.
  unfold group_is_complete, weight_complete, defined. rewrite forallb_forall. split.
  - intros H i ((r & Hr & <-) & Hi). specialize (H r Hr). apply orb_true_iff in H.
    destruct H as [H|H]; [lia|]. apply existsb_exists in H. destruct H as (w & Hw & E).
    apply weight_is_iff in E. exists w. tauto.
  - intros H r Hr. destruct (ix_id r =? 0)%Z eqn:E; auto. cbn [orb].
    destruct (H (ix_id r)) as (w & Hw & E1 & E2); [split; [exists r; auto|lia]|].
    apply existsb_exists. exists w. split; auto. apply weight_is_iff. auto.
Qed.
Lemma link_complete_iff l s : mapping_is_complete l s = true <-> link_complete s l.
Proof.
  unfold mapping_is_complete, link_complete, defined. rewrite forallb_forall. split.
  - intros H i ((r & Hr & <-) & Hi). specialize (H r Hr). apply orb_true_iff in H.
    destruct H as [H|H]; [lia|]. apply existsb_exists in H. destruct H as (w & Hw & E).
    exists w. repeat split; auto; lia.
  - intros H r Hr. destruct (ix_id r =? 0)%Z eqn:E; auto. cbn [orb].
    destruct (H (ix_id r)) as (w & Hw & E1 & E2); [split; [exists r; auto|lia]|].
    apply existsb_exists. exists w. split; auto. lia.
Qed.

Lemma distinct_others_spec l s : sources_of s l (distinct_others l s).
Proof.
  unfold distinct_others, sources_of.
  set (ids := nodup Z.eq_dec _).
  assert (Hin : forall o, In o ids <-> (0 < o)%Z /\ exists m, In m (d_maps s) /\ m_link m = l /\ m_other m = o).
  { intros o. unfold ids. rewrite nodup_In, in_map_iff. split.
    - intros (m & <- & Hm). apply filter_In in Hm. destruct Hm as [Hm E].
      split; [lia|]. exists m. repeat split; auto. lia.
    - intros (Ho & m & Hm & E1 & E2). exists m. split; auto. apply filter_In. split; auto. lia. }
  split.
  - constructor; [apply zsort_sorted, NoDup_nodup|]. apply Forall_forall. intros o Ho.
    apply zsort_in, Hin in Ho. lia.
  - intros o. cbn [In]. rewrite zsort_in, Hin. intuition.
Qed.

Lemma sorted_ext l l' : StronglySorted Z.lt l -> StronglySorted Z.lt l' ->
  (forall x, In x l <-> In x l') -> l = l'.
Proof.
  revert l'. induction l as [|a l IH]; intros [|b l'] S S' H; auto.
  - exfalso. apply (H b). now left.
  - exfalso. apply (H a). now left.
  - inversion S as [|? ? S1 F]; inversion S' as [|? ? S1' F']; subst. rewrite Forall_forall in F, F'.
    assert (a = b) as ->.
    { destruct (proj1 (H a)) as [E|E]; [now left|auto|]. destruct (proj2 (H b)) as [E'|E']; [now left|auto|].
      specialize (F b E'). specialize (F' a E). lia. }
    f_equal. apply IH; auto. intros x. split; intros Hx.
    + destruct (proj1 (H x)) as [E|E]; [now right| |auto]. subst. specialize (F _ Hx). lia.
    + destruct (proj2 (H x)) as [E|E]; [now right| |auto]. subst. specialize (F' _ Hx). lia.
Qed.

(** *** Proportions *)

Definition noprop (m : mapping) : mapping := with_prop m None.

(** [s'] differs from [s] in nothing but proportions. *)
Definition reprop (s s' : db) : Prop :=
  s' = set_maps (d_maps s') s /\ map noprop (d_maps s') = map noprop (d_maps s).

Lemma reprop_refl s : reprop s s.
Proof. split; auto. now destruct s. Qed.
Lemma reprop_trans a b c : reprop a b -> reprop b c -> reprop a c.
Proof.
  intros [E1 M1] [E2 M2]. split; [|congruence]. rewrite E2, E1. unfold set_maps. cbn. reflexivity.
Qed.

Lemma map_at_iff l o m : map_at l o m = true <-> m_link m = l /\ m_other m = o.
Proof. unfold map_at. lia. Qed.

Lemma refreshed_prop o ms m : exists p, refreshed o ms m = with_prop m (Some p).
Proof. unfold refreshed. destruct (o =? 0)%Z; eexists; reflexivity. Qed.
Lemma refreshed_at l o o' ms m : map_at l o (refreshed o' ms m) = map_at l o m.
Proof. destruct (refreshed_prop o' ms m) as (p & ->). auto. Qed.

Lemma refresh_eq l o s s' : refresh_proportions l o s = Ok s' ->
  s' = set_maps (map (fun m => if map_at l o m then refreshed o (from l o s) m else m) (d_maps s)) s.
Proof.
  unfold refresh_proportions. cbv zeta. intros H. repeat step_res H. subst s'. reflexivity.
Qed.

Lemma refresh_reprop l o s s' : refresh_proportions l o s = Ok s' -> reprop s s'.
Proof.
  intros H. apply refresh_eq in H. subst s'. split; [reflexivity|]. cbn [d_maps set_maps].
  rewrite map_map. apply map_ext. intros m. destruct (map_at l o m); auto.
  destruct (refreshed_prop o (from l o s) m) as (p & ->). reflexivity.
Qed.

Lemma from_refresh l o s s' : refresh_proportions l o s = Ok s' ->
  from l o s' = map (refreshed o (from l o s)) (from l o s).
Proof.
  intros H. apply refresh_eq in H. subst s'. unfold from at 1. cbn [d_maps set_maps].
  rewrite filter_map_swap.
  rewrite (filter_ext_in' _ (map_at l o)).
  - change (filter (map_at l o) (d_maps s)) with (from l o s). apply map_ext_in.
    intros m Hm. unfold from in Hm. apply filter_In in Hm.
    destruct Hm as [_ E]. change (map_at l o m = true) in E. rewrite E. reflexivity.
  - intros m _. change (map_at l o (if map_at l o m then refreshed o (from l o s) m else m) = map_at l o m).
    destruct (map_at l o m) eqn:E; [|exact E].
    rewrite (refreshed_at l o o (from l o s) m). exact E.
Qed.
Lemma from_refresh_other l o l' o' s s' : refresh_proportions l o s = Ok s' ->
  (l', o') <> (l, o) -> from l' o' s' = from l' o' s.
Proof.
  intros H Hne. apply refresh_eq in H. subst s'. unfold from at 1. cbn [d_maps set_maps].
  rewrite filter_map_swap. unfold from at 2.
  rewrite (filter_ext_in' _ (map_at l' o')).
  - rewrite (map_ext_in _ (fun m => m)); [apply map_id|].
    intros m Hm. apply filter_In in Hm. destruct Hm as [_ E]. apply map_at_iff in E.
    destruct (map_at l o m) eqn:E1; auto. apply map_at_iff in E1. exfalso. apply Hne.
    destruct E, E1; congruence.
  - intros m _. change (map_at l' o' (if map_at l o m then refreshed o (from l o s) m else m) = map_at l' o' m).
    destruct (map_at l o m); auto. apply (refreshed_at l' o' o (from l o s) m).
Qed.

(** Shares after a refresh add up to one. *)
Lemma refreshed_sum o ms : o <> 0%Z -> ms <> [] ->
  (Qsum (map share (map (refreshed o ms) ms)) == 1)%Q.
Proof.
  intros Ho Hm. rewrite map_map. unfold refreshed.
  destruct (o =? 0)%Z eqn:E; [lia|]. cbn [share m_prop with_prop].
  destruct (Qeq_bool (Qsum (map m_value ms)) 0) eqn:E0.
  - change (fun x : mapping => (1 / inject_Z (Z.of_nat (length ms)))%Q)
      with (fun _ : mapping => (1 / inject_Z (Z.of_nat (length ms)))%Q).
    rewrite Qsum_const.
    assert (~ (inject_Z (Z.of_nat (length ms)) == 0)%Q).
    { apply inject_nat_pos. destruct ms; [congruence|cbn; lia]. }
    field. exact H.
  - assert (Hn : ~ (Qsum (map m_value ms) == 0)%Q) by (intros H; apply Qeq_bool_iff in H; congruence).
    unfold share. cbn [m_prop with_prop].
    rewrite (Qsum_ext _ (fun x => (/ Qsum (map m_value ms)) * m_value x)%Q) by (intros; field; exact Hn).
    rewrite Qsum_scale. field. exact Hn.
Qed.

(** Condition on one source of one link. *)
Definition good (l o : Z) (s : db) : Prop :=
  forall m, In m (from l o s) ->
    (o = 0%Z -> exists p, m_prop m = Some p /\ (p == 0)%Q) /\
    ((0 < o)%Z -> m_prop m <> None /\ (Qsum (map share (from l o s)) == 1)%Q).

Lemma from_in l o s m : In m (from l o s) <-> In m (d_maps s) /\ m_link m = l /\ m_other m = o.
Proof. unfold from. rewrite filter_In. fold (map_at l o m). rewrite map_at_iff. tauto. Qed.

Lemma proportions_good s : proportions_wf s <-> forall l o, good l o s.
Proof.
  split.
  - intros H l o m Hm. pose proof Hm as Hm'. apply from_in in Hm'. destruct Hm' as (Hm' & <- & <-).
    apply (H m Hm').
  - intros H m Hm. apply H. apply from_in. auto.
Qed.

Lemma good_refresh l o s s' : refresh_proportions l o s = Ok s' -> good l o s'.
Proof.
  intros H m Hm. rewrite (from_refresh _ _ _ _ H) in *. split.
  - intros ->. apply in_map_iff in Hm. destruct Hm as (m0 & <- & _). cbn. exists 0%Q. split; auto. reflexivity.
  - intros Ho. split.
    + apply in_map_iff in Hm. destruct Hm as (m0 & <- & _).
      destruct (refreshed_prop o (from l o s) m0) as (p & ->). discriminate.
    + apply refreshed_sum; [lia|]. intros E. rewrite E in Hm. destruct Hm.
Qed.
Lemma good_keep l o l' o' s s' : refresh_proportions l o s = Ok s' -> good l' o' s -> good l' o' s'.
Proof.
  intros H G. destruct (Z.eq_dec l' l) as [->|Hl]; [destruct (Z.eq_dec o' o) as [->|Ho]|].
  - now apply good_refresh in H.
  - unfold good. rewrite (from_refresh_other _ _ _ _ _ _ H); auto. congruence.
  - unfold good. rewrite (from_refresh_other _ _ _ _ _ _ H); auto. congruence.
Qed.

(** A series of refreshes. *)
Definition refreshes (los : list (Z * Z)) (s : db) : res db :=
  fold_res (fun s lo => refresh_proportions (fst lo) (snd lo) s) los s.

Lemma refreshes_app a b s : refreshes (a ++ b) s = (do s1 <- refreshes a s; refreshes b s1).
Proof.
  unfold refreshes. revert s. induction a as [|x a IH]; intros s; cbn [app fold_res]; auto.
  destruct (refresh_proportions (fst x) (snd x) s); cbn [bind]; auto.
Qed.

Lemma refreshes_spec los : forall s s', refreshes los s = Ok s' ->
  reprop s s' /\
  (forall l o, In (l, o) los -> good l o s') /\
  (forall l o, good l o s -> good l o s') /\
  (forall l o, ~ In (l, o) los -> from l o s' = from l o s).
Proof.
  induction los as [|[l0 o0] los IH]; intros s s' H; unfold refreshes in H; cbn [fold_res fst snd] in H.
  - injection H as <-. split; [apply reprop_refl|]. cbn. tauto.
  - step_res H. destruct (IH _ _ H) as (R & G & K & F). split; [|split; [|split]].
    + eapply reprop_trans; [eapply refresh_reprop; exact E|exact R].
    + intros l o [Hlo|Hlo]; auto. injection Hlo as <- <-. apply K. eapply good_refresh; exact E.
    + intros l o Hg. apply K. eapply good_keep; eauto.
    + intros l o Hn. rewrite F by (intros Hin; apply Hn; now right).
      eapply from_refresh_other; [exact E|]. intros Eq. apply Hn. left. auto.
Qed.

(** A refresh never fails on well-formed mappings. *)
Lemma Qdiv_01 v t : (0 <= v)%Q -> (v <= t)%Q -> ~ (t == 0)%Q -> (0 <= v / t <= 1)%Q.
Proof.
  intros H1 H2 H3. assert (0 < t)%Q by (destruct (Qlt_le_dec 0 t); auto; exfalso; apply H3; lra).
  split.
  - apply Qle_shift_div_l; auto. lra.
  - apply Qle_shift_div_r; auto. lra.
Qed.

Lemma refreshed_ok o ms m : (forall x, In x ms -> map_ok x = true) -> In m ms ->
  map_ok (refreshed o ms m) = true.
Proof.
  intros Hk Hm. assert (Hall : forall x, In x ms -> (0 <= m_value x)%Q).
  { intros x Hx. apply Hk, map_ok_iff in Hx. tauto. }
  pose proof (Hk m Hm) as Km. apply map_ok_iff in Km. apply map_ok_iff.
  destruct Km as (Kv & _ & Kz). unfold refreshed. destruct (o =? 0)%Z; cbn [m_value m_prop m_other m_index with_prop].
  - repeat split; auto; injection H as <-; lra.
  - split; [exact Kv|]. split; [|exact Kz]. intros p Hp. injection Hp as <-.
    destruct (Qeq_bool (Qsum (map m_value ms)) 0) eqn:E0.
    + assert (Hn : (1 <= inject_Z (Z.of_nat (length ms)))%Q).
      { change 1%Q with (inject_Z 1). rewrite <- Zle_Qle. destruct ms; [destruct Hm|cbn; lia]. }
      apply Qdiv_01; try lra.
    + apply Qdiv_01; auto.
      * apply Qsum_nonneg_le; [|now apply in_map]. intros y Hy. apply in_map_iff in Hy.
        destruct Hy as (x & <- & Hx). auto.
      * intros H. apply Qeq_bool_iff in H. congruence.
Qed.

Lemma refresh_total l o s : maps_wf s -> exists s', refresh_proportions l o s = Ok s'.
Proof.
  intros W. apply maps_wf_alt in W. destruct W as [_ K]. unfold refresh_proportions. cbv zeta.
  fold (from l o s).
  assert (E1 : (o =? 0)%Z && existsb (fun m => (m_index m =? 0)%Z) (from l o s) = false).
  { destruct (o =? 0)%Z eqn:Eo; auto. cbn [andb]. apply existsb_false_iff. intros m Hm.
    apply from_in in Hm. destruct Hm as (Hm & _ & Em). apply K, map_ok_iff in Hm.
    destruct Hm as (_ & _ & Hz). lia. }
  change (filter (map_at l o) (d_maps s)) with (from l o s). rewrite E1.
  assert (E2 : forallb (fun m => map_ok (refreshed o (from l o s) m)) (from l o s) = true).
  { apply forallb_forall. intros m Hm. apply refreshed_ok; auto. intros x Hx. apply K.
    apply from_in in Hx. tauto. }
  rewrite E2. cbn [negb]. eauto.
Qed.
Lemma refreshes_total los : forall s, maps_wf s -> exists s', refreshes los s = Ok s'.
Proof.
  induction los as [|[l o] los IH]; intros s W; [exists s; reflexivity|].
  destruct (refresh_total l o s W) as (s1 & E). unfold refreshes. cbn [fold_res fst snd]. rewrite E. cbn [bind].
  apply IH. eapply maps_wf_prim; [eapply p_refresh; exact E|exact W].
Qed.

(** Everything but proportions is the same in [reprop] states. *)
Lemma reprop_maps s s' : reprop s s' -> forall P : mapping -> Prop,
  (forall m p, P (with_prop m p) <-> P m) ->
  (exists m, In m (d_maps s') /\ P m) <-> (exists m, In m (d_maps s) /\ P m).
Proof.
  intros [_ E] P HP.
  assert (Haux : forall l l' : list mapping, map noprop l = map noprop l' ->
            (exists m, In m l /\ P m) -> exists m, In m l' /\ P m).
  { intros l l' E1 (m & Hm & Pm). apply (in_map noprop) in Hm. rewrite E1 in Hm.
    apply in_map_iff in Hm. destruct Hm as (m' & E2 & Hm'). exists m'. split; auto.
    apply (HP m' None). fold (noprop m'). rewrite E2. now apply HP. }
  split; apply Haux; auto.
Qed.
Lemma reprop_has_map s s' l i : reprop s s' -> (has_map s' l i <-> has_map s l i).
Proof. intros R. apply (reprop_maps _ _ R (fun m => m_link m = l /\ m_index m = i)). cbn. tauto. Qed.
Lemma reprop_has_src s s' l i : reprop s s' -> (has_src s' l i <-> has_src s l i).
Proof. intros R. apply (reprop_maps _ _ R (fun m => m_link m = l /\ m_other m = i)). cbn. tauto. Qed.
