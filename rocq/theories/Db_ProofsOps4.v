(** Effects of single operations: deleting mappings, adding and editing links. *)
From Verif Require Import Prelude QLemmas BitFlags_Model BitFlags_Spec BitFlags_Proofs Selectors_Model
  Selectors_Proofs LinkRef_Model LinkRef_Spec LinkRef_Proofs Db_Model Db_Spec Db_Proofs
  Db_ProofsLocal Db_ProofsMerge Db_ProofsRefresh Db_ProofsInv Db_ProofsInv2 Db_ProofsInv3
  Db_ProofsDelete Db_ProofsRun Db_ProofsOps Db_ProofsOps2 Db_ProofsOps3.
From Coq Require Import ZifyBool ZifyNat Lqa.

Definition Q_dec (a b : Q) : {a = b} + {a <> b}.
Proof. destruct a as [x p], b as [y q]. destruct (Z.eq_dec x y), (Pos.eq_dec p q); [left|right|right|right]; congruence. Defined.
Definition mapping_dec (a b : mapping) : {a = b} + {a <> b}.
Proof.
  destruct a as [l1 o1 i1 v1 q1 p1], b as [l2 o2 i2 v2 q2 p2].
  destruct (Z.eq_dec l1 l2); [|right; congruence]. destruct (Z.eq_dec o1 o2); [|right; congruence].
  destruct (Z.eq_dec i1 i2); [|right; congruence]. destruct (list_eq_dec N.eq_dec v1 v2); [|right; congruence].
  destruct (Q_dec q1 q2); [|right; congruence].
  destruct p1 as [x|], p2 as [y|]; try (right; congruence); [|left; congruence].
  destruct (Q_dec x y); [left|right]; congruence.
Defined.

(** *** Deleting mappings (C48) *)

Lemma deleted_maps_list R s : maps_wf s -> (forall m, In m R -> In m (d_maps s)) ->
  exists s1, fold_left (fun s m => map_delete m s) R s = s1 /\ s1 = set_maps (d_maps s1) s /\
    (forall m, In m (d_maps s1) <-> In m (d_maps s) /\ ~ In m R) /\
    (exists p, d_maps s1 = filter p (d_maps s) /\ forall m, In m (d_maps s) -> (p m = true <-> ~ In m R)).
Proof.
  intros M HR. eexists. split; [reflexivity|]. rewrite map_deletes. cbn [set_maps d_maps]. split; [reflexivity|].
  assert (E : forall m, In m (d_maps s) -> (negb (existsb (fun x => same_map x m) R) = true <-> ~ In m R)).
  { intros m Hm. rewrite negb_true_iff, existsb_false_iff. split.
    - intros H Hi. specialize (H m Hi). apply same_map_neq in H. congruence.
    - intros Hn x Hx. apply same_map_neq. intros Ek. apply Hn.
      replace m with x; auto. apply (nodup_map_inj mkey (d_maps s)); auto. apply (mw_unique _ M). }
  split.
  - intros m. rewrite filter_In. split; intros [A B]; split; auto; apply E; auto.
  - eexists. split; [reflexivity|exact E].
Qed.

Lemma refresh_link_total l s : maps_wf s -> exists s', refresh_link l s = Ok s'.
Proof.
  intros M. unfold refresh_link. rewrite refreshes_of_link.
  destruct (refreshes_total (map (fun o => (l, o)) (distinct_others l s)) s M) as (s1 & ->). cbn [bind]. eauto.
Qed.

Lemma unmapped_list l R s : maps_wf s -> (forall m, In m R -> In m (d_maps s) /\ m_link m = l) ->
  exists s', (if nil_b R then Ok s else refresh_link l (fold_left (fun s m => map_delete m s) R s)) = Ok s' /\
    unmapped l (fun m => In m R) s s'.
Proof.
  intros M HR.
  destruct (deleted_maps_list R s M (fun m Hm => proj1 (HR m Hm))) as (s1 & -> & E1 & Hin & (p & Ep & Hp)).
  destruct R as [|r0 R0] eqn:ER; cbn [nil_b].
  { exists s. split; auto. split; auto; try reflexivity.
    - intros. unfold valued. split; intros (m & Q); exists m; tauto.
    - intros (m & _ & []).
    - intros (m & _ & []). }
  rewrite <- ER in *. assert (Hr0 : In r0 R) by (rewrite ER; now left). clear ER.
  assert (M1 : maps_wf s1).
  { destruct M as [Ma Mb Mc Md]. split; rewrite ?Ep.
    - apply nodup_map_filter. exact Ma.
    - intros m Hm. apply filter_In in Hm. apply Mb. tauto.
    - intros m q Hm. apply filter_In in Hm. apply Mc. tauto.
    - intros m Hm. apply filter_In in Hm. apply Md. tauto. }
  destruct (refresh_link_total l s1 M1) as (s' & H). exists s'. split; auto.
  unfold refresh_link in H. rewrite refreshes_of_link in H. apply bind_ok in H. destruct H as (a & Hr & H). apply Ok_inj in H.
  destruct (refreshes_spec _ _ _ Hr) as ((R1 & R2) & Rg & Rk & Ro). destruct (refreshes_distributed _ _ _ Hr) as [Rd _].
  set (h := distinct_others l s1) in *. set (c := mapping_is_complete l a) in *.
  assert (Bd : d_index s' = d_index s /\ d_groups s' = d_groups s /\ d_weights s' = d_weights s /\ d_labels s' = d_labels s /\
    d_links s' = map (fun x => if (k_id x =? l)%Z then with_status (Some h) c x else x) (d_links s) /\ d_maps s' = d_maps a).
  { subst s'. clearbody c h. rewrite R1, E1. repeat split. }
  destruct Bd as (Bi & Bg & Bw & Bb & Bl & Bm).
  assert (Ea : forall l' o, from l' o s' = from l' o a) by (intros; unfold from; now rewrite Bm).
  split.
  - auto.
  - intros l' o i lv v. rewrite (valued_of_noprop s s' p).
    + split; intros (m & Hm & Q & Q2); exists m; (split; [exact Hm|]); (split; [|exact Q2]); apply (Hp m Hm); exact Q.
    + rewrite Bm, R2, Ep. reflexivity.
  - intros m Hn. assert (K : from (m_link m) (m_other m) s' = from (m_link m) (m_other m) s1).
    { rewrite Ea. apply Ro. rewrite in_map_iff. intros (x & Ex & _). congruence. }
    transitivity (In m (d_maps s1)).
    + split; intros Hm.
      * assert (Q : In m (from (m_link m) (m_other m) s')) by (apply from_in; auto). rewrite K in Q. apply from_in in Q. tauto.
      * assert (Q : In m (from (m_link m) (m_other m) s1)) by (apply from_in; auto). rewrite <- K in Q. apply from_in in Q. tauto.
    + rewrite Hin. split; [tauto|]. intros Hm. split; auto. intros Hi. apply HR in Hi. tauto.
  - intros Hn. exfalso. apply (Hn r0); auto. apply (HR r0 Hr0).
  - intros _ o Ho. unfold follows_values. rewrite !Ea.
    destruct (from l o a) as [|m q] eqn:Ef; [split; [intros m []|congruence]|]. rewrite <- Ef.
    assert (Hm : In m (from l o a)) by (rewrite Ef; now left).
    assert (Hh : In (l, o) (map (fun o => (l, o)) h)).
    { apply in_map_iff. exists o. split; auto. apply (distinct_others_spec l s1). right. split; auto.
      assert (Hx : has_src s1 l o). { apply (reprop_has_src s1 a); [split; auto|]. apply has_src_from. eauto. }
      destruct Hx as (m0 & Q). eauto. }
    split.
    + pose proof (follows_of_distributed l o a (Rd l o Hh ltac:(lia))) as F. unfold follows_values in F. apply F.
      rewrite Ef. right. discriminate.
    + intros _. apply (Rg l o Hh m Hm). exact Ho.
  - intros _ k Hk Ek. rewrite Bl in Hk. apply in_map_iff in Hk. destruct Hk as (k0 & E0 & Hk).
    destruct (k_id k0 =? l)%Z eqn:Q; [|subst k; lia]. subst k. cbn [with_status k_complete].
    unfold c. rewrite link_complete_iff. unfold link_complete, defined, has_index. rewrite Bm, Bi.
    rewrite R1, E1. reflexivity.
  - rewrite Bl, map_map. apply map_ext. intros k. now destruct (k_id k =? l)%Z.
  - intros k Hn. rewrite Bl, in_map_iff. split.
    + intros (x & Ex & Hx). destruct (k_id x =? l)%Z eqn:Q; subst k; auto. cbn in Hn. lia.
    + intros Hk. exists k. split; auto. destruct (k_id k =? l)%Z eqn:Q; auto. lia.
Qed.

Lemma unmapped_ext l X X' s s' : (forall m, In m (d_maps s) -> (X m <-> X' m)) -> unmapped l X s s' -> unmapped l X' s s'.
Proof.
  intros E [H1 H2 H3 H4 H5 H6 H7 H8]. split; auto.
  - intros. rewrite H2. split; intros (m & Hm & A & B); exists m; (split; [auto|]); (split; [|auto]); intros Q; apply A; now apply E.
  - intros H. apply H4. intros m Hm Q. apply (H m Hm). now apply E.
  - intros (m & Hm & Q). apply H5. exists m. split; auto. now apply E.
  - intros (m & Hm & Q). apply H6. exists m. split; auto. now apply E.
Qed.

(** The mappings a list of rows removes. *)
Lemma delete_mappings_rows_list l s0 : maps_wf s0 -> index_wf s0 -> Forall (fun c => c <> []) (d_labels s0) ->
  forall rows x R, (forall m, In m R -> In m (d_maps s0) /\ m_link m = l) ->
  fst x = fold_left (fun s m => map_delete m s) R s0 -> snd x = negb (nil_b R) ->
  exists R', fst (fold_left (delete_mappings_row l) rows x) = fold_left (fun s m => map_delete m s) R' s0 /\
    snd (fold_left (delete_mappings_row l) rows x) = negb (nil_b R') /\
    (forall m, In m R' -> In m (d_maps s0) /\ m_link m = l /\ (In m R \/ exists r, In r rows /\ row_means s0 r m)) /\
    (forall m, In m R -> In m R') /\
    (forall m, In m (d_maps s0) -> m_link m = l -> (exists r, In r rows /\ row_means s0 r m) ->
       (forall m', In m' (d_maps s0) -> m_link m' = l -> m_other m' = m_other m -> m_index m' = m_index m -> m' = m) ->
       In m R').
Proof.
  intros M W Hc.
  assert (Hlv : forall t, d_labels t = d_labels s0 -> forall m, bytes_eqb (m_level m) (whole_level t) = true <-> unambiguous s0 m).
  { intros t Et m. rewrite bytes_eqb_spec. unfold unambiguous, whole_level. rewrite Et.
    replace (map (fun c => negb (is_empty c)) (d_labels s0)) with (map (fun _ : text => true) (d_labels s0)); [reflexivity|].
    apply map_ext_in. intros c Hin. rewrite Forall_forall in Hc. specialize (Hc c Hin). now destruct c. }
  induction rows as [|r rows IH]; intros x R HR Ex En; cbn [fold_left].
  { exists R. split; auto. split; auto. split; [intros m Hm; destruct (HR m Hm); auto|]. split; auto.
    intros m _ _ (r & [] & _). }
  destruct (deleted_maps_list R s0 M (fun m Hm => proj1 (HR m Hm))) as (s1 & E1 & E2 & Hin & _).
  rewrite E1 in Ex.
  assert (Ei : d_index (fst x) = d_index s0 /\ d_labels (fst x) = d_labels s0) by (rewrite Ex, E2; auto).
  assert (Step : exists R1, fst (delete_mappings_row l x r) = fold_left (fun s m => map_delete m s) R1 s0 /\
     snd (delete_mappings_row l x r) = negb (nil_b R1) /\
     (forall m, In m R1 -> In m (d_maps s0) /\ m_link m = l /\ (In m R \/ row_means s0 r m)) /\
     (forall m, In m R -> In m R1) /\
     (forall m, In m (d_maps s0) -> m_link m = l -> row_means s0 r m ->
       (forall m', In m' (d_maps s0) -> m_link m' = l -> m_other m' = m_other m -> m_index m' = m_index m -> m' = m) -> In m R1)).
  { assert (Same : forall P : Prop, P -> (forall m, In m (d_maps s0) -> m_link m = l -> row_means s0 r m ->
       (forall m', In m' (d_maps s0) -> m_link m' = l -> m_other m' = m_other m -> m_index m' = m_index m -> m' = m) -> In m R) ->
       exists R1, fst x = fold_left (fun s m => map_delete m s) R1 s0 /\ snd x = negb (nil_b R1) /\
     (forall m, In m R1 -> In m (d_maps s0) /\ m_link m = l /\ (In m R \/ row_means s0 r m)) /\
     (forall m, In m R -> In m R1) /\
     (forall m, In m (d_maps s0) -> m_link m = l -> row_means s0 r m ->
       (forall m', In m' (d_maps s0) -> m_link m' = l -> m_other m' = m_other m -> m_index m' = m_index m -> m' = m) -> In m R1)).
    { intros _ _ H. exists R. split; [congruence|]. split; auto. split; [intros m Hm; destruct (HR m Hm); auto|]. auto. }
    unfold delete_mappings_row.
    assert (Eix : index_find (mr_index r) (fst x) = index_find (mr_index r) s0) by (unfold index_find; now rewrite (proj1 Ei)).
    rewrite Eix. destruct (index_find (mr_index r) s0) as [rec|] eqn:Ef.
    2: { apply (Same True I). intros m Hm El (A & B & C & _) _. exfalso. apply index_find_none in Ef. apply Ef.
         eexists. split; [exact C|]. cbn. exact B. }
    destruct (labels_eqb (mr_labels r) (ix_labels rec)) eqn:El; cbn [negb].
    2: { apply (Same True I). intros m Hm _ (A & B & C & _) _. exfalso. rewrite B in C.
         rewrite (index_find_in _ _ _ W C) in Ef. injection Ef as <-. cbn [ix_labels] in El.
         assert (labels_eqb (mr_labels r) (mr_labels r) = true) by now apply labels_eqb_iff. congruence. }
    apply labels_eqb_iff in El. apply index_find_spec in Ef. destruct Ef as [Hrec Erec].
    destruct (map_find l (mr_other r) (mr_index r) (fst x)) as [m|] eqn:Em.
    2: { apply (Same True I). intros m Hm Hl (A & B & _) _. destruct (in_dec mapping_dec m R) as [Hi|Hi]; auto. exfalso.
         unfold map_find in Em. rewrite find_none_iff in Em. specialize (Em m). rewrite Ex in Em.
         assert (Q : map_at l (mr_other r) m && (m_index m =? mr_index r)%Z = false) by (apply Em, Hin; auto).
         unfold map_at in Q. lia. }
    apply map_find_at in Em. destruct Em as (Hm & Hl & Ho & Hx). rewrite Ex in Hm. apply Hin in Hm. destruct Hm as [Hm Hnr].
    assert (Uniq : forall m2, In m2 (d_maps s0) -> m_link m2 = l -> row_means s0 r m2 ->
       (forall m', In m' (d_maps s0) -> m_link m' = l -> m_other m' = m_other m2 -> m_index m' = m_index m2 -> m' = m2) -> m = m2).
    { intros m2 H2 L2 (A & B & _) U. apply U; auto; congruence. }
    destruct (Qeq_bool (m_value m) (mr_value r)) eqn:Ev; cbn [negb].
    2: { apply (Same True I). intros m2 H2 L2 Rm U. exfalso. rewrite <- (Uniq m2 H2 L2 Rm U) in Rm. destruct Rm as (_ & _ & _ & Q & _).
         apply Qeq_bool_iff in Q. congruence. }
    destruct (bytes_eqb (m_level m) (whole_level (fst x))) eqn:Eb; cbn [negb].
    2: { apply (Same True I). intros m2 H2 L2 Rm U. exfalso. rewrite <- (Uniq m2 H2 L2 Rm U) in Rm. destruct Rm as (_ & _ & _ & _ & Q).
         apply (Hlv (fst x) (proj2 Ei)) in Q. congruence. }
    cbn [fst snd]. exists (R ++ [m]). split; [|split; [now destruct R|split; [|split]]].
    - rewrite fold_left_app. cbn [fold_left]. now rewrite E1, Ex.
    - intros m2 H2. apply in_app_iff in H2. destruct H2 as [H2|[<-|[]]]; [destruct (HR m2 H2); auto|].
      split; auto. split; auto. right. split; auto. split; auto. split; [|split].
      + replace {| ix_id := m_index m; ix_labels := mr_labels r |} with rec; auto. rewrite El, Hx, <- Erec. now destruct rec.
      + now apply Qeq_bool_iff.
      + now apply (Hlv (fst x) (proj2 Ei)).
    - intros m2 H2. apply in_app_iff. now left.
    - intros m2 H2 L2 Rm U. apply in_app_iff. right. left. now apply Uniq. }
  destruct Step as (R1 & S1 & S2 & S3 & S4 & S5).
  destruct (IH (delete_mappings_row l x r) R1 (fun m Hm => conj (proj1 (S3 m Hm)) (proj1 (proj2 (S3 m Hm)))) S1 S2) as (R' & T1 & T2 & T3 & T4 & T5).
  exists R'. split; auto. split; auto. split; [|split].
  - intros m Hm. destruct (T3 m Hm) as (A & B & [C|(q & Hq & C)]); split; auto; split; auto.
    + destruct (S3 m C) as (_ & _ & [D|D]); auto. right. exists r. cbn. auto.
    + right. exists q. cbn. auto.
  - auto.
  - intros m Hm Hl (q & [<-|Hq] & Q) U; [apply T4, S5; auto|apply T5; eauto].
Qed.
