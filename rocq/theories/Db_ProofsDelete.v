(** A series of deletions of index records. *)
From Verif Require Import Prelude QLemmas BitFlags_Model BitFlags_Proofs Selectors_Model
  Selectors_Proofs LinkRef_Model LinkRef_Spec LinkRef_Proofs Db_Model Db_Spec Db_Proofs
  Db_ProofsLocal Db_ProofsMerge Db_ProofsRefresh Db_ProofsInv Db_ProofsInv2.
From Coq Require Import ZifyBool ZifyNat Lqa.

Inductive dels : list Z -> db -> db -> Prop :=
| dels_nil s : dels [] s s
| dels_snoc D i s s1 s' : dels D s s1 -> has_index s1 i -> del_effect i s1 s' -> dels (i :: D) s s'.

Definition linked (s : db) (l : Z) : Prop := exists k, In k (d_links s) /\ k_id k = l.
Definition touched (D : list Z) (o : Z) (s : db) : Prop :=
  exists m, In m (d_maps s) /\ In (m_index m) D /\ m_other m = o.

Definition outside (D : list Z) (i : Z) : bool := negb (existsb (Z.eqb i) D).
Lemma outside_iff D i : outside D i = true <-> ~ In i D.
Proof.
  unfold outside. rewrite negb_true_iff, <- not_true_iff_false, existsb_exists. split.
  - intros H Hi. apply H. exists i. split; auto. apply Z.eqb_refl.
  - intros H (x & Hx & E). apply Z.eqb_eq in E. subst. auto.
Qed.

Record dels_effect (D : list Z) (s s' : db) : Prop := {
  ds_same : s' = set_index (d_index s') (set_maps (d_maps s') (set_weights (d_weights s') s));
  ds_index : d_index s' = filter (fun r => outside D (ix_id r)) (d_index s);
  ds_weights : d_weights s' = filter (fun w => outside D (w_index w)) (d_weights s);
  ds_maps : map noprop (d_maps s') = map noprop (filter (fun m => outside D (m_index m)) (d_maps s));
  ds_fresh : forall l o, linked s l -> touched D o s -> good l o s' /\ (o <> 0%Z -> distributed l o s');
  ds_keep : forall l o, linked s l -> ~ touched D o s -> from l o s' = from l o s;
  ds_exist : forall i, In i D -> has_index s i
}.

Lemma sources_mapped_in i o s : In o (sources_mapped_to i s) <-> touched [i] o s.
Proof.
  unfold sources_mapped_to, touched, maps_of_index. rewrite nodup_In, in_map_iff. split.
  - intros (m & <- & Hm). apply filter_In in Hm. exists m. cbn. intuition lia.
  - intros (m & Hm & [E|[]] & <-). exists m. split; auto. apply filter_In. split; auto. lia.
Qed.

Lemma touched_dec D o s : touched D o s \/ ~ touched D o s.
Proof.
  destruct (existsb (fun m => existsb (Z.eqb (m_index m)) D && (m_other m =? o)%Z) (d_maps s)) eqn:E.
  - left. apply existsb_exists in E. destruct E as (m & Hm & E). apply andb_true_iff in E. destruct E as [E1 E2].
    apply existsb_exists in E1. destruct E1 as (j & Hj & E1). exists m. split; auto.
    split; [|lia]. assert (m_index m = j) as -> by lia. exact Hj.
  - right. intros (m & Hm & Hd & <-). rewrite existsb_false_iff in E. specialize (E m Hm). cbv beta in E.
    rewrite Z.eqb_refl, andb_true_r in E. rewrite existsb_false_iff in E. specialize (E _ Hd).
    rewrite Z.eqb_refl in E. discriminate.
Qed.

Lemma map_noprop_filter (p : Z -> bool) a b : map noprop a = map noprop b ->
  map noprop (filter (fun m => p (m_index m)) a) = map noprop (filter (fun m => p (m_index m)) b).
Proof.
  revert b. induction a as [|x a IH]; intros [|y b] E; cbn in *; try discriminate; auto.
  injection E as E1 E2 E3 E4 E5 E6. rewrite E3. destruct (p (m_index y)); cbn; rewrite (IH b E6); auto.
  f_equal. unfold noprop, with_prop. congruence.
Qed.

Lemma dels_spec D s s' : dels D s s' -> dels_effect D s s'.
Proof.
  induction 1 as [s|D i s s1 s' H IH Hi De].
  - split; cbn [existsb]; auto.
    + now destruct s.
    + unfold outside; cbn. induction (d_index s) as [|r l IHl]; cbn; congruence.
    + unfold outside; cbn. induction (d_weights s) as [|r l IHl]; cbn; congruence.
    + unfold outside; cbn. f_equal. induction (d_maps s) as [|r l IHl]; cbn; congruence.
    + intros l o _ (m & _ & [] & _).
    + intros i [].
  - destruct IH as [Same Ix Wt Mp Fr Kp Ex], De as [Same1 Ix1 Wt1 Mp1 Fr1 Kp1].
    assert (El : d_links s1 = d_links s) by (rewrite Same; reflexivity).
    assert (Hfil : forall {A} (f : A -> Z) l,
      filter (fun x => negb (f x =? i)%Z) (filter (fun x => outside D (f x)) l) =
      filter (fun x => outside (i :: D) (f x)) l).
    { intros A f l. rewrite filter_filter. apply filter_ext_in'. intros x _. unfold outside. cbn [existsb].
      rewrite negb_orb. apply andb_comm. }
    assert (Ht1 : forall o, touched [i] o s1 -> touched (i :: D) o s).
    { intros o (m & Hm & [Em|[]] & Eo). apply (in_map noprop) in Hm. rewrite Mp in Hm.
      apply in_map_iff in Hm. destruct Hm as (m0 & E0 & Hm0). apply filter_In in Hm0. exists m0.
      unfold noprop, with_prop in E0. injection E0 as _ E2 E3 _ _. split; [tauto|]. split; [left; congruence|congruence]. }
    assert (Ht2 : forall o, touched (i :: D) o s -> touched D o s \/ touched [i] o s1).
    { intros o (m & Hm & [Em|Hd] & Eo); [|left; exists m; auto].
      destruct (outside D (m_index m)) eqn:Eout.
      - right. assert (Hin : In (noprop m) (map noprop (d_maps s1))).
        { rewrite Mp. apply in_map. apply filter_In. auto. }
        apply in_map_iff in Hin. destruct Hin as (m0 & E0 & Hm0). exists m0. split; auto.
        unfold noprop, with_prop in E0. injection E0 as _ E2 E3 _ _. split; [left; congruence|congruence].
      - left. exists m. split; auto. split; auto. destruct (in_dec Z.eq_dec (m_index m) D); auto.
        rewrite <- outside_iff in n. congruence. }
    split.
    + rewrite Same1 at 1. rewrite Same at 1. reflexivity.
    + rewrite Ix1, Ix. apply (Hfil _ ix_id).
    + rewrite Wt1, Wt. apply (Hfil _ w_index).
    + rewrite Mp1.
      rewrite (map_noprop_filter (fun j => negb (j =? i)%Z) _ _ Mp). f_equal. apply (Hfil _ m_index).
    + intros l o Hl Ht. destruct (touched_dec [i] o s1) as [T|T].
      * apply Fr1; [now apply sources_mapped_in|]. rewrite El. exact Hl.
      * destruct (Ht2 o Ht) as [T'|T']; [|contradiction].
        assert (Ef : from l o s' = from l o s1).
        { rewrite Kp1 by (left; now rewrite sources_mapped_in).
          rewrite (filter_ext_in' _ (fun _ => true)).
          - induction (from l o s1) as [|x xs IHx]; cbn; congruence.
          - intros m Hm. apply from_in in Hm. destruct (m_index m =? i)%Z eqn:Em; auto.
            exfalso. apply T. exists m. cbn. intuition lia. }
        destruct (Fr l o Hl T') as [A B]. unfold good, distributed in *. rewrite Ef. auto.
    + intros l o Hl Ht. rewrite <- Kp; auto.
      2: { intros (m & Hm & Hd & Eo). apply Ht. exists m. split; auto. split; auto. now right. }
      assert (T : ~ touched [i] o s1) by (intros T; apply Ht, Ht1, T).
      rewrite Kp1 by (left; now rewrite sources_mapped_in).
      rewrite (filter_ext_in' _ (fun _ => true)).
      * induction (from l o s1) as [|x xs IHx]; cbn; congruence.
      * intros m Hm. apply from_in in Hm. destruct (m_index m =? i)%Z eqn:Em; auto.
        exfalso. apply T. exists m. cbn. intuition lia.
    + intros j [<-|Hj]; auto. destruct Hi as (r & Hr & <-). rewrite Ix in Hr.
      apply filter_In in Hr. exists r. tauto.
Qed.

Lemma delete_rows_dels rows s s' : delete_index_rows rows s = Ok s' ->
  exists D t, dels D s t /\ s' = (if nil_b D then t else after_delete t).
Proof.
  unfold delete_index_rows. intros H. step_res H; [discriminate|]. step_res H. injection H as <-.
  assert (Hx : exists D, dels D s (fst a) /\ nil_b D = negb (snd a)).
  { revert E0. apply (fold_res_inv (fun x => exists D, dels D s (fst x) /\ nil_b D = negb (snd x))).
    { exists []. split; [constructor|reflexivity]. }
    intros x r x' _ (D & HD & En) H1. repeat step_res H1; subst; eauto. cbn [fst snd].
    match goal with H : index_find _ _ = Some _ |- _ => apply index_find_spec in H; destruct H as [Hr Er] end.
    exists (ix_id i :: D). split; [|reflexivity]. eapply dels_snoc; [exact HD|exists i; auto|].
    eapply delete_record_effect; [exists i; auto|eassumption]. }
  destruct Hx as (D & HD & En). exists D, (fst a). split; auto. rewrite En. now destruct (snd a).
Qed.

Lemma delete_criteria_dels c s s' : index_wf s -> delete_index_criteria c s = Ok s' ->
  exists t, dels (rev (map ix_id (filter_by_label c s))) s t /\
    s' = (if nil_b (filter_by_label c s) then t else after_delete t).
Proof.
  unfold delete_index_criteria. intros W H. step_res H; [discriminate|]. step_res H. injection H as <-.
  exists a. split; auto.
  assert (Hin : forall r, In r (filter_by_label c s) -> In r (d_index s))
    by (intros r Hr; apply filter_In in Hr; tauto).
  assert (Hn : NoDup (map ix_id (filter_by_label c s))) by (apply nodup_map_filter, (iw_unique _ W)).
  assert (Hgen : forall l D t t', NoDup (map ix_id l) -> (forall r, In r l -> In r (d_index s)) ->
    (forall r, In r l -> ~ In (ix_id r) D) -> dels D s t ->
    fold_res (fun s r => delete_index_record (ix_id r) s) l t = Ok t' ->
    dels (rev (map ix_id l) ++ D) s t').
  { clear. induction l as [|r l IH]; intros D t t' N Hi Ho Hd H; cbn [fold_res] in H.
    - injection H as <-. exact Hd.
    - step_res H. cbn [map rev]. rewrite <- app_assoc. cbn [map] in N. inversion N; subst. apply (IH _ a); auto.
      + intros x Hx. apply Hi. now right.
      + intros x Hx [Ex|Ex]; [|apply (Ho x); auto; now right].
        match goal with H : ~ In _ _ |- _ => apply H end. rewrite Ex. now apply in_map.
      + pose proof (dels_spec _ _ _ Hd) as Sp.
        assert (Hr : has_index t (ix_id r)).
        { exists r. split; auto. rewrite (ds_index _ _ _ Sp). apply filter_In. split; [apply Hi; now left|].
          apply outside_iff, Ho. now left. }
        cbn [app]. eapply dels_snoc; [exact Hd|exact Hr|]. eapply delete_record_effect; eauto. }
  specialize (Hgen (filter_by_label c s) [] s a Hn Hin). rewrite app_nil_r in Hgen.
  apply Hgen; auto. constructor.
Qed.

Lemma dels_views D s s' : dels_effect D s s' ->
  d_groups s' = d_groups s /\ d_links s' = d_links s /\ d_hash s' = d_hash s /\
  (forall i, has_index s' i <-> has_index s i /\ ~ In i D) /\
  (forall g i, ~ In i D -> has_weight s g i -> has_weight s' g i) /\
  (forall l i, ~ In i D -> has_map s l i -> has_map s' l i).
Proof.
  intros [Same Ix Wt Mp Fr Kp Ex]. split; [|split; [|split; [|split; [|split]]]].
  - rewrite Same. reflexivity.
  - rewrite Same. reflexivity.
  - rewrite Same. reflexivity.
  - intros i. unfold has_index. rewrite Ix. split.
    + intros (r & Hr & <-). apply filter_In in Hr. destruct Hr as [Hr Ho]. split; [exists r; auto|].
      now apply outside_iff.
    + intros ((r & Hr & <-) & Hn). exists r. split; auto. apply filter_In. split; auto. now apply outside_iff.
  - intros g i Hn (w & Hw & <- & <-). exists w. split; auto. rewrite Wt. apply filter_In. split; auto.
    now apply outside_iff.
  - intros l i Hn (m & Hm & <- & <-).
    assert (Hin : In (noprop m) (map noprop (d_maps s'))).
    { rewrite Mp. apply in_map, filter_In. split; auto. now apply outside_iff. }
    apply in_map_iff in Hin. destruct Hin as (m0 & E0 & Hm0). exists m0. split; auto.
    unfold noprop, with_prop in E0. injection E0 as E1 E2 E3 _ _. auto.
Qed.

Lemma dels_props D s s' : dels_effect D s s' -> link_refs s -> proportions_wf s -> proportions_wf s'.
Proof.
  intros De R Hp. apply proportions_good. rewrite proportions_good in Hp. intros l o m Hm.
  assert (Hl : linked s l).
  { pose proof Hm as Hm'. apply from_in in Hm'. destruct Hm' as (Hm' & El & _).
    apply (in_map noprop) in Hm'. rewrite (ds_maps _ _ _ De) in Hm'. apply in_map_iff in Hm'.
    destruct Hm' as (m0 & E0 & Hm0). apply filter_In in Hm0. destruct (R m0) as (k & Hk & Ek); [tauto|].
    unfold noprop, with_prop in E0. injection E0 as E1 _ _ _ _. exists k. split; auto. congruence. }
  destruct (touched_dec D o s) as [T|T].
  - apply (ds_fresh _ _ _ De l o Hl T). exact Hm.
  - pose proof (ds_keep _ _ _ De l o Hl T) as E. unfold good in Hp. rewrite E in *. now apply Hp.
Qed.

Lemma dels_kept D s t s' : index_wf s -> dels D s t ->
  s' = (if nil_b D then t else after_delete t) -> kept s s'.
Proof.
  intros W Hd E. pose proof (dels_spec _ _ _ Hd) as De.
  pose proof (dels_views _ _ _ De) as (Eg & El & Eh & Hi & Hw & Hm).
  destruct D as [|d0 dl].
  - cbn [nil_b] in E. inversion Hd; subst. split; auto.
  - cbn [nil_b] in E. subst s'.
    assert (N : NoDup (map ix_id (d_index t))).
    { rewrite (ds_index _ _ _ De). apply nodup_map_filter, (iw_unique _ W). }
    split.
    + intros _. pose proof (hash_refreshed t N) as [S I]. split; auto.
    + intros Hg. apply (gsound_raised (refresh_hash t)). apply (gsound_mono s); auto.
      * intros i Hx. apply Hi, Hx.
      * intros g i Hx. apply Hw, Hi, Hx.
      * cbn [refresh_hash set_hash d_groups]. rewrite Eg. eauto.
    + intros Hk. apply (lsound_raised (fun k => Some (distinct_others (k_id k) (raise_group_flags (refresh_hash t))))
        (raise_group_flags (refresh_hash t))). apply (lsound_mono s); auto.
      * intros i Hx. apply Hi, Hx.
      * intros l i Hx. apply Hm, Hi, Hx.
      * cbn [raise_group_flags set_groups refresh_hash set_hash d_links]. rewrite El. eauto.
    + intros _ _ _. exact (gfull_raised (refresh_hash t)).
    + intros _ _ _ _. exact (lfull_raised (fun k => Some (distinct_others (k_id k) (raise_group_flags (refresh_hash t))))
        (raise_group_flags (refresh_hash t))).
    + intros _ _ _. apply lhash_refreshed.
    + intros _ R _ Hp. apply (props_same t); [reflexivity|]. eapply dels_props; eauto.
    + intros _ k h Hk Hh. exact (proj1 (lhash_refreshed _ k Hk) h Hh).
Qed.

Lemma delete_rows_kept rows s s' : index_wf s -> delete_index_rows rows s = Ok s' -> kept s s'.
Proof. intros W H. destruct (delete_rows_dels _ _ _ H) as (D & t & Hd & E). eapply dels_kept; eauto. Qed.
Lemma delete_criteria_kept c s s' : index_wf s -> delete_index_criteria c s = Ok s' -> kept s s'.
Proof.
  intros W H. destruct (delete_criteria_dels _ _ _ W H) as (t & Hd & E). eapply dels_kept; eauto.
  rewrite E. destruct (filter_by_label c s) as [|r l]; cbn [map rev nil_b]; auto.
  now destruct (rev (map ix_id l)).
Qed.
