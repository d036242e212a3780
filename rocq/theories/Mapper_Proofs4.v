(** Proofs about loading the produced mappings into a space. *)
From Verif Require Import Prelude QLemmas BitFlags_Model BitFlags_Proofs Selectors_Model Selectors_Proofs
  LinkRef_Model LinkRef_Proofs Db_Model Db_Spec Db_Proofs Db_ProofsLocal Db_ProofsMerge Db_ProofsRefresh
  Db_ProofsInv Db_ProofsInv2 Db_ProofsInv3 Db_ProofsOps Db_ProofsOps4
  Reader_Model Reader_Spec Reader_Proofs Mapper_Model Mapper_Spec Mapper_Proofs Mapper_Proofs2 Mapper_Proofs3.
From Coq Require Import Permutation Lqa.
From Coq Require Import ZifyBool ZifyNat ZifyN.
Local Open Scope nat_scope.

Definition allowed (s : db) (r : m_row) : bool :=
  existsb (fun bits => match mr_level r with
             | None => negb (existsb (fun b => b) bits)
             | Some lv => existsb (fun b => b) bits && bytes_eqb (bf_to_bytes (of_bits bits)) lv
             end) (d_structs s).
Definition row_map (l : Z) (r : m_row) : mapping :=
  {| m_link := l; m_other := mr_other r; m_index := mr_index r;
     m_level := match mr_level r with Some lv => lv | None => [] end;
     m_value := mr_value r; m_prop := None |}.

Definition row_good (r : m_row) : Prop :=
  mr_level r <> None /\ (0 <= mr_value r)%Q /\ ~ (mr_other r = 0%Z /\ mr_index r = 0%Z).

Lemma insert_rows l rows : forall s b,
  (forall r, In r rows -> row_good r) ->
  NoDup (map mkey (d_maps s ++ map (row_map l) rows)) ->
  (exists k, In k (d_links s) /\ k_id k = l) ->
  fold_res (insert_mappings2_row l) rows (s, b) =
  Ok (set_maps (d_maps s ++ map (row_map l) (filter (allowed s) rows)) s, b || negb (nil_b (filter (allowed s) rows))).
Proof.
  induction rows as [|r rows IH]; intros s b Hg Hd Hk.
  - cbn [fold_res filter map nil_b negb]. rewrite app_nil_r, orb_false_r. now destruct s.
  - cbn [fold_res]. unfold insert_mappings2_row at 1. cbn [fst]. fold (allowed s r).
    destruct (Hg r (or_introl eq_refl)) as (Hl & Hv & Hn).
    assert (Hd' : NoDup (map mkey (d_maps s ++ map (row_map l) rows))).
    { rewrite map_app in *. cbn [map] in Hd. now apply NoDup_remove_1 in Hd. }
    cbn [filter]. destruct (allowed s r) eqn:Ea; cbn [negb].
    + destruct ((mr_other r =? 0)%Z && (mr_index r =? 0)%Z) eqn:E0; [lia|].
      unfold map_add. rewrite E0. destruct (mr_level r) as [lv|] eqn:El; [|congruence]. cbv zeta.
      assert (Em : {| m_link := l; m_other := mr_other r; m_index := mr_index r; m_level := lv;
                      m_value := mr_value r; m_prop := None |} = row_map l r)
        by (unfold row_map; now rewrite El). rewrite Em.
      assert (Hok : map_ok (row_map l r) = true).
      { unfold map_ok, row_map. cbn [m_value m_prop m_other m_index]. rewrite (proj2 (Qle_bool_iff _ _) Hv).
        cbn [andb]. rewrite E0. reflexivity. }
      rewrite Hok. cbn [negb].
      assert (Hnew : existsb (same_map (row_map l r)) (d_maps s) = false).
      { apply not_true_iff_false. rewrite existsb_exists. intros (m & Hm & E). apply same_map_iff in E.
        rewrite map_app in Hd. cbn [map] in Hd. apply NoDup_remove_2 in Hd. apply Hd, in_or_app. left.
        rewrite E. now apply in_map. }
      rewrite Hnew. destruct Hk as (k & Hk & Ek).
      assert (Hex : existsb (fun k => (k_id k =? l)%Z) (d_links s) = true)
        by (apply existsb_exists; exists k; split; [exact Hk|lia]).
      rewrite Hex. cbn [negb]. rewrite andb_false_r. cbn [bind].
      rewrite IH.
      * cbn [set_maps d_maps map nil_b negb]. rewrite <- app_assoc. cbn [app]. rewrite orb_true_r. cbn [orb].
        reflexivity.
      * intros x Hx. apply Hg. now right.
      * cbn [set_maps d_maps]. rewrite <- app_assoc. exact Hd.
      * cbn [set_maps d_links]. eauto.
    + cbn [bind]. apply IH; [|exact Hd'|exact Hk]. intros x Hx. apply Hg. now right.
Qed.

Lemma rows_of_out out r : In r (to_rows out) <->
  exists o i lv q, In ((o, i, lv), Some q) out /\
    r = {| mr_other := o; mr_index := i; mr_level := Some lv; mr_value := q; mr_labels := [] |}.
Proof.
  unfold to_rows. rewrite in_flat_map. split.
  - intros ([[[o i] lv] [q|]] & Hx & Hr); cbn [fst snd] in Hr; [|easy]. destruct Hr as [<-|[]]. eauto 10.
  - intros (o & i & lv & q & Hx & ->). eexists. split; [exact Hx|]. now left.
Qed.

Lemma nodup_row_keys l out : NoDup (map fst out) -> NoDup (map mkey (map (row_map l) (to_rows out))).
Proof.
  induction out as [|[[[o i] lv] v] out IH]; cbn [map]; intros H; [constructor|]. inversion H; subst.
  cbn [to_rows flat_map]. fold (to_rows out). destruct v as [q|]; cbn [app fst snd]; [|now apply IH].
  cbn [map]. constructor; [|now apply IH]. intros Hi. apply in_map_iff in Hi as (m & E & Hm).
  apply in_map_iff in Hm as (r & <- & Hr). apply rows_of_out in Hr as (o' & i' & lv' & q' & Hx & ->).
  apply H2. cbn in E. inversion E; subst. cbn [fst]. change (o, i, lv) with (fst (o, i, lv, Some q')). now apply in_map.
Qed.

Lemma find_link_in (p : link -> bool) l k : find p l = Some k -> In k l.
Proof. intros H. now apply find_some in H. Qed.

Lemma load_stored ref name out s k : maps_wf s ->
  get_link ref name true (d_links s) = Ok k -> In k (d_links s) ->
  (forall m, In m (d_maps s) -> m_link m <> k_id k) ->
  NoDup (map fst out) ->
  (forall o i lv q, In ((o, i, lv), Some q) out -> (0 <= q)%Q /\ ~ (o = 0%Z /\ i = 0%Z)) ->
  exists s', insert_mappings2 ref name (to_rows out) s = Ok s' /\
    (forall o i lv q, valued s' (k_id k) o i lv q <->
       In ((o, i, lv), Some q) out /\ exists b, In b (d_structs s) /\ In true b /\ lv = level_of b) /\
    (forall l o i lv q, l <> k_id k -> (valued s' l o i lv q <-> valued s l o i lv q)).
Proof.
  intros M Hl Hk Hno Hd Hv. unfold insert_mappings2. rewrite Hl. cbn [bind].
  assert (Hnd : NoDup (map mkey (d_maps s ++ map (row_map (k_id k)) (to_rows out)))).
  { rewrite map_app. apply nodup_app; [apply (mw_unique _ M)|now apply nodup_row_keys|].
    intros x Hx Hx'. apply in_map_iff in Hx as (m & <- & Hm). apply in_map_iff in Hx' as (m' & E & Hm').
    apply in_map_iff in Hm' as (r & <- & _). apply (Hno m Hm). unfold mkey in E. inversion E. reflexivity. }
  assert (Hg : forall r, In r (to_rows out) -> row_good r).
  { intros r Hr. apply rows_of_out in Hr as (o & i & lv & q & Hx & ->). destruct (Hv _ _ _ _ Hx).
    split; [discriminate|]. cbn. auto. }
  rewrite (insert_rows (k_id k) (to_rows out) s false Hg Hnd (ex_intro _ k (conj Hk eq_refl))).
  cbn [bind fst snd orb].
  set (rs := filter (allowed s) (to_rows out)).
  set (s1 := set_maps (d_maps s ++ map (row_map (k_id k)) rs) s).
  assert (Hrs : forall o i lv q, In ((o, i, lv), Some q) out /\ (exists b, In b (d_structs s) /\ In true b /\ lv = level_of b) <->
    In {| mr_other := o; mr_index := i; mr_level := Some lv; mr_value := q; mr_labels := [] |} rs).
  { intros o i lv q. unfold rs. rewrite filter_In, rows_of_out. unfold allowed. cbn [mr_level].
    rewrite existsb_exists. split.
    - intros [H (b & Hb & Ht & ->)]. split; [eauto 10|]. exists b. split; [exact Hb|].
      apply andb_true_iff. split; [apply existsb_exists; eauto|now apply bytes_eqb_iff].
    - intros [(o' & i' & lv' & q' & H & E) (b & Hb & Ht)]. inversion E; subst. split; [exact H|].
      apply andb_true_iff in Ht as [Ht Hb2]. apply existsb_exists in Ht as (x & Hx & ->).
      apply bytes_eqb_iff in Hb2. exists b. auto. }
  assert (G1 : forall o i lv q, valued s1 (k_id k) o i lv q <->
       In ((o, i, lv), Some q) out /\ exists b, In b (d_structs s) /\ In true b /\ lv = level_of b).
  { intros o i lv q. rewrite Hrs. unfold valued, s1. cbn [set_maps d_maps]. split.
    - intros (m & Hm & E1 & E2 & E3 & E4 & E5). apply in_app_or in Hm as [Hm|Hm]; [now apply Hno in Hm|].
      apply in_map_iff in Hm as (r & <- & Hr). assert (Hr' := Hr). unfold rs in Hr'. apply filter_In in Hr' as [Hr' _].
      apply rows_of_out in Hr' as (o' & i' & lv' & q' & _ & ->). cbn in *. now subst.
    - intros Hr. eexists. split; [apply in_or_app; right; apply in_map; exact Hr|]. cbn. auto. }
  assert (G2 : forall l o i lv q, l <> k_id k -> (valued s1 l o i lv q <-> valued s l o i lv q)).
  { intros l o i lv q Hne. unfold valued, s1. cbn [set_maps d_maps]. split.
    - intros (m & Hm & E1 & E2). apply in_app_or in Hm as [Hm|Hm]; [eauto|].
      apply in_map_iff in Hm as (r & <- & _). cbn in E1. congruence.
    - intros (m & Hm & E). exists m. split; [apply in_or_app; now left|exact E]. }
  destruct (negb (nil_b rs)) eqn:En; [|exists s1; auto].
  assert (M1 : maps_wf s1).
  { destruct M as [Ma Mb Mc Md]. unfold s1. split; cbn [set_maps d_maps].
    - change (NoDup (map mkey (d_maps s ++ map (row_map (k_id k)) rs))).
      clear - Hnd. unfold rs. revert Hnd. generalize (d_maps s) as x.
      induction (to_rows out) as [|r t IH]; intros x H; cbn [filter]; [exact H|].
      cbn [map] in H. destruct (allowed s r).
      + specialize (IH (x ++ [row_map (k_id k) r])). cbn [map]. rewrite <- !app_assoc in IH. cbn [app] in IH. auto.
      + apply IH. rewrite map_app in *. cbn [map] in H. now apply NoDup_remove_1 in H.
    - intros m Hm. apply in_app_or in Hm as [Hm|Hm]; [auto|].
      apply in_map_iff in Hm as (r & <- & Hr). cbn. apply (Hg r). unfold rs in Hr. apply filter_In in Hr. tauto.
    - intros m p Hm. apply in_app_or in Hm as [Hm|Hm]; [eauto|].
      apply in_map_iff in Hm as (r & <- & Hr). discriminate.
    - intros m Hm. apply in_app_or in Hm as [Hm|Hm]; [auto|].
      apply in_map_iff in Hm as (r & <- & Hr). cbn. apply (Hg r). unfold rs in Hr. apply filter_In in Hr. tauto. }
  destruct (refresh_link_total (k_id k) s1 M1) as (s' & H). exists s'. split; [exact H|].
  unfold refresh_link in H. rewrite refreshes_of_link in H. apply bind_ok in H. destruct H as (a & Hr & H). apply Ok_inj in H.
  destruct (refreshes_spec _ _ _ Hr) as ((R1 & R2) & _).
  assert (E : forall l o i lv q, valued s' l o i lv q <-> valued s1 l o i lv q).
  { intros l o i lv q. rewrite (valued_of_noprop s1 s' (fun _ => true)).
    - unfold valued. split; intros (m & Hm & Q); exists m; tauto.
    - rewrite filter_const. subst s'. exact R2. }
  split; intros; rewrite E; auto.
Qed.

(** Values of the produced mappings. *)
Lemma iter_nonneg src from to o i lv v :
  (forall r q, In r src -> sr_value r = Some q -> (0 <= q)%Q) ->
  (forall h, In h from -> (0 <= part h)%Q) -> (forall h, In h to -> (0 <= part h)%Q) ->
  In ((o, i, lv), v) (iter_mappings src from to) -> (0 <= val v)%Q.
Proof.
  intros Hs Hf Ht H. apply (in_group_by pair_eqb pair_eqb_iff) in H as [_ ->].
  rewrite val_sql_sum. apply Qsum_nonneg. intros x Hx. apply in_map_iff in Hx as (y & <- & Hy).
  apply in_map_iff in Hy as ((k & w) & <- & Hy). apply filter_In in Hy as [Hy _]. cbn [snd].
  unfold joint_rows in Hy. apply in_flat_map in Hy as (r & Hr & Hy). rewrite joint_run in Hy.
  apply in_map_iff in Hy as ((a & b) & E & Hy). inversion E; subst. cbn [fst snd].
  apply in_flat_map in Hy as (a' & Ha & Hy). apply in_map_iff in Hy as (b' & E' & Hb). inversion E'; subst.
  apply filter_In in Hb as [Hb _]. unfold of_run in *. apply filter_In in Ha, Hb.
  rewrite !val_mult. apply Qmult_le_0_compat.
  - destruct (sr_value r) as [q|] eqn:Eq; cbn [val]; [now apply (Hs r q)|lra].
  - apply Qmult_le_0_compat; [now apply Hf|now apply Ht].
Qed.
Lemma iter_some src from to o i lv v :
  (forall r, In r src -> sr_value r <> None) ->
  (forall h, In h from -> h_prop h <> None) -> (forall h, In h to -> h_prop h <> None) ->
  In ((o, i, lv), v) (iter_mappings src from to) -> v <> None.
Proof.
  intros Hs Hf Ht H. apply (in_group_by pair_eqb pair_eqb_iff) in H as [Hk ->]. intros E.
  pose proof (sql_sum_null (map snd (filter (fun r => pair_eqb (fst r) (o, i, lv)) (joint_rows src from to)))) as N.
  rewrite E in N. cbn [null_sum] in N. apply in_map_iff in Hk as ((k & w) & Ek & Hk). cbn [fst] in Ek. subst k.
  assert (w = None).
  { apply N. apply in_map_iff. exists ((o, i, lv), w). split; [reflexivity|]. apply filter_In. split; [exact Hk|].
    now apply pair_eqb_iff. }
  subst w. unfold joint_rows in Hk. apply in_flat_map in Hk as (r & Hr & Hy). rewrite joint_run in Hy.
  apply in_map_iff in Hy as ((a & b) & E1 & Hy). inversion E1; subst.
  apply in_flat_map in Hy as (a' & Ha & Hy). apply in_map_iff in Hy as (b' & E' & Hb). inversion E'; subst.
  apply filter_In in Hb as [Hb _]. unfold of_run in *. apply filter_In in Ha, Hb.
  specialize (Hs r Hr). specialize (Hf _ (proj1 Ha)). specialize (Ht _ (proj1 Hb)). cbn [fst snd] in *.
  destruct (sr_value r), (h_prop a), (h_prop b); cbn in *; congruence.
Qed.
