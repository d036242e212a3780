(** The statements of Mapper_Properties. *)
From Verif Require Import Prelude QLemmas BitFlags_Model BitFlags_Proofs Selectors_Model Selectors_Proofs
  LinkRef_Model LinkRef_Proofs Db_Model Db_Spec Db_ProofsRun Reader_Model Reader_Spec Reader_Proofs
  Mapper_Model Mapper_Spec Mapper_Proofs Mapper_Proofs2 Mapper_Proofs3 Mapper_Proofs4.
From Coq Require Import Permutation Lqa.
From Coq Require Import ZifyBool ZifyNat ZifyN.
Local Open Scope nat_scope.

Lemma levels_nodup gran s : NoDup (map level_of (d_structs s)) -> NoDup (sorted_levels gran s).
Proof. intros H. exact (Permutation_NoDup (Permutation_map level_of (sort_levels_perm gran (d_structs s))) H). Qed.

Section One.
  Context (gran : list bool -> option Q) (s : db) (limit : nat) (allow : bool) (es : list (Z * side))
    (l : list hit) (c : counter).
  Context (W : index_wf s).
  Context (Hl : NoDup (map level_of (d_structs s))).
  Context (He : NoDup (map fst es)).
  Context (H : match_records gran s limit allow es [] = Ok (l, c)).

  Lemma sound h : In h l -> exists d, In (h_run h, d) es /\ h_level h = sd_level d /\ refers s d (h_index h).
  Proof.
    intros Hh. destruct (match_has_row _ _ _ _ _ _ _ h H Hh) as (d & Hd & E & Hlv). exists d.
    split; [exact Hd|]. split; [exact E|].
    destruct (row_matches gran s limit allow es l c (h_run h) d W (levels_nodup gran s Hl) He H Hd Hlv)
      as (g & refs & keep & _ & [_ Hr] & [_ Hk] & A1 & A2 & _).
    assert (Hi : In h (of_run (h_run h) l)) by (apply filter_In; split; [exact Hh|lia]).
    apply Hr. destruct (in_dec Z.eq_dec (h_index h) keep) as [Hin|Hn]; [now apply Hk in Hin|exfalso].
    rewrite A2 in Hi; [easy|]. intros Ha. apply Hn. rewrite <- (A1 Ha). now apply in_map.
  Qed.

  Lemma within_limit run d : In (run, d) es -> by_labels d -> length (of_run run l) <= limit.
  Proof.
    intros Hd Hb. destruct (of_run run l) as [|h M] eqn:E; [cbn; lia|]. rewrite <- E.
    assert (Hh : In h l /\ h_run h = run).
    { assert (Hi : In h (of_run run l)) by (rewrite E; now left). apply filter_In in Hi. split; [tauto|lia]. }
    destruct Hh as [Hh Er]. destruct (match_has_row _ _ _ _ _ _ _ h H Hh) as (d' & Hd' & _ & Hlv). rewrite Er in Hd'.
    assert (d' = d) by eauto using nodup_fst_eq. subst d'.
    destruct (row_matches gran s limit allow es l c run d W (levels_nodup gran s Hl) He H Hd Hlv)
      as (g & refs & keep & _ & [Hn Hr] & [Hkn Hk] & A1 & A2 & _).
    destruct (le_dec (length (of_run run l)) limit) as [|Hx]; [assumption|exfalso].
    rewrite A2 in E; [discriminate|]. intros Ha. apply Hx. rewrite <- (map_length h_index), (A1 Ha).
    destruct Ha as [Ha _]. apply Nat.le_trans with (length refs); [|auto].
    apply NoDup_incl_length; [exact Hkn|]. intros i Hi. now apply Hk in Hi.
  Qed.

  Lemma no_overlap h d refs : allow = false -> In h l -> In (h_run h, d) es -> by_labels d ->
    refers_to s d refs -> 1 < length refs ->
    forall h', In h' l -> h_index h' = h_index h -> ~ before (sorted_levels gran s) (h_level h') (h_level h).
  Proof.
    intros Ha Hh Hd Hb [Hrn Hrf] Hlen h' Hh' Ei Hbf.
    destruct (match_has_row _ _ _ _ _ _ _ h H Hh) as (d' & Hd' & El & Hlv).
    assert (d' = d) by eauto using nodup_fst_eq. subst d'.
    destruct (row_matches gran s limit allow es l c (h_run h) d W (levels_nodup gran s Hl) He H Hd Hlv)
      as (g & refs' & keep & _ & [Hn Hr] & [Hkn Hk] & A1 & A2 & _).
    assert (Hi : In h (of_run (h_run h) l)) by (apply filter_In; split; [exact Hh|lia]).
    assert (El2 : length refs' = length refs).
    { apply Permutation_length, NoDup_Permutation; auto. intros i. now rewrite Hr, Hrf. }
    destruct (in_dec Z.eq_dec (h_index h) keep) as [Hin|Hnin].
    - apply Hk in Hin as [_ Ht]. apply (Ht Hb Ha ltac:(lia)). exists h'. rewrite <- El. auto.
    - rewrite A2 in Hi; [easy|]. intros Hac. apply Hnin. rewrite <- (A1 Hac). now apply in_map.
  Qed.
End One.

Section Both.
  Context (gran1 gran2 : list bool -> option Q) (s1 s2 : db) (limit : nat) (allow : bool)
    (src : list source) (l1 l2 : list hit).
  Context (I1 : index_wf s1).
  Context (I2 : index_wf s2).
  Context (W1 : weights_wf s1).
  Context (W2 : weights_wf s2).
  Context (M : mapped gran1 gran2 s1 s2 limit allow src l1 l2).

  Lemma runs : NoDup (map sr_run src).
  Proof.
    destruct (md_load _ _ _ _ _ _ _ _ _ M) as (data & H). destruct (load_rows s1 s2 data [] src H) as (new & -> & _ & Hr & _).
    cbn [app length] in *. now apply (load_runs new data).
  Qed.
  Lemma runs1 : NoDup (map fst (side_1 src)).
  Proof. unfold side_1. rewrite map_map. apply runs. Qed.
  Lemma runs2 : NoDup (map fst (side_2 src)).
  Proof. unfold side_2. rewrite map_map. apply runs. Qed.

  Lemma parts1 run : (parts run l1 == if matched run l1 then 1 else 0)%Q.
  Proof.
    destruct (matched run l1) eqn:E.
    - destruct (md_1 _ _ _ _ _ _ _ _ _ M) as (c & H).
      exact (proj2 (shares gran1 s1 limit allow (side_1 src) l1 c run W1 (levels_nodup gran1 s1 (md_levels1 _ _ _ _ _ _ _ _ _ M)) runs1 H E)).
    - unfold parts. now rewrite unmatched_parts.
  Qed.
  Lemma parts2 run : (parts run l2 == if matched run l2 then 1 else 0)%Q.
  Proof.
    destruct (matched run l2) eqn:E.
    - destruct (md_2 _ _ _ _ _ _ _ _ _ M) as (c & H).
      exact (proj2 (shares gran2 s2 limit allow (side_2 src) l2 c run W2 (levels_nodup gran2 s2 (md_levels2 _ _ _ _ _ _ _ _ _ M)) runs2 H E)).
    - unfold parts. now rewrite unmatched_parts.
  Qed.

  Lemma total_rows rows from to : (from = l1 /\ to = l2 \/ from = l2 /\ to = l1) ->
    (Qsum (map (fun x => val (snd x)) (iter_mappings rows from to)) ==
     Qsum (map (fun r => val (sr_value r) * (1 - share_of (sr_run r) from 0 * share_of (sr_run r) to 0))
       (filter (fun r => matched (sr_run r) l1 && matched (sr_run r) l2) rows)))%Q.
  Proof.
    intros Hft. rewrite carried_total, <- Qsum_if. apply Qsum_ext. intros r _.
    assert (P1 := parts1 (sr_run r)). assert (P2 := parts2 (sr_run r)).
    assert (Z1 : matched (sr_run r) l1 = false -> (share_of (sr_run r) l1 0 == 0)%Q).
    { intros E. unfold share_of. now rewrite unmatched_parts. }
    assert (Z2 : matched (sr_run r) l2 = false -> (share_of (sr_run r) l2 0 == 0)%Q).
    { intros E. unfold share_of. now rewrite unmatched_parts. }
    destruct Hft as [[-> ->]|[-> ->]]; rewrite P1, P2;
      destruct (matched (sr_run r) l1), (matched (sr_run r) l2); cbn [andb]; try lra;
      rewrite ?Z1, ?Z2 by reflexivity; ring.
  Qed.

  Lemma hit_parts h : In h l1 \/ In h l2 -> exists p, h_prop h = Some p /\ (0 <= p <= 1)%Q.
  Proof.
    intros Hh. assert (Em : forall l, In h l -> matched (h_run h) l = true /\ In h (of_run (h_run h) l)).
    { intros l Hi. split; [apply existsb_exists; exists h; split; [exact Hi|lia]|apply filter_In; split; [exact Hi|lia]]. }
    destruct Hh as [Hh|Hh]; destruct (Em _ Hh) as [Hm Hi].
    - destruct (md_1 _ _ _ _ _ _ _ _ _ M) as (c & H).
      destruct (shares gran1 s1 limit allow (side_1 src) l1 c (h_run h) W1 (levels_nodup gran1 s1 (md_levels1 _ _ _ _ _ _ _ _ _ M)) runs1 H Hm) as [S _].
      destruct (S h Hi) as (p & E & Hp & _). eauto.
    - destruct (md_2 _ _ _ _ _ _ _ _ _ M) as (c & H).
      destruct (shares gran2 s2 limit allow (side_2 src) l2 c (h_run h) W2 (levels_nodup gran2 s2 (md_levels2 _ _ _ _ _ _ _ _ _ M)) runs2 H Hm) as [S _].
      destruct (S h Hi) as (p & E & Hp & _). eauto.
  Qed.

  Lemma src_nonneg r q : In r src -> sr_value r = Some q -> (0 <= q)%Q.
  Proof.
    destruct (md_load _ _ _ _ _ _ _ _ _ M) as (data & H). destruct (load_rows s1 s2 data [] src H) as (new & -> & _ & _ & Hr).
    cbn [app]. intros Hi. now apply Hr.
  Qed.

  Lemma stored ref name k from to s : (from = l1 /\ to = l2 \/ from = l2 /\ to = l1) -> maps_wf s ->
    (forall r, In r src -> sr_value r <> None) ->
    get_link ref name true (d_links s) = Ok k -> In k (d_links s) ->
    (forall m, In m (d_maps s) -> m_link m <> k_id k) ->
    exists s', insert_mappings2 ref name (to_rows (iter_mappings src from to)) s = Ok s' /\
      (forall o i lv q, valued s' (k_id k) o i lv q <->
         In ((o, i, lv), Some q) (iter_mappings src from to) /\ exists b, In b (d_structs s) /\ In true b /\ lv = level_of b) /\
      (forall o i lv v, In ((o, i, lv), v) (iter_mappings src from to) -> exists q, v = Some q) /\
      (forall l o i lv q, l <> k_id k -> (valued s' l o i lv q <-> valued s l o i lv q)).
  Proof.
    intros Hft Mw Hs Hl Hk Hno.
    assert (Hp : forall h, In h from \/ In h to -> exists p, h_prop h = Some p /\ (0 <= p <= 1)%Q).
    { intros h Hh. apply hit_parts. destruct Hft as [[-> ->]|[-> ->]]; tauto. }
    destruct (load_stored ref name (iter_mappings src from to) s k Mw Hl Hk Hno (iter_keys src from to)) as (s' & E & G1 & G2).
    - intros o i lv q Hi. split.
      + apply (iter_nonneg src from to o i lv (Some q)); [exact src_nonneg| | |exact Hi];
          intros h Hh; [destruct (Hp h (or_introl Hh)) as (p & Ep & Hp')|destruct (Hp h (or_intror Hh)) as (p & Ep & Hp')];
          unfold part; rewrite Ep; cbn [val]; lra.
      + now apply iter_defined in Hi.
    - exists s'. split; [exact E|]. split; [exact G1|]. split; [|exact G2].
      intros o i lv v Hi. apply iter_some in Hi; [destruct v; [eauto|congruence]|exact Hs| |];
        intros h Hh; [destruct (Hp h (or_introl Hh)) as (p & Ep & _)|destruct (Hp h (or_intror Hh)) as (p & Ep & _)]; congruence.
  Qed.

  Lemma fully : is_fully_matched s1 s2 l1 l2 = true <->
    (forall i, defined s1 i -> exists h, In h l1 /\ h_index h = i) /\
    (forall i, defined s2 i -> exists h, In h l2 /\ h_index h = i).
  Proof.
    destruct (md_1 _ _ _ _ _ _ _ _ _ M) as (c1 & H1). destruct (md_2 _ _ _ _ _ _ _ _ _ M) as (c2 & H2).
    unfold is_fully_matched. rewrite andb_true_iff, (fully_side s1 l1 I1), (fully_side s2 l2 I2); [reflexivity| |].
    - intros h Hh. destruct (sound gran2 s2 limit allow (side_2 src) l2 c2 I2 (md_levels2 _ _ _ _ _ _ _ _ _ M) runs2 H2 h Hh) as (d & _ & _ & Hr & _). exact Hr.
    - intros h Hh. destruct (sound gran1 s1 limit allow (side_1 src) l1 c1 I1 (md_levels1 _ _ _ _ _ _ _ _ _ M) runs1 H1 h Hh) as (d & _ & _ & Hr & _). exact Hr.
  Qed.
End Both.

Lemma directions src l1 l2 a b :
  (carried (iter_mappings src l1 l2) a b == carried (iter_mappings src l2 l1) b a)%Q.
Proof.
  rewrite !carried_pair, (andb_comm (b =? 0)%Z). destruct ((a =? 0)%Z && (b =? 0)%Z); [reflexivity|].
  apply Qsum_ext. intros r _. ring.
Qed.
