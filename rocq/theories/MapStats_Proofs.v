(** Proofs about the statistics of a link's mappings. *)
From Verif Require Import Prelude Selectors_Model Selectors_Proofs LinkRef_Model LinkRef_Spec LinkRef_Proofs
  Db_Model Db_Spec Db_Proofs Db_ProofsLocal Db_ProofsRefresh Db_ProofsOps Db_ProofsRun Elements_Model Elements_Spec Elements_Proofs
  MapStats_Model MapStats_Spec.
From Coq Require Import Permutation.
Local Open Scope Z_scope.

Lemma how_many_unique P n n' : how_many P n -> how_many P n' -> n = n'.
Proof.
  intros (l & N & H & <-) (l' & N' & H' & <-). f_equal. apply Permutation_length, NoDup_Permutation; auto.
  intros i. now rewrite H, H'.
Qed.
Lemma how_many_ext (P Q : Z -> Prop) n : (forall i, P i <-> Q i) -> how_many P n -> how_many Q n.
Proof. intros E (l & N & H & <-). exists l. repeat split; auto; intros; [now apply E, H|now apply H, E]. Qed.

(** Removing a part. *)
Lemma how_many_minus (P Q : Z -> Prop) n m : (forall i, Q i -> P i) -> how_many P n -> how_many Q m ->
  how_many (fun i => P i /\ ~ Q i) (n - m).
Proof.
  intros S (l & N & H & <-) (l' & N' & H' & <-).
  set (f := fun i => if in_dec Z.eq_dec i l' then true else false).
  assert (Hf : forall i, f i = true <-> Q i) by (intros i; unfold f; destruct (in_dec Z.eq_dec i l') as [Hi|Hi]; rewrite <- H'; split; auto; discriminate).
  exists (filter (fun i => negb (f i)) l). split; [now apply NoDup_filter|]. split.
  - intros i. rewrite filter_In, H, negb_true_iff. split; intros [A B]; split; auto.
    + intros Hq. apply Hf in Hq. congruence.
    + destruct (f i) eqn:E; auto. exfalso. now apply B, Hf.
  - assert (P1 : length (filter f l) = length l').
    { apply Permutation_length, NoDup_Permutation; auto; [now apply NoDup_filter|]. intros i. rewrite filter_In, Hf, H, H'.
      split; [tauto|]. auto. }
    assert (P2 : forall l, (length (filter f l) + length (filter (fun i => negb (f i)) l) = length l)%nat).
    { intros k. induction k as [|a k IH]; cbn [filter length]; auto. destruct (f a); cbn [negb length]; lia. }
    specialize (P2 l). lia.
Qed.

Lemma how_many_zero P : how_many P 0 <-> forall i, ~ P i.
Proof.
  split.
  - intros (l & _ & H & E) i Pi. apply H in Pi. destruct l; [destruct Pi|discriminate].
  - intros H. exists []. split; [constructor|]. split; [|reflexivity]. intros i. split; [intros []|intros Pi; exact (H i Pi)].
Qed.

Lemma cardinality_spec s : NoDup (map ix_id (d_index s)) -> how_many (has_index s) (get_cardinality s).
Proof.
  intros N. exists (map ix_id (d_index s)). split; auto. split; [|unfold get_cardinality; now rewrite map_length].
  intros i. rewrite in_map_iff. unfold has_index. split; intros (r & A & B); exists r; auto.
Qed.

Lemma found_iff s i : (exists r, index_get i s = Ok r) <-> has_index s i.
Proof.
  unfold index_get. split.
  - intros (r & H). destruct (index_find i s) eqn:E; [|discriminate]. apply index_find_spec in E. exists i0. tauto.
  - intros H. destruct (index_find i s) eqn:E; [eauto|]. exfalso. exact (proj1 (index_find_none i s) E H).
Qed.

Lemma count_ids_spec src ids a b :
  count_ids src ids (a, b) =
    (a + Z.of_nat (length (filter (fun o => match index_get o src with Ok _ => true | Err _ => false end) ids)),
     b + Z.of_nat (length (filter (fun o => match index_get o src with Ok _ => false | Err _ => true end) ids))).
Proof.
  revert a b. induction ids as [|o ids IH]; intros a b; cbn [count_ids filter length]; [f_equal; lia|].
  destruct (index_get o src); cbn [fst snd length]; rewrite IH; f_equal; lia.
Qed.

Lemma sources_mapped s k h : sources_of s (k_id k) h -> forall o, In o h <-> o = 0 \/ 0 < o /\ mapped_source k s o.
Proof.
  intros [_ H] o. rewrite H. unfold mapped_source, of_link. split.
  - intros [->|(P & m & A & B & C)]; [auto|]. right. split; auto. exists m. auto.
  - intros [->|(P & m & (A & B) & C)]; [auto|]. right. split; auto. exists m. auto.
Qed.
Lemma sources_nodup s l h : sources_of s l h -> NoDup h.
Proof.
  intros [H _]. induction H as [|a h S IH F]; constructor; auto. intros Hi. rewrite Forall_forall in F. specialize (F a Hi). lia.
Qed.

Lemma target_count k s : how_many (fun i => i = 0 \/ mapped_target k s i) (get_index_id_cardinality (k_id k) s).
Proof.
  unfold get_index_id_cardinality. set (l := nodup _ _).
  assert (H : forall i, In i l <-> i <> 0 /\ mapped_target k s i).
  { intros i. unfold l. rewrite nodup_In, filter_In, in_map_iff. unfold mapped_target, of_link, find_maps. split.
    - intros ((m & <- & Hm) & E). apply filter_In in Hm. destruct Hm as [Hm Em]. split; [lia|]. exists m. repeat split; auto; lia.
    - intros (E & m & (Hm & Em) & <-). split; [|lia]. exists m. split; auto. apply filter_In. split; auto. lia. }
  exists (0 :: l). split; [constructor; [|apply NoDup_nodup]|].
  - intros Hi. apply H in Hi. now destruct Hi.
  - split; [|cbn [length]; lia]. intros i. cbn [In]. rewrite H. destruct (Z.eq_dec i 0); intuition.
Qed.

Definition defined_dec s i : NoDup (map ix_id (d_index s)) -> {has_index s i} + {~ has_index s i}.
Proof.
  intros _. destruct (index_find i s) as [r|] eqn:E.
  - left. apply index_find_spec in E. exists r. tauto.
  - right. now apply index_find_none.
Defined.
Lemma mapped_source_dec k s o : {mapped_source k s o} + {~ mapped_source k s o}.
Proof.
  destruct (existsb (fun m => (m_link m =? k_id k) && (m_other m =? o)) (d_maps s)) eqn:E.
  - left. apply existsb_exists in E. destruct E as (m & Hm & E). exists m. repeat split; auto; lia.
  - right. intros (m & (Hm & E1) & E2). rewrite <- not_true_iff_false in E. apply E. apply existsb_exists. exists m. split; auto. lia.
Qed.

(** The counts for the source. *)
Lemma source_counts id src trg k st :
  inv src -> link_sources trg -> In k (d_links trg) ->
  get_mapping_stats id src trg k = Ok st ->
  how_many (has_index src) (src_cardinality st) /\
  how_many (matched_source k src trg) (src_index_matched st) /\
  how_many (missing_source k src trg) (src_index_missing st) /\
  how_many (stale_source k src trg) (src_index_stale st).
Proof.
  intros I S Hk H. pose proof (iw_unique _ (i_index _ I)) as N. pose proof (cardinality_spec src N) as C.
  assert (U : has_index src 0) by (exists (undefined_record src); split; [exact (iw_undefined _ (i_index _ I))|reflexivity]).
  assert (Pos : forall o, has_index src o -> 0 <= o) by (intros o (r & Hr & <-); now apply (iw_range _ (i_index _ I))).
  unfold get_mapping_stats in H. destruct (negb _); [discriminate|].
  assert (Miss : forall n m, how_many (has_index src) n -> how_many (matched_source k src trg) m ->
            how_many (missing_source k src trg) (n - m)).
  { intros n m A B. refine (how_many_ext _ _ _ _ (how_many_minus _ _ n m _ A B)).
    - intros i. unfold missing_source, matched_source, defined. split.
      + intros (A1 & A2). repeat split; auto; intros Q; apply A2; auto.
      + intros ((A1 & A3) & A2). split; auto. intros (_ & [Q|Q]); auto.
    - intros i Q. apply Q. }
  destruct (match k_hash k with Some h => hash_eqb h (d_hash src) | None => false end) eqn:E.
  - destruct (k_hash k) as [h|] eqn:Eh; [|discriminate]. unfold hash_eqb in E. destruct (list_eq_dec Z.eq_dec h (d_hash src)) as [->|]; [|discriminate].
    injection H as <-. cbn [src_cardinality src_index_matched src_index_missing src_index_stale].
    pose proof (sources_mapped _ _ _ (S k _ Hk Eh)) as M. destruct (i_hash _ I) as [_ HW].
    assert (Q : forall o, has_index src o <-> o = 0 \/ 0 < o /\ mapped_source k trg o) by (intros o; now rewrite <- HW, M).
    split; auto. split; [|split].
    + refine (how_many_ext _ _ _ _ C). intros o. unfold matched_source. rewrite (Q o). intuition.
    + apply how_many_zero. intros o [[D D0] Nm]. apply Q in D. intuition.
    + apply how_many_zero. intros o (P & M1 & D). apply D, Q. auto.
  - destruct (count_ids src (distinct_others (k_id k) trg) (0, 0)) as [m x] eqn:Ec. injection H as <-.
    cbn [src_cardinality src_index_matched src_index_missing src_index_stale].
    pose proof (distinct_others_spec (k_id k) trg) as SO. pose proof (sources_mapped _ _ _ SO) as M.
    pose proof (sources_nodup _ _ _ SO) as Nd.
    rewrite count_ids_spec in Ec. injection Ec as <- <-.
    assert (A : how_many (matched_source k src trg)
      (Z.of_nat (length (filter (fun o => match index_get o src with Ok _ => true | Err _ => false end) (distinct_others (k_id k) trg))))).
    { eexists. split; [apply NoDup_filter, Nd|]. split; [|reflexivity]. intros o. rewrite filter_In, M. unfold matched_source. rewrite <- found_iff.
      split.
      - intros (A & B). destruct (index_get o src) eqn:Eo; [|discriminate]. split; eauto. tauto.
      - intros ((r & Hr) & B). rewrite Hr. split; auto. assert (has_index src o) as Ho by (apply found_iff; eauto). specialize (Pos o Ho).
        destruct B as [->|B]; auto. destruct (Z.eq_dec o 0); [auto|]. right. split; auto. lia. }
    split; auto. split; [exact A|]. split; [exact (Miss _ _ C A)|].
    exists (filter (fun o => match index_get o src with Ok _ => false | Err _ => true end) (distinct_others (k_id k) trg)). split; [apply NoDup_filter, Nd|]. split; [|reflexivity]. intros o. rewrite filter_In, M. unfold stale_source. rewrite <- found_iff.
    split.
    + intros (B & D). destruct (index_get o src) eqn:Eo; [discriminate|]. destruct B as [->|(P & B)].
      * apply found_iff in U. destruct U as (r & Hr). congruence.
      * repeat split; auto. intros (r & Hr). discriminate.
    + intros (P & B & D). split; [auto|]. destruct (index_get o src) eqn:Eo; [exfalso; eauto|auto].
Qed.

(** The counts for the target. *)
Lemma target_counts id src trg k st :
  inv trg -> (forall m, of_link k trg m -> has_index trg (m_index m)) ->
  get_mapping_stats id src trg k = Ok st ->
  how_many (has_index trg) (trg_cardinality st) /\
  how_many (matched_target k trg) (trg_index_matched st) /\
  how_many (missing_target k trg) (trg_index_missing st).
Proof.
  intros I R H. pose proof (cardinality_spec trg (iw_unique _ (i_index _ I))) as C.
  assert (U : has_index trg 0) by (exists (undefined_record trg); split; [exact (iw_undefined _ (i_index _ I))|reflexivity]).
  assert (A : how_many (matched_target k trg) (get_index_id_cardinality (k_id k) trg)).
  { refine (how_many_ext _ _ _ _ (target_count k trg)). intros i. unfold matched_target. split; [|tauto].
    intros [->|M]; auto. split; auto. destruct M as (m & Hm & <-). auto. }
  unfold get_mapping_stats in H. destruct (negb _); [discriminate|].
  destruct (if match k_hash k with Some h => hash_eqb h (d_hash src) | None => false end then _ else _) as [[a b] c].
  injection H as <-. cbn [trg_cardinality trg_index_matched trg_index_missing]. split; auto. split; auto.
  refine (how_many_ext _ _ _ _ (how_many_minus _ _ _ _ _ C A)); [|intros i Q; apply Q].
  intros i. unfold missing_target, matched_target, defined. split.
  - intros (A1 & A2). repeat split; auto; intros Q; apply A2; auto.
  - intros ((A1 & A3) & A2). split; auto. intros (_ & [Q|Q]); auto.
Qed.

Lemma stats_ok id src trg k : k_other k = id <-> exists st, get_mapping_stats id src trg k = Ok st.
Proof.
  unfold get_mapping_stats. destruct (text_eqb (k_other k) id) eqn:E; cbn [negb].
  - apply text_eqb_iff in E. split; auto. intros _.
    destruct (if match k_hash k with Some h => hash_eqb h (d_hash src) | None => false end then _ else _) as [[a b] c]. eauto.
  - split; [|intros (st & H); discriminate]. intros Q. subst id. rewrite text_eqb_refl in E. discriminate.
Qed.

(** What is said. *)
Lemma notes_in st x : In x (notes st) <->
  match x with
  | Verified => src_index_missing st = 0 /\ src_index_stale st = 0 /\ trg_index_missing st = 0
  | MissingSource n => n = src_index_missing st /\ n <> 0
  | StaleSource n => n = src_index_stale st /\ n <> 0
  | MissingTarget n => n = trg_index_missing st /\ n <> 0
  end.
Proof.
  unfold notes. destruct (src_index_missing st =? 0) eqn:A, (src_index_stale st =? 0) eqn:B, (trg_index_missing st =? 0) eqn:C;
    cbn [andb app In]; destruct x; split; intros H;
    repeat match goal with
    | H : _ \/ _ |- _ => destruct H
    | H : False |- _ => destruct H
    | H : _ /\ _ |- _ => destruct H
    | H : _ = _ :> note |- _ => try discriminate; injection H; clear H; intros
    end; subst; try lia; repeat split; try lia; auto; congruence.
Qed.

Lemma log_ok id name src trg k st : get_link id (Some name) true (d_links trg) = Ok k ->
  get_mapping_stats id src trg k = Ok st -> log_mapping_stats id name src trg = Ok (notes st).
Proof. intros H E. unfold log_mapping_stats. now rewrite H; cbn [bind]; rewrite E. Qed.
