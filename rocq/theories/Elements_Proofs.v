(** Proofs about the export of mappings. *)
From Verif Require Import Prelude BitFlags_Model BitFlags_Spec BitFlags_Proofs Selectors_Model Selectors_Proofs
  SelectorParse_Model LinkRef_Model LinkRef_Spec IndexCode_Model IndexCode_Spec IndexCode_Proofs IndexCode_Proofs2 IndexCode_Proofs3
  Db_Model Db_Spec Db_Proofs Db_ProofsLocal Db_ProofsRefresh Db_ProofsRun Db_ProofsOps Elements_Model Elements_Spec.
Local Open Scope nat_scope.

Lemma pick_link_gen n ks : forall acc, 
  (forall k, fold_left (fun found k => if text_eqb (k_name k) n then Some k else found) ks acc = Some k ->
     acc = Some k \/ In k ks /\ k_name k = n) /\
  (fold_left (fun found k => if text_eqb (k_name k) n then Some k else found) ks acc = None ->
     acc = None /\ forall k, In k ks -> k_name k <> n).
Proof.
  induction ks as [|x ks IH]; intros acc; cbn [fold_left].
  - split; [auto|]. intros H. split; auto.
  - destruct (IH (if text_eqb (k_name x) n then Some x else acc)) as [A B]. split.
    + intros k H. destruct (A k H) as [E|[E1 E2]]; [|right; split; [now right|auto]].
      destruct (text_eqb (k_name x) n) eqn:Q; [|auto]. apply text_eqb_iff in Q. injection E as ->. right. split; [now left|auto].
    + intros H. destruct (B H) as [E1 E2]. destruct (text_eqb (k_name x) n) eqn:Q; [discriminate|]. split; auto.
      intros k [<-|Hk]; auto. now apply text_eqb_neq.
Qed.
Lemma pick_link_some n id links k : pick_link (Some n) id links = Some k ->
  In k links /\ k_other k = id /\ k_name k = n.
Proof.
  intros H. unfold pick_link in H. apply (proj1 (pick_link_gen n _ None)) in H. destruct H as [H|[H1 H2]]; [discriminate|].
  apply filter_In in H1. destruct H1 as [H1 H3]. apply text_eqb_iff in H3. auto.
Qed.
Lemma pick_link_none n id links : pick_link (Some n) id links = None ->
  forall k, In k links -> k_other k = id -> k_name k <> n.
Proof.
  intros H k Hk Ho. unfold pick_link in H. apply (proj2 (pick_link_gen n _ None)) in H. apply (proj2 H).
  apply filter_In. split; auto. now apply text_eqb_iff.
Qed.
Lemma pick_link_no_name id links : pick_link None id links = None.
Proof. unfold pick_link. induction (find_by_other_unique_id id links); cbn [fold_left]; auto. Qed.
Lemma pick_link_iff n id s k : link_table (d_links s) ->
  (pick_link (Some n) id (d_links s) = Some k <-> the_link n id s k).
Proof.
  intros (_ & U & _). split; [apply pick_link_some|]. intros (H1 & H2 & H3).
  destruct (pick_link (Some n) id (d_links s)) as [k'|] eqn:E.
  - apply pick_link_some in E. destruct E as (E1 & E2 & E3). f_equal. apply U; auto; congruence.
  - exfalso. exact (pick_link_none _ _ _ E k H1 H2 H3).
Qed.

Lemma hash_eqb_iff a b : hash_eqb a b = true <-> a = b.
Proof. unfold hash_eqb. destruct (list_eq_dec Z.eq_dec a b); split; congruence. Qed.
Lemma hash_same_iff h (o : option (list Z)) :
  match o with Some x => hash_eqb h x | None => false end = false <-> o <> Some h.
Proof.
  destruct o as [x|].
  - rewrite <- not_true_iff_false, hash_eqb_iff. split; intros H E; apply H; congruence.
  - split; [discriminate|reflexivity].
Qed.

Lemma unmatched_spec k s rs : find_unmatched_index_ids (k_id k) s = Ok rs ->
  NoDup rs /\ forall i, In i rs <-> defined s i /\ ~ mapped_target k s i.
Proof.
  unfold find_unmatched_index_ids. destruct (negb _); [discriminate|]. intros H. apply Ok_inj in H. subst rs. split.
  - assert (Q : forall l, StronglySorted Z.lt l -> NoDup l).
    { induction 1 as [|x l H IH F]; constructor; auto. intros Hx. rewrite Forall_forall in F. specialize (F x Hx). lia. }
    apply Q, zsort_sorted, NoDup_nodup.
  - intros i. rewrite zsort_in, nodup_In, !filter_In, in_map_iff. unfold defined, has_index, mapped_target, of_link. split.
    + intros (((r & Er & Hr) & Hz) & Hm). split; [split; [eauto|lia]|].
      intros (m & (Hm1 & Hl) & Hi). rewrite negb_true_iff, <- not_true_iff_false in Hm. apply Hm.
      apply existsb_exists. exists m. split; [|lia]. apply filter_In. split; auto. lia.
    + intros (((r & Hr & Er) & Hz) & Hm). split; [split; [eauto|lia]|].
      rewrite negb_true_iff, <- not_true_iff_false. intros Q. apply existsb_exists in Q. destruct Q as (m & Hq & Ei).
      apply filter_In in Hq. apply Hm. exists m. split; [split; [tauto|lia]|lia].
Qed.
Lemma unmatched_ok k s : In k (d_links s) -> exists rs, find_unmatched_index_ids (k_id k) s = Ok rs.
Proof.
  intros H. unfold find_unmatched_index_ids.
  assert (E : existsb (fun k0 => (k_id k0 =? k_id k)%Z) (d_links s) = true).
  { apply existsb_exists. exists k. split; auto. lia. }
  rewrite E. cbn [negb]. eauto.
Qed.

Lemma lefts_spec k (src trg : db) l :
  In l (filter (fun o => negb (o =? 0)%Z && nil_b (find_maps_of (k_id k) o trg)) (map ix_id (d_index src))) <->
  defined src l /\ ~ mapped_source k trg l.
Proof.
  rewrite filter_In, in_map_iff, andb_true_iff. unfold defined, has_index, mapped_source, of_link, find_maps_of. split.
  - intros ((r & Er & Hr) & Hz & Hn). split; [split; [eauto|lia]|]. intros (m & (Hm & Hl) & Ho).
    assert (Q : In m (filter (map_at (k_id k) l) (d_maps trg))).
    { apply filter_In. split; auto. unfold map_at. lia. }
    destruct (filter (map_at (k_id k) l) (d_maps trg)); [destruct Q|discriminate].
  - intros (((r & Hr & Er) & Hz) & Hm). split; [eauto|]. split; [lia|].
    destruct (filter (map_at (k_id k) l) (d_maps trg)) as [|m ms] eqn:Q; [reflexivity|]. exfalso. apply Hm.
    assert (Hq : In m (filter (map_at (k_id k) l) (d_maps trg))) by (rewrite Q; now left).
    apply filter_In in Hq. destruct Hq as [H1 H2]. unfold map_at in H2. exists m. split; [split; [auto|lia]|lia].
Qed.

Lemma nodup_filter {A} (f : A -> bool) l : NoDup l -> NoDup (filter f l).
Proof.
  induction 1 as [|x l H N IH]; cbn [filter]; [constructor|]. destruct (f x); auto. constructor; auto.
  intros Q. apply filter_In in Q. tauto.
Qed.

(** The generator, for a link that is found. *)
Lemma elements_of k n id src trg : NoDup (map ix_id (d_index src)) -> link_table (d_links trg) -> maps_wf trg ->
  the_link n id trg k ->
  exists els, generate_mapping_elements (Some n) id src trg = Ok els /\ exported k src trg els.
Proof.
  intros Ns Lt Wm L. unfold generate_mapping_elements. rewrite (proj2 (pick_link_iff n id trg k Lt) L). cbv zeta.
  destruct (unmatched_ok k trg (proj1 L)) as (rs & Er). pose proof (unmatched_spec _ _ _ Er) as [R1 R2].
  set (lefts := filter _ _).
  set (b := match k_hash k with Some h => hash_eqb (d_hash src) h | None => false end).
  assert (X : forall rs', (NoDup rs' /\ forall i, In i rs' <-> k_complete k = false /\ defined trg i /\ ~ mapped_target k trg i) ->
    exported k src trg ((Some 0%Z, Some 0%Z, None, Some 0%Q) ::
      map (fun m => (Some (m_other m), Some (m_index m), Some (m_level m), Some (m_value m))) (find_maps (k_id k) trg) ++
      map (fun i => (None, Some i, None, None)) rs' ++
      map (fun o => (Some o, None, None, None)) (if b then [] else lefts))).
  { intros rs' Hr. exists (find_maps (k_id k) trg), rs', (if b then [] else lefts). split; [reflexivity|].
    split; [|split; [exact Hr|]].
    - split.
      + unfold find_maps. apply nodup_filter. eapply NoDup_map_inv. exact (mw_unique _ Wm).
      + intros m. unfold find_maps, of_link. rewrite filter_In. split; intros [A B]; split; auto; lia.
    - destruct b eqn:B.
      + split; [constructor|]. intros o. split; [intros []|]. intros (Hn & _).
        apply hash_same_iff in Hn. fold b in Hn. congruence.
      + split; [now apply nodup_filter|]. intros o. unfold lefts. rewrite lefts_spec. 
        assert (Hn : k_hash k <> Some (d_hash src)) by (apply hash_same_iff; exact B). tauto. }
  destruct (k_complete k) eqn:Ec.
  - cbn [bind]. eexists. split; [reflexivity|]. apply X. split; [constructor|]. intros i. split; [intros []|]. intros (Q & _). discriminate.
  - rewrite Er. cbn [bind]. eexists. split; [reflexivity|]. apply X. split; auto. intros i. rewrite R2. tauto.
Qed.

Lemma elements_none n id src trg : (forall k, ~ the_link n id trg k) ->
  generate_mapping_elements (Some n) id src trg = Err PlainException.
Proof.
  intros H. unfold generate_mapping_elements. destruct (pick_link (Some n) id (d_links trg)) as [k|] eqn:E; auto.
  apply pick_link_some in E. exfalso. exact (H k E).
Qed.

(** *** Covered records *)

Lemma covered_target k n id src trg els i : exported k src trg els -> the_link n id trg k ->
  link_flags_sound trg -> defined trg i -> exists e, In e els /\ el_target e = Some i.
Proof.
  intros (ms & rs & ls & -> & (_ & M) & (_ & R) & _) L S D.
  destruct (k_complete k) eqn:Ec.
  - destruct (S k (proj1 L) Ec i D) as (m & Hm & E1 & E2).
    exists (shown m). split; [|cbn; congruence]. right. apply in_or_app. left. apply in_map, M. split; auto.
  - destruct (existsb (fun m => (m_link m =? k_id k)%Z && (m_index m =? i)%Z) (d_maps trg)) eqn:Q.
    + apply existsb_exists in Q. destruct Q as (m & Hm & E).
      exists (shown m). split; [|cbn; f_equal; lia]. right. apply in_or_app. left. apply in_map, M. split; auto. lia.
    + exists (lone_target i). split; [|reflexivity]. right. apply in_or_app. right. apply in_or_app. left. apply in_map, R.
      split; auto. split; auto. intros (m & (Hm & E1) & E2). rewrite <- not_true_iff_false in Q. apply Q.
      apply existsb_exists. exists m. split; auto. lia.
Qed.
Lemma covered_source k n id src trg els o : exported k src trg els -> the_link n id trg k ->
  link_sources trg -> hash_wf src -> defined src o -> exists e, In e els /\ el_source e = Some o.
Proof.
  intros (ms & rs & ls & -> & (_ & M) & _ & (_ & R)) L S [_ W] D.
  destruct (existsb (fun m => (m_link m =? k_id k)%Z && (m_other m =? o)%Z) (d_maps trg)) eqn:Q.
  - apply existsb_exists in Q. destruct Q as (m & Hm & E).
    exists (shown m). split; [|cbn; f_equal; lia]. right. apply in_or_app. left. apply in_map, M. split; auto. lia.
  - assert (N : ~ mapped_source k trg o).
    { intros (m & (Hm & E1) & E2). rewrite <- not_true_iff_false in Q. apply Q.
      apply existsb_exists. exists m. split; auto. lia. }
    exists (lone_source o). split; [|reflexivity]. right. apply in_or_app. right. apply in_or_app. right. apply in_map, R.
    split; [|auto]. intros Eh. specialize (S k _ (proj1 L) Eh). destruct S as [_ S].
    destruct (proj1 (S o)) as [Z0|(Hp & m & Hm & E1 & E2)].
    + apply W. apply D.
    + apply D in Z0. exact Z0.
    + apply N. exists m. split; [split|]; auto.
Qed.

(** *** The CSV rows *)

Lemma code_of_ok bytes i t : index_id_to_code i bytes = Ok t -> forall todecimal, index_code_to_id todecimal t bytes = Ok i.
Proof.
  intros H td. assert (F : fits i).
  { unfold index_id_to_code in H. destruct (pack_i64_be i) eqn:E; [|discriminate].
    unfold pack_i64_be in E. destruct ((- 2 ^ 63 <=? i) && (i <? 2 ^ 63))%Z eqn:Q; [|discriminate].
    unfold fits. lia. }
  destruct (code_round_trip td i bytes F) as (t' & E1 & E2). congruence.
Qed.

Lemma labels_of_found s i r : index_find i s = Some r -> labels_of s (Some i) (map Some (ix_labels r)).
Proof. intros H. apply index_find_spec in H. left. exists r. tauto. Qed.
Lemma labels_of_missing s i : index_find i s = None -> labels_of s (Some i) (no_values s).
Proof. intros H. apply index_find_none in H. right. split; auto. Qed.

Lemma write_element_spec src trg sb tb amb rows c e rows' c' :
  write_element src trg sb tb amb (rows, c) e = Ok (rows', c') ->
  exists r, rows' = rows ++ [r] /\ row_of src trg sb tb e r /\
    r_ambiguous r = (if amb then Some (get_ambiguous_field_text (snd (fst e)) (d_labels trg)) else None) /\
    n_rows c' = S (n_rows c) /\
    n_invalid_source c' = (match el_source e with
                           | Some o => match index_find o src with Some _ => 0 | None => 1 end
                           | None => 0 end) + n_invalid_source c /\
    n_unmatched_source c' = (match el_source e with None => 1 | Some _ => 0 end) + n_unmatched_source c /\
    n_unmatched_target c' = (match el_target e with None => 1 | Some _ => 0 end) + n_unmatched_target c /\
    (forall i, el_target e = Some i -> has_index trg i).
Proof.
  destruct e as [[[so ti] lv] v]. unfold write_element. intros H.
  apply bind_ok in H. destruct H as ([[sl sc] inv] & H1 & H).
  apply bind_ok in H. destruct H as ([tl tc] & H2 & H). apply Ok_inj in H. injection H as <- <-.
  eexists. split; [reflexivity|]. unfold row_of, el_source, el_target. cbn [fst snd r_src_code r_src_labels r_value r_trg_code r_trg_labels r_ambiguous n_rows n_invalid_source n_unmatched_source n_unmatched_target].
  assert (S : code_of sb so sc /\ labels_of src so sl /\ inv = (match so with
                           | Some o => match index_find o src with Some _ => 0 | None => 1 end
                           | None => 0 end)).
  { destruct so as [o|].
    - apply bind_ok in H1. destruct H1 as (code & E & H1). apply Ok_inj in H1.
      destruct (index_find o src) as [r|] eqn:F; injection H1 as <- <- <-; (split; [exact (code_of_ok _ _ _ E)|split; [|reflexivity]]).
      + now apply labels_of_found.
      + now apply labels_of_missing.
    - apply Ok_inj in H1. injection H1 as <- <- <-. repeat split. }
  assert (T : code_of tb ti tc /\ labels_of trg ti tl /\ forall i, ti = Some i -> has_index trg i).
  { destruct ti as [i|].
    - destruct (index_find i trg) as [r|] eqn:F; [|discriminate].
      apply bind_ok in H2. destruct H2 as (code & E & H2). apply Ok_inj in H2. injection H2 as <- <-.
      split; [exact (code_of_ok _ _ _ E)|]. split; [now apply labels_of_found|]. intros j [= <-].
      apply index_find_spec in F. exists r. tauto.
    - apply Ok_inj in H2. injection H2 as <- <-. repeat split. discriminate. }
  destruct S as (S1 & S2 & ->), T as (T1 & T2 & T3).
  split; [auto 6|]. repeat split; auto.
Qed.

Definition start : counts := {| n_rows := 0; n_invalid_source := 0; n_unmatched_source := 0; n_unmatched_target := 0 |}.
(** The source of the element is not a record of the source space. *)
Definition gone (src : db) (e : element) : Prop := exists o, el_source e = Some o /\ ~ has_index src o.
Definition no_source (e : element) : Prop := el_source e = None.
Definition no_target (e : element) : Prop := el_target e = None.

Lemma write_loop src trg sb tb amb els : forall rows0 c0 rows c,
  fold_res (write_element src trg sb tb amb) els (rows0, c0) = Ok (rows, c) ->
  exists rs a b d, rows = rows0 ++ rs /\ Forall2 (row_of src trg sb tb) els rs /\
    Forall2 (fun e r => r_ambiguous r = if amb then Some (get_ambiguous_field_text (snd (fst e)) (d_labels trg)) else None) els rs /\
    n_rows c = length els + n_rows c0 /\
    counted (gone src) els a /\ n_invalid_source c = a + n_invalid_source c0 /\
    counted no_source els b /\ n_unmatched_source c = b + n_unmatched_source c0 /\
    counted no_target els d /\ n_unmatched_target c = d + n_unmatched_target c0.
Proof.
  induction els as [|e els IH]; intros rows0 c0 rows c H; cbn [fold_res] in H.
  - apply Ok_inj in H. injection H as <- <-. exists [], 0, 0, 0. rewrite app_nil_r. repeat split; constructor.
  - apply bind_ok in H. destruct H as ([rows1 c1] & H1 & H). apply write_element_spec in H1.
    destruct H1 as (r & -> & R & Am & N & I & U1 & U2 & _). apply IH in H.
    destruct H as (rs & a & b & d & -> & F & F' & E1 & C1 & E2 & C2 & E3 & C3 & E4).
    assert (Ca : exists a', counted (gone src) (e :: els) a' /\ n_invalid_source c = a' + n_invalid_source c0).
    { destruct (el_source e) as [o|] eqn:Es.
      - destruct (index_find o src) as [x|] eqn:Ef.
        + exists a. split; [|lia]. apply counted_no; auto. intros (o' & Eo & Hn). apply index_find_spec in Ef.
          apply Hn. exists x. split; [tauto|]. destruct Ef. congruence.
        + exists (S a). split; [|lia]. apply counted_yes; auto. exists o. split; auto. now apply index_find_none.
      - exists a. split; [|lia]. apply counted_no; auto. intros (o' & Eo & Hn). congruence. }
    assert (Cb : exists b', counted no_source (e :: els) b' /\ n_unmatched_source c = b' + n_unmatched_source c0).
    { destruct (el_source e) as [o|] eqn:Es.
      - exists b. split; [|lia]. apply counted_no; auto. unfold no_source. congruence.
      - exists (S b). split; [|lia]. now apply counted_yes. }
    assert (Cd : exists d', counted no_target (e :: els) d' /\ n_unmatched_target c = d' + n_unmatched_target c0).
    { destruct (el_target e) as [o|] eqn:Es.
      - exists d. split; [|lia]. apply counted_no; auto. unfold no_target. congruence.
      - exists (S d). split; [|lia]. now apply counted_yes. }
    destruct Ca as (a' & A1 & A2), Cb as (b' & B1 & B2), Cd as (d' & D1 & D2).
    exists (r :: rs), a', b', d'. rewrite <- app_assoc. cbn [app length]. repeat split; auto. lia.
Qed.

(** When the writing succeeds. *)
Lemma write_element_ok src trg sb tb amb st e :
  (forall o, el_source e = Some o -> fits o) -> (forall i, el_target e = Some i -> fits i /\ has_index trg i) ->
  exists st', write_element src trg sb tb amb st e = Ok st'.
Proof.
  destruct e as [[[so ti] lv] v]. unfold el_source, el_target. cbn [fst snd]. intros Hs Ht. destruct st as [rows c].
  unfold write_element.
  assert (A : forall i u, fits i -> exists t, index_id_to_code i u = Ok t).
  { intros i u F. destruct (code_round_trip (fun _ => None) i u F) as (t & E & _). eauto. }
  assert (S : exists x, match so with
    | Some o =>
        do code <- index_id_to_code o sb;
        Ok (match index_find o src with
            | Some r => (map Some (ix_labels r), Some code, 0)
            | None => (no_values src, Some code, 1)
            end)
    | None => Ok (no_values src, None, 0)
    end = Ok x).
  { destruct so as [o|]; [|eauto]. destruct (A o sb (Hs o eq_refl)) as (t & E). rewrite E. cbn [bind]. eauto. }
  destruct S as ([[sl sc] inv] & ->). cbn [bind].
  assert (T : exists x, match ti with
    | Some i =>
        match index_find i trg with
        | None => Err KeyError
        | Some r => do code <- index_id_to_code i tb; Ok (map Some (ix_labels r), Some code)
        end
    | None => Ok (no_values trg, None)
    end = Ok x).
  { destruct ti as [i|]; [|eauto]. destruct (Ht i eq_refl) as [F Hi]. destruct (A i tb F) as (t & E).
    destruct (index_find i trg) as [r|] eqn:Ef; [|apply index_find_none in Ef; contradiction].
    rewrite E. cbn [bind]. eauto. }
  destruct T as ([tl tc] & ->). cbn [bind]. eauto.
Qed.
Lemma write_loop_ok src trg sb tb amb els :
  (forall e o, In e els -> el_source e = Some o -> fits o) ->
  (forall e i, In e els -> el_target e = Some i -> fits i /\ has_index trg i) ->
  forall st, exists st', fold_res (write_element src trg sb tb amb) els st = Ok st'.
Proof.
  induction els as [|e els IH]; intros Hs Ht st; cbn [fold_res]; [eauto|].
  destruct (write_element_ok src trg sb tb amb st e) as (st1 & E); [intros; eapply Hs; eauto; now left|intros; eapply Ht; eauto; now left|].
  rewrite E. cbn [bind]. apply IH; intros; [eapply Hs|eapply Ht]; eauto; now right.
Qed.

Lemma find_link_iff n id s k : link_table (d_links s) ->
  (find (fun k => text_eqb (k_other k) id && text_eqb (k_name k) n) (d_links s) = Some k <-> the_link n id s k).
Proof.
  intros (_ & U & _). split.
  - intros H. apply find_some in H. destruct H as [H E]. apply andb_true_iff in E. destruct E as [E1 E2].
    apply text_eqb_iff in E1. apply text_eqb_iff in E2. split; auto.
  - intros (H1 & H2 & H3). destruct (find _ (d_links s)) as [k'|] eqn:E.
    + apply find_some in E. destruct E as [E Q]. apply andb_true_iff in Q. destruct Q as [Q1 Q2].
      apply text_eqb_iff in Q1. apply text_eqb_iff in Q2. f_equal. apply U; auto; congruence.
    + exfalso. pose proof (find_none _ _ E k H1) as Q. cbv beta in Q. rewrite H2, H3, !text_eqb_refl in Q. discriminate.
Qed.

(** *** The ambiguous fields *)

Lemma compress_outside (names : list text) : forall bits lv n,
  (forall i, i < length bits -> nth i bits false = byte_bit lv (n + i)) ->
  compress names (map negb bits) = outside n (firstn (length bits) names) lv.
Proof.
  induction names as [|c names IH]; intros [|b bits] lv n H; cbn [compress map firstn length outside]; auto.
  assert (H0 := H 0 ltac:(cbn; lia)). cbn [nth] in H0. rewrite Nat.add_0_r in H0. rewrite <- H0.
  assert (R : compress names (map negb bits) = outside (S n) (firstn (length bits) names) lv).
  { apply IH. intros i Hi. specialize (H (S i) ltac:(cbn; lia)). cbn [nth] in H. rewrite H. f_equal. lia. }
  destruct b; cbn [negb]; [exact R|now rewrite R].
Qed.
Lemma ambiguous_exact lv names :
  get_ambiguous_field_text (Some lv) names =
  match join (txt ", ") (outside 0 (firstn (bf_len (of_bytes lv)) names) lv) with [] => None | t => Some t end.
Proof.
  unfold get_ambiguous_field_text. rewrite (compress_outside names (bf_iter (of_bytes lv)) lv 0).
  - rewrite bf_iter_length. reflexivity.
  - intros i _. exact (of_bytes_iter lv i).
Qed.

Lemma ambiguous_full lv names : length names <= bf_len (of_bytes lv) ->
  get_ambiguous_field_text (Some lv) names =
  match join (txt ", ") (outside 0 names lv) with [] => None | t => Some t end.
Proof. intros H. rewrite ambiguous_exact, firstn_all2 by exact H. reflexivity. Qed.

(** The level of a whole space has a bit for each column. *)
Lemma distinct_levels_in l s lv : In lv (distinct_levels l s) <-> exists m, In m (d_maps s) /\ m_link m = l /\ m_level m = lv.
Proof.
  unfold distinct_levels, find_maps. rewrite nodup_In, in_map_iff. split.
  - intros (m & E & H). apply filter_In in H. exists m. split; [tauto|]. split; [lia|auto].
  - intros (m & H1 & H2 & E). exists m. split; auto. apply filter_In. split; auto. lia.
Qed.
Lemma plain_iff k s :
  match distinct_levels (k_id k) s with [] => true | [lv] => bytes_eqb lv (whole_level s) | _ => false end = true <->
  forall m, of_link k s m -> m_level m = whole_level s.
Proof.
  assert (N : NoDup (distinct_levels (k_id k) s)) by apply NoDup_nodup.
  assert (I := distinct_levels_in (k_id k) s). unfold of_link.
  destruct (distinct_levels (k_id k) s) as [|a [|b l]].
  - split; auto. intros _ m (H1 & H2). destruct (proj2 (I (m_level m))). eauto.
  - rewrite bytes_eqb_iff. split.
    + intros <- m (H1 & H2). destruct (proj2 (I (m_level m))) as [E|[]]; eauto.
    + intros H. destruct (proj1 (I a) (or_introl eq_refl)) as (m & H1 & H2 & <-). auto.
  - split; [discriminate|]. intros H. exfalso.
    destruct (proj1 (I a) (or_introl eq_refl)) as (m & H1 & H2 & E1).
    destruct (proj1 (I b) (or_intror (or_introl eq_refl))) as (m' & H3 & H4 & E2).
    inversion_clear N as [|? ? Na _]. apply Na. left. rewrite <- E1, <- E2, (H m), (H m'); auto.
Qed.

Lemma write_spec name id sb tb sh th src trg header rows c :
  NoDup (map ix_id (d_index src)) -> link_table (d_links trg) -> maps_wf trg ->
  write_to_stdout name id sb tb sh th src trg = Ok (header, rows, c) ->
  exists k els full, the_link name id trg k /\ exported k src trg els /\
    generate_mapping_elements (Some name) id src trg = Ok els /\
    (full = true <-> forall m, of_link k trg m -> m_level m = whole_level trg) /\
    header = [sh] ++ d_labels src ++ [name; th] ++ d_labels trg ++ (if full then [] else [txt "ambiguous_fields"]) /\
    Forall2 (row_of src trg sb tb) els rows /\
    Forall2 (fun e r => r_ambiguous r =
      if full then None else Some (get_ambiguous_field_text (snd (fst e)) (d_labels trg))) els rows /\
    n_rows c = length els /\ counted (gone src) els (n_invalid_source c) /\
    counted no_source els (n_unmatched_source c) /\ counted no_target els (n_unmatched_target c).
Proof.
  intros Ns Lt Wm H. unfold write_to_stdout in H.
  destruct (find _ (d_links trg)) as [k|] eqn:F; [|discriminate]. apply (find_link_iff name id trg k Lt) in F.
  pose proof (plain_iff k trg) as P. cbv zeta in H.
  destruct (elements_of k name id src trg Ns Lt Wm F) as (els & E & X). rewrite E in H. cbn [bind] in H.
  apply bind_ok in H. destruct H as ([rows' c'] & L & H). apply Ok_inj in H. injection H as <- <- <-.
  apply write_loop in L. cbn [n_rows n_invalid_source n_unmatched_source n_unmatched_target] in L.
  destruct L as (rs & a & b & d & E0 & F1 & F2 & N & C1 & E1 & C2 & E2 & C3 & E3). cbn [app] in E0. subst rs.
  rewrite Nat.add_0_r in N, E1, E2, E3. subst a b d.
  eexists k, els, _. split; [exact F|]. split; [exact X|]. split; [exact E|]. split; [exact P|]. split; [reflexivity|].
  split; [exact F1|]. split; [|auto].
  destruct (match distinct_levels (k_id k) trg with [] => true | [lv] => bytes_eqb lv (whole_level trg) | _ => false end); exact F2.
Qed.

Lemma write_ok name id sb tb sh th src trg k :
  NoDup (map ix_id (d_index src)) -> link_table (d_links trg) -> maps_wf trg -> has_index trg 0 ->
  the_link name id trg k ->
  (forall m, of_link k trg m -> has_index trg (m_index m) /\ fits (m_other m)) ->
  (forall i, has_index src i -> fits i) -> (forall i, has_index trg i -> fits i) ->
  exists out, write_to_stdout name id sb tb sh th src trg = Ok out.
Proof.
  intros Ns Lt Wm Z0 L M Fs Ft. unfold write_to_stdout. rewrite (proj2 (find_link_iff name id trg k Lt) L). cbv zeta.
  destruct (elements_of k name id src trg Ns Lt Wm L) as (els & E & X). rewrite E. cbn [bind].
  match goal with |- context [fold_res ?f els ?s0] => destruct (write_loop_ok src trg sb tb
    (negb match distinct_levels (k_id k) trg with [] => true | [lv] => bytes_eqb lv (whole_level trg) | _ => false end) els) with (st := s0) as ([rows c] & Ew) end.
  - destruct X as (ms & rs & ls & -> & (_ & Xm) & (_ & Xr) & (_ & Xl)). intros e o [<-|He].
    + cbn. intros [= <-]. unfold fits. lia.
    + rewrite !in_app_iff, !in_map_iff in He. destruct He as [(m & <- & Hm)|[(i & <- & Hi)|(i & <- & Hi)]]; cbn; try discriminate.
      * intros [= <-]. apply Xm in Hm. now apply M.
      * intros [= <-]. apply Xl in Hi. apply Fs, Hi.
  - destruct X as (ms & rs & ls & -> & (_ & Xm) & (_ & Xr) & (_ & Xl)). intros e i [<-|He].
    + cbn. intros [= <-]. auto.
    + rewrite !in_app_iff, !in_map_iff in He. destruct He as [(m & <- & Hm)|[(j & <- & Hi)|(j & <- & Hi)]]; cbn; try discriminate.
      * intros [= <-]. apply Xm in Hm. split; [apply Ft|]; now apply M.
      * intros [= <-]. apply Xr in Hi. split; [apply Ft|]; apply Hi.
  - rewrite Ew. cbn [bind]. eauto.
Qed.
