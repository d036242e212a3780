(** Proofs about the counters. *)
From Verif Require Import Prelude BitFlags_Model BitFlags_Proofs Selectors_Model Selectors_Proofs LinkRef_Model LinkRef_Spec
  LinkRef_Proofs Db_Model Db_Spec Db_Proofs Db_ProofsLocal Db_ProofsMerge Db_ProofsInv2 Db_ProofsOps Report_Model Report_Spec.
From Coq Require Import ZifyBool ZifyNat.

(** *** Loops *)

Lemma tally_story {S R} (f : S -> R -> res S) kinds (told : db -> R -> list kind -> db -> Prop) (v : S -> db)
  (P : db -> Prop) :
  (forall s r s', P (v s) -> f s r = Ok s' -> told (v s) r (kinds s r) (v s') /\ P (v s')) ->
  forall rows s x, P (v s) -> tally_rows f kinds rows s = Ok x ->
  story told (v s) rows (snd x) (v (fst x)).
Proof.
  intros H. induction rows as [|r rows IH]; intros s x HP E; cbn [tally_rows] in E.
  - injection E as <-. constructor.
  - apply bind_ok in E. destruct E as (s1 & E1 & E). apply bind_ok in E. destruct E as (y & E2 & E).
    injection E as <-. cbn [fst snd]. destruct (H _ _ _ HP E1) as [T P1]. econstructor; eauto.
Qed.

Lemma tally_sim {S T R} (f : S -> R -> res S) kinds (g : T -> R -> res T) (v : list kind -> S -> T) :
  (forall acc s r, g (v acc s) r = do s' <- f s r; Ok (v (acc ++ kinds s r) s')) ->
  forall rows acc s, fold_res g rows (v acc s) = do x <- tally_rows f kinds rows s; Ok (v (acc ++ snd x) (fst x)).
Proof.
  intros H. induction rows as [|r rows IH]; intros acc s; cbn [fold_res tally_rows].
  - cbn [bind fst snd]. now rewrite app_nil_r.
  - rewrite H. destruct (f s r) as [s1|e]; cbn [bind]; auto. rewrite IH.
    destruct (tally_rows f kinds rows s1) as [x|e]; cbn [bind fst snd]; auto. now rewrite <- app_assoc.
Qed.

Lemma fold_left_res {A S} (g : S -> A -> S) l : forall s, fold_res (fun s a => Ok (g s a)) l s = Ok (fold_left g l s).
Proof. induction l as [|a l IH]; intros s; cbn [fold_res fold_left bind]; auto. Qed.

Lemma fold_res_ext {A S} (f g : S -> A -> res S) l : (forall s a, f s a = g s a) -> forall s, fold_res f l s = fold_res g l s.
Proof. intros H. induction l as [|a l IH]; intros s; cbn [fold_res]; auto. rewrite H. destruct (g s a); cbn [bind]; auto. Qed.

Lemma count_app k a b : count k (a ++ b) = count k a + count k b.
Proof. apply count_occ_app. Qed.
Lemma pos_app k a b : (0 <? count k (a ++ b)) = (0 <? count k a) || (0 <? count k b).
Proof. rewrite count_app. lia. Qed.

Lemma story_loss {R} (told : db -> R -> list kind -> db -> Prop) (size : db -> nat) k :
  (forall s r ks s', told s r ks s' -> size s' + count k ks = size s) ->
  forall s rows ks s', story told s rows ks s' -> size s' + count k ks = size s.
Proof.
  intros H s rows ks s' T. induction T as [s|s r ks s1 rows ks' s' T0 T IH]; [cbn; lia|].
  rewrite count_app. specialize (H _ _ _ _ T0). lia.
Qed.
Lemma story_gain {R} (told : db -> R -> list kind -> db -> Prop) (size : db -> nat) k :
  (forall s r ks s', told s r ks s' -> size s' = size s + count k ks) ->
  forall s rows ks s', story told s rows ks s' -> size s' = size s + count k ks.
Proof.
  intros H s rows ks s' T. induction T as [s|s r ks s1 rows ks' s' T0 T IH]; [cbn; lia|].
  rewrite count_app. specialize (H _ _ _ _ T0). lia.
Qed.
Lemma story_once {R} (told : db -> R -> list kind -> db -> Prop) :
  (forall s r ks s', told s r ks s' -> length ks = 1) ->
  forall s rows ks s', story told s rows ks s' -> length ks = length rows.
Proof.
  intros H s rows ks s' T. induction T as [s|s r ks s1 rows ks' s' T0 T IH]; auto.
  rewrite app_length, (H _ _ _ _ T0), IH. reflexivity.
Qed.

(** *** The warning *)

Lemma is_kind_iff a b : is_kind a b = true <-> a = b.
Proof. unfold is_kind. destruct (kind_eq_dec a b); split; auto; discriminate. Qed.
Lemma counted_iff k ks : counted k ks = true <-> In k ks.
Proof. unfold counted. destruct (in_dec kind_eq_dec k ks); split; auto; discriminate. Qed.
Lemma order_all k : In k warning_order.
Proof. destruct k; unfold warning_order; cbn [In]; tauto. Qed.
Lemma order_nodup : NoDup warning_order.
Proof. unfold warning_order. repeat constructor; cbn [In]; intuition discriminate. Qed.

Lemma warn_none e ks : warn_if_issues e ks = None <-> forall k, In k ks -> k = e.
Proof.
  unfold warn_if_issues. destruct (forallb (fun k => is_kind k e) ks) eqn:E; split; auto; try discriminate.
  - intros _ k Hk. rewrite forallb_forall in E. now apply is_kind_iff, E.
  - intros H. exfalso. apply not_true_iff_false in E. apply E, forallb_forall. intros k Hk. now apply is_kind_iff, H.
Qed.

Lemma warn_some e ks msg : warn_if_issues e ks = Some msg -> told_all e ks msg.
Proof.
  unfold warn_if_issues. destruct (forallb (fun k => is_kind k e) ks); [discriminate|]. intros E.
  assert (msg = map (fun k => (k, count k ks))
                  (filter (fun k => counted k ks && negb (is_kind k e)) warning_order ++ [e])) as -> by congruence.
  clear E. split; [|split].
  - rewrite map_map. cbn [fst]. rewrite map_id. apply nodup_snoc; [apply NoDup_filter, order_nodup|].
    intros H. apply filter_In in H. destruct H as [_ H]. apply andb_true_iff in H. destruct H as [_ H].
    apply negb_true_iff, not_true_iff_false in H. apply H. now apply is_kind_iff.
  - intros k n. rewrite in_map_iff. split.
    + intros (k' & E & H). injection E as -> <-. split; auto. apply in_app_iff in H. destruct H as [H|[H|[]]]; auto.
      apply filter_In in H. destruct H as [_ H]. apply andb_true_iff in H. left. now apply counted_iff.
    + intros [H ->]. exists k. split; auto. apply in_app_iff.
      destruct (kind_eq_dec k e) as [->|N]; [right; now left|]. left. apply filter_In. split; [apply order_all|].
      destruct H as [H|H]; [|congruence]. apply andb_true_iff. split; [now apply counted_iff|].
      apply negb_true_iff, not_true_iff_false. intros X. apply N. now apply is_kind_iff.
  - exists (map (fun k => (k, count k ks)) (filter (fun k => counted k ks && negb (is_kind k e)) warning_order)).
    now rewrite map_app.
Qed.

(** *** One row *)

Lemma find_matches i s r : index_find i s = Some r -> matches s i (ix_labels r).
Proof. intros H. apply index_find_spec in H. destruct H as [H <-]. unfold matches. destruct r; exact H. Qed.
Lemma find_left_out i s : index_find i s = None -> ~ has_index s i.
Proof. intros H (r & Hr & <-). unfold index_find in H. apply (find_none _ _ H) in Hr. cbv beta in Hr. lia. Qed.
Lemma labels_differ a b : labels_eqb a b = false -> a <> b.
Proof. intros H ->. assert (labels_eqb b b = true) by now apply labels_eqb_iff. congruence. Qed.

Lemma filter_one {A B} (key : A -> B) (p : A -> bool) (x : A) l : NoDup (map key l) -> In x l ->
  (forall y, In y l -> p y = false <-> key y = key x) -> S (length (filter p l)) = length l.
Proof.
  induction l as [|a l IH]; intros N H E; [destruct H|]. cbn [map] in N. inversion N as [|? ? Na Nl]; subst.
  cbn [filter length]. destruct (p a) eqn:Ea.
  - cbn [length]. f_equal. apply IH; auto.
    + destruct H as [->|H]; auto. assert (p x = false) by (apply E; [now left|auto]). congruence.
    + intros y Hy. apply E. now right.
  - f_equal. assert (Ka : key a = key x) by (apply E; [now left|auto]).
    assert (forall y, In y l -> p y = true).
    { intros y Hy. destruct (p y) eqn:Ey; auto. exfalso. apply Na. apply E in Ey; [|now right].
      rewrite Ka, <- Ey. now apply in_map. }
    clear - H0. induction l as [|b l IH]; auto. cbn [filter]. rewrite (H0 b); [|now left]. cbn [length]. f_equal.
    apply IH. intros y Hy. apply H0. now right.
Qed.

Definition unique_ids (s : db) : Prop := NoDup (map ix_id (d_index s)).

Lemma told_delete_index_ok s r s' : unique_ids s -> delete_index_row s r = Ok s' ->
  told_delete_index s r (delete_index_kinds s r) s' /\ unique_ids s'.
Proof.
  unfold delete_index_row, delete_index_kinds. intros U H. destruct (index_find (dr_id r) s) as [rec|] eqn:F.
  2:{ injection H as <-. split; auto. left. split; auto. left. split; auto. now apply find_left_out. }
  pose proof (find_matches _ _ _ F) as M. apply index_find_spec in F. destruct F as [Hr Ei].
  destruct (labels_eqb (ix_labels rec) (dr_labels r)) eqn:L.
  - apply labels_eqb_iff in L. rewrite Ei in H.
    assert (X : del_effect (dr_id r) s s') by (apply delete_record_effect; auto; exists rec; auto).
    destruct X as [_ EI _ _ _ _]. split.
    + right. split; auto. split; [now rewrite <- L|]. rewrite EI. split.
      * apply (filter_one ix_id _ rec); auto. intros y _. rewrite Ei. lia.
      * intros x. rewrite filter_In. rewrite negb_true_iff, Z.eqb_neq. reflexivity.
    + unfold unique_ids. rewrite EI. now apply nodup_map_filter.
  - injection H as <-. split; auto. left. split; auto. right. split; auto. exists (ix_labels rec).
    split; auto. now apply labels_differ.
Qed.

Lemma relabelled_ids i labels l : map ix_id (map (relabelled i labels) l) = map ix_id l.
Proof.
  rewrite map_map. apply map_ext. intros x. unfold relabelled. destruct (ix_id x =? i)%Z eqn:E; auto.
  cbn [ix_id]. lia.
Qed.
Lemma index_update_index i labels s s' : index_update i labels s = Ok s' ->
  d_index s' = map (relabelled i labels) (d_index s).
Proof.
  unfold index_update. destruct (negb _); [discriminate|]. destruct (index_find i s) eqn:F.
  - repeat (destruct (_ : bool); [discriminate|]). intros H. injection H as <-. reflexivity.
  - intros H. injection H as <-. rewrite <- map_id at 1. apply map_ext_in. intros x Hx. unfold relabelled.
    unfold index_find in F. rewrite (find_none _ _ F x Hx). reflexivity.
Qed.

Lemma told_update_index_ok merge st r st' : unique_ids (us_db st) -> update_index_row merge st r = Ok st' ->
  told_update_index (us_db st) r (update_index_kinds st r) (us_db st') /\ unique_ids (us_db st').
Proof.
  unfold update_index_row, update_index_kinds. intros U H.
  destruct (ur_blank r || existsb is_empty (ur_labels r)) eqn:B.
  { injection H as <-. split; auto. left. split; auto. split; auto. apply orb_true_iff in B. destruct B as [B|B]; auto.
    right. apply existsb_exists in B. destruct B as (x & Hx & E). destruct x; [auto|discriminate]. }
  destruct (index_find (ur_id r) (us_db st)) as [rec|] eqn:F.
  2:{ destruct (existsb _ (us_merged st)); [discriminate|]. injection H as <-. split; auto. right; left.
      split; auto. split; auto. now apply find_left_out. }
  apply index_find_spec in F. destruct F as [Hr Ei]. rewrite Ei in H.
  assert (HI : has_index (us_db st) (ur_id r)) by (exists rec; auto).
  apply bind_ok in H. destruct H as (st1 & E1 & H). apply bind_ok in H. destruct H as (s2 & E2 & H).
  injection H as <-. cbn [us_db]. apply index_update_index in E2.
  destruct (index_by_labels (ur_labels r) (us_db st)) as [mt|] eqn:L.
  - destruct merge; [|discriminate]. cbn [negb] in E1.
    apply bind_ok in E1. destruct E1 as (a & A1 & E1). apply bind_ok in E1. destruct E1 as (b & B1 & E1).
    apply bind_ok in E1. destruct E1 as (c & C1 & E1). injection E1 as <-. cbn [us_db] in E2.
    apply weight_merge_eq in A1. apply map_merge_eq in B1.
    assert (Ib : d_index b = d_index (us_db st)) by (rewrite B1, A1; reflexivity). clear A1 B1.
    unfold index_by_labels in L. apply find_some in L. destruct L as [Hm L]. apply labels_eqb_iff in L.
    unfold index_delete in C1. destruct (index_find (ix_id mt) b) as [x|] eqn:Fb.
    2:{ unfold index_find in Fb. rewrite Ib in Fb. apply (find_none _ _ Fb) in Hm. lia. }
    destruct (ix_id mt =? 0)%Z; [discriminate|]. injection C1 as <-. cbn [set_index d_index] in E2. rewrite Ib in E2.
    assert (Ln : S (length (d_index s2)) = length (d_index (us_db st))).
    { rewrite E2, map_length. apply (filter_one ix_id _ mt); auto. intros y _. lia. }
    split.
    + right; right; right. split; auto. split; auto. exists (ix_id mt). split; [|split; auto].
      unfold matches. rewrite <- L. destruct mt; exact Hm.
    + unfold unique_ids. rewrite E2, relabelled_ids. now apply nodup_map_filter.
  - injection E1 as <-. split.
    + right; right; left. split; auto. split; auto. split; auto. intros i M.
      unfold index_by_labels in L. apply (find_none _ _ L) in M. cbn [ix_labels] in M.
      now apply labels_differ in M.
    + unfold unique_ids. rewrite E2, relabelled_ids. exact U.
Qed.

(** *** Weights *)

Definition unique_weights (s : db) : Prop := NoDup (map (fun w => (w_group w, w_index w)) (d_weights s)).

Lemma weight_find_none g i s : weight_find g i s = None -> ~ weighted s g i.
Proof.
  intros H (w & Hw & E). unfold weight_find in H. apply (find_none _ _ H) in Hw.
  apply not_true_iff_false in Hw. now apply Hw, weight_is_iff.
Qed.
Lemma weight_find_some g i s w : weight_find g i s = Some w -> In w (d_weights s) /\ w_group w = g /\ w_index w = i.
Proof. intros H. unfold weight_find in H. apply find_some in H. destruct H as [H E]. apply weight_is_iff in E. auto. Qed.

Lemma told_update_weights_ok g s r s' : update_weights_row g s r = Ok s' ->
  told_update_weights g s r (update_weights_kinds g s r) s'.
Proof.
  unfold update_weights_row, update_weights_kinds, told_update_weights. intros H. cbv zeta.
  destruct (index_find (uw_id r) s) as [rec|] eqn:F.
  2:{ injection H as <-. left. split; auto. left. split; auto. now apply find_left_out. }
  pose proof (find_matches _ _ _ F) as M.
  destruct (labels_eqb (uw_labels r) (ix_labels rec)) eqn:L; cbn [negb] in *.
  2:{ injection H as <-. left. split; auto. right. split; auto. exists (ix_labels rec). split; auto.
      intros E. apply labels_differ in L. congruence. }
  apply labels_eqb_iff in L. rewrite <- L in M. right. destruct (weight_find g (uw_id r) s) as [w|] eqn:W.
  - unfold weight_update in H. destruct (negb _); [discriminate|]. injection H as <-. cbn [set_weights d_weights].
    apply weight_find_some in W. destruct W as (Hw & Eg & Ei).
    split; auto. split; auto. left. split; auto. split; [exists w; split; auto; split; auto|].
    split; [apply map_length|]. intros x. rewrite in_map_iff. split.
    + intros (y & E & Hy). destruct (weight_is g (uw_id r) y) eqn:I; [left; congruence|]. right. subst y. split; auto.
      intros X. apply weight_is_iff in X. congruence.
    + intros [->|[Hx N]].
      * exists w. split; auto. now rewrite (proj2 (weight_is_iff g (uw_id r) w) (conj Eg Ei)).
      * exists x. split; auto. destruct (weight_is g (uw_id r) x) eqn:I; auto. apply weight_is_iff in I. now destruct N.
  - unfold weight_add in H. repeat (destruct (_ : bool); [discriminate|]). injection H as <-.
    cbn [set_weights d_weights]. split; auto. split; auto. right. split; auto. split; auto. now apply weight_find_none.
Qed.

Lemma told_delete_weights_ok g s r s' : unique_weights s -> delete_weights_row g s r = Ok s' ->
  told_delete_weights g s r (delete_weights_kinds g s r) s' /\ unique_weights s'.
Proof.
  unfold delete_weights_row, delete_weights_kinds, told_delete_weights. intros U H.
  destruct (index_find (dr_id r) s) as [rec|] eqn:F.
  2:{ injection H as <-. split; auto. left. split; auto. left. split; auto. now apply find_left_out. }
  pose proof (find_matches _ _ _ F) as M. apply index_find_spec in F. destruct F as [_ Ei]. rewrite Ei in *.
  destruct (labels_eqb (dr_labels r) (ix_labels rec)) eqn:L; cbn [negb] in *.
  2:{ injection H as <-. split; auto. left. split; auto. right. split; auto. exists (ix_labels rec). split; auto.
      intros E. apply labels_differ in L. congruence. }
  apply labels_eqb_iff in L. rewrite <- L in M. destruct (weight_find g (dr_id r) s) as [w|] eqn:W.
  - injection H as <-. apply weight_find_some in W. destruct W as (Hw & Eg & Ew).
    unfold weight_delete. cbn [set_weights d_weights]. rewrite Eg, Ew. split.
    + right. split; auto. split; auto. right. split; auto. split; [exists w; split; auto; split; auto|]. split.
      * apply (filter_one (fun w => (w_group w, w_index w)) _ w); auto. intros y _. rewrite Eg, Ew, negb_false_iff, weight_is_iff.
        split; [intros [-> ->]; auto|intros E; injection E; auto].
      * intros x. rewrite filter_In, negb_true_iff, <- not_true_iff_false, weight_is_iff. reflexivity.
    + unfold unique_weights. cbn [set_weights d_weights]. now apply nodup_map_filter.
  - injection H as <-. split; auto. right. split; [destruct s; reflexivity|]. split; auto. left. split; auto.
    split; auto. now apply weight_find_none.
Qed.

(** *** Mappings *)

Lemma bad_level_iff lv s : bad_level lv s = true <-> unknown_level s lv.
Proof.
  unfold bad_level, unknown_level. destruct lv as [b|]; [|split; [discriminate|intros (b & E & _); discriminate]].
  rewrite andb_true_iff, !negb_true_iff, existsb_false_iff. split.
  - intros [B H]. exists b. split; auto. split; auto. intros ->. discriminate.
  - intros (b' & E & N & H). injection E as <-. split; auto. destruct b; auto. congruence.
Qed.
Lemma bad_level_not lv s : bad_level lv s = false -> ~ unknown_level s lv.
Proof. intros H X. apply bad_level_iff in X. congruence. Qed.

Lemma map_find_none l o i s : map_find l o i s = None -> ~ mapped_to s l o i.
Proof.
  intros H (m & Hm & E1 & E2 & E3). unfold map_find in H. apply (find_none _ _ H) in Hm. unfold map_at in Hm. lia.
Qed.
Lemma map_find_some l o i s m : map_find l o i s = Some m -> In m (d_maps s) /\ is_mapping_of l o i m.
Proof.
  intros H. unfold map_find in H. apply find_some in H. destruct H as [H E]. unfold map_at in E. unfold is_mapping_of.
  split; auto. lia.
Qed.
Lemma map_add_maps l o i lv v s s' : map_add l o i lv v None s = Ok s' ->
  exists b, lv = Some b /\ s' = set_maps (d_maps s ++ [{| m_link := l; m_other := o; m_index := i; m_level := b;
                                                          m_value := v; m_prop := None |}]) s.
Proof.
  unfold map_add. destruct (_ && _); [discriminate|]. destruct lv as [b|]; [|discriminate].
  repeat (destruct (_ : bool); [discriminate|]). intros H. injection H as <-. eauto.
Qed.

Lemma told_insert_mappings_ok l s r s' : insert_mapping_row l s r = Ok s' ->
  told_insert_mappings l s r (insert_mapping_kinds s r) s'.
Proof.
  unfold insert_mapping_row, insert_mapping_kinds, told_insert_mappings. intros H.
  destruct (index_find (mr_index r) s) as [rec|] eqn:F.
  2:{ injection H as <-. left. split; auto. left. split; auto. now apply find_left_out. }
  pose proof (find_matches _ _ _ F) as M.
  destruct (labels_eqb (mr_labels r) (ix_labels rec)) eqn:L; cbn [negb] in *.
  2:{ injection H as <-. left. split; auto. right. split; auto. exists (ix_labels rec). split; auto.
      intros E. apply labels_differ in L. congruence. }
  apply labels_eqb_iff in L. rewrite <- L in M. right. destruct (bad_level (mr_level r) s) eqn:B.
  - injection H as <-. split; [destruct s; reflexivity|]. split; auto. left. split; auto. split; auto.
    now apply bad_level_iff.
  - destruct (map_add _ _ _ _ _ _ _) as [x|] eqn:A; [|discriminate]. injection H as <-. apply map_add_maps in A.
    destruct A as (b & Eb & ->). cbn [set_maps d_maps]. split; auto. split; auto. right. split; auto.
    split; [now apply bad_level_not|]. exists b. split; auto.
Qed.

Lemma same_key_same s m x : maps_wf s -> In m (d_maps s) -> In x (d_maps s) -> same_map m x = true -> x = m.
Proof.
  intros W Hm Hx E. apply same_map_iff in E. apply (nodup_map_inj mkey (d_maps s)); auto. exact (mw_unique _ W).
Qed.

Lemma told_update_mappings_ok l s r s' : maps_wf s -> update_mapping_row l s r = Ok s' ->
  told_update_mappings l s r (update_mapping_kinds l s r) s' /\ maps_wf s'.
Proof.
  unfold update_mapping_row, update_mapping_kinds, told_update_mappings, told_insert_mappings. intros W H.
  destruct (index_find (mr_index r) s) as [rec|] eqn:F.
  2:{ injection H as <-. split; auto. left. split; [|discriminate]. left. split; auto. left. split; auto.
      now apply find_left_out. }
  pose proof (find_matches _ _ _ F) as M.
  destruct (labels_eqb (mr_labels r) (ix_labels rec)) eqn:L; cbn [negb] in *.
  2:{ injection H as <-. split; auto. left. split; [|discriminate]. left. split; auto. right. split; auto.
      exists (ix_labels rec). split; auto. intros E. apply labels_differ in L. congruence. }
  apply labels_eqb_iff in L. rewrite <- L in M. destruct (bad_level (mr_level r) s) eqn:B.
  { injection H as <-. split; auto. left. split; [|discriminate]. right. split; [destruct s; reflexivity|].
    split; auto. left. split; auto. split; auto. now apply bad_level_iff. }
  destruct (map_find l (mr_other r) (mr_index r) s) as [m|] eqn:G.
  - destruct (mr_level r) as [lv|] eqn:Lv; [|discriminate].
    apply map_find_some in G. destruct G as [Hm Hk]. split.
    2:{ refine (maps_wf_prim s s' _ W). eapply p_map_update; [exact H| | | |]; reflexivity. }
    right. unfold map_update in H. destruct (negb (map_ok _)); [discriminate|]. destruct (existsb _ _); [discriminate|].
    injection H as <-.
    cbn [set_maps d_maps]. split; auto. split; auto. split; auto. split; [now apply bad_level_not|].
    split; [apply map_length|]. exists m, lv. split; auto. split; auto. split; auto.
    intros x. rewrite in_map_iff. split.
    + intros (y & E & Hy). destruct (same_map m y) eqn:I; [left; congruence|]. right. subst y. split; auto.
      intros ->. assert (same_map m m = true) by now apply same_map_iff. congruence.
    + intros [->|[Hx N]].
      * exists m. split; auto. now rewrite (proj2 (same_map_iff m m) eq_refl).
      * exists x. split; auto. destruct (same_map m x) eqn:I; auto. now apply (same_key_same s) in I.
  - split; [|refine (maps_wf_prim s s' _ W); eapply p_map_add; exact H].
    left. apply map_add_maps in H. destruct H as (b & Eb & ->). cbn [set_maps d_maps].
    split; [|intros _; now apply map_find_none]. right. split; auto. split; auto. right. split; auto.
    split; [now apply bad_level_not|]. exists b. split; auto.
Qed.

Lemma told_delete_mappings_ok l s r s' : maps_wf s -> delete_mapping_row l s r = Ok s' ->
  told_delete_mappings l s r (delete_mapping_kinds l s r) s' /\ maps_wf s'.
Proof.
  unfold delete_mapping_row, delete_mapping_kinds, told_delete_mappings. intros W H.
  destruct (index_find (mr_index r) s) as [rec|] eqn:F.
  2:{ injection H as <-. split; auto. left. split; auto. left. split; auto. now apply find_left_out. }
  pose proof (find_matches _ _ _ F) as M.
  destruct (labels_eqb (mr_labels r) (ix_labels rec)) eqn:L; cbn [negb] in *.
  2:{ injection H as <-. split; auto. left. split; auto. right. split; auto. exists (ix_labels rec). split; auto.
      intros E. apply labels_differ in L. congruence. }
  apply labels_eqb_iff in L. rewrite <- L in M. destruct (map_find l (mr_other r) (mr_index r) s) as [m|] eqn:G.
  2:{ injection H as <-. split; auto. right. split; [destruct s; reflexivity|]. split; auto. left. split; auto.
      split; auto. now apply map_find_none. }
  apply map_find_some in G. destruct G as [Hm Hk]. destruct (Qeq_bool (m_value m) (mr_value r)) eqn:V; cbn [negb] in *.
  2:{ injection H as <-. split; auto. right. split; [destruct s; reflexivity|]. split; auto. right. exists m.
      split; auto. split; auto. left. split; auto. split; auto. now apply Qeq_bool_neq. }
  apply Qeq_bool_iff in V. destruct (bytes_eqb (m_level m) (whole_level s)) eqn:Y; cbn [negb] in *.
  2:{ injection H as <-. split; auto. right. split; [destruct s; reflexivity|]. split; auto. right. exists m.
      split; auto. split; auto. right; left. split; auto. split; auto. split; auto. intros E.
      apply bytes_eqb_iff in E. congruence. }
  apply bytes_eqb_iff in Y. injection H as <-. split; [|exact (maps_wf_prim _ _ (p_map_delete s m) W)].
  right. unfold map_delete. cbn [set_maps d_maps]. split; auto. split; auto. right. exists m. split; auto. split; auto.
  right; right. split; auto. split; auto. split; auto. split.
  - apply (filter_one mkey _ m); auto; [exact (mw_unique _ W)|]. intros y _. rewrite negb_false_iff, same_map_iff.
    split; auto.
  - intros x. rewrite filter_In, negb_true_iff. split.
    + intros [Hx E]. split; auto. intros ->. assert (same_map m m = true) by now apply same_map_iff. congruence.
    + intros [Hx N]. split; auto. destruct (same_map m x) eqn:E; auto. now apply (same_key_same s) in E.
Qed.

(** *** The same calls as without counters *)

Definition fsts {A B} (x : res (A * B)) : res A := do y <- x; Ok (fst y).

Ltac pos := rewrite !pos_app; cbn [count count_occ kind_eq_dec Nat.ltb Nat.leb]; rewrite ?orb_true_r, ?orb_false_r.

Definition flagged (k : kind) (acc : list kind) (s : db) : db * bool := (s, 0 <? count k acc).

Lemma delete_index_same rows s : fsts (delete_index_report rows s) = delete_index_rows rows s.
Proof.
  unfold fsts, delete_index_report, delete_index_rows. destruct (nil_b rows); auto.
  change (s, false) with (flagged KDeleted [] s). rewrite (tally_sim delete_index_row delete_index_kinds).
  - destruct (tally_rows _ _ _ _) as [x|e]; reflexivity.
  - intros acc t r. unfold flagged, delete_index_row, delete_index_kinds. cbn [fst].
    destruct (index_find (dr_id r) t) as [rec|]; [destruct (labels_eqb _ _); [destruct (delete_index_record _ _)|]|];
      cbn [bind]; auto; pos; reflexivity.
Qed.

Lemma update_index_merged merge rows : forall st x,
  tally_rows (update_index_row merge) update_index_kinds rows st = Ok x ->
  length (us_merged (fst x)) = length (us_merged st) + count KMerged (snd x).
Proof.
  induction rows as [|r rows IH]; intros st x E; cbn [tally_rows] in E.
  - injection E as <-. cbn. lia.
  - apply bind_ok in E. destruct E as (st1 & E1 & E). apply bind_ok in E. destruct E as (y & E2 & E).
    injection E as <-. cbn [fst snd]. rewrite (IH _ _ E2), count_app.
    enough (length (us_merged st1) = length (us_merged st) + count KMerged (update_index_kinds st r)) by lia.
    clear - E1. unfold update_index_row in E1. unfold update_index_kinds.
    destruct (ur_blank r || _); [injection E1 as <-; cbn; lia|].
    destruct (index_find _ _) as [rec|]; [|destruct (existsb _ _); [discriminate|]; injection E1 as <-; cbn; lia].
    apply bind_ok in E1. destruct E1 as (st2 & E2 & E1). apply bind_ok in E1. destruct E1 as (s3 & _ & E1).
    injection E1 as <-. cbn [us_merged]. destruct (index_by_labels _ _) as [mt|].
    + destruct (negb merge); [discriminate|]. apply bind_ok in E2. destruct E2 as (a & _ & E2).
      apply bind_ok in E2. destruct E2 as (b & _ & E2). apply bind_ok in E2. destruct E2 as (c & _ & E2).
      injection E2 as <-. cbn. lia.
    + injection E2 as <-. cbn. lia.
Qed.

Lemma update_index_same merge rows s : fsts (update_index_report merge rows s) = update_index merge rows s.
Proof.
  unfold fsts, update_index_report, update_index.
  set (st := {| us_db := s; us_merged := []; us_updated := false |}).
  pose proof (tally_sim (update_index_row merge) update_index_kinds (update_index_row merge) (fun _ st => st)) as H.
  rewrite (H (fun acc t r => ltac:(destruct (update_index_row merge t r); reflexivity)) rows [] st).
  destruct (tally_rows _ _ _ _) as [x|e] eqn:E; cbn [bind]; auto. apply update_index_merged in E.
  cbn [st us_merged length] in E. cbn [fst]. destruct (us_merged (fst x)) as [|a l]; cbn [length] in E.
  - replace (0 <? count KMerged (snd x)) with false by lia. reflexivity.
  - replace (0 <? count KMerged (snd x)) with true by lia. reflexivity.
Qed.

Lemma update_weights_same n rows s : fsts (update_weights_report n rows s) = update_weights n rows s.
Proof.
  unfold fsts, update_weights_report, update_weights. destruct (group_by_name n s) as [g|]; auto.
  change (s, false) with (flagged KInserted [] s).
  rewrite (tally_sim (update_weights_row (g_id g)) (update_weights_kinds (g_id g))).
  - destruct (tally_rows _ _ _ _) as [x|e]; reflexivity.
  - intros acc t r. unfold flagged, update_weights_row, update_weights_kinds. cbn [fst snd].
    destruct (index_find (uw_id r) t) as [rec|]; [|cbn [bind]; pos; reflexivity].
    destruct (negb _); [cbn [bind]; pos; reflexivity|].
    destruct (weight_find _ _ _); [destruct (weight_update _ _ _ _)|destruct (weight_add _ _ _ _)];
      cbn [bind]; auto; pos; reflexivity.
Qed.

Lemma delete_weights_same n rows s : fsts (delete_weights_report n rows s) = delete_weights_rows n rows s.
Proof.
  unfold fsts, delete_weights_report, delete_weights_rows. destruct (group_by_name n s) as [g|]; auto.
  destruct (nil_b rows); auto.
  match goal with |- _ = Ok (after_delete_weights g (fold_left ?f rows _)) =>
    pose proof (fold_left_res f rows (s, false)) as F; set (h := f) in * end.
  change (s, false) with (flagged KDeleted [] s) in *.
  rewrite (tally_sim (delete_weights_row (g_id g)) (delete_weights_kinds (g_id g))) in F.
  - destruct (tally_rows _ _ _ _) as [x|e]; [|discriminate]. cbn [bind fst] in *. injection F as F. rewrite <- F.
    reflexivity.
  - intros acc t r. unfold h, flagged, delete_weights_row, delete_weights_kinds, delete_weight_of. cbn [fst snd].
    destruct (index_find (dr_id r) t) as [rec|]; [|cbn [bind]; pos; reflexivity].
    destruct (labels_eqb _ _); cbn [negb]; [|cbn [bind]; pos; reflexivity].
    destruct (weight_find _ _ _); cbn [bind]; pos; reflexivity.
Qed.

Lemma insert_mappings_same ref name rows s :
  fsts (insert_mappings_report ref name rows s) = insert_mappings ref name rows s.
Proof.
  unfold fsts, insert_mappings_report, insert_mappings. destruct (get_link _ _ _ _) as [k|e]; cbn [bind]; auto.
  change (s, false) with (flagged KInserted [] s).
  rewrite (tally_sim (insert_mapping_row (k_id k)) insert_mapping_kinds).
  - destruct (tally_rows _ _ _ _) as [x|e]; cbn [bind flagged fst snd app]; auto.
    destruct (0 <? count KInserted (snd x)); cbn [bind]; auto. destruct (refresh_link _ _); reflexivity.
  - intros acc t r. unfold flagged, insert_mapping_row, insert_mappings_row, insert_mapping_kinds. cbn [fst snd].
    destruct (index_find (mr_index r) t) as [rec|]; [|cbn [bind]; pos; reflexivity].
    destruct (negb _); [cbn [bind]; pos; reflexivity|]. destruct (bad_level _ _); [cbn [bind]; pos; reflexivity|].
    destruct (map_add _ _ _ _ _ _ _); cbn [bind]; auto; pos; reflexivity.
Qed.

Lemma update_mappings_same ref name rows s :
  fsts (update_mappings_report ref name rows s) = update_mappings ref name rows s.
Proof.
  unfold fsts, update_mappings_report, update_mappings. destruct (get_link _ _ _ _) as [k|e]; cbn [bind]; auto.
  set (v := fun acc (s : db) => {| um_db := s; um_inserted := 0 <? count KInserted acc;
                                   um_updated := 0 <? count KUpdated acc |}).
  change {| um_db := s; um_inserted := false; um_updated := false |} with (v [] s).
  rewrite (tally_sim (update_mapping_row (k_id k)) (update_mapping_kinds (k_id k))).
  - destruct (tally_rows _ _ _ _) as [x|e]; cbn [bind v um_db um_inserted um_updated fst snd app]; auto.
    destruct (0 <? count KInserted (snd x)); cbn [bind]; [destruct (refresh_link _ _); reflexivity|].
    destruct (0 <? count KUpdated (snd x)); cbn [bind]; auto. destruct (fold_res _ _ _); reflexivity.
  - intros acc t r. unfold v, update_mapping_row, update_mappings_row, update_mapping_kinds.
    cbn [um_db um_inserted um_updated].
    destruct (index_find (mr_index r) t) as [rec|]; [|cbn [bind]; pos; reflexivity].
    destruct (negb _); [cbn [bind]; pos; reflexivity|]. destruct (bad_level _ _); [cbn [bind]; pos; reflexivity|].
    destruct (map_find _ _ _ _) as [m|].
    + destruct (mr_level r) as [lv|]; auto. destruct (map_update _ _ _); cbn [bind]; auto; pos; reflexivity.
    + destruct (map_add _ _ _ _ _ _ _); cbn [bind]; auto; pos; reflexivity.
Qed.

Lemma delete_mappings_same ref name rows s :
  fsts (delete_mappings_report ref name rows s) = delete_mappings_rows ref name rows s.
Proof.
  unfold fsts, delete_mappings_report, delete_mappings_rows. destruct (get_link _ _ _ _) as [k|e]; cbn [bind]; auto.
  destruct (nil_b rows); auto. cbv zeta.
  pose proof (fold_left_res (delete_mappings_row (k_id k)) rows (s, false)) as F.
  change (s, false) with (flagged KDeleted [] s) in *.
  rewrite (tally_sim (delete_mapping_row (k_id k)) (delete_mapping_kinds (k_id k))) in F.
  - destruct (tally_rows _ _ _ _) as [x|e]; [|discriminate]. cbn [bind] in *. injection F as F. rewrite <- F.
    cbn [flagged fst snd app]. destruct (0 <? count KDeleted (snd x)); cbn [bind]; auto.
    destruct (refresh_link _ _); reflexivity.
  - intros acc t r. unfold flagged, delete_mapping_row, delete_mappings_row, delete_mapping_kinds. cbn [fst snd].
    destruct (index_find (mr_index r) t) as [rec|]; [|cbn [bind]; pos; reflexivity].
    destruct (negb _); [cbn [bind]; pos; reflexivity|].
    destruct (map_find _ _ _ _) as [m|]; [|cbn [bind]; pos; reflexivity].
    destruct (negb _); [cbn [bind]; pos; reflexivity|]. destruct (negb _); cbn [bind]; pos; reflexivity.
Qed.

(** *** What follows the loops changes no table that is counted *)

Lemma refresh_length l o s s' : refresh_proportions l o s = Ok s' -> length (d_maps s') = length (d_maps s).
Proof. intros H. apply refresh_maps in H. destruct H as (f & -> & _). apply map_length. Qed.
Lemma refreshes_length l os : forall s s', fold_res (fun s o => refresh_proportions l o s) os s = Ok s' ->
  length (d_maps s') = length (d_maps s).
Proof.
  induction os as [|o os IH]; intros s s' H; cbn [fold_res] in H; [injection H as <-; auto|].
  apply bind_ok in H. destruct H as (s1 & E & H). rewrite (IH _ _ H). now apply refresh_length in E.
Qed.
Lemma refresh_link_length l s s' : refresh_link l s = Ok s' -> length (d_maps s') = length (d_maps s).
Proof.
  unfold refresh_link. intros H. apply bind_ok in H. destruct H as (s1 & E & H). injection H as <-.
  cbn. now apply refreshes_length in E.
Qed.

(** *** Numbers of the warning *)

Lemma count_all e ks : count e ks = length ks <-> forall k, In k ks -> k = e.
Proof.
  split.
  - intros H k Hk. revert H. induction ks as [|a ks IH]; [destruct Hk|]. cbn [count count_occ length].
    pose proof (count_occ_bound kind_eq_dec e ks) as B. unfold count in *.
    destruct (kind_eq_dec a e) as [->|N]; [|lia]. intros H. destruct Hk as [Hk|Hk]; [now rewrite Hk|].
    apply IH; [exact Hk|]. lia.
  - induction ks as [|a ks IH]; auto. intros H. cbn [count count_occ length]. unfold count in IH.
    destruct (kind_eq_dec a e) as [E|N]; [|now destruct (N (H a (or_introl eq_refl)))].
    f_equal. apply IH. intros k Hk. apply H. now right.
Qed.

Lemma numbers_sum order : NoDup order -> forall ks, (forall k, In k ks -> In k order) ->
  list_sum (map (fun k => count k ks) order) = length ks.
Proof.
  intros N. induction ks as [|a ks IH]; intros H.
  - clear. induction order; auto.
  - cbn [length]. rewrite <- IH; [|intros k Hk; apply H; now right].
    assert (Ha : In a order) by (apply H; now left). clear H IH. induction order as [|b order IH]; [destruct Ha|].
    inversion N as [|? ? Nb No]; subst. cbn [map list_sum fold_right]. unfold list_sum in IH.
    destruct (kind_eq_dec a b) as [->|D].
    + unfold count at 1. cbn [count_occ]. destruct (kind_eq_dec b b); [|congruence].
      assert (E : map (fun k => count k (b :: ks)) order = map (fun k => count k ks) order).
      { apply map_ext_in. intros k Hk. unfold count. cbn [count_occ]. destruct (kind_eq_dec b k) as [X|X]; [|reflexivity]. subst. contradiction. }
      rewrite E. unfold count. cbn. lia.
    + unfold count at 1. cbn [count_occ]. destruct (kind_eq_dec a b); [congruence|].
      destruct Ha as [->|Ha]; [congruence|]. rewrite (IH No Ha). unfold count. cbn. lia.
Qed.

Lemma told_all_sum e ks msg : told_all e ks msg -> list_sum (map snd msg) = length ks.
Proof.
  intros (N & I & _). rewrite <- (numbers_sum (map fst msg) N ks).
  - rewrite map_map. f_equal. apply map_ext_in. intros (k, n) H. cbn. now apply I in H.
  - intros k Hk. apply in_map_iff. exists (k, count k ks). split; auto. apply I. auto.
Qed.
