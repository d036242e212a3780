(** C74: what a loading call says about its rows is true. *)
From Verif Require Import Prelude BitFlags_Model Selectors_Model Selectors_Proofs LinkRef_Model LinkRef_Spec LinkRef_Proofs
  Db_Model Db_Spec Db_Proofs Db_ProofsLocal Db_ProofsRun Db_ProofsOps Db_Properties Report_Model Report_Spec Report_Proofs
  Report_Properties Loaded_Model Loaded_Spec Loaded_Proofs.
From Coq Require Import String List ZifyBool ZifyNat.
Local Open Scope list_scope.
Local Open Scope nat_scope.

(** In all theorems [s] is any space, [ks] is the list of what the call counted and [s1] the space after the last row. *)

(** The calls that count are the calls of the other claims: they leave the same space and fail alike. *)
Theorem C74_same_calls s :
  (forall wsel wcols lp wp rows, fsts (insert_index_report wsel wcols lp wp rows s) = insert_index wsel wcols lp wp rows s) /\
  (forall n pol rows, fsts (insert_weights_report n pol rows s) = insert_weights n pol rows s) /\
  (forall ref n rows, fsts (insert_mappings2_report ref n rows s) = insert_mappings2 ref n rows s).
Proof.
  repeat split; intros.
  - apply insert_index_same.
  - apply insert_weights_same.
  - apply insert_mappings2_same.
Qed.
Print Assumptions C74_same_calls.

(** The rows of insert_index; the numbers of inserted labels and weights are the numbers of additional records and
    weights. *)
Theorem C74_insert_index wsel wcols lp wp rows s s' ks :
  insert_index_report wsel wcols lp wp rows s = Ok (s', ks) ->
  exists gs s1, Forall2 (group_of_column wsel s) wcols gs /\ story (told_insert_index lp wp gs) s rows ks s1 /\
    d_index s' = d_index s1 /\ d_weights s' = d_weights s1 /\
    List.length (d_index s') = List.length (d_index s) + tallied load_eq_dec LLabelInserted ks /\
    List.length (d_weights s') = List.length (d_weights s) + tallied load_eq_dec LWeightInserted ks.
Proof.
  unfold insert_index_report. destruct (match wsel with Some _ => _ | None => _ end); [discriminate|].
  destruct (nil_b (d_labels s)); [discriminate|]. intros H. apply bind_ok in H. destruct H as (sel & Es & H). cbv zeta in H.
  apply bind_ok in H. destruct H as (x & E & H). assert (snd x = ks) by congruence.
  assert (I : d_index s' = d_index (fst x) /\ d_weights s' = d_weights (fst x)).
  { injection H as <- _. destruct (0 <? tallied load_eq_dec LLabelInserted (snd x)), (0 <? tallied load_eq_dec LWeightInserted (snd x));
      split; reflexivity. }
  clear H. subst ks. destruct I as [I1 I2].
  apply (count_story _ (told_insert_index lp wp (map (fun c => find (fun g => text_eqb (g_name g) c) sel) wcols))
           (fun _ => True)) in E; [|intros; split; auto; now apply told_insert_index_ok|exact Logic.I]. destruct E as [E _].
  exists (map (fun c => find (fun g => text_eqb (g_name g) c) sel) wcols), (fst x).
  split; [now apply columns_groups|]. split; [exact E|]. split; [exact I1|]. split; [exact I2|]. rewrite I1, I2. split.
  - revert E. apply (story_tally load_eq_dec _ (fun s => List.length (d_index s))). intros a r ks b.
    apply told_index_labels.
  - revert E. apply (story_tally load_eq_dec _ (fun s => List.length (d_weights s))). intros a r ks b.
    apply told_index_weights.
Qed.
Print Assumptions C74_insert_index.

(** The rows of insert_weights (the group is made if there is none of this name): each is counted once and for the right
    reason, and the number of inserted ones is the number of additional weights. *)
Theorem C74_insert_weights n pol rows s s' ks :
  insert_weights_report n pol rows s = Ok (s', ks) ->
  exists g s0 s1, In g (d_groups s0) /\ g_name g = n /\ s0 = set_groups (d_groups s0) s /\
    ((exists x, In x (d_groups s) /\ g_name x = n) -> s0 = s) /\
    story (told_insert_weights (g_id g) pol) s0 rows ks s1 /\ d_weights s' = d_weights s1 /\
    List.length ks = List.length rows /\
    List.length (d_weights s') = List.length (d_weights s) + tallied load_eq_dec LInserted ks.
Proof.
  intros H. assert (H0 : (do s0 <- match group_by_name n s with Some _ => Ok s | None => group_add n false s end;
      match group_by_name n s0 with
      | None => Err KeyError
      | Some g =>
          do x <- count_rows (load_weights_row (g_id g) pol) rows s0;
          Ok (if (0 <? tallied load_eq_dec LInserted (snd x)) && group_is_complete (g_id g) (fst x)
              then set_complete (g_id g) true (fst x) else fst x, snd x)
      end) = Ok (s', ks)) by (destruct pol; [exact H..|discriminate]). clear H.
  apply bind_ok in H0. destruct H0 as (s0 & E0 & H). destruct (group_by_name n s0) as [g|] eqn:G; [|discriminate].
  apply bind_ok in H. destruct H as (x & E & H). assert (snd x = ks) by congruence.
  assert (I : d_weights s' = d_weights (fst x)) by (injection H as <- _; destruct (_ && _); reflexivity).
  clear H. subst ks. unfold group_by_name in G. apply find_some in G. destruct G as [Hg En]. apply text_eqb_iff in En.
  assert (S0 : s0 = set_groups (d_groups s0) s /\ ((exists x, In x (d_groups s) /\ g_name x = n) -> s0 = s)).
  { destruct (group_by_name n s) as [g0|] eqn:G0.
    - injection E0 as <-. split; [destruct s; reflexivity|auto].
    - unfold group_add in E0. rewrite G0 in E0. injection E0 as <-. split; [reflexivity|]. intros (y & Hy & Ey). exfalso.
      unfold group_by_name in G0. apply (find_none _ _ G0) in Hy. cbv beta in Hy. rewrite Ey in Hy.
      rewrite (proj2 (text_eqb_iff n n) eq_refl) in Hy. discriminate. }
  destruct S0 as [S0 S1].
  apply (count_story _ (told_insert_weights (g_id g) pol) (has_group (g_id g))) in E;
    [|intros; now apply told_insert_weights_ok|exists g; auto]. destruct E as [E _].
  exists g, s0, (fst x). repeat (split; [assumption|]). split.
  - revert E. apply story_one. intros a r ks b T. unfold told_insert_weights in T.
    destruct T as [[_ T]|(i & v & _ & _ & _ & _ & _ & T)]; [|destruct T as [[-> _]|[[-> _]|(o & w & _ & _ & [[-> _]|[-> _]] & _)]]; reflexivity].
    destruct T as [[-> _]|[_ [[-> _]|[[-> _]|[[-> _]|[-> _]]]]]]; reflexivity.
  - rewrite I. replace (d_weights s) with (d_weights s0) by (rewrite S0; reflexivity).
    revert E. apply (story_tally load_eq_dec _ (fun s => List.length (d_weights s))). intros a r ks b T. unfold told_insert_weights in T.
    destruct T as [[-> T]|(i & v & _ & _ & _ & _ & _ & T)].
    + destruct T as [[-> _]|[_ [[-> _]|[[-> _]|[[-> _]|[-> _]]]]]]; cbn; lia.
    + destruct T as [(-> & _ & ->)|[(-> & _ & _ & ->)|(o & w & _ & _ & [[-> _]|[-> _]] & -> & _)]]; rewrite ?app_length; cbn; lia.
Qed.
Print Assumptions C74_insert_weights.

(** The rows of insert_mappings2. *)
Theorem C74_insert_mappings2 ref name rows s s' ks :
  insert_mappings2_report ref name rows s = Ok (s', ks) ->
  exists k s1, get_link ref name true (d_links s) = Ok k /\ story (told_insert_mappings2 (k_id k)) s rows ks s1 /\
    List.length ks = List.length rows /\
    List.length (d_maps s') = List.length (d_maps s1) /\
    List.length (d_maps s') = List.length (d_maps s) + tallied load_eq_dec LInserted ks.
Proof.
  intros H. unfold insert_mappings2_report in H. apply bind_ok in H. destruct H as (k & K & H).
  apply bind_ok in H. destruct H as (x & E & H). apply bind_ok in H. destruct H as (s2 & E2 & H).
  assert (snd x = ks) by congruence. assert (s2 = s') by congruence. clear H. subst ks s2.
  assert (I : List.length (d_maps s') = List.length (d_maps (fst x))).
  { destruct (_ <? _); [now apply refresh_link_length in E2|congruence]. }
  apply (count_story _ (told_insert_mappings2 (k_id k)) (fun _ => True)) in E;
    [|intros; split; auto; now apply told_insert_mappings2_ok|exact Logic.I]. destruct E as [E _].
  exists k, (fst x). split; [exact K|]. split; [exact E|]. split; [|split; [exact I|]].
  - revert E. apply story_one. intros a r ks b [[-> _]|[_ [[-> _]|[-> _]]]]; reflexivity.
  - rewrite I. revert E. apply (story_tally load_eq_dec _ (fun s => List.length (d_maps s))).
    intros a r ks b [(-> & _ & ->)|[_ [(-> & _ & _ & ->)|(-> & _ & lv & _ & ->)]]]; cbn [set_maps d_maps]; rewrite ?app_length; cbn; lia.
Qed.
Print Assumptions C74_insert_mappings2.

(** The logs of all calls that write their numbers to the log: no number twice, all true, none missing that is not zero. *)
Theorem C74_logs s :
  (forall wsel wcols lp wp rows s' ks, insert_index_report wsel wcols lp wp rows s = Ok (s', ks) ->
     logged load_eq_dec ks (insert_index_log ks)) /\
  (forall n pol rows s' ks, insert_weights_report n pol rows s = Ok (s', ks) ->
     logged load_eq_dec ks (insert_weights_log ks)) /\
  (forall ref n rows s' ks, insert_mappings2_report ref n rows s = Ok (s', ks) ->
     logged load_eq_dec ks (insert_mappings2_log ks)) /\
  (forall ops n rows s' ks, s = run ops fresh -> update_weights_report n rows s = Ok (s', ks) ->
     logged kind_eq_dec ks (update_weights_log ks)) /\
  (forall ops n rows s' ks, s = run ops fresh -> delete_weights_report n rows s = Ok (s', ks) ->
     logged kind_eq_dec ks (delete_weights_log ks)).
Proof.
  split; [|split; [|split; [|split]]].
  - intros wsel wcols lp wp rows s' ks H. apply C74_insert_index in H. destruct H as (gs & s1 & _ & E & _).
    apply log_ok; [cbn [app]; repeat constructor; cbn [In]; intuition discriminate|]. revert E. apply story_keys.
    intros a r k b. apply told_index_keys.
  - intros n pol rows s' ks H. apply C74_insert_weights in H. destruct H as (g & s0 & s1 & _ & _ & _ & _ & E & _).
    apply log_ok; [cbn [app]; repeat constructor; cbn [In]; intuition discriminate|]. revert E. apply story_keys.
    intros a r k b T. unfold told_insert_weights in T. cbn [app].
    destruct T as [[_ T]|(i & v & _ & _ & _ & _ & _ & T)];
      [|destruct T as [[-> _]|[[-> _]|(o & w & _ & _ & [[-> _]|[-> _]] & _)]]; repeat constructor; cbn [In]; tauto].
    destruct T as [[-> _]|[_ [[-> _]|[[-> _]|[[-> _]|[-> _]]]]]]; repeat constructor; cbn [In]; tauto.
  - intros ref n rows s' ks H. apply C74_insert_mappings2 in H. destruct H as (k & s1 & _ & E & _).
    apply log_ok; [cbn [app]; repeat constructor; cbn [In]; intuition discriminate|]. revert E. apply story_keys.
    intros a r k' b [[-> _]|[_ [[-> _]|[-> _]]]]; repeat constructor; cbn [app In]; tauto.
  - intros ops n rows s' ks -> H. apply C73_update_weights in H. destruct H as (g & s1 & _ & _ & E & _).
    apply log_ok; [cbn [app]; repeat constructor; cbn [In]; intuition discriminate|]. revert E. apply story_keys.
    intros a r k b [[_ [[-> _]|[-> _]]]|(_ & _ & [(-> & _)|(-> & _)])]; repeat constructor; cbn [app In]; tauto.
  - intros ops n rows s' ks -> H. apply C73_delete_weights in H. destruct H as (g & s1 & _ & _ & E & _).
    apply log_ok; [cbn [app]; repeat constructor; cbn [In]; intuition discriminate|]. revert E. apply story_keys.
    intros a r k b [[_ [[-> _]|[-> _]]]|(_ & _ & [(-> & _)|(-> & _)])]; repeat constructor; cbn [app In]; tauto.
Qed.
Print Assumptions C74_logs.

Definition irow (i : option Z) (a b : string) (c : cell) : ins_row :=
  {| ir_id := i; ir_labels := [txt a; txt b]; ir_cells := [c] |}.
Definition wrow (i : option Z) (a b : string) (c : cell) : w_row :=
  {| wr_id := i; wr_labels := [txt a; txt b]; wr_cell := c |}.

(** Rows of all kinds on the space of [hist]. *)
Example C74_case :
  let s := run hist fresh in
  let kinds {A} (x : res (A * list load)) := match x with Ok y => Some (snd y) | Err _ => None end in
  let log {A} f (x : res (A * list load)) := match x with Ok y => Some (f (snd y) : list (load * nat)) | Err _ => None end in
  kinds (insert_index_report None [txt "pop"] PReplace PIgnore
      [irow None "z" "1" (CNum 4); irow None "x" "1" (CNum 4); irow (Some 2%Z) "x" "5" CEmpty; irow None "" "5" CEmpty] s)
    = Some [LLabelInserted; LWeightInserted; LWeightIgnored; LLabelReplaced; LEmptyLabels] /\
  log insert_weights_log (insert_weights_report (txt "pop") PSum
      [wrow None "x" "1" (CNum 4); wrow (Some 9%Z) "x" "1" (CNum 4); wrow (Some 2%Z) "x" "1" (CNum 4);
       wrow None "q" "1" (CNum 4); wrow None "-" "-" (CNum 4); wrow None "x" "1" CBad; wrow None "x" "1" (CNum 1)] s)
    = Some [(LInserted, 0); (LSummed, 2); (LNotRealnum, 1); (LUndefined, 1); (LNoIndex, 1); (LMismatch, 1); (LNoMatch, 1)] /\
  log insert_weights_log (insert_weights_report (txt "new") PAbort [wrow None "x" "1" (CNum 4)] s) = Some [(LInserted, 1)] /\
  log insert_mappings2_log (insert_mappings2_report (txt "u1") None
      [mp 7 1 3 whole "x" "1"; mp 7 1 3 [1%N] "x" "1"; mp 0 0 3 whole "x" "1"] s)
    = Some [(LInserted, 1); (LUndefinedPair, 1); (LBadLevel, 1)].
Proof. vm_compute. repeat split; reflexivity. Qed.

(** Finding: a row of insert_index for labels that exist, with nothing to load for them, is counted nowhere. *)
Theorem C74_uncounted_refuted : exists ops row s', Forall honest ops /\ one_session ops /\
  insert_index_report None [txt "pop"] PAbort PAbort [row] (run ops fresh) = Ok (s', []) /\
  insert_index_log [] = [].
Proof.
  exists hist, (irow None "x" "1" CEmpty). eexists. split; [repeat constructor|]. split; [repeat constructor; cbn; auto|].
  split; [vm_compute; reflexivity|reflexivity].
Qed.
Print Assumptions C74_uncounted_refuted.
