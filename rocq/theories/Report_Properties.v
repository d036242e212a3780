(** C73: what a call says about its rows is true. *)
From Verif Require Import Prelude BitFlags_Model Selectors_Model Selectors_Proofs LinkRef_Model LinkRef_Spec LinkRef_Proofs
  Db_Model Db_Spec Db_Proofs Db_ProofsLocal Db_ProofsRun Db_ProofsOps Db_Properties Report_Model Report_Spec Report_Proofs.
From Coq Require Import String List ZifyBool ZifyNat.
Local Open Scope list_scope.
Local Open Scope nat_scope.

(** In all theorems the space is the result of any sequence [ops] of calls on a new space; [ks] is the list of what the call
    counted and [s1] the space after the last row. *)

(** The calls that count are the calls of the other claims: they leave the same space and fail alike. *)
Theorem C73_same_calls s :
  (forall rows, fsts (delete_index_report rows s) = delete_index_rows rows s) /\
  (forall merge rows, fsts (update_index_report merge rows s) = update_index merge rows s) /\
  (forall n rows, fsts (update_weights_report n rows s) = update_weights n rows s) /\
  (forall n rows, fsts (delete_weights_report n rows s) = delete_weights_rows n rows s) /\
  (forall ref n rows, fsts (insert_mappings_report ref n rows s) = insert_mappings ref n rows s) /\
  (forall ref n rows, fsts (update_mappings_report ref n rows s) = update_mappings ref n rows s) /\
  (forall ref n rows, fsts (delete_mappings_report ref n rows s) = delete_mappings_rows ref n rows s).
Proof.
  repeat split; intros.
  - apply delete_index_same.
  - apply update_index_same.
  - apply update_weights_same.
  - apply delete_weights_same.
  - apply insert_mappings_same.
  - apply update_mappings_same.
  - apply delete_mappings_same.
Qed.
Print Assumptions C73_same_calls.

(** Each row of delete_index is counted once and for the right reason; the number of deleted rows is the number of records
    that are gone. *)
Theorem C73_delete_index ops rows s' ks : let s := run ops fresh in
  delete_index_report rows s = Ok (s', ks) ->
  exists s1, story told_delete_index s rows ks s1 /\ d_index s' = d_index s1 /\
    List.length ks = List.length rows /\
    List.length (d_index s') + count KDeleted ks = List.length (d_index s).
Proof.
  intros s H. unfold delete_index_report in H. destruct (nil_b rows); [discriminate|].
  apply bind_ok in H. destruct H as (x & E & H). assert (snd x = ks) by congruence.
  assert (I : d_index s' = d_index (fst x)) by (injection H as <- _; destruct (_ <? _); reflexivity). clear H. subst ks.
  apply (tally_story _ _ told_delete_index (fun s => s) unique_ids) in E;
    [|intros; now apply told_delete_index_ok|exact (iw_unique _ (i_index _ (run_inv ops)))].
  exists (fst x). split; [exact E|]. split; [exact I|]. split.
  - revert E. apply story_once. intros a r ks b [[_ [[-> _]|[-> _]]]|[-> _]]; reflexivity.
  - rewrite I. revert E. apply (story_loss _ (fun s => List.length (d_index s))).
    intros a r ks b [[-> [[-> _]|[-> _]]]|(-> & _ & L & _)]; cbn; lia.
Qed.
Print Assumptions C73_delete_index.

(** The rows of update_index; a row that merges is counted twice.  The number of merged records is the number of records
    that are gone. *)
Theorem C73_update_index ops merge rows s' ks : let s := run ops fresh in
  update_index_report merge rows s = Ok (s', ks) ->
  exists s1, story told_update_index s rows ks s1 /\ d_index s' = d_index s1 /\
    List.length ks = List.length rows + count KMerged ks /\ (merge = false -> count KMerged ks = 0) /\
    List.length (d_index s') + count KMerged ks = List.length (d_index s).
Proof.
  intros s H. unfold update_index_report in H.
  apply bind_ok in H. destruct H as (x & E & H). assert (snd x = ks) by congruence.
  assert (I : d_index s' = d_index (us_db (fst x))) by (injection H as <- _; destruct (_ <? _); reflexivity).
  clear H. subst ks.
  assert (Nm : merge = false -> count KMerged (snd x) = 0).
  { intros ->. clear I. revert E. generalize {| us_db := s; us_merged := []; us_updated := false |}. revert x.
    induction rows as [|r rows IH]; intros x st E; cbn [tally_rows] in E; [injection E as <-; reflexivity|].
    apply bind_ok in E. destruct E as (st1 & E1 & E). apply bind_ok in E. destruct E as (y & E2 & E).
    injection E as <-. cbn [snd]. rewrite count_app, (IH _ _ E2). clear - E1.
    unfold update_index_row in E1. unfold update_index_kinds. destruct (ur_blank r || _); [reflexivity|].
    destruct (index_find _ _) as [rec|]; [|reflexivity]. destruct (index_by_labels _ _); [discriminate|reflexivity]. }
  apply (tally_story _ _ told_update_index us_db unique_ids) in E;
    [|intros; now apply told_update_index_ok with (merge := merge)|exact (iw_unique _ (i_index _ (run_inv ops)))].
  cbn [us_db] in E. exists (us_db (fst x)). split; [exact E|]. split; [exact I|]. split; [|split; [exact Nm|]].
  - clear I Nm. induction E as [|a r k1 b rr k2 c T0 T IH]; auto. rewrite app_length, count_app, IH. cbn [List.length].
    destruct T0 as [[-> _]|[[-> _]|[[-> _]|[-> _]]]]; cbn; lia.
  - rewrite I. revert E. apply (story_loss _ (fun s => List.length (d_index s))).
    intros a r ks b [(-> & _ & ->)|[(-> & _ & ->)|[(-> & _ & _ & ->)|(-> & _ & j & _ & L & _)]]]; cbn; rewrite ?map_length; lia.
Qed.
Print Assumptions C73_update_index.

(** The rows of update_weights: what was inserted is the number of additional weights. *)
Theorem C73_update_weights ops n rows s' ks : let s := run ops fresh in
  update_weights_report n rows s = Ok (s', ks) ->
  exists g s1, In g (d_groups s) /\ g_name g = n /\ story (told_update_weights (g_id g)) s rows ks s1 /\
    d_weights s' = d_weights s1 /\ List.length ks = List.length rows /\
    List.length (d_weights s') = List.length (d_weights s) + count KInserted ks.
Proof.
  intros s H. unfold update_weights_report in H. destruct (group_by_name n s) as [g|] eqn:G; [|discriminate].
  unfold group_by_name in G. apply find_some in G. destruct G as [Hg En]. apply text_eqb_iff in En.
  apply bind_ok in H. destruct H as (x & E & H). assert (snd x = ks) by congruence.
  assert (I : d_weights s' = d_weights (fst x)) by (injection H as <- _; destruct (_ && _); reflexivity). clear H. subst ks.
  apply (tally_story _ _ (told_update_weights (g_id g)) (fun s => s) (fun _ => True)) in E;
    [|intros; split; auto; now apply told_update_weights_ok|exact Logic.I].
  exists g, (fst x). split; [exact Hg|]. split; [exact En|]. split; [exact E|]. split; [exact I|]. split.
  - revert E. apply story_once. intros a r ks b [[_ [[-> _]|[-> _]]]|(_ & _ & [(-> & _)|(-> & _)])]; reflexivity.
  - rewrite I. revert E. apply (story_gain _ (fun s => List.length (d_weights s))).
    intros a r ks b [[-> [[-> _]|[-> _]]]|(_ & _ & [(-> & _ & -> & _)|(-> & _ & ->)])]; rewrite ?app_length; cbn; lia.
Qed.
Print Assumptions C73_update_weights.

(** The rows of delete_weights: what was deleted is the number of weights that are gone. *)
Theorem C73_delete_weights ops n rows s' ks : let s := run ops fresh in
  delete_weights_report n rows s = Ok (s', ks) ->
  exists g s1, In g (d_groups s) /\ g_name g = n /\ story (told_delete_weights (g_id g)) s rows ks s1 /\
    d_weights s' = d_weights s1 /\ List.length ks = List.length rows /\
    List.length (d_weights s') + count KDeleted ks = List.length (d_weights s).
Proof.
  intros s H. unfold delete_weights_report in H. destruct (group_by_name n s) as [g|] eqn:G; [|discriminate].
  unfold group_by_name in G. apply find_some in G. destruct G as [Hg En]. apply text_eqb_iff in En.
  destruct (nil_b rows); [discriminate|].
  apply bind_ok in H. destruct H as (x & E & H). assert (snd x = ks) by congruence.
  assert (I : d_weights s' = d_weights (fst x)) by (injection H as <- _; destruct (_ && _); reflexivity). clear H. subst ks.
  apply (tally_story _ _ (told_delete_weights (g_id g)) (fun s => s) unique_weights) in E;
    [|intros; now apply told_delete_weights_ok|exact (ww_unique _ (i_weights _ (run_inv ops)))].
  exists g, (fst x). split; [exact Hg|]. split; [exact En|]. split; [exact E|]. split; [exact I|]. split.
  - revert E. apply story_once. intros a r ks b [[_ [[-> _]|[-> _]]]|(_ & _ & [(-> & _)|(-> & _)])]; reflexivity.
  - rewrite I. revert E. apply (story_loss _ (fun s => List.length (d_weights s))).
    intros a r ks b [[-> [[-> _]|[-> _]]]|(_ & _ & [(-> & _ & ->)|(-> & _ & L & _)])]; cbn; lia.
Qed.
Print Assumptions C73_delete_weights.

(** The rows of insert_mappings: what was loaded is the number of additional mappings. *)
Theorem C73_insert_mappings ops ref name rows s' ks : let s := run ops fresh in
  insert_mappings_report ref name rows s = Ok (s', ks) ->
  exists k s1, get_link ref name true (d_links s) = Ok k /\ story (told_insert_mappings (k_id k)) s rows ks s1 /\
    List.length ks = List.length rows /\
    List.length (d_maps s') = List.length (d_maps s1) /\
    List.length (d_maps s') = List.length (d_maps s) + count KInserted ks.
Proof.
  intros s H. unfold insert_mappings_report in H. apply bind_ok in H. destruct H as (k & K & H).
  apply bind_ok in H. destruct H as (x & E & H). apply bind_ok in H. destruct H as (s2 & E2 & H).
  assert (snd x = ks) by congruence. assert (s2 = s') by congruence. clear H. subst ks s2.
  assert (I : List.length (d_maps s') = List.length (d_maps (fst x))).
  { destruct (_ <? _); [now apply refresh_link_length in E2|congruence]. }
  apply (tally_story _ _ (told_insert_mappings (k_id k)) (fun s => s) (fun _ => True)) in E;
    [|intros; split; auto; now apply told_insert_mappings_ok|exact Logic.I].
  exists k, (fst x). split; [exact K|]. split; [exact E|]. split; [|split; [exact I|]].
  - revert E. apply story_once. intros a r ks b [[_ [[-> _]|[-> _]]]|(_ & _ & [(-> & _)|(-> & _)])]; reflexivity.
  - rewrite I. revert E. apply (story_gain _ (fun s => List.length (d_maps s))).
    intros a r ks b [[-> [[-> _]|[-> _]]]|(_ & _ & [(-> & _ & ->)|(-> & _ & lv & _ & ->)])]; rewrite ?app_length; cbn; lia.
Qed.
Print Assumptions C73_insert_mappings.

(** The rows of update_mappings: what was inserted is the number of additional mappings. *)
Theorem C73_update_mappings ops ref name rows s' ks : let s := run ops fresh in
  update_mappings_report ref name rows s = Ok (s', ks) ->
  exists k s1, get_link ref name true (d_links s) = Ok k /\ story (told_update_mappings (k_id k)) s rows ks s1 /\
    List.length ks = List.length rows /\
    List.length (d_maps s') = List.length (d_maps s1) /\
    List.length (d_maps s') = List.length (d_maps s) + count KInserted ks.
Proof.
  intros s H. unfold update_mappings_report in H. apply bind_ok in H. destruct H as (k & K & H).
  apply bind_ok in H. destruct H as (x & E & H). apply bind_ok in H. destruct H as (s2 & E2 & H).
  assert (snd x = ks) by congruence. assert (s2 = s') by congruence. clear H. subst ks s2.
  assert (I : List.length (d_maps s') = List.length (d_maps (fst x))).
  { destruct (_ <? _); [now apply refresh_link_length in E2|]. destruct (_ <? _); [|congruence].
    now apply refreshes_length in E2. }
  apply (tally_story _ _ (told_update_mappings (k_id k)) (fun s => s) maps_wf) in E;
    [|intros; now apply told_update_mappings_ok|exact (i_maps _ (run_inv ops))].
  exists k, (fst x). split; [exact K|]. split; [exact E|]. split; [|split; [exact I|]].
  - revert E. apply story_once.
    intros a r ks b [[[[_ [[-> _]|[-> _]]]|(_ & _ & [(-> & _)|(-> & _)])] _]|(_ & _ & -> & _)]; reflexivity.
  - rewrite I. revert E. apply (story_gain _ (fun s => List.length (d_maps s))).
    intros a r ks b [[[[-> [[-> _]|[-> _]]]|(_ & _ & [(-> & _ & ->)|(-> & _ & lv & _ & ->)])] _]|(_ & _ & -> & _ & -> & _)];
      rewrite ?app_length; cbn; lia.
Qed.
Print Assumptions C73_update_mappings.

(** The rows of delete_mappings: what was deleted is the number of mappings that are gone. *)
Theorem C73_delete_mappings ops ref name rows s' ks : let s := run ops fresh in
  delete_mappings_report ref name rows s = Ok (s', ks) ->
  exists k s1, get_link ref name true (d_links s) = Ok k /\ story (told_delete_mappings (k_id k)) s rows ks s1 /\
    List.length ks = List.length rows /\
    List.length (d_maps s') = List.length (d_maps s1) /\
    List.length (d_maps s') + count KDeleted ks = List.length (d_maps s).
Proof.
  intros s H. unfold delete_mappings_report in H. apply bind_ok in H. destruct H as (k & K & H).
  destruct (nil_b rows); [discriminate|].
  apply bind_ok in H. destruct H as (x & E & H). apply bind_ok in H. destruct H as (s2 & E2 & H).
  assert (snd x = ks) by congruence. assert (s2 = s') by congruence. clear H. subst ks s2.
  assert (I : List.length (d_maps s') = List.length (d_maps (fst x))).
  { destruct (_ <? _); [now apply refresh_link_length in E2|congruence]. }
  apply (tally_story _ _ (told_delete_mappings (k_id k)) (fun s => s) maps_wf) in E;
    [|intros; now apply told_delete_mappings_ok|exact (i_maps _ (run_inv ops))].
  exists k, (fst x). split; [exact K|]. split; [exact E|]. split; [|split; [exact I|]].
  - revert E. apply story_once.
    intros a r ks b [[_ [[-> _]|[-> _]]]|(_ & _ & [(-> & _)|(m & _ & _ & [(-> & _)|[(-> & _)|(-> & _)]])])]; reflexivity.
  - rewrite I. revert E. apply (story_loss _ (fun s => List.length (d_maps s))).
    intros a r ks b [[-> [[-> _]|[-> _]]]|(_ & _ & [(-> & _ & ->)|
      (m & _ & _ & [(-> & _ & ->)|[(-> & _ & _ & ->)|(-> & _ & _ & L & _)]])])]; cbn; lia.
Qed.
Print Assumptions C73_delete_mappings.

(** There is no warning exactly if all that was counted is what was expected, so that (where rows are counted once) every
    row was done. *)
Theorem C73_silent expected ks : warn_if_issues expected ks = None <-> count expected ks = List.length ks.
Proof. rewrite count_all. apply warn_none. Qed.
Print Assumptions C73_silent.

(** The warning has each kind of thing that happened with its true number, once, and the expected one at the end; the
    numbers add up to all that was counted. *)
Theorem C73_warning expected ks msg : warn_if_issues expected ks = Some msg ->
  told_all expected ks msg /\ list_sum (map snd msg) = List.length ks.
Proof. intros H. apply warn_some in H. split; [exact H|]. now apply told_all_sum in H. Qed.
Print Assumptions C73_warning.

Definition row (i : Z) (a b : string) : del_row := {| dr_id := i; dr_labels := [txt a; txt b] |}.
Definition urow (i : Z) (a b : string) : upd_row := {| ur_id := i; ur_labels := [txt a; txt b]; ur_blank := false |}.

(** Rows of all kinds on the space of [hist]. *)
Example C73_case :
  let s := run hist fresh in
  let kinds {A} (x : res (A * list kind)) := match x with Ok y => Some (snd y) | Err _ => None end in
  let warned {A} e (x : res (A * list kind)) := match x with Ok y => Some (warn_if_issues e (snd y)) | Err _ => None end in
  kinds (delete_index_report [row 1%Z "x" "1"; row 9%Z "x" "1"; row 3%Z "x" "1"; row 1%Z "x" "1"] s)
    = Some [KDeleted; KNoIndex; KMismatch; KNoIndex] /\
  warned KDeleted (delete_index_report [row 1%Z "x" "1"; row 9%Z "x" "1"; row 3%Z "x" "1"; row 1%Z "x" "1"] s)
    = Some (Some [(KNoIndex, 2); (KMismatch, 1); (KDeleted, 1)]) /\
  warned KDeleted (delete_index_report [row 1%Z "x" "1"] s) = Some None /\
  warned KUpdated (update_index_report true [urow 1%Z "x" "2"; urow 7%Z "x" "3"; urow 3%Z "" "3"] s)
    = Some (Some [(KEmptyStr, 1); (KNoIndex, 1); (KMerged, 1); (KUpdated, 1)]) /\
  kinds (update_weights_report (txt "pop")
           [{| uw_id := 1; uw_labels := [txt "x"; txt "1"]; uw_value := 5 |};
            {| uw_id := 1; uw_labels := [txt "x"; txt "9"]; uw_value := 5 |}] s) = Some [KUpdated; KMismatch] /\
  kinds (delete_weights_report (txt "pop") [row 1%Z "x" "1"; row 1%Z "x" "1"] s) = Some [KDeleted; KNoWeight] /\
  warned KInserted (insert_mappings_report (txt "u1") None [mp 7 1 3 [1%N] "x" "1"; mp 7 1 3 coarse "x" "1"] s)
    = Some (Some [(KBadLevel, 1); (KInserted, 1)]) /\
  warned KUpdated (update_mappings_report (txt "u1") None [mp 1 1 4 whole "x" "1"; mp 7 1 3 whole "x" "1"] s)
    = Some (Some [(KInserted, 1); (KUpdated, 1)]) /\
  warned KDeleted (delete_mappings_report (txt "u1") None
      [mp 1 1 3 whole "x" "1"; mp 1 2 9 whole "x" "2"; mp 3 2 5 coarse "x" "2"; mp 8 2 5 whole "x" "2"] s)
    = Some (Some [(KValueMismatch, 1); (KApproximate, 1); (KNoMapping, 1); (KDeleted, 1)]).
Proof. vm_compute. repeat split; reflexivity. Qed.

(** Finding: a row that gives a record the labels it has is said to be merged and updated, but the record is deleted. *)
Theorem C73_updated_refuted : exists ops i labels s', Forall honest ops /\ one_session ops /\
  In {| ix_id := i; ix_labels := labels |} (d_index (run ops fresh)) /\
  update_index_report true [{| ur_id := i; ur_labels := labels; ur_blank := false |}] (run ops fresh)
    = Ok (s', [KMerged; KUpdated]) /\ ~ has_index s' i.
Proof.
  exists [OAddColumns [txt "A"];
          OInsertIndex None [] PAbort PAbort [{| ir_id := None; ir_labels := [txt "x"]; ir_cells := [] |};
                                              {| ir_id := None; ir_labels := [txt "y"]; ir_cells := [] |}]].
  exists 1%Z, [txt "x"]. values. eexists. split; [repeat constructor|]. split; [repeat constructor; cbn; auto|].
  split; [right; left; reflexivity|]. split; [vm_compute; reflexivity|].
  intros (r & Hr & E). vm_compute in Hr. intuition (subst r; discriminate).
Qed.
Print Assumptions C73_updated_refuted.

(** Finding: a row of delete_mappings that describes a stored mapping in every field may be said to have a mismatched value,
    if another mapping (with another level) of the same two records was stored before it. *)
Theorem C73_value_mismatch_refuted : exists ops row m s', Forall honest ops /\ one_session ops /\
  let s := run ops fresh in
  In m (d_maps s) /\ is_mapping_of 1 (mr_other row) (mr_index row) m /\ (m_value m == mr_value row)%Q /\
  m_level m = whole_level s /\ matches s (mr_index row) (mr_labels row) /\
  delete_mappings_report (txt "u1") None [row] s = Ok (s', [KValueMismatch]).
Proof.
  exists (hist ++ [OInsertMappings (txt "u1") None [mp 3 2 4 whole "x" "2"]]), (mp 3 2 4 whole "x" "2").
  values. eexists. eexists. split; [repeat constructor|]. split; [repeat constructor; cbn; auto|]. cbv zeta.
  split; [right; right; right; right; left; reflexivity|]. split; [repeat split; reflexivity|].
  split; [reflexivity|]. split; [vm_compute; reflexivity|]. split; [right; right; left; reflexivity|].
  vm_compute. reflexivity.
Qed.
Print Assumptions C73_value_mismatch_refuted.
