(** C75: the tables of stored quantities with their headers. *)
From Verif Require Import Prelude QLemmas BitFlags_Model BitFlags_Spec Selectors_Model LinkRef_Model Db_Model Db_Spec
  Reader_Model Reader_Spec Mapper_Model Mapper_Spec Quantity_Model Quantity_Spec Quantity_Proofs4 Quantity_Properties
  QTable_Model QTable_Spec QTable_Proofs.
Local Open Scope nat_scope.

(** [store_wf], [store_ref] and [index_wf] hold after every history without reopening: C34. *)

(** The table with its header shows all quantities, each once, and each row has a cell for each name. *)
Theorem C75_all s : store_wf s -> store_ref s ->
  (s_registered s <> [] -> shows s (s_registered s) (fun _ => True) (quantities2_table true s)) /\
  exists cols, names_in_use s cols /\ shows s cols (fun _ => True) (quantities_table true s).
Proof.
  intros W R. split.
  - intros Hr. destruct (select2_lists s W R Hr) as (outs & E & L). unfold select_quantities2 in E. unfold quantities2_table.
    destruct (nil_b (s_registered s)) eqn:N; [discriminate|]. cbv zeta. apply (shows_ok _ _ _ _ outs W L). now apply yield_ok.
  - exists (all_names s). split; [apply all_names_use|]. destruct (select1_lists s W R) as (outs & E & L).
    unfold quantities_table. cbv zeta. apply (shows_ok _ _ _ _ outs W L). now apply yield_ok.
Qed.
Print Assumptions C75_all.

(** Likewise for the quantities without a record and for the unmatched ones. *)
Theorem C75_left_out s : index_wf (s_db s) -> store_wf s -> store_ref s ->
  exists cols, names_in_use s cols /\
    shows s cols (no_record s) (without_index_table true s) /\ shows s cols (nonmatching s) (unmatched_table true s).
Proof.
  intros WI W R. exists (all_names s). split; [apply all_names_use|]. split.
  - destruct (without_index_lists s WI W R) as (outs & E & L). unfold without_index_table. cbv zeta.
    apply (shows_ok _ _ _ _ outs W L). now apply yield_ok.
  - destruct (unmatched_lists s WI W R) as (outs & E & L). unfold unmatched_table. cbv zeta.
    apply (shows_ok _ _ _ _ outs W L). now apply yield_ok.
Qed.
Print Assumptions C75_left_out.

(** In every space, also a damaged one: without the header, select_quantities2 and select_quantities yield the same without
    the first row, and end alike. *)
Theorem C75_no_header s :
  (s_registered s <> [] -> exists h, quantities2_table true s = (h :: fst (quantities2_table false s), snd (quantities2_table false s))) /\
  (s_registered s = [] -> forall b, quantities2_table b s = ([], Some ToronError)) /\
  (exists h, quantities_table true s = (h :: fst (quantities_table false s), snd (quantities_table false s))).
Proof.
  split; [|split].
  - intros Hr. unfold quantities2_table. destruct (s_registered s); [contradiction|]. eexists. reflexivity.
  - intros E b. unfold quantities2_table. rewrite E. reflexivity.
  - eexists. reflexivity.
Qed.
Print Assumptions C75_no_header.

(** What the other two do without the header: they yield nothing, and fail exactly if there is something to yield. *)
Theorem C75_unbound s : index_wf (s_db s) -> store_wf s -> store_ref s ->
  (fst (without_index_table false s) = [] /\
   (snd (without_index_table false s) = Some UnboundLocalError <-> some_at s (no_record s)) /\
   (snd (without_index_table false s) = None <-> ~ some_at s (no_record s))) /\
  (fst (unmatched_table false s) = [] /\
   (snd (unmatched_table false s) = Some UnboundLocalError <-> some_at s (nonmatching s)) /\
   (snd (unmatched_table false s) = None <-> ~ some_at s (nonmatching s))).
Proof.
  intros WI W R. assert (X : forall locs (P : location -> Prop), (forall l, In l locs <-> In l (s_locs s) /\ P l) ->
    let t := yield_rows (table_row None s) (located locs s) in
    fst t = [] /\ (snd t = Some UnboundLocalError <-> some_at s P) /\ (snd t = None <-> ~ some_at s P)).
  { intros locs P H. cbv zeta. rewrite yield_unbound; [|exact R|intros [l x] I; apply located_in in I; tauto]. cbn [fst snd].
    split; [reflexivity|]. pose proof (located_none locs s P H) as N. destruct (located locs s) as [|[l x] rest] eqn:E; cbn [nil_b] in *.
    - split; [|tauto]. split; [discriminate|]. intros S. now apply N in S.
    - split; [|split; [discriminate|intros S; apply N in S; discriminate]]. split; [|reflexivity]. intros _.
      assert (I : In (l, x) (located locs s)) by (rewrite E; now left). apply located_in in I. destruct I as (Hl & Hx & El).
      apply H in Hl. exists x, l. tauto. }
  split.
  - apply X. intros l. unfold locations_without_index. rewrite filter_In, negb_true_iff, some_id_false by exact WI. reflexivity.
  - apply X. intros l. apply (in_nonmatching s l WI).
Qed.
Print Assumptions C75_unbound.

(** In a damaged space the tables end with a KeyError exactly if they come to a quantity without its attribute group. *)
Theorem C75_damaged s b :
  (s_registered s <> [] -> ends s (fun _ => True) (quantities2_table b s)) /\
  ends s (fun _ => True) (quantities_table b s) /\
  (index_wf (s_db s) -> ends s (no_record s) (without_index_table true s) /\ ends s (nonmatching s) (unmatched_table true s)).
Proof.
  assert (A : forall l, In l (s_locs s) <-> In l (s_locs s) /\ True) by tauto. split; [|split; [|intros WI; split]].
  - intros Hr. unfold quantities2_table. destruct (s_registered s) as [|k r]; [contradiction|]. cbn [nil_b]. cbv zeta.
    destruct b; exact (located_ends (k :: r) s (s_locs s) (fun _ => True) A).
  - unfold quantities_table. destruct b; exact (located_ends (all_names s) s (s_locs s) (fun _ => True) A).
  - apply (located_ends (all_names s) s (locations_without_index s)). intros l. unfold locations_without_index.
    rewrite filter_In, negb_true_iff, some_id_false by exact WI. reflexivity.
  - apply (located_ends (all_names s) s (nonmatching_locations s)). intros l. apply (in_nonmatching s l WI).
Qed.
Print Assumptions C75_damaged.

(** Such spaces exist: a quantity whose group is gone. *)
Example C75_damaged_case :
  let s := set_attrs [] s1 in
  ~ grouped s (fun _ => True) /\ quantities_table true s = ([map (fun t => QcText (txt t)) ["A"; "B"; "quantity"]%string], Some KeyError).
Proof.
  cbv zeta. split; [|vm_compute; reflexivity]. intros G. destruct (proj1 (proj2 (C75_damaged (set_attrs [] s1) true))) as [E _].
  apply E in G. vm_compute in G. discriminate.
Qed.

Definition mixed_ops : list qop :=
  hist1 ++ [QSetDomain (txt "d"); QInsert2 PAbort true true [qr ["c"; ""] (Some "n") 4; qr [""; "y"] (Some "m") 2]%string].
Definition mixed : store := qrun mixed_ops fresh_store.
Lemma mixed_sound : index_wf (s_db mixed) /\ store_wf mixed /\ store_ref mixed.
Proof.
  split; [exact (proj2 (C34_tables mixed_ops))|]. split; [exact (proj1 (C34_tables mixed_ops))|].
  assert (H : store_ref (qrun (mixed_ops ++ []) fresh_store)).
  { apply C34_references; [|constructor]. unfold mixed_ops, hist1, setup. cbn [app].
    repeat (constructor; [intros E; discriminate E|]). constructor. }
  rewrite app_nil_r in H. exact H.
Qed.
Definition cells (l : list string) (q : Q) : list qcell := map (fun t => QcText (txt t)) l ++ [QcNum q].
Definition column_names (l : list string) : list qcell := map (fun t => QcText (txt t)) l.
Example C75_case :
  (index_wf (s_db mixed) /\ store_wf mixed /\ store_ref mixed) /\ s_registered mixed <> [] /\
  quantities2_table true mixed =
    ([column_names ["domain"; "A"; "B"; "k"; "quantity"]; cells ["d"; "a"; ""; "m"] 10;
      cells ["d"; "c"; ""; "n"] 4; cells ["d"; ""; "y"; "m"] 2]%string, None) /\
  fst (without_index_table true mixed) =
    [column_names ["domain"; "A"; "B"; "k"; "quantity"]; cells ["d"; "c"; ""; "n"] 4]%string /\
  List.length (fst (unmatched_table true mixed)) = 3.
Proof.
  split; [exact mixed_sound|]. split; [vm_compute; discriminate|]. split; [vm_compute; reflexivity|].
  split; vm_compute; reflexivity.
Qed.

(** Finding: a call with header=False fails in a sound space although the same call with a header succeeds and shows
    quantities. *)
Theorem C75_header_refuted : exists ops s, s = qrun ops fresh_store /\
  (index_wf (s_db s) /\ store_wf s /\ store_ref s) /\
  snd (without_index_table true s) = None /\ snd (without_index_table false s) = Some UnboundLocalError /\
  snd (unmatched_table true s) = None /\ snd (unmatched_table false s) = Some UnboundLocalError.
Proof.
  exists mixed_ops, mixed. split; [unfold mixed; reflexivity|]. split; [exact mixed_sound|]. split; [vm_compute; reflexivity|]. split; [vm_compute; reflexivity|].
  split; vm_compute; reflexivity.
Qed.
Print Assumptions C75_header_refuted.
