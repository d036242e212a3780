(** C34, C36, C51: quantities of a space. *)
From Verif Require Import Prelude QLemmas BitFlags_Model BitFlags_Spec Selectors_Model LinkRef_Model Db_Model Db_Spec
  Reader_Model Reader_Spec Mapper_Model Mapper_Spec Quantity_Model Quantity_Spec Quantity_Proofs Quantity_Proofs2 Quantity_Proofs3 Quantity_Proofs4.
From Coq Require Import Permutation.
Local Open Scope nat_scope.

(** A space with records 1 = (a, x), 2 = (a, y), 3 = (b, x); levels (first) and (first, second);
    attribute 'k' registered. *)
Definition ix2 (l : list string) : ins_row := {| ir_id := None; ir_labels := map txt l; ir_cells := [] |}.
Definition setup : list qop :=
  [ QIndex (OAddColumns [txt "A"; txt "B"]);
    QIndex (OInsertIndex None [] PAbort PAbort [ix2 ["a"; "x"]; ix2 ["a"; "y"]; ix2 ["b"; "x"]])%string;
    QIndex (OSetStructure [[true; false]; [true; true]]);
    QRegister [txt "k"] ].
Definition qr (l : list string) (k : option string) (q : Q) : q_row :=
  {| qr_domain := None; qr_labels := map txt l;
     qr_cells := [(txt "k", match k with Some k => Some (txt k) | None => None end)]; qr_value := Some q |}.
Definition rows_ : list q_row :=
  [qr ["a"; ""] (Some "m") 5; qr ["b"; "x"] (Some "m") 2; qr ["a"; ""] (Some "m") 3; qr ["b"; ""] None 9;
   qr ["a"; ""] (Some "n") 1]%string.
Definition hist1 : list qop := setup ++ [QInsert2 PAbort false false [qr ["a"; ""] (Some "m") 10]]%string.
Definition s1 : store := qrun hist1 fresh_store.

(** *** C34 *)

(** In every history the tables stay well-formed: one quantity per location and attribute
    group, one location per label tuple, one group per dictionary. *)
Theorem C34_tables ops : store_wf (qrun ops fresh_store) /\ index_wf (s_db (qrun ops fresh_store)).
Proof. split; [exact (qrun_wf ops _ fresh_store_wf)|exact (qrun_index ops)]. Qed.
Print Assumptions C34_tables.

(** Every quantity has its location and attribute group, unless unmatched quantities are deleted
    after the space has been reopened. *)
Theorem C34_references ops1 ops2 :
  Forall (fun o => ~ reopens o) ops1 -> Forall (fun o => o <> QDeleteUnmatched) ops2 ->
  store_ref (qrun (ops1 ++ ops2) fresh_store).
Proof. exact (qrun_ref ops1 ops2). Qed.
Print Assumptions C34_references.

(** After a successful insertion the value at every place is what the policy makes of the old value
    and of the values of the rows that go there, in their order; nothing else changes. *)
Theorem C34_policy pol al ap rows s s' ev : store_wf s -> store_ref s -> fits s rows ->
  insert_quantities2 pol al ap rows s = Ok (s', ev) ->
  store_wf s' /\ store_ref s' /\ same_rest s s' /\
  forall labels a old vs, dict a -> reads s labels a old -> incoming (s_registered s) rows labels a vs ->
    exists new, reads s' labels a new /\ same_value new (settle pol old vs) /\
      (pol <> PIgnore -> ~ In None vs) /\
      (pol = PAbort \/ pol = PInvalid -> length vs <= 1 /\ (vs <> [] -> old = None)).
Proof. exact (insert2_effect pol al ap rows s s' ev). Qed.
Print Assumptions C34_policy.

(** With 'sum' and 'abort' the grand total grows by exactly the values of the rows with
    attributes. *)
Theorem C34_total pol al ap rows s s' ev (sel : q_row -> bool) : store_wf s -> store_ref s -> fits s rows ->
  pol = PSum \/ pol = PAbort ->
  (forall r, In r rows -> (sel r = true <-> has_attrs (s_registered s) r)) ->
  insert_quantities2 pol al ap rows s = Ok (s', ev) ->
  (grand_total s' == grand_total s + Qsum (map (fun r => val (qr_value r)) (filter sel rows)))%Q.
Proof. exact (insert2_total pol al ap rows s s' ev sel). Qed.
Print Assumptions C34_total.

(** With 'sum' the order of the rows does not matter. *)
Theorem C34_order al ap rows rows' s s' ev : index_wf (s_db s) -> store_wf s -> store_ref s -> fits s rows ->
  Permutation rows rows' -> insert_quantities2 PSum al ap rows s = Ok (s', ev) ->
  exists s2 ev2, insert_quantities2 PSum al ap rows' s = Ok (s2, ev2) /\
    forall labels a v1 v2, dict a -> reads s' labels a v1 -> reads s2 labels a v2 -> same_value v1 v2.
Proof. exact (insert2_perm al ap rows rows' s s' ev). Qed.
Print Assumptions C34_order.

(** Exactly which insertions of numbers succeed. *)
Theorem C34_accepts pol al ap rows s :
  index_wf (s_db s) -> store_wf s -> store_ref s -> fits s rows -> numeric s rows ->
  (exists s' ev, insert_quantities2 pol al ap rows s = Ok (s', ev)) <->
  s_registered s <> [] /\ (forall r, In r rows -> storable al ap s r) /\
  (pol = PAbort \/ pol = PInvalid -> no_conflict s rows).
Proof. exact (insert2_accepts pol al ap rows s). Qed.
Print Assumptions C34_accepts.

(** An insertion that fails changes nothing. *)
Theorem C34_failure pol al ap rows s e : snd (qstep (QInsert2 pol al ap rows) s) = Some e ->
  fst (qstep (QInsert2 pol al ap rows) s) = s.
Proof.
  cbn [qstep]. destruct (forallb _ rows); [|reflexivity]. unfold transact_q.
  destruct (insert_quantities2 pol al ap rows s); cbn; [discriminate|reflexivity].
Qed.
Print Assumptions C34_failure.

(** The older [insert_quantities] looks at the rows of the space's domain and behaves like
    'abort'. *)
Theorem C34_older names rows s s' : store_wf s -> store_ref s -> fits s rows ->
  insert_quantities names rows s = Ok s' ->
  store_wf s' /\ store_ref s' /\ same_rest s s' /\
  forall labels a old (sel : q_row -> bool), dict a -> reads s labels a old ->
    (forall r, In r rows -> (sel r = true <-> of_domain s r /\ goes_to (names1 s names) labels a r)) ->
    let vs := map qr_value (filter sel rows) in
    exists new, reads s' labels a new /\ same_value new (settle PAbort old vs) /\
      ~ In None vs /\ length vs <= 1 /\ (vs <> [] -> old = None).
Proof. exact (insert1_effect names rows s s'). Qed.
Print Assumptions C34_older.

Definition after (pol : policy) (rows : list q_row) : store :=
  match insert_quantities2 pol false false rows s1 with Ok (s, _) => s | Err _ => fresh_store end.
Definition shown (s : store) : list (list text * list (option text) * Q) :=
  match select_quantities2 s with
  | Ok l => map (fun o => (qo_labels o, qo_attrs o, Qred (qo_value o))) l
  | Err _ => []
  end.
Definition line (l : list string) (k : string) (q : Q) := (map txt l, [Some (txt k)], q).
Example C34_cases :
  store_wf s1 /\ store_ref s1 /\ fits s1 rows_ /\ numeric s1 rows_ /\
  shown s1 = [line ["a"; ""] "m" 10]%string /\
  shown (after PSum rows_) = [line ["a"; ""] "m" 18; line ["a"; ""] "n" 1; line ["b"; "x"] "m" 2]%string /\
  shown (after PReplace rows_) = [line ["a"; ""] "m" 3; line ["a"; ""] "n" 1; line ["b"; "x"] "m" 2]%string /\
  shown (after PIgnore rows_) = [line ["a"; ""] "m" 10; line ["a"; ""] "n" 1; line ["b"; "x"] "m" 2]%string /\
  insert_quantities2 PAbort false false rows_ s1 = Err ValueError /\
  insert_quantities2 PSum false false [qr [""; "x"] (Some "m") 1]%string s1 = Err ValueError /\
  insert_quantities2 PSum false true [qr ["c"; ""] (Some "m") 1]%string s1 = Err ValueError /\
  (grand_total s1 == 10)%Q /\ (grand_total (after PSum rows_) == 21)%Q.
Proof.
  split; [apply C34_tables|]. split.
  { apply (C34_references hist1 []); [|constructor]. repeat constructor; intros E; discriminate E. }
  split; [|split].
  - intros r Hr. cbn in Hr. intuition (subst r; vm_compute; reflexivity).
  - intros r Hr _. cbn in Hr. intuition (subst r; discriminate).
  - repeat split; vm_compute; reflexivity.
Qed.

(** The domain of the row decides in [insert_quantities]: with a domain set, a row of another
    domain is passed over. *)
Example C34_older_case : exists s',
  let s := qrun (setup ++ [QSetDomain (txt "d")]) fresh_store in
  insert_quantities [txt "k"; txt "domain"]
    [ {| qr_domain := Some (txt "d"); qr_labels := map txt ["a"; ""]%string; qr_cells := [(txt "k", Some (txt "m"))]; qr_value := Some 4%Q |};
      {| qr_domain := Some (txt "e"); qr_labels := map txt ["b"; ""]%string; qr_cells := [(txt "k", Some (txt "m"))]; qr_value := Some 7%Q |} ]
    s = Ok s' /\ shown s' = [line ["a"; ""] "m" 4]%string.
Proof. eexists. split; vm_compute; reflexivity. Qed.

(** *** C36 *)

(** A location is reported exactly when its level is not in the structure or no defined record
    agrees with its labels. *)
Theorem C36_reported s l : index_wf (s_db s) ->
  (In l (nonmatching_locations s) <->
     In l (s_locs s) /\ (~ structured s (l_labels l) \/ no_record s l)).
Proof. exact (in_nonmatching s l). Qed.
Print Assumptions C36_reported.

(** The three counts are those of the three disjoint kinds of reported locations. *)
Theorem C36_counts s : index_wf (s_db s) ->
  let c := count_nonmatching s in
  count_is s (fun l => ~ structured s (l_labels l) /\ no_record s l) (nm_both c) /\
  count_is s (fun l => ~ structured s (l_labels l) /\ ~ no_record s l) (nm_structure c) /\
  count_is s (fun l => structured s (l_labels l) /\ no_record s l) (nm_index c) /\
  nm_both c + nm_structure c + nm_index c = length (nonmatching_locations s).
Proof. exact (counts_spec s). Qed.
Print Assumptions C36_counts.

(** What is selected as unmatched is what deleting removes (through the connection that
    created the space), with the locations and with the attribute groups no longer in use. *)
Theorem C36_deleted s : index_wf (s_db s) -> store_wf s -> store_ref s -> d_fk (s_db s) = true ->
  (exists outs, select_unmatched s = Ok outs /\ lists s (all_names s) (nonmatching s) outs) /\
  removed s (delete_unmatched s) (nonmatching s) /\
  (forall l, In l (s_locs (delete_unmatched s)) <-> In l (s_locs s) /\ ~ nonmatching s l) /\
  store_wf (delete_unmatched s) /\ store_ref (delete_unmatched s).
Proof.
  intros WI W R F. split; [exact (unmatched_lists s WI W R)|]. destruct (deleted_unmatched s WI W F) as [D1 D2].
  split; [exact D1|]. split; [exact D2|]. split; [exact (delete_unmatched_wf s W)|exact (delete_unmatched_ref s F R)].
Qed.
Print Assumptions C36_deleted.

(** The same for quantities without an index record, whatever the connection. *)
Theorem C36_deleted_index s : index_wf (s_db s) -> store_wf s -> store_ref s ->
  (exists outs, select_without_index s = Ok outs /\ lists s (all_names s) (no_record s) outs) /\
  removed s (delete_without_index s) (no_record s) /\
  (forall l, In l (s_locs (delete_without_index s)) <->
     In l (s_locs s) /\ exists x, In x (s_quants (delete_without_index s)) /\ qt_loc x = l_id l) /\
  store_wf (delete_without_index s) /\ store_ref (delete_without_index s).
Proof.
  intros WI W R. split; [exact (without_index_lists s WI W R)|]. destruct (deleted_without_index s WI W) as [D1 D2].
  split; [exact D1|]. split; [exact D2|]. split; [exact (delete_without_index_wf s W)|exact (delete_without_index_ref s R)].
Qed.
Print Assumptions C36_deleted_index.

(** Listing all quantities lists each once, with the values of the registered attributes or of
    all attributes. *)
Theorem C36_select s : store_wf s -> store_ref s ->
  (s_registered s <> [] ->
     exists outs, select_quantities2 s = Ok outs /\ lists s (s_registered s) (fun _ => True) outs) /\
  (exists outs, select_quantities s = Ok outs /\ lists s (all_names s) (fun _ => True) outs) /\
  (forall k, In k (all_names s) <-> exists g v, In g (s_attrs s) /\ In (k, v) (ag_attrs g)).
Proof.
  intros W R. split; [exact (select2_lists s W R)|]. split; [exact (select1_lists s W R)|exact (all_names_in s)].
Qed.
Print Assumptions C36_select.

(** Locations (a, ), ( , y), (c, ), ( , z): the second is at an unknown level, the third has no
    record, the fourth neither. *)
Definition hist3 : list qop := setup ++
  [QInsert2 PAbort true true [qr ["a"; ""] (Some "m") 1; qr [""; "y"] (Some "m") 2; qr ["c"; ""] (Some "n") 4; qr [""; "z"] (Some "m") 8]]%string.
Definition s3 : store := qrun hist3 fresh_store.
Example C36_cases :
  store_wf s3 /\ store_ref s3 /\ d_fk (s_db s3) = true /\
  count_nonmatching s3 = {| nm_both := 1; nm_structure := 1; nm_index := 1 |} /\
  map l_labels (nonmatching_locations s3) = map (map txt) [[""; "y"]; ["c"; ""]; [""; "z"]]%string /\
  shown (delete_unmatched s3) = [line ["a"; ""] "m" 1]%string /\
  map ag_attrs (s_attrs (delete_unmatched s3)) = [[(txt "k", txt "m")]] /\
  shown (delete_without_index s3) = [line ["a"; ""] "m" 1; line [""; "y"] "m" 2]%string.
Proof.
  split; [apply C34_tables|]. split.
  { apply (C34_references hist3 []); [|constructor]. repeat constructor; intros E; discriminate E. }
  repeat split; vm_compute; reflexivity.
Qed.

Lemma dash_agrees s loc : loc = map (fun _ => txt "-") (d_labels s) -> agrees loc (undefined_record s).
Proof. intros -> n v w Hv Hw _. cbn [undefined_record ix_labels] in Hw. congruence. Qed.

(** Finding: a location that agrees only with the undefined record is accepted without
    [any_label] but reported and deleted as unmatched. *)
Theorem C36_undefined_refuted : exists ops rows,
  let s := qrun ops fresh_store in
  (forall e, snd (qstep (QInsert2 PAbort false false rows) s) <> Some e) /\
  let s' := fst (qstep (QInsert2 PAbort false false rows) s) in
  s_quants s' <> [] /\ (forall l, In l (s_locs s') -> exists i, matches s' (l_labels l) i) /\
  nonmatching_locations s' <> [] /\ s_quants (delete_unmatched s') = [].
Proof.
  exists setup, [qr ["-"; "-"] (Some "m") 6]%string. cbv zeta.
  assert (E : qstep (QInsert2 PAbort false false [qr ["-"; "-"] (Some "m") 6]%string) (qrun setup fresh_store) =
    (set_tables [{| l_id := 1; l_labels := map txt ["-"; "-"]%string |}] [{| ag_id := 1; ag_attrs := [(txt "k", txt "m")] |}]
       [{| qt_id := 1; qt_loc := 1; qt_attr := 1; qt_value := 6 |}] (qrun setup fresh_store), None)) by (vm_compute; reflexivity).
  assert (E1 : match nonmatching_locations (fst (qstep (QInsert2 PAbort false false [qr ["-"; "-"] (Some "m") 6]%string) (qrun setup fresh_store))) with [] => false | _ => true end = true) by (vm_compute; reflexivity).
  assert (E2 : s_quants (delete_unmatched (fst (qstep (QInsert2 PAbort false false [qr ["-"; "-"] (Some "m") 6]%string) (qrun setup fresh_store)))) = []) by (vm_compute; reflexivity).
  assert (E3 : map txt ["-"; "-"]%string = map (fun _ => txt "-") (d_labels (s_db (qrun setup fresh_store)))) by (vm_compute; reflexivity).
  pose proof (proj2 (C34_tables setup)) as WI. revert E E1 E2 E3 WI. generalize (qrun setup fresh_store) as s. intros s E. rewrite E. cbn [fst snd]. intros E1 E2 E3 WI.
  split; [discriminate|]. split; [discriminate|]. split; [|split; [intros E4; now rewrite E4 in E1|exact E2]].
  intros l [<-|[]]. exists 0%Z, (undefined_record (s_db s)). split; [exact (iw_undefined _ WI)|]. split; [reflexivity|].
  apply dash_agrees. exact E3.
Qed.
Print Assumptions C36_undefined_refuted.

(** Finding: after the space has been reopened, deleting unmatched quantities removes the
    locations but not the quantities; the next new location gets a freed id and with it a
    quantity that was never inserted there. *)
Theorem C36_reopened_refuted : exists ops rows labels a q,
  let s := qrun (ops ++ [QIndex OReopen; QDeleteUnmatched; QInsert2 PAbort false false rows]) fresh_store in
  dict a /\ (forall q', ~ stored (qrun ops fresh_store) labels a q') /\
  (forall v, ~ (exists r, In r rows /\ goes_to (s_registered s) labels a r /\ qr_value r = v)) /\
  stored s labels a q.
Proof.
  exists (setup ++ [QInsert2 PAbort true true [qr ["c"; ""] (Some "m") 4]%string]).
  exists [qr ["a"; ""] (Some "n") 1]%string, (map txt ["a"; ""]%string), [(txt "k", txt "m")], 4%Q. cbv zeta.
  assert (E1 : forall x, s_locs (qrun (setup ++ [QInsert2 PAbort true true [qr ["c"; ""] (Some "m") 4]%string]) fresh_store) = x ->
    x = [{| l_id := 1; l_labels := map txt ["c"; ""]%string |}]) by (intros x <-; vm_compute; reflexivity).
  split; [repeat constructor; easy|]. split; [|split].
  - intros q' (l & g & x & Hl & El & _). rewrite (E1 _ eq_refl) in Hl. destruct Hl as [<-|[]]. discriminate El.
  - intros v (r & [<-|[]] & (_ & _ & _ & Ha) & _). 
    assert (H : In (txt "k", txt "m") [(txt "k", txt "m")]) by now left. apply Ha in H. destruct H as (_ & _ & H). discriminate H.
  - exists {| l_id := 1; l_labels := map txt ["a"; ""]%string |}, {| ag_id := 1; ag_attrs := [(txt "k", txt "m")] |}, {| qt_id := 1; qt_loc := 1; qt_attr := 1; qt_value := 4 |}.
    vm_compute. repeat split; auto.
Qed.
Print Assumptions C36_reopened_refuted.

(** *** C51 *)

(** What [select_quantities2] writes can be read with [insert_quantities2] into another space
    without quantities, with the same domain, registered attributes and number of label columns, under any
    policy, and gives the same stored values. *)
Theorem C51_round_trip s t outs pol : store_wf s -> store_ref s -> all_registered s ->
  select_quantities2 s = Ok outs ->
  index_wf (s_db t) -> store_wf t -> s_quants t = [] -> s_registered t = s_registered s -> s_domain t = s_domain s ->
  length (d_labels (s_db t)) = length (d_labels (s_db s)) -> d_labels (s_db s) <> [] ->
  exists t' ev, insert_quantities2 pol true true (map (as_row (s_registered s)) outs) t = Ok (t', ev) /\
    forall labels a, dict a ->
      (forall q, stored s labels a q -> exists q', stored t' labels a q' /\ (q' == q)%Q) /\
      (forall q, stored t' labels a q -> exists q', stored s labels a q' /\ (q == q')%Q).
Proof.
  intros W R HR E. assert (Hr : s_registered s <> []) by (intros E0; unfold select_quantities2 in E; rewrite E0 in E; discriminate E).
  destruct (select2_lists s W R Hr) as (outs' & E' & L). rewrite E in E'. inversion E'; subst outs'.
  intros WI Wt Q0 Er Ed El Hl. exact (export_import s t outs pol W HR L WI Wt Q0 Er Hr Ed El Hl).
Qed.
Print Assumptions C51_round_trip.

Example C51_case : exists outs t',
  select_quantities2 s3 = Ok outs /\ length outs = 4 /\ all_registered s3 /\
  insert_quantities2 PAbort true true (map (as_row (s_registered s3)) outs) (qrun setup fresh_store) = Ok t' /\
  shown (fst t') = shown s3.
Proof.
  eexists. eexists. split; [vm_compute; reflexivity|]. split; [reflexivity|]. split; [|split; vm_compute; reflexivity].
  intros g k v Hg Hk. assert (E : s_attrs s3 = [{| ag_id := 1; ag_attrs := [(txt "k", txt "m")] |}; {| ag_id := 2; ag_attrs := [(txt "k", txt "n")] |}]) by (vm_compute; reflexivity).
  rewrite E in Hg. assert (E2 : s_registered s3 = [txt "k"]) by (vm_compute; reflexivity). rewrite E2.
  destruct Hg as [<-|[<-|[]]]; destruct Hk as [Hk|[]]; inversion Hk; now left.
Qed.

(** Finding: attributes that are not registered are lost, so that two quantities may be read
    back as one. *)
Theorem C51_unregistered_refuted : exists ops outs t',
  let s := qrun ops fresh_store in
  select_quantities2 s = Ok outs /\ s_quants (qrun setup fresh_store) = [] /\
  insert_quantities2 PReplace true true (map (as_row (s_registered s)) outs) (qrun setup fresh_store) = Ok t' /\
  length (s_quants s) = 2 /\ length (s_quants (fst t')) = 1 /\ ~ (grand_total (fst t') == grand_total s)%Q.
Proof.
  exists (setup ++ [QInsert [txt "k"; txt "z"]
    [ {| qr_domain := None; qr_labels := map txt ["a"; ""]%string; qr_cells := [(txt "k", Some (txt "m")); (txt "z", Some (txt "1"))]; qr_value := Some 4%Q |};
      {| qr_domain := None; qr_labels := map txt ["a"; ""]%string; qr_cells := [(txt "k", Some (txt "m")); (txt "z", Some (txt "2"))]; qr_value := Some 7%Q |} ]]).
  eexists. eexists. cbv zeta. split; [vm_compute; reflexivity|]. split; [vm_compute; reflexivity|]. split; [vm_compute; reflexivity|].
  split; [vm_compute; reflexivity|]. split; [vm_compute; reflexivity|]. vm_compute. discriminate.
Qed.
Print Assumptions C51_unregistered_refuted.
