(** C69: the granularities that a space stores for its levels. *)
From Verif Require Import Prelude QLemmas BitFlags_Model Selectors_Model LinkRef_Model Db_Model Db_Spec Db_Proofs Db_ProofsLocal
  Db_ProofsRun Granularity_Model Granularity_Spec Granularity_Proofs Granularity_Proofs2 Granularity_Proofs3 Granularity_Properties
  StoredGran_Model StoredGran_Spec StoredGran_Proofs StoredGran_Proofs2 StoredGran_Proofs3 StoredGran_Proofs4.
From Coq Require Import Reals Lra.
Import ListNotations.

(** After any history of calls, of which none replaces labels while it inserts records and none
    drops label columns, every level is stored with the entropy of the classes that it makes of
    the records. *)
Theorem C69_granularity : forall ops, Forall careful ops -> all_right (grun ops).
Proof. exact grun_right. Qed.
Print Assumptions C69_granularity.

(** That determines what is stored. *)
Theorem C69_determined : forall ops bits a b, length bits = length (d_labels (gs_db (grun ops))) ->
  right (gs_db (grun ops)) (bits, a) -> right (gs_db (grun ops)) (bits, b) -> a = b.
Proof. intros ops bits a b. apply right_determined. exact (i_index _ (go_inv _ (grun_good ops))). Qed.
Print Assumptions C69_determined.

(** After any history at all, a call that returns and adds or removes records, relabels them by
    update_index, or changes the partitions or adds columns, leaves all granularities right. *)
Theorem C69_healed : forall ops o s', gstep o (grun ops) = (s', None) ->
  changes o (grun ops) s' \/ relabels o (grun ops) s' -> all_right s'.
Proof. intros ops o s'. apply gstep_heals, grun_good. Qed.
Print Assumptions C69_healed.

(** A call that fails leaves the levels and the granularities as they were. *)
Theorem C69_failed : forall o s s' e, gstep o s = (s', Some e) -> gs_rows s' = gs_rows s.
Proof.
  intros o s s' e. destruct o as [o|cols pdefs|m|cols clash|pdefs]; cbn [gstep].
  - destruct (by_other_call o); [discriminate|]. destruct (step o (gs_db s)) as [d [e'|]]; [now intros [= <- _]|].
    unfold finish. destruct (regrade o d s); [discriminate|now intros [= <- _]].
  - destruct (step _ _) as [d [e'|]]; [now intros [= <- _]|]. unfold finish. destruct (bind _ _); [discriminate|now intros [= <- _]].
  - destruct (step _ _) as [d [e'|]]; [now intros [= <- _]|discriminate].
  - cbv zeta. destruct (step _ _) as [d [e'|]]; [now intros [= <- _]|discriminate].
  - unfold finish. destruct (bind _ _); [discriminate|now intros [= <- _]].
Qed.
Print Assumptions C69_failed.

(** The table holds one row for each level, and a row has one mark for each label column. *)
Theorem C69_rows : forall ops, let s := grun ops in
  d_structs (gs_db s) = map fst (gs_rows s) /\ forall r, In r (gs_rows s) -> length (fst r) = length (d_labels (gs_db s)).
Proof.
  intros ops s. destruct (grun_good ops) as [_ F B]. split; [exact B|]. intros r. exact (proj1 (Forall_forall _ _) F r).
Qed.
Print Assumptions C69_rows.

(** Defining partitions and adding columns makes the rows of the levels that follow from the
    partitions, in their order. *)
Theorem C69_levels : forall ops o s' pdefs, (o = GPartition pdefs \/ exists cols, o = GAddColumns cols pdefs) ->
  gstep o (grun ops) = (s', None) -> Forall2 (marks (gs_db s')) pdefs (map fst (gs_rows s')).
Proof.
  intros ops o s' pdefs Ho E. pose proof (grun_good ops) as [I F B]. remember (grun ops) as s.
  assert (K : forall d rows, inv d -> rebuild pdefs d = Ok rows -> Forall2 (marks d) pdefs (map fst rows)).
  { intros d rows Id R. destruct (rebuild_right d pdefs rows (i_index _ Id) R) as (_ & _ & ->).
    clear. induction pdefs as [|p ps IH]; constructor; [apply bits_for_marks|exact IH]. }
  destruct Ho as [->|(cols & ->)]; cbn [gstep] in E.
  - unfold finish in E. destruct (rebuild pdefs (gs_db s)) as [rows|e] eqn:R; [|discriminate E]. cbn [bind] in E. injection E as <-.
    exact (K _ _ I R).
  - destruct (step (OAddColumns cols) (gs_db s)) as [d [e|]] eqn:Es; [discriminate E|]. unfold finish in E.
    destruct (rebuild pdefs d) as [rows|e] eqn:R; [|discriminate E]. cbn [bind] in E. injection E as <-.
    exact (K _ _ (step_inv' _ _ I _ _ Es) R).
Qed.
Print Assumptions C69_levels.

(** No other call changes the levels, except that dropping columns removes their marks. *)
Theorem C69_kept : forall ops o s' x, gs_defs (grun ops) = true -> gstep o (grun ops) = (s', x) ->
  match o with
  | GDb _ | GRenameColumns _ => map fst (gs_rows s') = map fst (gs_rows (grun ops))
  | _ => True
  end.
Proof.
  intros ops o s' x D E. pose proof (grun_good ops) as G. remember (grun ops) as s. destruct o as [o|cols pdefs|m|cols clash|pdefs]; auto; cbn [gstep] in E.
  - destruct (by_other_call o) eqn:H1; [injection E as <- _; reflexivity|]. destruct (step o (gs_db s)) as [d [e'|]] eqn:Es; [now injection E as <- _|].
    unfold finish in E. destruct (regrade o d s) as [s1|e] eqn:R; [|now injection E as <- _].
    injection E as <- _. destruct (regrade_cases o d s s1 G H1 Es R) as (rows & defs & -> & _ & K & _). exact (K D).
  - destruct (step _ _) as [d [e'|]]; now injection E as <- _.
Qed.
Print Assumptions C69_kept.

(** A level that marks more columns is never stored with a smaller granularity. *)
Theorem C69_order : forall ops r r' g g', Forall careful ops -> In r (gs_rows (grun ops)) -> In r' (gs_rows (grun ops)) ->
  snd r = Some g -> snd r' = Some g' -> (forall n, nth_error (fst r) n = Some true -> nth_error (fst r') n = Some true) -> (g <= g')%R.
Proof.
  intros ops r r' g g' C Hr Hr'. pose proof (grun_right ops C) as A. unfold all_right in A. rewrite Forall_forall in A.
  destruct (grun_good ops) as [I F _]. unfold fits in F. rewrite Forall_forall in F.
  apply (right_mono (gs_db (grun ops))); auto. exact (i_index _ I).
Qed.
Print Assumptions C69_order.

(** If the level of all columns is stored, a level with the largest stored granularity tells all
    records apart. *)
Theorem C69_finest : forall ops r w g, Forall careful ops -> In r (gs_rows (grun ops)) -> In w (gs_rows (grun ops)) ->
  snd r = Some g -> (forall r' g', In r' (gs_rows (grun ops)) -> snd r' = Some g' -> (g' <= g)%R) ->
  (forall n b, nth_error (fst w) n = Some b -> b = true) ->
  forall x y, known (gs_db (grun ops)) x -> known (gs_db (grun ops)) y -> alike (fst r) x y -> x = y.
Proof.
  intros ops r w g C Hr Hw Eg M All x y Hx Hy. pose proof (grun_right ops C) as A. unfold all_right in A. rewrite Forall_forall in A.
  destruct (grun_good ops) as [I F _]. unfold fits in F. rewrite Forall_forall in F. pose proof (i_index _ I) as W.
  assert (Rr := A r Hr). assert (Rw := A w Hw). pose proof (F r Hr) as Lr. pose proof (F w Hw) as Lw. destruct w as [wb [gw|]].
  - assert (E : gw = g).
    { apply Rle_antisym; [now apply (M (wb, Some gw))|]. apply (right_mono (gs_db (grun ops)) r (wb, Some gw)); auto.
      intros n Hn. cbn [fst] in *. destruct (nth_error wb n) as [b|] eqn:Eb; [now rewrite (All n b Eb)|].
      apply nth_error_None in Eb. assert (n < length (fst r)) by (apply nth_error_Some; congruence). lia. }
    subst gw. exact (right_finest _ r wb g W Lr Rr Rw Eg Lw All x y Hx Hy).
  - exfalso. unfold right in Rr, Rw. rewrite Eg in Rr. cbn [snd fst] in *. destruct Rr as ((n & Hn) & (z & Hz) & _). destruct Rw as [Rw|Rw]; [|exact (Rw z Hz)].
    apply (Rw n). destruct (nth_error wb n) as [b|] eqn:Eb; [now rewrite (All n b Eb)|].
    apply nth_error_None in Eb. assert (n < length (fst r)) by (apply nth_error_Some; congruence). lia.
Qed.
Print Assumptions C69_finest.

(** *** Histories *)

Definition rec2 (id : option Z) (ls : list text) : ins_row := {| ir_id := id; ir_labels := ls; ir_cells := [] |}.
(** Two columns, the levels of none, A, and A with B, and two records. *)
Definition ops2 : list gop :=
  [ GAddColumns [txt "A"; txt "B"] [[]; [txt "A"]; [txt "A"; txt "B"]];
    GDb (OInsertIndex None [] PAbort PAbort [rec2 None [txt "a"; txt "x"]; rec2 None [txt "b"; txt "y"]]) ].
(** The labels of the second record are replaced by a, y. *)
Definition replace2 : gop := GDb (OInsertIndex None [] PReplace PAbort [rec2 (Some 2%Z) [txt "a"; txt "y"]]).
(** Three columns and the level of B with C. *)
Definition ops4 : list gop :=
  [ GAddColumns [txt "A"; txt "B"; txt "C"] [[]; [txt "B"; txt "C"]; [txt "A"; txt "B"; txt "C"]];
    GDb (OInsertIndex None [] PAbort PAbort [rec2 None [txt "a"; txt "x"; txt "k"]; rec2 None [txt "b"; txt "y"; txt "k"]]) ].
Definition drop4 : gop := GDropColumns [txt "B"] false.

(** A granularity cannot be right both where the level tells two records apart and where it tells
    none apart. *)
Lemma stale d d' bits bits' o : index_wf d -> index_wf d' -> length bits = length (d_labels d) -> length bits' = length (d_labels d') ->
  right d (bits, o) -> right d' (bits', o) -> (exists n, nth_error bits n = Some true) ->
  forall x y z, known d x -> known d y -> ~ alike bits x y -> known d' z ->
  (forall u v, known d' u -> known d' v -> alike bits' u v) -> False.
Proof.
  intros W W' L L' R R' (n & Hn) x y z Hx Hy N Hz A. destruct o as [g|].
  - apply (calc_right d _ _ W L) in R. apply (calc_right d' _ _ W' L') in R'.
    unfold structure_granularity in R, R'.
    assert (E : g = 0%R).
    { apply (proj2 (C04_zero _ d' g W' R')). intros u v Hu Hv. apply same_alike; auto; [exact (proj1 Hu)|exact (proj1 Hv)]. }
    apply N. apply (same_alike d); auto; [exact (proj1 Hx)|exact (proj1 Hy)|]. apply (proj1 (C04_zero _ d g W R) E); auto.
  - destruct R as [R|R]; [exact (R n Hn)|exact (R x Hx)].
Qed.

(** In the histories the table holds what the theorems speak of. *)
Example C69_case : Forall careful ops2 /\ map fst (gs_rows (grun ops2)) = [[false; false]; [true; false]; [true; true]] /\
  gs_defs (grun ops2) = true /\
  (exists g, In ([true; false], Some g) (gs_rows (grun ops2)) /\ g <> 0%R) /\ (exists g, In ([true; true], Some g) (gs_rows (grun ops2))) /\
  map ix_labels (d_index (gs_db (grun ops2))) = [[txt "-"; txt "-"]; [txt "a"; txt "x"]; [txt "b"; txt "y"]].
Proof.
  assert (C : Forall careful ops2) by (repeat constructor).
  assert (Em : map fst (gs_rows (grun ops2)) = [[false; false]; [true; false]; [true; true]]) by (vm_compute; reflexivity).
  assert (Ei : d_index (gs_db (grun ops2)) = [ {| ix_id := 0; ix_labels := [txt "-"; txt "-"] |}; {| ix_id := 1; ix_labels := [txt "a"; txt "x"] |};
     {| ix_id := 2; ix_labels := [txt "b"; txt "y"] |} ]) by (vm_compute; reflexivity).
  assert (Ed : gs_defs (grun ops2) = true) by (vm_compute; reflexivity).
  assert (L : length [true; false] = length (d_labels (gs_db (grun ops2)))) by (vm_compute; reflexivity).
  pose proof (grun_right ops2 C) as A. pose proof (i_index _ (go_inv _ (grun_good ops2))) as W.
  revert Em Ei Ed L A W. generalize (grun ops2) as s. intros s Em Ei Ed L A W.
  split; [exact C|]. split; [exact Em|]. split; [exact Ed|]. unfold all_right in A. rewrite Forall_forall in A.
  assert (Hx : known (gs_db s) {| ix_id := 1; ix_labels := [txt "a"; txt "x"] |}) by (split; [rewrite Ei; cbn [In]; auto|discriminate]).
  assert (Hy : known (gs_db s) {| ix_id := 2; ix_labels := [txt "b"; txt "y"] |}) by (split; [rewrite Ei; cbn [In]; auto|discriminate]).
  assert (S : forall bits, (exists n, nth_error bits n = Some true) -> In bits (map fst (gs_rows s)) -> exists g, In (bits, Some g) (gs_rows s)).
  { intros bits (n & Hn) Hb. apply in_map_iff in Hb. destruct Hb as ([b o] & <- & Hb). cbn [fst] in *. destruct o as [g|]; [now exists g|].
    exfalso. pose proof (A _ Hb) as R. unfold right in R. cbn [snd fst] in R. destruct R as [R|R]; [exact (R n Hn)|exact (R _ Hx)]. }
  split; [|split].
  - destruct (S [true; false]) as (g & Hg); [now exists 0|rewrite Em; cbn [In]; auto|]. exists g. split; [exact Hg|]. intros E.
    pose proof (A _ Hg) as R. apply (calc_right _ _ _ W L) in R. unfold structure_granularity in R.
    pose proof (proj1 (C04_zero _ _ g W R) E _ _ Hx Hy) as B. apply (same_alike _ [true; false] _ _ W L (proj1 Hx) (proj1 Hy)) in B.
    specialize (B 0 eq_refl). discriminate B.
  - apply S; [now exists 0|rewrite Em; cbn [In]; auto].
  - rewrite Ei. reflexivity.
Qed.

(** After labels were replaced by insert_index, the granularities are not right in general. *)
Theorem C69_replace_refuted : exists ops o s', Forall careful ops /\ gstep o (grun ops) = (s', None) /\
  (exists rows, o = GDb (OInsertIndex None [] PReplace PAbort rows)) /\ gs_rows s' = gs_rows (grun ops) /\ ~ all_right s'.
Proof.
  exists ops2, replace2, (fst (gstep replace2 (grun ops2))).
  destruct C69_case as (C & Em & _). split; [exact C|]. 
  assert (Es : snd (gstep replace2 (grun ops2)) = None) by (vm_compute; reflexivity).
  split; [rewrite <- Es; now destruct (gstep replace2 (grun ops2))|]. split; [eexists; reflexivity|].
  assert (K : gs_rows (fst (gstep replace2 (grun ops2))) = gs_rows (grun ops2)) by (vm_compute; reflexivity). split; [exact K|].
  intros A'. pose proof (grun_right ops2 C) as A. unfold all_right in A, A'. rewrite K in A'. rewrite Forall_forall in A, A'.
  assert (Hb : In [true; false] (map fst (gs_rows (grun ops2)))) by (rewrite Em; cbn [In]; auto).
  apply in_map_iff in Hb. destruct Hb as ([b o] & Eb & Hb). cbn [fst] in Eb. subst b.
  pose proof (grun_good (ops2 ++ [replace2])) as G'. rewrite grun_snoc in G'.
  assert (Ei : d_index (gs_db (grun ops2)) = [ {| ix_id := 0; ix_labels := [txt "-"; txt "-"] |}; {| ix_id := 1; ix_labels := [txt "a"; txt "x"] |};
     {| ix_id := 2; ix_labels := [txt "b"; txt "y"] |} ]) by (vm_compute; reflexivity).
  assert (Ei' : d_index (gs_db (fst (gstep replace2 (grun ops2)))) = [ {| ix_id := 0; ix_labels := [txt "-"; txt "-"] |}; {| ix_id := 1; ix_labels := [txt "a"; txt "x"] |};
     {| ix_id := 2; ix_labels := [txt "a"; txt "y"] |} ]) by (vm_compute; reflexivity).
  assert (L : length [true; false] = length (d_labels (gs_db (grun ops2)))) by (vm_compute; reflexivity).
  assert (L' : length [true; false] = length (d_labels (gs_db (fst (gstep replace2 (grun ops2)))))) by (vm_compute; reflexivity).
  pose proof (i_index _ (go_inv _ (grun_good ops2))) as W. pose proof (i_index _ (go_inv _ G')) as W'.
  assert (R := A _ Hb). assert (R' := A' _ Hb).
  clear - Ei Ei' L L' W W' R R'. cbn [keep fst snd] in R'. revert Ei Ei' L L' W W' R R'.
  generalize (gs_db (fst (gstep replace2 (grun ops2)))) as d'. generalize (gs_db (grun ops2)) as d. intros d d' Ei Ei' L L' W W' R R'.
  apply (stale d d' [true; false] [true; false] o) with
    (x := {| ix_id := 1; ix_labels := [txt "a"; txt "x"] |}) (y := {| ix_id := 2; ix_labels := [txt "b"; txt "y"] |}) (z := {| ix_id := 1; ix_labels := [txt "a"; txt "x"] |}).
  - exact W.
  - exact W'.
  - exact L.
  - exact L'.
  - exact R.
  - exact R'.
  - now exists 0.
  - split; [rewrite Ei; cbn [In]; auto|discriminate].
  - split; [rewrite Ei; cbn [In]; auto|discriminate].
  - intros B. specialize (B 0 eq_refl). discriminate B.
  - split; [rewrite Ei'; cbn [In]; auto|discriminate].
  - intros u v [Hu Nu] [Hv Nv]. rewrite Ei' in Hu, Hv. cbn [In] in Hu, Hv. intros n Hn.
    destruct n as [|[|n]]; [|discriminate Hn|destruct n; discriminate Hn].
    destruct Hu as [<-|[<-|[<-|[]]]], Hv as [<-|[<-|[<-|[]]]]; try reflexivity; exfalso; first [apply Nu; reflexivity|apply Nv; reflexivity].
Qed.
Print Assumptions C69_replace_refuted.

(** Nor after label columns were dropped. *)
Theorem C69_drop_refuted : exists ops o s', Forall careful ops /\ gstep o (grun ops) = (s', None) /\
  (exists cols clash, o = GDropColumns cols clash) /\ map snd (gs_rows s') = map snd (gs_rows (grun ops)) /\ ~ all_right s'.
Proof.
  exists ops4, drop4, (fst (gstep drop4 (grun ops4))).
  assert (C : Forall careful ops4) by (repeat constructor). split; [exact C|]. 
  assert (Es : snd (gstep drop4 (grun ops4)) = None) by (vm_compute; reflexivity).
  split; [rewrite <- Es; now destruct (gstep drop4 (grun ops4))|]. split; [do 2 eexists; reflexivity|].
  assert (Em : map fst (gs_rows (grun ops4)) = [[false; false; false]; [false; true; true]; [true; true; true]]) by (vm_compute; reflexivity).
  assert (K : gs_rows (fst (gstep drop4 (grun ops4))) = map (fun r => (keep [true; false; true] (fst r), snd r)) (gs_rows (grun ops4))) by (vm_compute; reflexivity).
  split; [rewrite K, map_map; apply map_ext; reflexivity|].
  intros A'. pose proof (grun_right ops4 C) as A. unfold all_right in A, A'. rewrite K in A'. rewrite Forall_forall in A, A'.
  assert (Hb : In [false; true; true] (map fst (gs_rows (grun ops4)))) by (rewrite Em; cbn [In]; auto).
  apply in_map_iff in Hb. destruct Hb as ([b o] & Eb & Hb). cbn [fst] in Eb. subst b.
  pose proof (grun_good (ops4 ++ [drop4])) as G'. rewrite grun_snoc in G'.
  assert (Ei : d_index (gs_db (grun ops4)) = [ {| ix_id := 0; ix_labels := [txt "-"; txt "-"; txt "-"] |}; {| ix_id := 1; ix_labels := [txt "a"; txt "x"; txt "k"] |};
     {| ix_id := 2; ix_labels := [txt "b"; txt "y"; txt "k"] |} ]) by (vm_compute; reflexivity).
  assert (Ei' : d_index (gs_db (fst (gstep drop4 (grun ops4)))) = [ {| ix_id := 0; ix_labels := [txt "-"; txt "-"] |}; {| ix_id := 1; ix_labels := [txt "a"; txt "k"] |};
     {| ix_id := 2; ix_labels := [txt "b"; txt "k"] |} ]) by (vm_compute; reflexivity).
  assert (L : length [false; true; true] = length (d_labels (gs_db (grun ops4)))) by (vm_compute; reflexivity).
  assert (L' : length [false; true] = length (d_labels (gs_db (fst (gstep drop4 (grun ops4)))))) by (vm_compute; reflexivity).
  pose proof (i_index _ (go_inv _ (grun_good ops4))) as W. pose proof (i_index _ (go_inv _ G')) as W'.
  assert (R := A _ Hb). assert (R' := A' _ (in_map (fun r => (keep [true; false; true] (fst r), snd r)) _ _ Hb)).
  clear - Ei Ei' L L' W W' R R'. cbn [keep fst snd] in R'. revert Ei Ei' L L' W W' R R'.
  generalize (gs_db (fst (gstep drop4 (grun ops4)))) as d'. generalize (gs_db (grun ops4)) as d. intros d d' Ei Ei' L L' W W' R R'.
  apply (stale d d' [false; true; true] [false; true] o) with
    (x := {| ix_id := 1; ix_labels := [txt "a"; txt "x"; txt "k"] |}) (y := {| ix_id := 2; ix_labels := [txt "b"; txt "y"; txt "k"] |}) (z := {| ix_id := 1; ix_labels := [txt "a"; txt "k"] |}).
  - exact W.
  - exact W'.
  - exact L.
  - exact L'.
  - exact R.
  - exact R'.
  - now exists 1.
  - split; [rewrite Ei; cbn [In]; auto|discriminate].
  - split; [rewrite Ei; cbn [In]; auto|discriminate].
  - intros B. specialize (B 1 eq_refl). discriminate B.
  - split; [rewrite Ei'; cbn [In]; auto|discriminate].
  - intros u v [Hu Nu] [Hv Nv]. rewrite Ei' in Hu, Hv. cbn [In] in Hu, Hv. intros n Hn.
    destruct n as [|[|n]]; [discriminate Hn| |destruct n; discriminate Hn].
    destruct Hu as [<-|[<-|[<-|[]]]], Hv as [<-|[<-|[<-|[]]]]; try reflexivity; exfalso; first [apply Nu; reflexivity|apply Nv; reflexivity].
Qed.
Print Assumptions C69_drop_refuted.

(** Such a call is followed by a history that heals the table: a record is added. *)
Example C69_healed_case : let s := grun (ops2 ++ [replace2]) in
  let o := GDb (OInsertIndex None [] PAbort PAbort [rec2 None [txt "b"; txt "x"]]) in
  snd (gstep o s) = None /\ changes o s (fst (gstep o s)).
Proof.
  cbv zeta. split; [vm_compute; reflexivity|]. left. exists 3%Z. right. rewrite !Db_ProofsRefresh.has_index_ids. split.
  - assert (E : map ix_id (d_index (gs_db (grun (ops2 ++ [replace2])))) = [0; 1; 2]%Z) by (vm_compute; reflexivity). rewrite E. cbn [In]. lia.
  - assert (E : map ix_id (d_index (gs_db (fst (gstep (GDb (OInsertIndex None [] PAbort PAbort [rec2 None [txt "b"; txt "x"]])) (grun (ops2 ++ [replace2])))))) = [0; 1; 2; 3]%Z)
      by (vm_compute; reflexivity). rewrite E. cbn [In]. lia.
Qed.
