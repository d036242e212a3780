(** C56: the statistics and the log messages about a link's mappings. *)
From Verif Require Import Prelude Selectors_Model Selectors_Proofs LinkRef_Model LinkRef_Spec LinkRef_Proofs
  Db_Model Db_Spec Db_ProofsRun Db_ProofsOps Elements_Model Elements_Spec Elements_Proofs Db_Properties Elements_Properties
  MapStats_Model MapStats_Spec MapStats_Proofs.
From Coq Require Import Ascii String List.
Local Open Scope list_scope.
Local Open Scope Z_scope.

(** In all theorems the target space is the result of any sequence [ops] of calls on a new space, and the
    source space of any other sequence [ops']. *)

(** There are statistics exactly for a link to the source. *)
Theorem C56_right_source ops ops' id k :
  (k_other k = id <-> exists st, get_mapping_stats id (run ops' fresh) (run ops fresh) k = Ok st) /\
  (forall e, get_mapping_stats id (run ops' fresh) (run ops fresh) k = Err e -> e = PlainException).
Proof.
  split; [apply stats_ok|]. intros e H. unfold get_mapping_stats in H. destruct (negb _); [congruence|].
  destruct (if match k_hash k with Some h => hash_eqb h (d_hash (run ops' fresh)) | None => false end then _ else _) as [[a b] c].
  discriminate.
Qed.
Print Assumptions C56_right_source.

(** The numbers for the source are true, also where they are taken from the comparison of hashes. *)
Theorem C56_source ops ops' n id k st : Forall honest ops ->
  let src := run ops' fresh in let trg := run ops fresh in
  the_link n id trg k -> get_mapping_stats id src trg k = Ok st ->
  how_many (has_index src) (src_cardinality st) /\
  how_many (matched_source k src trg) (src_index_matched st) /\
  how_many (missing_source k src trg) (src_index_missing st) /\
  how_many (stale_source k src trg) (src_index_stale st).
Proof. intros Hh src trg (L & _). exact (source_counts id src trg k st (run_inv ops') (run_sources ops Hh) L). Qed.
Print Assumptions C56_source.

(** The numbers for the target are true while all changes are made in one session. *)
Theorem C56_target ops ops' n id k st : one_session ops ->
  let src := run ops' fresh in let trg := run ops fresh in
  the_link n id trg k -> get_mapping_stats id src trg k = Ok st ->
  how_many (has_index trg) (trg_cardinality st) /\
  how_many (matched_target k trg) (trg_index_matched st) /\
  how_many (missing_target k trg) (trg_index_missing st).
Proof.
  intros O src trg _. apply target_counts; [apply run_inv|].
  intros m Hm. exact (mr_ref_index _ (C31_mappings_belong ops O) m (proj1 Hm)).
Qed.
Print Assumptions C56_target.

(** For every link that can be named the log is written; it has the numbers that are not zero. *)
Theorem C56_log ops ops' name id k : id <> [] -> name <> [] ->
  let src := run ops' fresh in let trg := run ops fresh in
  the_link name id trg k ->
  exists st ns, get_mapping_stats id src trg k = Ok st /\ log_mapping_stats id name src trg = Ok ns /\
    NoDup ns /\ ns <> [] /\
    forall x, In x ns <->
      match x with
      | Verified => src_index_missing st = 0 /\ src_index_stale st = 0 /\ trg_index_missing st = 0
      | MissingSource n => n = src_index_missing st /\ n <> 0
      | StaleSource n => n = src_index_stale st /\ n <> 0
      | MissingTarget n => n = trg_index_missing st /\ n <> 0
      end.
Proof.
  intros Ni Nn src trg (L & Lo & Ln). destruct (proj1 (stats_ok id src trg k) Lo) as (st & E).
  exists st, (notes st). split; [exact E|]. split; [|split; [|split; [|apply notes_in]]].
  - apply (log_ok id name src trg k st); auto. apply get_link_iff; [exact (i_links _ (run_inv ops))|].
    assert (M : forall x, mentions (d_links trg) id x -> k_other x = id).
    { intros x (_ & [B|(B & _)]); [exact B|]. exfalso. exact (B k L Lo). }
    split; [exact Ni|]. split; [|split].
    + intros x y Hx Hy. now rewrite (M x Hx), (M y Hy).
    + split; [exact L|]. left. exact Lo.
    + destruct name; [congruence|exact Ln].
  - unfold notes. destruct (src_index_missing st =? 0), (src_index_stale st =? 0), (trg_index_missing st =? 0); cbn [andb app];
      repeat constructor; cbn [In]; intuition discriminate.
  - unfold notes. destruct (src_index_missing st =? 0), (src_index_stale st =? 0), (trg_index_missing st =? 0); cbn [andb app]; discriminate.
Qed.
Print Assumptions C56_log.

(** "Mapping verified, cleanly matches both sides" is said exactly if this is so. *)
Theorem C56_verified ops ops' name id k ns : Forall honest ops -> one_session ops -> id <> [] -> name <> [] ->
  let src := run ops' fresh in let trg := run ops fresh in
  the_link name id trg k -> proper_sources k trg ->
  log_mapping_stats id name src trg = Ok ns ->
  (In Verified ns <-> clean k src trg) /\ (In Verified ns -> ns = [Verified]).
Proof.
  intros Hh O Ni Nn src trg L P H.
  destruct (C56_log ops ops' name id k Ni Nn L) as (st & ns' & E & E' & Nd & _ & X). fold src trg in E, E'.
  assert (ns' = ns) by congruence. subst ns'.
  destruct (C56_source ops ops' name id k st Hh L E) as (_ & _ & A & B). fold src trg in A, B.
  destruct (C56_target ops ops' name id k st O L E) as (_ & _ & C). fold trg in C.
  assert (U : has_index src 0) by (exists (undefined_record src); split; [exact (iw_undefined _ (i_index _ (run_inv ops')))|reflexivity]).
  assert (Dt : forall i, mapped_target k trg i \/ ~ mapped_target k trg i).
  { intros i. destruct (existsb (fun m => (m_link m =? k_id k) && (m_index m =? i)) (d_maps trg)) eqn:Ex.
    - left. apply existsb_exists in Ex. destruct Ex as (m & Hm & Em). exists m. repeat split; auto; lia.
    - right. intros (m & (Hm & E1) & E2). rewrite <- not_true_iff_false in Ex. apply Ex. apply existsb_exists. exists m. split; auto. lia. }
  assert (Z0 : forall Q n, how_many Q n -> (n = 0 <-> forall i, ~ Q i)).
  { intros Q n Hn. split; [intros ->; now apply how_many_zero|]. intros Hq. exact (how_many_unique _ _ _ Hn (proj2 (how_many_zero Q) Hq)). }
  split.
  - rewrite (X Verified), (Z0 _ _ A), (Z0 _ _ B), (Z0 _ _ C). unfold clean. split.
    + intros (A' & B' & C'). split; [|split].
      * intros o D. destruct (mapped_source_dec k trg o) as [M|M]; auto. exfalso. exact (A' o (conj D M)).
      * intros o M. destruct (defined_dec src o (iw_unique _ (i_index _ (run_inv ops')))) as [D|D]; auto. exfalso.
        apply (B' o). split; [|split; auto]. specialize (P o M). destruct (Z.eq_dec o 0) as [->|]; [contradiction|lia].
      * intros i D. destruct (Dt i) as [M|M]; auto. exfalso. exact (C' i (conj D M)).
    + intros (A' & B' & C'). split; [|split].
      * intros o (D & M). auto.
      * intros o (_ & M & D). auto.
      * intros i (D & M). auto.
  - intros V. apply X in V. destruct V as (V1 & V2 & V3). unfold log_mapping_stats in H.
    destruct ns as [|x [|y ns]].
    + exfalso. exact (proj2 (X Verified) (conj V1 (conj V2 V3))).
    + assert (In Verified [x]) as [->|[]] by (apply X; auto). reflexivity.
    + exfalso. assert (All : forall z, In z (x :: y :: ns) -> z = Verified).
      { intros z Hz. apply X in Hz. destruct z; auto; destruct Hz; lia. }
      inversion Nd as [|? ? N1 N2]. subst. apply N1. left. rewrite (All x), (All y); auto; [right|]; now left.
Qed.
Print Assumptions C56_verified.

(** A source with exactly the records 1, 2 and 3, as recorded with the link of [hist]. *)
Definition src3 : list op := [OAddColumns [txt "C"];
   OInsertIndex None [] PAbort PAbort
     (map (fun a => {| ir_id := None; ir_labels := [txt a]; ir_cells := [] |}) ["p"; "q"; "r"]%string)].
(** A source that lost the record 2. *)
Definition src_lost : list op := src_hist ++ [ODeleteIndexCriteria [(txt "C", txt "q")]].
Definition show_log (r : res (list note)) := match r with Ok ns => Some ns | Err _ => None end.
Example C56_case :
  Forall honest trg_hist /\ one_session trg_hist /\
  (exists k, the_link (txt "m1") (txt "u1") (run trg_hist fresh) k /\ proper_sources k (run trg_hist fresh)) /\
  show_log (log_mapping_stats (txt "u1") (txt "m1") (run src3 fresh) (run hist fresh)) = Some [Verified] /\
  show_log (log_mapping_stats (txt "u1") (txt "m1") (run src_hist fresh) (run trg_hist fresh)) =
    Some [MissingSource 1; MissingTarget 1] /\
  show_log (log_mapping_stats (txt "u1") (txt "m1") (run src_lost fresh) (run trg_hist fresh)) =
    Some [MissingSource 1; StaleSource 1; MissingTarget 1].
Proof.
  split; [repeat constructor|]. split; [repeat (constructor; [intros []|]); constructor|]. split.
  - values. eexists. split; [split; [left; reflexivity|split; reflexivity]|].
    intros o (m & (Hm & _) & <-). vm_compute in Hm. repeat (destruct Hm as [<-|Hm]; [discriminate|]). destruct Hm.
  - split; [vm_compute; reflexivity|]. split; vm_compute; reflexivity.
Qed.

(** Finding: in a space that was stored and opened again, a mapping to a record that does not exist makes up for a
    record without a mapping: the log says that the mapping matches both sides although the record 4 of the target has
    no mapping. *)
Theorem C56_reopened_refuted : exists ops ops' name id k, Forall honest ops /\
  the_link name id (run ops fresh) k /\ proper_sources k (run ops fresh) /\
  log_mapping_stats id name (run ops' fresh) (run ops fresh) = Ok [Verified] /\
  missing_target k (run ops fresh) 4.
Proof.
  exists (trg_hist ++ [OReopen; OInsertMappings2 (txt "u1") None [mp 4 99 1 whole "x" "1"]]), src_hist, (txt "m1"), (txt "u1").
  values. eexists. split; [repeat constructor|]. split; [split; [left; reflexivity|split; reflexivity]|]. split; [|split; [|split]].
  - intros o (m & (Hm & _) & <-). vm_compute in Hm. repeat (destruct Hm as [<-|Hm]; [discriminate|]). destruct Hm.
  - vm_compute. reflexivity.
  - split; [|discriminate]. eexists. split; [right; right; right; right; left; reflexivity|reflexivity].
  - intros (m & (Hm & _) & E). vm_compute in Hm. repeat (destruct Hm as [<-|Hm]; [discriminate|]). destruct Hm.
Qed.
Print Assumptions C56_reopened_refuted.

(** Finding: mappings of sources with negative ids, which exist nowhere, are not reported. *)
Theorem C56_negative_refuted : exists ops ops' name id k, Forall honest ops /\ one_session ops /\
  the_link name id (run ops fresh) k /\
  log_mapping_stats id name (run ops' fresh) (run ops fresh) = Ok [Verified] /\
  mapped_source k (run ops fresh) (-1) /\ ~ has_index (run ops' fresh) (-1).
Proof.
  exists (hist ++ [OInsertMappings2 (txt "u1") None [mp (-1) 1 1 whole "x" "1"]]), src3, (txt "m1"), (txt "u1").
  values. eexists. split; [repeat constructor|]. split; [repeat (constructor; [intros []|]); constructor|].
  split; [split; [left; reflexivity|split; reflexivity]|]. split; [vm_compute; reflexivity|]. split.
  - vm_compute. eexists. split; [split|]; [right; right; right; right; left; reflexivity|reflexivity|reflexivity].
  - intros (r & Hr & E). vm_compute in Hr. repeat (destruct Hr as [<-|Hr]; [discriminate|]). destruct Hr.
Qed.
Print Assumptions C56_negative_refuted.
