(** C04 and C05: granularity. *)
From Verif Require Import Prelude Selectors_Model LinkRef_Model Db_Model Db_Spec Db_ProofsRun Mapper_Spec Quantity_Model Quantity_Spec SpaceRead_Spec SpaceRead_Properties
  Granularity_Model Granularity_Spec Granularity_Proofs Granularity_Proofs2 Granularity_Proofs3.
From Coq Require Import Reals Lra Lia.
Local Open Scope R_scope.

(** *** C04 *)

(** None exactly without columns or records; else a number if the columns exist, an error if not. *)
Theorem C04_none cols s : calculate_granularity cols s = Ok None <-> cols = [] \/ forall r, ~ defined s r.
Proof. exact (granularity_none cols s). Qed.
Print Assumptions C04_none.
Theorem C04_defined cols s : (exists g, calculate_granularity cols s = Ok (Some g)) <->
  cols <> [] /\ incl cols (d_labels s) /\ exists r, defined s r.
Proof.
  split.
  - intros (g & E). apply granularity_some in E. destruct E as (H1 & H2 & H3 & _). repeat split; auto.
    destruct (D s) as [|r l] eqn:E; [easy|]. exists r. apply in_D. rewrite E. now left.
  - intros (H1 & H2 & r & Hr). exists (per_record s cols). apply granularity_some. repeat split; auto.
    intros E. apply in_D in Hr. rewrite E in Hr. easy.
Qed.
Print Assumptions C04_defined.

(** It is the Shannon entropy of the blocks, and there are blocks. *)
Theorem C04_entropy cols s g bs : index_wf s -> calculate_granularity cols s = Ok (Some g) -> blocks s cols bs -> g = entropy bs.
Proof. intros W E B. apply granularity_some in E. destruct E as (_ & _ & Hd & ->). exact (entropy_eq s W Hd cols bs B). Qed.
Print Assumptions C04_entropy.
Theorem C04_blocks cols s : index_wf s -> exists bs, blocks s cols bs.
Proof. exact (blocks_exist s cols). Qed.
Print Assumptions C04_blocks.

(** It lies between 0 and the logarithm of the number of records. *)
Theorem C04_range cols s g ids : index_wf s -> calculate_granularity cols s = Ok (Some g) ->
  NoDup ids -> (forall i, In i ids <-> has_index s i /\ i <> 0%Z) ->
  0 <= g <= bits_of (INR (length ids)).
Proof.
  intros W E N H. apply granularity_some in E. destruct E as (_ & _ & Hd & ->).
  assert (L : length ids = length (D s)).
  { assert (Nd : NoDup (map ix_id (D s))).
    { unfold D. pose proof (iw_unique _ W) as U. clear - U. induction (d_index s) as [|x l IH]; [constructor|]. cbn [map] in U. inversion U; subst. cbn [filter].
      destruct (negb (ix_id x =? 0)%Z); auto. cbn [map]. constructor; auto. rewrite in_map_iff. intros (y & E & Hy). apply filter_In in Hy. apply H1. rewrite <- E. now apply in_map. }
    rewrite <- (map_length ix_id (D s)).
    assert (forall i, In i ids <-> In i (map ix_id (D s))).
    { intros i. rewrite H, in_map_iff. split.
      - intros [Hi Hn]. destruct Hi as (r & Hr & <-). exists r. split; auto. apply in_D. split; auto.
      - intros (r & <- & Hr). apply in_D in Hr. destruct Hr as [Hr Hn]. split; auto. exists r. auto. }
    apply Nat.le_antisymm; apply NoDup_incl_length; auto; intros i Hi; now apply H0. }
  rewrite L. exact (per_record_range s Hd cols).
Qed.
Print Assumptions C04_range.

(** Adding columns never lowers it. *)
Theorem C04_monotone cols cols' s g g' : index_wf s -> incl cols cols' ->
  calculate_granularity cols s = Ok (Some g) -> calculate_granularity cols' s = Ok (Some g') -> g <= g'.
Proof.
  intros W I E E'. apply granularity_some in E, E'. destruct E as (_ & _ & Hd & ->), E' as (_ & _ & _ & ->).
  exact (per_record_mono s W Hd cols cols' I).
Qed.
Print Assumptions C04_monotone.

(** Among nested columns it is equal exactly if the blocks are the same. *)
Theorem C04_equal cols cols' s g g' : index_wf s -> incl cols cols' ->
  calculate_granularity cols s = Ok (Some g) -> calculate_granularity cols' s = Ok (Some g') ->
  (g = g' <-> forall r r', defined s r -> defined s r' -> (same_block s cols r r' <-> same_block s cols' r r')).
Proof.
  intros W I E E'. apply granularity_some in E, E'. destruct E as (_ & _ & Hd & ->), E' as (_ & _ & _ & ->).
  exact (per_record_eq s W Hd cols cols' I).
Qed.
Print Assumptions C04_equal.

(** All columns together reach the upper bound; any columns that reach it tell the records apart. *)
Theorem C04_whole cols s g g' : index_wf s ->
  calculate_granularity (d_labels s) s = Ok (Some g) -> calculate_granularity cols s = Ok (Some g') ->
  g' <= g /\ (g' = g <-> forall r r', defined s r -> defined s r' -> same_block s cols r r' -> r = r').
Proof.
  intros W E E'. apply granularity_some in E, E'. destruct E as (_ & _ & Hd & ->), E' as (_ & Hi & _ & ->).
  split; [exact (per_record_mono s W Hd cols _ Hi)|].
  assert (M : per_record s (d_labels s) = log2 (INR (length (D s)))) by (apply per_record_max; auto; intros; now apply (whole_separates s)).
  rewrite M. exact (per_record_max s W Hd cols).
Qed.
Print Assumptions C04_whole.
(** It is zero exactly if there is one block. *)
Theorem C04_zero cols s g : index_wf s -> calculate_granularity cols s = Ok (Some g) ->
  (g = 0 <-> forall r r', defined s r -> defined s r' -> same_block s cols r r').
Proof. intros W E. apply granularity_some in E. destruct E as (_ & _ & Hd & ->). exact (per_record_min s W Hd cols). Qed.
Print Assumptions C04_zero.

(** At the finest level of a space at most one record other than the undefined one matches a
    location, provided that the stored granularities are ordered like the granularities. *)
Theorem C04_finest s labels i j : space_ok s -> stored_order s -> length labels = length (d_labels (s_db s)) ->
  In (map (fun _ => true) (d_labels (s_db s))) (d_structs (s_db s)) ->
  finest s labels -> matches s labels i -> matches s labels j -> i <> 0%Z -> j <> 0%Z -> i = j.
Proof. exact (finest_unique s labels i j). Qed.
Print Assumptions C04_finest.

(** *** C05 *)

(** Both computations agree for every space that was built by its operations. *)
Theorem C05_agree cols s : index_wf s -> optimized_granularity cols s = calculate_granularity cols s.
Proof. exact (optimized_eq cols s). Qed.
Print Assumptions C05_agree.
Theorem C05_reached cols ops : optimized_granularity cols (run ops fresh) = calculate_granularity cols (run ops fresh).
Proof. exact (optimized_eq cols _ (i_index _ (run_inv ops))). Qed.
Print Assumptions C05_reached.

(** *** A case: three records, of which two share their first label *)

Definition ops3 : list op :=
  [ OAddColumns [txt "A"; txt "B"];
    OInsertIndex None [] PAbort PAbort
      [ {| ir_id := None; ir_labels := [txt "a"; txt "x"]; ir_cells := [] |};
        {| ir_id := None; ir_labels := [txt "a"; txt "y"]; ir_cells := [] |};
        {| ir_id := None; ir_labels := [txt "b"; txt "x"]; ir_cells := [] |} ] ].
Definition s3 : db :=
  {| d_fk := true; d_labels := [txt "A"; txt "B"];
     d_index := [ {| ix_id := 0; ix_labels := [txt "-"; txt "-"] |}; {| ix_id := 1; ix_labels := [txt "a"; txt "x"] |};
                  {| ix_id := 2; ix_labels := [txt "a"; txt "y"] |}; {| ix_id := 3; ix_labels := [txt "b"; txt "x"] |} ];
     d_seq := 3; d_structs := []; d_groups := []; d_weights := []; d_links := []; d_maps := [];
     d_hash := [0; 1; 2; 3]%Z; d_default := None |}.
Example C04_case : index_wf s3 /\
  calculate_granularity [txt "A"] s3 = Ok (Some (log2 3 - 2 / 3)) /\
  calculate_granularity [txt "A"; txt "B"] s3 = Ok (Some (log2 3)) /\ log2 3 - 2 / 3 < log2 3.
Proof.
  assert (E : s3 = set_structs [] (run ops3 fresh)) by (vm_compute; reflexivity).
  assert (Hl : log2 2 = 1) by (unfold log2; field; pose proof ln2_pos; lra).
  assert (W : index_wf s3).
  { rewrite E. pose proof (i_index _ (run_inv ops3)) as W. destruct W; constructor; auto. }
  split; [exact W|]. split; [|split; [|lra]].
  - unfold calculate_granularity. 
    assert (Ec : cardinality s3 = 3%nat) by reflexivity. rewrite Ec.
    replace (find_distinct_labels [txt "A"] s3) with [[Some (txt "a")]; [Some (txt "b")]] by (vm_compute; reflexivity).
    cbn [Nat.eqb]. replace (negb _) with false by (vm_compute; reflexivity). cbn [fold_left].
    replace (length (filter_index_ids_by_label (combine [txt "A"] [Some (txt "a")]) s3)) with 2%nat by (vm_compute; reflexivity).
    replace (length (filter_index_ids_by_label (combine [txt "A"] [Some (txt "b")]) s3)) with 1%nat by (vm_compute; reflexivity).
    do 2 f_equal. replace (INR 3) with 3 by (cbn; lra). replace (INR 2) with 2 by (cbn; lra). replace (INR 1) with 1 by (cbn; lra).
    rewrite Hl, log2_1. field.
  - assert (Hn : D s3 <> []) by (vm_compute; discriminate). rewrite granularity_eq; auto; [|discriminate|apply incl_refl].
    do 2 f_equal. change [txt "A"; txt "B"] with (d_labels s3). rewrite (proj2 (per_record_max s3 W Hn (d_labels s3))).
    + replace (INR (length (D s3))) with 3 by (vm_compute; lra). reflexivity.
    + intros r r' Hr Hr'. now apply whole_separates.
Qed.
(** The reverse order of columns gives the same. *)
Example C05_case : exists g, optimized_granularity [txt "B"; txt "A"] s3 = Ok (Some g) /\ g = log2 3.
Proof.
  destruct C04_case as (W & _ & E & _). rewrite (C05_agree _ s3 W).
  destruct (proj2 (C04_defined [txt "B"; txt "A"] s3)) as (g & Eg).
  - split; [discriminate|]. split; [intros c [<-|[<-|[]]]; cbn; auto|]. exists {| ix_id := 1; ix_labels := [txt "a"; txt "x"] |}. split; [cbn; auto|discriminate].
  - exists g. split; [exact Eg|]. apply Rle_antisym.
    + apply (C04_monotone [txt "B"; txt "A"] [txt "A"; txt "B"] s3); auto. intros c [<-|[<-|[]]]; cbn; auto.
    + apply (C04_monotone [txt "A"; txt "B"] [txt "B"; txt "A"] s3); auto. intros c [<-|[<-|[]]]; cbn; auto.
Qed.

(** The space of SpaceRead_Properties meets the conditions of C04_finest. *)
Lemma granularity_ext cols s s' : d_labels s = d_labels s' -> d_index s = d_index s' ->
  calculate_granularity cols s = calculate_granularity cols s'.
Proof.
  intros E1 E2. unfold calculate_granularity, cardinality, find_distinct_labels, filter_index_ids_by_label, key. rewrite E1, E2. reflexivity.
Qed.
Example C04_finest_case : let s := qrun hist fresh_store in
  space_ok s /\ stored_order s /\ In (map (fun _ => true) (d_labels (s_db s))) (d_structs (s_db s)) /\
  finest s (map txt ["b"; "x"]%string) /\ matches s (map txt ["b"; "x"]%string) 3%Z.
Proof.
  cbv zeta. pose proof C16_case_ok as OK.
  assert (E1 : d_labels (s_db (qrun hist fresh_store)) = d_labels s3) by (vm_compute; reflexivity).
  assert (E2 : d_index (s_db (qrun hist fresh_store)) = d_index s3) by (vm_compute; reflexivity).
  assert (E3 : d_structs (s_db (qrun hist fresh_store)) = [[false; false]; [true; false]; [true; true]]) by (vm_compute; reflexivity).
  assert (E4 : s_gran (qrun hist fresh_store) = gran2) by (vm_compute; reflexivity).
  revert OK E1 E2 E3 E4. generalize (qrun hist fresh_store) as s. intros s OK E1 E2 E3 E4.
  destruct C04_case as (W & G1 & G2 & Lt).
  assert (G : forall b, structure_granularity b (s_db s) = calculate_granularity (compress [txt "A"; txt "B"] b) s3).
  { intros b. unfold structure_granularity. rewrite E1. apply granularity_ext; auto. }
  split; [exact OK|]. split; [|split; [|split]].
  - intros b b' Hb Hb'. rewrite E3 in Hb, Hb'. rewrite !G, E4.
    destruct Hb as [<-|[<-|[<-|[]]]]; cbn [compress gran2]; rewrite ?G1, ?G2;
      (split; [split; [discriminate|discriminate] || (split; reflexivity)|]); intros q q' g g' Eq Eq' Eg Eg'; try discriminate Eq; injection Eq as <-; injection Eg as <-;
      destruct Hb' as [<-|[<-|[<-|[]]]]; cbn [compress gran2] in Eq', Eg'; rewrite ?G1, ?G2 in Eg'; try discriminate Eq'; injection Eq' as <-; injection Eg' as <-.
    + split; intros; [lra|easy].
    + split; intros; [lra|easy].
    + split; intros H; [exfalso; revert H; now compute|lra].
    + split; intros; [lra|easy].
  - rewrite E1, E3. cbn. auto.
  - exists [true; true]. rewrite E3. split; [cbn; auto|]. split; [now intros i|]. intros b Hb. rewrite E4. destruct Hb as [<-|[<-|[<-|[]]]]; cbn; easy.
  - exists {| ix_id := 3; ix_labels := map txt ["b"; "x"]%string |}. rewrite E2. split; [cbn; auto|]. split; [reflexivity|].
    intros n v w Hv Hw _. cbn [ix_labels] in Hw. congruence.
Qed.
