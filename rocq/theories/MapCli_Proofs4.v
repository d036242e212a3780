(** Proofs for C58: the rows of the table. *)
From Coq Require Import NArith ZifyBool ZifyN ZifyNat Lia Lqa.
From Verif Require Import Prelude QLemmas BitFlags_Model BitFlags_Proofs Selectors_Model Selectors_Proofs LinkRef_Model Db_Model Db_Spec Db_Proofs Db_ProofsLocal
  Mapper_Model Mapper_Spec Streams_Model Streams_Spec Streams_Proofs Streams_Proofs3 Streams_Proofs4 EdgeText_Model IndexCli_Model IndexCli_Spec
  MapCli_Model MapCli_Spec MapCli_Proofs.
Local Open Scope nat_scope.

Definition source_of (nm : Z * mapping_row) : source :=
  {| sr_run := fst nm; sr_1 := side1 (snd nm); sr_2 := side2 (snd nm); sr_value := Some (worth (snd nm)) |}.
Definition sources (data : list mapping_row) : list source := map source_of (numbered data).

Lemma numbered_snoc {A} (l : list A) x : numbered (l ++ [x]) = numbered l ++ [((Z.of_nat (length l) + 1)%Z, x)].
Proof.
  unfold numbered. rewrite app_length. cbn [length]. rewrite seq_app, map_app. cbn [seq map]. rewrite Nat.add_0_l.
  assert (E : length (map (fun n => (Z.of_nat n + 1)%Z) (seq 0 (length l))) = length l) by now rewrite map_length, seq_length.
  revert E. generalize (map (fun n => (Z.of_nat n + 1)%Z) (seq 0 (length l))) as a. generalize (Z.of_nat (length l) + 1)%Z as z. intros z a. revert a.
  induction l as [|y l IH]; intros [|b a] E; cbn in *; try discriminate; [reflexivity|]. f_equal. apply IH. lia.
Qed.
Lemma sources_snoc data m : sources (data ++ [m]) = sources data ++ [source_of ((Z.of_nat (length data) + 1)%Z, m)].
Proof. unfold sources. now rewrite numbered_snoc, map_app. Qed.
Lemma sources_length data : length (sources data) = length data.
Proof. unfold sources, numbered. rewrite map_length, combine_length, map_length, seq_length. lia. Qed.

Lemma level_known s lv : existsb (bytes_eqb lv) (map level_of (d_structs s)) = true <-> exists b, In b (d_structs s) /\ lv = level_of b.
Proof.
  rewrite existsb_exists. split.
  - intros (x & Hx & E). apply in_map_iff in Hx. destruct Hx as (b & <- & Hb). apply bytes_eqb_iff in E. eauto.
  - intros (b & Hb & ->). exists (level_of b). split; [now apply in_map|now apply bytes_eqb_iff].
Qed.
Lemma load_cells_iff x1 x2 acc m src : load_cells (sp_db x1) (sp_db x2) acc m = Ok src <->
  loadable x1 x2 m /\ src = acc ++ [source_of ((Z.of_nat (length acc) + 1)%Z, m)].
Proof.
  unfold load_cells, loadable. fold (value_text m). destruct (sqlite_real (value_text m)) as [q b] eqn:E.
  destruct (real_spec _ _ _ E) as (_ & B & V). cbv zeta. cbn [sd_level]. fold (side1 m) (side2 m). change (bf_to_bytes (mr_level1 m)) with (sd_level (side1 m)). change (bf_to_bytes (mr_level2 m)) with (sd_level (side2 m)).
  rewrite <- !level_known.
  destruct (existsb (bytes_eqb (sd_level (side1 m))) _); cbn [negb]; [|split; [discriminate|intros ((? & _) & _); discriminate]].
  destruct (existsb (bytes_eqb (sd_level (side2 m))) _); cbn [negb]; [|split; [discriminate|intros ((_ & ? & _) & _); discriminate]].
  assert (S : {| sr_run := (Z.of_nat (length acc) + 1)%Z; sr_1 := side1 m; sr_2 := side2 m; sr_value := Some q |} = source_of ((Z.of_nat (length acc) + 1)%Z, m))
    by (unfold source_of, worth; cbn [fst snd]; now rewrite E).
  rewrite S. assert (P : (forall q', is_number (value_text m) q' -> (0 <= q')%Q) <-> b && negb (Qle_bool 0 q) = false).
  { destruct b; cbn [andb].
    - destruct (proj1 B eq_refl) as (q' & Hq). rewrite negb_false_iff, Qle_bool_iff. split.
      + intros H. rewrite <- (V q' Hq). exact (H q' Hq).
      + intros H q2 H2. now rewrite (V q2 H2).
    - split; [reflexivity|]. intros _ q' Hq. assert (false = true) by (apply B; eauto). discriminate. }
  destruct (b && negb (Qle_bool 0 q)).
  - split; [discriminate|]. intros ((_ & _ & H) & _). apply P in H. discriminate.
  - split.
    + intros H. inversion H; subst. split; [|reflexivity]. split; [reflexivity|]. split; [reflexivity|]. now apply P.
    + intros (_ & ->). reflexivity.
Qed.

Lemma load_stream_rows x1 x2 (f : row -> res mapping_row) rows : forall acc src,
  load_stream (sp_db x1) (sp_db x2) (sources acc) (smap f (chain (map RSeq rows) Stop)) = Ok src <->
  exists data, Forall2 (fun l m => f (RSeq l) = Ok m) rows data /\ Forall (loadable x1 x2) data /\ src = sources (acc ++ data).
Proof.
  induction rows as [|l rows IH]; intros acc src.
  - cbn. split.
    + intros H. inversion H; subst. exists []. rewrite app_nil_r. repeat split; constructor.
    + intros (data & F & _ & ->). inversion F; subst. now rewrite app_nil_r.
  - cbn [map chain smap]. destruct (f (RSeq l)) as [m|e] eqn:E; cbn [load_stream].
    + split.
      * intros H. apply bind_ok in H. destruct H as (acc' & H1 & H). apply load_cells_iff in H1. destruct H1 as (Lm & ->).
        rewrite sources_length, <- sources_snoc in H. apply IH in H. destruct H as (data & F & L & ->).
        exists (m :: data). rewrite <- app_assoc. repeat split; constructor; auto.
      * intros (data & F & L & ->). inversion F as [|? m' ? data' E' F']; subst. rewrite E in E'. inversion E'; subst m'. inversion L as [|? ? Lm L']; subst.
        rewrite (proj2 (load_cells_iff x1 x2 (sources acc) m _) (conj Lm eq_refl)). cbn [bind]. rewrite sources_length, <- sources_snoc. apply IH.
        exists data'. rewrite <- app_assoc. auto.
    + split; [discriminate|]. intros (data & F & _). inversion F as [|? m' ? data' E' F']; subst. congruence.
Qed.

Lemma nodup_has_duplicates l : NoDup l <-> has_duplicates l = false.
Proof.
  split; [|apply has_duplicates_false]. induction 1 as [|c l N D IH]; [reflexivity|]. cbn. rewrite IH, orb_false_r.
  apply not_true_iff_false. rewrite existsb_exists. intros (x & Hx & E). apply cell_eqb_eq in E. now subst.
Qed.

(** Which source rows the command gets. *)
Lemma sources_iff todecimal name x1 x2 header rows src :
  (exists st, normalize_mapping_data todecimal shorthand_name (node_of x1) (node_of x2) name (DReader (reader_of (header :: rows))) true None = Ok st /\
     load_stream (sp_db x1) (sp_db x2) [] st = Ok src) <->
  exists data, understood todecimal name x1 x2 header rows data /\ Forall (loadable x1 x2) data /\ src = sources data.
Proof.
  unfold normalize_mapping_data.
  destruct (tabular_sequences (DReader (reader_of (header :: rows))) None _ header (chain (map RSeq rows) Stop) eq_refl eq_refl) as [T _]. rewrite T by auto. clear T. cbn [bind].
  unfold understood.
  destruct (get_column_positions todecimal shorthand_name (node_of x1) (node_of x2) name (chain (map RSeq rows) Stop) true header) as [[p s]|e] eqn:G; cbn [bind].
  2:{ split; [intros (st & H & _); discriminate|intros (data & (p & s & H & _) & _); discriminate]. }
  assert (s = chain (map RSeq rows) Stop) by (eapply gcp_returns; exact G). subst s.
  assert (Rd : reads (chain (map RSeq rows) Stop) (map RSeq rows) None) by (rewrite <- (app_nil_r (map RSeq rows)) at 2; apply reads_chain; constructor).
  destruct (gcp_layout _ _ _ _ _ _ _ _ _ _ _ _ G Rd) as (_ & _ & _ & _ & _ & _ & _ & _ & _ & S1 & S2).
  destruct (location_indexes header (n_index_columns (node_of x1)) (p_start1 p) (p_stop1 p)) as [ix1|e] eqn:I1; cbn [bind].
  2:{ unfold location_indexes in I1. destruct (has_duplicates (slice (p_start1 p) (p_stop1 p) header)) eqn:D; [|discriminate]. split; [intros (st & H & _); discriminate|].
      intros (data & (p' & s & E & N & _) & _). inversion E; subst p'. apply nodup_has_duplicates in N. congruence. }
  destruct (location_indexes header (n_index_columns (node_of x2)) (p_start2 p) (p_stop2 p)) as [ix2|e] eqn:I2; cbn [bind].
  2:{ unfold location_indexes in I2. destruct (has_duplicates (slice (p_start2 p) (p_stop2 p) header)) eqn:D; [|discriminate]. split; [intros (st & H & _); discriminate|].
      intros (data & (p' & s & E & _ & N & _) & _). inversion E; subst p'. apply nodup_has_duplicates in N. congruence. }
  assert (N1 : NoDup (slice (p_start1 p) (p_stop1 p) header)).
  { apply nodup_has_duplicates. unfold location_indexes in I1. destruct (has_duplicates _); [discriminate|reflexivity]. }
  assert (N2 : NoDup (slice (p_start2 p) (p_stop2 p) header)).
  { apply nodup_has_duplicates. unfold location_indexes in I2. destruct (has_duplicates _); [discriminate|reflexivity]. }
  pose proof (mapping_row_spec todecimal shorthand_name (node_of x1) (node_of x2) header p ix1 ix2 S1 S2 I1 I2) as M.
  set (f := mapping_row_of todecimal (node_of x1) (node_of x2) p ix1 ix2) in *.
  pose proof (load_stream_rows x1 x2 f rows []) as L. cbn [app] in L. change (sources []) with (@nil source) in L.
  pose proof (eagerly_same (smap f (chain (map RSeq rows) Stop))) as Ea.
  assert (FF : forall rs data, Forall2 (fun l m => f (RSeq l) = Ok m) rs data <-> Forall2 (fun l => mapping_row_for todecimal (node_of x1) (node_of x2) header p (RSeq l)) rs data).
  { clear - M. intros rs data. split; intros F; induction F; constructor; auto; now apply M. }
  destruct (eagerly_initialize (smap f (chain (map RSeq rows) Stop))) as [st|e].
  - subst st. split.
    + intros (st & E & H). inversion E; subst st. apply L in H. destruct H as (data & F & Ld & ->). exists data. split; [|auto].
      exists p, (chain (map RSeq rows) Stop). split; [reflexivity|]. split; [exact N1|]. split; [exact N2|]. now apply FF.
    + intros (data & (p' & s & E & _ & _ & F) & Ld & ->). inversion E; subst p'. eexists. split; [reflexivity|]. apply L. exists data. split; [now apply FF|]. auto.
  - split; [intros (st & E & _); discriminate|]. intros (data & (p' & s & E & _ & _ & F) & Ld & ->). exfalso. inversion E; subst p'.
    assert (H : load_stream (sp_db x1) (sp_db x2) [] (smap f (chain (map RSeq rows) Stop)) = Ok (sources data)) by (apply L; exists data; split; [now apply FF|auto]).
    rewrite Ea in H. discriminate.
Qed.

Lemma build_iff todecimal o x1 x2 header rows rr lr :
  build_mappings todecimal o x1 x2 (reader_of (header :: rows)) = Ok (rr, lr) <->
  exists data l1 c1 l2 c2, understood todecimal (o_link o) x1 x2 header rows data /\ Forall (loadable x1 x2) data /\
    match_records (sp_gran x1) (sp_db x1) (o_limit o) (o_overlapping o) (side_1 (sources data)) [] = Ok (l1, c1) /\
    match_records (sp_gran x2) (sp_db x2) (o_limit o) (o_overlapping o) (side_2 (sources data)) [] = Ok (l2, c2) /\
    (o_incomplete o = true \/ is_fully_matched (sp_db x1) (sp_db x2) l1 l2 = true) /\
    rr = to_rows (iter_mappings (sources data) l1 l2) /\ lr = to_rows (iter_mappings (sources data) l2 l1).
Proof.
  unfold build_mappings. split.
  - intros H. apply bind_ok in H. destruct H as (st & N & H). apply bind_ok in H. destruct H as (src & L & H).
    destruct (proj1 (sources_iff todecimal (o_link o) x1 x2 header rows src) (ex_intro _ st (conj N L))) as (data & U & Ld & ->).
    apply bind_ok in H. destruct H as ((l1 & c1) & M1 & H). apply bind_ok in H. destruct H as ((l2 & c2) & M2 & H).
    destruct (negb (o_incomplete o) && _) eqn:C; [discriminate|]. inversion H; subst. exists data, l1, c1, l2, c2. repeat split; auto.
    destruct (o_incomplete o); [now left|right]. cbn in C. now apply negb_false_iff in C.
  - intros (data & l1 & c1 & l2 & c2 & U & Ld & M1 & M2 & C & -> & ->).
    destruct (proj2 (sources_iff todecimal (o_link o) x1 x2 header rows (sources data)) (ex_intro _ data (conj U (conj Ld eq_refl)))) as (st & N & L).
    rewrite N. cbn [bind]. rewrite L. cbn [bind]. rewrite M1. cbn [bind]. rewrite M2. cbn [bind].
    destruct C as [-> | ->]; cbn; [reflexivity|]. now rewrite andb_false_r.
Qed.
