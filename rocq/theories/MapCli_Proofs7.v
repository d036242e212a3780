(** Proofs for C58: when the command succeeds. *)
From Coq Require Import NArith ZifyBool ZifyN ZifyNat Lia Lqa.
From Verif Require Import Prelude QLemmas BitFlags_Model BitFlags_Spec BitFlags_Proofs Selectors_Model Selectors_Proofs LinkRef_Model Db_Model Db_Spec Db_Proofs Db_ProofsLocal Db_ProofsRun
  Reader_Model Reader_Spec Reader_Proofs Mapper_Model Mapper_Spec Mapper_Proofs3 Mapper_Proofs4 Mapper_Properties Streams_Model Streams_Spec Streams_Proofs Streams_Proofs2 Streams_Proofs3 Streams_Proofs4 EdgeText_Model IndexCli_Model IndexCli_Spec
  MapCli_Model MapCli_Spec MapCli_Proofs MapCli_Proofs2 MapCli_Proofs3 MapCli_Proofs4 MapCli_Proofs5 MapCli_Proofs6.
Local Open Scope nat_scope.

(** The rows are understood in one way. *)
Lemma understood_fun todecimal name x1 x2 header rows data data' :
  understood todecimal name x1 x2 header rows data -> understood todecimal name x1 x2 header rows data' -> data = data'.
Proof.
  intros (p & s & G & N1 & N2 & F) (p' & s' & G' & _ & _ & F'). rewrite G in G'. inversion G'; subst p' s'.
  assert (Rd : reads (chain (map RSeq rows) Stop) (map RSeq rows) None) by (rewrite <- (app_nil_r (map RSeq rows)) at 2; apply reads_chain; constructor).
  destruct (gcp_layout _ _ _ _ _ _ _ _ _ _ _ _ G Rd) as (_ & _ & _ & _ & _ & _ & _ & _ & _ & S1 & S2).
  apply nodup_has_duplicates in N1. apply nodup_has_duplicates in N2.
  destruct (location_indexes header (n_index_columns (node_of x1)) (p_start1 p) (p_stop1 p)) as [ix1|e] eqn:I1; [|unfold location_indexes in I1; rewrite N1 in I1; discriminate].
  destruct (location_indexes header (n_index_columns (node_of x2)) (p_start2 p) (p_stop2 p)) as [ix2|e] eqn:I2; [|unfold location_indexes in I2; rewrite N2 in I2; discriminate].
  pose proof (mapping_row_spec todecimal shorthand_name (node_of x1) (node_of x2) header p ix1 ix2 S1 S2 I1 I2) as M.
  clear - F F' M. revert data' F'. induction F as [|l m rows data H F IH]; intros data' F'; inversion F'; subst; [reflexivity|]. f_equal; [|now apply IH].
  apply M in H. match goal with X : mapping_row_for _ _ _ _ _ _ _ |- _ => apply M in X; rewrite H in X; now inversion X end.
Qed.

Lemma valued_load x1 x2 data : Forall (loadable x1 x2) data -> Forall (fun m => 0 <= worth m)%Q data ->
  load_mapper (sp_db x1) (sp_db x2) (map (fun m => (side1 m, side2 m, Some (worth m))) data) = Ok (sources data).
Proof.
  intros L W. unfold load_mapper. assert (H : forall acc, fold_res (load_row (sp_db x1) (sp_db x2)) (map (fun m => (side1 m, side2 m, Some (worth m))) data) (sources acc) = Ok (sources (acc ++ data))).
  { induction data as [|m data IH]; intros acc; [cbn; now rewrite app_nil_r|]. inversion L; subst. inversion W; subst. cbn [map fold_res].
    unfold load_row at 1. destruct H1 as (A & B & _). 
    rewrite (proj2 (level_known (sp_db x1) _) A), (proj2 (level_known (sp_db x2) _) B). cbn [negb].
    replace (Qle_bool 0 (worth m)) with true by (symmetry; now apply Qle_bool_iff). cbn [negb bind].
    rewrite sources_length. change {| sr_run := Z.of_nat (length acc) + 1; sr_1 := side1 m; sr_2 := side2 m; sr_value := Some (worth m) |} with (source_of ((Z.of_nat (length acc) + 1)%Z, m)).
    rewrite <- sources_snoc. rewrite IH by assumption. now rewrite <- app_assoc. }
  exact (H []).
Qed.

Lemma match_ok s gran limit allow es : matchable s -> exists l c, match_records gran s limit allow es [] = Ok (l, c).
Proof.
  intros [(g & D & x & Hx & Ex) _ _ _]. unfold match_records, get_default_weight_group. rewrite D.
  replace (existsb (fun g0 => (g_id g0 =? g)%Z) (d_groups s)) with true by (symmetry; apply existsb_exists; exists x; split; [exact Hx|lia]).
  cbn [bind]. eauto.
Qed.

Lemma fk_ok_iff s : fk_ok s = true <-> (forall w, In w (d_weights s) -> has_index s (w_index w)) /\ (forall m, In m (d_maps s) -> has_index s (m_index m)).
Proof.
  unfold fk_ok, has_index. rewrite andb_true_iff, !forallb_forall. split.
  - intros [A B]. split; intros x Hx; [specialize (A x Hx)|specialize (B x Hx)]; [apply existsb_exists in A|apply existsb_exists in B].
    + destruct A as (r & Hr & E). exists r. split; [exact Hr|lia].
    + destruct B as (r & Hr & E). exists r. split; [exact Hr|lia].
  - intros [A B]. split; intros x Hx; apply existsb_exists; [destruct (A x Hx) as (r & Hr & E)|destruct (B x Hx) as (r & Hr & E)]; exists r; (split; [exact Hr|lia]).
Qed.

(** One direction. *)
Lemma load_succeeds o from into data src_hits trg_hits ops : sp_db into = run ops fresh ->
  forall s', insert_mappings2 (sp_id from) (Some (o_link o)) (to_rows (iter_mappings (sources data) src_hits trg_hits)) (sp_db into) = Ok s' ->
  (forall h, In h trg_hits -> has_index (sp_db into) (h_index h)) -> references (sp_db into) ->
  exists m, load_into o from into (to_rows (iter_mappings (sources data) src_hits trg_hits)) = (s', Ok m).
Proof.
  intros S s' H Hh Rf. unfold load_into, transact. rewrite H.
  destruct (load_effect _ _ _ _ _ H) as (k & k' & _ & Hk' & _ & V & _ & Ei & _ & _ & _ & Ew & Ef).
  { intros a b lv q Hi. apply iter_defined in Hi. apply Hi. }
  assert (F : d_fk s' && negb (fk_ok s') = false).
  { destruct (d_fk s') eqn:Fk; [|reflexivity]. cbn [andb]. apply negb_false_iff. symmetry in Ef. destruct (Rf Ef) as [Wr Mr]. apply fk_ok_iff. rewrite Ew. unfold has_index. rewrite Ei. split.
    - intros w Hw. exact (wr_index _ Wr w Hw).
    - intros m Hm. assert (X : valued s' (m_link m) (m_other m) (m_index m) (m_level m) (m_value m)) by (exists m; auto 10).
      apply V in X. destruct X as [(m' & Hm' & _ & _ & <- & _)|(_ & Hi & _)]; [exact (mr_ref_index _ Mr m' Hm')|].
      apply iter_defined in Hi. destruct Hi as (_ & _ & x & y & _ & _ & Hy & _ & _ & _ & <- & _). exact (Hh y Hy). }
  rewrite F, Hk'. cbn [bind]. eauto.
Qed.

Section Succeeds.
Context (todecimal : N -> option N) (o : options) (x1 x2 : space) (header : list cell) (rows : list (list cell)) (ops1 ops2 : list op) (data : list mapping_row).
Context (S1 : sp_db x1 = run ops1 fresh) (S2 : sp_db x2 = run ops2 fresh) (M1 : matchable (sp_db x1)) (M2 : matchable (sp_db x2)).
Context (U : understood todecimal (o_link o) x1 x2 header rows data) (Ld : Forall (loadable x1 x2) data) (W : Forall (fun m => 0 <= worth m)%Q data).

Lemma all_matched l1 l2 : matches o x1 x2 data l1 l2 -> all_by_code x1 x2 data -> is_fully_matched (sp_db x1) (sp_db x2) l1 l2 = true.
Proof.
  intros (c1 & c2 & H1 & H2) (A1 & A2). pose proof (valued_load x1 x2 data Ld W) as V. rewrite Forall_forall in Ld. pose proof (mt_levels _ M1) as L1. pose proof (mt_levels _ M2) as L2.
  rewrite S1 in *. rewrite S2 in *. apply (C21_fully_matched ops1 ops2 (sp_gran x1) (sp_gran x2) (o_limit o) (o_overlapping o) (sources data)).
  { split; eauto. }
  split; intros i Hi; [destruct (A1 i Hi) as (m & Hm & E)|destruct (A2 i Hi) as (m & Hm & E)]; destruct (numbered_in _ _ Hm) as (n & Hn); destruct (Ld m Hm) as (Lv1 & Lv2 & _).
  - rewrite S1 in Lv1. destruct (code_run ops1 _ _ _ _ _ _ L1 (runs1 data) H1 n (side1 m) i) as (h & Hr & Ih & _); auto.
    + rewrite side_1_sources. apply in_map_iff. exists (n, m). auto.
    + exact (proj1 Hi).
    + exists h. split; [|exact Ih]. assert (X : In h (of_run n l1)) by (rewrite Hr; now left). now apply in_run in X.
  - rewrite S2 in Lv2. destruct (code_run ops2 _ _ _ _ _ _ L2 (runs2 data) H2 n (side2 m) i) as (h & Hr & Ih & _); auto.
    + rewrite side_2_sources. apply in_map_iff. exists (n, m). auto.
    + exact (proj1 Hi).
    + exists h. split; [|exact Ih]. assert (X : In h (of_run n l2)) by (rewrite Hr; now left). now apply in_run in X.
Qed.

Lemma succeeds : o_incomplete o = true \/ all_by_code x1 x2 data -> ~ refused o x1 x2 ->
  (forall k, linked (o_link o) x1 x2 k -> o_direction o <> ToLeft -> no_mappings (sp_db x2) k /\ references (sp_db x2)) ->
  (forall k, linked (o_link o) x2 x1 k -> o_direction o <> ToRight -> no_mappings (sp_db x1) k /\ references (sp_db x1)) ->
  r_exit (read_from_stdin todecimal o x1 x2 (reader_of (header :: rows))) = Ok ExitOk.
Proof.
  intros Inc NR HR HL.
  destruct (match_ok (sp_db x1) (sp_gran x1) (o_limit o) (o_overlapping o) (side_1 (sources data)) M1) as (l1 & c1 & H1).
  destruct (match_ok (sp_db x2) (sp_gran x2) (o_limit o) (o_overlapping o) (side_2 (sources data)) M2) as (l2 & c2 & H2).
  assert (M : matches o x1 x2 data l1 l2) by (exists c1, c2; auto).
  assert (B : build_mappings todecimal o x1 x2 (reader_of (header :: rows)) = Ok (to_rows (iter_mappings (sources data) l1 l2), to_rows (iter_mappings (sources data) l2 l1))).
  { apply build_iff. exists data, l1, c1, l2, c2. repeat (split; [assumption|]). split; [|auto]. destruct Inc as [Inc|Inc]; [now left|right]. now apply all_matched. }
  pose proof (valued_load x1 x2 data Ld W) as V.
  assert (Md : mapped (sp_gran x1) (sp_gran x2) (run ops1 fresh) (run ops2 fresh) (o_limit o) (o_overlapping o) (sources data) l1 l2).
  { pose proof (mt_levels _ M1) as L1. pose proof (mt_levels _ M2) as L2. rewrite S1 in *. rewrite S2 in *. split; eauto. }
  assert (Nn : forall r, In r (sources data) -> sr_value r <> None).
  { intros r Hr. unfold sources in Hr. apply in_map_iff in Hr. destruct Hr as (nm & <- & _). discriminate. }
  assert (Hit1 : forall h, In h l1 -> has_index (sp_db x1) (h_index h)).
  { intros h Hh. rewrite S1 in H1 |- *. destruct (C21_sound ops1 _ _ _ _ _ _ h (md_levels1 _ _ _ _ _ _ _ _ _ Md) (runs1 data) H1 Hh) as (d & _ & _ & Rf). exact (proj1 Rf). }
  assert (Hit2 : forall h, In h l2 -> has_index (sp_db x2) (h_index h)).
  { intros h Hh. rewrite S2 in H2 |- *. destruct (C21_sound ops2 _ _ _ _ _ _ h (md_levels2 _ _ _ _ _ _ _ _ _ Md) (runs2 data) H2 Hh) as (d & _ & _ & Rf). exact (proj1 Rf). }
  assert (GoR : asked_right o x1 x2 -> exists s' m, load_into o x1 x2 (to_rows (iter_mappings (sources data) l1 l2)) = (s', Ok m)).
  { intros (D & k & K). destruct (HR k K D) as [Nm Rf]. pose proof K as K'. unfold linked in K'. rewrite S2 in K', Nm.
    destruct (C22_stored ops2 ops1 ops2 _ _ _ _ _ _ _ _ _ _ l1 l2 Md (or_introl (conj eq_refl eq_refl)) Nn K' (get_link_in _ _ _ _ _ K') Nm) as (s' & I & _).
    rewrite <- S2 in I. exists s'. exact (load_succeeds o x1 x2 data l1 l2 ops2 S2 s' I Hit2 Rf). }
  assert (GoL : asked_left o x1 x2 -> exists s' m, load_into o x2 x1 (to_rows (iter_mappings (sources data) l2 l1)) = (s', Ok m)).
  { intros (D & k & K). destruct (HL k K D) as [Nm Rf]. pose proof K as K'. unfold linked in K'. rewrite S1 in K', Nm.
    destruct (C22_stored ops1 ops1 ops2 _ _ _ _ _ _ _ _ _ _ l2 l1 Md (or_intror (conj eq_refl eq_refl)) Nn K' (get_link_in _ _ _ _ _ K') Nm) as (s' & I & _).
    rewrite <- S1 in I. exists s'. exact (load_succeeds o x2 x1 data l2 l1 ops1 S1 s' I Hit1 Rf). }
  destruct (outcome_cases todecimal o x1 x2 (reader_of (header :: rows))) as [(_ & E & _)|(_ & dir & log & _ & _ & _ & [(e & E & _)|(rr & lr & B' & [(e & A & E & _)|(log2 & C2 & [(e & A & E & _)|(log1 & C1 & E & _)])])])].
  - contradiction.
  - congruence.
  - rewrite B in B'. inversion B'; subst rr lr. destruct (GoR A) as (s' & m & E'). congruence.
  - rewrite B in B'. inversion B'; subst rr lr. destruct (GoL A) as (s' & m & E'). congruence.
  - exact E.
Qed.
End Succeeds.
