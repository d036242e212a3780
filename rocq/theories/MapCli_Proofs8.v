(** Proofs for C58: the exported table is read back. *)
From Coq Require Import NArith ZifyBool ZifyN ZifyNat Lia Lqa.
From Verif Require Import Prelude QLemmas BitFlags_Model BitFlags_Spec BitFlags_Proofs Selectors_Model Selectors_Proofs LinkRef_Model LinkRef_Spec IndexCode_Model Db_Model Db_Spec Db_Proofs Db_ProofsLocal Db_ProofsRun
  Reader_Model Reader_Spec Reader_Proofs Mapper_Model Mapper_Spec Mapper_Proofs3 Mapper_Proofs4 Mapper_Properties Streams_Model Streams_Spec Streams_Proofs Streams_Proofs2 Streams_Proofs3 Streams_Proofs4 EdgeText_Model IndexCli_Model IndexCli_Spec
  Elements_Model Elements_Spec Elements_Proofs Elements_Properties
  MapCli_Model MapCli_Spec MapCli_Proofs MapCli_Proofs2 MapCli_Proofs3 MapCli_Proofs4 MapCli_Proofs5 MapCli_Proofs6 MapCli_Proofs7.
Local Open Scope nat_scope.
Local Notation group := Db_Model.group.
Local Notation cell := Streams_Model.cell.
Local Notation row_of := Elements_Spec.row_of.

Lemma worth_shown t q : is_number t q -> (fst (sqlite_real t) == q)%Q.
Proof. intros H. destruct (sqlite_real t) as [x b] eqn:E. apply real_spec in E. destruct E as (_ & _ & E). cbn. symmetry. now apply E. Qed.
Lemma no_code u todecimal : index_code_to_id todecimal [] u = Err ValueError.
Proof. reflexivity. Qed.
Lemma empty_no_number q : ~ is_number [] q.
Proof.
  intros H. destruct (sqlite_real []) as [x b] eqn:E. pose proof E as E'. vm_compute in E'. inversion E'; subst. apply real_spec in E. destruct E as (_ & E & _).
  assert (X : false = true) by (apply E; eauto). discriminate.
Qed.

Lemma in_firstn {A} n (l : list A) x : In x (firstn n l) -> In x l.
Proof. intros I. rewrite <- (firstn_skipn n l). apply in_or_app. now left. Qed.

Lemma cells_under H l start stop : forall labs cells off, length labs = length cells ->
  (forall i, i < length labs -> start <= off + i < stop /\ nth_error H (off + i) = nth_error (map CText labs) i /\ nth_error l (off + i) = nth_error cells i) ->
  Forall2 (label_cell H start stop l) labs cells.
Proof.
  induction labs as [|t labs IH]; intros [|c cells] off L K; try discriminate; constructor.
  - left. exists off. destruct (K 0) as (A & B & C); [cbn; lia|]. rewrite Nat.add_0_r in A, B, C. cbn in B, C. auto.
  - apply (IH cells (S off)); [now injection L|]. intros i Hi. destruct (K (S i)) as (A & B & C); [cbn; lia|]. replace (off + S i) with (S off + i) in A, B, C by lia. cbn in B, C. auto.
Qed.

Section Export.
Context (todecimal : N -> option N) (show : Q -> text) (o : options) (x1 x2 y : space) (ops1 ops2 ops3 : list op) (k : link) (h1 h2 : text) (table : list (list cell)).
Let name := o_link o.
Let src := sp_db x1.
Let trg := sp_db x2.
Context (S1 : src = run ops1 fresh) (S2 : trg = run ops2 fresh) (S3 : sp_db y = run ops3 fresh).
Context (X : export_mapping show name h1 h2 x1 x2 = Ok table).
Context (K : the_link name (sp_id x1) trg k).
Context (Yb : sp_bytes y = sp_bytes x2) (Yl : d_labels (sp_db y) = d_labels trg) (Yi : d_index (sp_db y) = d_index trg).
Context (M1 : matchable src) (M3 : matchable (sp_db y)).
Context (Lv : forall m, of_link k trg m -> m_level m = every_column trg) (Ex : forall m, of_link k trg m -> has_index src (m_other m) /\ has_index trg (m_index m)).
Context (Sh0 : is_number (show 0%Q) 0%Q) (Shm : forall m, of_link k trg m -> is_number (show (m_value m)) (m_value m)).
Context (Lim1 : o_limit o < length (d_index src)) (Lim2 : o_limit o < length (d_index trg)).
Context (C1 : codes_only_at todecimal (sp_bytes x1) 0 (tl table)) (C2 : codes_only_at todecimal (sp_bytes x2) (length (d_labels src) + 2) (tl table)).
Context (Nn : Forall (fun t => ~ names_link shorthand_name name (CText t)) (h1 :: d_labels src)).
Context (Ne : ~ In [] (d_labels trg)).
Context (N1 : NoDup (h1 :: d_labels src)) (N2 : NoDup (h2 :: d_labels trg)).
Let n1 := length (d_labels src).
Let H1 := map CText (h1 :: d_labels src).
Let H2 := map CText (h2 :: d_labels trg).
Let H := H1 ++ CText name :: H2.
Definition part1 (r : out_row) : list cell := opt_cell (r_src_code r) :: map opt_cell (r_src_labels r).
Definition part2 (r : out_row) : list cell := opt_cell (r_trg_code r) :: map opt_cell (r_trg_labels r).
Definition cells (r : out_row) : list cell := part1 r ++ value_cell show (r_value r) :: part2 r.

Lemma src_wf : index_wf src. Proof. rewrite S1. apply (i_index _ (run_inv ops1)). Qed.
Lemma trg_wf : index_wf trg. Proof. rewrite S2. apply (i_index _ (run_inv ops2)). Qed.

Lemma table_parts : exists els outs, table = H :: map cells outs /\ exported k src trg els /\ generate_mapping_elements (Some name) (sp_id x1) src trg = Ok els /\
  Forall2 (row_of src trg (sp_bytes x1) (sp_bytes x2)) els outs.
Proof.
  unfold export_mapping in X. fold src trg in X. apply bind_ok in X. destruct X as (((header & outs) & c) & E & F). apply Ok_inj in F.
  assert (Lt : link_table (d_links trg)) by (rewrite S2; exact (i_links _ (run_inv ops2))).
  destruct (write_spec name (sp_id x1) (sp_bytes x1) (sp_bytes x2) h1 h2 src trg header outs c (iw_unique _ src_wf) Lt) as (k0 & els & full & K0 & Xp & G & Fu & Hd & R & A & _).
  { rewrite S2. exact (i_maps _ (run_inv ops2)). } { exact E. }
  assert (k0 = k) as ->. { apply (pick_link_iff _ _ _ _ Lt) in K0. apply (pick_link_iff _ _ _ _ Lt) in K. congruence. }
  assert (full = true) as ->. { apply Fu. intros m Hm. rewrite (Lv m Hm). unfold whole_level, every_column, level_of. do 2 f_equal. apply map_ext_in. intros [|a t] Ht; [now apply Ne in Ht|reflexivity]. }
  exists els, outs. split; [|auto]. rewrite <- F. f_equal.
  - rewrite Hd. unfold H, H1, H2. rewrite app_nil_r. cbn. rewrite !map_app. reflexivity.
  - clear - A. induction A as [|e r els outs Hr A IH]; [reflexivity|]. cbn [map]. rewrite IH. f_equal. unfold row_to_cells, cells, part1, part2. rewrite Hr, app_nil_r. reflexivity.
Qed.

Lemma labels_len s i l : index_wf s -> labels_of s i l -> length l = length (d_labels s).
Proof.
  intros W L. unfold labels_of in L. destruct i as [i|]; [destruct L as [(r & Hr & _ & ->)|(_ & ->)]|subst l]; rewrite map_length; [now apply (iw_arity _ W)|reflexivity|reflexivity].
Qed.
Lemma row_lens e r : row_of src trg (sp_bytes x1) (sp_bytes x2) e r -> length (part1 r) = S n1 /\ length (part2 r) = S (length (d_labels trg)).
Proof.
  intros (_ & A & _ & B & _). unfold part1, part2. cbn [length]. rewrite !map_length. rewrite (labels_len _ _ _ src_wf A), (labels_len _ _ _ trg_wf B). auto.
Qed.
Lemma H1_len : length H1 = S n1. Proof. unfold H1. now rewrite map_length. Qed.
Lemma H_len : length H = S n1 + 1 + S (length (d_labels trg)). Proof. unfold H. rewrite app_length, H1_len. cbn [length]. unfold H2. rewrite map_length. cbn [length]. lia. Qed.

Lemma nth_part1 r i : length (part1 r) = S n1 -> i < S n1 -> nth_error (cells r) i = nth_error (part1 r) i.
Proof. intros L I. unfold cells. apply nth_error_app1. lia. Qed.
Lemma nth_value r : length (part1 r) = S n1 -> nth_error (cells r) (S n1) = Some (value_cell show (r_value r)).
Proof. intros L. unfold cells. rewrite nth_error_app2 by lia. now replace (S n1 - length (part1 r)) with 0 by lia. Qed.
Lemma nth_part2 r i : length (part1 r) = S n1 -> nth_error (cells r) (n1 + 2 + i) = nth_error (part2 r) i.
Proof. intros L. unfold cells. rewrite nth_error_app2 by lia. now replace (n1 + 2 + i - length (part1 r)) with (S i) by lia. Qed.
Lemma nth_H1 i : i < S n1 -> nth_error H i = nth_error H1 i.
Proof. intros I. unfold H. apply nth_error_app1. rewrite H1_len. lia. Qed.
Lemma nth_H2 i : nth_error H (n1 + 2 + i) = nth_error H2 i.
Proof. unfold H. rewrite nth_error_app2 by (rewrite H1_len; lia). rewrite H1_len. now replace (n1 + 2 + i - S n1) with (S i) by lia. Qed.
Lemma slice1 : slice 0 (S n1) H = H1.
Proof. unfold slice. cbn [skipn]. unfold H. rewrite firstn_app, H1_len. replace (S n1 - 0) with (length H1) by (rewrite H1_len; lia). rewrite firstn_all, H1_len. replace (S n1 - S n1) with 0 by lia. rewrite firstn_O. apply app_nil_r. Qed.
Lemma slice2 : slice (S (S n1)) (length H) H = H2.
Proof.
  unfold slice. assert (E : skipn (S (S n1)) H = H2).
  { unfold H. rewrite skipn_app, H1_len. rewrite (skipn_all2 H1) by (rewrite H1_len; lia). replace (S (S n1) - S n1) with 1 by lia. reflexivity. }
  rewrite E. apply firstn_all2. rewrite H_len. unfold H2. rewrite map_length. cbn [length]. lia.
Qed.
Lemma nodup_text l : NoDup l -> NoDup (map CText l).
Proof. intros Nd. apply FinFun.Injective_map_NoDup; [|exact Nd]. intros a b E. now inversion E. Qed.

Lemma code_cell_row u i c t : code_of u i c -> opt_cell c = CText t ->
  (i = None /\ t = [] /\ index_code_to_id todecimal t u = Err ValueError) \/ (exists z, i = Some z /\ t <> [] /\ index_code_to_id todecimal t u = Ok z).
Proof.
  intros Hc E. unfold code_of in Hc. unfold opt_cell in E. destruct i as [z|], c as [t'|]; try contradiction; inversion E; subst t.
  - right. exists z. split; [reflexivity|]. specialize (Hc todecimal). split; [|exact Hc]. intros ->. rewrite no_code in Hc. discriminate.
  - left. auto.
Qed.

Lemma rows_understood els outs : exported k src trg els -> Forall2 (row_of src trg (sp_bytes x1) (sp_bytes x2)) els outs -> table = H :: map cells outs ->
  exists p, get_column_positions todecimal shorthand_name (node_of x1) (node_of y) name (chain (map RSeq (map cells outs)) Stop) true H = Ok (p, chain (map RSeq (map cells outs)) Stop) /\
    p_value p = S n1 /\ p_index1 p = Some 0 /\ p_index2 p = Some (n1 + 2) /\ p_start1 p = 0 /\ p_stop1 p = S n1 /\ p_start2 p = S (S n1) /\ p_stop2 p = length H.
Proof.
  intros (ms & rs & ls & Ee & _) R T. rewrite T in C1, C2. cbn [tl] in C1, C2. fold n1 in C2.
  set (rows := map RSeq (map cells outs)).
  assert (Rd : reads (chain rows Stop) rows None) by (rewrite <- (app_nil_r rows) at 2; apply reads_chain; constructor).
  assert (Fr : forall r, In r outs -> exists e, In e els /\ row_of src trg (sp_bytes x1) (sp_bytes x2) e r).
  { clear - R. induction R as [|e r els outs Hr R IH]; intros x []; [subst; exists e; split; [now left|exact Hr]|]. destruct (IH x) as (e' & A & B); [assumption|]. exists e'. split; [now right|exact B]. }
  assert (Cz : forall u i c, code_of u i c -> forall t, opt_cell c = CText t -> index_code_to_id todecimal t u <> Err StructError).
  { intros u i c Hc t Et. destruct (code_cell_row u i c t Hc Et) as [(_ & _ & ->)|(z & _ & _ & ->)]; discriminate. }
  assert (Se1 : forall r, In r outs -> searchable todecimal (sp_bytes x1) (RSeq (cells r))).
  { intros r Hr. exists (cells r). split; [reflexivity|]. intros t Ht. apply In_nth_error in Ht. destruct Ht as (j & Hj). destruct (Fr r Hr) as (e & _ & Rw). destruct (row_lens e r Rw) as [L _].
    destruct (Nat.eq_dec j 0) as [->|Nj].
    - rewrite nth_part1 in Hj by (auto; lia). cbn in Hj. apply (Cz _ (el_source e) (r_src_code r)); [apply Rw|now inversion Hj].
    - rewrite (C1 (cells r) j t); [discriminate|now apply in_map|exact Hj|exact Nj]. }
  assert (Se2 : forall r, In r outs -> searchable todecimal (sp_bytes x2) (RSeq (cells r))).
  { intros r Hr. exists (cells r). split; [reflexivity|]. intros t Ht. apply In_nth_error in Ht. destruct Ht as (j & Hj). destruct (Fr r Hr) as (e & _ & Rw). destruct (row_lens e r Rw) as [L _].
    destruct (Nat.eq_dec j (n1 + 2)) as [->|Nj].
    - rewrite <- (Nat.add_0_r (n1 + 2)), nth_part2 in Hj by auto. cbn in Hj. apply (Cz _ (el_target e) (r_trg_code r)); [apply Rw|now inversion Hj].
    - rewrite (C2 (cells r) j t); [discriminate|now apply in_map|exact Hj|exact Nj]. }
  assert (Cl : clean todecimal (node_of x1) (node_of y) rows None).
  { unfold clean. cbn [node_of n_id_bytes]. rewrite Yb. split; [now left|]. split; apply Forall_forall; intros r Hr; apply in_firstn in Hr; unfold rows in Hr; rewrite map_map in Hr; apply in_map_iff in Hr; destruct Hr as (q & <- & Hq); auto. }
  assert (O1 : exists e r els' outs', els = e :: els' /\ outs = r :: outs' /\ e = undefined_pair /\ row_of src trg (sp_bytes x1) (sp_bytes x2) e r).
  { rewrite Ee in R. inversion R as [|e r ? outs' R0 R1]; subst. eauto 10. }
  destruct O1 as (e0 & r0 & els' & outs' & _ & Eo & -> & Rw0). destruct (row_lens _ _ Rw0) as [L0 _].
  assert (G0 : In (RSeq (cells r0)) (Streams_Spec.group 0 rows)) by (unfold Streams_Spec.group, rows; rewrite Eo; cbn; now left).
  assert (In0 : forall l, In (RSeq l) (Streams_Spec.group 0 rows) -> In l (map cells outs)).
  { intros l Hl. unfold Streams_Spec.group in Hl. apply in_firstn in Hl. change (8 * 0) with 0 in Hl. cbn [skipn] in Hl. unfold rows in Hl. apply in_map_iff in Hl. destruct Hl as (l' & E & Hl'). now inversion E; subst. }
  assert (D1 : detection todecimal (n_id_bytes (node_of x1)) rows (Some 0)).
  { exists 0. split; [lia|]. split; [|intros j q J; lia]. cbn [node_of n_id_bytes]. split.
    - exists (cells r0), (opt_cell (r_src_code r0)). split; [exact G0|]. split; [rewrite nth_part1 by (auto; lia); reflexivity|].
      destruct (code_cell_row _ _ _ _ (proj1 Rw0) eq_refl) as [(E & _)|(z & _ & _ & E)]; [discriminate|]. eexists _, z. split; [reflexivity|exact E].
    - intros q (l & c & Hl & Hc & t & i & -> & Ei). destruct (Nat.eq_dec q 0) as [->|Nq]; [reflexivity|]. rewrite (C1 l q t (In0 l Hl) Hc Nq) in Ei. discriminate. }
  assert (D2 : detection todecimal (n_id_bytes (node_of y)) rows (Some (n1 + 2))).
  { exists 0. split; [lia|]. split; [|intros j q J; lia]. cbn [node_of n_id_bytes]. rewrite Yb. split.
    - exists (cells r0), (opt_cell (r_trg_code r0)). split; [exact G0|]. split; [rewrite <- (Nat.add_0_r (n1 + 2)), nth_part2 by auto; reflexivity|].
      destruct (code_cell_row _ _ _ _ (proj1 (proj2 (proj2 Rw0))) eq_refl) as [(E & _)|(z & _ & _ & E)]; [discriminate|]. eexists _, z. split; [reflexivity|exact E].
    - intros q (l & c & Hl & Hc & t & i & -> & Ei). destruct (Nat.eq_dec q (n1 + 2)) as [->|Nq]; [reflexivity|]. rewrite (C2 l q t (In0 l Hl) Hc Nq) in Ei. discriminate. }
  assert (Hc : link_column shorthand_name name H (S n1)).
  { exists H1, (CText name), H2. split; [reflexivity|]. split; [apply H1_len|]. split; [exists name; auto|]. unfold H1. apply Forall_map. exact Nn. }
  destruct (proj2 (gcp_accepts todecimal shorthand_name (node_of x1) (node_of y) name (chain rows Stop) true H rows None (Some 0) (Some (n1 + 2)) Rd Cl
    ltac:(apply Forall_forall; intros c Ic; unfold H, H1, H2 in Ic; apply in_app_or in Ic; destruct Ic as [Ic|[<-|Ic]]; [apply in_map_iff in Ic; destruct Ic as (t & <- & _); eauto|eauto|apply in_map_iff in Ic; destruct Ic as (t & <- & _); eauto]) D1 D2)) as (p & s' & G).
  { exists (S n1). split; [exact Hc|]. cbn. lia. }
  pose proof (gcp_returns _ _ _ _ _ _ _ _ _ _ G) as ->.
  destruct (gcp_layout _ _ _ _ _ _ _ _ _ _ _ _ G Rd) as (Lc & Da & Db & P1 & P2 & _).
  pose proof (link_column_fun _ _ _ _ _ Lc Hc) as Ev. pose proof (detection_fun _ _ _ _ _ Da D1) as E1. pose proof (detection_fun _ _ _ _ _ Db D2) as E2.
  exists p. split; [exact G|]. rewrite Ev, E1, E2 in *. destruct P1 as [P1 _]. destruct P2 as [P2 _].
  destruct (P1 0 eq_refl) as [Q1 _]. destruct (P2 (n1 + 2) eq_refl) as [_ Q2]. destruct Q1 as [? ?]; [lia|]. destruct Q2 as [? ?]; [lia|]. auto 10.
Qed.

Definition level_for (labels : list text) (i : option Z) (loc : list cell) : bitflags :=
  match i with Some _ => of_bits (map (fun _ => true) labels) | None => of_bits (map cell_true loc) end.
Definition mrow (e : element) (r : out_row) : mapping_row :=
  {| mr_id1 := el_source e; mr_loc1 := map opt_cell (r_src_labels r); mr_level1 := level_for (d_labels src) (el_source e) (map opt_cell (r_src_labels r));
     mr_id2 := el_target e; mr_loc2 := map opt_cell (r_trg_labels r); mr_level2 := level_for (d_labels trg) (el_target e) (map opt_cell (r_trg_labels r));
     Streams_Model.mr_value := value_cell show (r_value r) |}.
Definition mrows (els : list element) (outs : list out_row) : list mapping_row := map (fun er => mrow (fst er) (snd er)) (combine els outs).

Lemma row_id_of l p u i c : nth_error l p = Some (opt_cell c) -> code_of u i c -> row_id todecimal u (Some p) l i.
Proof.
  intros E Hc. exists (opt_cell c). split; [exact E|]. destruct (code_cell_row u i c _ Hc eq_refl) as [(-> & Et & _)|(z & -> & Nt & Ei)].
  - left. split; [|reflexivity]. unfold opt_cell. now rewrite Et.
  - right. eexists _, z. split; [reflexivity|]. auto.
Qed.

Lemma table_understood els outs : exported k src trg els -> Forall2 (row_of src trg (sp_bytes x1) (sp_bytes x2)) els outs -> table = H :: map cells outs ->
  understood todecimal name x1 y H (map cells outs) (mrows els outs).
Proof.
  intros Xp R T. destruct (rows_understood els outs Xp R T) as (p & G & Ev & E1 & E2 & A1 & B1 & A2 & B2).
  exists p, (chain (map RSeq (map cells outs)) Stop). split; [exact G|]. rewrite A1, B1, A2, B2, slice1, slice2.
  split; [now apply nodup_text|]. split; [now apply nodup_text|]. clear G Xp T.
  induction R as [|e r els outs Hr R IH]; [constructor|]. unfold mrows. cbn [combine map fst snd]. constructor; [|exact IH].
  destruct (row_lens e r Hr) as [La Lb]. destruct Hr as (K1 & L1 & K2 & L2 & V).
  exists (cells r). split; [reflexivity|]. cbn [node_of n_id_bytes n_index_columns mrow mr_id1 mr_loc1 mr_level1 mr_id2 mr_loc2 mr_level2 Streams_Model.mr_value]. rewrite E1, E2, Ev, A1, B1, A2, B2, Yb, Yl. fold src.
  split; [apply (row_id_of _ _ _ _ (r_src_code r)); [rewrite nth_part1 by (auto; lia); reflexivity|exact K1]|].
  split.
  { apply (cells_under H (cells r) 0 (S n1) (d_labels src) _ 1).
    - rewrite map_length. symmetry. exact (labels_len _ _ _ src_wf L1).
    - intros i Hi. fold n1 in Hi. split; [lia|]. rewrite nth_H1 by lia. rewrite nth_part1 by (auto; lia). auto. }
  split; [destruct (el_source e); reflexivity|].
  split; [apply (row_id_of _ _ _ _ (r_trg_code r)); [rewrite <- (Nat.add_0_r (n1 + 2)), nth_part2 by auto; reflexivity|exact K2]|].
  split.
  { apply (cells_under H (cells r) (S (S n1)) (length H) (d_labels trg) _ (n1 + 3)).
    - rewrite map_length. symmetry. exact (labels_len _ _ _ trg_wf L2).
    - intros i Hi. split; [rewrite H_len; lia|]. replace (n1 + 3 + i) with (n1 + 2 + S i) by lia. rewrite nth_H2, nth_part2 by auto. auto. }
  split; [unfold row_level; cbn [node_of n_index_columns]; rewrite Yl; destruct (el_target e); reflexivity|]. rewrite nth_value by auto. reflexivity.
Qed.

Lemma none_labels s l : labels_of s None l -> map opt_cell l = map (fun _ => CText []) (d_labels s).
Proof. intros ->. rewrite map_map. reflexivity. Qed.
Lemma level_known_for s i loc u (l : list (option text)) c : matchable s -> labels_of s i l -> code_of u i c -> loc = map opt_cell l ->
  exists b, In b (d_structs s) /\ bf_to_bytes (level_for (d_labels s) i loc) = level_of b.
Proof.
  intros M L _ ->. destruct i as [i|]; cbn [level_for].
  - exists (map (fun _ => true) (d_labels s)). split; [exact (mt_all _ M)|reflexivity].
  - exists (map (fun _ => false) (d_labels s)). split; [exact (mt_none _ M)|]. rewrite (none_labels _ _ L), map_map. reflexivity.
Qed.
Lemma labels_y i l : labels_of trg i l -> labels_of (sp_db y) i l.
Proof. unfold labels_of, has_index. rewrite Yi, Yl. auto. Qed.

Definition valid_value (v : option Q) : Prop := match v with Some q => (0 <= q)%Q /\ is_number (show q) q | None => True end.
Lemma values_valid els e : exported k src trg els -> In e els -> valid_value (snd e).
Proof.
  intros (ms & rs & ls & -> & (_ & Ms) & _) [<-|He]; [split; [apply Qle_refl|exact Sh0]|].
  apply in_app_or in He. destruct He as [He|He]; [|apply in_app_or in He; destruct He as [He|He]]; apply in_map_iff in He; destruct He as (m & <- & Hm); cbn; [|exact I|exact I].
  apply Ms in Hm. split; [|now apply Shm]. apply (mw_value trg); [rewrite S2; exact (i_maps _ (run_inv ops2))|exact (proj1 Hm)].
Qed.
Lemma worth_value e r : row_of src trg (sp_bytes x1) (sp_bytes x2) e r -> valid_value (snd e) ->
  (worth (mrow e r) == val (snd e))%Q /\ (forall q, is_number (value_text (mrow e r)) q -> 0 <= q)%Q.
Proof.
  intros (_ & _ & _ & _ & V) Hv. unfold worth, value_text. cbn [mrow Streams_Model.mr_value]. unfold value_cell. rewrite V. destruct (snd e) as [q|]; cbn [code_text val].
  - destruct Hv as [P Nq]. split; [now apply worth_shown|]. intros q' Hq'. apply worth_shown in Hq'. apply worth_shown in Nq. rewrite <- Hq', Nq. exact P.
  - split; [reflexivity|]. intros q Hq. now apply empty_no_number in Hq.
Qed.

Lemma mrows_all (P : element -> mapping_row -> Prop) els outs : Forall2 (row_of src trg (sp_bytes x1) (sp_bytes x2)) els outs ->
  (forall e r, In e els -> row_of src trg (sp_bytes x1) (sp_bytes x2) e r -> P e (mrow e r)) -> Forall2 P els (mrows els outs).
Proof.
  intros R. induction R as [|e r els outs Hr R IH]; intros F; [constructor|]. unfold mrows. cbn [combine map fst snd]. constructor; [apply F; [now left|exact Hr]|].
  apply IH. intros e' r' He. apply F. now right.
Qed.
Lemma forall2_r {A B} (P : A -> B -> Prop) (Q : B -> Prop) l m : Forall2 P l m -> (forall a b, P a b -> Q b) -> Forall Q m.
Proof. intros F K'. induction F; constructor; eauto. Qed.

Lemma table_loadable els outs : exported k src trg els -> Forall2 (row_of src trg (sp_bytes x1) (sp_bytes x2)) els outs ->
  Forall (loadable x1 y) (mrows els outs) /\ Forall (fun m => 0 <= worth m)%Q (mrows els outs).
Proof.
  intros Xp R. split.
  - apply (forall2_r (fun _ m => loadable x1 y m) _ els); [|auto]. apply (mrows_all _ _ _ R). intros e r He Hr. pose proof (worth_value e r Hr (values_valid els e Xp He)) as [_ W].
    destruct Hr as (K1 & L1 & K2 & L2 & V). split; [|split; [|exact W]]; cbn [side1 side2 sd_level mrow mr_level1 mr_level2].
    + exact (level_known_for src _ _ (sp_bytes x1) _ _ M1 L1 K1 eq_refl).
    + rewrite <- Yl. exact (level_known_for (sp_db y) _ _ (sp_bytes x2) _ _ M3 (labels_y _ _ L2) K2 eq_refl).
  - apply (forall2_r (fun _ m => 0 <= worth m)%Q _ els); [|auto]. apply (mrows_all _ _ _ R). intros e r He Hr. pose proof (values_valid els e Xp He) as Vv. pose proof (worth_value e r Hr Vv) as [-> _].
    destruct (snd e); cbn; [apply Vv|apply Qle_refl].
Qed.

Lemma all_records s loc : index_wf s -> o_limit o < length (d_index s) -> (forall t, In t loc -> t = []) ->
  forall lv, matches_nothing (o_limit o) s {| sd_id := None; sd_loc := loc; sd_level := lv |}.
Proof.
  intros W L E lv. split; [reflexivity|]. exists (map ix_id (d_index s)). split; [|rewrite map_length; now right]. split; [exact (iw_unique _ W)|].
  intros i. rewrite in_map_iff. unfold refers, has_index. cbn [sd_id sd_loc]. split.
  - intros (r & <- & Hr). split; [eauto|]. exists r. split; [exact Hr|]. split; [reflexivity|]. intros n v w Hv _ Nv. apply nth_error_In in Hv. now apply E in Hv.
  - intros ((r & Hr & <-) & _). eauto.
Qed.
Lemma empty_loc s l : labels_of s None l -> forall t, In t (map code_text (map opt_cell l)) -> t = [].
Proof. intros L t Ht. rewrite (none_labels _ _ L), map_map in Ht. apply in_map_iff in Ht. destruct Ht as (c & <- & _). reflexivity. Qed.

Lemma table_rows els outs : exported k src trg els -> Forall2 (row_of src trg (sp_bytes x1) (sp_bytes x2)) els outs ->
  Forall (fun m => by_codes x1 y m \/ void (o_limit o) x1 y m) (mrows els outs).
Proof.
  intros (ms & rs & ls & Ee & (_ & Ms) & _) R. apply (forall2_r (fun _ m => by_codes x1 y m \/ void (o_limit o) x1 y m) _ els); [|auto]. apply (mrows_all _ _ _ R). intros e r He (K1 & L1 & K2 & L2 & V).
  assert (Hy : forall i, has_index trg i -> has_index (sp_db y) i) by (unfold has_index; rewrite Yi; auto).
  assert (Z : forall s, index_wf s -> has_index s 0) by (intros s W; exists (undefined_record s); split; [exact (iw_undefined _ W)|reflexivity]).
  rewrite Ee in He. destruct He as [<-|He].
  - left. exists 0%Z, 0%Z. split; [reflexivity|]. split; [reflexivity|]. split; [exact (Z _ src_wf)|exact (Hy _ (Z _ trg_wf))].
  - apply in_app_or in He. destruct He as [He|He]; [|apply in_app_or in He; destruct He as [He|He]]; apply in_map_iff in He; destruct He as (m & <- & Hm).
    + left. apply Ms in Hm. destruct (Ex m Hm) as [E1 E2]. exists (m_other m), (m_index m). split; [reflexivity|]. split; [reflexivity|]. split; [exact E1|now apply Hy].
    + right. left. apply all_records; [exact src_wf|exact Lim1|]. cbn [mrow mr_loc1]. now apply (empty_loc src).
    + right. right. apply all_records; [|unfold trg in Yi; fold trg in Yi; rewrite Yi; exact Lim2|].
      * rewrite S3. apply (i_index _ (run_inv ops3)).
      * cbn [mrow mr_loc2]. now apply (empty_loc trg).
Qed.

Lemma mrows_find els outs : Forall2 (row_of src trg (sp_bytes x1) (sp_bytes x2)) els outs -> forall e, In e els -> exists m, In m (mrows els outs) /\ mr_id1 m = el_source e /\ mr_id2 m = el_target e.
Proof.
  intros R. induction R as [|e r els outs Hr R IH]; intros x []; unfold mrows; cbn [combine map fst snd].
  - subst x. exists (mrow e r). split; [now left|auto].
  - destruct (IH x) as (m & Hm & E); [assumption|]. exists m. split; [now right|exact E].
Qed.
Lemma table_complete els outs : Forall honest ops2 -> generate_mapping_elements (Some name) (sp_id x1) src trg = Ok els -> Forall2 (row_of src trg (sp_bytes x1) (sp_bytes x2)) els outs ->
  all_by_code x1 y (mrows els outs).
Proof.
  intros Ho G R. rewrite S1, S2 in G. pose proof K as K0. rewrite S2 in K0. split; intros i Hi.
  - fold src in Hi. rewrite S1 in Hi. destruct (C45_covers_source ops2 ops1 name (sp_id x1) k els i Ho K0 G Hi) as (e & He & E). destruct (mrows_find els outs R e He) as (m & Hm & E1 & _). exists m. split; [exact Hm|congruence].
  - assert (Hi' : defined (run ops2 fresh) i) by (rewrite <- S2; unfold defined, has_index in *; rewrite Yi in Hi; exact Hi).
    destruct (C45_covers_target ops2 ops1 name (sp_id x1) k els i Ho K0 G Hi') as (e & He & E). destruct (mrows_find els outs R e He) as (m & Hm & _ & E1). exists m. split; [exact Hm|congruence].
Qed.

(** The values given by the table are those of the mappings. *)
Definition egives (a b : Z) (e : element) : bool := match el_source e, el_target e with Some x, Some z => (x =? a)%Z && (z =? b)%Z | _, _ => false end.
Lemma filter_none {A B} (f : A -> B) g l : (forall x, g (f x) = false) -> filter g (map f l) = [].
Proof. intros E. induction l as [|x l IH]; [reflexivity|]. cbn. now rewrite E. Qed.
Lemma filter_map_comm {A B} (f : A -> B) g l : filter g (map f l) = map f (filter (fun x => g (f x)) l).
Proof. induction l as [|x l IH]; [reflexivity|]. cbn. destruct (g (f x)); cbn; now rewrite IH. Qed.
Lemma only_one {A} (l : list A) x : NoDup l -> In x l -> (forall z, In z l -> z = x) -> l = [x].
Proof.
  intros N I E. destruct l as [|a l]; [destruct I|]. assert (a = x) as -> by (apply E; now left). f_equal. destruct l as [|b l]; [reflexivity|].
  assert (b = x) as -> by (apply E; right; now left). inversion N as [|? ? Hn _]. destruct Hn. now left.
Qed.
Lemma gives_sum els outs a b : exported k src trg els -> Forall2 (row_of src trg (sp_bytes x1) (sp_bytes x2)) els outs ->
  (Qsum (map worth (filter (gives a b) (mrows els outs))) == Qsum (map (fun e => val (snd e)) (filter (egives a b) els)))%Q /\
  ((exists m, In m (mrows els outs) /\ gives a b m = true) <-> exists e, In e els /\ egives a b e = true).
Proof.
  intros Xp R. assert (F : Forall2 (fun e m => gives a b m = egives a b e /\ worth m == val (snd e))%Q els (mrows els outs)).
  { apply (mrows_all _ _ _ R). intros e r He Hr. split; [reflexivity|]. exact (proj1 (worth_value e r Hr (values_valid els e Xp He))). }
  clear Xp R. induction F as [|e m els' ms' (G & W) F IH].
  - split; [reflexivity|]. split; intros (x & [] & _).
  - destruct IH as [IHs IHe]. cbn [filter]. rewrite G. split.
    + destruct (egives a b e); [|exact IHs]. cbn [map]. rewrite !Qsum_cons, W, IHs. reflexivity.
    + split.
      * intros (x & [<-|Hx] & Gx); [exists e; split; [now left|congruence]|]. destruct (proj1 IHe) as (e' & He & Ge); [eauto|]. exists e'. split; [now right|exact Ge].
      * intros (x & [<-|Hx] & Gx); [exists m; split; [now left|congruence]|]. destruct (proj2 IHe) as (e' & He & Ge); [eauto|]. exists e'. split; [now right|exact Ge].
Qed.
Lemma table_given els outs a b lv q : exported k src trg els -> Forall2 (row_of src trg (sp_bytes x1) (sp_bytes x2)) els outs ->
  (given (gives a b) (mrows els outs) (every_column trg) a b lv q <-> mapping_in trg k a b lv q /\ ~ (a = 0 /\ b = 0)%Z).
Proof.
  intros Xp R. unfold given. destruct (gives_sum els outs a b Xp R) as [Es Ee]. rewrite Es, Ee. clear Es Ee.
  destruct Xp as (ms & rs & ls & Ee & (Nd & Ms) & _).
  assert (Fe : ~ (a = 0 /\ b = 0)%Z -> filter (egives a b) els = map shown (filter (fun m => (m_other m =? a)%Z && (m_index m =? b)%Z) ms)).
  { intros N. rewrite Ee. cbn [filter]. replace (egives a b undefined_pair) with false by (unfold egives, undefined_pair, el_source, el_target; cbn [fst snd]; lia).
    rewrite !filter_app, (filter_none lone_target), (filter_none lone_source), !app_nil_r by reflexivity. now rewrite filter_map_comm. }
  assert (One : forall m, of_link k trg m -> m_other m = a -> m_index m = b -> filter (fun m => (m_other m =? a)%Z && (m_index m =? b)%Z) ms = [m]).
  { intros m Hm Ea Eb. apply only_one; [now apply NoDup_filter|apply filter_In; split; [now apply Ms|lia]|].
    intros z Hz. apply filter_In in Hz. destruct Hz as [Hz Ez]. cbv beta in Ez. apply Ms in Hz. assert (E1 : m_other z = m_other m) by lia. assert (E2 : m_index z = m_index m) by lia. assert (W : maps_wf trg) by (rewrite S2; exact (i_maps _ (run_inv ops2))).
    apply (nodup_map_inj _ _ z m (mw_unique _ W) (proj1 Hz) (proj1 Hm)). now rewrite (Lv z Hz), (Lv m Hm), (proj2 Hz), (proj2 Hm), E1, E2. }
  split.
  - intros (N & -> & (e & He & Ge) & Q). rewrite (Fe N) in Q. assert (He' : In e (filter (egives a b) els)) by (apply filter_In; auto). rewrite (Fe N) in He'.
    apply in_map_iff in He'. destruct He' as (m & <- & Hm). apply filter_In in Hm. destruct Hm as [Hm E]. apply Ms in Hm.
    rewrite (One m Hm) in Q by lia. cbn in Q. split; [|exact N]. exists m. split; [exact (proj1 Hm)|]. split; [exact (proj2 Hm)|]. split; [lia|]. split; [lia|]. split; [now apply Lv|]. rewrite Q. ring.
  - intros ((m & Hm & Em & Ea & Eb & El & Eq) & N). assert (Hl : of_link k trg m) by (split; assumption).
    split; [exact N|]. split; [rewrite <- El; now apply Lv|]. rewrite (Fe N), (One m Hl Ea Eb). split.
    + exists (shown m). split; [|unfold egives, shown, el_source, el_target; cbn [fst snd]; lia]. rewrite Ee. right. apply in_or_app. left. apply in_map. now apply Ms.
    + cbn. rewrite <- Eq. ring.
Qed.

Lemma round_trip k' : o_direction o = ToRight -> linked name x1 y k' -> no_mappings (sp_db y) k' -> references (sp_db y) -> d_labels trg <> [] ->
  o_incomplete o = true \/ Forall honest ops2 ->
  let R := read_from_stdin todecimal o x1 y (reader_of table) in
  r_exit R = Ok ExitOk /\ r_1 R = src /\ loads k' (fun a b lv q => mapping_in trg k a b lv q /\ ~ (a = 0 /\ b = 0)%Z) (sp_db y) (r_2 R).
Proof.
  intros Dr Lk Nm Rf Nl Inc. cbv zeta. destruct table_parts as (els & outs & T & Xp & G & R). rewrite T.
  pose proof (table_understood els outs Xp R T) as U. destruct (table_loadable els outs Xp R) as [Ld W]. pose proof (table_rows els outs Xp R) as Rw.
  assert (Ok1 : r_exit (read_from_stdin todecimal o x1 y (reader_of (H :: map cells outs))) = Ok ExitOk).
  { apply (succeeds todecimal o x1 y H (map cells outs) ops1 ops3 (mrows els outs)); auto.
    - destruct Inc as [Inc|Ho]; [now left|right]. now apply table_complete.
    - unfold refused. rewrite Dr. intros Ul. exact (Ul k' Lk).
    - intros k0 K0 _. unfold linked in K0, Lk. fold name in K0. rewrite Lk in K0. apply Ok_inj in K0. subst k0. auto.
    - intros k0 _ D. contradiction. }
  split; [exact Ok1|]. split.
  { destruct (outcome_cases todecimal o x1 y (reader_of (H :: map cells outs))) as [(_ & _ & E & _)|(_ & dir & log & _ & _ & _ & [(e & _ & _ & E & _)|(rr & lr & _ & [(e & _ & _ & _ & E & _)|(log2 & _ & [(e & (D & _) & _)|(log1 & [((D & _) & _)|(_ & E & _)] & _)])])])]; try exact E; contradiction. }
  pose proof (mt_levels _ M1) as L1. pose proof (mt_levels _ M3) as L3.
  destruct (loaded todecimal o x1 y H (map cells outs) ops1 ops3 S1 S3 L1 L3 Ok1) as (data & l1 & l2 & U' & Ld' & Mt & _ & Lo & _).
  rewrite (understood_fun _ _ _ _ _ _ _ _ U' U) in *.
  specialize (Lo k' Lk ltac:(rewrite Dr; discriminate)).
  refine (loads_ext k' _ _ _ _ _ Lo). intros a b lv q.
  assert (Nl3 : d_labels (sp_db y) <> []) by (rewrite Yl; exact Nl).
  rewrite (proj1 (by_code todecimal o x1 y H (map cells outs) ops1 ops3 S1 S3 L1 L3 (mrows els outs) l1 l2 U Ld Mt Rw) Nl3 a b lv q).
  rewrite <- (table_given els outs a b lv q Xp R). unfold every_column. rewrite Yl. reflexivity.
Qed.
End Export.
