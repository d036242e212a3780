(** C71, C72: the tables of a link's mappings and the text about a mapping. *)
From Verif Require Import Prelude BitFlags_Model Selectors_Model Selectors_Proofs SelectorParse_Model LinkRef_Model LinkRef_Spec
  LinkRef_Proofs IndexCode_Model Db_Model Db_Spec Db_ProofsLocal Db_Proofs Db_ProofsRun Db_ProofsOps Db_Properties
  Elements_Model Elements_Spec Elements_Proofs Elements_Properties MapStats_Model MapStats_Spec MapStats_Proofs MapStats_Properties
  AdminCli_Proofs3 MapTable_Model MapTable_Spec MapTable_Proofs.
From Coq Require Import String List.
Local Open Scope list_scope.

(** In all theorems the target space is the result of any sequence [ops] of calls on a new space, and the
    source space of any other sequence [ops']. *)

(** *** C71: the table of [get_mapping] *)

(** The table has a heading and then one row for each element of the export, in order, with the ids, domains, labels and
    the value of the element; all rows are as wide as the heading, part by part. *)
Theorem C71_table ops ops' n id sd td k :
  let src := run ops' fresh in let trg := run ops fresh in
  the_link n id trg k ->
  exists els hd rows,
    exported k src trg els /\ generate_mapping_elements (Some n) id src trg = Ok els /\
    get_mapping (Some n) true id sd td src trg = (map flat (hd :: rows), None) /\
    get_mapping (Some n) false id sd td src trg = (map flat rows, None) /\
    heading n src trg hd /\ Forall2 (shows sd td src trg) els rows /\ Forall (shaped sd td src trg) (hd :: rows).
Proof.
  intros src trg L. destruct (C45_exported ops ops' n id k L) as (els & E & X). fold src trg in E, X.
  pose proof (i_index _ (run_inv ops')) as Ws. pose proof (i_index _ (run_inv ops)) as Wt. fold src in Ws. fold trg in Wt.
  exists els, (header_layout (Some n) sd td src trg), (map (row_layout sd td src trg) els).
  split; [exact X|]. split; [exact E|].
  assert (R : map (mapping_row sd td src trg) els = map flat (map (row_layout sd td src trg) els)).
  { rewrite map_map. apply map_ext. intros e. apply row_flat. }
  split; [|split; [|split; [apply heading_ok|split]]].
  - unfold get_mapping. rewrite E, R. reflexivity.
  - unfold get_mapping. rewrite E, R. reflexivity.
  - clear. induction els; constructor; auto. apply shows_ok.
  - constructor; [apply header_shaped|]. apply Forall_forall. intros l Hl. apply in_map_iff in Hl. destruct Hl as (e & <- & _).
    now apply row_shaped.
Qed.
Print Assumptions C71_table.

(** Rows of these widths have one decomposition. *)
Theorem C71_readable sd td src trg a b : shaped sd td src trg a -> shaped sd td src trg b -> flat a = flat b -> a = b.
Proof. exact (flat_inj sd td src trg a b). Qed.
Print Assumptions C71_readable.

(** Every record of both spaces is in the table with its id and labels, if nobody claimed completeness that did not hold. *)
Theorem C71_covers ops ops' n id sd td k rows : Forall honest ops ->
  let src := run ops' fresh in let trg := run ops fresh in
  the_link n id trg k -> get_mapping (Some n) false id sd td src trg = (rows, None) ->
  (forall r, In r (d_index trg) -> exists l, In (flat l) rows /\ shaped sd td src trg l /\
     l_target l = CId (ix_id r) /\ l_target_labels l = map CText (ix_labels r)) /\
  (forall r, In r (d_index src) -> exists l, In (flat l) rows /\ shaped sd td src trg l /\
     l_source l = CId (ix_id r) /\ l_source_labels l = map CText (ix_labels r)).
Proof.
  intros Hh src trg L H. destruct (C71_table ops ops' n id sd td k L) as (els & hd & ls & X & E & _ & G & _ & F & Sh).
  fold src trg in X, E, G, F, Sh. assert (rows = map flat ls) by congruence. subst rows.
  pose proof (i_index _ (run_inv ops')) as Ws. pose proof (i_index _ (run_inv ops)) as Wt. fold src in Ws. fold trg in Wt.
  assert (Both : exists e, In e els /\ el_source e = Some 0%Z /\ el_target e = Some 0%Z).
  { destruct X as (ms & rs & ss & -> & _). exists undefined_pair. split; [now left|]. split; reflexivity. }
  assert (Ct : forall r, In r (d_index trg) -> exists e, In e els /\ el_target e = Some (ix_id r)).
  { intros r Hr. destruct (Z.eq_dec (ix_id r) 0) as [E0|N0].
    - destruct Both as (e & He & _ & Et). exists e. now rewrite E0.
    - apply (C45_covers_target ops ops' n id k els (ix_id r) Hh L E). split; [exists r; auto|exact N0]. }
  assert (Cs : forall r, In r (d_index src) -> exists e, In e els /\ el_source e = Some (ix_id r)).
  { intros r Hr. destruct (Z.eq_dec (ix_id r) 0) as [E0|N0].
    - destruct Both as (e & He & Es & _). exists e. now rewrite E0.
    - apply (C45_covers_source ops ops' n id k els (ix_id r) Hh L E). split; [exists r; auto|exact N0]. }
  assert (Look : forall e, In e els -> exists l, In l ls /\ shows sd td src trg e l).
  { intros e He. clear - F He. induction F as [|x y els ls Hxy F IH]; [destruct He|].
    destruct He as [<-|He]; [exists y; split; [now left|exact Hxy]|]. destruct (IH He) as (l & Hl & S). exists l. split; [now right|exact S]. }
  assert (Lab : forall s r cells, index_wf s -> In r (d_index s) -> labels_shown s (Some (ix_id r)) cells -> cells = map CText (ix_labels r)).
  { intros s r cells W Hr (labels & Hl & ->). destruct Hl as [(r' & Hr' & Er & ->)|(N & _)].
    - assert (r' = r) by (apply (nodup_map_inj ix_id (d_index s)); auto; apply (iw_unique _ W)). subst r'. now rewrite map_map.
    - exfalso. apply N. exists r. auto. }
  inversion_clear Sh as [|? ? _ Sh']. rewrite Forall_forall in Sh'.
  split; intros r Hr.
  - destruct (Ct r Hr) as (e & He & Et). destruct (Look e He) as (l & Hl & S). exists l.
    split; [now apply in_map|]. split; [now apply Sh'|]. destruct S as (_ & _ & _ & _ & S1 & _ & S2 & _). rewrite Et in S1, S2. split; [exact S1|exact (Lab _ _ _ Wt Hr S2)].
  - destruct (Cs r Hr) as (e & He & Es). destruct (Look e He) as (l & Hl & S). exists l.
    split; [now apply in_map|]. split; [now apply Sh'|]. destruct S as (S1 & _ & S2 & _). rewrite Es in S1, S2. split; [exact S1|exact (Lab _ _ _ Ws Hr S2)].
Qed.
Print Assumptions C71_covers.

(** Without such a link there is the heading, if asked for, and then an error. *)
Theorem C71_no_link ops ops' name header id sd td :
  let src := run ops' fresh in let trg := run ops fresh in
  (forall e, snd (get_mapping name header id sd td src trg) = Some e -> e = PlainException /\
     List.length (fst (get_mapping name header id sd td src trg)) = if header then 1 else 0) /\
  (snd (get_mapping name header id sd td src trg) <> None <-> forall n k, name = Some n -> ~ the_link n id trg k).
Proof.
  intros src trg. destruct name as [n|].
  - pose proof (C45_link_needed ops ops' n id) as (I & J & _). fold src trg in I, J. unfold get_mapping.
    destruct (generate_mapping_elements (Some n) id src trg) as [els|x] eqn:E; cbn [fst snd].
    + split; [discriminate|]. split; [congruence|]. intros H. exfalso.
      assert (Q : Ok els = Err PlainException) by (apply I; intros k; exact (H n k eq_refl)). discriminate Q.
    + pose proof (J x eq_refl) as ->. split; [intros e [= <-]; split; [reflexivity|destruct header; reflexivity]|].
      split; [|congruence]. intros _ m k [= <-]. exact (proj1 I eq_refl k).
  - pose proof (C45_link_needed ops ops' [] id) as (_ & _ & E). fold src trg in E. unfold get_mapping. rewrite E. cbn [fst snd].
    split; [intros e [= <-]; split; [reflexivity|destruct header; reflexivity]|]. split; [intros _ m k [=]|congruence].
Qed.
Print Assumptions C71_no_link.

(** *** C71: the table of [select_mappings] *)

(** A heading with the link's name, and for each record that meets the criteria its mappings by that link, or one row
    without a mapping. *)
Theorem C71_select ops ref name c k :
  let s := run ops fresh in known_columns c s -> meant (d_links s) ref name true k ->
  exists rows, selected k s c rows /\
    select_mappings ref name false c s = (rows, None) /\
    select_mappings ref name true c s =
      ((CText (txt "other_index_id") :: CText (k_name k) :: CText (txt "index_id") :: map CText (d_labels s) ++
        [CText (txt "ambiguous_fields")]) :: rows, None).
Proof.
  intros s Kn M. apply (get_link_iff _ _ _ _ _ (i_links _ (run_inv ops))) in M. fold s in M. eexists. split.
  - apply (selected_spec k s c (i_index _ (run_inv ops)) (i_maps _ (run_inv ops)) Kn).
  - unfold select_mappings. rewrite M. split; reflexivity.
Qed.
Print Assumptions C71_select.

(** If no link is meant there is no row at all. *)
Theorem C71_select_error ops ref name header c :
  let s := run ops fresh in
  (snd (select_mappings ref name header c s) <> None <-> forall k, ~ meant (d_links s) ref name true k) /\
  (forall e, snd (select_mappings ref name header c s) = Some e -> e = ToronError /\ fst (select_mappings ref name header c s) = []).
Proof.
  intros s. pose proof (i_links _ (run_inv ops)) as T. fold s in T. unfold select_mappings.
  destruct (get_link ref name true (d_links s)) as [k|x] eqn:E; cbn [fst snd].
  - split; [|discriminate]. split; [congruence|]. intros H. exfalso. apply (H k). now apply (get_link_iff _ _ _ _ _ T).
  - split; [|intros e [= <-]; split; [exact (get_link_error _ _ _ _ _ E)|reflexivity]].
    split; [|congruence]. intros _ k M. apply (get_link_iff _ _ _ _ _ T) in M. congruence.
Qed.
Print Assumptions C71_select_error.

(** The two tables agree: the rows of [select_mappings] with a source are those of [get_mapping] for the records of the
    target, without the columns of the source. *)
Theorem C71_agree ops ops' (n id sd td : text) k rows rows' :
  let src := run ops' fresh in let trg := run ops fresh in
  id <> [] -> n <> [] -> the_link n id trg k ->
  get_mapping (Some n) false id sd td src trg = (rows, None) ->
  select_mappings id (Some n) false [] trg = (rows', None) ->
  forall o v r a, In r (d_index trg) -> ix_id r <> 0%Z ->
    (In (CId o :: CVal v :: CId (ix_id r) :: map CText (ix_labels r) ++ [a]) rows' <->
     exists l, In (flat l) rows /\ shaped sd td src trg l /\ l_source l = CId o /\ l_value l = CVal v /\
       l_target l = CId (ix_id r) /\ l_ambiguous l = a).
Proof.
  intros src trg Ni Nn L H H' o v r a Hr N0.
  pose proof (i_index _ (run_inv ops')) as Ws. pose proof (i_index _ (run_inv ops)) as Wt. fold src in Ws. fold trg in Wt.
  destruct (C45_exported ops ops' n id k L) as (els & E & X). fold src trg in E, X.
  assert (G : get_link id (Some n) true (d_links trg) = Ok k).
  { destruct L as (Lk & Lo & Ln). apply get_link_iff; [exact (i_links _ (run_inv ops))|].
    assert (M : forall x, mentions (d_links trg) id x -> k_other x = id).
    { intros x (_ & [B|(B & _)]); [exact B|]. exfalso. exact (B k Lk Lo). }
    split; [exact Ni|]. split; [intros x y Hx Hy; now rewrite (M x Hx), (M y Hy)|]. split; [split; [exact Lk|left; exact Lo]|].
    destruct n; [congruence|exact Ln]. }
  unfold get_mapping in H. rewrite E in H. assert (rows = map (mapping_row sd td src trg) els) by (cbn [app] in H; congruence). subst rows. clear H.
  unfold select_mappings in H'. rewrite G in H'. cbn [app] in H'.
  assert (rows' = flat_map (select_rows (k_id k) trg) (filter (fun r => negb (ix_id r =? 0)%Z) (filter_by_label [] trg))) by congruence. subst rows'. clear H'.
  assert (A : In (CId o :: CVal v :: CId (ix_id r) :: map CText (ix_labels r) ++ [a])
                (flat_map (select_rows (k_id k) trg) (filter (fun r => negb (ix_id r =? 0)%Z) (filter_by_label [] trg))) <->
     exists m, of_link k trg m /\ m_other m = o /\ m_value m = v /\ m_index m = ix_id r /\
       a = text_cell (get_ambiguous_field_text (Some (m_level m)) (d_labels trg))).
  { rewrite in_flat_map. split.
    - intros (r' & Hr' & Hin). unfold select_rows in Hin.
      destruct (filter (fun m => (m_link m =? k_id k)%Z && (m_index m =? ix_id r')%Z) (d_maps trg)) as [|m0 ms] eqn:Ef.
      { destruct Hin as [Q|[]]. discriminate Q. }
      apply in_map_iff in Hin. destruct Hin as (m & Em & Hm). rewrite <- Ef in Hm. apply filter_In in Hm.
      destruct Hm as (Hm & B). apply andb_true_iff in B. rewrite !Z.eqb_eq in B. destruct B as [B1 B2].
      cbn [app] in Em. injection Em as E1 E2 E3 E4.
      assert (r' = r).
      { apply (nodup_map_inj ix_id (d_index trg)); auto; [apply (iw_unique _ Wt)|]. apply filter_In in Hr'. destruct Hr' as [Hr' _].
        unfold filter_by_label in Hr'. apply filter_In in Hr'. tauto. }
      subst r'. apply app_inj_tail in E4. destruct E4 as [_ E4].
      exists m. split; [split; auto|]. repeat split; auto. now rewrite <- E4, desc_same.
    - intros (m & (Hm & Hk) & E1 & E2 & E3 & E4). exists r. split.
      { apply filter_In. split; [unfold filter_by_label; apply filter_In; split; auto|]. destruct (ix_id r =? 0)%Z eqn:Q; [lia|reflexivity]. }
      unfold select_rows.
      destruct (filter (fun m => (m_link m =? k_id k)%Z && (m_index m =? ix_id r)%Z) (d_maps trg)) as [|m0 ms] eqn:Ef.
      { exfalso. assert (Q : In m []) by (rewrite <- Ef; apply filter_In; split; auto; rewrite andb_true_iff, !Z.eqb_eq; auto). destruct Q. }
      apply in_map_iff. exists m. split; [rewrite desc_same, E1, E2, E4; reflexivity|]. rewrite <- Ef. apply filter_In. split; auto.
      rewrite andb_true_iff, !Z.eqb_eq. auto. }
  rewrite A. clear A. destruct X as (ms & rs & ls & -> & (_ & Xm) & _). split.
  - intros (m & Hm & E1 & E2 & E3 & E4). exists (row_layout sd td src trg (shown m)).
    split; [rewrite <- row_flat; apply in_map; right; apply in_app_iff; left; apply in_map; now apply Xm|].
    split; [now apply row_shaped|]. cbn. rewrite E1, E2, E3. auto.
  - intros (l & Hl & Sh & L1 & L2 & L3 & L4). apply in_map_iff in Hl. destruct Hl as (e & El & He). rewrite row_flat in El.
    apply flat_inj with (sd := sd) (td := td) (src := src) (trg := trg) in El; [|now apply row_shaped|exact Sh]. subst l.
    cbn [l_source l_value l_target l_ambiguous row_layout] in L1, L2, L3, L4.
    destruct He as [<-|He]; [cbn in L3; congruence|]. rewrite !in_app_iff, !in_map_iff in He.
    destruct He as [(m & <- & Hm)|[(i & <- & _)|(i & <- & _)]]; try discriminate.
    change (CId (m_other m) = CId o) in L1. change (CVal (m_value m) = CVal v) in L2. change (CId (m_index m) = CId (ix_id r)) in L3.
    change (text_cell (get_ambiguous_field_text (Some (m_level m)) (d_labels trg)) = a) in L4.
    exists m. split; [now apply Xm|]. repeat split; congruence.
Qed.
Print Assumptions C71_agree.

Definition red (c : cell) : cell := match c with CVal v => CVal (Qred v) | c => c end.
Definition show_table (r : list (list cell) * option exn) := (map (map red) (fst r), snd r).
Definition T (s : string) : cell := CText (txt s).
Example C71_case :
  (exists k, the_link (txt "m1") (txt "u1") (run trg_hist fresh) k) /\ Forall honest trg_hist /\
  show_table (get_mapping (Some (txt "m1")) true (txt "u1") (txt "dom") [] (run src_lost fresh) (run trg_hist fresh)) =
    ([[T "index_id"; T "domain"; T "C"; T "m1"; T "index_id"; T "A"; T "B"; T "ambiguous_fields"];
      [CId 0; T "dom"; T "-"; CVal 0; CId 0; T "-"; T "-"; CNone];
      [CId 1; T "dom"; T "p"; CVal 3; CId 1; T "x"; T "1"; CNone];
      [CId 1; T "dom"; T "p"; CVal 1; CId 2; T "x"; T "2"; CNone];
      [CId 2; T "dom"; CNone; CVal 0; CId 3; T "y"; T "1"; CNone];
      [CId 3; T "dom"; T "r"; CVal 5; CId 2; T "x"; T "2"; T "B"];
      [CNone; CNone; CNone; CNone; CId 4; T "z"; T "9"; CNone];
      [CId 4; T "dom"; T "s"; CNone; CNone; CNone; CNone; CNone]], None).
Proof.
  split; [values; eexists; split; [left; reflexivity|split; reflexivity]|]. split; [repeat constructor|]. vm_compute. reflexivity.
Qed.
Example C71_select_case :
  (exists k, get_link (txt "u1") None true (d_links (run trg_hist fresh)) = Ok k) /\
  known_columns [(txt "A", txt "x")] (run trg_hist fresh) /\
  show_table (select_mappings (txt "u1") (Some (txt "m1")) true [(txt "A", txt "x")] (run trg_hist fresh)) =
    ([[T "other_index_id"; T "m1"; T "index_id"; T "A"; T "B"; T "ambiguous_fields"];
      [CId 1; CVal 3; CId 1; T "x"; T "1"; CNone];
      [CId 1; CVal 1; CId 2; T "x"; T "2"; CNone];
      [CId 3; CVal 5; CId 2; T "x"; T "2"; T "B"]], None) /\
  show_table (select_mappings (txt "u1") (Some (txt "m1")) false [(txt "A", txt "z")] (run trg_hist fresh)) =
    ([[CNone; CNone; CId 4; T "z"; T "9"; CNone]], None).
Proof.
  split; [vm_compute; eexists; reflexivity|]. split; [|split; vm_compute; reflexivity].
  intros k v [[= <- <-]|[]]. vm_compute. now left.
Qed.

(** Finding: the name of the link can be left out in the call, but then [get_mapping] always fails, also where
    there is a default link, by which [select_mappings] and the text about the mapping find their way. *)
Theorem C71_default_refuted : exists ops ops' id k rows t,
  let src := run ops' fresh in let trg := run ops fresh in
  In k (d_links trg) /\ k_other k = id /\ k_default k = true /\
  select_mappings id None false [] trg = (rows, None) /\ List.length rows = 5%nat /\
  get_mapping_info_str None id id None None src trg = Ok t /\
  get_mapping None false id [] [] src trg = ([], Some PlainException).
Proof.
  exists trg_hist, src_hist, (txt "u1"). values. do 3 eexists. cbv zeta.
  split; [left; reflexivity|]. split; [reflexivity|]. split; [reflexivity|]. split; [vm_compute; reflexivity|].
  split; [reflexivity|]. split; vm_compute; reflexivity.
Qed.
Print Assumptions C71_default_refuted.

(** *** C72: the text about a mapping *)

(** For a link to the source the text has the name of the link, both spaces, the true numbers of matched records and
    of all records of both spaces (the undefined records included), and the number of sources that do not exist if
    there are any. *)
Theorem C72_text ops ops' name id tid sp tp k : Forall honest ops -> one_session ops ->
  let src := run ops' fresh in let trg := run ops fresh in
  meant (d_links trg) id name true k -> k_other k = id ->
  exists text s t a b c d e line1 line2 more,
    get_mapping_info_str name id tid sp tp src trg = Ok text /\
    called sp id s /\ called tp tid t /\
    how_many (matched_source k src trg) a /\ how_many (has_index src) b /\ matched_line s a b line1 /\
    how_many (matched_target k trg) c /\ how_many (has_index trg) d /\ matched_line t c d line2 /\
    how_many (stale_source k src trg) e /\
    (e = 0%Z /\ more = [] \/ e <> 0%Z /\ exists line3, stale_line sp e line3 /\ more = [[]; line3]) /\
    text = join [10%N] ([k_name k ++ txt ": " ++ s ++ txt " -> " ++ t; []; line1; line2] ++ more).
Proof.
  intros Hh O src trg M Ko. pose proof (i_links _ (run_inv ops)) as LT. fold trg in LT.
  pose proof (proj2 (get_link_iff _ _ _ _ _ LT) M) as G.
  assert (L : the_link (k_name k) id trg k) by (split; [apply M|auto]).
  destruct (proj1 (stats_ok id src trg k) Ko) as (st & E).
  destruct (C56_source ops ops' (k_name k) id k st Hh L E) as (S1 & S2 & _ & S3). fold src trg in S1, S2, S3.
  destruct (C56_target ops ops' (k_name k) id k st O L E) as (T1 & T2 & _). fold trg in T1, T2.
  assert (Nn : forall P n, how_many P n -> (0 <= n)%Z) by (intros P n (l & _ & _ & <-); lia).
  assert (Ln : forall x n m P Q, how_many P n -> how_many Q m ->
    matched_line x n m (txt "  " ++ x ++ txt ": matched " ++ format_dec n ++ txt " of " ++ format_dec m ++ txt " indexes")).
  { intros x n m P Q Hn Hm. exists (format_dec n), (format_dec m). split; [apply number_ok; eauto|]. split; [apply number_ok; eauto|reflexivity]. }
  unfold get_mapping_info_str. rewrite G. cbn [bind]. rewrite E. cbn [bind].
  do 11 eexists. split; [reflexivity|].
  split; [apply called_ok|]. split; [apply called_ok|]. split; [exact S2|]. split; [exact S1|].
  split; [eapply Ln; eassumption|]. split; [exact T2|]. split; [exact T1|]. split; [eapply Ln; eassumption|]. split; [exact S3|].
  assert (Nm : match name with Some ((_ :: _) as n) => n | _ => k_name k end = k_name k).
  { destruct M as (_ & _ & _ & Mn). destruct name as [[|c n]|]; [reflexivity|symmetry; exact Mn|reflexivity]. }
  rewrite Nm. split; [|reflexivity].
  destruct (src_index_stale st =? 0)%Z eqn:Z0; [left; split; [lia|reflexivity]|]. right. split; [lia|].
  eexists. split; [|reflexivity]. eexists. split; [apply number_ok; eauto|reflexivity].
Qed.
Print Assumptions C72_text.

(** Otherwise there is an error: no link is meant, or the one that is meant is to another space. *)
Theorem C72_error ops ops' name id tid sp tp :
  let src := run ops' fresh in let trg := run ops fresh in
  (get_mapping_info_str name id tid sp tp src trg = Err ToronError <-> forall k, ~ meant (d_links trg) id name true k) /\
  (get_mapping_info_str name id tid sp tp src trg = Err PlainException <->
     exists k, meant (d_links trg) id name true k /\ k_other k <> id) /\
  (forall x, get_mapping_info_str name id tid sp tp src trg = Err x -> x = ToronError \/ x = PlainException) /\
  (forall k x, meant (d_links trg) id name true k -> In x (d_links trg) -> k_other x = id -> k_other k = id).
Proof.
  intros src trg. pose proof (i_links _ (run_inv ops)) as LT. fold trg in LT.
  split; [|split; [|split]].
  4:{ intros k x (_ & _ & (_ & [B|(B & _)]) & _) Hx Ex; [exact B|]. exfalso. exact (B x Hx Ex). }
  all: unfold get_mapping_info_str; destruct (get_link id name true (d_links trg)) as [k|x] eqn:E; cbn [bind].
  all: try (pose proof (proj1 (get_link_iff _ _ _ _ _ LT) E) as M).
  all: try (pose proof (get_link_error _ _ _ _ _ E) as ->).
  all: try (destruct (C56_right_source ops ops' id k) as [W1 W2]; fold src trg in W1, W2;
            destruct (get_mapping_stats id src trg k) as [st|y] eqn:F; cbn [bind]).
  all: try (pose proof (W2 y eq_refl) as ->).
  - split; [discriminate|]. intros H. destruct (H k M).
  - split; [discriminate|]. intros H. destruct (H k M).
  - split; [|auto]. intros _ k M. apply (get_link_iff _ _ _ _ _ LT) in M. congruence.
  - split; [discriminate|]. intros (k' & M' & N). exfalso. apply N.
    assert (k' = k) by (apply (get_link_iff _ _ _ _ _ LT) in M'; congruence). subst k'. apply W1. eauto.
  - split; [|auto]. intros _. exists k. split; [exact M|]. intros Q. destruct (proj1 W1 Q) as (st & Q'). discriminate Q'.
  - split; [discriminate|]. intros (k' & M' & _). apply (get_link_iff _ _ _ _ _ LT) in M'. congruence.
  - discriminate.
  - intros x [= <-]. now right.
  - intros x [= <-]. now left.
Qed.
Print Assumptions C72_error.

Definition lines (l : list string) : text := join [10%N] (map txt l).
Example C72_case :
  Forall honest trg_hist /\ one_session trg_hist /\
  (exists k, get_link (txt "u1") None true (d_links (run trg_hist fresh)) = Ok k /\ k_other k = txt "u1") /\
  get_mapping_info_str None (txt "u1") (txt "12345678-9") (Some (txt "data/old.toron")) None (run src_lost fresh) (run trg_hist fresh) =
    Ok (lines ["m1: data/old -> [1234567]"; ""; "  data/old: matched 3 of 4 indexes"; "  [1234567]: matched 4 of 5 indexes";
               ""; "  Mapping contains 1 indexes that no longer exist in data/old.toron"]%string) /\
  get_mapping_info_str (Some (txt "m1")) (txt "u1") (txt "u2") None (Some (txt "b.toron")) (run src3 fresh) (run hist fresh) =
    Ok (lines ["m1: [u1] -> b"; ""; "  [u1]: matched 4 of 4 indexes"; "  b: matched 4 of 4 indexes"]%string).
Proof.
  split; [repeat constructor|]. split; [repeat (constructor; [intros []|]); constructor|].
  split; [vm_compute; eexists; split; reflexivity|]. split; vm_compute; reflexivity.
Qed.

(** Finding: for a space that was never stored, the text says that records no longer exist in "None". *)
Theorem C72_none_refuted : exists ops ops' id a b t,
  get_mapping_info_str None id id None None (run ops' fresh) (run ops fresh) = Ok t /\
  t = a ++ txt " no longer exist in None" ++ b /\ called None id (txt "[u1]").
Proof.
  exists trg_hist, src_lost, (txt "u1").
  assert (E : get_mapping_info_str None (txt "u1") (txt "u1") None None (run src_lost fresh) (run trg_hist fresh) =
    Ok (lines ["m1: [u1] -> [u1]"; ""; "  [u1]: matched 3 of 4 indexes"; "  [u1]: matched 4 of 5 indexes";
               ""; "  Mapping contains 1 indexes that"]%string ++ txt " no longer exist in None" ++ [])) by (vm_compute; reflexivity).
  do 3 eexists. split; [exact E|]. split; [reflexivity|]. exact (called_ok None (txt "u1")).
Qed.
Print Assumptions C72_none_refuted.
