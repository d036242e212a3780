(** C64: files are opened by their own names, in the requested mode. *)
From Verif Require Import Prelude Selectors_Model FileOpen_Model FileOpen_Spec FileOpen_Proofs FileOpen_Proofs2 FileOpen_Proofs3.
Local Open Scope N_scope.

(** The URI made for an absolute path makes SQLite open the file of that path, in that mode:
    the name that SQLite reads has the same parts as the bytes by which the kernel knows the
    path.  This holds for every Unicode text without NUL, whatever spaces, percent signs,
    question marks or accents it contains. *)
Theorem C64_uri : forall path m, py_text path -> is_abs path = true -> unicode path -> ~ In 0 path ->
  exists u name b, make_uri path (Some m) = Ok u /\ sqlite_uri u = Ok (name, m) /\
    fsencode path = Ok b /\ is_abs name = true /\ parts name = parts b.
Proof.
  intros path m Py A U Z. apply utf8_ok_iff in U. destruct U as [b U].
  assert (F : Forall (fun x => 0 < x < 256) b) by (eapply bytes_of_path; eauto).
  pose proof (uri_round path b (Some m) A U F) as R.
  destruct (make_uri path (Some m)) as [u|]; [|discriminate]. simpl in R.
  exists u, (collapse b), b. split; [reflexivity|]. split; [exact R|]. split; [apply utf8_fsencode; exact U|].
  assert (K : forall l, filter (fun w => match w with [] => false | _ => true end) l = filter (fun w => negb (text_eqb w [])) l).
  { induction l as [|[|? ?] l IH]; simpl; rewrite ?IH; reflexivity. }
  split.
  - destruct path as [|c path]; [discriminate|]. simpl in A. apply N.eqb_eq in A. subst.
    simpl in U. destruct (utf8 path); [|discriminate]. simpl in U. injection U as <-. reflexivity.
  - unfold parts. rewrite !K. apply collapse_ne_parts.
Qed.
Print Assumptions C64_uri.

Ltac arith := match goal with |- Some (?a :: ?t) = Some (?c :: ?t) => assert (X : a = c); [|rewrite X; reflexivity] end;
  repeat match goal with |- context [?k + ?x - ?k] => rewrite (N.add_comm k x), N.add_sub end; lia.

(** The bytes are the UTF-8 form of the path: reading them gives the path again, so that
    different paths have different bytes. *)
Theorem C64_encoding : forall t, py_text t -> unicode t ->
  exists b, fsencode t = Ok b /\ decode b = Some t.
Proof.
  induction t as [|c t IH]; intros Py U; [exists []; split; reflexivity|].
  destruct IH as (b & E & Dc).
  { intros x I. apply Py. right. exact I. }
  { intros x I. apply U. right. exact I. }
  assert (S1 : surrogate c = false).
  { destruct (surrogate c) eqn:S1; auto. apply surrogate_iff in S1. destruct (U c (or_introl eq_refl) S1). }
  exists (utf8_char c ++ b). split; [simpl; rewrite S1, E; reflexivity|].
  specialize (Py c (or_introl eq_refl)). unfold utf8_char.
  destruct (N.ltb_spec c 128) as [L|L].
  - cbn [app decode]. apply N.ltb_lt in L. rewrite L, Dc. reflexivity.
  - destruct (N.ltb_spec c 2048) as [L1|L1]; [|destruct (N.ltb_spec c 65536) as [L2|L2]]; cbn [app decode].
    + assert (Q : c / 64 < 32) by (apply N.div_lt_upper_bound; lia).
      assert (Q0 : 2 <= c / 64) by (apply N.div_le_lower_bound; lia).
      assert (R : c mod 64 < 64) by (apply N.mod_lt; lia).
      pose proof (N.div_mod c 64 ltac:(lia)) as DM.
      replace (192 + c / 64 <? 128) with false by (symmetry; apply N.ltb_ge; lia).
      replace (192 + c / 64 <? 224) with true by (symmetry; apply N.ltb_lt; lia).
      rewrite Dc. arith.
    + assert (Q : c / 4096 < 16) by (apply N.div_lt_upper_bound; lia).
      assert (R : c mod 64 < 64) by (apply N.mod_lt; lia).
      assert (R1 : (c / 64) mod 64 < 64) by (apply N.mod_lt; lia).
      pose proof (N.div_mod c 64 ltac:(lia)) as DM.
      pose proof (N.div_mod (c / 64) 64 ltac:(lia)) as DM1.
      rewrite N.div_div in DM1 by lia. change (64 * 64) with 4096 in DM1.
      replace (224 + c / 4096 <? 128) with false by (symmetry; apply N.ltb_ge; lia).
      replace (224 + c / 4096 <? 224) with false by (symmetry; apply N.ltb_ge; lia).
      replace (224 + c / 4096 <? 240) with true by (symmetry; apply N.ltb_lt; lia).
      rewrite Dc. arith.
    + assert (R : c mod 64 < 64) by (apply N.mod_lt; lia).
      assert (R1 : (c / 64) mod 64 < 64) by (apply N.mod_lt; lia).
      assert (R2 : (c / 4096) mod 64 < 64) by (apply N.mod_lt; lia).
      pose proof (N.div_mod c 64 ltac:(lia)) as DM.
      pose proof (N.div_mod (c / 64) 64 ltac:(lia)) as DM1.
      rewrite N.div_div in DM1 by lia. change (64 * 64) with 4096 in DM1.
      pose proof (N.div_mod (c / 4096) 64 ltac:(lia)) as DM2.
      rewrite N.div_div in DM2 by lia. change (4096 * 64) with 262144 in DM2.
      replace (240 + c / 262144 <? 128) with false by (symmetry; apply N.ltb_ge; lia).
      replace (240 + c / 262144 <? 224) with false by (symmetry; apply N.ltb_ge; lia).
      replace (240 + c / 262144 <? 240) with false by (symmetry; apply N.ltb_ge; lia).
      rewrite Dc. arith.
Qed.
Print Assumptions C64_encoding.

Example C64_encoding_example :
  fsencode [233; 8364; 128512] = Ok [195; 169; 226; 130; 172; 240; 159; 152; 128].
Proof. reflexivity. Qed.

Example C64_uri_example :
  make_uri (txt "/a b/100%?.toron") (Some RW) = Ok (txt "file:/a%20b/100%25%3F.toron?mode=rw") /\
  sqlite_uri (txt "file:/a%20b/100%25%3F.toron?mode=rw") = Ok (txt "/a b/100%?.toron", RW).
Proof. split; reflexivity. Qed.

Section C64.
Context {D : Type} (empty_data : D) (migrate : @dbase D -> res (@dbase D)).
Notation bind_file := (bind_file empty_data migrate).
Notation cli_bind_file := (cli_bind_file empty_data migrate).
Notation read_file := (read_file migrate).
Notation bindable := (bindable migrate).

(** Binding an existing path succeeds exactly if the file can be bound.  The space then works
    on the very file that the path named, whatever becomes the working directory later; it
    may write unless the mode is 'ro'.  The file is changed only if it had to be brought up
    to date, and nothing else is. *)
Theorem C64_bind_existing : forall fs cwd uuid p m l, wf_fs fs -> py_text cwd -> py_text p ->
  lookup fs cwd p = Ok (Some l) ->
  (forall w c d, bindable fs cwd p l m w c d ->
     exists fs' s, bind_file fs cwd uuid p (mode_text m) = (fs', Ok s) /\ s_hint s = Some p /\
       works_on (s_conn s) l (match m with RO => false | _ => true end) /\
       ((d_version d = txt "0.3.1" /\ fs' = fs /\ k_uid (s_conn s) = d_uid d) \/
        (d_version d <> txt "0.3.1" /\ exists d', migrate d = Ok d' /\ k_uid (s_conn s) = d_uid d' /\
           only_changed fs fs' l (File true w (replaced c d'))))) /\
  ((forall w c d, ~ bindable fs cwd p l m w c d) ->
     exists e, bind_file fs cwd uuid p (mode_text m) = (fs, Err e)).
Proof.
  intros fs cwd uuid p m l W A B L.
  destruct (bind_existing empty_data migrate fs cwd uuid p m l W A B L) as [(w & c & d & fs' & s & Bd & Eq & H & _ & Wk & V)|(N0 & Er)].
  - split; [|intro K; destruct (K _ _ _ Bd)]. intros w0 c0 d0 Bd0.
    assert (w0 = w /\ c0 = c /\ d0 = d) as (-> & -> & ->).
    { destruct Bd as (G & (x & v & ->) & _), Bd0 as (G0 & (x0 & v0 & ->) & _). rewrite G in G0. injection G0; intros. subst. auto. }
    exists fs', s. auto.
  - split; [intros w c d K; destruct (N0 _ _ _ K)|auto].
Qed.

(** Binding a path where there is nothing succeeds exactly in mode 'rwc' in an existing
    directory with permission to write that is named in the path.  Exactly one file is made: an
    empty node with a new id, to which the space is bound. *)
Theorem C64_bind_missing : forall fs cwd uuid p m d t, wf_fs fs -> py_text cwd -> py_text p ->
  path_split p = (d, t) -> t <> [] -> t <> txt "." -> t <> txt ".." -> lookup fs cwd p = Ok None ->
  (forall dl, m = RWC -> unicode (abspath cwd p) -> lookup fs cwd d = Ok (Some dl) -> get fs dl = Some (Dir true) ->
     exists x c fs' s, fsencode t = Ok x /\
       bind_file fs cwd uuid p (mode_text m) = (fs', Ok s) /\
       only_changed fs fs' (dl ++ [x]) (File true true c) /\
       toron_content c {| d_version := txt "0.3.1"; d_uid := uuid; d_data := empty_data |} /\
       k_uid (s_conn s) = uuid /\ works_on (s_conn s) (dl ++ [x]) true /\ lookup fs' cwd p = Ok (Some (dl ++ [x]))) /\
  (~ (m = RWC /\ unicode (abspath cwd p) /\ exists dl, lookup fs cwd d = Ok (Some dl) /\ get fs dl = Some (Dir true)) ->
     exists e, bind_file fs cwd uuid p (mode_text m) = (fs, Err e)).
Proof.
  intros fs cwd uuid p m d t W A B P T1 T2 T3 L.
  destruct (bind_missing empty_data migrate fs cwd uuid p m d t W A B P T1 T2 T3 L)
    as [(M & U & Dn & dl & x & fs' & s & Ld & G & Ex & Eq & Uid & H & OC & Wk & W' & L')|(N0 & Er)].
  - split.
    + intros dl0 _ _ Ld0 G0. rewrite Ld in Ld0. injection Ld0 as <-.
      exists x, (new_content empty_data uuid), fs', s. repeat (split; [assumption|]). 
      split; [eexists _, _; reflexivity|]. auto.
    + intro K. destruct K. split; auto. split; auto. exists dl. auto.
  - split; [|auto]. intros dl M U Ld G. destruct N0. split; auto. split; auto. exists dl. auto.
Qed.

(** A file made by binding is recognised when it is bound again, in any mode. *)
Theorem C64_created_again : forall fs cwd uuid p d t fs' s m uuid2, wf_fs fs -> py_text cwd -> py_text p ->
  path_split p = (d, t) -> t <> [] -> t <> txt "." -> t <> txt ".." -> lookup fs cwd p = Ok None ->
  bind_file fs cwd uuid p (txt "rwc") = (fs', Ok s) ->
  exists l s2, bind_file fs' cwd uuid2 p (mode_text m) = (fs', Ok s2) /\ k_uid (s_conn s2) = uuid /\
    works_on (s_conn s) l true /\ works_on (s_conn s2) l (match m with RO => false | _ => true end).
Proof.
  intros fs cwd uuid p d t fs' s m uuid2 W A B P T1 T2 T3 L Eq0.
  destruct (bind_missing empty_data migrate fs cwd uuid p RWC d t W A B P T1 T2 T3 L)
    as [(M & U & Dn & dl & x & fs1 & s1 & Ld & G & Ex & Eq & Uid & H & OC & Wk & W' & L')|(N0 & e & Er)].
  2:{ change (mode_text RWC) with (txt "rwc") in Er. rewrite Eq0 in Er. discriminate. }
  change (mode_text RWC) with (txt "rwc") in Eq. rewrite Eq0 in Eq. injection Eq as <- <-.
  exists (dl ++ [x]).
  destruct (bind_existing empty_data migrate fs' cwd uuid2 p m (dl ++ [x]) W' A B L')
    as [(w & c & d2 & fs2 & s2 & Bd & Eq & H2 & _ & Wk2 & V)|(N0 & Er)].
  - assert (d2 = {| d_version := latest; d_uid := uuid; d_data := empty_data |}).
    { destruct Bd as (Gx & (x2 & v2 & ->) & _). rewrite (proj1 OC) in Gx. injection Gx; intros. congruence. }
    subst d2. destruct V as [(V1 & V2 & V3)|(V1 & _)]; [|destruct V1; reflexivity].
    exists s2. subst fs2. auto.
  - destruct (N0 true (new_content empty_data uuid) {| d_version := latest; d_uid := uuid; d_data := empty_data |}).
    split; [apply OC|]. split; [eexists _, _; reflexivity|]. split; [auto|]. split; [exact U|]. left. reflexivity.
Qed.

(** If binding fails, for whatever reason, no file has changed. *)
Theorem C64_bind_error : forall fs cwd uuid p mt fs' e, wf_fs fs -> py_text cwd -> py_text p ->
  bind_file fs cwd uuid p mt = (fs', Err e) -> fs' = fs.
Proof. intros fs cwd uuid p mt fs' e W A B H. exact (bind_error empty_data migrate fs cwd uuid p mt fs' e W A B H). Qed.

(** In mode 'ro' neither binding nor anything done with the space changes a file. *)
Theorem C64_read_only : forall fs cwd uuid p fs' s us, wf_fs fs -> py_text cwd -> py_text p ->
  bind_file fs cwd uuid p (txt "ro") = (fs', Ok s) -> fst (uses fs' (s_conn s) us) = fs.
Proof.
  intros fs cwd uuid p fs' s us W A B H.
  assert (fs' = fs) by (eapply ro_same; eauto). subst fs'.
  destruct (lookup fs cwd p) as [[l|]|] eqn:L.
  - destruct (bind_existing empty_data migrate fs cwd uuid p RO l W A B L) as [(w & c & d & fs1 & s1 & Bd & Eq & _ & (uid & Q) & _ & _)|(_ & e & Eq)];
      change (mode_text RO) with (txt "ro") in Eq; rewrite Eq in H; [|discriminate].
    injection H as -> ->. rewrite Q. destruct (lookup_some _ _ _ _ W L) as (Nm & _).
    eapply ro_uses; eauto. apply Bd.
  - exfalso. unfold FileOpen_Model.bind_file in H. change (read_mode (txt "ro")) with (Some RO) in H. cbv iota in H.
    unfold may_bind, exists_ in H. rewrite L in H. congruence.
  - exfalso. unfold FileOpen_Model.bind_file in H. change (read_mode (txt "ro")) with (Some RO) in H. cbv iota in H.
    unfold may_bind, exists_ in H. rewrite L in H. congruence.
Qed.

(** Reading a file into memory succeeds exactly for readable Toron files that are or can be
    brought up to date; the space has the data of the file.  The files stay as they are,
    during reading and whatever is done with the space afterwards. *)
Theorem C64_read : forall fs cwd p, wf_fs fs -> py_text cwd -> py_text p ->
  (forall l w c d d', lookup fs cwd p = Ok (Some l) -> get fs l = Some (File true w c) -> toron_content c d ->
     unicode (abspath cwd p) ->
     (if text_eqb (d_version d) (txt "0.3.1") then d' = d else migrate d = Ok d') ->
     exists s, read_file fs cwd p = (fs, Ok s) /\ s_hint s = Some p /\ k_uid (s_conn s) = d_uid d' /\
       query fs (s_conn s) = (fs, Ok (replaced c d'))) /\
  (forall s fs', read_file fs cwd p = (fs', Ok s) ->
     exists l w c d d', lookup fs cwd p = Ok (Some l) /\ get fs l = Some (File true w c) /\ toron_content c d /\
       unicode (abspath cwd p) /\ (if text_eqb (d_version d) (txt "0.3.1") then d' = d else migrate d = Ok d')) /\
  fst (read_file fs cwd p) = fs /\
  (forall s fs' us, read_file fs cwd p = (fs', Ok s) -> fst (uses fs' (s_conn s) us) = fs).
Proof.
  intros fs cwd p W A B.
  assert (Cond : forall d d', ((d_version d = latest /\ d' = d) \/ (d_version d <> latest /\ migrate d = Ok d')) <->
    (if text_eqb (d_version d) (txt "0.3.1") then d' = d else migrate d = Ok d')).
  { intros d d'. change (txt "0.3.1") with latest. destruct (text_eqb (d_version d) latest) eqn:V.
    - apply teqb_iff in V. tauto.
    - apply teqb_neq in V. tauto. }
  destruct (read_cases migrate fs cwd p W A B) as [(l & w & c & d & d' & L & G & T & U & V & Eq)|(N0 & e & Eq)].
  - rewrite Eq. split; [|split; [|split]].
    + intros l0 w0 c0 d0 d0' L0 G0 T0 U0 V0. rewrite L in L0. injection L0 as <-. rewrite G in G0. injection G0 as <- <-.
      destruct T as (x & v & ->), T0 as (x0 & v0 & T0). injection T0 as <- <- <-.
      assert (d0' = d').
      { apply Cond in V0. destruct V as [[V1 V2]|[V1 V2]], V0 as [[V3 V4]|[V3 V4]]; congruence. }
      subst d0'. eexists. split; [reflexivity|]. split; [reflexivity|]. split; reflexivity.
    + intros s fs' _. exists l, w, c, d, d'. repeat (split; [assumption|]). apply Cond. exact V.
    + reflexivity.
    + intros s fs' us K. injection K as <- <-. eapply mem_uses. reflexivity.
  - rewrite Eq. split; [|split; [|split]].
    + intros l w c d d' L G T U V. destruct (N0 l w c d d'). apply Cond in V. auto.
    + discriminate.
    + reflexivity.
    + discriminate.
Qed.

(** A file is recognised as a Toron file by the application id and version in its header. *)
Theorem C64_recognised : forall (fs : @fsys D) cwd p l w between vacuum user app db, wf_fs fs ->
  lookup fs cwd p = Ok (Some l) -> get fs l = Some (File true w (Database between vacuum user app db)) ->
  (get_backend fs cwd p = Ok tt <-> app = from_bytes [1; 45; 132; 200] /\ user = from_bytes (txt "DAL1")) /\
  (get_backend fs cwd p <> Ok tt -> get_backend fs cwd p = Err ValueError).
Proof.
  intros fs cwd p l w x v u a db W L G. rewrite (backend_iff _ _ _ _ L), G.
  rewrite recognise by (eapply W; eauto).
  change (from_bytes [1; 45; 132; 200]) with 19760328. change (from_bytes (txt "DAL1")) with 1145130033.
  destruct (N.eqb_spec a 19760328), (N.eqb_spec u 1145130033); simpl; split; try tauto; split; try tauto; try discriminate.
Qed.

(** Backups: if the option succeeds for nodes bound to files, no backup name being the file of
    a node or the name of another backup, every backup file has the contents of its node,
    and no other file changed. *)
Theorem C64_backup : forall nodes (fs : @fsys D) cwd srcs dsts cs fs',
  Forall2 (fun s l => exists w, works_on (s_conn s) l w) nodes srcs ->
  Forall2 (fun l c => exists w d, get fs l = Some (File true w c) /\ holds c d) srcs cs ->
  Forall2 (fun s l => exists h, s_hint s = Some h /\ names cwd (backup_path h) l) nodes dsts ->
  NoDup dsts -> (forall l, In l srcs -> ~ In l dsts) ->
  process_backup_option fs cwd true nodes = (fs', Ok tt) ->
  Forall2 (fun l c => get fs' l = Some (File true true c)) dsts cs /\
  (forall k, ~ In k dsts -> get fs' k = get fs k).
Proof. intros. eapply backups; eauto. Qed.

(** The backup lies beside the file, under its name with 'backup-' before it. *)
Theorem C64_backup_name : forall cwd p d t l, path_split p = (d, t) -> t <> [] -> t <> txt "." -> t <> txt ".." ->
  names cwd p l ->
  exists dl x, l = dl ++ [x] /\ fsencode t = Ok x /\ names cwd (backup_path p) (dl ++ [txt "backup-" ++ x]).
Proof. intros. eapply backup_names; eauto. Qed.

(** The command line reports missing files, files without permission and other files as its
    own errors, before anything is changed. *)
Theorem C64_cli_errors : forall fs cwd uuid p m, wf_fs fs ->
  (lookup fs cwd p = Ok None -> m <> RWC -> cli_bind_file fs cwd uuid p (mode_text m) = (fs, Err ToronError)) /\
  (forall l r c, lookup fs cwd p = Ok (Some l) -> get fs l = Some (File r false c) -> m <> RO ->
     cli_bind_file fs cwd uuid p (mode_text m) = (fs, Err ToronError)) /\
  (forall l w x v u a db, lookup fs cwd p = Ok (Some l) -> get fs l = Some (File true w (Database x v u a db)) ->
     u <> 1145130033 \/ a <> 19760328 -> cli_bind_file fs cwd uuid p (mode_text m) = (fs, Err ToronError)) /\
  (forall mt, mt <> txt "ro" -> mt <> txt "rw" -> mt <> txt "rwc" ->
     cli_bind_file fs cwd uuid p mt = (fs, Err ToronError)).
Proof.
  intros fs cwd uuid p m W. unfold FileOpen_Model.cli_bind_file, FileOpen_Model.bind_file.
  rewrite read_mode_iff. split; [|split; [|split]].
  - intros L M. unfold may_bind, exists_, is_dir. rewrite L. destruct m; try contradiction; reflexivity.
  - intros l r c L G M. unfold may_bind, exists_, is_dir, access_w. rewrite L. cbn [bind]. rewrite G.
    destruct m; try contradiction; reflexivity.
  - intros l w x v u a db L G N0. unfold may_bind, exists_, is_dir, access_w. rewrite (backend_iff _ _ _ _ L), L. cbn [bind]. rewrite G.
    rewrite recognise by (eapply W; eauto).
    assert (K : (a =? 19760328) && (u =? 1145130033) = false).
    { apply andb_false_iff. rewrite !N.eqb_neq. tauto. }
    rewrite K. destruct m; simpl; try reflexivity; destruct w; reflexivity.
  - intros mt A B C. unfold read_mode. apply teqb_neq in A, B, C. rewrite A, B, C. reflexivity.
Qed.

(** Finding: a new file cannot be made under a bare name.  bind_file asks whether the directory
    of the path is writable, and that is the empty text for a bare name, even if the working
    directory is writable. *)
Theorem C64_bare_name_always_refused : forall fs cwd uuid p, ~ In 47 p -> lookup fs cwd p = Ok None ->
  bind_file fs cwd uuid p (txt "rwc") = (fs, Err OsError).
Proof.
  intros fs cwd uuid p N0 L. unfold FileOpen_Model.bind_file. change (read_mode (txt "rwc")) with (Some RWC). cbv iota.
  unfold may_bind, exists_. rewrite L.
  assert (Dn : dirname p = []).
  { unfold dirname. destruct (path_split p) as [d t] eqn:P. destruct (path_split_spec _ _ _ P) as (_ & [(-> & _)|[(n & K & -> & ->)|(n & _ & K & -> & _)]]); auto;
      exfalso; apply N0; destruct n; try lia; [left; reflexivity|]. apply in_or_app. right. left. reflexivity. }
  rewrite Dn. reflexivity.
Qed.
End C64.
Print Assumptions C64_bind_existing.
Print Assumptions C64_bind_missing.
Print Assumptions C64_created_again.
Print Assumptions C64_bind_error.
Print Assumptions C64_read_only.
Print Assumptions C64_read.
Print Assumptions C64_recognised.
Print Assumptions C64_backup.
Print Assumptions C64_backup_name.
Print Assumptions C64_cli_errors.
Print Assumptions C64_bare_name_always_refused.

(** A concrete file system: /d is a writable directory (the working directory) with a Toron
    file, an outdated one, and one whose name is the byte 255. *)
Definition ex_db (v : string) (data : nat) : @dbase nat := {| d_version := txt v; d_uid := txt "u"; d_data := data |}.
Definition ex_file (v : string) (data : nat) : @node nat :=
  File true true (Database (repeat 0 44) (repeat 0 4) 1145130033 19760328 (Some (ex_db v data))).
Definition ex_fs : @fsys nat :=
  [ ([], Dir true); ([txt "d"], Dir true); ([txt "d"; txt "a"], ex_file "0.3.1" 1);
    ([txt "d"; txt "backup-a"], ex_file "0.3.1" 2); ([txt "d"; txt "old"], ex_file "0.2.0" 3);
    ([txt "d"; [255]], ex_file "0.3.1" 4) ].
Definition ex_migrate (d : @dbase nat) : res (@dbase nat) :=
  Ok {| d_version := txt "0.3.1"; d_uid := d_uid d; d_data := d_data d |}.

Lemma ex_wf : wf_fs ex_fs.
Proof.
  split; [eexists; reflexivity|]. split.
  - assert (H : forall l x n, get ex_fs (l ++ [x]) = Some n ->
      (l = [] /\ x = txt "d") \/ (l = [txt "d"] /\ In x [txt "a"; txt "backup-a"; txt "old"; [255]])).
    { intros l x n G. assert (I : exists m, In (l ++ [x], m) ex_fs).
      { revert G. generalize ex_fs. induction f as [|[k m] f IH]; simpl; [discriminate|].
        destruct (loc_eqb k (l ++ [x])) eqn:E.
        - apply leqb_iff in E. intros _. exists m. left. rewrite E. reflexivity.
        - intro G. destruct (IH G) as [m' I]. exists m'. right. auto. }
      destruct I as [m I]. simpl in I.
      destruct I as [I|[I|[I|[I|[I|[I|[]]]]]]]; injection I as I _.
      - destruct l; discriminate.
      - left. destruct l as [|y [|z l]]; try discriminate. injection I as ->. auto.
      - right. destruct l as [|y [|z [|? ?]]]; try discriminate. injection I as -> ->. simpl. auto.
      - right. destruct l as [|y [|z [|? ?]]]; try discriminate. injection I as -> ->. simpl. auto.
      - right. destruct l as [|y [|z [|? ?]]]; try discriminate. injection I as -> ->. simpl. auto.
      - right. destruct l as [|y [|z [|? ?]]]; try discriminate. injection I as -> ->. simpl. auto 6. }
    intros l x n G. destruct (H l x n G) as [(-> & ->)|(-> & I)].
    + split; [|eexists; reflexivity]. repeat split; try discriminate; simpl; intuition discriminate.
    + split; [|eexists; reflexivity]. simpl in I.
      destruct I as [<-|[<-|[<-|[<-|[]]]]]; repeat split; try discriminate; simpl; intuition discriminate.
  - intros l r w c G.
    assert (I : exists k, In (k, File r w c) ex_fs).
    { revert G. generalize ex_fs. induction f as [|[k m] f IH]; simpl; [discriminate|].
      destruct (loc_eqb k l).
      - intro E. injection E as ->. exists k. left. auto.
      - intro E. destruct (IH E) as [k' I]. exists k'. right. auto. }
    destruct I as [k I]. simpl in I.
    destruct I as [I|[I|[I|[I|[I|[I|[]]]]]]]; try discriminate; injection I; intros; subst; repeat split; vm_compute; reflexivity.
Qed.

(** The file ../d/./a is bound and can be written; the outdated one is brought up to date. *)
Example C64_bind_example :
  exists s, bind_file 0%nat ex_migrate ex_fs (txt "/d") (txt "new") (txt "../d/./a") (txt "rw") = (ex_fs, Ok s) /\
    k_path (s_conn s) = Some (txt "/d/a") /\
    get (fst (modify ex_fs (s_conn s) S)) [txt "d"; txt "a"] = Some (ex_file "0.3.1" 2).
Proof. eexists. split; [vm_compute; reflexivity|]. split; vm_compute; reflexivity. Qed.
Example C64_migrate_example :
  get (fst (bind_file 0%nat ex_migrate ex_fs (txt "/d") (txt "new") (txt "old") (txt "rw"))) [txt "d"; txt "old"]
  = Some (ex_file "0.3.1" 3).
Proof. vm_compute. reflexivity. Qed.
Example C64_new_example :
  exists fs s, bind_file 0%nat ex_migrate ex_fs (txt "/d") (txt "new") (txt "./x y") (txt "rwc") = (fs, Ok s) /\
    db_of (get fs [txt "d"; txt "x y"]) = Ok {| d_version := txt "0.3.1"; d_uid := txt "new"; d_data := 0%nat |}.
Proof. eexists _, _. split; [vm_compute; reflexivity|]. vm_compute. reflexivity. Qed.
(** Two nodes are backed up: the conditions of C64_backup hold, and the copies are there. *)
Example C64_backup_example :
  exists fs1 s1 s2 fs2,
    bind_file 0%nat ex_migrate ex_fs (txt "/d") (txt "n") (txt "../d/old") (txt "rw") = (fs1, Ok s2) /\
    bind_file 0%nat ex_migrate fs1 (txt "/d") (txt "n") (txt "/d//a") (txt "ro") = (fs1, Ok s1) /\
    names (txt "/d") (backup_path (txt "/d//a")) [txt "d"; txt "backup-a"] /\
    names (txt "/d") (backup_path (txt "../d/old")) [txt "d"; txt "backup-old"] /\
    process_backup_option fs1 (txt "/d") true [s1; s2] = (fs2, Ok tt) /\
    get fs2 [txt "d"; txt "backup-a"] = Some (ex_file "0.3.1" 1) /\
    get fs2 [txt "d"; txt "backup-old"] = Some (ex_file "0.3.1" 3).
Proof.
  eexists _, _, _, _. split; [vm_compute; reflexivity|]. split; [vm_compute; reflexivity|].
  split; [eexists; split; vm_compute; reflexivity|]. split; [eexists; split; vm_compute; reflexivity|].
  split; [vm_compute; reflexivity|]. split; vm_compute; reflexivity.
Qed.

Theorem C64_bare_name_refuted : exists fs cwd p, wf_fs fs /\ lookup fs cwd p = Ok None /\
  access_w fs cwd (txt ".") = Ok true /\
  bind_file 0%nat ex_migrate fs cwd (txt "new") p (txt "rwc") = (fs, Err OsError).
Proof. exists ex_fs, (txt "/d"), (txt "new.toron"). split; [apply ex_wf|]. repeat split; vm_compute; reflexivity. Qed.
Print Assumptions C64_bare_name_refuted.

(** Finding: a file whose name is not valid UTF-8 is found and recognised, but it can neither be
    bound nor read, as urllib.parse.quote refuses the surrogates that stand for such bytes. *)
Theorem C64_bytes_name_refuted : exists fs cwd p, wf_fs fs /\ get_backend fs cwd p = Ok tt /\
  access_w fs cwd p = Ok true /\
  bind_file 0%nat ex_migrate fs cwd (txt "new") p (txt "rw") = (fs, Err ValueError) /\
  read_file ex_migrate fs cwd p = (fs, Err ValueError).
Proof. exists ex_fs, (txt "/d"), [56575]. split; [apply ex_wf|]. repeat split; vm_compute; reflexivity. Qed.
Print Assumptions C64_bytes_name_refuted.

(** Finding: a path with NUL is not refused in mode 'rwc'; a file is made whose name ends
    before the NUL. *)
Theorem C64_nul_refuted : exists fs cwd p fs' s, wf_fs fs /\ exists_ fs cwd p = false /\
  bind_file 0%nat ex_migrate fs cwd (txt "new") p (txt "rwc") = (fs', Ok s) /\
  exists_ fs' cwd p = false /\ get fs [txt "d"; txt "x"] = None /\
  db_of (get fs' [txt "d"; txt "x"]) = Ok {| d_version := txt "0.3.1"; d_uid := txt "new"; d_data := 0%nat |}.
Proof.
  exists ex_fs, (txt "/d"), (txt "/d/x" ++ [0] ++ txt "y"). eexists _, _. split; [apply ex_wf|].
  split; [vm_compute; reflexivity|]. split; [vm_compute; reflexivity|]. split; [vm_compute; reflexivity|].
  split; vm_compute; reflexivity.
Qed.
Print Assumptions C64_nul_refuted.

(** Finding: with two nodes in the files 'a' and 'backup-a', the backup of the first replaces the
    file of the second, whose data are lost before the command does its work; all that
    without an error. *)
Theorem C64_backup_alias_refuted : exists fs cwd s1 s2 fs', wf_fs fs /\
  bind_file 0%nat ex_migrate fs cwd (txt "n") (txt "a") (txt "rw") = (fs, Ok s1) /\
  bind_file 0%nat ex_migrate fs cwd (txt "n") (txt "backup-a") (txt "rw") = (fs, Ok s2) /\
  process_backup_option fs cwd true [s1; s2] = (fs', Ok tt) /\
  db_of (get fs [txt "d"; txt "backup-a"]) = Ok (ex_db "0.3.1" 2) /\
  (forall l d, db_of (get fs' l) = Ok d -> d <> ex_db "0.3.1" 2) /\
  (do c <- snd (query fs' (s_conn s2)); db_in c) = Ok (ex_db "0.3.1" 1).
Proof.
  exists ex_fs, (txt "/d"). eexists _, _, _. split; [apply ex_wf|].
  split; [vm_compute; reflexivity|]. split; [vm_compute; reflexivity|]. split; [vm_compute; reflexivity|].
  split; [vm_compute; reflexivity|]. split; [|vm_compute; reflexivity].
  intros l d. 
  match goal with |- context [get ?f l] => set (fs' := f) end.
  assert (H : forallb (fun e => match db_of (Some (snd e)) with Ok d => negb (Nat.eqb (d_data d) 2) | Err _ => true end) fs' = true) by (vm_compute; reflexivity).
  clearbody fs'. induction fs' as [|[k n] f IH]; simpl; [discriminate|]. simpl in H. apply andb_true_iff in H. destruct H as [H1 H2].
  destruct (loc_eqb k l).
  - intros E. simpl in E, H1. rewrite E in H1. intros ->. discriminate.
  - apply IH. exact H2.
Qed.
Print Assumptions C64_backup_alias_refuted.

(** Finding: binding an outdated file read-only raises a plain Exception, which the command
    line does not turn into one of its own errors. *)
Theorem C64_outdated_refuted : exists fs cwd p, wf_fs fs /\ get_backend fs cwd p = Ok tt /\
  cli_bind_file 0%nat ex_migrate fs cwd (txt "n") p (txt "ro") = (fs, Err PlainException).
Proof. exists ex_fs, (txt "/d"), (txt "old"). split; [apply ex_wf|]. split; vm_compute; reflexivity. Qed.
Print Assumptions C64_outdated_refuted.
