(** The file system, opening and binding (property C64). *)
From Verif Require Import Prelude Selectors_Model FileOpen_Model FileOpen_Spec FileOpen_Proofs.
Local Open Scope N_scope.

Section P.
Context {D : Type} (empty_data : D) (migrate : @dbase D -> res (@dbase D)).
Notation fsys := (@fsys D).

Lemma get_set : forall (fs : fsys) l n k, get (set fs l n) k = if loc_eqb l k then Some n else get fs k.
Proof.
  induction fs as [|[a b] fs IH]; intros; simpl; auto.
  destruct (loc_eqb a l) eqn:E; simpl.
  - apply leqb_iff in E. subst. destruct (loc_eqb l k); auto.
  - rewrite IH. destruct (loc_eqb a k) eqn:E2; auto.
    apply leqb_iff in E2. subst. destruct (loc_eqb l k) eqn:E3; auto.
    apply leqb_iff in E3. subst. rewrite leqb_refl in E. discriminate.
Qed.
Lemma get_set_same : forall (fs : fsys) l n, get (set fs l n) l = Some n.
Proof. intros. rewrite get_set, leqb_refl. reflexivity. Qed.
Lemma get_set_other : forall (fs : fsys) l n k, k <> l -> get (set fs l n) k = get fs k.
Proof. intros. rewrite get_set. assert (l <> k) by congruence. apply leqb_neq in H0. rewrite H0. reflexivity. Qed.
Lemma set_only : forall (fs : fsys) l n, only_changed fs (set fs l n) l n.
Proof. intros. split; [apply get_set_same|]. intros. apply get_set_other; auto. Qed.

(** Walking *)
Lemma ancestor : forall (fs : fsys) b a n, wf_fs fs -> get fs (a ++ b) = Some n -> b <> [] ->
  exists w, get fs a = Some (Dir w).
Proof.
  intros fs b. induction b as [|x b IH] using rev_ind; intros a n W G N0; [contradiction|].
  rewrite app_assoc in G. pose proof W as (R & T & K). destruct (T _ _ _ G) as (_ & w & P).
  destruct b as [|y b]; [rewrite app_nil_r in P; eauto|].
  eapply IH; [exact W|exact P|discriminate].
Qed.
Lemma removelast_rev : forall (l : loc), rev (removelast l) = tl (rev l).
Proof.
  intros. destruct l using rev_ind; [reflexivity|]. rewrite removelast_last, rev_app_distr. reflexivity.
Qed.
Lemma walk_norm : forall (fs : fsys) l a k, walk fs a l = Some k -> norm_from (rev a) l = k.
Proof.
  induction l; intros; simpl in *.
  - injection H as <-. apply rev_involutive.
  - destruct (get fs a0) as [[w|? ? ?]|]; try discriminate.
    destruct (text_eqb a [] || text_eqb a dot); [apply IHl; auto|].
    destruct (text_eqb a dotdot).
    + rewrite <- removelast_rev. apply IHl; auto.
    + destruct (get fs (a0 ++ [a])); [|discriminate]. apply IHl in H. rewrite rev_app_distr in H. exact H.
Qed.
Lemma removelast_get : forall (fs : fsys) a n, wf_fs fs -> get fs a = Some n -> exists n', get fs (removelast a) = Some n'.
Proof.
  intros. destruct a using rev_ind; [simpl; eauto|]. rewrite removelast_last.
  destruct H as (R & T & K). destruct (T _ _ _ H0) as (_ & w & P). eauto.
Qed.
Lemma walk_get : forall (fs : fsys) l a k, wf_fs fs -> (exists n, get fs a = Some n) -> walk fs a l = Some k ->
  exists n, get fs k = Some n.
Proof.
  induction l; intros; simpl in *; [injection H1 as <-; auto|].
  destruct (get fs a0) as [[w|? ? ?]|] eqn:G; try discriminate.
  destruct (text_eqb a [] || text_eqb a dot); [eapply IHl; eauto|].
  destruct (text_eqb a dotdot).
  - eapply IHl; [auto| |eauto]. eapply removelast_get; eauto.
  - destruct (get fs (a0 ++ [a])) eqn:E; [|discriminate]. eapply IHl; eauto.
Qed.
Lemma walk_good : forall (fs : fsys) l a n, wf_fs fs -> Forall plain_name l -> get fs (a ++ l) = Some n ->
  walk fs a l = Some (a ++ l).
Proof.
  induction l; intros; simpl; [rewrite app_nil_r; reflexivity|].
  destruct (ancestor _ (a :: l) a0 _ H H1) as [w E]; [discriminate|]. rewrite E.
  inversion H0; subst. destruct H4 as (A & B & C). apply teqb_neq in A, B, C. rewrite A, B, C. simpl.
  replace (a0 ++ a :: l) with ((a0 ++ [a]) ++ l) in * by (rewrite <- app_assoc; reflexivity).
  assert (X : exists m, get fs (a0 ++ [a]) = Some m).
  { destruct l; [rewrite app_nil_r in H1; eauto|].
    destruct (ancestor _ (l :: l0) (a0 ++ [a]) _ H H1) as [w2 E2]; [discriminate|]. eauto. }
  destruct X as [m X]. rewrite X. eapply IHl; eauto.
Qed.

Lemma existsb0 : forall b, existsb (N.eqb 0) b = false <-> ~ In 0 b.
Proof.
  intros. split.
  - intros H I. assert (existsb (N.eqb 0) b = true) by (apply existsb_exists; exists 0; auto). congruence.
  - intros. destruct (existsb (N.eqb 0) b) eqn:E; auto. apply existsb_exists in E.
    destruct E as (x & I & E). apply N.eqb_eq in E. subst. contradiction.
Qed.
Lemma os_bytes_inv : forall cwd p b, os_bytes cwd p = Ok b -> fsencode (full cwd p) = Ok b /\ ~ In 0 b.
Proof.
  unfold os_bytes. intros. destruct (fsencode (full cwd p)); [|discriminate]. simpl in H.
  destruct (existsb (N.eqb 0) a) eqn:E; [discriminate|]. injection H as <-. apply existsb0 in E. auto.
Qed.
Lemma norm_parts : forall b, Forall (fun w => ~ In 47 w) (norm (split_slash b)).
Proof. intros. apply norm_from_prop; [constructor|apply split_no47]. Qed.
Lemma norm_no0 : forall b, ~ In 0 b -> Forall (fun w => ~ In 0 w) (norm (split_slash b)).
Proof.
  intros. apply norm_from_prop; [constructor|].
  assert (F : Forall (fun c => c <> 0) b) by (apply Forall_forall; intros; intro; subst; auto).
  apply split_sub in F. eapply Forall_impl; [|exact F]. simpl. intros a K I.
  rewrite Forall_forall in K. apply (K 0); auto.
Qed.
Lemma abs_no0 : forall l, Forall (fun w => ~ In 0 w) l -> ~ In 0 (abs_text l).
Proof.
  intros. destruct l; [intros [|[]]; discriminate|]. unfold abs_text. intro I. apply in_flat_map in I.
  destruct I as (w & I & [J|J]); [discriminate|]. rewrite Forall_forall in H. eapply H; eauto.
Qed.
Lemma os_bytes_abs : forall cwd p b, os_bytes cwd p = Ok b ->
  os_bytes cwd (abspath cwd p) = Ok (abs_text (norm (split_slash b))).
Proof.
  intros. apply os_bytes_inv in H. destruct H as [E Z]. unfold os_bytes.
  rewrite full_abs by apply abspath_abs. rewrite (enc_abspath _ _ _ E). simpl.
  assert (K : existsb (N.eqb 0) (abs_text (norm (split_slash b))) = false).
  { apply existsb0. apply abs_no0. apply norm_no0; auto. }
  rewrite K. reflexivity.
Qed.

Lemma lookup_some : forall (fs : fsys) cwd p l, wf_fs fs -> lookup fs cwd p = Ok (Some l) ->
  names cwd p l /\ exists n, get fs l = Some n.
Proof.
  intros fs cwd p l W H. unfold lookup in H. destruct p as [|c p]; [discriminate|].
  destruct (os_bytes cwd (c :: p)) as [b|] eqn:E; [|discriminate]. simpl in H. injection H as H.
  unfold lookup_bytes in H. split.
  - exists b. split; auto. symmetry. apply (walk_norm fs _ [] l H).
  - eapply walk_get; [auto| |exact H]. destruct W as ((w & R) & _). eauto.
Qed.
Lemma abspath_ne : forall cwd p, exists c r, abspath cwd p = c :: r.
Proof. intros. pose proof (abspath_abs cwd p). destruct (abspath cwd p); [discriminate|eauto]. Qed.

Lemma lookup_abspath : forall (fs : fsys) cwd p l, wf_fs fs -> names cwd p l ->
  lookup fs cwd (abspath cwd p) = Ok (match get fs l with Some _ => Some l | None => None end).
Proof.
  intros fs cwd p l W (b & E & ->). unfold lookup. destruct (abspath_ne cwd p) as (c & r & Q).
  rewrite (os_bytes_abs _ _ _ E). rewrite Q. simpl bind. f_equal.
  set (l := norm (split_slash b)). unfold lookup_bytes.
  assert (S1 : walk fs [] (split_slash (abs_text l)) = walk fs [] l).
  { destruct W as ((w & R) & _). destruct l eqn:L.
    - simpl. rewrite R. reflexivity.
    - rewrite split_abs; [|rewrite <- L; apply norm_parts|discriminate]. simpl. rewrite R. reflexivity. }
  rewrite S1. destruct (get fs l) eqn:G.
  - rewrite (walk_good fs l [] n); auto. apply norm_plain.
  - destruct (walk fs [] l) eqn:K; auto. pose proof (walk_norm _ _ _ _ K) as X.
    assert (R0 : exists n, get fs [] = Some n) by (destruct W as ((w & R) & _); eauto).
    destruct (walk_get fs l [] l0 W R0 K) as [n G2].
    change (norm_from (rev []) l) with (norm l) in X. rewrite norm_id in X by apply norm_plain. congruence.
Qed.

(** Opening *)
Definition open_at (fs : fsys) (l : loc) (om : mode) : fsys * res handle :=
  match get fs l with
  | Some (File true w _) =>
      (fs, Ok {| h_at := l; h_writable := match om with RO => false | _ => w end |})
  | Some _ => (fs, Err SqlOperationalError)
  | None =>
      match om, get fs (removelast l) with
      | RWC, Some (Dir true) =>
          (set fs l (File true true (Other [])), Ok {| h_at := l; h_writable := true |})
      | _, _ => (fs, Err SqlOperationalError)
      end
  end.
Lemma connect_alt : forall (fs : fsys) path m, connect fs path m =
  match (do u <- make_uri path m; sqlite_uri u) with
  | Err e => (fs, Err e)
  | Ok (b, om) => open_at fs (norm (split_slash b)) om
  end.
Proof. reflexivity. Qed.

Lemma py_full : forall cwd p, py_text cwd -> py_text p -> py_text (full cwd p).
Proof.
  intros cwd p A B c I. unfold full in I. destruct (is_abs p); auto.
  apply in_app_or in I. destruct I as [I|[<-|I]]; auto. lia.
Qed.
Lemma py_abspath : forall cwd p, py_text cwd -> py_text p -> py_text (abspath cwd p).
Proof.
  intros cwd p A B. pose proof (py_full _ _ A B) as F.
  assert (G : Forall (Forall (fun c => c < 1114112)) (norm (split_slash (full cwd p)))).
  { apply norm_from_prop; [constructor|]. apply split_sub. apply Forall_forall. exact F. }
  intros c I. unfold abspath in I. destruct (norm (split_slash (full cwd p))) as [|w l].
  - destruct I as [<-|[]]. lia.
  - unfold abs_text in I. apply in_flat_map in I. destruct I as (x & I & [<-|J]); [lia|].
    rewrite Forall_forall in G. specialize (G _ I). rewrite Forall_forall in G. apply G; auto.
Qed.
Lemma utf8_lt : forall t b, utf8 t = Ok b -> py_text t -> Forall (fun x => x < 256) b.
Proof.
  induction t; simpl; intros; [injection H as <-; constructor|].
  destruct (surrogate a); [discriminate|]. destruct (utf8 t) eqn:E; [|discriminate]. simpl in H. injection H as <-.
  apply Forall_app. split.
  - apply Forall_forall. intros x I. eapply utf8_char_byte; eauto. apply H0. left; auto.
  - apply IHt; auto. intros c I. apply H0. right; auto.
Qed.

Lemma connect_names : forall fs cwd p l m, py_text cwd -> py_text p -> names cwd p l -> unicode (abspath cwd p) ->
  connect fs (abspath cwd p) m = open_at fs l (default_mode m).
Proof.
  intros fs cwd p l m A B (b & E & ->) U. apply utf8_ok_iff in U. destruct U as [b1 U].
  pose proof (os_bytes_abs _ _ _ E) as E1. apply os_bytes_inv in E1. destruct E1 as [E1 Z].
  rewrite full_abs in E1 by apply abspath_abs. pose proof (utf8_fsencode _ _ U) as E2.
  rewrite E1 in E2. injection E2 as E2. rewrite connect_alt.
  rewrite (uri_round _ b1); auto.
  - rewrite collapse_norm. rewrite <- E2. rewrite norm_split_abs; auto; [apply norm_parts|apply norm_plain].
  - apply abspath_abs.
  - pose proof (utf8_lt _ _ U (py_abspath _ _ A B)) as L. rewrite Forall_forall in *. intros x I. split; [|auto].
    rewrite E2 in Z. assert (x <> 0) by (intros ->; contradiction). lia.
Qed.
Lemma connect_not_unicode : forall (fs : fsys) path m, ~ unicode path -> connect fs path m = (fs, Err ValueError).
Proof. intros. rewrite connect_alt. unfold make_uri, quote. rewrite utf8_not_unicode; auto. Qed.

Lemma unicode_dec : forall t, unicode t \/ ~ unicode t.
Proof.
  intros. destruct (utf8 t) eqn:E; [left; apply utf8_ok_iff; eauto|right].
  intro U. apply utf8_ok_iff in U. destruct U. congruence.
Qed.

(** Working on a file *)
Lemma update_holds : forall (fs : fsys) l r w c d d', get fs l = Some (File r w c) -> holds c d ->
  update fs l d' = set fs l (File r w (replaced c d')).
Proof. intros fs l r w c d d' G (x & v & u & a & ->). unfold update. rewrite G. reflexivity. Qed.
Lemma works : forall cwd p l uid m, py_text cwd -> py_text p -> names cwd p l -> unicode (abspath cwd p) ->
  works_on {| k_uid := uid; k_mode := Some m; k_path := Some (abspath cwd p); k_mem := @None (@content D) |} l
    (match m with RO => false | _ => true end).
Proof.
  intros cwd p l uid m A B N0 U fs w c d G H.
  assert (C : connect fs (abspath cwd p) (Some m) = (fs, Ok {| h_at := l; h_writable := match m with RO => false | _ => w end |})).
  { rewrite (connect_names fs cwd p l); auto. unfold open_at. rewrite G. reflexivity. }
  destruct H as (x & v & u & a & Hc). split.
  - unfold query. simpl. rewrite C. unfold content_at. simpl. rewrite G. subst. reflexivity.
  - intro f. unfold modify. cbn [k_mem k_path k_mode]. rewrite C. cbn [h_at h_writable]. rewrite G. subst. simpl db_of. cbv iota.
    destruct m; simpl; auto; destruct w; simpl; auto; eexists; (split; [reflexivity|]);
      erewrite update_holds; eauto; try apply set_only; try (exists x, v, u, a; reflexivity).
Qed.

(** Recognising *)
Lemma from_be32 : forall n, n < 4294967296 -> from_bytes (be32 n) = n.
Proof.
  intros. unfold from_bytes, be32. cbn [fold_left].
  pose proof (N.div_mod n 256 ltac:(lia)).
  pose proof (N.div_mod (n / 256) 256 ltac:(lia)).
  pose proof (N.div_mod (n / 65536) 256 ltac:(lia)).
  assert (n / 256 / 256 = n / 65536) by (rewrite N.div_div by lia; reflexivity).
  assert (n / 65536 / 256 = n / 16777216) by (rewrite N.div_div by lia; reflexivity).
  assert (n / 16777216 mod 256 = n / 16777216) by (apply N.mod_small; apply N.div_lt_upper_bound; lia).
  lia.
Qed.
Lemma be32_eqb : forall n b, n < 4294967296 -> (exists k, k < 4294967296 /\ b = be32 k) ->
  text_eqb (be32 n) b = (n =? from_bytes b).
Proof.
  intros n b L (k & K & ->). rewrite from_be32 by auto. destruct (N.eqb_spec n k).
  - subst. apply teqb_refl.
  - apply teqb_neq. intro E. apply n0. rewrite <- (from_be32 n), <- (from_be32 k), E; auto.
Qed.
Lemma slice_at : forall (a b : list N) n m, length a = n -> slice n m (a ++ b) = firstn (m - n) b.
Proof. intros. unfold slice. rewrite skipn_app, skipn_all2, <- H, Nat.sub_diag by lia. reflexivity. Qed.
Lemma recognise : forall x v u a (db : option (@dbase D)), wf_content (Database x v u a db) ->
  is_toron (firstn 72 (first_bytes (Database x v u a db))) = (a =? 19760328) && (u =? 1145130033).
Proof.
  intros x v u a db (X & V & U & A). unfold first_bytes.
  assert (L : length (sqlite_magic ++ x ++ be32 u ++ v ++ be32 a) = 72%nat).
  { rewrite !app_length, X, V. reflexivity. }
  rewrite firstn_all2 by lia. unfold is_toron. rewrite starts_app.
  replace (sqlite_magic ++ x ++ be32 u ++ v ++ be32 a) with ((sqlite_magic ++ x ++ be32 u ++ v) ++ be32 a) at 1
    by (rewrite !app_assoc; reflexivity).
  rewrite slice_at by (rewrite !app_length, X, V; reflexivity).
  replace (sqlite_magic ++ x ++ be32 u ++ v ++ be32 a) with ((sqlite_magic ++ x) ++ be32 u ++ v ++ be32 a)
    by (rewrite !app_assoc; reflexivity).
  rewrite slice_at by (rewrite !app_length, X; reflexivity).
  change (firstn (72 - 68) (be32 a)) with (be32 a).
  change (firstn (64 - 60) (be32 u ++ v ++ be32 a)) with (be32 u).
  rewrite (be32_eqb a toron_magic); [|auto|exists 19760328; split; [lia|reflexivity]].
  rewrite (be32_eqb u dal1); [|auto|exists 1145130033; split; [lia|reflexivity]].
  reflexivity.
Qed.

Lemma backend_iff : forall (fs : fsys) cwd p l, lookup fs cwd p = Ok (Some l) ->
  get_backend fs cwd p = match get fs l with
                         | Some (File true _ c) => if is_toron (firstn 72 (first_bytes c)) then Ok tt else Err ValueError
                         | _ => Err OsError end.
Proof. intros. unfold get_backend. rewrite H. reflexivity. Qed.

Lemma read_mode_iff : forall m, read_mode (mode_text m) = Some m.
Proof. destruct m; reflexivity. Qed.

(** Binding a file that exists *)
Lemma bind_existing : forall fs cwd uuid p m l, wf_fs fs -> py_text cwd -> py_text p ->
  lookup fs cwd p = Ok (Some l) ->
  (exists w c d fs' s, bindable migrate fs cwd p l m w c d /\
     bind_file empty_data migrate fs cwd uuid p (mode_text m) = (fs', Ok s) /\
     s_hint s = Some p /\
     (exists uid, s_conn s = {| k_uid := uid; k_mode := Some m; k_path := Some (abspath cwd p); k_mem := None |}) /\
     works_on (s_conn s) l (match m with RO => false | _ => true end) /\
     ((d_version d = latest /\ fs' = fs /\ k_uid (s_conn s) = d_uid d) \/
      (d_version d <> latest /\ exists d', migrate d = Ok d' /\ k_uid (s_conn s) = d_uid d' /\
         only_changed fs fs' l (File true w (replaced c d'))))) \/
  ((forall w c d, ~ bindable migrate fs cwd p l m w c d) /\
   exists e, bind_file empty_data migrate fs cwd uuid p (mode_text m) = (fs, Err e)).
Proof.
  intros fs cwd uuid p m l W A B L.
  destruct (lookup_some _ _ _ _ W L) as (Nm & n & G).
  unfold bind_file. rewrite read_mode_iff.
  assert (Ex : exists_ fs cwd p = true) by (unfold exists_; rewrite L; reflexivity).
  assert (MB : may_bind fs cwd p m =
     match n with
     | File r w c =>
         if match m with RO => true | _ => w end then
           if r then if is_toron (firstn 72 (first_bytes c)) then Ok tt else Err ValueError else Err OsError
         else Err OsError
     | Dir _ => Err OsError
     end).
  { unfold may_bind. rewrite Ex. unfold access_w. rewrite (backend_iff _ _ _ _ L), L. unfold bind. rewrite G.
    destruct n as [w|r w c].
    - destruct m; simpl; try reflexivity; destruct w; reflexivity.
    - destruct m; simpl; try reflexivity; destruct r, w; reflexivity. }
  rewrite MB. clear MB. destruct n as [w|r w c].
  { right. split; [|eauto]. intros w0 c d (K & _). congruence. }
  assert (F : forall P : Prop, (forall w0 c0 d, w0 = w -> c0 = c -> r = true -> toron_content c d -> (m <> RO -> w = true) -> unicode (abspath cwd p) ->
      (d_version d = latest \/ (m <> RO /\ exists d', migrate d = Ok d')) -> P) ->
      (exists w0 c0 d, bindable migrate fs cwd p l m w0 c0 d) -> P).
  { intros P H (w0 & c0 & d & (K1 & K2 & K3 & K4 & K5)). rewrite G in K1. injection K1 as K1a K1b K1c. subst w0 c0. eapply H; eauto. }
  assert (Fail : forall e0 : exn, (~ exists w0 c0 d, bindable migrate fs cwd p l m w0 c0 d) ->
     (forall w0 c0 d, ~ bindable migrate fs cwd p l m w0 c0 d)).
  { intros e0 H w0 c0 d K. apply H. eauto. }
  destruct (match m with RO => true | _ => w end) eqn:E1.
  2:{ right. split; [apply Fail; [exact OsError|]|eauto]. intro K. revert K. apply F. intros.
      destruct m; try discriminate; rewrite H3 in E1 by discriminate; discriminate. }
  destruct r.
  2:{ right. split; [apply Fail; [exact OsError|]|eauto]. intro K. revert K. apply F. intros. discriminate. }
  destruct (is_toron (firstn 72 (first_bytes c))) eqn:E2.
  2:{ right. split; [apply Fail; [exact OsError|]|eauto]. intro K. revert K. apply F. intros.
      destruct H2 as (x & v & ->). rewrite recognise in E2 by (eapply W; eauto). discriminate. }
  unfold connector_bind. unfold exists_. rewrite (lookup_abspath fs cwd p l W Nm), G. cbn [negb].
  destruct (unicode_dec (abspath cwd p)) as [U|U].
  2:{ rewrite connect_not_unicode by auto. right. split; [apply Fail; [exact OsError|]|eauto].
      intro K. revert K. apply F. intros. contradiction. }
  rewrite (connect_names fs cwd p l) by auto. unfold open_at. rewrite G. cbn [h_at h_writable default_mode].
  rewrite G. destruct c as [x v u a db|by_].
  2:{ simpl db_of. cbv iota. right. split; [apply Fail; [exact OsError|]|eauto].
      intro K. revert K. apply F. intros. destruct H2 as (? & ? & ?). discriminate. }
  pose proof E2 as E3. rewrite recognise in E3 by (eapply W; eauto).
  apply andb_true_iff in E3. destruct E3 as [E3 E4]. apply N.eqb_eq in E3, E4. subst a u.
  destruct db as [d|].
  2:{ simpl db_of. cbv iota. right. split; [apply Fail; [exact OsError|]|eauto].
      intro K. revert K. apply F. intros. destruct H2 as (? & ? & ?). discriminate. }
  simpl db_of. cbv iota. unfold apply_migrations.
  assert (T : toron_content (Database x v 1145130033 19760328 (Some d)) d) by (exists x, v; reflexivity).
  assert (Wr : m <> RO -> w = true) by (intro; destruct m; auto; contradiction).
  destruct (text_eqb (d_version d) latest) eqn:V.
  - apply teqb_iff in V. left. exists w, (Database x v 1145130033 19760328 (Some d)), d, fs. eexists.
    split; [repeat split; auto|]. split; [reflexivity|]. cbn [s_hint s_conn k_mem k_uid].
    split; [reflexivity|]. split; [eexists; reflexivity|]. split; [|auto].
    apply works; auto.
  - apply teqb_neq in V.
    assert (Sub : forall d0, toron_content (Database x v 1145130033 19760328 (Some d)) d0 -> d0 = d)
      by (intros d0 (? & ? & Q); congruence).
    assert (Step : m <> RO ->
      (match migrate d with Ok d' => True | Err _ => True end) -> True) by auto.
    destruct m.
    + right. split; [apply Fail; [exact OsError|]|eauto]. intro K. revert K. apply F. intros w0 c0 d0 _ _ _ T0 _ _ [Q|[Q _]].
      * rewrite (Sub _ T0) in Q. contradiction.
      * contradiction.
    + cbv iota. destruct (migrate d) as [d'|e] eqn:Mg.
      * rewrite E1. left. exists w, (Database x v 1145130033 19760328 (Some d)), d.
        rewrite (update_holds fs l true w (Database x v 1145130033 19760328 (Some d)) d); auto; [|exists x, v, 1145130033, 19760328; reflexivity].
        eexists. eexists. split; [repeat split; eauto; right; split; [discriminate|eauto]|]. split; [rewrite E1; reflexivity|].
        cbn [s_hint s_conn k_mem k_uid]. split; [reflexivity|]. split; [eexists; reflexivity|]. split; [apply (works cwd p l _ RW); auto|].
        right. split; auto. exists d'. rewrite E1. split; auto. split; auto. apply set_only.
      * right. split; [apply Fail; [exact OsError|]|eauto]. intro K. revert K. apply F. intros w0 c0 d0 _ _ _ T0 _ _ [Q|[_ [d' Q]]].
        -- rewrite (Sub _ T0) in Q. contradiction.
        -- rewrite (Sub _ T0) in Q. congruence.
    + cbv iota. destruct (migrate d) as [d'|e] eqn:Mg.
      * rewrite E1. left. exists w, (Database x v 1145130033 19760328 (Some d)), d.
        rewrite (update_holds fs l true w (Database x v 1145130033 19760328 (Some d)) d); auto; [|exists x, v, 1145130033, 19760328; reflexivity].
        eexists. eexists. split; [repeat split; eauto; right; split; [discriminate|eauto]|]. split; [rewrite E1; reflexivity|].
        cbn [s_hint s_conn k_mem k_uid]. split; [reflexivity|]. split; [eexists; reflexivity|]. split; [apply (works cwd p l _ RWC); auto|].
        right. split; auto. exists d'. rewrite E1. split; auto. split; auto. apply set_only.
      * right. split; [apply Fail; [exact OsError|]|eauto]. intro K. revert K. apply F. intros w0 c0 d0 _ _ _ T0 _ _ [Q|[_ [d' Q]]].
        -- rewrite (Sub _ T0) in Q. contradiction.
        -- rewrite (Sub _ T0) in Q. congruence.
Qed.
End P.
