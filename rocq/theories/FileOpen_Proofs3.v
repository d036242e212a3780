(** New files, reading, errors and backups (property C64). *)
From Verif Require Import Prelude Selectors_Model FileOpen_Model FileOpen_Spec FileOpen_Proofs FileOpen_Proofs2.
Local Open Scope N_scope.

(** dirname and basename *)
Lemma cut_last_spec : forall p h t, cut_last p = (h, t) ->
  p = h ++ t /\ ~ In 47 t /\ (h = [] \/ exists q, h = q ++ [47]).
Proof.
  induction p; intros; simpl in *.
  - injection H as <- <-. repeat split; auto.
  - destruct (cut_last p) as [h' t'] eqn:E. destruct (IHp _ _ eq_refl) as (A & B & C).
    destruct (N.eqb_spec a 47).
    + injection H as <- <-. subst. repeat split; auto. right.
      destruct C as [->|[q ->]]; [exists []; reflexivity|exists (47 :: q); reflexivity].
    + destruct h' as [|x h'].
      * injection H as <- <-. subst. simpl. repeat split; auto. intros [|]; auto.
      * injection H as <- <-. subst. repeat split; auto. right.
        destruct C as [|[q Q]]; [discriminate|]. exists (a :: q). simpl. rewrite Q. reflexivity.
Qed.
Lemma strip_spec : forall h, exists n, h = strip_slashes h ++ repeat 47 n.
Proof.
  induction h; [exists 0%nat; reflexivity|]. destruct IHh as [n H]. simpl. destruct (strip_slashes h) eqn:E.
  - destruct (N.eqb_spec a 47).
    + subst a. exists (S n). simpl in *. rewrite H at 1. reflexivity.
    + exists n. simpl. rewrite H at 1. reflexivity.
  - exists n. simpl in *. rewrite H at 1. reflexivity.
Qed.
Lemma strip_end : forall q, strip_slashes (q ++ [47]) <> q ++ [47].
Proof.
  induction q; simpl; [discriminate|]. destruct (strip_slashes (q ++ [47])) eqn:E.
  - destruct (a =? 47); intro K; [discriminate|]. injection K as K. destruct q; discriminate.
  - intro K. apply IHq. congruence.
Qed.
Lemma repeat_app47 : forall n (s : list N), repeat 47 n ++ 47 :: s = 47 :: repeat 47 n ++ s.
Proof. induction n; intros; simpl; auto. rewrite IHn. reflexivity. Qed.

(** How a path is made from its directory and its last part. *)
Lemma path_split_spec : forall p d t, path_split p = (d, t) ->
  ~ In 47 t /\
  ((d = [] /\ p = t) \/
   (exists n, (0 < n)%nat /\ d = repeat 47 n /\ p = d ++ t) \/
   (exists n, d <> [] /\ (0 < n)%nat /\ p = d ++ repeat 47 n ++ t /\ (forall q, d <> q ++ [47]))).
Proof.
  intros p d t H. unfold path_split in H. destruct (cut_last p) as [h t'] eqn:E.
  destruct (cut_last_spec _ _ _ E) as (A & B & C). destruct (strip_spec h) as [n S1].
  assert (NE : forall q, strip_slashes h <> q ++ [47]).
  { clear. induction h; simpl; intros q K; [destruct q; discriminate|]. destruct (strip_slashes h) eqn:E.
    - destruct (N.eqb_spec a 47); [destruct q; discriminate|]. destruct q as [|y q]; [injection K; intros; subst; contradiction|].
      injection K; intros. destruct q; discriminate.
    - destruct q as [|y q]; [discriminate|]. injection K; intros. apply (IHh q). auto. }
  destruct (strip_slashes h) as [|x q] eqn:S2.
  - injection H as <- <-. split; auto. simpl in S1. destruct n.
    + left. simpl in S1. subst. auto.
    + right. left. exists (S n). split; [lia|]. auto.
  - injection H as <- <-. split; auto. right. right. exists n. split; [discriminate|]. split.
    + destruct n; [|lia]. exfalso. simpl in S1. rewrite app_nil_r in S1.
      destruct C as [->|[r C]]; [discriminate|]. apply (NE r). rewrite <- C. auto.
    + split; auto. rewrite A, S1 at 1. rewrite <- app_assoc. reflexivity.
Qed.

Lemma full_app : forall cwd d s, d <> [] -> full cwd (d ++ s) = full cwd d ++ s.
Proof.
  intros. destruct d; [contradiction|]. unfold full. simpl. destruct (n =? 47); simpl; auto. rewrite <- app_assoc. reflexivity.
Qed.
Lemma enc_app_inv : forall a b z, enc (a ++ b) z -> exists x y, enc a x /\ enc b y /\ z = x ++ y.
Proof.
  induction a; intros.
  - exists [], z. repeat split; auto.
  - simpl in H. apply enc_inv in H. destruct H as (x & y & E & F & ->). destruct (IHa _ _ F) as (u & v & P & Q & ->).
    exists (x ++ u), v. split; [|split; auto; rewrite app_assoc; reflexivity].
    unfold enc. rewrite fsencode_cons, E. simpl. unfold enc in P. rewrite P. reflexivity.
Qed.
Lemma enc_slashes : forall n z, enc (repeat 47 n) z -> z = repeat 47 n.
Proof.
  induction n; intros; simpl in *; [unfold enc in H; simpl in H; congruence|].
  apply enc_inv in H. destruct H as (x & y & E & F & ->). rewrite enc_char_low in E by lia. injection E as <-.
  rewrite (IHn _ F). reflexivity.
Qed.
Lemma enc_fun : forall w a b, enc w a -> enc w b -> a = b.
Proof. unfold enc. intros. congruence. Qed.

Lemma split_slashes : forall n x, ~ In 47 x -> split_slash (repeat 47 n ++ x) = repeat [] n ++ [x].
Proof. induction n; intros; simpl; [apply split_single; auto|]. rewrite IHn by auto. reflexivity. Qed.
Lemma split_dir : forall b n x, (0 < n)%nat -> ~ In 47 x ->
  split_slash (b ++ repeat 47 n ++ x) = split_slash b ++ repeat [] (n - 1) ++ [x].
Proof.
  intros b n x P X. destruct n; [lia|]. simpl repeat at 1. simpl app at 2. rewrite split_app.
  rewrite split_slashes by auto. simpl. rewrite Nat.sub_0_r. reflexivity.
Qed.

Lemma enc_plain : forall t x, enc t x -> plain_name t -> ~ In 47 t -> plain_name x /\ ~ In 47 x.
Proof.
  intros t x E (A & B & C) N0. split.
  - repeat split; intro K.
    + apply A. apply (proj1 (enc_ascii [] t x (Forall_nil _) E)). auto.
    + apply B. apply (proj1 (enc_ascii dot t x ltac:(repeat constructor; lia) E)). auto.
    + apply C. apply (proj1 (enc_ascii dotdot t x ltac:(repeat constructor; lia) E)). auto.
  - pose proof (enc_split _ _ E) as S1. rewrite (split_single t) in S1 by auto.
    pose proof (split_no47 x) as F. destruct (split_slash x) as [|y l'] eqn:Sx; [inversion S1|].
    inversion S1; subst. inversion F; subst. assert (y = x) by (eapply enc_fun; eauto). subst. auto.
Qed.

(** The bytes of a path, from those of its directory. *)
Lemma dir_bytes : forall cwd p d t b, path_split p = (d, t) -> d <> [] -> plain_name t -> os_bytes cwd p = Ok b ->
  exists bd x pre, os_bytes cwd d = Ok bd /\ enc t x /\ plain_name x /\ ~ In 47 x /\ ~ In 0 x /\
    split_slash b = pre ++ [x] /\
    exists m m', pre ++ repeat [] m = split_slash bd ++ repeat [] m'.
Proof.
  intros cwd p d t b P Dn Pt O. apply os_bytes_inv in O. destruct O as [E Z].
  destruct (path_split_spec _ _ _ P) as (T & [(K & _)|[(n & Pn & Dd & Pp)|(n & _ & Pn & Pp & _)]]); [contradiction| |].
  - (* all slashes *)
    assert (F : full cwd p = repeat 47 n ++ t).
    { subst p. rewrite full_app by auto. rewrite Dd. unfold full. destruct n; [lia|]. reflexivity. }
    rewrite F in E. apply enc_app_inv in E. destruct E as (y & x & E1 & E2 & ->).
    apply enc_slashes in E1. subst y. destruct (enc_plain _ _ E2 Pt T) as [Px X].
    exists (repeat 47 n), x, (repeat [] n).
    split. { unfold os_bytes, full. rewrite Dd. destruct n; [lia|]. cbn [is_abs repeat]. change (47 =? 47) with true. cbv iota.
      assert (Q : fsencode (repeat 47 (S n)) = Ok (repeat 47 (S n))).
      { clear. induction (S n); [reflexivity|]. simpl repeat. apply enc_cons_low; [lia|]. exact IHn0. }
      change (47 :: repeat 47 n) with (repeat 47 (S n)). rewrite Q. cbv beta iota delta [bind].
      assert (Q2 : existsb (N.eqb 0) (repeat 47 (S n)) = false).
      { apply existsb0. intro I. apply repeat_spec in I. discriminate. }
      rewrite Q2. reflexivity. }
    split; [exact E2|]. split; [exact Px|]. split; [exact X|].
    split; [intro; apply Z; apply in_or_app; auto|].
    split; [apply split_slashes; auto|].
    exists 1%nat, 0%nat. rewrite app_nil_r. rewrite <- repeat_app.
    pose proof (split_slashes n [] ltac:(auto)) as Q. rewrite app_nil_r in Q. rewrite Q.
    rewrite repeat_app. reflexivity.
  - rewrite Pp in E. rewrite full_app in E by auto. apply enc_app_inv in E. destruct E as (bd & z & E1 & E2 & ->).
    apply enc_app_inv in E2. destruct E2 as (y & x & E2 & E3 & ->). apply enc_slashes in E2. subst y.
    destruct (enc_plain _ _ E3 Pt T) as [Px X].
    exists bd, x, (split_slash bd ++ repeat [] (n - 1)).
    split. { unfold os_bytes. unfold enc in E1. rewrite E1. simpl bind.
      assert (Q2 : existsb (N.eqb 0) bd = false) by (apply existsb0; intro; apply Z; apply in_or_app; auto).
      rewrite Q2. reflexivity. }
    split; [exact E3|]. split; [exact Px|]. split; [exact X|].
    split; [intro; apply Z; apply in_or_app; right; apply in_or_app; auto|].
    split; [rewrite split_dir by auto; rewrite app_assoc; reflexivity|].
    exists 0%nat, (n - 1)%nat. rewrite app_nil_r. reflexivity.
Qed.
Lemma norm_from_app : forall l acc r, norm_from acc (l ++ r) = norm_from (rev (norm_from acc l)) r.
Proof.
  induction l; intros; simpl; [rewrite rev_involutive; auto|].
  destruct (text_eqb a [] || text_eqb a dot); auto. destruct (text_eqb a dotdot); auto.
Qed.
Lemma norm_from_empties : forall m acc, norm_from acc (repeat [] m) = rev acc.
Proof. induction m; intros; simpl; auto. Qed.
Lemma norm_empties : forall l m, norm (l ++ repeat [] m) = norm l.
Proof. intros. unfold norm. rewrite norm_from_app, norm_from_empties, rev_involutive. reflexivity. Qed.
Lemma norm_last : forall l x, plain_name x -> norm (l ++ [x]) = norm l ++ [x].
Proof.
  intros. unfold norm. rewrite norm_from_app. rewrite norm_from_id by (constructor; auto). rewrite rev_involutive. reflexivity.
Qed.
Lemma dir_norm : forall pre bd x m m', pre ++ repeat [] m = split_slash bd ++ repeat [] m' -> plain_name x ->
  norm (pre ++ [x]) = norm (split_slash bd) ++ [x].
Proof.
  intros. rewrite norm_last by auto. rewrite <- (norm_empties pre m), H, norm_empties. reflexivity.
Qed.

Section P.
Context {D : Type} (empty_data : D) (migrate : @dbase D -> res (@dbase D)).
Notation fsys := (@fsys D).
Notation bind_file := (bind_file empty_data migrate).

Lemma walk_app : forall (fs : fsys) l a r, walk fs a (l ++ r) =
  match walk fs a l with Some k => walk fs k r | None => None end.
Proof.
  induction l; intros; simpl; auto.
  destruct (get fs a0) as [[w|? ? ?]|]; auto.
  destruct (text_eqb a [] || text_eqb a dot); auto. destruct (text_eqb a dotdot); auto.
  destruct (get fs (a0 ++ [a])); auto.
Qed.
Lemma walk_empties : forall (fs : fsys) m a w, get fs a = Some (Dir w) -> walk fs a (repeat [] m) = Some a.
Proof. induction m; intros; simpl; auto. rewrite H. eauto. Qed.
Lemma walk_pre : forall (fs : fsys) pre bd m m' dl w,
  pre ++ repeat [] m = split_slash bd ++ repeat [] m' -> get fs dl = Some (Dir w) ->
  walk fs [] (split_slash bd) = Some dl ->  walk fs [] pre = Some dl.
Proof.
  intros fs pre bd m m' dl w E G H.
  assert (K : walk fs [] (pre ++ repeat [] m) = Some dl).
  { rewrite E, walk_app, H. eapply walk_empties; eauto. }
  rewrite walk_app in K. destruct (walk fs [] pre) as [k|] eqn:Q; [|discriminate].
  destruct m; simpl in K; [congruence|]. destruct (get fs k) as [[w'|? ? ?]|] eqn:Gk; try discriminate.
  rewrite (walk_empties fs m k w' Gk) in K. congruence.
Qed.

Lemma lookup_new : forall (fs : fsys) cwd p d t b bd x pre m m' dl w,
  p <> [] -> os_bytes cwd p = Ok b -> split_slash b = pre ++ [x] -> pre ++ repeat [] m = split_slash bd ++ repeat [] m' ->
  plain_name x -> path_split p = (d, t) -> d <> [] -> os_bytes cwd d = Ok bd ->
  lookup fs cwd d = Ok (Some dl) -> get fs dl = Some (Dir w) ->
  lookup fs cwd p = Ok (match get fs (dl ++ [x]) with Some _ => Some (dl ++ [x]) | None => None end).
Proof.
  intros fs cwd p d t b bd x pre m m' dl w Pn O S1 E Px P Dn Od L G.
  unfold lookup in L. destruct d as [|d0 d]; [contradiction|]. rewrite Od in L. simpl in L. injection L as L.
  unfold lookup. destruct p; [contradiction|]. rewrite O. simpl. f_equal. unfold lookup_bytes in *. rewrite S1, walk_app.
  rewrite (walk_pre fs pre bd m m' dl w E G L). simpl. rewrite G.
  destruct Px as (A & B & C). apply teqb_neq in A, B, C. rewrite A, B, C. simpl.
  destruct (get fs (dl ++ [x])); reflexivity.
Qed.

Lemma wf_new : forall (fs : fsys) dl x r w c, wf_fs fs -> good_name x -> wf_content c -> get fs dl = Some (Dir w) ->
  get fs (dl ++ [x]) = None -> wf_fs (set fs (dl ++ [x]) (File r w c)).
Proof.
  intros fs dl x r w c ((w0 & R) & T & K) Gx Wc G N0. split; [|split].
  - exists w0. rewrite get_set_other; auto. destruct dl; discriminate.
  - intros l y n H. destruct (loc_dec (l ++ [y]) (dl ++ [x])) as [e|e].
    + apply app_inj_tail in e. destruct e as [-> ->]. split; auto. exists w. rewrite get_set_other; auto.
      intro Q. apply (f_equal (@length _)) in Q. rewrite app_length in Q. simpl in Q. lia.
    + rewrite get_set_other in H by auto. destruct (T _ _ _ H) as (A & w1 & B). split; auto. exists w1.
      rewrite get_set_other; auto. intros ->. congruence.
  - intros l r1 w1 c1 H. destruct (loc_dec l (dl ++ [x])) as [->|e].
    + rewrite get_set_same in H. injection H as <- <- <-. exact Wc.
    + rewrite get_set_other in H by auto. eauto.
Qed.
Lemma wf_replaced : forall (fs : fsys) l r w c r' w' c', wf_fs fs -> get fs l = Some (File r w c) -> wf_content c' ->
  wf_fs (set fs l (File r' w' c')).
Proof.
  intros fs l r w c r' w' c' ((w0 & R) & T & K) G Wc. split; [|split].
  - exists w0. rewrite get_set_other; auto. intros <-. congruence.
  - intros k y n H. destruct (loc_dec (k ++ [y]) l) as [e|e].
    + rewrite <- e in G. destruct (T _ _ _ G) as (A & w1 & B). split; auto. exists w1. rewrite get_set_other; auto.
      intros ->. rewrite <- e in *. congruence.
    + rewrite get_set_other in H by auto. destruct (T _ _ _ H) as (A & w1 & B). split; auto. exists w1.
      rewrite get_set_other; auto. intros ->. congruence.
  - intros k r1 w1 c1 H. destruct (loc_dec k l) as [->|e].
    + rewrite get_set_same in H. injection H as <- <- <-. exact Wc.
    + rewrite get_set_other in H by auto. eauto.
Qed.

(** A file system is described by [get]. *)
Lemma wf_same : forall (fs fs' : fsys), (forall k, get fs' k = get fs k) -> wf_fs fs -> wf_fs fs'.
Proof.
  intros fs fs' E ((w & R) & T & K). split; [|split].
  - exists w. rewrite E. auto.
  - intros l x n H. rewrite E in H. destruct (T _ _ _ H) as (A & w1 & B). split; auto. exists w1. rewrite E. auto.
  - intros l r w1 c H. rewrite E in H. eauto.
Qed.

Lemma lookup_none_bytes : forall (fs : fsys) cwd p, p <> [] -> lookup fs cwd p = Ok None -> exists b, os_bytes cwd p = Ok b.
Proof.
  intros. unfold lookup in H0. destruct p; [contradiction|]. destruct (os_bytes cwd (n :: p)); [eauto|discriminate].
Qed.
Lemma wf_new_content : forall uuid, wf_content (new_content empty_data uuid).
Proof. intros. repeat split; vm_compute; reflexivity. Qed.

(** Binding a file that does not exist *)
Lemma bind_missing : forall fs cwd uuid p m d t, wf_fs fs -> py_text cwd -> py_text p ->
  path_split p = (d, t) -> t <> [] -> t <> [46] -> t <> [46; 46] ->
  lookup fs cwd p = Ok None ->
  (m = RWC /\ unicode (abspath cwd p) /\ d <> [] /\
   exists dl x fs' s, lookup fs cwd d = Ok (Some dl) /\ get fs dl = Some (Dir true) /\ fsencode t = Ok x /\
     bind_file fs cwd uuid p (mode_text m) = (fs', Ok s) /\
     k_uid (s_conn s) = uuid /\ s_hint s = Some p /\
     only_changed fs fs' (dl ++ [x]) (File true true (new_content empty_data uuid)) /\
     works_on (s_conn s) (dl ++ [x]) true /\
     wf_fs fs' /\ lookup fs' cwd p = Ok (Some (dl ++ [x]))) \/
  (~ (m = RWC /\ unicode (abspath cwd p) /\ exists dl, lookup fs cwd d = Ok (Some dl) /\ get fs dl = Some (Dir true)) /\
   exists e, bind_file fs cwd uuid p (mode_text m) = (fs, Err e)).
Proof.
  intros fs cwd uuid p m d t W A B P T1 T2 T3 L.
  assert (Pt : plain_name t) by (repeat split; auto).
  assert (Pn : p <> []). { intros ->. unfold path_split in P. simpl in P. injection P as <- <-. contradiction. }
  destruct (lookup_none_bytes _ _ _ Pn L) as [b O].
  unfold bind_file. rewrite read_mode_iff. unfold may_bind.
  assert (Ex : exists_ fs cwd p = false) by (unfold exists_; rewrite L; reflexivity). rewrite Ex.
  destruct m; try (right; split; [intros (K & _); discriminate|eauto]; fail).
  replace (dirname p) with d by (unfold dirname; rewrite P; reflexivity).
  destruct d as [|d0 d].
  { right. split; [|simpl; eauto]. intros (_ & _ & dl & K & _). discriminate. }
  destruct (dir_bytes cwd p (d0 :: d) t b P ltac:(discriminate) Pt O) as (bd & x & pre & Od & Ex2 & Px & X47 & X0 & S1 & m1 & m2 & E).
  unfold access_w. destruct (lookup fs cwd (d0 :: d)) as [[dl|]|e] eqn:Ld; cbn [bind].
  3:{ right. split; [|eauto]. intros (_ & _ & dl & K & _). discriminate. }
  2:{ right. split; [|eauto]. intros (_ & _ & dl & K & _). discriminate. }
  assert (Nm : names cwd p (dl ++ [x])).
  { exists b. split; auto. rewrite S1. rewrite (dir_norm pre bd x m1 m2 E Px). f_equal.
    destruct (lookup_some _ _ _ _ W Ld) as ((b' & O' & ->) & _). congruence. }
  assert (NotIn : forall w, get fs dl = Some (Dir w) -> get fs (dl ++ [x]) = None).
  { intros w G. pose proof (lookup_new fs cwd p (d0 :: d) t b bd x pre m1 m2 dl w Pn O S1 E Px P ltac:(discriminate) Od Ld G) as Q.
    rewrite L in Q. destruct (get fs (dl ++ [x])); [discriminate|reflexivity]. }
  assert (Fail : get fs dl <> Some (Dir true) -> ~ (RWC = RWC /\ unicode (abspath cwd p) /\
      exists dl0, Ok (Some dl) = @Ok (option loc) (Some dl0) /\ get fs dl0 = Some (Dir true))).
  { intros K (_ & _ & dl0 & K1 & K2). injection K1 as <-. contradiction. }
  destruct (get fs dl) as [[w|r w c]|] eqn:G; cbn [writable].
  3:{ right. split; [apply Fail; discriminate|]. eauto. }
  2:{ destruct w; [|right; split; [apply Fail; discriminate|eauto]].
      assert (N2 : get fs (dl ++ [x]) = None).
      { destruct (get fs (dl ++ [x])) eqn:Q; auto. destruct W as (_ & T & _). destruct (T _ _ _ Q) as (_ & w1 & K). congruence. }
      right. split; [apply Fail; discriminate|]. unfold connector_bind.
      destruct (unicode_dec (abspath cwd p)) as [U|U]; [|rewrite connect_not_unicode by auto; eauto].
      rewrite (connect_names fs cwd p (dl ++ [x])) by auto. unfold open_at. rewrite N2. rewrite removelast_last, G. simpl. eauto. }
  destruct w; [|right; split; [apply Fail; discriminate|eauto]].
  specialize (NotIn true eq_refl).
  destruct (unicode_dec (abspath cwd p)) as [U|U].
  2:{ right. split; [intros (_ & K & _); contradiction|]. unfold connector_bind. rewrite connect_not_unicode by auto. eauto. }
  left. split; [reflexivity|]. split; [exact U|]. split; [discriminate|]. exists dl, x.
  unfold connector_bind, exists_. rewrite (lookup_abspath fs cwd p _ W Nm), NotIn. cbn [negb].
  rewrite (connect_names fs cwd p (dl ++ [x])) by auto. unfold open_at. rewrite NotIn. cbn [default_mode]. rewrite removelast_last, G.
  unfold create_node_schema. cbn [h_at h_writable]. rewrite get_set_same.
  set (fs2 := set (set fs (dl ++ [x]) (File true true (Other []))) (dl ++ [x]) (File true true (new_content empty_data uuid))).
  exists fs2. eexists. split; [reflexivity|]. split; [reflexivity|]. split; [exact Ex2|]. split; [reflexivity|].
  cbn [s_conn k_uid s_hint]. split; [reflexivity|]. split; [reflexivity|].
  assert (OC : only_changed fs fs2 (dl ++ [x]) (File true true (new_content empty_data uuid))).
  { split; [apply get_set_same|]. intros k K. unfold fs2. rewrite !get_set_other by auto. reflexivity. }
  split; [exact OC|]. split; [apply (works cwd p _ _ RWC); auto|].
  assert (W2 : wf_fs fs2).
  { apply (wf_same (set fs (dl ++ [x]) (File true true (new_content empty_data uuid)))).
    - intro k. unfold fs2. rewrite !get_set. destruct (loc_eqb (dl ++ [x]) k); reflexivity.
    - apply wf_new; auto; [|apply wf_new_content]. destruct Px as (Q1 & Q2 & Q3). repeat split; auto. }
  split; [exact W2|].
  (* the walk in the new file system *)
  assert (Mono : forall l a k, walk fs a l = Some k -> walk fs2 a l = Some k).
  { assert (Gm : forall k n, get fs k = Some n -> get fs2 k = Some n).
    { intros k n K. destruct OC as [_ OC]. rewrite OC; auto. intros ->. congruence. }
    induction l as [|y l IH]; intros a k; simpl; auto.
    destruct (get fs a) as [[w1|? ? ?]|] eqn:Ga; try discriminate. rewrite (Gm _ _ Ga).
    destruct (text_eqb y [] || text_eqb y dot); auto. destruct (text_eqb y dotdot); auto.
    destruct (get fs (a ++ [y])) eqn:Gy; [|discriminate]. rewrite (Gm _ _ Gy). auto. }
  assert (Ld2 : lookup fs2 cwd (d0 :: d) = Ok (Some dl)).
  { unfold lookup in *. rewrite Od in *. simpl in *. injection Ld as Ld. f_equal. apply Mono. exact Ld. }
  assert (G2 : get fs2 dl = Some (Dir true)).
  { destruct OC as [_ OC]. rewrite OC; auto. intro Q. apply (f_equal (@length _)) in Q. rewrite app_length in Q. simpl in Q. lia. }
  rewrite (lookup_new fs2 cwd p (d0 :: d) t b bd x pre m1 m2 dl true Pn O S1 E Px P ltac:(discriminate) Od Ld2 G2).
  rewrite (proj1 OC). reflexivity.
Qed.

(** Errors leave all files alone, and read-only binding does anyway. *)
Lemma open_at_cases : forall (fs : fsys) l m fs1 r, open_at fs l m = (fs1, r) ->
  fs1 = fs \/ (m = RWC /\ get fs l = None /\ fs1 = set fs l (File true true (Other [])) /\ r = Ok {| h_at := l; h_writable := true |}).
Proof.
  intros. unfold open_at in H. destruct (get fs l) as [[w|[] w c]|]; try (injection H as <- <-; auto; fail).
  destruct m; try (injection H as <- <-; auto; fail).
  destruct (get fs (removelast l)) as [[[]|? ? ?]|]; injection H as <- <-; auto.
Qed.
Lemma connect_cases : forall (fs : fsys) path m fs1 r, connect fs path m = (fs1, r) ->
  fs1 = fs \/ (exists l, get fs l = None /\ fs1 = set fs l (File true true (Other [])) /\ r = Ok {| h_at := l; h_writable := true |} /\
               (do u <- make_uri path m; sqlite_uri u) <> Err ValueError).
Proof.
  intros. rewrite connect_alt in H. destruct (do u <- make_uri path m; sqlite_uri u) as [[b om]|]; [|injection H as <- <-; auto].
  apply open_at_cases in H. destruct H as [|(_ & A & B & C)]; auto. right. exists (norm (split_slash b)). repeat split; auto. discriminate.
Qed.
Lemma bind_error : forall fs cwd uuid p mt fs' e, wf_fs fs -> py_text cwd -> py_text p ->
  bind_file fs cwd uuid p mt = (fs', Err e) -> fs' = fs.
Proof.
  intros fs cwd uuid p mt fs' e W A B H. unfold bind_file in H.
  destruct (read_mode mt) as [m|]; [|injection H as <- _; auto].
  destruct (may_bind fs cwd p m) eqn:MB; [|injection H as <- _; auto].
  unfold connector_bind in H.
  destruct (connect fs (abspath cwd p) (Some m)) as [fs1 r] eqn:C.
  destruct (exists_ fs cwd (abspath cwd p)) eqn:Ex; cbn [negb] in H.
  - (* the file exists: nothing is made *)
    assert (fs1 = fs).
    { destruct (connect_cases _ _ _ _ _ C) as [|(l & G & -> & -> & Nv)]; auto. exfalso.
      unfold exists_ in Ex. destruct (lookup fs cwd (abspath cwd p)) as [[l1|]|] eqn:L; try discriminate.
      destruct (lookup_some _ _ _ _ W L) as ((b & O & ->) & n & G1).
      assert (U : unicode (abspath cwd p)).
      { destruct (unicode_dec (abspath cwd p)) as [U|U]; auto. rewrite connect_not_unicode in C by auto. discriminate. }
      assert (Ab : abspath cwd (abspath cwd p) = abspath cwd p).
      { unfold abspath at 1. rewrite full_abs by apply abspath_abs. unfold abspath.
        rewrite norm_split_abs; auto; [apply norm_parts|apply norm_plain]. }
      assert (Nm : names cwd (abspath cwd p) (norm (split_slash b))) by (exists b; auto).
      rewrite <- Ab in C. rewrite (connect_names fs cwd (abspath cwd p) _ _ A (py_abspath _ _ A B) Nm) in C by (rewrite Ab; auto).
      unfold open_at in C. rewrite G1 in C. destruct n as [w|[] w c]; try discriminate.
      injection C as C1 C2 C3. rewrite C2 in G1. rewrite G in G1. discriminate. }
    subst fs1. destruct r as [h|]; [|congruence].
    destruct (db_of (get fs (h_at h))); [|congruence].
    destruct (apply_migrations migrate a0 (Some m)); [|congruence].
    destruct (text_eqb (d_version a0) latest); [congruence|]. destruct (h_writable h); congruence.
  - destruct r as [h|]; [|].
    + unfold create_node_schema in H.
      destruct (connect_cases _ _ _ _ _ C) as [->|(l & G & -> & R & Nv)].
      * destruct (get fs (h_at h)) as [[w|rr w [? ? ? ? ?|[|? ?]]]|]; try congruence.
        destruct (h_writable h); congruence.
      * injection R as ->. cbn [h_at h_writable] in H. rewrite get_set_same in H. congruence.
    + destruct (connect_cases _ _ _ _ _ C) as [->|(l & G & -> & R & Nv)]; congruence.
Qed.

Lemma ro_same : forall fs cwd uuid p fs' r, bind_file fs cwd uuid p (txt "ro") = (fs', r) ->
  wf_fs fs -> py_text cwd -> py_text p -> fs' = fs.
Proof.
  intros fs cwd uuid p fs' r H W A B.
  destruct (lookup fs cwd p) as [[l|]|] eqn:L.
  - destruct (bind_existing empty_data migrate fs cwd uuid p RO l W A B L) as [(w & c & d & fs1 & s & Bd & Eq & _ & _ & _ & [(_ & Q & _)|(V & d' & _)])|(_ & e & Eq)].
    + change (mode_text RO) with (txt "ro") in Eq. rewrite Eq in H. congruence.
    + destruct Bd as (_ & _ & _ & _ & [K|[K _]]); [contradiction|congruence].
    + change (mode_text RO) with (txt "ro") in Eq. rewrite Eq in H. congruence.
  - unfold bind_file in H. change (read_mode (txt "ro")) with (Some RO) in H. cbv iota in H.
    unfold may_bind, exists_ in H. rewrite L in H. congruence.
  - unfold bind_file in H. change (read_mode (txt "ro")) with (Some RO) in H. cbv iota in H.
    unfold may_bind, exists_ in H. rewrite L in H. congruence.
Qed.

(** A read-only connector never changes a file. *)
Lemma ro_open : forall (fs : fsys) l, fst (open_at fs l RO) = fs /\ forall h, snd (open_at fs l RO) = Ok h -> h_writable h = false.
Proof.
  intros. unfold open_at. destruct (get fs l) as [[w|[] w c]|]; simpl; split; auto; try discriminate.
  intros h E. injection E as <-. reflexivity.
Qed.
Lemma ro_uses : forall us (fs : fsys) cwd p l uid, py_text cwd -> py_text p -> names cwd p l -> unicode (abspath cwd p) ->
  fst (uses fs {| k_uid := uid; k_mode := Some RO; k_path := Some (abspath cwd p); k_mem := None |} us) = fs.
Proof.
  induction us as [|[|f] us IH]; intros fs cwd p l uid A B Nm U; simpl; auto.
  - unfold query. cbn [k_mem k_path k_mode]. rewrite (connect_names fs cwd p l) by auto. cbn [default_mode].
    destruct (ro_open fs l) as [Q _]. destruct (open_at fs l RO) as [fs1 [h|]]; simpl in *; subst; eapply IH; eauto.
  - unfold modify. cbn [k_mem k_path k_mode]. rewrite (connect_names fs cwd p l) by auto. cbn [default_mode].
    destruct (ro_open fs l) as [Q R]. destruct (open_at fs l RO) as [fs1 [h|]]; simpl in *; subst; [|eapply IH; eauto].
    destruct (db_of (get fs (h_at h))); [|eapply IH; eauto]. rewrite (R h eq_refl). eapply IH; eauto.
Qed.

(** Reading into memory *)
Lemma read_cases : forall fs cwd p, wf_fs fs -> py_text cwd -> py_text p ->
  (exists l w c d d', lookup fs cwd p = Ok (Some l) /\ get fs l = Some (File true w c) /\ toron_content c d /\
     unicode (abspath cwd p) /\
     ((d_version d = latest /\ d' = d) \/ (d_version d <> latest /\ migrate d = Ok d')) /\
     read_file migrate fs cwd p = (fs, Ok {| s_conn := {| k_uid := d_uid d'; k_mode := None; k_path := None; k_mem := Some (replaced c d') |}; s_hint := Some p |})) \/
  ((forall l w c d d', ~ (lookup fs cwd p = Ok (Some l) /\ get fs l = Some (File true w c) /\ toron_content c d /\
     unicode (abspath cwd p) /\ ((d_version d = latest /\ d' = d) \/ (d_version d <> latest /\ migrate d = Ok d')))) /\
   exists e, read_file migrate fs cwd p = (fs, Err e)).
Proof.
  intros fs cwd p W A B.
  destruct (lookup fs cwd p) as [[l|]|] eqn:L.
  3:{ right. split; [intros l w c d d' (K & _); discriminate|]. unfold read_file, get_backend. rewrite L. simpl. eauto. }
  2:{ right. split; [intros l w c d d' (K & _); discriminate|]. unfold read_file, get_backend. rewrite L. simpl. eauto. }
  destruct (lookup_some _ _ _ _ W L) as (Nm & n & G).
  unfold read_file. rewrite (backend_iff _ _ _ _ L), G.
  destruct n as [w|r w c].
  { right. split; [|eauto]. intros l0 w0 c d d' (K & K1 & _). injection K as <-. congruence. }
  destruct r.
  2:{ right. split; [|eauto]. intros l0 w0 c0 d d' (K & K1 & _). injection K as <-. congruence. }
  destruct (is_toron (firstn 72 (first_bytes c))) eqn:T.
  2:{ right. split; [|eauto]. intros l0 w0 c0 d d' (K & K1 & (x & v & ->) & _). injection K as <-.
      rewrite G in K1. injection K1 as -> ->. rewrite recognise in T by (eapply W; eauto). discriminate. }
  unfold connector_read, is_file. rewrite (lookup_abspath fs cwd p l W Nm), G, G.
  destruct (unicode_dec (abspath cwd p)) as [U|U].
  2:{ rewrite connect_not_unicode by auto. right. split; [|eauto]. intros l0 w0 c0 d d' (_ & _ & _ & K & _). contradiction. }
  rewrite (connect_names fs cwd p l) by auto. unfold open_at. rewrite G. cbn [h_at]. unfold content_at. rewrite G.
  destruct c as [x v u a db|by_].
  2:{ simpl. right. split; [|eauto]. intros l0 w0 c0 d d' (K & K1 & (x & v & ->) & _). injection K as <-. congruence. }
  pose proof T as E3. rewrite recognise in E3 by (eapply W; eauto).
  apply andb_true_iff in E3. destruct E3 as [E3 E4]. apply N.eqb_eq in E3, E4. subst a u.
  destruct db as [d|].
  2:{ simpl. right. split; [|eauto]. intros l0 w0 c0 d d' (K & K1 & (x' & v' & ->) & _). injection K as <-. congruence. }
  simpl. unfold apply_migrations. destruct (text_eqb (d_version d) latest) eqn:V.
  - apply teqb_iff in V. left. exists l, w, (Database x v 1145130033 19760328 (Some d)), d, d.
    repeat split; auto. exists x, v. reflexivity.
  - apply teqb_neq in V. destruct (migrate d) as [d'|e] eqn:M.
    + left. exists l, w, (Database x v 1145130033 19760328 (Some d)), d, d'.
      repeat split; auto. exists x, v. reflexivity.
    + right. split; [|simpl; eauto]. intros l0 w0 c0 d0 d' (K & K1 & (x' & v' & ->) & _ & Q). injection K as <-.
      rewrite G in K1. injection K1 as _ _ _ <-. destruct Q as [[Q _]|[_ Q]]; congruence.
Qed.
Lemma mem_uses : forall us (fs : fsys) k c, k_mem k = Some c -> fst (uses fs k us) = fs.
Proof.
  induction us as [|[|f] us IH]; intros fs k c M; simpl; auto.
  - unfold query. rewrite M. simpl. eapply IH; eauto.
  - unfold modify. rewrite M. destruct (db_in c); simpl; eapply IH; simpl; eauto.
Qed.

(** Saving *)
Lemma save_cases : forall (fs : fsys) cwd k p l c fs', names cwd p l ->
  query fs k = (fs, Ok c) -> save_to_file fs cwd k p = (fs', Ok tt) ->
  fs' = set fs l (File true true c) /\ (forall w, get fs l <> Some (Dir w)) /\ unicode (abspath cwd p).
Proof.
  intros fs cwd k p l c fs' (b0 & O & ->) Q H. unfold save_to_file in H.
  destruct (access_w fs cwd (dirname (abspath cwd p))) as [[]|]; try discriminate.
  destruct (is_file fs cwd (abspath cwd p) && negb (match access_w fs cwd (abspath cwd p) with Ok w => w | Err _ => false end)); [discriminate|].
  destruct (utf8 (abspath cwd p)) as [b|] eqn:U; [|discriminate]. cbn [bind] in H.
  destruct (existsb (N.eqb 0) b) eqn:Z; [discriminate|]. rewrite Q in H.
  apply os_bytes_inv in O. destruct O as [O _]. pose proof (enc_abspath _ _ _ O) as E.
  rewrite (utf8_fsencode _ _ U) in E. injection E as ->.
  rewrite norm_split_abs in H by (try apply norm_parts; apply norm_plain).
  assert (Un : unicode (abspath cwd p)) by (apply utf8_ok_iff; eauto).
  destruct (get fs (norm (split_slash b0))) as [[w|? ? ?]|]; try discriminate; injection H as <-; repeat split; auto; discriminate.
Qed.

(** Backups *)
Lemma backups : forall nodes (fs : fsys) cwd srcs dsts cs fs',
  Forall2 (fun s l => exists w, works_on (s_conn s) l w) nodes srcs ->
  Forall2 (fun l c => exists w d, get fs l = Some (File true w c) /\ holds c d) srcs cs ->
  Forall2 (fun s l => exists h, s_hint s = Some h /\ names cwd (backup_path h) l) nodes dsts ->
  NoDup dsts -> (forall l, In l srcs -> ~ In l dsts) ->
  make_backups fs cwd nodes = (fs', Ok tt) ->
  Forall2 (fun l c => get fs' l = Some (File true true c)) dsts cs /\
  (forall k, ~ In k dsts -> get fs' k = get fs k).
Proof.
  induction nodes as [|s nodes IH]; intros fs cwd srcs dsts cs fs' H1 H2 H3 ND Dis M.
  - inversion H1; subst. inversion H2; subst. inversion H3; subst. simpl in M. injection M as <-. split; [constructor|auto].
  - inversion H1 as [|? src ? srcs' W1 W2]; subst. inversion H2 as [|? c ? cs' C1 C2]; subst.
    inversion H3 as [|? dst ? dsts' D1 D2]; subst. inversion ND as [|? ? ND1 ND2]; subst.
    simpl in M. destruct D1 as (h & Hh & Nm). rewrite Hh in M. unfold to_file in M.
    destruct (save_to_file fs cwd (s_conn s) (backup_path h)) as [fs1 [[]|]] eqn:Sv; [|discriminate].
    destruct C1 as (w & d & G & Hd). destruct W1 as (mw & W1). destruct (W1 fs w c d G Hd) as [Q _].
    destruct (save_cases _ _ _ _ _ _ _ Nm Q Sv) as (-> & _ & _).
    assert (K : Forall2 (fun l c0 => exists w0 d0, get (set fs dst (File true true c)) l = Some (File true w0 c0) /\ holds c0 d0) srcs' cs').
    { assert (Dis' : forall l, In l srcs' -> l <> dst).
      { intros l I ->. apply (Dis dst); [right; auto|left; auto]. }
      clear - C2 Dis'. induction C2; constructor.
      - destruct H as (w0 & d0 & G0 & H0). exists w0, d0. split; auto. rewrite get_set_other; auto. apply Dis'. left; auto.
      - apply IHC2. intros. apply Dis'. right; auto. }
    destruct (IH _ cwd srcs' dsts' cs' fs' W2 K D2 ND2) as [R1 R2]; auto.
    { intros l I J. apply (Dis l); right; auto. }
    split.
    + constructor; auto. rewrite R2 by auto. apply get_set_same.
    + intros k K2. rewrite R2 by (intro; apply K2; right; auto). apply get_set_other. intros ->. apply K2. left. auto.
Qed.

(** The name of a backup *)
End P.

Lemma backup_form : forall cwd p d t, path_split p = (d, t) -> t <> [] ->
  exists a n n', (0 < n)%nat /\ (0 < n')%nat /\ full cwd p = a ++ repeat 47 n ++ t /\
    full cwd (backup_path p) = a ++ repeat 47 n' ++ (txt "backup-" ++ t).
Proof.
  intros cwd p d t P T. pose proof (path_split_spec _ _ _ P) as (T47 & C).
  assert (Bp : backup_path p = path_join d (txt "backup-" ++ t)) by (unfold backup_path; rewrite P; reflexivity).
  rewrite Bp. destruct C as [(-> & ->)|[(n & Pn & Dd & Pp)|(n & Dn & Pn & Pp & NE)]].
  - exists cwd, 1%nat, 1%nat. split; [lia|]. split; [lia|]. split; [|reflexivity].
    unfold full. destruct t as [|c t]; [contradiction|]. simpl. destruct (N.eqb_spec c 47); [|reflexivity].
    subst. destruct T47. left. reflexivity.
  - exists [], n, n. split; [auto|]. split; [auto|]. split.
    + subst p d. unfold full. destruct n; [lia|]. reflexivity.
    + unfold path_join. subst d. destruct n; [lia|]. cbn [repeat].
      assert (E : ends_slash (47 :: repeat 47 n) = true).
      { change (47 :: repeat 47 n) with (repeat 47 (S n)). unfold ends_slash.
        replace (S n) with (n + 1)%nat by lia. rewrite repeat_app, rev_app_distr. reflexivity. }
      rewrite E. reflexivity.
  - exists (full cwd d), n, 1%nat. split; [auto|]. split; [lia|]. split.
    + rewrite Pp, full_app by auto. reflexivity.
    + unfold path_join. destruct d as [|d0 d]; [contradiction|].
      assert (E : ends_slash (d0 :: d) = false).
      { unfold ends_slash. destruct (rev (d0 :: d)) as [|y r] eqn:R; auto. destruct (N.eqb_spec y 47); auto. subst.
        exfalso. apply (NE (rev r)). rewrite <- (rev_involutive (d0 :: d)), R. reflexivity. }
      rewrite E. rewrite full_app by discriminate. reflexivity.
Qed.
Lemma backup_names : forall cwd p d t l, path_split p = (d, t) -> t <> [] -> t <> [46] -> t <> [46; 46] ->
  names cwd p l -> exists dl x, l = dl ++ [x] /\ fsencode t = Ok x /\ names cwd (backup_path p) (dl ++ [txt "backup-" ++ x]).
Proof.
  intros cwd p d t l P T1 T2 T3 (b & O & ->). pose proof (path_split_spec _ _ _ P) as (T47 & _).
  destruct (backup_form cwd p d t P T1) as (a & n & n' & Pn & Pn' & F & F').
  apply os_bytes_inv in O. destruct O as [E Z]. rewrite F in E.
  apply enc_app_inv in E. destruct E as (ba & z & E1 & E2 & ->). apply enc_app_inv in E2. destruct E2 as (y & x & E2 & E3 & ->).
  apply enc_slashes in E2. subst y. destruct (enc_plain _ _ E3 ltac:(repeat split; auto) T47) as [Px X].
  exists (norm (split_slash ba)), x. split; [|split; [exact E3|]].
  - rewrite split_dir by auto. rewrite app_assoc, norm_last by auto. rewrite norm_empties. reflexivity.
  - exists (ba ++ repeat 47 n' ++ (txt "backup-" ++ x)). split.
    + assert (Q : enc (full cwd (backup_path p)) (ba ++ repeat 47 n' ++ (txt "backup-" ++ x))).
      { rewrite F'. apply enc_app; auto. apply enc_app; [|apply enc_app; auto; reflexivity].
        clear. induction n'; [reflexivity|]. simpl. apply enc_cons_low; [lia|auto]. }
      unfold os_bytes. unfold enc in Q. rewrite Q. cbv beta iota delta [bind].
      assert (Q0 : existsb (N.eqb 0) (ba ++ repeat 47 n' ++ (txt "backup-" ++ x)) = false).
      { apply existsb0. intro I. apply in_app_or in I. destruct I as [I|I]; [apply Z; apply in_or_app; auto|].
        apply in_app_or in I. destruct I as [I|I]; [apply repeat_spec in I; discriminate|].
        apply in_app_or in I. destruct I as [I|I]; [|apply Z; apply in_or_app; right; apply in_or_app; auto].
        simpl in I. repeat (destruct I as [I|I]; [discriminate|]). destruct I. }
      rewrite Q0. reflexivity.
    + assert (X2 : ~ In 47 (txt "backup-" ++ x)).
      { intro I. apply in_app_or in I. destruct I as [I|I]; auto. simpl in I. repeat (destruct I as [I|I]; [discriminate|]). destruct I. }
      rewrite split_dir by auto. rewrite app_assoc, norm_last by (repeat split; discriminate). rewrite norm_empties. reflexivity.
Qed.
