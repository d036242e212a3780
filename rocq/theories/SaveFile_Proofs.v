(** Proofs about saving. *)
From Verif Require Import Prelude Transaction_Model SaveFile_Model SaveFile_Spec.

Section H.
Context {C : Type}.
Implicit Types (T P : world C -> Prop).

(** All states passed through satisfy [T]; the result satisfies [Q] or [E]. *)
Definition triple {A} T P (m : M (C:=C) A) (Q : A -> world C -> Prop) (E : raised -> world C -> Prop) : Prop :=
  forall w, P w -> T w -> let '(t, w', r) := m w in Forall T t /\ T w' /\ match r with Val a => Q a w' | Exc x => E x w' end.

Lemma t_ret {A} T P (a : A) (Q : A -> world C -> Prop) E : (forall w, P w -> Q a w) -> triple T P (ret a) Q E.
Proof. intros H w HP HT. cbn. auto. Qed.
Lemma t_throw {A} T P x (Q : A -> world C -> Prop) (E : raised -> world C -> Prop) : (forall w, P w -> E x w) -> triple T P (throw x) Q E.
Proof. intros H w HP HT. cbn. auto. Qed.
Lemma t_bind {A B} T P (m : M A) (k : A -> M B) R Q E : triple T P m R E -> (forall a, triple T (R a) (k a) Q E) -> triple T P (bind m k) Q E.
Proof.
  intros Hm Hk w HP HT. specialize (Hm w HP HT). unfold bind. destruct (m w) as [[t w'] [a|x]].
  - destruct Hm as (H1 & H2 & H3). specialize (Hk a w' H3 H2). destruct (k a w') as [[t' w''] r]. destruct Hk as (K1 & K2 & K3).
    rewrite Forall_app. auto.
  - exact Hm.
Qed.
Lemma t_catch {A} T P (m : M A) h Q E0 E : triple T P m Q E0 ->
  (forall x, match h x with Some k => triple T (E0 x) k Q E | None => forall w, E0 x w -> E x w end) -> triple T P (catch m h) Q E.
Proof.
  intros Hm Hh w HP HT. specialize (Hm w HP HT). unfold catch. destruct (m w) as [[t w'] [a|x]]; [exact Hm|].
  destruct Hm as (H1 & H2 & H3). specialize (Hh x). destruct (h x) as [k|]; [|auto].
  specialize (Hh w' H3 H2). destruct (k w') as [[t' w''] r]. destruct Hh as (K1 & K2 & K3). rewrite Forall_app. auto.
Qed.
Lemma t_finally {A} T P (m : M A) f Q0 E0 Q E : triple T P m Q0 E0 ->
  (forall a, triple T (Q0 a) f (fun _ => Q a) E) -> (forall x, triple T (E0 x) f (fun _ => E x) E) -> triple T P (finally m f) Q E.
Proof.
  intros Hm Hf Hg w HP HT. specialize (Hm w HP HT). unfold finally. destruct (m w) as [[t w'] [a|x]]; destruct Hm as (H1 & H2 & H3).
  - specialize (Hf a w' H3 H2). destruct (f w') as [[t' w''] [u|y]]; destruct Hf as (K1 & K2 & K3); rewrite Forall_app; auto.
  - specialize (Hg x w' H3 H2). destruct (f w') as [[t' w''] [u|y]]; destruct Hg as (K1 & K2 & K3); rewrite Forall_app; auto.
Qed.
Lemma t_call T P f (E : raised -> world C -> Prop) : (forall x w, f <> FOk -> P w -> E x w) -> triple T P (call f) (fun _ => P) E.
Proof. intros H w HP HT. unfold call. destruct f as [|e|]; cbn; repeat split; auto; apply H; auto; discriminate. Qed.
Lemma t_act T P f g (Q : world C -> Prop) (E : raised -> world C -> Prop) : (forall w, P w -> T w -> T (g w) /\ Q (g w)) -> (forall x w, P w -> E x w) ->
  triple T P (act f g) (fun _ => Q) E.
Proof.
  intros Hg HE w HP HT. unfold act. destruct f as [|e|]; cbn.
  - destruct (Hg w HP HT). repeat split; auto.
  - repeat split; auto.
  - repeat split; auto.
Qed.
Lemma t_weaken {A} T P P' (m : M A) (Q Q' : A -> world C -> Prop) (E E' : raised -> world C -> Prop) : triple T P m Q E -> (forall w, P' w -> P w) ->
  (forall a w, Q a w -> Q' a w) -> (forall x w, E x w -> E' x w) -> triple T P' m Q' E'.
Proof.
  intros H H1 H2 H3 w HP HT. specialize (H w (H1 w HP) HT). destruct (m w) as [[t w'] [a|x]]; destruct H as (K1 & K2 & K3); auto.
Qed.
End H.

Section F.
Context {C : Type} (e : env C) (empty new : C) (w0 : world C).
(** [need]: whether the data must have been flushed before the replacement. *)
Context (need : bool) (Hneed : need = true -> e_old_sqlite e = true \/ e_backup_syncs e = true).

Definition good (w : world C) : Prop := exists f, w_dst w = Some f /\ f_data f = new /\ (need = true -> f_synced f = true).
Definition T (w : world C) : Prop := unchanged w0 w \/ good w.
(** Before the replacement; then with the data written. *)
Definition before (w : world C) : Prop := unchanged w0 w /\ w_tmp w <> None.
Definition ready (s : bool) (w : world C) : Prop := unchanged w0 w /\ exists f, w_tmp w = Some f /\ f_data f = new /\ (s = true -> f_synced f = true).
Definition failed (x : raised) (w : world C) : Prop := before w.

Lemma ready_before s w : ready s w -> before w.
Proof. intros [H (f & E & _)]. split; auto. rewrite E. discriminate. Qed.

Lemma t_write f partial s s' : (s = true -> s' = true) -> triple T before (write new f partial s') (fun _ => ready s) failed.
Proof.
  intros Hs w [Hu Ht] HT. unfold write.
  assert (Hd : forall w', In w' (map (fun c => set_tmp (Some (unsynced c)) w) partial) -> before w').
  { intros w' H. apply in_map_iff in H. destruct H as (c & <- & _). split; [exact Hu|discriminate]. }
  assert (HTd : Forall T (map (fun c => set_tmp (Some (unsynced c)) w) partial)).
  { apply Forall_forall. intros w' H. left. apply Hd, H. }
  assert (Hl : before (last (map (fun c => set_tmp (Some (unsynced c)) w) partial) w)).
  { destruct (map (fun c => set_tmp (Some (unsynced c)) w) partial) as [|a l] eqn:El; [split; auto|].
    apply Hd. rewrite (app_removelast_last (l := a :: l) w) at 2 by discriminate. apply in_app_iff. right. now left. }
  destruct f as [|x|]; cbn.
  - split; [constructor; auto; apply Forall_app; split; auto; constructor; auto; left; exact Hu|]. split; [left; exact Hu|].
    split; [exact Hu|]. eexists. split; [reflexivity|]. cbn. auto.
  - split; [constructor; auto|]. split; [left; apply Hl|exact Hl].
  - split; [constructor; auto|]. split; [left; apply Hl|exact Hl].
Qed.

Lemma t_keep s f : triple T (ready s) (call f) (fun _ => ready s) failed.
Proof. apply t_call. intros x w _ H. exact (ready_before s w H). Qed.
Lemma t_before f : triple T before (call f) (fun _ => before) failed.
Proof. apply t_call. intros x w _ H. exact H. Qed.

(** Whether the data is flushed by the writing itself. *)
Definition written : bool := need && negb (e_old_sqlite e).
Lemma t_backup : triple T before (backup e new) (fun _ => ready written) failed.
Proof.
  apply (t_bind T before _ _ (fun _ => before)); [apply t_before|]. intros _. apply t_write. unfold written.
  intros H. apply andb_prop in H. destruct H as [H1 H2]. destruct (Hneed H1) as [E|E]; auto. rewrite E in H2. discriminate.
Qed.
Lemma t_vacuum b : (need = true -> b = true) -> triple T before (vacuum e new b) (fun _ => ready written) failed.
Proof. intros Hb. apply t_write. unfold written. intros H. apply andb_prop in H. destruct H as [H1 H2]. rewrite (Hb H1). exact H2. Qed.
Lemma t_fallback m : triple T before m (fun _ => ready written) failed ->
  triple T before (catch m (on_operational_error (backup e new))) (fun _ => ready written) failed.
Proof.
  intros Hm. eapply t_catch; [exact Hm|]. intros [[]|]; cbn; try (intros w H; exact H). exact t_backup.
Qed.
Lemma t_release {A} (P : world C -> Prop) (m : M A) (f : M unit) (Q : world C -> Prop) : triple T P m (fun _ => Q) failed ->
  triple T Q f (fun _ => Q) failed -> triple T before f (fun _ => before) failed -> triple T P (finally m f) (fun _ => Q) failed.
Proof.
  intros Hm Hf Hg. eapply t_finally; [exact Hm| |].
  - intros a. exact Hf.
  - intros x. exact Hg.
Qed.

(** Where the destination may have been replaced: only if flushing the directory failed. *)
Definition after (x : raised) (w : world C) : Prop := before w \/ (good w /\ w_tmp w = None /\ e_fsync_dir e <> FOk).
Definition done (w : world C) : Prop := good w /\ w_tmp w = None.

Lemma t_replace s : (need = true -> s = true) -> triple T (ready s) (replace e) (fun _ => done) failed.
Proof.
  intros Hs w Hr HT. pose proof (ready_before _ _ Hr) as Hb. destruct Hr as [Hu (f & Ef & Ed & Ey)]. unfold replace. rewrite Ef. unfold act.
  assert (G : done {| w_dst := Some f; w_tmp := None |}) by (split; [exists f; repeat split; auto|reflexivity]).
  destruct (e_replace e) as [|x|]; cbn.
  - split; [constructor; [exact HT|constructor; [right; apply G|constructor]]|]. split; [right; apply G|exact G].
  - repeat split; auto; apply Hb.
  - repeat split; auto; apply Hb.
Qed.

Lemma t_synced : triple T before (save_synced e new) (fun _ => done) after.
Proof.
  assert (Wf : forall x w, failed x w -> after x w) by (intros x w H; left; exact H).
  unfold save_synced. apply (t_bind T before _ _ (fun _ => ready written)).
  { eapply t_weaken with (E := failed); [|intros w H; exact H|intros a w H; exact H|exact Wf].
    apply (t_bind T before _ _ (fun _ => before)); [apply t_before|]. intros _. apply t_release; [|apply t_keep|apply t_before].
    do 5 (apply (t_bind T before _ _ (fun _ => before)); [apply t_before|]; intros _).
    apply t_release.
    - apply t_fallback, t_vacuum. auto.
    - apply (t_bind T _ _ _ (fun _ => ready written)); [apply t_keep|]. intros _. apply t_keep.
    - apply (t_bind T _ _ _ (fun _ => before)); [apply t_before|]. intros _. apply t_before. }
  intros _. apply (t_bind T _ _ _ (fun _ => ready need)).
  { eapply t_weaken with (E := failed); [|intros w H; exact H|intros a w H; exact H|exact Wf].
    unfold written. destruct (e_old_sqlite e).
    - unfold fsync_tmp. apply t_act.
      + intros w [Hu (f & Ef & Ed & Ey)] HT. split; [left; exact Hu|]. split; [exact Hu|]. rewrite Ef. eexists. split; [reflexivity|]. cbn. auto.
      + intros x w H. exact (ready_before _ _ H).
    - rewrite andb_true_r. apply t_ret. auto. }
  intros _. apply (t_bind T _ _ _ (fun _ => ready need)).
  { eapply t_weaken with (E := failed); [apply t_keep|intros w H; exact H|intros a w H; exact H|exact Wf]. }
  intros _. apply (t_bind T _ _ _ (fun _ => done)).
  { eapply t_weaken with (E := failed); [apply t_replace|intros w H; exact H|intros a w H; exact H|exact Wf]. auto. }
  intros _. apply t_call. intros x w Hf [H1 H2]. right. auto.
Qed.

Lemma t_plain : need = false -> triple T before (save_plain e new) (fun _ => done) failed.
Proof.
  intros Hn. unfold save_plain. apply (t_bind T before _ _ (fun _ => ready written)).
  { apply (t_bind T before _ _ (fun _ => before)); [apply t_before|]. intros _. apply t_release; [|apply t_keep|apply t_before].
    apply t_fallback. apply (t_bind T before _ _ (fun _ => before)); [apply t_before|]. intros _. apply t_vacuum. rewrite Hn. discriminate. }
  intros _. apply (t_bind T _ _ _ (fun _ => ready written)); [apply t_keep|]. intros _. apply t_replace. rewrite Hn. discriminate.
Qed.

(** What may be the case when [save_to_file] raises. *)
Definition ended (fsync : bool) (x : raised) (w : world C) : Prop :=
  (unchanged w0 w \/ (good w /\ fsync = true /\ e_fsync_dir e <> FOk)) /\
  (match x with Exn _ => True | Interrupt => False end -> e_realpath e = FOk -> e_close e = FOk -> e_unlink e = FOk -> w_tmp w = None).

Lemma t_save fsync : (need = true -> fsync = true) ->
  triple T (fun w => w = w0 /\ w_tmp w0 = None) (save_to_file e empty new fsync) (fun _ => done) (ended fsync).
Proof.
  intros Hf. unfold save_to_file.
  destruct (e_dir_writable e); cbn [negb]; [|apply t_throw; intros w [-> H]; split; [left; reflexivity|auto]].
  destruct (e_is_file e && negb (e_file_writable e)); [apply t_throw; intros w [-> H]; split; [left; reflexivity|auto]|].
  apply (t_bind T _ _ _ (fun _ => before)).
  { apply t_act.
    - intros w [-> _] _. split; [left; reflexivity|]. split; [reflexivity|discriminate].
    - intros x w [-> H]. split; [left; reflexivity|auto]. }
  intros _. apply (t_bind T _ _ _ (fun _ => before)).
  { eapply t_finally with (Q0 := fun _ => before) (E0 := fun x w => before w /\ e_realpath e <> FOk).
    - apply t_call. auto.
    - intros _. apply t_call. intros x w Hc [Hu _]. split; [left; exact Hu|]. intros _ _ Hc'. congruence.
    - intros x. eapply t_weaken with (P := fun w => before w /\ e_realpath e <> FOk) (Q := fun _ w => before w /\ e_realpath e <> FOk) (E := ended fsync).
      + apply t_call. intros y w _ [[Hu _] Hr]. split; [left; exact Hu|]. intros _ Hr'. congruence.
      + intros w H. exact H.
      + intros _ w [[Hu _] Hr]. split; [left; exact Hu|]. intros _ Hr'. congruence.
      + auto. }
  intros _.
  assert (Hm : triple T before (if fsync then save_synced e new else save_plain e new) (fun _ => done)
                 (fun x w => before w \/ (good w /\ w_tmp w = None /\ fsync = true /\ e_fsync_dir e <> FOk))).
  { destruct fsync.
    - eapply t_weaken; [exact t_synced|auto|auto|]. intros x w [H|(H1 & H2 & H3)]; auto.
    - eapply t_weaken; [apply t_plain|auto|auto|].
      + destruct need; [discriminate (Hf eq_refl)|reflexivity].
      + intros x w H. left. exact H. }
  eapply t_catch; [exact Hm|]. intros [x|]; cbn.
  - intros w Hw HT. unfold bind, unlink, throw. destruct Hw as [[Hu Ht]|(Hg & Ht & Hs & Hd)].
    + destruct (w_tmp w) as [f|] eqn:Et; [|easy]. unfold act. destruct (e_unlink e) as [|y|] eqn:Eu; cbn.
      * split; [constructor; [exact HT|constructor; [left; exact Hu|constructor; [left; exact Hu|constructor]]]|]. split; [left; exact Hu|]. split; [left; exact Hu|auto].
      * split; [auto|]. split; [auto|]. split; [left; exact Hu|]. intros _ _ _ E. congruence.
      * split; [auto|]. split; [auto|]. split; [left; exact Hu|]. intros [].
    + rewrite Ht. cbn. split; [auto|]. split; [auto|]. split; [right; auto|auto].
  - intros w [[Hu _]|(Hg & _ & Hs & Hd)]; (split; [|intros []]); [left; exact Hu|right; auto].
Qed.
End F.

(** *** The statements *)

Section S.
Context {C : Type} (e : env C) (empty new : C) (w0 : world C) (fsync : bool) (H0 : w_tmp w0 = None).
Let run := save_to_file e empty new fsync w0.

Lemma save_spec (need : bool) : (need = true -> fsync = true /\ (e_old_sqlite e = true \/ e_backup_syncs e = true)) ->
  Forall (T new w0 need) (fst (fst run)) /\ T new w0 need (snd (fst run)) /\
  match snd run with Val _ => done new need (snd (fst run)) | Exc x => ended e new w0 need fsync x (snd (fst run)) end.
Proof.
  intros Hn. pose proof (t_save e empty new w0 need (fun H => proj2 (Hn H)) fsync (fun H => proj1 (Hn H)) w0 (conj eq_refl H0) (or_introl eq_refl)) as H.
  unfold run. destruct (save_to_file e empty new fsync w0) as [[t w] r]. cbn [fst snd]. exact H.
Qed.
Lemma good_saved need w : good new need w -> saved new w.
Proof. intros (f & E & Ed & _). exists f. auto. Qed.

Lemma save_atomic : forall w, In w (fst (fst run)) \/ w = snd (fst run) -> unchanged w0 w \/ saved new w.
Proof.
  destruct (save_spec false) as (H1 & H2 & _); [discriminate|]. rewrite Forall_forall in H1.
  intros w [H|H]; [apply H1 in H|subst w; rename H2 into H]; (destruct H as [H|H]; [left; exact H|right; exact (good_saved _ _ H)]).
Qed.
Lemma save_durable : fsync = true -> e_old_sqlite e = true \/ e_backup_syncs e = true ->
  forall w, In w (fst (fst run)) \/ w = snd (fst run) -> unchanged w0 w \/ saved_on_drive new w.
Proof.
  intros Hf Hb. destruct (save_spec true) as (H1 & H2 & _); [auto|]. rewrite Forall_forall in H1.
  assert (G : forall w, good new true w -> saved_on_drive new w) by (intros w (f & E & Ed & Es); exists f; auto).
  intros w [H|H]; [apply H1 in H|subst w; rename H2 into H]; (destruct H as [H|H]; [left; exact H|right; exact (G _ H)]).
Qed.
Lemma save_success : snd run = Val tt -> saved new (snd (fst run)) /\ w_tmp (snd (fst run)) = None.
Proof.
  intros E. destruct (save_spec false) as (_ & _ & H3); [discriminate|]. rewrite E in H3. destruct H3 as [Hg Ht]. split; [exact (good_saved _ _ Hg)|exact Ht].
Qed.
Lemma save_failure x : snd run = Exc x ->
  (unchanged w0 (snd (fst run)) \/ (saved new (snd (fst run)) /\ fsync = true /\ e_fsync_dir e <> FOk)) /\
  (x <> Interrupt -> e_realpath e = FOk -> e_close e = FOk -> e_unlink e = FOk -> w_tmp (snd (fst run)) = None).
Proof.
  intros E. destruct (save_spec false) as (_ & _ & H3); [discriminate|]. rewrite E in H3. destruct H3 as [Hg Ht]. split.
  - destruct Hg as [Hg|(Hg & Hr)]; [left; exact Hg|right; split; [exact (good_saved _ _ Hg)|exact Hr]].
  - intros Hx. apply Ht. destruct x; auto.
Qed.
Lemma save_works : all_fine e -> snd run = Val tt.
Proof.
  intros (A1 & A2 & A3). repeat match goal with H : Forall _ (_ :: _) |- _ => inversion_clear H end.
  unfold run, save_to_file. rewrite A1. cbn [negb].
  replace (e_is_file e && negb (e_file_writable e)) with false by (destruct (e_is_file e); cbn; auto; now rewrite A2).
  destruct w0 as [d tm]. cbn in H0. subst tm.
  assert (Eb : forall f : fault, f = FOk -> f = FOk) by auto.
  unfold save_synced, save_plain, vacuum, write, fsync_tmp, replace, finally, catch, bind, call, act, ret, set_tmp.
  repeat match goal with H : _ = FOk |- _ => rewrite !H; clear H end. cbn.
  destruct fsync; [destruct (e_old_sqlite e); [|destruct (e_backup_syncs e)]|]; cbn; repeat match goal with H : _ = FOk |- _ => rewrite H; cbn end; reflexivity.
Qed.
(** If only flushing the directory fails, the error is replaced. *)
Lemma save_masked y : fsync = true -> e_dir_writable e = true -> e_is_file e = false ->
  Forall (fun f => f = FOk) [ e_mktemp e; e_realpath e; e_close e; e_acquire e; e_cursor e; e_pragma1 e; e_pragma2 e; e_pragma3 e; e_pragma4 e;
      e_vacuum e; e_restore1 e; e_restore2 e; e_release e; e_fsync_tmp e; e_chmod e; e_replace e ] ->
  e_fsync_dir e = FExn y -> snd run = Exc (Exn OsError) /\ saved new (snd (fst run)).
Proof.
  intros Hf A1 A2 A3 A4. repeat match goal with H : Forall _ (_ :: _) |- _ => inversion_clear H end.
  unfold run, save_to_file. rewrite A1, A2, Hf. cbn [negb andb].
  destruct w0 as [d tm]. cbn in H0. subst tm.
  unfold save_synced, vacuum, write, fsync_tmp, replace, unlink, throw, finally, catch, bind, call, act, ret, set_tmp.
  repeat match goal with H : _ = FOk |- _ => rewrite !H; clear H end. rewrite A4. cbn.
  destruct (e_old_sqlite e); cbn; (split; [reflexivity|]); eexists; split; reflexivity.
Qed.
End S.
