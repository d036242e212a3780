(** C24: saving a file is atomic with respect to the destination. *)
From Verif Require Import Prelude Transaction_Model SaveFile_Model SaveFile_Spec SaveFile_Proofs.
Local Open Scope nat_scope.

(** At every point of the execution, also where it ends, the destination holds what it held or
    all of the new data. *)
Theorem C24_atomic {C} (e : env C) empty new w0 fsync : w_tmp w0 = None ->
  let run := save_to_file e empty new fsync w0 in
  forall w, In w (fst (fst run)) \/ w = snd (fst run) -> unchanged w0 w \/ saved new w.
Proof. exact (save_atomic e empty new w0 fsync). Qed.
Print Assumptions C24_atomic.

(** With [fsync], new data in the destination has reached the drive (given that a backup flushes
    its target where it is needed). *)
Theorem C24_durable {C} (e : env C) empty new w0 : w_tmp w0 = None ->
  e_old_sqlite e = true \/ e_backup_syncs e = true ->
  let run := save_to_file e empty new true w0 in
  forall w, In w (fst (fst run)) \/ w = snd (fst run) -> unchanged w0 w \/ saved_on_drive new w.
Proof. intros H. exact (save_durable e empty new w0 true H eq_refl). Qed.
Print Assumptions C24_durable.

(** When it returns, the destination holds the new data and no temporary file is left. *)
Theorem C24_success {C} (e : env C) empty new w0 fsync : w_tmp w0 = None ->
  let run := save_to_file e empty new fsync w0 in
  snd run = Val tt -> saved new (snd (fst run)) /\ w_tmp (snd (fst run)) = None.
Proof. exact (save_success e empty new w0 fsync). Qed.
Print Assumptions C24_success.
Theorem C24_works {C} (e : env C) empty new w0 fsync : w_tmp w0 = None -> all_fine e ->
  snd (save_to_file e empty new fsync w0) = Val tt.
Proof. exact (save_works e empty new w0 fsync). Qed.
Print Assumptions C24_works.

(** When it raises, the destination is unchanged, except where flushing the directory failed
    after the replacement; the temporary file is removed, unless it was an interrupt, the file
    could not be removed, or the failure was between making and using the file. *)
Theorem C24_failure {C} (e : env C) empty new w0 fsync x : w_tmp w0 = None ->
  let run := save_to_file e empty new fsync w0 in
  snd run = Exc x ->
  (unchanged w0 (snd (fst run)) \/ (saved new (snd (fst run)) /\ fsync = true /\ e_fsync_dir e <> FOk)) /\
  (x <> Interrupt -> e_realpath e = FOk -> e_close e = FOk -> e_unlink e = FOk -> w_tmp (snd (fst run)) = None).
Proof. intros H. exact (save_failure e empty new w0 fsync H x). Qed.
Print Assumptions C24_failure.

(** *** Cases *)
Definition env_ok : env nat :=
  {| e_dir_writable := true; e_is_file := true; e_file_writable := true; e_mktemp := FOk; e_realpath := FOk; e_close := FOk;
     e_acquire := FOk; e_cursor := FOk; e_pragma1 := FOk; e_pragma2 := FOk; e_pragma3 := FOk; e_pragma4 := FOk;
     e_vacuum := FOk; e_vacuum_partial := [5; 6]; e_open := FOk; e_backup := FOk; e_backup_partial := [8]; e_backup_syncs := true;
     e_restore1 := FOk; e_restore2 := FOk; e_release := FOk; e_old_sqlite := false; e_fsync_tmp := FOk;
     e_chmod := FOk; e_replace := FOk; e_fsync_dir := FOk; e_unlink := FOk |}.
Definition with_faults (v b r d : fault) : env nat :=
  {| e_dir_writable := true; e_is_file := true; e_file_writable := true; e_mktemp := FOk; e_realpath := FOk; e_close := FOk;
     e_acquire := FOk; e_cursor := FOk; e_pragma1 := FOk; e_pragma2 := FOk; e_pragma3 := FOk; e_pragma4 := FOk;
     e_vacuum := v; e_vacuum_partial := [5; 6]; e_open := FOk; e_backup := b; e_backup_partial := [8]; e_backup_syncs := true;
     e_restore1 := FOk; e_restore2 := FOk; e_release := FOk; e_old_sqlite := false; e_fsync_tmp := FOk;
     e_chmod := FOk; e_replace := r; e_fsync_dir := d; e_unlink := FOk |}.
Definition w_old : world nat := {| w_dst := Some {| f_data := 1; f_synced := true |}; w_tmp := None |}.
Definition w_new : world nat := {| w_dst := Some {| f_data := 2; f_synced := true |}; w_tmp := None |}.
Example C24_case :
  all_fine env_ok /\
  snd (fst (save_to_file env_ok 0 2 true w_old)) = w_new /\
  (* fallback to the backup *)
  (let '(_, w, r) := save_to_file (with_faults (FExn SqlOperationalError) FOk FOk FOk) 0 2 true w_old in w = w_new /\ r = Val tt) /\
  (* the backup fails as well *)
  (let '(_, w, r) := save_to_file (with_faults (FExn SqlOperationalError) (FExn OsError) FOk FOk) 0 2 true w_old in w = w_old /\ r = Exc (Exn OsError)) /\
  (* the replacement fails *)
  (let '(_, w, r) := save_to_file (with_faults FOk FOk (FExn OsError) FOk) 0 2 true w_old in w = w_old /\ r = Exc (Exn OsError)).
Proof. split; [|cbn; auto]. split; [reflexivity|]. split; [reflexivity|]. repeat constructor. Qed.

(** *** Findings *)

(** If flushing the directory fails, the caller gets the error of removing a temporary file that is
    gone, although the new data is in place. *)
Theorem C24_masked_refuted : exists (e : env nat) y, y <> OsError /\ e_fsync_dir e = FExn y /\
  forall w0, w_tmp w0 = None ->
  snd (save_to_file e 0 2 true w0) = Exc (Exn OsError) /\ saved 2 (snd (fst (save_to_file e 0 2 true w0))).
Proof.
  exists (with_faults FOk FOk FOk (FExn PlainException)), PlainException. split; [discriminate|]. split; [reflexivity|].
  intros [d t] H. cbn in H. subst t. cbn. split; [reflexivity|]. eexists. split; reflexivity.
Qed.
Print Assumptions C24_masked_refuted.

(** An interrupt leaves the temporary file behind. *)
Theorem C24_interrupt_refuted : exists e : env nat, e_unlink e = FOk /\
  let '(_, w, r) := save_to_file e 0 2 true w_old in r = Exc Interrupt /\ unchanged w_old w /\ w_tmp w <> None.
Proof. exists (with_faults FBase FOk FOk FOk). split; [reflexivity|]. cbn. repeat split. discriminate. Qed.
Print Assumptions C24_interrupt_refuted.
