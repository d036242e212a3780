(** Saving without harm. *)
From Verif Require Import Prelude Transaction_Model SaveFile_Model.

Section F.
Context {C : Type}.
(** The destination holds exactly what it held before. *)
Definition unchanged (w0 w : world C) : Prop := w_dst w = w_dst w0.
(** The destination holds all of the new data. *)
Definition saved (new : C) (w : world C) : Prop := exists f, w_dst w = Some f /\ f_data f = new.
(** And it has reached the drive. *)
Definition saved_on_drive (new : C) (w : world C) : Prop := exists f, w_dst w = Some f /\ f_data f = new /\ f_synced f = true.
(** Nothing goes wrong. *)
Definition all_fine (e : env C) : Prop :=
  e_dir_writable e = true /\ (e_is_file e = true -> e_file_writable e = true) /\
  Forall (fun f => f = FOk)
    [ e_mktemp e; e_realpath e; e_close e; e_acquire e; e_cursor e; e_pragma1 e; e_pragma2 e; e_pragma3 e; e_pragma4 e;
      e_vacuum e; e_restore1 e; e_restore2 e; e_release e; e_fsync_tmp e; e_chmod e; e_replace e; e_fsync_dir e ].
End F.
