(** Model of saving a space to a file.

    Source: src/toron/dal1/data_connector.py lines 360-463 and 132-183.

    Simplifications that hold for the whole file:
    - the file system is the destination and the temporary file; contents are compared as data,
      so that VACUUM INTO and the backup write the same contents;
    - with each contents goes whether it is known to have reached the drive;
    - every call may fail in any way; while a file is being written it holds arbitrary
      contents; [os.replace] is atomic (same file system);
    - closing a cursor or a temporary connection does not fail; the destination is not a
      symbolic link and no other process touches the files. *)
From Verif Require Import Prelude Transaction_Model.

Section F.
Context {C : Type}.

Record file := { f_data : C; f_synced : bool }.
Record world := { w_dst : option file; w_tmp : option file }.

(** What a call does: it works, raises an exception, or is interrupted. *)
Inductive fault := FOk | FExn (e : exn) | FBase.
Inductive result (A : Type) := Val (a : A) | Exc (x : raised).
Arguments Val {A} a. Arguments Exc {A} x.

(** The states passed through, the state afterwards and the result. *)
Definition M (A : Type) := world -> list world * world * result A.
Definition ret {A} (a : A) : M A := fun w => ([w], w, Val a).
Definition throw {A} (x : raised) : M A := fun w => ([w], w, Exc x).
Definition bind {A B} (m : M A) (k : A -> M B) : M B := fun w =>
  match m w with
  | (t, w', Val a) => let '(t', w'', r) := k a w' in (t ++ t', w'', r)
  | (t, w', Exc x) => (t, w', Exc x)
  end.
(** [try: m except: h], where [h] is told what was raised and may pass. *)
Definition catch {A} (m : M A) (h : raised -> option (M A)) : M A := fun w =>
  match m w with
  | (t, w', Val a) => (t, w', Val a)
  | (t, w', Exc x) =>
      match h x with
      | Some h => let '(t', w'', r) := h w' in (t ++ t', w'', r)
      | None => (t, w', Exc x)
      end
  end.
(** [try: m finally: f]. *)
Definition finally {A} (m : M A) (f : M unit) : M A := fun w =>
  let '(t, w', r) := m w in
  match f w' with
  | (t', w'', Val _) => (t ++ t', w'', r)
  | (t', w'', Exc x) => (t ++ t', w'', Exc x)
  end.
Definition fault_result (f : fault) : result unit :=
  match f with FOk => Val tt | FExn e => Exc (Exn e) | FBase => Exc Interrupt end.
(** A call without effect on the files. *)
Definition call (f : fault) : M unit := fun w => ([w], w, fault_result f).
(** A call that has its effect if it works. *)
Definition act (f : fault) (g : world -> world) : M unit := fun w =>
  match f with FOk => ([w; g w], g w, Val tt) | _ => ([w], w, fault_result f) end.

(** The outside of one execution. *)
Record env := {
  e_dir_writable : bool; e_is_file : bool; e_file_writable : bool;
  e_mktemp : fault; e_realpath : fault; e_close : fault;
  e_acquire : fault; e_cursor : fault;
  e_pragma1 : fault; e_pragma2 : fault; e_pragma3 : fault; e_pragma4 : fault;
  e_vacuum : fault; e_vacuum_partial : list C;
  e_open : fault; e_backup : fault; e_backup_partial : list C; e_backup_syncs : bool;
  e_restore1 : fault; e_restore2 : fault; e_release : fault;
  e_old_sqlite : bool; e_fsync_tmp : fault;
  e_chmod : fault; e_replace : fault; e_fsync_dir : fault; e_unlink : fault
}.
Context (e : env) (empty new : C).

Definition set_tmp (t : option file) (w : world) : world := {| w_dst := w_dst w; w_tmp := t |}.
Definition unsynced (c : C) : file := {| f_data := c; f_synced := false |}.

(** Writing the data to the temporary file: the contents it has on the way, then the data if it
    works. *)
Definition write (f : fault) (partial : list C) (synced : bool) : M unit := fun w =>
  let during := map (fun c => set_tmp (Some (unsynced c)) w) partial in
  match f with
  | FOk => let w' := set_tmp (Some {| f_data := new; f_synced := synced |}) w in (w :: during ++ [w'], w', Val tt)
  | _ => let w' := last during w in (w :: during, w', fault_result f)
  end.
(** Lines 412-416 and 446-452: VACUUM INTO.  The file is flushed if SQLite is new enough and
    [synchronous] was set. *)
Definition vacuum (synchronous : bool) : M unit :=
  write (e_vacuum e) (e_vacuum_partial e) (synchronous && negb (e_old_sqlite e)).
Definition backup : M unit :=
  bind (call (e_open e)) (fun _ => write (e_backup e) (e_backup_partial e) (e_backup_syncs e)).
Definition on_operational_error (m : M unit) (x : raised) : option (M unit) :=
  match x with Exn SqlOperationalError => Some m | _ => None end.

(** Lines 132-183 [best_effort_fsync] of the temporary file. *)
Definition fsync_tmp : M unit :=
  act (e_fsync_tmp e) (fun w => set_tmp (match w_tmp w with Some f => Some {| f_data := f_data f; f_synced := true |} | None => None end) w).
(** [os.replace] and [os.unlink]; both raise FileNotFoundError (an OSError) if there is no
    temporary file. *)
Definition replace : M unit := fun w =>
  match w_tmp w with
  | Some f => act (e_replace e) (fun _ => {| w_dst := Some f; w_tmp := None |}) w
  | None => ([w], w, Exc (Exn OsError))
  end.
Definition unlink : M unit := fun w =>
  match w_tmp w with
  | Some _ => act (e_unlink e) (set_tmp None) w
  | None => ([w], w, Exc (Exn OsError))
  end.

(** Lines 390-440: with [fsync]. *)
Definition save_synced : M unit :=
  bind (bind (call (e_acquire e)) (fun _ =>
    finally
      (bind (call (e_cursor e)) (fun _ =>
       bind (call (e_pragma1 e)) (fun _ =>
       bind (call (e_pragma2 e)) (fun _ =>
       bind (call (e_pragma3 e)) (fun _ =>
       bind (call (e_pragma4 e)) (fun _ =>
       finally (catch (vacuum true) (on_operational_error backup))
               (bind (call (e_restore1 e)) (fun _ => call (e_restore2 e)))))))))
      (call (e_release e)))) (fun _ =>
  bind (if e_old_sqlite e then fsync_tmp else ret tt) (fun _ =>
  bind (call (e_chmod e)) (fun _ =>
  bind replace (fun _ => call (e_fsync_dir e))))).

(** Lines 442-458: without. *)
Definition save_plain : M unit :=
  bind (bind (call (e_acquire e)) (fun _ =>
    finally (catch (bind (call (e_cursor e)) (fun _ => vacuum false)) (on_operational_error backup))
            (call (e_release e)))) (fun _ =>
  bind (call (e_chmod e)) (fun _ => replace)).

(** Models lines 360-463 [save_to_file]. *)
Definition save_to_file (fsync : bool) : M unit :=
  if negb (e_dir_writable e) then throw (Exn OsError)
  else if e_is_file e && negb (e_file_writable e) then throw (Exn OsError)
  else
    bind (act (e_mktemp e) (set_tmp (Some (unsynced empty)))) (fun _ =>
    bind (finally (call (e_realpath e)) (call (e_close e))) (fun _ =>
    catch (if fsync then save_synced else save_plain)
      (fun x => match x with
                | Exn _ => Some (bind unlink (fun _ => throw x))
                | Interrupt => None
                end))).
End F.
Arguments file : clear implicits.
Arguments world : clear implicits.
Arguments env : clear implicits.
Arguments Val {A} a.
Arguments Exc {A} x.
