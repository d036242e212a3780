(** Model of the managed transaction.

    Sources: src/toron/space.py lines 199-249, src/toron/dal1/data_connector.py lines 344-358.

    Simplifications that hold for the whole file:
    - the database is one value; a connection holds what is committed and, while a transaction
      is active, the working copy (SQLite, [isolation_level=None]: outside a transaction each
      statement commits by itself);
    - a statement fails without effect, or fails and makes SQLite roll the transaction back
      (disk full, I/O error, out of memory, interrupt), or succeeds;
    - ROLLBACK succeeds while a transaction is active;
    - no other connection writes at the same time. *)
From Verif Require Import Prelude.

(** What may be raised: an [Exception], or another [BaseException] (KeyboardInterrupt,
    GeneratorExit, SystemExit). *)
Inductive raised := Exn (e : exn) | Interrupt.

Section T.
Context {S V : Type}.

(** The database connection. *)
Record conn := { committed : S; working : option S }.

(** What a statement does to the data it sees. *)
Inductive answer :=
| Done (s : S) (v : V)
| Refused (e : exn)
| Aborted (e : exn).

(** What the code gets to see of it. *)
Inductive reply := Got (v : V) | Failed (e : exn).

(** The body of a [with] block: ordinary code that executes statements, sees the results and may
    catch their errors. *)
Inductive prog :=
| Return
| Raise (x : raised)
| Execute (f : S -> answer) (k : reply -> prog).

(** data_connector.py lines 348-350 [transaction_is_active]. *)
Definition is_active (c : conn) : bool := match working c with Some _ => true | None => false end.

(** Execution of one statement by SQLite. *)
Definition execute (f : S -> answer) (c : conn) : conn * reply :=
  match working c with
  | Some w =>
      match f w with
      | Done w' v => ({| committed := committed c; working := Some w' |}, Got v)
      | Refused e => (c, Failed e)
      | Aborted e => ({| committed := committed c; working := None |}, Failed e)
      end
  | None =>
      match f (committed c) with
      | Done s' v => ({| committed := s'; working := None |}, Got v)
      | Refused e => (c, Failed e)
      | Aborted e => (c, Failed e)
      end
  end.

Fixpoint run_body (p : prog) (c : conn) : conn * option raised :=
  match p with
  | Return => (c, None)
  | Raise x => (c, Some x)
  | Execute f k => let '(c', r) := execute f c in run_body (k r) c'
  end.

(** data_connector.py lines 352-354 [transaction_rollback]. *)
Definition rollback (c : conn) : conn * option raised :=
  match working c with
  | Some _ => ({| committed := committed c; working := None |}, None)
  | None => (c, Some (Exn SqlOperationalError))
  end.

(** data_connector.py lines 356-358 [transaction_commit]: COMMIT may be refused (database busy,
    deferred constraint) or abort the transaction. *)
Inductive commit_fault := CommitOk | CommitRefused (e : exn) | CommitAborted (e : exn).
Definition commit (o : commit_fault) (c : conn) : conn * option raised :=
  match working c with
  | Some w =>
      match o with
      | CommitOk => ({| committed := w; working := None |}, None)
      | CommitRefused e => (c, Some (Exn e))
      | CommitAborted e => ({| committed := committed c; working := None |}, Some (Exn e))
      end
  | None => (c, Some (Exn SqlOperationalError))
  end.

(** data_connector.py lines 344-346 [transaction_begin]; [b] is the error, if any. *)
Definition begin (b : option exn) (c : conn) : conn * option raised :=
  match b with
  | Some e => (c, Some (Exn e))
  | None => ({| committed := committed c; working := Some (committed c) |}, None)
  end.

(** Lines 246-249 of space.py: the [finally] clause. *)
Definition finish (cr : conn * option raised) : conn * option raised :=
  let '(c, r) := cr in
  if is_active c then let '(c', r') := rollback c in (c', match r' with Some x => Some x | None => r end)
  else (c, r).

(** Models space.py lines 228-249 [_managed_transaction] around a [with] block. *)
Definition managed_transaction (b : option exn) (o : commit_fault) (p : prog) (c : conn) : conn * option raised :=
  if is_active c then (c, Some (Exn PlainException))
  else match begin b c with
  | (c, Some x) => (c, Some x)
  | (c, None) =>
      let '(c, r) :=
        match run_body p c with
        | (c, Some x) => (c, Some x)
        | (c, None) => commit o c
        end in
      finish
        match r with
        | Some (Exn e) =>
            let '(c, r') := rollback c in (c, match r' with Some x => Some x | None => Some (Exn e) end)
        | _ => (c, r)
        end
  end.

(** One operation after another; errors are caught by the caller. *)
Fixpoint run_all (l : list (option exn * commit_fault * prog)) (c : conn) : conn * list (option raised) :=
  match l with
  | [] => (c, [])
  | (b, o, p) :: l' =>
      let '(c, r) := managed_transaction b o p c in let '(c, rs) := run_all l' c in (c, r :: rs)
  end.

(** Operations that use a cursor without a transaction (space.py lines 2211-2293
    [reify_mappings] and 2731-2760 [delete_unmatched_quantities]). *)
Definition unmanaged (p : prog) (c : conn) : conn * option raised := run_body p c.
End T.
Arguments conn : clear implicits.
Arguments answer : clear implicits.
Arguments reply : clear implicits.
Arguments prog : clear implicits.
