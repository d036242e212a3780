(** Shared vocabulary of all model files.  No modelled code lives here. *)
From Coq Require Export String.
From Coq Require Export ZArith QArith Lia Bool Arith List.
Export ListNotations.
#[global] Open Scope nat_scope.
#[global] Open Scope list_scope.

(** Python exceptions as values.  One constructor per exception class that the
    modelled code raises or lets escape; messages are not modelled. *)
Inductive exn : Type :=
| ValueError | KeyError | TypeError | RuntimeError | IndexError
| ToronError | ToronIntegrityError | AttributeError | OverflowError
| SqlIntegrityError      (* sqlite3.IntegrityError *)
| SqlOperationalError    (* sqlite3.OperationalError *)
| StructError            (* struct.error *)
| UnboundLocalError | RecursionError | OsError | SyntaxErr | PlainException.

(** Outcome of a call: a value or an exception. *)
Inductive res (A : Type) : Type :=
| Ok (a : A)
| Err (e : exn).
Arguments Ok {A} a.
Arguments Err {A} e.

Definition bind {A B} (m : res A) (k : A -> res B) : res B :=
  match m with Ok a => k a | Err e => Err e end.

Declare Scope res_scope.
Notation "'do' x <- m ; k" := (bind m (fun x => k))
  (at level 200, x pattern, m at level 100, k at level 200, right associativity) : res_scope.
Open Scope res_scope.

(** Exact sum of a list of rationals. *)
Definition Qsum (l : list Q) : Q := fold_right Qplus 0%Q l.
