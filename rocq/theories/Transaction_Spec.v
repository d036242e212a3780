(** All or nothing. *)
From Verif Require Import Prelude Transaction_Model.

Section T.
Context {S V : Type}.

(** What the body does when it alone works on a copy of the data: the data afterwards, and
    what it raises; or that the database gave up the transaction on the way. *)
Inductive outcome := Finishes (s : S) | Raises (x : raised) | GivenUp.
Inductive works : prog S V -> S -> outcome -> Prop :=
| W_return s : works Return s (Finishes s)
| W_raise x s : works (Raise x) s (Raises x)
| W_done f k s s' v out : f s = Done s' v -> works (k (Got v)) s' out -> works (Execute f k) s out
| W_refused f k s e out : f s = Refused e -> works (k (Failed e)) s out -> works (Execute f k) s out
| W_aborted f k s e : f s = Aborted e -> works (Execute f k) s GivenUp.

(** The body executes nothing more once the database has given the transaction up. *)
Inductive careful : prog S V -> Prop :=
| C_return : careful Return
| C_raise x : careful (Raise x)
| C_execute f k : (forall r, careful (k r)) ->
    (forall s e, f s = Aborted e -> k (Failed e) = Return \/ exists x, k (Failed e) = Raise x) ->
    careful (Execute f k).

(** Not in a transaction. *)
Definition idle (c : conn S) : Prop := working c = None.

(** The data after a list of operations: each has its full effect if it reported success, and no
    effect if it reported an error. *)
Inductive history : list (prog S V) -> list (option raised) -> S -> S -> Prop :=
| H_nil s : history [] [] s s
| H_done p l rs s s' s'' : works p s (Finishes s') -> history l rs s' s'' -> history (p :: l) (None :: rs) s s''
| H_failed p l rs x s s' : history l rs s s' -> history (p :: l) (Some x :: rs) s s'.
End T.
