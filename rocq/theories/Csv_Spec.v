(** Specification of CSV files (RFC 4180) as relations between texts and rows of cells, without
    reference to the reader or the writer of the model. *)
From Verif Require Import Prelude Selectors_Model.
Local Open Scope N_scope.

(** A text without comma, quote and line end stands for itself. *)
Definition Plain (s : text) : Prop := Forall (fun c => c <> 34 /\ c <> 44 /\ c <> 10 /\ c <> 13) s.

(** Inside quotes a quote is written twice. *)
Inductive Body : text -> text -> Prop :=
| B_nil : Body [] []
| B_char c b s : c <> 34 -> Body b s -> Body (c :: b) (c :: s)
| B_quote b s : Body b s -> Body (34 :: 34 :: b) (34 :: s).

(** Line ends of all systems are read as LF. *)
Inductive Newlines : text -> text -> Prop :=
| N_nil : Newlines [] []
| N_char c r r' : c <> 13 -> Newlines r r' -> Newlines (c :: r) (c :: r')
| N_crlf r r' : Newlines r r' -> Newlines (13 :: 10 :: r) (10 :: r')
| N_cr r r' : (forall q, r <> 10 :: q) -> Newlines r r' -> Newlines (13 :: r) (10 :: r').

Inductive Cell : text -> text -> Prop :=
| C_plain s : Plain s -> Cell s s
| C_quoted b s s' : Body b s -> Newlines s s' -> Cell (34 :: b ++ [34]) s'.

Inductive Record_ : text -> list text -> Prop :=
| R_one e c : Cell e c -> Record_ e [c]
| R_more e c e' cs : Cell e c -> Record_ e' cs -> Record_ (e ++ 44 :: e') (c :: cs).

(** A line end before the text [r]. *)
Definition Eol (n r : text) : Prop := n = [10] \/ n = [13; 10] \/ (n = [13] /\ forall q, r <> 10 :: q).

(** Records on lines; a blank line is a row without cells; the last line end may be missing. *)
Inductive File : text -> list (list text) -> Prop :=
| F_nil : File [] []
| F_last e cs : Record_ e cs -> e <> [] -> File e [cs]
| F_blank n r rows : Eol n r -> File r rows -> File (n ++ r) ([] :: rows)
| F_more e cs n r rows : Record_ e cs -> e <> [] -> Eol n r -> File r rows -> File (e ++ n ++ r) (cs :: rows).

(** Names as people mean them: nothing to strip, no line ends. *)
Definition Clean (line_end space : N -> bool) (s : text) : Prop :=
  s <> [] /\ Forall (fun c => line_end c = false) s
  /\ (forall c r, s = c :: r -> space c = false) /\ (forall c r, s = r ++ [c] -> space c = false).

(** A name with white space around it; the name may be empty. *)
Definition Padded (space : N -> bool) (c l : text) : Prop :=
  exists a b, c = a ++ l ++ b /\ Forall (fun x => space x = true) a /\ Forall (fun x => space x = true) b
    /\ (forall c r, l = c :: r -> space c = false) /\ (forall c r, l = r ++ [c] -> space c = false).

(** Cells that the reader accepts: not longer than csv.field_size_limit, and without NUL unless
    the reader allows it (Python 3.11 and later). *)
Definition Fits (limit : nat) (nul_ok : bool) (c : text) : Prop :=
  (length c <= limit)%nat /\ (nul_ok = true \/ ~ In 0 c).
