(** Specification vocabulary for C10. *)
From Verif Require Import Prelude Selectors_Model.

(** Length of the run of backslashes at the end of a text. *)
Fixpoint leading_run (t : text) : nat :=
  match t with c :: t' => if (c =? 92)%N then S (leading_run t') else 0 | [] => 0 end.
Definition trailing_run (t : text) : nat := leading_run (rev t).

(** A value that survives printing: no newline, every double quote preceded by an
    even number of backslashes, and an even number of backslashes at the end. *)
Definition printable (v : text) : Prop :=
  ~ In 10%N v /\ Nat.Even (trailing_run v) /\
  (forall pre post, v = pre ++ 34%N :: post -> Nat.Even (trailing_run pre)).

Fixpoint values_printable (s : selector) : Prop :=
  match s with
  | SSimple _ _ (Some v) _ => printable v
  | SSimple _ _ None _ => True
  | SCont _ l => fold_right (fun x P => values_printable x /\ P) True l
  | SLoop _ => True
  end.

(** Attribute names of the grammar. *)
Definition name_first (c : N) : Prop :=
  (97 <= c <= 122 \/ 65 <= c <= 90 \/ 160 <= c <= 65535 \/ c = 95)%N.
Definition name_other (c : N) : Prop := (name_first c \/ 48 <= c <= 57 \/ c = 45)%N.
Definition identifier (a : text) : Prop :=
  a = [45%N] \/
  exists c rest, (a = c :: rest \/ a = 45%N :: c :: rest) /\ name_first c /\ Forall name_other rest.

(** The selectors of the language without juxtaposition: tests with a proper attribute
    name; :is with at least two members (one member is no :is any more); :not and
    :where with at least one. *)
Fixpoint basic (s : selector) : Prop :=
  match s with
  | SSimple a None None ic => identifier a /\ ic = false
  | SSimple a (Some _) (Some v) _ => identifier a /\ v <> [] /\ printable v
  | SSimple _ _ _ _ => False
  | SCont CAny l => 2 <= length l /\ fold_right (fun x P => basic x /\ P) True l
  | SCont (CNot | CWhere) l => 1 <= length l /\ fold_right (fun x P => basic x /\ P) True l
  | SCont CCompound _ => False
  | SLoop _ => False
  end.

(** All selectors of the language: a basic one or two or more juxtaposed. *)
Definition in_language (s : selector) : Prop :=
  basic s \/ exists l, s = SCont CCompound l /\ 2 <= length l /\ Forall basic l.
