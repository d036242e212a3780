(** C63: names of columns in SQL statements. *)
From Verif Require Import Prelude Selectors_Model Quote_Model.

(** Names that can be used: no surrogates and no NUL. *)
Definition usable (name : text) : Prop := forall c, In c name -> c <> 0%N /\ ~ (55296 <= c <= 57343)%N.

(** A statement written with single spaces between its tokens.  Words begin with a letter or an underscore,
    numbers with a digit, variables with '?' or ':', strings are in single quotes, the rest are operators. *)
Fixpoint pieces (t cur : text) : list text :=
  match t with
  | [] => match cur with [] => [] | _ => [cur] end
  | 32%N :: t' => match cur with [] => pieces t' [] | _ => cur :: pieces t' [] end
  | c :: t' => pieces t' (cur ++ [c])
  end.
Definition piece_token (p : text) : token :=
  match p with
  | [] => TBad
  | c :: p' =>
      if (c =? 39)%N then TStr (removelast p')
      else if ((c =? 63) || (c =? 58))%N then TVar p
      else if ((48 <=? c) && (c <=? 57))%N then TNum p
      else if ((65 <=? c) && (c <=? 90) || (97 <=? c) && (c <=? 122) || (c =? 95))%N then TWord p
      else TOp p
  end.
Definition sql (s : string) : list token := map piece_token (pieces (txt s) []).
(** The name of a column. *)
Definition col (name : text) : list token := [TName 34 name].
(** Lists with separators. *)
Fixpoint between (sep : list token) (parts : list (list token)) : list token :=
  match parts with [] => [] | [p] => p | p :: parts' => p ++ sep ++ between sep parts' end.
Definition cols (names : list text) : list token := between (sql ",") (map col names).

(** A text after which a new token begins. *)
Definition complete (pre : text) : Prop := forall post, tokens (pre ++ post) = tokens pre ++ tokens post.

(** The definitions of label columns. *)
Definition index_col (c : text) := col c ++ sql "TEXT NOT NULL CHECK (" ++ col c ++ sql "!= '' ) DEFAULT '-'".
Definition location_col (c : text) := col c ++ sql "TEXT NOT NULL DEFAULT ''".
Definition structure_col (c : text) := col c ++ sql "INTEGER NOT NULL CHECK (" ++ col c ++ sql "IN ( 0 , 1 ) ) DEFAULT 0".
(** The conditions of queries. *)
Definition criterion (c : text) := col c ++ sql "= ?".
Definition filled (p : text * bool) := col (fst p) ++ (if snd p then sql "!= ''" else sql "= ''").
Definition filled_b (p : text * bool) := sql "b ." ++ col (fst p) ++ (if snd p then sql "!= ''" else sql "= ''").
Definition marks (n : nat) := between (sql ",") (repeat (sql "?") n).

(** Names are the same for SQLite if they differ only in the case of ASCII letters. *)
Definition lower_letter (a b : N) : Prop := (65 <= a <= 90 /\ b = a + 32)%N \/ (~ (65 <= a <= 90) /\ b = a)%N.
Definition same_for_sqlite (a b : text) : Prop := exists l, Forall2 lower_letter a l /\ Forall2 lower_letter b l.
(** The label of a row in a column. *)
Inductive label_at : list text -> list text -> text -> text -> Prop :=
| la_here n ns v vs : label_at (n :: ns) (v :: vs) n v
| la_next n ns v vs m w : label_at ns vs m w -> label_at (n :: ns) (v :: vs) m w.
(** Tables whose columns have different names. *)
Record names_ok (t : ltable) : Prop := {
  no_two : forall i j a b, nth_error (l_key t :: l_names t) i = Some a -> nth_error (l_key t :: l_names t) j = Some b ->
    same_for_sqlite a b -> i = j;
  widths : forall r, In r (l_rows t) -> length (snd r) = length (l_names t) }.
(** A row has all labels of the criteria. *)
Definition meets (t : ltable) (criteria : list (text * text)) (r : lrow) : Prop :=
  forall k v, In (k, v) criteria -> exists n, same_for_sqlite k n /\ label_at (l_names t) (snd r) n v.
(** Every criterion is about a label column. *)
Definition known (t : ltable) (criteria : list (text * text)) : Prop :=
  forall k v, In (k, v) criteria -> exists n, In n (l_names t) /\ same_for_sqlite k n.
(** With or without the undefined record. *)
Definition wanted (t : ltable) (criteria : list (text * text)) (u : bool) (r : lrow) : Prop :=
  meets t criteria r /\ (u = false -> fst r <> 0%Z).
(** The labels a partition asks for. *)
Definition fits (t : ltable) (bits : list bool) (r : lrow) : Prop :=
  forall n b, In (n, b) (combine (l_names t) bits) -> exists v, label_at (l_names t) (snd r) n v /\ (b = true <-> v <> []).
(** A list in the order of another one. *)
Inductive picked {A} (P : A -> Prop) : list A -> list A -> Prop :=
| pk_nil : picked P [] []
| pk_in x l l' : P x -> picked P l l' -> picked P (x :: l) (x :: l')
| pk_out x l l' : ~ P x -> picked P l l' -> picked P (x :: l) l'.
