(** What columns, attributes, display order and the structure table are to satisfy. *)
From Verif Require Import Prelude Partitions_Spec.
From Coq Require Import Permutation.

(** Names with a meaning of their own in tables and files. *)
Definition reserved_name (x : string) : Prop :=
  In x ["domain"; "index_id"; "value"; "weight"; "_location_id"; "_structure_id"; "_granularity"]%string.

(** Every name means one thing. *)
Record names_ok (columns attributes : list string) : Prop := {
  no_column_twice : NoDup columns;
  no_attribute_twice : NoDup attributes;
  not_both : forall x, In x columns -> In x attributes -> False;
  column_not_reserved : forall x, In x columns -> ~ reserved_name x;
  attribute_not_reserved : forall x, In x attributes -> ~ reserved_name x }.

(** [moved l e offset l']: [l'] is [l] with its first [e] taken out and put back
    [offset] places further right, as far as the ends allow; nothing else moves. *)
Definition moved (l : list string) (e : string) (offset : Z) (l' : list string) : Prop :=
  exists a b c d, l = a ++ e :: b /\ ~ In e a /\ l' = c ++ e :: d /\ c ++ d = a ++ b /\
    Z.of_nat (length c) = Z.max 0 (Z.min (Z.of_nat (length a) + offset) (Z.of_nat (length l) - 1)).

(** [row] marks the columns that belong to [labels]. *)
Definition marks (columns : list string) (row : list bool) (labels : list string) : Prop :=
  length row = length columns /\
  forall i x b, nth_error columns i = Some x -> nth_error row i = Some b -> (b = true <-> In x labels).

(** The structure table is what the definitions generate: one row for every union
    of definitions, none twice, none else. *)
Record structure_ok (columns : list string) (defs : list (list string)) (rows : list (list bool)) : Prop := {
  rows_distinct : NoDup rows;
  rows_unions : forall r, In r rows -> exists l, union_of defs l /\ marks columns r l;
  unions_rows : forall l, union_of defs l -> exists r, In r rows /\ marks columns r l }.

(** Definitions speak of columns, none is superfluous, and the whole space is there. *)
Record definitions_ok (columns : list string) (defs : list (list string)) : Prop := {
  defs_known : forall d x, In d defs -> In x d -> In x columns;
  defs_distinct : all_distinct defs;
  defs_irreducible : forall d, In d defs -> irreducible defs d;
  defs_whole : union_of defs columns }.

(** Letters of one case: how SQLite tells column names apart. *)
Definition same_letter (a b : Ascii.ascii) : Prop :=
  let m := Ascii.nat_of_ascii a in let n := Ascii.nat_of_ascii b in
  m = n \/ (65 <= m <= 90 /\ n = m + 32) \/ (65 <= n <= 90 /\ m = n + 32).
Inductive same_but_case : string -> string -> Prop :=
| sbc_nil : same_but_case ""%string ""%string
| sbc_cons a b s t : same_letter a b -> same_but_case s t -> same_but_case (String a s) (String b t).
Definition case_distinct (l : list string) : Prop :=
  forall i j x y, i <> j -> nth_error l i = Some x -> nth_error l j = Some y -> ~ same_but_case x y.
Definition contains_nul (t : string) : Prop := exists a b, t = (a ++ String Ascii.zero b)%string.
(** Names that tables have besides label columns. *)
Definition table_columns : list string := ["index_id"; "_location_id"; "_structure_id"; "_granularity"]%string.

(** The names [new] can become columns next to [columns] and [attributes]. *)
Definition may_be_added (columns attributes new : list string) : Prop :=
  (forall x, In x new -> ~ reserved_name x /\ ~ In x columns /\ ~ In x attributes /\ ~ contains_nul x) /\
  case_distinct (table_columns ++ columns ++ new).

(** A column list with one name exchanged. *)
Definition renamed (old new : string) (l l' : list string) : Prop :=
  Forall2 (fun x y => (x = old /\ y = new) \/ (x <> old /\ y = x)) l l'.
