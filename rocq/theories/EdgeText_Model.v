(** Model of the description of an edge in the header of mapping data.
    Sources: src/toron/_utils.py lines 359-445 [parse_edge_shorthand], src/toron/mapper.py lines 48-59.

    The regular expression is matched as Python does it, by backtracking: a pattern gives all the ways to match at a
    position, in the order in which they are tried. *)
From Coq Require Import NArith.
From Verif Require Import Prelude Selectors_Model.
Local Open Scope N_scope.

(** All matches at the start of a string, first choice first, each with the rest of the string. *)
Definition pattern (A : Type) : Type := text -> list (A * text).
Definition pseq {A B} (p : pattern A) (q : A -> pattern B) : pattern B :=
  fun s => flat_map (fun x => q (fst x) (snd x)) (p s).
Definition pret {A} (a : A) : pattern A := fun s => [(a, s)].

(** The ways to match [[class]*], shortest first. *)
Fixpoint runs (class : N -> bool) (s : text) : list (text * text) :=
  ([], s) :: match s with
             | c :: s' => if class c then map (fun x => (c :: fst x, snd x)) (runs class s') else []
             | [] => []
             end.
(** [[class]*], [[class]+] and [[class]+?]. *)
Definition star (class : N -> bool) : pattern text := fun s => rev (runs class s).
Definition plus (class : N -> bool) : pattern text := fun s => rev (tl (runs class s)).
Definition plus_lazy (class : N -> bool) : pattern text := fun s => tl (runs class s).
(** A fixed string. *)
Fixpoint literal (t : text) : pattern text := fun s =>
  match t with
  | [] => [([], s)]
  | c :: t' => match s with
               | d :: s' => if c =? d then map (fun x => (c :: fst x, snd x)) (literal t' s') else []
               | [] => []
               end
  end.
Definition alternatives (ts : list text) : pattern text := fun s => flat_map (fun t => literal t s) ts.
(** [p?] *)
Definition optional {A} (p : pattern A) : pattern (option A) := fun s =>
  map (fun x => (Some (fst x), snd x)) (p s) ++ [(None, s)].
(** [$]: the end of the string or the line feed at its end. *)
Definition at_end : pattern unit := fun s => match s with [] => [(tt, s)] | [10] => [(tt, s)] | _ => [] end.

(** The class of line 424: none of the characters that file names must not have (less than, greater than, colon, double
    quote, slash, backslash, bar, question mark, asterisk). *)
Definition name_char (c : N) : bool := negb (existsb (N.eqb c) [60; 62; 58; 34; 47; 92; 124; 63; 42]).
(** [.] *)
Definition not_newline (c : N) : bool := negb (c =? 10).
Definition ws := star isspace.
Definition ws1 := plus isspace.
Definition colon : text := [58].

(** Line 430. *)
Definition directions : list text :=
  [txt "->"; txt "-->"; txt "<->"; txt "<-->"; txt "<-"; txt "<--"].
(** Line 436: an opening bracket, any characters, a closing bracket. *)
Definition selector_text : pattern text :=
  pseq (literal [91]) (fun a => pseq (star not_newline) (fun b => pseq (literal [93]) (fun c => pret (a ++ b ++ c)))).

Record edge := { e_name : text; e_file1 : text; e_direction : text; e_file2 : text; e_selector : option text }.

(** Lines 421-440. *)
Definition edge_pattern : pattern edge :=
  pseq ws (fun _ => pseq (plus_lazy name_char) (fun name => pseq ws (fun _ =>
  pseq (literal colon) (fun _ => pseq ws (fun _ =>
  pseq (plus_lazy name_char) (fun file1 => pseq ws1 (fun _ =>
  pseq (alternatives directions) (fun dir => pseq ws1 (fun _ =>
  pseq (plus_lazy name_char) (fun file2 => pseq ws (fun _ =>
  pseq (optional (pseq (literal colon) (fun _ => pseq ws (fun _ => optional selector_text)))) (fun sel =>
  pseq ws (fun _ => pseq at_end (fun _ =>
  pret {| e_name := name; e_file1 := file1; e_direction := dir; e_file2 := file2;
          e_selector := match sel with Some o => o | None => None end |})))))))))))))).

(** Models lines 359-445 [parse_edge_shorthand]; [None] stands for the empty dictionary. *)
Definition parse_edge_shorthand (s : text) : option edge :=
  match edge_pattern s with x :: _ => Some (fst x) | [] => None end.
(** [parse_edge_shorthand(col).get('edge_name')] (mapper.py line 55). *)
Definition shorthand_name (s : text) : option text :=
  match parse_edge_shorthand s with Some e => Some (e_name e) | None => None end.
