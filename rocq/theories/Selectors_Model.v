(** Model of attribute selectors.  Source: src/toron/selectors.py.
    Text is a list of Unicode code points, so nothing depends on a byte encoding. *)
From Verif Require Import Prelude.

Definition text := list N.
(** A literal, for examples. *)
Definition txt (s : string) : text := map Ascii.N_of_ascii (list_ascii_of_string s).

Fixpoint text_eqb (a b : text) : bool :=
  match a, b with
  | [], [] => true
  | x :: a', y :: b' => (x =? y)%N && text_eqb a' b'
  | _, _ => false
  end.

(** [b.startswith(a)]. *)
Fixpoint startswith (b a : text) {struct a} : bool :=
  match a, b with
  | [], _ => true
  | x :: a', y :: b' => (x =? y)%N && startswith b' a'
  | _ :: _, [] => false
  end.

(** [b.endswith(a)]. *)
Definition endswith (b a : text) : bool := startswith (rev b) (rev a).

(** [a in b] for strings. *)
Fixpoint contains (b a : text) : bool :=
  startswith b a || match b with [] => false | _ :: b' => contains b' a end.

(** [c.isspace()], the separators of [str.split()]. *)
Definition isspace (c : N) : bool :=
  ((9 <=? c) && (c <=? 13) || (28 <=? c) && (c <=? 32) || (c =? 133) || (c =? 160)
   || (c =? 5760) || (8192 <=? c) && (c <=? 8202) || (c =? 8232) || (c =? 8233)
   || (c =? 8239) || (c =? 8287) || (c =? 12288))%N.

(** [b.split()]; [cur] is the word being collected, last character first. *)
Fixpoint split_aux (cur b : text) : list text :=
  match b with
  | [] => match cur with [] => [] | _ => [rev cur] end
  | c :: b' =>
      if isspace c
      then match cur with [] => split_aux [] b' | _ => rev cur :: split_aux [] b' end
      else split_aux (c :: cur) b'
  end.
Definition split (b : text) : list text := split_aux [] b.

Inductive sel_op := OpEq | OpWord | OpDash | OpPrefix | OpSuffix | OpSubstr.

(** Recognised spellings of operators.  Models the [op ==] chain in lines 167-180. *)
Definition op_of_text (t : text) : option sel_op :=
  if text_eqb t (txt "=") then Some OpEq
  else if text_eqb t (txt "~=") then Some OpWord
  else if text_eqb t (txt "|=") then Some OpDash
  else if text_eqb t (txt "^=") then Some OpPrefix
  else if text_eqb t (txt "$=") then Some OpSuffix
  else if text_eqb t (txt "*=") then Some OpSubstr
  else None.

Definition sel_op_eqb (a b : sel_op) : bool :=
  match a, b with
  | OpEq, OpEq | OpWord, OpWord | OpDash, OpDash
  | OpPrefix, OpPrefix | OpSuffix, OpSuffix | OpSubstr, OpSubstr => true
  | _, _ => false
  end.

(** The match functions [lambda a, b: ...].  Models lines 165-178; [a] is the
    selector's value, [b] the value found in the row. *)
Definition op_match (o : sel_op) (a b : text) : bool :=
  match o with
  | OpEq => text_eqb a b
  | OpWord => existsb (text_eqb a) (split b)
  | OpDash => startswith b (a ++ txt "-") || text_eqb a b
  | OpPrefix => startswith b a
  | OpSuffix => endswith b a
  | OpSubstr => contains b a
  end.

Inductive container := CAny | CNot | CWhere | CCompound.
Definition container_eqb (a b : container) : bool :=
  match a, b with
  | CAny, CAny | CNot, CNot | CWhere, CWhere | CCompound, CCompound => true
  | _, _ => false
  end.

(** Selector objects.  [SSimple attr op val ignore_case]: lines 89-247.
    [SCont c members]: lines 277-385.
    [SLoop c]: a container whose only member is itself; see [mk_container]. *)
Inductive selector :=
| SSimple (attr : text) (op : option sel_op) (val : option text) (ignore_case : bool)
| SCont (c : container) (members : list selector)
| SLoop (c : container).

Definition truthy {A} (x : option (list A)) : bool :=
  match x with Some (_ :: _) => true | _ => false end.

(** Models lines 144-187 [SimpleSelector.__init__]. *)
Definition mk_simple (attr : text) (op val : option text) (ignore_case : bool)
  : res selector :=
  if xorb (truthy op) (truthy val) then Err TypeError
  else if ignore_case && negb (truthy op && truthy val) then Err TypeError
  else match op with
       | None => Ok (SSimple attr None val ignore_case)
       | Some t => match op_of_text t with
                   | Some o => Ok (SSimple attr (Some o) val ignore_case)
                   | None => Err ValueError
                   end
       end.

(** Calling a container class.  Models lines 285-288 and 366-369 ([__new__] of
    MatchesAnySelector and CompoundSelector) followed by lines 64-68 ([__init__]):
    with one member [__new__] returns that member, and when the member is an instance
    of the same class Python still runs [__init__] on it, which overwrites its member
    list by [[itself]]. *)
Definition mk_container (c : container) (l : list selector) : selector :=
  match c, l with
  | (CAny | CCompound), [x] =>
      match x with
      | SCont c' _ => if container_eqb c c' then SLoop c else x
      | SLoop c' => if container_eqb c c' then SLoop c else x
      | SSimple _ _ _ _ => x
      end
  | _, _ => SCont c l
  end.

(** A row: [dict_row.get(attr, '')].  Models line 197. *)
Definition row := list (text * text).
Fixpoint row_get (r : row) (k : text) : text :=
  match r with
  | [] => []
  | (k', v) :: r' => if text_eqb k k' then v else row_get r' k
  end.

Section Case.
(** [str.upper] and [str.lower]. *)
Context (upper lower : text -> text).

(** Models lines 183-186 and 189-197 [SimpleSelector.__call__].  An operator without
    a value cannot be constructed; Python would raise a TypeError on it. *)
Definition simple_call (attr : text) (op : option sel_op) (val : option text)
    (ignore_case : bool) (r : row) : res bool :=
  let value := row_get r attr in
  match op, val with
  | None, _ => Ok (match value with [] => false | _ => true end)
  | Some o, Some v =>
      Ok (if ignore_case then op_match o (upper v) (upper value) else op_match o v value)
  | Some _, None => Err TypeError
  end.

(** [for selector in l: if selector(row): return hit] then [return miss]; [all()] is
    the same with the test negated. *)
Definition scan (stop : bool) (f : selector -> res bool) :=
  fix go (l : list selector) : res bool :=
    match l with
    | [] => Ok (negb stop)
    | s :: l' => do b <- f s; if Bool.eqb b stop then Ok stop else go l'
    end.

(** Models lines 290-295, 319-324, 347-352 and 371-373 [__call__]. *)
Fixpoint call (r : row) (s : selector) {struct s} : res bool :=
  match s with
  | SSimple a o v ic => simple_call a o v ic r
  | SCont CAny l => scan true (call r) l
  | SCont CWhere l => scan true (call r) l
  | SCont CNot l => do b <- scan true (call r) l; Ok (negb b)
  | SCont CCompound l => scan false (call r) l
  | SLoop _ => Err RecursionError
  end.

(** Comparison keys. Models lines 250-274 [_get_comparison_key]; a frozenset is a
    list compared by elements. *)
Inductive key :=
| KSimple (attr : text) (op : option sel_op) (val : option text) (ignore_case : bool)
| KSet (c : container) (members : list key)
| KLoop (c : container).

Fixpoint get_key (s : selector) : key :=
  match s with
  | SSimple a o v ic =>
      KSimple a o (if ic && truthy v then option_map lower v else v) ic
  | SCont c l => KSet c (map get_key l)
  | SLoop c => KLoop c
  end.

Definition opt_eqb {A} (f : A -> A -> bool) (x y : option A) : bool :=
  match x, y with
  | Some a, Some b => f a b
  | None, None => true
  | _, _ => false
  end.

Fixpoint key_eqb (k1 k2 : key) {struct k1} : bool :=
  match k1, k2 with
  | KSimple a o v i, KSimple a' o' v' i' =>
      text_eqb a a' && opt_eqb sel_op_eqb o o' && opt_eqb text_eqb v v' && Bool.eqb i i'
  | KSet c l, KSet c' l' =>
      container_eqb c c'
      && forallb (fun x => existsb (key_eqb x) l') l
      && forallb (fun y => existsb (fun x => key_eqb x y) l) l'
  | _, _ => false
  end.

Fixpoint has_loop (s : selector) : bool :=
  match s with
  | SSimple _ _ _ _ => false
  | SCont _ l => existsb has_loop l
  | SLoop _ => true
  end.

(** Models [__eq__], lines 81-83 and 229-231. *)
Definition sel_eqb (s1 s2 : selector) : res bool :=
  if has_loop s1 || has_loop s2 then Err RecursionError
  else Ok (key_eqb (get_key s1) (get_key s2)).
End Case.

(* ------------------------------------------------------------ specificity *)

(** Python tuples of ints, compared lexicographically. *)
Definition spec_t := list Z.
Fixpoint spec_ltb (a b : spec_t) : bool :=
  match a, b with
  | [], [] => false
  | [], _ :: _ => true
  | _ :: _, [] => false
  | x :: a', y :: b' => (x <? y)%Z || ((x =? y)%Z && spec_ltb a' b')
  end.

(** [max(a, b)]: the first unless the second is greater. *)
Definition spec_max (a b : spec_t) : spec_t := if spec_ltb a b then b else a.

(** [max(iterable)]: ValueError when empty. *)
Definition spec_max_list (l : list spec_t) : res spec_t :=
  match l with
  | [] => Err ValueError
  | x :: l' => Ok (fold_left spec_max l' x)
  end.

(** [tuple(sum(tup) for tup in zip( *l))]: stops at the shortest; empty for no
    arguments.  Models line 385. *)
Fixpoint zip_plus (a b : spec_t) : spec_t :=
  match a, b with
  | x :: a', y :: b' => (x + y)%Z :: zip_plus a' b'
  | _, _ => []
  end.
Definition spec_sum (l : list spec_t) : spec_t :=
  match l with
  | [] => []
  | x :: l' => fold_left zip_plus l' x
  end.

Definition traverse {A B} (f : A -> res B) :=
  fix go (l : list A) : res (list B) :=
    match l with
    | [] => Ok []
    | x :: l' => do y <- f x; do ys <- go l'; Ok (y :: ys)
    end.

(** Models lines 237-247, 302-309, 331-337, 359-362 and 379-385 [specificity]. *)
Fixpoint specificity (s : selector) : res spec_t :=
  match s with
  | SSimple _ _ v _ => Ok (if truthy v then [1; 1]%Z else [1; 0]%Z)
  | SCont CAny l => do sp <- traverse specificity l; spec_max_list sp
  | SCont CNot l => do sp <- traverse specificity l; spec_max_list sp
  | SCont CWhere _ => Ok [0; 0]%Z
  | SCont CCompound l => do sp <- traverse specificity l; Ok (spec_sum sp)
  | SLoop CWhere => Ok [0; 0]%Z
  | SLoop _ => Err RecursionError
  end.

(* ------------------------------------------ greatest unique specificity *)
Section Greatest.
Context (upper : text -> text) (K : Type) (keqb : K -> K -> bool).

(** Inner loop over one key's selectors.  Models lines 592-598; [acc] is
    [matched.get(key)]. *)
Fixpoint best_of (r : row) (sels : list selector) (acc : option spec_t)
  : res (option spec_t) :=
  match sels with
  | [] => Ok acc
  | s :: sels' =>
      do b <- call upper r s;
      if b
      then do sp <- specificity s;
           best_of r sels' (Some (spec_max (match acc with Some a => a | None => [0; 0]%Z end) sp))
      else best_of r sels' acc
  end.

(** Outer loop over [selector_dict.items()].  Models lines 587-598.  The dict has
    distinct keys, so each key's entry in [matched] is written by one pass only;
    items are swapped to (specificity, key) as in line 601. *)
Fixpoint collect (r : row) (d : list (K * option (list selector)))
  : res (list (spec_t * K)) :=
  match d with
  | [] => Ok []
  | (k, sels) :: d' =>
      do b <- best_of r (match sels with Some l => l | None => [] end) None;
      do rest <- collect r d';
      Ok (match b with Some sp => (sp, k) :: rest | None => rest end)
  end.

(** [sorted(items, key=specificity, reverse=True)]: stable, greatest first.
    Models lines 604-605. *)
Fixpoint insert_desc (x : spec_t * K) (l : list (spec_t * K)) : list (spec_t * K) :=
  match l with
  | [] => [x]
  | y :: l' => if spec_ltb (fst x) (fst y) then y :: insert_desc x l' else x :: l
  end.
Fixpoint sort_desc (l : list (spec_t * K)) : list (spec_t * K) :=
  match l with
  | [] => []
  | x :: l' => insert_desc x (sort_desc l')
  end.

Fixpoint spec_eqb (a b : spec_t) : bool :=
  match a, b with
  | [], [] => true
  | x :: a', y :: b' => (x =? y)%Z && spec_eqb a' b'
  | _, _ => false
  end.

(** The [groupby] loop: return the key of the first group of size one.
    Models lines 608-618.  [skip] says that the group with this specificity is
    being skipped. *)
Fixpoint first_unique (l : list (spec_t * K)) (skip : option spec_t) : option K :=
  match l with
  | [] => None
  | (sp, k) :: l' =>
      let skipping := match skip with Some s => spec_eqb s sp | None => false end in
      if skipping then first_unique l' skip
      else match l' with
           | (sp', _) :: _ => if spec_eqb sp sp' then first_unique l' (Some sp) else Some k
           | [] => Some k
           end
  end.

(** Models lines 555-618 [get_greatest_unique_specificity]. *)
Definition greatest_unique (r : row) (d : list (K * option (list selector))) (default : K)
  : res K :=
  do matched <- collect r d;
  Ok (match first_unique (sort_desc matched) None with Some k => k | None => default end).
End Greatest.
