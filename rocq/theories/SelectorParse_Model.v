(** Model of printing and parsing selectors.  Source: src/toron/selectors.py.
    The Lark grammar (lines 415-466, LALR with a contextual lexer) is modelled by the
    equivalent recursive descent over characters.  When a text has both a syntax error
    and a constructor error, which of the two is raised first is not modelled. *)
From Verif Require Import Prelude Selectors_Model.

(* --------------------------------------------------------------- printing *)

(** [self._val.replace('"', '\\"')].  Models line 222. *)
Definition escape (v : text) : text :=
  flat_map (fun c => if (c =? 34)%N then [92; 34]%N else [c]) v.

Definition op_text (o : sel_op) : text :=
  match o with
  | OpEq => txt "=" | OpWord => txt "~=" | OpDash => txt "|="
  | OpPrefix => txt "^=" | OpSuffix => txt "$=" | OpSubstr => txt "*="
  end.

(** [sep.join(parts)]. *)
Definition join (sep : text) (parts : list text) : text :=
  match parts with
  | [] => []
  | p :: ps => p ++ flat_map (fun x => sep ++ x) ps
  end.

(** Models the [__str__] methods: lines 212-227, 297-300, 326-329, 354-357, 375-377.
    Self-containing selectors are handled in [sel_str]. *)
Fixpoint print (s : selector) : text :=
  match s with
  | SSimple a o v ic =>
      if truthy v
      then txt "[" ++ a ++ (match o with Some o => op_text o | None => txt "None" end)
           ++ [34%N] ++ escape (match v with Some v => v | None => [] end) ++ [34%N]
           ++ (if ic then txt " i" else []) ++ txt "]"
      else txt "[" ++ a ++ txt "]"
  | SCont CAny l => txt ":is(" ++ join (txt ", ") (map print l) ++ txt ")"
  | SCont CNot l => txt ":not(" ++ join (txt ", ") (map print l) ++ txt ")"
  | SCont CWhere l => txt ":where(" ++ join (txt ", ") (map print l) ++ txt ")"
  | SCont CCompound l => join [] (map print l)
  | SLoop _ => []
  end.

(** [str(selector)]. *)
Definition sel_str (s : selector) : res text :=
  if has_loop s then Err RecursionError else Ok (print s).

(* ---------------------------------------------------------------- parsing *)

(** [%ignore WS] with Lark's common.WS: space, tab, form feed, CR, LF. *)
Definition is_ws (c : N) : bool :=
  ((c =? 32) || (c =? 9) || (c =? 12) || (c =? 13) || (c =? 10))%N.
Fixpoint skip_ws (t : text) : text :=
  match t with c :: t' => if is_ws c then skip_ws t' else t | [] => [] end.

(** A literal token at the head of the text. *)
Fixpoint lit (l t : text) : option text :=
  match l, t with
  | [], _ => Some t
  | x :: l', y :: t' => if (x =? y)%N then lit l' t' else None
  | _ :: _, [] => None
  end.

(** IDENTIFIER, lines 450-453: ["-"? _FIRST_CHAR _OTHER_CHAR* | "-"], longest match. *)
Definition first_char (c : N) : bool :=
  ((97 <=? c) && (c <=? 122) || (65 <=? c) && (c <=? 90)
   || (160 <=? c) && (c <=? 65535) || (c =? 95))%N.
Definition other_char (c : N) : bool :=
  (first_char c || (48 <=? c) && (c <=? 57) || (c =? 45))%N.
Fixpoint span_other (t : text) : text * text :=
  match t with
  | c :: t' => if other_char c then let (a, r) := span_other t' in (c :: a, r) else ([], t)
  | [] => ([], [])
  end.
Definition scan_ident (t : text) : option (text * text) :=
  match t with
  | [] => None
  | c :: t' =>
      if first_char c then let (a, r) := span_other t' in Some (c :: a, r)
      else if (c =? 45)%N then
        match t' with
        | d :: t'' =>
            if first_char d then let (a, r) := span_other t'' in Some (c :: d :: a, r)
            else Some ([c], t')
        | [] => Some ([c], t')
        end
      else None
  end.

(** Quoted strings, lines 459-462: after the opening quote [q], up to the first [q]
    preceded by an even number of backslashes; [.] does not match a newline.  [odd]
    is the parity of the run of backslashes just read. *)
Fixpoint scan_quoted (q : N) (t : text) (odd : bool) : option (text * text) :=
  match t with
  | [] => None
  | c :: t' =>
      if (c =? 10)%N then None
      else if (c =? q)%N && negb odd then Some ([], t')
      else match scan_quoted q t' (if (c =? 92)%N then negb odd else false) with
           | Some (inner, r) => Some (c :: inner, r)
           | None => None
           end
  end.

(** [s.replace('\\' + q, q)].  Models lines 496 and 499. *)
Fixpoint unescape (q : N) (t : text) : text :=
  match t with
  | [] => []
  | b :: t' =>
      if (b =? 92)%N then
        match t' with
        | c :: t'' => if (c =? q)%N then c :: unescape q t'' else b :: unescape q t'
        | [] => [b]
        end
      else b :: unescape q t'
  end.

(** [value], lines 444 and 491-499: quoted strings are unquoted; a bare identifier
    is accepted by the grammar but transformed to [None]. *)
Definition p_value (t : text) : option (option text * text) :=
  match t with
  | [] => None
  | c :: t' =>
      if (c =? 34)%N then
        match scan_quoted 34 t' false with
        | Some (inner, r) => Some (Some (unescape 34 inner), r)
        | None => None
        end
      else if (c =? 39)%N then
        match scan_quoted 39 t' false with
        | Some (inner, r) => Some (Some (unescape 39 inner), r)
        | None => None
        end
      else match scan_ident t with
           | Some (_, r) => Some (None, r)
           | None => None
           end
  end.

(** [operator], line 442. *)
Definition p_op (t : text) : option (text * text) :=
  let try (o : text) (k : option (text * text)) :=
    match lit o t with Some r => Some (o, r) | None => k end in
  try (txt "=") (try (txt "~=") (try (txt "|=") (try (txt "^=")
    (try (txt "$=") (try (txt "*=") None))))).

(** [ignore_case], line 446. *)
Definition p_flag (t : text) : bool * text :=
  match t with
  | c :: t' => if ((c =? 105) || (c =? 73))%N then (true, t') else (false, t)
  | [] => (false, t)
  end.

(** Result of a parsing function: value and remaining text, exception, or out of fuel. *)
Inductive pres (A : Type) :=
| PDone (a : A) (rest : text)
| PErr (e : exn)
| PFuel.
Arguments PDone {A} a rest.
Arguments PErr {A} e.
Arguments PFuel {A}.

Definition of_res {A} (m : res A) (rest : text) : pres A :=
  match m with Ok a => PDone a rest | Err e => PErr e end.

(** The first alternative of [selector], line 433, after its opening bracket; the
    object is built by lines 481-483. *)
Definition p_simple (t : text) : pres selector :=
  match scan_ident (skip_ws t) with
  | None => PErr SyntaxErr
  | Some (a, t2) =>
      let t3 := skip_ws t2 in
      match lit (txt "]") t3 with
      | Some t4 => of_res (mk_simple a None None false) t4
      | None =>
          match p_op t3 with
          | None => PErr SyntaxErr
          | Some (o, t4) =>
              match p_value (skip_ws t4) with
              | None => PErr SyntaxErr
              | Some (v, t5) =>
                  let (ic, t6) := p_flag (skip_ws t5) in
                  match lit (txt "]") (skip_ws t6) with
                  | Some t7 => of_res (mk_simple a (Some o) v ic) t7
                  | None => PErr SyntaxErr
                  end
              end
          end
      end
  end.

(** [selector], lines 433-436, and the list inside the parentheses. *)
Fixpoint p_sel (fuel : nat) (t : text) : pres selector :=
  match fuel with
  | O => PFuel
  | S n =>
      let t := skip_ws t in
      let cont c r := match p_list n r with
                      | PDone l r' => PDone (mk_container c l) r'
                      | PErr e => PErr e
                      | PFuel => PFuel
                      end in
      match lit (txt "[") t with
      | Some r => p_simple r
      | None =>
      match lit (txt ":is(") t with
      | Some r => cont CAny r
      | None =>
      match lit (txt ":not(") t with
      | Some r => cont CNot r
      | None =>
      match lit (txt ":where(") t with
      | Some r => cont CWhere r
      | None => PErr SyntaxErr
      end end end end
  end
with p_list (fuel : nat) (t : text) : pres (list selector) :=
  match fuel with
  | O => PFuel
  | S n =>
      match p_sel n t with
      | PDone s r =>
          let r := skip_ws r in
          match lit (txt ",") r with
          | Some r' =>
              match p_list n r' with
              | PDone l r'' => PDone (s :: l) r''
              | PErr e => PErr e
              | PFuel => PFuel
              end
          | None =>
              match lit (txt ")") r with
              | Some r' => PDone [s] r'
              | None => PErr SyntaxErr
              end
          end
      | PErr e => PErr e
      | PFuel => PFuel
      end
  end.

(** [start: selector+], line 431. *)
Fixpoint p_start (fuel : nat) (t : text) : pres (list selector) :=
  match fuel with
  | O => PFuel
  | S n =>
      match p_sel n t with
      | PDone s r =>
          match skip_ws r with
          | [] => PDone [s] []
          | r' => match p_start n r' with
                  | PDone l r'' => PDone (s :: l) r''
                  | PErr e => PErr e
                  | PFuel => PFuel
                  end
          end
      | PErr e => PErr e
      | PFuel => PFuel
      end
  end.

(** Models lines 514-520 [parse_selector] with line 471.  The fuel, one more than
    twice the length, never runs out (theorem [C10_fuel_suffices]). *)
Definition parse_fuel (t : text) : pres selector :=
  match p_start (2 + 2 * length t) t with
  | PDone l r => PDone (mk_container CCompound l) r
  | PErr e => PErr e
  | PFuel => PFuel
  end.
Definition parse_selector (t : text) : res selector :=
  match parse_fuel t with
  | PDone s _ => Ok s
  | PErr e => Err e
  | PFuel => Err PlainException
  end.
