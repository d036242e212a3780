(** Specification of the JSON columns: the grammar of RFC 8259 as inductive relations between
    texts and values, equality of values as Python sees it, and what the repositories promise.
    Nothing here uses the scanner or the writer of the model. *)
From Verif Require Import Prelude Selectors_Model Json_Model.
Local Open Scope N_scope.

(** * The grammar *)

Definition Ws (w : text) : Prop := Forall (fun c => In c [32; 9; 10; 13]) w.

Definition HexDigit (c v : N) : Prop :=
  (48 <= c <= 57 /\ v = c - 48) \/ (97 <= c <= 102 /\ v = c - 97 + 10) \/ (65 <= c <= 70 /\ v = c - 65 + 10).
(** Four hexadecimal digits and their value. *)
Definition Hex4 (h : text) (u : N) : Prop :=
  exists a b c d x y z w, h = [a; b; c; d] /\ HexDigit a x /\ HexDigit b y /\ HexDigit c z /\ HexDigit d w
    /\ u = x * 4096 + y * 256 + z * 16 + w.

Definition High (u : N) : Prop := 55296 <= u <= 56319.
Definition Low (u : N) : Prop := 56320 <= u <= 57343.

(** Short escapes: the letter and the character meant. *)
Definition escapes : list (N * N) :=
  [(34, 34); (92, 92); (47, 47); (98, 8); (102, 12); (110, 10); (114, 13); (116, 9)].

(** [Chars e s]: the text [e] between quotes means the string [s]. *)
Inductive Chars : text -> text -> Prop :=
| Ch_nil : Chars [] []
| Ch_raw c e s : 32 <= c -> c <> 34 -> c <> 92 -> Chars e s -> Chars (c :: e) (c :: s)
| Ch_esc l x e s : In (l, x) escapes -> Chars e s -> Chars (92 :: l :: e) (x :: s)
| Ch_uni h u e s :
    Hex4 h u -> ~ (High u /\ exists h' w e', Hex4 h' w /\ Low w /\ e = 92 :: 117 :: h' ++ e') ->
    Chars e s -> Chars (92 :: 117 :: h ++ e) (u :: s)
| Ch_pair h u h' w e s :
    Hex4 h u -> High u -> Hex4 h' w -> Low w -> Chars e s ->
    Chars (92 :: 117 :: h ++ 92 :: 117 :: h' ++ e) (65536 + (u - 55296) * 1024 + (w - 56320) :: s).

Definition Digit (c : N) : Prop := 48 <= c <= 57.
Definition IntPart (i : text) : Prop :=
  i = [48] \/ exists c d, i = c :: d /\ 49 <= c <= 57 /\ Forall Digit d.
Definition FracPart (f : text) : Prop := exists d, f = 46 :: d /\ d <> [] /\ Forall Digit d.
Definition ExpPart (e : text) : Prop :=
  exists c s d, e = c :: s ++ d /\ (c = 101 \/ c = 69) /\ (s = [] \/ s = [43] \/ s = [45])
    /\ d <> [] /\ Forall Digit d.
Fixpoint dval (d : text) : N :=
  match d with [] => 0 | c :: r => (c - 48) * 10 ^ N.of_nat (length r) + dval r end.

(** Literals of floats. *)
Definition RealLit (t : text) : Prop :=
  exists s i f e, t = s ++ i ++ f ++ e /\ (s = [] \/ s = [45]) /\ IntPart i
    /\ (f = [] \/ FracPart f) /\ (e = [] \/ ExpPart e) /\ f ++ e <> [].

Section Grammar.
(** Whether NaN, Infinity and -Infinity are allowed (not in RFC 8259, but in json.loads). *)
Context (consts : bool).

Inductive Value : text -> json -> Prop :=
| V_null : Value (txt "null") JNull
| V_true : Value (txt "true") (JBool true)
| V_false : Value (txt "false") (JBool false)
| V_nan : consts = true -> Value (txt "NaN") JNaN
| V_inf : consts = true -> Value (txt "Infinity") (JInf false)
| V_ninf : consts = true -> Value (txt "-Infinity") (JInf true)
| V_int i : IntPart i -> Value i (JInt (Z.of_N (dval i)))
| V_neg i : IntPart i -> Value (45 :: i) (JInt (- Z.of_N (dval i)))
| V_real t : RealLit t -> Value t (JReal t)
| V_str e s : Chars e s -> Value (34 :: e ++ [34]) (JStr s)
| V_arr0 w : Ws w -> Value (91 :: w ++ [93]) (JArr [])
| V_arr t l : Elems t l -> Value (91 :: t ++ [93]) (JArr l)
| V_obj0 w : Ws w -> Value (123 :: w ++ [125]) (JObj [])
| V_obj t l : Members t l -> Value (123 :: t ++ [125]) (JObj l)
with Elems : text -> list json -> Prop :=
| E_one w t w' v : Ws w -> Value t v -> Ws w' -> Elems (w ++ t ++ w') [v]
| E_more w t w' v t' l :
    Ws w -> Value t v -> Ws w' -> Elems t' l -> Elems (w ++ t ++ w' ++ 44 :: t') (v :: l)
with Members : text -> list (text * json) -> Prop :=
| M_one w e k w1 w2 t w' v :
    Ws w -> Chars e k -> Ws w1 -> Ws w2 -> Value t v -> Ws w' ->
    Members (w ++ (34 :: e ++ [34]) ++ w1 ++ 58 :: w2 ++ t ++ w') [(k, v)]
| M_more w e k w1 w2 t w' v t' l :
    Ws w -> Chars e k -> Ws w1 -> Ws w2 -> Value t v -> Ws w' -> Members t' l ->
    Members (w ++ (34 :: e ++ [34]) ++ w1 ++ 58 :: w2 ++ t ++ w' ++ 44 :: t') ((k, v) :: l).

(** A JSON text: one value with white space around it. *)
Definition Doc (t : text) (v : json) : Prop :=
  exists w t' w', t = w ++ t' ++ w' /\ Ws w /\ Value t' v /\ Ws w'.
End Grammar.

(** * Values *)

Definition all {A} (P : A -> Prop) : list A -> Prop :=
  fix all l := match l with [] => True | x :: r => P x /\ all r end.

(** Texts of Python without a high surrogate directly followed by a low one. *)
Definition joined (s : text) : Prop :=
  Forall (fun c => c < 1114112) s /\ forall a u w b, s = a ++ u :: w :: b -> ~ (High u /\ Low w).

(** Texts that can be stored as UTF-8: no surrogates. *)
Definition clean (t : text) : Prop := Forall (fun c => c < 55296 \/ (57343 < c /\ c < 1114112)) t.

(** Values as Python holds them: names of a dict are distinct. *)
Fixpoint pyval (v : json) : Prop :=
  match v with
  | JReal t => RealLit t
  | JStr s => joined s
  | JArr l => all pyval l
  | JObj kv => NoDup (map fst kv) /\ all (fun p => joined (fst p) /\ pyval (snd p)) kv
  | _ => True
  end.

(** No NaN and no infinity inside. *)
Fixpoint finite (v : json) : Prop :=
  match v with
  | JNaN | JInf _ => False
  | JArr l => all finite l
  | JObj kv => all (fun p => finite (snd p)) kv
  | _ => True
  end.

(** Equality of values: the order of the names of an object does not matter. *)
Fixpoint same (a b : json) : Prop :=
  match a with
  | JArr l => exists l', b = JArr l' /\
      (fix go l l' := match l, l' with
                      | [], [] => True
                      | x :: r, y :: r' => same x y /\ go r r'
                      | _, _ => False
                      end) l l'
  | JObj kv => exists kv', b = JObj kv'
      /\ (forall k, In k (map fst kv) <-> In k (map fst kv'))
      /\ all (fun p => forall y, In (fst p, y) kv' -> same (snd p) y) kv
  | _ => a = b
  end.

(** The last value given for a name. *)
Definition last_value (k : text) (kv : list (text * json)) (v : json) : Prop :=
  exists a b, kv = a ++ (k, v) :: b /\ ~ In k (map fst b).

(** * Attributes *)

(** A dict of strings. *)
Definition attrs (d : list (text * text)) : list (text * json) :=
  map (fun p => (fst p, JStr (snd p))) d.

(** Dicts that can be attributes. *)
Definition attributes_ok (v : list (text * json)) : Prop :=
  all (fun p => fst p <> [] /\ exists x, snd p = JStr x /\ x <> []) v.

(** Operations on the attribute groups; an operation that fails changes nothing. *)
Inductive ag_op :=
| OpAdd (v : list (text * json))
| OpUpdate (i : Z) (v : list (text * json))
| OpDelete (i : Z)
| OpGetOrAdd (v : list (text * json)).

Definition ag_step (json1 : bool) (o : ag_op) (s : groups) : groups :=
  match o with
  | OpAdd v => match ag_add json1 v s with Ok s' => s' | Err _ => s end
  | OpUpdate i v => match ag_update json1 i v s with Ok s' => s' | Err _ => s end
  | OpDelete i => ag_delete i s
  | OpGetOrAdd v => match ag_get_or_add json1 v s with Ok (s', _) => s' | Err _ => s end
  end.

Definition op_val (o : ag_op) : Prop :=
  match o with
  | OpAdd v | OpUpdate _ v | OpGetOrAdd v => pyval (JObj v)
  | OpDelete _ => True
  end.

(** The states after any sequence of operations on an empty repository. *)
Definition reachable (json1 : bool) (s : groups) : Prop :=
  exists ops, Forall op_val ops /\ s = fold_left (fun s o => ag_step json1 o s) ops [].

(** A record has all the given attributes. *)
Definition satisfies (criteria : list (text * text)) (v : json) : Prop :=
  exists d, v = JObj d /\ forall k x, In (k, x) criteria -> In (k, JStr x) d.

Definition text_lt (a b : text) : Prop :=
  exists p, (a = p /\ exists c r, b = p ++ c :: r)
         \/ exists c c' r r', a = p ++ c :: r /\ b = p ++ c' :: r' /\ c < c'.

(** Strictly increasing list of texts. *)
Fixpoint increasing (l : list text) : Prop :=
  match l with
  | a :: ((b :: _) as r) => text_lt a b /\ increasing r
  | _ => True
  end.
