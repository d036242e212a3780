(** Model of the JSON columns: src/toron/dal1/schema.py 86-89 (converters), 468-679 (checks and
    triggers), 752-801 (toron_json_object_keep); src/toron/dal1/repositories.py 348-423
    (selectors of weight groups), 553-651 (AttributeGroupRepository), 805-844 and 890-925
    (selectors and user properties of links), 1239-1287 (PropertyRepository);
    src/toron/data_models.py 872-895.

    Python's json module (json.dumps and json.loads with default options, the C scanner) and
    SQLite's JSON functions are modelled on texts of code points.  Left out: the recursion
    limits of both, Python's limit of 4300 digits for integers.  A finite float is represented
    by its literal (float.__repr__ writes a literal with a fraction or an exponent). *)
From Verif Require Import Prelude Selectors_Model FileOpen_Model.
Local Open Scope N_scope.

Inductive json :=
| JNull
| JBool (b : bool)
| JInt (z : Z)
| JReal (lit : text)
| JNaN
| JInf (neg : bool)
| JStr (s : text)
| JArr (l : list json)
| JObj (kv : list (text * json)).

(** * json.dumps *)

(** Lower case hexadecimal digit. *)
Definition hexd (n : N) : N := if n <? 10 then 48 + n else 87 + n.

(** The format [\uXXXX]. *)
Definition u_esc (n : N) : text :=
  [92; 117; hexd (n / 4096); hexd (n / 256 mod 16); hexd (n / 16 mod 16); hexd (n mod 16)].

(** py_encode_basestring_ascii for one character. *)
Definition esc_char (c : N) : text :=
  if c =? 34 then [92; 34]
  else if c =? 92 then [92; 92]
  else if c =? 10 then [92; 110]
  else if c =? 13 then [92; 114]
  else if c =? 9 then [92; 116]
  else if c =? 12 then [92; 102]
  else if c =? 8 then [92; 98]
  else if (32 <=? c) && (c <=? 126) then [c]
  else if c <? 65536 then u_esc c
  else u_esc (55296 + (c - 65536) / 1024) ++ u_esc (56320 + (c - 65536) mod 1024).

Definition esc (s : text) : text := 34 :: flat_map esc_char s ++ [34].

(** Decimal digits of a number. *)
Fixpoint dec (fuel : nat) (n : N) : text :=
  match fuel with
  | O => []
  | S f => if n <? 10 then [48 + n] else dec f (n / 10) ++ [48 + n mod 10]
  end.
Definition dec_text (n : N) : text := dec (S (N.to_nat (N.log2 n))) n.
(** int.__repr__ *)
Definition int_text (z : Z) : text :=
  match z with
  | Zneg p => 45 :: dec_text (Npos p)
  | _ => dec_text (Z.to_N z)
  end.

Fixpoint join (sep : text) (l : list text) : text :=
  match l with
  | [] => []
  | [x] => x
  | x :: r => x ++ sep ++ join sep r
  end.

Fixpoint dumps (v : json) : text :=
  match v with
  | JNull => txt "null"
  | JBool true => txt "true"
  | JBool false => txt "false"
  | JInt z => int_text z
  | JReal lit => lit
  | JNaN => txt "NaN"
  | JInf false => txt "Infinity"
  | JInf true => txt "-Infinity"
  | JStr s => esc s
  | JArr l => 91 :: join (txt ", ") (map dumps l) ++ [93]
  | JObj kv => 123 :: join (txt ", ") (map (fun p => esc (fst p) ++ txt ": " ++ dumps (snd p)) kv) ++ [125]
  end.

(** str.__lt__: by code points. *)
Fixpoint text_ltb (a b : text) : bool :=
  match a, b with
  | _, [] => false
  | [], _ :: _ => true
  | x :: a', y :: b' => (x <? y) || ((x =? y) && text_ltb a' b')
  end.

(** sorted(d.items()); the keys of a dict are distinct. *)
Fixpoint insert_item {A} (p : text * A) (l : list (text * A)) : list (text * A) :=
  match l with
  | [] => [p]
  | q :: r => if text_ltb (fst q) (fst p) then q :: insert_item p r else p :: l
  end.
Definition sort_items {A} (l : list (text * A)) : list (text * A) := fold_right insert_item [] l.

(** The order in which sort_keys=True visits an object, on all levels. *)
Fixpoint sortk (v : json) : json :=
  match v with
  | JArr l => JArr (map sortk l)
  | JObj kv => JObj (sort_items (map (fun p => (fst p, sortk (snd p))) kv))
  | _ => v
  end.

(** json.dumps(v, sort_keys=True) *)
Definition dumps_sorted (v : json) : text := dumps (sortk v).

(** * Scanning of JSON texts *)

Definition is_ws (c : N) : bool := (c =? 32) || (c =? 9) || (c =? 10) || (c =? 13).
Fixpoint ws (t : text) : text :=
  match t with
  | c :: r => if is_ws c then ws r else t
  | [] => []
  end.

Definition hexval (c : N) : option N :=
  if (48 <=? c) && (c <=? 57) then Some (c - 48)
  else if (97 <=? c) && (c <=? 102) then Some (c - 87)
  else if (65 <=? c) && (c <=? 70) then Some (c - 55)
  else None.
Definition hex4 (a b c d : N) : option N :=
  match hexval a, hexval b, hexval c, hexval d with
  | Some x, Some y, Some z, Some w => Some (((x * 16 + y) * 16 + z) * 16 + w)
  | _, _, _, _ => None
  end.

Definition is_high (u : N) : bool := (55296 <=? u) && (u <=? 56319).
Definition is_low (u : N) : bool := (56320 <=? u) && (u <=? 57343).
Definition join_pair (u v : N) : N := 65536 + (u - 55296) * 1024 + (v - 56320).

(** The characters after a backslash other than u. *)
Definition simple_esc (e : N) : option N :=
  if e =? 34 then Some 34
  else if e =? 92 then Some 92
  else if e =? 47 then Some 47
  else if e =? 98 then Some 8
  else if e =? 102 then Some 12
  else if e =? 110 then Some 10
  else if e =? 114 then Some 13
  else if e =? 116 then Some 9
  else None.

Definition cons_fst {A B} (a : A) (r : option (list A * B)) : option (list A * B) :=
  match r with
  | Some (l, b) => Some (a :: l, b)
  | None => None
  end.

(** scanstring (strict), after the opening quote: the string and the text behind it. *)
Fixpoint scanstring (t : text) : option (text * text) :=
  match t with
  | [] => None
  | c :: r =>
      if c =? 34 then Some ([], r)
      else if c =? 92 then
        match r with
        | [] => None
        | e :: r1 =>
            if e =? 117 then
              match r1 with
              | h1 :: h2 :: h3 :: h4 :: r2 =>
                  match hex4 h1 h2 h3 h4 with
                  | None => None
                  | Some u =>
                      if is_high u then
                        match r2 with
                        | b :: e' :: k1 :: k2 :: k3 :: k4 :: r3 =>
                            if (b =? 92) && (e' =? 117) then
                              match hex4 k1 k2 k3 k4 with
                              | None => None
                              | Some w =>
                                  if is_low w then cons_fst (join_pair u w) (scanstring r3)
                                  else cons_fst u (scanstring r2)
                              end
                            else cons_fst u (scanstring r2)
                        | _ => cons_fst u (scanstring r2)
                        end
                      else cons_fst u (scanstring r2)
                  end
              | _ => None
              end
            else match simple_esc e with
                 | Some x => cons_fst x (scanstring r1)
                 | None => None
                 end
        end
      else if c <? 32 then None
      else cons_fst c (scanstring r)
  end.

Definition is_digit (c : N) : bool := (48 <=? c) && (c <=? 57).

(** The longest prefix of digits. *)
Fixpoint digits (t : text) : text * text :=
  match t with
  | c :: r => if is_digit c then let '(d, r') := digits r in (c :: d, r') else ([], t)
  | [] => ([], [])
  end.

Definition digits_val (d : text) : N := fold_left (fun a c => a * 10 + (c - 48)) d 0.

(** The integer part: 0, or digits that do not start with 0. *)
Definition scan_int (t : text) : option (text * text) :=
  match t with
  | c :: r => if c =? 48 then Some ([48], r)
              else if is_digit c then Some (digits t)
              else None
  | [] => None
  end.

(** [(\.\d+)?] *)
Definition scan_frac (t : text) : text * text :=
  match t with
  | c :: r => if c =? 46 then
                match digits r with
                | ([], _) => ([], t)
                | (d, r') => (46 :: d, r')
                end
              else ([], t)
  | [] => ([], t)
  end.

(** [([eE][-+]?\d+)?] *)
Definition scan_exp (t : text) : text * text :=
  match t with
  | c :: r =>
      if (c =? 101) || (c =? 69) then
        match r with
        | s :: r1 =>
            if (s =? 43) || (s =? 45) then
              match digits r1 with
              | ([], _) => ([], t)
              | (d, r') => (c :: s :: d, r')
              end
            else match digits r with
                 | ([], _) => ([], t)
                 | (d, r') => (c :: d, r')
                 end
        | [] => ([], t)
        end
      else ([], t)
  | [] => ([], t)
  end.

(** _match_number_unicode *)
Definition scan_number (t : text) : option (json * text) :=
  let '(sign, t1) := match t with
                     | c :: r => if c =? 45 then ([45], r) else ([], t)
                     | [] => ([], t)
                     end in
  match scan_int t1 with
  | None => None
  | Some (i, t2) =>
      let '(f, t3) := scan_frac t2 in
      let '(e, t4) := scan_exp t3 in
      match f ++ e with
      | [] => Some (JInt (match sign with
                          | [] => Z.of_N (digits_val i)
                          | _ => - Z.of_N (digits_val i)
                          end), t2)
      | _ => Some (JReal (sign ++ i ++ f ++ e), t4)
      end
  end.

(** The words of JSON, and with [consts] the three names of json.loads's parse_constant. *)
Definition scan_word (consts : bool) (t : text) : option (json * text) :=
  let try w v := if startswith t (txt w) then Some (v, skipn (length (txt w)) t) else None in
  let orelse (a b : option (json * text)) := match a with Some _ => a | None => b end in
  orelse (try "null"%string JNull)
  (orelse (try "true"%string (JBool true))
  (orelse (try "false"%string (JBool false))
  (if consts then
     orelse (try "NaN"%string JNaN)
     (orelse (try "Infinity"%string (JInf false)) (try "-Infinity"%string (JInf true)))
   else None))).

(** scan_once, JSONArray and JSONObject.  The names of an object are kept with their repetitions:
    Python makes a dict of them afterwards, SQLite's json_each lists them all.  [fuel] bounds
    the recursion, see [scan_doc]. *)
Fixpoint scan (consts : bool) (fuel : nat) (t : text) {struct fuel} : option (json * text) :=
  match fuel with
  | O => None
  | S n =>
      match t with
      | [] => None
      | c :: r =>
          if c =? 34 then
            match scanstring r with
            | Some (s, r') => Some (JStr s, r')
            | None => None
            end
          else if c =? 123 then
            match ws r with
            | d :: r' =>
                if d =? 125 then Some (JObj [], r')
                else match scan_obj consts n (ws r) with
                     | Some (kv, r'') => Some (JObj kv, r'')
                     | None => None
                     end
            | [] => None
            end
          else if c =? 91 then
            match ws r with
            | d :: r' =>
                if d =? 93 then Some (JArr [], r')
                else match scan_arr consts n (ws r) with
                     | Some (l, r'') => Some (JArr l, r'')
                     | None => None
                     end
            | [] => None
            end
          else match scan_word consts t with
               | Some x => Some x
               | None => scan_number t
               end
      end
  end
with scan_arr (consts : bool) (fuel : nat) (t : text) {struct fuel} : option (list json * text) :=
  match fuel with
  | O => None
  | S n =>
      match scan consts n t with
      | None => None
      | Some (v, r) =>
          match ws r with
          | c :: r' =>
              if c =? 93 then Some ([v], r')
              else if c =? 44 then cons_fst v (scan_arr consts n (ws r'))
              else None
          | [] => None
          end
      end
  end
with scan_obj (consts : bool) (fuel : nat) (t : text) {struct fuel}
  : option (list (text * json) * text) :=
  match fuel with
  | O => None
  | S n =>
      match t with
      | [] => None
      | q :: r =>
          if q =? 34 then
            match scanstring r with
            | None => None
            | Some (k, r1) =>
                match ws r1 with
                | d :: r2 =>
                    if d =? 58 then
                      match scan consts n (ws r2) with
                      | None => None
                      | Some (v, r3) =>
                          match ws r3 with
                          | c :: r4 =>
                              if c =? 125 then Some ([(k, v)], r4)
                              else if c =? 44 then cons_fst (k, v) (scan_obj consts n (ws r4))
                              else None
                          | [] => None
                          end
                      end
                    else None
                | [] => None
                end
            end
          else None
      end
  end.

(** JSONDecoder.decode: one value with white space around it and nothing behind it. *)
Definition scan_doc (consts : bool) (t : text) : option json :=
  match scan consts (2 * length t + 1) (ws t) with
  | Some (v, r) => match ws r with [] => Some v | _ => None end
  | None => None
  end.

(** * Python's and SQLite's view *)

(** [d[k] = v] on a dict in insertion order. *)
Fixpoint dict_set {A} (k : text) (v : A) (d : list (text * A)) : list (text * A) :=
  match d with
  | [] => [(k, v)]
  | (k', v') :: r => if text_eqb k' k then (k', v) :: r else (k', v') :: dict_set k v r
  end.
Definition dict_of {A} (l : list (text * A)) : list (text * A) :=
  fold_left (fun d p => dict_set (fst p) (snd p) d) l [].
(** d.get(k) *)
Fixpoint dict_get {A} (k : text) (d : list (text * A)) : option A :=
  match d with
  | [] => None
  | (k', v) :: r => if text_eqb k' k then Some v else dict_get k r
  end.

Fixpoint py_value (v : json) : json :=
  match v with
  | JArr l => JArr (map py_value l)
  | JObj kv => JObj (dict_of (map (fun p => (fst p, py_value (snd p))) kv))
  | _ => v
  end.

(** json.loads(t), also as the converter of the columns (schema.py 86-89). *)
Definition loads (t : text) : res json :=
  match scan_doc true t with
  | Some v => Ok (py_value v)
  | None => Err ValueError
  end.

(** json_valid(t) = 1 *)
Definition json_valid (t : text) : bool :=
  match scan_doc false t with Some _ => true | None => false end.

Inductive jtype := TyNull | TyTrue | TyFalse | TyInteger | TyReal | TyText | TyArray | TyObject.
Definition json_type (v : json) : jtype :=
  match v with
  | JNull => TyNull
  | JBool true => TyTrue
  | JBool false => TyFalse
  | JInt _ => TyInteger
  | JReal _ | JNaN | JInf _ => TyReal
  | JStr _ => TyText
  | JArr _ => TyArray
  | JObj _ => TyObject
  end.
Definition is_text_type (v : json) : bool :=
  match json_type v with TyText => true | _ => false end.
(** The values of json_each: elements, members (with repetitions), or the value itself. *)
Definition json_each (v : json) : list json :=
  match v with
  | JArr l => l
  | JObj kv => map snd kv
  | _ => [v]
  end.

(** * Checks and triggers *)

(** schema.py 475-485 toron_check_selectors *)
Definition check_selectors (x : text) : bool :=
  match loads x with
  | Err _ => false
  | Ok (JArr l) => forallb (fun v => match v with JStr _ => true | _ => false end) l
  | Ok _ => false
  end.
(** schema.py 541-551 toron_check_attributes *)
Definition check_attributes (x : text) : bool :=
  match loads x with
  | Err _ => false
  | Ok (JObj d) => forallb (fun p => match snd p with JStr _ => true | _ => false end) d
  | Ok _ => false
  end.
(** schema.py 604-609 toron_check_user_properties *)
Definition check_user_properties (x : text) : bool :=
  match loads x with
  | Err _ => false
  | Ok (JObj _) => true
  | Ok _ => false
  end.
(** schema.py 647-652 toron_check_property_value *)
Definition check_property_value (x : text) : bool :=
  match loads x with Err _ => false | Ok _ => true end.

(** schema.py 507-513 with 515-525: the trigger stops the write.  [json1] stands for
    SQLITE_ENABLE_JSON1; the value NULL passes all triggers. *)
Definition stop_selectors (json1 : bool) (x : option text) : bool :=
  match x with
  | None => false
  | Some t =>
      if json1 then
        match scan_doc false t with
        | None => true
        | Some v =>
            negb (match json_type v with TyArray => true | _ => false end)
            || negb (length (filter (fun e => negb (is_text_type e)) (json_each v)) =? 0)%nat
        end
      else negb (check_selectors t)
  end.
(** schema.py 572-594 *)
Definition stop_attributes (json1 : bool) (x : option text) : bool :=
  match x with
  | None => false
  | Some t =>
      if json1 then
        match scan_doc false t with
        | None => true
        | Some v =>
            negb (match json_type v with TyObject => true | _ => false end)
            || negb (length (filter (fun e => negb (is_text_type e)) (json_each v)) =? 0)%nat
        end
      else negb (check_attributes t)
  end.
(** schema.py 625-642 *)
Definition stop_user_properties (json1 : bool) (x : option text) : bool :=
  match x with
  | None => false
  | Some t =>
      if json1 then
        match scan_doc false t with
        | None => true
        | Some v => negb (match json_type v with TyObject => true | _ => false end)
        end
      else negb (check_user_properties t)
  end.
(** schema.py 662-678 *)
Definition stop_property_value (json1 : bool) (x : option text) : bool :=
  match x with
  | None => false
  | Some t => negb (if json1 then json_valid t else check_property_value t)
  end.

(** schema.py 784-795 toron_json_object_keep; None is SQL's NULL. *)
Definition json_object_keep (x : text) (keys : list text) : res (option text) :=
  do obj <- loads x;
  match obj with
  | JObj d =>
      match keys with
      | [] => Ok (Some (dumps_sorted (JObj d)))
      | _ =>
          let sub := dict_of (flat_map (fun k => match dict_get k d with
                                                 | Some v => [(k, v)]
                                                 | None => []
                                                 end) keys) in
          match sub with
          | [] => Ok None
          | _ => Ok (Some (dumps_sorted (JObj sub)))
          end
      end
  | _ => Err ValueError
  end.

(** * Selectors and user properties as parameters of statements *)

(** The argument [selectors]: None, one string, or a list of strings. *)
Inductive sel_arg := SelNone | SelOne (s : text) | SelList (l : list text).

Definition strings (l : list text) : json := JArr (map JStr l).

(** The value written by WeightGroupRepository.add (repositories.py 357-367) with the
    INSERT trigger: the new column value.  A list cannot be bound to a parameter of SQLite
    (sqlite3.InterfaceError or ProgrammingError, here PlainException). *)
Definition weight_selectors_add (json1 : bool) (a : sel_arg) : res (option text) :=
  do x <- match a with
          | SelNone => Ok None
          | SelOne [] => Ok (Some [])
          | SelOne s => Ok (Some (dumps (strings [s])))
          | SelList [] => Err PlainException
          | SelList l => Ok (Some (dumps (strings l)))
          end;
  if stop_selectors json1 x then Err SqlIntegrityError else Ok x.

(** WeightGroupRepository.update (repositories.py 400-419) and LinkRepository.update
    (892-925): the record holds None or a list. *)
Definition selectors_update (json1 : bool) (a : option (list text)) : res (option text) :=
  let x := match a with
           | None | Some [] => None
           | Some l => Some (dumps (strings l))
           end in
  if stop_selectors json1 x then Err SqlIntegrityError else Ok x.

(** LinkRepository.add (repositories.py 817-844). *)
Definition link_selectors_add (json1 : bool) (a : sel_arg) : res (option text) :=
  let l := match a with
           | SelNone => []
           | SelOne s => [s]
           | SelList l => l
           end in
  let x := match l with [] => None | _ => Some (dumps (strings l)) end in
  if stop_selectors json1 x then Err SqlIntegrityError else Ok x.

(** user_properties in LinkRepository.add and update (repositories.py 841 and 919). *)
Definition link_properties (json1 : bool) (a : option (list (text * json))) : res (option text) :=
  let x := match a with
           | None | Some [] => None
           | Some d => Some (dumps (JObj d))
           end in
  if stop_user_properties json1 x then Err SqlIntegrityError else Ok x.

(** A column read back through its converter. *)
Definition read_column (x : option text) : res (option json) :=
  match x with
  | None => Ok None
  | Some t => do v <- loads t; Ok (Some v)
  end.

(** * AttributeGroupRepository *)

(** Rows (attribute_group_id, attributes). *)
Definition groups := list (Z * text).

Definition next_id (s : groups) : Z := (fold_right Z.max 0 (map fst s) + 1)%Z.

Definition has_empty (v : list (text * json)) : bool :=
  existsb (fun p => text_eqb (fst p) [] || match snd p with JStr [] => true | _ => false end) v.

(** repositories.py 558-566 *)
Definition ag_add (json1 : bool) (v : list (text * json)) (s : groups) : res groups :=
  if has_empty v then Err ValueError
  else
    let t := dumps_sorted (JObj v) in
    if stop_attributes json1 (Some t) then Err SqlIntegrityError
    else if existsb (fun r => text_eqb (snd r) t) s then Err SqlIntegrityError
    else Ok (s ++ [(next_id s, t)]).

(** The record of a row. *)
Definition ag_record (r : Z * text) : res (Z * json) := do v <- loads (snd r); Ok (fst r, v).

(** repositories.py 568-580 *)
Definition ag_get (i : Z) (s : groups) : res (Z * json) :=
  match find (fun r => (fst r =? i)%Z) s with
  | Some r => ag_record r
  | None => Err KeyError
  end.

(** repositories.py 582-593 *)
Definition ag_update (json1 : bool) (i : Z) (v : list (text * json)) (s : groups) : res groups :=
  if has_empty v then Err ValueError
  else
    let t := dumps_sorted (JObj v) in
    match find (fun r => (fst r =? i)%Z) s with
    | None => Ok s
    | Some _ =>
        if stop_attributes json1 (Some t) then Err SqlIntegrityError
        else if existsb (fun r => negb (fst r =? i)%Z && text_eqb (snd r) t) s
             then Err SqlIntegrityError
        else Ok (map (fun r => if (fst r =? i)%Z then (i, t) else r) s)
    end.

(** repositories.py 595-599 (the cascade concerns another table) *)
Definition ag_delete (i : Z) (s : groups) : groups := filter (fun r => negb (fst r =? i)%Z) s.

(** repositories.py 601-610 *)
Definition ag_get_by_value (v : list (text * json)) (s : groups) : res (Z * json) :=
  match find (fun r => text_eqb (snd r) (dumps_sorted (JObj v))) s with
  | Some r => ag_record r
  | None => Err KeyError
  end.

(** data_models.py 879-888 *)
Definition ag_get_or_add (json1 : bool) (v : list (text * json)) (s : groups)
  : res (groups * (Z * json)) :=
  match ag_get_by_value v s with
  | Ok r => Ok (s, r)
  | Err KeyError => do s' <- ag_add json1 v s; do r <- ag_get_by_value v s'; Ok (s', r)
  | Err e => Err e
  end.

Fixpoint traverse {A B} (f : A -> res B) (l : list A) : res (list B) :=
  match l with
  | [] => Ok []
  | x :: r => do y <- f x; do ys <- traverse f r; Ok (y :: ys)
  end.

(** repositories.py 612-615 *)
Definition ag_find_all (s : groups) : res (list (Z * json)) := traverse ag_record s.

Definition is_str (v : json) (x : text) : bool :=
  match v with JStr y => text_eqb y x | _ => false end.

(** data_models.py 872-877: [attributes.get(k) == v] for all criteria. *)
Definition matches (criteria : list (text * text)) (v : json) : bool :=
  match v with
  | JObj d => forallb (fun p => match dict_get (fst p) d with
                                | Some x => is_str x (snd p)
                                | None => false
                                end) criteria
  | _ => false
  end.
Definition find_by_criteria_base (criteria : list (text * text)) (s : groups)
  : res (list (Z * json)) :=
  do l <- ag_find_all s; Ok (filter (fun r => matches criteria (snd r)) l).

(** Characters for which str.isalnum holds; [above] decides beyond Latin-1. *)
Definition isalnum (above : N -> bool) (c : N) : bool :=
  if c <? 256 then
    (48 <=? c) && (c <=? 57) || (65 <=? c) && (c <=? 90) || (97 <=? c) && (c <=? 122)
    || (c =? 170) || (c =? 178) || (c =? 179) || (c =? 181) || (c =? 185) || (c =? 186)
    || (188 <=? c) && (c <=? 190) || (192 <=? c) && (c <=? 214)
    || (216 <=? c) && (c <=? 246) || (248 <=? c)
  else above c.

(** SQLite compares the name in a path with the names in the JSON text.  Up to version 3.44 it
    compares the characters as they are written (here as json.dumps writes them), since 3.45
    ([decode]) it resolves escapes. *)
Definition label_eq (decode : bool) (key name : text) : bool :=
  if decode then text_eqb name key else text_eqb (flat_map esc_char name) key.

(** json_extract(attributes, '$.key') for a key without points and brackets: the first member
    with that name; an empty name is a path error. *)
Fixpoint json_member (decode : bool) (key : text) (kv : list (text * json)) : option json :=
  match kv with
  | [] => None
  | (k, v) :: r => if label_eq decode key k then Some v else json_member decode key r
  end.
Definition json_extract (decode : bool) (t key : text) : res (option json) :=
  match key with
  | [] => Err SqlOperationalError
  | _ => match scan_doc false t with
         | None => Err SqlOperationalError
         | Some (JObj kv) => Ok (json_member decode key kv)
         | Some _ => Ok None
         end
  end.

(** The condition [json_extract(attributes, ?) IS ? AND ...] for one row. *)
Fixpoint row_matches (decode : bool) (criteria : list (text * text)) (t : text) : res bool :=
  match criteria with
  | [] => Ok true
  | (k, x) :: r =>
      do e <- json_extract decode t k;
      if (match e with Some v => is_str v x | None => false end)
      then row_matches decode r t
      else Ok false
  end.

Fixpoint filter_rows (f : text -> res bool) (s : groups) : res groups :=
  match s with
  | [] => Ok []
  | r :: s' => do b <- f (snd r); do l <- filter_rows f s'; Ok (if b then r :: l else l)
  end.

(** repositories.py 617-638.  Without criteria the statement ends with WHERE, a syntax error.
    Criteria values are assumed to be texts that SQLite can store. *)
Definition find_by_criteria_json1 (above : N -> bool) (decode : bool)
           (criteria : list (text * text)) (s : groups) : res (list (Z * json)) :=
  if existsb (fun p => match fst p with
                       | [] => false
                       | k => negb (forallb (isalnum above) k)
                       end) criteria
  then find_by_criteria_base criteria s
  else match criteria with
       | [] => Err SqlOperationalError
       | _ => do rows <- filter_rows (row_matches decode criteria) s; traverse ag_record rows
       end.

(** Removal of repetitions of keys, and Python's sorted. *)
Fixpoint distinct (seen l : list text) : list text :=
  match l with
  | [] => []
  | x :: r => if existsb (text_eqb x) seen then distinct seen r else x :: distinct (x :: seen) r
  end.
Definition sort_texts (l : list text) : list text := map fst (sort_items (map (fun x => (x, tt)) l)).

(** data_models.py 890-895 *)
Definition attribute_names_base (s : groups) : res (list text) :=
  do l <- ag_find_all s;
  Ok (sort_texts (distinct [] (flat_map (fun r => match snd r with
                                                  | JObj d => map fst d
                                                  | _ => []
                                                  end) l))).
(** repositories.py 640-651: json_each on the text; a text that is not JSON is an error. *)
Definition attribute_names_json1 (s : groups) : res (list text) :=
  do l <- traverse (fun r => match scan_doc false (snd r) with
                             | None => Err SqlOperationalError
                             | Some (JObj kv) => Ok (map fst kv)
                             | Some _ => Ok []
                             end) s;
  Ok (sort_texts (distinct [] (concat l))).

(** * PropertyRepository *)

(** Rows (key, value). *)
Definition props := list (text * text).

(** repositories.py 1244-1250; the key is a primary key. *)
Definition prop_add (json1 : bool) (k : text) (v : json) (s : props) : res props :=
  if stop_property_value json1 (Some (dumps v)) then Err SqlIntegrityError
  else match dict_get k s with
       | Some _ => Err SqlIntegrityError
       | None => Ok (s ++ [(k, dumps v)])
       end.
(** repositories.py 1252-1264 *)
Definition prop_get (k : text) (s : props) : res json :=
  match dict_get k s with
  | None => Err KeyError
  | Some t => loads t
  end.
(** repositories.py 1266-1271; without the row nothing happens, and no trigger fires. *)
Definition prop_update (json1 : bool) (k : text) (v : json) (s : props) : res props :=
  match dict_get k s with
  | None => Ok s
  | Some _ => if stop_property_value json1 (Some (dumps v)) then Err SqlIntegrityError
              else Ok (dict_set k (dumps v) s)
  end.
(** repositories.py 1273-1278 *)
Definition prop_delete (k : text) (s : props) : props :=
  filter (fun r => negb (text_eqb (fst r) k)) s.
(** repositories.py 1280-1285 INSERT OR REPLACE *)
Definition prop_put (json1 : bool) (k : text) (v : json) (s : props) : res props :=
  if stop_property_value json1 (Some (dumps v)) then Err SqlIntegrityError
  else Ok (prop_delete k s ++ [(k, dumps v)]).
