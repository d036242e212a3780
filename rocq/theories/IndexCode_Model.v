(** Model of index codes.  Source: src/toron/cli/common.py lines 312-387.
    Bytes and code points are numbers; a [str] is a [text] (list of code points). *)
From Coq Require Import DecimalN HexadecimalN.
From Verif Require Import Prelude Selectors_Model.
Local Open Scope N_scope.

(** *** [struct.Struct('>q').pack] (common.py line 314) *)

(** The [k] big-endian bytes of [n]. *)
Fixpoint be_bytes (k : nat) (n : N) : list N :=
  match k with O => [] | S k' => be_bytes k' (n / 256) ++ [n mod 256] end.
(** Signed 64-bit big-endian; [struct.error] outside of the range. *)
Definition pack_i64_be (i : Z) : res (list N) :=
  if ((- 2 ^ 63 <=? i) && (i <? 2 ^ 63))%Z then Ok (be_bytes 8 (Z.to_N (i mod 2 ^ 64))) else Err StructError.

(** *** [binascii.crc32] (zlib's reflected CRC-32, without the table) *)

Definition crc_poly : N := 0xEDB88320.
(** One bit of the register. *)
Definition crc_bit (s : N) : N := N.lxor (N.shiftr s 1) (if N.odd s then crc_poly else 0).
Definition crc_byte (s b : N) : N := Nat.iter 8 crc_bit (N.lxor s b).
Definition crc32 (bs : list N) : N := N.lxor (fold_left crc_byte bs 0xFFFFFFFF) 0xFFFFFFFF.

(** *** Formatting of integers *)

Fixpoint dec_chars (u : Decimal.uint) : text :=
  match u with
  | Decimal.Nil => []
  | Decimal.D0 u => 48 :: dec_chars u | Decimal.D1 u => 49 :: dec_chars u | Decimal.D2 u => 50 :: dec_chars u
  | Decimal.D3 u => 51 :: dec_chars u | Decimal.D4 u => 52 :: dec_chars u | Decimal.D5 u => 53 :: dec_chars u
  | Decimal.D6 u => 54 :: dec_chars u | Decimal.D7 u => 55 :: dec_chars u | Decimal.D8 u => 56 :: dec_chars u
  | Decimal.D9 u => 57 :: dec_chars u
  end.
Fixpoint hex_chars (u : Hexadecimal.uint) : text :=
  match u with
  | Hexadecimal.Nil => []
  | Hexadecimal.D0 u => 48 :: hex_chars u | Hexadecimal.D1 u => 49 :: hex_chars u | Hexadecimal.D2 u => 50 :: hex_chars u
  | Hexadecimal.D3 u => 51 :: hex_chars u | Hexadecimal.D4 u => 52 :: hex_chars u | Hexadecimal.D5 u => 53 :: hex_chars u
  | Hexadecimal.D6 u => 54 :: hex_chars u | Hexadecimal.D7 u => 55 :: hex_chars u | Hexadecimal.D8 u => 56 :: hex_chars u
  | Hexadecimal.D9 u => 57 :: hex_chars u | Hexadecimal.Da u => 65 :: hex_chars u | Hexadecimal.Db u => 66 :: hex_chars u
  | Hexadecimal.Dc u => 67 :: hex_chars u | Hexadecimal.Dd u => 68 :: hex_chars u | Hexadecimal.De u => 69 :: hex_chars u
  | Hexadecimal.Df u => 70 :: hex_chars u
  end.
(** The replacement field [{i}]. *)
Definition format_dec (i : Z) : text :=
  (if (i <? 0)%Z then [45] else []) ++ dec_chars (N.to_uint (Z.abs_N i)).
(** The replacement field [{n:08X}]. *)
Definition format_08X (n : N) : text :=
  let h := hex_chars (N.to_hex_uint n) in repeat 48 (8 - length h)%nat ++ h.

(** Models common.py lines 317-321 [index_id_to_code]. *)
Definition index_id_to_code (index_id : Z) (unique_id_bytes : list N) : res text :=
  do packed <- pack_i64_be index_id;
  let checksum := N.land (crc32 (packed ++ unique_id_bytes)) 0xFFFFFFFF in
  Ok (format_dec index_id ++ [88] ++ format_08X checksum).

(** *** [int(text, base)] for base 10 and 16 (CPython's PyLong_FromUnicodeObject) *)
Section Int.
(** Unicode's decimal digits beyond ASCII (Py_UNICODE_TODECIMAL). *)
Context (todecimal : N -> option N).

(** _PyUnicode_TransformDecimalAndSpaceToASCII. *)
Definition to_ascii (c : N) : N :=
  if c <? 127 then c else if isspace c then 32
  else match todecimal c with Some d => 48 + d | None => 63 end.
(** Py_ISSPACE. *)
Definition c_space (c : N) : bool := (9 <=? c) && (c <=? 13) || (c =? 32).
(** _PyLong_DigitValue. *)
Definition digit_value (c : N) : option N :=
  if (48 <=? c) && (c <=? 57) then Some (c - 48)
  else if (65 <=? c) && (c <=? 90) then Some (c - 55)
  else if (97 <=? c) && (c <=? 122) then Some (c - 87) else None.
Definition is_digit (base c : N) : bool := match digit_value c with Some d => d <? base | None => false end.
Fixpoint skip_spaces (s : text) : text :=
  match s with [] => [] | c :: s' => if c_space c then skip_spaces s' else s end.
(** The digits, single underscores between them; gives the number and the rest. *)
Fixpoint scan_digits (base : N) (prev_underscore : bool) (acc : N) (s : text) : option (N * text) :=
  match s with
  | [] => if prev_underscore then None else Some (acc, [])
  | c :: s' =>
    if c =? 95 then if prev_underscore then None else scan_digits base true acc s'
    else if is_digit base c then
      scan_digits base false (acc * base + match digit_value c with Some d => d | None => 0 end) s'
    else if prev_underscore then None else Some (acc, s)
  end.
Definition drop_underscore (s : text) : text := match s with c :: s' => if c =? 95 then s' else s | [] => s end.
(** [0x], and one underscore after it, in base 16. *)
Definition skip_prefix (base : N) (s : text) : text :=
  match s with
  | c :: x :: s' => if (base =? 16) && (c =? 48) && ((x =? 120) || (x =? 88)) then drop_underscore s' else s
  | _ => s
  end.
Definition read_sign (s : text) : bool * text :=
  match s with c :: s' => if c =? 43 then (false, s') else if c =? 45 then (true, s') else (false, s) | [] => (false, s) end.
(** [None]: [ValueError].  Simplification: no limit on the number of decimal digits
    (newer interpreters raise [ValueError] beyond 4300). *)
Definition py_int (base : N) (s : text) : option Z :=
  let '(neg, s) := read_sign (skip_spaces (map to_ascii s)) in
  match skip_prefix base s with
  | c :: s' =>
    if is_digit base c then
      match scan_digits base false 0 (c :: s') with
      | Some (n, rest) => if match skip_spaces rest with [] => true | _ => false end
                          then Some (if neg then - Z.of_N n else Z.of_N n)%Z else None
      | None => None
      end
    else None
  | [] => None
  end.

(** [s.partition('X')], without the separator. *)
Fixpoint partition_X (s : text) : text * text :=
  match s with
  | [] => ([], [])
  | c :: s' => if c =? 88 then ([], s') else let '(a, b) := partition_X s' in (c :: a, b)
  end.

(** Models common.py lines 324-344 [index_code_to_id].
    Simplification: the code is a [str] (cells of a CSV file are). *)
Definition index_code_to_id (index_code : text) (unique_id_bytes : list N) : res Z :=
  let '(index_id_dec, checksum_hex) := partition_X index_code in
  match py_int 10 index_id_dec, py_int 16 checksum_hex with
  | Some index_id, Some checksum =>
    do packed <- pack_i64_be index_id;
    if (checksum =? Z.of_N (N.land (crc32 (packed ++ unique_id_bytes)) 0xFFFFFFFF))%Z
    then Ok index_id else Err ValueError
  | _, _ => Err ValueError
  end.

(** Models common.py lines 347-357 [is_index_code]. *)
Definition is_index_code (value : text) (unique_id_bytes : list N) : res bool :=
  match index_code_to_id value unique_id_bytes with
  | Ok _ => Ok true
  | Err ValueError => Ok false
  | Err AttributeError => Ok false
  | Err e => Err e
  end.

(** Lines 369-372: [counter[pos] += ...] for the cells of a row; [counter] maps the positions from 0 on. *)
Fixpoint count_row (counter : list nat) (row : list text) (unique_id_bytes : list N) : res (list nat) :=
  match row with
  | [] => Ok counter
  | cell :: row' =>
    do b <- is_index_code cell unique_id_bytes;
    let k := if b then 1%nat else 0%nat in
    match counter with
    | [] => do counter' <- count_row [] row' unique_id_bytes; Ok (k :: counter')
    | n :: counter' => do counter' <- count_row counter' row' unique_id_bytes; Ok ((n + k)%nat :: counter')
    end
  end.
Fixpoint count_rows (counter : list nat) (rows : list (list text)) (unique_id_bytes : list N) : res (list nat) :=
  match rows with
  | [] => Ok counter
  | row :: rows' => do counter' <- count_row counter row unique_id_bytes; count_rows counter' rows' unique_id_bytes
  end.
(** [+counter]: the positions with a positive count. *)
Fixpoint positive_positions (pos : nat) (counter : list nat) : list nat :=
  match counter with
  | [] => []
  | n :: counter' => (if (0 <? n)%nat then [pos] else []) ++ positive_positions (S pos) counter'
  end.
(** Models common.py lines 360-387 [get_index_code_position]. *)
Definition get_index_code_position (sample_rows : list (list text)) (unique_id_bytes : list N) : res nat :=
  do counter <- count_rows [] sample_rows unique_id_bytes;
  match positive_positions 0 counter with
  | [position] => Ok position
  | _ => Err RuntimeError
  end.
End Int.
