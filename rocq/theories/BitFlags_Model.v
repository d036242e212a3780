(** Model of the BitFlags class.  Source: src/toron/_utils.py lines 842-1052.
    A byte string is a list of [N] (each below 256), a bit is a [bool].
    Slices in [__getitem__], [__repr__] and [__hash__] are not modelled. *)
From Verif Require Import Prelude.

(** [bytes.rstrip(b'\x00')] (used in lines 923 and 962). *)
Fixpoint rstrip0 (l : list N) : list N :=
  match l with
  | [] => []
  | b :: l' =>
      match rstrip0 l' with
      | [] => if (b =? 0)%N then [] else [b]
      | r => b :: r
      end
  end.

(** [zip_longest( *repeat(normalized, 8), fillvalue=0)].  Models lines 952-953. *)
Fixpoint eight_bit_words (l : list bool) : list (list bool) :=
  match l with
  | [] => []
  | a :: b :: c :: d :: e :: f :: g :: h :: rest =>
      [a; b; c; d; e; f; g; h] :: eight_bit_words rest
  | short => [short ++ repeat false (8 - length short)]
  end.

(** [decimal_number = (decimal_number << 1) | bit], looped.  Models lines 957-960. *)
Definition word_to_byte (w : list bool) : N :=
  fold_left (fun n b => N.lor (N.shiftl n 1) (if b : bool then 1 else 0)%N) w 0%N.

(** Models src/toron/_utils.py lines 931-963 [_bitstream_to_bytes].  Elements are
    given by their truth values. *)
Definition bitstream_to_bytes (l : list bool) : list N :=
  rstrip0 (map word_to_byte (eight_bit_words l)).

(** [(byte >> i) & 1]. *)
Definition get_bit (byte : N) (i : N) : bool :=
  (N.land (N.shiftr byte i) 1 =? 1)%N.

(** Models src/toron/_utils.py lines 965-985 [_bytes_to_bitstream]. *)
Definition bytes_to_bitstream (bs : list N) : list bool :=
  flat_map (fun byte => map (get_bit byte) [7; 6; 5; 4; 3; 2; 1; 0]%N) bs.

(** An instance is its [_bytes] slot. *)
Record bitflags := { bf_bytes : list N }.

(** Models lines 908-929 [__init__], the [bytes] branch. *)
Definition of_bytes (bs : list N) : bitflags := {| bf_bytes := rstrip0 bs |}.
(** Models lines 908-929 [__init__], the iterable-of-bits and [*bits] branches. *)
Definition of_bits (l : list bool) : bitflags := {| bf_bytes := bitstream_to_bytes l |}.

(** Models lines 987-989 [__bytes__]. *)
Definition bf_to_bytes (x : bitflags) : list N := bf_bytes x.
(** Models lines 1018-1020 [__len__]. *)
Definition bf_len (x : bitflags) : nat := length (bf_bytes x) * 8.
(** Models lines 1022-1024 [__iter__]. *)
Definition bf_iter (x : bitflags) : list bool := bytes_to_bitstream (bf_bytes x).

(** Models lines 997-1011 [__getitem__] for an int index.  The byte lookup itself
    may in principle fail; that is an [IndexError] of the bytes object. *)
Definition bf_getitem (x : bitflags) (index : Z) : res bool :=
  let len_self := Z.of_nat (bf_len x) in
  let index := if (index <? 0)%Z then (len_self + index)%Z else index in
  if negb ((0 <=? index)%Z && (index <? len_self)%Z) then Err IndexError
  else match nth_error (bf_bytes x) (Z.to_nat (index / 8)) with
       | None => Err IndexError
       | Some byte => Ok (get_bit byte (Z.to_N (7 - index mod 8)))
       end.

Fixpoint bytes_eqb (a b : list N) : bool :=
  match a, b with
  | [], [] => true
  | x :: a', y :: b' => (x =? y)%N && bytes_eqb a' b'
  | _, _ => false
  end.

(** Models lines 1032-1035 [__eq__] with another BitFlags. *)
Definition bf_eqb (x y : bitflags) : bool := bytes_eqb (bf_bytes x) (bf_bytes y).
(** Models lines 1037-1039 [__eq__] with any other iterable, given by the truth
    values of its elements. *)
Definition bf_eqb_iterable (x : bitflags) (other : list bool) : bool :=
  bytes_eqb (bf_bytes x) (bitstream_to_bytes other).
(** The same comparison when [other] is a [bytes] object: it is an iterable of
    integers, so each byte counts as one bit. *)
Definition bf_eqb_bytes (x : bitflags) (other : list N) : bool :=
  bf_eqb_iterable x (map (fun b => negb (b =? 0)%N) other).

(** [a | b for a, b in zip_longest(.., fillvalue=0)].  Models line 1048. *)
Fixpoint zip_or (a b : list N) : list N :=
  match a, b with
  | [], _ => b
  | _, [] => a
  | x :: a', y :: b' => N.lor x y :: zip_or a' b'
  end.

(** Models lines 1043-1049 [__or__]. *)
Definition bf_or (x y : bitflags) : bitflags :=
  of_bytes (zip_or (bf_bytes x) (bf_bytes y)).
