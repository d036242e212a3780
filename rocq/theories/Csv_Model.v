(** Model of the CSV files that the command line writes and reads, and of lists of names given
    as arguments: src/toron/cli/common.py 53-73 (csv_stdout_writer) and 114-142
    (normalize_arg_list), src/toron/cli/command_index.py 31, command_mapping.py 395 and
    command_quantity.py 25 (csv.reader of stdin).

    Included from Python: _csv.c (reader and writer of the default dialect with doubled
    quotes, lineterminator LF for the writer), io.TextIOWrapper with UTF-8 (output without
    translation of line ends, input with universal newlines, as sys.stdin has it), str.strip,
    str.splitlines and the regular expression in normalize_arg_list.  A cell is a text; None is
    written like the empty text and a number like its str.  Input in another encoding than
    UTF-8 is left out. *)
From Verif Require Import Prelude Selectors_Model FileOpen_Model.
Local Open Scope N_scope.

(** * Encoding *)

Definition cont (b : N) : bool := (128 <=? b) && (b <=? 191).

(** bytes.decode('utf-8'), errors='strict' (UnicodeDecodeError is a ValueError). *)
Fixpoint utf8_decode (bs : list N) : res text :=
  match bs with
  | [] => Ok []
  | a :: r =>
      if a <? 128 then do t <- utf8_decode r; Ok (a :: t)
      else match r with
      | b :: r =>
          if (194 <=? a) && (a <=? 223) && cont b then
            do t <- utf8_decode r; Ok ((a - 192) * 64 + (b - 128) :: t)
          else match r with
          | c :: r =>
              let v := (a - 224) * 4096 + (b - 128) * 64 + (c - 128) in
              if (224 <=? a) && (a <=? 239) && cont b && cont c && (2048 <=? v) && negb (surrogate v) then
                do t <- utf8_decode r; Ok (v :: t)
              else match r with
              | d :: r =>
                  let v := (a - 240) * 262144 + (b - 128) * 4096 + (c - 128) * 64 + (d - 128) in
                  if (240 <=? a) && (a <=? 244) && cont b && cont c && cont d && (65536 <=? v) && (v <? 1114112) then
                    do t <- utf8_decode r; Ok (v :: t)
                  else Err ValueError
              | [] => Err ValueError
              end
          | [] => Err ValueError
          end
      | [] => Err ValueError
      end
  end.

(** Universal newlines: CR LF and CR become LF. *)
Fixpoint translate (t : text) : text :=
  match t with
  | [] => []
  | c :: r =>
      if c =? 13 then
        match r with
        | d :: r' => if d =? 10 then 10 :: translate r' else 10 :: translate r
        | [] => [10]
        end
      else c :: translate r
  end.

(** The lines of a translated text, with their ends. *)
Fixpoint lines (t : text) : list text :=
  match t with
  | [] => []
  | c :: r =>
      if c =? 10 then [10] :: lines r
      else match lines r with
           | [] => [[c]]
           | l :: ls => (c :: l) :: ls
           end
  end.

(** * csv.reader *)

(** csv.field_size_limit() unless set otherwise. *)
Definition std_limit : nat := N.to_nat 131072.

Section Csv.
(** csv.field_size_limit, whether NUL is allowed (since Python 3.11), and whether the writer
    quotes CR for every line terminator (since Python 3.13). *)
Context (limit : nat) (nul_ok quote_cr : bool).

Inductive st := StartRecord | StartField | InField | InQuoted | QuoteInQuoted | EatCrnl.
Record pst := { p_st : st; p_field : text; p_fields : list text }.

Definition init : pst := {| p_st := StartRecord; p_field := []; p_fields := [] |}.
Definition goto (q : st) (s : pst) : pst :=
  {| p_st := q; p_field := p_field s; p_fields := p_fields s |}.
(** parse_save_field *)
Definition save (q : st) (s : pst) : pst :=
  {| p_st := q; p_field := []; p_fields := p_fields s ++ [p_field s] |}.
(** parse_add_char; _csv.Error is PlainException here. *)
Definition add (c : N) (q : st) (s : pst) : res pst :=
  if (limit <=? length (p_field s))%nat then Err PlainException
  else Ok {| p_st := q; p_field := p_field s ++ [c]; p_fields := p_fields s |}.

Definition is_nl (c : N) : bool := (c =? 10) || (c =? 13).

(** The case START_FIELD of parse_process_char; None is the end of the line. *)
Definition start_field (s : pst) (c : option N) : res pst :=
  match c with
  | None => Ok (save StartRecord s)
  | Some c =>
      if is_nl c then Ok (save EatCrnl s)
      else if c =? 34 then Ok (goto InQuoted s)
      else if c =? 44 then Ok (save StartField s)
      else add c InField s
  end.

(** parse_process_char *)
Definition process (s : pst) (c : option N) : res pst :=
  match p_st s with
  | StartRecord =>
      match c with
      | None => Ok s
      | Some x => if is_nl x then Ok (goto EatCrnl s) else start_field s c
      end
  | StartField => start_field s c
  | InField =>
      match c with
      | None => Ok (save StartRecord s)
      | Some x =>
          if is_nl x then Ok (save EatCrnl s)
          else if x =? 44 then Ok (save StartField s)
          else add x InField s
      end
  | InQuoted =>
      match c with
      | None => Ok s
      | Some x => if x =? 34 then Ok (goto QuoteInQuoted s) else add x InQuoted s
      end
  | QuoteInQuoted =>
      match c with
      | None => Ok (save StartRecord s)
      | Some x =>
          if x =? 34 then add x InQuoted s
          else if x =? 44 then Ok (save StartField s)
          else if is_nl x then Ok (save EatCrnl s)
          else add x InField s
      end
  | EatCrnl =>
      match c with
      | None => Ok (goto StartRecord s)
      | Some x => if is_nl x then Ok s else Err PlainException
      end
  end.

(** One character of a line. *)
Definition feed (s : pst) (c : N) : res pst :=
  if (c =? 0) && negb nul_ok then Err PlainException else process s (Some c).
Fixpoint feed_all (s : pst) (l : text) : res pst :=
  match l with
  | [] => process s None
  | c :: r => do s' <- feed s c; feed_all s' r
  end.

Definition at_start (s : pst) : bool := match p_st s with StartRecord => true | _ => false end.

(** Reader_iternext until the lines are used up. *)
Fixpoint run (ls : list text) (s : pst) : res (list (list text)) :=
  match ls with
  | [] =>
      match p_field s, p_st s with
      | [], InQuoted | _ :: _, _ => Ok [p_fields s ++ [p_field s]]
      | _, _ => Ok []
      end
  | l :: r =>
      do s' <- feed_all s l;
      if at_start s' then do rows <- run r init; Ok (p_fields s' :: rows)
      else run r s'
  end.

Definition reader (ls : list text) : res (list (list text)) := run ls init.

(** The rows that a command reads from stdin. *)
Definition read_stdin (bytes : list N) : res (list (list text)) :=
  do t <- utf8_decode bytes; reader (lines (translate t)).

(** * csv.writer *)

(** join_append_data with QUOTE_MINIMAL: the characters that make quotes necessary. *)
Definition special (c : N) : bool :=
  (c =? 44) || (c =? 34) || (c =? 10) || (quote_cr && (c =? 13)).
Definition double (c : N) : text := if c =? 34 then [34; 34] else [c].
Definition write_cell (s : text) : text :=
  if existsb special s then 34 :: flat_map double s ++ [34] else s.
Fixpoint join_cells (l : list text) : text :=
  match l with
  | [] => []
  | [x] => x
  | x :: r => x ++ 44 :: join_cells r
  end.
(** writerow: a single empty cell is quoted. *)
Definition write_row (row : list text) : text :=
  match row with
  | [[]] => [34; 34; 10]
  | _ => join_cells (map write_cell row) ++ [10]
  end.
(** The bytes on stdout; UnicodeEncodeError is a ValueError. *)
Definition write_stdout (rows : list (list text)) : res (list N) := utf8 (flat_map write_row rows).

(** * normalize_arg_list *)

(** Characters of words in regular expressions. *)
Context (word : N -> bool).

(** re.sub of a line end between words by a space; [prev] tells whether the character before
    belongs to a word. *)
Fixpoint sub_newlines (prev : bool) (t : text) : text :=
  match t with
  | [] => []
  | c :: r =>
      if prev && (c =? 10) && match r with d :: _ => word d | [] => false end then 32 :: sub_newlines false r
      else if prev && (c =? 13) then
        match r with
        | n :: r' =>
            if (n =? 10) && match r' with d :: _ => word d | [] => false end then 32 :: sub_newlines false r'
            else c :: sub_newlines false r
        | [] => [c]
        end
      else c :: sub_newlines (word c) r
  end.

(** The line boundaries of str.splitlines. *)
Definition line_end (c : N) : bool :=
  (10 <=? c) && (c <=? 13) || (28 <=? c) && (c <=? 30) || (c =? 133) || (c =? 8232) || (c =? 8233).
(** str.isspace *)
Definition space (c : N) : bool :=
  (9 <=? c) && (c <=? 13) || (28 <=? c) && (c <=? 32) || (c =? 133) || (c =? 160) || (c =? 5760)
  || (8192 <=? c) && (c <=? 8202) || (c =? 8232) || (c =? 8233) || (c =? 8239) || (c =? 8287) || (c =? 12288).

Fixpoint lstrip (t : text) : text :=
  match t with
  | c :: r => if space c then lstrip r else t
  | [] => []
  end.
Definition strip (t : text) : text := rev (lstrip (rev (lstrip t))).

Definition nonempty (t : text) : bool := match t with [] => false | _ => true end.

Fixpoint normalize_arg_list (args : list text) : res (list text) :=
  match args with
  | [] => Ok []
  | value :: r =>
      let line := filter (fun c => negb (line_end c)) (sub_newlines false value) in
      do rows <- reader [line];
      do rest <- normalize_arg_list r;
      Ok (filter nonempty (map strip (hd [] rows)) ++ rest)
  end.
End Csv.
