(** Model of writing the index to standard output and of loading index records from standard input.
    Sources: src/toron/cli/command_index.py (all but [process_index_action]), src/toron/space.py lines
    575-767 [insert_index], src/toron/dal1/repositories.py.

    The database is that of Db_Model with its simplifications.  A CSV file is represented by its rows of
    strings: that [csv.reader] gives back what [csv.writer] wrote is shown in Csv_Properties.v.  If writing fails on the
    way, the rows written before are left out. *)
From Coq Require Import NArith.
From Verif Require Import Prelude Selectors_Model Reader_Model LinkRef_Model IndexCode_Model Db_Model Streams_Model.
Local Open Scope nat_scope.

Section Cli.
(** The decimal digits of Unicode (see IndexCode_Model.v), [repr] of a float and [float] of a string ([None]:
    [ValueError]). *)
Context (todecimal : N -> option N) (show : Q -> text) (read_float : text -> option Q).

(** *** Writing *)

(** Lines 97-99 and 105: the name of the first column. *)
Definition code_header (domain : text) : text :=
  match domain with
  | [] => txt "index_code"
  | _ => map (fun c => if (c =? 32)%N then 95%N else c) domain ++ txt "_" ++ txt "index_code"
  end.

(** Lines 80-83: [default_id], [None] if the property is missing or null. *)
Definition default_id (s : db) : option Z := match d_default s with Some o => o | None => None end.
(** [(g.id != default_id, g.name)] of one group is less than or equal to that of another (line 85). *)
Definition not_default (d : option Z) (g : group) : bool := match d with Some i => negb (g_id g =? i)%Z | None => true end.
Definition group_leb (d : option Z) (a b : group) : bool :=
  match not_default d a, not_default d b with
  | false, true => true
  | true, false => false
  | _, _ => negb (text_ltb (g_name b) (g_name a))
  end.
Fixpoint insert_group (d : option Z) (g : group) (l : list group) : list group :=
  match l with
  | [] => [g]
  | h :: l' => if group_leb d g h then g :: l else h :: insert_group d g l'
  end.
(** Line 85. *)
Definition sorted_groups (s : db) : list group := fold_right (insert_group (default_id s)) [] (d_groups s).

(** Lines 89-95 [get_weight_value], as the text that the writer makes of it ([None] becomes the empty
    string). *)
Definition weight_text (s : db) (i : Z) (g : group) : text :=
  match weight_find (g_id g) i s with
  | Some w => show (w_value w)
  | None => if (i =? 0)%Z then show 0 else []
  end.
(** Lines 112-116. *)
Definition index_row (id_bytes : list N) (s : db) (r : ixrec) : res (list cell) :=
  do code <- index_id_to_code (ix_id r) id_bytes;
  Ok (CText code :: map CText (ix_labels r) ++ map (fun g => CText (weight_text s (ix_id r) g)) (sorted_groups s)).
Definition index_header (domain : text) (s : db) : list cell :=
  CText (code_header domain) :: map CText (d_labels s) ++ map (fun g => CText (g_name g)) (sorted_groups s).
(** Models command_index.py lines 71-121 [write_to_stdout]: the header and the rows. *)
Definition write_index (id_bytes : list N) (domain : text) (s : db) : res (list (list cell)) :=
  do rows <- traverse (index_row id_bytes s) (d_index s);
  Ok (index_header domain s :: rows).

(** *** Loading: space.py lines 575-767 for a table with its columns *)

(** A name in the header.  Simplification: a header cell that is no string counts as the empty string. *)
Definition name_of (c : cell) : text := code_text c.
(** Space.py lines 616-623: if a column is a label column, all label columns must be there. *)
Definition label_positions (labels : list text) (columns : list cell) : res (list nat) :=
  let found := flat_map (fun x => match index_from 0 x columns with Some i => [i] | None => [] end) labels in
  match found with
  | [] => Ok []
  | _ => if length found =? length labels then Ok found else Err ValueError
  end.
(** The label in a cell.  Simplification: a label that is no string is a [TypeError]. *)
Definition label_text (c : cell) : res text := match c with CText t => Ok t | _ => Err TypeError end.
(** Lines 609-614 and 664-667: the raw id, unless it is the empty string. *)
Definition raw_index_id (columns l : list cell) : res (option Z) :=
  match index_from 0 (txt "index_id") columns with
  | None => Ok None
  | Some p =>
    do c <- cell_at l p;
    match c with
    | CText [] => Ok None
    | CText t => match py_int todecimal 10 t with Some i => Ok (Some i) | None => Err ValueError end
    | CNone => Err TypeError
    | COther i => Ok (Some i)
    end
  end.
(** Lines 704-708: a weight cell. *)
Definition weight_cell (c : cell) : Db_Model.cell :=
  match c with
  | CNone => CEmpty
  | CText [] => CEmpty
  | CText t => match read_float t with Some q => CNum q | None => CBad end
  | COther z => CNum (inject_Z z)
  end.
(** Lines 634-642: the cells of the columns that are named like a weight group, by position; other columns
    are not read. *)
Fixpoint weight_cells (groups : list group) (p : nat) (columns l : list cell) : res (list Db_Model.cell) :=
  match columns with
  | [] => Ok []
  | c :: columns' =>
    do x <- if existsb (fun g => text_eqb (g_name g) (name_of c)) groups
            then do v <- cell_at l p; Ok (weight_cell v) else Ok CEmpty;
    do rest <- weight_cells groups (S p) columns' l;
    Ok (x :: rest)
  end.
(** Lines 651-667 and 702-708: what one row says; [None] if it is skipped.  Simplification: a row that is too
    short is an [IndexError] before anything of the row is stored, and so is not preceded by another error
    of the same row. *)
Definition resolve_row (groups : list group) (positions : list nat) (columns : list cell) (r : row) : res (option ins_row) :=
  do l <- row_cells r;
  match l with
  | [] => Ok None
  | _ =>
    do labels <- traverse (fun p => do c <- cell_at l p; label_text c) positions;
    if existsb is_empty labels then Ok None
    else
      do i <- raw_index_id columns l;
      do cells <- weight_cells groups 0 columns l;
      Ok (Some {| ir_id := i; ir_labels := labels; ir_cells := cells |})
  end.
(** The rows of the iterator up to the first error, and that error. *)
Fixpoint resolve_rows (groups : list group) (positions : list nat) (columns : list cell) (s : stream row)
    : list ins_row * option exn :=
  match s with
  | Stop => ([], None)
  | Boom e => ([], Some e)
  | Item r s' =>
    match resolve_row groups positions columns r with
    | Err e => ([], Some e)
    | Ok o =>
      let '(rows, e) := resolve_rows groups positions columns s' in
      (match o with Some x => x :: rows | None => rows end, e)
    end
  end.
(** The loop stops at the first error, be it of a row that was read or of the next one. *)
Definition insert_index_table (lpol wpol : policy) (it : stream row) (s : db) : res db :=
  do (data, columns) <- normalize_tabular (DIter it) None;
  if nil_b (d_labels s) then Err PlainException
  else
    do positions <- label_positions (d_labels s) columns;
    let '(rows, stop) := resolve_rows (d_groups s) positions columns data in
    do s' <- insert_index None (map name_of columns) lpol wpol rows s;
    match stop with None => Ok s' | Some e => Err e end.

(** *** Reading from standard input *)

Inductive exit_code := ExitOk | ExitErr.
(** Models command_index.py lines 29-68 [read_from_stdin].  The text of the error message is left out. *)
Definition import_index (nd : node) (lpol wpol : policy) (reader : stream row) (s : db) : db * res exit_code :=
  match read_index_stdin todecimal nd reader with
  | Err e => (s, Err e)
  | Ok iterator =>
    match transact (insert_index_table lpol wpol iterator) s with
    | (s', None) => (s', Ok ExitOk)
    | (s', Some ValueError) => (s', Ok ExitErr)
    | (s', Some e) => (s', Err e)
    end
  end.
End Cli.
