(** Model of writing quantities to standard output and of loading quantities from standard input.
    Sources: src/toron/cli/command_quantity.py lines 24-62 [read_from_stdin], [write_to_stdout];
    src/toron/space.py lines 2295-2500 [insert_quantities2], [select_quantities2] for a table with its header.

    - The space is that of Quantity_Model with its simplifications.
    - A CSV file is represented by its rows of strings: that [csv.reader] gives back what [csv.writer] wrote is
      shown in Csv_Properties.v; errors of reading are left out here.
    - A value is the number that SQLite makes of the text (column [quantity_value], NUMERIC, CHECK on its type);
      [float], which is used to add to an existing value, is taken to read texts in the same way. *)
From Coq Require Import NArith.
From Verif Require Import Prelude Selectors_Model LinkRef_Model Db_Model Reader_Model Mapper_Model Quantity_Model IndexCli_Model MapCli_Model.
Local Open Scope nat_scope.

Definition csv_file := list (list text).

(** *** Loading *)

(** [dict(zip(columns, row))[k]]: of several columns with the same name the last one counts. *)
Fixpoint row_get (k : text) (items : list (text * text)) : option text :=
  match items with
  | [] => None
  | (k', v) :: items' =>
    match row_get k items' with
    | Some x => Some x
    | None => if text_eqb k k' then Some v else None
    end
  end.
Definition row_at (items : list (text * text)) (k : text) : res text :=
  match row_get k items with Some v => Ok v | None => Err KeyError end.
(** The value of a text in a NUMERIC column, [None] if it stays a text. *)
Definition number (t : text) : option Q := let '(q, ok) := sqlite_real t in if ok then Some q else None.

(** Space.py lines 2385-2422 if the row has no cell for the value: [row_dict[value_column]] is a [KeyError], which
    is caught like the errors of the database. *)
Definition put_missing (pol : policy) (l g : Z) (s : store) : res (store * event) :=
  match quantity_find l g s with
  | None => Err KeyError
  | Some x =>
    match pol with
    | PAbort => Err ValueError
    | PIgnore => Ok (s, Ignored)
    | PReplace => Err KeyError
    | PSum => Err KeyError
    | PInvalid => Err ValueError
    end
  end.
Definition insert_missing (pol : policy) (any_label any_partition : bool) (st : store * list event)
  (attrs : list (text * option text)) (labels : list text) : res (store * list event) :=
  let '(s, ev) := st in
  let attrs := attr_dict (s_registered s) attrs in
  if nil_b attrs then Ok (s, ev ++ [NoAttrs])
  else
    let known := in_structure labels s in
    if negb known && negb any_partition then Err ValueError
    else
      let found := negb (nil_b (candidates (s_db s) labels)) in
      if negb found && negb any_label then Err ValueError
      else
        do lx <- get_location labels s;
        do gx <- get_group attrs (fst lx);
        do p <- put_missing pol (snd lx) (snd gx) (fst gx);
        Ok (fst p, ev ++ (if known then [] else [InvalidCategory]) ++
                   (if found then [] else [InvalidLabel]) ++ [snd p]).

(** Lines 2337-2422: one row of the table; [names] are the attributes to load. *)
Definition load_row (value_column : text) (pol : policy) (any_label any_partition : bool) (names columns : list text)
  (st : store * list event) (r : list text) : res (store * list event) :=
  let s := fst st in
  let row_dict := combine columns r in
  let domain := row_get (txt "domain") row_dict in
  if match domain with Some d => negb (text_eqb d (s_domain s)) | None => false end then Err ValueError
  else
    do attrs <- traverse (fun k => do v <- row_at row_dict k; Ok (k, Some v)) names;
    do labels <- traverse (row_at row_dict) (d_labels (s_db s));
    match row_get value_column row_dict with
    | Some t => insert_row pol any_label any_partition st
                  {| qr_domain := domain; qr_labels := labels; qr_cells := attrs; qr_value := number t |}
    | None => insert_missing pol any_label any_partition st attrs labels
    end.

(** Line 2307: the columns and the rows (see [normalize_tabular] in Streams_Model.v). *)
Definition header_of (file : csv_file) : list text := match file with [] => [] | h :: _ => h end.
Definition body_of (file : csv_file) : csv_file := match file with [] => [] | _ :: rows => rows end.
(** _utils.py lines 130-145 [verify_columns_set] with extra columns. *)
Definition verify_columns (columns required : list text) : res unit :=
  if forallb (fun x => existsb (text_eqb x) columns) required then Ok tt else Err ValueError.
(** Models lines 2295-2467 [insert_quantities2]; the events are what is logged. *)
Definition insert_table (value_column : text) (pol : policy) (any_label any_partition : bool) (file : csv_file)
  (s : store) : res (store * list event) :=
  let columns := header_of file in
  if nil_b (s_registered s) then Err ToronError
  else
    let names := filter (fun x => existsb (text_eqb x) columns) (s_registered s) in
    do _ <- verify_columns columns (d_labels (s_db s) ++ names ++ [value_column]);
    fold_res (load_row value_column pol any_label any_partition names columns) (body_of file) (s, []).

(** Lines 2424-2467: the numbers in the log: rows without attributes, of no partition, with invalid labels,
    ignored, replaced, added, loaded. *)
Definition event_eqb (a b : event) : bool :=
  match a, b with
  | NoAttrs, NoAttrs | InvalidCategory, InvalidCategory | InvalidLabel, InvalidLabel | Ignored, Ignored
  | Replaced, Replaced | Summed, Summed | Inserted, Inserted => true
  | _, _ => false
  end.
Definition times (e : event) (l : list event) : nat := length (filter (event_eqb e) l).
(** One line of the log; [Nothing] is the warning that no quantities were loaded. *)
Inductive log_line := Log (e : event) (n : nat) | Nothing.
Definition line_if (e : event) (l : list event) : list log_line := match times e l with 0 => [] | n => [Log e n] end.
Definition report (l : list event) : list log_line :=
  line_if NoAttrs l ++ line_if InvalidCategory l ++ line_if InvalidLabel l ++
  match line_if Ignored l with
  | [] => match line_if Replaced l with
          | [] => line_if Summed l
          | x => x
          end
  | x => x
  end ++
  match line_if Inserted l with [] => [Nothing] | x => x end.

(** The result of the command: the log, or the message [operation cancelled] with the warning that there are no
    records ([Refused true]); any other exception is passed on. *)
Inductive shown_text := Loaded (l : list log_line) | Refused (empty_index : bool).
(** Models command_quantity.py lines 24-46 [read_from_stdin]. *)
Definition import_quantities (value_column : text) (pol : policy) (any_label any_partition : bool) (file : csv_file)
  (s : store) : store * res (exit_code * shown_text) :=
  match insert_table value_column pol any_label any_partition file s with
  | Ok (s', ev) => (s', Ok (ExitOk, Loaded (report ev)))
  | Err ValueError => (s, Ok (ExitErr, Refused (nil_b (filter (fun r => negb (ix_id r =? 0)%Z) (d_index (s_db s))))))
  | Err e => (s, Err e)
  end.

(** *** Writing *)

Section Write.
(** [repr] of a number. *)
Context (show : Q -> text).

(** Lines 2484-2488: the header. *)
Definition quantity_header (s : store) : list text :=
  (if is_empty (s_domain s) then [] else [txt "domain"]) ++ d_labels (s_db s) ++ s_registered s ++ [txt "quantity"].
(** A row; the writer makes the empty string of [None]. *)
Definition quantity_line (o : q_out) : list text :=
  qo_domain o ++ qo_labels o ++ map (fun v => match v with Some t => t | None => [] end) (qo_attrs o) ++ [show (qo_value o)].
(** Models command_quantity.py lines 49-62 [write_to_stdout]: the file and the number in the log.  If writing fails
    on the way, what was written before is left out. *)
Definition export_quantities (s : store) : res (csv_file * nat) :=
  do outs <- select_quantities2 s;
  Ok (quantity_header s :: map quantity_line outs, length outs).
End Write.
