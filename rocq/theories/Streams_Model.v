(** Model of the code that looks ahead into tabular data: rows taken from an iterator to find out
    the kind of the rows, the header or the columns with index codes, and put back afterwards.
    Sources: src/toron/_utils.py, src/toron/cli/command_mapping.py, src/toron/cli/command_index.py,
    src/toron/cli/common.py, src/toron/mapper.py. *)
From Coq Require Import NArith.
From Verif Require Import Prelude Selectors_Model BitFlags_Model IndexCode_Model.
Local Open Scope nat_scope.

(** An iterator, by what it will produce: it ends, it raises an error, or it gives an item and goes
    on.  Simplification: iterators that never end are not modelled. *)
Inductive stream (A : Type) : Type :=
| Stop
| Boom (e : exn)
| Item (a : A) (rest : stream A).
Arguments Stop {A}.
Arguments Boom {A} e.
Arguments Item {A} a rest.

(** [itertools.chain(list, iterator)]. *)
Fixpoint chain {A} (l : list A) (s : stream A) : stream A :=
  match l with [] => s | a :: l' => Item a (chain l' s) end.
(** A generator expression [(f(x) for x in iterator)]: an error of [f] ends it. *)
Fixpoint smap {A B} (f : A -> res B) (s : stream A) : stream B :=
  match s with
  | Stop => Stop
  | Boom e => Boom e
  | Item a s' => match f a with Ok b => Item b (smap f s') | Err e => Boom e end
  end.
(** [list(islice(iterator, n))]: the items and the iterator afterwards. *)
Fixpoint islice {A} (n : nat) (s : stream A) : res (list A * stream A) :=
  match n with
  | O => Ok ([], s)
  | S n' =>
    match s with
    | Stop => Ok ([], Stop)
    | Boom e => Err e
    | Item a s' => do (l, s'') <- islice n' s'; Ok (a :: l, s'')
    end
  end.

(** A value in a row: a string, [None], or something else (a number, by its value). *)
Inductive cell := CText (t : text) | CNone | COther (z : Z).
Definition cell_eqb (a b : cell) : bool :=
  match a, b with
  | CText s, CText t => text_eqb s t
  | CNone, CNone => true
  | COther x, COther y => (x =? y)%Z
  | _, _ => false
  end.
(** [bool(cell)]. *)
Definition cell_true (c : cell) : bool :=
  match c with CText [] => false | CText _ => true | CNone => false | COther z => negb (z =? 0)%Z end.

(** A dictionary: its items in order; the keys are distinct in the dictionaries that the code builds. *)
Definition dict := list (cell * cell).
Fixpoint dict_find (k : cell) (d : dict) : option cell :=
  match d with [] => None | (k', v) :: d' => if cell_eqb k k' then Some v else dict_find k d' end.
(** [d.get(k)]. *)
Definition dict_get (k : cell) (d : dict) : cell := match dict_find k d with Some v => v | None => CNone end.
(** [d[k] = v]. *)
Fixpoint dict_set (k v : cell) (d : dict) : dict :=
  match d with
  | [] => [(k, v)]
  | (k', v') :: d' => if cell_eqb k k' then (k', v) :: d' else (k', v') :: dict_set k v d'
  end.
(** [dict(items)]. *)
Definition dict_of (items : list (cell * cell)) : dict :=
  fold_left (fun d kv => dict_set (fst kv) (snd kv) d) items [].

(** A row: a sequence, a mapping, [None], or something else. *)
Inductive row := RSeq (l : list cell) | RMap (d : dict) | RNone | ROther.
(** The data: a [csv.reader], a [csv.DictReader] with its field names, another iterable, or something
    that is not iterable. *)
Inductive data :=
| DReader (s : stream row)
| DDictReader (fieldnames : list cell) (s : stream row)
| DIter (s : stream row)
| DNotIterable.
(** [iter(data)]. *)
Definition iter_data (d : data) : res (stream row) :=
  match d with
  | DReader s => Ok s
  | DDictReader _ s => Ok s
  | DIter s => Ok s
  | DNotIterable => Err TypeError
  end.

(** [tuple(row.get(x) for x in columns)]; a row that is no mapping has no method [get]. *)
Definition get_row (columns : list cell) (r : row) : res row :=
  match r with
  | RMap d => Ok (RSeq (map (fun x => dict_get x d) columns))
  | _ => Err AttributeError
  end.
(** [columns or tuple()] and [if columns], [if not columns]: [None] and the empty header are false. *)
Definition given (columns : option (list cell)) : option (list cell) :=
  match columns with Some [] => None | c => c end.

(** Models _utils.py lines 72-127 [normalize_tabular].  The rows that were taken from the iterator
    are part of the result. *)
Definition normalize_tabular (d : data) (columns : option (list cell)) : res (stream row * list cell) :=
  do data_iter <- iter_data d;
  match data_iter with
  | Stop => Ok (Stop, match given columns with Some c => c | None => [] end)
  | Boom e => Err e
  | Item first_row data_iter =>
    match first_row with
    | RSeq cells =>
      match given columns with
      | Some c => Ok (chain [first_row] data_iter, c)
      | None => Ok (data_iter, cells)
      end
    | RMap items =>
      let columns := match given columns with Some c => c | None => map fst items end in
      Ok (smap (get_row columns) (chain [first_row] data_iter), columns)
    | _ => Err TypeError
    end
  end.

(** Models _utils.py lines 171-213 [make_readerlike].  [next(iterator, None)] is [None] at the end of
    the data. *)
Definition make_readerlike (d : data) : res (stream row) :=
  match d with
  | DReader s => Ok s
  | DDictReader fieldnames s => Ok (chain [RSeq fieldnames] (smap (get_row fieldnames) s))
  | DNotIterable => Err TypeError
  | DIter s =>
    match s with
    | Stop => Ok Stop
    | Boom e => Err e
    | Item first_value iterator =>
      match first_value with
      | RNone => Ok Stop
      | RMap items =>
        let fieldnames := map fst items in
        Ok (chain [RSeq fieldnames] (smap (get_row fieldnames) (chain [first_value] iterator)))
      | RSeq _ => Ok (chain [first_value] iterator)
      | ROther => Err TypeError
      end
    end
  end.

(** [dict(zip(fieldnames, row))].  Simplification: a row that is no sequence cannot be zipped
    (a mapping would give its keys). *)
Definition zip_row (fieldnames : list cell) (r : row) : res row :=
  match r with RSeq l => Ok (RMap (dict_of (combine fieldnames l))) | _ => Err TypeError end.
(** Models _utils.py lines 224-250 [make_dictreaderlike]; [make_readerlike] receives the chain, which
    is neither kind of reader. *)
Definition make_dictreaderlike (d : data) : res (stream row) :=
  match d with
  | DDictReader _ s => Ok s
  | _ =>
    do iterator <- iter_data d;
    match iterator with
    | Stop => Ok Stop
    | Boom e => Err e
    | Item first_value iterator =>
      match first_value with
      | RNone => Ok Stop
      | RMap _ => Ok (chain [first_value] iterator)
      | _ =>
        do reader <- make_readerlike (DIter (chain [first_value] iterator));
        match reader with
        | Item (RSeq fieldnames) reader => Ok (smap (zip_row fieldnames) reader)
        | Item _ _ => Err TypeError
        | Stop => Err RuntimeError
        | Boom e => Err e
        end
      end
    end
  end.

(** Models _utils.py lines 649-677 [eagerly_initialize], applied to a generator: the code before the
    first item runs at once, with its errors. *)
Definition eagerly_initialize {A} (generator : stream A) : res (stream A) :=
  match generator with
  | Stop => Ok Stop
  | Boom e => Err e
  | Item a rest => Ok (chain [a] rest)
  end.

Section Codes.
(** The decimal digits of Unicode (see IndexCode_Model.v) and the name in an edge shorthand such as
    [population: a --> b] ([parse_edge_shorthand(col).get('edge_name')], _utils.py lines 359-445,
    modelled in EdgeText_Model.v; the theorems here hold for every function). *)
Context (todecimal : N -> option N) (edge_name : text -> option text).

(** A space, by what the code asks of it. *)
Record node := { n_id_bytes : list N; n_index_columns : list text }.

(** A cell that is no string is not an index code ([AttributeError] is caught, common.py 347-357);
    neither is the empty string. *)
Definition code_text (c : cell) : text := match c with CText t => t | _ => [] end.
(** The cells of a row.  Simplification: a row that is no sequence has no cells (iterating over it
    is a [TypeError]). *)
Definition row_cells (r : row) : res (list cell) := match r with RSeq l => Ok l | _ => Err TypeError end.
Definition code_position (sample_rows : list row) (id_bytes : list N) : res nat :=
  do rows <- traverse row_cells sample_rows;
  get_index_code_position todecimal (map (map code_text) rows) id_bytes.

(** Models mapper.py lines 48-59 [get_mapping_value_position].  A header cell that is no string is a
    [TypeError] of the regular expression. *)
Fixpoint value_position_from (i : nat) (columns : list cell) (link_name : text) : res nat :=
  match columns with
  | [] => Err ValueError
  | CText col :: columns' =>
    if text_eqb link_name col || match edge_name col with Some n => text_eqb link_name n | None => false end
    then Ok i else value_position_from (S i) columns' link_name
  | _ :: _ => Err TypeError
  end.
Definition get_mapping_value_position (columns : list cell) (link_name : text) : res nat :=
  value_position_from 0 columns link_name.

(** [with suppress(RuntimeError): pos = ...], only if [pos] is [None] (lines 92-98). *)
Definition find_pos (pos : option nat) (sample_rows : list row) (id_bytes : list N) : res (option nat) :=
  match pos with
  | Some p => Ok (Some p)
  | None =>
    match code_position sample_rows id_bytes with
    | Ok p => Ok (Some p)
    | Err RuntimeError => Ok None
    | Err e => Err e
    end
  end.

(** [list(islice(unscanned_rows, chunk_size))], where [unscanned_rows] is itself an [islice] with
    [budget] items left: the items, the items left, the data afterwards. *)
Definition next_chunk (budget : nat) (s : stream row) : res (list row * nat * stream row) :=
  do (l, s') <- islice (Nat.min 8 budget) s; Ok (l, budget - length l, s').

(** The loop of lines 91-104.  [fuel] bounds the number of chunks; 33 are enough for 256 rows. *)
Fixpoint scan_chunks (fuel : nat) (node1 node2 : node) (pos1 pos2 : option nat) (scanned sample : list row)
    (budget : nat) (data_iter : stream row) : res (option nat * option nat * list row * stream row) :=
  match sample with
  | [] => Ok (pos1, pos2, scanned, data_iter)
  | _ =>
    match fuel with
    | O => Err RecursionError
    | S fuel' =>
      do pos1 <- find_pos pos1 sample (n_id_bytes node1);
      do pos2 <- find_pos pos2 sample (n_id_bytes node2);
      let scanned := scanned ++ sample in
      match pos1, pos2 with
      | Some _, Some _ => Ok (pos1, pos2, scanned, data_iter)
      | _, _ =>
        do (sample, budget, data_iter) <- next_chunk budget data_iter;
        scan_chunks fuel' node1 node2 pos1 pos2 scanned sample budget data_iter
      end
    end
  end.

(** [columns[start:stop]] for [start <= stop <= len(columns)]. *)
Definition slice (start stop : nat) (columns : list cell) : list cell := firstn (stop - start) (skipn start columns).
Definition cells_eqb (a : list text) (b : list cell) : bool :=
  (length a =? length b) && forallb (fun '(x, y) => cell_eqb (CText x) y) (combine a b).

Record positions := {
  p_index1 : option nat; p_start1 : nat; p_stop1 : nat;
  p_index2 : option nat; p_start2 : nat; p_stop2 : nat;
  p_value : nat
}.
(** Lines 122-134. *)
Definition side_of (index_pos value_position n_columns : nat) : nat * nat :=
  if index_pos <? value_position then (0, value_position) else (value_position + 1, n_columns).
(** Lines 137-141, 152-156: the side opposite to a slice. *)
Definition other_side (start value_position n_columns : nat) : nat * nat :=
  if value_position <? start then (0, value_position) else (value_position + 1, n_columns).

(** Models command_mapping.py lines 58-207 [get_column_positions].  [is_list] tells whether [columns]
    is a list: a list of label columns never equals a slice of a tuple. *)
Definition get_column_positions (node1 node2 : node) (link_name : text) (data_iter : stream row)
    (is_list : bool) (columns : list cell) : res (positions * stream row) :=
  do value_position <-
    match get_mapping_value_position columns link_name with
    | Err ValueError => Err ToronError
    | r => r
    end;
  do (sample_rows, budget, data_iter) <- next_chunk 256 data_iter;
  do (index1, index2, scanned_rows, data_iter) <-
    scan_chunks 33 node1 node2 None None [] sample_rows budget data_iter;
  let n := length columns in
  let header_is (labels : list text) (sl : nat * nat) := is_list && cells_eqb labels (slice (fst sl) (snd sl) columns) in
  let result sl1 sl2 :=
    Ok ({| p_index1 := index1; p_start1 := fst sl1; p_stop1 := snd sl1;
           p_index2 := index2; p_start2 := fst sl2; p_stop2 := snd sl2; p_value := value_position |},
        chain scanned_rows data_iter) in
  match index1, index2 with
  | Some i1, Some i2 =>
    if (Nat.max i1 i2 <? value_position) || (value_position <? Nat.min i1 i2) then Err RuntimeError
    else result (side_of i1 value_position n) (side_of i2 value_position n)
  | Some i1, None =>
    let sl1 := side_of i1 value_position n in
    let other := other_side (fst sl1) value_position n in
    if header_is (n_index_columns node2) other then result sl1 other else Err ToronError
  | None, Some i2 =>
    let sl2 := side_of i2 value_position n in
    let other := other_side (fst sl2) value_position n in
    if header_is (n_index_columns node1) other then result other sl2 else Err ToronError
  | None, None =>
    if header_is (n_index_columns node1) (0, value_position) && header_is (n_index_columns node2) (value_position + 1, n)
    then result (0, value_position) (value_position + 1, n) else Err ToronError
  end.

(** [len(l) != len(set(l))]. *)
Fixpoint has_duplicates (l : list cell) : bool :=
  match l with [] => false | c :: l' => existsb (cell_eqb c) l' || has_duplicates l' end.
Fixpoint index_from (i : nat) (name : text) (header : list cell) : option nat :=
  match header with
  | [] => None
  | c :: header' => if cell_eqb (CText name) c then Some i else index_from (S i) name header'
  end.
(** [row[i]]. *)
Definition cell_at (l : list cell) (i : nat) : res cell :=
  match nth_error l i with Some c => Ok c | None => Err IndexError end.
(** Models command_mapping.py lines 210-259 [get_location_factory]; the result is the tuple [indexes]
    ([None] for -1). *)
Definition location_indexes (header_row : list cell) (label_columns : list text) (start stop : nat) : res (list (option nat)) :=
  let header_row := slice start stop header_row in
  if has_duplicates header_row then Err ValueError
  else Ok (map (fun name => index_from start name header_row) label_columns).
Definition get_location (indexes : list (option nat)) (l : list cell) : res (list cell) :=
  traverse (fun i => match i with Some i => cell_at l i | None => Ok (CText []) end) indexes.

(** Models command_mapping.py lines 279-291 [node_get_index_id]. *)
Definition get_index_id (nd : node) (index_code_pos : option nat) (l : list cell) : res (option Z) :=
  match index_code_pos with
  | None => Ok None
  | Some p =>
    do index_code <- cell_at l p;
    if negb (cell_true index_code) then Ok None
    else match index_code with
         | CText t =>
           match index_code_to_id todecimal t (n_id_bytes nd) with
           | Ok i => Ok (Some i)
           | Err ValueError => Err ToronError
           | Err e => Err e
           end
         | _ => Err AttributeError
         end
  end.
(** Lines 300-305 [node_get_level]. *)
Definition get_level (nd : node) (index_id : option Z) (location : list cell) : bitflags :=
  match index_id with
  | None => of_bits (map cell_true location)
  | Some _ => of_bits (repeat true (length (n_index_columns nd)))
  end.

(** One of the lists that are yielded. *)
Record mapping_row := {
  mr_id1 : option Z; mr_loc1 : list cell; mr_level1 : bitflags;
  mr_id2 : option Z; mr_loc2 : list cell; mr_level2 : bitflags;
  mr_value : cell
}.
(** Lines 341-358. *)
Definition mapping_row_of (node1 node2 : node) (p : positions) (indexes1 indexes2 : list (option nat)) (r : row) : res mapping_row :=
  do l <- row_cells r;
  do id1 <- get_index_id node1 (p_index1 p) l;
  do loc1 <- get_location indexes1 l;
  do id2 <- get_index_id node2 (p_index2 p) l;
  do loc2 <- get_location indexes2 l;
  do value <- cell_at l (p_value p);
  Ok {| mr_id1 := id1; mr_loc1 := loc1; mr_level1 := get_level node1 id1 loc1;
        mr_id2 := id2; mr_loc2 := loc2; mr_level2 := get_level node2 id2 loc2; mr_value := value |}.
(** Models command_mapping.py lines 310-358 [normalize_mapping_data], with its decorator.
    [is_list]: the given columns are a list, or the first row is one. *)
Definition normalize_mapping_data (node1 node2 : node) (link_name : text) (d : data) (is_list : bool)
    (columns : option (list cell)) : res (stream mapping_row) :=
  do (data, columns) <- normalize_tabular d columns;
  do (p, data_iter) <- get_column_positions node1 node2 link_name data is_list columns;
  do indexes1 <- location_indexes columns (n_index_columns node1) (p_start1 p) (p_stop1 p);
  do indexes2 <- location_indexes columns (n_index_columns node2) (p_start2 p) (p_stop2 p);
  eagerly_initialize (smap (mapping_row_of node1 node2 p indexes1 indexes2) data_iter).

Fixpoint set_nth {A} (i : nat) (x : A) (l : list A) {struct l} : option (list A) :=
  match l, i with
  | [], _ => None
  | _ :: l', O => Some (x :: l')
  | a :: l', S i' => match set_nth i' x l' with Some l'' => Some (a :: l'') | None => None end
  end.
Definition put (i : nat) (x : cell) (l : list cell) : res (list cell) :=
  match set_nth i x l with Some l' => Ok l' | None => Err IndexError end.
(** One data row of common.py lines 406-411. *)
Definition remap_row (id_bytes : list N) (position : nat) (r : row) : res row :=
  do l <- row_cells r;
  do index_code <- cell_at l position;
  if cell_true index_code then
    match index_code with
    | CText t =>
      do i <- index_code_to_id todecimal t id_bytes;
      do l' <- put position (COther i) l; Ok (RSeq l')
    | _ => Err AttributeError
    end
  else Ok (RSeq l).
(** Models common.py lines 390-411 [remap_index_codes_to_index_ids], a generator: its errors appear
    when it is read; the end of the data before the header is a [RuntimeError] there. *)
Definition remap_index_codes_to_index_ids (s : stream row) (id_bytes : list N) (position : nat) : stream row :=
  match s with
  | Stop => Boom RuntimeError
  | Boom e => Boom e
  | Item r iterator =>
    match row_cells r with
    | Err e => Boom e
    | Ok header =>
      match put position (CText (txt "index_id")) header with
      | Err e => Boom e
      | Ok header => Item (RSeq header) (smap (remap_row id_bytes position) iterator)
      end
    end
  end.

(** Models command_index.py lines 28-49, the part of [read_from_stdin] before [insert_index]: the
    iterator that is passed to it. *)
Definition read_index_stdin (nd : node) (reader : stream row) : res (stream row) :=
  do (sample_rows, reader) <- islice 10 reader;
  let iterator := chain sample_rows reader in
  match code_position sample_rows (n_id_bytes nd) with
  | Ok position => Ok (remap_index_codes_to_index_ids iterator (n_id_bytes nd) position)
  | Err RuntimeError =>
    match sample_rows with
    | [] => Err IndexError
    | r :: _ =>
      do header <- row_cells r;
      if existsb (cell_eqb (CText (txt "index_id"))) header then Err RuntimeError else Ok iterator
    end
  | Err e => Err e
  end.
End Codes.
