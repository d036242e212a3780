(** Model of the SQL text that is built from names of label columns, and of how SQLite reads it.
    Sources: src/toron/dal1/schema.py lines 252-287 [format_identifier], [column_def_label_index],
    [column_def_location], [column_def_structure], 304-321 (indexes); src/toron/dal1/label_manager.py
    lines 26-43, 65-80, 98-108 (columns added, renamed, removed), 168-206 and 276-318 (tables made anew);
    src/toron/dal1/repositories.py lines 129-184, 255-276, 311-329, 744-789 (queries);
    src/toron/dal1/optimizations.py lines 91-113 (granularity).

    Texts are lists of code points.  SQLite reads UTF-8; every byte of a character above 127 belongs to
    names, so reading code points is the same. *)
From Verif Require Import Prelude Selectors_Model MapCli_Model QuantCli_Model.
Local Open Scope N_scope.

(** *** Building the text *)

Definition is_surrogate (c : N) : bool := (55296 <=? c) && (c <=? 57343).
Definition double_quotes (t : text) : text := flat_map (fun c => if c =? 34 then [34; 34] else [c]) t.
(** Models schema.py lines 252-269 [format_identifier]; UnicodeEncodeError is a ValueError. *)
Definition format_identifier (value : text) : res text :=
  if existsb is_surrogate value then Err ValueError
  else if existsb (N.eqb 0) value then Err ValueError
  else Ok (34 :: double_quotes value ++ [34]).

(** [sep.join(parts)] *)
Fixpoint join_text (sep : text) (parts : list text) : text :=
  match parts with
  | [] => []
  | [p] => p
  | p :: parts' => p ++ sep ++ join_text sep parts'
  end.
Definition comma : text := txt ", ".
Definition and_ : text := txt " AND ".
(** [', '.join('?' * n)] *)
Definition qmarks (n : nat) : text := join_text comma (repeat (txt "?") n).
Definition format_all (names : list text) : res (list text) := traverse format_identifier names.

(** Models schema.py lines 272-275, 278-281, 284-287. *)
Definition column_def_label_index (column : text) : res text :=
  do c <- format_identifier column;
  Ok (c ++ txt " TEXT NOT NULL CHECK (" ++ c ++ txt " != '') DEFAULT '-'").
Definition column_def_location (column : text) : res text :=
  do c <- format_identifier column; Ok (c ++ txt " TEXT NOT NULL DEFAULT ''").
Definition column_def_structure (column : text) : res text :=
  do c <- format_identifier column;
  Ok (c ++ txt " INTEGER NOT NULL CHECK (" ++ c ++ txt " IN (0, 1)) DEFAULT 0").

(** Models label_manager.py lines 32-43: the statements for one column. *)
Definition add_sql (column : text) : res (list text) :=
  do a <- column_def_label_index column;
  do b <- column_def_location column;
  do c <- column_def_structure column;
  Ok [txt "
                ALTER TABLE main.label_index ADD COLUMN
                    " ++ a ++ txt "
            ";
      txt "
                ALTER TABLE main.label_location ADD COLUMN
                    " ++ b ++ txt "
            ";
      txt "
                ALTER TABLE main.label_structure ADD COLUMN
                    " ++ c ++ txt "
            "].
(** Models label_manager.py lines 66-80. *)
Definition rename_sql (name new_name : text) : res (list text) :=
  do name <- format_identifier name;
  do new_name <- format_identifier new_name;
  Ok (map (fun t => txt "
                ALTER TABLE main." ++ t ++ txt "
                    RENAME COLUMN " ++ name ++ txt " TO " ++ new_name ++ txt "
            ") [txt "label_index"; txt "label_location"; txt "label_structure"]).
(** Models label_manager.py lines 100-108. *)
Definition drop_sql (column : text) : res (list text) :=
  do column <- format_identifier column;
  Ok (map (fun t => txt "ALTER TABLE main." ++ t ++ txt " DROP COLUMN " ++ column)
          [txt "label_index"; txt "label_location"; txt "label_structure"]).
(** Models schema.py lines 309-321. *)
Definition index_sql (columns : list text) : res (list text) :=
  do cs <- format_all columns;
  let columns := join_text comma cs in
  Ok (map (fun p => txt "
            CREATE UNIQUE INDEX IF NOT EXISTS
                main." ++ fst p ++ txt " ON " ++ snd p ++ txt "(" ++ columns ++ txt ")
        ") [(txt "unique_index_label_columns", txt "label_index");
            (txt "unique_location_label_columns", txt "label_location");
            (txt "unique_structure_label_columns", txt "label_structure")]).
(** Models label_manager.py lines 168-173, 181-186, 194-200 (the first with its comment). *)
Definition create_sql (columns : list text) : res (list text) :=
  do a <- traverse column_def_label_index columns;
  do b <- traverse column_def_location columns;
  do c <- traverse column_def_structure columns;
  Ok [txt "
                CREATE TABLE main.new_label_index(
                    index_id INTEGER PRIMARY KEY AUTOINCREMENT,  /* <- Must not reuse id values. */
                    " ++ join_text comma a ++ txt "
                )
            ";
      txt "
                CREATE TABLE main.new_location(
                    _location_id INTEGER PRIMARY KEY,
                    " ++ join_text comma b ++ txt "
                )
            ";
      txt "
                CREATE TABLE main.new_structure(
                    _structure_id INTEGER PRIMARY KEY,
                    _granularity REAL,
                    " ++ join_text comma c ++ txt "
                )
            "].
(** Models label_manager.py lines 282-286, 297-301, 313-317. *)
Definition copy_sql (columns : list text) : res (list text) :=
  do cs <- format_all columns;
  let kept := join_text comma cs in
  Ok [txt "
                INSERT INTO main.new_label_index
                SELECT index_id, " ++ kept ++ txt "
                FROM main.label_index
            ";
      txt "
                INSERT INTO main.new_location
                SELECT _location_id, " ++ kept ++ txt "
                FROM main.label_location
            ";
      txt "
                INSERT INTO main.new_structure
                SELECT _structure_id, _granularity, " ++ kept ++ txt "
                FROM main.label_structure
            "].

(** Models repositories.py lines 129-140 [find_distinct_labels]. *)
Definition distinct_sql (columns : list text) (include_undefined : bool) : res text :=
  do cs <- format_all columns;
  Ok (txt "SELECT DISTINCT " ++ join_text comma cs ++ txt " FROM main.label_index" ++
      if include_undefined then [] else txt " WHERE index_id != 0").
(** Models repositories.py lines 152-158 and 174-180 [filter_by_label], [filter_index_ids_by_label]. *)
Definition filter_sql (what : text) (keys : list text) (include_undefined : bool) : res text :=
  do cs <- format_all keys;
  let predicates := map (fun c => c ++ txt "=?") cs ++ (if include_undefined then [] else [txt "index_id != 0"]) in
  let sql := txt "SELECT " ++ what ++ txt " FROM main.label_index" in
  Ok (match predicates with [] => sql | _ => sql ++ txt " WHERE " ++ join_text and_ predicates end).
(** Models repositories.py lines 260-265 [LocationRepository.find_by_label]. *)
Definition location_sql (keys : list text) : res text :=
  match keys with
  | [] => Err ValueError
  | _ => do cs <- format_all keys;
         Ok (txt "SELECT * FROM main.label_location WHERE " ++ join_text and_ (map (fun c => c ++ txt "=?") cs))
  end.
(** [zip(names, bits)] *)
Definition zip_bits (names : list text) (bits : list bool) : list (text * bool) := combine names bits.
(** Models repositories.py lines 270-275 [LocationRepository.find_by_structure]. *)
Definition location_structure_sql (names : list text) (bits : list bool) : res text :=
  do conditions <- traverse (fun p : text * bool => do c <- format_identifier (fst p);
                       Ok (c ++ txt " " ++ (if snd p then txt "!=" else txt "=") ++ txt " ''")) (zip_bits names bits);
  Ok (txt "SELECT * FROM main.label_location WHERE " ++ join_text and_ conditions).
(** Models repositories.py lines 313-324 [StructureRepository.update]. *)
Definition structure_update_sql (columns : list text) (bits : nat) : res text :=
  do cs <- format_all columns;
  Ok (txt "
            UPDATE main.label_structure
            SET (_granularity, " ++ join_text comma cs ++ txt ") = (?, " ++ qmarks bits ++ txt ")
            WHERE _structure_id=?
        ").
(** Models repositories.py lines 764-790 [QuantityRepository.find_by_structure]. *)
Definition quantity_structure_sql (names : list text) (bits : list bool) (filter_size : option nat) : res text :=
  do parts <- traverse (fun p : text * bool => do c <- format_identifier (fst p);
                Ok (txt "b." ++ c ++ (if snd p then txt "!=" else txt "=") ++ txt "''")) (zip_bits names bits);
  let parts := parts ++ match filter_size with
                        | Some n => [txt "a.attribute_group_id IN (" ++ qmarks n ++ txt ")"]
                        | None => [] end in
  Ok (txt "
            SELECT
                a.quantity_id,
                a._location_id,
                a.attribute_group_id,
                a.quantity_value
            FROM main.quantity a
            JOIN main.label_location b USING (_location_id)
            WHERE " ++ join_text and_ parts ++ txt "
            ORDER BY a._location_id
        ").
(** Models optimizations.py lines 91-113 [calculate_granularity] with columns. *)
Definition granularity_sql (columns : list text) : res text :=
  do cs <- format_all columns;
  Ok (txt "
        WITH
            block (cardinality) AS (
                SELECT CAST(COUNT(*) AS REAL)
                FROM main.label_index
                WHERE index_id > 0" ++ txt "
                GROUP BY " ++ join_text comma cs ++ txt "
            ),
            summand (partition_coarseness) AS (
                SELECT SUM((block.cardinality / :total_cardinality)
                           * LOG2(block.cardinality))
                FROM block
            )
        SELECT LOG2(:total_cardinality) - partition_coarseness
        FROM summand
    ").

(** *** Reading the text: SQLite's tokenizer *)

(** A quoted name remembers its quote: 34 for double quotes, 96 for grave accents, 91 for brackets. *)
Inductive token :=
| TWord (t : text) | TNum (t : text) | TStr (t : text) | TName (quote : N) (t : text)
| TVar (t : text) | TBlob (t : text) | TOp (t : text) | TBad.

(** The states of the tokenizer; texts are collected in order.  Numbers are read without checking their
    form (sqlite3GetToken, CC_DIGIT). *)
Inductive lstate :=
| Between
| InWord (t : text)
| InNum (t : text)
| InQuote (q : N) (t : text) | AfterQuote (q : N) (t : text)
| InBracket (t : text)
| InBlob (t : text)
| InVar (t : text)
| Pending (c : N) | PendingPtr
| InLine | InBlock | InBlockStar.

Definition is_space (c : N) : bool := (c =? 9) || (c =? 10) || (c =? 12) || (c =? 13) || (c =? 32) || (c =? 65279).
Definition is_alpha (c : N) : bool := ((65 <=? c) && (c <=? 90)) || ((97 <=? c) && (c <=? 122)).
Definition is_dig (c : N) : bool := (48 <=? c) && (c <=? 57).
Definition id_char (c : N) : bool := is_alpha c || is_dig c || (c =? 95) || (c =? 36) || (128 <=? c).
Definition word_start (c : N) : bool := is_alpha c || (c =? 95) || (128 <=? c).
(** Characters that are operators of their own: ( ) ; + * % , & ~ . *)
Definition single_op (c : N) : bool := existsb (N.eqb c) (txt "();+*%,&~.").
(** Characters that may begin an operator of two characters. *)
Definition double_op (c : N) : bool := existsb (N.eqb c) (txt "=<>!|-/").
Definition start (c : N) : list token * lstate :=
  if is_space c then ([], Between)
  else if word_start c then ([], InWord [c])
  else if is_dig c then ([], InNum [c])
  else if (c =? 39) || (c =? 34) || (c =? 96) then ([], InQuote c [])
  else if c =? 91 then ([], InBracket [])
  else if (c =? 63) || (c =? 58) || (c =? 64) || (c =? 35) || (c =? 36) then ([], InVar [c])
  else if single_op c then ([TOp [c]], Between)
  else if double_op c then ([], Pending c)
  else ([TBad], Between).
Definition quoted (q : N) (t : text) : token := if q =? 39 then TStr t else TName q t.
Definition before (l : list token) (p : list token * lstate) : list token * lstate := (l ++ fst p, snd p).
Definition lone (c : N) : token := if c =? 33 then TBad else TOp [c].
Definition step (s : lstate) (c : N) : list token * lstate :=
  match s with
  | Between => start c
  | InWord t => if id_char c then ([], InWord (t ++ [c]))
                else if (c =? 39) && (text_eqb t (txt "x") || text_eqb t (txt "X")) then ([], InBlob [])
                else before [TWord t] (start c)
  | InNum t => if id_char c || (c =? 46) then ([], InNum (t ++ [c])) else before [TNum t] (start c)
  | InQuote q t => if c =? q then ([], AfterQuote q t) else ([], InQuote q (t ++ [c]))
  | AfterQuote q t => if c =? q then ([], InQuote q (t ++ [c])) else before [quoted q t] (start c)
  | InBracket t => if c =? 93 then ([TName 91 t], Between) else ([], InBracket (t ++ [c]))
  | InBlob t => if c =? 39 then ([TBlob t], Between) else ([], InBlob (t ++ [c]))
  | InVar t => if id_char c then ([], InVar (t ++ [c])) else before [TVar t] (start c)
  | Pending d =>
      if (d =? 45) && (c =? 45) then ([], InLine)
      else if (d =? 45) && (c =? 62) then ([], PendingPtr)
      else if (d =? 47) && (c =? 42) then ([], InBlock)
      else if ((d =? 61) && (c =? 61)) || ((d =? 60) && ((c =? 61) || (c =? 62) || (c =? 60)))
              || ((d =? 62) && ((c =? 61) || (c =? 62))) || ((d =? 33) && (c =? 61)) || ((d =? 124) && (c =? 124))
      then ([TOp [d; c]], Between)
      else before [lone d] (start c)
  | PendingPtr => if c =? 62 then ([TOp (txt "->>")], Between) else before [TOp (txt "->")] (start c)
  | InLine => if c =? 10 then ([], Between) else ([], InLine)
  | InBlock => if c =? 42 then ([], InBlockStar) else ([], InBlock)
  | InBlockStar => if c =? 47 then ([], Between) else if c =? 42 then ([], InBlockStar) else ([], InBlock)
  end.
Fixpoint run (s : lstate) (t : text) : list token * lstate :=
  match t with [] => ([], s) | c :: t' => before (fst (step s c)) (run (snd (step s c)) t') end.
(** What is left at the end of the text; an open quote is an error, an open comment is none. *)
Definition finish (s : lstate) : list token :=
  match s with
  | Between | InLine | InBlock | InBlockStar => []
  | InWord t => [TWord t]
  | InNum t => [TNum t]
  | AfterQuote q t => [quoted q t]
  | InQuote _ _ | InBracket _ | InBlob _ => [TBad]
  | InVar t => [TVar t]
  | Pending c => [lone c]
  | PendingPtr => [TOp (txt "->")]
  end.
Definition tokens (t : text) : list token := fst (run Between t) ++ finish (snd (run Between t)).

(** *** Executing the queries *)

(** A condition of a query: a name compared with a parameter, with a string, or with a number. *)
Inductive operand := OParam | OText (t : text) | ONum (t : text).
Record condition := { k_column : token; k_equal : bool; k_with : operand }.
Definition operand_of (t : token) : option operand :=
  match t with
  | TVar v => if text_eqb v (txt "?") then Some OParam else None
  | TStr s => Some (OText s)
  | TNum n => Some (ONum n)
  | _ => None
  end.
Definition parse_condition (l : list token) : option (condition * list token) :=
  match l with
  | c :: TOp o :: v :: rest =>
      match c, operand_of v with
      | TName _ _, Some x | TWord _, Some x =>
          if text_eqb o (txt "=") then Some ({| k_column := c; k_equal := true; k_with := x |}, rest)
          else if text_eqb o (txt "!=") then Some ({| k_column := c; k_equal := false; k_with := x |}, rest)
          else None
      | _, _ => None
      end
  | _ => None
  end.
(** Conditions joined by AND, up to the end of the statement. *)
Fixpoint parse_conditions (fuel : nat) (l : list token) : option (list condition) :=
  match fuel, parse_condition l with
  | S fuel', Some (c, []) => Some [c]
  | S fuel', Some (c, TWord w :: rest) =>
      if text_eqb w (txt "AND") then option_map (cons c) (parse_conditions fuel' rest) else None
  | _, _ => None
  end.
(** The queries that are understood here: SELECT, one column or a star, FROM main.table, and maybe WHERE. *)
Record query := { y_what : token; y_table : text; y_where : list condition }.
Definition parse_query (l : list token) : option query :=
  match l with
  | TWord a :: w :: TWord b :: TWord m :: TOp d :: TWord tb :: rest =>
      if text_eqb a (txt "SELECT") && text_eqb b (txt "FROM") && text_eqb m (txt "main") && text_eqb d (txt ".")
      then match rest with
           | [] => Some {| y_what := w; y_table := tb; y_where := [] |}
           | TWord k :: rest' =>
               if text_eqb k (txt "WHERE")
               then option_map (fun c => {| y_what := w; y_table := tb; y_where := c |}) (parse_conditions (length rest') rest')
               else None
           | _ => None
           end
      else None
  | _ => None
  end.

(** A row of a table with an integer key and label columns. *)
Definition lrow : Type := Z * list text.
Record ltable := { l_key : text; l_names : list text; l_rows : list lrow }.
Definition lower_char (c : N) : N := if (65 <=? c) && (c <=? 90) then c + 32 else c.
Definition same_name (a b : text) : bool := text_eqb (map lower_char a) (map lower_char b).
(** What a name means in a query: the key, a label column, or (double quotes only) a string. *)
Inductive meaning := MKey | MLabel (i : nat) | MText (t : text).
Fixpoint position (t : text) (l : list text) (n : nat) : option nat :=
  match l with [] => None | x :: l' => if same_name t x then Some n else position t l' (S n) end.
Definition resolve (tab : ltable) (tk : token) : option meaning :=
  match tk with
  | TWord t | TName _ t =>
      if same_name t (l_key tab) then Some MKey
      else match position t (l_names tab) 0 with
      | Some i => Some (MLabel i)
      | None => if existsb (same_name t) [txt "rowid"; txt "oid"; txt "_rowid_"] then Some MKey
                else match tk with TName 34 _ => Some (MText t) | _ => None end
      end
  | _ => None
  end.
(** Comparisons: labels and strings as texts, the key as a number; text that is no number differs from
    every key. *)
Definition text_value (params : list text) (o : operand) : text * list text :=
  match o with
  | OParam => (hd [] params, tl params)
  | OText t => (t, params)
  | ONum t => (t, params)
  end.
Definition holds (row : lrow) (m : meaning) (v : text) : bool :=
  match m with
  | MKey => match number v with Some q => Qeq_bool q (inject_Z (fst row)) | None => false end
  | MLabel i => text_eqb (nth i (snd row) []) v
  | MText t => text_eqb t v
  end.
Fixpoint row_matches (tab : ltable) (conditions : list condition) (params : list text) (row : lrow) : res bool :=
  match conditions with
  | [] => Ok true
  | c :: rest =>
      match resolve tab (k_column c) with
      | None => Err SqlOperationalError
      | Some m =>
          let '(v, params') := text_value params (k_with c) in
          do b <- row_matches tab rest params' row;
          Ok (Bool.eqb (holds row m v) (k_equal c) && b)
      end
  end.
Definition count_params (conditions : list condition) : nat :=
  length (filter (fun c => match k_with c with OParam => true | _ => false end) conditions).
(** A statement is prepared before any row is read, so unknown names are errors also for empty tables. *)
Definition execute (tab : ltable) (name : text) (sql : text) (params : list text) : res (list lrow) :=
  match parse_query (tokens sql) with
  | None => Err SqlOperationalError
  | Some y =>
      if negb (text_eqb (y_table y) name) then Err SqlOperationalError
      else if negb (count_params (y_where y) =? length params)%nat then Err SqlOperationalError
      else
        do _ <- row_matches tab (y_where y) params (0%Z, []);
        do marks <- traverse (fun r => do b <- row_matches tab (y_where y) params r; Ok (r, b)) (l_rows tab);
        Ok (map fst (filter snd marks))
  end.

(** Models repositories.py lines 142-163 [filter_by_label]: the records that match the criteria. *)
Definition filter_by_label (tab : ltable) (criteria : list (text * text)) (include_undefined : bool) : res (list lrow) :=
  do sql <- filter_sql (txt "*") (map fst criteria) include_undefined;
  execute tab (txt "label_index") sql (map snd criteria).
(** Models repositories.py lines 165-184 [filter_index_ids_by_label]. *)
Definition filter_index_ids_by_label (tab : ltable) (criteria : list (text * text)) (include_undefined : bool) : res (list Z) :=
  do sql <- filter_sql (txt "index_id") (map fst criteria) include_undefined;
  do rows <- execute tab (txt "label_index") sql (map snd criteria);
  Ok (map fst rows).
(** Models repositories.py lines 255-267. *)
Definition find_by_label (tab : ltable) (criteria : list (text * text)) : res (list lrow) :=
  do sql <- location_sql (map fst criteria);
  execute tab (txt "label_location") sql (map snd criteria).
(** Models repositories.py lines 269-276. *)
Definition find_by_structure (tab : ltable) (bits : list bool) : res (list lrow) :=
  do sql <- location_structure_sql (l_names tab) bits;
  execute tab (txt "label_location") sql [].
(** Models src/toron/space.py lines 875-888 [select_index] after the header: id and labels. *)
Definition select_index (tab : ltable) (criteria : list (text * text)) : res (list lrow) := filter_by_label tab criteria true.
