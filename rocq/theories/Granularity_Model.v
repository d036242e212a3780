(** Model of the two computations of the granularity of a partition.

    Sources: src/toron/data_service.py lines 713-781, src/toron/dal1/optimizations.py lines
    18-108, src/toron/dal1/repositories.py lines 130-192.

    Simplifications that hold for the whole file:
    - floating point numbers are real numbers, so that rounding is left out;
    - a column that is not a label column is an error (callers pass label columns only;
      SQLite would read the quoted name as a string);
    - label columns have different names even if case is ignored. *)
From Verif Require Import Prelude Selectors_Model LinkRef_Model Db_Model.
From Coq Require Import Reals.

(** [math.log2] and SQLite's LOG2 (schema.py lines 681-706). *)
Definition log2 (x : R) : R := (ln x / ln 2)%R.

(** The label of a record in a column. *)
Fixpoint label_at (cols labels : list text) (c : text) : option text :=
  match cols, labels with
  | k :: cols', v :: labels' => if text_eqb c k then Some v else label_at cols' labels' c
  | _, _ => None
  end.
(** The labels of a record in the columns selected. *)
Definition key (s : db) (cols : list text) (r : ixrec) : list (option text) :=
  map (label_at (d_labels s) (ix_labels r)) cols.
Fixpoint key_eqb (a b : list (option text)) : bool :=
  match a, b with
  | [], [] => true
  | Some x :: a', Some y :: b' => text_eqb x y && key_eqb a' b'
  | None :: a', None :: b' => key_eqb a' b'
  | _, _ => false
  end.

(** Models repositories.py lines 185-192 [get_cardinality] without the undefined record. *)
Definition cardinality (s : db) : nat := length (filter (fun r => negb (ix_id r =? 0)%Z) (d_index s)).

(** Models repositories.py lines 130-140 [find_distinct_labels] without the undefined record:
    SELECT DISTINCT. *)
Fixpoint distinct (seen l : list (list (option text))) : list (list (option text)) :=
  match l with
  | [] => []
  | k :: l' => if existsb (key_eqb k) seen then distinct seen l' else k :: distinct (k :: seen) l'
  end.
Definition find_distinct_labels (cols : list text) (s : db) : list (list (option text)) :=
  distinct [] (map (key s cols) (filter (fun r => negb (ix_id r =? 0)%Z) (d_index s))).

(** Models repositories.py lines 163-183 [filter_index_ids_by_label] without the undefined
    record; the criteria are the columns zipped with the labels. *)
Definition filter_index_ids_by_label (criteria : list (text * option text)) (s : db) : list Z :=
  map ix_id (filter (fun r =>
    forallb (fun c => key_eqb [label_at (d_labels s) (ix_labels r) (fst c)] [snd c]) criteria &&
    negb (ix_id r =? 0)%Z) (d_index s)).

(** Models data_service.py lines 713-781 [calculate_granularity]. *)
Definition calculate_granularity (cols : list text) (s : db) : res (option R) :=
  match cols with
  | [] => Ok None
  | _ =>
      let total := cardinality s in
      if (total =? 0)%nat then Ok None
      else if negb (forallb (fun c => existsb (text_eqb c) (d_labels s)) cols)
      then Err SqlOperationalError
      else
        let coarseness := fold_left (fun acc labels =>
              let block := length (filter_index_ids_by_label (combine cols labels) s) in
              acc + (INR block / INR total) * log2 (INR block))%R
            (find_distinct_labels cols s) 0%R in
        Ok (Some (log2 (INR total) - coarseness)%R)
  end.

(** GROUP BY with COUNT. *)
Fixpoint count_group (k : list (option text)) (l : list (list (option text) * nat)) :=
  match l with
  | [] => [(k, 1%nat)]
  | (k', n) :: l' => if key_eqb k k' then (k', S n) :: l' else (k', n) :: count_group k l'
  end.
Definition group_counts (l : list (list (option text))) : list (list (option text) * nat) :=
  fold_left (fun acc k => count_group k acc) l [].
(** SUM, which is NULL where there are no rows. *)
Definition sql_sum (l : list R) : option R :=
  match l with [] => None | _ => Some (fold_left Rplus l 0%R) end.

(** Models optimizations.py lines 18-108 [calculate_granularity]. *)
Definition optimized_granularity (cols : list text) (s : db) : res (option R) :=
  match cols with
  | [] => Ok None
  | _ =>
      let total := cardinality s in
      if (total =? 0)%nat then Ok None
      else if negb (forallb (fun c => existsb (text_eqb c) (d_labels s)) cols)
      then Err SqlOperationalError
      else
        let block := map snd (group_counts (map (key s cols)
                       (filter (fun r => (0 <? ix_id r)%Z) (d_index s)))) in
        Ok (match sql_sum (map (fun n => (INR n / INR total) * log2 (INR n))%R block) with
            | None => None
            | Some coarseness => Some (log2 (INR total) - coarseness)%R
            end)
  end.

(** [itertools.compress]. *)
Fixpoint compress (cols : list text) (bits : list bool) : list text :=
  match cols, bits with
  | c :: cols', b :: bits' => if b then c :: compress cols' bits' else compress cols' bits'
  | _, _ => []
  end.
(** Models data_service.py lines 927-946 [refresh_structure_granularity]: the granularity stored
    with a row of the structure table (lines 941-944).  Line 935 tests a dictionary with
    [hasattr], so that the plain computation is used always. *)
Definition structure_granularity (bits : list bool) (s : db) : res (option R) :=
  calculate_granularity (compress (d_labels s) bits) s.
