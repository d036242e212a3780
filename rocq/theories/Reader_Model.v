(** Model of readers: collecting records, output, translation and pivoting.
    Source: src/toron/reader.py.

    Simplifications:
    - the temporary SQLite database is a pair of lists in storage order; values are exact
      rationals, [None] is NULL;
    - an attribute dictionary is an association list with distinct keys, and its JSON text
      with sorted keys is represented by the list sorted by key;
    - groups of a GROUP BY or DISTINCT come in order of first occurrence (SQLite's order is
      that of the index ids and JSON texts; no property below depends on it);
    - reader output and pivot are computed at once instead of lazily. *)
From Verif Require Import Prelude Selectors_Model LinkRef_Model Db_Model Quantize_Model.

(** [a < b] for strings. *)
Fixpoint text_ltb (a b : text) : bool :=
  match a, b with
  | [], [] => false
  | [], _ :: _ => true
  | _ :: _, [] => false
  | x :: a', y :: b' => (x <? y)%N || ((x =? y)%N && text_ltb a' b')
  end.

Fixpoint insert_key {V} (p : text * V) (l : list (text * V)) : list (text * V) :=
  match l with
  | [] => [p]
  | q :: l' => if text_ltb (fst q) (fst p) then q :: insert_key p l' else p :: l
  end.
(** [dumps(attributes, sort_keys=True)]. *)
Fixpoint sort_keys {V} (l : list (text * V)) : list (text * V) :=
  match l with
  | [] => []
  | p :: l' => insert_key p (sort_keys l')
  end.

(** [d.get(k)]. *)
Fixpoint dict_get (k : text) (d : row) : option text :=
  match d with
  | [] => None
  | (k', v) :: d' => if text_eqb k k' then Some v else dict_get k d'
  end.

Fixpoint row_eqb (a b : row) : bool :=
  match a, b with
  | [], [] => true
  | (k, v) :: a', (k', v') :: b' => text_eqb k k' && text_eqb v v' && row_eqb a' b'
  | _, _ => false
  end.

(** Lines 98-110: tables [attr_data] and [quant_data]. *)
Record attr := { a_id : Z; a_attrs : row; a_link : option Z }.
Record quant := { q_index : Z; q_attr : Z; q_value : option Q }.
Record reader := { r_attrs : list attr; r_quants : list quant; r_keys : list text }.

(** Models lines 144-160 [_get_attr_data_id_add_if_missing]. *)
Definition get_attr_id (attrs : row) (l : list attr) : list attr * Z :=
  let a := sort_keys attrs in
  match find (fun x => row_eqb (a_attrs x) a) l with
  | Some x => (l, a_id x)
  | None => let i := (zmax (map a_id l) + 1)%Z in
            (l ++ [{| a_id := i; a_attrs := a; a_link := None |}], i)
  end.

(** One record of the input. *)
Record datum := { n_index : Z; n_attrs : row; n_value : option Q }.

(** The first occurrences of the elements of a list. *)
Fixpoint distinct {K} (eqb : K -> K -> bool) (l : list K) : list K :=
  match l with
  | [] => []
  | x :: l' => x :: filter (fun y => negb (eqb x y)) (distinct eqb l')
  end.

(** [sorted(set(keys))]. *)
Definition sorted_set (keys : list text) : list text :=
  map fst (sort_keys (map (fun k => (k, tt)) (distinct text_eqb keys))).

(** Models lines 112-141 [__init__]. *)
Fixpoint load_list (data : list datum) (attrs : list attr) (quants : list quant)
  : list attr * list quant :=
  match data with
  | [] => (attrs, quants)
  | d :: data' =>
      let '(attrs', i) := get_attr_id (n_attrs d) attrs in
      load_list data' attrs'
        (quants ++ [{| q_index := n_index d; q_attr := i; q_value := n_value d |}])
  end.
Definition load (data : list datum) : reader :=
  let '(attrs, quants) := load_list data [] [] in
  {| r_attrs := attrs; r_quants := quants;
     r_keys := sorted_set (flat_map (fun d => map fst (n_attrs d)) data) |}.

(** SUM: NULL values are skipped, the sum of nothing is NULL. *)
Fixpoint somes {A} (l : list (option A)) : list A :=
  match l with
  | [] => []
  | Some x :: l' => x :: somes l'
  | None :: l' => somes l'
  end.
Definition sql_sum (l : list (option Q)) : option Q :=
  match somes l with [] => None | s => Some (Qsum s) end.
(** AVG. *)
Definition sql_avg (l : list (option Q)) : option Q :=
  match somes l with
  | [] => None
  | s => Some (Qsum s / inject_Z (Z.of_nat (length s)))%Q
  end.

(** SELECT key, f(value) ... GROUP BY key. *)
Definition group_by {K} (eqb : K -> K -> bool) (f : list (option Q) -> option Q)
  (rows : list (K * option Q)) : list (K * option Q) :=
  map (fun k => (k, f (map snd (filter (fun r => eqb (fst r) k) rows))))
      (distinct eqb (map fst rows)).

(** [quant_data JOIN attr_data USING (attr_data_id)]. *)
Definition joined (r : reader) : list (quant * attr) :=
  flat_map (fun q => map (fun a => (q, a)) (filter (fun a => (a_id a =? q_attr q)%Z) (r_attrs r)))
           (r_quants r).

Definition key_eqb (a b : Z * row) : bool := (fst a =? fst b)%Z && row_eqb (snd a) (snd b).

(** Lines 254-259: the groups of the output query. *)
Definition output_groups (r : reader) : list ((Z * row) * option Q) :=
  group_by key_eqb sql_sum
    (map (fun qa => ((q_index (fst qa), a_attrs (snd qa)), q_value (fst qa))) (joined r)).

(** One record of the output: labels, attribute values in the order of the keys, value. *)
Record out_row := { o_labels : list text; o_attrs : list (option text); o_value : option Q }.

(** Models lines 247-265 [_generate_reader_output]. *)
Definition output (s : db) (r : reader) : res (list out_row) :=
  traverse (fun g =>
    do rec <- index_get (fst (fst g)) s;
    Ok {| o_labels := ix_labels rec;
          o_attrs := map (fun k => dict_get k (snd (fst g))) (r_keys r);
          o_value := snd g |}) (output_groups r).

(** *** Translation *)

(** Lines 295-302: the link for every attribute dictionary. *)
Definition assign_links (upper : text -> text) (fn : list (Z * option (list selector)) * Z)
  (l : list attr) : res (list attr) :=
  traverse (fun a => do k <- get_link_id upper fn (a_attrs a);
                     Ok {| a_id := a_id a; a_attrs := a_attrs a; a_link := Some k |}) l.

(** Lines 335-336: [quant_value * rel.proportion] for every mapping.  The product with None
    is a TypeError. *)
Definition shares (v : option Q) (ms : list mapping) : res (list (Z * Q)) :=
  traverse (fun m => match v, m_prop m with
                     | Some x, Some p => Ok (m_index m, x * p)%Q
                     | _, _ => Err TypeError
                     end) ms.

(** Lines 338-339. *)
Definition quantized (v : option Q) (items : list (Z * Q)) : res (list (Z * Q)) :=
  match v with
  | None => Err TypeError
  | Some x =>
      match quantize_values (map (fun p => (Z.to_N (fst p), snd p)) items) x with
      | (out, None) => Ok (map (fun p => (Z.of_N (fst p), snd p)) out)
      | (_, Some e) => Err e
      end
  end.

(** Lines 320-344: one record of the quantity table. *)
Definition translate_quant (quantize : bool) (target : db) (qa : quant * attr) : res (list quant) :=
  let q := fst qa in
  if (q_index q =? 0)%Z
  then Ok [{| q_index := 0; q_attr := q_attr q; q_value := q_value q |}]
  else
    let ms := match a_link (snd qa) with
              | Some l => filter (fun m => (m_link m =? l)%Z && (m_other m =? q_index q)%Z) (d_maps target)
              | None => []
              end in
    do items <- shares (q_value q) ms;
    do items <- if quantize then quantized (q_value q) items else Ok items;
    Ok (map (fun p => {| q_index := fst p; q_attr := q_attr q; q_value := Some (snd p) |}) items).

(** Models lines 267-354 [translate]: [uid] and [hash] are the id and the index hash of the
    reader's own space.  An exception rolls the tables back, so it leaves the reader as it
    was. *)
Definition translate (upper : text -> text) (quantize : bool) (uid : text) (hash : list Z)
  (target : db) (r : reader) : res reader :=
  do fn <- make_get_link_id uid (d_links target) hash;
  do attrs <- assign_links upper fn (r_attrs r);
  let r1 := {| r_attrs := attrs; r_quants := r_quants r; r_keys := r_keys r |} in
  do quants <- traverse (translate_quant quantize target) (joined r1);
  Ok {| r_attrs := attrs; r_quants := concat quants; r_keys := r_keys r |}.

(** *** Pivoting *)

(** Models lines 363-389 [format_column]: a tuple or a single string. *)
Inductive column_label := Single (t : text) | Tuple (l : list text).
Fixpoint drop_empty (l : list text) : list text :=
  match l with
  | [] :: l' => drop_empty l'
  | _ => l
  end.
Definition format_column (parts : list text) : column_label :=
  match rev (drop_empty (rev parts)) with
  | [p] => Single p
  | ps => Tuple ps
  end.

Inductive aggregate := AggSum | AggMean.

Fixpoint texts_eqb (a b : list text) : bool :=
  match a, b with
  | [], [] => true
  | x :: a', y :: b' => text_eqb x y && texts_eqb a' b'
  | _, _ => false
  end.

(** Lines 421-436: table [pivot_temp]. *)
Definition pivot_table (columns : list text) (r : reader) : list (Z * list text) :=
  flat_map (fun a =>
    let attrs := map (fun c => match dict_get c (a_attrs a) with Some v => v | None => [] end) columns in
    if existsb (fun v => negb (is_empty v)) attrs then [(a_id a, attrs)] else []) (r_attrs r).

Definition zz_eqb (a b : Z * Z) : bool := (fst a =? fst b)%Z && (snd a =? snd b)%Z.
Definition pkey_eqb (a b : Z * list text) : bool := (fst a =? fst b)%Z && texts_eqb (snd a) (snd b).

(** Lines 450-463: the aggregated values. *)
Definition pivot_groups (agg : aggregate) (columns : list text) (r : reader)
  : list ((Z * list text) * option Q) :=
  let summed := group_by zz_eqb sql_sum
                  (map (fun q => ((q_index q, q_attr q), q_value q)) (r_quants r)) in
  let pt := pivot_table columns r in
  group_by pkey_eqb (match agg with AggSum => sql_sum | AggMean => sql_avg end)
    (flat_map (fun g => map (fun p => ((fst (fst g), snd p), snd g))
                            (filter (fun p => (fst p =? snd (fst g))%Z) pt)) summed).

Record pivoted := { p_columns : list column_label; p_rows : list (list text * list (option Q)) }.

(** ORDER BY index_id. *)
Fixpoint insert_by {V} (x : (Z * list text) * V) (l : list ((Z * list text) * V)) :=
  match l with
  | [] => [x]
  | y :: l' => if (fst (fst y) <? fst (fst x))%Z then y :: insert_by x l' else x :: l
  end.
Fixpoint order_by {V} (l : list ((Z * list text) * V)) :=
  match l with
  | [] => []
  | x :: l' => insert_by x (order_by l')
  end.

(** [groupby(rows, key=lambda row: row[0])]: groups of adjacent rows. *)
Fixpoint groupby {V} (l : list ((Z * list text) * V)) : list (Z * list (list text * V)) :=
  match l with
  | [] => []
  | x :: l' =>
      match groupby l' with
      | (i, g) :: rest =>
          if (i =? fst (fst x))%Z then (i, (snd (fst x), snd x) :: g) :: rest
          else (fst (fst x), [(snd (fst x), snd x)]) :: (i, g) :: rest
      | [] => [(fst (fst x), [(snd (fst x), snd x)])]
      end
  end.

(** [row_dict.get(col)] of the dictionary made of a group: the last value of a key counts. *)
Definition pivot_cell (g : list (list text * option Q)) (col : list text) : option Q :=
  match find (fun p => texts_eqb (fst p) col) (rev g) with
  | Some p => snd p
  | None => None
  end.

(** Models lines 398-479 [pivot_reader]. *)
Definition pivot (agg : aggregate) (columns : list text) (s : db) (r : reader) : res pivoted :=
  let cols := distinct texts_eqb (map snd (pivot_table columns r)) in
  do rows <- traverse (fun g =>
      do rec <- index_get (fst g) s;
      Ok (ix_labels rec, map (pivot_cell (snd g)) cols))
    (groupby (order_by (pivot_groups agg columns r)));
  Ok {| p_columns := map format_column cols; p_rows := rows |}.
