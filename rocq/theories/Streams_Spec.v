(** Specification for C47, in terms of the rows that a reader of an iterator sees. *)
From Coq Require Import NArith.
From Verif Require Import Prelude Selectors_Model BitFlags_Model IndexCode_Model Streams_Model.
Local Open Scope nat_scope.

(** Reading the iterator gives these items and then ends, with or without an error. *)
Inductive reads {A} : stream A -> list A -> option exn -> Prop :=
| reads_stop : reads Stop [] None
| reads_boom e : reads (Boom e) [] (Some e)
| reads_item a s l e : reads s l e -> reads (Item a s) (a :: l) e.

(** Two iterators cannot be told apart by reading at most [n] items. *)
Inductive agree {A} : nat -> stream A -> stream A -> Prop :=
| agree_0 s s' : agree 0 s s'
| agree_stop n : agree (S n) Stop Stop
| agree_boom n e : agree (S n) (Boom e) (Boom e)
| agree_item n a s s' : agree n s s' -> agree (S n) (Item a s) (Item a s').

(** A dictionary maps a key to a value; [None] if the key is missing. *)
Definition value_of (d : dict) (k c : cell) : Prop :=
  In (k, c) d \/ (~ In k (map fst d) /\ c = CNone).

(** A cell with an index code of a space. *)
Definition code_cell (todecimal : N -> option N) (u : list N) (c : cell) : Prop :=
  exists t i, c = CText t /\ index_code_to_id todecimal t u = Ok i.
(** Some row has a code in column [p]. *)
Definition code_column todecimal u (rows : list row) (p : nat) : Prop :=
  exists l c, In (RSeq l) rows /\ nth_error l p = Some c /\ code_cell todecimal u c.
(** The rows have codes in column [p] and nowhere else. *)
Definition identifies todecimal u (rows : list row) (p : nat) : Prop :=
  code_column todecimal u rows p /\ forall q, code_column todecimal u rows q -> q = p.
(** The k-th group of eight rows. *)
Definition group (k : nat) (rows : list row) : list row := firstn 8 (skipn (8 * k) rows).
(** The column that the first telling group among the first 32 groups tells. *)
Definition detected todecimal u (rows : list row) (p : nat) : Prop :=
  exists k, k < 32 /\ identifies todecimal u (group k rows) p /\
    forall j q, j < k -> ~ identifies todecimal u (group j rows) q.
Definition undetected todecimal u (rows : list row) : Prop :=
  forall k q, k < 32 -> ~ identifies todecimal u (group k rows) q.
Definition detection todecimal u rows (o : option nat) : Prop :=
  match o with Some p => detected todecimal u rows p | None => undetected todecimal u rows end.

(** Column [v] is the first whose name, or the name in whose edge shorthand, is the link's. *)
Definition names_link (edge_name : text -> option text) (link_name : text) (c : cell) : Prop :=
  exists col, c = CText col /\ (col = link_name \/ edge_name col = Some link_name).
Definition link_column edge_name link_name (columns : list cell) (v : nat) : Prop :=
  exists pre c post, columns = pre ++ c :: post /\ length pre = v /\ names_link edge_name link_name c /\
    Forall (fun c => ~ names_link edge_name link_name c) pre.

(** The header from column [start] up to [stop]. *)
Definition header_between (columns : list cell) (start stop : nat) (h : list cell) : Prop :=
  exists pre post, columns = pre ++ h ++ post /\ length pre = start /\ start + length h = stop.

(** A row can be searched for codes: a sequence without a text like a code whose number exceeds 64 bits. *)
Definition searchable todecimal u (r : row) : Prop :=
  exists l, r = RSeq l /\ forall t, In (CText t) l -> index_code_to_id todecimal t u <> Err StructError.
(** The first 256 rows can be read and searched. *)
Definition clean todecimal (node1 node2 : node) (rows : list row) (e : option exn) : Prop :=
  (e = None \/ 256 <= length rows) /\ Forall (searchable todecimal (n_id_bytes node1)) (firstn 256 rows) /\
  Forall (searchable todecimal (n_id_bytes node2)) (firstn 256 rows).
(** The layout is acceptable: code columns of both spaces are not on the same side of the link column;
    a side without codes has the labels of its space as header. *)
Definition labels_at (is_list : bool) (nd : node) (columns : list cell) (start stop : nat) : Prop :=
  is_list = true /\ header_between columns start stop (map CText (n_index_columns nd)).
Definition acceptable (is_list : bool) (node1 node2 : node) (columns : list cell) (v : nat) (o1 o2 : option nat) : Prop :=
  let n := length columns in
  match o1, o2 with
  | Some i1, Some i2 => ~ (i1 < v /\ i2 < v) /\ ~ (v < i1 /\ v < i2)
  | Some i1, None => (i1 < v -> labels_at is_list node2 columns (S v) n) /\ (v <= i1 -> labels_at is_list node2 columns 0 v)
  | None, Some i2 => (i2 < v -> labels_at is_list node1 columns (S v) n) /\ (v <= i2 -> labels_at is_list node1 columns 0 v)
  | None, None => labels_at is_list node1 columns 0 v /\ labels_at is_list node2 columns (S v) n
  end.

(** *** One row of mapping data *)
(** The index id of a row: none without a code column or with an empty cell. *)
Definition row_id todecimal (u : list N) (o : option nat) (l : list cell) (id : option Z) : Prop :=
  match o with
  | None => id = None
  | Some p => exists c, nth_error l p = Some c /\
      ((cell_true c = false /\ id = None) \/
       (exists t i, c = CText t /\ t <> [] /\ index_code_to_id todecimal t u = Ok i /\ id = Some i))
  end.
(** The cell of a row under a label, within some columns; empty text if there is no such column. *)
Definition label_cell (columns : list cell) (start stop : nat) (l : list cell) (label : text) (c : cell) : Prop :=
  (exists j, start <= j < stop /\ nth_error columns j = Some (CText label) /\ nth_error l j = Some c) \/
  ((forall j, start <= j < stop -> nth_error columns j <> Some (CText label)) /\ c = CText []).
(** The level: all columns for a known id, else the columns with a label. *)
Definition row_level (nd : node) (id : option Z) (loc : list cell) (lv : bitflags) : Prop :=
  match id with
  | Some _ => lv = of_bits (map (fun _ => true) (n_index_columns nd))
  | None => lv = of_bits (map cell_true loc)
  end.
Definition mapping_row_for todecimal (node1 node2 : node) (columns : list cell) (p : positions) (r : row) (m : mapping_row) : Prop :=
  exists l, r = RSeq l /\
    row_id todecimal (n_id_bytes node1) (p_index1 p) l (mr_id1 m) /\
    Forall2 (label_cell columns (p_start1 p) (p_stop1 p) l) (n_index_columns node1) (mr_loc1 m) /\
    row_level node1 (mr_id1 m) (mr_loc1 m) (mr_level1 m) /\
    row_id todecimal (n_id_bytes node2) (p_index2 p) l (mr_id2 m) /\
    Forall2 (label_cell columns (p_start2 p) (p_stop2 p) l) (n_index_columns node2) (mr_loc2 m) /\
    row_level node2 (mr_id2 m) (mr_loc2 m) (mr_level2 m) /\
    nth_error l (p_value p) = Some (mr_value m).

(** Reading [out] gives one item for each row of [rows], in order, related by [R]; it ends as [rows]
    does, or earlier with an error at a row that has no item. *)
Definition row_by_row {A B} (R : A -> B -> Prop) (rows : stream A) (out : stream B) : Prop :=
  forall l e, reads rows l e -> exists l' e', reads out l' e' /\
    ((Forall2 R l l' /\ e' = e) \/
     (exists done a rest x, l = done ++ a :: rest /\ Forall2 R done l' /\ (forall b, ~ R a b) /\ e' = Some x)).

(** *** Index rows *)
(** A row with the code in column [p] replaced by its id; an empty cell is kept. *)
Definition recoded todecimal (u : list N) (p : nat) (r r' : row) : Prop :=
  exists pre c post, r = RSeq (pre ++ c :: post) /\ length pre = p /\
    ((cell_true c = false /\ r' = r) \/
     (exists t i, c = CText t /\ t <> [] /\ index_code_to_id todecimal t u = Ok i /\ r' = RSeq (pre ++ COther i :: post))).
