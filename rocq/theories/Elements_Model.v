(** Model of the export of a link's mappings.
    Sources: src/toron/data_service.py lines 559-617 [generate_mapping_elements],
    src/toron/cli/command_mapping.py lines 448-606 [get_ambiguous_field_text], [write_to_stdout],
    src/toron/dal1/repositories.py.

    The source space and the target space are two databases as in Db_Model; the link and its mappings
    are in the target.  The simplifications of Db_Model apply; in particular a hash of index ids is
    represented by the ids.  Tables do not change while the generator runs (all reads are done with
    the connections that the caller holds). *)
From Verif Require Import Prelude BitFlags_Model Selectors_Model SelectorParse_Model LinkRef_Model Db_Model
  IndexCode_Model.
Local Open Scope nat_scope.

(** (other_index_id, index_id, mapping_level, mapping_value); [None] for Python's None. *)
Definition element : Type := option Z * option Z * option (list N) * option Q.

(** Models src/toron/dal1/repositories.py lines 1171-1193 [MappingRepository.find] for a link, and for
    a link and a source record. *)
Definition find_maps (l : Z) (s : db) : list mapping := filter (fun m => (m_link m =? l)%Z) (d_maps s).
Definition find_maps_of (l o : Z) (s : db) : list mapping := filter (map_at l o) (d_maps s).

(** Models src/toron/dal1/repositories.py lines 111-128 [find_unmatched_index_ids].  EXCEPT removes
    duplicates and gives the ids in ascending order. *)
Definition find_unmatched_index_ids (l : Z) (s : db) : res (list Z) :=
  if negb (existsb (fun k => (k_id k =? l)%Z) (d_links s)) then Err PlainException
  else Ok (zsort (nodup Z.eq_dec
         (filter (fun i => negb (existsb (fun m => (m_index m =? i)%Z) (find_maps l s)))
           (filter (fun i => negb (i =? 0)%Z) (map ix_id (d_index s)))))).

(** Lines 585-588: the last link of that name. *)
Definition pick_link (name : option text) (src_id : text) (links : list link) : option link :=
  fold_left (fun found k => match name with
                            | Some n => if text_eqb (k_name k) n then Some k else found
                            | None => found end)
            (find_by_other_unique_id src_id links) None.

Definition hash_eqb (a b : list Z) : bool := if list_eq_dec Z.eq_dec a b then true else false.

(** Models src/toron/data_service.py lines 559-617.  [src_id]: the property [unique_id] of the source.
    All errors are raised before the first element. *)
Definition generate_mapping_elements (name : option text) (src_id : text) (src trg : db) : res (list element) :=
  match pick_link name src_id (d_links trg) with
  | None => Err PlainException
  | Some k =>
      let matched := map (fun m => (Some (m_other m), Some (m_index m), Some (m_level m), Some (m_value m)))
                         (find_maps (k_id k) trg) in
      do rights <- (if k_complete k then Ok [] else find_unmatched_index_ids (k_id k) trg);
      let lefts :=
        if match k_hash k with Some h => hash_eqb (d_hash src) h | None => false end then []
        else filter (fun o => negb (o =? 0)%Z && nil_b (find_maps_of (k_id k) o trg)) (map ix_id (d_index src)) in
      Ok ((Some 0%Z, Some 0%Z, None, Some 0%Q) :: matched ++
          map (fun i => (None, Some i, None, None)) rights ++
          map (fun o => (Some o, None, None, None)) lefts)
  end.

(** [itertools.compress]. *)
Fixpoint compress {A} (data : list A) (selectors : list bool) : list A :=
  match data, selectors with
  | d :: data', b :: sel' => if b : bool then d :: compress data' sel' else compress data' sel'
  | _, _ => []
  end.

(** Models src/toron/cli/command_mapping.py lines 448-468 [get_ambiguous_field_text] (and the same
    function in src/toron/graph.py lines 381-416). *)
Definition get_ambiguous_field_text (level : option (list N)) (names : list text) : option text :=
  match level with
  | None => None
  | Some lv =>
      match join (txt ", ") (compress names (map negb (bf_iter (of_bytes lv)))) with
      | [] => None
      | t => Some t
      end
  end.

(** One row of the CSV output: index code and labels of the source, value, index code and labels of
    the target, and the ambiguous fields if that column is written.  [None] is written as an
    empty field. *)
Record out_row := {
  r_src_code : option text; r_src_labels : list (option text);
  r_value : option Q;
  r_trg_code : option text; r_trg_labels : list (option text);
  r_ambiguous : option (option text)
}.
Record counts := {
  n_rows : nat; n_invalid_source : nat; n_unmatched_source : nat; n_unmatched_target : nat
}.

Definition no_values (s : db) : list (option text) := map (fun _ => None) (d_labels s).

(** Models lines 542-584: the body of the loop. *)
Definition write_element (src trg : db) (src_bytes trg_bytes : list N) (ambiguous : bool)
  (st : list out_row * counts) (e : element) : res (list out_row * counts) :=
  let '(rows, c) := st in
  let '(src_index, trg_index, level, value) := e in
  do (src_labels, src_code, invalid) <-
    match src_index with
    | Some o =>
        do code <- index_id_to_code o src_bytes;
        Ok (match index_find o src with
            | Some r => (map Some (ix_labels r), Some code, 0)
            | None => (no_values src, Some code, 1)
            end)
    | None => Ok (no_values src, None, 0)
    end;
  do (trg_labels, trg_code) <-
    match trg_index with
    | Some i =>
        match index_find i trg with
        | None => Err KeyError
        | Some r => do code <- index_id_to_code i trg_bytes; Ok (map Some (ix_labels r), Some code)
        end
    | None => Ok (no_values trg, None)
    end;
  Ok (rows ++ [{| r_src_code := src_code; r_src_labels := src_labels; r_value := value;
                  r_trg_code := trg_code; r_trg_labels := trg_labels;
                  r_ambiguous := if ambiguous then Some (get_ambiguous_field_text level (d_labels trg))
                                 else None |}],
      {| n_rows := S (n_rows c);
         n_invalid_source := invalid + n_invalid_source c;
         n_unmatched_source := (match src_index with None => 1 | Some _ => 0 end) + n_unmatched_source c;
         n_unmatched_target := (match trg_index with None => 1 | Some _ => 0 end) + n_unmatched_target c |}).

(** Models src/toron/dal1/repositories.py lines 1235-1243 [get_distinct_mapping_levels]. *)
Definition distinct_levels (l : Z) (s : db) : list (list N) :=
  nodup (list_eq_dec N.eq_dec) (map m_level (find_maps l s)).

(** Models src/toron/cli/command_mapping.py lines 471-606 [write_to_stdout] without the log; the index
    code headers are given.  [src_bytes], [trg_bytes]: the bytes of the unique ids. *)
Definition write_to_stdout (name src_id : text) (src_bytes trg_bytes : list N) (src_header trg_header : text)
  (src trg : db) : res (list text * list out_row * counts) :=
  match find (fun k => text_eqb (k_other k) src_id && text_eqb (k_name k) name) (d_links trg) with
  | None => Err KeyError
  | Some k =>
      let plain := match distinct_levels (k_id k) trg with
                   | [] => true
                   | [lv] => bytes_eqb lv (whole_level trg)
                   | _ => false end in
      do els <- generate_mapping_elements (Some name) src_id src trg;
      do (rows, c) <- fold_res (write_element src trg src_bytes trg_bytes (negb plain)) els
                        ([], {| n_rows := 0; n_invalid_source := 0; n_unmatched_source := 0;
                                n_unmatched_target := 0 |});
      Ok ([src_header] ++ d_labels src ++ [name; trg_header] ++ d_labels trg ++
          (if plain then [] else [txt "ambiguous_fields"]), rows, c)
  end.

(** Models lines 585-603: the messages written to the log, by what they say.
    - "contains N indexes that no longer exist in FILE1",
    - "contains N unmatched indexes from FILE1" and "from FILE2",
    - "written N record(s)". *)
Inductive message :=
| MInvalidFile1 (n : nat) | MUnmatchedFile1 (n : nat) | MUnmatchedFile2 (n : nat) | MWritten (n : nat).
Definition messages (c : counts) : list message :=
  (match n_invalid_source c with O => [] | n => [MInvalidFile1 n] end) ++
  (match n_unmatched_source c with O => [] | n => [MUnmatchedFile1 n] end) ++
  (match n_unmatched_target c with O => [] | n => [MUnmatchedFile2 n] end) ++
  [MWritten (n_rows c)].
