(** Model of the tables of a link's mappings and of the text about a mapping.
    Sources: src/toron/graph.py lines 362-379 [_get_mapping_elements], lines 418-504 [get_mapping], lines 507-565
    [get_mapping_info_str]; src/toron/space.py lines 1699-1745 [DataSpace.select_mappings].

    Spaces are databases as in Db_Model, with its simplifications; the link and its mappings are in the target.  The
    property [unique_id] of the spaces and the path hints are given.  A generator is represented by the list of the rows
    that it yields and by the error that ends it, if there is one.  Tables do not change while a generator runs. *)
From Verif Require Import Prelude BitFlags_Model Selectors_Model SelectorParse_Model LinkRef_Model IndexCode_Model
  Db_Model Elements_Model MapStats_Model.
From Coq Require Import String List.
Local Open Scope list_scope.

(** A cell of a row; [CNone] is Python's None. *)
Inductive cell := CNone | CId (i : Z) | CText (t : text) | CVal (v : Q).
Definition id_cell (i : option Z) : cell := match i with Some i => CId i | None => CNone end.
Definition text_cell (t : option text) : cell := match t with Some t => CText t | None => CNone end.
Definition val_cell (v : option Q) : cell := match v with Some v => CVal v | None => CNone end.

(** Models graph.py lines 431-444: the header and the value of the domain; none if the domain is empty. *)
Definition domain_keys (domain : text) : list cell := match domain with [] => [] | _ => [CText (txt "domain")] end.
Definition domain_vals (domain : text) : list cell := match domain with [] => [] | _ => [CText domain] end.

(** Models lines 475-484 and 487-496: what is shown about one side of an element. *)
Definition side_domain (domain : text) (i : option Z) : list cell :=
  match i with Some _ => domain_vals domain | None => map (fun _ => CNone) (domain_vals domain) end.
Definition side_labels (s : db) (i : option Z) : list cell :=
  match i with
  | Some i => match index_get i s with
              | Ok r => map CText (ix_labels r)
              | Err _ => map (fun _ => CNone) (d_labels s)
              end
  | None => map (fun _ => CNone) (d_labels s)
  end.

(** Models lines 456-466. *)
Definition mapping_header (name : option text) (src_domain trg_domain : text) (src trg : db) : list cell :=
  [CText (txt "index_id")] ++ domain_keys src_domain ++ map CText (d_labels src) ++ [text_cell name] ++
  [CText (txt "index_id")] ++ domain_keys trg_domain ++ map CText (d_labels trg) ++ [CText (txt "ambiguous_fields")].
(** Models lines 472-504. *)
Definition mapping_row (src_domain trg_domain : text) (src trg : db) (e : element) : list cell :=
  let '(src_index, trg_index, level, value) := e in
  [id_cell src_index] ++ side_domain src_domain src_index ++ side_labels src src_index ++ [val_cell value] ++
  [id_cell trg_index] ++ side_domain trg_domain trg_index ++ side_labels trg trg_index ++
  [text_cell (get_ambiguous_field_text level (d_labels trg))].
(** Models lines 418-504 [get_mapping].  The generator of the elements (lines 362-379) is started after the header was
    yielded; all its errors come before the first element. *)
Definition get_mapping (name : option text) (header : bool) (src_id src_domain trg_domain : text) (src trg : db)
  : list (list cell) * option exn :=
  let top := if header then [mapping_header name src_domain trg_domain src trg] else [] in
  match generate_mapping_elements name src_id src trg with
  | Ok els => (top ++ map (mapping_row src_domain trg_domain src trg) els, None)
  | Err e => (top, Some e)
  end.

(** Models space.py lines 1728-1736: the description of the columns that were not specified. *)
Definition ambiguous_desc (m : mapping) (names : list text) : option text :=
  match m_level m with
  | [] => None
  | lv => match join (txt ", ") (compress names (map negb (bf_iter (of_bytes lv)))) with [] => None | t => Some t end
  end.
(** Models lines 1720-1745: the rows of one index record. *)
Definition select_rows (l : Z) (s : db) (r : ixrec) : list (list cell) :=
  match filter (fun m => (m_link m =? l)%Z && (m_index m =? ix_id r)%Z) (d_maps s) with
  | [] => [[CNone; CNone; CId (ix_id r)] ++ map CText (ix_labels r) ++ [CNone]]
  | ms => map (fun m => [CId (m_other m); CVal (m_value m); CId (ix_id r)] ++ map CText (ix_labels r) ++
                        [text_cell (ambiguous_desc m (d_labels s))]) ms
  end.
(** Models lines 1699-1745 [select_mappings].  [ref]: the unique id of the other space or the given text. *)
Definition select_mappings (ref : text) (name : option text) (header : bool) (criteria : list (text * text)) (s : db)
  : list (list cell) * option exn :=
  match get_link ref name true (d_links s) with
  | Err e => ([], Some e)
  | Ok k =>
      ((if header then [[CText (txt "other_index_id"); CText (k_name k); CText (txt "index_id")] ++
                        map CText (d_labels s) ++ [CText (txt "ambiguous_fields")]] else []) ++
       flat_map (select_rows (k_id k) s) (filter (fun r => negb (ix_id r =? 0)%Z) (filter_by_label criteria s)), None)
  end.

(** *** The text about a mapping *)

(** Models graph.py lines 532-536 and 538-542. *)
Definition short_hint (path_hint : option text) (unique_id : text) : text :=
  match path_hint with
  | Some h => if negb (is_empty h) && endswith h (txt ".toron") then firstn (List.length h - 6) h
              else txt "[" ++ firstn 7 unique_id ++ txt "]"
  | None => txt "[" ++ firstn 7 unique_id ++ txt "]"
  end.
(** Models lines 507-565 [get_mapping_info_str].  (The test for a missing link in lines 518-520 cannot succeed, because
    [get_link] raises an error then.) *)
Definition get_mapping_info_str (name : option text) (src_id trg_id : text) (src_path trg_path : option text) (src trg : db)
  : res text :=
  do k <- get_link src_id name true (d_links trg);
  let name := match name with Some ((_ :: _) as n) => n | _ => k_name k end in
  do st <- get_mapping_stats src_id src trg k;
  let s := short_hint src_path src_id in
  let t := short_hint trg_path trg_id in
  Ok (join [10%N] (
    [name ++ txt ": " ++ s ++ txt " -> " ++ t;
     [];
     txt "  " ++ s ++ txt ": matched " ++ format_dec (src_index_matched st) ++ txt " of " ++ format_dec (src_cardinality st) ++
       txt " indexes";
     txt "  " ++ t ++ txt ": matched " ++ format_dec (trg_index_matched st) ++ txt " of " ++ format_dec (trg_cardinality st) ++
       txt " indexes"] ++
    (if (src_index_stale st =? 0)%Z then []
     else [[]; txt "  Mapping contains " ++ format_dec (src_index_stale st) ++ txt " indexes that no longer exist in " ++
               match src_path with Some p => p | None => txt "None" end]))).
