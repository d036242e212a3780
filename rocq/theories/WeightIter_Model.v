(** Model of quantity iterators: reading the weights of a space and translating them to other spaces.
    Sources: src/toron/space.py lines 1216-1268 [_select_weights, select_weights], src/toron/data_models.py
    lines 1286-1347 [QuantityIterator], src/toron/graph.py lines 568-627 [get_weights] and 630-711
    [_translate, translate].

    - A generator is the stream of what it yields, ended by an error or not (see Streams_Model.v); the
      spaces do not change while it is read.
    - Weights and quantities are exact rationals.
    - Records of a query come in the order of storage; logging and [to_pandas] are left out. *)
From Verif Require Import Prelude Streams_Model Selectors_Model SelectorParse_Model LinkRef_Model Db_Model Reader_Model.
Local Notation row := Selectors_Model.row.

(** One tuple of an iterator: the index record, the attributes, the value. *)
Record item := { it_index : ixrec; it_attrs : row; it_value : option Q }.

(** data_models.py lines 1286-1304 [QuantityIterator]. *)
Record qiter := {
  qi_id : text; qi_hash : list Z; qi_domain : text; qi_data : stream item; qi_labels : list text; qi_keys : list text
}.

(** A space: [unique_id], domain and data.  The hash of the index is that of [d_hash]. *)
Record wspace := { ws_id : text; ws_domain : text; ws_db : db }.

(** *** Weights *)

(** Models space.py lines 1216-1244 [_select_weights] with repositories.py lines 142-161
    [filter_by_label(criteria, include_undefined=False)]. *)
Definition weight_items (name : text) (criteria : list (text * text)) (s : db) : list item :=
  match group_by_name name s with
  | None => []
  | Some g =>
      map (fun r => {| it_index := r; it_attrs := [(txt "weight", name)];
                       it_value := option_map w_value (weight_find (g_id g) (ix_id r) s) |})
          (filter (fun r => negb (ix_id r =? 0)%Z) (filter_by_label criteria s))
  end.
(** Models space.py lines 1246-1268 [select_weights]. *)
Definition select_weights (name : text) (criteria : list (text * text)) (x : wspace) : qiter :=
  {| qi_id := ws_id x; qi_hash := d_hash (ws_db x); qi_domain := ws_domain x;
     qi_data := chain (weight_items name criteria (ws_db x)) Stop;
     qi_labels := d_labels (ws_db x); qi_keys := [txt "weight"] |}.

(** *** What an iterator yields *)

Inductive out_cell := OText (t : text) | ONum (q : Q) | ONone.
Definition opt_text (t : option text) : out_cell := match t with Some t => OText t | None => ONone end.
Definition opt_num (q : option Q) : out_cell := match q with Some q => ONum q | None => ONone end.
(** Lines 1295-1296 [_domain_col], [_domain_val]. *)
Definition if_domain {A} (domain : text) (a : A) : list A := match domain with [] => [] | _ => [a] end.
(** Line 1332 [columns]. *)
Definition columns (qi : qiter) : list text :=
  qi_labels qi ++ if_domain (qi_domain qi) (txt "domain") ++ qi_keys qi ++ [txt "value"].
(** Lines 1334-1337 [__next__]. *)
Definition item_row (qi : qiter) (d : item) : list out_cell :=
  map OText (ix_labels (it_index d)) ++ if_domain (qi_domain qi) (OText (qi_domain qi)) ++
  map (fun k => opt_text (dict_get k (it_attrs d))) (qi_keys qi) ++ [opt_num (it_value d)].
Definition rows_of (qi : qiter) : stream (list out_cell) := smap (fun d => Ok (item_row qi d)) (qi_data qi).

(** *** Translation *)

(** Models graph.py lines 636-664: the selectors and the default link. *)
Definition find_links (uid : text) (hash : list Z) (target : db) : res (list (Z * option (list selector)) * Z) :=
  let links := find_links_by_ref uid (d_links target) in
  match find k_default links with
  | None => Err RuntimeError
  | Some k =>
      if negb (match k_hash k with Some h => zs_eqb h hash | None => false end) || negb (k_complete k)
      then Err RuntimeError
      else
        let links := filter (fun k => k_complete k && negb (nil_b (k_selectors k))) links in
        do d <- traverse (fun k => do s <- traverse parse_selector (k_selectors k); Ok (k_id k, Some s)) links;
        Ok (d, k_id k)
  end.

(** Lines 684-690: the loop over the mappings, then the rest. *)
Fixpoint emit (target : db) (a : row) (v : Q) (ms : list mapping) (rest : stream item) : stream item :=
  match ms with
  | [] => rest
  | m :: ms' =>
      match m_prop m with
      | None => Boom TypeError
      | Some p =>
          match index_get (m_index m) target with
          | Err e => Boom e
          | Ok r => Item {| it_index := r; it_attrs := a; it_value := Some (v * p)%Q |} (emit target a v ms' rest)
          end
      end
  end.
(** Lines 666-690: the loop over the quantities. *)
Fixpoint translate_items (upper : text -> text) (fn : list (Z * option (list selector)) * Z) (target : db) (data : stream item)
  : stream item :=
  match data with
  | Stop => Stop
  | Boom e => Boom e
  | Item d rest =>
      match it_value d with
      | None => translate_items upper fn target rest
      | Some v =>
          match get_link_id upper fn (it_attrs d) with
          | Err e => Boom e
          | Ok k =>
              emit target (it_attrs d) v
                (filter (fun m => (m_link m =? k)%Z && (m_other m =? ix_id (it_index d))%Z) (d_maps target))
                (translate_items upper fn target rest)
          end
      end
  end.
(** Models graph.py lines 630-711 [_translate] and [translate]; also [>>] (data_models.py lines 1342-1347).
    The errors of [find_links] appear when the iterator is read. *)
Definition translate (upper : text -> text) (qi : qiter) (x : wspace) : qiter :=
  {| qi_id := ws_id x; qi_hash := d_hash (ws_db x); qi_domain := qi_domain qi;
     qi_data := match find_links (qi_id qi) (qi_hash qi) (ws_db x) with
                | Err e => Boom e
                | Ok fn => translate_items upper fn (ws_db x) (qi_data qi)
                end;
     qi_labels := d_labels (ws_db x); qi_keys := qi_keys qi |}.
(** [qi >> x1 >> x2 >> ...]. *)
Definition translate_all (upper : text -> text) (qi : qiter) (xs : list wspace) : qiter := fold_left (translate upper) xs qi.

(** *** The table of weights *)

(** [ORDER BY name] (repositories.py lines 395-398): SQLite compares the bytes of the UTF-8 form, which is
    the order of the code points. *)
Fixpoint insert_name (g : group) (l : list group) : list group :=
  match l with
  | [] => [g]
  | h :: l' => if text_ltb (g_name h) (g_name g) then h :: insert_name g l' else g :: l
  end.
Definition all_groups (s : db) : list group := fold_right insert_name [] (d_groups s).

Inductive weight_cell := WText (t : text) | WId (i : Z) | WNum (q : Q) | WNone.
(** Lines 612-621. *)
Definition weight_value (s : db) (i : Z) (g : group) : weight_cell :=
  match weight_find (g_id g) i s with
  | Some w => WNum (w_value w)
  | None => if (i =? 0)%Z then WNum 0 else WNone
  end.
(** Models graph.py lines 568-627 [get_weights]: [None] stands for all weights.  An unknown name is an
    error of the call itself, because the generator is started at once. *)
Definition get_weights (names : option (list text)) (header : bool) (x : wspace) : res (list (list weight_cell)) :=
  let s := ws_db x in
  do groups <- match names with
               | None => Ok (all_groups s)
               | Some names => traverse (fun n => match group_by_name n s with Some g => Ok g | None => Err ValueError end) names
               end;
  let head := map WText (txt "index_id" :: if_domain (ws_domain x) (txt "domain") ++ d_labels s ++ map g_name groups) in
  let rows := map (fun r => WId (ix_id r) :: if_domain (ws_domain x) (WText (ws_domain x)) ++ map WText (ix_labels r) ++
                            map (weight_value s (ix_id r)) groups) (d_index s) in
  Ok ((if header then [head] else []) ++ rows).
