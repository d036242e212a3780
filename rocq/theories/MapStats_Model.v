(** Model of the statistics about a link's mappings.
    Sources: src/toron/graph.py lines 149-220 [_get_mapping_stats], lines 223-271
    [_log_load_mapping_stats], src/toron/dal1/repositories.py.

    The source space and the target space are two databases as in Db_Model, with its simplifications; the link
    and its mappings are in the target.  Messages of the log are represented by what they say. *)
From Verif Require Import Prelude Selectors_Model LinkRef_Model Db_Model Elements_Model.
Local Open Scope Z_scope.

(** Models src/toron/dal1/repositories.py lines 185-192 [IndexRepository.get_cardinality]. *)
Definition get_cardinality (s : db) : Z := Z.of_nat (length (d_index s)).
(** Models lines 1194-1208 [MappingRepository.get_index_id_cardinality]. *)
Definition get_index_id_cardinality (l : Z) (s : db) : Z :=
  Z.of_nat (length (nodup Z.eq_dec (filter (fun i => negb (i =? 0)) (map m_index (find_maps l s))))) + 1.

Record stats := {
  src_cardinality : Z; src_index_matched : Z; src_index_missing : Z; src_index_stale : Z;
  trg_cardinality : Z; trg_index_matched : Z; trg_index_missing : Z
}.
(** Lines 190-195: the loop over the ids; counts of matched and of stale ones. *)
Fixpoint count_ids (src : db) (ids : list Z) (c : Z * Z) : Z * Z :=
  match ids with
  | [] => c
  | o :: ids' => count_ids src ids'
      (match index_get o src with Ok _ => (fst c + 1, snd c) | Err _ => (fst c, snd c + 1) end)
  end.
(** Models graph.py lines 149-220 [_get_mapping_stats].  [src_id]: the property [unique_id] of the source.
    Simplification: the ids are visited in ascending order, which does not matter for counting. *)
Definition get_mapping_stats (src_id : text) (src trg : db) (k : link) : res stats :=
  if negb (text_eqb (k_other k) src_id) then Err PlainException
  else
    let card := get_cardinality src in
    let '(matched, missing, stale) :=
      if match k_hash k with Some h => hash_eqb h (d_hash src) | None => false end then (card, 0, 0)
      else let '(m, st) := count_ids src (distinct_others (k_id k) trg) (0, 0) in (m, card - m, st) in
    let trg_card := get_cardinality trg in
    let trg_matched := get_index_id_cardinality (k_id k) trg in
    Ok {| src_cardinality := card; src_index_matched := matched; src_index_missing := missing; src_index_stale := stale;
          trg_cardinality := trg_card; trg_index_matched := trg_matched; trg_index_missing := trg_card - trg_matched |}.

(** "mapping verified, cleanly matches both sides", "missing N indexes on" the side of the source, "found N indexes
    on" this side "that no longer exist", "missing N indexes on" the side of the target. *)
Inductive note := Verified | MissingSource (n : Z) | StaleSource (n : Z) | MissingTarget (n : Z).
(** Lines 252-271. *)
Definition notes (st : stats) : list note :=
  if (src_index_missing st =? 0) && (src_index_stale st =? 0) && (trg_index_missing st =? 0) then [Verified]
  else
    (if src_index_missing st =? 0 then [] else [MissingSource (src_index_missing st)]) ++
    (if src_index_stale st =? 0 then [] else [StaleSource (src_index_stale st)]) ++
    (if trg_index_missing st =? 0 then [] else [MissingTarget (trg_index_missing st)]).
(** Models lines 223-271 [_log_load_mapping_stats] for a source and a target (the choice by the direction is left
    out). *)
Definition log_mapping_stats (src_id name : text) (src trg : db) : res (list note) :=
  do k <- get_link src_id (Some name) true (d_links trg);
  do st <- get_mapping_stats src_id src trg k;
  Ok (notes st).
