(** Model of src/toron/mapper.py: building mapping records between two spaces.

    Simplifications that hold for the whole file:
    - the two spaces are the stored states [db] of Db_Model; [gran] gives the granularity
      stored with a structure row;
    - a source row is given after normalize_mapping_data (cli/command_mapping.py): explicit
      id or None, location labels, level bytes; the mapping value is a number or NULL
      (other texts, which SQLite stores as they are and counts as a number, are left out);
    - REAL numbers are exact rationals;
    - the match tables are lists in insertion order; [match_limit] is not negative (islice
      raises ValueError for less than -1);
    - the CHECK constraints of the match tables are not modelled: C22_shares shows that
      they hold for stored weights;
    - the texts of log messages are left out, the counters they report are kept. *)
From Verif Require Import Prelude BitFlags_Model Selectors_Model LinkRef_Model Db_Model Reader_Model.

(** One side of a row of table [mapping_source] (lines 97-106). *)
Record side := { sd_id : option Z; sd_loc : list text; sd_level : list N }.
Record source := { sr_run : Z; sr_1 : side; sr_2 : side; sr_value : option Q }.

(** A row of [node1_matches] or [node2_matches] (lines 107-120). *)
Record hit := { h_run : Z; h_index : Z; h_level : list N; h_weight : option Q; h_prop : option Q }.

(** [bytes(BitFlags(s.bits))]. *)
Definition level_of (bits : list bool) : list N := bf_to_bytes (of_bits bits).

(** Models lines 123-165: the rows loaded by [__init__]; run_id counts from 1. *)
Definition load_row (s1 s2 : db) (acc : list source) (row : side * side * option Q) : res (list source) :=
  let '(a, b, v) := row in
  if negb (existsb (bytes_eqb (sd_level a)) (map level_of (d_structs s1))) then Err RuntimeError
  else if negb (existsb (bytes_eqb (sd_level b)) (map level_of (d_structs s2))) then Err RuntimeError
  else if match v with Some q => negb (Qle_bool 0 q) | None => false end then Err SqlIntegrityError
  else Ok (acc ++ [{| sr_run := Z.of_nat (length acc) + 1; sr_1 := a; sr_2 := b; sr_value := v |}]).
Definition load_mapper (s1 s2 : db) (data : list (side * side * option Q)) : res (list source) :=
  fold_res (load_row s1 s2) data [].

(** Models lines 167-191 [_refresh_proportions]. *)
Definition refresh_hit (l : list hit) (h : hit) : hit :=
  let run := filter (fun x => (h_run x =? h_run h)%Z) l in
  let total := sql_sum (map h_weight run) in
  let equal := (1 / inject_Z (Z.of_nat (length run)))%Q in
  {| h_run := h_run h; h_index := h_index h; h_level := h_level h; h_weight := h_weight h;
     h_prop := Some match h_weight h, total with
                    | Some w, Some t => if Qeq_bool t 0 then equal else (w / t)%Q
                    | _, _ => equal
                    end |}.
Definition refresh_hits (l : list hit) : list hit := map (refresh_hit l) l.

(** Lines 213-216: [sorted(node_structure, key=keyfunc, reverse=True)], a stable sort. *)
Definition gran_key (g : option Q) : Q := match g with Some q => q | None => (-1)%Q end.
Fixpoint insert_level (gran : list bool -> option Q) (x : list bool) (l : list (list bool)) : list (list bool) :=
  match l with
  | [] => [x]
  | y :: l' => if Qle_bool (gran_key (gran y)) (gran_key (gran x)) then x :: l
               else y :: insert_level gran x l'
  end.
Definition sort_levels (gran : list bool -> option Q) (l : list (list bool)) : list (list bool) :=
  fold_right (insert_level gran) [] l.
Definition sorted_levels (gran : list bool -> option Q) (s : db) : list (list N) :=
  map level_of (sort_levels gran (d_structs s)).

(** Models data_service.py lines 631-647 [get_default_weight_group]. *)
Definition get_default_weight_group (s : db) : res Z :=
  match d_default s with
  | None => Err RuntimeError
  | Some None => Err TypeError
  | Some (Some i) => if existsb (fun g => (g_id g =? i)%Z) (d_groups s) then Ok i else Err KeyError
  end.

(** Lines 246-248: [filter_index_ids_by_label] (repositories.py lines 165-187) with the
    non-empty labels of the location as criteria. *)
Definition candidates (s : db) (loc : list text) : list Z :=
  map ix_id (filter_by_label (filter (fun kv => negb (is_empty (snd kv))) (combine (d_labels s) loc)) s).

(** Lines 285-293. *)
Definition weight_for (s : db) (g i : Z) : option Q :=
  match find (weight_is g i) (d_weights s) with
  | Some w => Some (w_value w)
  | None => if (i =? 0)%Z then Some 0%Q else None
  end.

(** Lines 218 and 315-367: what is counted for the log. *)
Record counter := {
  c_missing : nat; c_nolabel : nat; c_included : nat; c_excluded : nat;
  c_overlimit : nat; c_highest : nat; c_unweighted : nat
}.
Definition no_count : counter := Build_counter 0 0 0 0 0 0 0.
Definition add_missing (c : counter) : counter :=
  Build_counter (S (c_missing c)) (c_nolabel c) (c_included c) (c_excluded c) (c_overlimit c) (c_highest c) (c_unweighted c).
Definition add_nolabel (c : counter) : counter :=
  Build_counter (c_missing c) (S (c_nolabel c)) (c_included c) (c_excluded c) (c_overlimit c) (c_highest c) (c_unweighted c).
Definition add_included (n : nat) (c : counter) : counter :=
  Build_counter (c_missing c) (c_nolabel c) (c_included c + n) (c_excluded c) (c_overlimit c) (c_highest c) (c_unweighted c).
Definition add_excluded (n : nat) (c : counter) : counter :=
  Build_counter (c_missing c) (c_nolabel c) (c_included c) (c_excluded c + n) (c_overlimit c) (c_highest c) (c_unweighted c).
Definition add_overlimit (n : nat) (c : counter) : counter :=
  Build_counter (c_missing c) (c_nolabel c) (c_included c) (c_excluded c) (S (c_overlimit c)) (Nat.max (c_highest c) n) (c_unweighted c).
Definition add_unweighted (c : counter) : counter :=
  Build_counter (c_missing c) (c_nolabel c) (c_included c) (c_excluded c) (c_overlimit c) (c_highest c) (S (c_unweighted c)).

(** Lines 285-312: weights of the matches of a row and their insertion. *)
Definition insert_hits (s : db) (g : Z) (lv : list N) (run : Z) (ids : list Z)
  (st : list hit * counter) : list hit * counter :=
  let pairs := map (fun i => (i, weight_for s g i)) ids in
  if (1 <? length pairs) && existsb (fun p => match snd p with None => true | Some _ => false end) pairs
  then (fst st, add_unweighted (snd st))
  else (fst st ++ map (fun p => {| h_run := run; h_index := fst p; h_level := lv;
                                   h_weight := snd p; h_prop := None |}) pairs, snd st).

(** Lines 265-273: whether a record was matched at another level. *)
Definition is_overlap (lv : list N) (l : list hit) (i : Z) : bool :=
  existsb (fun h => (h_index h =? i)%Z && negb (bytes_eqb (h_level h) lv)) l.

(** Models lines 235-312: one row at level [lv]. *)
Definition match_row (s : db) (g : Z) (limit : nat) (allow : bool) (lv : list N)
  (st : list hit * counter) (e : Z * side) : list hit * counter :=
  match sd_id (snd e) with
  | Some i =>
      match index_get i s with
      | Ok _ => insert_hits s g lv (fst e) [i] st
      | Err _ => (fst st, add_missing (snd st))
      end
  | None =>
      let all := candidates s (sd_loc (snd e)) in
      let ids := firstn (limit + 1) all in
      if nil_b ids then (fst st, add_nolabel (snd st))
      else if limit <? length ids then
        (fst st, add_overlimit (length ids + length (skipn (limit + 1) all)) (snd st))
      else if 1 <? length ids then
        if allow then
          insert_hits s g lv (fst e) ids
            (fst st, add_included (length (filter (is_overlap lv (fst st)) ids)) (snd st))
        else
          let kept := filter (fun i => negb (is_overlap lv (fst st) i)) ids in
          insert_hits s g lv (fst e) kept
            (fst st, add_excluded (length ids - length kept) (snd st))
      else insert_hits s g lv (fst e) ids st
  end.

(** [SELECT run_id, index_id, location FROM mapping_source WHERE level=?]. *)
Definition at_level (lv : list N) (es : list (Z * side)) : list (Z * side) :=
  filter (fun e => bytes_eqb (sd_level (snd e)) lv) es.

(** Models lines 193-313 [match_records] for one space: [es] are the run ids and the sides
    of the source rows that belong to it, [l] the match table before. *)
Definition match_records (gran : list bool -> option Q) (s : db) (limit : nat) (allow : bool)
  (es : list (Z * side)) (l : list hit) : res (list hit * counter) :=
  do g <- get_default_weight_group s;
  let st := fold_left (fun st lv => fold_left (match_row s g limit allow lv) (at_level lv es) st)
                      (sorted_levels gran s) (l, no_count) in
  Ok (refresh_hits (fst st), snd st).

Definition side_1 (src : list source) : list (Z * side) := map (fun r => (sr_run r, sr_1 r)) src.
Definition side_2 (src : list source) : list (Z * side) := map (fun r => (sr_run r, sr_2 r)) src.

(** Models lines 369-395 [is_fully_matched]; [get_cardinality] is repositories.py lines
    189-196. *)
Definition cardinality (s : db) : nat := length (filter (fun r => negb (ix_id r =? 0)%Z) (d_index s)).
Definition hit_count (l : list hit) : nat :=
  length (distinct Z.eqb (filter (fun i => negb (i =? 0)%Z) (map h_index l))).
Definition is_fully_matched (s1 s2 : db) (l1 l2 : list hit) : bool :=
  (cardinality s1 =? hit_count l1) && (cardinality s2 =? hit_count l2).

(** SQL product: NULL if a factor is NULL. *)
Definition sql_mult (a b : option Q) : option Q :=
  match a, b with Some x, Some y => Some (x * y)%Q | _, _ => None end.

(** Models lines 397-434 [iter_mappings]: rows (other_index_id, index_id, mapping_level),
    mapping_value.  [from] and [to] are the match tables of the source and the target
    space.  ORDER BY is left out. *)
Definition pair_key := (Z * Z * list N)%type.
Definition pair_eqb (a b : pair_key) : bool :=
  (fst (fst a) =? fst (fst b))%Z && (snd (fst a) =? snd (fst b))%Z && bytes_eqb (snd a) (snd b).
Definition joint (from to : list hit) : list (hit * hit) :=
  flat_map (fun a => map (fun b => (a, b))
              (filter (fun b => (h_run b =? h_run a)%Z &&
                                negb ((h_index a =? 0)%Z && (h_index b =? 0)%Z)) to)) from.
Definition joint_rows (src : list source) (from to : list hit) : list (pair_key * option Q) :=
  flat_map (fun r => map (fun p => ((h_index (fst p), h_index (snd p), h_level (snd p)),
                                    sql_mult (sr_value r) (sql_mult (h_prop (fst p)) (h_prop (snd p)))))
              (filter (fun p => (h_run (fst p) =? sr_run r)%Z) (joint from to))) src.
Definition iter_mappings (src : list source) (from to : list hit) : list (pair_key * option Q) :=
  group_by pair_eqb sql_sum (joint_rows src from to).

(** Models cli/command_mapping.py lines 408-416 and 425-433: the rows passed on to
    [insert_mappings2].  A NULL value, which fails the NOT NULL constraint there, is left
    out. *)
Definition to_rows (out : list (pair_key * option Q)) : list m_row :=
  flat_map (fun x => match snd x with
                     | Some q => [{| mr_other := fst (fst (fst x)); mr_index := snd (fst (fst x));
                                     mr_level := Some (snd (fst x)); mr_value := q; mr_labels := [] |}]
                     | None => []
                     end) out.
