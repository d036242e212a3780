(** Model of the data space's stored state and of the operations on index records,
    weight groups, weights, links and mappings.

    Sources: src/toron/dal1/schema.py (tables, CHECK and UNIQUE constraints, foreign keys
    and triggers), src/toron/dal1/repositories.py (repository methods),
    src/toron/data_models.py (repository methods implemented in base classes),
    src/toron/data_service.py and src/toron/space.py (operations).

    Simplifications that hold for the whole file:
    - rows of the [weight] and [mapping] tables are identified by their UNIQUE key
      instead of their surrogate primary key; tables are lists in storage order and a
      query returns matching rows in that order;
    - stored REAL numbers are exact rationals; NaN and infinities do not occur;
    - description, user properties and selectors of weight groups, granularity, logging
      and warnings are left out;
    - input rows are given with their columns resolved (by normalize_tabular,
      verify_columns_set and position lookup); ids are integers;
    - a row loop that reads with one cursor and writes with another reads all rows first;
    - [SequenceHash(ids).get_hexdigest()] is represented by the list of ids;
    - rowids of weight groups and links do not reach 2^63-1;
    - label columns have names that need no quoting (index_repo.update does not quote
      them and fails with OperationalError otherwise). *)
From Verif Require Import Prelude BitFlags_Model Selectors_Model LinkRef_Model.

(** *** Tables (schema.py lines 121-223) *)

(** schema.py lines 126-130 and 272-275: table [label_index]. *)
Record ixrec := { ix_id : Z; ix_labels : list text }.
(** schema.py lines 143-150: table [weight_group]. *)
Record group := { g_id : Z; g_name : text; g_complete : bool }.
(** schema.py lines 152-160: table [weight]. *)
Record weight := { w_group : Z; w_index : Z; w_value : Q }.
(** schema.py lines 199-212: table [mapping]. *)
Record mapping := {
  m_link : Z; m_other : Z; m_index : Z; m_level : list N; m_value : Q; m_prop : option Q
}.

(** The database of one space.  [d_fk]: whether foreign keys are enforced, which the
    connection does only where [PRAGMA foreign_keys = ON] was executed (schema.py line
    124).  [d_seq]: AUTOINCREMENT counter of [label_index].  [d_hash]: property
    [index_hash].  [d_default]: property [default_weight_group_id], absent or an id
    or null. *)
Record db := {
  d_fk : bool;
  d_labels : list text;
  d_index : list ixrec;
  d_seq : Z;
  d_structs : list (list bool);
  d_groups : list group;
  d_weights : list weight;
  d_links : list link;
  d_maps : list mapping;
  d_hash : list Z;
  d_default : option (option Z)
}.

Definition set_labels_index l x s :=
  {| d_fk := d_fk s; d_labels := l; d_index := x; d_seq := d_seq s; d_structs := d_structs s;
     d_groups := d_groups s; d_weights := d_weights s; d_links := d_links s; d_maps := d_maps s;
     d_hash := d_hash s; d_default := d_default s |}.
Definition set_index x s := set_labels_index (d_labels s) x s.
Definition set_index_seq x q s :=
  {| d_fk := d_fk s; d_labels := d_labels s; d_index := x; d_seq := q; d_structs := d_structs s;
     d_groups := d_groups s; d_weights := d_weights s; d_links := d_links s; d_maps := d_maps s;
     d_hash := d_hash s; d_default := d_default s |}.
Definition set_structs x s :=
  {| d_fk := d_fk s; d_labels := d_labels s; d_index := d_index s; d_seq := d_seq s; d_structs := x;
     d_groups := d_groups s; d_weights := d_weights s; d_links := d_links s; d_maps := d_maps s;
     d_hash := d_hash s; d_default := d_default s |}.
Definition set_groups x s :=
  {| d_fk := d_fk s; d_labels := d_labels s; d_index := d_index s; d_seq := d_seq s;
     d_structs := d_structs s; d_groups := x; d_weights := d_weights s; d_links := d_links s;
     d_maps := d_maps s; d_hash := d_hash s; d_default := d_default s |}.
Definition set_weights x s :=
  {| d_fk := d_fk s; d_labels := d_labels s; d_index := d_index s; d_seq := d_seq s;
     d_structs := d_structs s; d_groups := d_groups s; d_weights := x; d_links := d_links s;
     d_maps := d_maps s; d_hash := d_hash s; d_default := d_default s |}.
Definition set_links x s :=
  {| d_fk := d_fk s; d_labels := d_labels s; d_index := d_index s; d_seq := d_seq s;
     d_structs := d_structs s; d_groups := d_groups s; d_weights := d_weights s; d_links := x;
     d_maps := d_maps s; d_hash := d_hash s; d_default := d_default s |}.
Definition set_maps x s :=
  {| d_fk := d_fk s; d_labels := d_labels s; d_index := d_index s; d_seq := d_seq s;
     d_structs := d_structs s; d_groups := d_groups s; d_weights := d_weights s;
     d_links := d_links s; d_maps := x; d_hash := d_hash s; d_default := d_default s |}.
Definition set_hash x s :=
  {| d_fk := d_fk s; d_labels := d_labels s; d_index := d_index s; d_seq := d_seq s;
     d_structs := d_structs s; d_groups := d_groups s; d_weights := d_weights s;
     d_links := d_links s; d_maps := d_maps s; d_hash := x; d_default := d_default s |}.
Definition set_default x s :=
  {| d_fk := d_fk s; d_labels := d_labels s; d_index := d_index s; d_seq := d_seq s;
     d_structs := d_structs s; d_groups := d_groups s; d_weights := d_weights s;
     d_links := d_links s; d_maps := d_maps s; d_hash := d_hash s; d_default := x |}.
Definition set_fk x s :=
  {| d_fk := x; d_labels := d_labels s; d_index := d_index s; d_seq := d_seq s;
     d_structs := d_structs s; d_groups := d_groups s; d_weights := d_weights s;
     d_links := d_links s; d_maps := d_maps s; d_hash := d_hash s; d_default := d_default s |}.

(** Models schema.py lines 121-249 [create_schema_tables]: a new space, connected with
    foreign keys enforced. *)
Definition fresh : db :=
  {| d_fk := true; d_labels := []; d_index := [{| ix_id := 0; ix_labels := [] |}]; d_seq := 0;
     d_structs := []; d_groups := []; d_weights := []; d_links := []; d_maps := [];
     d_hash := [0%Z]; d_default := None |}.

(** Loop with early exit by exception. *)
Fixpoint fold_res {A S} (f : S -> A -> res S) (l : list A) (s : S) : res S :=
  match l with
  | [] => Ok s
  | a :: l' => do s' <- f s a; fold_res f l' s'
  end.

Fixpoint labels_eqb (a b : list text) : bool :=
  match a, b with
  | [], [] => true
  | x :: a', y :: b' => text_eqb x y && labels_eqb a' b'
  | _, _ => false
  end.

Definition is_empty (t : text) : bool := match t with [] => true | _ => false end.
Definition dash : text := txt "-".

Fixpoint zinsert (x : Z) (l : list Z) : list Z :=
  match l with
  | [] => [x]
  | y :: l' => if (x <=? y)%Z then x :: l else y :: zinsert x l'
  end.
Definition zsort (l : list Z) : list Z := fold_right zinsert [] l.

Definition zmax (l : list Z) : Z := fold_right Z.max 0%Z l.
Definition max_id : Z := 9223372036854775807.

(** *** Index repository (repositories.py lines 39-198) *)

(** Models repositories.py lines 57-69 [IndexRepository.get]. *)
Definition index_find (i : Z) (s : db) : option ixrec :=
  find (fun r => (ix_id r =? i)%Z) (d_index s).
Definition index_get (i : Z) (s : db) : res ixrec :=
  match index_find i s with Some r => Ok r | None => Err KeyError end.

(** First record with exactly these labels: [next(filter_by_label(..), None)] with a
    criterion for every label column (repositories.py lines 137-157). *)
Definition index_by_labels (labels : list text) (s : db) : option ixrec :=
  find (fun r => labels_eqb (ix_labels r) labels) (d_index s).

(** Constraints on the labels of one row: schema.py lines 272-275 and 307-314. *)
Definition labels_clash (labels : list text) (l : list ixrec) : bool :=
  existsb (fun r => labels_eqb (ix_labels r) labels) l.

(** Models repositories.py lines 44-55 [IndexRepository.add].  IntegrityError becomes
    ValueError; AUTOINCREMENT takes one more than the largest id ever used. *)
Definition index_add (labels : list text) (s : db) : res (db * Z) :=
  match labels with
  | [] => Err TypeError
  | _ =>
      if negb (length labels =? length (d_labels s)) then Err SqlOperationalError
      else if existsb is_empty labels then Err ValueError
      else if labels_clash labels (d_index s) then Err ValueError
      else
        let top := Z.max (d_seq s) (zmax (map ix_id (d_index s))) in
        if (max_id <=? top)%Z then Err SqlOperationalError
        else
          let i := (top + 1)%Z in
          Ok (set_index_seq (d_index s ++ [{| ix_id := i; ix_labels := labels |}]) i s, i)
  end.

(** Models repositories.py lines 71-81 [IndexRepository.update], the trigger of schema.py
    lines 323-330 and the constraints. *)
Definition index_update (i : Z) (labels : list text) (s : db) : res db :=
  if negb (length labels =? length (d_labels s)) then Err SqlOperationalError
  else match index_find i s with
  | None => Ok s
  | Some _ =>
      if (i =? 0)%Z then Err SqlIntegrityError
      else if existsb is_empty labels then Err SqlIntegrityError
      else if labels_clash labels (filter (fun r => negb (ix_id r =? i)%Z) (d_index s))
           then Err SqlIntegrityError
      else Ok (set_index (map (fun r => if (ix_id r =? i)%Z
                                        then {| ix_id := i; ix_labels := labels |} else r)
                              (d_index s)) s)
  end.

(** Models repositories.py lines 83-87 [IndexRepository.delete] and the trigger of schema.py
    lines 332-339. *)
Definition index_delete (i : Z) (s : db) : res db :=
  match index_find i s with
  | None => Ok s
  | Some _ =>
      if (i =? 0)%Z then Err SqlIntegrityError
      else Ok (set_index (filter (fun r => negb (ix_id r =? i)%Z) (d_index s)) s)
  end.

(** Models repositories.py lines 137-157 [filter_by_label].  A name that is no column is
    a string literal in SQLite (double-quoted string fallback).  The column [index_id]
    as a criterion is not modelled. *)
Fixpoint label_of (k : text) (cols : list text) (labels : list text) : option text :=
  match cols, labels with
  | c :: cols', v :: labels' => if text_eqb c k then Some v else label_of k cols' labels'
  | _, _ => None
  end.
Definition criterion_holds (cols : list text) (r : ixrec) (kv : text * text) : bool :=
  match label_of (fst kv) cols (ix_labels r) with
  | Some v => text_eqb v (snd kv)
  | None => text_eqb (fst kv) (snd kv)
  end.
Definition filter_by_label (criteria : list (text * text)) (s : db) : list ixrec :=
  filter (fun r => forallb (criterion_holds (d_labels s) r) criteria) (d_index s).

(** Models data_service.py lines 110-123 [refresh_index_hash_property]. *)
Definition refresh_hash (s : db) : db := set_hash (zsort (map ix_id (d_index s))) s.

(** *** Weight groups (repositories.py lines 343-424) *)

Definition group_by_name (n : text) (s : db) : option group :=
  find (fun g => text_eqb (g_name g) n) (d_groups s).
Definition group_by_id (i : Z) (s : db) : option group :=
  find (fun g => (g_id g =? i)%Z) (d_groups s).

(** Models repositories.py lines 348-365 [WeightGroupRepository.add].  A rowid without
    AUTOINCREMENT is one more than the largest present one. *)
Definition group_add (n : text) (complete : bool) (s : db) : res db :=
  match group_by_name n s with
  | Some _ => Err SqlIntegrityError
  | None => Ok (set_groups (d_groups s ++
      [{| g_id := zmax (map g_id (d_groups s)) + 1; g_name := n; g_complete := complete |}]) s)
  end.

(** Models repositories.py lines 398-418 [WeightGroupRepository.update]. *)
Definition group_update (g : group) (s : db) : res db :=
  if existsb (fun x => negb (g_id x =? g_id g)%Z && text_eqb (g_name x) (g_name g)) (d_groups s)
  then Err SqlIntegrityError
  else Ok (set_groups (map (fun x => if (g_id x =? g_id g)%Z then g else x) (d_groups s)) s).

(** [group_repo.update(replace(group, is_complete=c))]. *)
Definition set_complete (i : Z) (c : bool) (s : db) : db :=
  set_groups (map (fun x => if (g_id x =? i)%Z
                            then {| g_id := g_id x; g_name := g_name x; g_complete := c |} else x)
                  (d_groups s)) s.

(** Models repositories.py lines 420-424 [delete_and_cascade]; the cascade is done by the
    foreign key (schema.py line 157) if it is enforced. *)
Definition group_delete (i : Z) (s : db) : db :=
  let s := set_groups (filter (fun g => negb (g_id g =? i)%Z) (d_groups s)) s in
  if d_fk s then set_weights (filter (fun w => negb (w_group w =? i)%Z) (d_weights s)) s else s.

(** *** Weights (repositories.py lines 427-551, data_models.py lines 725-822) *)

Definition weight_is (g i : Z) (w : weight) : bool := (w_group w =? g)%Z && (w_index w =? i)%Z.
Definition weight_find (g i : Z) (s : db) : option weight := find (weight_is g i) (d_weights s).

(** Models repositories.py lines 432-462 [WeightRepository.add]. *)
Definition weight_add (g i : Z) (v : Q) (s : db) : res db :=
  if (i =? 0)%Z then Err ValueError
  else if negb (Qle_bool 0 v) then Err ValueError
  else if (i <? 0)%Z then Err SqlIntegrityError
  else if existsb (weight_is g i) (d_weights s) then Err ValueError
  else if d_fk s && negb (existsb (fun x => (g_id x =? g)%Z) (d_groups s)) then Err ValueError
  else Ok (set_weights (d_weights s ++ [{| w_group := g; w_index := i; w_value := v |}]) s).

(** Models repositories.py lines 477-492 [WeightRepository.update] of a record whose group
    and index are unchanged. *)
Definition weight_update (g i : Z) (v : Q) (s : db) : res db :=
  if negb (Qle_bool 0 v) then Err ValueError
  else Ok (set_weights (map (fun w => if weight_is g i w
                                      then {| w_group := g; w_index := i; w_value := v |} else w)
                            (d_weights s)) s).

Definition weight_delete (g i : Z) (s : db) : db :=
  set_weights (filter (fun w => negb (weight_is g i w)) (d_weights s)) s.

Definition weights_of_index (i : Z) (s : db) : list weight :=
  filter (fun w => (w_index w =? i)%Z) (d_weights s).

(** Models repositories.py lines 532-551 [weight_group_is_complete]. *)
Definition group_is_complete (g : Z) (s : db) : bool :=
  forallb (fun r => (ix_id r =? 0)%Z || existsb (weight_is g (ix_id r)) (d_weights s)) (d_index s).

Inductive policy := PAbort | PIgnore | PReplace | PSum | PInvalid.
Inductive code := CInserted | CSkipped | COverwritten | CSummed.

(** Models data_models.py lines 725-797 [add_or_resolve]. *)
Definition add_or_resolve (g i : Z) (v : Q) (p : policy) (s : db) : res (db * code) :=
  match weight_add g i v s with
  | Ok s' => Ok (s', CInserted)
  | Err ValueError =>
      if (i =? 0)%Z || negb (Qle_bool 0 v) then Err ValueError
      else match p with
      | PIgnore => Ok (s, CSkipped)
      | _ =>
          match weight_find g i s with
          | None => Err KeyError
          | Some w =>
              match p with
              | PReplace => do s' <- weight_update g i v s; Ok (s', COverwritten)
              | PSum => do s' <- weight_update g i (w_value w + v)%Q s; Ok (s', CSummed)
              | PAbort => Err PlainException
              | _ => Err ValueError
              end
          end
      end
  | Err e => Err e
  end.

(** [d[key] = f(d[key])] on a defaultdict. *)
Fixpoint tally {K V} (eqb : K -> K -> bool) (zero : V) (k : K) (f : V -> V) (d : list (K * V))
  : list (K * V) :=
  match d with
  | [] => [(k, f zero)]
  | (k', v) :: d' => if eqb k' k then (k', f v) :: d' else (k', v) :: tally eqb zero k f d'
  end.

(** [{target}.union([index_id])]. *)
Definition merge_ids (i target : Z) : list Z := if (i =? target)%Z then [target] else [target; i].

(** Models data_models.py lines 799-822 [BaseWeightRepository.merge_by_index_id] for one id. *)
Definition weight_merge (i target : Z) (s : db) : res db :=
  let old := flat_map (fun j => weights_of_index j s) (merge_ids i target) in
  let sums := fold_left (fun d w => tally Z.eqb 0%Q (w_group w) (fun q => q + w_value w)%Q d)
                        old [] in
  let s1 := fold_left (fun s w => weight_delete (w_group w) (w_index w) s) old s in
  fold_res (fun s gv => weight_add (fst gv) target (snd gv) s) sums s1.

(** *** Links (repositories.py lines 798-976) *)

Definition link_clash (k : link) (l : list link) : bool :=
  existsb (fun x => text_eqb (k_other x) (k_other k) &&
                    (text_eqb (k_name x) (k_name k) || (k_default x && k_default k))) l.

Definition with_id (i : Z) (k : link) : link :=
  {| k_id := i; k_other := k_other k; k_hint := k_hint k; k_name := k_name k;
     k_selectors := k_selectors k; k_default := k_default k; k_hash := k_hash k;
     k_complete := k_complete k |}.
Definition with_default (b : bool) (k : link) : link :=
  {| k_id := k_id k; k_other := k_other k; k_hint := k_hint k; k_name := k_name k;
     k_selectors := k_selectors k; k_default := b; k_hash := k_hash k;
     k_complete := k_complete k |}.
Definition with_status (h : option (list Z)) (c : bool) (k : link) : link :=
  {| k_id := k_id k; k_other := k_other k; k_hint := k_hint k; k_name := k_name k;
     k_selectors := k_selectors k; k_default := k_default k; k_hash := h; k_complete := c |}.

(** Models repositories.py lines 803-845 [LinkRepository.add] with the UNIQUE constraints
    of schema.py lines 194-195. *)
Definition link_add (k : link) (s : db) : res db :=
  if link_clash k (d_links s) then Err SqlIntegrityError
  else Ok (set_links (d_links s ++ [with_id (zmax (map k_id (d_links s)) + 1) k]) s).

(** Models repositories.py lines 898-929 [LinkRepository.update]. *)
Definition link_update (k : link) (s : db) : res db :=
  if link_clash k (filter (fun x => negb (k_id x =? k_id k)%Z) (d_links s))
  then Err SqlIntegrityError
  else Ok (set_links (map (fun x => if (k_id x =? k_id k)%Z then k else x) (d_links s)) s).

(** [link_repo.update(replace(link, other_index_hash=.., is_locally_complete=..))]. *)
Definition set_status (i : Z) (h : option (list Z)) (c : bool) (s : db) : db :=
  set_links (map (fun x => if (k_id x =? i)%Z then with_status h c x else x) (d_links s)) s.

(** Models repositories.py lines 931-935 [delete_and_cascade]; the cascade is done by the
    foreign key (schema.py line 208) if it is enforced. *)
Definition link_delete (i : Z) (s : db) : db :=
  let s := set_links (filter (fun k => negb (k_id k =? i)%Z) (d_links s)) s in
  if d_fk s then set_maps (filter (fun m => negb (m_link m =? i)%Z) (d_maps s)) s else s.

(** *** Mappings (repositories.py lines 979-1237, data_models.py lines 1076-1250) *)

Definition same_map (a b : mapping) : bool :=
  (m_link a =? m_link b)%Z && (m_other a =? m_other b)%Z && (m_index a =? m_index b)%Z &&
  bytes_eqb (m_level a) (m_level b).

(** CHECK constraints of schema.py lines 202-207. *)
Definition map_ok (m : mapping) : bool :=
  Qle_bool 0 (m_value m) &&
  match m_prop m with None => true | Some p => Qle_bool 0 p && Qle_bool p 1 end &&
  negb ((m_other m =? 0)%Z && (m_index m =? 0)%Z).

(** Models repositories.py lines 985-1021 [MappingRepository.add]; a level that is not bytes
    is [None]. *)
Definition map_add (l o i : Z) (level : option (list N)) (v : Q) (p : option Q) (s : db)
  : res db :=
  if (o =? 0)%Z && (i =? 0)%Z then Err ValueError
  else match level with
  | None => Err TypeError
  | Some lv =>
      let m := {| m_link := l; m_other := o; m_index := i; m_level := lv; m_value := v;
                  m_prop := p |} in
      if negb (map_ok m) then Err SqlIntegrityError
      else if existsb (same_map m) (d_maps s) then Err SqlIntegrityError
      else if d_fk s && negb (existsb (fun k => (k_id k =? l)%Z) (d_links s))
           then Err SqlIntegrityError
      else Ok (set_maps (d_maps s ++ [m]) s)
  end.

Definition map_delete (m : mapping) (s : db) : db :=
  set_maps (filter (fun x => negb (same_map m x)) (d_maps s)) s.

(** Models repositories.py lines 1081-1105 [MappingRepository.update] of level and value. *)
Definition map_update (old new : mapping) (s : db) : res db :=
  if negb (map_ok new) then Err SqlIntegrityError
  else if existsb (fun x => negb (same_map old x) && same_map new x) (d_maps s)
       then Err SqlIntegrityError
  else Ok (set_maps (map (fun x => if same_map old x then new else x) (d_maps s)) s).

Definition with_prop (m : mapping) (p : option Q) : mapping :=
  {| m_link := m_link m; m_other := m_other m; m_index := m_index m; m_level := m_level m;
     m_value := m_value m; m_prop := p |}.
Definition with_level (m : mapping) (lv : list N) : mapping :=
  {| m_link := m_link m; m_other := m_other m; m_index := m_index m; m_level := lv;
     m_value := m_value m; m_prop := m_prop m |}.
Definition with_value_level (m : mapping) (v : Q) (lv : list N) : mapping :=
  {| m_link := m_link m; m_other := m_other m; m_index := m_index m; m_level := lv;
     m_value := v; m_prop := m_prop m |}.

Definition map_at (l o : Z) (m : mapping) : bool := (m_link m =? l)%Z && (m_other m =? o)%Z.

(** Models repositories.py lines 1147-1168 [find_distinct_other_index_ids] with the
    undefined id included and in ascending order. *)
Definition distinct_others (l : Z) (s : db) : list Z :=
  0%Z :: zsort (nodup Z.eq_dec
    (map m_other (filter (fun m => (m_link m =? l)%Z && (0 <? m_other m)%Z) (d_maps s)))).

(** data_models.py lines 1233-1249: the new version of one of the mappings [ms] of the source
    record [o]. *)
Definition refreshed (o : Z) (ms : list mapping) (m : mapping) : mapping :=
  if (o =? 0)%Z then with_prop m (Some 0%Q)
  else
    let total := Qsum (map m_value ms) in
    with_prop m (Some (if Qeq_bool total 0 then 1 / inject_Z (Z.of_nat (length ms))
                       else m_value m / total))%Q.

(** Models data_models.py lines 1225-1250 [refresh_proportions].  The updates of the single
    records are done together; if one of them fails the whole call fails. *)
Definition refresh_proportions (l o : Z) (s : db) : res db :=
  let ms := filter (map_at l o) (d_maps s) in
  if (o =? 0)%Z && existsb (fun m => (m_index m =? 0)%Z) ms then Err ValueError
  else if negb (forallb (fun m => map_ok (refreshed o ms m)) ms) then Err SqlIntegrityError
  else Ok (set_maps (map (fun m => if map_at l o m then refreshed o ms m else m) (d_maps s)) s).

(** Models repositories.py lines 1215-1233 [mapping_is_complete]. *)
Definition mapping_is_complete (l : Z) (s : db) : bool :=
  forallb (fun r => (ix_id r =? 0)%Z ||
                    existsb (fun m => (m_link m =? l)%Z && (m_index m =? ix_id r)%Z) (d_maps s))
          (d_index s).

Definition maps_of_index (i : Z) (s : db) : list mapping :=
  filter (fun m => (m_index m =? i)%Z) (d_maps s).

Definition mkey_eqb (a b : Z * Z * list N) : bool :=
  (fst (fst a) =? fst (fst b))%Z && (snd (fst a) =? snd (fst b))%Z && bytes_eqb (snd a) (snd b).
Definition prop_add (p q : option Q) : option Q :=
  match p, q with Some x, Some y => Some (x + y)%Q | _, _ => None end.

(** Models data_models.py lines 1190-1223 [BaseMappingRepository.merge_by_index_id] for one id. *)
Definition map_merge (i target : Z) (s : db) : res db :=
  let old := flat_map (fun j => maps_of_index j s) (merge_ids i target) in
  let sums := fold_left (fun d m =>
    tally mkey_eqb (0%Q, Some 0%Q) (m_link m, m_other m, m_level m)
      (fun vp => (fst vp + m_value m, prop_add (snd vp) (m_prop m))%Q) d) old [] in
  let s1 := fold_left (fun s m => map_delete m s) old s in
  fold_res (fun s kv => let '((l, o, lv), (v, p)) := kv in map_add l o target (Some lv) v p s)
           sums s1.

(** *** Transactions *)

(** Deferred foreign keys, checked by COMMIT (schema.py lines 158 and 209).  The counter of
    SQLite starts at zero, so only violations are counted that the transaction caused;
    this is the same because enforced databases have none before. *)
Definition fk_ok (s : db) : bool :=
  forallb (fun w => existsb (fun r => (ix_id r =? w_index w)%Z) (d_index s)) (d_weights s) &&
  forallb (fun m => existsb (fun r => (ix_id r =? m_index m)%Z) (d_index s)) (d_maps s).

(** Models space.py lines 228-249 [_managed_transaction] around a body: see also C23. *)
Definition transact (body : db -> res db) (s : db) : db * option exn :=
  match body s with
  | Err e => (s, Some e)
  | Ok s' => if d_fk s' && negb (fk_ok s') then (s, Some SqlIntegrityError) else (s', None)
  end.

(** *** Operations of the space *)

Inductive cell := CEmpty | CBad | CNum (q : Q).

(** One row for insert_index: the index_id cell (if the column exists and is not empty),
    the labels ([nil] if there are no label columns) and the cells of the weight columns. *)
Record ins_row := { ir_id : option Z; ir_labels : list text; ir_cells : list cell }.

Record ins_state := { is_db : db; is_label : bool; is_weight : bool }.

(** Models space.py lines 701-733: one weight cell. *)
Definition insert_index_weight (pol : policy) (i : Z) (st : ins_state) (gc : option group * cell)
  : res ins_state :=
  match gc with
  | (None, _) => Ok st
  | (Some g, CEmpty) => Ok st
  | (Some g, CBad) => Err ValueError
  | (Some g, CNum v) =>
      match weight_find (g_id g) i (is_db st) with
      | Some _ =>
          match pol with
          | PAbort => Err ValueError
          | PIgnore => Ok st
          | PReplace => do s <- weight_update (g_id g) i v (is_db st);
                        Ok {| is_db := s; is_label := is_label st; is_weight := is_weight st |}
          | _ => Err ValueError
          end
      | None => do s <- weight_add (g_id g) i v (is_db st);
                Ok {| is_db := s; is_label := is_label st; is_weight := true |}
      end
  end.

(** Models space.py lines 646-733: one row. *)
Definition insert_index_row (lpol wpol : policy) (gs : list (option group)) (st : ins_state)
  (r : ins_row) : res ins_state :=
  if existsb is_empty (ir_labels r) then Ok st
  else
    do x <- match ir_id r with
      | Some i =>
          do rec <- index_get i (is_db st);
          if nil_b (ir_labels r) || labels_eqb (ir_labels r) (ix_labels rec) then Ok (st, i)
          else match lpol with
          | PAbort => Err ValueError
          | PIgnore => Ok (st, i)
          | PReplace => do s <- index_update i (ir_labels r) (is_db st);
                        Ok ({| is_db := s; is_label := is_label st; is_weight := is_weight st |}, i)
          | _ => Err ValueError
          end
      | None =>
          match index_add (ir_labels r) (is_db st) with
          | Ok (s, i) => Ok ({| is_db := s; is_label := true; is_weight := is_weight st |}, i)
          | Err ValueError =>
              match index_by_labels (ir_labels r) (is_db st) with
              | Some rec => Ok (st, ix_id rec)
              | None => Err ValueError
              end
          | Err e => Err e
          end
      end;
    fold_res (insert_index_weight wpol (snd x)) (combine gs (ir_cells r)) (fst x).

(** Recompute the completeness flag of every group (space.py lines 757-761). *)
Definition refresh_group_flags (s : db) : db :=
  set_groups (map (fun g => {| g_id := g_id g; g_name := g_name g;
                               g_complete := group_is_complete (g_id g) s |}) (d_groups s)) s.
(** Raise the flag of groups that became complete (space.py lines 978-982, 1079-1083). *)
Definition raise_group_flags (s : db) : db :=
  set_groups (map (fun g => {| g_id := g_id g; g_name := g_name g;
                               g_complete := g_complete g || group_is_complete (g_id g) s |})
                  (d_groups s)) s.

Definition clear_link_flags (s : db) : db :=
  set_links (map (fun k => with_status (k_hash k) false k) (d_links s)) s.
(** space.py lines 984-989. *)
Definition raise_link_flags (s : db) : db :=
  set_links (map (fun k => with_status (k_hash k)
                             (k_complete k || mapping_is_complete (k_id k) s) k) (d_links s)) s.
(** space.py lines 1085-1112. *)
Definition refresh_links (s : db) : db :=
  set_links (map (fun k => with_status (Some (distinct_others (k_id k) s))
                             (k_complete k || mapping_is_complete (k_id k) s) k) (d_links s)) s.

(** Models space.py lines 575-761 [insert_index].  [wsel]: the [weights] argument;
    [wcols]: names of the columns that are not label columns, in order; each row has one
    cell for each of them.  The structure is refreshed elsewhere (see [OSetStructure]). *)
Definition insert_index (wsel : option (list text)) (wcols : list text) (lpol wpol : policy)
  (rows : list ins_row) (s : db) : res db :=
  if match wsel with
     | Some names => existsb (fun n => negb (existsb (text_eqb n) wcols)) names
     | None => false end then Err KeyError
  else if nil_b (d_labels s) then Err PlainException
  else
    do sel <- match wsel with
      | None => Ok (d_groups s)
      | Some names => traverse (fun n => match group_by_name n s with
                                         | Some g => Ok g | None => Err KeyError end) names
      end;
    let gs := map (fun c => find (fun g => text_eqb (g_name g) c) sel) wcols in
    do st <- fold_res (insert_index_row lpol wpol gs) rows
               {| is_db := s; is_label := false; is_weight := false |};
    let s1 := if is_label st then clear_link_flags (refresh_hash (is_db st)) else is_db st in
    Ok (if is_label st || is_weight st then refresh_group_flags s1 else s1).

(** One row for update_index: [ur_blank] tells whether another column holds the empty
    string. *)
Record upd_row := { ur_id : Z; ur_labels : list text; ur_blank : bool }.
Record upd_state := { us_db : db; us_merged : list Z; us_updated : bool }.

(** Models space.py lines 915-962: one row. *)
Definition update_index_row (merge : bool) (st : upd_state) (r : upd_row) : res upd_state :=
  if ur_blank r || existsb is_empty (ur_labels r) then Ok st
  else match index_find (ur_id r) (us_db st) with
  | None =>
      if existsb (Z.eqb (ur_id r)) (us_merged st) then Err ValueError else Ok st
  | Some rec =>
      do st1 <- match index_by_labels (ur_labels r) (us_db st) with
        | Some matching =>
            if negb merge then Err ValueError
            else
              do s <- weight_merge (ix_id matching) (ix_id rec) (us_db st);
              do s <- map_merge (ix_id matching) (ix_id rec) s;
              do s <- index_delete (ix_id matching) s;
              Ok {| us_db := s; us_merged := ix_id matching :: us_merged st;
                    us_updated := us_updated st |}
        | None => Ok st
        end;
      do s <- index_update (ix_id rec) (ur_labels r) (us_db st1);
      Ok {| us_db := s; us_merged := us_merged st1; us_updated := true |}
  end.

(** Models space.py lines 890-989 [update_index]. *)
Definition update_index (merge : bool) (rows : list upd_row) (s : db) : res db :=
  do st <- fold_res (update_index_row merge) rows
             {| us_db := s; us_merged := []; us_updated := false |};
  Ok (match us_merged st with
      | [] => us_db st
      | _ => raise_link_flags (raise_group_flags (refresh_hash (us_db st)))
      end).

(** [bytes(BitFlags([1] * n))]. *)
Definition full_level (s : db) : list N :=
  bf_to_bytes (of_bits (map (fun _ => true) (d_labels s))).

Definition refresh_all_links (o : Z) (s : db) : res db :=
  fold_res (fun s k => refresh_proportions (k_id k) o s) (d_links s) s.

(** Models data_service.py lines 126-167 [delete_index_record]. *)
Definition delete_index_record (i : Z) (s : db) : res db :=
  let s1 := fold_left (fun s w => weight_delete (w_group w) (w_index w) s)
                      (weights_of_index i s) s in
  let ms := maps_of_index i s1 in
  if existsb (fun m => negb (bytes_eqb (m_level m) (full_level s))) ms then Err ValueError
  else
    let s2 := fold_left (fun s m => map_delete m s) ms s1 in
    do s3 <- fold_res (fun s o => refresh_all_links o s) (nodup Z.eq_dec (map m_other ms)) s2;
    index_delete i s3.

(** One row for delete_index and delete_weights. *)
Record del_row := { dr_id : Z; dr_labels : list text }.

(** Models space.py lines 1067-1112: what follows the deletions. *)
Definition after_delete (s : db) : db :=
  refresh_links (raise_group_flags (refresh_hash s)).

(** Models space.py lines 1018-1112 [delete_index] with [data]. *)
Definition delete_index_rows (rows : list del_row) (s : db) : res db :=
  if nil_b rows then Err TypeError
  else
    do x <- fold_res (fun x r =>
              match index_find (dr_id r) (fst x) with
              | None => Ok x
              | Some rec =>
                  if labels_eqb (ix_labels rec) (dr_labels r)
                  then do s' <- delete_index_record (ix_id rec) (fst x); Ok (s', true)
                  else Ok x
              end) rows (s, false);
    Ok (if snd x then after_delete (fst x) else fst x).

(** Models space.py lines 1018-1112 [delete_index] with criteria. *)
Definition delete_index_criteria (criteria : list (text * text)) (s : db) : res db :=
  if nil_b criteria then Err TypeError
  else
    let recs := filter_by_label criteria s in
    do s' <- fold_res (fun s r => delete_index_record (ix_id r) s) recs s;
    Ok (if nil_b recs then s' else after_delete s').

(** Models data_service.py lines 620-629 [set_default_weight_group] and space.py lines
    1128-1133. *)
Definition set_default_weight_group (i : option Z) (s : db) : res db :=
  Ok (set_default (Some i) s).

(** Models space.py lines 1145-1183 [add_weight_group]. *)
Definition add_weight_group (n : text) (complete : bool) (make_default : option bool) (s : db)
  : res db :=
  let mk := match make_default with
            | None => nil_b (d_groups s)
            | Some b => b end in
  match group_by_name n s with
  | Some _ => Err ToronError
  | None =>
      do s1 <- group_add n complete s;
      if mk then
        match group_by_name n s1 with
        | Some g => set_default_weight_group (Some (g_id g)) s1
        | None => Err KeyError
        end
      else Ok s1
  end.

(** Models space.py lines 1185-1195 [edit_weight_group] with changes to the name and the
    completeness flag. *)
Definition edit_weight_group (n : text) (new_name : option text) (complete : option bool) (s : db)
  : res db :=
  match group_by_name n s with
  | None => Ok s
  | Some g =>
      group_update {| g_id := g_id g;
                      g_name := match new_name with Some x => x | None => g_name g end;
                      g_complete := match complete with Some c => c | None => g_complete g end |} s
  end.

(** Models space.py lines 1197-1214 [drop_weight_group]. *)
Definition drop_weight_group (n : text) (s : db) : res db :=
  match group_by_name n s with
  | None => Ok s
  | Some g =>
      let s1 := group_delete (g_id g) s in
      match d_default s1 with
      | None => Err KeyError
      | Some d =>
          Ok (match d with
              | Some i => if (g_id g =? i)%Z then set_default None s1 else s1
              | None => s1
              end)
      end
  end.

(** One row for insert_weights and update_weights; [wr_id] is [None] if there is no
    index_id column. *)
Record w_row := { wr_id : option Z; wr_labels : list text; wr_cell : cell }.

(** Models space.py lines 1305-1356: one row of insert_weights. *)
Definition insert_weights_row (gid : Z) (pol : policy) (x : db * bool) (r : w_row)
  : res (db * bool) :=
  match wr_cell r with
  | CNum v =>
      let rec := match wr_id r with
        | Some i =>
            match index_find i (fst x) with
            | Some rec => if labels_eqb (wr_labels r) (ix_labels rec) then Some rec else None
            | None => None
            end
        | None => index_by_labels (wr_labels r) (fst x)
        end in
      match rec with
      | None => Ok x
      | Some rec =>
          if (ix_id rec =? 0)%Z then Ok x
          else match add_or_resolve gid (ix_id rec) v pol (fst x) with
          | Ok (s, CInserted) => Ok (s, true)
          | Ok (s, _) => Ok (s, snd x)
          | Err _ => Err PlainException
          end
      end
  | _ => Ok x
  end.

(** Models space.py lines 1270-1360 [insert_weights]. *)
Definition insert_weights (n : text) (pol : policy) (rows : list w_row) (s : db) : res db :=
  match pol with
  | PInvalid => Err ValueError
  | _ =>
      do s0 <- match group_by_name n s with Some _ => Ok s | None => group_add n false s end;
      match group_by_name n s0 with
      | None => Err KeyError
      | Some g =>
          do x <- fold_res (insert_weights_row (g_id g) pol) rows (s0, false);
          Ok (if snd x && group_is_complete (g_id g) (fst x)
              then set_complete (g_id g) true (fst x) else fst x)
      end
  end.

Record uw_row := { uw_id : Z; uw_labels : list text; uw_value : Q }.

(** Models space.py lines 1391-1449 [update_weights]. *)
Definition update_weights (n : text) (rows : list uw_row) (s : db) : res db :=
  match group_by_name n s with
  | None => Err KeyError
  | Some g =>
      do x <- fold_res (fun x r =>
        match index_find (uw_id r) (fst x) with
        | None => Ok x
        | Some rec =>
            if negb (labels_eqb (uw_labels r) (ix_labels rec)) then Ok x
            else match weight_find (g_id g) (uw_id r) (fst x) with
            | Some _ => do s' <- weight_update (g_id g) (uw_id r) (uw_value r) (fst x);
                        Ok (s', snd x)
            | None => do s' <- weight_add (g_id g) (uw_id r) (uw_value r) (fst x); Ok (s', true)
            end
        end) rows (s, false);
      Ok (if snd x && group_is_complete (g_id g) (fst x)
          then set_complete (g_id g) true (fst x) else fst x)
  end.

(** Models space.py lines 1529-1545 and 1553-1561: deletion of the weight of one record. *)
Definition delete_weight_of (gid i : Z) (x : db * bool) : db * bool :=
  match weight_find gid i (fst x) with
  | Some w => (weight_delete (w_group w) (w_index w) (fst x), true)
  | None => x
  end.

Definition after_delete_weights (g : group) (x : db * bool) : db :=
  if snd x && g_complete g then set_complete (g_id g) false (fst x) else fst x.

(** Models space.py lines 1491-1567 [delete_weights] with [data]. *)
Definition delete_weights_rows (n : text) (rows : list del_row) (s : db) : res db :=
  match group_by_name n s with
  | None => Err KeyError
  | Some g =>
      if nil_b rows then Err TypeError
      else Ok (after_delete_weights g (fold_left (fun x r =>
        match index_find (dr_id r) (fst x) with
        | None => x
        | Some rec => if labels_eqb (dr_labels r) (ix_labels rec)
                      then delete_weight_of (g_id g) (ix_id rec) x else x
        end) rows (s, false)))
  end.

(** Models space.py lines 1491-1567 [delete_weights] with criteria. *)
Definition delete_weights_criteria (n : text) (criteria : list (text * text)) (s : db) : res db :=
  match group_by_name n s with
  | None => Err KeyError
  | Some g =>
      if nil_b criteria then Err TypeError
      else Ok (after_delete_weights g
        (fold_left (fun x r => delete_weight_of (g_id g) (ix_id r) x)
                   (filter_by_label criteria s) (s, false)))
  end.

(** Models space.py lines 1609-1662 [add_link].  The arguments are those of the new link;
    [dflt] is the argument [is_default]. *)
Definition add_link (new : link) (dflt : option bool) (s : db) : res db :=
  let others := find_by_other_unique_id (k_other new) (d_links s) in
  if existsb (fun k => text_eqb (k_name k) (k_name new)) others then Err ToronError
  else
    let d := match dflt with None => nil_b others | Some b => b end in
    do s1 <- (if d then
                fold_res (fun s k => if k_default k then link_update (with_default false k) s
                                     else Ok s) others s
              else Ok s);
    link_add (with_default d new) s1.

(** Fields that edit_link may change. *)
Record link_changes := {
  c_other : option text; c_hint : option (option text); c_name : option text;
  c_selectors : option (list text); c_default : option bool;
  c_hash : option (option (list Z)); c_complete : option bool
}.
Definition or_old {A} (x : option A) (old : A) : A := match x with Some a => a | None => old end.
Definition apply_changes (c : link_changes) (k : link) : link :=
  {| k_id := k_id k; k_other := or_old (c_other c) (k_other k);
     k_hint := or_old (c_hint c) (k_hint k); k_name := or_old (c_name c) (k_name k);
     k_selectors := or_old (c_selectors c) (k_selectors k);
     k_default := or_old (c_default c) (k_default k); k_hash := or_old (c_hash c) (k_hash k);
     k_complete := or_old (c_complete c) (k_complete k) |}.

(** Models space.py lines 1664-1686 [edit_link]. *)
Definition edit_link (ref name : text) (c : link_changes) (s : db) : res db :=
  do k <- get_link ref (Some name) true (d_links s);
  do s1 <- match c_default c with
    | Some true => fold_res (fun s m => link_update (with_default false m) s)
                     (find_by_other_unique_id (k_other k) (d_links s)) s
    | _ => Ok s
    end;
  link_update (apply_changes c k) s1.

(** Models space.py lines 1688-1697 [drop_link]. *)
Definition drop_link (ref name : text) (s : db) : res db :=
  do k <- get_link ref (Some name) true (d_links s);
  Ok (link_delete (k_id k) s).

(** One row for the mapping operations; [mr_level] is [None] for a Python None. *)
Record m_row := {
  mr_other : Z; mr_index : Z; mr_level : option (list N); mr_value : Q; mr_labels : list text
}.

(** Refresh of proportions, hash and flag after a change to the mappings of a link
    (space.py lines 1823-1843, 1919-1937, 2029-2046, 2190-2207). *)
Definition refresh_link (l : Z) (s : db) : res db :=
  do s1 <- fold_res (fun s o => refresh_proportions l o s) (distinct_others l s) s;
  Ok (set_status l (Some (distinct_others l s)) (mapping_is_complete l s1) s1).

(** Models space.py lines 1789-1815: one row of insert_mappings2. *)
Definition insert_mappings2_row (l : Z) (x : db * bool) (r : m_row) : res (db * bool) :=
  if negb (existsb (fun bits =>
             match mr_level r with
             | None => negb (existsb (fun b => b) bits)
             | Some lv => existsb (fun b => b) bits && bytes_eqb (bf_to_bytes (of_bits bits)) lv
             end) (d_structs (fst x))) then Ok x
  else if (mr_other r =? 0)%Z && (mr_index r =? 0)%Z then Ok x
  else do s <- map_add l (mr_other r) (mr_index r) (mr_level r) (mr_value r) None (fst x);
       Ok (s, true).

(** Models space.py lines 1747-1853 [insert_mappings2]. *)
Definition insert_mappings2 (ref : text) (name : option text) (rows : list m_row) (s : db)
  : res db :=
  do k <- get_link ref name true (d_links s);
  do x <- fold_res (insert_mappings2_row (k_id k)) rows (s, false);
  if snd x then refresh_link (k_id k) (fst x) else Ok (fst x).

(** [mapping_level and BitFlags(mapping_level) not in structure]. *)
Definition bad_level (lv : option (list N)) (s : db) : bool :=
  match lv with
  | None => false
  | Some b => negb (nil_b b) &&
              negb (existsb (fun bits => bf_eqb (of_bits bits) (of_bytes b)) (d_structs s))
  end.

(** Models space.py lines 1889-1917: one row of insert_mappings. *)
Definition insert_mappings_row (l : Z) (x : db * bool) (r : m_row) : res (db * bool) :=
  match index_find (mr_index r) (fst x) with
  | None => Ok x
  | Some rec =>
      if negb (labels_eqb (mr_labels r) (ix_labels rec)) then Ok x
      else if bad_level (mr_level r) (fst x) then Ok x
      else match map_add l (mr_other r) (mr_index r) (mr_level r) (mr_value r) None (fst x) with
           | Ok s => Ok (s, true)
           | Err _ => Err PlainException
           end
  end.

(** Models space.py lines 1855-1937 [insert_mappings]. *)
Definition insert_mappings (ref : text) (name : option text) (rows : list m_row) (s : db)
  : res db :=
  do k <- get_link ref name true (d_links s);
  do x <- fold_res (insert_mappings_row (k_id k)) rows (s, false);
  if snd x then refresh_link (k_id k) (fst x) else Ok (fst x).

Definition map_find (l o i : Z) (s : db) : option mapping :=
  find (fun m => map_at l o m && (m_index m =? i)%Z) (d_maps s).

Record um_state := { um_db : db; um_inserted : bool; um_updated : bool }.

(** Models space.py lines 1981-2026: one row of update_mappings.  The record read from
    the database has a proportion; [replace] of a record from the undefined record with
    a proportion other than zero cannot happen.  A level of None fails the NOT NULL
    constraint. *)
Definition update_mappings_row (l : Z) (st : um_state) (r : m_row) : res um_state :=
  match index_find (mr_index r) (um_db st) with
  | None => Ok st
  | Some rec =>
      if negb (labels_eqb (mr_labels r) (ix_labels rec)) then Ok st
      else if bad_level (mr_level r) (um_db st) then Ok st
      else match map_find l (mr_other r) (mr_index r) (um_db st) with
      | Some m =>
          match mr_level r with
          | None => Err SqlIntegrityError
          | Some lv =>
              do s <- map_update m (with_value_level m (mr_value r) lv) (um_db st);
              Ok {| um_db := s; um_inserted := um_inserted st; um_updated := true |}
          end
      | None =>
          do s <- map_add l (mr_other r) (mr_index r) (mr_level r) (mr_value r) None (um_db st);
          Ok {| um_db := s; um_inserted := true; um_updated := um_updated st |}
      end
  end.

(** Models space.py lines 1947-2056 [update_mappings]. *)
Definition update_mappings (ref : text) (name : option text) (rows : list m_row) (s : db)
  : res db :=
  do k <- get_link ref name true (d_links s);
  do st <- fold_res (update_mappings_row (k_id k)) rows
             {| um_db := s; um_inserted := false; um_updated := false |};
  if um_inserted st then refresh_link (k_id k) (um_db st)
  else if um_updated st then
    fold_res (fun s o => refresh_proportions (k_id k) o s) (distinct_others (k_id k) (um_db st))
             (um_db st)
  else Ok (um_db st).

(** [bytes(BitFlags(label_columns))]: a column name is a true value unless empty. *)
Definition whole_level (s : db) : list N :=
  bf_to_bytes (of_bits (map (fun c => negb (is_empty c)) (d_labels s))).

(** Models space.py lines 2128-2167: one row of delete_mappings. *)
Definition delete_mappings_row (l : Z) (x : db * bool) (r : m_row) : db * bool :=
  match index_find (mr_index r) (fst x) with
  | None => x
  | Some rec =>
      if negb (labels_eqb (mr_labels r) (ix_labels rec)) then x
      else match map_find l (mr_other r) (mr_index r) (fst x) with
      | None => x
      | Some m =>
          if negb (Qeq_bool (m_value m) (mr_value r)) then x
          else if negb (bytes_eqb (m_level m) (whole_level (fst x))) then x
          else (map_delete m (fst x), true)
      end
  end.

(** Models space.py lines 2082-2207 [delete_mappings] with [data]. *)
Definition delete_mappings_rows (ref : text) (name : option text) (rows : list m_row) (s : db)
  : res db :=
  do k <- get_link ref name true (d_links s);
  if nil_b rows then Err TypeError
  else
    let x := fold_left (delete_mappings_row (k_id k)) rows (s, false) in
    if snd x then refresh_link (k_id k) (fst x) else Ok (fst x).

Definition criteria_flags (criteria : list (text * text)) (s : db) : bitflags :=
  of_bits (map (fun c => existsb (fun kv => text_eqb (fst kv) c) criteria) (d_labels s)).

(** [criteria_level == criteria_level | BitFlags(mapping_level)]. *)
Definition level_within (flags : bitflags) (m : mapping) : bool :=
  bf_eqb flags (bf_or flags (of_bytes (m_level m))).

(** Models space.py lines 2082-2207 [delete_mappings] with criteria. *)
Definition delete_mappings_criteria (ref : text) (name : option text)
  (criteria : list (text * text)) (s : db) : res db :=
  do k <- get_link ref name true (d_links s);
  if nil_b criteria then Err TypeError
  else
    let flags := criteria_flags criteria s in
    let x := fold_left (fun x r =>
      fold_left (fun x m => if level_within flags m then (map_delete m (fst x), true) else x)
        (filter (fun m => (m_link m =? k_id k)%Z && (m_index m =? ix_id r)%Z) (d_maps (fst x))) x)
      (filter_by_label criteria s) (s, false) in
    if snd x then refresh_link (k_id k) (fst x) else Ok (fst x).

(** Models space.py lines 2211-2293 [reify_mappings].  There is no transaction: every
    record update is committed by itself, so the result is a state even on failure. *)
Fixpoint reify_list (lv : list N) (ms : list mapping) (s : db) : db * option exn :=
  match ms with
  | [] => (s, None)
  | m :: ms' =>
      match map_update m (with_level m lv) s with
      | Ok s' => reify_list lv ms' s'
      | Err e => (s, Some e)
      end
  end.

Definition reify_mappings (ref : text) (name : text) (criteria : list (text * text)) (s : db)
  : db * option exn :=
  match get_link ref (Some name) true (d_links s) with
  | Err e => (s, Some e)
  | Ok k =>
      let lv := full_level s in
      let ambiguous m := negb (bytes_eqb (m_level m) lv) in
      let ms := filter (fun m => (m_link m =? k_id k)%Z) (d_maps s) in
      if nil_b criteria then reify_list lv (filter ambiguous ms) s
      else
        let flags := criteria_flags criteria s in
        reify_list lv
          (flat_map (fun r => filter (fun m => (m_index m =? ix_id r)%Z && ambiguous m &&
                                               level_within flags m) ms)
                    (filter_by_label criteria s)) s
  end.

(** *** Label columns (space.py lines 420-573, label_manager.py lines 22-117) *)

(** Models space.py lines 454-523 [add_index_columns] as far as the index table is concerned:
    existing records get the default label (schema.py line 275).  Reserved names and
    attribute names are left out (see C43). *)
Definition add_columns (cols : list text) (s : db) : res db :=
  match cols with
  | [] => Err TypeError
  | _ =>
      if existsb (fun c => existsb (text_eqb c) (d_labels s)) cols then Err ToronError
      else if negb (length (nodup (list_eq_dec N.eq_dec) cols) =? length cols)
      then Err SqlOperationalError
      else Ok (set_labels_index (d_labels s ++ cols)
             (map (fun r => {| ix_id := ix_id r;
                               ix_labels := ix_labels r ++ map (fun _ => dash) cols |})
                  (d_index s)) s)
  end.

(** Models space.py lines 525-551 [rename_index_columns] (one pair of names is what
    [rename_label_column] does). *)
Definition rename_columns (m : list (text * text)) (s : db) : res db :=
  if existsb (fun p => negb (existsb (text_eqb (fst p)) (d_labels s))) m then Err ToronError
  else if existsb (fun p => existsb (text_eqb (snd p)) (d_labels s)) m then Err ToronError
  else if negb (length (nodup (list_eq_dec N.eq_dec) (map snd m)) =? length m)
  then Err SqlOperationalError
  else Ok (set_labels_index
         (map (fun c => match find (fun p => text_eqb (fst p) c) m with
                        | Some p => snd p | None => c end) (d_labels s)) (d_index s) s).

Fixpoint keep {A} (flags : list bool) (l : list A) : list A :=
  match flags, l with
  | true :: f, x :: l' => x :: keep f l'
  | false :: f, _ :: l' => keep f l'
  | _, _ => []
  end.

Fixpoint distinct_labels (l : list (list text)) : bool :=
  match l with
  | [] => true
  | x :: l' => negb (existsb (labels_eqb x) l') && distinct_labels l'
  end.

(** Models space.py lines 553-573 [drop_index_columns] and label_manager.py lines 87-117.
    Creating the UNIQUE indexes again fails if two records, locations or structures
    have become equal; whether locations or structures do is the input [clash]. *)
Definition drop_columns (cols : list text) (clash : bool) (s : db) : res db :=
  match cols with
  | [] => Err TypeError
  | _ =>
      let flags := map (fun c => negb (existsb (text_eqb c) cols)) (d_labels s) in
      let index := map (fun r => {| ix_id := ix_id r; ix_labels := keep flags (ix_labels r) |})
                       (d_index s) in
      if forallb negb flags then Err RuntimeError
      else if clash || negb (distinct_labels (map ix_labels index)) then Err SqlIntegrityError
      else Ok (set_structs (map (keep flags) (d_structs s))
                 (set_labels_index (keep flags (d_labels s)) index s))
  end.

(** *** Histories *)

Inductive op :=
| OInsertIndex (wsel : option (list text)) (wcols : list text) (lpol wpol : policy)
               (rows : list ins_row)
| OUpdateIndex (merge : bool) (rows : list upd_row)
| ODeleteIndexRows (rows : list del_row)
| ODeleteIndexCriteria (criteria : list (text * text))
| OSetDefaultGroup (i : option Z)
| OAddGroup (n : text) (complete : bool) (make_default : option bool)
| OEditGroup (n : text) (new_name : option text) (complete : option bool)
| ODropGroup (n : text)
| OInsertWeights (n : text) (pol : policy) (rows : list w_row)
| OUpdateWeights (n : text) (rows : list uw_row)
| ODeleteWeightsRows (n : text) (rows : list del_row)
| ODeleteWeightsCriteria (n : text) (criteria : list (text * text))
| OAddLink (new : link) (dflt : option bool)
| OEditLink (ref name : text) (c : link_changes)
| ODropLink (ref name : text)
| OInsertMappings2 (ref : text) (name : option text) (rows : list m_row)
| OInsertMappings (ref : text) (name : option text) (rows : list m_row)
| OUpdateMappings (ref : text) (name : option text) (rows : list m_row)
| ODeleteMappingsRows (ref : text) (name : option text) (rows : list m_row)
| ODeleteMappingsCriteria (ref : text) (name : option text) (criteria : list (text * text))
| OReify (ref name : text) (criteria : list (text * text))
| OAddColumns (cols : list text)
| ORenameColumns (m : list (text * text))
| ODropColumns (cols : list text) (clash : bool)
(** The effect on the structure table of partition definition changes (see C01-C03). *)
| OSetStructure (structs : list (list bool))
(** The space is stored in a file and opened again: the new connection does not execute
    [PRAGMA foreign_keys = ON]. *)
| OReopen.

Definition step (o : op) (s : db) : db * option exn :=
  match o with
  | OInsertIndex wsel wcols lp wp rows => transact (insert_index wsel wcols lp wp rows) s
  | OUpdateIndex merge rows => transact (update_index merge rows) s
  | ODeleteIndexRows rows => transact (delete_index_rows rows) s
  | ODeleteIndexCriteria c => transact (delete_index_criteria c) s
  | OSetDefaultGroup i => transact (set_default_weight_group i) s
  | OAddGroup n c d => transact (add_weight_group n c d) s
  | OEditGroup n nn c => transact (edit_weight_group n nn c) s
  | ODropGroup n => transact (drop_weight_group n) s
  | OInsertWeights n p rows => transact (insert_weights n p rows) s
  | OUpdateWeights n rows => transact (update_weights n rows) s
  | ODeleteWeightsRows n rows => transact (delete_weights_rows n rows) s
  | ODeleteWeightsCriteria n c => transact (delete_weights_criteria n c) s
  | OAddLink k d => transact (add_link k d) s
  | OEditLink r n c => transact (edit_link r n c) s
  | ODropLink r n => transact (drop_link r n) s
  | OInsertMappings2 r n rows => transact (insert_mappings2 r n rows) s
  | OInsertMappings r n rows => transact (insert_mappings r n rows) s
  | OUpdateMappings r n rows => transact (update_mappings r n rows) s
  | ODeleteMappingsRows r n rows => transact (delete_mappings_rows r n rows) s
  | ODeleteMappingsCriteria r n c => transact (delete_mappings_criteria r n c) s
  | OReify r n c => reify_mappings r n c s
  | OAddColumns cols => transact (add_columns cols) s
  | ORenameColumns m => transact (rename_columns m) s
  | ODropColumns cols clash => transact (drop_columns cols clash) s
  | OSetStructure x => transact (fun s => Ok (set_structs x s)) s
  | OReopen => (set_fk false s, None)
  end.

Fixpoint run (ops : list op) (s : db) : db :=
  match ops with
  | [] => s
  | o :: ops' => run ops' (fst (step o s))
  end.
