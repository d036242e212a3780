(** Model of reading disaggregated quantities from a space.

    Sources: src/toron/space.py lines 2762-2972, src/toron/dal1/repositories.py lines 303-308
    and 743-795, src/toron/data_service.py lines 631-687.

    Simplifications that hold for the whole file:
    - those of Quantity_Model; selectors are given parsed;
    - the generator is consumed at once (NodeReader.__init__ does so), so an exception on the
      way makes the whole call fail;
    - SQLite's limit on the number of parameters is not modelled;
    - the texts of log messages are left out, the matches they report are kept. *)
From Verif Require Import Prelude BitFlags_Model Selectors_Model LinkRef_Model Db_Model Quantize_Model
  Disaggregate_Model Reader_Model Mapper_Model Quantity_Model.

(** [attributes.update(domain_dict)] (space.py lines 2771, 2826 and 2849). *)
Fixpoint dict_set (k v : text) (d : row) : row :=
  match d with
  | [] => [(k, v)]
  | (k', v') :: d' => if text_eqb k k' then (k', v) :: d' else (k', v') :: dict_set k v d'
  end.
Definition add_domain (s : store) (a : row) : row :=
  if is_empty (s_domain s) then a else dict_set (txt "domain") (s_domain s) a.

(** repositories.py lines 303-308 [StructureRepository.get_all]: ORDER BY _granularity DESC
    puts NULL last; granularities are not negative. *)
Definition structures (s : store) : list (list bool) := sort_levels (s_gran s) (d_structs (s_db s)).

(** [structure.granularity == finest_granularity]. *)
Definition gran_eqb (a b : option Q) : bool :=
  match a, b with
  | Some x, Some y => Qeq_bool x y
  | None, None => true
  | _, _ => false
  end.

(** Lines 764-767 of repositories.py: the conditions on the label columns. *)
Definition level_matches (bits : list bool) (labels : list text) : bool :=
  forallb (fun p => Bool.eqb (fst p) (negb (is_empty (snd p)))) (combine bits labels).

(** ORDER BY a._location_id. *)
Fixpoint insert_quantity (x : quantity * location) (l : list (quantity * location)) :=
  match l with
  | [] => [x]
  | y :: l' => if (qt_loc (fst x) <=? qt_loc (fst y))%Z then x :: l else y :: insert_quantity x l'
  end.
Definition by_location (l : list (quantity * location)) := fold_right insert_quantity [] l.

(** Models repositories.py lines 743-795 [find_by_structure]; every quantity comes with the
    location it is joined with.  Without any condition the WHERE clause is empty. *)
Definition find_by_structure (bits : list bool) (ids : option (list Z)) (s : store)
  : res (list (quantity * location)) :=
  match ids with
  | Some [] => Ok []
  | _ =>
      if nil_b (combine (d_labels (s_db s)) bits) && match ids with None => true | Some _ => false end
      then Err SqlOperationalError
      else
        let joined := flat_map (fun x => map (fun l => (x, l))
                        (filter (fun l => (l_id l =? qt_loc x)%Z) (s_locs s))) (s_quants s) in
        Ok (by_location (filter (fun xl =>
              level_matches bits (l_labels (snd xl)) &&
              match ids with
              | None => true
              | Some ids => existsb (Z.eqb (qt_attr (fst xl))) ids
              end) joined))
  end.

(** Lines 2795-2798 of space.py: [selector_dict]. *)
Definition selector_dict (s : store) : list (Z * option (list selector)) :=
  flat_map (fun g =>
    if g_complete g then
      match find (fun p => (fst p =? g_id g)%Z) (s_sels s) with
      | Some (_, x :: l) => [(g_id g, Some (x :: l))]
      | _ => []
      end
    else []) (d_groups (s_db s)).

Definition weight_of (s : db) (g : Z) : weights :=
  fun i => match weight_find g i s with Some w => Some (w_value w) | None => None end.

(** Lines 2816-2882 of space.py: one quantity at a structure.  [finest] tells whether the
    structure has the finest granularity. *)
Definition read_quantity (upper : text -> text) (quantize finest : bool) (default : Z) (s : store)
  (xl : quantity * location) : res (list datum) :=
  let '(x, l) := xl in
  let ids := candidates (s_db s) (l_labels l) in
  match ids with
  | [] => Err RuntimeError
  | i :: _ =>
      do a <- attrs_get (qt_attr x) s;
      let a := add_domain s a in
      do items <- if finest then Ok [(i, qt_value x)]
                  else
                    do g <- greatest_unique upper Z a (selector_dict s) default;
                    do items <- disaggregate_value (qt_value x) ids (weight_of (s_db s) g);
                    if quantize then quantized (Some (qt_value x)) items else Ok items;
      Ok (map (fun p => {| n_index := fst p; n_attrs := a; n_value := Some (snd p) |}) items)
  end.

(** Models space.py lines 2762-2882 [_disaggregate]. *)
Definition read_level (upper : text -> text) (quantize : bool) (ids : option (list Z)) (default : Z)
  (finest : option Q) (s : store) (bits : list bool) : res (list datum) :=
  do qs <- find_by_structure bits ids s;
  do ds <- traverse (read_quantity upper quantize (gran_eqb (s_gran s bits) finest) default s) qs;
  Ok (concat ds).
Definition is_complete (i : Z) (s : db) : bool :=
  match group_by_id i s with Some g => g_complete g | None => false end.
Definition disaggregate (upper : text -> text) (ids : option (list Z)) (quantize : bool) (s : store)
  : res (list datum) :=
  do default <- get_default_weight_group (s_db s);
  if negb (is_complete default (s_db s)) then Err RuntimeError
  else match structures s with
  | [] => Err IndexError
  | first :: _ =>
      do ds <- traverse (read_level upper quantize ids default (s_gran s first) s) (structures s);
      Ok (concat ds)
  end.

(** Lines 2903-2914 of space.py: the attribute groups chosen by selectors. *)
Definition read_filter (upper : text -> text) (sels : list selector) (s : store) : res (option (list Z)) :=
  match sels with
  | [] => Ok None
  | _ =>
      do flags <- traverse (fun g => do b <- scan true (call upper (ag_attrs g)) sels;
                                     Ok (if b then [ag_id g] else [])) (s_attrs s);
      Ok (Some (concat flags))
  end.

(** Models data_service.py lines 650-687 [find_matching_weight_groups]: what the log reports. *)
Definition matching_groups (upper : text -> text) (ids : option (list Z)) (s : store) : res (list (row * Z)) :=
  do default <- get_default_weight_group (s_db s);
  do groups <- match ids with
               | Some (i :: l) => traverse (fun i => attrs_get i s) (i :: l)
               | _ => Ok (map ag_attrs (s_attrs s))
               end;
  traverse (fun a => do g <- greatest_unique upper Z a (selector_dict s) default; Ok (a, g)) groups.

(** Lines 2950-2960: only the attributes [names] are kept, and the domain. *)
Definition filter_attrs (names : list text) (s : store) (a : row) : row :=
  match names with
  | [] => a
  | _ =>
      let names := if is_empty (s_domain s) then names else txt "domain" :: names in
      filter (fun kv => existsb (text_eqb (fst kv)) names) a
  end.

(** Models space.py lines 2884-2972 [__call__]; [names] is [sum_by_attrs], empty if not
    given. *)
Definition read_data (upper : text -> text) (sels : list selector) (quantize : bool) (names : list text)
  (s : store) : res (list datum) :=
  do ids <- read_filter upper sels s;
  do _ <- matching_groups upper ids s;
  do data <- disaggregate upper ids quantize s;
  Ok (map (fun d => {| n_index := n_index d; n_attrs := filter_attrs names s (n_attrs d);
                       n_value := n_value d |}) data).
Definition read_space (upper : text -> text) (sels : list selector) (quantize : bool) (names : list text)
  (s : store) : res reader :=
  do data <- read_data upper sels quantize names s; Ok (load data).
