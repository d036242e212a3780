(** Model of the upgrade of old files.
    Sources: src/toron/dal1/migrations.py (all), src/toron/dal1/schema.py lines 290-355
    [create_schema_constraints], [drop_schema_constraints], lines 377-404 [verify_foreign_key_check].
    The tables of version 0.2.0 are those of tests/dal1/test_migrations.py lines 17-170.

    Simplifications:
    - one record holds the tables of all versions; [f_old_names] says whether the tables have the names
      of version 0.2.0;
    - a REAL is an exact rational; NaN and infinities are not modelled;
    - the rows that GROUP BY produces come in order of first occurrence (SQLite's order is that of the
      group key; no property below depends on it), and SUM adds the values of a group in table order;
    - JSON values are represented by what they decode to; a JSON object has distinct keys and strings
      as values;
    - free text columns of weight groups, and the autoincrement table, which no step touches, are left out;
    - a failing INSERT ... SELECT is represented by its exception class, whatever row caused it. *)
From Verif Require Import Prelude BitFlags_Model Selectors_Model SelectorParse_Model LinkRef_Model Db_Model Reader_Model.
Local Open Scope nat_scope.

(** Values of a NUMERIC column.  [VText q]: text that does not look like a number; [q] is the number that
    SQLite reads from its beginning (0 if there is none). *)
Inductive value := VInt (z : Z) | VReal (q : Q) | VText (q : Q).

(** Rows of table quantity. *)
Record qty := { q_id : Z; q_loc : option Z; q_grp : option Z; q_val : value }.
(** Rows of table relation or mapping. *)
Record rel := {
  r_id : Z; r_link : option Z; r_other : Z; r_index : option Z; r_level : option (list N);
  r_val : Q; r_prop : option Q
}.
(** Rows of table crosswalk or link. *)
Record xlink := {
  x_id : Z; x_other : text; x_hint : option text; x_name : text; x_descr : option text;
  x_selectors : option (list text); x_default : bool; x_user : option text; x_hash : option text;
  x_complete : bool
}.
(** Values of table property. *)
Inductive pval := PStr (t : text) | PObj (d : list (text * text)) | PTexts (l : list text) | POther (t : text).

Record file := {
  f_old_names : bool;
  f_columns : list text;
  f_index : list (Z * list text);
  f_locs : list (Z * list text);
  f_structs : list (Z * list bool);
  f_wgroups : list Z;
  f_weights : list (Z * option Z * option Z * Q);
  f_agroups : list (Z * list (text * text));
  f_qtys : list qty;
  f_links : list xlink;
  f_rels : list rel;
  f_props : list (text * pval)
}.

Definition with_names (b : bool) (f : file) : file :=
  {| f_old_names := b; f_columns := f_columns f; f_index := f_index f; f_locs := f_locs f; f_structs := f_structs f;
     f_wgroups := f_wgroups f; f_weights := f_weights f; f_agroups := f_agroups f; f_qtys := f_qtys f;
     f_links := f_links f; f_rels := f_rels f; f_props := f_props f |}.
Definition with_qtys (q : list qty) (f : file) : file :=
  {| f_old_names := f_old_names f; f_columns := f_columns f; f_index := f_index f; f_locs := f_locs f; f_structs := f_structs f;
     f_wgroups := f_wgroups f; f_weights := f_weights f; f_agroups := f_agroups f; f_qtys := q;
     f_links := f_links f; f_rels := f_rels f; f_props := f_props f |}.
Definition with_rels (r : list rel) (f : file) : file :=
  {| f_old_names := f_old_names f; f_columns := f_columns f; f_index := f_index f; f_locs := f_locs f; f_structs := f_structs f;
     f_wgroups := f_wgroups f; f_weights := f_weights f; f_agroups := f_agroups f; f_qtys := f_qtys f;
     f_links := f_links f; f_rels := r; f_props := f_props f |}.
Definition with_props (p : list (text * pval)) (f : file) : file :=
  {| f_old_names := f_old_names f; f_columns := f_columns f; f_index := f_index f; f_locs := f_locs f; f_structs := f_structs f;
     f_wgroups := f_wgroups f; f_weights := f_weights f; f_agroups := f_agroups f; f_qtys := f_qtys f;
     f_links := f_links f; f_rels := f_rels f; f_props := p |}.

(** A UNIQUE constraint holds for the keys. *)
Fixpoint unique {A} (dec : forall x y : A, {x = y} + {x <> y}) (l : list A) : bool :=
  match l with
  | [] => true
  | x :: l' => negb (if in_dec dec x l' then true else false) && unique dec l'
  end.
Definition text_dec (a b : text) : {a = b} + {a <> b} := list_eq_dec N.eq_dec a b.
Definition pair_dec {A B} (da : forall x y : A, {x = y} + {x <> y}) (db : forall x y : B, {x = y} + {x <> y}) :
  forall x y : A * B, {x = y} + {x <> y}.
Proof. decide equality. Defined.
Definition option_dec {A} (da : forall x y : A, {x = y} + {x <> y}) : forall x y : option A, {x = y} + {x <> y}.
Proof. decide equality. Defined.

(** Models migrations.py lines 19-56 [v020_to_v030_step01_link_table]: the rows are copied; the constraints
    of the new table are checked (UNIQUE on is_default and other_unique_id ignores NULL). *)
Definition step01 (f : file) : res file :=
  if negb (f_old_names f) then Err SqlOperationalError
  else if unique Z.eq_dec (map x_id (f_links f)) &&
          unique (pair_dec text_dec text_dec) (map (fun x => (x_name x, x_other x)) (f_links f)) &&
          unique text_dec (map x_other (filter x_default (f_links f)))
  then Ok f
  else Err SqlIntegrityError.

(** Line 94: a row that the WHERE clause keeps: NOT (other_index_id = 0 AND index_id = 0) is true.  With
    index_id NULL it is NULL if other_index_id is 0. *)
Definition keeps (r : rel) : bool :=
  match r_index r with
  | Some i => negb ((r_other r =? 0)%Z && (i =? 0)%Z)
  | None => negb (r_other r =? 0)%Z
  end.
(** Line 90: COALESCE(mapping_level, ?). *)
Definition fill_level (level : list N) (r : rel) : rel :=
  {| r_id := r_id r; r_link := r_link r; r_other := r_other r; r_index := r_index r;
     r_level := match r_level r with Some l => Some l | None => Some level end;
     r_val := r_val r; r_prop := r_prop r |}.
(** Lines 64-77: NOT NULL and CHECK constraints of a row of the new table. *)
Definition rel_ok (r : rel) : bool :=
  match r_link r, r_index r, r_level r with
  | Some _, Some i, Some _ =>
      Qle_bool 0 (r_val r) &&
      match r_prop r with Some p => Qle_bool 0 p && Qle_bool p 1 | None => true end &&
      (negb (r_other r =? 0)%Z || negb (i =? 0)%Z)
  | _, _, _ => false
  end.
Definition rel_key (r : rel) : option Z * Z * option Z * option (list N) := (r_link r, r_other r, r_index r, r_level r).
Definition rel_key_dec : forall x y : option Z * Z * option Z * option (list N), {x = y} + {x <> y} :=
  pair_dec (pair_dec (pair_dec (option_dec Z.eq_dec) Z.eq_dec) (option_dec Z.eq_dec)) (option_dec (list_eq_dec N.eq_dec)).
(** Models lines 59-99 [v020_to_v030_step02_relation_table]. *)
Definition step02 (whole_space_level : list N) (f : file) : res file :=
  let rows := map (fill_level whole_space_level) (filter keeps (f_rels f)) in
  if forallb rel_ok rows && unique Z.eq_dec (map r_id rows) && unique rel_key_dec (map rel_key rows)
  then Ok (with_rels rows f)
  else Err SqlIntegrityError.

(** SQLite's SUM: integers are added exactly, with an error when the running sum leaves 64 bits; after the
    first value that is not an integer the sum is REAL. *)
Definition in_i64 (z : Z) : bool := (- 2 ^ 63 <=? z)%Z && (z <? 2 ^ 63)%Z.
Definition sum_step (acc : value) (v : value) : res value :=
  match acc, v with
  | VInt a, VInt b => if in_i64 (a + b) then Ok (VInt (a + b)) else Err SqlOperationalError
  | VInt a, VReal q | VInt a, VText q => Ok (VReal (inject_Z a + q)%Q)
  | VReal p, VInt b | VText p, VInt b => Ok (VReal (p + inject_Z b)%Q)
  | VReal p, VReal q | VReal p, VText q | VText p, VReal q | VText p, VText q => Ok (VReal (p + q)%Q)
  end.
Definition sum_values (l : list value) : res value := fold_res sum_step l (VInt 0).

Definition qty_key (q : qty) : option Z * option Z := (q_loc q, q_grp q).
Definition qty_key_dec : forall x y : option Z * option Z, {x = y} + {x <> y} :=
  pair_dec (option_dec Z.eq_dec) (option_dec Z.eq_dec).
Fixpoint min_id (i : Z) (l : list qty) : Z :=
  match l with [] => i | q :: l' => min_id (Z.min i (q_id q)) l' end.
(** The keys in order of first occurrence. *)
Fixpoint first_keys (seen : list (option Z * option Z)) (l : list qty) : list (option Z * option Z) :=
  match l with
  | [] => []
  | q :: l' => if in_dec qty_key_dec (qty_key q) seen then first_keys seen l'
               else qty_key q :: first_keys (qty_key q :: seen) l'
  end.
(** One group of lines 119-128. *)
Definition group_row (qs : list qty) (k : option Z * option Z) : res qty :=
  match filter (fun q => if qty_key_dec (qty_key q) k then true else false) qs with
  | [] => Err SqlOperationalError (* not reached: a group has a row *)
  | q :: rest =>
      do v <- sum_values (map q_val (q :: rest));
      match k with
      | (Some _, Some _) => Ok {| q_id := min_id (q_id q) rest; q_loc := fst k; q_grp := snd k; q_val := v |}
      | _ => Err SqlIntegrityError
      end
  end.
(** Models lines 102-132 [v020_to_v030_step03_quantity_table]. *)
Definition step03 (f : file) : res file :=
  do rows <- traverse (group_row (f_qtys f)) (first_keys [] (f_qtys f));
  if unique Z.eq_dec (map q_id rows) && unique qty_key_dec (map qty_key rows)
  then Ok (with_qtys rows f)
  else Err SqlIntegrityError.

(** Models lines 135-140 [v020_to_v030_step04_rename_label_tables]. *)
Definition step04 (f : file) : res file := Ok (with_names false f).

(** *** Table property *)

Fixpoint prop_get (k : text) (l : list (text * pval)) : option pval :=
  match l with
  | [] => None
  | (k', v) :: l' => if text_eqb k' k then Some v else prop_get k l'
  end.
(** UPDATE main.property SET value=? WHERE key=?. *)
Definition prop_set (k : text) (v : pval) (l : list (text * pval)) : list (text * pval) :=
  map (fun p => if text_eqb (fst p) k then (fst p, v) else p) l.
(** INSERT INTO main.property VALUES(?, ?). *)
Definition prop_insert (k : text) (v : pval) (l : list (text * pval)) : res (list (text * pval)) :=
  match prop_get k l with
  | Some _ => Err SqlIntegrityError
  | None => Ok (l ++ [(k, v)])
  end.
(** UPDATE main.property SET key=? WHERE key=?. *)
Definition prop_rename (old new : text) (l : list (text * pval)) : res (list (text * pval)) :=
  match prop_get old l, prop_get new l with
  | Some _, Some _ => Err SqlIntegrityError
  | _, _ => Ok (map (fun p => if text_eqb (fst p) old then (new, snd p) else p) l)
  end.

(** Lines 160-163. *)
Definition domain_text (d : list (text * text)) : text :=
  match d with
  | [(k, v)] => if text_eqb k (txt "domain") then v else k ++ txt "_" ++ v
  | _ => join (txt "_") (map (fun p => fst p ++ txt "_" ++ snd p) (sort_keys d))
  end.

(** [sorted(set(...))]. *)
Fixpoint insert_text (t : text) (l : list text) : list text :=
  match l with
  | [] => [t]
  | u :: l' => if text_ltb u t then u :: insert_text t l' else if text_eqb u t then l else t :: l
  end.
Definition sorted_set (l : list text) : list text := fold_right insert_text [] l.

(** Models lines 143-197 [v020_to_v030_step05_properties]. *)
Definition step05 (f : file) : res file :=
  do domain <-
    match prop_get (txt "domain") (f_props f) with
    | Some (PObj d) => Ok (domain_text d)
    | Some _ => Err PlainException
    | None => Ok []
    end;
  let props := prop_set (txt "domain") (PStr domain) (f_props f) in
  let keys := sorted_set (flat_map (fun g => map fst (snd g)) (f_agroups f)) in
  do props <- prop_insert (txt "registered_attributes") (PTexts keys) props;
  do props <- prop_rename (txt "discrete_categories") (txt "partition_definitions") props;
  Ok (with_props (prop_set (txt "toron_schema_version") (PStr (txt "0.3.0")) props) f).

(** Models lines 204-223 [v030_to_v031_step01_properties]; [now]: the current time. *)
Definition step06 (now : text) (f : file) : res file :=
  do props <- prop_insert (txt "user_properties") (PObj []) (f_props f);
  do props <- prop_insert (txt "created_date") (PStr now) props;
  Ok (with_props (prop_set (txt "toron_schema_version") (PStr (txt "0.3.1")) props) f).

(** Models schema.py lines 377-404 [verify_foreign_key_check]; NULL refers to nothing. *)
Definition refers (o : option Z) (ids : list Z) : bool :=
  match o with Some i => existsb (Z.eqb i) ids | None => true end.
Definition foreign_key_check (f : file) : bool :=
  forallb (fun r => refers (r_link r) (map x_id (f_links f)) && refers (r_index r) (map fst (f_index f))) (f_rels f) &&
  forallb (fun w => match w with (_, g, i, _) => refers g (f_wgroups f) && refers i (map fst (f_index f)) end) (f_weights f) &&
  forallb (fun q => refers (q_loc q) (map fst (f_locs f)) && refers (q_grp q) (map fst (f_agroups f))) (f_qtys f).

(** Models schema.py lines 290-339 [create_schema_constraints]: the unique indexes can be created. *)
Definition create_schema_constraints (f : file) : res file :=
  if f_old_names f then Err SqlOperationalError (* no such table: label_index *)
  else if nil_b (f_columns f) then Ok f
  else if unique (list_eq_dec text_dec) (map snd (f_index f)) &&
          unique (list_eq_dec text_dec) (map snd (f_locs f)) &&
          unique (list_eq_dec bool_dec) (map snd (f_structs f))
  then Ok f
  else Err SqlIntegrityError.

(** Lines 263-283: the body of the transaction. *)
Definition migrate (version : pval) (now : text) (f : file) : res file :=
  let level := bf_to_bytes (of_bits (map (fun _ => true) (f_columns f))) in
  do f <-
    match version with
    | PStr v =>
        if text_eqb v (txt "0.2.0") then
          do f <- step01 f; do f <- step02 level f; do f <- step03 f; do f <- step04 f; do f <- step05 f;
          step06 now f
        else if text_eqb v (txt "0.3.0") then step06 now f
        else Ok f
    | _ => Ok f
    end;
  if foreign_key_check f then create_schema_constraints f else Err RuntimeError.

(** A connection: the file, and whether foreign keys are enforced. *)
Record conn := { c_file : file; c_fk : bool }.

(** Models lines 230-290 [apply_migrations].  [readonly]: mode is 'ro'; [in_tx]: inside a transaction. *)
Definition apply_migrations (readonly in_tx : bool) (now : text) (c : conn) : conn * option exn :=
  match prop_get (txt "toron_schema_version") (f_props (c_file c)) with
  | None => (c, Some TypeError)
  | Some version =>
      if match version with PStr v => text_eqb v (txt "0.3.1") | _ => false end then (c, None)
      else if readonly then (c, Some PlainException)
      else if in_tx then (c, Some RuntimeError)
      else match migrate version now (c_file c) with
           | Ok f => ({| c_file := f; c_fk := true |}, None)
           | Err e => ({| c_file := c_file c; c_fk := true |}, Some e)
           end
  end.
