(** C60: what loading a table as a link between two spaces must achieve. *)
From Coq Require Import NArith.
From Verif Require Import Prelude BitFlags_Model BitFlags_Spec Streams_Model Streams_Spec Selectors_Model LinkRef_Model Db_Model Db_Spec
  Reader_Model Mapper_Model Mapper_Spec EdgeText_Model MapCli_Model MapCli_Spec LoadMap_Model.
Local Notation cell := Streams_Model.cell.
Local Open Scope nat_scope.

(** *** The table *)

(** The data is a table with this header and these rows (what headers and rows are: C47). *)
Definition is_table (d : Streams_Model.data) (columns : option (list cell)) (header : list text) (rows : list (list cell)) : Prop :=
  normalize_tabular d columns = Ok (chain (map RSeq rows) Stop, map CText header).

(** The columns and the cells of one side of a row, without the first column "domain" if the space has a
    domain: its cell must be that domain. *)
Inductive side_of (domain : text) (columns : list text) (cells : list cell) : list text -> list cell -> Prop :=
| side_plain : domain = [] \/ ~ In (txt "domain") columns -> side_of domain columns cells columns cells
| side_domain a b x y : domain <> [] -> columns = a ++ txt "domain" :: b -> ~ In (txt "domain") a ->
    cells = x ++ CText domain :: y -> length x = length a -> side_of domain columns cells (a ++ b) (x ++ y).

Inductive side_columns (domain : text) (columns : list text) : list text -> Prop :=
| columns_plain : domain = [] \/ ~ In (txt "domain") columns -> side_columns domain columns columns
| columns_domain a b : domain <> [] -> columns = a ++ txt "domain" :: b -> ~ In (txt "domain") a -> side_columns domain columns (a ++ b).

(** What a value counts: a number by itself, a text by the number in front (see C58_numbers). *)
Definition value_is (c : cell) (q : Q) : Prop :=
  (exists z, c = COther z /\ q = inject_Z z) \/ (exists t, c = CText t /\ q = fst (sqlite_real t)).

(** A row of the table is understood as these labels of both sides and this value; column [n] has the values. *)
Definition row_is (n : nat) (header : list text) (domain1 domain2 : text) (columns1 columns2 : list text)
  (cells : list cell) (loc1 loc2 : list text) (q : Q) : Prop :=
  exists left c right, cells = left ++ c :: right /\ length left = n /\ value_is c q /\
    side_of domain1 (firstn n header) left columns1 (map CText loc1) /\
    side_of domain2 (skipn (n + 1) header) right columns2 (map CText loc2).
(** A side has a column with domains that are checked. *)
Definition checked (domain : text) (columns : list text) : Prop := domain <> [] /\ In (txt "domain") columns.

(** *** Rows and records of a space *)

(** A row has label [v] in column [c]. *)
Definition filled (columns loc : list text) (c v : text) : Prop :=
  exists n, nth_error columns n = Some c /\ nth_error loc n = Some v /\ v <> [].
(** The record has all labels that the row has. *)
Definition fits (s : db) (columns loc : list text) (r : ixrec) : Prop :=
  forall c v, filled columns loc c v -> label_is s r c v.
Definition fitting (s : db) (columns loc : list text) (refs : list Z) : Prop :=
  NoDup refs /\ forall i, In i refs <-> exists r, In r (d_index s) /\ ix_id r = i /\ fits s columns loc r.
(** The row has labels in just the columns of this category of the space. *)
Definition category (s : db) (columns loc : list text) (b : list bool) : Prop :=
  In b (d_structs s) /\ In true b /\
  forall n, bit_at b n = true <-> exists c v, nth_error (d_labels s) n = Some c /\ filled columns loc c v.
Definition no_category (s : db) (columns loc : list text) : Prop := forall b, ~ category s columns loc b.

(** The columns are named once; each row has a cell for each of them, with labels in columns of the space only.
    The categories of the space differ (UNIQUE constraint of their table). *)
Record usable (s : db) (columns : list text) (es : list (Z * list text)) : Prop := {
  us_once : NoDup columns;
  us_rows : forall e, In e es -> length (snd e) = length columns;
  us_known : forall e c v, In e es -> filled columns (snd e) c v -> In c (d_labels s) /\ c <> txt "index_id";
  us_runs : NoDup (map fst es);
  us_levels : NoDup (map level_of (d_structs s))
}.
(** Category [a] is dealt with before category [b]: it is finer, or as fine and the first row that uses it
    comes before the rows that use [b]. *)
Definition ahead (gran : list bool -> option Q) (s : db) (columns : list text) (es : list (Z * list text)) (a b : list bool) : Prop :=
  exists p q, gran a = Some p /\ gran b = Some q /\
    ((q < p)%Q \/ (p == q)%Q /\ level_of a <> level_of b /\
       exists es1 e es2, es = es1 ++ e :: es2 /\ category s columns (snd e) a /\
         forall e', In e' es1 -> ~ category s columns (snd e') b).
(** The record was matched by a row of a category that is dealt with before. *)
Definition matched_before gran (s : db) columns es (b : list bool) (l : list hit) (i : Z) : Prop :=
  exists h loc a, In h l /\ h_index h = i /\ In (h_run h, loc) es /\ category s columns loc a /\ ahead gran s columns es a b.
(** The records that remain of those that fit. *)
Record remains gran s columns es (allow : bool) (b : list bool) (l : list hit) (refs keep : list Z) : Prop := {
  rm_nodup : NoDup keep;
  rm_in : forall i, In i keep <-> In i refs /\ (allow = false -> 1 < length refs -> ~ matched_before gran s columns es b l i)
}.
(** Not too many records; weights for all if there are several. *)
Definition accepted (s : db) (g : Z) (limit : nat) (refs keep : list Z) : Prop :=
  length refs <= limit /\ (1 < length keep -> forall i, In i keep -> weight_there s g i).
(** The weight of a record in a group. *)
Definition weight_of (s : db) (g i : Z) (w : option Q) : Prop :=
  match w with
  | Some q => exists x, In x (d_weights s) /\ w_group x = g /\ w_index x = i /\ w_value x = q
  | None => ~ weight_there s g i
  end.
(** Two tables say the same: row by row, the same labels for the same columns. *)
Definition same_rows (columns columns' : list text) (es es' : list (Z * list text)) : Prop :=
  Forall2 (fun e e' => fst e = fst e' /\ forall c v, filled columns (snd e) c v <-> filled columns' (snd e') c v) es es'.

(** A default group for weights, and granularities for the categories of the rows. *)
Definition graded (gran : list bool -> option Q) (s : db) (columns : list text) (es : list (Z * list text)) : Prop :=
  (exists g, d_default s = Some (Some g) /\ exists x, In x (d_groups s) /\ g_id x = g) /\
  forall e b, In e es -> category s columns (snd e) b -> gran b <> None.

(** *** The result *)

(** The mapping that the rows make for two records, from the matches of both sides. *)
Definition built (rows : list old_row) (from to : list hit) (o i : Z) (lv : list N) (q : Q) : Prop :=
  ~ (o = 0 /\ i = 0)%Z /\
  (exists r x y, In r rows /\ In x from /\ h_run x = or_run r /\ h_index x = o /\ In y to /\ h_run y = or_run r /\ h_index y = i /\ h_level y = lv) /\
  (q == Qsum (map (fun r => or_value r * (share_of (or_run r) from o * share_at (or_run r) to i lv)) rows))%Q.
Definition left_rows (rows : list old_row) : list (Z * list text) := map (fun r => (or_run r, or_left r)) rows.
Definition right_rows (rows : list old_row) : list (Z * list text) := map (fun r => (or_run r, or_right r)) rows.
(** Both sides of the table are matched with the spaces (what the matches are: C60_matches, C60_shares). *)
Definition matched_sides (a : load_args) (x1 x2 : lspace) columns1 columns2 (rows : list old_row) (l1 l2 : list hit) : Prop :=
  (exists c, old_match_records (sp_gran (l_space x1)) (l_db x1) (la_limit a) (la_overlapping a) columns1 (left_rows rows) = Ok (l1, c)) /\
  (exists c, old_match_records (sp_gran (l_space x2)) (l_db x2) (la_limit a) (la_overlapping a) columns2 (right_rows rows) = Ok (l2, c)).
(** The rows are empty or have a cell for every column. *)
Definition regular (header : list text) (cells : list (list cell)) : Prop := forall l, In l cells -> l = [] \/ length l = length header.
(** The table is understood as these rows, numbered from 1; empty rows are left out if no domain is checked. *)
Definition table_is (a : load_args) (x1 x2 : lspace) (header : list text) (cells : list (list cell))
  (columns1 columns2 : list text) (rows : list old_row) : Prop :=
  exists n, link_column shorthand_name (la_link a) (map CText header) n /\
    side_columns (l_domain x1) (firstn n header) columns1 /\ side_columns (l_domain x2) (skipn (n + 1) header) columns2 /\
    (In [] cells -> ~ checked (l_domain x1) (firstn n header) /\ ~ checked (l_domain x2) (skipn (n + 1) header)) /\
    Forall2 (fun l r => row_is n header (l_domain x1) (l_domain x2) columns1 columns2 l (or_left r) (or_right r) (or_value r))
      (filter (fun l => negb (nil_b l)) cells) rows /\
    map or_run rows = map (fun i => Z.of_nat i + 1)%Z (seq 0 (length rows)).

(** The direction names the right space, the left space, as the target. *)
Definition to_the_right (a : load_args) : Prop := exists x y, la_direction a = x ++ txt "->" ++ y.
Definition to_the_left (a : load_args) : Prop := exists x y, la_direction a = x ++ txt "<-" ++ y.
(** The space has got the link with these mappings, and nothing else has changed but that other links from
    the same space may no longer be the default. *)
Record gets_link (a : load_args) (from : lspace) (new : Z -> Z -> list N -> Q -> Prop) (s s' : db) (k : link) : Prop := {
  gl_link : k_other k = sp_id (l_space from) /\ k_name k = la_link a /\ k_hint k = l_hint from /\ k_selectors k = la_selectors a;
  gl_default : k_default k = true <->
    la_default a = Some true \/ la_default a = None /\ forall x, In x (d_links s) -> k_other x <> sp_id (l_space from);
  gl_complete : k_complete k = true <-> (exists o i lv q, mapping_in s' k o i lv q) /\ link_complete s' (k_id k);
  gl_new : forall x, In x (d_links s) -> k_id x <> k_id k;
  gl_links : forall x, In x (d_links s') <-> x = k \/ exists y, In y (d_links s) /\ bystander (k_default k) (k_other k) y x;
  gl_maps : forall o i lv q, mapping_in s' k o i lv q <-> new o i lv q;
  gl_others : others_kept k s s';
  gl_rest : d_index s' = d_index s /\ d_labels s' = d_labels s /\ d_structs s' = d_structs s /\
    d_groups s' = d_groups s /\ d_weights s' = d_weights s /\ d_fk s' = d_fk s
}.
(** No mappings. *)
Definition nothing (o i : Z) (lv : list N) (q : Q) : Prop := False.
(** Loading in the first direction only. *)
Definition rightwards (a : load_args) : load_args :=
  {| la_link := la_link a; la_direction := txt "->"; la_selectors := la_selectors a; la_default := la_default a; la_limit := la_limit a; la_overlapping := la_overlapping a |}.
