(** C58: what loading mappings from a table must achieve. *)
From Coq Require Import NArith.
From Verif Require Import Prelude BitFlags_Model Selectors_Model LinkRef_Model IndexCode_Model Db_Model Db_Spec
  Mapper_Model Mapper_Spec Streams_Model Streams_Spec EdgeText_Model IndexCli_Model IndexCli_Spec MapCli_Model.
Local Open Scope nat_scope.

(** *** Numbers *)

Definition digits (t : text) : Prop := Forall (fun c => 48 <= c <= 57)%N t.
Definition number_of (t : text) : Z := fold_left (fun a c => (10 * a + (Z.of_N c - 48))%Z) t 0%Z.
Inductive sign : text -> Z -> Prop :=
| sign_none : sign [] 1
| sign_plus : sign [43%N] 1
| sign_minus : sign [45%N] (-1).
(** A decimal point and digits; or nothing. *)
Inductive fraction : text -> text -> Prop :=
| fraction_none : fraction [] []
| fraction_some ds : digits ds -> fraction (46%N :: ds) ds.
(** The letter e, a sign and digits; or nothing. *)
Inductive exponent : text -> Z -> Prop :=
| exponent_none : exponent [] 0
| exponent_some c s k ds : c = 101%N \/ c = 69%N -> sign s k -> digits ds -> ds <> [] ->
    exponent (c :: s ++ ds) (k * number_of ds).
(** [t] is a decimal number and [q] is its value. *)
Definition numeral (t : text) (q : Q) : Prop :=
  exists s k ip ft fs et e, t = s ++ ip ++ ft ++ et /\ sign s k /\ digits ip /\ fraction ft fs /\ ip ++ fs <> [] /\
    exponent et e /\ (q == inject_Z (k * number_of (ip ++ fs)) * Qpower 10 (e - Z.of_nat (length fs)))%Q.
Definition blank (t : text) : Prop := Forall (fun c => c = 32 \/ 9 <= c <= 13)%N t.
(** A number with blanks around it. *)
Definition is_number (t : text) (q : Q) : Prop := exists a n b, t = a ++ n ++ b /\ blank a /\ numeral n q /\ blank b.
(** The longest number at the front of the text, after blanks. *)
Definition leading (t : text) (q : Q) : Prop :=
  exists a n b, t = a ++ n ++ b /\ blank a /\ numeral n q /\
    forall n' b' q', n ++ b = n' ++ b' -> numeral n' q' -> length n' <= length n.
Definition no_number (t : text) : Prop := forall a n b q, t = a ++ n ++ b -> blank a -> ~ numeral n q.
(** The value of a cell: of the number in front, or zero. *)
Definition counts_as (t : text) (q : Q) : Prop := leading t q \/ no_number t /\ (q == 0)%Q.

(** *** Links *)

(** The space [into] has the link from the space [from]. *)
Definition linked (name : text) (from into : space) (k : link) : Prop :=
  get_link (sp_id from) (Some name) true (d_links (sp_db into)) = Ok k.
Definition unlinked (name : text) (from into : space) : Prop := forall k, ~ linked name from into k.

(** Mappings are to be loaded into FILE2, into FILE1; or there is no link that is needed. *)
Definition asked_right (o : options) (x1 x2 : space) : Prop := o_direction o <> ToLeft /\ exists k, linked (o_link o) x1 x2 k.
Definition asked_left (o : options) (x1 x2 : space) : Prop := o_direction o <> ToRight /\ exists k, linked (o_link o) x2 x1 k.
Definition refused (o : options) (x1 x2 : space) : Prop :=
  match o_direction o with
  | Both => unlinked (o_link o) x1 x2 /\ unlinked (o_link o) x2 x1
  | ToLeft => unlinked (o_link o) x2 x1
  | ToRight => unlinked (o_link o) x1 x2
  end.
(** The same command for FILE2 alone. *)
Definition to_right (o : options) : options :=
  {| o_link := o_link o; o_direction := ToRight; o_limit := o_limit o; o_overlapping := o_overlapping o; o_incomplete := o_incomplete o |}.

(** *** Rows *)

Definition side1 (m : mapping_row) : side :=
  {| sd_id := mr_id1 m; sd_loc := map code_text (mr_loc1 m); sd_level := bf_to_bytes (mr_level1 m) |}.
Definition side2 (m : mapping_row) : side :=
  {| sd_id := mr_id2 m; sd_loc := map code_text (mr_loc2 m); sd_level := bf_to_bytes (mr_level2 m) |}.
Definition value_text (m : mapping_row) : text := code_text (Streams_Model.mr_value m).

(** The rows of the table are understood as [data] (C47: the columns that are found, what a row means then). *)
Definition understood todecimal (name : text) (x1 x2 : space) (header : list cell) (rows : list (list cell)) (data : list mapping_row) : Prop :=
  exists p s, get_column_positions todecimal shorthand_name (node_of x1) (node_of x2) name (chain (map RSeq rows) Stop) true header = Ok (p, s) /\
    NoDup (slice (p_start1 p) (p_stop1 p) header) /\ NoDup (slice (p_start2 p) (p_stop2 p) header) /\
    Forall2 (fun l => mapping_row_for todecimal (node_of x1) (node_of x2) header p (RSeq l)) rows data.
(** Each row with its number, from 1 on. *)
Definition numbered {A} (l : list A) : list (Z * A) := combine (map (fun n => Z.of_nat n + 1)%Z (seq 0 (length l))) l.

(** What a value counts (see C58_numbers). *)
Definition worth (m : mapping_row) : Q := fst (sqlite_real (value_text m)).
(** Neither side has a level the space does not have, and the value is no negative number. *)
Definition loadable (x1 x2 : space) (m : mapping_row) : Prop :=
  (exists b, In b (d_structs (sp_db x1)) /\ sd_level (side1 m) = level_of b) /\
  (exists b, In b (d_structs (sp_db x2)) /\ sd_level (side2 m) = level_of b) /\
  (forall q, is_number (value_text m) q -> (0 <= q)%Q).

(** The rows that give these two records by their codes. *)
Definition gives (o i : Z) (m : mapping_row) : bool :=
  match mr_id1 m, mr_id2 m with Some a, Some b => (a =? o)%Z && (b =? i)%Z | _, _ => false end.
Definition by_codes (x1 x2 : space) (m : mapping_row) : Prop :=
  exists a b, mr_id1 m = Some a /\ mr_id2 m = Some b /\ has_index (sp_db x1) a /\ has_index (sp_db x2) b.

(** One side of the row refers to no record or to more than the limit. *)
Definition matches_nothing (limit : nat) (s : db) (d : side) : Prop :=
  by_labels d /\ refers_count s d (fun n => n = 0 \/ limit < n).
Definition void (limit : nat) (x1 x2 : space) (m : mapping_row) : Prop :=
  matches_nothing limit (sp_db x1) (side1 m) \/ matches_nothing limit (sp_db x2) (side2 m).

(** The log tells whether the link of this name is complete. *)
Definition reports (name : text) (from : space) (s : db) (log : list message) : Prop :=
  exists k, get_link (sp_id from) (Some name) true (d_links s) = Ok k /\ log = [if k_complete k then Complete else Incomplete].

(** A mapping of a link, by its records, level and value. *)
Definition mapping_in (s : db) (k : link) (o i : Z) (lv : list N) (q : Q) : Prop :=
  exists m, In m (d_maps s) /\ m_link m = k_id k /\ m_other m = o /\ m_index m = i /\ m_level m = lv /\ (m_value m == q)%Q.
Definition no_mappings (s : db) (k : link) : Prop := forall m, In m (d_maps s) -> m_link m <> k_id k.
(** Nothing of other links changes but proportions. *)
Definition others_kept (k : link) (s s' : db) : Prop :=
  forall k' o i lv q, k_id k' <> k_id k -> (mapping_in s' k' o i lv q <-> mapping_in s k' o i lv q).
Definition every_column (s : db) : list N := level_of (map (fun _ => true) (d_labels s)).

(** [l] are the matches of one side of the rows with the records of a space (C21 tells what they are). *)
Definition matched_side (o : options) (x : space) (side : mapping_row -> side) (data : list mapping_row) (l : list hit) : Prop :=
  exists c, match_records (sp_gran x) (sp_db x) (o_limit o) (o_overlapping o) (map (fun nm => (fst nm, side (snd nm))) (numbered data)) [] = Ok (l, c).

(** A level of the space that specifies some column. *)
Definition level_there (s : db) (lv : list N) : Prop := exists b, In b (d_structs s) /\ In true b /\ lv = level_of b.
(** The mapping that the numbered rows make for two records, from the matches of both sides (C21, C22). *)
Definition made (rows : list (Z * mapping_row)) (from to : list hit) (o i : Z) (lv : list N) (q : Q) : Prop :=
  ~ (o = 0 /\ i = 0)%Z /\
  (exists n m x y, In (n, m) rows /\ In x from /\ h_run x = n /\ h_index x = o /\ In y to /\ h_run y = n /\ h_index y = i /\ h_level y = lv) /\
  (q == Qsum (map (fun nm => worth (snd nm) * (share_of (fst nm) from o * share_at (fst nm) to i lv)) rows))%Q.
(** The mapping that the rows make that give both records by their codes. *)
Definition given (gives : mapping_row -> bool) (data : list mapping_row) (whole : list N) (o i : Z) (lv : list N) (q : Q) : Prop :=
  ~ (o = 0 /\ i = 0)%Z /\ lv = whole /\ (exists m, In m data /\ gives m = true) /\ (q == Qsum (map worth (filter gives data)))%Q.
(** The link has its mappings and the new ones; nothing else changes. *)
Record loads (k : link) (new : Z -> Z -> list N -> Q -> Prop) (s s' : db) : Prop := {
  ld_new : forall o i lv q, mapping_in s' k o i lv q <-> mapping_in s k o i lv q \/ new o i lv q;
  ld_others : others_kept k s s';
  ld_rest : d_index s' = d_index s /\ d_labels s' = d_labels s /\ d_structs s' = d_structs s /\
    d_groups s' = d_groups s /\ d_weights s' = d_weights s /\ d_fk s' = d_fk s
}.

(** *** The exported table *)

(** Where the database checks references, they hold. *)
Definition references (s : db) : Prop := d_fk s = true -> weights_ref s /\ maps_ref s.
(** Every record is in some row by its code. *)
Definition all_by_code (x1 x2 : space) (data : list mapping_row) : Prop :=
  (forall i, defined (sp_db x1) i -> exists m, In m data /\ mr_id1 m = Some i) /\
  (forall i, defined (sp_db x2) i -> exists m, In m data /\ mr_id2 m = Some i).

(** No cell outside of column [c] reads as a code of the space. *)
Definition codes_only_at todecimal (u : list N) (c : nat) (rows : list (list cell)) : Prop :=
  forall row j t, In row rows -> nth_error row j = Some (CText t) -> j <> c -> index_code_to_id todecimal t u = Err ValueError.
(** A space that mappings can be matched with: a default weight group, the structures of all and of no columns,
    levels that can be told apart. *)
Record matchable (s : db) : Prop := {
  mt_group : exists g, d_default s = Some (Some g) /\ exists x, In x (d_groups s) /\ g_id x = g;
  mt_all : In (map (fun _ => true) (d_labels s)) (d_structs s);
  mt_none : In (map (fun _ => false) (d_labels s)) (d_structs s);
  mt_levels : NoDup (map level_of (d_structs s))
}.
