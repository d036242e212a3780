(** Specification for C68: what the description of a data space is to say. *)
From Coq Require Import Sorting.Sorted Sorting.Permutation.
From Verif Require Import Prelude Selectors_Model SelectorParse_Model LinkRef_Model PartSort_Spec FormatGran_Model FormatGran_Spec Info_Model Columns_Model.
From Verif Require Json_Spec Db_Model.
Local Open Scope nat_scope.
Local Open Scope list_scope.

(** *** Partitions *)

(** [bits] marks the columns that are among [labels]. *)
Definition marked (columns labels : list text) (bits : list bool) : Prop :=
  Forall2 (fun x b => b = true <-> In x labels) columns bits.
(** The granularity of a set of labels, [None] if nothing is known yet. *)
Definition granularity_of (s : ispace) (labels : list text) (g : gval) : Prop :=
  (s_structs s = [] /\ g = GNone) \/ exists bits, In (bits, g) (s_structs s) /\ marked (s_columns s) labels bits.
(** Stored granularities are numbers with a magnitude, and there is no negative zero. *)
Definition granularities_ok (s : ispace) : Prop :=
  wf (map snd (s_structs s)) /\ no_negative_zero (map snd (s_structs s)).
(** A line: the granularity with some number of places, right aligned, two spaces, the labels. *)
Definition partition_line (s : ispace) (labels : list text) (places width : nat) (d : list text) (line : text) : Prop :=
  exists g shown_g number_text, granularity_of s d g /\ shows_value places g number_text /\ padded number_text shown_g /\
    List.length shown_g = width /\ line = shown_g ++ txt "  " ++ join (txt ", ") (shown labels d).

(** *** Weights *)

Definition is_default (s : ispace) (g : Db_Model.group) : Prop := s_default s = Some (Some (Db_Model.g_id g)).
Inductive group_entry (s : ispace) (g : Db_Model.group) : text -> Prop :=
| ge_default : is_default s g -> Db_Model.g_complete g = true -> group_entry s g (Db_Model.g_name g ++ txt " (default)")
| ge_default_incomplete : is_default s g -> Db_Model.g_complete g = false -> group_entry s g (Db_Model.g_name g ++ txt " (default, incomplete)")
| ge_plain : ~ is_default s g -> Db_Model.g_complete g = true -> group_entry s g (Db_Model.g_name g)
| ge_incomplete : ~ is_default s g -> Db_Model.g_complete g = false -> group_entry s g (Db_Model.g_name g ++ txt " (incomplete)").
(** What the text is to tell about the weight groups of a space. *)
Definition told (s : ispace) (name : text) (default complete : bool) : Prop :=
  exists g, In g (s_groups s) /\ Db_Model.g_name g = name /\ Db_Model.g_complete g = complete /\ (default = true <-> is_default s g).
(** The default is either not defined or a group of the space. *)
Definition default_known (s : ispace) : Prop :=
  s_default s = None \/ exists g, In g (s_groups s) /\ is_default s g.

(** *** Links *)

Inductive link_entry (k : link) : text -> Prop :=
| le_default : k_default k = true -> k_complete k = true -> link_entry k (k_name k ++ txt " (default)")
| le_default_incomplete : k_default k = true -> k_complete k = false -> link_entry k (k_name k ++ txt " (default, locally incomplete)")
| le_plain : k_default k = false -> k_complete k = true -> link_entry k (k_name k)
| le_incomplete : k_default k = false -> k_complete k = false -> link_entry k (k_name k ++ txt " (locally incomplete)").
(** The name of the other space: its file if a file is known, otherwise the start of its id. *)
Inductive space_name (k : link) : text -> Prop :=
| sn_file h : k_hint k = Some h -> h <> [] -> space_name k h
| sn_id : k_hint k = None \/ k_hint k = Some [] -> space_name k (txt "[" ++ firstn 7 (k_other k) ++ txt "]").
(** The links of one space: [b] is not empty and its ids increase. *)
Definition one_space (other : text) (b : list link) : Prop :=
  b <> [] /\ (forall k, In k b -> k_other k = other) /\ StronglySorted (fun a b => (k_id a < k_id b)%Z) b.
(** The line of some links: the name of the space by the link with the least id, then the entries in
    alphabetical order. *)
Definition link_line_of (b : list link) (line : text) : Prop :=
  exists first rest ref entries sorted_entries, b = first :: rest /\ space_name first ref /\
    Forall2 link_entry b entries /\ Permutation entries sorted_entries /\
    StronglySorted (fun a b => ~ Json_Spec.text_lt b a) sorted_entries /\
    line = ref ++ txt ": " ++ join (txt ", ") sorted_entries.

(** *** Readability *)

(** Names without comma and parenthesis. *)
Definition plain (t : text) : Prop := ~ In 44%N t /\ ~ In 40%N t.
Definition one_line (t : text) : Prop := ~ In 10%N t.
Definition what (k : link) : text * bool * bool := (k_name k, k_default k, k_complete k).

(** *** Spaces with a history *)

(** [s] has the columns, definitions, display order and structure of [c]; the rows of the structure can
    have any granularity and any order. *)
Definition describes (s : ispace) (c : cspace) : Prop :=
  s_order s = option_map (map txt) (c_display c) /\ s_columns s = map txt (c_columns c) /\
  s_defs s = option_map (map (map txt)) (c_defs c) /\ Permutation (map fst (s_structs s)) (c_structs c).

(** *** When there is a description *)

(** What has to be displayed: the definitions, and the whole space if there are labels. *)
Definition to_show (s : ispace) (d : list text) : Prop :=
  In d (all_definitions s) \/ (labels_in_display_order s <> [] /\ same_set d (labels_in_display_order s)).
Definition describable (s : ispace) : Prop :=
  (forall d x, In d (all_definitions s) -> In x d -> In x (labels_in_display_order s)) /\
  (forall d, to_show s d -> exists g, granularity_of s d g) /\
  (exists places, 3 <= places <= 17 /\ forall values,
     (forall g, In g values -> exists d, to_show s d /\ granularity_of s d g) -> ~ collide places values) /\
  (s_groups s = [] \/ default_known s) /\ s_created s <> None.
(** The tables are well formed: no label twice, no row of the structure twice. *)
Definition tables_ok (s : ispace) : Prop :=
  NoDup (s_columns s) /\ NoDup (match s_order s with Some l => l | None => [] end) /\
  NoDup (map fst (s_structs s)) /\ granularities_ok s.
