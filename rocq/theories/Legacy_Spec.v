(** C62: what renaming and removing label columns by making the tables anew must do. *)
From Verif Require Import Prelude Partitions_Spec Columns_Spec Legacy_Model.

(** A table with label columns as the schema wants it. *)
Record table_wf (auto : bool) (k : kind) (cols : list string) (t : table) : Prop := {
  tw_auto : t_auto t = auto;
  tw_kind : t_kind t = k;
  tw_cols : t_cols t = fixed k ++ cols;
  tw_width : forall r, In r (t_rows t) -> length r = length (t_cols t);
  tw_cells : forall r, In r (t_rows t) -> cells_ok k r = true;
  tw_ids : NoDup (ids t);
  tw_unique : NoDup (map (labels_in k) (t_rows t)) }.

Definition temp_names : list string := ["new_label_index"; "new_location"; "new_structure"]%string.
Definition label_tables : list string := ["label_index"; "label_location"; "label_structure"]%string.
Definition table_at (s : sdb) (n : string) (t : table) : Prop := lookup n (s_tabs s) = Some t.

(** A space with the label columns [cols]. *)
Record space_wf (s : sdb) (cols : list string) : Prop := {
  sw_index : exists t, table_at s "label_index" t /\ table_wf true KIndex cols t /\ In 0%Z (ids t) /\
               forall i, In i (ids t) -> (0 <= i)%Z;
  sw_location : exists t, table_at s "label_location" t /\ table_wf false KLocation cols t;
  sw_structure : exists t, table_at s "label_structure" t /\ table_wf false KStructure cols t;
  sw_names : case_distinct (table_columns ++ cols);
  sw_nul : forall c, In c cols -> ~ contains_nul c;
  sw_temp : forall n, In n temp_names -> ~ In n (map fst (s_tabs s)) /\ ~ In n (map fst (s_seqs s));
  sw_constraints : s_constraints s = true }.

(** Every row of another table refers to a row that exists. *)
Definition sound_refs (s : sdb) : Prop :=
  forall r, In r (s_refs s) -> exists t, table_at s (r_table r) t /\ In (r_key r) (ids t).

(** The name of a column after renaming. *)
Definition new_name (mapping : list (string * string)) (old new : string) : Prop :=
  In (old, new) mapping \/ (~ In old (map fst mapping) /\ new = old).
Definition defs_of (s : sdb) : list (list string) := match s_defs s with Some d => d | None => [] end.

(** Two databases have the same tables up to a relation between the label tables. *)
Definition tables_related (R : kind -> table -> table -> Prop) (s s' : sdb) : Prop :=
  (forall n, ~ In n label_tables -> lookup n (s_tabs s') = lookup n (s_tabs s)) /\
  (forall n, In n label_tables -> exists t t', table_at s n t /\ table_at s' n t' /\
     t_auto t' = t_auto t /\ t_kind t' = t_kind t /\ R (t_kind t) t t').
(** Nothing else was changed: references, attributes, order of display. *)
Definition rest_same (s s' : sdb) : Prop :=
  s_refs s' = s_refs s /\ s_attrs s' = s_attrs s /\ s_display s' = s_display s /\
  s_constraints s' = s_constraints s /\ s_tx s' = s_tx s.

(** Renaming: the same rows under other names. *)
Definition is_renamed (mapping : list (string * string)) (s s' : sdb) : Prop :=
  tables_related (fun k t t' => t_rows t' = t_rows t /\ Forall2 (new_name mapping) (t_cols t) (t_cols t')) s s' /\
  rest_same s s' /\ Forall2 (Forall2 (new_name mapping)) (defs_of s) (defs_of s').

(** [kept drop cols row row']: [row'] is [row] without the cells of the columns [drop]. *)
Inductive kept (drop : list string) : list string -> list scell -> list scell -> Prop :=
| kept_nil : kept drop [] [] []
| kept_in c cols v row row' : ~ In c drop -> kept drop cols row row' -> kept drop (c :: cols) (v :: row) (v :: row')
| kept_out c cols v row row' : In c drop -> kept drop cols row row' -> kept drop (c :: cols) (v :: row) row'.
Inductive without (drop : list string) : list string -> list string -> Prop :=
| wo_nil : without drop [] []
| wo_in c l l' : ~ In c drop -> without drop l l' -> without drop (c :: l) (c :: l')
| wo_out c l l' : In c drop -> without drop l l' -> without drop (c :: l) l'.
Definition is_dropped (drop : list string) (s s' : sdb) : Prop :=
  tables_related (fun k t t' => without drop (t_cols t) (t_cols t') /\
                    Forall2 (kept drop (t_cols t)) (t_rows t) (t_rows t')) s s' /\
  rest_same s s' /\ s_defs s' = s_defs s.

(** No two rows of a table become alike. *)
Definition no_clash (drop cols : list string) (t : table) : Prop :=
  forall rows, Forall2 (kept drop cols) (map (labels_in (t_kind t)) (t_rows t)) rows -> NoDup rows.

(** Everything stored in a database. *)
Definition same_data (s s' : sdb) : Prop :=
  s_tabs s' = s_tabs s /\ s_seqs s' = s_seqs s /\ s_constraints s' = s_constraints s /\ s_refs s' = s_refs s /\
  s_defs s' = s_defs s /\ s_attrs s' = s_attrs s /\ s_display s' = s_display s /\ s_tx s' = s_tx s.

(** The conditions under which columns can be renamed. *)
Definition may_rename (mapping : list (string * string)) (s : sdb) (cols : list string) : Prop :=
  s_tx s = false /\ cols <> [] /\ sound_refs s /\
  (forall old new, In (old, new) mapping -> ~ reserved_name old /\ ~ reserved_name new /\ ~ In new cols /\
     ~ (exists l, s_attrs s = Some l /\ In new l)) /\
  (exists names, Forall2 (new_name mapping) cols names /\ case_distinct (table_columns ++ names) /\
     forall c, In c names -> ~ contains_nul c).
Definition may_drop (drop : list string) (s : sdb) (cols : list string) : Prop :=
  s_tx s = false /\ sound_refs s /\ (forall c, In c drop -> ~ reserved_name c) /\ (exists c, In c cols /\ ~ In c drop) /\
  (forall n t, In n label_tables -> table_at s n t -> no_clash drop cols t).
