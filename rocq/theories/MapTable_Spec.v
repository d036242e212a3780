(** C71, C72: what the tables of a link's mappings and the text about a mapping must show. *)
From Verif Require Import Prelude BitFlags_Model Selectors_Model SelectorParse_Model LinkRef_Model IndexCode_Spec Db_Model Db_Spec
  Elements_Model Elements_Spec MapTable_Model.
From Coq Require Import String List.
Local Open Scope list_scope.

(** *** C71: the table of [get_mapping] *)

(** A row by its parts. *)
Record layout := {
  l_source : cell; l_source_domain : list cell; l_source_labels : list cell; l_value : cell;
  l_target : cell; l_target_domain : list cell; l_target_labels : list cell; l_ambiguous : cell
}.
Definition flat (l : layout) : list cell :=
  l_source l :: l_source_domain l ++ l_source_labels l ++ l_value l ::
  l_target l :: l_target_domain l ++ l_target_labels l ++ [l_ambiguous l].

(** The parts are as wide as the spaces say: one column for a domain that is not empty, and one for each label. *)
Definition domain_width (domain : text) : nat := if list_eq_dec N.eq_dec domain [] then 0 else 1.
Definition shaped (src_domain trg_domain : text) (src trg : db) (l : layout) : Prop :=
  List.length (l_source_domain l) = domain_width src_domain /\ List.length (l_source_labels l) = List.length (d_labels src) /\
  List.length (l_target_domain l) = domain_width trg_domain /\ List.length (l_target_labels l) = List.length (d_labels trg).

Definition heading (name : text) (src trg : db) (l : layout) : Prop :=
  l_source l = CText (txt "index_id") /\ Forall (eq (CText (txt "domain"))) (l_source_domain l) /\
  l_source_labels l = map CText (d_labels src) /\ l_value l = CText name /\
  l_target l = CText (txt "index_id") /\ Forall (eq (CText (txt "domain"))) (l_target_domain l) /\
  l_target_labels l = map CText (d_labels trg) /\ l_ambiguous l = CText (txt "ambiguous_fields").

(** A column of a record that is not there is empty. *)
Definition domain_shown (domain : text) (i : option Z) (cells : list cell) : Prop :=
  Forall (eq (match i with Some _ => CText domain | None => CNone end)) cells.
Definition labels_shown (s : db) (i : option Z) (cells : list cell) : Prop :=
  exists labels, labels_of s i labels /\ cells = map (fun t => match t with Some t => CText t | None => CNone end) labels.
(** The names of the columns outside the level, as in C53: right if there is a bit for each column. *)
Definition ambiguity (level : option (list N)) (names : list text) (c : cell) : Prop :=
  match level with
  | None => c = CNone
  | Some lv => List.length names <= bf_len (of_bytes lv) ->
      c = match join (txt ", ") (outside 0 names lv) with [] => CNone | t => CText t end
  end%nat.
(** A row for an element of the export (C45). *)
Definition shows (src_domain trg_domain : text) (src trg : db) (e : element) (l : layout) : Prop :=
  l_source l = match el_source e with Some i => CId i | None => CNone end /\
  domain_shown src_domain (el_source e) (l_source_domain l) /\ labels_shown src (el_source e) (l_source_labels l) /\
  l_value l = match snd e with Some v => CVal v | None => CNone end /\
  l_target l = match el_target e with Some i => CId i | None => CNone end /\
  domain_shown trg_domain (el_target e) (l_target_domain l) /\ labels_shown trg (el_target e) (l_target_labels l) /\
  ambiguity (snd (fst e)) (d_labels trg) (l_ambiguous l).

(** *** C71: the table of [select_mappings] *)

(** The row of a mapping of the record, and the row of a record without a mapping. *)
Definition mapped_row (s : db) (r : ixrec) (m : mapping) (row : list cell) : Prop :=
  exists c, row = CId (m_other m) :: CVal (m_value m) :: CId (ix_id r) :: map CText (ix_labels r) ++ [c] /\
    ambiguity (Some (m_level m)) (d_labels s) c.
Definition lone_row (r : ixrec) : list cell := CNone :: CNone :: CId (ix_id r) :: map CText (ix_labels r) ++ [CNone].
(** The rows of a record: one for each of its mappings by the link, and the row above if there are none. *)
Definition record_rows (k : link) (s : db) (r : ixrec) (rows : list (list cell)) : Prop :=
  exists ms, NoDup ms /\ (forall m, In m ms <-> of_link k s m /\ m_index m = ix_id r) /\
    match ms with [] => rows = [lone_row r] | _ => Forall2 (mapped_row s r) ms rows end.
Definition selected (k : link) (s : db) (criteria : list (text * text)) (rows : list (list cell)) : Prop :=
  exists rs parts, NoDup rs /\
    (forall r, In r rs <-> In r (d_index s) /\ ix_id r <> 0%Z /\ forall c v, In (c, v) criteria -> label_is s r c v) /\
    Forall2 (record_rows k s) rs parts /\ rows = concat parts.

(** *** C72: the text *)

(** A number as written without a sign. *)
Definition number (n : Z) (t : text) : Prop :=
  t <> [] /\ Forall (fun c => 48 <= c <= 57)%N t /\ literal 10 t n.
(** The name of the file without its extension; else the first seven characters of the unique id in brackets. *)
Definition called (path : option text) (unique_id t : text) : Prop :=
  path = Some (t ++ txt ".toron") \/
  (forall stem, path <> Some (stem ++ txt ".toron")) /\
  exists start rest, unique_id = start ++ rest /\ (List.length start = 7%nat \/ (List.length start < 7)%nat /\ rest = []) /\
    t = txt "[" ++ start ++ txt "]".
(** "  NAME: matched N of M indexes". *)
Definition matched_line (called : text) (n m : Z) (line : text) : Prop :=
  exists a b, number n a /\ number m b /\
    line = txt "  " ++ called ++ txt ": matched " ++ a ++ txt " of " ++ b ++ txt " indexes".
(** "  Mapping contains N indexes that no longer exist in PATH". *)
Definition stale_line (path : option text) (n : Z) (line : text) : Prop :=
  exists a, number n a /\
    line = txt "  Mapping contains " ++ a ++ txt " indexes that no longer exist in " ++
           match path with Some p => p | None => txt "None" end.
