(** What it means that the index is written and loaded again without loss (C55). *)
From Coq Require Import NArith.
From Verif Require Import Prelude Selectors_Model Reader_Model IndexCode_Model Db_Model Db_Spec Streams_Model.
Local Open Scope nat_scope.

(** The space has a record with these labels. *)
Definition has_labels (s : db) (labels : list text) : Prop := exists r, In r (d_index s) /\ ix_labels r = labels.
Definition has_group (s : db) (name : text) : Prop := exists g, In g (d_groups s) /\ g_name g = name.
(** The record with these labels has the weight [v] in the group with this name. *)
Definition weighs (s : db) (name : text) (labels : list text) (v : Q) : Prop :=
  exists g r w, In g (d_groups s) /\ g_name g = name /\ In r (d_index s) /\ ix_labels r = labels /\
    In w (d_weights s) /\ w_group w = g_id g /\ w_index w = ix_id r /\ w_value w = v.
(** Every weight belongs to a record (C28: so it is as long as the space has not been stored and opened again). *)
Definition weights_attached (s : db) : Prop := forall w, In w (d_weights s) -> has_index s (w_index w).

(** The rows of a CSV file, read one after the other. *)
Definition reader_of (rows : list (list cell)) : stream row := chain (map RSeq rows) Stop.

(** Numbers: what is printed is read as the same number; it is not empty and has no letter X. *)
Definition faithful (show : Q -> text) (read_float : text -> option Q) : Prop :=
  forall q, read_float (show q) = Some q /\ show q <> [] /\ ~ In 88%N (show q).

(** The row for a record: its code, its labels, and for each group its weight, or nothing. *)
Definition row_tells todecimal (show : Q -> text) (u : list N) (s : db) (names : list text) (r : ixrec) (row : list cell) : Prop :=
  exists code weights, row = CText code :: map CText (ix_labels r) ++ weights /\
    index_code_to_id todecimal code u = Ok (ix_id r) /\
    Forall2 (fun n c => forall v, weighs s n (ix_labels r) v -> c = CText (show v)) names weights /\
    Forall2 (fun n c => (forall v, ~ weighs s n (ix_labels r) v) -> c = CText (if (ix_id r =? 0)%Z then show 0%Q else [])) names weights.
(** The order of the groups: the default group first, the others by name. *)
Inductive in_order (before : text -> text -> Prop) : list text -> Prop :=
| io_nil : in_order before []
| io_cons n l : (forall m, In m l -> before n m) -> in_order before l -> in_order before (n :: l).

Definition is_default (s : db) (n : text) : Prop := exists g, In g (d_groups s) /\ g_name g = n /\ d_default s = Some (Some (g_id g)).
Definition comes_before (s : db) (n m : text) : Prop := is_default s n \/ ~ is_default s m /\ text_ltb m n = false.

(** The row has the code of this record. *)
Definition row_of todecimal (u : list N) (i : Z) (row : list cell) : Prop :=
  exists code rest, row = CText code :: rest /\ index_code_to_id todecimal code u = Ok i.
Definition undefined_row todecimal (u : list N) (row : list cell) : Prop := row_of todecimal u 0 row.
(** The record has a weight in one of the groups. *)
Definition weighted (s : db) (i : Z) : Prop :=
  exists g w, In g (d_groups s) /\ In w (d_weights s) /\ w_group w = g_id g /\ w_index w = i.
(** The names of the columns are different from each other and from [index_id], and none looks like a code. *)
Definition good_names todecimal (u : list N) (header : list cell) : Prop :=
  NoDup header /\ ~ In (CText (txt "index_id")) header /\
  forall t, In (CText t) header -> index_code_to_id todecimal t u = Err ValueError.
(** No label is the code of an id beyond 64 bits (C38: looking at such a text is an error). *)
Definition good_labels todecimal (u : list N) (s : db) : Prop :=
  forall r t, In r (d_index s) -> In t (ix_labels r) -> index_code_to_id todecimal t u <> Err StructError.
(** None of the texts is a code of the space with this identifier. *)
Definition foreign todecimal (u : list N) (rows : list (list cell)) : Prop :=
  forall row t, In row rows -> In (CText t) row -> index_code_to_id todecimal t u = Err ValueError.

(** Weights, by the name of the group and the labels.  [merged]: the new ones are added to the old ones; where
    there are both, the policy decides. *)
Definition merged (pol : policy) (new old : text -> list text -> Q -> Prop) (n : text) (l : list text) (v : Q) : Prop :=
  match pol with
  | PReplace => new n l v \/ old n l v /\ forall x, ~ new n l x
  | _ => old n l v \/ new n l v /\ forall x, ~ old n l x
  end.
Definition conflict (new old : text -> list text -> Q -> Prop) : Prop := exists n l v x, new n l v /\ old n l x.
(** Policies other than to ignore or to replace. *)
Definition strict (pol : policy) : Prop := pol <> PIgnore /\ pol <> PReplace.
(** [t'] is [t] with the records of [s], and with their weights in the groups that [t] has too. *)
Record combined (pol : policy) (s t t' : db) : Prop := {
  cb_labels : forall l, has_labels t' l <-> has_labels t l \/ has_labels s l;
  cb_weights : forall n l v, weighs t' n l v <-> merged pol (fun n l v => weighs s n l v /\ has_group t n) (weighs t) n l v;
  cb_records : incl (d_index t) (d_index t');
  cb_groups : map (fun g => (g_id g, g_name g)) (d_groups t') = map (fun g => (g_id g, g_name g)) (d_groups t);
  cb_rest : d_labels t' = d_labels t /\ d_maps t' = d_maps t /\ d_structs t' = d_structs t
}.
(** A row that cannot be loaded into the space it comes from: that of the undefined record if there are groups,
    and with a strict policy that of a record with a weight. *)
Definition unloadable todecimal (u : list N) (wpol : policy) (s : db) (row : list cell) : Prop :=
  exists i, row_of todecimal u i row /\ (i = 0%Z /\ d_groups s <> [] \/ strict wpol /\ weighted s i).
(** The name of the first column: [index_code], after the name of the domain with underscores for spaces. *)
Definition named_for (domain name : text) : Prop :=
  domain = [] /\ name = txt "index_code" \/
  domain <> [] /\ exists d, name = d ++ txt "_index_code" /\
    Forall2 (fun a b => a = 32%N /\ b = 95%N \/ a <> 32%N /\ b = a) domain d.
(** A row that is not empty and ends before the column [x] (or all the columns of this name). *)
Definition ends_before (header : list cell) (x : text) (row : list cell) : Prop :=
  (exists p, nth_error header p = Some (CText x)) /\ row <> [] /\
  forall p, nth_error header p = Some (CText x) -> length row <= p.
(** Only weights change, by the policy; the flags that tell whether groups are complete may change too. *)
Record reweighed (pol : policy) (new : text -> list text -> Q -> Prop) (s s' : db) : Prop := {
  rw_weights : forall n l v, weighs s' n l v <-> merged pol new (weighs s) n l v;
  rw_groups : map (fun g => (g_id g, g_name g)) (d_groups s') = map (fun g => (g_id g, g_name g)) (d_groups s);
  rw_rest : d_index s' = d_index s /\ d_labels s' = d_labels s /\ d_maps s' = d_maps s /\ d_structs s' = d_structs s
}.
