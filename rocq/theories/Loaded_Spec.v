(** C74: what a loading call may say about its rows. *)
From Verif Require Import Prelude Selectors_Model BitFlags_Model LinkRef_Model Db_Model Db_Spec Report_Model Report_Spec
  Loaded_Model.

(** A log: no number twice, all true, none missing that is not zero. *)
Definition logged {K} (dec : forall a b : K, {a = b} + {a <> b}) (ks : list K) (lines : list (K * nat)) : Prop :=
  NoDup (map fst lines) /\ (forall k n, In (k, n) lines -> n = count_occ dec ks k) /\
  (forall k, In k ks -> In k (map fst lines)).

(** One weight cell of a row of insert_index for the record [i]. *)
Definition weight_of_row (g : group) (i : Z) (v : Q) : weight := {| w_group := g_id g; w_index := i; w_value := v |}.
Definition told_cell (pol : policy) (i : Z) (s : db) (gc : option group * cell) (ks : list load) (s' : db) : Prop :=
  (ks = [] /\ s' = s /\ (fst gc = None \/ snd gc = CEmpty)) \/
  exists g v, gc = (Some g, CNum v) /\ s' = set_weights (d_weights s') s /\
    ((ks = [LWeightInserted] /\ ~ weighted s (g_id g) i /\ d_weights s' = d_weights s ++ [weight_of_row g i v]) \/
     (ks = [LWeightIgnored] /\ pol = PIgnore /\ weighted s (g_id g) i /\ s' = s) \/
     (ks = [LWeightReplaced] /\ pol = PReplace /\ weighted s (g_id g) i /\
      length (d_weights s') = length (d_weights s) /\
      forall w, In w (d_weights s') <-> w = weight_of_row g i v \/ (In w (d_weights s) /\ ~ is_weight_of (g_id g) i w))).

(** The record [i] that a row of insert_index means. *)
Definition told_label (pol : policy) (s : db) (r : ins_row) (i : Z) (ks : list load) (s' : db) : Prop :=
  (ks = [] /\ s' = s /\
   ((ir_id r = Some i /\ ir_labels r = [] /\ has_index s i) \/
    ((ir_id r = Some i \/ ir_id r = None) /\ matches s i (ir_labels r)))) \/
  (ks = [LLabelIgnored] /\ s' = s /\ ir_id r = Some i /\ pol = PIgnore /\ differs s i (ir_labels r)) \/
  (ks = [LLabelReplaced] /\ ir_id r = Some i /\ pol = PReplace /\ differs s i (ir_labels r) /\
   s' = set_index (map (relabelled i (ir_labels r)) (d_index s)) s) \/
  (ks = [LLabelInserted] /\ ir_id r = None /\ (forall j, ~ matches s j (ir_labels r)) /\ ~ has_index s i /\
   s' = set_index_seq (d_index s ++ [{| ix_id := i; ix_labels := ir_labels r |}]) i s).

Definition told_insert_index (lpol wpol : policy) (gs : list (option group)) (s : db) (r : ins_row) (ks : list load)
  (s' : db) : Prop :=
  (ks = [LEmptyLabels] /\ In [] (ir_labels r) /\ s' = s) \/
  (~ In [] (ir_labels r) /\ exists i k1 s1 k2, ks = k1 ++ k2 /\ told_label lpol s r i k1 s1 /\
     story (told_cell wpol i) s1 (combine gs (ir_cells r)) k2 s').

(** insert_weights. *)
Definition told_insert_weights (g : Z) (pol : policy) (s : db) (r : w_row) (ks : list load) (s' : db) : Prop :=
  (s' = s /\
   ((ks = [LNotRealnum] /\ forall v, wr_cell r <> CNum v) \/
    (exists v, wr_cell r = CNum v) /\
    ((ks = [LNoIndex] /\ exists i, wr_id r = Some i /\ ~ has_index s i) \/
     (ks = [LMismatch] /\ exists i, wr_id r = Some i /\ differs s i (wr_labels r)) \/
     (ks = [LNoMatch] /\ wr_id r = None /\ forall j, ~ matches s j (wr_labels r)) \/
     (ks = [LUndefined] /\ (wr_id r = Some 0%Z \/ wr_id r = None) /\ matches s 0 (wr_labels r))))) \/
  exists i v, wr_cell r = CNum v /\ (wr_id r = Some i \/ wr_id r = None) /\ i <> 0%Z /\ matches s i (wr_labels r) /\
    s' = set_weights (d_weights s') s /\
    ((ks = [LInserted] /\ ~ weighted s g i /\
      d_weights s' = d_weights s ++ [{| w_group := g; w_index := i; w_value := v |}]) \/
     (ks = [LSkipped] /\ pol = PIgnore /\ weighted s g i /\ s' = s) \/
     exists old new, In old (d_weights s) /\ is_weight_of g i old /\
       ((ks = [LOverwritten] /\ pol = PReplace /\ new = v) \/
        (ks = [LSummed] /\ pol = PSum /\ new = (w_value old + v)%Q)) /\
       length (d_weights s') = length (d_weights s) /\
       forall w, In w (d_weights s') <->
         w = {| w_group := g; w_index := i; w_value := new |} \/ (In w (d_weights s) /\ ~ is_weight_of g i w)).

(** insert_mappings2. *)
Definition usable_level (s : db) (lv : option (list N)) : Prop :=
  exists bits, In bits (d_structs s) /\
    ((lv = None /\ ~ In true bits) \/ (In true bits /\ lv = Some (bf_to_bytes (of_bits bits)))).
Definition told_insert_mappings2 (l : Z) (s : db) (r : m_row) (ks : list load) (s' : db) : Prop :=
  (ks = [LBadLevel] /\ ~ usable_level s (mr_level r) /\ s' = s) \/
  (usable_level s (mr_level r) /\
   ((ks = [LUndefinedPair] /\ mr_other r = 0%Z /\ mr_index r = 0%Z /\ s' = s) \/
    (ks = [LInserted] /\ ~ (mr_other r = 0%Z /\ mr_index r = 0%Z) /\
     exists lv, mr_level r = Some lv /\ s' = set_maps (d_maps s ++ [new_mapping l r lv]) s))).

(** The weight group for a column of insert_index: the one with the column's name, if it is among those that were asked
    for. *)
Definition asked (wsel : option (list text)) (c : text) : Prop :=
  match wsel with None => True | Some names => In c names end.
Definition group_of_column (wsel : option (list text)) (s : db) (c : text) (og : option group) : Prop :=
  match og with
  | Some g => In g (d_groups s) /\ g_name g = c /\ asked wsel c
  | None => asked wsel c -> forall g, In g (d_groups s) -> g_name g <> c
  end.
