(** C21, C22: matching rows to records and building mappings between two spaces. *)
From Verif Require Import Prelude QLemmas BitFlags_Model Selectors_Model LinkRef_Model Db_Model Db_Spec
  Db_ProofsRun Db_Properties Reader_Model Reader_Spec Mapper_Model Mapper_Spec Mapper_Proofs Mapper_Proofs2 Mapper_Proofs3
  Mapper_Proofs4 Mapper_Proofs5.

(** *** A case used in the examples *)

(** More labels are finer. *)
Definition by_size (b : list bool) : option Q := Some (inject_Z (Z.of_nat (length (filter (fun x => x) b)))).
Definition both_ : list N := level_of [true; true].
Definition first_ : list N := level_of [true; false].
Definition lab (a b : string) (lv : list N) : side := {| sd_id := None; sd_loc := [txt a; txt b]; sd_level := lv |}.
Definition idd (i : Z) (lv : list N) : side := {| sd_id := Some i; sd_loc := [txt ""; txt ""]; sd_level := lv |}.
(** Row 1: all of x to record 2; row 2: record 1 to all of x; row 3: record 3 to the undefined
    record; row 4 names a record that does not exist. *)
Definition data_ : list (side * side * option Q) :=
  [(lab "x" "" first_, idd 2 both_, Some 6%Q);
   (lab "x" "1" both_, lab "x" "" first_, Some 3%Q);
   (idd 3 both_, lab "-" "-" both_, Some 5%Q);
   (idd 7 both_, idd 2 both_, Some 4%Q)].
Definition src_ : list source := match load_mapper (run hist fresh) (run hist fresh) data_ with Ok x => x | Err _ => [] end.
Definition table (limit : nat) (allow : bool) (es : list (Z * side)) : list hit * counter :=
  match match_records by_size (run hist fresh) limit allow es [] with Ok x => x | Err _ => ([], no_count) end.
Definition show_hits (l : list hit) :=
  map (fun h => (h_run h, h_index h, match h_prop h with Some p => Some (Qred p) | None => None end)) l.

Example mapped_case :
  mapped by_size by_size (run hist fresh) (run hist fresh) 3 true src_
    (fst (table 3 true (side_1 src_))) (fst (table 3 true (side_2 src_))) /\
  show_hits (fst (table 3 true (side_1 src_))) =
    [(2, 1, Some 1%Q); (3, 3, Some 1%Q); (1, 1, Some (1 # 3)); (1, 2, Some (2 # 3))]%Z /\
  show_hits (fst (table 3 false (side_1 src_))) =
    [(2, 1, Some 1%Q); (3, 3, Some 1%Q); (1, 2, Some 1%Q)]%Z.
Proof.
  split; [|split; vm_compute; reflexivity].
  split.
  - exists data_. vm_compute. reflexivity.
  - exists (snd (table 3 true (side_1 src_))). vm_compute. reflexivity.
  - exists (snd (table 3 true (side_2 src_))). vm_compute. reflexivity.
  - vm_compute. repeat constructor; cbn; intuition discriminate.
  - vm_compute. repeat constructor; cbn; intuition discriminate.
Qed.

(** *** C21 *)

(** Loading keeps the rows in order, numbers them and accepts only levels of the structures
    and values that are not negative. *)
Theorem C21_load s1 s2 data src : load_mapper s1 s2 data = Ok src ->
  map (fun r => (sr_1 r, sr_2 r, sr_value r)) src = data /\ NoDup (map sr_run src) /\
  forall r, In r src ->
    (exists b, In b (d_structs s1) /\ sd_level (sr_1 r) = level_of b) /\
    (exists b, In b (d_structs s2) /\ sd_level (sr_2 r) = level_of b) /\
    (forall q, sr_value r = Some q -> (0 <= q)%Q).
Proof.
  intros H. destruct (load_rows s1 s2 data [] src H) as (new & -> & Hm & Hr & Hp). cbn [app length] in *.
  split; [exact Hm|]. split; [exact (load_runs new data Hr)|exact Hp].
Qed.
Print Assumptions C21_load.

Theorem C21_load_fails s1 s2 data e : load_mapper s1 s2 data = Err e ->
  exists a b v, In (a, b, v) data /\
    ((~ exists x, In x (d_structs s1) /\ sd_level a = level_of x) \/
     (~ exists x, In x (d_structs s2) /\ sd_level b = level_of x) \/
     exists q, v = Some q /\ (q < 0)%Q).
Proof. exact (load_fails s1 s2 data e). Qed.
Print Assumptions C21_load_fails.

Example C21_load_case :
  load_mapper (run hist fresh) (run hist fresh) data_ = Ok src_ /\ map sr_run src_ = [1; 2; 3; 4]%Z /\
  load_mapper (run hist fresh) (run hist fresh) [(lab "x" "" [64%N], idd 2 both_, Some 6%Q)] = Err RuntimeError.
Proof. vm_compute. repeat split; reflexivity. Qed.

(** A finer level of the structure comes before a coarser one; no level is left out. *)
Theorem C21_finer_first gran s a b : In a (d_structs s) -> In b (d_structs s) ->
  (gran_key (gran b) < gran_key (gran a))%Q -> before (sorted_levels gran s) (level_of a) (level_of b).
Proof. exact (finer_before gran s a b). Qed.
Print Assumptions C21_finer_first.
Theorem C21_all_levels gran s lv :
  In lv (sorted_levels gran s) <-> exists b, In b (d_structs s) /\ lv = level_of b.
Proof. exact (in_sorted_levels gran s lv). Qed.
Print Assumptions C21_all_levels.

(** Exactly what a row gets: [refs] are the records it refers to, [keep] those left when
    records taken at earlier levels are dropped; it gets [keep] or nothing. *)
Theorem C21_matches ops gran limit allow es l c run_id d : let s := run ops fresh in
  NoDup (map level_of (d_structs s)) -> NoDup (map fst es) ->
  match_records gran s limit allow es [] = Ok (l, c) ->
  In (run_id, d) es -> (exists b, In b (d_structs s) /\ sd_level d = level_of b) ->
  exists g refs keep,
    get_default_weight_group s = Ok g /\ refers_to s d refs /\
    keeps (sorted_levels gran s) allow l d refs keep /\
    (acceptable s g limit d refs keep -> map h_index (of_run run_id l) = keep) /\
    (~ acceptable s g limit d refs keep -> of_run run_id l = []) /\
    forall h, In h (of_run run_id l) -> h_level h = sd_level d /\ brings s g (h_index h) (h_weight h).
Proof.
  intros s Hl He H Hd Hlv.
  exact (row_matches gran s limit allow es l c run_id d (i_index _ (run_inv ops)) (levels_nodup gran s Hl) He H Hd
           (proj2 (in_sorted_levels gran s (sd_level d)) Hlv)).
Qed.
Print Assumptions C21_matches.

(** Matching needs a default weight group and fails in no other case. *)
Theorem C21_fails gran s limit allow es l e :
  match_records gran s limit allow es l = Err e <->
  (d_default s = None /\ e = RuntimeError) \/ (d_default s = Some None /\ e = TypeError) \/
  exists g, d_default s = Some (Some g) /\ (forall x, In x (d_groups s) -> g_id x <> g) /\ e = KeyError.
Proof. exact (match_fails gran s limit allow es l e). Qed.
Print Assumptions C21_fails.

(** Every match agrees with its row. *)
Theorem C21_sound ops gran limit allow es l c h : let s := run ops fresh in
  NoDup (map level_of (d_structs s)) -> NoDup (map fst es) ->
  match_records gran s limit allow es [] = Ok (l, c) -> In h l ->
  exists d, In (h_run h, d) es /\ h_level h = sd_level d /\ refers s d (h_index h).
Proof. intros s Hl He H. exact (sound gran s limit allow es l c (i_index _ (run_inv ops)) Hl He H h). Qed.
Print Assumptions C21_sound.

(** A row given by labels is never matched to more than [limit] records. *)
Theorem C21_limit ops gran limit allow es l c run_id d : let s := run ops fresh in
  NoDup (map level_of (d_structs s)) -> NoDup (map fst es) ->
  match_records gran s limit allow es [] = Ok (l, c) ->
  In (run_id, d) es -> by_labels d -> length (of_run run_id l) <= limit.
Proof. intros s Hl He H. exact (within_limit gran s limit allow es l c (i_index _ (run_inv ops)) Hl He H run_id d). Qed.
Print Assumptions C21_limit.

(** Without [allow] an ambiguous row takes no record that is matched at an earlier level. *)
Theorem C21_no_overlap ops gran limit es l c h d refs : let s := run ops fresh in
  NoDup (map level_of (d_structs s)) -> NoDup (map fst es) ->
  match_records gran s limit false es [] = Ok (l, c) ->
  In h l -> In (h_run h, d) es -> by_labels d -> refers_to s d refs -> 1 < length refs ->
  forall h', In h' l -> h_index h' = h_index h -> ~ before (sorted_levels gran s) (h_level h') (h_level h).
Proof.
  intros s Hl He H. exact (no_overlap gran s limit false es l c (i_index _ (run_inv ops)) Hl He H h d refs eq_refl).
Qed.
Print Assumptions C21_no_overlap.

(** What the log reports; every row that gets nothing is among the reported. *)
Theorem C21_counters ops gran limit allow es l c : let s := run ops fresh in
  NoDup (map level_of (d_structs s)) -> NoDup (map fst es) ->
  (forall e, In e es -> exists b, In b (d_structs s) /\ sd_level (snd e) = level_of b) ->
  match_records gran s limit allow es [] = Ok (l, c) ->
  counts (fun e => exists i, sd_id (snd e) = Some i /\ ~ has_index s i) es (c_missing c) /\
  counts (fun e => by_labels (snd e) /\ refers_count s (snd e) (fun n => n = 0)) es (c_nolabel c) /\
  counts (fun e => by_labels (snd e) /\ refers_count s (snd e) (fun n => 0 < n /\ limit < n)) es (c_overlimit c) /\
  (forall e, In e es -> by_labels (snd e) -> refers_count s (snd e) (fun n => limit < n -> n <= c_highest c)) /\
  (c_highest c = 0 \/ exists e, In e es /\ by_labels (snd e) /\
                       refers_count s (snd e) (fun n => limit < n /\ n = c_highest c)) /\
  length (filter (fun e => negb (matched (fst e) l)) es) <= reported c.
Proof.
  intros s Hl He Hin H.
  exact (counters gran s limit allow es l c (i_index _ (run_inv ops)) (levels_nodup gran s Hl) He
           (fun e Hi => proj2 (in_sorted_levels gran s _) (Hin e Hi)) H).
Qed.
Print Assumptions C21_counters.

Example C21_case :
  show_hits (fst (table 1 false (side_1 src_))) = [(2, 1, Some 1%Q); (3, 3, Some 1%Q)]%Z /\
  snd (table 1 false (side_1 src_)) = Build_counter 1 0 0 0 1 2 0 /\
  snd (table 3 false (side_1 src_)) = Build_counter 1 0 0 1 0 0 0 /\
  match_records by_size fresh 1 false (side_1 src_) [] = Err RuntimeError.
Proof. vm_compute. repeat split; reflexivity. Qed.

(** Complete matching means that every defined record of both spaces is matched. *)
Theorem C21_fully_matched ops1 ops2 gran1 gran2 limit allow src l1 l2 :
  let s1 := run ops1 fresh in let s2 := run ops2 fresh in
  mapped gran1 gran2 s1 s2 limit allow src l1 l2 ->
  (is_fully_matched s1 s2 l1 l2 = true <->
   (forall i, defined s1 i -> exists h, In h l1 /\ h_index h = i) /\
   (forall i, defined s2 i -> exists h, In h l2 /\ h_index h = i)).
Proof.
  intros s1 s2. exact (fully gran1 gran2 s1 s2 limit allow src l1 l2 (i_index _ (run_inv ops1)) (i_index _ (run_inv ops2))).
Qed.
Print Assumptions C21_fully_matched.

(** Finding: the records of an ambiguous row may all be taken by finer rows; then the row is
    dropped although it refers to few enough records, all weighted. *)
Theorem C21_row_dropped_refuted : exists ops gran limit es l c run_id d refs,
  let s := run ops fresh in
  match_records gran s limit false es [] = Ok (l, c) /\ In (run_id, d) es /\
  refers_to s d refs /\ 1 < length refs <= limit /\
  (exists g, get_default_weight_group s = Ok g /\ forall i, In i refs -> weight_there s g i) /\
  of_run run_id l = [].
Proof.
  exists hist, by_size, 3, [(1, lab "x" "" first_); (2, lab "x" "1" both_); (3, lab "x" "2" both_)]%Z.
  cbv zeta. eexists _, _, 1%Z, (lab "x" "" first_), [1; 2]%Z. split; [vm_compute; reflexivity|].
  split; [now left|]. split; [|split; [cbn; lia|split; [|vm_compute; reflexivity]]].
  - split; [repeat constructor; cbn; intuition discriminate|].
    intros i. rewrite <- (in_candidates (run hist fresh) (lab "x" "" first_) i (i_index _ (run_inv hist)) eq_refl). vm_compute. intuition.
  - exists 1%Z. split; [vm_compute; reflexivity|]. intros i Hi.
    destruct Hi as [<-|[<-|[]]]; values; unfold weight_there; cbn [d_weights]; eexists;
      [split; [left; reflexivity|now split]|split; [right; left; reflexivity|now split]].
Qed.
Print Assumptions C21_row_dropped_refuted.

(** Finding: matching a second time adds every match again. *)
Theorem C21_limit_twice_refuted : exists ops gran limit allow es l c l' c' run_id d,
  let s := run ops fresh in
  match_records gran s limit allow es [] = Ok (l, c) /\ match_records gran s limit allow es l = Ok (l', c') /\
  In (run_id, d) es /\ by_labels d /\ limit < length (of_run run_id l').
Proof.
  exists hist, by_size, 1, false, [(1, lab "x" "1" both_)]%Z. cbv zeta. eexists _, _, _, _, 1%Z, (lab "x" "1" both_).
  split; [vm_compute; reflexivity|]. split; [vm_compute; reflexivity|]. split; [now left|].
  split; [reflexivity|]. vm_compute. lia.
Qed.
Print Assumptions C21_limit_twice_refuted.

(** *** C22 *)

(** The shares of a matched row follow the weights of its records and add up to 1. *)
Theorem C22_shares ops gran limit allow es l c run_id : let s := run ops fresh in
  NoDup (map level_of (d_structs s)) -> NoDup (map fst es) ->
  match_records gran s limit allow es [] = Ok (l, c) -> matched run_id l = true ->
  (forall h, In h (of_run run_id l) -> exists p, h_prop h = Some p /\ (0 <= p <= 1)%Q /\
     ((0 < total_weight run_id l)%Q -> (p == val (h_weight h) / total_weight run_id l)%Q) /\
     ((total_weight run_id l == 0)%Q -> (p == 1 / inject_Z (Z.of_nat (length (of_run run_id l))))%Q)) /\
  (parts run_id l == 1)%Q.
Proof.
  intros s Hl He H.
  exact (shares gran s limit allow es l c run_id (i_weights _ (run_inv ops)) (levels_nodup gran s Hl) He H).
Qed.
Print Assumptions C22_shares.

(** The mappings produced from any of the rows carry the values of those matched on both
    sides, less what goes from the undefined to the undefined record. *)
Theorem C22_total ops1 ops2 gran1 gran2 limit allow src l1 l2 rows from to :
  mapped gran1 gran2 (run ops1 fresh) (run ops2 fresh) limit allow src l1 l2 ->
  (from = l1 /\ to = l2 \/ from = l2 /\ to = l1) ->
  (Qsum (map (fun x => val (snd x)) (iter_mappings rows from to)) ==
   Qsum (map (fun r => val (sr_value r) * (1 - share_of (sr_run r) from 0 * share_of (sr_run r) to 0))
     (filter (fun r => matched (sr_run r) l1 && matched (sr_run r) l2) rows)))%Q.
Proof.
  intros M. exact (total_rows gran1 gran2 _ _ limit allow src l1 l2 (i_weights _ (run_inv ops1)) (i_weights _ (run_inv ops2)) M rows from to).
Qed.
Print Assumptions C22_total.

(** The value carried from one record to another, at one level of the target and in all. *)
Theorem C22_pairs src from to a b : ~ (a = 0 /\ b = 0)%Z ->
  (carried (iter_mappings src from to) a b ==
   Qsum (map (fun r => val (sr_value r) * (share_of (sr_run r) from a * share_of (sr_run r) to b)) src))%Q.
Proof.
  intros Hn. rewrite carried_pair. destruct ((a =? 0)%Z && (b =? 0)%Z) eqn:E; [exfalso; lia|reflexivity].
Qed.
Print Assumptions C22_pairs.
Theorem C22_levels src from to a b lv v : In ((a, b, lv), v) (iter_mappings src from to) ->
  (val v == Qsum (map (fun r => val (sr_value r) * (share_of (sr_run r) from a * share_at (sr_run r) to b lv)) src))%Q.
Proof. exact (level_value src from to a b lv v). Qed.
Print Assumptions C22_levels.

(** Each pair and level is produced once, the undefined-to-undefined pair never, and only
    for records matched by a common row, at the level of the target side. *)
Theorem C22_keys src from to :
  NoDup (map fst (iter_mappings src from to)) /\
  forall a b lv v, In ((a, b, lv), v) (iter_mappings src from to) ->
    ~ (a = 0%Z /\ b = 0%Z) /\
    exists r x y, In r src /\ In x from /\ In y to /\ h_run x = sr_run r /\ h_run y = sr_run r /\
                  h_index x = a /\ h_index y = b /\ h_level y = lv.
Proof. split; [exact (iter_keys src from to)|exact (iter_defined src from to)]. Qed.
Print Assumptions C22_keys.

(** Both directions carry the same values. *)
Theorem C22_directions src l1 l2 a b :
  (carried (iter_mappings src l1 l2) a b == carried (iter_mappings src l2 l1) b a)%Q.
Proof. exact (directions src l1 l2 a b). Qed.
Print Assumptions C22_directions.

(** Loading the produced mappings into a link without mappings succeeds and stores them as
    they are, except those at the level of no label at all. *)
Theorem C22_stored ops ops1 ops2 gran1 gran2 limit allow src l1 l2 ref name k from to :
  let s := run ops fresh in
  mapped gran1 gran2 (run ops1 fresh) (run ops2 fresh) limit allow src l1 l2 ->
  (from = l1 /\ to = l2 \/ from = l2 /\ to = l1) ->
  (forall r, In r src -> sr_value r <> None) ->
  get_link ref name true (d_links s) = Ok k -> In k (d_links s) ->
  (forall m, In m (d_maps s) -> m_link m <> k_id k) ->
  exists s', insert_mappings2 ref name (to_rows (iter_mappings src from to)) s = Ok s' /\
    (forall o i lv q, valued s' (k_id k) o i lv q <->
       In ((o, i, lv), Some q) (iter_mappings src from to) /\
       exists b, In b (d_structs s) /\ In true b /\ lv = level_of b) /\
    (forall o i lv v, In ((o, i, lv), v) (iter_mappings src from to) -> exists q, v = Some q) /\
    (forall l o i lv q, l <> k_id k -> (valued s' l o i lv q <-> valued s l o i lv q)).
Proof.
  intros s M Hft.
  exact (stored gran1 gran2 _ _ limit allow src l1 l2 (i_weights _ (run_inv ops1)) (i_weights _ (run_inv ops2)) M
           ref name k from to s Hft (i_maps _ (run_inv ops))).
Qed.
Print Assumptions C22_stored.

Definition out_ := iter_mappings src_ (fst (table 3 true (side_1 src_))) (fst (table 3 true (side_2 src_))).
Example C22_case :
  map (fun x => (fst x, match snd x with Some q => Some (Qred q) | None => None end)) out_ =
    [(1, 2, both_, Some 2%Q); (2, 2, both_, Some 4%Q); (1, 1, first_, Some 1%Q); (1, 2, first_, Some 2%Q);
     (3, 0, both_, Some 5%Q)]%Z /\
  (carried out_ 1 2 == 4)%Q /\
  (exists s', insert_mappings2 (txt "u2") None (to_rows out_) (run hist fresh) = Ok s').
Proof. split; [vm_compute; reflexivity|]. split; [vm_compute; reflexivity|]. eexists. vm_compute. reflexivity. Qed.

(** Finding: [is_fully_matched] can hold although the loaded mapping does not reach every
    record, when a record is only matched by rows that are not matched on the other side. *)
Theorem C22_fully_matched_refuted : exists ops gran limit allow src l1 l2 ref k s',
  let s := run ops fresh in
  mapped gran gran s s limit allow src l1 l2 /\ is_fully_matched s s l1 l2 = true /\
  get_link ref None true (d_links s) = Ok k /\
  insert_mappings2 ref None (to_rows (iter_mappings src l1 l2)) s = Ok s' /\
  ~ link_complete s' (k_id k).
Proof.
  pose (data := [(idd 1 both_, idd 1 both_, Some 1%Q); (idd 2 both_, idd 2 both_, Some 1%Q);
                 (idd 3 both_, idd 2 both_, Some 1%Q); (idd 7 both_, idd 3 both_, Some 1%Q)]).
  exists hist, by_size, 1, false.
  eexists (match load_mapper (run hist fresh) (run hist fresh) data with Ok x => x | Err _ => [] end).
  eexists _, _, (txt "u2"), _, _. cbv zeta. split; [|split; [|split; [|split]]].
  - split.
    + exists data. vm_compute. reflexivity.
    + eexists. vm_compute. reflexivity.
    + eexists. vm_compute. reflexivity.
    + vm_compute. repeat constructor; cbn; intuition discriminate.
    + vm_compute. repeat constructor; cbn; intuition discriminate.
  - vm_compute. reflexivity.
  - vm_compute. reflexivity.
  - vm_compute. reflexivity.
  - intros H. destruct (H 3%Z) as (m & Hm & E1 & E2).
    + split; [|discriminate]. eexists. split; [right; right; right; left; reflexivity|reflexivity].
    + cbn in Hm. cbn in E1. intuition (subst m; discriminate).
Qed.
Print Assumptions C22_fully_matched_refuted.
