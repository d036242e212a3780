(** C17, C25-C33, C35, C48-C50: the stored state of a space. *)
From Verif Require Import Prelude QLemmas BitFlags_Model BitFlags_Spec Selectors_Model LinkRef_Model
  LinkRef_Spec LinkRef_Proofs Db_Model Db_Spec Db_ProofsRun Db_ProofsOps Db_ProofsOps2 Db_ProofsOps3
  Db_ProofsOps4 Db_ProofsOps5 Db_ProofsOps6 Db_ProofsOps7.

(** Replaces the states of concrete histories by their values. *)
Ltac values :=
  repeat match goal with
  | |- context [run ?o fresh] =>
      let v := eval vm_compute in (run o fresh) in
      let E := fresh "E" in
      assert (E : run o fresh = v) by (vm_compute; reflexivity); rewrite E; clear E
  end.

(** *** A history used in the examples *)

Definition rec_ (a b : string) (pop : Z) : ins_row :=
  {| ir_id := None; ir_labels := [txt a; txt b]; ir_cells := [CNum (inject_Z pop)] |}.
Definition lk (other name : string) : link :=
  {| k_id := 0; k_other := txt other; k_hint := None; k_name := txt name; k_selectors := [];
     k_default := false; k_hash := None; k_complete := false |}.
Definition whole : list N := bf_to_bytes (of_bits [true; true]).
Definition coarse : list N := bf_to_bytes (of_bits [true; false]).
Definition mp (o i : Z) (v : Q) (lv : list N) (a b : string) : m_row :=
  {| mr_other := o; mr_index := i; mr_level := Some lv; mr_value := v; mr_labels := [txt a; txt b] |}.

(** Three records with weights in group pop, two links to space u1 and one to u2, and
    mappings for the first link: source 1 to records 1 and 2, source 2 to record 3. *)
Definition hist : list op :=
  [OAddColumns [txt "A"; txt "B"];
   OSetStructure [[false; false]; [true; false]; [true; true]];
   OAddGroup (txt "pop") false None;
   OInsertIndex None [txt "pop"] PAbort PAbort [rec_ "x" "1" 10; rec_ "x" "2" 20; rec_ "y" "1" 0];
   OAddLink (lk "u1" "m1") None; OAddLink (lk "u1" "m2") None; OAddLink (lk "u2" "m1") None;
   OInsertMappings (txt "u1") None
     [mp 1 1 3 whole "x" "1"; mp 1 2 1 whole "x" "2"; mp 2 3 0 whole "y" "1"; mp 3 2 5 coarse "x" "2"]].

Definition show_index (s : db) := map (fun r => (ix_id r, ix_labels r)) (d_index s).
Definition show_weights (s : db) := map (fun w => (w_group w, w_index w, Qred (w_value w))) (d_weights s).
Definition show_maps (s : db) :=
  map (fun m => (m_link m, m_other m, m_index m, Qred (m_value m),
                 match m_prop m with Some p => Some (Qred p) | None => None end)) (d_maps s).
Definition show_groups (s : db) := map (fun g => (g_id g, g_complete g)) (d_groups s).
Definition show_links (s : db) := map (fun k => (k_id k, k_default k, k_hash k, k_complete k)) (d_links s).

Example hist_case :
  one_session hist /\ Forall honest hist /\
  show_index (run hist fresh) = [(0, [txt "-"; txt "-"]); (1, [txt "x"; txt "1"]); (2, [txt "x"; txt "2"]);
                                 (3, [txt "y"; txt "1"])]%Z /\
  show_weights (run hist fresh) = [(1%Z, 1%Z, 10%Q); (1%Z, 2%Z, 20%Q); (1%Z, 3%Z, 0%Q)] /\
  show_groups (run hist fresh) = [(1%Z, true)] /\
  show_maps (run hist fresh) =
    [(1%Z, 1%Z, 1%Z, 3%Q, Some (3 # 4)); (1%Z, 1%Z, 2%Z, 1%Q, Some (1 # 4));
     (1%Z, 2%Z, 3%Z, 0%Q, Some 1%Q); (1%Z, 3%Z, 2%Z, 5%Q, Some 1%Q)] /\
  show_links (run hist fresh) =
    [(1%Z, true, Some [0; 1; 2; 3]%Z, true); (2%Z, false, None, false); (3%Z, true, None, false)].
Proof.
  split; [repeat constructor; cbn; auto|]. split; [repeat constructor|]. vm_compute. repeat split; reflexivity.
Qed.

(** *** C25 *)

(** An id that once denoted a record and then did not never denotes one again. *)
Theorem C25_ids_never_reused ops1 ops2 ops3 i :
  has_index (run ops1 fresh) i -> ~ has_index (run (ops1 ++ ops2) fresh) i ->
  ~ has_index (run (ops1 ++ ops2 ++ ops3) fresh) i.
Proof. exact (ids_not_reused ops1 ops2 ops3 i). Qed.
Print Assumptions C25_ids_never_reused.

Example C25_case :
  let del := [ODeleteIndexRows [{| dr_id := 3; dr_labels := [txt "y"; txt "1"] |}]] in
  let ins := [OInsertIndex None [txt "pop"] PAbort PAbort [rec_ "y" "1" 7]] in
  has_index (run hist fresh) 3 /\ ~ has_index (run (hist ++ del) fresh) 3 /\
  show_index (run (hist ++ del ++ ins) fresh) =
    [(0, [txt "-"; txt "-"]); (1, [txt "x"; txt "1"]); (2, [txt "x"; txt "2"]); (4, [txt "y"; txt "1"])]%Z.
Proof.
  cbv zeta. split; [|split; [|vm_compute; reflexivity]].
  - values. eexists. split; [right; right; right; left; reflexivity|reflexivity].
  - intros (r & Hr & E). vm_compute in Hr. intuition (subst r; discriminate).
Qed.

(** *** C26 *)
Theorem C26_labels_identify ops : index_wf (run ops fresh).
Proof. exact (i_index _ (run_inv ops)). Qed.
Print Assumptions C26_labels_identify.

(** *** C27 *)
Theorem C27_hash ops : hash_wf (run ops fresh).
Proof. exact (i_hash _ (run_inv ops)). Qed.
Print Assumptions C27_hash.

Theorem C27_same_hash ops1 ops2 :
  d_hash (run ops1 fresh) = d_hash (run ops2 fresh) <->
  forall i, has_index (run ops1 fresh) i <-> has_index (run ops2 fresh) i.
Proof. exact (same_hash ops1 ops2). Qed.
Print Assumptions C27_same_hash.

(** *** C28 *)
Theorem C28_weights ops : weights_wf (run ops fresh).
Proof. exact (i_weights _ (run_inv ops)). Qed.
Print Assumptions C28_weights.
Theorem C28_weights_belong ops : one_session ops -> weights_ref (run ops fresh).
Proof. exact (fun H => proj1 (refs_of ops H)). Qed.
Print Assumptions C28_weights_belong.

(** Finding: in a space that was stored and opened again, dropping a weight group leaves its
    weights behind. *)
Theorem C28_orphan_weights_refuted : exists ops, Forall honest ops /\ ~ weights_ref (run ops fresh).
Proof.
  exists (hist ++ [OReopen; ODropGroup (txt "pop")]). split; [repeat constructor|]. values. intros [H _].
  destruct (H {| w_group := 1; w_index := 1; w_value := 10 |}) as (g & Hg & _); [left; reflexivity|].
  vm_compute in Hg. exact Hg.
Qed.
Print Assumptions C28_orphan_weights_refuted.

(** *** C29 *)
Theorem C29_complete_flag_sound ops : Forall honest ops -> group_flags_sound (run ops fresh).
Proof. exact (fun H => proj1 (run_sound ops H)). Qed.
Print Assumptions C29_complete_flag_sound.
Theorem C29_complete_flag_exact ops : Forall honest ops -> one_session ops -> group_flags_exact (run ops fresh).
Proof. exact (fun H R => proj1 (run_exact ops H R)). Qed.
Print Assumptions C29_complete_flag_exact.

(** Finding: a group of a space without defined records is not marked complete. *)
Theorem C29_empty_index_refuted : exists ops, Forall honest ops /\ one_session ops /\
  exists g, In g (d_groups (run ops fresh)) /\ weight_complete (run ops fresh) (g_id g) /\ g_complete g = false.
Proof.
  exists [OAddGroup (txt "pop") false None]. split; [repeat constructor|]. split; [repeat constructor; cbn; auto|].
  values. eexists. split; [left; reflexivity|]. split; [|reflexivity].
  intros i [(r & Hr & <-) Hn]. vm_compute in Hr. destruct Hr as [<-|[]]. now contradiction Hn.
Qed.
Print Assumptions C29_empty_index_refuted.

(** Finding: in a space that was stored and opened again, a group can have all weights
    (those left behind by a dropped group) without being marked complete. *)
Theorem C29_reopened_refuted : exists ops, Forall honest ops /\ ~ group_flags_exact (run ops fresh).
Proof.
  exists (hist ++ [OReopen; ODropGroup (txt "pop"); OAddGroup (txt "area") false None]).
  split; [repeat constructor|]. values. intros H.
  destruct (H {| g_id := 1; g_name := txt "area"; g_complete := false |}) as [_ K].
  - vm_compute. left. reflexivity.
  - exists 1%Z. split; [|lia]. eexists. split; [right; left; reflexivity|reflexivity].
  - enough (E : false = true) by discriminate E. apply K. intros i [(r & Hr & <-) Hn]. vm_compute in Hr.
    destruct Hr as [<-|[<-|[<-|[<-|[]]]]].
    + now contradiction Hn.
    + eexists. split; [left; reflexivity|]. split; reflexivity.
    + eexists. split; [right; left; reflexivity|]. split; reflexivity.
    + eexists. split; [right; right; left; reflexivity|]. split; reflexivity.
Qed.
Print Assumptions C29_reopened_refuted.

(** *** C30 *)
Theorem C30_link_table ops : link_table (d_links (run ops fresh)).
Proof. exact (i_links _ (run_inv ops)). Qed.
Print Assumptions C30_link_table.

(** add_link succeeds exactly when the name is new for that space; the new link is a default
    if asked for, or by itself if it is the first one to that space; the others stay, except
    that the previous default loses its status to a new default. *)
Theorem C30_add_link ops new dflt :
  let s := run ops fresh in let out := step (OAddLink new dflt) s in
  (snd out = None <-> forall k, In k (d_links s) -> k_other k = k_other new -> k_name k <> k_name new) /\
  (snd out <> None -> fst out = s) /\
  (snd out = None -> exists k', In k' (d_links (fst out)) /\ ~ In (k_id k') (map k_id (d_links s)) /\
     k_other k' = k_other new /\ k_name k' = k_name new /\
     (k_default k' = true <-> dflt = Some true \/ dflt = None /\ forall k, In k (d_links s) -> k_other k <> k_other new) /\
     (forall k2, In k2 (d_links (fst out)) <-> k2 = k' \/ exists k, In k (d_links s) /\ bystander (k_default k') (k_other new) k k2) /\
     fst out = set_links (d_links (fst out)) s).
Proof. exact (let (I, R) := run_state ops in step_add_link new dflt _ I R). Qed.
Print Assumptions C30_add_link.

Theorem C30_edit_link ops ref name c k :
  let s := run ops fresh in let out := step (OEditLink ref name c) s in
  meant (d_links s) ref (Some name) true k ->
  (snd out <> None -> fst out = s) /\
  (snd out = None -> In (apply_changes c k) (d_links (fst out)) /\
     (forall k2, In k2 (d_links (fst out)) <-> k2 = apply_changes c k \/
        exists x, In x (d_links s) /\ x <> k /\
          bystander (match c_default c with Some true => true | _ => false end) (k_other k) x k2) /\
     fst out = set_links (d_links (fst out)) s).
Proof. exact (let (I, R) := run_state ops in step_edit_link ref name c k _ I R). Qed.
Print Assumptions C30_edit_link.

Theorem C30_drop_link ops ref name k :
  let s := run ops fresh in let out := step (ODropLink ref name) s in
  meant (d_links s) ref (Some name) true k ->
  snd out = None /\
  (forall x, In x (d_links (fst out)) <-> In x (d_links s) /\ x <> k) /\
  (d_fk s = true -> forall m, In m (d_maps (fst out)) <-> In m (d_maps s) /\ m_link m <> k_id k) /\
  fst out = set_maps (d_maps (fst out)) (set_links (d_links (fst out)) s).
Proof. exact (let (I, R) := run_state ops in step_drop_link ref name k _ I R). Qed.
Print Assumptions C30_drop_link.

(** A failed call changes nothing, whatever the operation (but for reify_mappings). *)
Theorem C30_failed_changes_nothing o s :
  (forall r n c, o <> OReify r n c) -> snd (step o s) <> None -> fst (step o s) = s.
Proof. exact (failed_changes_nothing o s). Qed.
Print Assumptions C30_failed_changes_nothing.

Example C30_case :
  show_links (run (hist ++ [OAddLink (lk "u1" "m3") (Some true)]) fresh) =
    [(1%Z, false, Some [0; 1; 2; 3]%Z, true); (2%Z, false, None, false); (3%Z, true, None, false);
     (4%Z, true, None, false)] /\
  snd (step (OAddLink (lk "u1" "m2") (Some true)) (run hist fresh)) = Some ToronError /\
  show_links (run (hist ++ [OEditLink (txt "u1") (txt "m2")
      {| c_other := None; c_hint := None; c_name := None; c_selectors := None; c_default := Some true;
         c_hash := None; c_complete := None |}]) fresh) =
    [(1%Z, false, Some [0; 1; 2; 3]%Z, true); (2%Z, true, None, false); (3%Z, true, None, false)] /\
  show_links (run (hist ++ [ODropLink (txt "u1") (txt "m1")]) fresh) =
    [(2%Z, false, None, false); (3%Z, true, None, false)] /\
  d_maps (run (hist ++ [ODropLink (txt "u1") (txt "m1")]) fresh) = [].
Proof. vm_compute. repeat split; reflexivity. Qed.

(** *** C31 *)
Theorem C31_mappings ops : maps_wf (run ops fresh).
Proof. exact (i_maps _ (run_inv ops)). Qed.
Print Assumptions C31_mappings.
Theorem C31_mappings_belong ops : one_session ops -> maps_ref (run ops fresh).
Proof. exact (fun H => proj2 (refs_of ops H)). Qed.
Print Assumptions C31_mappings_belong.

(** Finding: in a space that was stored and opened again, dropping a link leaves its mappings
    behind, and insert_mappings2 accepts mappings to records that do not exist. *)
Theorem C31_orphan_mappings_refuted :
  (exists ops m, Forall honest ops /\ In m (d_maps (run ops fresh)) /\
     forall k, In k (d_links (run ops fresh)) -> k_id k <> m_link m) /\
  (exists ops m, Forall honest ops /\ In m (d_maps (run ops fresh)) /\ ~ has_index (run ops fresh) (m_index m)).
Proof.
  split.
  - exists (hist ++ [OReopen; ODropLink (txt "u1") (txt "m1")]). values. eexists. split; [repeat constructor|].
    split; [left; reflexivity|]. intros k Hk. vm_compute in Hk. destruct Hk as [<-|[<-|[]]]; cbn; discriminate.
  - exists (hist ++ [OReopen; OInsertMappings2 (txt "u1") None [mp 1 99 1 whole "x" "1"]]). values. eexists. split; [repeat constructor|].
    split; [right; right; right; right; left; reflexivity|]. intros (r & Hr & E). vm_compute in Hr. vm_compute in E.
    intuition (subst r; discriminate).
Qed.
Print Assumptions C31_orphan_mappings_refuted.

(** *** C17 *)
Theorem C17_refresh ops l o :
  let s := run ops fresh in o <> 0%Z ->
  exists s', refresh_proportions l o s = Ok s' /\ s' = set_maps (d_maps s') s /\
    (forall l' o' i lv v, valued s' l' o' i lv v <-> valued s l' o' i lv v) /\
    (forall m, ~ (m_link m = l /\ m_other m = o) -> (In m (d_maps s') <-> In m (d_maps s))) /\
    follows_values l o s' /\
    (forall m, In m (from l o s') -> exists p, m_prop m = Some p /\ (0 <= p <= 1)%Q) /\
    (from l o s' <> [] -> (Qsum (map share (from l o s')) == 1)%Q).
Proof. exact (fun H => refresh_spec l o _ (run_inv ops) H). Qed.
Print Assumptions C17_refresh.

(** *** C32 *)

(** Whatever update_index does, the data of every old record ends up, added, at one of the
    remaining records, and a record that remains keeps its own. *)
Theorem C32_update_index_conserves mg rows s s' : step (OUpdateIndex mg rows) s = (s', None) ->
  exists f, moved_by f s s' /\ forall j, has_index s' j -> has_index s j /\ f j = j.
Proof. exact (step_update_moved mg rows s s'). Qed.
Print Assumptions C32_update_index_conserves.

(** Giving record [t] the labels of another record [i] with merging on. *)
Theorem C32_merge ops t i labels s' :
  let s := run ops fresh in
  has_index s t -> In {| ix_id := i; ix_labels := labels |} (d_index s) -> i <> t ->
  step (OUpdateIndex true [{| ur_id := t; ur_labels := labels; ur_blank := false |}]) s = (s', None) ->
  i <> 0%Z /\ t <> 0%Z /\
  (forall r, In r (d_index s') <->
     r = {| ix_id := t; ix_labels := labels |} \/ In r (d_index s) /\ ix_id r <> t /\ ix_id r <> i) /\
  moved_by (merge_one i t) s s' /\
  (forall w, w_index w <> t -> w_index w <> i -> (In w (d_weights s') <-> In w (d_weights s))) /\
  (forall m, m_index m <> t -> m_index m <> i -> (In m (d_maps s') <-> In m (d_maps s))) /\
  map g_id (d_groups s') = map g_id (d_groups s) /\ map k_id (d_links s') = map k_id (d_links s).
Proof. exact (fun H1 H2 H3 H4 => step_update_merge _ s' t i labels (run_inv ops) H1 H2 H3 H4). Qed.
Print Assumptions C32_merge.

Example C32_case :
  let out := step (OUpdateIndex true [{| ur_id := 1; ur_labels := [txt "x"; txt "2"]; ur_blank := false |}])
                  (run hist fresh) in
  snd out = None /\
  show_index (fst out) = [(0, [txt "-"; txt "-"]); (1, [txt "x"; txt "2"]); (3, [txt "y"; txt "1"])]%Z /\
  show_weights (fst out) = [(1%Z, 3%Z, 0%Q); (1%Z, 1%Z, 30%Q)] /\
  show_maps (fst out) = [(1%Z, 2%Z, 3%Z, 0%Q, Some 1%Q); (1%Z, 1%Z, 1%Z, 4%Q, Some 1%Q);
                         (1%Z, 3%Z, 1%Z, 5%Q, Some 1%Q)].
Proof. vm_compute. repeat split; reflexivity. Qed.

(** Finding: a row with the labels the record already has makes the record merge with itself
    and deletes it. *)
Theorem C32_unchanged_row_refuted : exists ops i labels s', Forall honest ops /\ one_session ops /\
  In {| ix_id := i; ix_labels := labels |} (d_index (run ops fresh)) /\ i <> 0%Z /\
  step (OUpdateIndex true [{| ur_id := i; ur_labels := labels; ur_blank := false |}]) (run ops fresh) = (s', None) /\
  ~ has_index s' i.
Proof.
  exists [OAddColumns [txt "A"];
          OInsertIndex None [] PAbort PAbort [{| ir_id := None; ir_labels := [txt "x"]; ir_cells := [] |};
                                              {| ir_id := None; ir_labels := [txt "y"]; ir_cells := [] |}]].
  exists 1%Z, [txt "x"]. values. eexists. split; [repeat constructor|]. split; [repeat constructor; cbn; auto|].
  split; [right; left; reflexivity|]. split; [lia|]. split; [vm_compute; reflexivity|].
  intros (r & Hr & E). vm_compute in Hr. intuition (subst r; discriminate).
Qed.
Print Assumptions C32_unchanged_row_refuted.

(** *** C33 *)
Theorem C33_delete_rows ops rows :
  let s := run ops fresh in let out := step (ODeleteIndexRows rows) s in
  (snd out = None <-> rows <> [] /\ deletable (chosen_by_rows rows s) s) /\
  (snd out = None -> deleted (chosen_by_rows rows s) s (fst out)) /\
  (snd out <> None -> fst out = s).
Proof. exact (let (I, R) := run_state ops in step_delete_rows rows _ I R). Qed.
Print Assumptions C33_delete_rows.

Theorem C33_delete_criteria ops c :
  let s := run ops fresh in let out := step (ODeleteIndexCriteria c) s in
  known_columns c s ->
  (snd out = None <-> c <> [] /\ deletable (chosen_by_criteria c s) s) /\
  (snd out = None -> deleted (chosen_by_criteria c s) s (fst out)) /\
  (snd out <> None -> fst out = s).
Proof. exact (fun H => let (I, R) := run_state ops in step_delete_criteria c _ I R H). Qed.
Print Assumptions C33_delete_criteria.

Example C33_case :
  let out := step (ODeleteIndexRows [{| dr_id := 1; dr_labels := [txt "x"; txt "1"] |}]) (run hist fresh) in
  snd out = None /\
  show_index (fst out) = [(0, [txt "-"; txt "-"]); (2, [txt "x"; txt "2"]); (3, [txt "y"; txt "1"])]%Z /\
  show_weights (fst out) = [(1%Z, 2%Z, 20%Q); (1%Z, 3%Z, 0%Q)] /\
  show_maps (fst out) = [(1%Z, 1%Z, 2%Z, 1%Q, Some 1%Q); (1%Z, 2%Z, 3%Z, 0%Q, Some 1%Q); (1%Z, 3%Z, 2%Z, 5%Q, Some 1%Q)] /\
  snd (step (ODeleteIndexRows [{| dr_id := 2; dr_labels := [txt "x"; txt "2"] |}]) (run hist fresh)) = Some ValueError /\
  snd (step (ODeleteIndexCriteria [(txt "A", txt "-")]) (run hist fresh)) = Some SqlIntegrityError.
Proof. vm_compute. repeat split; reflexivity. Qed.

(** *** C35 *)
Theorem C35_add_or_resolve ops g i v p old :
  let s := run ops fresh in
  (exists x, In x (d_groups s) /\ g_id x = g) -> (0 < i)%Z -> (0 <= v)%Q -> weight_at s g i old ->
  match resolved p old v with
  | Some (q, c) => exists s', add_or_resolve g i v p s = Ok (s', c) /\ s' = set_weights (d_weights s') s /\
      weight_at s' g i (Some q) /\
      (forall w, (w_group w, w_index w) <> (g, i) -> (In w (d_weights s') <-> In w (d_weights s)))
  | None => exists e, add_or_resolve g i v p s = Err e
  end.
Proof. exact (add_or_resolve_spec g i v p _ old (i_weights _ (run_inv ops))). Qed.
Print Assumptions C35_add_or_resolve.
Theorem C35_refused g i v p s : (i = 0%Z \/ (v < 0)%Q) -> add_or_resolve g i v p s = Err ValueError.
Proof. exact (add_or_resolve_refused g i v p s). Qed.
Print Assumptions C35_refused.

Example C35_case :
  let s := run hist fresh in
  let out p := match add_or_resolve 1 2 (7 # 2) p s with
               | Ok (s', c) => Some (nth 1 (show_weights s') (0%Z, 0%Z, 0%Q), c) | Err _ => None end in
  weight_at s 1 2 (Some (20 # 1)) /\
  out PIgnore = Some ((1%Z, 2%Z, 20%Q), CSkipped) /\ out PSum = Some ((1%Z, 2%Z, 47 # 2), CSummed) /\
  out PReplace = Some ((1%Z, 2%Z, 7 # 2), COverwritten) /\ out PAbort = None.
Proof. cbv zeta. split; [values; right; left; reflexivity|]. vm_compute. repeat split; reflexivity. Qed.

(** *** C48 *)
Theorem C48_delete_weights_rows ops g rows :
  let s := run ops fresh in let out := step (ODeleteWeightsRows (g_name g) rows) s in
  In g (d_groups s) -> rows <> [] ->
  snd out = None /\ unweighted (g_id g) (chosen_by_rows rows s) s (fst out).
Proof. exact (fun H1 H2 => let (I, R) := run_state ops in delete_weights_rows_effect g rows _ I R H1 H2). Qed.
Print Assumptions C48_delete_weights_rows.
Theorem C48_delete_weights_criteria ops g c :
  let s := run ops fresh in let out := step (ODeleteWeightsCriteria (g_name g) c) s in
  In g (d_groups s) -> c <> [] -> known_columns c s ->
  snd out = None /\ unweighted (g_id g) (chosen_by_criteria c s) s (fst out).
Proof. exact (fun H1 H2 H3 => let (I, R) := run_state ops in delete_weights_criteria_effect g c _ I R H1 H2 H3). Qed.
Print Assumptions C48_delete_weights_criteria.

(** The rows name mappings by source record, record, labels and value; only unambiguous
    mappings are deleted.  A mapping that is named is deleted for certain if it is the only one
    of its link between the two records. *)
Theorem C48_delete_mappings_rows ops ref name rows k :
  let s := run ops fresh in let out := step (ODeleteMappingsRows ref name rows) s in
  Forall (fun c => c <> []) (d_labels s) -> meant (d_links s) ref name true k -> rows <> [] ->
  snd out = None /\
  exists X, unmapped (k_id k) X s (fst out) /\
    (forall m, X m -> In m (d_maps s) /\ m_link m = k_id k /\ exists r, In r rows /\ row_means s r m) /\
    (forall m, In m (d_maps s) -> m_link m = k_id k -> (exists r, In r rows /\ row_means s r m) ->
       (forall m', In m' (d_maps s) -> m_link m' = m_link m -> m_other m' = m_other m -> m_index m' = m_index m -> m' = m) ->
       X m).
Proof. exact (fun H1 H2 H3 => let (I, R) := run_state ops in delete_mappings_rows_effect ref name rows k _ I R H1 H2 H3). Qed.
Print Assumptions C48_delete_mappings_rows.

Theorem C48_delete_mappings_criteria ops ref name c k :
  let s := run ops fresh in let out := step (ODeleteMappingsCriteria ref name c) s in
  (forall m, In m (d_maps s) -> is_bytes (m_level m)) -> known_columns c s ->
  meant (d_links s) ref name true k -> c <> [] ->
  snd out = None /\
  unmapped (k_id k) (fun m => m_link m = k_id k /\ chosen_by_criteria c s (m_index m) /\ within_criteria s c m) s (fst out).
Proof. exact (fun H1 H2 H3 H4 => let (I, R) := run_state ops in delete_mappings_criteria_effect ref name c k _ I R H1 H2 H3 H4). Qed.
Print Assumptions C48_delete_mappings_criteria.

(** The flag of the link is cleared exactly when a record lost its last mapping. *)
Theorem C48_cleared ops l X s' k k' : Forall honest ops -> let s := run ops fresh in
  unmapped l X s s' -> In k (d_links s) -> k_id k = l -> In k' (d_links s') -> k_id k' = l ->
  k_complete k = true ->
  (k_complete k' = false <-> exists i, defined s i /\
     (exists m, In m (d_maps s) /\ m_link m = l /\ m_index m = i) /\
     ~ exists m, In m (d_maps s') /\ m_link m = l /\ m_index m = i).
Proof.
  exact (fun H U H1 H2 H3 H4 H5 =>
           unmapped_cleared l X _ s' k k' U H1 H2 H3 H4 (i_links _ (run_inv ops)) (proj2 (run_sound ops H)) H5).
Qed.
Print Assumptions C48_cleared.

Example C48_case :
  let s := run hist fresh in
  show_maps (run (hist ++ [ODeleteMappingsRows (txt "u1") None [mp 1 1 3 whole "x" "1"]]) fresh) =
    [(1%Z, 1%Z, 2%Z, 1%Q, Some 1%Q); (1%Z, 2%Z, 3%Z, 0%Q, Some 1%Q); (1%Z, 3%Z, 2%Z, 5%Q, Some 1%Q)] /\
  map k_complete (d_links (run (hist ++ [ODeleteMappingsRows (txt "u1") None [mp 1 1 3 whole "x" "1"]]) fresh)) =
    [false; false; false] /\
  show_maps (run (hist ++ [ODeleteMappingsCriteria (txt "u1") None [(txt "A", txt "x")]]) fresh) =
    [(1%Z, 1%Z, 1%Z, 3%Q, Some (3 # 4)); (1%Z, 1%Z, 2%Z, 1%Q, Some (1 # 4)); (1%Z, 2%Z, 3%Z, 0%Q, Some 1%Q)] /\
  map k_complete (d_links (run (hist ++ [ODeleteMappingsCriteria (txt "u1") None [(txt "A", txt "x")]]) fresh)) =
    [true; false; false] /\
  show_weights (run (hist ++ [ODeleteWeightsCriteria (txt "pop") [(txt "B", txt "1")]]) fresh) = [(1%Z, 2%Z, 20%Q)] /\
  show_groups (run (hist ++ [ODeleteWeightsCriteria (txt "pop") [(txt "B", txt "1")]]) fresh) = [(1%Z, false)] /\
  meant (d_links s) (txt "u1") None true
    {| k_id := 1; k_other := txt "u1"; k_hint := None; k_name := txt "m1"; k_selectors := []; k_default := true;
       k_hash := Some [0; 1; 2; 3]%Z; k_complete := true |}.
Proof.
  cbv zeta. do 6 (split; [vm_compute; reflexivity|]).
  apply get_link_iff; [exact (i_links _ (run_inv hist))|]. vm_compute. reflexivity.
Qed.

(** Finding: an unambiguous mapping that is named by a row stays if the link also has an
    ambiguous one, inserted earlier, between the same records. *)
Theorem C48_hidden_mapping_refuted : exists ops row m, Forall honest ops /\ one_session ops /\
  let s := run ops fresh in
  In m (d_maps s) /\ m_link m = 1%Z /\ row_means s row m /\
  snd (step (ODeleteMappingsRows (txt "u1") None [row]) s) = None /\
  In m (d_maps (fst (step (ODeleteMappingsRows (txt "u1") None [row]) s))).
Proof.
  exists (hist ++ [OInsertMappings (txt "u1") None [mp 3 2 4 whole "x" "2"]]), (mp 3 2 4 whole "x" "2").
  values. eexists. split; [repeat constructor|]. split; [repeat constructor; cbn; auto|]. cbv zeta.
  split; [right; right; right; right; left; reflexivity|]. split; [reflexivity|]. split; [|split].
  - split; [reflexivity|]. split; [reflexivity|]. split; [right; right; left; reflexivity|]. split; reflexivity.
  - vm_compute. reflexivity.
  - vm_compute. right. right. right. right. left. reflexivity.
Qed.
Print Assumptions C48_hidden_mapping_refuted.

(** Finding: a failing reify_mappings leaves its first changes in place. *)
Theorem C48_reify_partial_effect_refuted : exists ops, Forall honest ops /\ one_session ops /\
  let out := step (OReify (txt "u1") (txt "m1") []) (run ops fresh) in
  snd out <> None /\ fst out <> run ops fresh.
Proof.
  exists (hist ++ [OInsertMappings (txt "u1") None [mp 5 1 4 whole "x" "1"; mp 5 1 6 coarse "x" "1"]]).
  split; [repeat constructor|]. split; [repeat constructor; cbn; auto|]. cbv zeta. split.
  - vm_compute. discriminate.
  - vm_compute. discriminate.
Qed.
Print Assumptions C48_reify_partial_effect_refuted.

(** *** C49 *)
Theorem C49_new_group_starts_empty ops n c d : one_session ops ->
  let s := run ops fresh in let out := step (OAddGroup n c d) s in
  snd out = None ->
  exists g, In g (d_groups (fst out)) /\ g_name g = n /\ (forall x, In x (d_groups s) -> g_id x <> g_id g) /\
    forall w, In w (d_weights (fst out)) -> w_group w <> g_id g.
Proof. exact (fun H => new_group_empty n c d _ (proj1 (refs_of ops H))). Qed.
Print Assumptions C49_new_group_starts_empty.
Theorem C49_new_link_starts_empty ops new d : one_session ops ->
  let s := run ops fresh in let out := step (OAddLink new d) s in
  snd out = None ->
  exists k, In k (d_links (fst out)) /\ k_other k = k_other new /\ k_name k = k_name new /\
    (forall x, In x (d_links s) -> k_id x <> k_id k) /\
    forall m, In m (d_maps (fst out)) -> m_link m <> k_id k.
Proof. exact (fun H => let (I, R) := run_state ops in new_link_empty new d _ I R (proj2 (refs_of ops H))). Qed.
Print Assumptions C49_new_link_starts_empty.

Example C49_case : one_session hist /\
  snd (step (OAddGroup (txt "area") false None) (run hist fresh)) = None /\
  snd (step (OAddLink (lk "u3" "m1") None) (run hist fresh)) = None.
Proof. split; [repeat constructor; cbn; auto|]. vm_compute. split; reflexivity. Qed.

(** Finding: in a space that was stored and opened again, a new group takes over the weights of
    a dropped one and a new link takes over the mappings of a dropped one. *)
Theorem C49_reopened_inherits_refuted :
  (exists ops, Forall honest ops /\ exists w,
     d_weights (run (ops ++ [ODropGroup (txt "pop")]) fresh) = w /\
     d_groups (run (ops ++ [ODropGroup (txt "pop")]) fresh) = [] /\
     exists g, d_groups (run (ops ++ [ODropGroup (txt "pop"); OAddGroup (txt "area") false None]) fresh) = [g] /\
       exists x, In x (d_weights (run (ops ++ [ODropGroup (txt "pop"); OAddGroup (txt "area") false None]) fresh)) /\
                 w_group x = g_id g) /\
  (exists ops, Forall honest ops /\
     exists k m, In k (d_links (run (ops ++ [OAddLink (lk "u9" "new") None]) fresh)) /\ k_other k = txt "u9" /\
       In m (d_maps (run (ops ++ [OAddLink (lk "u9" "new") None]) fresh)) /\ m_link m = k_id k).
Proof.
  split.
  - exists (hist ++ [OReopen]). split; [repeat constructor|]. values. eexists. split; [reflexivity|]. split; [reflexivity|].
    values. eexists. split; [reflexivity|]. eexists. split; [left; reflexivity|reflexivity].
  - exists (firstn 5 hist ++ [OInsertMappings (txt "u1") None [mp 1 1 3 whole "x" "1"]; OReopen; ODropLink (txt "u1") (txt "m1")]).
    split; [repeat constructor|]. values. eexists _, _. split; [left; reflexivity|]. split; [reflexivity|]. split; [left; reflexivity|reflexivity].
Qed.
Print Assumptions C49_reopened_inherits_refuted.

(** *** C50 *)
Theorem C50_link_flag_sound ops : Forall honest ops -> link_flags_sound (run ops fresh).
Proof. exact (fun H => proj2 (run_sound ops H)). Qed.
Print Assumptions C50_link_flag_sound.
Theorem C50_link_flag_exact ops : Forall honest ops -> one_session ops ->
  link_flags_exact (run ops fresh) /\ link_hashes (run ops fresh).
Proof. exact (fun H R => proj2 (run_exact ops H R)). Qed.
Print Assumptions C50_link_flag_exact.
(** A hash recorded with a link is always that of the sources of its mappings, also in spaces that
    were stored and opened again. *)
Theorem C50_source_hash ops : Forall honest ops -> link_sources (run ops fresh).
Proof. exact (run_sources ops). Qed.
Print Assumptions C50_source_hash.
Theorem C50_proportions ops : one_session ops -> proportions_wf (run ops fresh).
Proof. exact (props_of ops). Qed.
Print Assumptions C50_proportions.

(** Finding: mappings whose source id is negative never get a proportion. *)
Theorem C50_negative_source_refuted : exists ops, Forall honest ops /\ one_session ops /\
  exists m, In m (d_maps (run ops fresh)) /\ m_other m <> 0%Z /\ m_prop m = None.
Proof.
  exists (hist ++ [OInsertMappings (txt "u1") None [mp (-4) 1 3 whole "x" "1"]]).
  split; [repeat constructor|]. split; [repeat constructor; cbn; auto|].
  values. eexists. split; [right; right; right; right; left; reflexivity|]. split; [discriminate|reflexivity].
Qed.
Print Assumptions C50_negative_source_refuted.
