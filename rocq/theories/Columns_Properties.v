(** C39: moving an element, and the displayed list of labels.
    C43: after every history a name means one thing.
    C52: definitions and structure table follow the columns. *)
From Verif Require Import Prelude Partitions_Model Partitions_Spec Columns_Model Columns_Spec Columns_Proofs Columns_Proofs2 Columns_Proofs3.
From Coq Require Import Permutation.

(* --------------------------------------------------------------------- C39 *)
Theorem C39_move : forall l e offset,
  (In e l -> exists l', change_element_order l e offset = Ok l' /\ moved l e offset l') /\
  (~ In e l -> change_element_order l e offset = Err ToronError).
Proof. intros l e offset. split; [apply move_present|apply move_absent]. Qed.
Print Assumptions C39_move.

(** [moved] says all there is to say: it leaves one possibility, which is a
    permutation, and is no change for offset 0. *)
Theorem C39_move_determined : forall l e offset l1 l2, moved l e offset l1 -> moved l e offset l2 ->
  l1 = l2 /\ Permutation l l1 /\ (offset = 0%Z -> l1 = l).
Proof.
  intros l e offset l1 l2 H1 H2. split; [exact (moved_functional _ _ _ _ _ H1 H2)|]. split; [exact (moved_perm _ _ _ _ H1)|].
  intros ->. exact (moved_zero _ _ _ H1).
Qed.
Print Assumptions C39_move_determined.

Theorem C39_display_complete : forall s x, In x (c_columns s) -> In x (display_order s).
Proof. exact display_has_all. Qed.
Print Assumptions C39_display_complete.

(** As long as no label is renamed or dropped, the displayed list is the stored one
    in another order, and any label can be moved in it. *)
Theorem C39_display_permutation : forall ops, Forall keeps_names ops ->
  Permutation (display_order (crun c_new ops)) (c_columns (crun c_new ops)).
Proof. intros ops F. destruct (crun_disp ops c_new F c_inv_new c_disp_new) as [D I]. exact (display_perm _ I D). Qed.
Print Assumptions C39_display_permutation.

Theorem C39_move_label : forall ops l offset, Forall keeps_names ops ->
  let s := crun c_new ops in
  (In l (c_columns s) -> exists s', ccall s (CMoveLabel l offset) = Ok s' /\ moved (display_order s) l offset (display_order s') /\
     c_columns s' = c_columns s /\ c_defs s' = c_defs s /\ c_structs s' = c_structs s /\ c_attrs s' = c_attrs s) /\
  (~ In l (c_columns s) -> ccall s (CMoveLabel l offset) = Err ToronError).
Proof. intros ops l offset F s. destruct (crun_disp ops c_new F c_inv_new c_disp_new) as [D I]. exact (move_label _ l offset I D). Qed.
Print Assumptions C39_move_label.

Theorem C39_move_attribute : forall ops a offset,
  let s := crun c_new ops in
  (In a (registered s) -> exists s', ccall s (CMoveAttribute a offset) = Ok s' /\ moved (registered s) a offset (registered s') /\
     c_columns s' = c_columns s /\ c_defs s' = c_defs s /\ c_structs s' = c_structs s /\ c_display s' = c_display s) /\
  (~ In a (registered s) -> ccall s (CMoveAttribute a offset) = Err ToronError).
Proof. intros ops a offset s. exact (move_attribute _ a offset (crun_inv ops c_new c_inv_new)). Qed.
Print Assumptions C39_move_attribute.

(** Renaming a label leaves the stored display order as it was: the old name is still
    displayed and no label can be moved any more. *)
Theorem C39_stale_display_refuted : exists ops, let s := crun c_new ops in
  (exists x, In x (display_order s) /\ ~ In x (c_columns s)) /\
  (forall l offset, In l (c_columns s) -> ccall s (CMoveLabel l offset) = Err ValueError).
Proof.
  exists [CAdd "A" ["B"] false; CMoveLabel "B" (-1); CRenameLabel "A" "C"]%string. intro s.
  assert (E1 : c_columns s = ["C"; "B"]%string) by (vm_compute; reflexivity).
  assert (E2 : c_display s = Some ["B"; "A"]%string) by (vm_compute; reflexivity).
  clearbody s. assert (E3 : display_order s = ["B"; "A"; "C"]%string) by (unfold display_order; rewrite E1, E2; reflexivity).
  split.
  - exists "A"%string. rewrite E1, E3. split; [right; left; reflexivity|]. intros [H|[H|[]]]; discriminate H.
  - intros l offset Hl. cbn [ccall]. destruct (change_element_order (display_order s) l offset) as [l'|] eqn:E.
    + cbn [bind]. destruct (set_display_order l' s) as [s'|e] eqn:F.
      * apply set_display_spec in F as [_ F]. apply move_spec, moved_perm in E. rewrite E3 in E.
        assert (H : In "A"%string (c_columns s)) by (apply F, (Permutation_in _ E); right; left; reflexivity).
        rewrite E1 in H. destruct H as [H|[H|[]]]; discriminate H.
      * unfold set_display_order in F. destruct (filter _ l'); [discriminate F|congruence].
    + destruct (move_present (display_order s) l offset) as (l' & E' & _); [apply display_has_all; exact Hl|congruence].
Qed.
Print Assumptions C39_stale_display_refuted.

Example c39_history : let ops := [CAdd "A" ["B"; "C"] false; CMoveLabel "C" (-5); CAdd "D" [] true; CMoveLabel "B" 1]%string in
  Forall keeps_names ops /\ display_order (crun c_new ops) = ["C"; "A"; "D"; "B"]%string.
Proof. split; [repeat constructor|vm_compute; reflexivity]. Qed.
Example c39_attributes : let s := crun c_new [CAdd "A" [] false; CRegister ["x"; "y"; "z"]; CMoveAttribute "x" 1]%string in
  registered s = ["y"; "x"; "z"]%string.
Proof. vm_compute. reflexivity. Qed.

(* --------------------------------------------------------------------- C43 *)
Theorem C43_names : forall ops, names_ok (c_columns (crun c_new ops)) (registered (crun c_new ops)).
Proof. exact crun_names. Qed.
Print Assumptions C43_names.

(** Not even two columns that differ in case. *)
Theorem C43_case : forall ops x y,
  In x (c_columns (crun c_new ops)) -> In y (c_columns (crun c_new ops)) -> same_but_case x y -> x = y.
Proof. exact crun_case. Qed.
Print Assumptions C43_case.

(** Nothing else stands in the way: adding columns succeeds exactly for names that
    keep this true. *)
Theorem C43_add_accepts : forall ops c cs used, Forall keeps_columns ops -> let s := crun c_new ops in
  (exists s', ccall s (CAdd c cs used) = Ok s') <-> may_be_added (c_columns s) (registered s) (c :: cs).
Proof. intros ops c cs used F s. exact (add_iff s c cs used (crun_good ops c_new F c_good_new)). Qed.
Print Assumptions C43_add_accepts.

Theorem C43_rename_accepts : forall ops old new, Forall keeps_columns ops -> let s := crun c_new ops in
  (exists s', ccall s (CRenameLabel old new) = Ok s') <->
  In old (c_columns s) /\ ~ reserved_name new /\ ~ In new (c_columns s) /\ ~ In new (registered s) /\ ~ contains_nul new /\
  (forall x, In x (table_columns ++ c_columns s) -> x <> old -> ~ same_but_case x new).
Proof. intros ops old new F s. exact (rename_label_iff s old new (crun_good ops c_new F c_good_new)). Qed.
Print Assumptions C43_rename_accepts.

Theorem C43_register_accepts : forall s attrs s', ccall s (CRegister attrs) = Ok s' <->
  s' = with_attrs attrs s /\ (forall x, In x attrs -> ~ reserved_name x /\ ~ In x (c_columns s)) /\ NoDup attrs.
Proof. intros s attrs s'. exact (set_registered_spec attrs s s'). Qed.
Print Assumptions C43_register_accepts.

Definition c43_ops : list cop :=
  [CAdd "state" ["county"] false; CRegister ["year"; "sex"]; CAdd "year" [] false; CAdd "town" ["tract"] false;
   CRenameLabel "county" "parish"; CRegister ["county"]; CAddDef ["state"%string]; CDrop "nothing" [] false]%string.
Example c43_history : c_columns (crun c_new c43_ops) = ["state"; "parish"; "town"; "tract"]%string /\
  registered (crun c_new c43_ops) = ["county"]%string.
Proof. vm_compute. auto. Qed.
Example c43_rejected : exists s, s = crun c_new c43_ops /\
  ccall s (CAdd "STATE" [] false) = Err SqlOperationalError /\ ccall s (CAdd "county" [] false) = Err ToronError /\
  ccall s (CAdd "value" [] false) = Err ToronError /\ ccall s (CAdd "x" ["X"%string] false) = Err SqlOperationalError.
Proof. exists (crun c_new c43_ops). split; [reflexivity|]. vm_compute. auto. Qed.

(* --------------------------------------------------------------------- C52 *)
Theorem C52_structure : forall ops, Forall keeps_columns ops -> let s := crun c_new ops in
  (c_columns s <> [] -> definitions_ok (c_columns s) (get_all_defs (pview s)) /\
                        structure_ok (c_columns s) (get_all_defs (pview s)) (c_structs s)) /\
  (c_columns s = [] -> get_all_defs (pview s) = [] /\ c_structs s = []).
Proof.
  intros ops F s. pose proof (crun_good ops c_new F c_good_new) as G. split; [exact (good_spec s G)|exact (good_blank s G)].
Qed.
Print Assumptions C52_structure.

(** New columns come last; every partition stays, except that the old whole space
    goes when nothing uses it. *)
Theorem C52_add_columns : forall ops c cs used s', Forall keeps_columns ops -> let s := crun c_new ops in
  ccall s (CAdd c cs used) = Ok s' ->
  c_columns s' = c_columns s ++ c :: cs /\ registered s' = registered s /\
  forall u, union_of (get_all_defs (pview s')) u <->
    exists sub, incl sub ((c_columns s ++ c :: cs) :: get_all_defs (pview s)) /\
      (used = false -> forall d, In d sub -> ~ same_set d (c_columns s)) /\
      forall x, In x u <-> exists d, In d sub /\ In x d.
Proof. intros ops c cs used s' F s. exact (add_effect s c cs used s' (crun_good ops c_new F c_good_new)). Qed.
Print Assumptions C52_add_columns.

Theorem C52_rename_label : forall ops old new s', Forall keeps_columns ops -> let s := crun c_new ops in
  ccall s (CRenameLabel old new) = Ok s' ->
  renamed old new (c_columns s) (c_columns s') /\
  Forall2 (renamed old new) (get_all_defs (pview s)) (get_all_defs (pview s')) /\
  c_structs s' = c_structs s /\ registered s' = registered s.
Proof. intros ops old new s' F s. exact (rename_label_effect s old new s' (crun_good ops c_new F c_good_new)). Qed.
Print Assumptions C52_rename_label.

(** A mapping is applied at once, not one renaming after the other. *)
Theorem C52_rename_many : forall ops m s', Forall keeps_columns ops -> NoDup (map fst m) -> let s := crun c_new ops in
  ccall s (CRename m) = Ok s' ->
  (forall i x, nth_error (c_columns s) i = Some x ->
     exists y, nth_error (c_columns s') i = Some y /\ (forall z, In (x, z) m -> y = z) /\ ((forall z, ~ In (x, z) m) -> y = x)) /\
  length (c_columns s') = length (c_columns s) /\ c_structs s' = c_structs s /\ registered s' = registered s.
Proof. intros ops m s' F N s. exact (rename_many_effect s m s' (crun_good ops c_new F c_good_new) N). Qed.
Print Assumptions C52_rename_many.

(** Partition calls do not fail for reasons of their own. *)
Theorem C52_partition_calls : forall ops, Forall keeps_columns ops -> let s := crun c_new ops in c_columns s <> [] ->
  (forall d, (exists s', ccall s (CAddDef d) = Ok s') <-> incl d (c_columns s) /\ ~ union_of (get_all_defs (pview s)) d) /\
  (forall d ds, (exists s', ccall s (CAddDefs d ds) = Ok s') <-> forall e, In e (d :: ds) -> incl e (c_columns s)) /\
  (forall d ds, (exists s', ccall s (CDropDefs d ds) = Ok s') <-> ~ member (c_columns s) (d :: ds)).
Proof.
  intros ops F s Hc. pose proof (crun_good ops c_new F c_good_new) as G. split; [|split].
  - intro d. exact (add_def_iff s d G Hc).
  - intros d ds. exact (add_defs_iff s d ds G Hc).
  - intros d ds. exact (drop_defs_iff s d ds G Hc).
Qed.
Print Assumptions C52_partition_calls.

Definition c52_ops : list cop :=
  [CAdd "A" ["B"] false; CAddDef ["A"]; CAdd "C" [] true; CRename [("A", "X")%string; ("B", "A2")%string]; CAddDefs ["C"] [["C"; "X"]%string]]%string.
Example c52_history : Forall keeps_columns c52_ops /\ c_columns (crun c_new c52_ops) = ["X"; "A2"; "C"]%string /\
  length (get_all_defs (pview (crun c_new c52_ops))) = 3 /\ length (c_structs (crun c_new c52_ops)) = 6.
Proof. split; [|vm_compute; auto]. repeat apply Forall_cons; cbn; auto. repeat constructor; cbn; intuition discriminate. Qed.

(** With dropping of columns all of this is lost: definitions keep naming the dropped
    column, so that it cannot be added again, and neither can another. *)
Theorem C52_dropped_column_refuted : exists ops, let s := crun c_new ops in
  (exists d x, In d (get_all_defs (pview s)) /\ In x d /\ ~ In x (c_columns s)) /\
  may_be_added (c_columns s) (registered s) ["B"%string] /\ ccall s (CAdd "B" [] false) = Err RuntimeError /\
  may_be_added (c_columns s) (registered s) ["C"%string] /\ ccall s (CAdd "C" [] false) = Err SqlIntegrityError.
Proof.
  exists [CAdd "A" ["B"] false; CDrop "B" [] false]%string. intro s.
  assert (E1 : c_columns s = ["A"]%string) by (vm_compute; reflexivity).
  assert (E2 : get_all_defs (pview s) = [["A"; "B"]]%string) by (vm_compute; reflexivity).
  assert (E3 : registered s = []) by (vm_compute; reflexivity).
  split; [exists ["A"; "B"]%string, "B"%string; rewrite E1, E2; split; [left; reflexivity|]; split; [right; left; reflexivity|]; intros [H|[]]; discriminate H|].
  rewrite E1, E3.
  split; [|split; [vm_compute; reflexivity|split; [|vm_compute; reflexivity]]].
  - split; [|apply case_distinct_iff; vm_compute; reflexivity]. intros x [<-|[]]. split; [|split; [|split; [exact (fun H => H)|apply has_nul_false; reflexivity]]].
    + apply reserved_false. reflexivity.
    + intros [H|[]]; discriminate H.
  - split; [|apply case_distinct_iff; vm_compute; reflexivity]. intros x [<-|[]]. split; [|split; [|split; [exact (fun H => H)|apply has_nul_false; reflexivity]]].
    + apply reserved_false. reflexivity.
    + intros [H|[]]; discriminate H.
Qed.
Print Assumptions C52_dropped_column_refuted.

(** A column cannot be dropped when two partitions differ only in it, whatever the
    index holds. *)
Theorem C52_drop_fails_refuted : exists ops, Forall keeps_columns ops /\ let s := crun c_new ops in
  c_columns s = ["A"; "B"]%string /\ ccall s (CDrop "B" [] false) = Err SqlIntegrityError.
Proof.
  exists [CAdd "A" ["B"] false; CAddDef ["A"]]%string. split; [repeat constructor|]. vm_compute. auto.
Qed.
Print Assumptions C52_drop_fails_refuted.
