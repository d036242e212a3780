(** C67: the commands that administrate a file change exactly what they say, and the exit code
    tells whether they did. *)
From Coq Require Import NArith String.
From Verif Require Import Prelude Selectors_Model LinkRef_Model LinkRef_Spec Partitions_Model Partitions_Spec
  Columns_Model Columns_Spec Columns_Proofs Columns_Proofs2 Columns_Proofs3 Db_Model Db_Spec Db_ProofsInv Db_ProofsRun Db_ProofsOps
  AdminCli_Model AdminCli_Spec AdminCli_Proofs AdminCli_Proofs2 AdminCli_Proofs3.

(* ---------------------------------------------------------- columns and attributes *)

(** add attribute: the new ones come last, in the order given; known ones are skipped.  If one of
    the new ones cannot be an attribute, or comes twice, nothing is registered and the exit code
    is 1. *)
Theorem C67_add_attribute : forall ops attrs new, let s := crun c_new ops in
  let out := add_attribute attrs s in
  unknown_of (registered s) attrs new ->
  (NoDup new /\ (forall x, In x new -> ~ reserved_name x /\ ~ In x (c_columns s)) ->
   snd out = Exit 0 /\ registered (fst out) = registered s ++ new /\ c_columns (fst out) = c_columns s /\
   c_defs (fst out) = c_defs s /\ c_structs (fst out) = c_structs s /\ c_display (fst out) = c_display s) /\
  (~ (NoDup new /\ (forall x, In x new -> ~ reserved_name x /\ ~ In x (c_columns s))) -> out = (s, Exit 1)).
Proof. exact add_attribute_spec. Qed.
Print Assumptions C67_add_attribute.

(** There is always exactly one such list. *)
Theorem C67_unknown_of : forall known given, exists new, unknown_of known given new /\
  forall new', unknown_of known given new' -> new' = new.
Proof.
  intros known given. destruct (unknown_exists known given) as (new & U). exists new. split; [exact U|]. intros new' U'.
  rewrite <- (unknown_filter _ _ _ U). symmetry. exact (unknown_filter _ _ _ U').
Qed.
Print Assumptions C67_unknown_of.

(** add partition: never a traceback. *)
Theorem C67_add_partition : forall ops labels, Forall keeps_columns ops -> let s := crun c_new ops in
  let out := add_partition labels s in
  let allowed := c_columns s <> [] /\ incl labels (c_columns s) /\ ~ union_of (get_all_defs (pview s)) labels in
  (allowed ->
   snd out = Exit 0 /\
   (forall u, union_of (get_all_defs (pview (fst out))) u <-> union_of (labels :: get_all_defs (pview s)) u) /\
   c_columns (fst out) = c_columns s /\ registered (fst out) = registered s /\ c_display (fst out) = c_display s) /\
  (~ allowed -> out = (s, Exit 1)).
Proof. intros ops labels F s. exact (add_partition_spec s labels (crun_good ops c_new F c_good_new)). Qed.
Print Assumptions C67_add_partition.

(** add label and rename label: exit code 0 exactly when the names allow it; otherwise nothing
    changes. *)
Theorem C67_add_label : forall ops labels used, Forall keeps_columns ops -> let s := crun c_new ops in
  let out := add_label labels used s in
  (labels <> [] /\ may_be_added (c_columns s) (registered s) labels ->
   snd out = Exit 0 /\ c_columns (fst out) = c_columns s ++ labels /\ registered (fst out) = registered s) /\
  (~ (labels <> [] /\ may_be_added (c_columns s) (registered s) labels) -> fst out = s /\ snd out <> Exit 0).
Proof. intros ops labels used F s. exact (add_label_spec s labels used (crun_good ops c_new F c_good_new)). Qed.
Print Assumptions C67_add_label.

Theorem C67_rename_label : forall ops old new, Forall keeps_columns ops -> let s := crun c_new ops in
  let out := rename_label old new s in
  let allowed := In old (c_columns s) /\ ~ reserved_name new /\ ~ In new (c_columns s) /\ ~ In new (registered s) /\ ~ contains_nul new /\
    (forall x, In x (table_columns ++ c_columns s) -> x <> old -> ~ same_but_case x new) in
  (allowed -> snd out = Exit 0 /\ renamed old new (c_columns s) (c_columns (fst out)) /\
     Forall2 (renamed old new) (get_all_defs (pview s)) (get_all_defs (pview (fst out))) /\ registered (fst out) = registered s) /\
  (~ allowed -> fst out = s /\ snd out <> Exit 0).
Proof. intros ops old new F s. exact (rename_label_spec s old new (crun_good ops c_new F c_good_new)). Qed.
Print Assumptions C67_rename_label.

(** A refusal is not always exit code 1: names that differ in case only, or no name at all, end
    in a traceback. *)
Theorem C67_refusal_exit_code_refuted : exists ops, Forall keeps_columns ops /\ let s := crun c_new ops in
  add_label ["STATE"%string] false s = (s, Traceback SqlOperationalError) /\
  add_label [] false s = (s, Traceback TypeError) /\
  rename_label "county" "STATE" s = (s, Traceback SqlOperationalError) /\
  add_label ["state"%string] false s = (s, Exit 1).
Proof.
  exists [CAdd "state" ["county"] false]%string. split; [repeat constructor|]. intro s.
  split; [vm_compute; reflexivity|]. split; [vm_compute; reflexivity|]. split; vm_compute; reflexivity.
Qed.
Print Assumptions C67_refusal_exit_code_refuted.

(** update label and update attribute: one of the two numbers is given; the name moves that far,
    as far as the ends allow, and nothing else changes. *)
Theorem C67_update_label : forall ops label left right, Forall keeps_names ops -> let s := crun c_new ops in
  let out := update_label label left right s in
  (left = 0%N \/ right = 0%N) -> (left <> 0%N \/ right <> 0%N) ->
  (In label (c_columns s) -> snd out = Exit 0 /\
     moved (display_order s) label (Z.of_N right - Z.of_N left) (display_order (fst out)) /\
     c_columns (fst out) = c_columns s /\ c_defs (fst out) = c_defs s /\ c_structs (fst out) = c_structs s /\ c_attrs (fst out) = c_attrs s) /\
  (~ In label (c_columns s) -> out = (s, Exit 1)).
Proof. exact update_label_spec. Qed.
Print Assumptions C67_update_label.

Theorem C67_update_attribute : forall ops attr left right, let s := crun c_new ops in
  let out := update_attribute attr left right s in
  (left = 0%N \/ right = 0%N) -> (left <> 0%N \/ right <> 0%N) ->
  (In attr (registered s) -> snd out = Exit 0 /\
     moved (registered s) attr (Z.of_N right - Z.of_N left) (registered (fst out)) /\
     c_columns (fst out) = c_columns s /\ c_defs (fst out) = c_defs s /\ c_structs (fst out) = c_structs s /\ c_display (fst out) = c_display s) /\
  (~ In attr (registered s) -> out = (s, Exit 1)).
Proof. exact update_attribute_spec. Qed.
Print Assumptions C67_update_attribute.

(** Zero places is a number the parser accepts, but it ends in a traceback; so does every move
    of a label after a rename. *)
Theorem C67_move_refuted :
  (forall label s, update_label label 0 0 s = (s, Traceback PlainException) /\ update_attribute label 0 0 s = (s, Traceback PlainException)) /\
  exists ops, let s := crun c_new ops in In "B"%string (c_columns s) /\ update_label "B" 1 0 s = (s, Traceback ValueError).
Proof.
  split; [intros; split; reflexivity|]. exists [CAdd "A" ["B"] false; CMoveLabel "B" (-1); CRenameLabel "A" "C"]%string. intro s.
  split; [vm_compute; right; left; reflexivity|vm_compute; reflexivity].
Qed.
Print Assumptions C67_move_refuted.

Definition c67_ops : list cop := [CAdd "state" ["county"; "town"] false; CRegister ["year"; "sex"]]%string.
Example c67_columns : Forall keeps_columns c67_ops /\ Forall keeps_names c67_ops /\
  let s := crun c_new c67_ops in
  unknown_of (registered s) ["age"; "year"; "race"]%string ["age"; "race"]%string /\
  registered (fst (add_attribute ["age"; "year"; "race"]%string s)) = ["year"; "sex"; "age"; "race"]%string /\
  add_attribute ["age"; "town"]%string s = (s, Exit 1) /\
  add_attribute ["age"; "age"]%string s = (s, Exit 1) /\
  display_order (fst (update_label "town" 2 0 s)) = ["town"; "state"; "county"]%string /\
  registered (fst (update_attribute "year" 0 7 s)) = ["sex"; "year"]%string /\
  snd (add_partition ["town"; "state"]%string s) = Exit 0 /\
  add_partition ["village"]%string s = (s, Exit 1) /\
  c_columns (fst (rename_label "county" "parish" s)) = ["state"; "parish"; "town"]%string.
Proof.
  split; [repeat constructor|]. split; [repeat constructor|]. intro s.
  assert (E : registered s = ["year"; "sex"]%string) by (vm_compute; reflexivity). rewrite E.
  split.
  { apply un_keep; [intros [H|[H|[]]]; discriminate H|]. apply un_skip; [left; reflexivity|].
    apply un_keep; [intros [H|[H|[]]]; discriminate H|]. apply un_nil. }
  split; [vm_compute; reflexivity|]. split; [vm_compute; reflexivity|]. split; [vm_compute; reflexivity|]. split; [vm_compute; reflexivity|].
  split; [vm_compute; reflexivity|]. split; [vm_compute; reflexivity|]. split; vm_compute; reflexivity.
Qed.

(* ---------------------------------------------------------- weight groups *)

(** After any sequence of add weight and update weight, names and ids are unique and there is a
    default as soon as there is a group. *)
Theorem C67_weight_groups : forall ops, weights_ok (wrun ops).
Proof. exact wrun_ok. Qed.
Print Assumptions C67_weight_groups.

Theorem C67_add_weight : forall ops n desc sel make_default, let s := wrun ops in
  let out := add_weight n desc sel make_default s in
  (In n (map w_name (w_groups s)) -> out = (s, Exit 1)) /\
  (~ In n (map w_name (w_groups s)) -> snd out = Exit 0 /\
     exists i, ~ In i (map w_id (w_groups s)) /\
       w_groups (fst out) = w_groups s ++ [{| w_id := i; w_name := n; w_desc := desc; w_sel := sel; w_complete := false |}] /\
       (w_default (fst out) = Some i <-> make_default = true \/ w_groups s = []) /\
       (make_default = false -> w_groups s <> [] -> w_default (fst out) = w_default s)).
Proof.
  intros ops n desc sel d s out. pose proof (wrun_ok ops) as W. fold s in W. unfold out, add_weight. split.
  - intro H. destruct (w_by_name n s) eqn:E; [reflexivity|]. apply by_name_none in E. contradiction.
  - intro H. apply by_name_none in H. rewrite H. cbn [fst snd w_groups w_default]. split; [reflexivity|].
    exists (zmax (map w_id (w_groups s)) + 1)%Z. split; [apply Db_ProofsLocal.zmax_fresh|]. split; [reflexivity|]. split.
    + destruct d; cbn [orb]; [split; auto|]. destruct (w_groups s) as [|g l] eqn:Eg; [split; auto|].
      split; [|intros [K|K]; discriminate]. intro K. exfalso. apply (ok_default _ W) in K. rewrite Eg in K. exact (Db_ProofsLocal.zmax_fresh _ K).
    + intros -> K. cbn [orb]. destruct (w_groups s); [contradiction|reflexivity].
Qed.
Print Assumptions C67_add_weight.

(** update weight: only the group named changes, and in it only what was asked for. *)
Theorem C67_update_weight : forall ops a, let s := wrun ops in
  (~ In (u_weight a) (map w_name (w_groups s)) -> update_weight a s = (s, Exit 1)) /\
  (forall g, In g (w_groups s) -> w_name g = u_weight a ->
     let out := update_weight a s in
     snd out = Exit 0 /\
     Forall2 (fun x y => if (w_id x =? w_id g)%Z then x = g /\ updated a g y else y = x) (w_groups s) (w_groups (fst out)) /\
     w_default (fst out) = if u_default a then Some (w_id g) else w_default s).
Proof. intros ops a s. exact (update_weight_spec a s (wrun_ok ops)). Qed.
Print Assumptions C67_update_weight.

(** Without line feeds the stored selectors are sorted and distinct: those of the old and added
    ones that were not removed as often as they occurred. *)
Theorem C67_update_selectors : forall old added removed,
  Forall one_line (listed old ++ added) -> selectors_left (listed old) added removed (new_selectors old added removed).
Proof.
  intros old added removed F. destruct (new_selectors_left old added removed) as (new & L & ->).
  assert (E : map unbroken new = new); [|rewrite E; exact L].
  rewrite <- (map_id new) at 2. apply map_ext_in. intros x Hx. apply unbroken_one_line.
  apply (proj2 L) in Hx. assert (Hi : In x (listed old ++ added)) by (apply occurs_in; lia).
  rewrite Forall_forall in F. exact (F x Hi).
Qed.
Print Assumptions C67_update_selectors.

Definition c67_w : list wop :=
  [WAdd (txt "population") None None false; WAdd (txt "area") (Some (txt "land area")) (Some [txt "[b]"; txt "[a]"]) false].
Definition c67_update add remove : update_args :=
  {| u_weight := txt "area"; u_desc := Some (txt "square miles"); u_add := add; u_remove := remove; u_default := true |}.
Example c67_weights : map w_name (w_groups (wrun c67_w)) = [txt "population"; txt "area"] /\ w_default (wrun c67_w) = Some 1%Z /\
  fst (update_weight (c67_update [txt "[c]"] [txt "[b]"]) (wrun c67_w)) =
    {| w_groups := [{| w_id := 1; w_name := txt "population"; w_desc := None; w_sel := None; w_complete := false |};
                    {| w_id := 2; w_name := txt "area"; w_desc := Some (txt "square miles"); w_sel := Some [txt "[a]"; txt "[c]"]; w_complete := false |}];
       w_default := Some 2%Z |}.
Proof. split; [vm_compute; reflexivity|]. split; vm_compute; reflexivity. Qed.

(** A selector that is there, added again and removed in one command stays; and since line feeds
    go after duplicates do, a group can have one selector twice. *)
Theorem C67_update_selectors_refuted :
  (exists old added removed x, In x removed /\ In x (new_selectors old added removed)) /\
  (exists old added removed, ~ NoDup (new_selectors old added removed)).
Proof.
  split.
  - exists (Some [txt "[a]"]), [txt "[a]"], [txt "[a]"], (txt "[a]"). split; [left; reflexivity|]. vm_compute. left. reflexivity.
  - exists None, [txt "[a] [b]"; (txt "[a]" ++ [10%N] ++ txt "[b]")%list], []. intro H.
    assert (E : new_selectors None [txt "[a] [b]"; (txt "[a]" ++ [10%N] ++ txt "[b]")%list] [] = [txt "[a] [b]"; txt "[a] [b]"]) by (vm_compute; reflexivity).
    rewrite E in H. apply NoDup_cons_iff in H as [H _]. apply H. left. reflexivity.
Qed.
Print Assumptions C67_update_selectors_refuted.

(* ---------------------------------------------------------- links *)

(** add link: to the right and to the left only the file at the end of the arrow changes. *)
Theorem C67_add_link : forall ops1 ops2 f1 f2 a, f_db f1 = Db_Model.run ops1 fresh -> f_db f2 = Db_Model.run ops2 fresh ->
  let out := cli_add_link a f1 f2 in
  let right_free := name_is_free f1 a (f_db f2) in
  let left_free := name_is_free f2 a (f_db f1) in
  (a_direction a = ToRight -> n_left out = f_db f1 /\
     (right_free -> n_end out = Exit 0 /\ link_added f1 a (f_db f2) (n_right out)) /\
     (~ right_free -> n_end out = Exit 1 /\ n_right out = f_db f2)) /\
  (a_direction a = ToLeft -> n_right out = f_db f2 /\
     (left_free -> n_end out = Exit 0 /\ link_added f2 a (f_db f1) (n_left out)) /\
     (~ left_free -> n_end out = Exit 1 /\ n_left out = f_db f1)) /\
  (a_direction a = Both ->
     (right_free -> left_free -> n_end out = Exit 0 /\ link_added f1 a (f_db f2) (n_right out) /\ link_added f2 a (f_db f1) (n_left out)) /\
     (~ right_free -> n_end out = Exit 1 /\ n_left out = f_db f1 /\ n_right out = f_db f2) /\
     (right_free -> ~ left_free -> n_end out = Exit 1 /\ n_left out = f_db f1 /\ link_added f1 a (f_db f2) (n_right out))).
Proof.
  intros ops1 ops2 f1 f2 a E1 E2. cbv zeta. unfold cli_add_link.
  pose proof (do_add_spec f1 f2 a ops2 E2) as R. pose proof (do_add_spec f2 f1 a ops1 E1) as L.
  split; [|split]; intros ->.
  - destruct R as [(F & s' & -> & A)|(F & ->)]; cbn [n_left n_right n_end ending]; (split; [reflexivity|]); split; intro H; try contradiction; auto.
  - destruct L as [(F & s' & -> & A)|(F & ->)]; cbn [n_left n_right n_end ending]; (split; [reflexivity|]); split; intro H; try contradiction; auto.
  - destruct R as [(F & s2 & -> & A)|(F & ->)]; [destruct L as [(F' & s1 & -> & A')|(F' & ->)]|]; cbn [n_left n_right n_end ending main];
      (split; [intros; try contradiction; auto|]); split; intros; try contradiction; auto.
Qed.
Print Assumptions C67_add_link.

(** remove link: from each file on the way in which it is found; exit code 1 exactly when it is
    found in none. *)
Theorem C67_remove_link : forall ops1 ops2 f1 f2 name dir, f_db f1 = Db_Model.run ops1 fresh -> f_db f2 = Db_Model.run ops2 fresh ->
  let out := cli_remove_link name dir f1 f2 in
  let right_missing := link_missing f1 name (f_db f2) in
  let left_missing := link_missing f2 name (f_db f1) in
  (dir = ToRight -> n_left out = f_db f1 /\ link_gone f1 name (f_db f2) (n_right out) /\
     (right_missing /\ n_end out = Exit 1 \/ ~ right_missing /\ n_end out = Exit 0)) /\
  (dir = ToLeft -> n_right out = f_db f2 /\ link_gone f2 name (f_db f1) (n_left out) /\
     (left_missing /\ n_end out = Exit 1 \/ ~ left_missing /\ n_end out = Exit 0)) /\
  (dir = Both -> link_gone f1 name (f_db f2) (n_right out) /\ link_gone f2 name (f_db f1) (n_left out) /\
     (left_missing /\ right_missing /\ n_end out = Exit 1 \/ ~ (left_missing /\ right_missing) /\ n_end out = Exit 0)).
Proof.
  intros ops1 ops2 f1 f2 name dir E1 E2. cbv zeta. unfold cli_remove_link.
  pose proof (do_remove_spec f1 f2 name ops2 E2) as R. pose proof (do_remove_spec f2 f1 name ops1 E1) as L.
  assert (X : forall t s s', link_dropped t name s s' -> ~ link_missing t name s) by (intros t s s' (k & M & _) H; exact (H k M)).
  split; [|split]; intros ->.
  - destruct R as [(s' & -> & A)|(F & ->)]; cbn [n_left n_right n_end ending main]; (split; [reflexivity|]).
    + split; [left; exact A|right; split; [eapply X, A|reflexivity]].
    + split; [right; auto|left; auto].
  - destruct L as [(s' & -> & A)|(F & ->)]; cbn [n_left n_right n_end ending main]; (split; [reflexivity|]).
    + split; [left; exact A|right; split; [eapply X, A|reflexivity]].
    + split; [right; auto|left; auto].
  - destruct L as [(s1 & -> & A1)|(F1 & ->)]; destruct R as [(s2 & -> & A2)|(F2 & ->)]; cbn [n_left n_right n_end].
    + split; [left; exact A2|]. split; [left; exact A1|]. right. split; [|reflexivity]. intros [H _]. exact (X _ _ _ A1 H).
    + split; [right; auto|]. split; [left; exact A1|]. right. split; [|reflexivity]. intros [H _]. exact (X _ _ _ A1 H).
    + split; [left; exact A2|]. split; [right; auto|]. right. split; [|reflexivity]. intros [_ H]. exact (X _ _ _ A2 H).
    + split; [right; auto|]. split; [right; auto|]. left. auto.
Qed.
Print Assumptions C67_remove_link.

(** In particular the link of that name from the other file is the one that goes. *)
Theorem C67_remove_named_link : forall ops tail s k name, s = Db_Model.run ops fresh ->
  In k (d_links s) -> k_other k = f_uid tail -> k_name k = name -> f_uid tail <> [] -> name <> [] ->
  ~ link_missing tail name s /\
  forall s', link_dropped tail name s s' -> forall x, In x (d_links s') <-> In x (d_links s) /\ x <> k.
Proof.
  intros ops tail s k name E Hk Eo En Hu Hn. destruct name as [|c t]; [contradiction|].
  assert (T : link_table (d_links s)) by (rewrite E; exact (i_links _ (proj1 (run_state ops)))).
  pose proof (named_link_meant tail (c :: t) s k c t T Hk Eo Hu eq_refl En) as M. split.
  - intro H. apply (H k). now apply M.
  - intros s' (k2 & Hm & D & _). apply M in Hm. subst k2. exact D.
Qed.
Print Assumptions C67_remove_named_link.

Definition c67_file (uid : string) (s : db) : file := {| f_uid := txt uid; f_hint := Some (txt uid ++ txt ".toron"); f_db := s |}.
Definition c67_link (other name : string) : link :=
  {| k_id := 0; k_other := txt other; k_hint := None; k_name := txt name; k_selectors := []; k_default := false; k_hash := None; k_complete := false |}.
Definition c67_args (name : string) (d : direction) : link_args :=
  {| a_link := txt name; a_selectors := []; a_default := false; a_direction := d |}.
Definition c67_left : db := Db_Model.run [OAddLink (c67_link "bbb" "m1") None] fresh.
Definition c67_f1 : file := c67_file "aaa" c67_left.
Definition c67_f2 : file := c67_file "bbb" fresh.

Example c67_links :
  map (fun k => (k_id k, k_other k, k_name k, k_default k)) (d_links (n_right (cli_add_link (c67_args "m1" ToRight) c67_f1 c67_f2))) =
    [(1%Z, txt "aaa", txt "m1", true)] /\
  n_end (cli_add_link (c67_args "m1" ToLeft) c67_f1 c67_f2) = Exit 1 /\
  d_links (n_left (cli_remove_link (txt "m1") Both c67_f1 c67_f2)) = [] /\
  n_end (cli_remove_link (txt "m1") Both c67_f1 c67_f2) = Exit 0 /\
  n_end (cli_remove_link (txt "m2") Both c67_f1 c67_f2) = Exit 1.
Proof.
  split; [vm_compute; reflexivity|]. split; [vm_compute; reflexivity|]. split; [vm_compute; reflexivity|]. split; vm_compute; reflexivity.
Qed.

(** Both directions are not one transaction: when the second link is refused, the first stays,
    although the exit code says that the command failed. *)
Theorem C67_add_link_both_refuted : exists ops1 ops2 f1 f2 a, f_db f1 = Db_Model.run ops1 fresh /\ f_db f2 = Db_Model.run ops2 fresh /\
  n_end (cli_add_link a f1 f2) = Exit 1 /\ n_right (cli_add_link a f1 f2) <> f_db f2.
Proof.
  exists [OAddLink (c67_link "bbb" "m1") None], [], c67_f1, c67_f2, (c67_args "m1" Both).
  split; [reflexivity|]. split; [reflexivity|]. split; [vm_compute; reflexivity|].
  intro H. apply (f_equal (fun s => List.length (d_links s))) in H. vm_compute in H. discriminate.
Qed.
Print Assumptions C67_add_link_both_refuted.

(** An empty link name does not mean no link: the default link is removed. *)
Theorem C67_remove_link_empty_name_refuted : exists ops1 f1 f2, f_db f1 = Db_Model.run ops1 fresh /\
  (forall k, In k (d_links (f_db f1)) -> k_name k <> []) /\
  n_end (cli_remove_link [] ToLeft f1 f2) = Exit 0 /\
  d_links (f_db f1) <> [] /\ d_links (n_left (cli_remove_link [] ToLeft f1 f2)) = [].
Proof.
  exists [OAddLink (c67_link "bbb" "m1") None], c67_f1, c67_f2. split; [reflexivity|].
  assert (E : map k_name (d_links (f_db c67_f1)) = [txt "m1"]) by (vm_compute; reflexivity). split.
  { intros k Hk. apply (in_map k_name) in Hk. rewrite E in Hk. destruct Hk as [<-|[]]. discriminate. }
  split; [vm_compute; reflexivity|]. split; [intro H; rewrite H in E; discriminate|vm_compute; reflexivity].
Qed.
Print Assumptions C67_remove_link_empty_name_refuted.

(* ---------------------------------------------------------- new files *)

(** init: a file is only created where there is none, under a name that is not blank; the domain
    is the one given, else the file name without its extension. *)
Theorem C67_create_file : forall path domain writable fs b, last_part path b ->
  let out := create_file path domain writable fs in
  (blank b \/ lookup path fs <> None \/ writable = false -> out = (fs, Exit 1)) /\
  (~ blank b -> lookup path fs = None -> writable = true ->
   snd out = Exit 0 /\ (forall p, p <> path -> lookup p (fst out) = lookup p fs) /\
   exists d, lookup path (fst out) = Some (Space {| ns_domain := d |}) /\
     ((exists c t, domain = Some (c :: t) /\ d = c :: t) \/ ((domain = None \/ domain = Some []) /\ without_extension b d))).
Proof. exact create_file_spec. Qed.
Print Assumptions C67_create_file.

(** Every path has one last part, and every name one root. *)
Theorem C67_path_parts : forall p, (exists b, last_part p b /\ forall b', last_part p b' -> b' = b) /\
  (exists r, without_extension p r /\ forall r', without_extension p r' -> r' = r).
Proof.
  intro p. split.
  - exists (basename p). split; [apply basename_spec|]. intros b' H. exact (last_part_unique _ _ _ H (basename_spec p)).
  - exists (splitext_root p). split; [apply splitext_root_spec|]. intros r' H. exact (without_extension_unique _ _ _ H (splitext_root_spec p)).
Qed.
Print Assumptions C67_path_parts.

Example c67_create : last_part (txt "data/us.census.toron") (txt "us.census.toron") /\
  create_file (txt "data/us.census.toron") None true [] =
    ([(txt "data/us.census.toron", Space {| ns_domain := txt "us.census" |})], Exit 0) /\
  create_file (txt "..toron") (Some []) true [] = ([(txt "..toron", Space {| ns_domain := txt "..toron" |})], Exit 0) /\
  create_file (txt "data/ ") None true [] = ([], Exit 1).
Proof.
  split.
  { split; [vm_compute; intuition discriminate|]. right. exists (txt "data"). reflexivity. }
  split; [vm_compute; reflexivity|]. split; vm_compute; reflexivity.
Qed.
