(** C68: the description of a data space says what is in it. *)
From Coq Require Import Ascii String Lqa Sorting.Sorted Sorting.Permutation.
From Verif Require Import Prelude Selectors_Model SelectorParse_Model LinkRef_Model PartSort_Model PartSort_Spec FormatGran_Model FormatGran_Spec Info_Model Info_Spec Info_Proofs Info_Proofs2 Info_Proofs3 Info_Proofs4.
From Verif Require Import Partitions_Model Columns_Model Columns_Proofs2 Columns_Proofs3.
From Verif Require Json_Spec Db_Model.
Local Open Scope nat_scope.
Local Open Scope list_scope.

(** The partitions: what has to be displayed, once each and in order, with the stored granularity. *)
Theorem C68_partitions s i : tables_ok s -> get_info s = Ok i -> let labels := labels_in_display_order s in
  exists todo order places width, displayed (all_definitions s) labels todo /\ Permutation order todo /\
    StronglySorted (fun a b => before_def labels a b \/ agree_on labels a b) order /\ 3 <= places <= 17 /\
    ((order = [] /\ i_partitions i = [txt "None"]) \/ (order <> [] /\ Forall2 (partition_line s labels places width) order (i_partitions i))).
Proof. exact (partitions_spec s i). Qed.
Print Assumptions C68_partitions.

(** The definitions are those that are stored, as sets; the labels are the stored order and then the other
    columns in their own order. *)
Theorem C68_definitions s : match s_defs s with
  | Some stored => Forall2 (fun d d' => NoDup d' /\ PartSort_Spec.same_set d d') stored (all_definitions s)
  | None => all_definitions s = [] end.
Proof.
  unfold all_definitions. destruct (s_defs s) as [l|]; [|reflexivity]. induction l as [|d l IH]; cbn [map]; constructor; [|exact IH].
  split; [apply PartSort_Proofs.set_of_nodup|]. intro x. symmetry. apply PartSort_Proofs.set_of_in.
Qed.
Print Assumptions C68_definitions.
Theorem C68_label_order s before x between y after : s_columns s = before ++ x :: between ++ y :: after ->
  let order := match s_order s with Some l => l | None => [] end in
  exists rest, labels_in_display_order s = order ++ rest /\ (forall z, In z rest <-> In z (s_columns s) /\ ~ In z order) /\
    (~ In x order -> ~ In y order -> exists a b c, rest = a ++ x :: b ++ y :: c).
Proof.
  intros E order. exists (filter (fun z => negb (tmem z order)) (s_columns s)). split; [reflexivity|]. split.
  - intro z. rewrite filter_In, negb_true_iff, PartSort_Proofs.tmem_false. reflexivity.
  - intros Nx Ny. apply PartSort_Proofs.tmem_false in Nx, Ny. rewrite E, filter_app. cbn [filter]. rewrite Nx. cbn [negb]. rewrite filter_app. cbn [filter]. rewrite Ny. cbn [negb]. eauto.
Qed.
Print Assumptions C68_label_order.

(** Every weight group once, by name, with the right remark. *)
Theorem C68_weights s i : get_info s = Ok i -> NoDup (map Db_Model.g_name (s_groups s)) ->
  (s_groups s = [] -> i_weights i = [txt "None"]) /\
  (s_groups s <> [] -> exists order, Permutation order (s_groups s) /\
    StronglySorted (fun a b => Json_Spec.text_lt (Db_Model.g_name a) (Db_Model.g_name b)) order /\
    Forall2 (group_entry s) order (i_weights i)).
Proof. intros E N. split; [exact (weights_none s i E) | exact (weights_spec s i E N)]. Qed.
Print Assumptions C68_weights.

(** Every link once, in the line of its space; one line for each space, in the order of the ids. *)
Theorem C68_links s i : get_info s = Ok i -> NoDup (map k_id (s_links s)) ->
  (s_links s = [] -> i_links i = [txt "None"]) /\
  (s_links s <> [] -> exists blocks, Permutation (concat (map snd blocks)) (s_links s) /\
    StronglySorted (fun a b => Json_Spec.text_lt (fst a) (fst b)) blocks /\
    Forall (fun b => one_space (fst b) (snd b)) blocks /\
    Forall2 (fun b line => link_line_of (snd b) line) blocks (i_links i)).
Proof.
  intros E N. split; [|exact (links_spec s i E N)]. intro L. rewrite (info_links _ _ E). unfold links_list. rewrite L. reflexivity.
Qed.
Print Assumptions C68_links.

Theorem C68_domain s i : get_info s = Ok i ->
  (forall d, s_domain s = Some d -> d <> [] -> i_domain i = d) /\
  (s_domain s = None \/ s_domain s = Some [] -> i_domain i = txt "None") /\ s_created s = Some (i_created i).
Proof.
  unfold get_info. destruct (partition_list s); cbn [bind]; [|discriminate]. destruct (weights_list s); cbn [bind]; [|discriminate].
  destruct (s_created s); [|discriminate]. intro H. injection H as <-. cbn [i_domain i_created]. unfold domain_str. split; [|split; [|reflexivity]].
  - intros d -> N. destruct d; [congruence | reflexivity].
  - intros [->| ->]; reflexivity.
Qed.
Print Assumptions C68_domain.

(** When there is a description. *)
Theorem C68_outcome s : tables_ok s -> ((exists i, get_info s = Ok i) <-> describable s).
Proof. exact (outcome s). Qed.
Print Assumptions C68_outcome.

(** Whatever was added, renamed, moved, defined or undefined before: there is one, if the granularities can be told apart. *)
Theorem C68_history ops s : Forall keeps_columns ops -> describes s (crun c_new ops) -> granularities_ok s ->
  (exists places, 3 <= places <= 17 /\ ~ collide places (map snd (s_structs s))) ->
  (s_groups s = [] \/ default_known s) -> s_created s <> None -> exists i, get_info s = Ok i.
Proof.
  intros F D G C W K. apply outcome; [exact (history_tables ops s F D G) | exact (history_describable ops s F D C W K)].
Qed.
Print Assumptions C68_history.

(** Without renaming, the lines are about the columns of the space: the whole space first. *)
Theorem C68_history_labels ops s i : Forall keeps_names ops -> describes s (crun c_new ops) -> granularities_ok s -> s_columns s <> [] -> get_info s = Ok i ->
  exists labels places width line lines, Permutation labels (s_columns s) /\ 3 <= places <= 17 /\ i_partitions i = line :: lines /\
    partition_line s labels places width labels line /\
    (forall l, In l lines -> exists d, In d (all_definitions s) /\ incl d (s_columns s) /\ partition_line s labels places width d l) /\
    (forall d, In d (all_definitions s) -> exists l, In l (line :: lines) /\ partition_line s labels places width d l).
Proof.
  intros F D G Ne E. assert (F' : Forall keeps_columns ops) by (revert F; apply Forall_impl; intros []; cbn; tauto).
  pose proof (history_tables ops s F' D G) as T. pose proof (history_labels ops s F D) as P.
  destruct (partitions_spec s i T E) as (todo & order & places & width & Di & Po & So & L & Lines). set (labels := labels_in_display_order s) in *.
  assert (K : forall d, In d (all_definitions s) -> incl d (s_columns s)).
  { intros d I x J. apply (Permutation_in _ P). exact (history_known ops s d x F' D I J). }
  assert (Nl : labels <> []) by (intro X; rewrite X in P; apply Permutation_nil in P; congruence).
  assert (W : exists w, In w order /\ PartSort_Spec.same_set w labels).
  { destruct Di as [[-> [H|(d & I & Sd)]]|(w & -> & Sw & _)]; [contradiction| |].
    - exists d. split; [exact (Permutation_in _ (Permutation_sym Po) I) | exact Sd].
    - exists w. split; [|exact Sw]. apply (Permutation_in _ (Permutation_sym Po)), in_app_iff. right. left. reflexivity. }
  destruct W as (w & Iw & Sw). destruct Lines as [[-> _]|[No Lines]]; [destruct Iw|].
  destruct order as [|d order]; [congruence|]. inversion Lines as [|? line ? lines Hl Hls El1 El2]; subst.
  assert (Same : PartSort_Spec.same_set d labels).
  { assert (Ag : before_def labels d w \/ agree_on labels d w).
    { destruct Iw as [->|Iw]; [right; intros y _; tauto|]. inversion So as [|? ? _ Fo]; subst. rewrite Forall_forall in Fo. exact (Fo w Iw). }
    assert (Id : incl d labels).
    { destruct (proj1 (displayed_show s todo Di) d) as [I|[_ Sd]]; [apply (Permutation_in _ Po); left; reflexivity| |intros x J; apply Sd; exact J].
      intros x J. apply (Permutation_in _ (Permutation_sym P)), (K d I x J). }
    destruct Ag as [(f & x & o & E1 & _ & _ & N)|Ag]; [exfalso; apply N, Sw; fold labels; rewrite E1; apply in_elt|].
    intro x. split; [apply Id|]. intro J. apply (Ag x J), Sw. exact J. }
  assert (Conv : forall e e' l, PartSort_Spec.same_set e e' -> partition_line s labels places width e l -> partition_line s labels places width e' l).
  { intros e e' l Se (g & t & t0 & H1 & H2 & H3 & H4 & ->). exists g, t, t0. split; [revert H1; apply gran_ext; intros x _; apply Se|]. split; [exact H2|]. split; [exact H3|]. split; [exact H4|].
    do 2 f_equal. f_equal. apply PartSort_Proofs.shown_agree. intros y _. apply Se. }
  assert (Rest : forall e, In e order -> In e (all_definitions s)).
  { intros e I. destruct Di as [[-> _]|(w' & -> & Sw' & _ & _ & Nw)]; [apply (Permutation_in _ Po); right; exact I|].
    assert (Q : Permutation (d :: order) (w' :: all_definitions s)) by (eapply Permutation_trans; [exact Po | apply Permutation_sym, Permutation_cons_append]).
    destruct (Permutation_in _ Q (or_introl eq_refl)) as [X|X]; [|exfalso; exact (Nw d X Same)]. subst w'. apply Permutation_cons_inv in Q. exact (Permutation_in _ Q I). }
  exists labels, places, width, line, lines. split; [exact P|]. split; [exact L|]. split; [congruence|]. split; [exact (Conv d labels line Same Hl)|]. split.
  - intros l I. assert (X : exists e, In e order /\ partition_line s labels places width e l).
    { clear - Hls I. revert I. induction Hls as [|a b l1 l2 H F IH]; intros []; [subst; exists a; split; [left; reflexivity | exact H]|]. destruct (IH H0) as (e & Ie & He). exists e. split; [right; exact Ie | exact He]. }
    destruct X as (e & Ie & He). exists e. split; [exact (Rest e Ie)|]. split; [exact (K e (Rest e Ie)) | exact He].
  - intros e I. assert (Io : In e (d :: order)).
    { apply (Permutation_in _ (Permutation_sym Po)). destruct Di as [[-> _]|(w' & -> & _)]; [exact I | apply in_app_iff; left; exact I]. }
    destruct Io as [->|Io]; [exists line; split; [left; reflexivity | exact Hl]|].
    assert (X : exists l, In l lines /\ partition_line s labels places width e l).
    { clear - Hls Io. revert Io. induction Hls as [|a b l1 l2 H F IH]; intros []; [subst; exists b; split; [left; reflexivity | exact H]|]. destruct (IH H0) as (l & Il & Hl). exists l. split; [right; exact Il | exact Hl]. }
    destruct X as (l & Il & Hl'). exists l. split; [right; exact Il | exact Hl'].
Qed.
Print Assumptions C68_history_labels.

(** *** The texts can be read *)

(** Names without comma and parenthesis: the line of the weights tells the names, the default and which are complete. *)
Theorem C68_weights_readable s s' i i' : get_info s = Ok i -> get_info s' = Ok i' -> s_groups s <> [] -> s_groups s' <> [] ->
  (forall g, In g (s_groups s ++ s_groups s') -> plain (Db_Model.g_name g)) ->
  join (txt ", ") (i_weights i) = join (txt ", ") (i_weights i') -> forall n b c, told s n b c <-> told s' n b c.
Proof. exact (weights_readable s s' i i'). Qed.
Print Assumptions C68_weights_readable.

Theorem C68_links_readable s s' i i' : get_info s = Ok i -> get_info s' = Ok i' -> s_links s <> [] -> s_links s' <> [] ->
  NoDup (map k_id (s_links s)) -> NoDup (map k_id (s_links s')) ->
  (forall k, In k (s_links s ++ s_links s') -> plain (k_name k) /\ forall r, space_name k r -> ~ In 58%N r) -> i_links i = i_links i' ->
  exists blocks blocks', Permutation (concat (map snd blocks)) (s_links s) /\ Permutation (concat (map snd blocks')) (s_links s') /\
    Forall (fun b => one_space (fst b) (snd b)) (blocks ++ blocks') /\ NoDup (map fst blocks) /\ NoDup (map fst blocks') /\
    Forall2 (fun b b' => Permutation (map what (snd b)) (map what (snd b')) /\
       exists k k' r, hd_error (snd b) = Some k /\ hd_error (snd b') = Some k' /\ space_name k r /\ space_name k' r) blocks blocks'.
Proof. exact (links_readable s s' i i'). Qed.
Print Assumptions C68_links_readable.

(** If nothing in it has a line break, the text that [repr] returns tells each part. *)
Theorem C68_repr_readable first first' s s' i i' t :
  get_info s = Ok i -> get_info s' = Ok i' -> repr first s = Ok t -> repr first' s' = Ok t ->
  one_line first -> one_line first' -> Forall one_line (registered_attributes s ++ registered_attributes s') ->
  (forall x, x = i \/ x = i' -> one_line (i_domain x) /\ Forall one_line (i_partitions x ++ i_weights x ++ i_links x) /\ one_line (i_created x)) ->
  first = first' /\ i_domain i = i_domain i' /\ i_partitions i = i_partitions i' /\ join (txt ", ") (i_weights i) = join (txt ", ") (i_weights i') /\
  text_or_none (join (txt ", ") (registered_attributes s)) = text_or_none (join (txt ", ") (registered_attributes s')) /\
  i_links i = i_links i' /\ i_created i = i_created i'.
Proof.
  intros E E' R R' O O' A H. unfold repr in R, R'. rewrite E in R. rewrite E' in R'. cbn [bind] in R, R'. apply ok_eq in R, R'. subst t.
  assert (J : forall l, Forall one_line l -> one_line (join (txt ", ") l)).
  { intros l F. destruct l as [|a l]; [intros []|]. inversion F; subst. unfold one_line, join. intro I. apply in_app_iff in I. destruct I as [I|I]; [contradiction|].
    apply in_flat_map in I. destruct I as (x & Ix & I). apply in_app_iff in I. destruct I as [I|I]; [vm_compute in I; intuition discriminate|].
    rewrite Forall_forall in *. match goal with H : forall x, In x l -> _ |- _ => exact (H x Ix I) end. }
  assert (T : forall l, Forall one_line l -> one_line (text_or_none (join (txt ", ") l))).
  { intros l F. pose proof (J l F) as X. unfold text_or_none. destruct (join (txt ", ") l) as [|c x]; [|exact X]. intro I. vm_compute in I. intuition discriminate. }
  apply Forall_app in A. destruct A as [A A'].
  assert (L : forall x, x = i \/ x = i' -> info_lines x).
  { intros x Hx. destruct (H x Hx) as (H1 & H2 & H3). apply Forall_app in H2. destruct H2 as [H2 H4]. apply Forall_app in H4. destruct H4 as [H4 H5]. repeat split; auto. }
  eapply repr_readable; [exact O | exact O' | apply T; exact A | apply T; exact A' | apply L; auto | apply L; auto | eapply partitions_ne; eassumption | eapply links_ne; eassumption
    | eapply partitions_ne; eassumption | eapply links_ne; eassumption | symmetry; exact R'].
Qed.
Print Assumptions C68_repr_readable.

(** *** The command *)

(** Without styles it writes the file name and what [repr] says; it fails also if there are attributes that are not registered. *)
Theorem C68_command filename columns s t : info_command {| bright := []; dim := []; reset := [] |} filename columns s = Ok t <->
  incl (s_loaded s) (registered_attributes s) /\ exists r, let hr := repeat 9472%N (Nat.min (List.length filename) (columns - 1)) in
    repr hr s = Ok r /\ t = hr ++ nl ++ filename ++ nl ++ r ++ nl.
Proof. exact (command_plain filename columns s t). Qed.
Print Assumptions C68_command.

(** The registered attributes in their order, those without data are dimmed. *)
Theorem C68_attributes st filename columns s t : info_command st filename columns s = Ok t -> registered_attributes s <> [] -> (forall a, In a (registered_attributes s) -> a <> []) ->
  exists before after shown_attributes,
    Forall2 (fun a x => (In a (s_loaded s) -> x = a) /\ (~ In a (s_loaded s) -> x = dim st ++ a ++ reset st)) (registered_attributes s) shown_attributes /\
    t = before ++ bright st ++ txt "attributes:" ++ reset st ++ nl ++ txt "  " ++ join (txt ", ") shown_attributes ++ nl ++ after.
Proof. exact (command_attributes st filename columns s t). Qed.
Print Assumptions C68_attributes.

(** *** Non-vacuity *)
Definition of_history (ops : list cop) (gran : list bool -> gval) (groups : list Db_Model.group) (default : option (option Z)) (links : list link) : ispace :=
  let c := crun c_new ops in
  {| s_domain := Some (txt "census"); s_order := option_map (map txt) (c_display c); s_columns := map txt (c_columns c);
     s_defs := option_map (map (map txt)) (c_defs c); s_structs := map (fun r => (r, gran r)) (c_structs c);
     s_groups := groups; s_default := default; s_links := links; s_attrs := Some [txt "year"; txt "sex"]; s_loaded := [txt "sex"];
     s_created := Some (txt "2026-01-01 10:00:00 AM UTC") |}.
Lemma of_history_describes ops gran groups default links : describes (of_history ops gran groups default links) (crun c_new ops).
Proof. split; [reflexivity|]. split; [reflexivity|]. split; [reflexivity|]. cbn [of_history s_structs]. rewrite map_map. cbn [fst]. rewrite map_id. reflexivity. Qed.
Definition count_gran (r : list bool) : gval := GNum false (inject_Z (Z.of_nat (List.length (filter (fun b => b) r)))).
Definition ex_groups : list Db_Model.group :=
  [{| Db_Model.g_id := 2; Db_Model.g_name := txt "population"; Db_Model.g_complete := true |};
   {| Db_Model.g_id := 1; Db_Model.g_name := txt "area"; Db_Model.g_complete := false |};
   {| Db_Model.g_id := 5; Db_Model.g_name := txt "houses"; Db_Model.g_complete := true |}].
Definition ex_links : list link :=
  let k (i : Z) (o : string) (h : option text) (n : string) (d c : bool) := {| k_id := i; k_other := txt o; k_hint := h; k_name := txt n; k_selectors := []; k_default := d; k_hash := None; k_complete := c |} in
  [k 3%Z "bbbbbbbbbb"%string None "people"%string true false; k 4%Z "aaaaaaaaaa"%string (Some (txt "old.toron")) "people"%string true true;
   k 1%Z "bbbbbbbbbb"%string (Some (txt "new.toron")) "area"%string false true; k 7%Z "cccccccccc"%string (Some []) "x"%string false false].
Definition ex_ops : list cop := [CAdd "state" ["county"; "town"] false; CAddDef ["state"]; CMoveLabel "town" (-2)]%string.
Definition ex_s : ispace := of_history ex_ops count_gran ex_groups (Some (Some 2%Z)) ex_links.
Definition ex_info : info := {| i_domain := txt "census";
  i_partitions := [txt "3.000  town, state, county"; txt "1.000  state"];
  i_weights := [txt "area (incomplete)"; txt "houses"; txt "population (default)"];
  i_links := [txt "old.toron: people (default)"; txt "new.toron: area, people (default, locally incomplete)"; txt "[ccccccc]: x (locally incomplete)"];
  i_created := txt "2026-01-01 10:00:00 AM UTC" |}.
Example C68_ex : get_info ex_s = Ok ex_info.
Proof. vm_compute. reflexivity. Qed.
Example C68_ex_history : Forall keeps_names ex_ops /\ describes ex_s (crun c_new ex_ops) /\ s_columns ex_s <> [] /\ granularities_ok ex_s.
Proof.
  split; [repeat constructor|]. split; [apply of_history_describes|]. split; [vm_compute; discriminate|]. split.
  - intros n m I. vm_compute in I. repeat destruct I as [I|I]; try (injection I as <- <-; lra). destruct I.
  - intros m I. vm_compute in I. repeat destruct I as [I|I]; discriminate I || destruct I.
Qed.
Example C68_ex_names : NoDup (map Db_Model.g_name (s_groups ex_s)) /\ NoDup (map k_id (s_links ex_s)) /\
  (forall g, In g (s_groups ex_s) -> plain (Db_Model.g_name g)) /\
  (forall k, In k (s_links ex_s) -> plain (k_name k) /\ forall r, space_name k r -> ~ In 58%N r).
Proof.
  split; [repeat constructor; vm_compute; intuition discriminate|]. split; [repeat constructor; vm_compute; intuition discriminate|]. split.
  - intros g I. cbn [ex_s of_history s_groups ex_groups In] in I. repeat destruct I as [<-|I]; try destruct I; split; vm_compute; intuition discriminate.
  - intros k I. cbn [ex_s of_history s_links ex_links In] in I.
    repeat destruct I as [<-|I]; try destruct I; (split; [split; vm_compute; intuition discriminate|]); intros r H; inversion H as [h E N|E]; subst; cbn [k_hint k_other] in *;
      try discriminate; try (injection E as <-); try congruence; try (destruct E; discriminate); vm_compute; intuition discriminate.
Qed.
Example C68_ex_command : exists t, info_command {| bright := [1%N]; dim := [2%N]; reset := [3%N] |} (txt "mynode.toron") 80 ex_s = Ok t.
Proof. eexists. vm_compute. reflexivity. Qed.
Example C68_ex_repr : exists t, repr (txt "<toron.DataSpace object>") ex_s = Ok t /\ one_line (i_domain ex_info) /\ Forall one_line (i_partitions ex_info ++ i_weights ex_info ++ i_links ex_info).
Proof.
  eexists. split; [vm_compute; reflexivity|]. split; [vm_compute; intuition discriminate|].
  repeat constructor; vm_compute; intuition discriminate.
Qed.

(** *** Findings *)

(** After moving a label and renaming another, the description shows a partition with a label that is not
    a column any more. *)
Theorem C68_renamed_label_refuted : exists ops s i, Forall keeps_columns ops /\ describes s (crun c_new ops) /\ get_info s = Ok i /\
  s_columns s = [txt "parish"; txt "state"] /\ i_partitions i = [txt "2.000  state, county, parish"; txt "2.000  state, parish"].
Proof.
  exists [CAdd "county" ["state"] false; CMoveLabel "state" (-1); CRenameLabel "county" "parish"]%string.
  eexists (of_history _ count_gran [] None []), _. split; [repeat constructor|]. split; [apply of_history_describes|]. split; [vm_compute; reflexivity|]. split; vm_compute; reflexivity.
Qed.
Print Assumptions C68_renamed_label_refuted.
(** After dropping a column there is no description any more. *)
Theorem C68_dropped_column_refuted : exists ops s, describes s (crun c_new ops) /\ s_columns s = [txt "state"] /\
  get_info s = Err ValueError /\ (forall first, repr first s = Err ValueError).
Proof.
  exists [CAdd "state" ["county"] false; CDrop "county" [] false]%string. eexists (of_history _ count_gran [] None []).
  split; [apply of_history_describes|]. split; [vm_compute; reflexivity|]. assert (E : get_info (of_history [CAdd "state" ["county"] false; CDrop "county" [] false]%string count_gran [] None []) = Err ValueError) by (vm_compute; reflexivity).
  split; [exact E|]. intro first. unfold repr. rewrite E. reflexivity.
Qed.
Print Assumptions C68_dropped_column_refuted.
(** Setting the default to none, which [set_default_weight_group] accepts, ends the descriptions as well. *)
Theorem C68_default_none_refuted : exists s d d', Db_Model.set_default_weight_group None d = Ok d' /\ s_default s = Db_Model.d_default d' /\
  get_info s = Err TypeError.
Proof.
  exists (of_history ex_ops count_gran ex_groups (Some None) []), Db_Model.fresh. eexists. split; [reflexivity|]. split; vm_compute; reflexivity.
Qed.
Print Assumptions C68_default_none_refuted.
(** A group called None is shown like no group. *)
Theorem C68_none_refuted : exists s s' i, s_groups s = [] /\ s_groups s' <> [] /\ get_info s = Ok i /\ get_info s' = Ok i.
Proof.
  exists (of_history ex_ops count_gran [] None []), (of_history ex_ops count_gran [{| Db_Model.g_id := 1; Db_Model.g_name := txt "None"; Db_Model.g_complete := true |}] None []).
  eexists. split; [reflexivity|]. split; [discriminate|]. split; vm_compute; reflexivity.
Qed.
Print Assumptions C68_none_refuted.
(** Names with parentheses can be mistaken for remarks. *)
Theorem C68_remark_refuted : exists s s' i, get_info s = Ok i /\ get_info s' = Ok i /\ told s (txt "area") true true /\ ~ told s' (txt "area") true true.
Proof.
  exists (of_history ex_ops count_gran [{| Db_Model.g_id := 1; Db_Model.g_name := txt "area"; Db_Model.g_complete := true |}] (Some (Some 1%Z)) []),
         (of_history ex_ops count_gran [{| Db_Model.g_id := 1; Db_Model.g_name := txt "area (default)"; Db_Model.g_complete := true |}] None []).
  eexists. split; [vm_compute; reflexivity|]. split; [vm_compute; reflexivity|]. split.
  - eexists. split; [left; reflexivity|]. split; [reflexivity|]. split; [reflexivity|]. split; reflexivity.
  - intros (g & [<-|[]] & H & _). vm_compute in H. discriminate.
Qed.
Print Assumptions C68_remark_refuted.
(** Without styles the command does not tell which attributes have data. *)
Theorem C68_plain_loaded_refuted : exists s s' t, s_loaded s = [] /\ s_loaded s' <> [] /\
  info_command {| bright := []; dim := []; reset := [] |} (txt "x.toron") 80 s = Ok t /\
  info_command {| bright := []; dim := []; reset := [] |} (txt "x.toron") 80 s' = Ok t.
Proof.
  exists {| s_domain := None; s_order := None; s_columns := []; s_defs := None; s_structs := []; s_groups := []; s_default := None; s_links := [];
            s_attrs := Some [txt "sex"]; s_loaded := []; s_created := Some [] |},
         {| s_domain := None; s_order := None; s_columns := []; s_defs := None; s_structs := []; s_groups := []; s_default := None; s_links := [];
            s_attrs := Some [txt "sex"]; s_loaded := [txt "sex"]; s_created := Some [] |}.
  eexists. split; [reflexivity|]. split; [discriminate|]. split; vm_compute; reflexivity.
Qed.
Print Assumptions C68_plain_loaded_refuted.
