(** C70: weight groups and the default. *)
From Verif Require Import Prelude QLemmas BitFlags_Model BitFlags_Proofs Selectors_Model
  Selectors_Proofs LinkRef_Model LinkRef_Spec LinkRef_Proofs Db_Model Db_Spec Db_Proofs Db_ProofsLocal Db_ProofsRun Db_ProofsOps
  WGroup_Model WGroup_Spec WGroup_Proofs WGroup_Proofs2.
From Coq Require Import String.
Import ListNotations.

(** As long as the default is only set to groups that are there, a space always shows its groups
    and either no default or one of the groups as the default. *)
Theorem C70_default : forall ops, sound ops fresh ->
  exists og, space_default (run ops fresh) = Ok og /\ forall g, og = Some g -> In g (weight_groups (run ops fresh)).
Proof.
  intros ops S. destruct (run_shows ops S) as (v & _ & og & E & _). exists og. split; [exact E|]. intros g ->.
  unfold space_default, get_default_weight_group in E. destruct (d_default (run ops fresh)) as [[i|]|]; try discriminate E.
  destruct (group_by_id i (run ops fresh)) as [h|] eqn:Eh; [|discriminate E]. injection E as <-. apply find_some in Eh. exact (proj1 Eh).
Qed.
Print Assumptions C70_default.

(** Every call changes the names and the default as [follows] says, and fails exactly when it says. *)
Theorem C70_calls : forall ops o v, sound (ops ++ [o]) fresh -> shows (run ops fresh) v ->
  exists v', shows (fst (step o (run ops fresh))) v' /\ follows o (weight_groups (run ops fresh)) v (snd (step o (run ops fresh))) v'.
Proof.
  intros ops o v S Hv. apply sound_app in S. destruct S as [_ S]. exact (step_follows _ v (run_inv ops) (run_checked ops) Hv o S).
Qed.
Print Assumptions C70_calls.
(** What is shown is unique. *)
Theorem C70_shows : forall s v w, shows s v -> shows s w -> v = w.
Proof. exact shows_fun. Qed.
Print Assumptions C70_shows.

(** No two groups have the same name, and asking for a name gives the group of that name. *)
Theorem C70_by_name : forall ops n, NoDup (map g_name (weight_groups (run ops fresh))) /\
  (forall g, get_weight_group n (run ops fresh) = Some g <-> In g (weight_groups (run ops fresh)) /\ g_name g = n) /\
  (get_weight_group n (run ops fresh) = None <-> ~ In n (map g_name (weight_groups (run ops fresh)))).
Proof.
  intros ops n. pose proof (proj2 (ww_groups _ (i_weights _ (run_inv ops)))) as N. split; [exact N|]. split; [|apply by_name_none].
  intros g. split; [apply by_name_in|]. intros [Hg En]. unfold get_weight_group. destruct (group_by_name n (run ops fresh)) as [h|] eqn:E.
  - apply by_name_in in E. destruct E as [Hh Eh]. f_equal. apply (name_inj (run ops fresh)); auto. congruence.
  - apply by_name_none in E. exfalso. apply E. rewrite <- En. now apply in_map.
Qed.
Print Assumptions C70_by_name.

(** Choosing a known group by its name is allowed in every state and makes it the default. *)
Theorem C70_choose : forall ops n v, shows (run ops fresh) v -> In n (v_names v) ->
  let o := choose n (run ops fresh) in
  sound_call o (run ops fresh) /\ snd (step o (run ops fresh)) = None /\
  shows (fst (step o (run ops fresh))) {| v_names := v_names v; v_default := Some n |}.
Proof.
  intros ops n v Hv Hn o. destruct Hv as [Hm Hd]. assert (Hv : shows (run ops fresh) v) by (split; auto). rewrite <- Hm in Hn.
  apply in_map_iff in Hn. destruct Hn as (g & En & Hg).
  assert (Eg : get_weight_group n (run ops fresh) = Some g) by (apply C70_by_name; auto).
  assert (S : sound_call o (run ops fresh)) by (unfold o, choose; rewrite Eg; exists g; auto).
  split; [exact S|]. destruct (step_follows _ v (run_inv ops) (run_checked ops) Hv o S) as (v' & H1 & H2).
  unfold o, choose in *. rewrite Eg in *. cbn [option_map] in *. destruct H2 as (h & Hh & E1 & E2 & E3 & E4). split; [exact E2|].
  injection E1 as E1. assert (h = g) by (apply (id_inj (run ops fresh)); auto; exact (proj1 (ww_groups _ (i_weights _ (run_inv ops))))). subst h.
  replace {| v_names := v_names v; v_default := Some n |} with v'; [exact H1|]. apply view_eq; cbn; congruence.
Qed.
Print Assumptions C70_choose.

(** Adding or editing a group or setting the default changes no record, weight, link or mapping. *)
Theorem C70_rest : forall o s, match o with OAddGroup _ _ _ | OEditGroup _ _ _ | OSetDefaultGroup _ => True | _ => False end ->
  let s' := fst (step o s) in
  d_labels s' = d_labels s /\ d_index s' = d_index s /\ d_weights s' = d_weights s /\ d_links s' = d_links s /\ d_maps s' = d_maps s /\
  d_structs s' = d_structs s.
Proof.
  intros o s H. cbv zeta.
  assert (T : forall body, (forall s', body s = Ok s' -> d_labels s' = d_labels s /\ d_index s' = d_index s /\ d_weights s' = d_weights s /\
     d_links s' = d_links s /\ d_maps s' = d_maps s /\ d_structs s' = d_structs s) ->
     let s' := fst (transact body s) in d_labels s' = d_labels s /\ d_index s' = d_index s /\ d_weights s' = d_weights s /\ d_links s' = d_links s /\
       d_maps s' = d_maps s /\ d_structs s' = d_structs s).
  { intros body Hb. cbv zeta. destruct (transact_cases body s) as [(x & E & T & _)|(e & T)]; rewrite T; cbn [fst]; [exact (Hb x E)|repeat split; reflexivity]. }
  destruct o; try destruct H; cbn [step]; apply T; intros s' E.
  - injection E as <-. repeat split; reflexivity.
  - unfold add_weight_group, group_add, set_default_weight_group in E. repeat step_res E; subst; try discriminate; try (injection E as <-); match goal with H : Ok _ = Ok _ |- _ => injection H as <- end; repeat split; reflexivity.
  - unfold edit_weight_group, group_update in E. repeat step_res E; subst; try discriminate; repeat split; reflexivity.
Qed.
Print Assumptions C70_rest.

(** Dropping a group removes it with its weights, and nothing else. *)
Theorem C70_drop : forall ops n g, one_session ops -> In g (weight_groups (run ops fresh)) -> g_name g = n ->
  snd (step (ODropGroup n) (run ops fresh)) = None ->
  let s := run ops fresh in let s' := fst (step (ODropGroup n) s) in
  (forall h, In h (weight_groups s') <-> In h (weight_groups s) /\ h <> g) /\
  (forall w, In w (d_weights s') <-> In w (d_weights s) /\ w_group w <> g_id g) /\
  d_labels s' = d_labels s /\ d_index s' = d_index s /\ d_links s' = d_links s /\ d_maps s' = d_maps s.
Proof.
  intros ops n g O Hg En Es s s'. pose proof (run_inv ops) as I. fold s in Hg, I, Es. pose proof (proj1 (ww_groups _ (i_weights _ I))) as N.
  assert (Eg : group_by_name n s = Some g) by (apply (C70_by_name ops n); auto).
  assert (F : d_fk s = true) by exact (f_fk _ (run_fk_from ops fresh O inv_fresh inv_fk_fresh)).
  unfold s' in *. cbn [step] in *. destruct (transact_cases (drop_weight_group n) s) as [(x & E & T & _)|(e & T)]; rewrite T in *; cbn [fst snd] in *; [|discriminate Es].
  clear Es T. assert (K : d_groups x = filter (fun h => negb (g_id h =? g_id g)%Z) (d_groups s) /\
    d_weights x = filter (fun w => negb (w_group w =? g_id g)%Z) (d_weights s) /\
    d_labels x = d_labels s /\ d_index x = d_index s /\ d_links x = d_links s /\ d_maps x = d_maps s).
  { unfold drop_weight_group in E. rewrite Eg in E. cbv zeta in E. unfold group_delete in E. cbn [d_fk set_groups] in E. rewrite F in E.
    cbn [d_default set_weights set_groups] in E. destruct (d_default s) as [[i|]|]; [|..]; try discriminate E.
    - destruct (g_id g =? i)%Z; injection E as <-; repeat split; reflexivity.
    - injection E as <-; repeat split; reflexivity. }
  destruct K as (K1 & K2 & K3). split; [|split; [|exact K3]].
  - intros h. unfold weight_groups. rewrite K1, filter_In. rewrite negb_true_iff, Z.eqb_neq. split; intros [A B]; split; auto.
    + intros ->. now apply B.
    + intros Ei. apply B. now apply (id_inj s).
  - intros w. rewrite K2, filter_In. rewrite negb_true_iff, Z.eqb_neq. reflexivity.
Qed.
Print Assumptions C70_drop.

(** *** Cases *)

Definition addg (n : string) (mk : option bool) : op := OAddGroup (txt n) false mk.
Definition hist2 : list op := [addg "A" None; addg "B" None; OEditGroup (txt "A") (Some (txt "C")) None].

(** The first group is the default and stays so under its new name. *)
Example C70_case : sound hist2 fresh /\ shows (run hist2 fresh) {| v_names := [txt "C"; txt "B"]; v_default := Some (txt "C") |} /\
  snd (step (ODropGroup (txt "B")) (run hist2 fresh)) = None /\ one_session hist2.
Proof.
  split; [cbn [hist2 addg sound sound_call]; tauto|]. split.
  - split; [vm_compute; reflexivity|]. exists (Some {| g_id := 1; g_name := txt "C"; g_complete := false |}). split; vm_compute; reflexivity.
  - split; [vm_compute; reflexivity|]. unfold one_session, hist2, addg. repeat constructor; cbn; auto.
Qed.

(** A group cannot be dropped when the default was dropped before it. *)
Theorem C70_drop_refuted : exists ops n, sound ops fresh /\ get_weight_group n (run ops fresh) <> None /\
  step (ODropGroup n) (run ops fresh) = (run ops fresh, Some KeyError).
Proof.
  exists [addg "A" None; addg "B" None; ODropGroup (txt "A")], (txt "B"). split; [cbn [addg sound sound_call]; tauto|].
  split; [vm_compute; discriminate|vm_compute; reflexivity].
Qed.
Print Assumptions C70_drop_refuted.

(** The first group is not always the default: not if insert_weights made it. *)
Theorem C70_first_refuted : exists n rows, snd (step (OInsertWeights n PAbort rows) fresh) = None /\
  shows (fst (step (OInsertWeights n PAbort rows) fresh)) {| v_names := [n]; v_default := None |}.
Proof.
  exists (txt "A"), []. split; [vm_compute; reflexivity|]. split; [vm_compute; reflexivity|]. exists None. split; vm_compute; reflexivity.
Qed.
Print Assumptions C70_first_refuted.

(** After a name that is not known was chosen, asking for the default is an error. *)
Theorem C70_choose_refuted : exists ops n, sound ops fresh /\ ~ In n (map g_name (weight_groups (run ops fresh))) /\
  snd (step (choose n (run ops fresh)) (run ops fresh)) = None /\
  space_default (fst (step (choose n (run ops fresh)) (run ops fresh))) = Err TypeError.
Proof.
  exists [addg "A" None], (txt "B"). split; [cbn [addg sound sound_call]; tauto|]. split; [vm_compute; intros [H|[]]; discriminate H|].
  split; vm_compute; reflexivity.
Qed.
Print Assumptions C70_choose_refuted.

(** A group that was dropped can be made the default; the next group that is added is the default
    then, although it was added with make_default=False. *)
Theorem C70_stale_refuted : exists ops g o, In o ops /\ o = ODropGroup (g_name g) /\
  let s := fst (step (OSetDefaultGroup (Some (g_id g))) (run ops fresh)) in
  snd (step (OSetDefaultGroup (Some (g_id g))) (run ops fresh)) = None /\ space_default s = Err KeyError /\
  exists n h, snd (step (OAddGroup n false (Some false)) s) = None /\
    space_default (fst (step (OAddGroup n false (Some false)) s)) = Ok (Some h) /\ g_name h = n /\ n <> g_name g.
Proof.
  exists [addg "A" None; ODropGroup (txt "A")], {| g_id := 1; g_name := txt "A"; g_complete := false |}, (ODropGroup (txt "A")).
  split; [right; left; reflexivity|]. split; [reflexivity|]. cbv zeta. split; [vm_compute; reflexivity|]. split; [vm_compute; reflexivity|].
  exists (txt "B"), {| g_id := 1; g_name := txt "B"; g_complete := false |}. split; [vm_compute; reflexivity|]. split; [vm_compute; reflexivity|].
  split; [reflexivity|]. vm_compute. discriminate.
Qed.
Print Assumptions C70_stale_refuted.
