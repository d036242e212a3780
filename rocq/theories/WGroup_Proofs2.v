(** The calls on weight groups. *)
From Verif Require Import Prelude QLemmas BitFlags_Model BitFlags_Proofs Selectors_Model
  Selectors_Proofs LinkRef_Model LinkRef_Spec LinkRef_Proofs Db_Model Db_Spec Db_Proofs Db_ProofsLocal Db_ProofsRun Db_ProofsOps
  WGroup_Model WGroup_Spec WGroup_Proofs.

Lemma text_eqb_eq a b : text_eqb a b = true -> a = b.
Proof. apply text_eqb_iff. Qed.

Definition group_op (o : op) : bool :=
  match o with OSetDefaultGroup _ | OAddGroup _ _ _ | OEditGroup _ _ _ | ODropGroup _ | OInsertWeights _ _ _ => true | _ => false end.

Lemma other_same o s : group_op o = false -> same_groups s (fst (step o s)).
Proof.
  intros G. assert (H : is_reopen o \/ wsteps s (fst (step o s))).
  { destruct o; cbn [step group_op is_reopen] in *; try discriminate G; auto; right; try (apply ws_transact; intros s' H).
    - eapply ws_insert_index, H.
    - eapply ws_update_index, H.
    - eapply ws_delete_rows, H.
    - eapply ws_delete_criteria, H.
    - eapply ws_update_weights, H.
    - eapply ws_delete_weights_rows, H.
    - eapply ws_delete_weights_criteria, H.
    - eapply ws_add_link, H.
    - eapply ws_edit_link, H.
    - unfold drop_link in H. step_res H. injection H as <-. apply ws_one, wp_link_delete.
    - eapply ws_insert_mappings2, H.
    - eapply ws_insert_mappings, H.
    - eapply ws_update_mappings, H.
    - eapply ws_delete_mappings_rows, H.
    - eapply ws_delete_mappings_criteria, H.
    - apply ws_reify.
    - eapply ws_one, wp_add_columns. exact H.
    - eapply ws_one, wp_rename. exact H.
    - eapply ws_one, wp_drop. exact H.
    - injection H as <-. apply ws_one, wp_structs. }
  destruct H as [H|H]; [destruct o; destruct H; split; reflexivity|now apply wsteps_same].
Qed.

(** What a transaction checks. *)
Definition checked (s : db) : Prop := d_fk s = true -> fk_ok s = true.

Lemma ids_of s : map g_id (d_groups s) = map fst (names_of s).
Proof. unfold names_of. rewrite map_map. reflexivity. Qed.
Lemma gnames_of s : map g_name (d_groups s) = map snd (names_of s).
Proof. unfold names_of. rewrite map_map. reflexivity. Qed.

Lemma by_id s i g : NoDup (map g_id (d_groups s)) -> In g (d_groups s) -> g_id g = i -> group_by_id i s = Some g.
Proof.
  unfold group_by_id. induction (d_groups s) as [|a l IH]; intros N H E; [destruct H|]. cbn [find map] in *. inversion N as [|? ? N1 N2]; subst.
  destruct H as [->|H]; [now rewrite Z.eqb_refl|]. destruct (g_id a =? g_id g)%Z eqn:Ea; [|now apply IH].
  exfalso. apply N1. apply Z.eqb_eq in Ea. rewrite Ea. now apply in_map.
Qed.
Lemma by_name_in s n g : group_by_name n s = Some g -> In g (d_groups s) /\ g_name g = n.
Proof. unfold group_by_name. intros H. apply find_some in H. destruct H as [H E]. split; auto. now apply text_eqb_eq in E. Qed.
Lemma by_name_none s n : group_by_name n s = None <-> ~ In n (map g_name (d_groups s)).
Proof.
  unfold group_by_name. rewrite find_none_iff. split.
  - intros H C. apply in_map_iff in C. destruct C as (g & <- & Hg). specialize (H g Hg). rewrite text_eqb_refl in H. discriminate.
  - intros H g Hg. destruct (text_eqb (g_name g) n) eqn:E; auto. exfalso. apply H. apply text_eqb_eq in E. subst n. now apply in_map.
Qed.
Lemma name_inj s g h : NoDup (map g_name (d_groups s)) -> In g (d_groups s) -> In h (d_groups s) -> g_name g = g_name h -> g = h.
Proof.
  induction (d_groups s) as [|a l IH]; intros N Hg Hh E; [destruct Hg|]. cbn [map] in N. inversion N as [|? ? N1 N2]; subst.
  destruct Hg as [->|Hg], Hh as [->|Hh]; auto; exfalso; apply N1; [rewrite E|rewrite <- E]; now apply in_map.
Qed.
Lemma id_inj s g h : NoDup (map g_id (d_groups s)) -> In g (d_groups s) -> In h (d_groups s) -> g_id g = g_id h -> g = h.
Proof.
  intros N Hg Hh E. pose proof (by_id s (g_id h) g N Hg E). pose proof (by_id s (g_id h) h N Hh eq_refl). congruence.
Qed.

Lemma shows_fun s v w : shows s v -> shows s w -> v = w.
Proof.
  intros [A (og & E & B)] [C (oh & F & D)]. rewrite E in F. injection F as <-. destruct v, w. cbn in *. congruence.
Qed.
(** What is shown of the default, from the table. *)
Lemma shows_iff s v : NoDup (map g_id (d_groups s)) ->
  (shows s v <-> map g_name (d_groups s) = v_names v /\
     match v_default v with
     | None => d_default s = None
     | Some n => exists g, In g (d_groups s) /\ g_name g = n /\ d_default s = Some (Some (g_id g))
     end).
Proof.
  intros N. unfold shows, weight_groups. split.
  - intros [A (og & E & B)]. split; [exact A|]. unfold space_default, get_default_weight_group in E.
    destruct (d_default s) as [[i|]|] eqn:Ed.
    + destruct (group_by_id i s) as [g|] eqn:Eg; [|discriminate E]. injection E as <-. cbn [option_map] in B. rewrite <- B.
      apply find_some in Eg. destruct Eg as [H1 H2]. exists g. repeat split; auto. apply Z.eqb_eq in H2. now subst i.
    + discriminate E.
    + injection E as <-. cbn [option_map] in B. now rewrite <- B.
  - intros [A B]. split; [exact A|]. unfold space_default, get_default_weight_group. destruct (v_default v) as [n|].
    + destruct B as (g & Hg & En & ->). rewrite (by_id s (g_id g) g N Hg eq_refl). exists (Some g). split; auto. cbn. now rewrite En.
    + rewrite B. now exists None.
Qed.

Lemma same_shows s s' v : NoDup (map g_id (d_groups s)) -> same_groups s s' -> shows s v -> shows s' v.
Proof.
  intros N [E1 E2] Hv. assert (N' : NoDup (map g_id (d_groups s'))) by (rewrite ids_of, E1, <- ids_of; exact N).
  apply (shows_iff s v N) in Hv. apply (shows_iff s' v N'). destruct Hv as [A B]. split; [rewrite gnames_of, E1, <- gnames_of; exact A|].
  rewrite E2. destruct (v_default v) as [n|]; auto. destruct B as (g & Hg & En & Ed).
  assert (H : In (g_id g, g_name g) (names_of s')) by (rewrite E1; unfold names_of; apply in_map_iff; now exists g).
  unfold names_of in H. apply in_map_iff in H. destruct H as (h & E & Hh). injection E as Ei En'. exists h. repeat split; auto; [congruence|].
  now rewrite Ei.
Qed.

(** *** The transaction *)

Lemma transact_pass body s s' : body s = Ok s' -> (d_fk s' = true -> fk_ok s' = true) -> transact body s = (s', None).
Proof.
  intros E C. unfold transact. rewrite E. destruct (d_fk s') eqn:Ef; [|reflexivity]. now rewrite (C eq_refl).
Qed.
Lemma transact_fails body s e : body s = Err e -> transact body s = (s, Some e).
Proof. intros E. unfold transact. now rewrite E. Qed.


Lemma view_eq v w : v_names v = v_names w -> v_default v = v_default w -> v = w.
Proof. destruct v, w. cbn. congruence. Qed.

Lemma find_snoc {A} (f : A -> bool) l x : find f l = None -> f x = true -> find f (l ++ [x]) = Some x.
Proof. intros H Hx. induction l as [|a l IH]; cbn [find app] in *; [now rewrite Hx|]. destruct (f a); [discriminate|auto]. Qed.

Lemma nil_names l : nil_b l = true <-> map g_name l = [].
Proof. destruct l; cbn; split; auto; discriminate. Qed.

Section Call.
  Context (s : db) (v : view) (I : inv s) (C : checked s) (Hv : shows s v).
  Lemma ids_nodup : NoDup (map g_id (d_groups s)).
  Proof using I. exact (proj1 (ww_groups _ (i_weights _ I))). Qed.
  Lemma names_nodup : NoDup (map g_name (d_groups s)).
  Proof using I. exact (proj2 (ww_groups _ (i_weights _ I))). Qed.

  Lemma next_ids o : NoDup (map g_id (d_groups (fst (step o s)))).
  Proof using I. exact (proj1 (ww_groups _ (i_weights _ (step_inv o s I)))). Qed.

  Lemma names_eq : v_names v = map g_name (d_groups s).
  Proof using Hv. destruct Hv as [A _]. now symmetry. Qed.
  Lemma shown : match v_default v with
     | None => d_default s = None
     | Some n => exists g, In g (d_groups s) /\ g_name g = n /\ d_default s = Some (Some (g_id g))
     end.
  Proof using I Hv. exact (proj2 (proj1 (shows_iff s v ids_nodup) Hv)). Qed.

  Lemma add_follows n c mk : exists v', shows (fst (step (OAddGroup n c mk) s)) v' /\
    follows (OAddGroup n c mk) (d_groups s) v (snd (step (OAddGroup n c mk) s)) v'.
  Proof using I C Hv.
    pose proof ids_nodup as N. pose proof names_nodup as M.
    pose proof (next_ids (OAddGroup n c mk)) as N'. cbn [step] in *. destruct (group_by_name n s) as [g|] eqn:Eg.
    - assert (E : add_weight_group n c mk s = Err ToronError) by (unfold add_weight_group; now rewrite Eg).
      rewrite (transact_fails _ _ _ E). exists v. split; [exact Hv|]. left. repeat split. rewrite names_eq.
      apply by_name_in in Eg. destruct Eg as [Hg <-]. now apply in_map.
    - set (g := {| g_id := zmax (map g_id (d_groups s)) + 1; g_name := n; g_complete := c |}).
      assert (Ea : group_add n c s = Ok (set_groups (d_groups s ++ [g]) s)) by (unfold group_add; now rewrite Eg).
      assert (Ef : group_by_name n (set_groups (d_groups s ++ [g]) s) = Some g).
      { unfold group_by_name in *. cbn [set_groups d_groups]. apply find_snoc; [exact Eg|]. apply text_eqb_refl. }
      set (mk' := match mk with None => nil_b (d_groups s) | Some b => b end).
      assert (E : add_weight_group n c mk s = Ok (if mk' then set_default (Some (Some (g_id g))) (set_groups (d_groups s ++ [g]) s) else set_groups (d_groups s ++ [g]) s)).
      { unfold add_weight_group. fold mk'. rewrite Eg, Ea. cbn [bind]. destruct mk'; [|reflexivity]. rewrite Ef. reflexivity. }
      assert (T : transact (add_weight_group n c mk) s = (if mk' then set_default (Some (Some (g_id g))) (set_groups (d_groups s ++ [g]) s) else set_groups (d_groups s ++ [g]) s, None)).
      { apply transact_pass; [exact E|]. destruct mk'; exact C. }
      rewrite T in *. cbn [fst snd] in *. apply by_name_none in Eg.
      exists {| v_names := v_names v ++ [n]; v_default := if mk' then Some n else v_default v |}. split.
      + apply (shows_iff _ _ N'). cbn [v_names v_default]. split.
        * rewrite names_eq. destruct mk'; cbn [set_default set_groups d_groups]; rewrite map_app; reflexivity.
        * pose proof shown as Hd. destruct mk'.
          -- exists g. split; [cbn [set_default set_groups d_groups]; apply in_or_app; right; now left|]. split; reflexivity.
          -- destruct (v_default v) as [m|]; [|exact Hd]. destruct Hd as (h & Hh & En & Ed). exists h. split; [|split; [exact En|exact Ed]].
             cbn [set_groups d_groups]. apply in_or_app. now left.
      + right. rewrite names_eq at 1. split; [exact Eg|]. split; [reflexivity|]. cbn [v_names v_default]. split; [reflexivity|].
        assert (Hm : mk' = true <-> (mk = Some true \/ mk = None /\ v_names v = [])).
        { unfold mk'. rewrite names_eq. destruct mk as [[|]|]; split; intros H.
          - now left.
          - reflexivity.
          - discriminate H.
          - destruct H as [H|[H _]]; discriminate H.
          - right. split; auto. now apply nil_names.
          - destruct H as [H|[_ H]]; [discriminate H|]. now apply nil_names. }
        destruct mk'; [left; split; [now apply Hm|reflexivity]|right; split; [|reflexivity]]. intros H. apply Hm in H. discriminate H.
  Qed.

  Lemma edit_follows n nn c : exists v', shows (fst (step (OEditGroup n nn c) s)) v' /\
    follows (OEditGroup n nn c) (d_groups s) v (snd (step (OEditGroup n nn c) s)) v'.
  Proof using I C Hv.
    pose proof ids_nodup as N. pose proof names_nodup as M.
    pose proof (next_ids (OEditGroup n nn c)) as N'. cbn [step] in *. destruct (group_by_name n s) as [g|] eqn:Eg.
    2:{ assert (E : edit_weight_group n nn c s = Ok s) by (unfold edit_weight_group; now rewrite Eg).
        rewrite (transact_pass _ _ _ E C). exists v. split; [exact Hv|]. left. rewrite names_eq. apply by_name_none in Eg. auto. }
    pose proof (by_name_in _ _ _ Eg) as [Hg En]. assert (Hn : In n (v_names v)) by (rewrite names_eq, <- En; now apply in_map).
    set (x := match nn with Some x => x | None => g_name g end).
    set (g' := {| g_id := g_id g; g_name := x; g_complete := match c with Some c => c | None => g_complete g end |}).
    assert (E0 : edit_weight_group n nn c s = group_update g' s) by (unfold edit_weight_group; now rewrite Eg).
    unfold group_update in E0.
    destruct (existsb (fun y => negb (g_id y =? g_id g')%Z && text_eqb (g_name y) (g_name g')) (d_groups s)) eqn:Ex.
    - rewrite (transact_fails _ _ _ E0). exists v. split; [exact Hv|]. right; right; left.
      apply existsb_exists in Ex. destruct Ex as (y & Hy & Ey). apply andb_true_iff in Ey. destruct Ey as [Ey1 Ey2].
      apply negb_true_iff, Z.eqb_neq in Ey1. apply text_eqb_eq in Ey2. cbn [g' g_id g_name] in *.
      assert (Nx : x <> n). { intros Exn. apply Ey1. f_equal. apply (name_inj s); auto. congruence. }
      destruct nn as [x'|]; [|exfalso; apply Nx; exact En]. exists x'. subst x. repeat split; auto.
      rewrite names_eq, <- Ey2. now apply in_map.
    - assert (P : forall d, d_fk d = d_fk s -> d_index d = d_index s -> d_weights d = d_weights s -> d_maps d = d_maps s -> d_fk d = true -> fk_ok d = true).
      { intros d E1 E2 E3 E4 Hf. unfold fk_ok. rewrite E2, E3, E4. apply C. congruence. }
      rewrite (transact_pass _ _ _ E0) in * by (apply P; reflexivity). cbn [fst snd] in *.
      assert (Nm : forall y, In y (d_groups s) -> g_name (if (g_id y =? g_id g)%Z then g' else y) = rename n x (g_name y)).
      { intros y Hy. unfold rename. destruct (g_id y =? g_id g)%Z eqn:Ei.
        - apply Z.eqb_eq in Ei. assert (y = g) by (apply (id_inj s); auto). subst y. rewrite En, text_eqb_refl. reflexivity.
        - destruct (text_eqb (g_name y) n) eqn:Ey; [|reflexivity]. exfalso. apply text_eqb_eq in Ey. assert (y = g) by (apply (name_inj s); auto; congruence).
          subst y. rewrite Z.eqb_refl in Ei. discriminate. }
      assert (Hs : shows (set_groups (map (fun y => if (g_id y =? g_id g)%Z then g' else y) (d_groups s)) s)
         {| v_names := map (rename n x) (v_names v); v_default := option_map (rename n x) (v_default v) |}).
      { apply (shows_iff _ _ N'). cbn [v_names v_default set_groups d_groups d_default]. split.
        - rewrite names_eq, !map_map. apply map_ext_in. exact Nm.
        - pose proof shown as Hd. destruct (v_default v) as [m|]; [|exact Hd]. cbn [option_map].
          destruct Hd as (h & Hh & Eh & Ed). exists (if (g_id h =? g_id g)%Z then g' else h). split; [|split].
          + apply in_map_iff. now exists h.
          + rewrite (Nm h Hh). now rewrite Eh.
          + rewrite Ed. do 2 f_equal. destruct (g_id h =? g_id g)%Z eqn:Ei; [|reflexivity]. now apply Z.eqb_eq in Ei. }
      assert (Idr : x = n -> {| v_names := map (rename n x) (v_names v); v_default := option_map (rename n x) (v_default v) |} = v).
      { intros ->. assert (Ir : forall y, rename n n y = y).
        { intros y. unfold rename. destruct (text_eqb y n) eqn:Ey; auto. now apply text_eqb_eq in Ey. }
        apply view_eq; cbn [v_names v_default]; [rewrite <- map_id; apply map_ext; exact Ir|]. destruct (v_default v); cbn; [now rewrite Ir|reflexivity]. }
      eexists. split; [exact Hs|]. destruct nn as [x'|].
      + subst x. right; right; right. exists x'. split; [exact Hn|]. split; [reflexivity|]. split; [|auto].
        destruct (text_eqb x' n) eqn:Exn; [left; now apply text_eqb_eq in Exn|right]. intros Hx. rewrite names_eq in Hx. apply in_map_iff in Hx.
        destruct Hx as (y & Ey & Hy). assert (Ht : existsb (fun y => negb (g_id y =? g_id g')%Z && text_eqb (g_name y) (g_name g')) (d_groups s) = true).
        { apply existsb_exists. exists y. split; auto. cbn [g' g_id g_name]. apply andb_true_iff. split.
          - apply negb_true_iff, Z.eqb_neq. intros Ei. assert (y = g) by (apply (id_inj s); auto). subst y.
            assert (x' = n) by congruence. subst x'. rewrite H, text_eqb_refl in Exn. discriminate.
          - rewrite Ey. apply text_eqb_refl. }
        congruence.
      + right; left. split; [exact Hn|]. split; [reflexivity|]. split; [reflexivity|]. apply Idr. exact En.
  Qed.

  Lemma drop_follows n : exists v', shows (fst (step (ODropGroup n) s)) v' /\
    follows (ODropGroup n) (d_groups s) v (snd (step (ODropGroup n) s)) v'.
  Proof using I C Hv.
    pose proof ids_nodup as N. pose proof names_nodup as M.
    pose proof (next_ids (ODropGroup n)) as N'. cbn [step] in *. destruct (group_by_name n s) as [g|] eqn:Eg.
    2:{ assert (E : drop_weight_group n s = Ok s) by (unfold drop_weight_group; now rewrite Eg).
        rewrite (transact_pass _ _ _ E C). exists v. split; [exact Hv|]. left. rewrite names_eq. apply by_name_none in Eg. auto. }
    pose proof (by_name_in _ _ _ Eg) as [Hg En]. assert (Hn : In n (v_names v)) by (rewrite names_eq, <- En; now apply in_map).
    assert (Ed1 : d_default (group_delete (g_id g) s) = d_default s) by (unfold group_delete; cbn [d_fk set_groups]; destruct (d_fk s); reflexivity).
    assert (Eg1 : d_groups (group_delete (g_id g) s) = filter (fun y => negb (g_id y =? g_id g)%Z) (d_groups s))
      by (unfold group_delete; cbn [d_fk set_groups]; destruct (d_fk s); reflexivity).
    assert (Fk : forall x, d_fk (set_default x (group_delete (g_id g) s)) = true -> fk_ok (set_default x (group_delete (g_id g) s)) = true).
    { intros x Hf. unfold group_delete in *. cbn [d_fk set_groups] in *. destruct (d_fk s) eqn:Efk; [|cbn in Hf; congruence].
      specialize (C Efk). apply fk_ok_iff in C. destruct C as [C1 C2]. apply fk_ok_iff. split; [|exact C2].
      intros w Hw. cbn in Hw. apply filter_In in Hw. exact (C1 w (proj1 Hw)). }
    assert (E : drop_weight_group n s = match d_default s with None => Err KeyError | Some d =>
        Ok (match d with Some i => if (g_id g =? i)%Z then set_default None (group_delete (g_id g) s) else group_delete (g_id g) s | None => group_delete (g_id g) s end) end).
    { unfold drop_weight_group. rewrite Eg. cbv zeta. rewrite Ed1. reflexivity. }
    pose proof shown as Hd. destruct (v_default v) as [m|] eqn:Ev.
    2:{ rewrite Hd in E. rewrite (transact_fails _ _ _ E). exists v. split; [exact Hv|]. right; left. auto. }
    destruct Hd as (h & Hh & Eh & Ed). rewrite Ed in E.
    apply in_split in Hg. destruct Hg as (l1 & l2 & El).
    assert (Ef : filter (fun y => negb (g_id y =? g_id g)%Z) (d_groups s) = l1 ++ l2).
    { rewrite El in N |- *. rewrite map_app in N. cbn [map] in N. apply NoDup_remove_2 in N. rewrite filter_app. cbn [filter]. rewrite Z.eqb_refl. cbn [negb].
      assert (K : forall l, (forall y, In y l -> g_id y <> g_id g) -> filter (fun y => negb (g_id y =? g_id g)%Z) l = l).
      { intros l Hl. induction l as [|a l IH]; [reflexivity|]. cbn [filter]. rewrite (proj2 (Z.eqb_neq _ _) (Hl a (or_introl eq_refl))). cbn [negb]. f_equal. apply IH. intros y Hy. apply Hl. now right. }
      rewrite !K; [reflexivity| |]; intros y Hy Ey; apply N; apply in_or_app; [right|left]; rewrite <- Ey; now apply in_map. }
    assert (Ex : v_names v = map g_name l1 ++ n :: map g_name l2) by (rewrite names_eq, El, map_app; cbn [map]; now rewrite En).
    destruct (g_id g =? g_id h)%Z eqn:Ei.
    - assert (h = g) by (apply (id_inj s); auto; [rewrite El; apply in_or_app; right; now left|apply Z.eqb_eq in Ei; auto]). subst h.
      rewrite (transact_pass _ _ _ E) in * by apply Fk. cbn [fst snd] in *.
      exists {| v_names := map g_name l1 ++ map g_name l2; v_default := None |}. split.
      + apply (shows_iff _ _ N'). cbn [v_names v_default]. split; [|reflexivity]. change (d_groups (set_default None (group_delete (g_id g) s))) with (d_groups (group_delete (g_id g) s)).
        rewrite Eg1, Ef. apply map_app.
      + right; right. exists (map g_name l1), (map g_name l2). split; [exact Ex|]. split; [reflexivity|]. split; [reflexivity|]. left. cbn [v_default]. split; [congruence|reflexivity].
    - assert (Fk' : d_fk (group_delete (g_id g) s) = true -> fk_ok (group_delete (g_id g) s) = true) by exact (Fk (d_default (group_delete (g_id g) s))).
      rewrite (transact_pass _ _ _ E) in * by exact Fk'. cbn [fst snd] in *.
      assert (Hh' : In h (l1 ++ l2)) by (rewrite <- Ef; apply filter_In; split; [exact Hh|]; rewrite Z.eqb_sym, Ei; reflexivity).
      exists {| v_names := map g_name l1 ++ map g_name l2; v_default := Some m |}. split.
      + apply (shows_iff _ _ N'). cbn [v_names v_default]. rewrite Eg1, Ef, Ed1. split; [apply map_app|]. now exists h.
      + right; right. exists (map g_name l1), (map g_name l2). split; [exact Ex|]. split; [reflexivity|]. split; [reflexivity|]. right. exists m. split; [exact Ev|]. split; [|reflexivity].
        intros ->. apply Z.eqb_neq in Ei. apply Ei. f_equal. apply (name_inj s); auto; [rewrite El; apply in_or_app; right; now left|congruence].
  Qed.

  Lemma set_follows i : sound_call (OSetDefaultGroup i) s -> exists v', shows (fst (step (OSetDefaultGroup i) s)) v' /\
    follows (OSetDefaultGroup i) (d_groups s) v (snd (step (OSetDefaultGroup i) s)) v'.
  Proof using I C Hv.
    pose proof ids_nodup as N. pose proof names_nodup as M.
    pose proof (next_ids (OSetDefaultGroup i)) as N'. cbn [step] in *. destruct i as [i|]; cbn [sound_call]; [|tauto]. intros (g & Hg & <-).
    assert (E : set_default_weight_group (Some (g_id g)) s = Ok (set_default (Some (Some (g_id g))) s)) by reflexivity.
    rewrite (transact_pass _ _ _ E C) in *. cbn [fst snd] in *. exists {| v_names := v_names v; v_default := Some (g_name g) |}. split.
    - apply (shows_iff _ _ N'). cbn [v_names v_default]. split; [now rewrite names_eq|]. exists g. auto.
    - exists g. auto.
  Qed.

  Lemma insert_follows n p rows : exists v', shows (fst (step (OInsertWeights n p rows) s)) v' /\
    follows (OInsertWeights n p rows) (d_groups s) v (snd (step (OInsertWeights n p rows) s)) v'.
  Proof using I C Hv.
    pose proof ids_nodup as N. pose proof names_nodup as M.
    pose proof (next_ids (OInsertWeights n p rows)) as N'. cbn [step] in *.
    destruct (transact_cases (insert_weights n p rows) s) as [(s' & Hb & T & _)|(e & T)]; rewrite T in *; cbn [fst snd] in *.
    2:{ exists v. split; [exact Hv|]. split; [reflexivity|]. left. split; [reflexivity|]. left. discriminate. }
    destruct (ws_insert_weights _ _ _ _ _ Hb) as (s0 & E0 & W). apply wsteps_same in W. destruct (group_by_name n s) as [g|] eqn:Eg.
    - injection E0 as <-. exists v. split; [exact (same_shows s s' v N W Hv)|]. split; [reflexivity|]. left. split; [reflexivity|]. right.
      apply by_name_in in Eg. destruct Eg as [Hg <-]. rewrite names_eq. now apply in_map.
    - unfold group_add in E0. rewrite Eg in E0. injection E0 as <-. destruct W as [W1 W2]. apply by_name_none in Eg.
      exists {| v_names := v_names v ++ [n]; v_default := v_default v |}. split.
      + apply (shows_iff _ _ N'). cbn [v_names v_default]. split.
        * rewrite gnames_of, W1, <- gnames_of. cbn [set_groups d_groups]. rewrite map_app, names_eq. reflexivity.
        * pose proof shown as Hd. rewrite W2. destruct (v_default v) as [m|]; [|exact Hd]. destruct Hd as (h & Hh & Eh & Ed).
          assert (H : In (g_id h, g_name h) (names_of s')).
          { rewrite W1. unfold names_of. cbn [set_groups d_groups]. apply in_map_iff. exists h. split; auto. apply in_or_app. now left. }
          unfold names_of in H. apply in_map_iff in H. destruct H as (k & Ek & Hk). injection Ek as Ek1 Ek2. exists k. repeat split; auto; [congruence|].
          cbn [set_groups d_default]. rewrite Ed. now rewrite Ek1.
      + split; [reflexivity|]. right. split; [reflexivity|]. split; [|reflexivity]. now rewrite names_eq.
  Qed.

  Lemma step_follows o : sound_call o s -> exists v', shows (fst (step o s)) v' /\ follows o (d_groups s) v (snd (step o s)) v'.
  Proof using I C Hv.
    pose proof ids_nodup as N. pose proof names_nodup as M.
    intros S. destruct (group_op o) eqn:G.
    - destruct o; try discriminate G; [apply set_follows; exact S|apply add_follows|apply edit_follows|apply drop_follows|apply insert_follows].
    - exists v. split; [exact (same_shows s _ v N (other_same o s G) Hv)|]. destruct o; try discriminate G; reflexivity.
  Qed.
End Call.

Lemma run_checked ops : checked (run ops fresh).
Proof. intros Hf. destruct (run_state ops) as [_ F]. apply fk_ok_iff. split; [exact (f_weight_index _ (F Hf))|exact (f_map_index _ (F Hf))]. Qed.
Lemma sound_app ops o : forall s, sound (ops ++ [o]) s <-> sound ops s /\ sound_call o (run ops s).
Proof. induction ops as [|a ops IH]; intros s; cbn [app sound run]; [tauto|]. rewrite IH. tauto. Qed.
Lemma run_shows ops : sound ops fresh -> exists v, shows (run ops fresh) v.
Proof.
  induction ops as [|o ops IH] using rev_ind; intros S.
  - exists {| v_names := []; v_default := None |}. split; [reflexivity|]. now exists None.
  - apply sound_app in S. destruct S as [S1 S2]. destruct (IH S1) as (v & Hv). rewrite run_app. cbn [run].
    destruct (step_follows _ v (run_inv ops) (run_checked ops) Hv o S2) as (v' & H & _). now exists v'.
Qed.
