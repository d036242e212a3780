(** Proofs for C68: the description of a space with a history of column calls. *)
From Coq Require Import Ascii Sorting.Sorted Sorting.Permutation.
From Verif Require Import Prelude Selectors_Model SelectorParse_Model LinkRef_Model PartSort_Model PartSort_Spec PartSort_Proofs FormatGran_Model FormatGran_Spec FormatGran_Proofs Info_Model Info_Spec Info_Proofs3.
From Verif Require Import Partitions_Model Partitions_Proofs Columns_Model Columns_Proofs Columns_Proofs2 Columns_Proofs3 Columns_Properties.
From Verif Require Partitions_Spec Columns_Spec.
Local Open Scope nat_scope.
Local Open Scope list_scope.

Lemma txt_inj a b : txt a = txt b -> a = b.
Proof.
  unfold txt. revert b. induction a as [|x a IH]; intros [|y b] H; cbn in H; try discriminate; [reflexivity|]. injection H as H1 H2.
  rewrite <- (ascii_N_embedding x), <- (ascii_N_embedding y), H1, (IH b H2). reflexivity.
Qed.
Lemma in_txt x l : In (txt x) (map txt l) <-> In x l.
Proof. split; intro H; [apply in_map_iff in H; destruct H as (y & E & I); apply txt_inj in E; subst; exact I | apply in_map; exact H]. Qed.
Lemma nodup_txt l : NoDup l -> NoDup (map txt l).
Proof. induction 1 as [|x l N H IH]; cbn [map]; constructor; [rewrite in_txt; exact N | exact IH]. Qed.
Lemma described_defs s c d : describes s c -> In d (all_definitions s) -> exists e, In e (get_all_defs (pview c)) /\ forall x, In x d <-> In x (map txt e).
Proof.
  intros (_ & _ & D & _). unfold all_definitions, get_all_defs, pview. cbn [p_defs]. rewrite D. destruct (c_defs c) as [l|]; cbn [option_map]; [|intros []].
  intro I. apply in_map_iff in I. destruct I as (y & <- & I). apply in_map_iff in I. destruct I as (e & <- & I). exists e. split; [exact I|]. intro x. apply set_of_in.
Qed.
Lemma marks_bits columns r l : Columns_Spec.marks columns r l -> marked (map txt columns) (map txt l) r.
Proof.
  intros [L H]. unfold marked. revert r L H. induction columns as [|x columns IH]; intros [|b r] L H; cbn [length] in L; try discriminate; cbn [map]; constructor.
  - rewrite in_txt. exact (H 0 x b eq_refl eq_refl).
  - apply IH; [lia|]. intros i y e E1 E2. exact (H (S i) y e E1 E2).
Qed.
Lemma history_shows ops s d : Forall keeps_columns ops -> describes s (crun c_new ops) -> to_show s d ->
  exists g, granularity_of s d g.
Proof.
  intros F De Sh. set (c := crun c_new ops) in *. pose proof (C52_structure ops F) as [B1 B2]. fold c in B1, B2. pose proof De as (Do & Dc & _ & Dp).
  destruct (list_eq_dec string_dec (c_columns c) []) as [E|E].
  - exists GNone. left. split; [|reflexivity]. destruct (B2 E) as [_ X]. rewrite X in Dp. apply Permutation_sym, Permutation_nil, map_eq_nil in Dp. exact Dp.
  - destruct (B1 E) as [Dk Sk]. assert (X : exists e, Partitions_Spec.union_of (get_all_defs (pview c)) e /\ forall x, In x (s_columns s) -> (In x d <-> In x (map txt e))).
    { destruct Sh as [I|[_ Sd]].
      - destruct (described_defs s c d De I) as (e & Ie & He). exists e. split; [|intros x _; apply He].
        exists [e]. split; [intros y [<-|[]]; exact Ie|]. intro x. split; [intro J; exists e; split; [left; reflexivity | exact J] | intros (z & [<-|[]] & J); exact J].
      - exists (c_columns c). split; [exact (Columns_Spec.defs_whole _ _ Dk)|]. intros x Ix. rewrite (Sd x). rewrite Dc in Ix. split; [intros _; exact Ix|]. intros _. apply labels_columns. rewrite Dc. exact Ix. }
    destruct X as (e & U & He). destruct (Columns_Spec.unions_rows _ _ _ Sk e U) as (r & Ir & M). apply (Permutation_in _ (Permutation_sym Dp)) in Ir. apply in_map_iff in Ir. destruct Ir as ([r' g] & E' & Ir). cbn [fst] in E'. subst r'.
    exists g. right. exists r. split; [exact Ir|]. apply marks_bits in M. rewrite <- Dc in M. apply marked_bits in M. apply marked_bits. rewrite M. apply map_ext_in. intros x Ix.
    specialize (He x Ix). destruct (tmem x (map txt e)) eqn:T1, (tmem x d) eqn:T2; try reflexivity; rewrite ?tmem_in, ?tmem_false in *; tauto.
Qed.
Lemma history_known ops s d x : Forall keeps_columns ops -> describes s (crun c_new ops) -> In d (all_definitions s) -> In x d -> In x (labels_in_display_order s).
Proof.
  intros F De I J. set (c := crun c_new ops) in *. pose proof (C52_structure ops F) as [B1 B2]. fold c in B1, B2. pose proof De as (_ & Dc & _ & _).
  destruct (described_defs s c d De I) as (e & Ie & He). apply He in J. apply in_map_iff in J. destruct J as (y & <- & J).
  apply labels_columns. rewrite Dc. apply in_txt. destruct (list_eq_dec string_dec (c_columns c) []) as [E|E].
  - destruct (B2 E) as [X _]. rewrite X in Ie. destruct Ie.
  - destruct (B1 E) as [Dk _]. exact (Columns_Spec.defs_known _ _ Dk e y Ie J).
Qed.
(** The display order of a space has no label twice. *)
Definition order_nodup (c : cspace) : Prop := NoDup (match c_display c with Some l => l | None => [] end).
Lemma history_describable ops s : Forall keeps_columns ops -> describes s (crun c_new ops) ->
  (exists places, 3 <= places <= 17 /\ ~ collide places (map snd (s_structs s))) ->
  (s_groups s = [] \/ default_known s) -> s_created s <> None -> describable s.
Proof.
  intros F De (q & L & C) G K. split; [|split; [|split; [|auto]]].
  - intros d x. apply (history_known ops); assumption.
  - intros d. apply (history_shows ops); assumption.
  - exists q. split; [exact L|]. intros values Hv (u & v & Iu & Iv & Ns & E).
    assert (X : forall w, In w (GNum false 0 :: values) -> In w (GNum false 0 :: map snd (s_structs s)) \/ w = GNone).
    { intros w [<-|Iw]; [left; left; reflexivity|]. destruct (Hv w Iw) as (d & _ & H). apply gran_in in H. destruct H as [H|H]; [auto | left; right; exact H]. }
    assert (P : forall n m, fmt q (GNum n m) <> fmt q GNone).
    { intros n m H. assert (J : In 46%N (fmt q (GNum n m))) by (cbn [fmt]; unfold fixed; apply in_app_iff; right; apply in_app_iff; right; left; reflexivity).
      rewrite H in J. vm_compute in J. intuition discriminate. }
    assert (P' : forall w, fmt q w = fmt q GNone -> same w GNone).
    { intros [|n m|n|n] H; [exact I | exfalso; exact (P n m H) | destruct n; vm_compute in H; discriminate | vm_compute in H; discriminate]. }
    destruct (X u Iu) as [U| ->]; destruct (X v Iv) as [V| ->].
    + apply C. exists u, v. auto.
    + apply Ns, P'. exact E.
    + apply Ns. pose proof (P' v (eq_sym E)) as H. destruct v; exact H.
    + apply Ns. exact I.
Qed.

Lemma display_nodup c : NoDup (c_columns c) -> order_nodup c -> NoDup (display_order c).
Proof.
  unfold order_nodup, display_order. set (d := match c_display c with Some l => l | None => [] end). clearbody d. intros N D.
  assert (F : NoDup (filter (fun x => negb (lmem x d)) (c_columns c))) by (apply NoDup_filter; exact N).
  assert (X : forall x, In x d -> In x (filter (fun x => negb (lmem x d)) (c_columns c)) -> False).
  { intros x I J. apply filter_In in J. destruct J as [_ J]. apply negb_true_iff in J. assert (lmem x d = true) by (apply lmem_iff; exact I). congruence. }
  revert F X. generalize (filter (fun x => negb (lmem x d)) (c_columns c)). intros f F X. clear N. induction D as [|a d Na D IH]; [exact F|]. cbn [app]. constructor.
  - intro I. apply in_app_iff in I. destruct I as [I|I]; [contradiction|]. exact (X a (or_introl eq_refl) I).
  - apply IH. intros x I. apply X. right. exact I.
Qed.
Lemma ccall_order s o s' : c_inv s -> order_nodup s -> ccall s o = Ok s' -> order_nodup s'.
Proof.
  intros I D H. assert (Same : c_display s' = c_display s -> order_nodup s') by (intro E; unfold order_nodup; rewrite E; exact D).
  destruct o as [c cs used|m|old new|c cs clash|d ds|d|d ds|attrs|a off|l off]; cbn [ccall] in H.
  - apply add_index_columns_cols in H as (_ & _ & _ & _ & E). auto.
  - apply rename_index_columns_cols in H as (_ & _ & s1 & L & ->). pose proof (lm_rename_spec _ _ _ L) as X. apply Same. cbn. tauto.
  - rewrite rename_label_is in H. apply rename_index_columns_cols in H as (_ & _ & s1 & L & ->). pose proof (lm_rename_spec _ _ _ L) as X. apply Same. cbn. tauto.
  - apply drop_index_columns_cols in H as (_ & _ & E & _). auto.
  - destruct (ds_add_partition_definitions _ _) as [p|]; cbn [bind] in H; [|discriminate]. apply rebuild_ok in H as (_ & _ & _ & H4). auto.
  - destruct (ds_add_partition_definition _ _) as [p|]; cbn [bind] in H; [|discriminate]. apply rebuild_ok in H as (_ & _ & _ & H4). auto.
  - destruct (lset_in _ _); [discriminate|]. apply rebuild_ok in H as (_ & _ & _ & H4). auto.
  - apply set_registered_spec in H as (-> & _). exact D.
  - destruct (change_element_order _ _ _) as [x|]; cbn [bind] in H; [|discriminate]. apply set_registered_spec in H as (-> & _). exact D.
  - destruct (change_element_order _ _ _) as [x|] eqn:E; cbn [bind] in H; [|discriminate]. apply set_display_spec in H as (-> & _).
    apply move_spec, moved_perm in E. unfold order_nodup. cbn [with_display c_display]. apply (Permutation_NoDup E). apply display_nodup; [|exact D].
    exact (Columns_Spec.no_column_twice _ _ (c_inv_names _ I)).
Qed.
Lemma crun_order ops : forall s, c_inv s -> order_nodup s -> order_nodup (crun s ops).
Proof.
  induction ops as [|o ops IH]; intros s I D; [exact D|]. cbn [crun fold_left]. unfold cstep at 2.
  destruct (ccall s o) as [s'|] eqn:E; [|apply IH; assumption]. apply IH; [exact (ccall_inv _ _ _ I E) | exact (ccall_order _ _ _ I D E)].
Qed.
Lemma history_tables ops s : Forall keeps_columns ops -> describes s (crun c_new ops) -> granularities_ok s -> tables_ok s.
Proof.
  intros F (Do & Dc & _ & Dp) G. split; [|split; [|split; [|exact G]]].
  - rewrite Dc. apply nodup_txt. exact (Columns_Spec.no_column_twice _ _ (crun_names ops)).
  - pose proof (crun_order ops c_new c_inv_new) as X. unfold order_nodup in X. rewrite Do. destruct (c_display (crun c_new ops)); cbn [option_map]; [apply nodup_txt, X; constructor | constructor].
  - apply (Permutation_NoDup (Permutation_sym Dp)). destruct (C52_structure ops F) as [B1 B2]. destruct (list_eq_dec string_dec (c_columns (crun c_new ops)) []) as [E|E].
    + destruct (B2 E) as [_ ->]. constructor.
    + destruct (B1 E) as [_ Sk]. exact (Columns_Spec.rows_distinct _ _ _ Sk).
Qed.
(** As long as no label was renamed or dropped, the labels are those of the columns. *)
Lemma history_labels ops s : Forall keeps_names ops -> describes s (crun c_new ops) -> Permutation (labels_in_display_order s) (s_columns s).
Proof.
  intros F (Do & Dc & _ & _). pose proof (C39_display_permutation ops F) as P. rewrite Dc. etransitivity; [|apply Permutation_map, P].
  unfold labels_in_display_order, display_order. rewrite Do, Dc. rewrite map_app.
  assert (X : forall d l, filter (fun x => negb (tmem x (map txt d))) (map txt l) = map txt (filter (fun x => negb (lmem x d)) l)).
  { intros d l. induction l as [|x l IH]; [reflexivity|]. cbn [map filter]. destruct (tmem (txt x) (map txt d)) eqn:T, (lmem x d) eqn:M; cbn [negb map]; rewrite ?IH; try reflexivity; exfalso.
    - apply tmem_in, in_txt in T. assert (lmem x d = true) by (apply lmem_iff; exact T). congruence.
    - apply tmem_false in T. apply T, in_txt, lmem_iff. exact M. }
  destruct (c_display (crun c_new ops)) as [d|]; cbn [option_map].
  - rewrite X. reflexivity.
  - rewrite <- X. reflexivity.
Qed.
