(** Primitive changes of the tables; what every one of them preserves. *)
From Verif Require Import Prelude QLemmas BitFlags_Model BitFlags_Proofs Selectors_Model
  Selectors_Proofs LinkRef_Model LinkRef_Spec LinkRef_Proofs Db_Model Db_Spec.
From Coq Require Import ZifyBool ZifyNat Lqa.

Lemma bind_ok {A B} (m : res A) (k : A -> res B) b :
  bind m k = Ok b -> exists a, m = Ok a /\ k a = Ok b.
Proof. destruct m; cbn; intros; [eauto|discriminate]. Qed.

Lemma fold_res_inv {A S} (P : S -> Prop) (f : S -> A -> res S) l : forall s s',
  P s -> (forall s a s', In a l -> P s -> f s a = Ok s' -> P s') ->
  fold_res f l s = Ok s' -> P s'.
Proof.
  induction l as [|a l IH]; intros s s' H0 Hs H; cbn [fold_res] in H.
  - injection H as <-. exact H0.
  - apply bind_ok in H. destruct H as (s1 & E & H).
    apply (IH s1 s'); auto.
    + apply (Hs s a); auto. now left.
    + intros s2 b s2' Hb. apply Hs. now right.
Qed.

Lemma fold_left_inv {A S} (P : S -> Prop) (f : S -> A -> S) l : forall s,
  P s -> (forall s a, In a l -> P s -> P (f s a)) -> P (fold_left f l s).
Proof.
  induction l as [|a l IH]; intros s H0 Hs; cbn [fold_left]; auto.
  apply IH; [apply Hs; auto; now left|]. intros s1 b Hb. apply Hs. now right.
Qed.

Lemma labels_eqb_iff a : forall b, labels_eqb a b = true <-> a = b.
Proof.
  induction a as [|x a IH]; intros [|y b]; cbn [labels_eqb]; try (split; [discriminate|congruence]).
  - tauto.
  - rewrite andb_true_iff, text_eqb_iff, IH. split; [intros [-> ->]; auto|intros E; injection E; auto].
Qed.

(** Destruct everything a successful call branches on. *)
Ltac step_res H :=
  cbv beta in H;
  match type of H with
  | bind _ _ = Ok _ => let a := fresh "a" in let E := fresh "E" in
      apply bind_ok in H; destruct H as (a & E & H)
  | Err _ = Ok _ => discriminate H
  | Ok _ = Ok _ => injection H as H
  | (if ?b then _ else _) = Ok _ => let E := fresh "E" in destruct b eqn:E
  | (match ?x with _ => _ end) = Ok _ => let E := fresh "E" in destruct x eqn:E
  end.

(** Whether the primitive changes include those of the label columns. *)
Class columns_allowed := allowed : bool.
Section Primitive.
Context {co : columns_allowed}.

Inductive prim : db -> db -> Prop :=
| p_index_add s s' labels i : index_add labels s = Ok (s', i) -> prim s s'
| p_index_update s s' i labels : index_update i labels s = Ok s' -> prim s s'
| p_index_delete s s' i : index_delete i s = Ok s' -> prim s s'
| p_hash s : prim s (refresh_hash s)
| p_group_add s s' n c : group_add n c s = Ok s' -> prim s s'
| p_group_update s s' g : group_update g s = Ok s' -> prim s s'
| p_group_flags s f :
    prim s (set_groups (map (fun g => {| g_id := g_id g; g_name := g_name g;
                                         g_complete := f g |}) (d_groups s)) s)
| p_group_delete s i : prim s (group_delete i s)
| p_weight_add s s' g i v : weight_add g i v s = Ok s' -> prim s s'
| p_weight_update s s' g i v : weight_update g i v s = Ok s' -> prim s s'
| p_weight_delete s g i : prim s (weight_delete g i s)
| p_link_add s s' k : link_add k s = Ok s' -> prim s s'
| p_link_update s s' k : link_update k s = Ok s' -> prim s s'
| p_link_status s h f :
    prim s (set_links (map (fun k => with_status (h k) (f k) k) (d_links s)) s)
| p_link_delete s i : prim s (link_delete i s)
| p_map_add s s' l o i lv v p : map_add l o i lv v p s = Ok s' -> prim s s'
| p_map_delete s m : prim s (map_delete m s)
| p_map_update s s' m m' : map_update m m' s = Ok s' -> m_link m' = m_link m ->
    m_other m' = m_other m -> m_index m' = m_index m -> m_prop m' = m_prop m -> prim s s'
| p_refresh s s' l o : refresh_proportions l o s = Ok s' -> prim s s'
| p_default s x : prim s (set_default x s)
| p_structs s x : prim s (set_structs x s)
| p_add_columns s s' c : add_columns c s = Ok s' -> allowed = true -> prim s s'
| p_rename s s' m : rename_columns m s = Ok s' -> allowed = true -> prim s s'
| p_drop s s' c b : drop_columns c b s = Ok s' -> allowed = true -> prim s s'.

Inductive steps : db -> db -> Prop :=
| st_refl s : steps s s
| st_step s s1 s' : steps s s1 -> prim s1 s' -> steps s s'.

Lemma st_one s s' : prim s s' -> steps s s'.
Proof. intros H. eapply st_step; [apply st_refl|exact H]. Qed.
Lemma st_trans a b c : steps a b -> steps b c -> steps a c.
Proof.
  intros H1 H2. revert a H1. induction H2 as [s|s s1 s' H IH P]; intros a H1; auto.
  apply (st_step a s1 s'); auto.
Qed.

Lemma st_fold_res {A} (f : db -> A -> res db) l s0 s s' :
  (forall s a s', f s a = Ok s' -> steps s s') ->
  steps s0 s -> fold_res f l s = Ok s' -> steps s0 s'.
Proof.
  intros Hf H0. apply (fold_res_inv (fun s => steps s0 s)); auto.
  intros. eapply st_trans; eauto.
Qed.
Lemma st_fold_left {A} (f : db -> A -> db) l s0 s :
  (forall s a, steps s (f s a)) -> steps s0 s -> steps s0 (fold_left f l s).
Proof. intros Hf H0. apply fold_left_inv; auto. intros. eapply st_trans; eauto. Qed.

Lemma st_set_complete i c s : steps s (set_complete i c s).
Proof.
  apply st_one. unfold set_complete.
  rewrite (map_ext _ (fun x => {| g_id := g_id x; g_name := g_name x;
     g_complete := if (g_id x =? i)%Z then c else g_complete x |})).
  - apply p_group_flags with (f := fun x => if (g_id x =? i)%Z then c else g_complete x).
  - intros [gi gn gc]; cbn. now destruct (gi =? i)%Z.
Qed.
Lemma st_set_status i h c s : steps s (set_status i h c s).
Proof.
  apply st_one. unfold set_status.
  rewrite (map_ext _ (fun x => with_status (if (k_id x =? i)%Z then h else k_hash x)
                                           (if (k_id x =? i)%Z then c else k_complete x) x)).
  - apply p_link_status with (h := fun x => if (k_id x =? i)%Z then h else k_hash x)
                             (f := fun x => if (k_id x =? i)%Z then c else k_complete x).
  - intros [ki ko kh kn ks kd kha kc]; cbn. unfold with_status; cbn. now destruct (ki =? i)%Z.
Qed.

Lemma st_weight_merge i t s s' : weight_merge i t s = Ok s' -> steps s s'.
Proof.
  unfold weight_merge. intros H. eapply st_fold_res; [| |exact H];
    [|apply st_fold_left; [intros; apply st_one, p_weight_delete|apply st_refl]].
  intros s1 gv s1' H1. eapply st_one, p_weight_add. exact H1.
Qed.
Lemma st_map_merge i t s s' : map_merge i t s = Ok s' -> steps s s'.
Proof.
  unfold map_merge. intros H. eapply st_fold_res; [| |exact H];
    [|apply st_fold_left; [intros; apply st_one, p_map_delete|apply st_refl]].
  intros s1 [[[l o] lv] [v p]] s1' H1. eapply st_one, p_map_add. eassumption.
Qed.
Lemma st_add_or_resolve g i v p s s' c : add_or_resolve g i v p s = Ok (s', c) -> steps s s'.
Proof.
  unfold add_or_resolve. intros H.
  repeat step_res H; try (injection H as <- <-); subst;
    try apply st_refl; try (apply st_one; first [eapply p_weight_add; eassumption|
      eapply p_weight_update; eassumption]).
Qed.
Lemma st_refresh_link l s s' : refresh_link l s = Ok s' -> steps s s'.
Proof.
  unfold refresh_link. intros H. repeat step_res H. subst s'.
  eapply st_trans; [|apply st_set_status]. eapply st_fold_res; [|apply st_refl|exact E].
  intros s2 o2 s2' H2. eapply st_one, p_refresh. exact H2.
Qed.
Lemma st_delete_record i s s' : delete_index_record i s = Ok s' -> steps s s'.
Proof.
  unfold delete_index_record. intros H. step_res H; [discriminate|]. step_res H.
  eapply st_trans; [|eapply st_one, p_index_delete; exact H].
  eapply st_fold_res; [| |exact E0].
  - intros s1 o s1' H1. unfold refresh_all_links in H1.
    eapply st_fold_res; [|apply st_refl|exact H1]. intros s2 o2 s2' H2. eapply st_one, p_refresh. exact H2.
  - apply st_fold_left; [intros; apply st_one, p_map_delete|].
    apply st_fold_left; [intros; apply st_one, p_weight_delete|]. apply st_refl.
Qed.

Lemma st_after_delete s : steps s (after_delete s).
Proof.
  unfold after_delete. eapply st_step; [eapply st_step; [eapply st_step; [apply st_refl|]|]|].
  - apply p_hash.
  - apply p_group_flags with (f := fun g => g_complete g || group_is_complete (g_id g) (refresh_hash s)).
  - apply (p_link_status _ (fun k => Some (distinct_others (k_id k) _)) (fun k => k_complete k || mapping_is_complete (k_id k) _)).
Qed.

Lemma st_insert_index a b c d e s s' : insert_index a b c d e s = Ok s' -> steps s s'.
Proof.
  unfold insert_index. intros H. repeat step_res H. subst s'. cbv zeta.
  assert (Hst : steps s (is_db a1)).
  { revert E2. apply (fold_res_inv (fun st => steps s (is_db st))); [apply st_refl|].
    intros st r st' _ H0 H1. unfold insert_index_row in H1. step_res H1; [injection H1 as <-; auto|].
    step_res H1. assert (H3 : steps s (is_db (fst a2))).
    { repeat step_res E3; subst; cbn [fst is_db]; auto; eapply st_trans; try exact H0;
        apply st_one; [eapply p_index_update|eapply p_index_add]; eassumption. }
    revert H1. apply (fold_res_inv (fun st => steps s (is_db st))); auto.
    intros st1 [og cc] st1' _ H4 H5. unfold insert_index_weight in H5.
    repeat step_res H5; subst; cbn [is_db]; auto; eapply st_trans; try exact H4;
        apply st_one; [eapply p_weight_update|eapply p_weight_add]; eassumption. }
  eapply st_trans; [exact Hst|].
  assert (H1 : steps (is_db a1) (if is_label a1 then clear_link_flags (refresh_hash (is_db a1)) else is_db a1)).
  { destruct (is_label a1); [|apply st_refl]. eapply st_step; [apply st_one, p_hash|].
    apply (p_link_status _ k_hash (fun _ => false)). }
  destruct (is_label a1 || is_weight a1); [|exact H1].
  eapply st_step; [exact H1|]. apply p_group_flags.
Qed.

Lemma st_update_index m rows s s' : update_index m rows s = Ok s' -> steps s s'.
Proof.
  unfold update_index. intros H. step_res H.
  assert (Hst : steps s (us_db a)).
  { revert E. apply (fold_res_inv (fun st => steps s (us_db st))); [apply st_refl|].
    intros st r st' _ H0 H1. unfold update_index_row in H1. repeat step_res H1; subst; auto.
    cbn [us_db]. eapply st_step; [|eapply p_index_update; eassumption].
    match goal with H : match index_by_labels _ _ with _ => _ end = _ |- _ => repeat step_res H end; subst; cbn [us_db]; auto.
    eapply st_step; [|eapply p_index_delete; eassumption].
    eapply st_trans; [|eapply st_map_merge; eassumption].
    eapply st_trans; [|eapply st_weight_merge; eassumption]. exact H0. }
  injection H as <-. destruct (us_merged a); auto.
  eapply st_step; [eapply st_step; [eapply st_step; [exact Hst|]|]|].
  - apply p_hash.
  - apply p_group_flags with (f := fun g => g_complete g || group_is_complete (g_id g) (refresh_hash (us_db a))).
  - apply (p_link_status _ k_hash (fun k => k_complete k || mapping_is_complete (k_id k) _)).
Qed.

Lemma st_insert_weights n p rows s s' : insert_weights n p rows s = Ok s' -> steps s s'.
Proof.
  unfold insert_weights. intros H. destruct p; try discriminate;
  (step_res H; repeat step_res H; subst s';
   assert (Ha : steps s a) by (repeat step_res E; subst; [apply st_refl|eapply st_one, p_group_add; eassumption]);
   assert (Hx : steps s (fst a0));
   [ revert E1; apply (fold_res_inv (fun x => steps s (fst x))); [exact Ha|];
     intros x r x' _ H0 H1; unfold insert_weights_row in H1; repeat step_res H1; subst; auto;
     cbn [fst]; eapply st_trans; try exact H0; eapply st_add_or_resolve; eassumption
   | match goal with |- steps _ (if ?b then _ else _) => destruct b end;
     [eapply st_trans; [exact Hx|apply st_set_complete]|exact Hx] ]).
Qed.

Lemma st_update_weights n rows s s' : update_weights n rows s = Ok s' -> steps s s'.
Proof.
  unfold update_weights. intros H. repeat step_res H.
  assert (Hx : steps s (fst a)).
  { revert E0. apply (fold_res_inv (fun x => steps s (fst x))); [apply st_refl|].
    intros x r x' _ H0 H1. repeat step_res H1; subst; auto; cbn [fst]; eapply st_trans; try exact H0;
      apply st_one; [eapply p_weight_update|eapply p_weight_add]; eassumption. }
  subst s'. destruct (snd a && group_is_complete (g_id g) (fst a)); auto.
  eapply st_trans; [exact Hx|apply st_set_complete].
Qed.

Lemma st_delete_weight_of s0 g i x : steps s0 (fst x) -> steps s0 (fst (delete_weight_of g i x)).
Proof.
  intros H. unfold delete_weight_of. destruct (weight_find g i (fst x)); auto. cbn [fst].
  eapply st_step; [exact H|apply p_weight_delete].
Qed.
Lemma st_after_delete_weights s0 g x : steps s0 (fst x) -> steps s0 (after_delete_weights g x).
Proof.
  intros H. unfold after_delete_weights. destruct (snd x && g_complete g); auto.
  eapply st_trans; [exact H|apply st_set_complete].
Qed.
Lemma st_delete_weights_rows n rows s s' : delete_weights_rows n rows s = Ok s' -> steps s s'.
Proof.
  unfold delete_weights_rows. intros H. repeat step_res H. subst s'. apply st_after_delete_weights.
  apply fold_left_inv; [apply st_refl|]. intros x r _ H.
  destruct (index_find (dr_id r) (fst x)); auto. destruct (labels_eqb _ _); auto.
  now apply st_delete_weight_of.
Qed.
Lemma st_delete_weights_criteria n c s s' : delete_weights_criteria n c s = Ok s' -> steps s s'.
Proof.
  unfold delete_weights_criteria. intros H. repeat step_res H. subst s'. apply st_after_delete_weights.
  apply fold_left_inv; [apply st_refl|]. intros x r _ H. now apply st_delete_weight_of.
Qed.

Lemma st_add_link k d s s' : add_link k d s = Ok s' -> steps s s'.
Proof.
  unfold add_link. intros H. step_res H; [discriminate|]. step_res H.
  eapply st_step; [|eapply p_link_add; exact H].
  step_res E0; [|injection E0 as <-; apply st_refl].
  eapply st_fold_res; [|apply st_refl|exact E0].
  intros s1 x s1' H1. step_res H1; [eapply st_one, p_link_update; exact H1|injection H1 as <-; apply st_refl].
Qed.
Lemma st_edit_link r n c s s' : edit_link r n c s = Ok s' -> steps s s'.
Proof.
  unfold edit_link. intros H. step_res H. step_res H.
  eapply st_step; [|eapply p_link_update; exact H].
  destruct (c_default c) as [[|]|]; try (injection E0 as <-; apply st_refl).
  eapply st_fold_res; [|apply st_refl|exact E0]. intros s2 o2 s2' H2. eapply st_one, p_link_update. exact H2.
Qed.

Lemma st_insert_mappings2 r n rows s s' : insert_mappings2 r n rows s = Ok s' -> steps s s'.
Proof.
  unfold insert_mappings2. intros H. step_res H. step_res H.
  assert (Hx : steps s (fst a0)).
  { revert E0. apply (fold_res_inv (fun x => steps s (fst x))); [apply st_refl|].
    intros x m x' _ H0 H1. unfold insert_mappings2_row in H1. repeat step_res H1; subst; auto.
    cbn [fst]. eapply st_step; [exact H0|eapply p_map_add; eassumption]. }
  step_res H; [|injection H as <-; auto].
  eapply st_trans; [exact Hx|]. eapply st_refresh_link. exact H.
Qed.
Lemma st_insert_mappings r n rows s s' : insert_mappings r n rows s = Ok s' -> steps s s'.
Proof.
  unfold insert_mappings. intros H. step_res H. step_res H.
  assert (Hx : steps s (fst a0)).
  { revert E0. apply (fold_res_inv (fun x => steps s (fst x))); [apply st_refl|].
    intros x m x' _ H0 H1. unfold insert_mappings_row in H1. repeat step_res H1; subst; auto.
    cbn [fst]. eapply st_step; [exact H0|eapply p_map_add; eassumption]. }
  step_res H; [|injection H as <-; auto].
  eapply st_trans; [exact Hx|]. eapply st_refresh_link. exact H.
Qed.
Lemma st_update_mappings r n rows s s' : update_mappings r n rows s = Ok s' -> steps s s'.
Proof.
  unfold update_mappings. intros H. step_res H. step_res H.
  assert (Hx : steps s (um_db a0)).
  { revert E0. apply (fold_res_inv (fun x => steps s (um_db x))); [apply st_refl|].
    intros x m x' _ H0 H1. unfold update_mappings_row in H1. repeat step_res H1; subst; auto;
      cbn [um_db]; (eapply st_step; [exact H0|]);
      [eapply p_map_update; try eassumption; reflexivity|eapply p_map_add; eassumption]. }
  step_res H; [|step_res H].
  - eapply st_trans; [exact Hx|]. eapply st_refresh_link. exact H.
  - eapply st_fold_res; [|exact Hx|exact H]. intros s2 o2 s2' H2. eapply st_one, p_refresh. exact H2.
  - injection H as <-; auto.
Qed.
Lemma st_delete_mappings_rows r n rows s s' : delete_mappings_rows r n rows s = Ok s' -> steps s s'.
Proof.
  unfold delete_mappings_rows. intros H. step_res H. step_res H; [discriminate|]. cbv zeta in H.
  assert (Hx : steps s (fst (fold_left (delete_mappings_row (k_id a)) rows (s, false)))).
  { apply fold_left_inv; [apply st_refl|]. intros x m _ H0. unfold delete_mappings_row.
    destruct (index_find _ _); auto. destruct (negb _); auto. destruct (map_find _ _ _ _); auto.
    destruct (negb _); auto. destruct (negb _); auto.
    eapply st_step; [exact H0|apply p_map_delete]. }
  step_res H; [|injection H as <-; auto].
  eapply st_trans; [exact Hx|]. eapply st_refresh_link. exact H.
Qed.
Lemma st_delete_mappings_criteria r n c s s' :
  delete_mappings_criteria r n c s = Ok s' -> steps s s'.
Proof.
  unfold delete_mappings_criteria. intros H. step_res H. step_res H; [discriminate|]. cbv zeta in H.
  match type of H with (if snd ?x then _ else _) = _ => assert (Hx : steps s (fst x)) end.
  { apply fold_left_inv; [apply st_refl|]. intros x m _ H0. apply fold_left_inv; auto.
    intros y z _ H1. destruct (level_within _ _); auto.
    eapply st_step; [exact H1|apply p_map_delete]. }
  step_res H; [|injection H as <-; auto].
  eapply st_trans; [exact Hx|]. eapply st_refresh_link. exact H.
Qed.
Lemma st_reify_list lv ms : forall s, steps s (fst (reify_list lv ms s)).
Proof.
  induction ms as [|m ms IH]; intros s; cbn [reify_list]; [apply st_refl|].
  destruct (map_update m (with_level m lv) s) eqn:E; [|apply st_refl].
  eapply st_trans; [|apply IH]. eapply st_one, p_map_update; try exact E; reflexivity.
Qed.
Lemma st_reify r n c s : steps s (fst (reify_mappings r n c s)).
Proof.
  unfold reify_mappings. destruct (get_link _ _ _ _); [|apply st_refl].
  destruct (nil_b c); apply st_reify_list.
Qed.

Lemma st_delete_rows rows s s' : delete_index_rows rows s = Ok s' -> steps s s'.
Proof.
  unfold delete_index_rows. intros H. step_res H; [discriminate|]. step_res H.
  assert (Hx : steps s (fst a)).
  { revert E0. apply (fold_res_inv (fun x => steps s (fst x))); [apply st_refl|].
    intros x m x' _ H0 H1. repeat step_res H1; subst; auto. cbn [fst].
    eapply st_trans; [exact H0|]. eapply st_delete_record. eassumption. }
  injection H as <-. destruct (snd a); auto. eapply st_trans; [exact Hx|apply st_after_delete].
Qed.
Lemma st_delete_criteria c s s' : delete_index_criteria c s = Ok s' -> steps s s'.
Proof.
  unfold delete_index_criteria. intros H. step_res H; [discriminate|]. step_res H.
  assert (Hx : steps s a).
  { eapply st_fold_res; [|apply st_refl|exact E0]. intros s2 o2 s2' H2. eapply st_delete_record. exact H2. }
  injection H as <-. destruct (nil_b (filter_by_label c s)); auto. eapply st_trans; [exact Hx|apply st_after_delete].
Qed.

Lemma st_transact body s : (forall s', body s = Ok s' -> steps s s') ->
  steps s (fst (transact body s)).
Proof.
  intros H. unfold transact. destruct (body s) as [s'|e]; [|apply st_refl].
  destruct (d_fk s' && negb (fk_ok s')); [apply st_refl|]. apply H. reflexivity.
Qed.

Definition is_columns (o : op) : Prop :=
  match o with OAddColumns _ | ORenameColumns _ | ODropColumns _ _ => True | _ => False end.
(** Every operation but reopening is a sequence of primitive changes. *)
Lemma step_steps_gen o s : ~ is_reopen o -> (is_columns o -> allowed = true) -> steps s (fst (step o s)).
Proof.
  destruct o; cbn [step is_reopen is_columns]; intros Hr Hc; try (apply st_transact; intros s' H).
  - eapply st_insert_index, H.
  - eapply st_update_index, H.
  - eapply st_delete_rows, H.
  - eapply st_delete_criteria, H.
  - injection H as <-. apply st_one, p_default.
  - unfold add_weight_group in H. repeat step_res H; subst; try (eapply st_one, p_group_add; eassumption).
    injection H as <-. eapply st_step; [eapply st_one, p_group_add; eassumption|apply p_default].
  - unfold edit_weight_group in H. repeat step_res H; subst; [eapply st_one, p_group_update; eassumption|apply st_refl].
  - unfold drop_weight_group in H. repeat step_res H; subst; try apply st_refl.
    assert (H1 := st_one _ _ (p_group_delete s (g_id g))).
    destruct o as [i|]; auto. destruct (g_id g =? i)%Z; auto. eapply st_step; [exact H1|apply p_default].
  - eapply st_insert_weights, H.
  - eapply st_update_weights, H.
  - eapply st_delete_weights_rows, H.
  - eapply st_delete_weights_criteria, H.
  - eapply st_add_link, H.
  - eapply st_edit_link, H.
  - unfold drop_link in H. step_res H. injection H as <-. apply st_one, p_link_delete.
  - eapply st_insert_mappings2, H.
  - eapply st_insert_mappings, H.
  - eapply st_update_mappings, H.
  - eapply st_delete_mappings_rows, H.
  - eapply st_delete_mappings_criteria, H.
  - apply st_reify.
  - eapply st_one, p_add_columns; [exact H|auto].
  - eapply st_one, p_rename; [exact H|auto].
  - eapply st_one, p_drop; [exact H|auto].
  - injection H as <-. apply st_one, p_structs.
  - tauto.
Qed.
End Primitive.

#[global] Instance every_column : columns_allowed := true.
Definition no_column : columns_allowed := false.

Lemma step_steps o s : ~ is_reopen o -> steps s (fst (step o s)).
Proof. intros H. apply step_steps_gen; auto. Qed.
