(** Calls that are not about weight groups keep the groups and the default. *)
From Verif Require Import Prelude QLemmas BitFlags_Model BitFlags_Proofs Selectors_Model
  Selectors_Proofs LinkRef_Model LinkRef_Spec LinkRef_Proofs Db_Model Db_Spec Db_Proofs Db_ProofsLocal.
From Coq Require Import ZifyBool ZifyNat Lqa.

(** The primitive changes that add, rename or remove no group and leave the default alone. *)
Inductive wprim : db -> db -> Prop :=
| wp_index_add s s' labels i : index_add labels s = Ok (s', i) -> wprim s s'
| wp_index_update s s' i labels : index_update i labels s = Ok s' -> wprim s s'
| wp_index_delete s s' i : index_delete i s = Ok s' -> wprim s s'
| wp_hash s : wprim s (refresh_hash s)
| wp_group_flags s f :
    wprim s (set_groups (map (fun g => {| g_id := g_id g; g_name := g_name g;
                                         g_complete := f g |}) (d_groups s)) s)
| wp_weight_add s s' g i v : weight_add g i v s = Ok s' -> wprim s s'
| wp_weight_update s s' g i v : weight_update g i v s = Ok s' -> wprim s s'
| wp_weight_delete s g i : wprim s (weight_delete g i s)
| wp_link_add s s' k : link_add k s = Ok s' -> wprim s s'
| wp_link_update s s' k : link_update k s = Ok s' -> wprim s s'
| wp_link_status s h f :
    wprim s (set_links (map (fun k => with_status (h k) (f k) k) (d_links s)) s)
| wp_link_delete s i : wprim s (link_delete i s)
| wp_map_add s s' l o i lv v p : map_add l o i lv v p s = Ok s' -> wprim s s'
| wp_map_delete s m : wprim s (map_delete m s)
| wp_map_update s s' m m' : map_update m m' s = Ok s' -> m_link m' = m_link m ->
    m_other m' = m_other m -> m_index m' = m_index m -> m_prop m' = m_prop m -> wprim s s'
| wp_refresh s s' l o : refresh_proportions l o s = Ok s' -> wprim s s'
| wp_structs s x : wprim s (set_structs x s)
| wp_add_columns s s' c : add_columns c s = Ok s' -> wprim s s'
| wp_rename s s' m : rename_columns m s = Ok s' -> wprim s s'
| wp_drop s s' c b : drop_columns c b s = Ok s' -> wprim s s'.

Inductive wsteps : db -> db -> Prop :=
| ws_refl s : wsteps s s
| ws_step s s1 s' : wsteps s s1 -> wprim s1 s' -> wsteps s s'.

Lemma ws_one s s' : wprim s s' -> wsteps s s'.
Proof. intros H. eapply ws_step; [apply ws_refl|exact H]. Qed.
Lemma ws_trans a b c : wsteps a b -> wsteps b c -> wsteps a c.
Proof.
  intros H1 H2. revert a H1. induction H2 as [s|s s1 s' H IH P]; intros a H1; auto.
  apply (ws_step a s1 s'); auto.
Qed.

Lemma ws_fold_res {A} (f : db -> A -> res db) l s0 s s' :
  (forall s a s', f s a = Ok s' -> wsteps s s') ->
  wsteps s0 s -> fold_res f l s = Ok s' -> wsteps s0 s'.
Proof.
  intros Hf H0. apply (fold_res_inv (fun s => wsteps s0 s)); auto.
  intros. eapply ws_trans; eauto.
Qed.
Lemma ws_fold_left {A} (f : db -> A -> db) l s0 s :
  (forall s a, wsteps s (f s a)) -> wsteps s0 s -> wsteps s0 (fold_left f l s).
Proof. intros Hf H0. apply fold_left_inv; auto. intros. eapply ws_trans; eauto. Qed.

Lemma ws_set_complete i c s : wsteps s (set_complete i c s).
Proof.
  apply ws_one. unfold set_complete.
  rewrite (map_ext _ (fun x => {| g_id := g_id x; g_name := g_name x;
     g_complete := if (g_id x =? i)%Z then c else g_complete x |})).
  - apply wp_group_flags with (f := fun x => if (g_id x =? i)%Z then c else g_complete x).
  - intros [gi gn gc]; cbn. now destruct (gi =? i)%Z.
Qed.
Lemma ws_set_status i h c s : wsteps s (set_status i h c s).
Proof.
  apply ws_one. unfold set_status.
  rewrite (map_ext _ (fun x => with_status (if (k_id x =? i)%Z then h else k_hash x)
                                           (if (k_id x =? i)%Z then c else k_complete x) x)).
  - apply wp_link_status with (h := fun x => if (k_id x =? i)%Z then h else k_hash x)
                             (f := fun x => if (k_id x =? i)%Z then c else k_complete x).
  - intros [ki ko kh kn ks kd kha kc]; cbn. unfold with_status; cbn. now destruct (ki =? i)%Z.
Qed.

Lemma ws_weight_merge i t s s' : weight_merge i t s = Ok s' -> wsteps s s'.
Proof.
  unfold weight_merge. intros H. eapply ws_fold_res; [| |exact H];
    [|apply ws_fold_left; [intros; apply ws_one, wp_weight_delete|apply ws_refl]].
  intros s1 gv s1' H1. eapply ws_one, wp_weight_add. exact H1.
Qed.
Lemma ws_map_merge i t s s' : map_merge i t s = Ok s' -> wsteps s s'.
Proof.
  unfold map_merge. intros H. eapply ws_fold_res; [| |exact H];
    [|apply ws_fold_left; [intros; apply ws_one, wp_map_delete|apply ws_refl]].
  intros s1 [[[l o] lv] [v p]] s1' H1. eapply ws_one, wp_map_add. eassumption.
Qed.
Lemma ws_add_or_resolve g i v p s s' c : add_or_resolve g i v p s = Ok (s', c) -> wsteps s s'.
Proof.
  unfold add_or_resolve. intros H.
  repeat step_res H; try (injection H as <- <-); subst;
    try apply ws_refl; try (apply ws_one; first [eapply wp_weight_add; eassumption|
      eapply wp_weight_update; eassumption]).
Qed.
Lemma ws_refresh_link l s s' : refresh_link l s = Ok s' -> wsteps s s'.
Proof.
  unfold refresh_link. intros H. repeat step_res H. subst s'.
  eapply ws_trans; [|apply ws_set_status]. eapply ws_fold_res; [|apply ws_refl|exact E].
  intros s2 o2 s2' H2. eapply ws_one, wp_refresh. exact H2.
Qed.
Lemma ws_delete_record i s s' : delete_index_record i s = Ok s' -> wsteps s s'.
Proof.
  unfold delete_index_record. intros H. step_res H; [discriminate|]. step_res H.
  eapply ws_trans; [|eapply ws_one, wp_index_delete; exact H].
  eapply ws_fold_res; [| |exact E0].
  - intros s1 o s1' H1. unfold refresh_all_links in H1.
    eapply ws_fold_res; [|apply ws_refl|exact H1]. intros s2 o2 s2' H2. eapply ws_one, wp_refresh. exact H2.
  - apply ws_fold_left; [intros; apply ws_one, wp_map_delete|].
    apply ws_fold_left; [intros; apply ws_one, wp_weight_delete|]. apply ws_refl.
Qed.

Lemma ws_after_delete s : wsteps s (after_delete s).
Proof.
  unfold after_delete. eapply ws_step; [eapply ws_step; [eapply ws_step; [apply ws_refl|]|]|].
  - apply wp_hash.
  - apply wp_group_flags with (f := fun g => g_complete g || group_is_complete (g_id g) (refresh_hash s)).
  - apply (wp_link_status _ (fun k => Some (distinct_others (k_id k) _)) (fun k => k_complete k || mapping_is_complete (k_id k) _)).
Qed.

Lemma ws_insert_index a b c d e s s' : insert_index a b c d e s = Ok s' -> wsteps s s'.
Proof.
  unfold insert_index. intros H. repeat step_res H. subst s'. cbv zeta.
  assert (Hst : wsteps s (is_db a1)).
  { revert E2. apply (fold_res_inv (fun st => wsteps s (is_db st))); [apply ws_refl|].
    intros st r st' _ H0 H1. unfold insert_index_row in H1. step_res H1; [injection H1 as <-; auto|].
    step_res H1. assert (H3 : wsteps s (is_db (fst a2))).
    { repeat step_res E3; subst; cbn [fst is_db]; auto; eapply ws_trans; try exact H0;
        apply ws_one; [eapply wp_index_update|eapply wp_index_add]; eassumption. }
    revert H1. apply (fold_res_inv (fun st => wsteps s (is_db st))); auto.
    intros st1 [og cc] st1' _ H4 H5. unfold insert_index_weight in H5.
    repeat step_res H5; subst; cbn [is_db]; auto; eapply ws_trans; try exact H4;
        apply ws_one; [eapply wp_weight_update|eapply wp_weight_add]; eassumption. }
  eapply ws_trans; [exact Hst|].
  assert (H1 : wsteps (is_db a1) (if is_label a1 then clear_link_flags (refresh_hash (is_db a1)) else is_db a1)).
  { destruct (is_label a1); [|apply ws_refl]. eapply ws_step; [apply ws_one, wp_hash|].
    apply (wp_link_status _ k_hash (fun _ => false)). }
  destruct (is_label a1 || is_weight a1); [|exact H1].
  eapply ws_step; [exact H1|]. apply wp_group_flags.
Qed.

Lemma ws_update_index m rows s s' : update_index m rows s = Ok s' -> wsteps s s'.
Proof.
  unfold update_index. intros H. step_res H.
  assert (Hst : wsteps s (us_db a)).
  { revert E. apply (fold_res_inv (fun st => wsteps s (us_db st))); [apply ws_refl|].
    intros st r st' _ H0 H1. unfold update_index_row in H1. repeat step_res H1; subst; auto.
    cbn [us_db]. eapply ws_step; [|eapply wp_index_update; eassumption].
    match goal with H : match index_by_labels _ _ with _ => _ end = _ |- _ => repeat step_res H end; subst; cbn [us_db]; auto.
    eapply ws_step; [|eapply wp_index_delete; eassumption].
    eapply ws_trans; [|eapply ws_map_merge; eassumption].
    eapply ws_trans; [|eapply ws_weight_merge; eassumption]. exact H0. }
  injection H as <-. destruct (us_merged a); auto.
  eapply ws_step; [eapply ws_step; [eapply ws_step; [exact Hst|]|]|].
  - apply wp_hash.
  - apply wp_group_flags with (f := fun g => g_complete g || group_is_complete (g_id g) (refresh_hash (us_db a))).
  - apply (wp_link_status _ k_hash (fun k => k_complete k || mapping_is_complete (k_id k) _)).
Qed.

Lemma ws_insert_weights n p rows s s' : insert_weights n p rows s = Ok s' ->
  exists s0, match group_by_name n s with Some _ => Ok s | None => group_add n false s end = Ok s0 /\ wsteps s0 s'.
Proof.
  unfold insert_weights. intros H. destruct p; try discriminate;
  (step_res H; repeat step_res H; subst s'; exists a; split; [exact E|];
   assert (Hx : wsteps a (fst a0));
   [ revert E1; apply (fold_res_inv (fun x => wsteps a (fst x))); [apply ws_refl|];
     intros x r x' _ H0 H1; unfold insert_weights_row in H1; repeat step_res H1; subst; auto;
     cbn [fst]; eapply ws_trans; try exact H0; eapply ws_add_or_resolve; eassumption
   | match goal with |- wsteps _ (if ?b then _ else _) => destruct b end;
     [eapply ws_trans; [exact Hx|apply ws_set_complete]|exact Hx] ]).
Qed.

Lemma ws_update_weights n rows s s' : update_weights n rows s = Ok s' -> wsteps s s'.
Proof.
  unfold update_weights. intros H. repeat step_res H.
  assert (Hx : wsteps s (fst a)).
  { revert E0. apply (fold_res_inv (fun x => wsteps s (fst x))); [apply ws_refl|].
    intros x r x' _ H0 H1. repeat step_res H1; subst; auto; cbn [fst]; eapply ws_trans; try exact H0;
      apply ws_one; [eapply wp_weight_update|eapply wp_weight_add]; eassumption. }
  subst s'. destruct (snd a && group_is_complete (g_id g) (fst a)); auto.
  eapply ws_trans; [exact Hx|apply ws_set_complete].
Qed.

Lemma ws_delete_weight_of s0 g i x : wsteps s0 (fst x) -> wsteps s0 (fst (delete_weight_of g i x)).
Proof.
  intros H. unfold delete_weight_of. destruct (weight_find g i (fst x)); auto. cbn [fst].
  eapply ws_step; [exact H|apply wp_weight_delete].
Qed.
Lemma ws_after_delete_weights s0 g x : wsteps s0 (fst x) -> wsteps s0 (after_delete_weights g x).
Proof.
  intros H. unfold after_delete_weights. destruct (snd x && g_complete g); auto.
  eapply ws_trans; [exact H|apply ws_set_complete].
Qed.
Lemma ws_delete_weights_rows n rows s s' : delete_weights_rows n rows s = Ok s' -> wsteps s s'.
Proof.
  unfold delete_weights_rows. intros H. repeat step_res H. subst s'. apply ws_after_delete_weights.
  apply fold_left_inv; [apply ws_refl|]. intros x r _ H.
  destruct (index_find (dr_id r) (fst x)); auto. destruct (labels_eqb _ _); auto.
  now apply ws_delete_weight_of.
Qed.
Lemma ws_delete_weights_criteria n c s s' : delete_weights_criteria n c s = Ok s' -> wsteps s s'.
Proof.
  unfold delete_weights_criteria. intros H. repeat step_res H. subst s'. apply ws_after_delete_weights.
  apply fold_left_inv; [apply ws_refl|]. intros x r _ H. now apply ws_delete_weight_of.
Qed.

Lemma ws_add_link k d s s' : add_link k d s = Ok s' -> wsteps s s'.
Proof.
  unfold add_link. intros H. step_res H; [discriminate|]. step_res H.
  eapply ws_step; [|eapply wp_link_add; exact H].
  step_res E0; [|injection E0 as <-; apply ws_refl].
  eapply ws_fold_res; [|apply ws_refl|exact E0].
  intros s1 x s1' H1. step_res H1; [eapply ws_one, wp_link_update; exact H1|injection H1 as <-; apply ws_refl].
Qed.
Lemma ws_edit_link r n c s s' : edit_link r n c s = Ok s' -> wsteps s s'.
Proof.
  unfold edit_link. intros H. step_res H. step_res H.
  eapply ws_step; [|eapply wp_link_update; exact H].
  destruct (c_default c) as [[|]|]; try (injection E0 as <-; apply ws_refl).
  eapply ws_fold_res; [|apply ws_refl|exact E0]. intros s2 o2 s2' H2. eapply ws_one, wp_link_update. exact H2.
Qed.

Lemma ws_insert_mappings2 r n rows s s' : insert_mappings2 r n rows s = Ok s' -> wsteps s s'.
Proof.
  unfold insert_mappings2. intros H. step_res H. step_res H.
  assert (Hx : wsteps s (fst a0)).
  { revert E0. apply (fold_res_inv (fun x => wsteps s (fst x))); [apply ws_refl|].
    intros x m x' _ H0 H1. unfold insert_mappings2_row in H1. repeat step_res H1; subst; auto.
    cbn [fst]. eapply ws_step; [exact H0|eapply wp_map_add; eassumption]. }
  step_res H; [|injection H as <-; auto].
  eapply ws_trans; [exact Hx|]. eapply ws_refresh_link. exact H.
Qed.
Lemma ws_insert_mappings r n rows s s' : insert_mappings r n rows s = Ok s' -> wsteps s s'.
Proof.
  unfold insert_mappings. intros H. step_res H. step_res H.
  assert (Hx : wsteps s (fst a0)).
  { revert E0. apply (fold_res_inv (fun x => wsteps s (fst x))); [apply ws_refl|].
    intros x m x' _ H0 H1. unfold insert_mappings_row in H1. repeat step_res H1; subst; auto.
    cbn [fst]. eapply ws_step; [exact H0|eapply wp_map_add; eassumption]. }
  step_res H; [|injection H as <-; auto].
  eapply ws_trans; [exact Hx|]. eapply ws_refresh_link. exact H.
Qed.
Lemma ws_update_mappings r n rows s s' : update_mappings r n rows s = Ok s' -> wsteps s s'.
Proof.
  unfold update_mappings. intros H. step_res H. step_res H.
  assert (Hx : wsteps s (um_db a0)).
  { revert E0. apply (fold_res_inv (fun x => wsteps s (um_db x))); [apply ws_refl|].
    intros x m x' _ H0 H1. unfold update_mappings_row in H1. repeat step_res H1; subst; auto;
      cbn [um_db]; (eapply ws_step; [exact H0|]);
      [eapply wp_map_update; try eassumption; reflexivity|eapply wp_map_add; eassumption]. }
  step_res H; [|step_res H].
  - eapply ws_trans; [exact Hx|]. eapply ws_refresh_link. exact H.
  - eapply ws_fold_res; [|exact Hx|exact H]. intros s2 o2 s2' H2. eapply ws_one, wp_refresh. exact H2.
  - injection H as <-; auto.
Qed.
Lemma ws_delete_mappings_rows r n rows s s' : delete_mappings_rows r n rows s = Ok s' -> wsteps s s'.
Proof.
  unfold delete_mappings_rows. intros H. step_res H. step_res H; [discriminate|]. cbv zeta in H.
  assert (Hx : wsteps s (fst (fold_left (delete_mappings_row (k_id a)) rows (s, false)))).
  { apply fold_left_inv; [apply ws_refl|]. intros x m _ H0. unfold delete_mappings_row.
    destruct (index_find _ _); auto. destruct (negb _); auto. destruct (map_find _ _ _ _); auto.
    destruct (negb _); auto. destruct (negb _); auto.
    eapply ws_step; [exact H0|apply wp_map_delete]. }
  step_res H; [|injection H as <-; auto].
  eapply ws_trans; [exact Hx|]. eapply ws_refresh_link. exact H.
Qed.
Lemma ws_delete_mappings_criteria r n c s s' :
  delete_mappings_criteria r n c s = Ok s' -> wsteps s s'.
Proof.
  unfold delete_mappings_criteria. intros H. step_res H. step_res H; [discriminate|]. cbv zeta in H.
  match type of H with (if snd ?x then _ else _) = _ => assert (Hx : wsteps s (fst x)) end.
  { apply fold_left_inv; [apply ws_refl|]. intros x m _ H0. apply fold_left_inv; auto.
    intros y z _ H1. destruct (level_within _ _); auto.
    eapply ws_step; [exact H1|apply wp_map_delete]. }
  step_res H; [|injection H as <-; auto].
  eapply ws_trans; [exact Hx|]. eapply ws_refresh_link. exact H.
Qed.
Lemma ws_reify_list lv ms : forall s, wsteps s (fst (reify_list lv ms s)).
Proof.
  induction ms as [|m ms IH]; intros s; cbn [reify_list]; [apply ws_refl|].
  destruct (map_update m (with_level m lv) s) eqn:E; [|apply ws_refl].
  eapply ws_trans; [|apply IH]. eapply ws_one, wp_map_update; try exact E; reflexivity.
Qed.
Lemma ws_reify r n c s : wsteps s (fst (reify_mappings r n c s)).
Proof.
  unfold reify_mappings. destruct (get_link _ _ _ _); [|apply ws_refl].
  destruct (nil_b c); apply ws_reify_list.
Qed.

Lemma ws_delete_rows rows s s' : delete_index_rows rows s = Ok s' -> wsteps s s'.
Proof.
  unfold delete_index_rows. intros H. step_res H; [discriminate|]. step_res H.
  assert (Hx : wsteps s (fst a)).
  { revert E0. apply (fold_res_inv (fun x => wsteps s (fst x))); [apply ws_refl|].
    intros x m x' _ H0 H1. repeat step_res H1; subst; auto. cbn [fst].
    eapply ws_trans; [exact H0|]. eapply ws_delete_record. eassumption. }
  injection H as <-. destruct (snd a); auto. eapply ws_trans; [exact Hx|apply ws_after_delete].
Qed.
Lemma ws_delete_criteria c s s' : delete_index_criteria c s = Ok s' -> wsteps s s'.
Proof.
  unfold delete_index_criteria. intros H. step_res H; [discriminate|]. step_res H.
  assert (Hx : wsteps s a).
  { eapply ws_fold_res; [|apply ws_refl|exact E0]. intros s2 o2 s2' H2. eapply ws_delete_record. exact H2. }
  injection H as <-. destruct (nil_b (filter_by_label c s)); auto. eapply ws_trans; [exact Hx|apply ws_after_delete].
Qed.

Lemma ws_transact body s : (forall s', body s = Ok s' -> wsteps s s') ->
  wsteps s (fst (transact body s)).
Proof.
  intros H. unfold transact. destruct (body s) as [s'|e]; [|apply ws_refl].
  destruct (d_fk s' && negb (fk_ok s')); [apply ws_refl|]. apply H. reflexivity.
Qed.

Definition names_of (s : db) : list (Z * text) := map (fun g => (g_id g, g_name g)) (d_groups s).
Definition same_groups (s s' : db) : Prop := names_of s' = names_of s /\ d_default s' = d_default s.
Lemma same_groups_refl s : same_groups s s. Proof. split; reflexivity. Qed.
Lemma same_groups_trans a b c : same_groups a b -> same_groups b c -> same_groups a c.
Proof. intros [H1 H2] [H3 H4]. split; congruence. Qed.
Lemma wprim_same s s' : wprim s s' -> same_groups s s'.
Proof.
  intros P. destruct P;
    try (solve [match goal with H : _ = Ok _ |- _ => eq_prim H; (split; reflexivity)
           | |- _ => split; reflexivity end]).
  - split; [|reflexivity]. unfold names_of. cbn [set_groups d_groups]. rewrite map_map. reflexivity.
  - unfold link_delete. cbn [d_fk set_links]. destruct (d_fk s); split; reflexivity.
Qed.
Lemma wsteps_same s s' : wsteps s s' -> same_groups s s'.
Proof. induction 1 as [s|s s1 s' H IH P]; [apply same_groups_refl|]. eapply same_groups_trans; [exact IH|now apply wprim_same]. Qed.
