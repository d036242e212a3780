(** Calls on weights, links and mappings leave the index alone. *)
From Verif Require Import Prelude QLemmas BitFlags_Model BitFlags_Proofs Selectors_Model
  Selectors_Proofs LinkRef_Model LinkRef_Spec LinkRef_Proofs Db_Model Db_Spec Db_Proofs Db_ProofsLocal.
From Coq Require Import ZifyBool ZifyNat Lqa.

(** The primitive changes that do not concern the index table. *)
Inductive qprim : db -> db -> Prop :=
| q_hash s : qprim s (refresh_hash s)
| q_group_add s s' n c : group_add n c s = Ok s' -> qprim s s'
| q_group_update s s' g : group_update g s = Ok s' -> qprim s s'
| q_group_flags s f :
    qprim s (set_groups (map (fun g => {| g_id := g_id g; g_name := g_name g;
                                         g_complete := f g |}) (d_groups s)) s)
| q_group_delete s i : qprim s (group_delete i s)
| q_weight_add s s' g i v : weight_add g i v s = Ok s' -> qprim s s'
| q_weight_update s s' g i v : weight_update g i v s = Ok s' -> qprim s s'
| q_weight_delete s g i : qprim s (weight_delete g i s)
| q_link_add s s' k : link_add k s = Ok s' -> qprim s s'
| q_link_update s s' k : link_update k s = Ok s' -> qprim s s'
| q_link_status s h f :
    qprim s (set_links (map (fun k => with_status (h k) (f k) k) (d_links s)) s)
| q_link_delete s i : qprim s (link_delete i s)
| q_map_add s s' l o i lv v p : map_add l o i lv v p s = Ok s' -> qprim s s'
| q_map_delete s m : qprim s (map_delete m s)
| q_map_update s s' m m' : map_update m m' s = Ok s' -> m_link m' = m_link m ->
    m_other m' = m_other m -> m_index m' = m_index m -> m_prop m' = m_prop m -> qprim s s'
| q_refresh s s' l o : refresh_proportions l o s = Ok s' -> qprim s s'
| q_default s x : qprim s (set_default x s).

Inductive qsteps : db -> db -> Prop :=
| qs_refl s : qsteps s s
| qs_step s s1 s' : qsteps s s1 -> qprim s1 s' -> qsteps s s'.

Lemma qs_one s s' : qprim s s' -> qsteps s s'.
Proof. intros H. eapply qs_step; [apply qs_refl|exact H]. Qed.
Lemma qs_trans a b c : qsteps a b -> qsteps b c -> qsteps a c.
Proof.
  intros H1 H2. revert a H1. induction H2 as [s|s s1 s' H IH P]; intros a H1; auto.
  apply (qs_step a s1 s'); auto.
Qed.

Lemma qs_fold_res {A} (f : db -> A -> res db) l s0 s s' :
  (forall s a s', f s a = Ok s' -> qsteps s s') ->
  qsteps s0 s -> fold_res f l s = Ok s' -> qsteps s0 s'.
Proof.
  intros Hf H0. apply (fold_res_inv (fun s => qsteps s0 s)); auto.
  intros. eapply qs_trans; eauto.
Qed.
Lemma qs_fold_left {A} (f : db -> A -> db) l s0 s :
  (forall s a, qsteps s (f s a)) -> qsteps s0 s -> qsteps s0 (fold_left f l s).
Proof. intros Hf H0. apply fold_left_inv; auto. intros. eapply qs_trans; eauto. Qed.

Lemma qs_set_complete i c s : qsteps s (set_complete i c s).
Proof.
  apply qs_one. unfold set_complete.
  rewrite (map_ext _ (fun x => {| g_id := g_id x; g_name := g_name x;
     g_complete := if (g_id x =? i)%Z then c else g_complete x |})).
  - apply q_group_flags with (f := fun x => if (g_id x =? i)%Z then c else g_complete x).
  - intros [gi gn gc]; cbn. now destruct (gi =? i)%Z.
Qed.
Lemma qs_set_status i h c s : qsteps s (set_status i h c s).
Proof.
  apply qs_one. unfold set_status.
  rewrite (map_ext _ (fun x => with_status (if (k_id x =? i)%Z then h else k_hash x)
                                           (if (k_id x =? i)%Z then c else k_complete x) x)).
  - apply q_link_status with (h := fun x => if (k_id x =? i)%Z then h else k_hash x)
                             (f := fun x => if (k_id x =? i)%Z then c else k_complete x).
  - intros [ki ko kh kn ks kd kha kc]; cbn. unfold with_status; cbn. now destruct (ki =? i)%Z.
Qed.

Lemma qs_add_or_resolve g i v p s s' c : add_or_resolve g i v p s = Ok (s', c) -> qsteps s s'.
Proof.
  unfold add_or_resolve. intros H.
  repeat step_res H; try (injection H as <- <-); subst;
    try apply qs_refl; try (apply qs_one; first [eapply q_weight_add; eassumption|
      eapply q_weight_update; eassumption]).
Qed.
Lemma qs_refresh_link l s s' : refresh_link l s = Ok s' -> qsteps s s'.
Proof.
  unfold refresh_link. intros H. repeat step_res H. subst s'.
  eapply qs_trans; [|apply qs_set_status]. eapply qs_fold_res; [|apply qs_refl|exact E].
  intros s2 o2 s2' H2. eapply qs_one, q_refresh. exact H2.
Qed.




Lemma qs_insert_weights n p rows s s' : insert_weights n p rows s = Ok s' -> qsteps s s'.
Proof.
  unfold insert_weights. intros H. destruct p; try discriminate;
  (step_res H; repeat step_res H; subst s';
   assert (Ha : qsteps s a) by (repeat step_res E; subst; [apply qs_refl|eapply qs_one, q_group_add; eassumption]);
   assert (Hx : qsteps s (fst a0));
   [ revert E1; apply (fold_res_inv (fun x => qsteps s (fst x))); [exact Ha|];
     intros x r x' _ H0 H1; unfold insert_weights_row in H1; repeat step_res H1; subst; auto;
     cbn [fst]; eapply qs_trans; try exact H0; eapply qs_add_or_resolve; eassumption
   | match goal with |- qsteps _ (if ?b then _ else _) => destruct b end;
     [eapply qs_trans; [exact Hx|apply qs_set_complete]|exact Hx] ]).
Qed.

Lemma qs_update_weights n rows s s' : update_weights n rows s = Ok s' -> qsteps s s'.
Proof.
  unfold update_weights. intros H. repeat step_res H.
  assert (Hx : qsteps s (fst a)).
  { revert E0. apply (fold_res_inv (fun x => qsteps s (fst x))); [apply qs_refl|].
    intros x r x' _ H0 H1. repeat step_res H1; subst; auto; cbn [fst]; eapply qs_trans; try exact H0;
      apply qs_one; [eapply q_weight_update|eapply q_weight_add]; eassumption. }
  subst s'. destruct (snd a && group_is_complete (g_id g) (fst a)); auto.
  eapply qs_trans; [exact Hx|apply qs_set_complete].
Qed.

Lemma qs_delete_weight_of s0 g i x : qsteps s0 (fst x) -> qsteps s0 (fst (delete_weight_of g i x)).
Proof.
  intros H. unfold delete_weight_of. destruct (weight_find g i (fst x)); auto. cbn [fst].
  eapply qs_step; [exact H|apply q_weight_delete].
Qed.
Lemma qs_after_delete_weights s0 g x : qsteps s0 (fst x) -> qsteps s0 (after_delete_weights g x).
Proof.
  intros H. unfold after_delete_weights. destruct (snd x && g_complete g); auto.
  eapply qs_trans; [exact H|apply qs_set_complete].
Qed.
Lemma qs_delete_weights_rows n rows s s' : delete_weights_rows n rows s = Ok s' -> qsteps s s'.
Proof.
  unfold delete_weights_rows. intros H. repeat step_res H. subst s'. apply qs_after_delete_weights.
  apply fold_left_inv; [apply qs_refl|]. intros x r _ H.
  destruct (index_find (dr_id r) (fst x)); auto. destruct (labels_eqb _ _); auto.
  now apply qs_delete_weight_of.
Qed.
Lemma qs_delete_weights_criteria n c s s' : delete_weights_criteria n c s = Ok s' -> qsteps s s'.
Proof.
  unfold delete_weights_criteria. intros H. repeat step_res H. subst s'. apply qs_after_delete_weights.
  apply fold_left_inv; [apply qs_refl|]. intros x r _ H. now apply qs_delete_weight_of.
Qed.

Lemma qs_add_link k d s s' : add_link k d s = Ok s' -> qsteps s s'.
Proof.
  unfold add_link. intros H. step_res H; [discriminate|]. step_res H.
  eapply qs_step; [|eapply q_link_add; exact H].
  step_res E0; [|injection E0 as <-; apply qs_refl].
  eapply qs_fold_res; [|apply qs_refl|exact E0].
  intros s1 x s1' H1. step_res H1; [eapply qs_one, q_link_update; exact H1|injection H1 as <-; apply qs_refl].
Qed.
Lemma qs_edit_link r n c s s' : edit_link r n c s = Ok s' -> qsteps s s'.
Proof.
  unfold edit_link. intros H. step_res H. step_res H.
  eapply qs_step; [|eapply q_link_update; exact H].
  destruct (c_default c) as [[|]|]; try (injection E0 as <-; apply qs_refl).
  eapply qs_fold_res; [|apply qs_refl|exact E0]. intros s2 o2 s2' H2. eapply qs_one, q_link_update. exact H2.
Qed.

Lemma qs_insert_mappings2 r n rows s s' : insert_mappings2 r n rows s = Ok s' -> qsteps s s'.
Proof.
  unfold insert_mappings2. intros H. step_res H. step_res H.
  assert (Hx : qsteps s (fst a0)).
  { revert E0. apply (fold_res_inv (fun x => qsteps s (fst x))); [apply qs_refl|].
    intros x m x' _ H0 H1. unfold insert_mappings2_row in H1. repeat step_res H1; subst; auto.
    cbn [fst]. eapply qs_step; [exact H0|eapply q_map_add; eassumption]. }
  step_res H; [|injection H as <-; auto].
  eapply qs_trans; [exact Hx|]. eapply qs_refresh_link. exact H.
Qed.
Lemma qs_insert_mappings r n rows s s' : insert_mappings r n rows s = Ok s' -> qsteps s s'.
Proof.
  unfold insert_mappings. intros H. step_res H. step_res H.
  assert (Hx : qsteps s (fst a0)).
  { revert E0. apply (fold_res_inv (fun x => qsteps s (fst x))); [apply qs_refl|].
    intros x m x' _ H0 H1. unfold insert_mappings_row in H1. repeat step_res H1; subst; auto.
    cbn [fst]. eapply qs_step; [exact H0|eapply q_map_add; eassumption]. }
  step_res H; [|injection H as <-; auto].
  eapply qs_trans; [exact Hx|]. eapply qs_refresh_link. exact H.
Qed.
Lemma qs_update_mappings r n rows s s' : update_mappings r n rows s = Ok s' -> qsteps s s'.
Proof.
  unfold update_mappings. intros H. step_res H. step_res H.
  assert (Hx : qsteps s (um_db a0)).
  { revert E0. apply (fold_res_inv (fun x => qsteps s (um_db x))); [apply qs_refl|].
    intros x m x' _ H0 H1. unfold update_mappings_row in H1. repeat step_res H1; subst; auto;
      cbn [um_db]; (eapply qs_step; [exact H0|]);
      [eapply q_map_update; try eassumption; reflexivity|eapply q_map_add; eassumption]. }
  step_res H; [|step_res H].
  - eapply qs_trans; [exact Hx|]. eapply qs_refresh_link. exact H.
  - eapply qs_fold_res; [|exact Hx|exact H]. intros s2 o2 s2' H2. eapply qs_one, q_refresh. exact H2.
  - injection H as <-; auto.
Qed.
Lemma qs_delete_mappings_rows r n rows s s' : delete_mappings_rows r n rows s = Ok s' -> qsteps s s'.
Proof.
  unfold delete_mappings_rows. intros H. step_res H. step_res H; [discriminate|]. cbv zeta in H.
  assert (Hx : qsteps s (fst (fold_left (delete_mappings_row (k_id a)) rows (s, false)))).
  { apply fold_left_inv; [apply qs_refl|]. intros x m _ H0. unfold delete_mappings_row.
    destruct (index_find _ _); auto. destruct (negb _); auto. destruct (map_find _ _ _ _); auto.
    destruct (negb _); auto. destruct (negb _); auto.
    eapply qs_step; [exact H0|apply q_map_delete]. }
  step_res H; [|injection H as <-; auto].
  eapply qs_trans; [exact Hx|]. eapply qs_refresh_link. exact H.
Qed.
Lemma qs_delete_mappings_criteria r n c s s' :
  delete_mappings_criteria r n c s = Ok s' -> qsteps s s'.
Proof.
  unfold delete_mappings_criteria. intros H. step_res H. step_res H; [discriminate|]. cbv zeta in H.
  match type of H with (if snd ?x then _ else _) = _ => assert (Hx : qsteps s (fst x)) end.
  { apply fold_left_inv; [apply qs_refl|]. intros x m _ H0. apply fold_left_inv; auto.
    intros y z _ H1. destruct (level_within _ _); auto.
    eapply qs_step; [exact H1|apply q_map_delete]. }
  step_res H; [|injection H as <-; auto].
  eapply qs_trans; [exact Hx|]. eapply qs_refresh_link. exact H.
Qed.
Lemma qs_reify_list lv ms : forall s, qsteps s (fst (reify_list lv ms s)).
Proof.
  induction ms as [|m ms IH]; intros s; cbn [reify_list]; [apply qs_refl|].
  destruct (map_update m (with_level m lv) s) eqn:E; [|apply qs_refl].
  eapply qs_trans; [|apply IH]. eapply qs_one, q_map_update; try exact E; reflexivity.
Qed.
Lemma qs_reify r n c s : qsteps s (fst (reify_mappings r n c s)).
Proof.
  unfold reify_mappings. destruct (get_link _ _ _ _); [|apply qs_refl].
  destruct (nil_b c); apply qs_reify_list.
Qed.



(** Same label columns and same records. *)
Definition quiet (s s' : db) : Prop := d_labels s' = d_labels s /\ d_index s' = d_index s.
Lemma quiet_refl s : quiet s s. Proof. split; reflexivity. Qed.
Lemma quiet_trans a b c : quiet a b -> quiet b c -> quiet a c.
Proof. intros [A1 A2] [B1 B2]. split; congruence. Qed.
Lemma qprim_quiet s s' : qprim s s' -> quiet s s'.
Proof.
  intros P. destruct P;
    try (solve [match goal with H : _ = Ok _ |- _ => eq_prim H; (split; reflexivity)
           | |- _ => split; reflexivity end]).
  - unfold group_delete. cbn [d_fk set_groups]. destruct (d_fk s); split; reflexivity.
  - unfold link_delete. cbn [d_fk set_links]. destruct (d_fk s); split; reflexivity.
Qed.
Lemma qsteps_quiet s s' : qsteps s s' -> quiet s s'.
Proof. intros H. induction H as [s|s s1 s' H IH P]; [apply quiet_refl|]. exact (quiet_trans _ _ _ IH (qprim_quiet _ _ P)). Qed.
