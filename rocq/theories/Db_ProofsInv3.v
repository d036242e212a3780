(** Effects of the operations on weight groups, weights, links, mappings and columns. *)
From Verif Require Import Prelude QLemmas BitFlags_Model BitFlags_Proofs Selectors_Model
  Selectors_Proofs LinkRef_Model LinkRef_Spec LinkRef_Proofs Db_Model Db_Spec Db_Proofs
  Db_ProofsLocal Db_ProofsMerge Db_ProofsRefresh Db_ProofsInv Db_ProofsInv2.
From Coq Require Import ZifyBool ZifyNat Lqa.

Lemma has_map_from s l i : has_map s l i <-> exists o m, In m (from l o s) /\ m_index m = i.
Proof.
  split.
  - intros (m & Hm & El & Ei). exists (m_other m), m. split; auto. apply from_in. auto.
  - intros (o & m & Hm & Ei). apply from_in in Hm. exists m. tauto.
Qed.
Lemma has_src_from s l o : has_src s l o <-> exists m, In m (from l o s).
Proof. split; intros (m & Hm); exists m; apply from_in; tauto. Qed.

(** Nothing that matters changed for the groups and links that are there. *)
Lemma kept_frame s s' :
  same_ids s s' -> d_hash s' = d_hash s ->
  (forall g, In g (d_groups s') -> exists g0, In g0 (d_groups s) /\ g_id g0 = g_id g /\
     g_complete g0 = g_complete g /\ forall i, has_weight s' (g_id g) i <-> has_weight s (g_id g) i) ->
  (forall k, In k (d_links s') -> exists k0, In k0 (d_links s) /\ k_id k0 = k_id k /\
     k_complete k0 = k_complete k /\ k_hash k0 = k_hash k /\
     forall o, from (k_id k) o s' = from (k_id k) o s) ->
  (forall m, In m (d_maps s') -> In m (d_maps s) /\
     from (m_link m) (m_other m) s' = from (m_link m) (m_other m) s) ->
  kept s s'.
Proof.
  intros Hi Hh Hg Hk Hm.
  assert (Ht : forall k i, In k (d_links s') -> (has_map s' (k_id k) i <-> has_map s (k_id k) i)).
  { intros k i Hk'. destruct (Hk k Hk') as (_ & _ & _ & _ & _ & E). rewrite !has_map_from.
    split; intros (o & m & Hf & Ei); exists o, m; [rewrite <- E|rewrite E]; auto. }
  assert (Hs : forall k o, In k (d_links s') -> (has_src s' (k_id k) o <-> has_src s (k_id k) o)).
  { intros k o Hk'. destruct (Hk k Hk') as (_ & _ & _ & _ & _ & E). now rewrite !has_src_from, E. }
  split.
  - apply hash_same; auto.
  - intros H g Hg' Ec. destruct (Hg g Hg') as (g0 & H0 & E & Ec0 & Ew). rewrite <- Ec0 in Ec.
    specialize (H g0 H0 Ec). rewrite E in H. revert H. apply weight_complete_mono; intros; [now apply Hi|now apply Ew].
  - intros H k Hk' Ec. destruct (Hk k Hk') as (k0 & H0 & E & Ec0 & _). rewrite <- Ec0 in Ec.
    specialize (H k0 H0 Ec). rewrite E in H. revert H. apply link_complete_mono; intros; [now apply Hi|now apply Ht].
  - intros _ _ H g Hg' (i & Hx & Hz) Hc. destruct (Hg g Hg') as (g0 & H0 & E & Ec0 & Ew). rewrite <- Ec0. apply H; auto.
    + exists i. split; auto. now apply Hi.
    + rewrite E. revert Hc. apply weight_complete_mono; intros; [now apply Hi|now apply Ew].
  - intros _ _ _ H k Hk' (i & Hx & Hz) Hc. destruct (Hk k Hk') as (k0 & H0 & E & Ec0 & _). rewrite <- Ec0. apply H; auto.
    + exists i. split; auto. now apply Hi.
    + rewrite E. revert Hc. apply link_complete_mono; intros; [now apply Hi|now apply Ht].
  - intros _ _ H k Hk'. destruct (Hk k Hk') as (k0 & H0 & E & _ & Eh & _). destruct (H k0 H0) as [A B].
    rewrite E, Eh in *. split.
    + intros h Eh'. eapply sources_same; [|apply A; exact Eh']. intros o. now apply Hs.
    + intros En m Hm'. apply (B En). now apply Hm.
  - intros _ _ _ H m Hm'. destruct (Hm m Hm') as [H1 H2]. rewrite H2. now apply H.
  - intros H k h Hk' Eh'. destruct (Hk k Hk') as (k0 & H0 & E & _ & Eh & _). rewrite <- Eh in Eh'.
    specialize (H k0 h H0 Eh'). rewrite E in H. eapply sources_same; [|exact H]. intros o. now apply Hs.
Qed.

Lemma kept_trans a b c : d_fk b = d_fk a ->
  (d_fk a = true -> group_refs a -> group_refs b) -> (d_fk a = true -> link_refs a -> link_refs b) ->
  (map_index_refs a -> map_index_refs b) -> maps_wf b ->
  kept a b -> kept b c -> kept a c.
Proof.
  intros F G L M W [A1 A2 A3 A4 A5 A6 A7 A8] [B1 B2 B3 B4 B5 B6 B7 B8]. rewrite F in *. split; auto.
Qed.

Lemma kept_refl s : kept s s.
Proof. split; auto. Qed.

(** *** Weight groups *)

Lemma group_by_name_in n s g : group_by_name n s = Some g -> In g (d_groups s) /\ g_name g = n.
Proof.
  intros H. apply find_some in H. destruct H as [H1 H2]. split; auto. now apply text_eqb_iff.
Qed.

Lemma group_add_kept n s s' : group_add n false s = Ok s' -> kept s s'.
Proof.
  intros H. unfold group_add in H. step_res H; [discriminate|]. injection H as <-.
  split; try (intros; assumption).
  - intros Hg g Hx Ec. cbn [set_groups d_groups] in Hx. apply in_app_iff in Hx.
    destruct Hx as [Hx|[<-|[]]]; [|discriminate Ec]. exact (Hg g Hx Ec).
  - intros Fk R Hg g Hx (i & Hi) Hc. cbn [set_groups d_groups] in Hx. apply in_app_iff in Hx.
    destruct Hx as [Hx|[<-|[]]]; [exact (Hg g Hx (ex_intro _ i Hi) Hc)|]. exfalso.
    destruct (Hc i Hi) as (w & Hw & Ew & _). cbn [set_groups d_weights g_id] in *.
    destruct (R w Hw) as (g0 & Hg0 & E0). apply (zmax_fresh (map g_id (d_groups s))).
    rewrite <- Ew, <- E0. now apply in_map.
Qed.

Lemma default_kept x s : kept s (set_default x s).
Proof. split; intros; assumption. Qed.
Lemma structs_kept x s : kept s (set_structs x s).
Proof. split; intros; assumption. Qed.

Lemma group_add_eq n c s s' : group_add n c s = Ok s' -> s' = set_groups (d_groups s') s.
Proof. intros H. unfold group_add in H. step_res H; [discriminate|]. injection H as <-. reflexivity. Qed.

Lemma kept_after_group_add n s s1 s' : maps_wf s -> group_add n false s = Ok s1 -> kept s1 s' -> kept s s'.
Proof.
  intros W H K. pose proof (p_group_add _ _ _ _ H) as P. apply (kept_trans _ s1); auto.
  - eapply fk_prim; eauto.
  - intros. eapply group_refs_prim; eauto.
  - intros. eapply link_refs_prim; eauto.
  - rewrite (group_add_eq _ _ _ _ H). auto.
  - eapply maps_wf_prim; eauto.
  - eapply group_add_kept; eauto.
Qed.

Lemma add_group_kept n d s s' : maps_wf s -> add_weight_group n false d s = Ok s' -> kept s s'.
Proof.
  intros W H. unfold add_weight_group in H. cbv zeta in H. step_res H; [discriminate|]. step_res H.
  eapply kept_after_group_add; eauto. repeat step_res H; subst; auto using kept_refl.
  unfold set_default_weight_group in H. injection H as <-. apply default_kept.
Qed.

Lemma edit_group_kept n nn s s' : weights_wf s -> edit_weight_group n nn None s = Ok s' -> kept s s'.
Proof.
  intros W H. unfold edit_weight_group in H. step_res H; [|injection H as <-; apply kept_refl].
  apply group_by_name_in in E. destruct E as [Hg _].
  unfold group_update in H. step_res H; [discriminate|]. injection H as <-.
  apply kept_frame; cbn [set_groups d_groups d_hash d_links d_maps g_id]; auto.
  - intros i. reflexivity.
  - intros x Hx. apply in_map_iff in Hx. destruct Hx as (x0 & Ex & Hx).
    destruct (g_id x0 =? g_id g)%Z eqn:Ei.
    + subst x. exists g. repeat split; auto.
    + subst x. exists x0. repeat split; auto.
  - intros k Hk. exists k. repeat split; auto.
Qed.

Lemma drop_group_kept n s s' : drop_weight_group n s = Ok s' -> kept s s'.
Proof.
  intros H. unfold drop_weight_group in H. step_res H; [|injection H as <-; apply kept_refl].
  cbv zeta in H. step_res H; [|discriminate]. injection H as <-.
  assert (K : forall t, d_index t = d_index s -> d_hash t = d_hash s -> d_links t = d_links s ->
     d_maps t = d_maps s -> d_groups t = d_groups (group_delete (g_id g) s) ->
     d_weights t = d_weights (group_delete (g_id g) s) -> kept s t).
  { intros t Ti Th Tl Tm Tg Tw. apply kept_frame; auto.
    - intros i. unfold has_index. now rewrite Ti.
    - intros x Hx. rewrite Tg in Hx. assert (Hx' : In x (d_groups s) /\ g_id x <> g_id g).
      { unfold group_delete in Hx. cbn [d_fk set_groups] in Hx. destruct (d_fk s);
          cbn [set_weights set_groups d_groups] in Hx; apply filter_In in Hx; split; try tauto; lia. }
      exists x. repeat split; try tauto.
      + intros (w & Hw & <- & <-). rewrite Tw in Hw. unfold group_delete in Hw. cbn [d_fk set_groups] in Hw.
        destruct (d_fk s); cbn [set_weights set_groups d_weights] in Hw; [apply filter_In in Hw|]; exists w; tauto.
      + intros (w & Hw & Ew & <-). exists w. split; auto. rewrite Tw. unfold group_delete. cbn [d_fk set_groups].
        destruct (d_fk s); cbn [set_weights set_groups d_weights]; auto. apply filter_In. split; auto. lia.
    - intros k Hk. rewrite Tl in Hk. exists k. repeat split; auto. intros o'. unfold from. now rewrite Tm.
    - intros m Hm. unfold from. rewrite Tm in *. auto. }
  assert (B : d_index (group_delete (g_id g) s) = d_index s /\ d_hash (group_delete (g_id g) s) = d_hash s /\
    d_links (group_delete (g_id g) s) = d_links s /\ d_maps (group_delete (g_id g) s) = d_maps s).
  { unfold group_delete. cbn [d_fk set_groups]. destruct (d_fk s); auto. }
  destruct B as (B1 & B2 & B3 & B4).
  destruct o as [i|]; [destruct (g_id g =? i)%Z|]; apply K; auto.
Qed.

(** *** Weights *)

Record wts (g : Z) (s : db) (ins : bool) (s' : db) : Prop := {
  wt_same : s' = set_weights (d_weights s') s;
  wt_keys : ins = false -> same_weights s s';
  wt_mono : forall g' i, has_weight s g' i -> has_weight s' g' i;
  wt_other : forall g' i, g' <> g -> (has_weight s' g' i <-> has_weight s g' i)
}.
Lemma wts_refl g s : wts g s false s.
Proof. split; auto; try (intros; reflexivity). - now destruct s. - intros _ g' i. reflexivity. Qed.

Lemma wts_keys g s ins s1 s2 : wts g s ins s1 -> s2 = set_weights (d_weights s2) s1 ->
  map wkey (d_weights s2) = map wkey (d_weights s1) -> wts g s ins s2.
Proof.
  intros [A B C D] E K. apply wkeys_eq in K. split.
  - rewrite E, A. reflexivity.
  - intros Hi g' i. rewrite (K g' i). now apply B.
  - intros g' i H. apply K. auto.
  - intros g' i H. rewrite (K g' i). auto.
Qed.
Lemma weight_add_eq g i v s s' : weight_add g i v s = Ok s' ->
  s' = set_weights (d_weights s ++ [{| w_group := g; w_index := i; w_value := v |}]) s.
Proof. intros H. unfold weight_add in H. repeat step_res H; try discriminate. auto. Qed.
Lemma wts_add g i v s ins s1 s2 : wts g s ins s1 -> weight_add g i v s1 = Ok s2 -> wts g s true s2.
Proof.
  intros [A B C D] H. apply weight_add_eq in H. subst s2. split.
  - rewrite A. reflexivity.
  - discriminate.
  - intros g' j Hw. destruct (C g' j Hw) as (w & Hw' & E). exists w. split; auto.
    cbn [set_weights d_weights]. apply in_app_iff. auto.
  - intros g' j Hn. rewrite <- (D g' j Hn). split; intros (w & Hw & Eg & Ej).
    + cbn [set_weights d_weights] in Hw. apply in_app_iff in Hw. destruct Hw as [Hw|[<-|[]]].
      * exists w. auto.
      * cbn in Eg. congruence.
    + exists w. split; auto. cbn [set_weights d_weights]. apply in_app_iff. auto.
Qed.
Lemma weight_update_eq g i v s s' : weight_update g i v s = Ok s' -> s' = set_weights (d_weights s') s.
Proof. intros H. unfold weight_update in H. step_res H; [discriminate|]. injection H as <-. reflexivity. Qed.

Lemma add_or_resolve_wts g i v p s ins s1 s2 c : wts g s ins s1 ->
  add_or_resolve g i v p s1 = Ok (s2, c) ->
  wts g s (match c with CInserted => true | _ => ins end) s2.
Proof.
  intros T H. unfold add_or_resolve in H.
  destruct (weight_add g i v s1) as [t|e] eqn:Ea.
  - injection H as <- <-. eapply wts_add; eauto.
  - repeat step_res H; try discriminate; subst; auto;
      match goal with H : weight_update _ _ _ _ = Ok _ |- _ =>
        eapply wts_keys; [exact T|eapply weight_update_eq; exact H|eapply weight_update_keys; exact H] end.
Qed.

Lemma wts_finish g s ins s' : wts g s ins s' ->
  kept s (if ins && group_is_complete g s' then set_complete g true s' else s').
Proof.
  intros [A B C D].
  assert (Bd : d_index s' = d_index s /\ d_groups s' = d_groups s /\ d_links s' = d_links s /\
               d_maps s' = d_maps s /\ d_hash s' = d_hash s) by (rewrite A; auto).
  destruct Bd as (Bi & Bg & Bl & Bm & Bh).
  set (t := if ins && group_is_complete g s' then set_complete g true s' else s').
  assert (Bt : d_index t = d_index s /\ d_weights t = d_weights s' /\ d_links t = d_links s /\
               d_maps t = d_maps s /\ d_hash t = d_hash s).
  { unfold t. destruct (ins && group_is_complete g s'); auto. }
  destruct Bt as (Ti & Tw & Tl & Tm & Th).
  assert (Hw : forall g' i, has_weight t g' i <-> has_weight s' g' i) by (intros; unfold has_weight; rewrite Tw; tauto).
  assert (Hi : forall i, has_index t i <-> has_index s i) by (intros; unfold has_index; rewrite Ti; tauto).
  assert (Hg : forall x, In x (d_groups t) -> exists x0, In x0 (d_groups s) /\ g_id x0 = g_id x /\
     ((g_complete x = g_complete x0 /\ (g_id x = g -> ins && group_is_complete g s' = false)) \/
      (g_id x = g /\ ins = true /\ group_is_complete g s' = true /\ g_complete x = true))).
  { unfold t. destruct (ins && group_is_complete g s') eqn:Ec; intros x Hx.
    - cbn [set_complete set_groups d_groups] in Hx. rewrite Bg in Hx. apply in_map_iff in Hx.
      destruct Hx as (x0 & Ex & Hx). exists x0. split; auto. apply andb_true_iff in Ec. destruct Ec.
      destruct (g_id x0 =? g)%Z eqn:Ei; subst x; cbn [g_id g_complete]; split; auto.
      + right. repeat split; auto. lia.
      + left. split; auto. lia.
    - rewrite Bg in Hx. exists x. auto. }
  split.
  - intros [S I]. split; rewrite Th; auto. intros i. rewrite I. symmetry. apply Hi.
  - intros H x Hx Ec. destruct (Hg x Hx) as (x0 & H0 & E & [[Ec' _]|(Eg & _ & Gc & _)]).
    + rewrite Ec' in Ec. specialize (H x0 H0 Ec). rewrite E in H. revert H.
      apply weight_complete_mono; intros; [now apply Hi|]. apply Hw. now apply C.
    + apply group_complete_iff in Gc. rewrite Eg. revert Gc. apply weight_complete_mono.
      * intros i. unfold has_index. rewrite Ti, Bi. auto.
      * intros i _. apply Hw.
  - intros H k Hk Ec. rewrite Tl in Hk. specialize (H k Hk Ec). revert H.
    apply link_complete_mono; intros; [now apply Hi|]. unfold has_map. now rewrite Tm.
  - intros _ _ H x Hx (i & Hd & Hz) Hc.
    assert (Hc' : weight_complete s' (g_id x)).
    { revert Hc. apply weight_complete_mono; intros j; [unfold has_index; rewrite Ti, Bi; auto|]. intros _. apply Hw. }
    destruct (Hg x Hx) as (x0 & H0 & E & [[Ec' Nc]|(Eg & _ & Gc & Ex)]); auto.
    rewrite Ec'. apply H; auto.
    + exists i. split; auto. now apply Hi.
    + rewrite E. revert Hc'. apply weight_complete_mono.
      * intros j. unfold has_index. rewrite Bi. auto.
      * intros j _ Hwj. destruct (Z.eq_dec (g_id x) g) as [Eg|Eg]; [|now apply D].
        apply B; auto. specialize (Nc Eg). destruct ins; auto. cbn in Nc.
        rewrite <- not_true_iff_false in Nc. exfalso. apply Nc. apply group_complete_iff. rewrite <- Eg.
        revert Hc. apply weight_complete_mono; intros y; [unfold has_index; rewrite Ti, Bi; auto|]. intros _. apply Hw.
  - intros _ _ _ H k Hk (i & Hd & Hz) Hc. rewrite Tl in Hk. apply H; auto.
    + exists i. split; auto. now apply Hi.
    + revert Hc. apply link_complete_mono; intros; [now apply Hi|]. unfold has_map in *. now rewrite Tm in *.
  - intros _ _ H k Hk. rewrite Tl in Hk. destruct (H k Hk) as [H1 H2]. split.
    + intros h Eh. eapply sources_same; [|apply H1; exact Eh]. intros o. unfold has_src. now rewrite Tm.
    + rewrite Tm. exact H2.
  - intros _ _ _ Hp. eapply props_same; [exact Tm|exact Hp].
  - intros H k h Hk Eh. rewrite Tl in Hk. eapply sources_same; [|exact (H k h Hk Eh)].
    intros o. unfold has_src. now rewrite Tm.
Qed.

Lemma insert_weights_kept n p rows s s' : maps_wf s -> insert_weights n p rows s = Ok s' -> kept s s'.
Proof.
  intros W H. unfold insert_weights in H.
  assert (Hx : (do s0 <- match group_by_name n s with Some _ => Ok s | None => group_add n false s end;
      match group_by_name n s0 with
      | None => Err KeyError
      | Some g =>
          do x <- fold_res (insert_weights_row (g_id g) p) rows (s0, false);
          Ok (if snd x && group_is_complete (g_id g) (fst x)
              then set_complete (g_id g) true (fst x) else fst x)
      end) = Ok s') by (destruct p; auto; discriminate). clear H.
  step_res Hx. step_res Hx; [|discriminate]. step_res Hx. apply Ok_inj in Hx. subst s'.
  assert (T : wts (g_id g) a (snd a0) (fst a0)).
  { revert E1. apply (fold_res_inv (fun x => wts (g_id g) a (snd x) (fst x))); [apply wts_refl|].
    intros x r x' _ T H. unfold insert_weights_row in H. cbv zeta in H.
    repeat (step_res H; [..|try discriminate]); subst; auto.
    all: try discriminate.
    all: match goal with H : add_or_resolve _ _ _ _ _ = Ok (_, ?c) |- _ =>
      pose proof (add_or_resolve_wts _ _ _ _ _ _ _ _ _ T H) as T2; exact T2 end. }
  apply wts_finish in T. destruct (group_by_name n s) eqn:Eg.
  - injection E as <-. exact T.
  - eapply kept_after_group_add; eauto.
Qed.

Lemma update_weights_kept n rows s s' : update_weights n rows s = Ok s' -> kept s s'.
Proof.
  intros H. unfold update_weights in H. step_res H; [|discriminate]. step_res H. apply Ok_inj in H. subst s'.
  apply wts_finish. revert E0.
  apply (fold_res_inv (fun x => wts (g_id g) s (snd x) (fst x))); [apply wts_refl|].
  intros x r x' _ T H. repeat (step_res H; [..|try discriminate]); subst; auto; cbn [fst snd].
  - match goal with H : weight_update _ _ _ _ = Ok _ |- _ =>
      eapply wts_keys; [exact T|eapply weight_update_eq; exact H|eapply weight_update_keys; exact H] end.
  - eapply wts_add; eauto.
Qed.

Record wdel (g : Z) (s : db) (x : db * bool) : Prop := {
  wd_same : fst x = set_weights (d_weights (fst x)) s;
  wd_none : snd x = false -> fst x = s;
  wd_sub : forall w, In w (d_weights (fst x)) -> In w (d_weights s);
  wd_other : forall w, In w (d_weights s) -> w_group w <> g -> In w (d_weights (fst x));
  wd_some : snd x = true -> exists i, defined s i /\ ~ has_weight (fst x) g i
}.
Lemma wdel_refl g s : wdel g s (s, false).
Proof. split; cbn; auto; try discriminate. now destruct s. Qed.
Lemma wdel_step g i s x : weights_wf s -> wdel g s x -> has_index s i -> wdel g s (delete_weight_of g i x).
Proof.
  intros W T Hi. unfold delete_weight_of. destruct (weight_find g i (fst x)) as [w|] eqn:Ef; auto.
  unfold weight_find in Ef. apply find_some in Ef. destruct Ef as [Hw Ew]. apply weight_is_iff in Ew.
  destruct Ew as [Eg Ei]. destruct T as [T1 T2 T3 T4 T5].
  split; cbn [fst snd weight_delete set_weights d_weights]; try discriminate.
  - rewrite T1. reflexivity.
  - intros y Hy. apply filter_In in Hy. apply T3. tauto.
  - intros y Hy Hn. apply filter_In. split; auto. rewrite negb_true_iff, <- not_true_iff_false, weight_is_iff.
    intros [Q1 Q2]. congruence.
  - intros _. exists i. split.
    + split; auto. pose proof (ww_defined _ W w (T3 w Hw)). lia.
    + intros (y & Hy & E1 & E2). cbn [weight_delete set_weights d_weights] in Hy. apply filter_In in Hy.
      destruct Hy as [_ Hy]. rewrite negb_true_iff, <- not_true_iff_false, weight_is_iff in Hy. apply Hy. split; congruence.
Qed.

Lemma wdel_finish g s x : weights_wf s -> In g (d_groups s) -> wdel (g_id g) s x ->
  kept s (after_delete_weights g x).
Proof.
  intros W Hg T. destruct x as [t del]. destruct T as [T1 T2 T3 T4 T5]. cbn [fst snd] in *.
  unfold after_delete_weights. cbn [fst snd]. destruct del.
  2: { cbn. rewrite (T2 eq_refl). apply kept_refl. }
  destruct (T5 eq_refl) as (i & Hd & Hn). cbn [andb].
  assert (Bd : d_index t = d_index s /\ d_groups t = d_groups s /\ d_links t = d_links s /\
               d_maps t = d_maps s /\ d_hash t = d_hash s) by (rewrite T1; auto).
  destruct Bd as (Bi & Bg & Bl & Bm & Bh).
  set (u := if g_complete g then set_complete (g_id g) false t else t).
  assert (Bt : d_index u = d_index s /\ d_weights u = d_weights t /\ d_links u = d_links s /\
               d_maps u = d_maps s /\ d_hash u = d_hash s).
  { unfold u. destruct (g_complete g); auto. }
  destruct Bt as (Ui & Uw & Ul & Um & Uh).
  assert (Hi : forall i, has_index u i <-> has_index s i) by (intros; unfold has_index; rewrite Ui; tauto).
  assert (Hx : forall x, In x (d_groups u) -> exists x0, In x0 (d_groups s) /\ g_id x0 = g_id x /\
     (g_id x = g_id g -> g_complete x = false) /\ (g_id x <> g_id g -> g_complete x = g_complete x0)).
  { unfold u. destruct (g_complete g) eqn:Ec; intros x Hx.
    - cbn [set_complete set_groups d_groups] in Hx. rewrite Bg in Hx. apply in_map_iff in Hx.
      destruct Hx as (x0 & Ex & Hx). exists x0. split; auto.
      destruct (g_id x0 =? g_id g)%Z eqn:Eq; subst x; cbn [g_id g_complete]; repeat split; auto; lia.
    - rewrite Bg in Hx. exists x. repeat split; auto. intros Eg.
      assert (x = g) as ->; auto. eapply nodup_map_inj; [apply (proj1 (ww_groups _ W))|..]; auto. }
  assert (Hw : forall g' j, g' <> g_id g -> (has_weight u g' j <-> has_weight s g' j)).
  { intros g' j Hn'. split; intros (w & Hw & E1 & E2).
    - rewrite Uw in Hw. exists w. auto.
    - exists w. rewrite Uw. split; auto. apply T4; auto. congruence. }
  split.
  - intros [S I]. split; rewrite Uh; auto. intros j. rewrite I. symmetry. apply Hi.
  - intros H x Hx' Ec. destruct (Hx x Hx') as (x0 & H0 & E & A & B).
    destruct (Z.eq_dec (g_id x) (g_id g)) as [Eg|Eg]; [rewrite (A Eg) in Ec; discriminate|].
    rewrite (B Eg) in Ec. specialize (H x0 H0 Ec). rewrite E in H. revert H.
    apply weight_complete_mono; intros; [now apply Hi|]. now apply Hw.
  - intros H k Hk Ec. rewrite Ul in Hk. specialize (H k Hk Ec). revert H.
    apply link_complete_mono; intros; [now apply Hi|]. unfold has_map. now rewrite Um.
  - intros _ _ H x Hx' (j & Hj & Hz) Hc. destruct (Hx x Hx') as (x0 & H0 & E & A & B).
    destruct (Z.eq_dec (g_id x) (g_id g)) as [Eg|Eg].
    + exfalso. apply Hn. rewrite <- Eg. destruct (Hc i) as (w & Hw' & E1 & E2).
      { destruct Hd. split; auto. now apply Hi. }
      exists w. rewrite <- Uw. auto.
    + rewrite (B Eg). apply H; auto.
      * exists j. split; auto. now apply Hi.
      * rewrite E. revert Hc. apply weight_complete_mono; intros; [now apply Hi|]. now apply Hw.
  - intros _ _ _ H k Hk (j & Hj & Hz) Hc. rewrite Ul in Hk. apply H; auto.
    + exists j. split; auto. now apply Hi.
    + revert Hc. apply link_complete_mono; intros; [now apply Hi|]. unfold has_map in *. now rewrite Um in *.
  - intros _ _ H k Hk. rewrite Ul in Hk. destruct (H k Hk) as [H1 H2]. split.
    + intros h Eh. eapply sources_same; [|apply H1; exact Eh]. intros o. unfold has_src. now rewrite Um.
    + rewrite Um. exact H2.
  - intros _ _ _ Hp. eapply props_same; [exact Um|exact Hp].
  - intros H k h Hk Eh. rewrite Ul in Hk. eapply sources_same; [|exact (H k h Hk Eh)].
    intros o. unfold has_src. now rewrite Um.
Qed.

Lemma wdel_index g s x i : wdel g s x -> (has_index (fst x) i <-> has_index s i).
Proof. intros T. rewrite (wd_same _ _ _ T). reflexivity. Qed.

Lemma delete_weights_rows_wdel n rows s s' g : weights_wf s -> group_by_name n s = Some g ->
  delete_weights_rows n rows s = Ok s' -> exists x, wdel (g_id g) s x /\ s' = after_delete_weights g x.
Proof.
  intros W Eg H. unfold delete_weights_rows in H. rewrite Eg in H. step_res H; [discriminate|].
  apply Ok_inj in H. eexists. split; [|symmetry; exact H]. apply fold_left_inv; [apply wdel_refl|].
  intros x r _ T. cbv beta. destruct (index_find (dr_id r) (fst x)) as [rec|] eqn:Ef; auto.
  apply index_find_spec in Ef. destruct Ef as [Hr Er]. destruct (labels_eqb _ _); auto.
  apply wdel_step; auto. rewrite <- (wdel_index _ _ _ _ T). exists rec. auto.
Qed.
Lemma delete_weights_criteria_wdel n c s s' g : weights_wf s -> group_by_name n s = Some g ->
  delete_weights_criteria n c s = Ok s' -> exists x, wdel (g_id g) s x /\ s' = after_delete_weights g x.
Proof.
  intros W Eg H. unfold delete_weights_criteria in H. rewrite Eg in H. step_res H; [discriminate|].
  apply Ok_inj in H. eexists. split; [|symmetry; exact H]. apply fold_left_inv; [apply wdel_refl|].
  intros x r Hr T. cbv beta. apply wdel_step; auto. apply filter_In in Hr. exists r. tauto.
Qed.

Lemma delete_weights_rows_kept n rows s s' : weights_wf s -> delete_weights_rows n rows s = Ok s' -> kept s s'.
Proof.
  intros W H. destruct (group_by_name n s) as [g|] eqn:Eg.
  - destruct (delete_weights_rows_wdel _ _ _ _ _ W Eg H) as (x & T & ->). apply wdel_finish; auto.
    apply group_by_name_in in Eg. tauto.
  - unfold delete_weights_rows in H. rewrite Eg in H. discriminate.
Qed.
Lemma delete_weights_criteria_kept n c s s' : weights_wf s -> delete_weights_criteria n c s = Ok s' -> kept s s'.
Proof.
  intros W H. destruct (group_by_name n s) as [g|] eqn:Eg.
  - destruct (delete_weights_criteria_wdel _ _ _ _ _ W Eg H) as (x & T & ->). apply wdel_finish; auto.
    apply group_by_name_in in Eg. tauto.
  - unfold delete_weights_criteria in H. rewrite Eg in H. discriminate.
Qed.

(** *** Links *)

Lemma get_link_in ref name ad links k : get_link ref name ad links = Ok k -> In k links.
Proof.
  intros H. unfold get_link in H. step_res H. apply get_links_iff in E. destruct E as (_ & _ & -> & _).
  assert (K : In k (cands ref links)).
  { step_res H.
    - step_res H; [|discriminate]. step_res H; [|discriminate]. injection H as <-.
      match goal with H : find _ _ = Some _ |- _ => apply find_some in H; tauto end.
    - destruct (cands ref links) as [|x [|y l]]; try discriminate.
      + destruct ad; discriminate.
      + injection H as <-. now left.
      + destruct ad; [|discriminate]. cbn [negb] in H. step_res H; [|discriminate]. injection H as <-.
        match goal with H : find _ _ = Some _ |- _ => apply find_some in H; tauto end. }
  apply in_cands in K. apply K.
Qed.

Definition like (s s' : db) : Prop :=
  s' = set_links (d_links s') s /\ map k_id (d_links s') = map k_id (d_links s) /\
  forall k, In k (d_links s') -> exists k0, In k0 (d_links s) /\ k_id k0 = k_id k /\
    k_complete k0 = k_complete k /\ k_hash k0 = k_hash k.
Lemma like_refl s : like s s.
Proof. split; [now destruct s|]. split; auto. intros k Hk. exists k. auto. Qed.
Lemma like_update k k' s s1 s2 : like s s1 -> In k (d_links s) ->
  k_id k' = k_id k -> k_complete k' = k_complete k -> k_hash k' = k_hash k ->
  link_update k' s1 = Ok s2 -> like s s2.
Proof.
  intros (A & A' & B) Hk E1 E2 E3 H. unfold link_update in H. step_res H; [discriminate|]. injection H as <-.
  split; [rewrite A; reflexivity|]. split.
  { cbn [set_links d_links]. rewrite <- A', map_map. apply map_ext. intros x.
    destruct (k_id x =? k_id k')%Z eqn:Ei; lia. }
  intros x Hx. cbn [set_links d_links] in Hx. apply in_map_iff in Hx.
  destruct Hx as (x0 & Ex & Hx). destruct (k_id x0 =? k_id k')%Z eqn:Ei; subst x; auto.
  exists k. auto.
Qed.
Lemma like_kept s s' : like s s' -> kept s s'.
Proof.
  intros (A & _ & B). apply kept_frame; try (rewrite A; reflexivity).
  - intros i. rewrite A. reflexivity.
  - rewrite A. intros g Hg. exists g. repeat split; auto.
  - intros k Hk. destruct (B k Hk) as (k0 & H0 & E1 & E2 & E3). exists k0. repeat split; auto.
    intros o. rewrite A. reflexivity.
  - rewrite A. auto.
Qed.

Lemma edit_link_kept r n c s s' : c_hash c = None -> c_complete c = None ->
  edit_link r n c s = Ok s' -> kept s s'.
Proof.
  intros Eh Ec H. unfold edit_link in H. step_res H. step_res H. apply get_link_in in E.
  apply like_kept. apply (like_update a (apply_changes c a) s a0 s'); auto;
    try (unfold apply_changes; cbn [k_hash k_complete k_id]; rewrite ?Eh, ?Ec; reflexivity).
  clear H. destruct (c_default c) as [[|]|]; try (injection E0 as <-; apply like_refl).
  revert E0. apply (fold_res_inv (like s)); [apply like_refl|].
  intros t m t' Hm L H. apply filter_In in Hm. eapply (like_update m); try exact H; try reflexivity; tauto.
Qed.

Lemma add_link_kept k d s s' : maps_wf s -> k_hash k = None -> k_complete k = false ->
  add_link k d s = Ok s' -> kept s s'.
Proof.
  intros W Eh Ec H. unfold add_link in H. cbv zeta in H. step_res H; [discriminate|]. step_res H.
  assert (L : like s a).
  { destruct (match d with Some b => b | None => _ end); [|injection E0 as <-; apply like_refl].
    revert E0. apply (fold_res_inv (like s)); [apply like_refl|].
    intros t m t' Hm L H1. apply filter_In in Hm. destruct (k_default m).
    - eapply (like_update m); try exact H1; try reflexivity; tauto.
    - injection H1 as <-. auto. }
  set (dd := match d with Some b => b | None => nil_b _ end) in H. clearbody dd. clear E0.
  unfold link_add in H. step_res H; [discriminate|]. injection H as <-.
  pose proof (like_kept _ _ L) as K. destruct L as (La & Li & Lb).
  set (nk := with_id (zmax (map k_id (d_links a)) + 1) (with_default dd k)).
  assert (Kn : forall s1, s1 = set_links (d_links a ++ [nk]) a -> kept a s1).
  { intros s1 ->. split; try (intros; assumption).
    - intros Hk x Hx Ecx. cbn [set_links d_links] in Hx. apply in_app_iff in Hx.
      destruct Hx as [Hx|[<-|[]]]; [|cbn in Ecx; congruence]. exact (Hk x Hx Ecx).
    - intros Fk R _ Hk x Hx (i & Hi) Hc. cbn [set_links d_links] in Hx. apply in_app_iff in Hx.
      destruct Hx as [Hx|[<-|[]]]; [exact (Hk x Hx (ex_intro _ i Hi) Hc)|]. exfalso.
      destruct (Hc i Hi) as (m & Hm & Em & _). cbn [set_links d_maps] in *.
      destruct (R m Hm) as (k0 & Hk0 & Ek0). apply (zmax_fresh (map k_id (d_links a))).
      change (zmax (map k_id (d_links a)) + 1)%Z with (k_id nk). rewrite <- Em, <- Ek0. now apply in_map.
    - intros Fk R Hk x Hx. cbn [set_links d_links] in Hx. apply in_app_iff in Hx.
      destruct Hx as [Hx|[<-|[]]]; [exact (Hk x Hx)|]. split; [cbn; congruence|].
      intros _ m Hm Em. cbn [set_links d_maps] in *.
      destruct (R m Hm) as (k0 & Hk0 & Ek0). apply (zmax_fresh (map k_id (d_links a))).
      change (zmax (map k_id (d_links a)) + 1)%Z with (k_id nk). rewrite <- Em, <- Ek0. now apply in_map.
    - intros Hk x h Hx Ex. cbn [set_links d_links] in Hx. apply in_app_iff in Hx.
      destruct Hx as [Hx|[<-|[]]]; [exact (Hk x h Hx Ex)|]. cbn in Ex. congruence. }
  apply (kept_trans _ a); auto; try (rewrite La; auto; fail).
  - intros _ R m Hm. rewrite La in Hm. destruct (R m Hm) as (k0 & Hk0 & Ek0).
    apply (in_map k_id) in Hk0. rewrite <- Li in Hk0. apply in_map_iff in Hk0.
    destruct Hk0 as (k1 & E1 & Hk1). exists k1. split; auto. congruence.
  - eapply maps_wf_ext; [|exact W]. rewrite La. reflexivity.
Qed.

Lemma drop_link_kept r n s s' : drop_link r n s = Ok s' -> kept s s'.
Proof.
  intros H. unfold drop_link in H. step_res H. injection H as <-. set (l := k_id a). clearbody l.
  assert (B : d_index (link_delete l s) = d_index s /\ d_hash (link_delete l s) = d_hash s /\
    d_groups (link_delete l s) = d_groups s /\ d_weights (link_delete l s) = d_weights s /\
    d_links (link_delete l s) = filter (fun k => negb (k_id k =? l)%Z) (d_links s) /\
    d_maps (link_delete l s) = if d_fk s then filter (fun m => negb (m_link m =? l)%Z) (d_maps s) else d_maps s).
  { unfold link_delete. cbn [d_fk set_links]. destruct (d_fk s); repeat split. }
  destruct B as (B1 & B2 & B3 & B4 & B5 & B6).
  assert (F : forall l' o, l' <> l -> from l' o (link_delete l s) = from l' o s).
  { intros l' o Hn. unfold from. rewrite B6. destruct (d_fk s); auto. rewrite filter_filter.
    apply filter_ext_in'. intros m _. lia. }
  apply kept_frame; auto.
  - intros i. unfold has_index. now rewrite B1.
  - intros g Hg. rewrite B3 in Hg. exists g. repeat split; auto; unfold has_weight; now rewrite B4.
  - intros k Hk. rewrite B5 in Hk. apply filter_In in Hk. exists k. repeat split; try tauto. intros o. apply F. lia.
  - intros m Hm. unfold from. rewrite B6 in *. destruct (d_fk s); auto.
    apply filter_In in Hm. split; [tauto|]. rewrite filter_filter. apply filter_ext_in'. intros x _. lia.
Qed.

(** *** Mappings *)

Definition mapchange (l : Z) (s s1 : db) : Prop :=
  s1 = set_maps (d_maps s1) s /\ forall l' o, l' <> l -> from l' o s1 = from l' o s.
Lemma mapchange_refl l s : mapchange l s s.
Proof. split; auto. now destruct s. Qed.
Lemma mapchange_trans l a b c : mapchange l a b -> mapchange l b c -> mapchange l a c.
Proof. intros [A B] [C D]. split; [rewrite C, A; reflexivity|]. intros. rewrite D, B; auto. Qed.
Lemma mapchange_add l o i lv v p s s' : map_add l o i lv v p s = Ok s' -> mapchange l s s'.
Proof.
  intros H. unfold map_add in H. repeat step_res H; try discriminate. subst s'. split; [reflexivity|].
  intros l' o' Hn. unfold from. cbn [set_maps d_maps]. rewrite filter_app. cbn [filter m_link m_other].
  destruct (l =? l')%Z eqn:E'; [lia|]. cbn [andb]. apply app_nil_r.
Qed.
Lemma mapchange_delete m s : mapchange (m_link m) s (map_delete m s).
Proof.
  split; [reflexivity|]. intros l' o Hn. unfold from. cbn [map_delete set_maps d_maps]. rewrite filter_filter.
  apply filter_ext_in'. intros x _. destruct (same_map m x) eqn:E; cbn [negb andb]; auto.
  apply same_map_iff in E. unfold mkey in E. injection E as E1 _ _ _. symmetry. lia.
Qed.
Lemma mapchange_update m m' s s' : map_update m m' s = Ok s' -> m_link m' = m_link m ->
  mapchange (m_link m) s s'.
Proof.
  intros H El. unfold map_update in H. repeat step_res H; try discriminate. subst s'. split; [reflexivity|].
  intros l' o Hn. unfold from. cbn [set_maps d_maps]. clear E0. induction (d_maps s) as [|x l IH]; auto.
  cbn [map filter]. rewrite IH. destruct (same_map m x) eqn:E2; auto.
  apply same_map_iff in E2. unfold mkey in E2. injection E2 as E2 _ _ _.
  destruct (m_link m' =? l')%Z eqn:Q1; [lia|]. destruct (m_link x =? l')%Z eqn:Q2; [lia|]. reflexivity.
Qed.

Lemma refresh_link_kept l s s1 s' : mapchange l s s1 -> refresh_link l s1 = Ok s' -> kept s s'.
Proof.
  intros [A B] H. unfold refresh_link in H. step_res H. apply Ok_inj in H.
  assert (Er : refreshes (map (fun o => (l, o)) (distinct_others l s1)) s1 = Ok a).
  { unfold refreshes. rewrite <- E. generalize (distinct_others l s1) as os. clear.
    intros os. revert s1. induction os as [|o os IH]; intros t; cbn [map fold_res]; auto.
    destruct (refresh_proportions (fst (l, o)) (snd (l, o)) t) eqn:Q; cbn [fst snd] in Q; rewrite Q; cbn [bind]; auto. }
  apply refreshes_spec in Er. destruct Er as ([R1 R2] & Rg & Rk & Ro). clear E.
  set (c := mapping_is_complete l a) in *. set (h := distinct_others l s1) in *.
  assert (Bd : d_index s' = d_index s /\ d_groups s' = d_groups s /\ d_weights s' = d_weights s /\
    d_links s' = map (fun x => if (k_id x =? l)%Z then with_status (Some h) c x else x) (d_links s) /\
    d_maps s' = d_maps a /\ d_hash s' = d_hash s).
  { subst s'. clearbody c h. rewrite R1, A. repeat split. }
  destruct Bd as (Bi & Bg & Bw & Bl & Bm & Bh).
  assert (Hi : forall i, has_index s' i <-> has_index s i) by (intros; unfold has_index; rewrite Bi; tauto).
  assert (Hf : forall l' o, l' <> l -> from l' o s' = from l' o s).
  { intros l' o Hn. rewrite <- (B l' o Hn), <- (Ro l' o).
    - unfold from. now rewrite Bm.
    - rewrite in_map_iff. intros (x & Ex & _). congruence. }
  assert (Ht : forall l' i, l' <> l -> (has_map s' l' i <-> has_map s l' i)).
  { intros l' i Hn. rewrite !has_map_from. split; intros (o & m & Hm & Em); exists o, m; split; auto;
      [rewrite <- (Hf l' o Hn)|rewrite (Hf l' o Hn)]; auto. }
  assert (Hs : forall l' o, l' <> l -> (has_src s' l' o <-> has_src s l' o)).
  { intros l' o Hn. now rewrite !has_src_from, (Hf l' o Hn). }
  assert (Hc : c = true <-> link_complete s' l).
  { unfold c. rewrite link_complete_iff. unfold link_complete, defined, has_index. rewrite Bm, Bi.
    rewrite R1, A. reflexivity. }
  assert (Hl : forall k, In k (d_links s') ->
     (k_id k = l /\ k_complete k = c /\ k_hash k = Some h) \/ (k_id k <> l /\ In k (d_links s))).
  { intros k Hk. rewrite Bl in Hk. apply in_map_iff in Hk. destruct Hk as (k0 & Ek & Hk).
    destruct (k_id k0 =? l)%Z eqn:Q; subst k; [left|right; split; auto; lia].
    cbn [with_status k_id k_complete k_hash]. repeat split; auto. lia. }
  split.
  - intros [S I]. split; rewrite Bh; auto. intros i. rewrite I. symmetry. apply Hi.
  - intros H' g Hg Ec. rewrite Bg in Hg. specialize (H' g Hg Ec). revert H'.
    apply weight_complete_mono; intros; [now apply Hi|]. unfold has_weight. now rewrite Bw.
  - intros H' k Hk Ec. destruct (Hl k Hk) as [(El & Ek & _)|(Hn & Hk')].
    + rewrite El. apply Hc. congruence.
    + specialize (H' k Hk' Ec). revert H'. apply link_complete_mono; intros; [now apply Hi|]. now apply Ht.
  - intros _ _ H' g Hg (i & Hd & Hz) Hcx. rewrite Bg in Hg. apply H'; auto.
    + exists i. split; auto. now apply Hi.
    + revert Hcx. apply weight_complete_mono; intros; [now apply Hi|]. unfold has_weight in *. now rewrite Bw in *.
  - intros _ _ _ H' k Hk (i & Hd & Hz) Hcx. destruct (Hl k Hk) as [(El & Ek & _)|(Hn & Hk')].
    + rewrite Ek. apply Hc. rewrite <- El. exact Hcx.
    + apply H'; auto.
      * exists i. split; auto. now apply Hi.
      * revert Hcx. apply link_complete_mono; intros; [now apply Hi|]. now apply Ht.
  - intros _ _ H' k Hk. destruct (Hl k Hk) as [(El & _ & Ek)|(Hn & Hk')].
    + rewrite Ek. split; [|discriminate]. intros h' Eh. injection Eh as <-. rewrite El.
      eapply sources_same; [|apply distinct_others_spec]. intros o.
      transitivity (has_src a l o); [unfold has_src; now rewrite Bm|].
      apply reprop_has_src. split; auto.
    + destruct (H' k Hk') as [H1 H2]. split.
      * intros h' Eh. eapply sources_same; [|apply H1; exact Eh]. intros o. now apply Hs.
      * intros En m Hm Em. assert (Hx : has_src s' (k_id k) (m_other m)) by (exists m; auto).
        rewrite Hs in Hx by exact Hn. destruct Hx as (m0 & Hm0 & E0 & _). exact (H2 En m0 Hm0 E0).
  - intros _ _ _ Hp. rewrite proportions_good in *. intros l' o m Hm.
    assert (Ea : forall l' o, from l' o s' = from l' o a) by (intros; unfold from; now rewrite Bm).
    destruct (Z.eq_dec l' l) as [->|Hn].
    + destruct (in_dec Z.eq_dec o h) as [Ho|Ho].
      * unfold good in Rg. rewrite Ea in *. apply (Rg l o); auto. apply in_map_iff. eauto.
      * assert (Hneg : (o < 0)%Z \/ ~ (o < 0)%Z) by lia. destruct Hneg as [Hneg|Hneg]; [split; lia|].
        exfalso. apply Ho. apply (distinct_others_spec l s1). destruct (Z.eq_dec o 0); [now left|right].
        split; [lia|]. rewrite Ea in Hm.
        assert (Hx : has_src s1 l o). { apply (reprop_has_src s1 a); [split; auto|]. apply has_src_from. eauto. }
        destruct Hx as (m0 & Hm0 & E1 & E2). eauto.
    + unfold good in Hp. rewrite Hf in * by exact Hn. now apply Hp.
  - intros H' k h' Hk Eh. destruct (Hl k Hk) as [(El & _ & Ek)|(Hn & Hk')].
    + rewrite Ek in Eh. injection Eh as <-. rewrite El.
      eapply sources_same; [|apply distinct_others_spec]. intros o.
      transitivity (has_src a l o); [unfold has_src; now rewrite Bm|].
      apply reprop_has_src. split; auto.
    + eapply sources_same; [|exact (H' k h' Hk' Eh)]. intros o. now apply Hs.
Qed.

Lemma insert_mappings2_kept r n rows s s' : insert_mappings2 r n rows s = Ok s' -> kept s s'.
Proof.
  intros H. unfold insert_mappings2 in H. step_res H. step_res H.
  assert (T : mapchange (k_id a) s (fst a0) /\ (snd a0 = false -> fst a0 = s)).
  { revert E0. apply (fold_res_inv (fun x => mapchange (k_id a) s (fst x) /\ (snd x = false -> fst x = s))).
    { split; auto. apply mapchange_refl. }
    intros x row x' _ [T1 T2] H1. unfold insert_mappings2_row in H1. repeat step_res H1; subst; auto.
    cbn [fst snd]. split; [|discriminate]. eapply mapchange_trans; [exact T1|]. eapply mapchange_add; eauto. }
  destruct T as [T1 T2]. destruct (snd a0) eqn:Es.
  - eapply refresh_link_kept; eauto.
  - injection H as <-. rewrite (T2 eq_refl). apply kept_refl.
Qed.
Lemma insert_mappings_kept r n rows s s' : insert_mappings r n rows s = Ok s' -> kept s s'.
Proof.
  intros H. unfold insert_mappings in H. step_res H. step_res H.
  assert (T : mapchange (k_id a) s (fst a0) /\ (snd a0 = false -> fst a0 = s)).
  { revert E0. apply (fold_res_inv (fun x => mapchange (k_id a) s (fst x) /\ (snd x = false -> fst x = s))).
    { split; auto. apply mapchange_refl. }
    intros x row x' _ [T1 T2] H1. unfold insert_mappings_row in H1.
    repeat (step_res H1; [..|try discriminate]); subst; auto; try discriminate.
    cbn [fst snd]. split; [|discriminate]. eapply mapchange_trans; [exact T1|]. eapply mapchange_add; eauto. }
  destruct T as [T1 T2]. destruct (snd a0) eqn:Es.
  - eapply refresh_link_kept; eauto.
  - injection H as <-. rewrite (T2 eq_refl). apply kept_refl.
Qed.
Lemma map_find_at l o i s m : map_find l o i s = Some m ->
  In m (d_maps s) /\ m_link m = l /\ m_other m = o /\ m_index m = i.
Proof.
  intros H. apply find_some in H. destruct H as [Hm H]. apply andb_true_iff in H. destruct H as [H1 H2].
  apply map_at_iff in H1. repeat split; try tauto. lia.
Qed.

Lemma delete_mappings_rows_change l rows s :
  let x := fold_left (delete_mappings_row l) rows (s, false) in
  mapchange l s (fst x) /\ (snd x = false -> fst x = s).
Proof.
  cbv zeta. apply (fold_left_inv (fun x => mapchange l s (fst x) /\ (snd x = false -> fst x = s))).
  { split; auto. apply mapchange_refl. }
  intros x r _ [T1 T2]. unfold delete_mappings_row.
  destruct (index_find (mr_index r) (fst x)); auto. destruct (negb _); auto.
  destruct (map_find l (mr_other r) (mr_index r) (fst x)) as [m|] eqn:Ef; auto.
  destruct (negb _); auto. destruct (negb _); auto. cbn [fst snd]. split; [|discriminate].
  eapply mapchange_trans; [exact T1|]. apply map_find_at in Ef. destruct Ef as (_ & <- & _). apply mapchange_delete.
Qed.
Lemma delete_mappings_rows_kept r n rows s s' : delete_mappings_rows r n rows s = Ok s' -> kept s s'.
Proof.
  intros H. unfold delete_mappings_rows in H. step_res H. step_res H; [discriminate|]. cbv zeta in H.
  destruct (delete_mappings_rows_change (k_id a) rows s) as [T1 T2]. step_res H.
  - eapply refresh_link_kept; eauto.
  - injection H as <-. rewrite T2 by auto. apply kept_refl.
Qed.

Lemma delete_mappings_criteria_change l (p : mapping -> bool) recs s :
  let x := fold_left (fun x r =>
      fold_left (fun x m => if p m then (map_delete m (fst x), true) else x)
        (filter (fun m => (m_link m =? l)%Z && (m_index m =? ix_id r)%Z) (d_maps (fst x))) x)
      recs (s, false) in
  mapchange l s (fst x) /\ (snd x = false -> fst x = s).
Proof.
  cbv zeta. apply (fold_left_inv (fun x => mapchange l s (fst x) /\ (snd x = false -> fst x = s))).
  { split; auto. apply mapchange_refl. }
  intros x r _ T. cbv beta.
  apply (fold_left_inv (fun x => mapchange l s (fst x) /\ (snd x = false -> fst x = s))); auto.
  intros y m Hm [T1 T2]. destruct (p m); auto. cbn [fst snd]. split; [|discriminate].
  apply filter_In in Hm. assert (m_link m = l) by lia. subst l.
  eapply mapchange_trans; [exact T1|]. apply mapchange_delete.
Qed.
Lemma delete_mappings_criteria_kept r n c s s' : delete_mappings_criteria r n c s = Ok s' -> kept s s'.
Proof.
  intros H. unfold delete_mappings_criteria in H. step_res H. step_res H; [discriminate|]. cbv zeta in H.
  destruct (delete_mappings_criteria_change (k_id a) (level_within (criteria_flags c s)) (filter_by_label c s) s) as [T1 T2].
  match type of H with (if snd ?x then _ else _) = _ => set (y := x) in * end.
  change (mapchange (k_id a) s (fst y)) in T1. change (snd y = false -> fst y = s) in T2. clearbody y.
  step_res H.
  - eapply refresh_link_kept; eauto.
  - injection H as <-. rewrite T2 by auto. apply kept_refl.
Qed.

(** update_mappings *)
Record um_effect (l : Z) (s : db) (st : um_state) : Prop := {
  um_change : mapchange l s (um_db st);
  um_same : um_inserted st = false -> same_targets s (um_db st) /\ same_sources s (um_db st);
  um_none : um_inserted st = false -> um_updated st = false -> um_db st = s
}.
Lemma map_update_same m m' s s' : map_update m m' s = Ok s' -> In m (d_maps s) ->
  m_link m' = m_link m -> m_other m' = m_other m -> m_index m' = m_index m ->
  same_targets s s' /\ same_sources s s'.
Proof.
  intros H Hm E1 E2 E3. unfold map_update in H. repeat step_res H; try discriminate. subst s'.
  assert (K : forall x, In x (d_maps s) ->
    m_link (if same_map m x then m' else x) = m_link x /\ m_other (if same_map m x then m' else x) = m_other x /\
    m_index (if same_map m x then m' else x) = m_index x).
  { intros x _. destruct (same_map m x) eqn:Es; auto. apply same_map_iff in Es. unfold mkey in Es.
    injection Es as Q1 Q2 Q3 _. repeat split; congruence. }
  split; intros l i; split; intros (x & Hx & Q1 & Q2); cbn [set_maps d_maps] in *.
  - apply in_map_iff in Hx. destruct Hx as (y & <- & Hy). destruct (K y Hy) as (K1 & K2 & K3). exists y. repeat split; auto; congruence.
  - destruct (K x Hx) as (K1 & K2 & K3). eexists. split; [apply in_map_iff; exists x; split; [reflexivity|exact Hx]|]. split; congruence.
  - apply in_map_iff in Hx. destruct Hx as (y & <- & Hy). destruct (K y Hy) as (K1 & K2 & K3). exists y. repeat split; auto; congruence.
  - destruct (K x Hx) as (K1 & K2 & K3). eexists. split; [apply in_map_iff; exists x; split; [reflexivity|exact Hx]|]. split; congruence.
Qed.

Lemma um_row_effect l s st r st' : um_effect l s st -> update_mappings_row l st r = Ok st' -> um_effect l s st'.
Proof.
  intros [A B C] H. unfold update_mappings_row in H.
  repeat (step_res H; [..|try discriminate]); try discriminate; subst; try (split; assumption).
  - match goal with H : map_find _ _ _ _ = Some _ |- _ => apply map_find_at in H; destruct H as (Hm & Q1 & Q2 & Q3) end.
    match goal with H : map_update _ _ _ = Ok _ |- _ =>
      pose proof (mapchange_update _ _ _ _ H eq_refl) as Mc;
      destruct (map_update_same _ _ _ _ H Hm eq_refl eq_refl eq_refl) as [S1 S2] end.
    split; cbn [um_db um_inserted um_updated]; try discriminate.
    + eapply mapchange_trans; [exact A|]. rewrite <- Q1. exact Mc.
    + intros Hi. destruct (B Hi) as [B1 B2]. split; intros x y.
      * rewrite (S1 x y). apply B1.
      * rewrite (S2 x y). apply B2.
  - match goal with H : map_add _ _ _ _ _ _ _ = Ok _ |- _ => apply mapchange_add in H end.
    split; cbn [um_db um_inserted um_updated]; try discriminate. eapply mapchange_trans; eauto.
Qed.

Lemma refreshes_of_link l os s : fold_res (fun s o => refresh_proportions l o s) os s =
  refreshes (map (fun o => (l, o)) os) s.
Proof.
  revert s. induction os as [|o os IH]; intros t; auto. unfold refreshes. cbn [map fold_res fst snd].
  destruct (refresh_proportions l o t); cbn [bind]; auto.
Qed.

Lemma update_mappings_kept r n rows s s' : update_mappings r n rows s = Ok s' -> kept s s'.
Proof.
  intros H. unfold update_mappings in H. step_res H. step_res H.
  assert (T : um_effect (k_id a) s a0).
  { revert E0. apply (fold_res_inv (um_effect (k_id a) s)).
    - split; auto; try apply mapchange_refl. intros _. split; intros x y; reflexivity.
    - intros x row x' _ T H1. eapply um_row_effect; eauto. }
  clear E0. destruct T as [[T1 T1'] T2 T3]. destruct (um_inserted a0) eqn:Ei.
  { apply (refresh_link_kept (k_id a) s (um_db a0) s'); [split; auto|exact H]. }
  destruct (um_updated a0) eqn:Eu.
  2: { injection H as <-. rewrite (T3 eq_refl eq_refl). apply kept_refl. }
  destruct (T2 eq_refl) as [Tt Ts]. clear T2 T3. set (s1 := um_db a0) in *. clearbody s1.
  rewrite refreshes_of_link in H. apply refreshes_spec in H. destruct H as ([R1 R2] & Rg & Rk & Ro).
  assert (Bd : d_index s' = d_index s /\ d_groups s' = d_groups s /\ d_weights s' = d_weights s /\
    d_links s' = d_links s /\ d_hash s' = d_hash s).
  { rewrite R1, T1. repeat split. }
  destruct Bd as (Bi & Bg & Bw & Bl & Bh).
  assert (Hi : same_ids s s') by (intros i; unfold has_index; rewrite Bi; tauto).
  assert (Ht : same_targets s s').
  { intros x y. rewrite <- (Tt x y). apply reprop_has_map. split; auto. }
  assert (Hs : same_sources s s').
  { intros x y. rewrite <- (Ts x y). apply reprop_has_src. split; auto. }
  split.
  - apply hash_same; auto.
  - apply gsound_mono; rewrite ?Bg; [intros i; apply Hi| |eauto].
    intros g i _. unfold has_weight. now rewrite Bw.
  - apply lsound_mono; rewrite ?Bl; [intros i; apply Hi| |eauto].
    intros g i _. apply Ht.
  - intros _ _. apply gfull_same; auto.
    + intros x y. unfold has_weight. now rewrite Bw.
    + rewrite Bg. eauto.
  - intros _ _ _. apply lfull_same; auto. rewrite Bl. eauto.
  - intros _ _. apply lhash_same; auto. rewrite Bl. eauto.
  - intros _ _ _ Hp. rewrite proportions_good in *. intros l o m Hm.
    destruct (Z.eq_dec l (k_id a)) as [->|Hn].
    + destruct (in_dec Z.eq_dec o (distinct_others (k_id a) s1)) as [Ho|Ho].
      * apply (Rg (k_id a) o); auto. apply in_map_iff. eauto.
      * assert (Hneg : (o < 0)%Z \/ ~ (o < 0)%Z) by lia. destruct Hneg as [Hneg|Hneg]; [split; lia|].
        exfalso. apply Ho. apply (distinct_others_spec (k_id a) s1). destruct (Z.eq_dec o 0); [now left|right].
        split; [lia|].
        assert (Hx : has_src s1 (k_id a) o). { apply (reprop_has_src s1 s'); [split; auto|]. apply has_src_from. eauto. }
        destruct Hx as (m0 & Hm0 & E1 & E2). eauto.
    + apply (Rk l o); auto. unfold good. rewrite T1' by exact Hn. apply Hp.
  - apply lsrc_same; auto. rewrite Bl. eauto.
Qed.

(** *** reify_mappings *)

Definition nolevel (m : mapping) : mapping := with_level m [].
Lemma from_nolevel_gen P l : filter (fun m => P (m_link m) (m_other m)) (map nolevel l) =
  map nolevel (filter (fun m => P (m_link m) (m_other m)) l).
Proof.
  induction l as [|x l IH]; cbn [map filter nolevel with_level m_link m_other]; auto.
  destruct (P (m_link x) (m_other x)); cbn [map]; [f_equal|]; auto.
Qed.
Lemma from_nolevel l o s s' : map nolevel (d_maps s') = map nolevel (d_maps s) ->
  map nolevel (from l o s') = map nolevel (from l o s).
Proof.
  intros E. unfold from.
  rewrite <- !(from_nolevel_gen (fun a b => (a =? l)%Z && (b =? o)%Z)). now rewrite E.
Qed.
Lemma share_nolevel a b : map nolevel a = map nolevel b -> map share a = map share b.
Proof.
  intros E. assert (H : forall l, map share l = map share (map nolevel l)).
  { intros l. rewrite map_map. apply map_ext. reflexivity. }
  now rewrite (H a), (H b), E.
Qed.
Lemma nolevel_in a b m : map nolevel a = map nolevel b -> In m a -> exists m', In m' b /\
  m_link m' = m_link m /\ m_other m' = m_other m /\ m_index m' = m_index m /\ m_prop m' = m_prop m.
Proof.
  intros E H. apply (in_map nolevel) in H. rewrite E in H. apply in_map_iff in H.
  destruct H as (m' & Em & H). exists m'. unfold nolevel, with_level in Em. injection Em. auto 6.
Qed.

Lemma nolevel_kept s s' : s' = set_maps (d_maps s') s -> map nolevel (d_maps s') = map nolevel (d_maps s) ->
  kept s s'.
Proof.
  intros A E.
  assert (Bd : d_index s' = d_index s /\ d_groups s' = d_groups s /\ d_weights s' = d_weights s /\
    d_links s' = d_links s /\ d_hash s' = d_hash s).
  { rewrite A. repeat split. }
  destruct Bd as (Bi & Bg & Bw & Bl & Bh).
  assert (Hi : same_ids s s') by (intros i; unfold has_index; rewrite Bi; tauto).
  assert (Ht : same_targets s s').
  { intros l i. split; intros (m & Hm & E1 & E2).
    - destruct (nolevel_in _ _ _ E Hm) as (m' & Hm' & Q1 & Q2 & Q3 & _). exists m'. repeat split; auto; congruence.
    - symmetry in E. destruct (nolevel_in _ _ _ E Hm) as (m' & Hm' & Q1 & Q2 & Q3 & _). exists m'. repeat split; auto; congruence. }
  assert (Hs : same_sources s s').
  { intros l i. split; intros (m & Hm & E1 & E2).
    - destruct (nolevel_in _ _ _ E Hm) as (m' & Hm' & Q1 & Q2 & Q3 & _). exists m'. repeat split; auto; congruence.
    - symmetry in E. destruct (nolevel_in _ _ _ E Hm) as (m' & Hm' & Q1 & Q2 & Q3 & _). exists m'. repeat split; auto; congruence. }
  split.
  - apply hash_same; auto.
  - apply gsound_mono; rewrite ?Bg; [intros i; apply Hi| |eauto].
    intros g i _. unfold has_weight. now rewrite Bw.
  - apply lsound_mono; rewrite ?Bl; [intros i; apply Hi| |eauto].
    intros g i _. apply Ht.
  - intros _ _. apply gfull_same; auto.
    + intros x y. unfold has_weight. now rewrite Bw.
    + rewrite Bg. eauto.
  - intros _ _ _. apply lfull_same; auto. rewrite Bl. eauto.
  - intros _ _. apply lhash_same; auto. rewrite Bl. eauto.
  - intros _ _ _ Hp m Hm. destruct (nolevel_in _ _ _ E Hm) as (m' & Hm' & Q1 & Q2 & Q3 & Q4).
    rewrite (share_nolevel _ _ (from_nolevel (m_link m) (m_other m) s s' E)).
    rewrite <- Q1, <- Q2, <- Q4. now apply Hp.
  - apply lsrc_same; auto. rewrite Bl. eauto.
Qed.

Lemma map_update_level lv m s0 s s' : NoDup (map mkey (d_maps s0)) -> In m (d_maps s0) -> m_level m <> lv ->
  (forall x, In x (d_maps s) -> m_level x = lv \/ In x (d_maps s0)) ->
  map_update m (with_level m lv) s = Ok s' ->
  s' = set_maps (d_maps s') s /\ map nolevel (d_maps s') = map nolevel (d_maps s) /\
  (forall x, In x (d_maps s') -> m_level x = lv \/ In x (d_maps s0)).
Proof.
  intros N Hm Hl I H. unfold map_update in H. repeat step_res H; try discriminate. subst s'. split; [reflexivity|].
  cbn [set_maps d_maps].
  assert (K : forall x, In x (d_maps s) -> same_map m x = true -> x = m).
  { intros x Hx Es. apply same_map_iff in Es. destruct (I x Hx) as [Q|Q].
    - unfold mkey in Es. congruence.
    - symmetry. eapply nodup_map_inj; eauto. }
  split.
  - rewrite map_map. apply map_ext_in. intros x Hx. destruct (same_map m x) eqn:Es; auto.
    rewrite (K x Hx Es). reflexivity.
  - intros x Hx. apply in_map_iff in Hx. destruct Hx as (y & <- & Hy). destruct (same_map m y); auto.
Qed.

Lemma reify_list_level lv ms s0 : NoDup (map mkey (d_maps s0)) ->
  (forall m, In m ms -> In m (d_maps s0) /\ m_level m <> lv) ->
  forall s, (forall x, In x (d_maps s) -> m_level x = lv \/ In x (d_maps s0)) ->
  fst (reify_list lv ms s) = set_maps (d_maps (fst (reify_list lv ms s))) s /\
  map nolevel (d_maps (fst (reify_list lv ms s))) = map nolevel (d_maps s).
Proof.
  intros N. induction ms as [|m ms IH]; intros Hm s I; cbn [reify_list].
  - split; auto. now destruct s.
  - destruct (map_update m (with_level m lv) s) as [s1|e] eqn:E.
    + destruct (Hm m (or_introl eq_refl)) as [H1 H2].
      destruct (map_update_level _ _ _ _ _ N H1 H2 I E) as (A & B & C).
      destruct (IH (fun x Hx => Hm x (or_intror Hx)) s1 C) as [A' B'].
      split; [|congruence]. revert A'. generalize (fst (reify_list lv ms s1)). intros t ->. rewrite A. reflexivity.
    + cbn [fst]. split; auto. now destruct s.
Qed.

Lemma reify_nolevel r n c s : maps_wf s ->
  fst (reify_mappings r n c s) = set_maps (d_maps (fst (reify_mappings r n c s))) s /\
  map nolevel (d_maps (fst (reify_mappings r n c s))) = map nolevel (d_maps s).
Proof.
  intros W. apply maps_wf_alt in W. destruct W as [N _]. unfold reify_mappings.
  destruct (get_link r (Some n) true (d_links s)) as [k|e]; [|split; auto; now destruct s].
  cbv zeta. destruct (nil_b c).
  - apply (reify_list_level _ _ s N); auto. intros m Hm. apply filter_In in Hm. destruct Hm as [Hm Ha].
    apply filter_In in Hm. split; [tauto|]. intros Q. rewrite <- Q in Ha.
    assert (Hb : bytes_eqb (m_level m) (m_level m) = true) by now apply bytes_eqb_iff.
    rewrite Hb in Ha. discriminate.
  - apply (reify_list_level _ _ s N); auto. intros m Hm. apply in_flat_map in Hm. destruct Hm as (rec & _ & Hm).
    apply filter_In in Hm. destruct Hm as [Hm Ha]. apply filter_In in Hm. split; [tauto|]. intros Q.
    rewrite <- Q in Ha. assert (Hb : bytes_eqb (m_level m) (m_level m) = true) by now apply bytes_eqb_iff.
    rewrite Hb in Ha. cbn in Ha. lia.
Qed.
Lemma reify_kept r n c s : maps_wf s -> kept s (fst (reify_mappings r n c s)).
Proof. intros W. destruct (reify_nolevel r n c s W). now apply nolevel_kept. Qed.

(** *** Label columns *)

Lemma columns_kept s s' : map ix_id (d_index s') = map ix_id (d_index s) -> d_hash s' = d_hash s ->
  d_groups s' = d_groups s -> d_weights s' = d_weights s -> d_links s' = d_links s -> d_maps s' = d_maps s ->
  kept s s'.
Proof.
  intros Bi Bh Bg Bw Bl Bm. apply kept_frame; auto.
  - now apply ids_eq.
  - intros g Hg. rewrite Bg in Hg. exists g. repeat split; auto; unfold has_weight; now rewrite Bw.
  - intros k Hk. rewrite Bl in Hk. exists k. repeat split; auto. intros o. unfold from. now rewrite Bm.
  - intros m Hm. unfold from. rewrite Bm in *. auto.
Qed.
Lemma add_columns_kept c s s' : add_columns c s = Ok s' -> kept s s'.
Proof.
  intros H. unfold add_columns in H. repeat step_res H; try discriminate. subst s'. apply columns_kept; auto.
  cbn [set_labels_index d_index]. rewrite map_map. reflexivity.
Qed.
Lemma rename_columns_kept m s s' : rename_columns m s = Ok s' -> kept s s'.
Proof.
  intros H. unfold rename_columns in H. repeat step_res H; try discriminate. subst s'. now apply columns_kept.
Qed.
Lemma drop_columns_kept c b s s' : drop_columns c b s = Ok s' -> kept s s'.
Proof.
  intros H. unfold drop_columns in H. cbv zeta in H. repeat step_res H; try discriminate. subst s'. apply columns_kept; auto.
  cbn [set_structs set_labels_index d_index]. rewrite map_map. reflexivity.
Qed.
