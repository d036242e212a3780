(** Reading one quantity. *)
From Verif Require Import Prelude QLemmas BitFlags_Model BitFlags_Spec BitFlags_Proofs Selectors_Model Selectors_Spec Selectors_Proofs
  LinkRef_Model LinkRef_Proofs Db_Model Db_Spec Db_Proofs Db_ProofsLocal Quantize_Model Quantize_Spec Quantize_Proofs
  Disaggregate_Model Disaggregate_Spec Disaggregate_Proofs Reader_Model Reader_Spec Reader_Proofs
  Mapper_Model Mapper_Spec Mapper_Proofs Mapper_Proofs2 Mapper_Proofs3 Quantity_Model Quantity_Spec Quantity_Proofs Quantity_Proofs2
  Quantity_Proofs3 SpaceRead_Model SpaceRead_Spec.
From Coq Require Import Permutation Lqa Qabs.
From Coq Require Import ZifyBool ZifyNat ZifyN.
Local Open Scope nat_scope.

(** *** Attributes *)

Lemma dict_set_in k v a k' v' : dict a ->
  In (k', v') (dict_set k v a) <-> (k' = k /\ v' = v) \/ (k' <> k /\ In (k', v') a).
Proof.
  unfold dict. induction a as [|[k0 v0] a IH]; intros Hd.
  - cbn. split; [intros [H|[]]; inversion H; auto|intros [[-> ->]|[_ []]]; auto].
  - cbn [map fst] in Hd. inversion Hd as [|? ? Hn Hd']; subst. cbn [dict_set].
    destruct (text_eqb k k0) eqn:E.
    + apply text_eqb_iff in E. subst k0. cbn [In]. split.
      * intros [H|H]; [inversion H; auto|]. right. split; [|auto]. intros ->.
        apply Hn. apply in_map_iff. now exists (k, v').
      * intros [[-> ->]|[Hne [H|H]]]; auto. inversion H; subst; congruence.
    + cbn [In]. rewrite (IH Hd'). split.
      * intros [H|[[-> ->]|[Hne H]]]; auto. inversion H; subst. right. split; auto. intros ->.
        rewrite (proj2 (text_eqb_iff k k) eq_refl) in E. discriminate.
      * intros [[-> ->]|[Hne [H|H]]]; auto.
Qed.
Lemma dict_set_keys k v a k' : In k' (map fst (dict_set k v a)) <-> k' = k \/ In k' (map fst a).
Proof.
  induction a as [|[k0 v0] a IH]; cbn [dict_set map fst In]; [intuition|].
  destruct (text_eqb k k0) eqn:E; cbn [map fst In].
  - apply text_eqb_iff in E. subst. intuition.
  - rewrite IH. intuition.
Qed.
Lemma dict_set_dict k v a : dict a -> dict (dict_set k v a).
Proof.
  unfold dict. induction a as [|[k0 v0] a IH]; intros Hd; cbn [dict_set]; [repeat constructor; cbn; tauto|].
  cbn [map fst] in Hd. inversion Hd as [|? ? Hn Hd']; subst.
  destruct (text_eqb k k0) eqn:E; cbn [map fst]; constructor; auto.
  rewrite dict_set_keys. intros [-> |H]; [|auto]. rewrite (proj2 (text_eqb_iff k k) eq_refl) in E. discriminate.
Qed.
Lemma add_domain_spec s a : dict a -> with_domain s a (add_domain s a).
Proof.
  intros Hd. unfold with_domain, add_domain. destruct (is_empty (s_domain s)) eqn:E.
  - apply is_empty_iff in E. split; [exact Hd|]. intros k v. rewrite E. split.
    + intros H. right. split; [|exact H]. now intros [? _].
    + intros [[? _]|[_ H]]; [easy|exact H].
  - assert (Hne : s_domain s <> []) by (intros H; apply is_empty_iff in H; congruence).
    split; [now apply dict_set_dict|]. intros k v. rewrite dict_set_in by exact Hd. split.
    + intros [[-> ->]|[Hk H]]; [left; auto|right]. split; [|exact H]. now intros [_ ?].
    + intros [(_ & -> & ->)|[Hk H]]; [left; auto|right]. split; [|exact H]. intros ->. now apply Hk.
Qed.
Lemma with_domain_perm s a f f' : with_domain s a f -> with_domain s a f' -> forall k v, In (k, v) f <-> In (k, v) f'.
Proof. intros [_ H] [_ H'] k v. now rewrite H, H'. Qed.
Lemma filter_attrs_in names s a k v : In (k, v) (filter_attrs names s a) <-> In (k, v) a /\ to_show s names k.
Proof.
  unfold filter_attrs, to_show. destruct names as [|n names]; [intuition|].
  rewrite filter_In, existsb_exists. cbn [fst].
  destruct (is_empty (s_domain s)) eqn:E.
  - apply is_empty_iff in E. rewrite E. split.
    + intros [H (x & Hx & Ex)]. apply text_eqb_iff in Ex. subst x. auto.
    + intros [H [?|[Hk|[? _]]]]; [easy| |easy]. split; [exact H|]. exists k. split; [exact Hk|now apply text_eqb_iff].
  - assert (Hne : s_domain s <> []) by (intros H; apply is_empty_iff in H; congruence). split.
    + intros [H (x & Hx & Ex)]. apply text_eqb_iff in Ex. subst x. split; [exact H|]. cbn [In] in Hx.
      destruct Hx as [<-|Hx]; auto.
    + intros [H [?|[Hk|[_ ->]]]]; [easy| |].
      * split; [exact H|]. exists k. split; [now right|now apply text_eqb_iff].
      * split; [exact H|]. exists (txt "domain"). split; [now left|now apply text_eqb_iff].
Qed.
Lemma filter_attrs_dict names s a : dict a -> dict (filter_attrs names s a).
Proof.
  intros Hd. unfold filter_attrs. destruct names; [exact Hd|]. now apply nodup_map_filter.
Qed.

(** *** Levels *)

Lemma same_bits_eq a : forall b, length a = length b -> same_bits a b -> a = b.
Proof.
  induction a as [|x a IH]; intros [|y b] Hl H; try discriminate; [reflexivity|].
  f_equal; [exact (H 0)|]. apply IH; [now inversion Hl|]. intros i. exact (H (S i)).
Qed.
Definition pattern (labels : list text) : list bool := map (fun v => negb (is_empty v)) labels.
Lemma level_matches_iff bits : forall labels, length bits = length labels ->
  (level_matches bits labels = true <-> bits = pattern labels).
Proof.
  unfold level_matches, pattern.
  induction bits as [|b bits IH]; intros [|v labels] Hl; try discriminate; [easy|].
  cbn [combine forallb map fst snd]. rewrite andb_true_iff, Bool.eqb_true_iff, IH by now inversion Hl.
  split; [intros [-> ->]; reflexivity|intros H; inversion H; auto].
Qed.
Lemma structured_pattern s labels : structs_ok s -> length labels = length (d_labels (s_db s)) ->
  (structured s labels <-> In (pattern labels) (d_structs (s_db s))).
Proof.
  intros W Hl. unfold structured. fold (pattern labels). split.
  - intros (bits & Hb & Hs). rewrite <- (same_bits_eq bits (pattern labels)); auto.
    unfold pattern. rewrite map_length, (so_arity _ W bits Hb). auto.
  - intros H. exists (pattern labels). split; [exact H|]. now intros i.
Qed.

Definition leg (x y : option Q) : Prop :=
  match x, y with Some x, Some y => (x <= y)%Q | None, _ => True | Some _, None => False end.
Lemma gran_key_le s a b : gran_ok s -> leg (s_gran s a) (s_gran s b) <-> (gran_key (s_gran s a) <= gran_key (s_gran s b))%Q.
Proof.
  intros G. unfold leg, gran_key. pose proof (G a) as Ga. pose proof (G b) as Gb.
  destruct (s_gran s a) as [x|], (s_gran s b) as [y|]; try specialize (Ga _ eq_refl); try specialize (Gb _ eq_refl).
  - tauto.
  - split; [tauto|]. intros. lra.
  - split; [intros; lra|tauto].
  - split; [intros; lra|tauto].
Qed.
Lemma gran_eqb_iff s a b : gran_ok s -> gran_eqb (s_gran s a) (s_gran s b) = true <->
  leg (s_gran s a) (s_gran s b) /\ leg (s_gran s b) (s_gran s a).
Proof.
  intros G. unfold leg, gran_eqb. destruct (s_gran s a) as [x|], (s_gran s b) as [y|]; try intuition congruence.
  rewrite Qeq_bool_iff. split; [intros; split; lra|intros [? ?]; lra].
Qed.
Lemma finest_iff s labels first rest : structs_ok s -> gran_ok s -> length labels = length (d_labels (s_db s)) ->
  In (pattern labels) (d_structs (s_db s)) -> structures s = first :: rest ->
  (gran_eqb (s_gran s (pattern labels)) (s_gran s first) = true <-> finest s labels).
Proof.
  intros W G Hl Hin Hst. rewrite gran_eqb_iff by exact G.
  pose proof (sort_levels_sorted (s_gran s) (d_structs (s_db s))) as Hs.
  pose proof (sort_levels_perm (s_gran s) (d_structs (s_db s))) as Hp. fold (structures s) in Hs, Hp.
  rewrite Hst in Hs, Hp. inversion Hs as [|? ? _ Hf]; subst. rewrite Forall_forall in Hf.
  assert (Htop : forall b, In b (d_structs (s_db s)) -> leg (s_gran s b) (s_gran s first)).
  { intros b Hb. apply gran_key_le; [exact G|]. apply (Permutation_in _ Hp) in Hb.
    destruct Hb as [<-|Hb]; [lra|]. now apply Hf. }
  assert (Hfirst : In first (d_structs (s_db s))) by (apply (Permutation_in _ (Permutation_sym Hp)); now left).
  split.
  - intros [_ H]. exists (pattern labels). split; [exact Hin|]. split; [now intros i|].
    intros b Hb. fold (leg (s_gran s b) (s_gran s (pattern labels))).
    apply gran_key_le; [exact G|]. apply gran_key_le in H; [|exact G].
    specialize (Htop b Hb). apply gran_key_le in Htop; [|exact G]. lra.
  - intros (bits & Hb & Hsb & Ht). assert (bits = pattern labels).
    { apply same_bits_eq; [|exact Hsb]. unfold pattern. rewrite map_length, (so_arity _ W bits Hb). auto. }
    subst bits. split; [now apply Htop|]. exact (Ht first Hfirst).
Qed.
Lemma finest_structured s labels : finest s labels -> structured s labels.
Proof. intros (b & H1 & H2 & _). now exists b. Qed.

(** *** Weight groups *)

Lemma selector_dict_in s i sels : In (i, sels) (selector_dict s) ->
  exists l, sels = Some l /\ l <> [] /\ In (i, l) (s_sels s) /\
  exists g, In g (d_groups (s_db s)) /\ g_id g = i /\ g_complete g = true.
Proof.
  unfold selector_dict. intros H. apply in_flat_map in H. destruct H as (g & Hg & H).
  destruct (g_complete g) eqn:Ec; [|easy]. destruct (find _ (s_sels s)) as [[j [|x l]]|] eqn:Ef; try easy.
  apply find_some in Ef. destruct Ef as [Hin Ej]. cbn [fst] in Ej. apply Z.eqb_eq in Ej. subst j.
  destruct H as [H|[]]. inversion H; subst. exists (x :: l). repeat split; [discriminate|exact Hin|]. exists g. auto.
Qed.
Lemma selector_dict_nodup s : NoDup (map g_id (d_groups (s_db s))) -> NoDup (map fst (selector_dict s)).
Proof.
  unfold selector_dict. induction (d_groups (s_db s)) as [|g l IH]; intros Hd; [constructor|].
  cbn [map] in Hd. inversion Hd as [|? ? Hn Hd']; subst. cbn [flat_map]. rewrite map_app.
  assert (Hsub : forall i, In i (map fst (flat_map (fun g => if g_complete g then
       match find (fun p => (fst p =? g_id g)%Z) (s_sels s) with
       | Some (_, x :: l) => [(g_id g, Some (x :: l))] | _ => [] end else []) l)) -> In i (map g_id l)).
  { intros i H. apply in_map_iff in H. destruct H as ([j z] & <- & H). apply in_flat_map in H.
    destruct H as (g' & Hg' & H). destruct (g_complete g'); [|easy].
    destruct (find _ (s_sels s)) as [[? [|]]|]; try easy. destruct H as [H|[]]. inversion H; subst.
    cbn [fst]. now apply in_map. }
  destruct (g_complete g); [|cbn [map app]; now apply IH].
  destruct (find _ (s_sels s)) as [[? [|]]|]; cbn [map app fst]; try now apply IH.
  constructor; [|now apply IH]. intros H. now apply Hn, Hsub.
Qed.
Lemma selector_dict_rules s : NoDup (map g_id (d_groups (s_db s))) -> sels_ok s ->
  rules s (selector_dict s) /\ all_rules s (selector_dict s).
Proof.
  intros Hd [Hn Hp]. split; [split|].
  - now apply selector_dict_nodup.
  - intros i sels H. now apply selector_dict_in in H.
  - intros g l Hg Hc Hl Hne. unfold selector_dict. apply in_flat_map. exists g. split; [exact Hg|]. rewrite Hc.
    destruct (find (fun p => (fst p =? g_id g)%Z) (s_sels s)) as [[j l']|] eqn:Ef.
    + apply find_some in Ef. destruct Ef as [Hin Ej]. cbn [fst] in Ej. apply Z.eqb_eq in Ej. subst j.
      assert (l' = l) by (eapply nodup_fst_eq; eauto). subst l'. destruct l; [easy|]. now left.
    + apply find_none with (x := (g_id g, l)) in Ef; [|exact Hl]. cbn [fst] in Ef. apply Z.eqb_neq in Ef. easy.
Qed.
Lemma selector_dict_proper s : sels_ok s -> dict_proper Z (selector_dict s).
Proof.
  intros [_ Hp] k l H. apply selector_dict_in in H. destruct H as (l' & E & _ & Hin & _). inversion E; subst l'.
  rewrite Forall_forall. intros x Hx. now apply (Hp k l).
Qed.
Lemma right_key_ext upper a (d d' : list (Z * option (list selector))) k : (forall i sels, In (i, sels) d <-> In (i, sels) d') ->
  right_key upper a d k -> right_key upper a d' k.
Proof.
  intros E (sels & m & H1 & H2 & H3 & H4). exists sels, m. split; [now apply E|]. split; [exact H2|]. split.
  - intros k' s' Hin Hb. apply (H3 k' s'); [now apply E|exact Hb].
  - intros k1 s1 m1 Hin Hb Hlt. destruct (H4 k1 s1 m1) as (k2 & s2 & Hne & Hin2 & Hb2); [now apply E|exact Hb|exact Hlt|].
    exists k2, s2. split; [exact Hne|]. split; [now apply E|exact Hb2].
Qed.
Lemma rules_ext s d d' : rules s d -> all_rules s d -> rules s d' -> all_rules s d' ->
  forall i sels, In (i, sels) d <-> In (i, sels) d'.
Proof.
  intros [_ R] A [_ R'] A' i sels. split; intros H.
  - destruct (R i sels H) as (l & -> & Hne & Hin & g & Hg & <- & Hc). now apply A'.
  - destruct (R' i sels H) as (l & -> & Hne & Hin & g & Hg & <- & Hc). now apply A.
Qed.
(** The group chosen is the one to use. *)
Lemma greatest_uses upper s a default : NoDup (map g_id (d_groups (s_db s))) -> sels_ok s ->
  d_default (s_db s) = Some (Some default) ->
  exists g, greatest_unique upper Z a (selector_dict s) default = Ok g /\ uses upper s a g /\
    forall g', uses upper s a g' -> g' = g.
Proof.
  intros Hd Hs Hdef. destruct (selector_dict_rules s Hd Hs) as [R A].
  destruct (greatest_unique_spec upper Z Z.eq_dec a (selector_dict s) default
              (selector_dict_nodup s Hd) (selector_dict_proper s Hs)) as [(g & Eg & Hg)|[Eg Hn]].
  - exists g. split; [exact Eg|]. split; [exists (selector_dict s); auto|].
    intros g' (d & R' & A' & [Hk|[Hk _]]).
    + apply (right_key_unique upper Z a (selector_dict s)); [|exact Hg].
      eapply right_key_ext; [|exact Hk]. apply rules_ext with (s := s); auto.
    + exfalso. apply (Hk g). eapply right_key_ext; [|exact Hg]. apply rules_ext with (s := s); auto.
  - exists default. split; [exact Eg|]. split; [exists (selector_dict s); auto|].
    intros g' (d & R' & A' & [Hk|[_ Hk]]).
    + exfalso. apply (Hn g'). eapply right_key_ext; [|exact Hk]. apply rules_ext with (s := s); auto.
    + congruence.
Qed.

(** Only the items of a dictionary matter for selectors. *)
Lemma holds_in a k v : dict a -> (holds a k v <-> In (k, v) a \/ (v = [] /\ ~ exists v', In (k, v') a)).
Proof.
  unfold dict. induction a as [|[k0 v0] a IH]; intros Hd.
  - split; [intros H; inversion H; right; split; [reflexivity|now intros [? []]]|intros [[]|[-> _]]; constructor].
  - cbn [map fst] in Hd. inversion Hd as [|? ? Hn Hd']; subst. specialize (IH Hd'). split.
    + intros H. inversion H as [|? ? ?|? ? ? ? ? Hne Hh]; subst; [left; now left|]. apply IH in Hh.
      destruct Hh as [Hh|[-> Hh]]; [left; now right|]. right. split; [reflexivity|].
      intros [v' [E|Hv]]; [inversion E; congruence|]. apply Hh. now exists v'.
    + intros [[E|H]|[-> H]].
      * inversion E; constructor.
      * apply holds_later; [|apply IH; now left]. intros ->. apply Hn. apply in_map_iff. now exists (k0, v).
      * apply holds_later; [intros ->; apply H; exists v0; now left|]. apply IH. right. split; [reflexivity|].
        intros [v' Hv]. apply H. exists v'. now right.
Qed.
Lemma means_ext upper a a' x : (forall k v, holds a k v <-> holds a' k v) -> (means upper a x <-> means upper a' x).
Proof.
  intros E. induction x as [k o v ic|c l IH|c] using selector_ind'.
  - destruct o as [o|], v as [w|]; try destruct ic; cbn [means]; try tauto;
      split; intros (u & H1 & H2); exists u; split; auto; now apply E.
  - destruct c; cbn [means].
    + rewrite !any_means; split; intros (y & Hy & H); exists y; split; auto; rewrite Forall_forall in IH; now apply IH.
    + rewrite !none_means. rewrite Forall_forall in IH. split; intros H y Hy Hm; apply (H y Hy); now apply IH.
    + rewrite !any_means; split; intros (y & Hy & H); exists y; split; auto; rewrite Forall_forall in IH; now apply IH.
    + rewrite !all_means. rewrite Forall_forall in IH. split; intros H y Hy; apply IH; auto.
  - tauto.
Qed.
Lemma best_ext upper a a' sels m : (forall k v, holds a k v <-> holds a' k v) -> best upper a sels m -> best upper a' sels m.
Proof.
  intros E (l & -> & (x & Hx & Hm & Hs) & Ht). exists l. split; [reflexivity|]. split.
  - exists x. split; [exact Hx|]. split; [now apply (means_ext upper a a')|exact Hs].
  - intros y n Hy Hm' Hn. apply (Ht y n Hy); [|exact Hn]. now apply (means_ext upper a a').
Qed.
Lemma right_key_row upper a a' (d : list (Z * option (list selector))) k :
  (forall k v, holds a k v <-> holds a' k v) -> right_key upper a d k -> right_key upper a' d k.
Proof.
  intros E (sels & m & H1 & H2 & H3 & H4). assert (E' : forall k v, holds a' k v <-> holds a k v) by (intros; symmetry; apply E).
  exists sels, m. split; [exact H1|]. split; [now apply (best_ext upper a a')|]. split.
  - intros k' s' Hin Hb. apply (H3 k' s' Hin). now apply (best_ext upper a' a).
  - intros k1 s1 m1 Hin Hb Hlt. destruct (H4 k1 s1 m1 Hin) as (k2 & s2 & Hne & Hin2 & Hb2); [now apply (best_ext upper a' a)|exact Hlt|].
    exists k2, s2. split; [exact Hne|]. split; [exact Hin2|]. now apply (best_ext upper a a').
Qed.
Lemma uses_ext upper s own a a' g : with_domain s own a -> with_domain s own a' ->
  uses upper s a g -> uses upper s a' g.
Proof.
  intros W W' (d & R & A & H). assert (E : forall k v, holds a k v <-> holds a' k v).
  { intros k v. rewrite !holds_in by (apply W || apply W'). pose proof (with_domain_perm s own a a' W W') as Hp.
    rewrite (Hp k v). assert (Hq : (exists v', In (k, v') a) <-> (exists v', In (k, v') a')).
    { split; intros [v' H']; exists v'; now apply Hp. }
    tauto. }
  assert (E' : forall k v, holds a' k v <-> holds a k v) by (intros; symmetry; apply E).
  exists d. split; [exact R|]. split; [exact A|]. destruct H as [H|[H Hd]].
  - left. now apply (right_key_row upper a a').
  - right. split; [|exact Hd]. intros k Hk. apply (H k). now apply (right_key_row upper a' a).
Qed.

(** *** Dividing and rounding *)

Lemma weight_of_are s g : weights_wf (s_db s) -> weights_are s g (weight_of (s_db s) g).
Proof.
  intros W i v. unfold weight_of, weight_find. split.
  - destruct (find _ _) as [w|] eqn:E; [|discriminate]. intros H. inversion H; subst.
    apply find_some in E. destruct E as [Hin E]. unfold weight_is in E. exists w.
    apply andb_true_iff in E. destruct E as [E1 E2]. apply Z.eqb_eq in E1, E2. auto.
  - intros (x & Hx & Eg & Ei & Ev). destruct (find _ _) as [w|] eqn:E.
    + apply find_some in E. destruct E as [Hin E]. unfold weight_is in E.
      apply andb_true_iff in E. destruct E as [E1 E2]. apply Z.eqb_eq in E1, E2.
      assert (w = x). { eapply nodup_map_inj; [exact (ww_unique _ W)|exact Hin|exact Hx|]. cbn. congruence. }
      subst w. congruence.
    + apply find_none with (x := x) in E; [|exact Hx]. unfold weight_is in E. rewrite Eg, Ei, !Z.eqb_refl in E. discriminate.
Qed.
Lemma weights_nonneg s g w i v : weights_wf (s_db s) -> weights_are s g w -> w i = Some v -> (0 <= v)%Q.
Proof. intros W A H. apply A in H. destruct H as (x & Hx & _ & _ & <-). now apply (ww_nonneg _ W). Qed.
Lemma total_nonneg w ids : (forall i v, w i = Some v -> (0 <= v)%Q) -> (0 <= Disaggregate_Spec.total_weight w ids)%Q.
Proof.
  intros H. unfold Disaggregate_Spec.total_weight. apply Qsum_nonneg. intros x Hx. apply in_map_iff in Hx.
  destruct Hx as (i & <- & _). unfold weight_or_zero. destruct (w i) as [v|] eqn:E; [now apply (H i)|lra].
Qed.
Lemma share_factor q ids w out i x : NoDup ids -> (forall i v, w i = Some v -> (0 <= v)%Q) ->
  disaggregate_value q ids w = Ok out -> In (i, x) out -> exists c, (0 <= c)%Q /\ (x == q * c)%Q.
Proof.
  intros Hn Hw Ho Hin. destruct (disaggregate_proportional q ids w out i x Hn Ho Hin) as [H1 H2].
  pose proof (total_nonneg w ids Hw) as Ht.
  destruct (Qeq_dec (Disaggregate_Spec.total_weight w ids) 0) as [E|E].
  - destruct (H2 E) as (Ha & Hb & Hc). destruct (list_eq_dec Z.eq_dec ids [i]) as [El|El].
    + exists 1%Q. split; [lra|]. rewrite (Ha El). lra.
    + destruct (Z.eq_dec i 0) as [Ei|Ei].
      * exists 0%Q. split; [lra|]. rewrite (Hb El Ei). lra.
      * exists (/ inject_Z (Z.of_nat (defined_count ids)))%Q. split.
        -- apply Qinv_le_0_compat. change 0%Q with (inject_Z 0). rewrite <- Zle_Qle. lia.
        -- exact (Hc El Ei).
  - exists (weight_or_zero w i / Disaggregate_Spec.total_weight w ids)%Q. split.
    + apply Qle_shift_div_l; [lra|]. unfold weight_or_zero. destruct (w i) as [v|] eqn:Ev; [|lra].
      specialize (Hw i v Ev). lra.
    + rewrite (H1 E). unfold Qdiv. ring.
Qed.
Lemma quantized_ok q items : (forall i x, In (i, x) items -> (0 <= i)%Z /\ exists c, (0 <= c)%Q /\ (x == q * c)%Q) ->
  (Qsum (map snd items) == q)%Q ->
  exists out, quantized (Some q) items = Ok out /\ rounded items out /\ (Qsum (map snd out) == q)%Q.
Proof.
  intros Hi Hsum. unfold quantized. set (its := map (fun p => (Z.to_N (fst p), snd p)) items).
  assert (Hs : (Qsum (map snd its) == q)%Q) by (unfold its; rewrite map_map; exact Hsum).
  assert (Hone : one_sign its).
  { unfold one_sign, its. destruct (Qlt_le_dec q 0) as [Hx|Hx]; [right|left];
      intros i v Hin; apply in_map_iff in Hin; destruct Hin as ([j x] & E & Hin); inversion E; subst;
      destruct (Hi _ _ Hin) as (_ & c & Hc & ->); nra. }
  destruct (quantize_total its q Hone Hs) as (its' & out & Eq & Hp & Hc & Ht & Hodd). rewrite Eq.
  eexists. split; [reflexivity|]. split.
  - split.
    + destruct (Permutation_map_inv (fun p => (Z.to_N (fst p), snd p)) items (Permutation_sym Hp)) as (ex & Eex & Hex).
      exists ex. split; [exact Hex|]. subst its'.
      assert (Hnn : forall e, In e ex -> (0 <= fst e)%Z).
      { intros [i x] He. apply (Hi i x). apply (Permutation_in _ (Permutation_sym Hex)). exact He. }
      clear - Hc Hnn. revert out Hc. induction ex as [|e ex IH]; intros out Hc; cbn [map] in Hc; inversion Hc; subst; constructor.
      * destruct H1 as [E1 E2]. cbn [fst snd] in *. split; [|exact E2]. rewrite <- E1.
        rewrite Z2N.id; [reflexivity|]. apply Hnn. now left.
      * apply IH; [|assumption]. intros e' He'. apply Hnn. now right.
    + destruct Hodd as [Hw|(a & p & b & -> & Hw)].
      * left. intros i v H. apply in_map_iff in H. destruct H as ([j x] & E & H). inversion E; subst. eauto.
      * right. rewrite map_app. cbn [map]. eexists _, _, _. split; [reflexivity|].
        intros i v H. rewrite <- map_app in H. apply in_map_iff in H. destruct H as ([j x] & E & H). inversion E; subst. eauto.
  - rewrite map_map. exact Ht.
Qed.
