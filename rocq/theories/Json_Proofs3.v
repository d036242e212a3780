(** Checks, triggers and repositories. *)
From Coq Require Import Nnat Permutation Sorted.
From Verif Require Import Prelude Selectors_Model Json_Model Json_Spec FileOpen_Proofs Json_Proofs Json_Proofs2.
Local Open Scope N_scope.

(** * Relations between the two grammars *)

Lemma grammar_mono :
  (forall t v, Value false t v -> Value true t v) /\
  (forall t l, Elems false t l -> Elems true t l) /\
  (forall t l, Members false t l -> Members true t l).
Proof. apply (grammar_ind false); intros; try discriminate; econstructor; eassumption. Qed.

Lemma grammar_finite :
  (forall t v, Value false t v -> finite v) /\
  (forall t l, Elems false t l -> Forall finite l) /\
  (forall t l, Members false t l -> Forall (fun p => finite (snd p)) l).
Proof.
  apply (grammar_ind false (fun _ v => finite v) (fun _ l => Forall finite l) (fun _ l => Forall (fun p => finite (snd p)) l));
    intros; try discriminate; try exact I; cbn [finite]; try (apply all_forall; assumption); auto.
Qed.

Lemma doc_mono : forall t v, Doc false t v -> Doc true t v.
Proof.
  intros t v (w & t' & w' & -> & W & V & W'). exists w, t', w'. repeat split; auto. apply grammar_mono, V.
Qed.
Lemma doc_finite : forall t v, Doc false t v -> finite v.
Proof. intros t v (w & t' & w' & -> & W & V & W'). apply grammar_finite in V. exact V. Qed.

Lemma doc_fun : forall c t v v', Doc c t v -> Doc c t v' -> v = v'.
Proof. intros c t v v' H H'. apply scan_doc_iff in H, H'. congruence. Qed.

Lemma scan_mono : forall t v, scan_doc false t = Some v -> scan_doc true t = Some v.
Proof. intros t v H. apply scan_doc_iff. apply doc_mono. apply scan_doc_iff. exact H. Qed.

Lemma scan_false_dumps : forall v, pyval v -> (scan_doc false (dumps v) = Some v /\ finite v) \/ (scan_doc false (dumps v) = None /\ ~ finite v).
Proof.
  intros v W. destruct (scan_doc false (dumps v)) as [v'|] eqn:S0.
  - left. pose proof (scan_mono _ _ S0) as S1. rewrite (scan_dumps true v W) in S1 by (left; reflexivity).
    injection S1 as ->. split; [reflexivity|]. apply scan_doc_iff, doc_finite in S0. exact S0.
  - right. split; [reflexivity|]. intro F. rewrite (scan_dumps false v W) in S0 by (right; exact F). discriminate.
Qed.

Lemma loads_iff : forall t v, loads t = Ok v <-> exists raw, Doc true t raw /\ v = py_value raw.
Proof.
  intros t v. unfold loads. split.
  - destruct (scan_doc true t) as [raw|] eqn:S0; [|discriminate]. intros [= <-]. exists raw. split; [apply scan_doc_iff; exact S0|reflexivity].
  - intros (raw & D & ->). apply scan_doc_iff in D. rewrite D. reflexivity.
Qed.

Lemma loads_err : forall t e, loads t = Err e -> e = ValueError /\ forall raw, ~ Doc true t raw.
Proof.
  intros t e. unfold loads. destruct (scan_doc true t) as [raw|] eqn:S0; [discriminate|]. intros [= <-]. split; [reflexivity|].
  intros raw D. apply scan_doc_iff in D. congruence.
Qed.

Lemma py_str : forall v s, py_value v = JStr s <-> v = JStr s.
Proof. intros v s. destruct v; cbn; split; intro H; congruence. Qed.

Lemma py_last : forall kv k v, last_value k kv v -> exists d, py_value (JObj kv) = JObj d /\ dict_get k d = Some (py_value v).
Proof.
  intros kv k v L. cbn. eexists. split; [reflexivity|]. unfold dict_of. rewrite dict_of_get.
  apply last_value_get in L. rewrite <- map_rev. induction (rev kv) as [|[k0 v0] l IH]; cbn in *; [discriminate|].
  destruct (text_eqb k0 k); [injection L as ->; reflexivity|auto].
Qed.

Lemma get_map : forall (f : json -> json) k l,
  dict_get k (map (fun p => (fst p, f (snd p))) l) = option_map f (dict_get k l).
Proof. intros f k l. induction l as [|[k0 v0] l IH]; cbn; [reflexivity|]. destruct (text_eqb k0 k); [reflexivity|exact IH]. Qed.

Lemma py_dict_get : forall kv k,
  dict_get k (dict_of (map (fun p => (fst p, py_value (snd p))) kv)) = option_map py_value (dict_get k (rev kv)).
Proof.
  intros kv k. unfold dict_of. rewrite dict_of_get, <- map_rev, get_map. destruct (dict_get k (rev kv)); reflexivity.
Qed.

(** * Triggers *)

Definition stringy (v : json) : bool := match v with JStr _ => true | _ => false end.

Lemma count_nontext : forall l, negb (length (filter (fun e => negb (is_text_type e)) l) =? 0)%nat = negb (forallb stringy l).
Proof.
  induction l as [|x l IH]; [reflexivity|]. cbn. destruct x as [ |[]| | | | | | | ]; cbn; auto.
Qed.

Lemma stringy_list : forall l, forallb stringy l = true <-> exists s, l = map JStr s.
Proof.
  induction l as [|x l IH]; cbn; split.
  - exists []. reflexivity.
  - reflexivity.
  - intro H. apply andb_prop in H. destruct H as [X H]. apply IH in H. destruct H as [s ->].
    destruct x; try discriminate. exists (s0 :: s). reflexivity.
  - intros ([|y s] & E); [discriminate|]. cbn in E. injection E as -> ->. cbn. apply IH. eauto.
Qed.

Lemma stop_selectors_iff : forall j t, stop_selectors j (Some t) = false <->
  exists l, Doc (negb j) t (strings l).
Proof.
  intros [] t; cbn [stop_selectors negb].
  - split.
    + destruct (scan_doc false t) as [v|] eqn:S0; [|discriminate]. rewrite count_nontext.
      destruct v as [ |[]| | | | | |l| ]; try discriminate. cbn. intro H. apply negb_false_iff in H. apply stringy_list in H.
      destruct H as [s ->]. exists s. apply scan_doc_iff. exact S0.
    + intros (l & D). apply scan_doc_iff in D. rewrite D, count_nontext. cbn. apply negb_false_iff, stringy_list. eauto.
  - unfold check_selectors. split.
    + intro H. apply negb_false_iff in H. destruct (loads t) as [v|e] eqn:L; [|discriminate].
      apply loads_iff in L. destruct L as (raw & D & E). destruct v as [ | | | | | | |l| ]; try discriminate.
      apply (proj1 (stringy_list l)) in H. destruct H as [s ->].
      destruct raw as [ | | | | | | |l'| ]; try discriminate. cbn in E. injection E as E.
      exists s. replace (strings s) with (JArr l'); [exact D|]. unfold strings. f_equal. clear D.
      revert s E. induction l' as [|x l' IH]; intros [|y s] E; try discriminate; [reflexivity|].
      cbn in E. injection E as E1 E2. symmetry in E1. apply (proj1 (py_str _ _)) in E1. subst x. cbn. f_equal. auto.
    + intros (l & D). apply negb_false_iff.
      assert (L : loads t = Ok (strings l)).
      { apply loads_iff. exists (strings l). split; [exact D|]. unfold strings. cbn. f_equal. rewrite map_map. reflexivity. }
      rewrite L. cbn. apply stringy_list. eauto.
Qed.

Lemma stop_attributes_json1 : forall t, stop_attributes true (Some t) = false <->
  exists kv, Doc false t (JObj kv) /\ forall k v, In (k, v) kv -> exists s, v = JStr s.
Proof.
  intros t. cbn [stop_attributes]. split.
  - destruct (scan_doc false t) as [v|] eqn:S0; [|discriminate]. rewrite count_nontext.
    destruct v as [ |[]| | | | | | |kv]; try discriminate. cbn. intro H. apply negb_false_iff in H.
    exists kv. split; [apply scan_doc_iff; exact S0|]. intros k v I. rewrite forallb_forall in H.
    specialize (H v). assert (J : In v (map snd kv)) by (change v with (snd (k, v)); apply in_map, I). apply H in J.
    destruct v; try discriminate. eauto.
  - intros (kv & D & H). apply scan_doc_iff in D. rewrite D, count_nontext. cbn. apply negb_false_iff, forallb_forall.
    intros v I. apply in_map_iff in I. destruct I as ([k v'] & <- & I). destruct (H k v' I) as (s & ->). reflexivity.
Qed.

Lemma stop_attributes_fallback : forall t, stop_attributes false (Some t) = false <->
  exists kv, Doc true t (JObj kv) /\ forall k v, last_value k kv v -> exists s, v = JStr s.
Proof.
  intros t. cbn [stop_attributes]. unfold check_attributes. split.
  - intro H. apply negb_false_iff in H. destruct (loads t) as [v|e] eqn:L; [|discriminate].
    apply loads_iff in L. destruct L as (raw & D & E). destruct v as [ | | | | | | | |d]; try discriminate.
    destruct raw as [ | | | | | | | |kv]; try discriminate. exists kv. split; [exact D|].
    intros k v Lv. apply last_value_get in Lv. cbn in E. injection E as E.
    pose proof (py_dict_get kv k) as G. rewrite <- E, Lv in G. cbn in G. apply dict_get_in in G.
    rewrite forallb_forall in H. apply H in G. cbn in G. destruct (py_value v) eqn:P; try discriminate.
    apply (proj1 (py_str _ _)) in P. eauto.
  - intros (kv & D & H). apply negb_false_iff.
    assert (L : loads t = Ok (py_value (JObj kv))) by (apply loads_iff; eauto). rewrite L. cbn.
    apply forallb_forall. intros [k v] I. cbn.
    assert (G : dict_get k (dict_of (map (fun p => (fst p, py_value (snd p))) kv)) = Some v) by (apply dict_get_nodup; [apply dict_of_nodup|exact I]).
    rewrite py_dict_get in G. destruct (dict_get k (rev kv)) as [x|] eqn:R; [|discriminate]. cbn in G. injection G as <-.
    apply last_value_get in R. destruct (H _ _ R) as (s & ->). reflexivity.
Qed.

Lemma stop_user_iff : forall j t, stop_user_properties j (Some t) = false <-> exists kv, Doc (negb j) t (JObj kv).
Proof.
  intros [] t; cbn [stop_user_properties negb].
  - split.
    + destruct (scan_doc false t) as [v|] eqn:S0; [|discriminate]. destruct v as [ |[]| | | | | | |kv]; try discriminate.
      intros _. exists kv. apply scan_doc_iff. exact S0.
    + intros (kv & D). apply scan_doc_iff in D. rewrite D. reflexivity.
  - unfold check_user_properties. split.
    + intro H. apply negb_false_iff in H. destruct (loads t) as [v|e] eqn:L; [|discriminate].
      apply loads_iff in L. destruct L as (raw & D & E). destruct v; try discriminate. destruct raw; try discriminate. eauto.
    + intros (kv & D). assert (L : loads t = Ok (py_value (JObj kv))) by (apply loads_iff; eauto). rewrite L. reflexivity.
Qed.

Lemma stop_property_iff : forall j t, stop_property_value j (Some t) = false <-> exists v, Doc (negb j) t v.
Proof.
  intros [] t; cbn [stop_property_value negb].
  - unfold json_valid. split.
    + destruct (scan_doc false t) as [v|] eqn:S0; [|discriminate]. intros _. exists v. apply scan_doc_iff. exact S0.
    + intros (v & D). apply scan_doc_iff in D. rewrite D. reflexivity.
  - unfold check_property_value. split.
    + intro H. destruct (loads t) as [v|e] eqn:L; [|discriminate]. apply loads_iff in L. destruct L as (raw & D & _). eauto.
    + intros (v & D). assert (L : loads t = Ok (py_value v)) by (apply loads_iff; eauto). rewrite L. reflexivity.
Qed.

Lemma last_value_in : forall k kv v, last_value k kv v -> In (k, v) kv.
Proof. intros k kv v (a & b & -> & _). apply in_app_iff. right. left. reflexivity. Qed.

Lemma stop_weaker : forall t,
  (stop_selectors true (Some t) = false -> stop_selectors false (Some t) = false) /\
  (stop_attributes true (Some t) = false -> stop_attributes false (Some t) = false) /\
  (stop_user_properties true (Some t) = false -> stop_user_properties false (Some t) = false) /\
  (stop_property_value true (Some t) = false -> stop_property_value false (Some t) = false).
Proof.
  intro t. rewrite !stop_selectors_iff, stop_attributes_json1, stop_attributes_fallback, !stop_user_iff, !stop_property_iff.
  cbn [negb]. repeat split.
  - intros (l & D). exists l. apply doc_mono, D.
  - intros (kv & D & H). exists kv. split; [apply doc_mono, D|]. intros k v L. apply (H k v), last_value_in, L.
  - intros (kv & D). exists kv. apply doc_mono, D.
  - intros (kv & D). exists kv. apply doc_mono, D.
Qed.

(** * What is written passes *)

Lemma doc_dumps : forall c v, pyval v -> c = true \/ finite v -> Doc c (dumps v) v.
Proof. intros c v W F. apply scan_doc_iff, scan_dumps; assumption. Qed.

Lemma strings_pyval : forall l, Forall joined l -> pyval (strings l) /\ finite (strings l).
Proof.
  intros l F. unfold strings. cbn. rewrite !all_forall. split; apply Forall_forall; intros x I; apply in_map_iff in I;
    destruct I as (s & <- & I); cbn; [|exact Logic.I]. rewrite Forall_forall in F. auto.
Qed.

Lemma strings_pass : forall j l, Forall joined l -> stop_selectors j (Some (dumps (strings l))) = false.
Proof.
  intros j l F. destruct (strings_pyval l F). apply stop_selectors_iff. exists l. apply doc_dumps; auto.
Qed.

Lemma property_pass : forall j v, pyval v -> (stop_property_value j (Some (dumps v)) = false <-> (j = true -> finite v)).
Proof.
  intros j v W. rewrite stop_property_iff. split.
  - intros (v' & D) ->. cbn in D. pose proof (doc_mono _ _ D) as D'. rewrite <- (doc_fun true (dumps v) v' v D'); [apply doc_finite in D; exact D|].
    apply doc_dumps; auto.
  - intro F. exists v. apply doc_dumps; [exact W|]. destruct j; cbn; auto.
Qed.

Lemma user_pass : forall j d, pyval (JObj d) -> (stop_user_properties j (Some (dumps (JObj d))) = false <-> (j = true -> finite (JObj d))).
Proof.
  intros j v W. rewrite stop_user_iff. split.
  - intros (v' & D) ->. cbn [negb] in D. pose proof (doc_mono _ _ D) as D'. rewrite <- (doc_fun true _ _ _ D' (doc_dumps true (JObj v) W (or_introl eq_refl))).
    apply doc_finite in D. exact D.
  - intro F. exists v. apply doc_dumps; [exact W|]. destruct j; cbn [negb]; auto.
Qed.

Lemma attributes_pass : forall j v, pyval (JObj v) ->
  (stop_attributes j (Some (dumps_sorted (JObj v))) = false <-> forall k x, In (k, x) v -> exists s, x = JStr s).
Proof.
  intros j v W. pose proof (pyval_sortk _ W) as W'.
  assert (M : forall k x s, In (k, x) v -> sortk x = JStr s -> x = JStr s) by (intros k x s _ H; destruct x; cbn in H; congruence).
  assert (I1 : forall k x, In (k, x) v -> In (k, sortk x) (sort_items (map sf v))).
  { intros k x I. apply sort_in. change (k, sortk x) with (sf (k, x)). apply in_map, I. }
  assert (N : NoDup (map fst (sort_items (map sf v)))) by (apply sort_nodup; rewrite sf_keys; apply W).
  split.
  - intros H k x I. assert (D : exists kv, Doc true (dumps_sorted (JObj v)) (JObj kv) /\ forall k v, last_value k kv v -> exists s, v = JStr s).
    { apply stop_attributes_fallback. destruct j; [apply stop_weaker|]; exact H. }
    destruct D as (kv & D & L). pose proof (doc_fun true _ _ _ D (doc_dumps true _ W' (or_introl eq_refl))) as E.
    rewrite sortk_obj in E. injection E as ->. destruct (L k (sortk x)) as (s & E).
    + apply last_value_get. apply dict_get_nodup; [rewrite map_rev; apply NoDup_rev; exact N|]. apply in_rev. rewrite rev_involutive. apply I1, I.
    + exists s. eapply M; eassumption.
  - intro H. assert (A : stop_attributes true (Some (dumps_sorted (JObj v))) = false).
    { apply stop_attributes_json1. exists (sort_items (map sf v)).
      assert (Q : forall k x, In (k, x) (sort_items (map sf v)) -> exists s, x = JStr s).
      { intros k x I. rewrite sort_in in I. apply in_map_iff in I. destruct I as ([k' x'] & E & I). unfold sf in E. cbn in E.
        injection E as <- <-. destruct (H _ _ I) as (s & ->). exists s. reflexivity. }
      split; [|exact Q]. apply (doc_dumps false); [exact W'|]. right. cbn. apply all_forall, Forall_forall.
      intros [k x] I. destruct (Q k x I) as (s & ->). exact Logic.I. }
    destruct j; [exact A|apply stop_weaker; exact A].
Qed.

(** * Attribute groups *)

Lemma has_empty_iff : forall v, has_empty v = true <-> exists k x, In (k, x) v /\ (k = [] \/ x = JStr []).
Proof.
  intro v. unfold has_empty. rewrite existsb_exists. split.
  - intros ([k x] & I & H). exists k, x. split; [exact I|]. cbn in H. apply orb_prop in H. destruct H as [H|H].
    + left. apply teqb_iff. exact H.
    + right. destruct x as [ | | | | | |[|? ?]| | ]; try discriminate. reflexivity.
  - intros (k & x & I & [->| ->]); eexists; (split; [exact I|]); cbn; auto. rewrite orb_true_r. reflexivity.
Qed.

Lemma attributes_ok_iff : forall v, attributes_ok v <-> has_empty v = false /\ forall k x, In (k, x) v -> exists s, x = JStr s.
Proof.
  intro v. unfold attributes_ok. rewrite all_forall, Forall_forall. split.
  - intro H. split.
    + destruct (has_empty v) eqn:E; [|reflexivity]. apply has_empty_iff in E. destruct E as (k & x & I & E).
      destruct (H _ I) as (K & y & X & Y). cbn in K, X. destruct E; congruence.
    + intros k x I. destruct (H _ I) as (_ & y & X & _). eauto.
  - intros (E & H) [k x] I. cbn. destruct (H k x I) as (s & ->). split.
    + intros ->. assert (has_empty v = true) by (apply has_empty_iff; eauto). congruence.
    + exists s. split; [reflexivity|]. intros ->. assert (has_empty v = true) by (apply has_empty_iff; eauto). congruence.
Qed.

Lemma attributes_finite : forall v, attributes_ok v -> finite (JObj v).
Proof.
  intros v A. unfold attributes_ok in A. cbn. rewrite all_forall, Forall_forall in *. intros p I.
  destruct (A p I) as (_ & y & E & _). destruct p as [k x]. cbn in *. subst x. exact Logic.I.
Qed.

Definition good_row (r : Z * text) : Prop :=
  exists v, pyval (JObj v) /\ attributes_ok v /\ snd r = dumps_sorted (JObj v).
Definition good (s : groups) : Prop := NoDup (map fst s) /\ NoDup (map snd s) /\ Forall good_row s.

Lemma next_id_fresh : forall s i, In i (map fst s) -> (i < next_id s)%Z.
Proof.
  intros s i I. unfold next_id. induction (map fst s) as [|x l IH]; cbn in *; [destruct I|].
  destruct I as [->|I]; [lia|]. apply IH in I. lia.
Qed.

Lemma NoDup_snoc : forall {A} (l : list A) x, NoDup l -> ~ In x l -> NoDup (l ++ [x]).
Proof.
  intros A l x N I. apply NoDup_rev in N. rewrite <- (rev_involutive (l ++ [x])). apply NoDup_rev.
  rewrite rev_app_distr. cbn. constructor; [rewrite <- in_rev; exact I|exact N].
Qed.

Lemma add_ok : forall j v s, pyval (JObj v) ->
  ag_add j v s = Ok (s ++ [(next_id s, dumps_sorted (JObj v))]) /\ attributes_ok v /\ ~ In (dumps_sorted (JObj v)) (map snd s)
  \/ ag_add j v s = Err SqlIntegrityError /\ attributes_ok v /\ In (dumps_sorted (JObj v)) (map snd s)
  \/ ag_add j v s = Err ValueError /\ has_empty v = true
  \/ ag_add j v s = Err SqlIntegrityError /\ has_empty v = false /\ ~ attributes_ok v.
Proof.
  intros j v s W. unfold ag_add. destruct (has_empty v) eqn:E; [tauto|].
  destruct (stop_attributes j (Some (dumps_sorted (JObj v)))) eqn:St.
  - right. right. right. repeat split. rewrite attributes_ok_iff, <- (attributes_pass j v W). intros [_ H]. congruence.
  - assert (A : attributes_ok v) by (apply attributes_ok_iff; split; [exact E|]; apply (attributes_pass j v W); exact St).
    destruct (existsb (fun r => text_eqb (snd r) (dumps_sorted (JObj v))) s) eqn:X.
    + right. left. repeat split; [exact A|]. apply existsb_exists in X. destruct X as (r & I & X). apply teqb_iff in X.
      rewrite <- X. apply in_map, I.
    + left. repeat split; [exact A|]. intro I. apply in_map_iff in I. destruct I as (r & X' & I).
      assert (existsb (fun r => text_eqb (snd r) (dumps_sorted (JObj v))) s = true); [|congruence].
      apply existsb_exists. exists r. split; [exact I|apply teqb_iff; exact X'].
Qed.

Lemma good_snoc : forall s v, good s -> pyval (JObj v) -> attributes_ok v -> ~ In (dumps_sorted (JObj v)) (map snd s) ->
  good (s ++ [(next_id s, dumps_sorted (JObj v))]).
Proof.
  intros s v (N1 & N2 & F) W A N. unfold good. rewrite !map_app. cbn. split; [|split].
  - apply NoDup_snoc; [exact N1|]. intro I. apply next_id_fresh in I. lia.
  - apply NoDup_snoc; assumption.
  - apply Forall_app. split; [exact F|]. constructor; [|constructor]. exists v. auto.
Qed.

Lemma find_id : forall {B} i (s : list (Z * B)), match find (fun r => (fst r =? i)%Z) s with
  | Some r => In r s /\ fst r = i | None => ~ In i (map fst s) end.
Proof.
  intros B i s. destruct (find (fun r => (fst r =? i)%Z) s) as [r|] eqn:F.
  - apply find_some in F. destruct F as [I E]. apply Z.eqb_eq in E. auto.
  - intro I. apply in_map_iff in I. destruct I as (r & <- & I). pose proof (find_none _ _ F r I) as H. cbn in H.
    rewrite Z.eqb_refl in H. discriminate.
Qed.

Definition put_row (i : Z) (t : text) (r : Z * text) : Z * text := if (fst r =? i)%Z then (i, t) else r.

Lemma put_fst : forall i t s, map fst (map (put_row i t) s) = map fst s.
Proof.
  intros i t s. rewrite map_map. apply map_ext. intros r. unfold put_row. destruct (Z.eqb_spec (fst r) i); [subst; reflexivity|reflexivity].
Qed.

Lemma update_ok : forall j i v s, pyval (JObj v) ->
  ag_update j i v s = Err ValueError /\ has_empty v = true
  \/ ag_update j i v s = Ok s /\ has_empty v = false /\ ~ In i (map fst s)
  \/ ag_update j i v s = Err SqlIntegrityError /\ has_empty v = false /\ In i (map fst s) /\ ~ attributes_ok v
  \/ ag_update j i v s = Err SqlIntegrityError /\ In i (map fst s) /\ attributes_ok v
     /\ (exists r, In r s /\ fst r <> i /\ snd r = dumps_sorted (JObj v))
  \/ ag_update j i v s = Ok (map (put_row i (dumps_sorted (JObj v))) s) /\ In i (map fst s) /\ attributes_ok v
     /\ (forall r, In r s -> fst r <> i -> snd r <> dumps_sorted (JObj v)).
Proof.
  intros j i v s W. unfold ag_update. destruct (has_empty v) eqn:E; [tauto|]. right.
  pose proof (find_id i s) as Fi. destruct (find (fun r => (fst r =? i)%Z) s) as [r|].
  2:{ left. auto. }
  destruct Fi as [I Ei]. assert (Ii : In i (map fst s)) by (rewrite <- Ei; apply in_map, I). right.
  destruct (stop_attributes j (Some (dumps_sorted (JObj v)))) eqn:St.
  - left. repeat split; auto. rewrite attributes_ok_iff, <- (attributes_pass j v W). intros [_ H]. congruence.
  - assert (A : attributes_ok v) by (apply attributes_ok_iff; split; [exact E|]; apply (attributes_pass j v W); exact St).
    right. match goal with |- context[existsb ?f s] => destruct (existsb f s) eqn:X end.
    + left. repeat split; auto. apply existsb_exists in X. destruct X as (r' & I' & X). apply andb_prop in X.
      destruct X as [X1 X2]. apply teqb_iff in X2. apply negb_true_iff, Z.eqb_neq in X1. eauto.
    + right. repeat split; auto. intros r' I' N Q.
      match type of X with existsb ?f s = false => assert (existsb f s = true) end; [|congruence].
      apply existsb_exists. exists r'. split; [exact I'|]. apply andb_true_intro. split; [apply negb_true_iff, Z.eqb_neq; exact N|apply teqb_iff; exact Q].
Qed.

Lemma good_put : forall s i v, good s -> pyval (JObj v) -> attributes_ok v ->
  (forall r, In r s -> fst r <> i -> snd r <> dumps_sorted (JObj v)) -> good (map (put_row i (dumps_sorted (JObj v))) s).
Proof.
  intros s i v (N1 & N2 & F) W A N. split; [rewrite put_fst; exact N1|]. split.
  - clear F. induction s as [|r s IH]; [constructor|]. cbn in N1, N2. inversion N1; subst. inversion N2; subst.
    cbn. constructor.
    + intro I. apply in_map_iff in I. destruct I as (q & E & I). apply in_map_iff in I. destruct I as (r' & <- & I).
      unfold put_row in E. destruct (Z.eqb_spec (fst r') i) as [E1|E1]; destruct (Z.eqb_spec (fst r) i) as [E2|E2]; cbn in E.
      * apply H1. rewrite E2, <- E1. apply in_map, I.
      * apply (N r); [left; reflexivity|exact E2|auto].
      * apply (N r'); [right; exact I|exact E1|auto].
      * apply H3. rewrite <- E. apply in_map, I.
    + apply IH; auto. intros r' I. apply N. right. exact I.
  - apply Forall_forall. intros q I. apply in_map_iff in I. destruct I as (r & <- & I). unfold put_row.
    destruct (fst r =? i)%Z; [exists v; auto|]. rewrite Forall_forall in F. apply F, I.
Qed.

Lemma NoDup_map_filter : forall {A B} (f : A -> B) p l, NoDup (map f l) -> NoDup (map f (filter p l)).
Proof.
  intros A B f p l. induction l as [|x l IH]; cbn; intro N; [constructor|]. inversion N; subst.
  destruct (p x); cbn; [|auto]. constructor; [|auto]. intro I. apply H1. apply in_map_iff in I.
  destruct I as (y & <- & I). apply filter_In in I. apply in_map, I.
Qed.

Lemma good_delete : forall s i, good s -> good (ag_delete i s).
Proof.
  intros s i (N1 & N2 & F). unfold ag_delete. split; [|split]; try (apply NoDup_map_filter; assumption).
  apply Forall_forall. intros r I. apply filter_In in I. rewrite Forall_forall in F. apply F, I.
Qed.

Lemma good_record : forall r, good_row r -> exists v, ag_record r = Ok (fst r, sortk (JObj v)) /\ pyval (JObj v) /\ attributes_ok v /\ snd r = dumps_sorted (JObj v).
Proof.
  intros r (v & W & A & E). exists v. unfold ag_record. rewrite E, loads_sorted by exact W. auto.
Qed.

Definition rec_of (r : Z * text) (x : Z * json) : Prop :=
  fst x = fst r /\ exists v, pyval (JObj v) /\ attributes_ok v /\ snd r = dumps_sorted (JObj v) /\ snd x = sortk (JObj v).

Lemma find_all_good : forall s, Forall good_row s -> exists recs, ag_find_all s = Ok recs /\ Forall2 rec_of s recs.
Proof.
  unfold ag_find_all. induction s as [|r s IH]; intro F; [exists []; split; [reflexivity|constructor]|].
  inversion F; subst. destruct (IH H2) as (recs & E & R). destruct (good_record r H1) as (v & Er & W & A & T).
  cbn. rewrite Er, E. cbn. eexists. split; [reflexivity|]. constructor; [|exact R]. split; [reflexivity|]. exists v. auto.
Qed.

Lemma get_by_value_good : forall s v recs, good s -> pyval (JObj v) -> ag_find_all s = Ok recs ->
  (exists i a, ag_get_by_value v s = Ok (i, a) /\ In (i, a) recs /\ same (JObj v) a /\ In (dumps_sorted (JObj v)) (map snd s))
  \/ (ag_get_by_value v s = Err KeyError /\ (forall i a, In (i, a) recs -> ~ same (JObj v) a) /\ ~ In (dumps_sorted (JObj v)) (map snd s)).
Proof.
  intros s v recs (N1 & N2 & F) W E. unfold ag_get_by_value. destruct (find_all_good s F) as (recs' & E' & R).
  rewrite E in E'. injection E' as <-. clear E N1 N2 F.
  induction R as [|r x s recs (Fx & v' & W' & A' & T & X) R IH]; cbn [find map].
  - right. repeat split; auto.
  - destruct (text_eqb (snd r) (dumps_sorted (JObj v))) eqn:Q.
    + left. apply teqb_iff in Q. exists (fst r), (sortk (JObj v')). unfold ag_record. rewrite T, loads_sorted by exact W'. cbn [bind].
      split; [reflexivity|]. split; [left; destruct x; cbn in *; congruence|]. split; [|left; exact (eq_trans (eq_sym T) Q)].
      rewrite T in Q. apply sortk_same; [exact W|apply pyval_sortk, W'|]. rewrite sortk_idem by exact W'.
      apply sortk_same; [exact W|exact W'|]. apply canonical; auto.
    + apply teqb_neq in Q. destruct IH as [(i & a & G & I & Sm & In')|(G & No & Ni)].
      * left. exists i, a. repeat split; auto; try (right; assumption).
      * right. split; [exact G|]. split; [|intros [H|H]; auto].
        intros i a [->|I] Sm; [|eapply No; eassumption]. cbn in X. subst a. apply Q. rewrite T. symmetry.
        apply canonical; [exact W|exact W'|]. apply sortk_same; [exact W|exact W'|].
        rewrite <- (sortk_idem (JObj v') W'). apply sortk_same; [exact W|apply pyval_sortk, W'|exact Sm].
Qed.

Lemma get_or_add_good : forall j s v, good s -> pyval (JObj v) ->
  (exists x, ag_get_or_add j v s = Ok (s, x)) \/
  (exists x, ag_get_or_add j v s = Ok (s ++ [(next_id s, dumps_sorted (JObj v))], x) /\ attributes_ok v /\ ~ In (dumps_sorted (JObj v)) (map snd s)) \/
  (exists e, ag_get_or_add j v s = Err e).
Proof.
  intros j s v G W. destruct (find_all_good s) as (recs & E & _); [apply G|]. unfold ag_get_or_add.
  destruct (get_by_value_good s v recs G W E) as [(i & a & -> & _)|(-> & _ & N)]; [left; eauto|]. right.
  destruct (add_ok j v s W) as [(-> & A & _)|[(-> & _)|[(-> & _)|(-> & _)]]]; cbn [bind]; try (right; eauto; fail).
  pose proof (good_snoc s v G W A N) as G'. destruct (find_all_good _ (proj2 (proj2 G'))) as (recs' & E' & _).
  destruct (get_by_value_good _ v recs' G' W E') as [(i & a & -> & _)|(_ & _ & N')].
  - left. cbn [bind]. eauto.
  - exfalso. apply N'. rewrite map_app, in_app_iff. right. left. reflexivity.
Qed.

Lemma good_step : forall j o s, good s -> op_val o -> good (ag_step j o s).
Proof.
  intros j [v|i v|i|v] s G W; cbn in *.
  - destruct (add_ok j v s W) as [(-> & A & N)|[(-> & _)|[(-> & _)|(-> & _)]]]; auto. apply good_snoc; assumption.
  - destruct (update_ok j i v s W) as [(-> & _)|[(-> & _)|[(-> & _)|[(-> & _)|(-> & _ & A & N)]]]]; auto. apply good_put; assumption.
  - apply good_delete, G.
  - destruct (get_or_add_good j s v G W) as [(x & ->)|[(x & -> & A & N)|(e & ->)]]; auto. apply good_snoc; assumption.
Qed.

Theorem reachable_good : forall j s, reachable j s -> good s.
Proof.
  intros j s (ops & F & ->). assert (G : good []) by (repeat constructor).
  revert G. generalize (@nil (Z * text)). induction ops as [|o ops IH]; intros s G; cbn; [exact G|].
  inversion F; subst. apply IH; [assumption|]. apply good_step; assumption.
Qed.

Lemma find_all_snoc : forall s recs r x, ag_find_all s = Ok recs -> ag_record r = Ok x -> ag_find_all (s ++ [r]) = Ok (recs ++ [x]).
Proof.
  unfold ag_find_all. induction s as [|r0 s IH]; intros recs r x E R; cbn in *.
  - injection E as <-. rewrite R. reflexivity.
  - destruct (ag_record r0) as [y|e]; [|discriminate]. cbn in *. destruct (traverse ag_record s) as [ys|e]; [|discriminate].
    cbn in *. injection E as <-. rewrite (IH ys r x eq_refl R). reflexivity.
Qed.

Lemma rec_ids : forall s recs, Forall2 rec_of s recs -> map fst recs = map fst s.
Proof. induction 1 as [|r x s recs (E & _) R IH]; cbn; congruence. Qed.

Lemma same_refl : forall v, pyval v -> same v v.
Proof. intros v W. apply sortk_same; auto. Qed.

Lemma attributes_ok_sort : forall v d, attributes_ok v -> sortk (JObj v) = JObj d -> attributes_ok d.
Proof.
  intros v d A E. rewrite sortk_obj in E. injection E as <-. unfold attributes_ok in *.
  rewrite all_forall, Forall_forall in *. intros p I. rewrite sort_in in I. apply in_map_iff in I. destruct I as (q & <- & I).
  destruct (A q I) as (K & x & X & Y). destruct q as [k y]. cbn in *. subst y. split; [exact K|]. exists x. auto.
Qed.

(** * Criteria and names *)

Lemma matches_iff : forall c d, NoDup (map fst d) -> (matches c (JObj d) = true <-> satisfies c (JObj d)).
Proof.
  intros c d N. cbn. rewrite forallb_forall. split.
  - intro H. exists d. split; [reflexivity|]. intros k x I. apply H in I. cbn in I.
    destruct (dict_get k d) as [v|] eqn:G; [|discriminate]. apply dict_get_in in G. destruct v; try discriminate.
    cbn in I. apply teqb_iff in I. subst. exact G.
  - intros (d' & [= <-] & H) [k x] I. apply H in I. cbn. rewrite (dict_get_nodup k d _ N I). cbn. apply teqb_refl.
Qed.

Lemma alnum_ascii_raw : forall above k, forallb (isalnum above) k = true -> Forall (fun c => c < 128) k ->
  flat_map esc_char k = k /\ ~ In 92 k.
Proof.
  intros above k. induction k as [|c k IH]; cbn [forallb flat_map]; intros H F; [split; [reflexivity|auto]|].
  apply andb_prop in H. destruct H as [Hc H]. inversion F; subst. destruct (IH H H3) as [E N].
  assert (R : 48 <= c <= 57 \/ 65 <= c <= 90 \/ 97 <= c <= 122).
  { unfold isalnum in Hc. destruct (N.ltb_spec c 256); [|lia]. clear - Hc H2.
    repeat (apply orb_prop in Hc; destruct Hc as [Hc|Hc]); repeat (apply andb_prop in Hc; destruct Hc as [Hc ?Hd]);
      repeat match goal with X : (_ <=? _) = true |- _ => apply N.leb_le in X | X : (_ =? _) = true |- _ => apply N.eqb_eq in X end; lia. }
  assert (Ec : esc_char c = [c]).
  { unfold esc_char. repeat (match goal with |- context[c =? ?n] => destruct (N.eqb_spec c n); [lia|] end).
    destruct (N.leb_spec 32 c); [|lia]. destruct (N.leb_spec c 126); [reflexivity|lia]. }
  rewrite Ec, E. split; [reflexivity|]. intros [X|X]; [lia|auto].
Qed.

Lemma esc_no_backslash : forall s k, Forall (fun c => c < 1114112) s -> flat_map esc_char s = k -> ~ In 92 k -> s = k.
Proof.
  induction s as [|c s IH]; intros k F E N; cbn in E; [exact E|]. inversion F; subst.
  destruct (esc_char_cases c H1) as [(l & x & Ec & _)|[(_ & _ & _ & Ec)|[(_ & Ec)|(_ & Ec)]]]; rewrite Ec in *;
    try (exfalso; apply N; left; reflexivity).
  cbn. f_equal. apply IH; auto. intro I. apply N. right. exact I.
Qed.

Lemma label_eq_iff : forall above dec k name, forallb (isalnum above) k = true -> (dec = true \/ Forall (fun c => c < 128) k) ->
  joined name -> label_eq dec k name = text_eqb name k.
Proof.
  intros above [] k name A D [F _]; cbn; [reflexivity|]. destruct D as [D|D]; [discriminate|].
  destruct (alnum_ascii_raw above k A D) as [E N]. destruct (text_eqb name k) eqn:Q.
  - apply teqb_iff in Q. subst. apply teqb_iff. exact E.
  - apply teqb_neq in Q. apply teqb_neq. intro X. apply Q. apply esc_no_backslash; assumption.
Qed.

Lemma json_member_get : forall above dec k kv, forallb (isalnum above) k = true -> (dec = true \/ Forall (fun c => c < 128) k) ->
  Forall (fun p => joined (fst p)) kv -> json_member dec k kv = dict_get k kv.
Proof.
  intros above dec k kv A D F. induction kv as [|[k0 v0] kv IH]; cbn; [reflexivity|]. inversion F; subst. cbn in *.
  rewrite (label_eq_iff above dec k k0 A D H1). destruct (text_eqb k0 k); auto.
Qed.

Definition crit_ok (above : N -> bool) (dec : bool) (c : list (text * text)) : Prop :=
  Forall (fun p => fst p <> [] /\ forallb (isalnum above) (fst p) = true /\ (dec = true \/ Forall (fun c => c < 128) (fst p))) c.

Lemma row_matches_good : forall above dec c r x, crit_ok above dec c -> rec_of r x ->
  row_matches dec c (snd r) = Ok (matches c (snd x)).
Proof.
  intros above dec c r x C (_ & v & W & A & T & X). rewrite T, X. pose proof (pyval_sortk _ W) as W'.
  assert (Sc : scan_doc false (dumps_sorted (JObj v)) = Some (sortk (JObj v))).
  { apply (scan_dumps false); [exact W'|]. right. apply finite_sortk, attributes_finite, A. }
  assert (F : Forall (fun p => joined (fst p)) (sort_items (map sf v))).
  { rewrite sortk_obj in W'. cbn in W'. destruct W' as [_ W']. apply all_forall in W'. eapply Forall_impl; [|exact W']. intros p H. apply H. }
  rewrite sortk_obj in *. induction C as [|[k y] c (K & Al & D) C IH]; [reflexivity|].
  cbn [row_matches fst snd] in *. unfold json_extract. rewrite Sc. destruct k as [|k0 k]; [congruence|].
  cbn [bind]. rewrite (json_member_get above dec (k0 :: k) _ Al D F). cbn [matches forallb fst snd].
  destruct (dict_get (k0 :: k) (sort_items (map sf v))) as [z|]; [|reflexivity].
  destruct (is_str z y); cbn [andb]; [exact IH|reflexivity].
Qed.

Lemma filter_rows_good : forall above dec c s recs, crit_ok above dec c -> Forall2 rec_of s recs ->
  exists rows, filter_rows (row_matches dec c) s = Ok rows /\ traverse ag_record rows = Ok (filter (fun x => matches c (snd x)) recs).
Proof.
  intros above dec c s recs C. induction 1 as [|r x s recs R Rs IH]; cbn; [exists []; auto|].
  destruct IH as (rows & E & T). rewrite (row_matches_good above dec c r x C R), E. cbn [bind].
  destruct (matches c (snd x)).
  - exists (r :: rows). split; [reflexivity|]. cbn. destruct R as (Ex & v & W & A & Tr & X).
    unfold ag_record at 1. rewrite Tr, loads_sorted by exact W. cbn [bind]. rewrite T. cbn [bind]. rewrite <- X, <- Ex. destruct x; reflexivity.
  - exists rows. auto.
Qed.

Lemma criteria_json1 : forall above dec c s recs, Forall2 rec_of s recs -> ag_find_all s = Ok recs -> c <> [] ->
  Forall (fun p => fst p <> []) c -> (dec = true \/ Forall (fun p => Forall (fun c => c < 128) (fst p)) c) ->
  find_by_criteria_json1 above dec c s = Ok (filter (fun x => matches c (snd x)) recs).
Proof.
  intros above dec c s recs R E Ne K D. unfold find_by_criteria_json1.
  match goal with |- context[existsb ?f c] => destruct (existsb f c) eqn:X end.
  - unfold find_by_criteria_base. rewrite E. reflexivity.
  - destruct c as [|p c]; [congruence|].
    assert (C : crit_ok above dec (p :: c)).
    { apply Forall_forall. intros q I. rewrite Forall_forall in K. split; [apply K, I|]. split.
      - destruct (forallb (isalnum above) (fst q)) eqn:Q; [reflexivity|]. exfalso.
        match type of X with existsb ?f _ = false => assert (existsb f (p :: c) = true) end; [|congruence].
        apply existsb_exists. exists q. split; [exact I|]. pose proof (K q I). destruct (fst q); [congruence|]. rewrite Q. reflexivity.
      - destruct D as [D|D]; [left; exact D|right]. rewrite Forall_forall in D. apply D, I. }
    destruct (filter_rows_good above dec (p :: c) s recs C R) as (rows & -> & T). exact T.
Qed.

Lemma distinct_spec : forall l seen, NoDup (distinct seen l) /\ (forall x, In x (distinct seen l) <-> In x l /\ ~ In x seen).
Proof.
  induction l as [|x l IH]; intros seen; cbn; [split; [constructor|intro; tauto]|].
  destruct (existsb (text_eqb x) seen) eqn:E.
  - assert (I : In x seen) by (apply existsb_exists in E; destruct E as (y & I & Q); apply teqb_iff in Q; subst; exact I).
    destruct (IH seen) as [N H]. split; [exact N|]. intro y. rewrite H. split; [tauto|]. intros [[->|A] B]; tauto.
  - assert (I : ~ In x seen).
    { intro I. assert (existsb (text_eqb x) seen = true) by (apply existsb_exists; exists x; split; [exact I|apply teqb_refl]). congruence. }
    destruct (IH (x :: seen)) as [N H]. split.
    + constructor; [rewrite H; cbn; tauto|exact N].
    + intro y. cbn. rewrite H. cbn. split.
      * intros [<-|[A B]]; tauto.
      * intros [[->|A] B]; [tauto|]. destruct (list_eq_dec N.eq_dec x y); [tauto|]. right. split; [exact A|]. tauto.
Qed.

Lemma ltb_lt : forall a b, text_ltb a b = true -> text_lt a b.
Proof.
  induction a as [|x a IH]; intros [|y b] H; cbn in H; try discriminate.
  - exists []. left. split; [reflexivity|]. exists y, b. reflexivity.
  - apply orb_prop in H. destruct H as [H|H].
    + apply N.ltb_lt in H. exists []. right. exists x, y, a, b. auto.
    + apply andb_prop in H. destruct H as [E H]. apply N.eqb_eq in E. subst y. destruct (IH b H) as (p & [[-> (c & r & ->)]|(c & c' & r & r' & -> & -> & L)]).
      * exists (x :: p). left. split; [reflexivity|]. exists c, r. reflexivity.
      * exists (x :: p). right. exists c, c', r, r'. auto.
Qed.

Lemma sort_texts_spec : forall l, NoDup l -> increasing (sort_texts l) /\ forall x, In x (sort_texts l) <-> In x l.
Proof.
  intros l N. unfold sort_texts. set (m := map (fun x => (x, tt)) l).
  assert (E : map fst m = l) by (unfold m; rewrite map_map; apply map_id).
  split.
  - assert (S1 : StronglySorted key_lt (sort_items m)) by (apply sort_sorted; rewrite E; exact N).
    revert S1. generalize (sort_items m). intros q0 S1. induction S1 as [|p q S1 IH F]; cbn; [exact I|]. destruct q as [|p' q]; [exact I|]. cbn in *. inversion F as [|? ? H1 H2]. clear E.
    split; [apply ltb_lt; exact H1|exact IH].
  - intro x. rewrite sort_keys_in, E. reflexivity.
Qed.

Lemma names_base : forall s recs, ag_find_all s = Ok recs -> exists l, attribute_names_base s = Ok l /\ increasing l /\
  forall k, In k l <-> exists i d x, In (i, JObj d) recs /\ In (k, x) d.
Proof.
  intros s recs E. unfold attribute_names_base. rewrite E. cbn [bind]. eexists. split; [reflexivity|].
  match goal with |- context[distinct [] ?l] => set (L := l); destruct (distinct_spec L []) as [N H] end.
  destruct (sort_texts_spec _ N) as [I J]. split; [exact I|]. intro k. rewrite J, H. unfold L. rewrite in_flat_map. cbn. split.
  - intros [((i & v) & Ir & Ik) _]. cbn in Ik. destruct v; try destruct Ik. apply in_map_iff in Ik. destruct Ik as ([k' x] & <- & Ik).
    exists i, kv, x. auto.
  - intros (i & d & x & Ir & Ik). split; [|tauto]. exists (i, JObj d). split; [exact Ir|]. cbn.
    change k with (fst (k, x)). apply in_map, Ik.
Qed.

Lemma names_json1 : forall s recs, Forall2 rec_of s recs -> ag_find_all s = Ok recs -> attribute_names_json1 s = attribute_names_base s.
Proof.
  intros s recs R E. unfold attribute_names_base, attribute_names_json1. rewrite E. cbn [bind].
  match goal with |- (do l <- ?T; _) = _ => assert (H : T = Ok (map (fun x : Z * json => match snd x with JObj d => map fst d | _ => [] end) recs)) end.
  { clear E. induction R as [|r x s recs (_ & v & W & A & T & X) R IH]; [reflexivity|]. cbn [traverse map].
    rewrite IH, T, X.
    assert (Sc : scan_doc false (dumps_sorted (JObj v)) = Some (sortk (JObj v))).
    { apply (scan_dumps false); [apply pyval_sortk, W|]. right. apply finite_sortk, attributes_finite, A. }
    rewrite Sc. reflexivity. }
  rewrite H. cbn [bind]. rewrite <- flat_map_concat_map. reflexivity.
Qed.

(** * Values read from texts *)

Lemma hex4_bound : forall h u, Hex4 h u -> u < 65536.
Proof.
  intros h u (a & b & c & d & x & y & z & w & _ & A & B & C & D & ->).
  assert (Q : forall e v, HexDigit e v -> v < 16) by (intros e v H; unfold HexDigit in H; lia).
  apply Q in A, B, C, D. lia.
Qed.

Lemma chars_low_start : forall e s, Chars e s -> clean e -> forall w s', s = w :: s' -> Low w ->
  exists h e', Hex4 h w /\ e = 92 :: 117 :: h ++ e'.
Proof.
  intros e s H C w s' E Lo. destruct H as [|c e s C1 C2 C3 H|l x e s I H|h u e s U N H|h u h' w' e s U Hi W' Lo' H];
    try discriminate; pose proof (f_equal (hd 0) E) as E1; cbn [hd] in E1; clear E.
  - inversion C; subst. unfold Low in Lo. lia.
  - subst x. unfold escapes in I. cbn [In] in I. unfold Low in Lo.
    repeat (destruct I as [I|I]; [injection I as <- <-; lia|]). destruct I.
  - subst u. eauto.
  - exfalso. unfold High, Low in *. clear - E1 Lo Hi. lia.
Qed.

Lemma chars_joined : forall e s, Chars e s -> clean e -> joined s.
Proof.
  induction 1 as [|c e s C1 C2 C3 H IH|l x e s I H IH|h u e s U N H IH|h u h' w e s U Hi W' Lo' H IH]; intro C.
  - split; [constructor|]. intros [|? ?] ? ? ? E; discriminate.
  - inversion C; subst. destruct (IH H3) as [F J]. split; [constructor; [lia|exact F]|].
    intros [|y a] u w b E [Hi Lo].
    + cbn in E. injection E as -> ->. unfold High in Hi. lia.
    + cbn in E. injection E as -> ->. apply (J a u w b eq_refl). auto.
  - inversion C; subst. inversion H3; subst. destruct (IH H5) as [F J].
    assert (B : x < 128) by (unfold escapes in I; cbn [In] in I; repeat (destruct I as [I|I]; [injection I as <- <-; lia|]); destruct I).
    split; [constructor; [lia|exact F]|]. intros [|y a] u w b E [Hi Lo].
    + cbn in E. injection E as -> ->. unfold High in Hi. lia.
    + cbn in E. injection E as -> ->. apply (J a u w b eq_refl). auto.
  - assert (C' : clean e) by (inversion C as [|? ? _ C1]; inversion C1 as [|? ? _ C2]; apply Forall_app in C2; apply C2).
    destruct (IH C') as [F J]. pose proof (hex4_bound _ _ U). split; [constructor; [lia|exact F]|].
    intros [|y a] u' w b E [Hi Lo].
    + cbn in E. injection E as -> ->. destruct (chars_low_start _ _ H C' w b eq_refl Lo) as (h' & e' & X & ->).
      apply N. split; [exact Hi|]. exists h', w, e'. auto.
    + cbn in E. injection E as -> ->. apply (J a u' w b eq_refl). auto.
  - assert (C' : clean e).
    { inversion C as [|? ? _ C1]; inversion C1 as [|? ? _ C2]; apply Forall_app in C2. destruct C2 as [_ C2].
      inversion C2 as [|? ? _ C3]; inversion C3 as [|? ? _ C4]; apply Forall_app in C4. apply C4. }
    destruct (IH C') as [F J]. split; [constructor; [unfold High, Low in *; lia|exact F]|].
    intros [|y a] u' w' b E [Hi' Lo].
    + pose proof (f_equal (hd 0) E) as E1. cbn [hd app] in E1. unfold High in *. clear - E1 Hi Hi'. lia.
    + pose proof (f_equal (@tl N) E) as E1. cbn [tl app] in E1. apply (J a u' w' b E1). auto.
Qed.

Lemma clean_app : forall a b, clean (a ++ b) <-> clean a /\ clean b.
Proof. intros a b. apply Forall_app. Qed.
Lemma clean_cons : forall c b, clean (c :: b) -> clean b.
Proof. intros c b H. inversion H; assumption. Qed.

Definition Pm (p : text * json) : Prop := joined (fst p) /\ pyval (py_value (snd p)).

Lemma py_obj_pyval : forall kv, Forall Pm kv -> pyval (py_value (JObj kv)).
Proof.
  intros kv F. cbn [py_value pyval]. split; [apply dict_of_nodup|]. apply all_forall, Forall_forall. intros [k v] I.
  assert (G : dict_get k (dict_of (map (fun p => (fst p, py_value (snd p))) kv)) = Some v) by (apply dict_get_nodup; [apply dict_of_nodup|exact I]).
  rewrite py_dict_get in G. destruct (dict_get k (rev kv)) as [x|] eqn:R; [|discriminate]. cbn in G. injection G as <-.
  apply dict_get_in in R. apply in_rev in R. rewrite Forall_forall in F. apply (F _ R).
Qed.

Lemma grammar_pyval : forall consts,
  (forall t v, Value consts t v -> clean t -> pyval (py_value v)) /\
  (forall t l, Elems consts t l -> clean t -> Forall (fun v => pyval (py_value v)) l) /\
  (forall t l, Members consts t l -> clean t -> Forall Pm l).
Proof.
  intro consts.
  apply (grammar_ind consts (fun t v => clean t -> pyval (py_value v)) (fun t l => clean t -> Forall (fun v => pyval (py_value v)) l)
    (fun t l => clean t -> Forall Pm l)); intros; try exact I.
  - exact H.
  - apply clean_cons in H0. apply clean_app in H0. cbn. eapply chars_joined; [eassumption|apply H0].
  - apply clean_cons in H1. apply clean_app in H1. cbn. apply all_forall. specialize (H0 (proj1 H1)).
    apply Forall_forall. intros x J. apply in_map_iff in J. destruct J as (y & <- & J). rewrite Forall_forall in H0. auto.
  - cbn. split; [constructor|exact I].
  - apply clean_cons in H1. apply clean_app in H1. apply py_obj_pyval. apply H0, H1.
  - apply clean_app in H3. destruct H3 as [_ H3]. apply clean_app in H3. constructor; [apply H1, H3|constructor].
  - apply clean_app in H5. destruct H5 as [_ H5]. apply clean_app in H5. destruct H5 as [A B].
    apply clean_app in B. destruct B as [_ B]. apply clean_cons in B. constructor; auto.
  - apply clean_app in H6. destruct H6 as [_ H6]. apply clean_app in H6. destruct H6 as [A B].
    apply clean_cons in A. apply clean_app in A. apply clean_app in B. destruct B as [_ B]. apply clean_cons in B.
    apply clean_app in B. destruct B as [_ B]. apply clean_app in B.
    constructor; [|constructor]. split; cbn; [eapply chars_joined; [eassumption|apply A]|apply H4, B].
  - apply clean_app in H8. destruct H8 as [_ H8]. apply clean_app in H8. destruct H8 as [A B].
    apply clean_cons in A. apply clean_app in A. apply clean_app in B. destruct B as [_ B]. apply clean_cons in B.
    apply clean_app in B. destruct B as [_ B]. apply clean_app in B. destruct B as [B B'].
    apply clean_app in B'. destruct B' as [_ B']. apply clean_cons in B'.
    constructor; [|auto]. split; cbn; [eapply chars_joined; [eassumption|apply A]|auto].
Qed.

Theorem loads_pyval : forall t v, clean t -> loads t = Ok v -> pyval v.
Proof.
  intros t v C L. apply loads_iff in L. destruct L as (raw & (w & t' & w' & -> & _ & V & _) & ->).
  apply clean_app in C. destruct C as [_ C]. apply clean_app in C. destruct C as [C _].
  eapply grammar_pyval; eassumption.
Qed.

(** * Characters written *)

Definition printable (t : text) : Prop := Forall (fun c => 32 <= c <= 126) t.

Lemma hexd_print : forall v, v < 16 -> 32 <= hexd v <= 126.
Proof. intros v H. unfold hexd. destruct (N.ltb_spec v 10); lia. Qed.

Lemma h4_print : forall n, n < 65536 -> printable (h4 n).
Proof.
  intros n L. unfold h4. assert (A : n / 4096 < 16) by (apply N.div_lt_upper_bound; lia).
  repeat (constructor; [apply hexd_print; (exact A || (apply N.mod_lt; lia))|]). constructor.
Qed.

Lemma print_cons : forall c t, 32 <= c <= 126 -> printable t -> printable (c :: t).
Proof. intros. constructor; auto. Qed.
Lemma print_app : forall a b, printable a -> printable b -> printable (a ++ b).
Proof. intros. apply Forall_app. auto. Qed.

Lemma esc_char_print : forall c, c < 1114112 -> printable (esc_char c).
Proof.
  intros c L. unfold esc_char.
  repeat (match goal with |- context[c =? ?n] => destruct (N.eqb_spec c n); [repeat constructor; lia|] end).
  destruct (N.leb_spec 32 c); [destruct (N.leb_spec c 126)|]; cbn [andb]; [repeat constructor; assumption| |].
  - destruct (N.ltb_spec c 65536).
    + rewrite u_esc_h4. apply print_cons; [lia|]. apply print_cons; [lia|]. apply h4_print. assumption.
    + destruct (pair_parts c) as (Hi & Lo & _); [assumption|assumption|]. rewrite !u_esc_h4.
      revert Hi Lo. generalize (55296 + (c - 65536) / 1024), (56320 + (c - 65536) mod 1024). intros u w Hi Lo. unfold High, Low in *.
      apply print_app; (apply print_cons; [lia|]; apply print_cons; [lia|]; apply h4_print; lia).
  - destruct (N.ltb_spec c 65536); [|lia]. rewrite u_esc_h4. apply print_cons; [lia|]. apply print_cons; [lia|]. apply h4_print. assumption.
Qed.

Lemma esc_print : forall s, joined s -> printable (esc s).
Proof.
  intros s [F _]. unfold esc. apply print_cons; [lia|]. apply print_app; [|repeat constructor; lia].
  induction F as [|c s L F IH]; cbn; [constructor|]. apply print_app; [apply esc_char_print, L|exact IH].
Qed.

Lemma digit_print : forall d, Forall Digit d -> printable d.
Proof. intros d F. eapply Forall_impl; [|exact F]. intros c H. unfold Digit in H. lia. Qed.
Lemma int_print : forall i, IntPart i -> printable i.
Proof. intros i [->|(c & d & -> & L & F)]; [repeat constructor; lia|]. apply print_cons; [lia|apply digit_print, F]. Qed.
Lemma real_print : forall t, RealLit t -> printable t.
Proof.
  intros t (s & i & f & e & -> & Sg & I & F & E & _). repeat apply print_app.
  - destruct Sg as [->| ->]; repeat constructor; lia.
  - apply int_print, I.
  - destruct F as [->|(d & -> & _ & F1)]; [constructor|]. apply print_cons; [lia|apply digit_print, F1].
  - destruct E as [->|(c & s' & d & -> & C & S' & _ & F1)]; [constructor|]. apply print_cons; [destruct C; subst; lia|].
    apply print_app; [destruct S' as [->|[->| ->]]; repeat constructor; lia|apply digit_print, F1].
Qed.

Lemma print_lit : forall t, forallb (fun c => (32 <=? c) && (c <=? 126)) t = true -> printable t.
Proof.
  intros t H. apply Forall_forall. intros c I. rewrite forallb_forall in H. apply H in I. apply andb_prop in I.
  destruct I as [A B]. apply N.leb_le in A, B. lia.
Qed.

Lemma join_print : forall l, Forall printable l -> printable (join (txt ", ") l).
Proof.
  induction l as [|x l IH]; intro F; [constructor|]. inversion F; subst. destruct l as [|y l]; [exact H1|].
  change (join (txt ", ") (x :: y :: l)) with (x ++ txt ", " ++ join (txt ", ") (y :: l)).
  apply print_app; [exact H1|]. apply print_app; [apply print_lit; reflexivity|]. apply IH. assumption.
Qed.

Theorem dumps_print : forall v, pyval v -> printable (dumps v).
Proof.
  induction v as [ |b|z|t| |b|s|l IH|kv IH] using json_ind2; intros W; cbn [dumps].
  - apply print_lit; reflexivity.
  - destruct b; apply print_lit; reflexivity.
  - unfold int_text. destruct z as [|p|p]; [| |apply print_cons; [lia|]]; apply int_print, dec_text_ok.
  - apply real_print, W.
  - apply print_lit; reflexivity.
  - destruct b; apply print_lit; reflexivity.
  - apply esc_print, W.
  - apply print_cons; [lia|]. apply print_app; [|apply print_lit; reflexivity]. apply join_print.
    cbn in W. apply all_forall in W. rewrite Forall_forall in *. intros t I. apply in_map_iff in I. destruct I as (x & <- & I). auto.
  - apply print_cons; [lia|]. apply print_app; [|apply print_lit; reflexivity]. apply join_print.
    cbn in W. destruct W as [_ W]. apply all_forall in W. rewrite Forall_forall in *. intros t I. apply in_map_iff in I. destruct I as (x & <- & I).
    destruct (W x I) as [J P]. apply print_app; [apply esc_print, J|]. apply print_app; [apply print_lit; reflexivity|]. apply (IH x I), P.
Qed.
