(** Proofs about link references. *)
From Verif Require Import Prelude Selectors_Model Selectors_Spec Selectors_Proofs
  SelectorParse_Model LinkRef_Model LinkRef_Spec.

Lemma in_by_id ref links k :
  In k (find_by_other_unique_id ref links) <-> In k links /\ by_id ref k.
Proof. unfold find_by_other_unique_id, by_id. rewrite filter_In, text_eqb_iff. tauto. Qed.

Lemma in_hint ref links k :
  In k (find_by_other_filename_hint ref links) <-> In k links /\ k_hint k = Some ref.
Proof.
  unfold find_by_other_filename_hint. rewrite filter_In.
  destruct (k_hint k) as [h|].
  - rewrite text_eqb_iff. split; intros [H1 H2]; split; congruence.
  - split; intros [_ H]; discriminate.
Qed.

Lemma in_prefix ref links k :
  In k (find_by_prefix ref links) <-> In k links /\ exists rest, k_other k = ref ++ rest.
Proof. unfold find_by_prefix. rewrite filter_In, startswith_iff. tauto. Qed.

Lemma in_file ref links k :
  In k (find_by_other_filename_hint ref links ++
        (if negb (endswith ref ext) then find_by_other_filename_hint (ref ++ ext) links else []))
  <-> In k links /\ by_file ref k.
Proof.
  unfold by_file. rewrite in_app_iff, in_hint.
  destruct (endswith ref ext) eqn:E; cbn [negb].
  - apply endswith_iff in E. cbn [In]. unfold toron_ext. fold ext. intuition.
  - rewrite in_hint. unfold toron_ext. fold ext.
    assert (~ exists stem, ref = stem ++ ext).
    { intros H. apply endswith_iff in H. congruence. }
    intuition.
Qed.

Lemma several_false m : several_sources m = false <->
  forall x y, In x m -> In y m -> k_other x = k_other y.
Proof.
  destruct m as [|k m]; cbn [several_sources].
  - split; [intros _ x y []|reflexivity].
  - split.
    + intros H.
      assert (A : forall x, In x m -> k_other x = k_other k).
      { intros x Hx. destruct (text_eqb (k_other x) (k_other k)) eqn:E.
        - apply text_eqb_iff. exact E.
        - exfalso. assert (existsb (fun x => negb (text_eqb (k_other x) (k_other k))) m = true).
          { apply existsb_exists. exists x. rewrite E. auto. }
          congruence. }
      intros x y [->|Hx] [->|Hy]; auto; try (symmetry; auto; fail).
      rewrite (A x Hx), (A y Hy). reflexivity.
    + intros H. apply not_true_is_false. intros E.
      apply existsb_exists in E. destruct E as [x [Hx E]].
      rewrite (H x k) in E by (cbn; auto). rewrite text_eqb_refl in E. discriminate.
Qed.

(** The list of candidates. *)
Definition cands ref links : list link :=
  match find_by_other_unique_id ref links with
  | (_ :: _) as m => m
  | [] =>
      let m := find_by_other_filename_hint ref links ++
               (if negb (endswith ref ext)
                then find_by_other_filename_hint (ref ++ ext) links else []) in
      match m with
      | [] => if 7 <=? length ref then find_by_prefix ref links else []
      | _ => m
      end
  end.

Lemma in_cands ref links k : In k (cands ref links) <-> mentions links ref k.
Proof.
  unfold cands, mentions.
  destruct (find_by_other_unique_id ref links) as [|a m] eqn:E1.
  - assert (N : forall x, In x links -> ~ by_id ref x).
    { intros x Hx Hb. assert (H : In x (find_by_other_unique_id ref links))
        by (apply in_by_id; auto). rewrite E1 in H. exact H. }
    cbv zeta.
    destruct (find_by_other_filename_hint ref links ++ _) as [|b m] eqn:E2.
    + assert (F : forall x, In x links -> ~ by_file ref x).
      { intros x Hx Hb. assert (H : In x []) by (rewrite <- E2; apply in_file; auto). exact H. }
      destruct (7 <=? length ref) eqn:L.
      * apply Nat.leb_le in L. rewrite in_prefix. unfold by_prefix.
        split.
        -- intros [H1 H2]. split; [exact H1|]. right. split; [exact N|]. right. split; [exact F|]. split; assumption.
        -- intros [H1 [H2|[_ [H2|[_ [_ H2]]]]]]; [exfalso; apply (N k H1 H2)|exfalso; apply (F k H1 H2)|auto].
      * apply Nat.leb_gt in L. split; [intros []|].
        intros [H1 [H2|[_ [H2|[_ [H2 _]]]]]]; [exfalso; apply (N k H1 H2)|exfalso; apply (F k H1 H2)|lia].
    + rewrite <- E2, in_file. split.
      * intros [H1 H2]. auto.
      * intros [H1 [H2|[_ [H2|[H2 _]]]]]; auto.
        -- exfalso; eapply N; eauto.
        -- exfalso. apply (H2 b); apply (in_file ref links b); rewrite E2; left; reflexivity.
  - rewrite <- E1, in_by_id. split; [tauto|].
    intros [H1 [H2|[H2 _]]]; auto.
    exfalso. apply (H2 a); apply (in_by_id ref links a); rewrite E1; left; reflexivity.
Qed.

Lemma by_id_one ref links x y :
  In x (find_by_other_unique_id ref links) -> In y (find_by_other_unique_id ref links) ->
  k_other x = k_other y.
Proof. rewrite !in_by_id. unfold by_id. intros [_ ->] [_ ->]. reflexivity. Qed.

Lemma get_links_cands ref links :
  get_links_by_ref ref links =
  match ref with
  | [] => Err ToronError
  | _ => if several_sources (cands ref links) then Err ToronError
         else match cands ref links with [] => Err ToronError | m => Ok m end
  end.
Proof.
  destruct ref as [|c ref]; [reflexivity|].
  unfold get_links_by_ref, cands.
  destruct (find_by_other_unique_id (c :: ref) links) as [|a m] eqn:E.
  - cbv zeta. destruct (find_by_other_filename_hint (c :: ref) links ++ _); [destruct (if 7 <=? length (c :: ref) then _ else _)|]; reflexivity.
  - replace (several_sources (a :: m)) with false; [reflexivity|].
    symmetry. apply several_false. rewrite <- E. apply by_id_one.
Qed.

Lemma get_links_iff ref links m :
  get_links_by_ref ref links = Ok m <->
  ref <> [] /\ one_source links ref /\ m = cands ref links /\ m <> [].
Proof.
  rewrite get_links_cands.
  assert (O : several_sources (cands ref links) = false <-> one_source links ref).
  { rewrite several_false. unfold one_source. split.
    - intros H x y Hx Hy. apply H; apply in_cands; assumption.
    - intros H x y Hx Hy. apply H; apply in_cands; assumption. }
  destruct ref as [|c ref].
  - split; [discriminate|]. intros [H _]. congruence.
  - destruct (several_sources _).
    + split; [discriminate|]. intros [_ [H _]]. apply O in H. discriminate.
    + destruct (cands _ links) as [|a l] eqn:E.
      * split; [discriminate|]. intros [_ [_ [-> H]]]. congruence.
      * split.
        -- intros [= <-]. repeat split; try congruence. apply O; reflexivity.
        -- intros [_ [_ [-> _]]]. reflexivity.
Qed.

Lemma get_links_err ref links e : get_links_by_ref ref links = Err e -> e = ToronError.
Proof.
  rewrite get_links_cands. destruct ref; [congruence|].
  destruct (several_sources _); [congruence|]. destruct (cands _ _); congruence.
Qed.

Lemma filter_nil_iff {A} (f : A -> bool) l : filter f l = [] <-> forall x, In x l -> f x = false.
Proof.
  split.
  - intros H x Hx. apply not_true_is_false. intros Hf.
    assert (I : In x (filter f l)) by (apply filter_In; auto). rewrite H in I. exact I.
  - intros H. destruct (filter f l) as [|a m] eqn:E; auto.
    assert (I : In a (filter f l)) by (rewrite E; left; auto).
    apply filter_In in I. destruct I as [I1 I2]. rewrite (H a I1) in I2. discriminate.
Qed.

Lemma nodup_filter {A} (f : A -> bool) l : NoDup l -> NoDup (filter f l).
Proof.
  induction 1 as [|a l H1 H2 IH]; cbn; [constructor|].
  destruct (f a); auto. constructor; auto. rewrite filter_In. tauto.
Qed.

Lemma nodup_app {A} (l m : list A) : NoDup l -> NoDup m ->
  (forall x, In x l -> ~ In x m) -> NoDup (l ++ m).
Proof.
  induction l as [|a l IH]; cbn; auto. intros H1 H2 H3. inversion H1; subst.
  constructor.
  - rewrite in_app_iff. intros [H|H]; [auto|]. apply (H3 a); auto.
  - apply IH; auto.
Qed.

Lemma nodup_cands ref links : NoDup links -> NoDup (cands ref links).
Proof.
  intros H. unfold cands.
  destruct (find_by_other_unique_id ref links) eqn:E1.
  - cbv zeta. destruct (_ ++ _) eqn:E2.
    + destruct (7 <=? length ref); [apply nodup_filter; auto|constructor].
    + rewrite <- E2. apply nodup_app.
      * apply nodup_filter; auto.
      * destruct (negb _); [apply nodup_filter; auto|constructor].
      * intros x H1 H2. apply in_hint in H1. destruct (negb _); [|exact H2].
        apply in_hint in H2. destruct H1 as [_ H1], H2 as [_ H2].
        rewrite H1 in H2. injection H2 as H2.
        apply (f_equal (@length N)) in H2. rewrite app_length in H2.
        change (length ext) with 6 in H2. lia.
  - rewrite <- E1. apply nodup_filter; auto.
Qed.

Lemma nodup_ids links : NoDup (map k_id links) -> NoDup links.
Proof. apply NoDup_map_inv. Qed.

Lemma truthy_name (name : option text) : truthy name = true -> exists c n, name = Some (c :: n).
Proof. destruct name as [[|c n]|]; cbn; try discriminate; eauto. Qed.

Lemma find_mentions (f : link -> bool) ref links k :
  find f (cands ref links) = Some k -> mentions links ref k /\ f k = true.
Proof. intros H. apply find_some in H. rewrite in_cands in H. exact H. Qed.

Lemma find_found {A} (f : A -> bool) l k : In k l -> f k = true -> exists x, find f l = Some x.
Proof.
  intros H1 H2. destruct (find f l) eqn:E; eauto.
  pose proof (find_none f l E k H1). congruence.
Qed.

Theorem get_link_iff ref name ad links k : link_table links ->
  (get_link ref name ad links = Ok k <-> meant links ref name ad k).
Proof.
  intros [T1 [T2 T3]]. unfold get_link.
  destruct (get_links_by_ref ref links) as [m|e] eqn:G; cbn [bind].
  2:{ split; [discriminate|]. intros [H1 [H2 [H3 _]]].
      assert (G' : get_links_by_ref ref links = Ok (cands ref links)).
      { apply get_links_iff. repeat split; auto. intros E.
        apply in_cands in H3. rewrite E in H3. exact H3. }
      congruence. }
  apply get_links_iff in G. destruct G as [G1 [G2 [-> G3]]].
  destruct (truthy name) eqn:Tn.
  - apply truthy_name in Tn. destruct Tn as [c [n ->]]. unfold meant.
    split.
    + destruct (find _ _) as [x|] eqn:F; [|discriminate]. intros [= ->].
      apply find_mentions in F. destruct F as [F1 F2]. apply text_eqb_iff in F2. auto.
    + intros [_ [_ [H1 H2]]].
      destruct (find_found (fun x => text_eqb (k_name x) (c :: n)) (cands ref links) k) as [x F].
      * apply in_cands; auto.
      * apply text_eqb_iff; auto.
      * rewrite F. apply find_mentions in F. destruct F as [F1 F2]. apply text_eqb_iff in F2.
        f_equal. apply T2.
        -- apply F1.
        -- apply H1.
        -- apply G2; auto.
        -- congruence.
  - assert (M : meant links ref name ad k <->
      mentions links ref k /\
      ((forall x, mentions links ref x -> x = k) \/ (ad = true /\ k_default k = true))).
    { unfold meant. destruct name as [[|c n]|]; cbn in Tn; try discriminate; tauto. }
    rewrite M. clear M.
    pose proof (nodup_cands ref links (nodup_ids _ T1)) as ND.
    assert (IC : forall x, mentions links ref x <-> In x (cands ref links))
      by (intros; symmetry; apply in_cands).
    assert (HF : forall x, find k_default (cands ref links) = Some x ->
                 mentions links ref x /\ k_default x = true) by (intros; apply find_mentions; auto).
    assert (HD : ad = true -> mentions links ref k -> k_default k = true ->
                 find k_default (cands ref links) = Some k).
    { intros _ H1 H2. destruct (find_found k_default (cands ref links) k) as [x F]; auto.
      - apply IC; auto.
      - rewrite F. destruct (HF x F) as [F1 F2]. f_equal. apply T3; auto.
        + apply F1. + apply H1. }
    destruct (cands ref links) as [|a [|b l]] eqn:E.
    + congruence.
    + split.
      * intros [= ->]. split; [apply IC; left; auto|]. left. intros x Hx.
        apply IC in Hx. destruct Hx as [Hx|[]]; auto.
      * intros [H1 _]. apply IC in H1. destruct H1 as [->|[]]. reflexivity.
    + destruct ad; cbn [negb].
      * split.
        -- destruct (find _ _) as [x|] eqn:F; [|discriminate]. intros [= ->].
           destruct (HF k eq_refl). auto.
        -- intros [H1 [H2|[_ H2]]].
           ++ exfalso. inversion ND as [|? ? N1 N2]; subst. apply N1.
              assert (a = k) by (apply H2, IC; left; auto).
              assert (b = k) by (apply H2, IC; right; left; auto).
              left; congruence.
           ++ rewrite (HD eq_refl H1 H2). reflexivity.
      * split; [discriminate|]. intros [H1 [H2|[? _]]]; [|discriminate].
        exfalso. inversion ND as [|? ? N1 N2]; subst. apply N1.
        assert (a = k) by (apply H2, IC; left; auto).
        assert (b = k) by (apply H2, IC; right; left; auto).
        left; congruence.
Qed.

Theorem get_link_err ref name ad links e :
  get_link ref name ad links = Err e -> e = ToronError.
Proof.
  unfold get_link. destruct (get_links_by_ref ref links) as [m|x] eqn:G; cbn [bind].
  - destruct (truthy name).
    + destruct name; [|congruence]. destruct (find _ _); congruence.
    + destruct m as [|a [|b l]]; try congruence.
      * destruct (negb ad); [congruence|]. cbn. congruence.
      * destruct (negb ad); [congruence|]. destruct (find _ _); congruence.
  - intros [= ->]. eapply get_links_err; eauto.
Qed.

Lemma meant_unique links ref name ad x y : link_table links ->
  meant links ref name ad x -> meant links ref name ad y -> x = y.
Proof.
  intros T Hx Hy. apply get_link_iff in Hx; auto. apply get_link_iff in Hy; auto. congruence.
Qed.

(** *** The translation's choice *)

Lemma traverse_cons {A B} (f : A -> res B) x l :
  traverse f (x :: l) = (do y <- f x; do ys <- traverse f l; Ok (y :: ys)).
Proof. reflexivity. Qed.

Lemma traverse_ok {A B} (f : A -> res B) l out :
  traverse f l = Ok out -> Forall2 (fun a b => f a = Ok b) l out.
Proof.
  revert out. induction l as [|a l IH]; intros out.
  - intros [= <-]. constructor.
  - rewrite traverse_cons. destruct (f a) as [b|] eqn:E; cbn [bind]; [|discriminate].
    destruct (traverse f l) as [bs|] eqn:E2; cbn [bind]; [|discriminate].
    intros [= <-]. constructor; auto.
Qed.

Lemma zs_eqb_iff a b : zs_eqb a b = true <-> a = b.
Proof. unfold zs_eqb. destruct (list_eq_dec Z.eq_dec a b); split; congruence. Qed.

Lemma find_exact uid links : (exists k, In k links /\ k_other k = uid) ->
  find_links_by_ref uid links = find_by_other_unique_id uid links.
Proof.
  intros [k [H1 H2]]. unfold find_links_by_ref.
  destruct (find_by_other_unique_id uid links) eqn:E; auto.
  assert (I : In k (find_by_other_unique_id uid links)) by (apply in_by_id; auto).
  rewrite E in I. destruct I.
Qed.

Theorem link_choice uid links h d dflt :
  link_table links -> (exists k, In k links /\ k_other k = uid) ->
  make_get_link_id uid links h = Ok (d, dflt) ->
  (exists k, current links uid h k /\ k_default k = true /\ k_id k = dflt) /\
  NoDup (map fst d) /\
  (forall i sels, In (i, sels) d <->
     exists k l, eligible links uid h k /\ k_id k = i /\ sels = Some l /\
       Forall2 (fun t s => parse_selector t = Ok s) (k_selectors k) l).
Proof.
  intros [T1 _] Hu. unfold make_get_link_id. rewrite (find_exact uid links Hu).
  cbv zeta.
  set (m1 := find_by_other_unique_id uid links).
  assert (I1 : forall k, In k m1 <-> In k links /\ k_other k = uid) by (intros; apply in_by_id).
  destruct (nil_b m1); [discriminate|].
  set (m2 := filter (fun k => match k_hash k with Some h0 => zs_eqb h0 h | None => false end) m1).
  assert (I2 : forall k, In k m2 <-> current links uid h k).
  { intros k. unfold m2, current. rewrite filter_In, I1.
    destruct (k_hash k) as [x|]; [rewrite zs_eqb_iff|]; intuition congruence. }
  destruct (nil_b m2); [discriminate|].
  destruct (find k_default m2) as [dk|] eqn:F; [|discriminate].
  set (m3 := filter (fun k => k_complete k && negb (nil_b (k_selectors k))) m2).
  destruct (traverse _ m3) as [d'|] eqn:Tr; cbn [bind]; [|discriminate].
  intros [= <- <-].
  apply traverse_ok in Tr.
  assert (I3 : forall k, In k m3 <-> eligible links uid h k).
  { intros k. unfold m3, eligible. rewrite filter_In, I2, andb_true_iff.
    destruct (k_selectors k); cbn [nil_b negb]; intuition congruence. }
  split; [|split].
  - apply find_some in F. destruct F as [F1 F2]. exists dk. rewrite <- I2. auto.
  - assert (E : map fst d' = map k_id m3).
    { clear -Tr. induction Tr as [|k b l l' H _ IH]; [reflexivity|]. cbn [map]. rewrite IH. f_equal.
      destruct (traverse parse_selector (k_selectors k)); cbn [bind] in H; [|discriminate].
      injection H as <-. reflexivity. }
    rewrite E.
    assert (S : forall (f : link -> bool) l, NoDup (map k_id l) -> NoDup (map k_id (filter f l))).
    { clear. intros f l. induction l as [|a l IH]; cbn; auto. intros H. inversion H; subst.
      destruct (f a); auto. cbn. constructor; auto.
      rewrite in_map_iff in *. intros [x [X1 X2]]. apply filter_In in X2. apply H2. exists x. tauto. }
    apply S, S, S. exact T1.
  - intros i sels. split.
    + intros H. clear -H Tr I3.
      assert (X : exists k, In k m3 /\ (do s <- traverse parse_selector (k_selectors k); Ok (k_id k, Some s)) = Ok (i, sels)).
      { clear I3. induction Tr as [|k b l l' H1 _ IH]; [destruct H|].
        destruct H as [->|H]; [exists k; cbn; auto|]. destruct (IH H) as [x [? ?]]. exists x; cbn; auto. }
      destruct X as [k [X1 X2]].
      destruct (traverse parse_selector (k_selectors k)) as [l|] eqn:E; cbn [bind] in X2; [|discriminate].
      injection X2 as <- <-. exists k, l. rewrite <- I3. repeat split; auto. apply traverse_ok; auto.
    + intros [k [l [H1 [<- [-> H2]]]]]. rewrite <- I3 in H1. clear -H1 H2 Tr.
      induction Tr as [|x b m m' H _ IH]; [destruct H1|].
      destruct H1 as [->|H1]; [|right; auto]. left.
      assert (Y : traverse parse_selector (k_selectors k) = Ok l).
      { clear -H2. induction H2 as [|t s ts ss H _ IH]; [reflexivity|].
        rewrite traverse_cons, H. cbn [bind]. rewrite IH. reflexivity. }
      rewrite Y in H. cbn [bind] in H. congruence.
Qed.
