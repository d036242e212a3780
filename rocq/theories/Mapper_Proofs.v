(** Proofs about matching rows to records. *)
From Verif Require Import Prelude QLemmas BitFlags_Model BitFlags_Proofs Selectors_Model Selectors_Proofs
  LinkRef_Model LinkRef_Proofs Db_Model Db_Spec Reader_Model Reader_Spec Reader_Proofs Mapper_Model Mapper_Spec.
From Coq Require Import Permutation Lqa.
From Coq Require Import ZifyBool ZifyNat ZifyN.
Local Open Scope nat_scope.

(** *** Records that agree with a location *)

Lemma label_of_nth cols : forall labels n c, NoDup cols -> nth_error cols n = Some c ->
  label_of c cols labels = nth_error labels n.
Proof.
  induction cols as [|k cols IH]; intros labels n c Hd Hn; [now destruct n|].
  inversion Hd; subst. destruct n as [|n]; cbn [nth_error] in Hn.
  - inversion Hn; subst. destruct labels; cbn [label_of nth_error]; [reflexivity|now rewrite text_eqb_refl].
  - destruct labels as [|v labels]; cbn [label_of nth_error]; [reflexivity|].
    destruct (text_eqb k c) eqn:E; [|now apply IH].
    apply text_eqb_iff in E. subst. apply nth_error_In in Hn. contradiction.
Qed.

Lemma nth_combine {A B} (a : list A) (b : list B) x y :
  In (x, y) (combine a b) <-> exists n, nth_error a n = Some x /\ nth_error b n = Some y.
Proof.
  revert b. induction a as [|u a IH]; intros [|w b]; cbn [combine In].
  - split; [easy|]. intros ([|n] & H & _); discriminate.
  - split; [easy|]. intros ([|n] & H & _); discriminate.
  - split; [easy|]. intros ([|n] & _ & H); discriminate.
  - rewrite IH. split.
    + intros [E|(n & H1 & H2)]; [exists 0%nat; inversion E; now split|now exists (S n)].
    + intros ([|n] & H1 & H2); cbn [nth_error] in *; [left; congruence|right; now exists n].
Qed.

Lemma is_empty_iff t : is_empty t = true <-> t = [].
Proof. destruct t; cbn; split; congruence. Qed.

Lemma agrees_iff s r loc : index_wf s -> In r (d_index s) ->
  forallb (criterion_holds (d_labels s) r)
    (filter (fun kv => negb (is_empty (snd kv))) (combine (d_labels s) loc)) = true <-> agrees loc r.
Proof.
  intros W Hr. rewrite forallb_forall. pose proof (iw_arity _ W r Hr) as Ha. split.
  - intros H n v w Hv Hw Hne.
    assert (Hc : exists c, nth_error (d_labels s) n = Some c).
    { destruct (nth_error (d_labels s) n) eqn:E; [eauto|].
      apply nth_error_None in E. assert (nth_error (ix_labels r) n <> None) by congruence.
      apply nth_error_Some in H0. lia. }
    destruct Hc as [c Hc]. specialize (H (c, v)). rewrite filter_In in H.
    unfold criterion_holds in H. cbn [fst snd] in H.
    rewrite (label_of_nth _ _ n c (iw_columns _ W) Hc), Hw in H.
    symmetry. apply text_eqb_iff, H. split; [apply nth_combine; eauto|].
    rewrite negb_true_iff. destruct v; [congruence|reflexivity].
  - intros H [c v] Hi. apply filter_In in Hi as [Hi He]. cbn [snd] in He.
    apply nth_combine in Hi as (n & Hc & Hv).
    unfold criterion_holds. cbn [fst snd]. rewrite (label_of_nth _ _ n c (iw_columns _ W) Hc).
    destruct (nth_error (ix_labels r) n) as [w|] eqn:E.
    + apply text_eqb_iff. symmetry. apply (H n v w Hv E). intros ->. discriminate.
    + apply nth_error_None in E. assert (nth_error (d_labels s) n <> None) by congruence.
      apply nth_error_Some in H0. lia.
Qed.

Lemma in_candidates s d i : index_wf s -> by_labels d ->
  (In i (candidates s (sd_loc d)) <-> refers s d i).
Proof.
  intros W Hl. unfold candidates, filter_by_label, refers. rewrite Hl, in_map_iff. split.
  - intros (r & E & Hi). apply filter_In in Hi as [Hi Hc]. apply agrees_iff in Hc; [|assumption..].
    split; exists r; auto.
  - intros [_ (r & Hi & E & Ha)]. exists r. split; [exact E|]. apply filter_In. split; [exact Hi|].
    now apply agrees_iff.
Qed.
Lemma nodup_map_filter {A B} (f : A -> B) p l : NoDup (map f l) -> NoDup (map f (filter p l)).
Proof.
  induction l as [|x l IH]; cbn [map filter]; [auto|]. intros H. inversion H; subst.
  destruct (p x); cbn [map]; [constructor|]; auto.
  rewrite in_map_iff in *. intros (y & E & Hy). apply filter_In in Hy. apply H2. exists y. tauto.
Qed.
Lemma nodup_candidates s loc : index_wf s -> NoDup (candidates s loc).
Proof. intros W. apply nodup_map_filter, (iw_unique _ W). Qed.

Lemma index_find_iff s i : (exists r, index_find i s = Some r) <-> has_index s i.
Proof.
  unfold index_find, has_index. split.
  - intros [r H]. apply find_some in H. exists r. split; [tauto|lia].
  - intros (r & Hr & E). destruct (find _ _) as [r'|] eqn:F; [eauto|].
    apply (find_none _ _ F) in Hr. lia.
Qed.

(** *** Weights *)

Lemma brings_iff s g i : brings s g i (weight_for s g i).
Proof.
  unfold weight_for, brings, weight_there, weight_is. destruct (find _ _) as [w|] eqn:F.
  - apply find_some in F. left. exists w. repeat split; try tauto; lia.
  - assert (N : ~ exists w, In w (d_weights s) /\ w_group w = g /\ w_index w = i).
    { intros (w & Hw & <- & <-). apply (find_none _ _ F) in Hw. lia. }
    destruct (i =? 0)%Z eqn:E; [right|]; repeat split; auto; lia.
Qed.
Lemma weight_for_none s g i : weight_for s g i = None <-> ~ weight_there s g i /\ i <> 0%Z.
Proof.
  pose proof (brings_iff s g i) as H. destruct (weight_for s g i) as [q|]; cbn in H.
  - split; [discriminate|]. intros [Hn Hi]. exfalso. destruct H as [(x & Hx & E1 & E2 & _)|(_ & -> & _)].
    + apply Hn. exists x. auto.
    + now apply Hi.
  - tauto.
Qed.
Lemma weight_for_some s g i : weight_for s g i <> None <-> i = 0%Z \/ weight_there s g i.
Proof.
  pose proof (brings_iff s g i) as H. destruct (weight_for s g i) as [q|] eqn:E; cbn in H.
  - split; [|discriminate]. intros _. destruct H as [(x & Hx & E1 & E2 & _)|(_ & -> & _)]; [right|now left].
    exists x. auto.
  - split; [congruence|]. tauto.
Qed.

(** *** One row *)

Definition new_hits (s : db) (g : Z) (lv : list N) (run : Z) (ids : list Z) : list hit :=
  if (1 <? length ids) && existsb (fun i => match weight_for s g i with None => true | Some _ => false end) ids
  then [] else map (fun i => {| h_run := run; h_index := i; h_level := lv;
                                h_weight := weight_for s g i; h_prop := None |}) ids.
Lemma existsb_map {A B} (f : A -> B) p l : existsb p (map f l) = existsb (fun x => p (f x)) l.
Proof. induction l as [|x l IH]; cbn [map existsb]; [reflexivity|now rewrite IH]. Qed.
Lemma insert_hits_fst s g lv run ids st : fst (insert_hits s g lv run ids st) = fst st ++ new_hits s g lv run ids.
Proof.
  unfold insert_hits, new_hits. rewrite map_length, existsb_map, map_map. cbn [snd fst].
  destruct (_ && _); cbn [fst]; [now rewrite app_nil_r|reflexivity].
Qed.

(** The ids inserted for a row when the table is [T]. *)
Definition chosen (s : db) (limit : nat) (allow : bool) (lv : list N) (T : list hit) (d : side) : list Z :=
  match sd_id d with
  | Some i => match index_find i s with Some _ => [i] | None => [] end
  | None =>
      let all := candidates s (sd_loc d) in
      if limit <? length all then []
      else if (1 <? length all) && negb allow then filter (fun i => negb (is_overlap lv T i)) all
      else all
  end.
Lemma firstn_short {A} n (l : list A) : (length l <= n)%nat -> firstn n l = l.
Proof. intros H. rewrite firstn_all2; auto. Qed.

Lemma match_row_fst s g limit allow lv st e :
  fst (match_row s g limit allow lv st e) =
  fst st ++ new_hits s g lv (fst e) (chosen s limit allow lv (fst st) (snd e)).
Proof.
  unfold match_row, chosen, index_get. destruct (sd_id (snd e)) as [i|].
  - destruct (index_find i s); [apply insert_hits_fst|]. cbn [fst]. now rewrite app_nil_r.
  - cbv zeta. set (all := candidates s (sd_loc (snd e))). destruct (limit <? length all)%nat eqn:El.
    + assert (Hf : length (firstn (limit + 1) all) = (limit + 1)%nat) by (rewrite firstn_length; lia).
      destruct (nil_b (firstn (limit + 1) all)) eqn:En.
      { destruct (firstn (limit + 1) all); [cbn in Hf; lia|discriminate]. }
      rewrite Hf. destruct (limit <? limit + 1)%nat eqn:E2; [|lia]. cbn [fst]. now rewrite app_nil_r.
    + rewrite (firstn_short (limit + 1) all) by lia. rewrite El.
      destruct (nil_b all) eqn:En.
      { destruct all; [|discriminate]. cbn. now rewrite app_nil_r. }
      destruct (1 <? length all)%nat eqn:E1; cbn [andb].
      * destruct allow; cbn [negb]; rewrite insert_hits_fst; reflexivity.
      * apply insert_hits_fst.
Qed.

(** *** The loop *)

Definition work (levels : list (list N)) (es : list (Z * side)) : list (list N * (Z * side)) :=
  flat_map (fun lv => map (pair lv) (at_level lv es)) levels.
Definition step_row s g limit allow (st : list hit * counter) (x : list N * (Z * side)) :=
  match_row s g limit allow (fst x) st (snd x).
Lemma fold_map {A B S} (f : S -> B -> S) (h : A -> B) l : forall s,
  fold_left f (map h l) s = fold_left (fun s a => f s (h a)) l s.
Proof. induction l as [|x l IH]; intros s; cbn [map fold_left]; auto. Qed.
Lemma loop_work s g limit allow es levels : forall st,
  fold_left (fun st lv => fold_left (match_row s g limit allow lv) (at_level lv es) st) levels st =
  fold_left (step_row s g limit allow) (work levels es) st.
Proof.
  induction levels as [|lv levels IH]; intros st; cbn [work flat_map fold_left]; [reflexivity|].
  rewrite fold_left_app, fold_map. rewrite IH. reflexivity.
Qed.

Lemma step_from s g limit allow w st :
  exists T, fst (fold_left (step_row s g limit allow) w st) = fst st ++ T /\
  forall h, In h T -> exists x, In x w /\ h_run h = fst (snd x) /\ h_level h = fst x.
Proof.
  revert st. induction w as [|x w IH]; intros st; cbn [fold_left].
  - exists []. rewrite app_nil_r. split; [reflexivity|easy].
  - destruct (IH (step_row s g limit allow st x)) as (T & E & HT).
    assert (Es : fst (step_row s g limit allow st x) = fst st ++
      new_hits s g (fst x) (fst (snd x)) (chosen s limit allow (fst x) (fst st) (snd (snd x))))
      by apply match_row_fst.
    rewrite Es, <- app_assoc in E.
    eexists. split; [exact E|]. intros h Hh. apply in_app_or in Hh as [Hh|Hh].
    + exists x. split; [now left|]. unfold new_hits in Hh. destruct (_ && _); [easy|].
      apply in_map_iff in Hh as (i & <- & _). now split.
    + destruct (HT h Hh) as (y & Hy & E'). exists y. split; [now right|exact E'].
Qed.

Lemma in_work levels es lv e : In (lv, e) (work levels es) <-> In lv levels /\ In e es /\ sd_level (snd e) = lv.
Proof.
  unfold work, at_level. rewrite in_flat_map. split.
  - intros (l & Hl & Hi). apply in_map_iff in Hi as (e' & E & Hi). inversion E; subst.
    apply filter_In in Hi as [Hi Hb]. apply bytes_eqb_iff in Hb. auto.
  - intros (Hl & Hi & E). exists lv. split; [exact Hl|]. apply in_map, filter_In. split; [exact Hi|].
    now apply bytes_eqb_iff.
Qed.
Lemma work_app a b es : work (a ++ b) es = work a es ++ work b es.
Proof. apply flat_map_app. Qed.

Lemma nodup_app_disjoint {A} (a b : list A) x : NoDup (a ++ b) -> In x a -> In x b -> False.
Proof.
  induction a as [|y a IH]; cbn [app]; [easy|]. intros Hd [->|Ha] Hb; inversion Hd; subst.
  - apply H1, in_or_app. now right.
  - now apply IH.
Qed.
Lemma nodup_before {A} (l : list A) l1 l2 a b : NoDup l -> l = l1 ++ b :: l2 -> (before l a b <-> In a l1).
Proof.
  intros Hd E. split.
  - intros (x & y & z & E2). subst l. 
    assert (Hs : x ++ a :: y = l1).
    { rewrite E2 in Hd. revert l1 E2 Hd. 
      replace (x ++ a :: y ++ b :: z) with ((x ++ a :: y) ++ b :: z) by now rewrite <- app_assoc.
      generalize (x ++ a :: y) as u. induction u as [|k u IH]; intros [|m l1] E2 Hd.
      - reflexivity.
      - cbn in E2. inversion E2; subst. inversion Hd; subst. destruct H1. apply in_or_app. right. now left.
      - cbn in E2. inversion E2; subst. inversion Hd; subst. destruct H1. apply in_or_app. right. now left.
      - cbn in E2. inversion E2; subst. inversion Hd; subst. f_equal. now apply IH. }
    subst l1. apply in_or_app. right. now left.
  - intros Ha. apply in_split in Ha as (x & y & ->). exists x, y, l2. rewrite E, <- app_assoc. reflexivity.
Qed.

Lemma of_run_app r a b : of_run r (a ++ b) = of_run r a ++ of_run r b.
Proof. apply filter_app. Qed.
Lemma of_run_none r l : (forall h, In h l -> h_run h <> r) -> of_run r l = [].
Proof.
  unfold of_run. induction l as [|h l IH]; intros H; cbn [filter]; [reflexivity|].
  destruct (h_run h =? r)%Z eqn:E; [exfalso; apply (H h (or_introl eq_refl)); lia|].
  apply IH. intros x Hx. apply H. now right.
Qed.
Lemma of_run_new s g lv r ids : of_run r (new_hits s g lv r ids) = new_hits s g lv r ids.
Proof.
  unfold new_hits, of_run. destruct (_ && _); [reflexivity|].
  induction ids as [|i ids IH]; cbn [map filter h_run]; [reflexivity|]. rewrite Z.eqb_refl. now rewrite IH.
Qed.

Lemma nodup_fst_eq {A B} (l : list (A * B)) a b c : NoDup (map fst l) -> In (a, b) l -> In (a, c) l -> b = c.
Proof.
  induction l as [|[x y] l IH]; [easy|]. cbn [map]. intros Hd H1 H2. inversion Hd; subst. cbn [fst] in *.
  destruct H1 as [E1|H1], H2 as [E2|H2].
  - congruence.
  - inversion E1; subst. destruct H3. change a with (fst (a, c)). now apply in_map.
  - inversion E2; subst. destruct H3. change a with (fst (a, b)). now apply in_map.
  - eauto.
Qed.

(** The table after the loop: the matches of a row are those chosen when its turn came, and
    overlaps seen then are the records matched at levels that stand earlier. *)
Lemma loop_row s g limit allow es levels c run d : NoDup levels -> NoDup (map fst es) ->
  In (run, d) es -> In (sd_level d) levels ->
  let T := fst (fold_left (step_row s g limit allow) (work levels es) ([], c)) in
  exists T1,
    of_run run T = new_hits s g (sd_level d) run (chosen s limit allow (sd_level d) T1 d) /\
    forall i, is_overlap (sd_level d) T1 i = true <-> taken levels (sd_level d) T i.
Proof.
  intros Hl He Hd Hlv T. set (lv := sd_level d) in *.
  apply in_split in Hlv as HL. destruct HL as (L1 & L2 & EL).
  assert (HE : exists E1 E2, at_level lv es = E1 ++ (run, d) :: E2).
  { apply in_split. unfold at_level. apply filter_In. split; [exact Hd|]. now apply bytes_eqb_iff. }
  destruct HE as (E1 & E2 & EE).
  set (W1 := work L1 es ++ map (pair lv) E1). set (W2 := map (pair lv) E2 ++ work L2 es).
  assert (EW : work levels es = W1 ++ (lv, (run, d)) :: W2).
  { rewrite EL, work_app. unfold W1, W2. cbn [work flat_map]. rewrite EE, map_app. cbn [map].
    repeat (rewrite <- app_assoc; cbn [app]). reflexivity. }
  destruct (step_from s g limit allow W1 ([], c)) as (T1 & F1 & H1).
  set (st1 := fold_left (step_row s g limit allow) W1 ([], c)) in *. cbn [fst app] in F1.
  destruct (step_from s g limit allow W2 (step_row s g limit allow st1 (lv, (run, d)))) as (T2 & F2 & H2).
  assert (ET : T = T1 ++ new_hits s g lv run (chosen s limit allow lv T1 d) ++ T2).
  { unfold T. rewrite EW, fold_left_app. fold st1. cbn [fold_left]. rewrite F2.
    unfold step_row. rewrite match_row_fst. cbn [fst snd]. rewrite F1, <- app_assoc. reflexivity. }
  exists T1.
  assert (Hw : NoDup (map (fun x => fst (snd x)) (W1 ++ (lv, (run, d)) :: W2))).
  { rewrite <- EW. clear -Hl He. induction levels as [|k levels IH]; cbn [work flat_map]; [constructor|].
    inversion Hl; subst. rewrite map_app, map_map. cbn [snd].
    assert (NoDup (map fst (at_level k es))) by now apply nodup_map_filter.
    apply nodup_app; [exact H|now apply IH|].
    intros r Hr Hr'. apply in_map_iff in Hr as ((r1 & d1) & E1 & Hr). apply filter_In in Hr as [Hr Hb].
    apply in_map_iff in Hr' as ((k' & r2 & d2) & E2 & Hr'). cbn [fst snd] in *. subst r1 r2.
    apply in_work in Hr' as (Hk & Hr' & Ek). cbn [snd] in *. apply bytes_eqb_iff in Hb.
    assert (d1 = d2) by eauto using nodup_fst_eq. congruence. }
  assert (Hrun : forall x, In x (W1 ++ W2) -> fst (snd x) <> run).
  { rewrite map_app in Hw. cbn [map] in Hw. apply NoDup_remove_2 in Hw. cbn [fst snd] in Hw.
    intros x Hx E. apply Hw. rewrite <- map_app. rewrite <- E. now apply (in_map (fun x => fst (snd x))). }
  assert (L1w : forall x, In x W1 -> In (fst x) L1 \/ fst x = lv).
  { intros [k e] Hx. unfold W1 in Hx. apply in_app_or in Hx as [Hx|Hx].
    - apply in_work in Hx. left. tauto.
    - apply in_map_iff in Hx as (e' & E & _). inversion E. now right. }
  assert (L2w : forall x, In x W2 -> In (fst x) L2 \/ fst x = lv).
  { intros [k e] Hx. unfold W2 in Hx. apply in_app_or in Hx as [Hx|Hx].
    - apply in_map_iff in Hx as (e' & E & _). inversion E. now right.
    - apply in_work in Hx. left. tauto. }
  assert (Hd' := Hl). rewrite EL in Hd'. split.
  - rewrite ET, !of_run_app, of_run_new.
    rewrite (of_run_none run T1), (of_run_none run T2), app_nil_r; [reflexivity| |].
    + intros h Hh. destruct (H2 h Hh) as (x & Hx & -> & _). apply Hrun, in_or_app. now right.
    + intros h Hh. destruct (H1 h Hh) as (x & Hx & -> & _). apply Hrun, in_or_app. now left.
  - intros i. unfold is_overlap, taken. rewrite existsb_exists. split.
    + intros (h & Hh & E). exists h. rewrite andb_true_iff, negb_true_iff in E. destruct E as [Ei En].
      split; [rewrite ET; apply in_or_app; now left|]. split; [lia|].
      apply (nodup_before levels L1 L2 (h_level h) lv Hl EL).
      destruct (H1 h Hh) as (x & Hx & _ & E). rewrite E in *. destruct (L1w x Hx) as [|E']; [assumption|].
      rewrite E' in En. assert (bytes_eqb lv lv = true) by now apply bytes_eqb_iff. congruence.
    + intros (h & Hh & Ei & Hb). apply (nodup_before levels L1 L2 (h_level h) lv Hl EL) in Hb.
      assert (Hne : h_level h <> lv).
      { intros E. rewrite E in Hb. apply NoDup_remove_2 in Hd'. apply Hd', in_or_app. now left. }
      exists h. split.
      * rewrite ET in Hh. apply in_app_or in Hh as [Hh|Hh]; [exact Hh|exfalso].
        apply in_app_or in Hh as [Hh|Hh].
        -- unfold new_hits in Hh. destruct (_ && _); [easy|]. apply in_map_iff in Hh as (j & <- & _). now apply Hne.
        -- destruct (H2 h Hh) as (x & Hx & _ & E). destruct (L2w x Hx) as [H|E']; [|congruence].
           rewrite E in Hb. clear - Hd' Hb H. apply NoDup_remove_1 in Hd'.
           eapply nodup_app_disjoint; eauto.
      * rewrite andb_true_iff, negb_true_iff. split; [lia|].
        destruct (bytes_eqb (h_level h) lv) eqn:E; [|reflexivity]. apply bytes_eqb_iff in E. contradiction.
Qed.
