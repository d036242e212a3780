(** C60: how rows are matched with the records of a space. *)
From Coq Require Import NArith Permutation Sorted ZifyBool ZifyN ZifyNat Lia Lqa.
From Verif Require Import Prelude QLemmas BitFlags_Model BitFlags_Spec BitFlags_Proofs Selectors_Model Selectors_Proofs LinkRef_Model LinkRef_Proofs
  Db_Model Db_Spec Db_Proofs Db_ProofsLocal Db_ProofsRun Reader_Model Reader_Spec Reader_Proofs Mapper_Model Mapper_Spec Mapper_Proofs Mapper_Proofs2 Mapper_Proofs3
  Elements_Model EdgeText_Model MapCli_Model MapCli_Spec MapCli_Proofs6 LoadMap_Model LoadMap_Spec.
Local Open Scope nat_scope.

(** *** Levels *)

Lemma level_eq a b : level_of a = level_of b <-> same_bits a b.
Proof.
  split; [apply level_bits|]. intros E. unfold level_of. f_equal.
  assert (B : bf_eqb (of_bits a) (of_bits b) = true).
  { apply bf_eqb_spec; [apply of_bits_wf..|]. intros i. rewrite (of_bits_iter a i), (of_bits_iter b i). apply E. }
  unfold bf_eqb in B. apply bytes_eqb_iff in B. destruct (of_bits a), (of_bits b). cbn in B. congruence.
Qed.
Lemma level_nil b : level_of b = [] <-> ~ In true b.
Proof.
  change (@nil N) with (level_of []). rewrite level_eq, bit_true. split.
  - intros E (i & H). rewrite (E i) in H. destruct i; discriminate.
  - intros H i. destruct (bit_at b i) eqn:Eb; [exfalso; eauto|]. now destruct i.
Qed.
Lemma in_compress {A} (cols : list A) : forall sel x, In x (compress cols sel) <-> exists n, nth_error cols n = Some x /\ bit_at sel n = true.
Proof.
  induction cols as [|c cols IH]; intros [|b sel] x; cbn [compress].
  - split; [easy|]. intros ([|n] & [=] & _).
  - split; [easy|]. intros ([|n] & [=] & _).
  - split; [easy|]. intros (n & _ & H). destruct n; discriminate.
  - destruct b; cbn [In]; rewrite ?IH.
    + split.
      * intros [->|(n & H & Hb)]; [exists 0; split; reflexivity|exists (S n); split; assumption].
      * intros ([|n] & H & Hb); [left; now inversion H|right; exists n; split; assumption].
    + split.
      * intros (n & H & Hb). exists (S n); split; assumption.
      * intros ([|n] & H & Hb); [discriminate|exists n; split; assumption].
Qed.
Lemma old_level_bits loc : old_level loc = level_of (map (fun x => negb (is_empty x)) loc).
Proof. reflexivity. Qed.
Lemma nonempty_bit (loc : list text) n : bit_at (map (fun x => negb (is_empty x)) loc) n = true <-> exists v, nth_error loc n = Some v /\ v <> [].
Proof.
  unfold bit_at. change false with ((fun x : text => negb (is_empty x)) []). rewrite map_nth. destruct (nth_error loc n) as [v|] eqn:E.
  - rewrite (nth_error_nth _ _ _ E). rewrite negb_true_iff. split.
    + intros H. exists v. split; [reflexivity|]. intros ->. discriminate.
    + intros (w & [= <-] & H). now destruct v.
  - apply nth_error_None in E. rewrite nth_overflow by exact E. split; [discriminate|]. now intros (v & [=] & _).
Qed.
Lemma old_bit loc n : bit_at (bf_iter (of_bytes (old_level loc))) n = true <-> exists v, nth_error loc n = Some v /\ v <> [].
Proof.
  rewrite <- nonempty_bit. unfold old_level. rewrite of_bytes_round by apply of_bits_wf. now rewrite (of_bits_iter _ n).
Qed.
Lemma in_mapped columns loc c : In c (compress columns (bf_iter (of_bytes (old_level loc)))) <-> exists v, filled columns loc c v.
Proof.
  rewrite in_compress. unfold filled. split.
  - intros (n & Hc & Hb). apply old_bit in Hb as (v & Hv & Hn). exists v, n. auto.
  - intros (v & n & Hc & Hv & Hn). exists n. split; [exact Hc|]. apply old_bit. eauto.
Qed.
Definition NL (s : db) (columns loc : list text) : list N := node_level columns (d_labels s) (old_level loc).
Definition nbits (s : db) (columns loc : list text) : list bool :=
  map (fun x => existsb (text_eqb x) (compress columns (bf_iter (of_bytes (old_level loc))))) (d_labels s).
Lemma nbit s columns loc n : bit_at (nbits s columns loc) n = true <-> exists c v, nth_error (d_labels s) n = Some c /\ filled columns loc c v.
Proof.
  unfold bit_at, nbits. destruct (nth_error (d_labels s) n) as [c|] eqn:E.
  - rewrite (nth_indep _ false (existsb (text_eqb c) (compress columns (bf_iter (of_bytes (old_level loc)))))).
    2:{ rewrite map_length. apply nth_error_Some. congruence. }
    rewrite (map_nth (fun x => existsb (text_eqb x) _)). rewrite (nth_error_nth _ _ _ E). rewrite existsb_exists. split.
    + intros (x & Hx & Ex). apply text_eqb_iff in Ex. subst x. apply in_mapped in Hx as (v & Hv). eauto.
    + intros (c' & v & [= <-] & Hv). exists c. split; [apply in_mapped; eauto|apply text_eqb_refl].
  - apply nth_error_None in E. rewrite nth_overflow by (now rewrite map_length). split; [discriminate|]. now intros (c & v & [=] & _).
Qed.
Lemma category_iff s columns loc b : category s columns loc b <-> In b (d_structs s) /\ In true b /\ level_of b = NL s columns loc.
Proof.
  unfold category, NL, node_level. fold (nbits s columns loc). rewrite level_eq. split; intros (H1 & H2 & H3); (split; [exact H1|split; [exact H2|]]).
  - intros n. specialize (H3 n). rewrite <- nbit in H3. destruct (bit_at b n), (bit_at (nbits s columns loc) n); try reflexivity; destruct H3; auto; symmetry; auto.
  - intros n. rewrite <- nbit. now rewrite (H3 n).
Qed.

Section Side.
Context (gran : list bool -> option Q) (s : db) (columns : list text) (es : list (Z * list text)).
Context (U : usable s columns es).
Let N_ (loc : list text) := NL s columns loc.

Lemma level_inj e e' : In e es -> In e' es -> N_ (snd e) = N_ (snd e') -> old_level (snd e) = old_level (snd e').
Proof.
  assert (G : forall e e', In e es -> In e' es -> N_ (snd e) = N_ (snd e') -> forall n,
    bit_at (map (fun x : text => negb (is_empty x)) (snd e)) n = true -> bit_at (map (fun x : text => negb (is_empty x)) (snd e')) n = true).
  { clear e e'. intros e e' He He' E n Hb. apply nonempty_bit in Hb as (v & Hv & Hn). 
    assert (Hc : exists c, nth_error columns n = Some c).
    { destruct (nth_error columns n) eqn:Q; [eauto|]. apply nth_error_None in Q. rewrite <- (us_rows _ _ _ U e He) in Q.
      apply nth_error_None in Q. congruence. }
    destruct Hc as [c Hc]. assert (F : filled columns (snd e) c v) by (exists n; auto).
    destruct (us_known _ _ _ U e c v He F) as [Hk _]. apply In_nth_error in Hk as [m Hm].
    assert (Hb : bit_at (nbits s columns (snd e)) m = true) by (apply nbit; eauto).
    apply level_bits in E. fold (nbits s columns (snd e)) in E. fold (nbits s columns (snd e')) in E. rewrite (E m) in Hb. apply nbit in Hb as (c' & v' & Hm' & n' & Hc' & Hv' & Hn').
    assert (c' = c) by congruence. subst c'. assert (n' = n).
    { eapply NoDup_nth_error; [exact (us_once _ _ _ U)| |congruence]. apply nth_error_Some. congruence. }
    subst n'. apply nonempty_bit. eauto. }
  intros He He' E. rewrite !old_level_bits. apply level_eq. intros n.
  pose proof (G e e' He He' E n) as G1. pose proof (G e' e He' He (eq_sym E) n) as G2.
  destruct (bit_at _ n), (bit_at _ n); auto. symmetry. auto.
Qed.

Lemma find_structure_iff lv : (exists g, find_structure gran s lv = Some g) <-> exists b, In b (d_structs s) /\ In true b /\ level_of b = lv.
Proof.
  unfold find_structure. destruct lv as [|x lv]; cbn [nil_b].
  - split; [intros (g & [=])|]. intros (b & _ & Hb & E). now apply level_nil in E.
  - destruct (find _ _) as [b|] eqn:F.
    + apply find_some in F as [Hb E]. apply in_rev in Hb. apply bytes_eqb_iff in E. split; [|eauto]. intros _. exists b. split; [exact Hb|]. split; [|exact E].
      destruct (in_dec Bool.bool_dec true b) as [H|H]; [exact H|]. apply level_nil in H. congruence.
    + split; [intros (g & [=])|]. intros (b & Hb & _ & E). apply in_rev in Hb. apply (find_none _ _ F) in Hb. rewrite E in Hb.
      assert (bytes_eqb (x :: lv) (x :: lv) = true) by (now apply bytes_eqb_iff). congruence.
Qed.
Lemma find_structure_of b : In b (d_structs s) -> In true b -> find_structure gran s (level_of b) = Some (gran b).
Proof.
  intros Hb Ht. unfold find_structure. destruct (level_of b) as [|x lv] eqn:E; cbn [nil_b]; [now apply level_nil in E|]. rewrite <- E.
  destruct (find _ _) as [b'|] eqn:F.
  - apply find_some in F as [Hb' E']. apply in_rev in Hb'. apply bytes_eqb_iff in E'. f_equal. f_equal.
    eapply nodup_map_inj; [exact (us_levels _ _ _ U)|..]; assumption.
  - apply in_rev in Hb. apply (find_none _ _ F) in Hb. assert (bytes_eqb (level_of b) (level_of b) = true) by (now apply bytes_eqb_iff). congruence.
Qed.
Lemma find_category loc : (exists g, find_structure gran s (N_ loc) = Some g) <-> exists b, category s columns loc b.
Proof.
  rewrite find_structure_iff. split; intros (b & H); exists b; now apply category_iff.
Qed.
Lemma category_fun loc a b : category s columns loc a -> category s columns loc b -> a = b.
Proof.
  intros Ha Hb. apply category_iff in Ha as (Ha & _ & Ea). apply category_iff in Hb as (Hb & _ & Eb).
  eapply nodup_map_inj; [exact (us_levels _ _ _ U)|..]; [assumption..|congruence].
Qed.

(** *** Records *)

Lemma criteria_set_new k v d : ~ In k (map fst d) -> criteria_set k v d = d ++ [(k, v)].
Proof.
  induction d as [|[k' v'] d IH]; cbn [criteria_set map fst In app]; intros H; [reflexivity|].
  destruct (text_eqb k k') eqn:E; [apply text_eqb_iff in E; subst; exfalso; apply H; now left|]. f_equal. apply IH. intros Hi. apply H. now right.
Qed.
Lemma criteria_fold l : forall d, NoDup (map fst (d ++ l)) -> fold_left (fun d kv => criteria_set (fst kv) (snd kv) d) l d = d ++ l.
Proof.
  induction l as [|[k v] l IH]; intros d H; cbn [fold_left]; [now rewrite app_nil_r|]. cbn [fst snd]. rewrite criteria_set_new.
  - replace (d ++ (k, v) :: l) with ((d ++ [(k, v)]) ++ l) in * by (now rewrite <- app_assoc). now rewrite IH.
  - rewrite map_app in H. cbn [map fst] in H. apply NoDup_remove_2 in H. intros Hi. apply H, in_or_app. now left.
Qed.
Lemma combine_fst_nodup {A B} (a : list A) : forall (b : list B), NoDup a -> NoDup (map fst (combine a b)).
Proof.
  induction a as [|x a IH]; intros [|y b] H; cbn [combine map fst]; try constructor; inversion H; subst; [|now apply IH].
  intros Hi. apply in_map_iff in Hi as ((u & v) & E & Hi). cbn in E. subst u. apply in_combine_l in Hi. contradiction.
Qed.
Lemma criteria_eq loc : criteria_of columns loc = filter (fun kv => negb (is_empty (snd kv))) (combine columns loc).
Proof.
  unfold criteria_of. rewrite criteria_fold; [reflexivity|]. cbn [app]. apply nodup_map_filter, combine_fst_nodup, (us_once _ _ _ U).
Qed.
Lemma in_criteria loc c v : In (c, v) (criteria_of columns loc) <-> filled columns loc c v.
Proof.
  rewrite criteria_eq, filter_In, nth_combine. cbn [snd]. rewrite negb_true_iff. unfold filled. split.
  - intros ((n & Hc & Hv) & He). exists n. repeat split; auto. intros ->. discriminate.
  - intros (n & Hc & Hv & Hn). split; [eauto|]. now destruct v.
Qed.
Context (W : index_wf s).
Lemma holds_iff c v r : In c (d_labels s) -> c <> txt "index_id" -> In r (d_index s) -> old_criterion (d_labels s) r (c, v) = true <-> label_is s r c v.
Proof.
  intros Hc Hi Hr. unfold old_criterion. cbn [fst snd]. destruct (text_eqb c (txt "index_id")) eqn:E; [apply text_eqb_iff in E; contradiction|].
  apply In_nth_error in Hc as [n Hn]. unfold criterion_holds. cbn [fst snd]. rewrite (label_of_nth _ _ n c (iw_columns _ W) Hn).
  unfold label_is. destruct (nth_error (ix_labels r) n) as [w|] eqn:Ew.
  - rewrite text_eqb_iff. split; [intros ->; eauto|]. intros (m & Hm & Hv). assert (m = n) as ->; [|congruence].
    eapply NoDup_nth_error; [exact (iw_columns _ W)| |congruence]. apply nth_error_Some. congruence.
  - exfalso. apply nth_error_None in Ew. rewrite (iw_arity _ W r Hr) in Ew. apply nth_error_None in Ew. congruence.
Qed.
Lemma candidates_fit e : In e es -> fitting s columns (snd e) (old_candidates s columns (snd e)).
Proof.
  intros He. split.
  - apply nodup_map_filter, (iw_unique _ W).
  - intros i. unfold old_candidates. rewrite in_map_iff. split.
    + intros (r & E & Hr). apply filter_In in Hr as [Hr Hf]. rewrite forallb_forall in Hf. exists r. split; [exact Hr|]. split; [exact E|].
      intros c v Hf'. destruct (us_known _ _ _ U e c v He Hf') as [Hk Hi]. apply (holds_iff c v r Hk Hi Hr). apply Hf. now apply in_criteria.
    + intros (r & Hr & E & Hf). exists r. split; [exact E|]. apply filter_In. split; [exact Hr|]. apply forallb_forall. intros (c & v) Hc.
      apply in_criteria in Hc. destruct (us_known _ _ _ U e c v He Hc) as [Hk Hi]. now apply (holds_iff c v r Hk Hi Hr), Hf.
Qed.
End Side.

(** *** The loop *)

Section Loop.
Context {X : Type} (lvl : X -> list N) (nh : list N -> Z -> list Z -> list hit) (ch : list N -> list hit -> X -> list Z).
Context (Hnh : forall lv run ids h, In h (nh lv run ids) -> h_run h = run /\ h_level h = lv).
Definition at_ (lv : list N) (es : list (Z * X)) : list (Z * X) := filter (fun e => bytes_eqb (lvl (snd e)) lv) es.
Definition turns (levels : list (list N)) (es : list (Z * X)) : list (list N * (Z * X)) :=
  flat_map (fun lv => map (pair lv) (at_ lv es)) levels.
Definition turn (T : list hit) (x : list N * (Z * X)) : list hit := T ++ nh (fst x) (fst (snd x)) (ch (fst x) T (snd (snd x))).

Lemma turns_from w : forall T, exists T', fold_left turn w T = T ++ T' /\
  forall h, In h T' -> exists x, In x w /\ h_run h = fst (snd x) /\ h_level h = fst x.
Proof.
  induction w as [|x w IH]; intros T; cbn [fold_left].
  - exists []. rewrite app_nil_r. split; [reflexivity|easy].
  - destruct (IH (turn T x)) as (T' & E & H'). unfold turn at 3 in E. rewrite <- app_assoc in E. eexists. split; [exact E|].
    intros h Hh. apply in_app_or in Hh as [Hh|Hh].
    + exists x. split; [now left|]. apply Hnh in Hh. tauto.
    + destruct (H' h Hh) as (y & Hy & E'). exists y. split; [now right|exact E'].
Qed.
Lemma in_turns levels es lv e : In (lv, e) (turns levels es) <-> In lv levels /\ In e es /\ lvl (snd e) = lv.
Proof.
  unfold turns, at_. rewrite in_flat_map. split.
  - intros (l & Hl & Hi). apply in_map_iff in Hi as (e' & E & Hi). inversion E; subst.
    apply filter_In in Hi as [Hi Hb]. apply bytes_eqb_iff in Hb. auto.
  - intros (Hl & Hi & E). exists lv. split; [exact Hl|]. apply in_map, filter_In. split; [exact Hi|]. now apply bytes_eqb_iff.
Qed.
Lemma of_run_nh r lv ids : of_run r (nh lv r ids) = nh lv r ids.
Proof.
  unfold of_run. assert (G : forall l, (forall h, In h l -> h_run h = r) -> filter (fun h => (h_run h =? r)%Z) l = l).
  { induction l as [|h l IH]; intros H; cbn [filter]; [reflexivity|]. rewrite (H h (or_introl eq_refl)), Z.eqb_refl. f_equal. apply IH. intros x Hx. apply H. now right. }
  apply G. intros h Hh. apply Hnh in Hh. tauto.
Qed.
Lemma turn_row es levels run d : NoDup levels -> NoDup (map fst es) -> In (run, d) es -> In (lvl d) levels ->
  let T := fold_left turn (turns levels es) [] in
  exists T1, of_run run T = nh (lvl d) run (ch (lvl d) T1 d) /\
    forall i, is_overlap (lvl d) T1 i = true <-> taken levels (lvl d) T i.
Proof.
  intros Hl He Hd Hlv T. set (lv := lvl d) in *.
  apply in_split in Hlv as HL. destruct HL as (L1 & L2 & EL).
  assert (HE : exists E1 E2, at_ lv es = E1 ++ (run, d) :: E2).
  { apply in_split. unfold at_. apply filter_In. split; [exact Hd|]. now apply bytes_eqb_iff. }
  destruct HE as (E1 & E2 & EE).
  set (W1 := turns L1 es ++ map (pair lv) E1). set (W2 := map (pair lv) E2 ++ turns L2 es).
  assert (EW : turns levels es = W1 ++ (lv, (run, d)) :: W2).
  { rewrite EL. unfold turns at 1. rewrite flat_map_app. unfold W1, W2. cbn [turns flat_map]. rewrite EE, map_app. cbn [map].
    repeat (rewrite <- app_assoc; cbn [app]). reflexivity. }
  destruct (turns_from W1 []) as (T1 & F1 & H1). cbn [app] in F1.
  destruct (turns_from W2 (turn T1 (lv, (run, d)))) as (T2 & F2 & H2).
  assert (ET : T = T1 ++ nh lv run (ch lv T1 d) ++ T2).
  { unfold T. rewrite EW, fold_left_app. cbn [fold_left]. rewrite F1, F2. unfold turn. cbn [fst snd]. now rewrite <- app_assoc. }
  exists T1.
  assert (Hw : NoDup (map (fun x => fst (snd x)) (W1 ++ (lv, (run, d)) :: W2))).
  { rewrite <- EW. clear -Hl He. induction levels as [|k levels IH]; cbn [turns flat_map]; [constructor|].
    inversion Hl; subst. rewrite map_app, map_map. cbn [snd].
    assert (NoDup (map fst (at_ k es))) by now apply nodup_map_filter.
    apply nodup_app; [exact H|now apply IH|].
    intros r Hr Hr'. apply in_map_iff in Hr as ((r1 & d1) & E1 & Hr). apply filter_In in Hr as [Hr Hb].
    apply in_map_iff in Hr' as ((k' & r2 & d2) & E2 & Hr'). cbn [fst snd] in *. subst r1 r2.
    apply in_turns in Hr' as (Hk & Hr' & Ek). cbn [snd] in *. apply bytes_eqb_iff in Hb.
    assert (d1 = d2) by eauto using nodup_fst_eq. congruence. }
  assert (Hrun : forall x, In x (W1 ++ W2) -> fst (snd x) <> run).
  { rewrite map_app in Hw. cbn [map] in Hw. apply NoDup_remove_2 in Hw. cbn [fst snd] in Hw.
    intros x Hx E. apply Hw. rewrite <- map_app. rewrite <- E. now apply (in_map (fun x => fst (snd x))). }
  assert (L1w : forall x, In x W1 -> In (fst x) L1 \/ fst x = lv).
  { intros [k e] Hx. unfold W1 in Hx. apply in_app_or in Hx as [Hx|Hx].
    - apply in_turns in Hx. left. tauto.
    - apply in_map_iff in Hx as (e' & E & _). inversion E. now right. }
  assert (L2w : forall x, In x W2 -> In (fst x) L2 \/ fst x = lv).
  { intros [k e] Hx. unfold W2 in Hx. apply in_app_or in Hx as [Hx|Hx].
    - apply in_map_iff in Hx as (e' & E & _). inversion E. now right.
    - apply in_turns in Hx. left. tauto. }
  assert (Hd' := Hl). rewrite EL in Hd'. split.
  - rewrite ET, !of_run_app, of_run_nh.
    rewrite (of_run_none run T1), (of_run_none run T2), app_nil_r; [reflexivity| |].
    + intros h Hh. destruct (H2 h Hh) as (x & Hx & -> & _). apply Hrun, in_or_app. now right.
    + intros h Hh. destruct (H1 h Hh) as (x & Hx & -> & _). apply Hrun, in_or_app. now left.
  - intros i. unfold is_overlap, taken. rewrite existsb_exists. split.
    + intros (h & Hh & E). exists h. rewrite andb_true_iff, negb_true_iff in E. destruct E as [Ei En].
      split; [rewrite ET; apply in_or_app; now left|]. split; [lia|].
      apply (nodup_before levels L1 L2 (h_level h) lv Hl EL).
      destruct (H1 h Hh) as (x & Hx & _ & E). rewrite E in *. destruct (L1w x Hx) as [|E']; [assumption|].
      rewrite E' in En. assert (bytes_eqb lv lv = true) by now apply bytes_eqb_iff. congruence.
    + intros (h & Hh & Ei & Hb). apply (nodup_before levels L1 L2 (h_level h) lv Hl EL) in Hb.
      assert (Hne : h_level h <> lv).
      { intros E. rewrite E in Hb. apply NoDup_remove_2 in Hd'. apply Hd', in_or_app. now left. }
      exists h. split.
      * rewrite ET in Hh. apply in_app_or in Hh as [Hh|Hh]; [exact Hh|exfalso].
        apply in_app_or in Hh as [Hh|Hh].
        -- apply Hnh in Hh. tauto.
        -- destruct (H2 h Hh) as (x & Hx & _ & E). destruct (L2w x Hx) as [H|E']; [|congruence].
           rewrite E in Hb. clear - Hd' Hb H. apply NoDup_remove_1 in Hd'. eapply nodup_app_disjoint; eauto.
      * rewrite andb_true_iff, negb_true_iff. split; [lia|].
        destruct (bytes_eqb (h_level h) lv) eqn:E; [|reflexivity]. apply bytes_eqb_iff in E. contradiction.
Qed.
End Loop.

(** *** One row *)

Lemma old_weight_of s g i : weight_of s g i (old_weight s g i).
Proof.
  unfold weight_of, old_weight, weight_there, weight_is. destruct (find _ _) as [w|] eqn:F.
  - apply find_some in F. exists w. repeat split; try tauto; lia.
  - intros (w & Hw & <- & <-). apply (find_none _ _ F) in Hw. lia.
Qed.
Lemma old_weight_there s g i : old_weight s g i <> None <-> weight_there s g i.
Proof.
  pose proof (old_weight_of s g i) as H. destruct (old_weight s g i) as [q|]; cbn in H.
  - split; [|discriminate]. intros _. destruct H as (x & Hx & E1 & E2 & _). exists x. auto.
  - split; [congruence|]. tauto.
Qed.
Definition nh_old (s : db) (g : Z) (lv : list N) (run : Z) (ids : list Z) : list hit :=
  if (1 <? length ids) && existsb (fun i => match old_weight s g i with None => true | Some _ => false end) ids
  then [] else map (fun i => {| h_run := run; h_index := i; h_level := lv; h_weight := old_weight s g i; h_prop := None |}) ids.
Lemma nh_old_from s g lv run ids h : In h (nh_old s g lv run ids) -> h_run h = run /\ h_level h = lv.
Proof. unfold nh_old. destruct (_ && _); [easy|]. intros H. apply in_map_iff in H as (i & <- & _). auto. Qed.
Definition ch_old (s : db) (limit : nat) (allow : bool) (columns : list text) (lv : list N) (T : list hit) (loc : list text) : list Z :=
  let all := old_candidates s columns loc in
  if limit <? length all then []
  else if (1 <? length all) && negb allow then filter (fun i => negb (is_overlap lv T i)) all
  else all.
Lemma old_insert_fst s g lv run ids st : fst (old_insert s g lv run ids st) = fst st ++ nh_old s g lv run ids.
Proof.
  unfold old_insert, nh_old. rewrite map_length, existsb_map, map_map. cbn [snd fst].
  destruct (_ && _); cbn [fst]; [now rewrite app_nil_r|reflexivity].
Qed.
Lemma old_row_fst s g limit allow columns lv st e :
  fst (old_match_row s g limit allow columns lv st e) =
  turn (nh_old s g) (ch_old s limit allow columns) (fst st) (lv, e).
Proof.
  unfold old_match_row, turn, ch_old. cbn [fst snd]. set (all := old_candidates s columns (snd e)). destruct (limit <? length all) eqn:El.
  - assert (Hf : length (firstn (limit + 1) all) = limit + 1) by (rewrite firstn_length; lia). rewrite Hf.
    destruct (limit <? limit + 1) eqn:E2; [|lia]. cbn [fst]. unfold nh_old. cbn. now rewrite app_nil_r.
  - rewrite (firstn_short (limit + 1) all) by lia. rewrite El. destruct (1 <? length all) eqn:E1; cbn [andb].
    + destruct allow; cbn [negb]; rewrite old_insert_fst; reflexivity.
    + apply old_insert_fst.
Qed.
