(** Proofs about readers: pivoting. *)
From Verif Require Import Prelude QLemmas Selectors_Model Selectors_Proofs LinkRef_Model LinkRef_Proofs
  Db_Model Db_Spec Reader_Model Reader_Spec Reader_Proofs.
From Coq Require Import Permutation Lqa.
From Coq Require Import ZifyBool ZifyNat ZifyN.
Open Scope Z_scope.

Lemma texts_eqb_iff a : forall b, texts_eqb a b = true <-> a = b.
Proof.
  induction a as [|x a IH]; intros [|y b]; cbn [texts_eqb]; try (split; [discriminate|discriminate]); [tauto|].
  rewrite andb_true_iff, text_eqb_iff, IH. split; [intros [-> ->]; reflexivity|]. intros E. inversion E. auto.
Qed.
Lemma zz_eqb_iff a b : zz_eqb a b = true <-> a = b.
Proof.
  destruct a as [i x], b as [j y]. unfold zz_eqb. cbn [fst snd].
  rewrite andb_true_iff, !Z.eqb_eq. split; [intros [-> ->]; reflexivity|]. intros E. inversion E. auto.
Qed.
Lemma pkey_eqb_iff a b : pkey_eqb a b = true <-> a = b.
Proof.
  destruct a as [i x], b as [j y]. unfold pkey_eqb. cbn [fst snd].
  rewrite andb_true_iff, Z.eqb_eq, texts_eqb_iff. split; [intros [-> ->]; reflexivity|]. intros E. inversion E. auto.
Qed.

(** *** Column labels *)

Lemma drop_empty_spec l : exists n, l = repeat [] n ++ drop_empty l.
Proof.
  induction l as [|[|c x] l [n IH]]; cbn [drop_empty]; [now exists 0%nat| |now exists 0%nat].
  exists (S n). cbn [repeat app]. now f_equal.
Qed.
Lemma strip_spec (l : list text) : exists n, l = rev (drop_empty (rev l)) ++ repeat [] n.
Proof.
  destruct (drop_empty_spec (rev l)) as [n E]. exists n.
  rewrite <- (rev_involutive l), E at 1. rewrite rev_app_distr. f_equal.
  clear. induction n as [|n IH]; [reflexivity|]. cbn [repeat rev]. rewrite IH.
  clear. induction n as [|n IH]; [reflexivity|]. cbn [repeat app]. now f_equal.
Qed.
Lemma format_column_inj a b : length a = length b -> format_column a = format_column b -> a = b.
Proof.
  intros Hl H. destruct (strip_spec a) as [n Ea], (strip_spec b) as [m Eb]. unfold format_column in H.
  set (x := rev (drop_empty (rev a))) in *. set (y := rev (drop_empty (rev b))) in *.
  assert (E : x = y).
  { destruct x as [|x1 [|x2 x]], y as [|y1 [|y2 y]]; congruence. }
  rewrite Ea, Eb, E in *. rewrite !app_length, !repeat_length in Hl. f_equal. f_equal. lia.
Qed.

(** *** Nested grouping *)

Lemma filter_filter {A} (p q : A -> bool) l : filter p (filter q l) = filter q (filter p l).
Proof.
  induction l as [|x l IH]; [reflexivity|]. cbn [filter].
  destruct (p x) eqn:P, (q x) eqn:Q; cbn [filter]; rewrite ?P, ?Q, IH; reflexivity.
Qed.

Section Grouping.
  Context {K : Type} (eqb : K -> K -> bool) (Hk : forall a b, eqb a b = true <-> a = b).

  Lemma distinct_filter p l : distinct eqb (filter p l) = filter p (distinct eqb l).
  Proof.
    induction l as [|x l IH]; [reflexivity|]. cbn [filter distinct]. destruct (p x) eqn:P.
    - cbn [distinct]. rewrite IH. f_equal. apply filter_filter.
    - rewrite IH, filter_filter. symmetry.
      assert (X : forall m, (forall y, In y m -> p y = true) -> filter (fun y => negb (eqb x y)) m = m).
      { intros m Hm. induction m as [|y m IHm]; [reflexivity|]. cbn [filter].
        destruct (eqb x y) eqn:E.
        - apply Hk in E. subst y. rewrite (Hm x (or_introl eq_refl)) in P. discriminate.
        - cbn [negb]. f_equal. apply IHm. intros z Hz. apply Hm. now right. }
      apply X. intros y Hy. now apply filter_In in Hy.
  Qed.

  Lemma filter_group_by f p rows :
    filter (fun g => p (fst g)) (group_by eqb f rows) = group_by eqb f (filter (fun r => p (fst r)) rows).
  Proof.
    unfold group_by. rewrite filter_map. cbn [fst].
    assert (E : map fst (filter (fun r => p (fst r)) rows) = filter p (map fst rows)) by now rewrite filter_map.
    rewrite E, distinct_filter. apply map_ext_in. intros k Hi. apply filter_In in Hi. destruct Hi as [_ Hp].
    f_equal. f_equal. f_equal. rewrite filter_filter.
    induction rows as [|x rows IH]; [reflexivity|]. cbn [filter]. destruct (eqb (fst x) k) eqn:E1.
    - cbn [filter]. apply Hk in E1. rewrite E1, Hp. f_equal. apply IH. now rewrite filter_map.
    - apply IH. now rewrite filter_map.
  Qed.

  Lemma nested_sum rows : null_sum (map snd rows) (sql_sum (map snd (group_by eqb sql_sum rows))).
  Proof.
    pose proof (sql_sum_null (map snd (group_by eqb sql_sum rows))) as H.
    pose proof (total_group_by eqb Hk rows) as T.
    destruct (sql_sum (map snd (group_by eqb sql_sum rows))) as [v|]; cbn [null_sum] in *.
    - destruct H as [(y & Hy) E]. split.
      + apply in_map_iff in Hy. destruct Hy as ((k & w) & E2 & Hy). cbn [snd] in E2. subst w.
        apply in_group_by in Hy; [|exact Hk]. destruct Hy as [_ Hy]. symmetry in Hy. unfold sql_sum in Hy.
        destruct (somes _) as [|z l] eqn:Es; [discriminate|].
        exists z. assert (Hz : In z (z :: l)) by now left. rewrite <- Es in Hz. apply in_somes in Hz.
        apply in_map_iff in Hz. destruct Hz as (x & Ex & Hx). apply filter_In in Hx. rewrite <- Ex. apply in_map, Hx.
      + rewrite E, !map_map. exact T.
    - intros x Hx. apply in_map_iff in Hx. destruct Hx as (r & <- & Hr).
      assert (Hg : In (fst r, sql_sum (map snd (filter (fun r' => eqb (fst r') (fst r)) rows))) (group_by eqb sql_sum rows)).
      { apply in_group_by; [exact Hk|]. split; [now apply in_map|reflexivity]. }
      apply (in_map snd) in Hg. apply H in Hg. cbn [snd] in Hg.
      pose proof (sql_sum_null (map snd (filter (fun r' => eqb (fst r') (fst r)) rows))) as N. rewrite Hg in N.
      apply N. apply in_map. apply filter_In. split; [exact Hr|]. now apply Hk.
  Qed.
End Grouping.

(** *** The joined table *)

Section Pivot.
  Context (columns : list text) (r : reader) (W : reader_wf r).

  Definition pt := pivot_table columns r.
  Definition qrows := map (fun q => ((q_index q, q_attr q), q_value q)) (r_quants r).
  Definition summed := group_by zz_eqb sql_sum qrows.
  Definition jrows := flat_map (fun g => map (fun p => ((fst (fst g), snd p), snd g))
                                  (filter (fun p => fst p =? snd (fst g)) pt)) summed.

  Lemma any_some key : existsb (fun v => negb (is_empty v)) key = true <-> has_some key.
  Proof.
    rewrite existsb_exists. unfold has_some. split; intros (v & Hv & E); exists v; (split; [exact Hv|]).
    - intros ->. discriminate.
    - destruct v; [easy|reflexivity].
  Qed.

  Lemma in_pt i key : In (i, key) pt <->
    has_some key /\ exists a, In a (r_attrs r) /\ a_id a = i /\ pivot_key columns (a_attrs a) = key.
  Proof.
    unfold pt, pivot_table. rewrite in_flat_map. fold (pivot_key columns). split.
    - intros (a & Ha & H). destruct (existsb _ _) eqn:E; [|easy]. destruct H as [H|[]]. inversion H; subst.
      apply any_some in E. split; [exact E|]. exists a. auto.
    - intros (Hs & a & Ha & <- & <-). exists a. split; [exact Ha|]. apply any_some in Hs.
      unfold pivot_key in Hs. rewrite Hs. now left.
  Qed.

  Lemma nodup_pt : NoDup (map fst pt).
  Proof.
    pose proof (rw_ids r W) as Hd. unfold pt, pivot_table. induction (r_attrs r) as [|a l IH]; [constructor|].
    cbn [map] in Hd. inversion Hd; subst. cbn [flat_map]. destruct (existsb _ _); [|auto].
    cbn [app map fst]. constructor; [|auto]. intros Hi. apply H1. apply in_map_iff in Hi.
    destruct Hi as (p & E & Hp). apply in_flat_map in Hp. destruct Hp as (b & Hb & Hp).
    destruct (existsb _ _); [|easy]. destruct Hp as [<-|[]]. cbn [fst] in E. rewrite <- E. now apply in_map.
  Qed.

  Lemma pt_fun i k1 k2 : In (i, k1) pt -> In (i, k2) pt -> k1 = k2.
  Proof.
    pose proof nodup_pt as H. revert H. induction pt as [|[j k] l IH]; [easy|]. cbn [map fst In].
    intros H. inversion H; subst. intros [E1|H1] [E2|H2'].
    - congruence.
    - inversion E1; subst. destruct H2. now apply (in_map fst) in H2'.
    - inversion E2; subst. destruct H2. now apply (in_map fst) in H1.
    - auto.
  Qed.

  (** The attribute ids with one pivot key. *)
  Definition with_key (key : list text) (a : Z) : bool :=
    existsb (fun p => (fst p =? a) && texts_eqb (snd p) key) pt.
  Lemma with_key_iff key a : with_key key a = true <-> In (a, key) pt.
  Proof.
    unfold with_key. rewrite existsb_exists. split.
    - intros ((j & k) & Hi & E). apply andb_true_iff in E. cbn [fst snd] in E. destruct E as [E1 E2].
      apply Z.eqb_eq in E1. apply texts_eqb_iff in E2. now subst.
    - intros H. exists (a, key). split; [exact H|]. cbn [fst snd]. rewrite Z.eqb_refl. now apply texts_eqb_iff.
  Qed.

  Lemma filter_pt_key key a :
    filter (fun p => texts_eqb (snd p) key) (filter (fun p => fst p =? a) pt) =
    if with_key key a then [(a, key)] else [].
  Proof.
    unfold with_key. pose proof nodup_pt as H. revert H. generalize pt. intros l. induction l as [|[j k] l IH]; [reflexivity|].
    cbn [map fst filter existsb]. intros H. inversion H; subst. destruct (j =? a) eqn:E; cbn [filter snd orb andb].
    - apply Z.eqb_eq in E. subst j.
      assert (N : filter (fun p : Z * list text => fst p =? a) l = []).
      { apply filter_nil_iff. intros p Hp. apply Z.eqb_neq. intros E. apply H2. rewrite <- E. now apply in_map. }
      rewrite N in *. cbn [filter] in *. destruct (texts_eqb k key) eqn:E2.
      + cbn [orb]. apply texts_eqb_iff in E2. now subst.
      + cbn [orb]. apply IH. assumption.
    - apply IH. assumption.
  Qed.

  Lemma cell_values i key :
    map snd (filter (fun x => pkey_eqb (fst x) (i, key)) jrows) =
    map snd (group_by zz_eqb sql_sum (filter (fun x => (fst (fst x) =? i) && with_key key (snd (fst x))) qrows)).
  Proof.
    rewrite <- (filter_group_by zz_eqb zz_eqb_iff sql_sum (fun k => (fst k =? i) && with_key key (snd k)) qrows).
    fold summed. unfold jrows. induction summed as [|g l IH]; [reflexivity|].
    cbn [flat_map filter]. rewrite filter_app, map_app, IH, filter_map. unfold pkey_eqb. cbn [fst snd].
    destruct (fst (fst g) =? i); cbn [andb].
    - rewrite filter_pt_key. destruct (with_key key (snd (fst g))); reflexivity.
    - assert (N : filter (fun _ : Z * list text => false) (filter (fun p => fst p =? snd (fst g)) pt) = [])
        by (now apply filter_nil_iff). rewrite N. reflexivity.
  Qed.

  Definition in_cell_b i key (q : quant) : bool := (q_index q =? i) && with_key key (q_attr q).
  Lemma in_cell_b_iff i key q : has_some key -> (in_cell_b i key q = true <-> in_cell columns r i key q).
  Proof.
    intros Hs. unfold in_cell_b, in_cell. rewrite andb_true_iff, Z.eqb_eq, with_key_iff, in_pt.
    split; [intros (E & _ & a & H)|intros (E & a & H)]; (split; [exact E|]); eauto.
  Qed.

  Lemma cell_rows i key :
    filter (fun x => (fst (fst x) =? i) && with_key key (snd (fst x))) qrows =
    map (fun q => ((q_index q, q_attr q), q_value q)) (filter (in_cell_b i key) (r_quants r)).
  Proof. unfold qrows. rewrite filter_map. reflexivity. Qed.

  (** The aggregated groups. *)
  Lemma in_pivot_groups agg i key v : In ((i, key), v) (pivot_groups agg columns r) <->
    In (i, key) (map fst jrows) /\
    v = (match agg with AggSum => sql_sum | AggMean => sql_avg end)
          (map snd (group_by zz_eqb sql_sum (map (fun q => ((q_index q, q_attr q), q_value q)) (filter (in_cell_b i key) (r_quants r))))).
  Proof.
    unfold pivot_groups. fold pt. fold qrows. fold summed. fold jrows.
    rewrite (in_group_by pkey_eqb pkey_eqb_iff), cell_values, cell_rows. reflexivity.
  Qed.

  Lemma in_jkeys i key : In (i, key) (map fst jrows) <->
    exists q, In q (r_quants r) /\ in_cell columns r i key q /\ has_some key.
  Proof.
    unfold jrows. rewrite in_map_iff. split.
    - intros (((i' & k') & v) & E & H). cbn [fst] in E. inversion E; subst i' k'; clear E.
      apply in_flat_map in H. destruct H as (g & Hg & H). apply in_map_iff in H. destruct H as ((a & k) & E & H).
      cbn [snd] in E. inversion E; subst; clear E. apply filter_In in H. destruct H as [Hp E]. cbn [fst] in E. apply Z.eqb_eq in E.
      destruct g as [[i a'] v]. cbn [fst snd] in *. subst a'. apply (in_group_by zz_eqb zz_eqb_iff) in Hg.
      destruct Hg as [Hg _]. unfold qrows in Hg. rewrite map_map in Hg. apply in_map_iff in Hg.
      destruct Hg as (q & Eq & Hq). cbn [fst] in Eq. inversion Eq; subst. exists q. split; [exact Hq|].
      apply in_pt in Hp. destruct Hp as [Hs Ha]. split; [|exact Hs]. split; [reflexivity|exact Ha].
    - intros (q & Hq & (<- & a & Ha & Ea & Ek) & Hs).
      exists ((q_index q, key), sql_sum (map snd (filter (fun x => zz_eqb (fst x) (q_index q, q_attr q)) qrows))).
      split; [reflexivity|]. apply in_flat_map. exists ((q_index q, q_attr q), sql_sum (map snd (filter (fun x => zz_eqb (fst x) (q_index q, q_attr q)) qrows))). split.
      + apply (in_group_by zz_eqb zz_eqb_iff). split; [|reflexivity]. unfold qrows. rewrite map_map. apply in_map_iff. exists q. auto.
      + apply in_map_iff. exists (q_attr q, key). split; [reflexivity|]. apply filter_In. split; [|cbn; lia].
        apply in_pt. split; [exact Hs|]. exists a. auto.
  Qed.

  (** *** Cells *)
  Definition cell_of agg i key v : Prop :=
    match agg with
    | AggSum => quants_where (in_cell columns r i key) r v
    | AggMean => mean_where columns r i key v
    end.

  Lemma group_ids i key :
    let g := group_by zz_eqb sql_sum (map (fun q => ((q_index q, q_attr q), q_value q)) (filter (in_cell_b i key) (r_quants r))) in
    forall a v, In ((i, a), v) g -> exists q, In q (r_quants r) /\ in_cell_b i key q = true /\ q_attr q = a /\
      v = sql_sum (map q_value (filter (fun q => (q_attr q =? a) && (q_index q =? i)) (r_quants r))).
  Proof.
    cbv zeta. intros a v H. apply (in_group_by zz_eqb zz_eqb_iff) in H. destruct H as [H ->].
    rewrite map_map in H. apply in_map_iff in H. destruct H as (q & E & Hq). cbn [fst] in E. inversion E; subst.
    apply filter_In in Hq. destruct Hq as [Hq Hc]. exists q. repeat split; auto.
    rewrite filter_map, map_map. cbn [snd fst]. f_equal. f_equal.
    assert (Hk : with_key key (q_attr q) = true) by (apply andb_true_iff in Hc; tauto).
    clear Hq Hc E. revert Hk. generalize (q_attr q) (q_index q). intros a j Hk.
    induction (r_quants r) as [|x l IH]; [reflexivity|]. cbn [filter]. unfold in_cell_b at 1.
    destruct (q_index x =? j) eqn:E1; cbn [andb].
    - destruct (q_attr x =? a) eqn:E2; cbn [andb].
      + pose proof E2 as E3. apply Z.eqb_eq in E3. rewrite E3, Hk. cbn [filter]. unfold zz_eqb at 1. cbn [fst snd].
        rewrite E1, E2. cbn [andb]. f_equal. exact IH.
      + destruct (with_key key (q_attr x)); [|exact IH]. cbn [filter]. unfold zz_eqb at 1. cbn [fst snd]. rewrite E1, E2. exact IH.
    - rewrite andb_false_r. exact IH.
  Qed.

  Lemma somes_filter (l : list ((Z * Z) * option Q)) :
    somes (map snd l) = map (fun g => val (snd g)) (filter (fun g => match snd g with Some _ => true | None => false end) l).
  Proof.
    induction l as [|[k [v|]] l IH]; [reflexivity| |]; cbn [map snd somes filter]; [cbn [map snd val]; f_equal|]; exact IH.
  Qed.

  Lemma nodup_sub {A B} (f : A -> B) p l : NoDup (map f l) -> NoDup (map f (filter p l)).
  Proof.
    induction l as [|x l IH]; cbn [map filter]; [auto|]. intros H. inversion H; subst. destruct (p x); [|auto].
    cbn [map]. constructor; [|auto]. intros Hi. apply H2. apply in_map_iff in Hi. destruct Hi as (y & <- & Hy).
    apply in_map. now apply filter_In in Hy.
  Qed.

  Lemma null_some l : (exists y, In (Some y) l) -> exists v, sql_sum l = Some v.
  Proof.
    intros (y & Hy). unfold sql_sum. apply in_somes in Hy. destruct (somes l); [easy|eauto].
  Qed.

  Lemma value_cell agg i key v : has_some key ->
    v = (match agg with AggSum => sql_sum | AggMean => sql_avg end)
          (map snd (group_by zz_eqb sql_sum (map (fun q => ((q_index q, q_attr q), q_value q)) (filter (in_cell_b i key) (r_quants r))))) ->
    cell_of agg i key v.
  Proof.
    intros Hs ->. destruct agg; cbn [cell_of].
    - exists (in_cell_b i key). split; [intros; now apply in_cell_b_iff|].
      pose proof (nested_sum zz_eqb zz_eqb_iff (map (fun q => ((q_index q, q_attr q), q_value q)) (filter (in_cell_b i key) (r_quants r)))) as N.
      rewrite map_map in N. cbn [snd] in N. exact N.
    - set (g := group_by zz_eqb sql_sum _).
      set (fl := filter (fun x => match snd x with Some _ => true | None => false end) g).
      assert (Hi : forall x, In x g -> fst (fst x) = i).
      { intros [[j a] v] Hx. apply (in_group_by zz_eqb zz_eqb_iff) in Hx. destruct Hx as [Hx _].
        rewrite map_map in Hx. apply in_map_iff in Hx. destruct Hx as (q & E & Hq). cbn [fst] in E. inversion E; subst.
        apply filter_In in Hq. destruct Hq as [_ Hc]. apply andb_true_iff in Hc. cbn [fst]. lia. }
      exists (map (fun x => snd (fst x)) fl). split; [|split].
      + assert (Hd : NoDup (map fst fl)) by (apply nodup_sub; apply nodup_group_by, zz_eqb_iff).
        assert (Hf : forall x, In x fl -> fst (fst x) = i) by (intros x Hx; apply Hi; now apply filter_In in Hx).
        clear -Hd Hf. induction fl as [|x l IH]; [constructor|]. cbn [map] in *. inversion Hd; subst. constructor.
        * intros Hx. apply in_map_iff in Hx. destruct Hx as (y & E & Hy). apply H1.
          assert (fst x = fst y). { destruct x as [[? ?] ?], y as [[? ?] ?]. cbn in *.
            pose proof (Hf _ (or_introl eq_refl)) as X1. pose proof (Hf _ (or_intror Hy)) as X2. cbn in X1, X2. congruence. }
          rewrite H. now apply in_map.
        * apply IH; [assumption|]. intros; apply Hf; now right.
      + intros a. rewrite in_map_iff. split.
        * intros ([[j a'] v] & E & Hx). cbn [fst snd] in E. subst a'. apply filter_In in Hx. destruct Hx as [Hx Hv].
          pose proof (Hi _ Hx) as E. cbn [fst] in E. subst j. cbn [snd] in Hv.
          apply (in_group_by zz_eqb zz_eqb_iff) in Hx. destruct Hx as [_ Ev]. destruct v as [y|]; [|discriminate].
          symmetry in Ev. unfold sql_sum in Ev. destruct (somes _) as [|z l] eqn:Es; [discriminate|].
          assert (Hz : In z (z :: l)) by now left. rewrite <- Es in Hz. apply in_somes in Hz.
          apply in_map_iff in Hz. destruct Hz as (x & Ex & Hx). apply filter_In in Hx. destruct Hx as [Hx Ek].
          apply in_map_iff in Hx. destruct Hx as (q & <- & Hq). cbn [snd fst] in *. apply zz_eqb_iff in Ek. inversion Ek; subst.
          apply filter_In in Hq. destruct Hq as [Hq Hc]. exists q. repeat split; auto; [|congruence].
          apply in_cell_b_iff in Hc; [|exact Hs]. apply Hc.
        * intros (q & Hq & Ea & Hc & Hv). pose proof Hc as Hc'. apply in_cell_b_iff in Hc'; [|exact Hs].
          destruct Hc as [Ei _]. destruct (q_value q) as [y|] eqn:Ey; [|easy].
          set (rows := map (fun q => ((q_index q, q_attr q), q_value q)) (filter (in_cell_b i key) (r_quants r))) in *.
          assert (Hr : In ((i, a), Some y) rows).
          { unfold rows. apply in_map_iff. exists q. rewrite Ei, Ea, Ey. split; [reflexivity|]. now apply filter_In. }
          destruct (null_some (map snd (filter (fun x => zz_eqb (fst x) (i, a)) rows))) as [w Ew].
          { exists y. apply in_map_iff. exists ((i, a), Some y). split; [reflexivity|]. apply filter_In. split; [exact Hr|]. now apply zz_eqb_iff. }
          exists ((i, a), Some w). split; [reflexivity|]. apply filter_In. split; [|reflexivity].
          unfold g. apply (in_group_by zz_eqb zz_eqb_iff). split; [|now symmetry].
          apply in_map_iff. exists ((i, a), Some y). auto.
      + unfold sql_avg. rewrite somes_filter. fold fl.
        assert (Hsum : (Qsum (map (fun x => val (snd x)) fl) == Qsum (map (fun a => amount r a i) (map (fun x => snd (fst x)) fl)))%Q).
        { rewrite map_map. apply Qsum_ext. intros [[j a] v] Hx. cbn [fst snd]. apply filter_In in Hx. destruct Hx as [Hx _].
          pose proof (Hi _ Hx) as E. cbn [fst] in E. subst j. destruct (group_ids i key a v Hx) as (q & _ & _ & _ & ->).
          rewrite val_sql_sum, map_map. reflexivity. }
        rewrite map_length. destruct (map (fun x => val (snd x)) fl) as [|y l] eqn:El.
        * destruct fl; [reflexivity|discriminate].
        * assert (Hlen : length fl = length (y :: l)) by now rewrite <- El, map_length.
          split; [destruct fl; discriminate|]. rewrite <- Hsum, Hlen. field. apply inject_nat_pos. cbn; lia.
  Qed.

  Lemma empty_cell agg i key : has_some key -> (forall q, In q (r_quants r) -> ~ in_cell columns r i key q) ->
    cell_of agg i key None.
  Proof.
    intros Hs Hn. destruct agg; cbn [cell_of].
    - exists (fun _ => false). split; [intros q Hq; split; [discriminate|intros H; now destruct (Hn q Hq)]|].
      intros x Hx. assert (filter (fun _ : quant => false) (r_quants r) = []) by now apply filter_nil_iff. now rewrite H in Hx.
    - exists []. split; [constructor|]. split; [|reflexivity]. intros a. split; [easy|].
      intros (q & Hq & _ & Hc & _). now destruct (Hn q Hq).
  Qed.
End Pivot.

(** *** Sorting and adjacent groups *)

Section Adjacent.
  Context {V : Type}.
  Notation item := ((Z * list text) * V)%type.
  Definition le_ix (x y : item) : Prop := fst (fst x) <= fst (fst y).

  Lemma insert_by_perm (x : item) l : Permutation (x :: l) (insert_by x l).
  Proof.
    induction l as [|y l IH]; cbn [insert_by]; [reflexivity|]. destruct (_ <? _); [|reflexivity].
    rewrite perm_swap. now constructor.
  Qed.
  Lemma order_by_perm (l : list item) : Permutation l (order_by l).
  Proof. induction l as [|x l IH]; cbn [order_by]; [reflexivity|]. rewrite <- insert_by_perm. now constructor. Qed.
  Lemma insert_by_sorted x l : StronglySorted le_ix l -> StronglySorted le_ix (insert_by x l).
  Proof.
    induction 1 as [|y l Hs IH Hf]; cbn [insert_by]; [repeat constructor|].
    destruct (fst (fst y) <? fst (fst x)) eqn:E.
    - constructor; [exact IH|]. rewrite Forall_forall in *. intros z Hz.
      apply (Permutation_in _ (Permutation_sym (insert_by_perm x l))) in Hz. destruct Hz as [<-|Hz]; [unfold le_ix; lia|auto].
    - constructor; [now constructor|]. constructor; [unfold le_ix; lia|].
      rewrite Forall_forall in *. intros z Hz. specialize (Hf z Hz). unfold le_ix in *. lia.
  Qed.
  Lemma order_by_sorted l : StronglySorted le_ix (order_by l).
  Proof. induction l; cbn [order_by]; [constructor|now apply insert_by_sorted]. Qed.

  Lemma groupby_spec l : StronglySorted le_ix l ->
    StronglySorted Z.lt (map fst (groupby l)) /\
    (forall i, In i (map fst (groupby l)) <-> exists x, In x l /\ fst (fst x) = i) /\
    (forall i g, In (i, g) (groupby l) ->
       g = map (fun x => (snd (fst x), snd x)) (filter (fun x => fst (fst x) =? i) l)).
  Proof.
    induction 1 as [|x l Hs (I1 & I2 & I3) Hf]; [repeat split; try constructor; try easy; now intros (x & [] & _)|].
    cbn [groupby]. rewrite Forall_forall in Hf.
    assert (Hge : forall i, In i (map fst (groupby l)) -> fst (fst x) <= i).
    { intros i Hi. apply I2 in Hi. destruct Hi as (y & Hy & <-). now apply Hf. }
    destruct (groupby l) as [|[j g] rest] eqn:E.
    - assert (l = []).
      { destruct l as [|y l]; [reflexivity|]. destruct (proj2 (I2 (fst (fst y)))). exists y. split; [now left|reflexivity]. }
      subst l. cbn [map fst]. split; [repeat constructor|]. split.
      + intros i. split.
        * intros [<-|[]]. exists x. split; [now left|reflexivity].
        * intros (y & [<-|[]] & <-). now left.
      + intros i g [E2|[]]. inversion E2; subst. cbn [filter]. rewrite Z.eqb_refl. reflexivity.
    - cbn [map fst] in *. destruct (j =? fst (fst x)) eqn:Ej.
      + apply Z.eqb_eq in Ej. cbn [map fst]. split; [exact I1|]. split.
        * intros i. rewrite I2. split.
          -- intros (y & Hy & Ey). exists y. split; [now right|exact Ey].
          -- intros (y & [<-|Hy] & Ey); [|exists y; auto]. apply I2. left. congruence.
        * intros i g' [E2|Hi].
          -- inversion E2; subst. cbn [filter]. rewrite Z.eqb_refl. cbn [map]. f_equal. apply I3. now left.
          -- cbn [filter]. inversion I1 as [|? ? _ Fl]; subst. rewrite Forall_forall in Fl.
             assert (Hlt : fst (fst x) < i) by (apply Fl; apply (in_map fst) in Hi; exact Hi).
             destruct (fst (fst x) =? i) eqn:E3; [lia|]. apply I3. now right.
      + apply Z.eqb_neq in Ej. assert (Hlt : fst (fst x) < j) by (specialize (Hge j (or_introl eq_refl)); lia).
        cbn [map fst]. split; [|split].
        * constructor; [exact I1|]. rewrite Forall_forall. intros z [<-|Hz]; [exact Hlt|].
          inversion I1 as [|? ? _ Fl]; subst. rewrite Forall_forall in Fl. specialize (Fl z Hz). lia.
        * intros i. split.
          -- intros [<-|Hi]; [exists x; split; [now left|reflexivity]|]. apply I2 in Hi. destruct Hi as (y & Hy & Ey). exists y. split; [now right|exact Ey].
          -- intros (y & [<-|Hy] & Ey); [now left|]. right. apply I2. exists y. auto.
        * intros i g' [E2|Hi].
          -- inversion E2; subst. cbn [filter]. rewrite Z.eqb_refl. cbn [map].
             assert (N : filter (fun y : item => fst (fst y) =? fst (fst x)) l = []).
             { apply filter_nil_iff. intros y Hy. apply Z.eqb_neq. intros Ey.
               assert (Hin : In (fst (fst x)) (j :: map fst rest)) by (apply I2; exists y; auto).
               destruct Hin as [Hin|Hin]; [lia|]. inversion I1 as [|? ? _ Fl]; subst. rewrite Forall_forall in Fl. specialize (Fl _ Hin). lia. }
             rewrite N. reflexivity.
          -- cbn [filter]. assert (Hx : fst (fst x) < i).
             { apply (in_map fst) in Hi. cbn [fst map] in Hi. destruct Hi as [<-|Hi]; [exact Hlt|].
               inversion I1 as [|? ? _ Fl]; subst. rewrite Forall_forall in Fl. specialize (Fl _ Hi). lia. }
             destruct (fst (fst x) =? i) eqn:E3; [lia|]. now apply I3.
  Qed.
End Adjacent.

Lemma pivot_cell_in g key v : NoDup (map fst g) -> In (key, v) g -> pivot_cell g key = v.
Proof.
  intros Hd Hi. unfold pivot_cell.
  assert (Hr : In (key, v) (rev g)) by now apply in_rev in Hi.
  assert (Hdr : NoDup (map fst (rev g))).
  { rewrite map_rev. eapply Permutation_NoDup; [apply Permutation_rev|exact Hd]. }
  revert Hr Hdr. generalize (rev g). intros l. induction l as [|[k w] l IH]; [easy|].
  cbn [find fst map In]. intros Hr Hdr. inversion Hdr; subst. destruct (texts_eqb k key) eqn:E.
  - apply texts_eqb_iff in E. subst k. destruct Hr as [Hr|Hr]; [now inversion Hr|].
    destruct H1. now apply (in_map fst) in Hr.
  - destruct Hr as [Hr|Hr]; [|auto]. inversion Hr; subst. rewrite (proj2 (texts_eqb_iff key key) eq_refl) in E. discriminate.
Qed.
Lemma pivot_cell_none g key : ~ In key (map fst g) -> pivot_cell g key = None.
Proof.
  intros Hn. unfold pivot_cell. destruct (find _ (rev g)) as [p|] eqn:E; [|reflexivity].
  apply find_some in E. destruct E as [Hi E]. apply texts_eqb_iff in E. destruct Hn. rewrite <- E.
  apply in_map. now apply in_rev.
Qed.

Theorem pivot_spec agg columns s r p : reader_wf r -> pivot agg columns s r = Ok p ->
  exists keys ids, pivot_of columns s r (cell_of columns r agg) p keys ids.
Proof.
  intros W H. unfold pivot in H. apply bind_ok in H. destruct H as (rows & Hr & H). inversion H; subst; clear H.
  set (keys := distinct texts_eqb (map snd (pivot_table columns r))) in *.
  set (G := pivot_groups agg columns r) in *.
  assert (HG : NoDup (map fst G)) by (apply nodup_group_by, pkey_eqb_iff).
  destruct (groupby_spec (order_by G) (order_by_sorted G)) as (S1 & S2 & S3).
  assert (Hkeys : forall key, In key keys <-> has_some key /\ exists a, In a (r_attrs r) /\ pivot_key columns (a_attrs a) = key).
  { intros key. unfold keys. rewrite (in_distinct texts_eqb (fun a b => texts_eqb_iff a b)), in_map_iff. split.
    - intros ((i & k) & E & Hi). cbn [snd] in E. subst k. apply in_pt in Hi. destruct Hi as (Hs & a & Ha & _ & E). eauto.
    - intros (Hs & a & Ha & E). exists (a_id a, key). split; [reflexivity|]. apply in_pt. eauto. }
  exists keys, (map fst (groupby (order_by G))). constructor; cbn [p_columns p_rows].
  - apply nodup_distinct. intros; apply texts_eqb_iff.
  - exact Hkeys.
  - reflexivity.
  - assert (Hl : forall k, In k keys -> length k = length columns).
    { intros k Hk. apply Hkeys in Hk. destruct Hk as (_ & a & _ & <-). unfold pivot_key. apply map_length. }
    assert (Hd : NoDup keys) by (apply nodup_distinct; intros; apply texts_eqb_iff).
    clear -Hl Hd. induction keys as [|k ks IH]; cbn [map]; constructor.
    + inversion Hd; subst. intros Hi. apply in_map_iff in Hi. destruct Hi as (k' & E & Hk'). apply H1.
      apply format_column_inj in E; [now subst|]. rewrite (Hl k), (Hl k'); [reflexivity|now right|now left].
    + inversion Hd; subst. apply IH; [|assumption]. intros; apply Hl; now right.
  - exact S1.
  - intros i. rewrite S2. split.
    + intros (((i' & k) & v) & Hx & E). cbn [fst] in E. subst i'.
      apply (Permutation_in _ (Permutation_sym (order_by_perm G))) in Hx. apply in_pivot_groups in Hx; [|exact W]. destruct Hx as [Hx _].
      apply in_jkeys in Hx. destruct Hx as (q & Hq & Hc & Hs). eauto.
    + intros (q & key & Hq & Hc & Hs). eexists ((i, key), _). split; [|reflexivity].
      apply (Permutation_in _ (order_by_perm G)). apply in_pivot_groups; [exact W|]. split; [|reflexivity].
      apply in_jkeys. eauto.
  - apply traverse_ok in Hr. revert Hr S3. generalize (groupby (order_by G)). intros gs Hr S3.
    assert (X : Forall2 (fun g row => (In {| ix_id := fst g; ix_labels := fst row |} (d_index s) /\
                                       Forall2 (cell_of columns r agg (fst g)) keys (snd row))) gs rows).
    { induction Hr as [|g row gs rows Hg Hr IH]; constructor.
      - apply bind_ok in Hg. destruct Hg as (rec & Hrec & Hg). inversion Hg; subst; clear Hg. cbn [fst snd].
        apply index_get_ok in Hrec. destruct Hrec as [Hrec E]. split; [destruct rec; cbn in *; now subst|].
        destruct g as [i g]. cbn [fst snd] in *. pose proof (S3 i g (or_introl eq_refl)) as Eg.
        assert (Hin : forall k v, In (k, v) g <-> In ((i, k), v) G).
        { intros k v. rewrite Eg, in_map_iff. split.
          - intros (((i' & k') & v') & E2 & Hx). cbn [fst snd] in E2. inversion E2; subst. apply filter_In in Hx.
            destruct Hx as [Hx E3]. cbn [fst] in E3. apply Z.eqb_eq in E3. subst i'.
            apply (Permutation_in _ (Permutation_sym (order_by_perm G))), Hx.
          - intros Hx. exists ((i, k), v). split; [reflexivity|]. apply filter_In. split; [|cbn; lia].
            apply (Permutation_in _ (order_by_perm G)), Hx. }
        assert (Hnd : NoDup (map fst g)).
        { rewrite Eg, map_map. cbn [fst].
          assert (N : NoDup (map fst (filter (fun x => fst (fst x) =? i) (order_by G)))).
          { apply nodup_sub. eapply Permutation_NoDup; [apply Permutation_map, order_by_perm|exact HG]. }
          assert (A : forall x, In x (filter (fun x => fst (fst x) =? i) (order_by G)) -> fst (fst x) = i).
          { intros x Hx. apply filter_In in Hx. lia. }
          clear -N A. induction (filter _ (order_by G)) as [|x l IH]; [constructor|]. cbn [map] in *. inversion N; subst. constructor.
          - intros Hi. apply H1. apply in_map_iff in Hi. destruct Hi as (y & E & Hy). apply in_map_iff. exists y. split; [|exact Hy].
            pose proof (A x (or_introl eq_refl)). pose proof (A y (or_intror Hy)). destruct (fst x), (fst y). cbn in *. congruence.
          - apply IH; [assumption|]. intros; apply A; now right. }
        assert (Hall : forall key, In key keys -> cell_of columns r agg i key (pivot_cell g key)).
        { intros key Hk. apply Hkeys in Hk. destruct Hk as [Hs _].
          destruct (in_dec (list_eq_dec (list_eq_dec N.eq_dec)) key (map fst g)) as [Hi|Hn].
          - apply in_map_iff in Hi. destruct Hi as ((k & v) & Ek & Hi). cbn [fst] in Ek. subst k.
            rewrite (pivot_cell_in g key v Hnd Hi). apply Hin in Hi. apply in_pivot_groups in Hi; [|exact W]. destruct Hi as [_ Hi].
            now apply value_cell.
          - rewrite pivot_cell_none by exact Hn. apply empty_cell; [exact Hs|]. intros q Hq Hc. apply Hn.
            assert (Y : exists v, In ((i, key), v) G).
            { eexists. apply in_pivot_groups; [exact W|]. split; [|reflexivity]. apply in_jkeys. eauto. }
            destruct Y as [v Y]. apply Hin in Y. now apply (in_map fst) in Y. }
        clear -Hall. induction keys as [|k ks IH]; cbn [map]; constructor; [apply Hall; now left|].
        apply IH. intros; apply Hall; now right.
      - apply IH. intros i g' Hi. apply S3. now right. }
    clear -X. induction X; cbn [map]; constructor; auto.
Qed.

Theorem pivot_total agg columns s r : reader_wf r -> placed_in s r -> exists p, pivot agg columns s r = Ok p.
Proof.
  intros W P. unfold pivot.
  set (G := pivot_groups agg columns r). destruct (groupby_spec (order_by G) (order_by_sorted G)) as (_ & S2 & _).
  match goal with |- context [traverse ?f ?l] => assert (X : exists rows, traverse f l = Ok rows) end.
  { apply traverse_total. intros g Hg. apply (in_map fst) in Hg. apply S2 in Hg. destruct Hg as (((i & k) & v) & Hx & E).
    cbn [fst] in E. apply (Permutation_in _ (Permutation_sym (order_by_perm G))) in Hx. apply in_pivot_groups in Hx; [|exact W].
    destruct Hx as [Hx _]. apply in_jkeys in Hx. destruct Hx as (q & Hq & (Ei & _) & _).
    destruct (index_get_total s i) as [rec Hrec]; [rewrite <- Ei; now apply P|]. rewrite <- E, Hrec. cbn. eauto. }
  destruct X as [rows ->]. cbn. eauto.
Qed.

(** *** The grand total *)

Definition in_cell_key columns r (key : list text) (q : quant) : bool :=
  existsb (fun a => (a_id a =? q_attr q) && texts_eqb (pivot_key columns (a_attrs a)) key) (r_attrs r).

Lemma quants_where_val P r v : quants_where P r v -> forall sel : quant -> bool,
  (forall q, In q (r_quants r) -> (sel q = true <-> P q)) ->
  (val v == Qsum (map (fun q => val (q_value q)) (filter sel (r_quants r))))%Q.
Proof.
  intros (sel' & H' & N) sel H.
  assert (E : filter sel' (r_quants r) = filter sel (r_quants r)).
  { apply filter_ext_in. intros q Hq. destruct (sel q) eqn:E1, (sel' q) eqn:E2; try reflexivity.
    - apply H in E1; [|exact Hq]. apply H' in E1; [congruence|exact Hq].
    - apply H' in E2; [|exact Hq]. apply H in E2; [congruence|exact Hq]. }
  rewrite E in N. destruct v as [x|]; cbn [val null_sum] in *.
  - destruct N as [_ N]. rewrite N, map_map. reflexivity.
  - symmetry. apply Qsum_zero. intros q Hq. rewrite (N (q_value q)); [reflexivity|]. now apply in_map.
Qed.

(** The records that belong to some column. *)
Definition pivotable columns (r : reader) (q : quant) : bool :=
  existsb (fun a => (a_id a =? q_attr q) && existsb (fun v => negb (is_empty v)) (pivot_key columns (a_attrs a))) (r_attrs r).

Theorem pivot_sum columns s r p : reader_wf r -> pivot AggSum columns s r = Ok p ->
  (Qsum (map (fun row => Qsum (map val (snd row))) (p_rows p)) ==
   Qsum (map (fun q => val (q_value q)) (filter (pivotable columns r) (r_quants r))))%Q.
Proof.
  intros W H. destruct (pivot_spec _ _ _ _ _ W H) as (keys & ids & [K1 K2 _ _ I1 I2 R]).
  set (f := fun q => val (q_value q)).
  assert (Hkey : forall i key q, in_cell columns r i key q <-> (q_index q =? i) && in_cell_key columns r key q = true).
  { intros i key q. unfold in_cell, in_cell_key. rewrite andb_true_iff, Z.eqb_eq, existsb_exists.
    split; intros [E (a & H1)]; (split; [exact E|]); exists a.
    - destruct H1 as (Ha & E1 & E2). split; [exact Ha|]. apply andb_true_iff. split; [lia|]. now apply texts_eqb_iff.
    - destruct H1 as (Ha & E1). apply andb_true_iff in E1. destruct E1 as [E1 E2]. apply texts_eqb_iff in E2. split; [exact Ha|]. split; [lia|exact E2]. }
  assert (Hone : forall q a, In a (r_attrs r) -> a_id a = q_attr q -> forall key, in_cell_key columns r key q = texts_eqb (pivot_key columns (a_attrs a)) key).
  { intros q a Ha Ea key. unfold in_cell_key. destruct (texts_eqb _ key) eqn:E.
    - apply existsb_exists. exists a. split; [exact Ha|]. apply andb_true_iff. split; [lia|exact E].
    - destruct (existsb _ _) eqn:X; [|reflexivity]. apply existsb_exists in X. destruct X as (b & Hb & X). apply andb_true_iff in X.
      destruct X as [X1 X2]. assert (b = a).
      { pose proof (rw_ids r W) as Hd. clear -Hd Ha Hb X1 Ea. assert (E : a_id b = a_id a) by lia. clear X1 Ea.
        induction (r_attrs r) as [|y l IH]; [easy|]. cbn [map In] in *. inversion Hd; subst.
        destruct Ha as [->|Ha], Hb as [->|Hb]; auto; destruct H1; [rewrite <- E|rewrite E]; now apply in_map. }
      subst b. congruence. }
  (* cells *)
  assert (S1 : (Qsum (map (fun row => Qsum (map val (snd row))) (p_rows p)) ==
    Qsum (map (fun i => Qsum (map (fun key => Qsum (map f (filter (fun q => (q_index q =? i) && in_cell_key columns r key q) (r_quants r)))) keys)) ids))%Q).
  { symmetry. apply Qsum_Forall2. revert R. apply Forall2_weaken. intros i row [_ C]. apply Qsum_Forall2. revert C. apply Forall2_weaken.
    intros key v C. symmetry. apply (quants_where_val _ _ _ C). intros q _. symmetry. apply Hkey. }
  rewrite S1. clear S1.
  (* sum over keys *)
  assert (S2 : forall i, (Qsum (map (fun key => Qsum (map f (filter (fun q => (q_index q =? i) && in_cell_key columns r key q) (r_quants r)))) keys) ==
    Qsum (map f (filter (fun q => q_index q =? i) (filter (pivotable columns r) (r_quants r)))))%Q).
  { intros i.
    assert (Hsub : forall q, In q (r_quants r) -> exists a, In a (r_attrs r) /\ a_id a = q_attr q) by apply W.
    revert Hsub. generalize (r_quants r). intros qs. induction qs as [|q qs IH]; intros Hsub.
    - cbn [filter map]. rewrite Qsum_nil. apply Qsum_zero. intros; reflexivity.
    - cbn [filter]. specialize (IH (fun q' Hq' => Hsub q' (or_intror Hq'))).
      destruct (Hsub q (or_introl eq_refl)) as (a & Ha & Ea).
      assert (Hsplit : (Qsum (map (fun key => Qsum (map f (if (q_index q =? i) && in_cell_key columns r key q
           then q :: filter (fun q0 => (q_index q0 =? i) && in_cell_key columns r key q0) qs
           else filter (fun q0 => (q_index q0 =? i) && in_cell_key columns r key q0) qs))) keys) ==
         Qsum (map (fun key => if (q_index q =? i) && in_cell_key columns r key q then f q else 0%Q) keys) +
         Qsum (map (fun key => Qsum (map f (filter (fun q0 => (q_index q0 =? i) && in_cell_key columns r key q0) qs))) keys))%Q).
      { rewrite <- Qsum_plus. apply Qsum_ext. intros key _. destruct (_ && _); cbn [map]; rewrite ?Qsum_cons; lra. }
      rewrite Hsplit, IH. clear Hsplit IH.
      assert (Hp : pivotable columns r q = true <-> In (pivot_key columns (a_attrs a)) keys).
      { rewrite K2. unfold pivotable. rewrite existsb_exists. split.
        - intros (b & Hb & X). apply andb_true_iff in X. destruct X as [X1 X2]. apply any_some in X2.
          assert (E : texts_eqb (pivot_key columns (a_attrs a)) (pivot_key columns (a_attrs b)) = true).
          { rewrite <- (Hone q a Ha Ea). rewrite (Hone q b Hb) by lia. now apply texts_eqb_iff. }
          apply texts_eqb_iff in E. rewrite E. split; [exact X2|eauto].
        - intros [Hs _]. exists a. split; [exact Ha|]. apply andb_true_iff. split; [lia|]. now apply any_some. }
      destruct (q_index q =? i) eqn:Ei; cbn [andb].
      + destruct (pivotable columns r q) eqn:Ep.
        * cbn [filter]. rewrite Ei. cbn [map]. rewrite Qsum_cons.
          rewrite (Qsum_ext _ (fun key => if texts_eqb (pivot_key columns (a_attrs a)) key then f q else 0%Q)).
          2:{ intros key _. rewrite (Hone q a Ha Ea). reflexivity. }
          rewrite (sum_one texts_eqb (fun a b => texts_eqb_iff a b)); [reflexivity|exact K1|]. now apply Hp.
        * rewrite Qsum_zero; [lra|]. intros key Hk. rewrite (Hone q a Ha Ea). destruct (texts_eqb _ key) eqn:E; [|reflexivity].
          apply texts_eqb_iff in E. subst key. apply Hp in Hk. discriminate.
      + rewrite Qsum_zero by (intros; reflexivity). destruct (pivotable columns r q); cbn [filter]; rewrite ?Ei; lra. }
  rewrite (Qsum_ext _ (fun i => Qsum (map f (filter (fun q => q_index q =? i) (filter (pivotable columns r) (r_quants r)))))) by (intros; apply S2).
  apply (partition_sum Z.eqb Z.eqb_eq q_index f).
  - clear -I1. induction I1 as [|i ids Hs IH Hf]; constructor; [|exact IH]. intros Hi. rewrite Forall_forall in Hf. specialize (Hf i Hi). lia.
  - intros q Hq. apply filter_In in Hq. destruct Hq as [Hq Hp]. apply I2.
    unfold pivotable in Hp. apply existsb_exists in Hp. destruct Hp as (a & Ha & X). apply andb_true_iff in X. destruct X as [X1 X2].
    apply any_some in X2. exists q, (pivot_key columns (a_attrs a)). split; [exact Hq|]. split; [|exact X2].
    split; [reflexivity|]. exists a. repeat split; auto. lia.
Qed.

Theorem pivot_sum_sel columns s r p : reader_wf r -> pivot AggSum columns s r = Ok p ->
  exists sel : quant -> bool,
    (forall q, In q (r_quants r) ->
       (sel q = true <-> exists key, in_cell columns r (q_index q) key q /\ has_some key)) /\
    (Qsum (map (fun row => Qsum (map val (snd row))) (p_rows p)) ==
     Qsum (map (fun q => val (q_value q)) (filter sel (r_quants r))))%Q.
Proof.
  intros W H. exists (pivotable columns r). split; [|now apply (pivot_sum columns s)].
  intros q _. unfold pivotable. rewrite existsb_exists. split.
  - intros (a & Ha & X). apply andb_true_iff in X. destruct X as [X1 X2]. apply any_some in X2.
    exists (pivot_key columns (a_attrs a)). split; [|exact X2]. split; [reflexivity|]. exists a. repeat split; auto. lia.
  - intros (key & (_ & a & Ha & Ea & Ek) & Hs). exists a. split; [exact Ha|]. apply andb_true_iff. split; [lia|].
    rewrite Ek. now apply any_some.
Qed.

(** For examples. *)
Lemma placed_dec s r : forallb (fun q => existsb (fun x => ix_id x =? q_index q) (d_index s)) (r_quants r) = true ->
  placed_in s r.
Proof.
  intros H q Hq. rewrite forallb_forall in H. specialize (H q Hq). apply existsb_exists in H.
  destruct H as (x & Hx & E). exists x. split; [exact Hx|lia].
Qed.
