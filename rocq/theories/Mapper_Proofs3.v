(** Proofs about matching: counters, shares and the produced mappings. *)
From Verif Require Import Prelude QLemmas BitFlags_Model BitFlags_Proofs Selectors_Model Selectors_Proofs
  LinkRef_Model LinkRef_Proofs Db_Model Db_Spec Reader_Model Reader_Spec Reader_Proofs Reader_Proofs3
  Mapper_Model Mapper_Spec Mapper_Proofs Mapper_Proofs2.
From Coq Require Import Permutation Lqa.
From Coq Require Import ZifyBool ZifyNat ZifyN.
Local Open Scope nat_scope.

(** *** Counters *)

Lemma insert_hits_count s g lv run ids st :
  snd (insert_hits s g lv run ids st) = snd st \/
  (snd (insert_hits s g lv run ids st) = add_unweighted (snd st) /\ new_hits s g lv run ids = []).
Proof.
  unfold insert_hits, new_hits. rewrite map_length, existsb_map. cbn [snd].
  destruct (_ && _); cbn [snd]; auto.
Qed.

Definition is_missing (s : db) (d : side) : bool :=
  match sd_id d with Some i => match index_find i s with Some _ => false | None => true end | None => false end.
Definition is_nolabel (s : db) (d : side) : bool :=
  match sd_id d with Some _ => false | None => nil_b (candidates s (sd_loc d)) end.
Definition is_over (s : db) (limit : nat) (d : side) : bool :=
  match sd_id d with
  | Some _ => false
  | None => negb (nil_b (candidates s (sd_loc d))) && (limit <? length (candidates s (sd_loc d)))
  end.
Definition over_size (s : db) (limit : nat) (d : side) : nat :=
  if is_over s limit d then length (candidates s (sd_loc d)) else 0.
Definition b2n (b : bool) : nat := if b then 1 else 0.

Lemma row_counts s g limit allow lv st e :
  let c := snd st in let c' := snd (match_row s g limit allow lv st e) in
  c_missing c' = c_missing c + b2n (is_missing s (snd e)) /\
  c_nolabel c' = c_nolabel c + b2n (is_nolabel s (snd e)) /\
  c_overlimit c' = c_overlimit c + b2n (is_over s limit (snd e)) /\
  c_highest c' = Nat.max (c_highest c) (over_size s limit (snd e)) /\
  c_unweighted c <= c_unweighted c' /\ c_excluded c <= c_excluded c'.
Proof.
  cbv zeta. unfold match_row, is_missing, is_nolabel, over_size, is_over, index_get.
  assert (I : forall ids st', let c := snd st' in let c' := snd (insert_hits s g lv (fst e) ids st') in
    c_missing c' = c_missing c /\ c_nolabel c' = c_nolabel c /\ c_overlimit c' = c_overlimit c /\
    c_highest c' = c_highest c /\ c_unweighted c <= c_unweighted c' /\ c_excluded c' = c_excluded c).
  { intros ids st'. cbv zeta. destruct (insert_hits_count s g lv (fst e) ids st') as [->|[-> _]]; cbn; lia. }
  destruct (sd_id (snd e)) as [i|].
  - destruct (index_find i s); cbn [b2n].
    + specialize (I [i] st). cbv zeta in I. lia.
    + cbn. lia.
  - cbv zeta. set (all := candidates s (sd_loc (snd e))).
    destruct (limit <? length all)%nat eqn:El.
    + assert (Hf : length (firstn (limit + 1) all) = (limit + 1)%nat) by (rewrite firstn_length; lia).
      assert (Hs : length (skipn (limit + 1) all) = (length all - (limit + 1))%nat) by apply skipn_length.
      destruct (nil_b (firstn (limit + 1) all)) eqn:En.
      { destruct (firstn (limit + 1) all); [cbn in Hf; lia|discriminate]. }
      rewrite Hf. destruct (limit <? limit + 1)%nat eqn:E2; [|lia].
      destruct all as [|x all]; [cbn in El; lia|]. cbn [nil_b negb andb b2n snd c_missing c_nolabel c_overlimit
        c_highest c_unweighted c_excluded add_overlimit]. rewrite Hs. repeat split; lia.
    + rewrite (firstn_short (limit + 1) all) by lia. rewrite El.
      destruct (nil_b all) eqn:En; cbn [negb andb b2n].
      { cbn. lia. }
      destruct (1 <? length all)%nat eqn:E1.
      * destruct allow.
        -- specialize (I all (fst st, add_included (length (filter (is_overlap lv (fst st)) all)) (snd st))).
           cbv zeta in I. cbn [snd add_included c_missing c_nolabel c_overlimit c_highest c_unweighted c_excluded] in I.
           lia.
        -- match goal with |- context [insert_hits s g lv (fst e) ?k ?x] => specialize (I k x) end.
           cbv zeta in I. cbn [snd add_excluded c_missing c_nolabel c_overlimit c_highest c_unweighted c_excluded] in I.
           lia.
      * specialize (I all st). cbv zeta in I. lia.
Qed.

(** A row that gets nothing is counted. *)
Lemma row_reported s g limit allow lv st e :
  chosen s limit allow lv (fst st) (snd e) = [] \/
  new_hits s g lv (fst e) (chosen s limit allow lv (fst st) (snd e)) = [] ->
  reported (snd st) < reported (snd (match_row s g limit allow lv st e)).
Proof.
  assert (Z : new_hits s g lv (fst e) [] = []) by reflexivity.
  intros H. assert (Hn : new_hits s g lv (fst e) (chosen s limit allow lv (fst st) (snd e)) = []).
  { destruct H as [->|H]; assumption. }
  clear H. revert Hn. unfold match_row, chosen, index_get.
  assert (I : forall ids st', new_hits s g lv (fst e) ids = [] -> ids <> [] ->
    reported (snd (insert_hits s g lv (fst e) ids st')) = S (reported (snd st'))).
  { intros ids st'. unfold insert_hits, new_hits. rewrite map_length, existsb_map. cbn [snd].
    destruct (_ && _); cbn [snd].
    - intros _ _. unfold reported. cbn. lia.
    - destruct ids; [congruence|discriminate]. }
  destruct (sd_id (snd e)) as [i|].
  - destruct (index_find i s).
    + intros Hn. rewrite I; [lia|exact Hn|discriminate].
    + intros _. unfold reported. cbn. lia.
  - cbv zeta. set (all := candidates s (sd_loc (snd e))).
    destruct (limit <? length all)%nat eqn:El.
    + intros _. assert (Hf : length (firstn (limit + 1) all) = (limit + 1)%nat) by (rewrite firstn_length; lia).
      destruct (nil_b (firstn (limit + 1) all)) eqn:En.
      { destruct (firstn (limit + 1) all); [cbn in Hf; lia|discriminate]. }
      rewrite Hf. destruct (limit <? limit + 1)%nat eqn:E2; [|lia]. unfold reported. cbn. lia.
    + rewrite (firstn_short (limit + 1) all) by lia. rewrite El.
      destruct (nil_b all) eqn:En.
      { intros _. unfold reported. cbn. lia. }
      assert (Ha : all <> []) by (destruct all; [discriminate|congruence]).
      destruct (1 <? length all)%nat eqn:E1; cbn [andb].
      * destruct allow; cbn [negb].
        -- intros Hn. rewrite I by assumption. unfold reported. cbn. lia.
        -- set (kept := filter _ all). intros Hn. destruct kept as [|k kept'] eqn:Ek.
           ++ unfold insert_hits. cbn [map length Nat.ltb Nat.leb andb snd]. unfold reported. cbn. lia.
           ++ rewrite I; [|exact Hn|discriminate]. unfold reported. cbn. lia.
      * intros Hn. rewrite I by assumption. lia.
Qed.

Lemma loop_counts s g limit allow w : forall st,
  let c := snd st in let c' := snd (fold_left (step_row s g limit allow) w st) in
  c_missing c' = c_missing c + length (filter (fun x => is_missing s (snd (snd x))) w) /\
  c_nolabel c' = c_nolabel c + length (filter (fun x => is_nolabel s (snd (snd x))) w) /\
  c_overlimit c' = c_overlimit c + length (filter (fun x => is_over s limit (snd (snd x))) w) /\
  c_highest c' = fold_left Nat.max (map (fun x => over_size s limit (snd (snd x))) w) (c_highest c) /\
  c_unweighted c <= c_unweighted c' /\ c_excluded c <= c_excluded c'.
Proof.
  induction w as [|x w IH]; intros st; cbv zeta; cbn [fold_left map filter].
  - cbn [length]. lia.
  - specialize (IH (step_row s g limit allow st x)). cbv zeta in IH.
    destruct IH as (H1 & H2 & H3 & H4 & H5 & H6).
    destruct (row_counts s g limit allow (fst x) st (snd x)) as (R1 & R2 & R3 & R4 & R5 & R6).
    cbv zeta in *. unfold step_row in *. rewrite H1, H2, H3, H4, R1, R2, R3, R4.
    split; [|split; [|split; [|split]]].
    + destruct (is_missing s (snd (snd x))); cbn [b2n length]; lia.
    + destruct (is_nolabel s (snd (snd x))); cbn [b2n length]; lia.
    + destruct (is_over s limit (snd (snd x))); cbn [b2n length]; lia.
    + reflexivity.
    + lia.
Qed.

Lemma in_max l : forall n, n <= fold_left Nat.max l n /\ forall x, In x l -> x <= fold_left Nat.max l n.
Proof.
  induction l as [|y l IH]; intros n; cbn [fold_left]; [split; [lia|easy]|].
  destruct (IH (Nat.max n y)) as [H1 H2]. split; [lia|]. intros x [->|Hx]; [lia|auto].
Qed.
Lemma max_in l : forall n, fold_left Nat.max l n = n \/ In (fold_left Nat.max l n) l.
Proof.
  induction l as [|y l IH]; intros n; cbn [fold_left]; [now left|].
  destruct (IH (Nat.max n y)) as [E|H]; [|right; now right]. rewrite E.
  destruct (Nat.max_spec n y) as [[_ ->]|[_ ->]]; [right; now left|now left].
Qed.

Lemma matched_app run a b : matched run (a ++ b) = matched run a || matched run b.
Proof. apply existsb_app. Qed.
Lemma loop_reported s g limit allow w : forall st,
  let st' := fold_left (step_row s g limit allow) w st in
  length (filter (fun x => negb (matched (fst (snd x)) (fst st'))) w) + reported (snd st) <= reported (snd st').
Proof.
  induction w as [|x w IH]; intros st; cbv zeta; cbn [fold_left filter].
  - cbn [length]. lia.
  - specialize (IH (step_row s g limit allow st x)). cbv zeta in IH.
    set (st' := fold_left _ w _) in *.
    destruct (row_counts s g limit allow (fst x) st (snd x)) as (R1 & R2 & R3 & R4 & R5 & R6).
    assert (Hm : reported (snd st) <= reported (snd (step_row s g limit allow st x))).
    { cbv zeta in *. unfold step_row, reported. rewrite R1, R2, R3. lia. }
    destruct (negb (matched (fst (snd x)) (fst st'))) eqn:E; cbn [length]; [|lia].
    assert (reported (snd st) < reported (snd (step_row s g limit allow st x))); [|lia].
    apply row_reported. right.
    destruct (step_from s g limit allow w (step_row s g limit allow st x)) as (T & ET & _).
    assert (Es : fst (step_row s g limit allow st x) = fst st ++
      new_hits s g (fst x) (fst (snd x)) (chosen s limit allow (fst x) (fst st) (snd (snd x))))
      by apply match_row_fst.
    unfold st' in E. rewrite ET, Es in E.
    set (nh := new_hits s g (fst x) (fst (snd x)) (chosen s limit allow (fst x) (fst st) (snd (snd x)))) in *.
    destruct nh as [|h nh'] eqn:En; [reflexivity|exfalso].
    assert (Hh : h_run h = fst (snd x)).
    { assert (Hi : In h nh) by (rewrite En; now left). unfold nh, new_hits in Hi.
      destruct (_ && _); [easy|]. apply in_map_iff in Hi as (i & <- & _). reflexivity. }
    rewrite negb_true_iff, !matched_app in E. cbn [matched existsb] in E. rewrite Hh, Z.eqb_refl in E.
    cbn [orb] in E. rewrite orb_true_r in E. discriminate.
Qed.

Lemma work_perm levels es : NoDup levels -> NoDup (map fst es) ->
  (forall e, In e es -> In (sd_level (snd e)) levels) -> Permutation (map snd (work levels es)) es.
Proof.
  intros Hl He Hin. apply NoDup_Permutation.
  - clear Hin. induction levels as [|k levels IH]; cbn [work flat_map]; [constructor|].
    inversion Hl; subst. rewrite map_app, map_map. cbn [snd]. rewrite map_id.
    apply nodup_app; [|now apply IH|].
    + apply nodup_filter. clear -He. now apply NoDup_map_inv in He.
    + intros e H H'. apply filter_In in H as [_ Hb]. apply bytes_eqb_iff in Hb.
      apply in_map_iff in H' as ((k' & e') & <- & H'). apply in_work in H' as (Hk & _ & E). cbn [snd] in *. congruence.
  - now apply NoDup_map_inv in He.
  - intros e. rewrite in_map_iff. split.
    + intros ((k & e') & <- & H). apply in_work in H. tauto.
    + intros H. exists (sd_level (snd e), e). split; [reflexivity|]. apply in_work. auto.
Qed.
Lemma length_filter_perm {A} (p : A -> bool) a b : Permutation a b -> length (filter p a) = length (filter p b).
Proof.
  induction 1 as [|x a b _ IH|x y a|a b c _ IH1 _ IH2]; cbn [filter]; try congruence.
  - destruct (p x); cbn [length]; congruence.
  - destruct (p x), (p y); reflexivity.
Qed.
Lemma count_work levels es (p : Z * side -> bool) : NoDup levels -> NoDup (map fst es) ->
  (forall e, In e es -> In (sd_level (snd e)) levels) ->
  length (filter (fun x => p (snd x)) (work levels es)) = length (filter p es).
Proof.
  intros H1 H2 H3. rewrite <- (length_filter_perm p _ _ (work_perm levels es H1 H2 H3)).
  rewrite filter_map, map_length. reflexivity.
Qed.

Lemma refers_count_iff s d Q : index_wf s -> by_labels d ->
  (refers_count s d Q <-> Q (length (candidates s (sd_loc d)))).
Proof.
  intros W Hl. split.
  - intros (refs & [Hd Hr] & HQ). replace (length (candidates s (sd_loc d))) with (length refs); [exact HQ|].
    apply Permutation_length, NoDup_Permutation; [exact Hd|now apply nodup_candidates|].
    intros i. rewrite Hr. symmetry. now apply in_candidates.
  - intros HQ. exists (candidates s (sd_loc d)). split; [|exact HQ].
    split; [now apply nodup_candidates|]. intros i. now apply in_candidates.
Qed.

Lemma counters gran s limit allow es l c : index_wf s ->
  NoDup (sorted_levels gran s) -> NoDup (map fst es) ->
  (forall e, In e es -> In (sd_level (snd e)) (sorted_levels gran s)) ->
  match_records gran s limit allow es [] = Ok (l, c) ->
  counts (fun e => exists i, sd_id (snd e) = Some i /\ ~ has_index s i) es (c_missing c) /\
  counts (fun e => by_labels (snd e) /\ refers_count s (snd e) (fun n => n = 0)) es (c_nolabel c) /\
  counts (fun e => by_labels (snd e) /\ refers_count s (snd e) (fun n => 0 < n /\ limit < n)) es (c_overlimit c) /\
  (forall e, In e es -> by_labels (snd e) -> refers_count s (snd e) (fun n => limit < n -> n <= c_highest c)) /\
  (c_highest c = 0 \/ exists e, In e es /\ by_labels (snd e) /\
                       refers_count s (snd e) (fun n => limit < n /\ n = c_highest c)) /\
  length (filter (fun e => negb (matched (fst e) l)) es) <= reported c.
Proof.
  intros W Hl He Hin H. destruct (run_table _ _ _ _ _ _ _ _ H) as (g & Hg & -> & ->). cbv zeta in *.
  set (w := work (sorted_levels gran s) es).
  destruct (loop_counts s g limit allow w ([], no_count)) as (H1 & H2 & H3 & H4 & _). cbv zeta in *.
  cbn [snd no_count c_missing c_nolabel c_overlimit c_highest] in H1, H2, H3, H4. rewrite Nat.add_0_l in H1, H2, H3.
  split; [|split; [|split; [|split; [|split]]]].
  - exists (fun e => is_missing s (snd e)). split.
    + intros e _. unfold is_missing. destruct (sd_id (snd e)) as [i|].
      * pose proof (index_find_iff s i) as Hf. destruct (index_find i s) as [r|].
        -- split; [discriminate|]. intros (j & E & Hn). inversion E; subst. exfalso. apply Hn, Hf. eauto.
        -- split; [|reflexivity]. intros _. exists i. split; [reflexivity|]. rewrite <- Hf. intros [r Hr]. discriminate.
      * split; [discriminate|]. intros (j & E & _). discriminate.
    + rewrite H1. symmetry. exact (count_work _ es (fun e => is_missing s (snd e)) Hl He Hin).
  - exists (fun e => is_nolabel s (snd e)). split.
    + intros e _. unfold is_nolabel. destruct (sd_id (snd e)) as [i|] eqn:Ed.
      * unfold by_labels. rewrite Ed. split; [discriminate|]. intros [E _]. discriminate.
      * rewrite (refers_count_iff s (snd e) _ W Ed). unfold by_labels.
        destruct (candidates s (sd_loc (snd e))); cbn [nil_b length]; intuition discriminate.
    + rewrite H2. symmetry. exact (count_work _ es (fun e => is_nolabel s (snd e)) Hl He Hin).
  - exists (fun e => is_over s limit (snd e)). split.
    + intros e _. unfold is_over. destruct (sd_id (snd e)) as [i|] eqn:Ed.
      * unfold by_labels. rewrite Ed. split; [discriminate|]. intros [E _]. discriminate.
      * rewrite (refers_count_iff s (snd e) _ W Ed). unfold by_labels. rewrite andb_true_iff, Nat.ltb_lt.
        destruct (candidates s (sd_loc (snd e))); cbn [nil_b negb length].
        -- split; [intros [E _]; discriminate|]. lia.
        -- split; intros Hx; [split; [exact Ed|split; [lia|tauto]]|split; [reflexivity|tauto]].
    + rewrite H3. symmetry. exact (count_work _ es (fun e => is_over s limit (snd e)) Hl He Hin).
  - intros [r d] Hi Hb. rewrite (refers_count_iff s _ _ W Hb). intros Hlt. rewrite H4.
    apply in_max. apply in_map_iff. exists (sd_level d, (r, d)). split.
    + cbn [snd]. unfold over_size, is_over. cbn [snd] in *. rewrite Hb.
      destruct (candidates s (sd_loc d)) as [|x y] eqn:Ec; [cbn in Hlt; lia|].
      cbn [nil_b negb andb]. apply Nat.ltb_lt in Hlt. now rewrite Hlt.
    + apply in_work. cbn [snd]. split; [|auto]. exact (Hin _ Hi).
  - rewrite H4. destruct (max_in (map (fun x => over_size s limit (snd (snd x))) w) 0) as [->|Hm]; [now left|].
    apply in_map_iff in Hm as ((lv & e) & E & Hw). cbn [snd] in E. rewrite <- E.
    unfold over_size. destruct (is_over s limit (snd e)) eqn:Ho; [|now left]. right. exists e.
    apply in_work in Hw as (_ & Hi & _). split; [exact Hi|]. unfold is_over in Ho.
    destruct (sd_id (snd e)) eqn:Ed; [discriminate|]. split; [exact Ed|].
    rewrite (refers_count_iff s _ _ W Ed). apply andb_true_iff in Ho as [_ Ho]. split; [lia|reflexivity].
  - pose proof (loop_reported s g limit allow w ([], no_count)) as R. cbv zeta in R.
    cbn [snd] in R. unfold reported in R at 1. cbn [no_count c_missing c_nolabel c_overlimit c_unweighted c_excluded] in R.
    set (T := fst (fold_left _ w _)) in *.
    assert (Em : forall r, matched r (refresh_hits T) = matched r T).
    { intros r. unfold matched, refresh_hits. rewrite existsb_map. reflexivity. }
    pose proof (count_work _ es (fun e => negb (matched (fst e) T)) Hl He Hin) as Ec.
    fold w in Ec. rewrite (filter_ext _ (fun e => negb (matched (fst e) T))) by (intros e; now rewrite Em).
    rewrite <- Ec. lia.
Qed.

(** *** Shares *)

Lemma new_hits_weights s g lv run ids :
  length (new_hits s g lv run ids) <= 1 \/ forall h, In h (new_hits s g lv run ids) -> h_weight h <> None.
Proof.
  unfold new_hits. destruct (1 <? length ids) eqn:E1; cbn [andb].
  - destruct (existsb _ ids) eqn:E2; [left; cbn; lia|]. right. intros h Hh.
    apply in_map_iff in Hh as (i & <- & Hi). cbn [h_weight]. apply weight_for_some.
    now apply (proj1 (existsb_weightless s g ids) E2).
  - left. rewrite map_length. lia.
Qed.
Lemma new_hits_nonneg s g lv run ids h q : weights_wf s -> In h (new_hits s g lv run ids) ->
  h_weight h = Some q -> (0 <= q)%Q.
Proof.
  intros W Hh E. unfold new_hits in Hh. destruct (_ && _); [easy|]. apply in_map_iff in Hh as (i & <- & _).
  cbn [h_weight] in E. pose proof (brings_iff s g i) as Hb. rewrite E in Hb. cbn in Hb.
  destruct Hb as [(x & Hx & _ & _ & <-)|(_ & _ & ->)]; [now apply (ww_nonneg _ W)|lra].
Qed.

(** The shares of the matches [M] of one run. *)
Lemma run_shares T r : let M := of_run r T in
  (length M <= 1 \/ forall h, In h M -> h_weight h <> None) ->
  (forall h q, In h M -> h_weight h = Some q -> (0 <= q)%Q) ->
  (forall h, In h M -> exists p, h_prop (refresh_hit T h) = Some p /\ (0 <= p <= 1)%Q /\
     ((0 < total_weight r T)%Q -> (p == val (h_weight h) / total_weight r T)%Q) /\
     ((total_weight r T == 0)%Q -> (p == 1 / inject_Z (Z.of_nat (length M)))%Q)) /\
  (M <> [] -> (Qsum (map (fun h => part (refresh_hit T h)) M) == 1)%Q).
Proof.
  intros M Hw Hn.
  assert (Ht : (total_weight r T == Qsum (map val (map h_weight M)))%Q) by (unfold total_weight; now rewrite map_map).
  assert (Hv : forall h, In h M -> (0 <= val (h_weight h))%Q).
  { intros h Hh. destruct (h_weight h) as [q|] eqn:E; cbn [val]; [now apply (Hn h q)|lra]. }
  assert (Ht0 : (0 <= total_weight r T)%Q).
  { unfold total_weight. apply Qsum_nonneg. intros x Hx. apply in_map_iff in Hx as (h & <- & Hh). now apply Hv. }
  assert (Hp : forall h, In h M -> exists p, h_prop (refresh_hit T h) = Some p /\
     ((0 < total_weight r T)%Q -> (p == val (h_weight h) / total_weight r T)%Q) /\
     ((total_weight r T == 0)%Q -> (p == 1 / inject_Z (Z.of_nat (length M)))%Q)).
  { intros h Hh. assert (Hr : h_run h = r) by (apply filter_In in Hh as [_ Hh]; lia).
    unfold refresh_hit. cbn [h_prop]. rewrite Hr. fold (of_run r T). fold M.
    eexists. split; [reflexivity|]. pose proof (val_sql_sum (map h_weight M)) as Hs. rewrite <- Ht in Hs.
    destruct (h_weight h) as [w|] eqn:Ew.
    - destruct (sql_sum (map h_weight M)) as [t|] eqn:Es; cbn [val] in Hs.
      + destruct (Qeq_bool t 0) eqn:E0.
        * apply Qeq_bool_iff in E0. split; [|reflexivity]. intros; exfalso; lra.
        * cbn [val]. assert (~ (t == 0)%Q) by (intros E; apply Qeq_bool_iff in E; congruence).
          split; [|intros; exfalso; lra]. intros _. now rewrite Hs.
      + split; [|reflexivity]. intros; exfalso; lra.
    - split; [|reflexivity]. intros Hlt. exfalso. destruct Hw as [H1|H1]; [|now apply (H1 h)].
      destruct M as [|a [|b M']] eqn:EM; [easy| |cbn in H1; lia]. destruct Hh as [->|[]].
      unfold total_weight in Hlt. fold M in Hlt. rewrite EM in Hlt. cbn [map] in Hlt. rewrite Ew in Hlt.
      cbn in Hlt. lra. }
  assert (Hlen : M <> [] -> (0 < length M)%nat) by (destruct M; [congruence|cbn; lia]).
  split.
  - intros h Hh. destruct (Hp h Hh) as (p & E & H1 & H2). exists p. split; [exact E|]. split; [|auto].
    assert (Hne : M <> []) by (intros E'; now rewrite E' in Hh).
    destruct (Qlt_le_dec 0 (total_weight r T)) as [Hlt|Hle].
    + rewrite (H1 Hlt). pose proof (Hv h Hh) as H0.
      assert (Hle : (val (h_weight h) <= total_weight r T)%Q).
      { unfold total_weight. apply Qsum_nonneg_le.
        - intros y Hy. apply in_map_iff in Hy as (x & <- & Hx). now apply Hv.
        - apply in_map_iff. eauto. }
      split; [apply Qle_shift_div_l; lra|apply Qle_shift_div_r; lra].
    + rewrite (H2 ltac:(lra)). specialize (Hlen Hne).
      assert (Hi : (1 <= inject_Z (Z.of_nat (length M)))%Q) by (unfold Qle, inject_Z; cbn; lia).
      split; [apply Qle_shift_div_l; lra|apply Qle_shift_div_r; lra].
  - intros Hne. specialize (Hlen Hne).
    destruct (Qlt_le_dec 0 (total_weight r T)) as [Hlt|Hle].
    + rewrite (Qsum_ext _ (fun h => (/ total_weight r T) * val (h_weight h))%Q).
      * rewrite Qsum_scale. fold M. change (Qsum (map (fun h => val (h_weight h)) M)) with (total_weight r T).
        field. lra.
      * intros h Hh. destruct (Hp h Hh) as (p & E & H1 & _). unfold part. rewrite E. cbn [val].
        rewrite (H1 Hlt). field. lra.
    + rewrite (Qsum_ext _ (fun h => (1 / inject_Z (Z.of_nat (length M)))%Q)).
      * rewrite Qsum_const. field. now apply inject_nat_pos.
      * intros h Hh. destruct (Hp h Hh) as (p & E & _ & H2). unfold part. rewrite E. cbn [val].
        apply H2. lra.
Qed.

Lemma total_weight_refresh r T : total_weight r (refresh_hits T) = total_weight r T.
Proof. unfold total_weight. rewrite of_run_refresh, map_map. reflexivity. Qed.

Lemma shares gran s limit allow es l c run : weights_wf s ->
  NoDup (sorted_levels gran s) -> NoDup (map fst es) ->
  match_records gran s limit allow es [] = Ok (l, c) -> matched run l = true ->
  (forall h, In h (of_run run l) -> exists p, h_prop h = Some p /\ (0 <= p <= 1)%Q /\
     ((0 < total_weight run l)%Q -> (p == val (h_weight h) / total_weight run l)%Q) /\
     ((total_weight run l == 0)%Q -> (p == 1 / inject_Z (Z.of_nat (length (of_run run l))))%Q)) /\
  (parts run l == 1)%Q.
Proof.
  intros W Hl He H Hm. assert (Hm' := Hm). unfold matched in Hm. apply existsb_exists in Hm as (h & Hh & Er).
  destruct (match_has_row _ _ _ _ _ _ _ h H Hh) as (d & Hd & _ & Hlv).
  replace (h_run h) with run in Hd by lia.
  destruct (run_table _ _ _ _ _ _ _ _ H) as (g & Hg & El & _). cbv zeta in *.
  destruct (loop_row s g limit allow es (sorted_levels gran s) no_count run d Hl He Hd Hlv) as (T1 & ET & _).
  set (T := fst (fold_left _ _ _)) in *.
  destruct (run_shares T run) as [S1 S2].
  - rewrite ET. apply new_hits_weights.
  - intros h' q. rewrite ET. intros Hi. now apply (new_hits_nonneg _ _ _ _ _ h' q W Hi).
  - rewrite El. split.
    + intros h' Hh'. rewrite of_run_refresh in Hh'. apply in_map_iff in Hh' as (h0 & <- & H0).
      destruct (S1 h0 H0) as (p & Ep & Hr & H1 & H2). exists p. rewrite total_weight_refresh, of_run_refresh, map_length.
      cbn [refresh_hit h_weight]. auto.
    + unfold parts. rewrite of_run_refresh, map_map. apply S2. intros E.
      assert (Hin : In h (of_run run l)) by (apply filter_In; auto).
      rewrite El, of_run_refresh, E in Hin. destruct Hin.
Qed.

Lemma unmatched_parts run l : matched run l = false -> of_run run l = [].
Proof.
  unfold matched. intros H. apply of_run_none. intros h Hh E.
  assert (existsb (fun h => (h_run h =? run)%Z) l = true); [|congruence].
  apply existsb_exists. exists h. split; [exact Hh|lia].
Qed.

(** *** Produced mappings *)

Lemma pair_eqb_iff a b : pair_eqb a b = true <-> a = b.
Proof.
  destruct a as [[o i] lv], b as [[o' i'] lv']. unfold pair_eqb. cbn [fst snd].
  rewrite !andb_true_iff, !Z.eqb_eq, bytes_eqb_iff. split; [intros [[-> ->] ->]; reflexivity|].
  intros E. inversion E. auto.
Qed.
Lemma val_mult a b : (val (sql_mult a b) == val a * val b)%Q.
Proof. destruct a, b; cbn [sql_mult val]; lra. Qed.

Definition psum (P : pair_key -> bool) (out : list (pair_key * option Q)) : Q :=
  Qsum (map (fun x => val (snd x)) (filter (fun x => P (fst x)) out)).

Definition not00 (a b : hit) : bool := negb ((h_index a =? 0)%Z && (h_index b =? 0)%Z).

Lemma filter_andb {A} (p q : A -> bool) l : filter p (filter q l) = filter (fun x => q x && p x) l.
Proof.
  induction l as [|x l IH]; [reflexivity|]. cbn [filter].
  destruct (q x) eqn:E; cbn [filter andb]; rewrite IH; reflexivity.
Qed.
Lemma filter_flat_map {A B} (p : B -> bool) (f : A -> list B) l :
  filter p (flat_map f l) = flat_map (fun a => filter p (f a)) l.
Proof. induction l as [|x l IH]; cbn [flat_map filter]; [reflexivity|]. now rewrite filter_app, IH. Qed.
Lemma flat_map_filter {A B} (p : A -> bool) (f : A -> list B) l :
  flat_map (fun a => if p a then f a else []) l = flat_map f (filter p l).
Proof.
  induction l as [|x l IH]; cbn [flat_map filter]; [reflexivity|]. destruct (p x); cbn [flat_map]; now rewrite IH.
Qed.
Lemma map_flat_map {A B C} (g : B -> C) (f : A -> list B) l :
  map g (flat_map f l) = flat_map (fun a => map g (f a)) l.
Proof. induction l as [|x l IH]; cbn [flat_map map]; [reflexivity|]. now rewrite map_app, IH. Qed.

Lemma filter_const {A} (b : bool) (l : list A) : filter (fun _ => b) l = if b then l else [].
Proof. destruct b; induction l as [|x l IH]; cbn [filter]; congruence. Qed.

(** The pairs of one run. *)
Lemma joint_run from to r :
  filter (fun p => (h_run (fst p) =? r)%Z) (joint from to) =
  flat_map (fun a => map (pair a) (filter (not00 a) (of_run r to))) (of_run r from).
Proof.
  unfold joint. rewrite filter_flat_map. unfold of_run at 2. rewrite <- flat_map_filter.
  apply flat_map_ext. intros a. rewrite filter_map. cbn [fst].
  rewrite filter_const. destruct (h_run a =? r)%Z eqn:E; [|reflexivity].
  unfold of_run. rewrite filter_andb. f_equal. apply filter_ext. intros b. unfold not00.
  replace (h_run a) with r by lia. reflexivity.
Qed.

Lemma psum_iter P src from to :
  (psum P (iter_mappings src from to) ==
   Qsum (map (fun r => val (sr_value r) *
     Qsum (map (fun a => part a * Qsum (map part
       (filter (fun b => not00 a b && P (h_index a, h_index b, h_level b)) (of_run (sr_run r) to))))
       (of_run (sr_run r) from))) src))%Q.
Proof.
  unfold psum, iter_mappings. rewrite (filter_group_by pair_eqb pair_eqb_iff sql_sum P).
  rewrite (total_group_by pair_eqb pair_eqb_iff).
  unfold joint_rows. rewrite filter_flat_map, map_flat_map, Qsum_flat_map.
  apply Qsum_ext. intros r _. rewrite joint_run, filter_map, map_map. cbn [fst snd].
  rewrite filter_flat_map, map_flat_map, Qsum_flat_map, <- Qsum_scale.
  apply Qsum_ext. intros a _. rewrite filter_map, map_map, filter_andb. cbn [fst snd].
  rewrite <- Qsum_scale, <- Qsum_scale. apply Qsum_ext. intros b _. rewrite !val_mult. unfold part. lra.
Qed.

Lemma filter_false {A} (p : A -> bool) l : (forall x, In x l -> p x = false) -> filter p l = [].
Proof.
  induction l as [|x l IH]; intros H; cbn [filter]; [reflexivity|].
  rewrite (H x (or_introl eq_refl)). apply IH. intros y Hy. apply H. now right.
Qed.

(** Amount at one pair and level. *)
Lemma carried_level src from to a b lv :
  (psum (fun k => pair_eqb k (a, b, lv)) (iter_mappings src from to) ==
   if (a =? 0)%Z && (b =? 0)%Z then 0
   else Qsum (map (fun r => val (sr_value r) * (share_of (sr_run r) from a * share_at (sr_run r) to b lv)) src))%Q.
Proof.
  rewrite psum_iter. destruct ((a =? 0)%Z && (b =? 0)%Z) eqn:E0.
  - apply Qsum_zero. intros r _.
    assert (Z : (Qsum (map (fun a0 => part a0 * Qsum (map part (filter (fun b0 => not00 a0 b0 &&
      pair_eqb (h_index a0, h_index b0, h_level b0) (a, b, lv)) (of_run (sr_run r) to)))) (of_run (sr_run r) from)) == 0)%Q);
      [|rewrite Z; lra].
    apply Qsum_zero. intros x _. rewrite filter_false; [cbn [map]; rewrite Qsum_nil; lra|].
    intros y _. unfold not00, pair_eqb. cbn [fst snd]. lia.
  - apply Qsum_ext. intros r _.
    assert (Z : (Qsum (map (fun a0 => part a0 * Qsum (map part (filter (fun b0 => not00 a0 b0 &&
      pair_eqb (h_index a0, h_index b0, h_level b0) (a, b, lv)) (of_run (sr_run r) to)))) (of_run (sr_run r) from))
      == share_of (sr_run r) from a * share_at (sr_run r) to b lv)%Q); [|rewrite Z; reflexivity].
    unfold share_of. rewrite <- (Qsum_if (fun h => (h_index h =? a)%Z) part).
    rewrite (Qmult_comm (Qsum _)), <- Qsum_scale. apply Qsum_ext. intros x _.
    destruct (h_index x =? a)%Z eqn:Ea.
    + rewrite Qmult_comm. apply Qmult_comp; [|reflexivity]. unfold share_at.
      rewrite (filter_ext _ (fun h => (h_index h =? b)%Z && bytes_eqb (h_level h) lv)); [reflexivity|].
      intros y. unfold not00, pair_eqb. cbn [fst snd]. destruct (bytes_eqb (h_level y) lv); lia.
    + rewrite filter_false; [cbn [map]; rewrite Qsum_nil; lra|].
      intros y _. unfold pair_eqb. cbn [fst snd]. lia.
Qed.

(** Amount at one pair. *)
Lemma carried_pair src from to a b :
  (carried (iter_mappings src from to) a b ==
   if (a =? 0)%Z && (b =? 0)%Z then 0
   else Qsum (map (fun r => val (sr_value r) * (share_of (sr_run r) from a * share_of (sr_run r) to b)) src))%Q.
Proof.
  change (carried (iter_mappings src from to) a b) with
    (psum (fun k => (fst (fst k) =? a)%Z && (snd (fst k) =? b)%Z) (iter_mappings src from to)).
  rewrite psum_iter. cbn [fst snd]. destruct ((a =? 0)%Z && (b =? 0)%Z) eqn:E0.
  - apply Qsum_zero. intros r _.
    match goal with |- (_ * ?x == 0)%Q => assert (Z : (x == 0)%Q); [|rewrite Z; lra] end.
    apply Qsum_zero. intros x _. rewrite filter_false; [cbn [map]; rewrite Qsum_nil; lra|].
    intros y _. unfold not00. lia.
  - apply Qsum_ext. intros r _. apply Qmult_comp; [reflexivity|].
    unfold share_of at 1. rewrite <- (Qsum_if (fun h => (h_index h =? a)%Z) part).
    rewrite (Qmult_comm (Qsum _)), <- Qsum_scale. apply Qsum_ext. intros x _.
    destruct (h_index x =? a)%Z eqn:Ea.
    + rewrite Qmult_comm. apply Qmult_comp; [|reflexivity]. unfold share_of.
      rewrite (filter_ext _ (fun h => (h_index h =? b)%Z)); [reflexivity|].
      intros y. unfold not00. lia.
    + rewrite filter_false; [cbn [map]; rewrite Qsum_nil; lra|]. intros y _. lia.
Qed.

Lemma carried_total src from to :
  (Qsum (map (fun x => val (snd x)) (iter_mappings src from to)) ==
   Qsum (map (fun r => val (sr_value r) * (parts (sr_run r) from * parts (sr_run r) to
                       - share_of (sr_run r) from 0 * share_of (sr_run r) to 0)) src))%Q.
Proof.
  assert (E : forall out, (Qsum (map (fun x => val (snd x)) out) == psum (fun _ => true) out)%Q).
  { intros out. unfold psum. rewrite filter_const. reflexivity. }
  rewrite E, psum_iter. apply Qsum_ext. intros r _. apply Qmult_comp; [reflexivity|].
  unfold parts, share_of.
  rewrite <- (Qsum_if (fun h => (h_index h =? 0)%Z) part (of_run (sr_run r) from)).
  set (A := of_run (sr_run r) from). set (B := of_run (sr_run r) to).
  assert (G : (Qsum (map (fun a => part a * Qsum (map part (filter (fun b => not00 a b && true) B))) A) ==
    Qsum (map (fun a => Qsum (map part B) * part a) A) +
    Qsum (map (fun a => (- Qsum (map part (filter (fun h => (h_index h =? 0)%Z) B))) *
                        (if (h_index a =? 0)%Z then part a else 0)) A))%Q).
  { rewrite <- Qsum_plus. apply Qsum_ext. intros a _.
    rewrite (Qsum_filter (fun h => (h_index h =? 0)%Z) part B).
    destruct (h_index a =? 0)%Z eqn:Ea.
    - rewrite (filter_ext (fun b => not00 a b && true) (fun x => negb (h_index x =? 0)%Z)); [lra|].
      intros y. unfold not00. lia.
    - rewrite (filter_ext (fun b => not00 a b && true) (fun _ => true)).
      2:{ intros y. unfold not00. lia. }
      rewrite filter_const. rewrite (Qsum_filter (fun h => (h_index h =? 0)%Z) part B). lra. }
  rewrite G, !Qsum_scale. lra.
Qed.

Lemma iter_keys src from to : NoDup (map fst (iter_mappings src from to)).
Proof. apply nodup_group_by, pair_eqb_iff. Qed.

Lemma iter_defined src from to a b lv v : In ((a, b, lv), v) (iter_mappings src from to) ->
  ~ (a = 0%Z /\ b = 0%Z) /\
  exists r x y, In r src /\ In x from /\ In y to /\ h_run x = sr_run r /\ h_run y = sr_run r /\
                h_index x = a /\ h_index y = b /\ h_level y = lv.
Proof.
  intros H. apply (in_group_by pair_eqb pair_eqb_iff) in H as [H _].
  apply in_map_iff in H as ((k & w) & E & H). cbn [fst] in E. subst k. unfold joint_rows in H.
  apply in_flat_map in H as (r & Hr & H). rewrite joint_run in H.
  apply in_map_iff in H as ((x & y) & E & H). cbn [fst snd] in E. inversion E; subst.
  apply in_flat_map in H as (x' & Hx & H). apply in_map_iff in H as (y' & E' & H). inversion E'; subst.
  apply filter_In in H as [Hy Hn]. unfold of_run in *. apply filter_In in Hx, Hy. unfold not00 in Hn.
  split; [lia|]. exists r, x, y. intuition lia.
Qed.

Lemma filter_unique {K V} (eqb : K -> K -> bool) (Hk : forall a b, eqb a b = true <-> a = b) (l : list (K * V)) k v :
  NoDup (map fst l) -> In (k, v) l -> filter (fun x => eqb (fst x) k) l = [(k, v)].
Proof.
  induction l as [|[k' v'] l IH]; [easy|]. cbn [map filter fst]. intros Hd Hi. inversion Hd; subst.
  destruct Hi as [E|Hi].
  - inversion E; subst. assert (eqb k k = true) by now apply Hk. rewrite H. f_equal.
    apply filter_false. intros [x y] Hx. cbn [fst]. destruct (eqb x k) eqn:Ex; [|reflexivity].
    apply Hk in Ex. subst. destruct H1. change k with (fst (k, y)). now apply in_map.
  - destruct (eqb k' k) eqn:Ek; [|now apply IH]. apply Hk in Ek. subst. destruct H1.
    change k with (fst (k, v)). now apply in_map.
Qed.
Lemma level_value src from to a b lv v : In ((a, b, lv), v) (iter_mappings src from to) ->
  (val v == Qsum (map (fun r => val (sr_value r) * (share_of (sr_run r) from a * share_at (sr_run r) to b lv)) src))%Q.
Proof.
  intros H. pose proof (carried_level src from to a b lv) as E.
  destruct (iter_defined _ _ _ _ _ _ _ H) as [Hn _].
  destruct ((a =? 0)%Z && (b =? 0)%Z) eqn:E0; [exfalso; lia|]. rewrite <- E.
  unfold psum. rewrite (filter_unique pair_eqb pair_eqb_iff _ _ _ (iter_keys src from to) H).
  cbn [map snd]. rewrite Qsum_cons, Qsum_nil. lra.
Qed.
