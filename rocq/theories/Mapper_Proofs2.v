(** Proofs about matching: what each row gets, order of levels, counters. *)
From Verif Require Import Prelude QLemmas BitFlags_Model BitFlags_Proofs Selectors_Model Selectors_Proofs
  LinkRef_Model LinkRef_Proofs Db_Model Db_Spec Reader_Model Reader_Spec Reader_Proofs Mapper_Model Mapper_Spec
  Mapper_Proofs.
From Coq Require Import Permutation Lqa.
From Coq Require Import ZifyBool ZifyNat ZifyN.
Local Open Scope nat_scope.

(** *** Refreshing keeps the matches *)

Lemma filter_map_comm {A} (f : A -> A) p l : (forall x, p (f x) = p x) -> filter p (map f l) = map f (filter p l).
Proof.
  intros H. induction l as [|x l IH]; cbn [map filter]; [reflexivity|].
  rewrite H. destruct (p x); cbn [map]; now rewrite IH.
Qed.
Lemma of_run_refresh r T : of_run r (refresh_hits T) = map (refresh_hit T) (of_run r T).
Proof. unfold of_run, refresh_hits. now rewrite filter_map_comm. Qed.

Lemma taken_refresh levels lv T i : taken levels lv (refresh_hits T) i <-> taken levels lv T i.
Proof.
  unfold taken, refresh_hits. split.
  - intros (h & Hh & H1 & H2). apply in_map_iff in Hh as (h' & <- & Hh'). exists h'. auto.
  - intros (h & Hh & H1 & H2). exists (refresh_hit T h). split; [now apply in_map|auto].
Qed.

(** *** What a row gets *)

Lemma chosen_keeps s limit allow levels T T1 d : index_wf s ->
  (forall i, is_overlap (sd_level d) T1 i = true <-> taken levels (sd_level d) T i) ->
  exists refs keep, refers_to s d refs /\ keeps levels allow T d refs keep /\
    chosen s limit allow (sd_level d) T1 d =
      (if match sd_id d with None => limit <? length refs | Some _ => false end then [] else keep).
Proof.
  intros W Ho. unfold chosen. destruct (sd_id d) as [j|] eqn:Ed.
  - assert (Hr : forall i, refers s d i <-> has_index s j /\ i = j).
    { intros i. unfold refers. rewrite Ed. split; [intros [H ->]; auto|intros [H ->]; auto]. }
    destruct (index_find j s) as [r0|] eqn:F.
    + exists [j], [j]. assert (has_index s j) by (apply index_find_iff; eauto). split; [|split; [|reflexivity]].
      * split; [repeat constructor; easy|]. intros i. rewrite Hr. cbn. intuition.
      * split; [repeat constructor; easy|]. intros i. unfold by_labels. rewrite Ed. intuition discriminate.
    + exists [], []. assert (~ has_index s j).
      { rewrite <- index_find_iff. intros [r E]. congruence. }
      split; [|split; [|reflexivity]].
      * split; [constructor|]. intros i. rewrite Hr. cbn. tauto.
      * split; [constructor|]. cbn. tauto.
  - set (all := candidates s (sd_loc d)). exists all.
    assert (Hl : by_labels d) by exact Ed.
    assert (Ha : refers_to s d all) by (split; [now apply nodup_candidates|intros i; now apply in_candidates]).
    cbv zeta. exists (if (1 <? length all) && negb allow
                      then filter (fun i => negb (is_overlap (sd_level d) T1 i)) all else all).
    split; [exact Ha|]. split.
    + destruct ((1 <? length all) && negb allow) eqn:E.
      * split; [apply nodup_filter, Ha|]. intros i. rewrite filter_In, negb_true_iff.
        assert (is_overlap (sd_level d) T1 i = false <-> ~ taken levels (sd_level d) T i).
        { rewrite <- Ho. destruct (is_overlap _ _ _); intuition congruence. }
        rewrite H. destruct allow; [rewrite andb_comm in E; discriminate|]. split; [tauto|].
        intros [Hi Hn]. split; [exact Hi|]. apply Hn; auto. lia.
      * split; [apply Ha|]. intros i. split; [|tauto]. intros Hi. split; [exact Hi|].
        intros _ -> Hn. lia.
    + destruct (limit <? length all); [reflexivity|]. destruct (_ && _); reflexivity.
Qed.

Lemma run_table gran s limit allow es l0 l c : match_records gran s limit allow es l0 = Ok (l, c) ->
  exists g, get_default_weight_group s = Ok g /\
    let st := fold_left (step_row s g limit allow) (work (sorted_levels gran s) es) (l0, no_count) in
    l = refresh_hits (fst st) /\ c = snd st.
Proof.
  unfold match_records. destruct (get_default_weight_group s) as [g|]; cbn [bind]; [|discriminate].
  cbv zeta. rewrite loop_work. intros E. inversion E. exists g. auto.
Qed.

Lemma existsb_weightless s g ids :
  existsb (fun i => match weight_for s g i with None => true | Some _ => false end) ids = false <->
  forall i, In i ids -> i = 0%Z \/ weight_there s g i.
Proof.
  rewrite <- not_true_iff_false, existsb_exists. split.
  - intros H i Hi. apply weight_for_some. intros E. apply H. exists i. rewrite E. auto.
  - intros H (i & Hi & E). apply H in Hi. apply weight_for_some in Hi. destruct (weight_for s g i); congruence.
Qed.

Lemma row_matches gran s limit allow es l c run d : index_wf s ->
  NoDup (sorted_levels gran s) -> NoDup (map fst es) ->
  match_records gran s limit allow es [] = Ok (l, c) ->
  In (run, d) es -> In (sd_level d) (sorted_levels gran s) ->
  exists g refs keep,
    get_default_weight_group s = Ok g /\ refers_to s d refs /\
    keeps (sorted_levels gran s) allow l d refs keep /\
    (acceptable s g limit d refs keep -> map h_index (of_run run l) = keep) /\
    (~ acceptable s g limit d refs keep -> of_run run l = []) /\
    forall h, In h (of_run run l) -> h_level h = sd_level d /\ brings s g (h_index h) (h_weight h).
Proof.
  intros W Hl He H Hd Hlv. destruct (run_table _ _ _ _ _ _ _ _ H) as (g & Hg & El & Ec).
  cbv zeta in *. clear Ec H. set (T := fst (fold_left _ _ _)) in *.
  destruct (loop_row s g limit allow es (sorted_levels gran s) no_count run d Hl He Hd Hlv) as (T1 & ET & Ho).
  fold T in ET, Ho.
  destruct (chosen_keeps s limit allow (sorted_levels gran s) T T1 d W Ho) as (refs & keep & Hr & Hk & Hc).
  exists g, refs, keep. split; [exact Hg|]. split; [exact Hr|].
  assert (Hk' : keeps (sorted_levels gran s) allow l d refs keep).
  { destruct Hk as [K1 K2]. split; [exact K1|]. intros i. rewrite K2, El. now rewrite taken_refresh. }
  split; [exact Hk'|].
  assert (Eo : of_run run l = map (refresh_hit T) (new_hits s g (sd_level d) run
            (if match sd_id d with None => limit <? length refs | Some _ => false end then [] else keep))).
  { rewrite El, of_run_refresh, ET, Hc. reflexivity. }
  assert (Hlim : (match sd_id d with None => limit <? length refs | Some _ => false end = true) <->
                 ~ (by_labels d -> (length refs <= limit)%nat)).
  { unfold by_labels. destruct (sd_id d); split; try discriminate.
    - intros Hn. exfalso. apply Hn. discriminate.
    - intros E Hn. specialize (Hn eq_refl). lia.
    - intros Hn. destruct (limit <? length refs) eqn:E; [reflexivity|]. exfalso. apply Hn. intros _. lia. }
  split; [|split].
  - intros [A1 A2]. rewrite Eo.
    destruct (match sd_id d with None => _ | Some _ => _ end); [tauto|].
    unfold new_hits. destruct ((1 <? length keep) && _) eqn:E.
    + exfalso. apply andb_true_iff in E as [E1 E2]. specialize (A2 ltac:(lia)).
      apply existsb_weightless in A2. congruence.
    + rewrite !map_map. cbn [refresh_hit h_index]. apply map_id.
  - intros Hn. rewrite Eo.
    destruct (match sd_id d with None => _ | Some _ => _ end) eqn:El2; [reflexivity|].
    unfold new_hits. destruct ((1 <? length keep) && _) eqn:E; [reflexivity|].
    exfalso. apply Hn. split.
    + destruct (sd_id d) eqn:Ed; [unfold by_labels; congruence|]. lia.
    + intros H1. apply existsb_weightless. destruct (1 <? length keep) eqn:E1; [exact E|lia].
  - intros h Hh. rewrite Eo in Hh. unfold new_hits in Hh. destruct (_ && _); [easy|].
    rewrite map_map in Hh. apply in_map_iff in Hh as (i & <- & _). cbn [refresh_hit h_level h_index h_weight].
    split; [reflexivity|apply brings_iff].
Qed.

(** Every match belongs to a row. *)
Lemma match_has_row gran s limit allow es l c h :
  match_records gran s limit allow es [] = Ok (l, c) -> In h l ->
  exists d, In (h_run h, d) es /\ h_level h = sd_level d /\ In (sd_level d) (sorted_levels gran s).
Proof.
  intros H Hh. destruct (run_table _ _ _ _ _ _ _ _ H) as (g & _ & -> & _). cbv zeta in *.
  apply in_map_iff in Hh as (h' & <- & Hh). cbn [refresh_hit h_run h_level].
  destruct (step_from s g limit allow (work (sorted_levels gran s) es) ([], no_count)) as (T & E & HT).
  rewrite E in Hh. cbn [fst app] in Hh. destruct (HT h' Hh) as ((lv & run & d) & Hx & E1 & E2).
  cbn [fst snd] in *. apply in_work in Hx as (Hl & He & Ed). cbn [snd] in Ed. exists d. rewrite Ed.
  rewrite E1, E2. auto.
Qed.

(** *** Order of the levels *)

Lemma insert_level_perm gran x l : Permutation (x :: l) (insert_level gran x l).
Proof.
  induction l as [|y l IH]; cbn [insert_level]; [reflexivity|].
  destruct (Qle_bool _ _); [reflexivity|]. rewrite perm_swap. now constructor.
Qed.
Lemma sort_levels_perm gran l : Permutation l (sort_levels gran l).
Proof.
  induction l as [|x l IH]; cbn [sort_levels fold_right]; [reflexivity|].
  rewrite <- insert_level_perm. now constructor.
Qed.
Definition ge_gran gran (a b : list bool) : Prop := (gran_key (gran b) <= gran_key (gran a))%Q.
Lemma sort_levels_sorted gran l : StronglySorted (ge_gran gran) (sort_levels gran l).
Proof.
  induction l as [|x l IH]; cbn [sort_levels fold_right]; [constructor|]. fold (sort_levels gran l).
  induction IH as [|y m Hs IH Hf]; cbn [insert_level]; [repeat constructor|].
  destruct (Qle_bool (gran_key (gran y)) (gran_key (gran x))) eqn:E.
  - apply Qle_bool_iff in E. constructor; [now constructor|]. constructor; [exact E|].
    rewrite Forall_forall in *. intros z Hz. apply Hf in Hz. unfold ge_gran in *. lra.
  - constructor; [exact IH|]. rewrite Forall_forall in *. intros z Hz.
    apply (Permutation_in _ (Permutation_sym (insert_level_perm gran x m))) in Hz.
    destruct Hz as [<-|Hz]; [|now apply Hf]. unfold ge_gran.
    destruct (Qlt_le_dec (gran_key (gran y)) (gran_key (gran x))) as [Hlt|Hle]; [|exact Hle].
    assert (Qle_bool (gran_key (gran y)) (gran_key (gran x)) = true) by (apply Qle_bool_iff; lra). congruence.
Qed.
Lemma sorted_before {A} (R : A -> A -> Prop) l a b : StronglySorted R l -> In a l -> In b l -> ~ R b a -> a <> b -> before l a b.
Proof.
  induction 1 as [|x l Hs IH Hf]; [easy|]. rewrite Forall_forall in Hf. intros Ha Hb Hn Hne.
  destruct Ha as [->|Ha], Hb as [->|Hb].
  - congruence.
  - apply in_split in Hb as (y & z & ->). exists [], y, z. reflexivity.
  - exfalso. apply Hn. now apply Hf.
  - destruct (IH Ha Hb Hn Hne) as (u & v & w & ->). exists (x :: u), v, w. reflexivity.
Qed.
Lemma before_map {A B} (f : A -> B) l a b : before l a b -> before (map f l) (f a) (f b).
Proof.
  intros (x & y & z & ->). exists (map f x), (map f y), (map f z).
  rewrite !map_app. cbn [map]. rewrite map_app. reflexivity.
Qed.
Lemma finer_before gran s a b : In a (d_structs s) -> In b (d_structs s) ->
  (gran_key (gran b) < gran_key (gran a))%Q -> before (sorted_levels gran s) (level_of a) (level_of b).
Proof.
  intros Ha Hb Hlt. apply before_map. apply (sorted_before (ge_gran gran)).
  - apply sort_levels_sorted.
  - now apply (Permutation_in _ (sort_levels_perm gran (d_structs s))).
  - now apply (Permutation_in _ (sort_levels_perm gran (d_structs s))).
  - unfold ge_gran. lra.
  - intros ->. lra.
Qed.
Lemma in_sorted_levels gran s lv : In lv (sorted_levels gran s) <-> exists b, In b (d_structs s) /\ lv = level_of b.
Proof.
  unfold sorted_levels. rewrite in_map_iff. split.
  - intros (b & <- & Hb). exists b. split; [|reflexivity].
    now apply (Permutation_in _ (Permutation_sym (sort_levels_perm gran (d_structs s)))).
  - intros (b & Hb & ->). exists b. split; [reflexivity|].
    now apply (Permutation_in _ (sort_levels_perm gran (d_structs s))).
Qed.

(** *** Loading *)

Lemma load_rows s1 s2 data : forall acc src, fold_res (load_row s1 s2) data acc = Ok src ->
  exists new, src = acc ++ new /\
    map (fun r => (sr_1 r, sr_2 r, sr_value r)) new = data /\
    map sr_run new = map (fun n => Z.of_nat n + 1)%Z (seq (length acc) (length data)) /\
    forall r, In r new ->
      (exists b, In b (d_structs s1) /\ sd_level (sr_1 r) = level_of b) /\
      (exists b, In b (d_structs s2) /\ sd_level (sr_2 r) = level_of b) /\
      (forall q, sr_value r = Some q -> (0 <= q)%Q).
Proof.
  induction data as [|[[a b] v] data IH]; intros acc src H; cbn [fold_res] in H.
  - inversion H. exists []. rewrite app_nil_r. repeat split; easy.
  - destruct (load_row s1 s2 acc (a, b, v)) as [acc'|] eqn:E; cbn [bind] in H; [|discriminate].
    unfold load_row in E.
    destruct (existsb (bytes_eqb (sd_level a)) (map level_of (d_structs s1))) eqn:E1; cbn [negb] in E; [|discriminate].
    destruct (existsb (bytes_eqb (sd_level b)) (map level_of (d_structs s2))) eqn:E2; cbn [negb] in E; [|discriminate].
    destruct (match v with Some q => negb (Qle_bool 0 q) | None => false end) eqn:E3; [discriminate|].
    inversion E; subst acc'. destruct (IH _ _ H) as (new & -> & Hm & Hrn & Hp).
    eexists (_ :: new). split; [rewrite <- app_assoc; reflexivity|].
    cbn [map sr_1 sr_2 sr_value sr_run length seq]. split; [now rewrite Hm|]. split.
    + rewrite Hrn, app_length. cbn [length]. now rewrite Nat.add_1_r.
    + intros r [<-|Hr]; [|now apply Hp]. cbn [sr_1 sr_2 sr_value].
      assert (G : forall l x, existsb (bytes_eqb x) (map level_of l) = true -> exists b, In b l /\ x = level_of b).
      { intros l x Hx. apply existsb_exists in Hx as (y & Hy & Ey). apply bytes_eqb_iff in Ey. subst y.
        apply in_map_iff in Hy as (z & <- & Hz). eauto. }
      split; [now apply G|]. split; [now apply G|]. intros q ->. apply negb_false_iff, Qle_bool_iff in E3. exact E3.
Qed.
Lemma load_runs (src : list source) (data : list (side * side * option Q)) : map sr_run src = map (fun n => Z.of_nat n + 1)%Z (seq 0 (length data)) -> NoDup (map sr_run src).
Proof.
  intros ->. apply FinFun.Injective_map_NoDup; [|apply seq_NoDup]. intros x y H. lia.
Qed.
Lemma load_fails s1 s2 data e : load_mapper s1 s2 data = Err e ->
  exists a b v, In (a, b, v) data /\
    ((~ exists x, In x (d_structs s1) /\ sd_level a = level_of x) \/
     (~ exists x, In x (d_structs s2) /\ sd_level b = level_of x) \/
     exists q, v = Some q /\ (q < 0)%Q).
Proof.
  unfold load_mapper. generalize (@nil source) as acc. induction data as [|[[a b] v] data IH]; intros acc H;
    cbn [fold_res] in H; [discriminate|].
  destruct (load_row s1 s2 acc (a, b, v)) as [acc'|] eqn:E; cbn [bind] in H.
  - destruct (IH _ H) as (a' & b' & v' & Hi & Hx). exists a', b', v'. split; [now right|exact Hx].
  - exists a, b, v. split; [now left|]. unfold load_row in E.
    assert (G : forall l x, negb (existsb (bytes_eqb x) (map level_of l)) = true -> ~ exists b, In b l /\ x = level_of b).
    { intros l x Hx (y & Hy & ->). rewrite existsb_map, negb_true_iff in Hx.
      assert (existsb (fun z => bytes_eqb (level_of y) (level_of z)) l = true); [|congruence].
      apply existsb_exists. exists y. split; [exact Hy|]. now apply bytes_eqb_iff. }
    destruct (negb (existsb (bytes_eqb (sd_level a)) _)) eqn:E1; [left; now apply G|].
    destruct (negb (existsb (bytes_eqb (sd_level b)) _)) eqn:E2; [right; left; now apply G|].
    right. right. destruct v as [q|]; [|discriminate]. exists q. split; [reflexivity|].
    destruct (Qlt_le_dec q 0) as [Hq|Hq]; [exact Hq|]. apply Qle_bool_iff in Hq. rewrite Hq in E. discriminate.
Qed.

(** *** Complete matching *)

Lemma fully_side s l : index_wf s -> (forall h, In h l -> has_index s (h_index h)) ->
  ((cardinality s =? hit_count l) = true <-> forall i, defined s i -> exists h, In h l /\ h_index h = i).
Proof.
  intros W Hh. unfold cardinality, hit_count.
  set (ids := map ix_id (filter (fun r => negb (ix_id r =? 0)%Z) (d_index s))).
  replace (length (filter _ (d_index s))) with (length ids) by (unfold ids; now rewrite map_length).
  set (ms := distinct _ _).
  assert (Ni : NoDup ids) by (apply nodup_map_filter, (iw_unique _ W)).
  assert (Nm : NoDup ms) by (apply nodup_distinct; intros; apply Z.eqb_eq).
  assert (Ii : forall i, In i ids <-> defined s i).
  { intros i. unfold ids, defined, has_index. rewrite in_map_iff. split.
    - intros (r & <- & Hr). apply filter_In in Hr as [Hr Hn]. split; [eauto|lia].
    - intros [(r & Hr & <-) Hn]. exists r. split; [reflexivity|]. apply filter_In. split; [exact Hr|lia]. }
  assert (Im : forall i, In i ms <-> i <> 0%Z /\ exists h, In h l /\ h_index h = i).
  { intros i. unfold ms. rewrite in_distinct by (intros; apply Z.eqb_eq). rewrite filter_In, in_map_iff.
    split; [intros [(h & E & Hi) Hn]; split; [lia|eauto]|].
    intros [Hn (h & Hi & E)]. split; [eauto|lia]. }
  assert (Sub : incl ms ids).
  { intros i Hi. apply Im in Hi as [Hn (h & Hh' & <-)]. apply Ii. split; auto. }
  rewrite Nat.eqb_eq. split.
  - intros E i Hi. apply Ii in Hi. assert (incl ids ms) by (apply NoDup_length_incl; [exact Nm|lia|exact Sub]).
    apply H in Hi. apply Im in Hi. tauto.
  - intros Ha. apply Nat.le_antisymm.
    + apply NoDup_incl_length; [exact Ni|]. intros i Hi. apply Ii in Hi. apply Im. split; [apply Hi|auto].
    + now apply NoDup_incl_length.
Qed.

(** *** Default weight group *)

Lemma match_fails gran s limit allow es l e :
  match_records gran s limit allow es l = Err e <->
  (d_default s = None /\ e = RuntimeError) \/ (d_default s = Some None /\ e = TypeError) \/
  exists g, d_default s = Some (Some g) /\ (forall x, In x (d_groups s) -> g_id x <> g) /\ e = KeyError.
Proof.
  unfold match_records, get_default_weight_group. destruct (d_default s) as [[g|]|].
  - destruct (existsb (fun x => (g_id x =? g)%Z) (d_groups s)) eqn:E; cbn [bind].
    + split; [discriminate|]. intros [[H _]|[[H _]|(g' & H & Hn & _)]]; [discriminate..|]. inversion H; subst.
      apply existsb_exists in E as (x & Hx & Ex). exfalso. apply (Hn x Hx). lia.
    + split.
      * intros H. inversion H. right. right. exists g. split; [reflexivity|]. split; [|reflexivity].
        intros x Hx Ex. assert (existsb (fun x => (g_id x =? g)%Z) (d_groups s) = true); [|congruence].
        apply existsb_exists. exists x. split; [exact Hx|lia].
      * intros [[H _]|[[H _]|(g' & H & Hn & ->)]]; [discriminate..|]. reflexivity.
  - cbn [bind]. split; [intros H; inversion H; auto|]. intros [[H _]|[[_ ->]|(g' & H & _)]]; [discriminate|reflexivity|discriminate].
  - cbn [bind]. split; [intros H; inversion H; auto|]. intros [[_ ->]|[[H _]|(g' & H & _)]]; [reflexivity|discriminate..].
Qed.
