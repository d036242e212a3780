(** Proofs for C58: links, files and what loading rows does to a file. *)
From Coq Require Import NArith ZifyBool ZifyN ZifyNat Lia.
From Verif Require Import Prelude QLemmas BitFlags_Model BitFlags_Proofs Selectors_Model Selectors_Proofs LinkRef_Model LinkRef_Spec LinkRef_Proofs
  Db_Model Db_Spec Db_Proofs Db_ProofsLocal Db_ProofsRefresh Db_ProofsInv Db_ProofsInv3 Db_ProofsRun Db_ProofsOps Db_ProofsOps2
  Mapper_Model Mapper_Spec Mapper_Proofs4 Streams_Model IndexCli_Model MapCli_Model MapCli_Spec.
Local Open Scope nat_scope.

(** *** Links *)

Lemma finds_link_iff o from into : finds_link o from into = true <-> exists k, linked (o_link o) from into k.
Proof.
  unfold finds_link, linked. destruct (get_link _ _ _ _) as [k|e]; split; eauto; [discriminate|]. intros (k & ?). discriminate.
Qed.
Lemma finds_link_false o from into : finds_link o from into = false <-> unlinked (o_link o) from into.
Proof.
  unfold unlinked. rewrite <- not_true_iff_false, finds_link_iff. split; [intros H k L; apply H; eauto|intros H (k & L); exact (H k L)].
Qed.

Section Links.
Context (f : link -> link) (F : forall k, k_other (f k) = k_other k /\ k_hint (f k) = k_hint k /\ k_name (f k) = k_name k /\ k_default (f k) = k_default k).
Lemma filter_map_f (p : link -> bool) l : (forall k, p (f k) = p k) -> filter p (map f l) = map f (filter p l).
Proof. intros P. induction l as [|k l IH]; cbn; [reflexivity|]. rewrite P, IH. now destruct (p k). Qed.
Lemma find_map_f (p : link -> bool) l : (forall k, p (f k) = p k) -> find p (map f l) = match find p l with Some k => Some (f k) | None => None end.
Proof. intros P. induction l as [|k l IH]; cbn; [reflexivity|]. rewrite P, IH. now destruct (p k). Qed.
Lemma several_map l : several_sources (map f l) = several_sources l.
Proof.
  destruct l as [|k l]; [reflexivity|]. cbn. induction l as [|x l IH]; [reflexivity|]. cbn.
  rewrite IH. destruct (F x) as (-> & _). destruct (F k) as (-> & _). reflexivity.
Qed.
Lemma get_links_map ref l : get_links_by_ref ref (map f l) = match get_links_by_ref ref l with Ok m => Ok (map f m) | Err e => Err e end.
Proof.
  unfold get_links_by_ref. destruct ref as [|c ref]; [reflexivity|]. set (r := c :: ref).
  unfold find_by_other_unique_id. rewrite filter_map_f by (intros k; now destruct (F k) as (-> & _)).
  destruct (filter (fun k => text_eqb (k_other k) r) l) as [|k1 m1]; [|reflexivity]. cbn [map].
  unfold find_by_other_filename_hint, find_by_prefix.
  rewrite !filter_map_f by (intros k; destruct (F k) as (A & B & _); now rewrite ?A, ?B).
  assert (E : map f (filter (fun k => match k_hint k with Some h => text_eqb h r | None => false end) l) ++
    (if negb (endswith r ext) then map f (filter (fun k => match k_hint k with Some h => text_eqb h (r ++ ext) | None => false end) l) else []) =
    map f (filter (fun k => match k_hint k with Some h => text_eqb h r | None => false end) l ++
    (if negb (endswith r ext) then filter (fun k => match k_hint k with Some h => text_eqb h (r ++ ext) | None => false end) l else []))).
  { rewrite map_app. now destruct (negb _). }
  rewrite E. generalize (filter (fun k => match k_hint k with Some h => text_eqb h r | None => false end) l ++
    (if negb (endswith r ext) then filter (fun k => match k_hint k with Some h => text_eqb h (r ++ ext) | None => false end) l else [])).
  intros m. clear E. destruct m as [|k2 m].
  - cbn [map]. destruct (7 <=? length r); [|reflexivity]. rewrite several_map. 
    destruct (several_sources _); [reflexivity|]. destruct (filter _ l); reflexivity.
  - pose proof (several_map (k2 :: m)) as S. cbn [map] in *. rewrite S. now destruct (several_sources (k2 :: m)).
Qed.
Lemma get_link_map ref name ad l : get_link ref name ad (map f l) = match get_link ref name ad l with Ok k => Ok (f k) | Err e => Err e end.
Proof.
  unfold get_link. rewrite get_links_map. destruct (get_links_by_ref ref l) as [m|e]; cbn [bind]; [|reflexivity].
  destruct (truthy name).
  - destruct name as [n|]; [|reflexivity]. rewrite find_map_f by (intros k; now destruct (F k) as (_ & _ & -> & _)). now destruct (find _ m).
  - assert (E : find k_default (map f m) = match find k_default m with Some k => Some (f k) | None => None end).
    { apply find_map_f. intros k. apply F. }
    destruct m as [|k1 [|k2 m]]; cbn [map]; try reflexivity.
    + destruct (negb ad); reflexivity.
    + destruct (negb ad); [reflexivity|]. cbn [map] in E. rewrite E. now destruct (find k_default (k1 :: k2 :: m)).
Qed.
End Links.

Lemma get_links_in ref l m k : get_links_by_ref ref l = Ok m -> In k m -> In k l.
Proof.
  unfold get_links_by_ref. destruct ref as [|c ref]; [discriminate|]. set (r := c :: ref).
  assert (I : forall p x, In x (filter p l) -> In x l) by (intros p x Hx; apply filter_In in Hx; tauto).
  unfold find_by_other_unique_id, find_by_other_filename_hint, find_by_prefix.
  set (m0 := filter (fun k => text_eqb (k_other k) r) l).
  assert (I0 : forall x, In x m0 -> In x l) by (intros x; apply I). destruct m0 as [|k1 m1].
  - set (m2 := filter _ l ++ _). 
    assert (I2 : forall x, In x m2 -> In x l).
    { intros x Hx. unfold m2 in Hx. apply in_app_or in Hx. destruct Hx as [Hx|Hx]; [eapply I; exact Hx|]. destruct (negb _); [eapply I; exact Hx|contradiction]. }
    clearbody m2. destruct m2 as [|k2 m2].
    + destruct (7 <=? length r); [|discriminate]. destruct (several_sources _); [discriminate|]. 
      destruct (filter (fun k0 => startswith (k_other k0) r) l) eqn:E; [discriminate|]. intros H. inversion H; subst m. rewrite <- E. apply I.
    + destruct (several_sources _); [discriminate|]. intros H. inversion H; subst. auto.
  - intros H. inversion H; subst. auto.
Qed.
Lemma get_link_in ref name ad l k : get_link ref name ad l = Ok k -> In k l.
Proof.
  unfold get_link. destruct (get_links_by_ref ref l) as [m|e] eqn:E; cbn [bind]; [|discriminate]. intros H. apply (get_links_in ref l m k E). revert H.
  destruct (truthy name).
  - destruct name as [n|]; [|discriminate]. destruct (find _ m) eqn:G; [|discriminate]. intros H. inversion H; subst. now apply find_some in G.
  - destruct m as [|k1 [|k2 m]]; try discriminate.
    + cbn. destruct (negb ad); discriminate.
    + intros H. inversion H; subst. now left.
    + destruct (negb ad); [discriminate|]. destruct (find k_default (k1 :: k2 :: m)) eqn:G; [|discriminate]. intros H. inversion H; subst. now apply find_some in G.
Qed.

(** *** Loading rows *)

Lemma insert_ok l rows : forall s b s' b', (forall r, In r rows -> ~ (mr_other r = 0 /\ mr_index r = 0)%Z) ->
  fold_res (insert_mappings2_row l) rows (s, b) = Ok (s', b') ->
  s' = set_maps (d_maps s ++ map (row_map l) (filter (allowed s) rows)) s /\ b' = b || negb (nil_b (filter (allowed s) rows)).
Proof.
  induction rows as [|r rows IH]; intros s b s' b' N H.
  - cbn [fold_res filter map nil_b negb] in *. inversion H; subst. rewrite app_nil_r, orb_false_r. split; [now destruct s'|reflexivity].
  - cbn [fold_res] in H. apply bind_ok in H. destruct H as ((s1 & b1) & H1 & H). unfold insert_mappings2_row in H1. cbn [fst] in H1. fold (allowed s r) in H1.
    cbn [filter]. destruct (allowed s r) eqn:Ea; cbn [negb] in H1.
    + destruct ((mr_other r =? 0)%Z && (mr_index r =? 0)%Z) eqn:E0; [exfalso; apply (N r); [now left|lia]|].
      apply bind_ok in H1. destruct H1 as (s2 & H1 & E). inversion E; subst s1 b1. clear E.
      unfold map_add in H1. rewrite E0 in H1. destruct (mr_level r) as [lv|] eqn:El; [|discriminate]. cbv zeta in H1.
      destruct (negb (map_ok _)); [discriminate|]. destruct (existsb (same_map _) _); [discriminate|]. destruct (d_fk s && _); [discriminate|].
      inversion H1; subst s2. clear H1. apply IH in H; [|intros x Hx; apply N; now right]. destruct H as [-> ->].
      cbn [set_maps d_maps map nil_b negb]. rewrite <- app_assoc. cbn [app]. rewrite orb_true_r. cbn [orb]. split; [|reflexivity].
      unfold row_map at 2. rewrite El. reflexivity.
    + inversion H1; subst s1 b1. apply IH in H; [|intros x Hx; apply N; now right]. exact H.
Qed.

Lemma with_status_same l h c k : let f := fun x => if (k_id x =? l)%Z then with_status h c x else x in
  k_other (f k) = k_other k /\ k_hint (f k) = k_hint k /\ k_name (f k) = k_name k /\ k_default (f k) = k_default k.
Proof. cbn. destruct (k_id k =? l)%Z; cbn; auto. Qed.

(** What a successful load adds; that the link is found afterwards; what its flag tells. *)
Lemma load_effect ref name out s s' : insert_mappings2 ref name (to_rows out) s = Ok s' ->
  (forall o i lv q, In ((o, i, lv), Some q) out -> ~ (o = 0 /\ i = 0)%Z) ->
  exists k k', get_link ref name true (d_links s) = Ok k /\ get_link ref name true (d_links s') = Ok k' /\ k_id k' = k_id k /\
    (forall l o i lv q, valued s' l o i lv q <-> valued s l o i lv q \/ l = k_id k /\ In ((o, i, lv), Some q) out /\ level_there s lv) /\
    (k' = k /\ s' = s \/ ((k_complete k' = true <-> link_complete s' (k_id k)) /\ exists o i lv q, In ((o, i, lv), Some q) out /\ level_there s lv)) /\
    d_index s' = d_index s /\ d_labels s' = d_labels s /\ d_structs s' = d_structs s /\
    d_groups s' = d_groups s /\ d_weights s' = d_weights s /\ d_fk s' = d_fk s.
Proof.
  intros H N. unfold insert_mappings2 in H. apply bind_ok in H. destruct H as (k & Hl & H). apply bind_ok in H. destruct H as ((s1 & b) & H1 & H). cbn [fst snd] in H.
  assert (N' : forall r, In r (to_rows out) -> ~ (mr_other r = 0 /\ mr_index r = 0)%Z).
  { intros r Hr. apply rows_of_out in Hr as (o & i & lv & q & Hx & ->). cbn. eapply N; exact Hx. }
  apply insert_ok in H1; [|exact N']. destruct H1 as [-> ->]. cbn [orb] in H.
  set (rs := filter (allowed s) (to_rows out)) in *.
  set (s1 := set_maps (d_maps s ++ map (row_map (k_id k)) rs) s) in *.
  assert (Hrs : forall o i lv q, In ((o, i, lv), Some q) out /\ level_there s lv <->
    In {| mr_other := o; mr_index := i; mr_level := Some lv; Db_Model.mr_value := q; mr_labels := [] |} rs).
  { intros o i lv q. unfold rs, level_there. rewrite filter_In, rows_of_out. unfold allowed. cbn [mr_level].
    rewrite existsb_exists. split.
    - intros [Hi (b & Hb & Ht & ->)]. split; [eauto 10|]. exists b. split; [exact Hb|].
      apply andb_true_iff. split; [apply existsb_exists; eauto|now apply bytes_eqb_iff].
    - intros [(o' & i' & lv' & q' & Hi & E) (b & Hb & Ht)]. inversion E; subst. split; [exact Hi|].
      apply andb_true_iff in Ht as [Ht Hb2]. apply existsb_exists in Ht as (x & Hx & ->).
      apply bytes_eqb_iff in Hb2. exists b. auto. }
  assert (G1 : forall l o i lv q, valued s1 l o i lv q <-> valued s l o i lv q \/ l = k_id k /\ In ((o, i, lv), Some q) out /\ level_there s lv).
  { intros l o i lv q. rewrite Hrs. unfold valued, s1. cbn [set_maps d_maps]. split.
    - intros (m & Hm & E1 & E2 & E3 & E4 & E5). apply in_app_or in Hm as [Hm|Hm]; [left; exists m; auto 10|right].
      apply in_map_iff in Hm as (r & <- & Hr). assert (Hr' := Hr). unfold rs in Hr'. apply filter_In in Hr' as [Hr' _].
      apply rows_of_out in Hr' as (o' & i' & lv' & q' & _ & ->). cbn in *. subst. auto.
    - intros [(m & Hm & Q)|[-> Hr]].
      + exists m. split; [apply in_or_app; now left|exact Q].
      + eexists. split; [apply in_or_app; right; apply in_map; exact Hr|]. cbn. auto. }
  destruct (negb (nil_b rs)) eqn:En.
  - unfold refresh_link in H. rewrite refreshes_of_link in H. apply bind_ok in H. destruct H as (a & Hr & H). apply Ok_inj in H.
    destruct (refreshes_spec _ _ _ Hr) as ((R1 & R2) & _).
    assert (E : forall l o i lv q, valued s' l o i lv q <-> valued s1 l o i lv q).
    { intros l o i lv q. rewrite (valued_of_noprop s1 s' (fun _ => true)).
      - unfold valued. split; intros (m & Hm & Q); exists m; tauto.
      - rewrite Mapper_Proofs3.filter_const. subst s'. exact R2. }
    set (h := Some (distinct_others (k_id k) s1)) in *. set (c := mapping_is_complete (k_id k) a) in *.
    assert (El : d_links s' = map (fun x => if (k_id x =? k_id k)%Z then with_status h c x else x) (d_links s)).
    { subst s'. clearbody c h. rewrite R1. reflexivity. }
    exists k, (with_status h c k). split; [exact Hl|]. split.
    { rewrite El. rewrite (get_link_map (fun x => if (k_id x =? k_id k)%Z then with_status h c x else x) (with_status_same (k_id k) h c)), Hl.
      now rewrite Z.eqb_refl. }
    split; [reflexivity|]. split; [intros l o i lv q; rewrite E; apply G1|]. split.
    { right. split.
      - cbn [with_status k_complete]. unfold c. rewrite link_complete_iff. unfold link_complete, defined, has_index. 
        subst s'. cbn. reflexivity.
      - destruct rs as [|r rs'] eqn:Ers; [discriminate|]. assert (Hr0 : In r rs) by (rewrite Ers; now left). unfold rs in Hr0. apply filter_In in Hr0 as [Hr0 _].
        apply rows_of_out in Hr0 as (o & i & lv & q & _ & ->). exists o, i, lv, q. apply Hrs. now left. }
    subst s'. clearbody c h. rewrite R1. repeat split.
  - inversion H; subst s'. assert (Ers : rs = []) by (destruct rs; [reflexivity|discriminate]).
    assert (Es : s1 = s) by (unfold s1; rewrite Ers; cbn [map]; rewrite app_nil_r; now destruct s).
    exists k, k. split; [exact Hl|]. split; [rewrite Es; exact Hl|]. split; [reflexivity|]. split; [exact G1|]. split; [left; auto|]. repeat split.
Qed.
