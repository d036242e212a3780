(** Locations without a match, and writing quantities out and reading them in. *)
From Verif Require Import Prelude QLemmas BitFlags_Model BitFlags_Spec BitFlags_Proofs Selectors_Model Selectors_Proofs
  LinkRef_Model LinkRef_Proofs Db_Model Db_Spec Db_Proofs Db_ProofsLocal Db_ProofsInv Db_ProofsRun Reader_Model Reader_Spec Reader_Proofs
  Mapper_Model Mapper_Spec Mapper_Proofs Quantity_Model Quantity_Spec Quantity_Proofs Quantity_Proofs2 Quantity_Proofs3.
From Coq Require Import Permutation Lqa.
From Coq Require Import ZifyBool ZifyNat ZifyN.
Local Open Scope nat_scope.

Lemma some_id_iff s labs : index_wf (s_db s) -> some_id labs s = true <-> exists i, matches s labs i /\ i <> 0%Z.
Proof.
  intros W. unfold some_id. rewrite existsb_exists. split; intros (i & H & E); exists i.
  - apply in_candidates_iff in H; auto. split; auto. lia.
  - split; [now apply in_candidates_iff|]. lia.
Qed.
Lemma some_id_false s l : index_wf (s_db s) -> some_id (l_labels l) s = false <-> no_record s l.
Proof.
  intros W. rewrite <- not_true_iff_false, some_id_iff by auto. unfold no_record. split.
  - intros H i Hm. destruct (Z.eq_dec i 0); auto. exfalso. eauto.
  - intros H (i & Hm & Hi). apply Hi, H, Hm.
Qed.
Lemma in_structure_false s labs : in_structure labs s = false <-> ~ structured s labs.
Proof. rewrite <- in_structure_iff. now destruct (in_structure labs s). Qed.

Lemma nonmatching_b s l : index_wf (s_db s) ->
  (if negb (in_structure (l_labels l) s) then true else negb (some_id (l_labels l) s)) = true <-> nonmatching s l.
Proof.
  intros W. unfold nonmatching. fold (no_record s l). rewrite <- some_id_false, <- in_structure_false by auto.
  destruct (in_structure _ _), (some_id _ _); cbn; intuition congruence.
Qed.
Lemma in_nonmatching s l : index_wf (s_db s) -> In l (nonmatching_locations s) <-> In l (s_locs s) /\ nonmatching s l.
Proof. intros W. unfold nonmatching_locations. rewrite filter_In, nonmatching_b by auto. reflexivity. Qed.
Lemma in_without_index s l : index_wf (s_db s) -> In l (locations_without_index s) <-> In l (s_locs s) /\ no_record s l.
Proof. intros W. unfold locations_without_index. rewrite filter_In, negb_true_iff, some_id_false by auto. reflexivity. Qed.

(** *** Counts *)

Lemma count_fold st ix : forall (ls : list location) c,
  let r := fold_left (fun c l => if st l && ix l then {| nm_both := S (nm_both c); nm_structure := nm_structure c; nm_index := nm_index c |}
      else if st l then {| nm_both := nm_both c; nm_structure := S (nm_structure c); nm_index := nm_index c |}
      else if ix l then {| nm_both := nm_both c; nm_structure := nm_structure c; nm_index := S (nm_index c) |}
      else c) ls c in
  nm_both r = nm_both c + length (filter (fun l => st l && ix l) ls) /\
  nm_structure r = nm_structure c + length (filter (fun l => st l && negb (ix l)) ls) /\
  nm_index r = nm_index c + length (filter (fun l => negb (st l) && ix l) ls).
Proof.
  induction ls as [|l ls IH]; intros c; cbn [fold_left filter]; [cbn [length]; lia|].
  match goal with |- context [fold_left _ ls ?c'] => specialize (IH c') end. cbv zeta in *. destruct IH as (I1 & I2 & I3).
  rewrite I1, I2, I3. destruct (st l), (ix l); cbn [andb negb nm_both nm_structure nm_index length]; lia.
Qed.

Lemma counts_spec s : index_wf (s_db s) ->
  count_is s (fun l => ~ structured s (l_labels l) /\ no_record s l) (nm_both (count_nonmatching s)) /\
  count_is s (fun l => ~ structured s (l_labels l) /\ ~ no_record s l) (nm_structure (count_nonmatching s)) /\
  count_is s (fun l => structured s (l_labels l) /\ no_record s l) (nm_index (count_nonmatching s)) /\
  nm_both (count_nonmatching s) + nm_structure (count_nonmatching s) + nm_index (count_nonmatching s) = length (nonmatching_locations s).
Proof.
  intros W. unfold count_nonmatching.
  destruct (count_fold (fun l => negb (in_structure (l_labels l) s)) (fun l => negb (some_id (l_labels l) s)) (s_locs s)
    {| nm_both := 0; nm_structure := 0; nm_index := 0 |}) as (C1 & C2 & C3). cbn [nm_both nm_structure nm_index plus] in C1, C2, C3.
  assert (S1 : forall l, negb (in_structure (l_labels l) s) = true <-> ~ structured s (l_labels l)) by (intros; rewrite negb_true_iff; apply in_structure_false).
  assert (S2 : forall l, negb (some_id (l_labels l) s) = true <-> no_record s l) by (intros; rewrite negb_true_iff; now apply some_id_false).
  split; [|split; [|split]].
  - eexists. split; [|exact C1]. intros l _. cbn beta. now rewrite andb_true_iff, S1, S2.
  - eexists. split; [|exact C2]. intros l _. cbn beta. rewrite andb_true_iff, S1, <- S2. destruct (negb (some_id _ _)); cbn; intuition congruence.
  - eexists. split; [|exact C3]. intros l _. cbn beta. rewrite andb_true_iff, <- in_structure_iff, S2, negb_involutive. reflexivity.
  - rewrite C1, C2, C3. unfold nonmatching_locations. clear. induction (s_locs s) as [|l ls IH]; cbn [filter length]; auto.
    destruct (in_structure (l_labels l) s), (some_id (l_labels l) s); cbn [negb andb length]; lia.
Qed.

(** *** Listing *)

Lemma nodup_map_NoDup {A B} (f : A -> B) l : NoDup (map f l) -> NoDup l.
Proof. apply NoDup_map_inv. Qed.

Lemma select_at_ok cols s sel : store_wf s -> store_ref s ->
  exists outs, select_at cols (filter sel (s_locs s)) s = Ok outs /\ lists s cols (fun l => sel l = true) outs.
Proof.
  intros W R. set (pairs := flat_map (fun l => map (fun x => (l, x)) (filter (fun x => (qt_loc x =? l_id l)%Z) (s_quants s))) (filter sel (s_locs s))).
  assert (HP : forall l x, In (l, x) pairs <-> In l (s_locs s) /\ sel l = true /\ In x (s_quants s) /\ qt_loc x = l_id l).
  { intros l x. unfold pairs. rewrite in_flat_map. split.
    - intros (l' & Hl & Hx). apply in_map_iff in Hx. destruct Hx as (x' & E & Hx). inversion E; subst. apply filter_In in Hl, Hx. destruct Hl, Hx. repeat split; auto. now apply Z.eqb_eq.
    - intros (H1 & H2 & H3 & H4). exists l. split; [now apply filter_In|]. apply in_map_iff. exists x. split; auto. apply filter_In. split; auto. now apply Z.eqb_eq. }
  assert (HT : exists outs, select_at cols (filter sel (s_locs s)) s = Ok outs /\ Forall2 (describes s cols) (map snd pairs) outs).
  { unfold select_at. fold pairs.
    assert (Hin : forall p, In p pairs -> exists o, (do a <- attrs_get (qt_attr (snd p)) s;
                      Ok {| qo_domain := domain_cells s; qo_labels := l_labels (fst p);
                            qo_attrs := map (fun k => dict_get k a) cols; qo_value := qt_value (snd p) |}) = Ok o /\ describes s cols (snd p) o).
    { intros [l x] Hp. apply HP in Hp. destruct Hp as (Hl & _ & Hx & E). cbn [fst snd]. destruct (sr_group s R x Hx) as (g & Hg & Eg).
      unfold attrs_get. destruct (find (fun g => (ag_id g =? qt_attr x)%Z) (s_attrs s)) as [g'|] eqn:Ef.
      - apply find_some in Ef. destruct Ef as [Hg' Eg']. apply Z.eqb_eq in Eg'. cbn [bind]. eexists. split; [reflexivity|]. exists l, g'. cbn. repeat split; auto.
        unfold domain_cells. now destruct (s_domain s).
      - pose proof (find_none _ _ Ef g Hg) as N. cbn in N. lia. }
    clear HP. induction pairs as [|p pairs IH]; cbn [traverse map].
    - exists []. split; auto.
    - destruct (Hin p (or_introl eq_refl)) as (o & E & Hd). rewrite E. cbn [bind]. destruct IH as (outs & E2 & F); [intros; apply Hin; now right|].
      rewrite E2. cbn [bind]. exists (o :: outs). split; auto. }
  destruct HT as (outs & E & F). exists outs. split; auto. exists (map snd pairs). split; [|split; auto].
  - unfold pairs. clear - W. assert (N1 : NoDup (filter sel (s_locs s))) by (apply NoDup_filter; eapply NoDup_map_inv; apply (sw_loc_ids s W)).
    assert (N2 : NoDup (s_quants s)) by (eapply NoDup_map_inv; apply (sw_quant_ids s W)).
    assert (Hsub : forall l, In l (filter sel (s_locs s)) -> In l (s_locs s)) by (intros l Hl; apply filter_In in Hl; tauto).
    induction N1 as [|l ls Hl N1 IH]; cbn [flat_map map]; [constructor|]. rewrite map_app, map_map. cbn [snd]. rewrite map_id. apply nodup_app.
    + apply NoDup_filter, N2.
    + apply IH. intros l' H'. apply Hsub. now right.
    + intros x Hx Hy. apply filter_In in Hx. destruct Hx as [Hx E]. apply Z.eqb_eq in E. apply in_map_iff in Hy. destruct Hy as ([l' x'] & E2 & Hy).
      cbn in E2. subst x'. apply in_flat_map in Hy. destruct Hy as (l2 & Hl2 & Hy). apply in_map_iff in Hy. destruct Hy as (x2 & E3 & Hy). inversion E3; subst.
      apply filter_In in Hy. destruct Hy as [_ E4]. apply Z.eqb_eq in E4.
      assert (l = l'); [|subst; contradiction]. apply (nodup_map_inj l_id (s_locs s)); [apply (sw_loc_ids s W)| | |congruence]; apply Hsub; [now left|now right].
  - intros x. rewrite in_map_iff. split.
    + intros ([l x'] & E2 & Hp). cbn in E2. subst x'. apply HP in Hp. destruct Hp as (H1 & H2 & H3 & H4). split; auto. exists l. auto.
    + intros (Hx & l & Hl & E2 & Hs). exists (l, x). split; auto. apply HP. auto.
Qed.

Lemma lists_ext s cols P P' outs : (forall l, In l (s_locs s) -> (P l <-> P' l)) -> lists s cols P outs -> lists s cols P' outs.
Proof.
  intros H (xs & N & Hin & F). exists xs. split; auto. split; auto. intros x. rewrite Hin. split; intros (Hx & l & Hl & E & Hp); (split; auto; exists l; repeat split; auto; now apply H).
Qed.

Lemma select2_lists s : store_wf s -> store_ref s -> s_registered s <> [] ->
  exists outs, select_quantities2 s = Ok outs /\ lists s (s_registered s) (fun _ => True) outs.
Proof.
  intros W R Hr. unfold select_quantities2. apply nil_b_false in Hr. rewrite Hr.
  destruct (select_at_ok (s_registered s) s (fun _ => true) W R) as (outs & E & L). rewrite filter_true in E. exists outs. split; auto.
  eapply lists_ext; [|exact L]. intuition.
Qed.
Lemma select1_lists s : store_wf s -> store_ref s ->
  exists outs, select_quantities s = Ok outs /\ lists s (all_names s) (fun _ => True) outs.
Proof.
  intros W R. unfold select_quantities.
  destruct (select_at_ok (all_names s) s (fun _ => true) W R) as (outs & E & L). rewrite filter_true in E. exists outs. split; auto.
  eapply lists_ext; [|exact L]. intuition.
Qed.
Lemma unmatched_lists s : index_wf (s_db s) -> store_wf s -> store_ref s ->
  exists outs, select_unmatched s = Ok outs /\ lists s (all_names s) (nonmatching s) outs.
Proof.
  intros WI W R. unfold select_unmatched, nonmatching_locations.
  destruct (select_at_ok (all_names s) s (fun l => if negb (in_structure (l_labels l) s) then true else negb (some_id (l_labels l) s)) W R) as (outs & E & L).
  exists outs. split; auto. eapply lists_ext; [|exact L]. intros l _. now apply nonmatching_b.
Qed.
Lemma without_index_lists s : index_wf (s_db s) -> store_wf s -> store_ref s ->
  exists outs, select_without_index s = Ok outs /\ lists s (all_names s) (no_record s) outs.
Proof.
  intros WI W R. unfold select_without_index, locations_without_index.
  destruct (select_at_ok (all_names s) s (fun l => negb (some_id (l_labels l) s)) W R) as (outs & E & L).
  exists outs. split; auto. eapply lists_ext; [|exact L]. intros l _. cbn beta. rewrite negb_true_iff. now apply some_id_false.
Qed.
Lemma all_names_in s k : In k (all_names s) <-> exists g v, In g (s_attrs s) /\ In (k, v) (ag_attrs g).
Proof.
  unfold all_names. rewrite (proj2 (sorted_set_spec _)). rewrite in_flat_map. split.
  - intros (g & Hg & H). apply in_map_iff in H. destruct H as ([k' v] & E & H). cbn in E. subst. eauto.
  - intros (g & v & Hg & H). exists g. split; auto. apply in_map_iff. exists (k, v). auto.
Qed.

(** *** Deleting *)

Lemma deleted_unmatched s : index_wf (s_db s) -> store_wf s -> d_fk (s_db s) = true ->
  removed s (delete_unmatched s) (nonmatching s) /\
  (forall l, In l (s_locs (delete_unmatched s)) <-> In l (s_locs s) /\ ~ nonmatching s l).
Proof.
  intros WI W F. rewrite delete_unmatched_eq. cbv zeta. rewrite F. set (dead := map l_id (nonmatching_locations s)).
  assert (Hdead : forall i, In i dead <-> exists l, In l (s_locs s) /\ l_id l = i /\ nonmatching s l).
  { intros i. unfold dead. rewrite in_map_iff. split; intros (l & H); exists l; rewrite in_nonmatching in *; tauto. }
  split.
  - constructor; cbn [set_tables s_locs s_attrs s_quants].
    + eexists. split; [reflexivity|]. intros x Hx. cbn beta. rewrite negb_true_iff, zin_false, Hdead. reflexivity.
    + eexists. split; [reflexivity|]. intros g Hg. unfold used_group. rewrite existsb_exists. split; intros (x & Hx & E); exists x; split; auto; now apply Z.eqb_eq.
    + unfold same_rest. cbn. auto.
  - intros l. cbn [set_tables s_locs]. rewrite filter_In, negb_true_iff, zin_false, Hdead. split; intros [Hl H]; split; auto.
    + intros Hn. apply H. exists l. auto.
    + intros (l' & Hl' & E & Hn). apply H. assert (l' = l) by (apply (nodup_map_inj l_id (s_locs s)); auto; apply (sw_loc_ids s W)). now subst.
Qed.

Lemma deleted_without_index s : index_wf (s_db s) -> store_wf s ->
  removed s (delete_without_index s) (no_record s) /\
  (forall l, In l (s_locs (delete_without_index s)) <->
     In l (s_locs s) /\ exists x, In x (s_quants (delete_without_index s)) /\ qt_loc x = l_id l).
Proof.
  intros WI W. rewrite delete_without_index_eq. cbv zeta. set (dead := map qt_id _).
  assert (Hdead : forall x, In x (s_quants s) -> (In (qt_id x) dead <-> exists l, In l (s_locs s) /\ l_id l = qt_loc x /\ no_record s l)).
  { intros x Hx. unfold dead. rewrite in_map_iff. split.
    - intros (y & E & Hy). apply in_flat_map in Hy. destruct Hy as (l & Hl & Hy). apply filter_In in Hy. destruct Hy as [Hy Ey]. apply Z.eqb_eq in Ey.
      assert (y = x) by (apply (nodup_map_inj qt_id (s_quants s)); auto; apply (sw_quant_ids s W)). subst y.
      apply in_without_index in Hl; auto. exists l. intuition.
    - intros (l & Hl & E & Hn). exists x. split; auto. apply in_flat_map. exists l. split; [apply in_without_index; auto|]. apply filter_In. split; auto. apply Z.eqb_eq. auto. }
  split.
  - constructor; cbn [set_tables s_locs s_attrs s_quants].
    + eexists. split; [reflexivity|]. intros x Hx. cbn beta. rewrite negb_true_iff, zin_false, Hdead by auto. reflexivity.
    + eexists. split; [reflexivity|]. intros g Hg. unfold used_group. rewrite existsb_exists. split; intros (x & Hx & E); exists x; split; auto; now apply Z.eqb_eq.
    + unfold same_rest. cbn. auto.
  - intros l. cbn [set_tables s_locs s_quants]. rewrite filter_In. unfold used_location. rewrite existsb_exists.
    split; intros (Hl & x & Hx & E); (split; [auto|]; exists x; split; auto; now apply Z.eqb_eq).
Qed.

(** *** Export and import *)

Lemma cell_combine k cols a : cell k (combine cols (map (fun k => dict_get k a) cols)) = if existsb (text_eqb k) cols then dict_get k a else None.
Proof.
  induction cols as [|c cols IH]; cbn [map combine cell existsb]; auto. destruct (text_eqb k c) eqn:E; cbn [orb]; auto.
  apply text_eqb_iff in E. now subst.
Qed.

Lemma described_row s x o : store_wf s -> all_registered s -> describes s (s_registered s) x o ->
  exists l g, In l (s_locs s) /\ l_id l = qt_loc x /\ In g (s_attrs s) /\ ag_id g = qt_attr x /\
    qr_labels (as_row (s_registered s) o) = l_labels l /\ qr_value (as_row (s_registered s) o) = Some (qt_value x) /\
    (forall d, qr_domain (as_row (s_registered s) o) = Some d -> d = s_domain s) /\
    forall k v, names_value (s_registered s) (qr_cells (as_row (s_registered s) o)) k v <-> In (k, v) (ag_attrs g).
Proof.
  intros W HR (l & g & H1 & H2 & H3 & H4 & H5 & H6 & H7 & H8). exists l, g. repeat split; auto.
  - cbn. congruence.
  - cbn [as_row qr_domain]. rewrite H5. intros d E. destruct (s_domain s); [discriminate|]. congruence.
  - intros (Hk & Hv & Hc). cbn [as_row qr_cells] in Hc. rewrite H7, cell_combine in Hc. destruct (existsb _ _); [|discriminate]. apply dict_get_in; auto. apply (sw_dicts s W g H3).
  - now apply (HR g k v).
  - now destruct (proj2 (proj2 (sw_dicts s W g H3)) _ _ H).
  - cbn [as_row qr_cells]. rewrite H7, cell_combine. assert (existsb (text_eqb k) (s_registered s) = true) as ->.
    { apply existsb_exists. exists k. split; [now apply (HR g k v)|now apply text_eqb_iff]. }
    apply dict_get_in; auto. apply (sw_dicts s W g H3).
Qed.

Lemma Forall2_one {A B} (R : A -> B -> Prop) (p : B -> bool) xs ys : Forall2 R xs ys -> NoDup xs ->
  (forall x1 y1 x2 y2, In x1 xs -> In x2 xs -> R x1 y1 -> R x2 y2 -> p y1 = true -> p y2 = true -> x1 = x2) -> length (filter p ys) <= 1.
Proof.
  intros F. induction F as [|x y xs ys Hr F IH]; intros N H; [cbn; lia|]. inversion N; subst. cbn [filter]. destruct (p y) eqn:E.
  - assert (filter p ys = []) as ->; [|cbn; lia]. destruct (filter p ys) as [|z zs] eqn:Ez; auto. exfalso.
    assert (Hz : In z (filter p ys)) by (rewrite Ez; now left). apply filter_In in Hz. destruct Hz as [Hz Epz].
    destruct (Forall2_in_r _ _ _ _ F Hz) as (x2 & Hx2 & R2). assert (x = x2) by (eapply (H x y x2 z); eauto; [now left|now right]). now subst.
  - apply IH; auto. intros x1 y1 x2 y2 I1 I2. apply H; now right.
Qed.

Lemma filter_map_swap {A B} (f : A -> B) (p : B -> bool) l : filter p (map f l) = map f (filter (fun x => p (f x)) l).
Proof. induction l as [|a l IH]; cbn; auto. destruct (p (f a)); cbn; now rewrite IH. Qed.

Theorem export_import s t outs pol : store_wf s -> all_registered s ->
  lists s (s_registered s) (fun _ => True) outs ->
  index_wf (s_db t) -> store_wf t -> s_quants t = [] -> s_registered t = s_registered s -> s_registered s <> [] -> s_domain t = s_domain s ->
  length (d_labels (s_db t)) = length (d_labels (s_db s)) -> d_labels (s_db s) <> [] ->
  exists t' ev, insert_quantities2 pol true true (map (as_row (s_registered s)) outs) t = Ok (t', ev) /\
    forall labels a, dict a ->
      (forall q, stored s labels a q -> exists q', stored t' labels a q' /\ (q' == q)%Q) /\
      (forall q, stored t' labels a q -> exists q', stored s labels a q' /\ (q == q')%Q).
Proof.
  intros W HR (xs & N & Hin & F) WI Wt Q0 Ereg Hreg Edom Elen Hne. set (rows := map (as_row (s_registered s)) outs).
  assert (Rt : store_ref t) by (constructor; rewrite Q0; easy).
  assert (Hrow : forall r, In r rows -> exists x l g, In x (s_quants s) /\ In l (s_locs s) /\ l_id l = qt_loc x /\ In g (s_attrs s) /\ ag_id g = qt_attr x /\
    qr_labels r = l_labels l /\ qr_value r = Some (qt_value x) /\ (forall d, qr_domain r = Some d -> d = s_domain s) /\
    forall k v, names_value (s_registered s) (qr_cells r) k v <-> In (k, v) (ag_attrs g)).
  { intros r Hr. apply in_map_iff in Hr. destruct Hr as (o & <- & Ho). destruct (Forall2_in_r _ _ _ _ F Ho) as (x & Hx & D).
    destruct (described_row s x o W HR D) as (l & g & K). exists x, l, g. split; [now apply Hin|]. exact K. }
  assert (Hfits : fits t rows).
  { intros r Hr. destruct (Hrow r Hr) as (x & l & g & _ & Hl & _ & _ & _ & E & _). rewrite E, Elen. now apply (sw_arity s W). }
  assert (Hnum : numeric t rows).
  { intros r Hr _. destruct (Hrow r Hr) as (x & l & g & _ & _ & _ & _ & _ & _ & E & _). congruence. }
  assert (Hkey : forall labels a x o, dict a -> describes s (s_registered s) x o ->
    hits (taken2 (s_registered s)) (fun r => attr_dict (s_registered s) (qr_cells r)) labels a (as_row (s_registered s) o) = true ->
    exists l g, In l (s_locs s) /\ l_id l = qt_loc x /\ l_labels l = labels /\ In g (s_attrs s) /\ ag_id g = qt_attr x /\ same_attrs (ag_attrs g) a).
  { intros labels a x o Hd D Hh. apply hits2_iff in Hh; auto. destruct Hh as (E & _ & _ & Ha).
    destruct (described_row s x o W HR D) as (l & g & K1 & K2 & K3 & K4 & K5 & K6 & K7 & K8). exists l, g. repeat split; auto; [congruence|].
    apply dict_ext; auto; [apply (sw_dicts s W g K3)|]. intros k v. rewrite <- K8. symmetry. apply Ha. }
  assert (Hone : forall labels a, dict a -> length (filter (hits (taken2 (s_registered s)) (fun r => attr_dict (s_registered s) (qr_cells r)) labels a) rows) <= 1).
  { intros labels a Hd. unfold rows. rewrite filter_map_swap, map_length. apply (Forall2_one _ _ _ _ F N).
    intros x1 y1 x2 y2 I1 I2 D1 D2 P1 P2. destruct (Hkey labels a x1 y1 Hd D1 P1) as (l1 & g1 & A1 & A2 & A3 & A4 & A5 & A6).
    destruct (Hkey labels a x2 y2 Hd D2 P2) as (l2 & g2 & B1 & B2 & B3 & B4 & B5 & B6).
    assert (l1 = l2) by (apply (sw_locs s W); auto; congruence). assert (g1 = g2) by (apply (sw_groups s W); auto; eapply same_attrs_trans; [exact A6|apply same_attrs_sym, B6]).
    subst. apply (nodup_map_inj (fun x => (qt_loc x, qt_attr x)) (s_quants s)); [apply (sw_one s W)|now apply Hin|now apply Hin|congruence]. }
  assert (Hok : exists t' ev, insert_quantities2 pol true true rows t = Ok (t', ev)).
  { apply insert2_accepts; auto. rewrite Ereg. split; auto. split.
    - intros r Hr. destruct (Hrow r Hr) as (x & l & g & K0 & K1 & K2 & K3 & K4 & K5 & K6 & K7 & K8). split; [split|].
      + rewrite Edom. exact K7.
      + intros _. split; discriminate.
      + intros _. split.
        * rewrite K5. intros E. pose proof (sw_arity s W l K1) as L. rewrite E in L. destruct (d_labels (s_db s)); [easy|discriminate].
        * rewrite Ereg. intros (v & Hv). apply K8 in Hv. now destruct (proj2 (proj2 (sw_dicts s W g K3)) _ _ Hv).
    - intros _ labels a vs Hd Hv. rewrite Ereg in Hv. apply incoming_iff in Hv; auto. subst vs. rewrite map_length. split; [now apply Hone|].
      intros _ q (l & g & x & _ & _ & _ & _ & Hx & _). now rewrite Q0 in Hx. }
  destruct Hok as (t' & ev & E). exists t', ev. split; auto. intros labels a Hd.
  destruct (insert2_effect _ _ _ _ _ _ _ Wt Rt Hfits E) as (Wt' & _ & _ & Hk).
  assert (Ho : reads t labels a None) by (intros q (l & g & x & _ & _ & _ & _ & Hx & _); now rewrite Q0 in Hx).
  specialize (Hone labels a Hd). set (hit := hits _ _ labels a) in *.
  destruct (Hk labels a None (map qr_value (filter hit rows)) Hd Ho) as (new & Hn & Hs & _).
  { rewrite Ereg. apply incoming_iff; auto. }
  split.
  - intros q (l & g & x & K1 & K2 & K3 & K4 & K5 & K6 & K7 & K8).
    assert (Hx : In x xs) by (apply Hin; split; auto; exists l; auto).
    destruct (Forall2_in_l _ _ _ _ F Hx) as (o & Hoo & D).
    assert (Hh : hit (as_row (s_registered s) o) = true).
    { destruct (described_row s x o W HR D) as (l' & g' & A1 & A2 & A3 & A4 & A5 & A6 & A7 & A8).
      assert (l' = l) by (apply (nodup_map_inj l_id (s_locs s)); auto; [apply (sw_loc_ids s W)|congruence]).
      assert (g' = g) by (apply (nodup_map_inj ag_id (s_attrs s)); auto; [apply (sw_group_ids s W)|congruence]). subst l' g'.
      apply hits2_iff; auto. split; [congruence|]. split.
      - destruct (sw_dicts s W g K3) as (_ & Hnn & _). destruct (ag_attrs g) as [|[k v] al] eqn:Eg; [easy|]. exists k, v. apply A8. now left.
      - split; auto. intros k v. rewrite A8. apply same_attrs_in; auto; [apply (sw_dicts s W g K3)|]. now apply same_attrs_sym. }
    assert (Hr : In (as_row (s_registered s) o) (filter hit rows)) by (apply filter_In; split; auto; apply in_map, Hoo).
    destruct (filter hit rows) as [|r [|r2 rs]] eqn:Ef; [easy| |cbn in Hone; lia]. destruct Hr as [->|[]].
    assert (Ev : qr_value (as_row (s_registered s) o) = Some q). { destruct (described_row s x o W HR D) as (l' & g' & _ & _ & _ & _ & _ & Ev & _). congruence. }
    cbn [map] in Hs. rewrite Ev in Hs. destruct new as [q'|].
    + exists q'. split; auto. destruct pol; cbn [settle same_value rev app map val] in Hs; rewrite ?Qsum_cons, ?Qsum_nil in Hs; lra.
    + destruct pol; cbn in Hs; tauto.
  - intros q Hq. assert (new = Some q).
    { destruct new as [q'|]; [f_equal; eapply stored_unique; eauto|]. now destruct (Hn q). }
    subst new. destruct (filter hit rows) as [|r rs] eqn:Ef; [destruct pol; cbn in Hs; tauto|].
    assert (Hr : In r (filter hit rows)) by (rewrite Ef; now left). apply filter_In in Hr. destruct Hr as [Hr Hh].
    apply in_map_iff in Hr. destruct Hr as (o & Eo & Hoo). subst r. destruct (Forall2_in_r _ _ _ _ F Hoo) as (x & Hx & D).
    destruct (Hkey labels a x o Hd D Hh) as (l & g & A1 & A2 & A3 & A4 & A5 & A6).
    exists (qt_value x). split; [exists l, g, x; apply Hin in Hx; repeat split; auto; tauto|].
    destruct rs; [|cbn in Hone; lia].
    assert (Ev : qr_value (as_row (s_registered s) o) = Some (qt_value x)). { destruct (described_row s x o W HR D) as (l' & g' & _ & _ & _ & _ & _ & Ev & _). congruence. }
    cbn [map] in Hs. rewrite Ev in Hs. destruct pol; cbn [settle same_value rev app map val] in Hs; rewrite ?Qsum_cons, ?Qsum_nil in Hs; lra.
Qed.

(** *** Order of rows *)

Lemma filter_perm {A} (f : A -> bool) l l' : Permutation l l' -> Permutation (filter f l) (filter f l').
Proof.
  induction 1; cbn; auto.
  - destruct (f x); auto.
  - destruct (f x), (f y); auto. apply perm_swap.
  - eapply perm_trans; eauto.
Qed.
Lemma insert_numeric pol al ap rows s s' ev : store_wf s -> store_ref s -> fits s rows -> pol <> PIgnore ->
  insert_quantities2 pol al ap rows s = Ok (s', ev) -> numeric s rows.
Proof.
  intros W R Hf Hp H r Hr Ha E. destruct (insert2_effect _ _ _ _ _ _ _ W R Hf H) as (_ & _ & _ & Hk).
  set (A := attr_dict (s_registered s) (qr_cells r)). destruct (reads_total s (qr_labels r) A W (attr_dict_dict _ _)) as [old Ho].
  destruct (Hk (qr_labels r) A old _ (attr_dict_dict _ _) Ho (proj2 (incoming_iff _ _ _ _ _ (attr_dict_dict _ _)) eq_refl)) as (_ & _ & _ & Hn & _).
  apply (Hn Hp). rewrite <- E. apply in_map. apply filter_In. split; auto. apply hits2_iff; [apply attr_dict_dict|].
  split; auto. split; auto. apply row_attrs_dict.
Qed.
Lemma settle_sum_perm old vs vs' : Permutation vs vs' -> same_value (settle PSum old vs) (settle PSum old vs').
Proof.
  intros P. assert (E : (Qsum (map val vs) == Qsum (map val vs'))%Q) by (apply Qsum_perm, Permutation_map, P).
  destruct old; cbn [settle].
  - cbn [same_value]. lra.
  - destruct vs as [|v vs], vs' as [|v' vs']; cbn [same_value]; auto.
    + apply Permutation_nil in P. discriminate.
    + apply Permutation_sym, Permutation_nil in P. discriminate.
Qed.
Theorem insert2_perm al ap rows rows' s s1 ev : index_wf (s_db s) -> store_wf s -> store_ref s -> fits s rows ->
  Permutation rows rows' -> insert_quantities2 PSum al ap rows s = Ok (s1, ev) ->
  exists s2 ev2, insert_quantities2 PSum al ap rows' s = Ok (s2, ev2) /\
    forall labels a v1 v2, dict a -> reads s1 labels a v1 -> reads s2 labels a v2 -> same_value v1 v2.
Proof.
  intros WI W R Hf P H.
  assert (Hf' : fits s rows') by (intros r Hr; apply Hf; eapply Permutation_in; [apply Permutation_sym, P|exact Hr]).
  assert (Hn : numeric s rows) by (eapply insert_numeric; eauto; discriminate).
  assert (Hn' : numeric s rows') by (intros r Hr; apply Hn; eapply Permutation_in; [apply Permutation_sym, P|exact Hr]).
  destruct (proj1 (insert2_accepts PSum al ap rows s WI W R Hf Hn) (ex_intro _ s1 (ex_intro _ ev H))) as (A1 & A2 & _).
  destruct (proj2 (insert2_accepts PSum al ap rows' s WI W R Hf' Hn')) as (s2 & ev2 & H2).
  { split; auto. split; [|intros [?|?]; discriminate]. intros r Hr. apply A2. eapply Permutation_in; [apply Permutation_sym, P|exact Hr]. }
  exists s2, ev2. split; auto. intros labels a v1 v2 Hd R1 R2.
  destruct (insert2_effect _ _ _ _ _ _ _ W R Hf H) as (W1 & _ & _ & K1). destruct (insert2_effect _ _ _ _ _ _ _ W R Hf' H2) as (W2 & _ & _ & K2).
  destruct (reads_total s labels a W Hd) as [old Ho].
  destruct (K1 labels a old _ Hd Ho (proj2 (incoming_iff _ _ _ _ _ Hd) eq_refl)) as (n1 & N1 & S1 & _).
  destruct (K2 labels a old _ Hd Ho (proj2 (incoming_iff _ _ _ _ _ Hd) eq_refl)) as (n2 & N2 & S2 & _).
  rewrite (reads_unique _ _ _ _ _ W1 R1 N1), (reads_unique _ _ _ _ _ W2 R2 N2).
  eapply same_value_trans; [exact S1|]. eapply same_value_trans; [|apply same_value_sym, S2].
  apply settle_sum_perm, Permutation_map, filter_perm, P.
Qed.
