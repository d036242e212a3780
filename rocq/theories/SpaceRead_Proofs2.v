(** Reading all quantities. *)
From Verif Require Import Prelude QLemmas BitFlags_Model BitFlags_Spec BitFlags_Proofs Selectors_Model Selectors_Spec Selectors_Proofs
  LinkRef_Model LinkRef_Proofs Db_Model Db_Spec Db_Proofs Db_ProofsLocal Quantize_Model Quantize_Spec Quantize_Proofs
  Disaggregate_Model Disaggregate_Spec Disaggregate_Proofs Reader_Model Reader_Spec Reader_Proofs
  Mapper_Model Mapper_Spec Mapper_Proofs Mapper_Proofs2 Mapper_Proofs3 Quantity_Model Quantity_Spec Quantity_Proofs Quantity_Proofs2
  Quantity_Proofs3 SpaceRead_Model SpaceRead_Spec SpaceRead_Proofs.
From Coq Require Import Permutation Lqa Qabs.
From Coq Require Import ZifyBool ZifyNat ZifyN.
Local Open Scope nat_scope.

Lemma attrs_get_ok i s a : attrs_get i s = Ok a -> exists g, In g (s_attrs s) /\ ag_id g = i /\ ag_attrs g = a.
Proof.
  unfold attrs_get. destruct (find _ _) as [g|] eqn:E; [|discriminate]. intros H. inversion H; subst.
  apply find_some in E. destruct E as [Hin E]. apply Z.eqb_eq in E. eauto.
Qed.
Lemma attrs_get_found g s : NoDup (map ag_id (s_attrs s)) -> In g (s_attrs s) -> attrs_get (ag_id g) s = Ok (ag_attrs g).
Proof.
  intros Hn Hg. unfold attrs_get. destruct (find _ _) as [g'|] eqn:E.
  - apply find_some in E. destruct E as [Hin E]. apply Z.eqb_eq in E.
    assert (g' = g) by (eapply nodup_map_inj; eauto). now subst.
  - apply find_none with (x := g) in E; [|exact Hg]. rewrite Z.eqb_refl in E. discriminate.
Qed.
Definition data_of (a : row) (items : list (Z * Q)) : list datum :=
  map (fun p => {| n_index := fst p; n_attrs := a; n_value := Some (snd p) |}) items.

Section One.
Context (upper : text -> text) (s : store).
Context (IW : index_wf (s_db s)) (WW : weights_wf (s_db s)) (SW : store_wf s) (SO : sels_ok s).
Context (default : Z) (Hdef : d_default (s_db s) = Some (Some default)).

Lemma lacks_iff g labels : (lacks_weight (weight_of (s_db s) g) (candidates (s_db s) labels)) <->
  exists i, matches s labels i /\ i <> 0%Z /\ ~ weight_there (s_db s) g i.
Proof.
  pose proof (weight_of_are s g WW) as A.
  assert (H : forall i, weight_of (s_db s) g i = None <-> ~ weight_there (s_db s) g i).
  { intros i. destruct (weight_of (s_db s) g i) as [v|] eqn:E.
    - split; [discriminate|]. intros H. exfalso. apply H. apply A in E. destruct E as (x & H1 & H2 & H3 & _). now exists x.
    - split; [|reflexivity]. intros _ (x & H1 & H2 & H3).
      assert (weight_of (s_db s) g i = Some (w_value x)) by (apply A; now exists x). congruence. }
  unfold lacks_weight. split; intros (i & H1 & H2 & H3); exists i; split; try (now apply (in_candidates_iff s)); split; auto; now apply H.
Qed.

Lemma read_quantity_ok quantize f x l ds : In l (s_locs s) ->
  (f = true <-> finest s (l_labels l)) ->
  read_quantity upper quantize f default s (x, l) = Ok ds ->
  exists a items, attributed s x a /\ ds = data_of (add_domain s a) items /\
    becomes upper quantize s (l_labels l) a (qt_value x) items /\
    (Qsum (map snd items) == qt_value x)%Q /\
    (forall i, In i (map fst items) -> matches s (l_labels l) i) /\ NoDup (map fst items) /\ items <> [].
Proof.
  intros Hl Hf H. unfold read_quantity in H.
  pose proof (nodup_candidates (s_db s) (l_labels l) IW) as Hn.
  pose proof (fun i => in_candidates_iff s (l_labels l) i IW) as Hc.
  destruct (candidates (s_db s) (l_labels l)) as [|i ids] eqn:Ec; [discriminate|]. rewrite <- Ec in *.
  apply bind_ok in H. destruct H as (a & Ha & H). apply attrs_get_ok in Ha. destruct Ha as (g & Hg & Eg & <-).
  pose proof (proj1 (sw_dicts _ SW g Hg)) as Hd.
  pose proof (add_domain_spec s (ag_attrs g) Hd) as HD.
  apply bind_ok in H. destruct H as (items & Hi & H). inversion H; subst ds; clear H.
  exists (ag_attrs g), items. split; [now exists g|]. split; [reflexivity|].
  destruct f.
  - inversion Hi; subst items; clear Hi. assert (Hm : matches s (l_labels l) i) by (apply Hc; rewrite Ec; now left).
    split; [split|].
    + intros _. exists i. auto.
    + intros Hnf. exfalso. now apply Hnf, Hf.
    + cbn [map snd fst]. split; [rewrite Qsum_cons, Qsum_nil; lra|]. split; [intros j [<-|[]]; exact Hm|].
      split; [repeat constructor; tauto|discriminate].
  - destruct (greatest_uses upper s (add_domain s (ag_attrs g)) default (proj1 (ww_groups _ WW)) SO Hdef) as (k & Ek & Hk & _).
    rewrite Ek in Hi. cbn [bind] in Hi. apply bind_ok in Hi. destruct Hi as (exact_ & Hx & Hi).
    destruct (ok_not_lacks _ _ _ _ Hx) as [Hne Hlack].
    destruct (disaggregate_conserves (qt_value x) _ _ Hn Hne Hlack) as (e' & Ee & Efst & Esum).
    rewrite Ee in Hx. inversion Hx; subst e'; clear Hx.
    assert (Hdiv : divided s (weight_of (s_db s) k) (l_labels l) (qt_value x) exact_).
    { unfold divided. rewrite Efst. split; [exact Hn|]. split; [exact Hc|]. cbv zeta.
      intros j v Hj. exact (disaggregate_proportional _ _ _ _ j v Hn Ee Hj). }
    assert (Hbec : forall its, (if quantize then rounded exact_ its else its = exact_) ->
                     becomes upper quantize s (l_labels l) (ag_attrs g) (qt_value x) its).
    { intros its Hits. split.
      - intros Hfin. apply Hf in Hfin. discriminate.
      - intros _. exists (add_domain s (ag_attrs g)), k, (weight_of (s_db s) k), exact_.
        split; [exact HD|]. split; [exact Hk|]. split; [now apply weight_of_are|]. split; [exact Hdiv|exact Hits]. }
    destruct quantize.
    + assert (Hsh : forall j v, In (j, v) exact_ -> (0 <= j)%Z /\ exists c, (0 <= c)%Q /\ (v == qt_value x * c)%Q).
      { intros j v Hj. split.
        - assert (Hm : In j (candidates (s_db s) (l_labels l))) by (rewrite <- Efst; apply in_map_iff; now exists (j, v)).
          apply Hc in Hm. destruct Hm as (r & Hr & <- & _). now apply (iw_range _ IW).
        - apply (share_factor _ (candidates (s_db s) (l_labels l)) (weight_of (s_db s) k) exact_ j); auto.
          intros j' v' Hw. apply (weights_nonneg s k (weight_of (s_db s) k) j'); auto. now apply weight_of_are. }
      destruct (quantized_ok (qt_value x) exact_ Hsh Esum) as (out & Eq & Hr & Hs). rewrite Eq in Hi. inversion Hi; subst out; clear Hi.
      split; [now apply Hbec|]. split; [exact Hs|].
      assert (Hperm : Permutation (map fst items) (candidates (s_db s) (l_labels l))).
      { destruct Hr as [(e2 & Hp & H2) _]. rewrite <- Efst. rewrite (Permutation_map fst Hp). apply Permutation_sym.
        replace (map fst items) with (map fst e2); [reflexivity|]. clear - H2.
        induction H2 as [|? ? ? ? [E _] _ IH]; [reflexivity|]. cbn [map]. now rewrite E, IH. }
      split; [intros j Hj; apply Hc; now apply (Permutation_in _ Hperm)|].
      split; [now apply (Permutation_NoDup (Permutation_sym Hperm))|].
      intros ->. cbn [map] in Hperm. apply Permutation_nil in Hperm. easy.
    + inversion Hi; subst items; clear Hi. split; [now apply Hbec|]. split; [exact Esum|]. rewrite Efst.
      split; [intros j Hj; now apply Hc|]. split; [exact Hn|]. intros ->. now symmetry in Efst.
Qed.

Lemma read_quantity_total quantize f x l : In l (s_locs s) -> l_id l = qt_loc x -> (exists a, attributed s x a) ->
  (f = true <-> finest s (l_labels l)) ->
  (exists ds, read_quantity upper quantize f default s (x, l) = Ok ds) <-> readable upper s x.
Proof.
  intros Hl El (a & g & Hg & Eg & Ea) Hf.
  pose proof (nodup_candidates (s_db s) (l_labels l) IW) as Hn.
  pose proof (fun i => in_candidates_iff s (l_labels l) i IW) as Hc.
  assert (Hget : attrs_get (qt_attr x) s = Ok a) by (rewrite <- Eg, <- Ea; apply attrs_get_found; [apply SW|exact Hg]).
  assert (Hd : dict a) by (subst a; now apply (sw_dicts _ SW)).
  pose proof (add_domain_spec s a Hd) as HD.
  destruct (greatest_uses upper s (add_domain s a) default (proj1 (ww_groups _ WW)) SO Hdef) as (k & Ek & Hk & Hku).
  assert (Huniq : forall lab a', located s x lab -> attributed s x a' -> lab = l_labels l /\ a' = a).
  { intros lab a' (l' & Hl' & El' & <-) (g' & Hg' & Eg' & <-). split.
    - assert (l' = l); [|now subst]. eapply nodup_map_inj; [exact (sw_loc_ids _ SW)|exact Hl'|exact Hl|congruence].
    - assert (g' = g); [|now subst]. eapply nodup_map_inj; [exact (sw_group_ids _ SW)|exact Hg'|exact Hg|congruence]. }
  split.
  - intros [ds H]. exists (l_labels l), a. split; [now exists l|]. split; [now exists g|].
    unfold read_quantity in H. destruct (candidates (s_db s) (l_labels l)) as [|i ids] eqn:Ec; [discriminate|]. rewrite <- Ec in *.
    split; [exists i; apply Hc; rewrite Ec; now left|]. intros Hnf. exists (add_domain s a), k.
    split; [exact HD|]. split; [exact Hk|]. intros j Hm Hj.
    destruct f; [exfalso; apply Hnf; now apply Hf|]. rewrite Hget in H. cbn [bind] in H. rewrite Ek in H. cbn [bind] in H.
    apply bind_ok in H. destruct H as (items & Hi & _). apply bind_ok in Hi. destruct Hi as (e & He & _).
    destruct (ok_not_lacks _ _ _ _ He) as [_ Hlack].
    destruct (weight_of (s_db s) k j) as [v|] eqn:Ew.
    + apply (weight_of_are s k WW) in Ew. destruct Ew as (y & H1 & H2 & H3 & _). now exists y.
    + exfalso. apply Hlack. exists j. split; [now apply Hc|]. auto.
  - intros (lab & a' & Hloc & Hatt & (i & Hm) & Hw). destruct (Huniq _ _ Hloc Hatt) as [-> ->].
    unfold read_quantity. apply Hc in Hm.
    destruct (candidates (s_db s) (l_labels l)) as [|i0 ids] eqn:Ec; [easy|]. rewrite <- Ec in *.
    rewrite Hget. cbn [bind]. destruct f; [cbn [bind]; eauto|].
    rewrite Ek. cbn [bind]. destruct Hw as (full & k' & HD' & Hk' & Hw).
    { intros H. apply Hf in H. discriminate. }
    apply (uses_ext upper s a full (add_domain s a) k' HD' HD) in Hk'. apply Hku in Hk'. subst k'.
    assert (Hlack : ~ lacks_weight (weight_of (s_db s) k) (candidates (s_db s) (l_labels l))).
    { rewrite lacks_iff. intros (j & Hj & Hj0 & Hnot). apply Hnot, Hw; auto. }
    assert (Hne : candidates (s_db s) (l_labels l) <> []) by (rewrite Ec; discriminate).
    destruct (disaggregate_conserves (qt_value x) _ _ Hn Hne Hlack) as (e & Ee & Efst & Esum).
    rewrite Ee. cbn [bind]. destruct quantize; [|cbn [bind]; eauto].
    destruct (quantized_ok (qt_value x) e) as (out & Eq & _); [|exact Esum|rewrite Eq; cbn [bind]; eauto].
    intros j v Hj. split.
    + assert (Hm' : In j (candidates (s_db s) (l_labels l))) by (rewrite <- Efst; apply in_map_iff; now exists (j, v)).
      apply Hc in Hm'. destruct Hm' as (r & Hr & <- & _). now apply (iw_range _ IW).
    + apply (share_factor _ (candidates (s_db s) (l_labels l)) (weight_of (s_db s) k) e j); auto.
      intros j' v' Hw'. apply (weights_nonneg s k (weight_of (s_db s) k) j'); auto. now apply weight_of_are.
Qed.
End One.

(** *** All of them *)

Lemma nodup_flat_map {A B} (f : A -> list B) l : NoDup l -> (forall a, In a l -> NoDup (f a)) ->
  (forall a b x, In a l -> In b l -> In x (f a) -> In x (f b) -> a = b) -> NoDup (flat_map f l).
Proof.
  induction l as [|a l IH]; intros Hn Hf Hd; [constructor|]. inversion Hn as [|? ? Ha Hn']; subst. cbn [flat_map].
  apply nodup_app.
  - apply Hf. now left.
  - apply IH; [exact Hn'| |].
    + intros b Hb. apply Hf. now right.
    + intros b c x Hb Hc. apply Hd; now right.
  - intros x Hx H. apply in_flat_map in H. destruct H as (b & Hb & Hxb).
    assert (a = b) by (apply (Hd a b x); auto; [now left|now right]). now subst.
Qed.

Definition chosen (ids : option (list Z)) (i : Z) : bool :=
  match ids with None => true | Some ids => existsb (Z.eqb i) ids end.
Definition joined_quants (s : store) : list (quantity * location) :=
  flat_map (fun x => map (fun l => (x, l)) (filter (fun l => (l_id l =? qt_loc x)%Z) (s_locs s))) (s_quants s).
Definition level_quants (ids : option (list Z)) (s : store) (bits : list bool) : list (quantity * location) :=
  match ids with
  | Some [] => []
  | _ => by_location (filter (fun xl => level_matches bits (l_labels (snd xl)) && chosen ids (qt_attr (fst xl))) (joined_quants s))
  end.

Lemma find_by_structure_ok bits ids s : structs_ok s -> In bits (d_structs (s_db s)) ->
  find_by_structure bits ids s = Ok (level_quants ids s bits).
Proof.
  intros W Hb. unfold find_by_structure, level_quants.
  assert (Hc : nil_b (combine (d_labels (s_db s)) bits) = false).
  { pose proof (so_arity _ W _ Hb) as Hl. pose proof (so_some _ W _ Hb) as Hs.
    destruct bits as [|b bits]; [easy|]. destruct (d_labels (s_db s)); [discriminate|reflexivity]. }
  rewrite Hc. cbn [andb]. destruct ids as [[|i ids]|]; reflexivity.
Qed.
Lemma by_location_perm l : Permutation (by_location l) l.
Proof.
  unfold by_location. induction l as [|x l IH]; [reflexivity|]. cbn [fold_right].
  rewrite <- IH at 2. generalize (fold_right insert_quantity [] l) as m. clear.
  induction m as [|y m IH]; cbn [insert_quantity]; [reflexivity|]. destruct (_ <=? _)%Z; [reflexivity|].
  rewrite IH. apply perm_swap.
Qed.
Lemma in_level_quants ids s bits x l : In (x, l) (level_quants ids s bits) <->
  In x (s_quants s) /\ In l (s_locs s) /\ l_id l = qt_loc x /\ level_matches bits (l_labels l) = true /\ chosen ids (qt_attr x) = true.
Proof.
  assert (G : In (x, l) (by_location (filter (fun xl => level_matches bits (l_labels (snd xl)) && chosen ids (qt_attr (fst xl))) (joined_quants s))) <->
    In x (s_quants s) /\ In l (s_locs s) /\ l_id l = qt_loc x /\ level_matches bits (l_labels l) = true /\ chosen ids (qt_attr x) = true).
  { split.
    - intros H. apply (Permutation_in _ (by_location_perm _)) in H. apply filter_In in H. destruct H as [H H2].
      cbn [fst snd] in H2. apply andb_true_iff in H2. apply in_flat_map in H. destruct H as (y & Hy & H).
      apply in_map_iff in H. destruct H as (l' & E & H). inversion E; subst. apply filter_In in H. destruct H as [H E'].
      apply Z.eqb_eq in E'. tauto.
    - intros (H1 & H2 & H3 & H4 & H5). apply (Permutation_in _ (Permutation_sym (by_location_perm _))). apply filter_In.
      cbn [fst snd]. rewrite H4, H5. split; [|reflexivity]. apply in_flat_map. exists x. split; [exact H1|].
      apply in_map_iff. exists l. split; [reflexivity|]. apply filter_In. split; [exact H2|]. now apply Z.eqb_eq. }
  unfold level_quants. destruct ids as [[|i ids]|]; [|exact G|exact G].
  split; [intros []|]. intros (_ & _ & _ & _ & H). discriminate.
Qed.
Lemma nodup_level_quants ids s bits : store_wf s -> NoDup (map fst (level_quants ids s bits)).
Proof.
  intros W. assert (G : NoDup (map fst (joined_quants s))).
  { unfold joined_quants. pose proof (sw_quant_ids _ W) as Hq. pose proof (sw_loc_ids _ W) as Hl.
    assert (Hu : forall i, NoDup (filter (fun l => (l_id l =? i)%Z) (s_locs s)) /\
                 forall a b, In a (filter (fun l => (l_id l =? i)%Z) (s_locs s)) -> In b (filter (fun l => (l_id l =? i)%Z) (s_locs s)) -> a = b).
    { intros i. split; [apply nodup_filter; now apply NoDup_map_inv in Hl|].
      intros a b Ha Hb. apply filter_In in Ha, Hb. destruct Ha as [Ha Ea], Hb as [Hb Eb]. apply Z.eqb_eq in Ea, Eb.
      eapply nodup_map_inj; [exact Hl|exact Ha|exact Hb|congruence]. }
    apply NoDup_map_inv in Hq. rewrite map_flat_map. apply nodup_flat_map.
    - exact Hq.
    - intros x Hx. rewrite map_map. cbn [fst]. destruct (Hu (qt_loc x)) as [H1 H2].
      destruct (filter (fun l => (l_id l =? qt_loc x)%Z) (s_locs s)) as [|a [|b r]]; cbn [map]; [constructor|repeat constructor; tauto|].
      exfalso. inversion H1 as [|? ? Hn _]; subst. apply Hn. left. apply H2; cbn [In]; auto.
    - intros x y z _ _ H1 H2. rewrite map_map in H1, H2. apply in_map_iff in H1, H2.
      destruct H1 as (? & <- & _), H2 as (? & E & _). now cbn [fst] in E. }
  assert (G2 : forall p, NoDup (map fst (by_location (filter p (joined_quants s))))).
  { intros p. eapply Permutation_NoDup; [apply Permutation_map, Permutation_sym, by_location_perm|]. now apply nodup_map_filter. }
  unfold level_quants. destruct ids as [[|i ids]|]; auto. constructor.
Qed.

(** The reads in the order in which they are done. *)
Definition reads_of (ids : option (list Z)) (s : store) : list (list bool * (quantity * location)) :=
  flat_map (fun bits => map (fun xl => (bits, xl)) (level_quants ids s bits)) (structures s).
Lemma in_structures s bits : In bits (structures s) <-> In bits (d_structs (s_db s)).
Proof.
  unfold structures. split; apply Permutation_in; [apply Permutation_sym|]; apply sort_levels_perm.
Qed.
Lemma in_reads ids s bits x l : structs_ok s -> store_wf s -> In (bits, (x, l)) (reads_of ids s) <->
  bits = pattern (l_labels l) /\ In bits (d_structs (s_db s)) /\
  In x (s_quants s) /\ In l (s_locs s) /\ l_id l = qt_loc x /\ chosen ids (qt_attr x) = true.
Proof.
  intros SO SW. unfold reads_of. rewrite in_flat_map. split.
  - intros (b & Hb & H). apply in_map_iff in H. destruct H as ([x' l'] & E & H). inversion E; subst.
    apply in_structures in Hb. apply in_level_quants in H. destruct H as (H1 & H2 & H3 & H4 & H5).
    apply level_matches_iff in H4; [auto 10|]. rewrite (so_arity _ SO _ Hb). symmetry. now apply (sw_arity _ SW).
  - intros (-> & Hb & H1 & H2 & H3 & H5). exists (pattern (l_labels l)). split; [now apply in_structures|].
    apply in_map_iff. exists (x, l). split; [reflexivity|]. apply in_level_quants. repeat split; auto.
    apply level_matches_iff; [|reflexivity]. unfold pattern. now rewrite map_length.
Qed.
Lemma nodup_reads ids s : structs_ok s -> store_wf s -> NoDup (map (fun p => fst (snd p)) (reads_of ids s)).
Proof.
  intros SO SW.
  assert (Hin : forall b x, In b (structures s) -> In x (map (fun p => fst (snd p)) (map (fun xl => (b, xl)) (level_quants ids s b))) ->
     exists l, In (b, (x, l)) (reads_of ids s)).
  { intros b x Hb H. rewrite map_map in H. cbn [snd] in H. apply in_map_iff in H. destruct H as ([x' l] & E & H). cbn [fst] in E. subst x'.
    exists l. unfold reads_of. apply in_flat_map. exists b. split; [exact Hb|]. apply in_map_iff. now exists (x, l). }
  unfold reads_of. rewrite map_flat_map. apply nodup_flat_map.
  - unfold structures. eapply Permutation_NoDup; [apply sort_levels_perm|]. apply SO.
  - intros b Hb. rewrite map_map. cbn [snd]. now apply nodup_level_quants.
  - intros b c x Hb Hc H1 H2. destruct (Hin _ _ Hb H1) as [l1 K1], (Hin _ _ Hc H2) as [l2 K2].
    apply in_reads in K1, K2; auto. destruct K1 as (-> & _ & _ & L1 & E1 & _), K2 as (-> & _ & _ & L2 & E2 & _).
    assert (l1 = l2); [|now subst]. eapply nodup_map_inj; [exact (sw_loc_ids _ SW)|exact L1|exact L2|congruence].
Qed.

Lemma traverse_app {A B} (f : A -> res B) l m :
  traverse f (l ++ m) = (do a <- traverse f l; do b <- traverse f m; Ok (a ++ b)).
Proof.
  induction l as [|x l IH]; [cbn [app]; change (traverse f []) with (Ok (@nil B)); cbn [bind app]; now destruct (traverse f m)|].
  cbn [app]. rewrite !traverse_cons, IH. destruct (f x); cbn [bind]; [|reflexivity].
  destruct (traverse f l); cbn [bind]; [|reflexivity]. now destruct (traverse f m).
Qed.
Lemma traverse_map {A B C} (f : B -> res C) (g : A -> B) l : traverse f (map g l) = traverse (fun a => f (g a)) l.
Proof. induction l as [|x l IH]; [reflexivity|]. cbn [map]. now rewrite !traverse_cons, IH. Qed.
Lemma traverse_ext {A B} (f g : A -> res B) l : (forall a, In a l -> f a = g a) -> traverse f l = traverse g l.
Proof.
  induction l as [|x l IH]; intros H; [reflexivity|]. rewrite !traverse_cons, (H x), IH; auto; [|now left].
  intros a Ha. apply H. now right.
Qed.
Lemma traverse_nested {A B C} (L : A -> list B) (f : A -> B -> res (list C)) l :
  (do dss <- traverse (fun a => do ds <- traverse (f a) (L a); Ok (concat ds)) l; Ok (concat dss)) =
  (do outs <- traverse (fun p => f (fst p) (snd p)) (flat_map (fun a => map (fun b => (a, b)) (L a)) l); Ok (concat outs)).
Proof.
  induction l as [|a l IH]; [reflexivity|]. cbn [flat_map]. rewrite traverse_cons, traverse_app, traverse_map. cbn [fst snd].
  replace (traverse (fun b => f a b) (L a)) with (traverse (f a) (L a)) by reflexivity.
  destruct (traverse (f a) (L a)) as [ds|e]; cbn [bind]; [|reflexivity].
  destruct (traverse (fun a => do ds <- traverse (f a) (L a); Ok (concat ds)) l) as [dss|e];
  destruct (traverse (fun p => f (fst p) (snd p)) (flat_map (fun a => map (fun b => (a, b)) (L a)) l)) as [outs|e'];
    cbn [bind] in *; inversion IH as [E]; subst; auto.
  cbn [concat]. now rewrite concat_app, E.
Qed.

(** What [disaggregate] comes to, once its preconditions are met. *)
Lemma disaggregate_eq upper ids quantize s default first rest : structs_ok s ->
  get_default_weight_group (s_db s) = Ok default -> is_complete default (s_db s) = true -> structures s = first :: rest ->
  disaggregate upper ids quantize s =
  (do outs <- traverse (fun p => read_quantity upper quantize (gran_eqb (s_gran s (fst p)) (s_gran s first)) default s (snd p)) (reads_of ids s);
   Ok (concat outs)).
Proof.
  intros SO Ed Ec Es. unfold disaggregate. rewrite Ed. cbn [bind]. rewrite Ec. cbn [negb]. rewrite Es. rewrite <- Es.
  unfold reads_of. etransitivity; [|exact (traverse_nested (level_quants ids s) (fun b xl =>
    read_quantity upper quantize (gran_eqb (s_gran s b) (s_gran s first)) default s xl) (structures s))].
  f_equal. apply traverse_ext. intros b Hb. unfold read_level.
  rewrite find_by_structure_ok; [reflexivity|exact SO|]. now apply in_structures.
Qed.

(** *** Selecting attribute groups *)

Lemma scan_true upper a sels : Forall proper sels ->
  exists b, scan true (call upper a) sels = Ok b /\ (b = true <-> exists x, In x sels /\ means upper a x).
Proof.
  induction 1 as [|x l Hx Hl IH].
  - exists false. split; [reflexivity|]. split; [discriminate|]. now intros (? & [] & _).
  - destruct IH as (b & Eb & Hb). destruct (call_means upper a x Hx) as (c & Ec & Hc).
    exists (if c then true else b). split.
    + change (scan true (call upper a) (x :: l)) with (do b <- call upper a x; if Bool.eqb b true then Ok true else scan true (call upper a) l).
      rewrite Ec. cbn [bind]. destruct c; [reflexivity|exact Eb].
    + destruct c.
      * split; [|reflexivity]. intros _. exists x. split; [now left|]. now apply Hc.
      * rewrite Hb. split; intros (y & Hy & Hm).
        -- exists y. split; [now right|exact Hm].
        -- destruct Hy as [<-|Hy]; [|now exists y]. apply Hc in Hm. discriminate.
Qed.
Lemma read_filter_ok upper sels s : Forall proper sels -> store_wf s ->
  exists ids, read_filter upper sels s = Ok ids /\
    (forall g, In g (s_attrs s) -> (chosen ids (ag_id g) = true <-> picked upper sels (ag_attrs g))) /\
    (forall l i, ids = Some l -> In i l -> exists g, In g (s_attrs s) /\ ag_id g = i).
Proof.
  intros Hp SW. unfold read_filter. destruct sels as [|x sels].
  { exists None. split; [reflexivity|]. split; [|discriminate]. intros g Hg. cbn [chosen]. unfold picked. split; [congruence|reflexivity]. }
  set (S := x :: sels) in *.
  assert (G : forall l, (forall g, In g l -> In g (s_attrs s)) -> exists fl,
    traverse (fun g => do b <- scan true (call upper (ag_attrs g)) S; Ok (if b then [ag_id g] else [])) l = Ok fl /\
    forall i, In i (concat fl) <-> exists g, In g l /\ ag_id g = i /\ exists y, In y S /\ means upper (ag_attrs g) y).
  { induction l as [|g l IH]; intros Hl.
    - exists []. split; [reflexivity|]. intros i. split; [intros []|]. now intros (? & [] & _).
    - destruct IH as (fl & Ef & Hf); [intros; apply Hl; now right|].
      destruct (scan_true upper (ag_attrs g) S Hp) as (b & Eb & Hb). rewrite traverse_cons, Eb. cbn [bind]. rewrite Ef. cbn [bind].
      eexists. split; [reflexivity|]. intros i. cbn [concat]. rewrite in_app_iff, Hf. split.
      + intros [H|(g' & H1 & H2)]; [|exists g'; split; [now right|exact H2]].
        destruct b; [|easy]. destruct H as [<-|[]]. exists g. split; [now left|]. split; [reflexivity|]. now apply Hb.
      + intros (g' & [<-|H1] & H2 & H3); [left|right; now exists g'].
        apply Hb in H3. subst b. now left. }
  destruct (G (s_attrs s)) as (fl & Ef & Hf); [auto|]. rewrite Ef. cbn [bind]. eexists. split; [reflexivity|]. split.
  - intros g Hg. cbn [chosen]. rewrite existsb_exists. unfold picked. split.
    + intros (i & Hi & E) _. apply Z.eqb_eq in E. subst i. apply Hf in Hi. destruct Hi as (g' & Hg' & E & H).
      assert (g' = g) by (eapply nodup_map_inj; [exact (sw_group_ids _ SW)|exact Hg'|exact Hg|exact E]). now subst.
    + intros H. exists (ag_id g). split; [|apply Z.eqb_refl]. apply Hf. exists g. split; [exact Hg|]. split; [reflexivity|]. apply H. discriminate.
  - intros l i E Hi. inversion E; subst. apply Hf in Hi. destruct Hi as (g & Hg & Eg & _). eauto.
Qed.
Lemma matching_groups_ok upper ids s default : store_wf s -> weights_wf (s_db s) -> sels_ok s ->
  get_default_weight_group (s_db s) = Ok default ->
  (forall l i, ids = Some l -> In i l -> exists g, In g (s_attrs s) /\ ag_id g = i) ->
  exists out, matching_groups upper ids s = Ok out.
Proof.
  intros SW WW SO Ed Hids. unfold matching_groups. rewrite Ed. cbn [bind].
  assert (Hdef : d_default (s_db s) = Some (Some default)).
  { unfold get_default_weight_group in Ed. destruct (d_default (s_db s)) as [[i|]|]; try discriminate.
    destruct (existsb _ _); inversion Ed; reflexivity. }
  assert (G : exists groups, match ids with
               | Some (i :: l) => traverse (fun i => attrs_get i s) (i :: l)
               | _ => Ok (map ag_attrs (s_attrs s)) end = Ok groups).
  { destruct ids as [[|i l]|]; eauto. apply traverse_total. intros j Hj. destruct (Hids _ j eq_refl Hj) as (g & Hg & <-).
    exists (ag_attrs g). apply attrs_get_found; [apply SW|exact Hg]. }
  destruct G as [groups ->]. cbn [bind]. apply traverse_total. intros a _.
  destruct (greatest_uses upper s a default (proj1 (ww_groups _ WW)) SO Hdef) as (g & -> & _). cbn [bind]. eauto.
Qed.

(** *** The whole *)

Lemma default_found s default : get_default_weight_group (s_db s) = Ok default <->
  d_default (s_db s) = Some (Some default) /\ exists g, In g (d_groups (s_db s)) /\ g_id g = default.
Proof.
  unfold get_default_weight_group. destruct (d_default (s_db s)) as [[i|]|].
  - destruct (existsb _ _) eqn:E.
    + apply existsb_exists in E. destruct E as (g & Hg & Eg). apply Z.eqb_eq in Eg. split.
      * intros H. inversion H; subst. eauto.
      * intros [H _]. now inversion H.
    + split; [discriminate|]. intros [H (g & Hg & Eg)]. inversion H; subst.
      assert (existsb (fun g0 => (g_id g0 =? g_id g)%Z) (d_groups (s_db s)) = true); [|congruence].
      apply existsb_exists. exists g. split; [exact Hg|apply Z.eqb_refl].
  - split; [discriminate|]. intros [H _]. discriminate.
  - split; [discriminate|]. intros [H _]. discriminate.
Qed.
Lemma is_complete_iff s g : NoDup (map g_id (d_groups (s_db s))) -> In g (d_groups (s_db s)) ->
  is_complete (g_id g) (s_db s) = g_complete g.
Proof.
  intros Hn Hg. unfold is_complete, group_by_id. destruct (find _ _) as [g'|] eqn:E.
  - apply find_some in E. destruct E as [Hin E]. apply Z.eqb_eq in E.
    assert (g' = g) by (eapply nodup_map_inj; [exact Hn|exact Hin|exact Hg|exact E]). now subst.
  - apply find_none with (x := g) in E; [|exact Hg]. rewrite Z.eqb_refl in E. discriminate.
Qed.

