(** The computed granularity is the right one, and the calls keep or restore it. *)
From Verif Require Import Prelude QLemmas BitFlags_Model Selectors_Model LinkRef_Model Db_Model Db_Spec Db_Proofs Db_ProofsLocal
  Db_ProofsRun Migrations_Proofs Granularity_Model Granularity_Spec Granularity_Proofs Granularity_Proofs2 Granularity_Proofs3
  StoredGran_Model StoredGran_Spec StoredGran_Proofs StoredGran_Proofs2.
From Coq Require Import Reals.

Lemma same_alike d bits r r' : index_wf d -> length bits = length (d_labels d) -> In r (d_index d) -> In r' (d_index d) ->
  (same_block d (compress (d_labels d) bits) r r' <-> alike bits r r').
Proof.
  intros W L Hr Hr'. pose proof (iw_columns _ W) as N. split.
  - intros B n Hn. assert (Hl : n < length bits) by (apply nth_error_Some; congruence).
    destruct (nth_error (d_labels d) n) as [c|] eqn:Ec; [|apply nth_error_None in Ec; lia].
    destruct (nth_error (ix_labels r) n) as [v|] eqn:Ev; [|apply nth_error_None in Ev; rewrite (iw_arity _ W _ Hr) in Ev; lia].
    assert (Hc : In c (compress (d_labels d) bits)) by (apply in_compress; exists n; auto).
    destruct (proj1 (B c v Hc)) as (n' & E1 & E2); [exists n; auto|].
    assert (n' = n); [|subst n'; congruence].
    apply (proj1 (NoDup_nth_error (d_labels d)) N); [apply nth_error_Some; congruence|congruence].
  - intros A c v Hc. apply in_compress in Hc. destruct Hc as (n & E1 & E2). specialize (A n E2).
    split; intros (m & F1 & F2); exists m; (split; [exact F1|]);
      assert (m = n) by (apply (proj1 (NoDup_nth_error (d_labels d)) N); [apply nth_error_Some; congruence|congruence]); subst m; congruence.
Qed.

Lemma blocks_classes d bits bs : index_wf d -> length bits = length (d_labels d) ->
  (blocks d (compress (d_labels d) bits) bs <-> classes d bits bs).
Proof.
  intros W L. split; intros [B1 B2 B3 B4]; constructor; auto; intros b r r' Hb Hr Hr';
    (assert (H1 : In r (concat bs)) by (apply in_concat; exists b; auto));
    pose proof (same_alike d bits r r' W L (proj1 (proj1 (B2 _) H1)) (proj1 (proj1 (B2 _) Hr'))) as S;
    rewrite (B4 b r r' Hb Hr Hr'); [exact S|symmetry; exact S].
Qed.

Lemma no_marks cols bits : length bits = length cols -> (compress cols bits = [] <-> forall n, nth_error bits n <> Some true).
Proof.
  intros L. split.
  - intros E n Hn. destruct (nth_error cols n) as [c|] eqn:Ec.
    + assert (H : In c (compress cols bits)) by (apply in_compress; exists n; auto). rewrite E in H. destruct H.
    + apply nth_error_None in Ec. assert (n < length bits) by (apply nth_error_Some; congruence). lia.
  - intros H. destruct (compress cols bits) as [|c l] eqn:E; [reflexivity|]. exfalso.
    assert (Hc : In c (compress cols bits)) by (rewrite E; now left). apply in_compress in Hc. destruct Hc as (n & _ & Hn). exact (H n Hn).
Qed.
Lemma some_mark cols bits : length bits = length cols -> (compress cols bits <> [] <-> exists n, nth_error bits n = Some true).
Proof.
  intros L. split.
  - intros H. destruct (compress cols bits) as [|c l] eqn:E; [easy|].
    assert (Hc : In c (compress cols bits)) by (rewrite E; now left). apply in_compress in Hc. destruct Hc as (n & _ & Hn). eauto.
  - intros (n & Hn) E. exact (proj1 (no_marks _ _ L) E n Hn).
Qed.

Lemma calc_right d bits og : index_wf d -> length bits = length (d_labels d) ->
  (structure_granularity bits d = Ok og <-> right d (bits, og)).
Proof.
  intros W L. unfold structure_granularity, right. cbn [fst snd]. destruct og as [g|].
  - split.
    + intros E. pose proof E as E'. apply granularity_some in E. destruct E as (H1 & H2 & H3 & H4).
      split; [now apply (some_mark _ _ L)|]. split.
      * destruct (D d) as [|x l] eqn:Ed; [easy|]. exists x. apply (in_D d). rewrite Ed. now left.
      * intros bs B. rewrite H4. apply (entropy_eq d W H3). now apply blocks_classes.
    + intros (H1 & (x & Hx) & H3). apply granularity_some.
      assert (Hd : D d <> []) by (intros E; apply (in_D d) in Hx; rewrite E in Hx; destruct Hx).
      split; [now apply (some_mark _ _ L)|]. split; [apply compress_incl|]. split; [exact Hd|].
      destruct (blocks_exist d (compress (d_labels d) bits) W) as (bs & B).
      rewrite (H3 bs); [symmetry; now apply (entropy_eq d W Hd)|now apply blocks_classes].
  - rewrite granularity_none. unfold structure_granularity. rewrite (no_marks _ _ L). reflexivity.
Qed.

Lemma calc_total d bits : exists og, structure_granularity bits d = Ok og.
Proof.
  unfold structure_granularity. destruct (compress (d_labels d) bits) as [|c l] eqn:E; [now exists None|].
  destruct (D d) as [|x k] eqn:Ed.
  - exists None. apply granularity_none. right. now apply D_nil.
  - exists (Some (per_record d (c :: l))). apply granularity_some. split; [discriminate|]. split; [rewrite <- E; apply compress_incl|].
    split; [congruence|reflexivity].
Qed.

(** *** Refreshing and making anew *)

Definition fits (d : db) (rows : list srow) : Prop := Forall (fun r => length (fst r) = length (d_labels d)) rows.

Lemma refresh_right d rows rows' : index_wf d -> fits d rows -> refresh rows d = Ok rows' ->
  Forall (right d) rows' /\ fits d rows' /\ map fst rows' = map fst rows.
Proof.
  intros W F E. unfold refresh in E. revert rows' E. induction F as [|r rows Hr F IH]; intros rows' E; cbn [traverse] in E.
  - injection E as <-. repeat constructor.
  - apply bind_ok in E. destruct E as (x & E1 & E). apply bind_ok in E. destruct E as (bs & E2 & E). injection E as <-.
    apply bind_ok in E1. destruct E1 as (g & E1 & Ex). injection Ex as <-. destruct (IH _ E2) as (I1 & I2 & I3).
    split; [|split].
    + constructor; [now apply calc_right|exact I1].
    + constructor; [exact Hr|exact I2].
    + cbn [map fst]. now rewrite I3.
Qed.
Lemma refresh_ok d rows : exists rows', refresh rows d = Ok rows'.
Proof.
  unfold refresh. induction rows as [|r rows (rows' & IH)]; [now exists []|]. cbn [traverse].
  destruct (calc_total d (fst r)) as (g & E). rewrite E. cbn [bind]. rewrite IH. cbn [bind]. eauto.
Qed.

Definition bits_for (d : db) (pdef : list text) : list bool := map (fun c => existsb (text_eqb c) pdef) (d_labels d).
Lemma in_existsb c (l : list text) : existsb (text_eqb c) l = true <-> In c l.
Proof.
  rewrite existsb_exists. split; [intros (x & H & E); apply Selectors_Proofs.text_eqb_iff in E; now subst|].
  intros H. exists c. split; [exact H|now apply Selectors_Proofs.text_eqb_iff].
Qed.
Lemma bits_for_marks d pdef : marks d pdef (bits_for d pdef).
Proof.
  split; [apply map_length|]. intros n c Hn. unfold bits_for. rewrite nth_error_map, Hn. cbn [option_map].
  rewrite <- in_existsb. split; congruence.
Qed.
Lemma compress_bits d pdef c : In c (compress (d_labels d) (bits_for d pdef)) <-> In c (d_labels d) /\ In c pdef.
Proof.
  rewrite in_compress. unfold bits_for. split.
  - intros (n & E1 & E2). split; [eapply nth_error_In; eassumption|]. rewrite nth_error_map, E1 in E2. cbn in E2. apply in_existsb. congruence.
  - intros [H1 H2]. apply In_nth_error in H1. destruct H1 as (n & Hn). exists n. split; [exact Hn|]. rewrite nth_error_map, Hn. cbn.
    f_equal. now apply in_existsb.
Qed.

(** The order of columns does not matter. *)
Lemma granularity_set cols cols' d : index_wf d -> incl cols cols' -> incl cols' cols -> calculate_granularity cols d = calculate_granularity cols' d.
Proof.
  intros W I I'. 
  assert (Hn : cols = [] <-> cols' = []) by (split; intros ->; [destruct cols' as [|c l]|destruct cols as [|c l]]; auto; [destruct (I' c)|destruct (I c)]; now left).
  destruct cols as [|c l]; [destruct cols'; [reflexivity|discriminate (proj1 Hn eq_refl)]|].
  assert (Hc : c :: l <> []) by discriminate. assert (Hc' : cols' <> []) by (intros E; now apply Hn in E).
  destruct (D d) as [|x k] eqn:Ed.
  - rewrite (proj2 (granularity_none (c :: l) d)) by (right; now apply D_nil). symmetry. apply granularity_none. right. now apply D_nil.
  - assert (Hd : D d <> []) by congruence.
    destruct (forallb (fun c => existsb (text_eqb c) (d_labels d)) (c :: l)) eqn:Ek.
    + apply Granularity_Proofs.known in Ek. assert (Ek' : incl cols' (d_labels d)) by (intros y Hy; apply Ek, I', Hy).
      rewrite !granularity_eq; auto. do 2 f_equal. apply Rle_antisym; apply (per_record_mono d W Hd); auto.
    + assert (Ek' : forallb (fun c => existsb (text_eqb c) (d_labels d)) cols' = false).
      { apply not_true_is_false. intros T. apply Granularity_Proofs.known in T. apply not_true_iff_false in Ek. apply Ek.
        apply Granularity_Proofs.known. intros y Hy. apply T, I, Hy. }
      unfold calculate_granularity. rewrite Ek, Ek'. destruct cols'; [easy|].
      destruct (cardinality d =? 0); reflexivity.
Qed.

Lemma rebuild_right d pdefs rows : index_wf d -> rebuild pdefs d = Ok rows ->
  Forall (right d) rows /\ fits d rows /\ map fst rows = map (bits_for d) pdefs.
Proof.
  unfold rebuild. intros W E. destruct (nil_b (d_labels d)); [discriminate|]. 
  destruct (forallb _ pdefs) eqn:F; [|discriminate E]. cbn [negb] in E.
  revert rows E F. induction pdefs as [|p pdefs IH]; intros rows E F; cbn [traverse] in E.
  - injection E as <-. repeat constructor.
  - apply bind_ok in E. destruct E as (x & E1 & E). apply bind_ok in E. destruct E as (bs & E2 & E). injection E as <-.
    apply bind_ok in E1. destruct E1 as (g & E1 & Ex). injection Ex as <-. cbn [forallb] in F. apply andb_true_iff in F. destruct F as [F1 F2].
    destruct (IH _ E2 F2) as (I1 & I2 & I3). fold (bits_for d p).
    assert (L : length (bits_for d p) = length (d_labels d)) by apply map_length.
    split; [|split].
    + constructor; [|exact I1]. apply calc_right; auto. unfold structure_granularity. rewrite <- E1, (optimized_eq _ _ W).
      apply granularity_set; auto.
      * intros c Hc. now apply compress_bits in Hc.
      * intros c Hc. apply compress_bits. split; [|exact Hc]. apply Granularity_Proofs.known in F1. now apply F1.
    + constructor; [exact L|exact I2].
    + cbn [map fst]. now rewrite I3.
Qed.
