(** Proofs about granularity: the finest level. *)
From Verif Require Import Prelude BitFlags_Model BitFlags_Spec Selectors_Model Selectors_Proofs LinkRef_Model Db_Model Db_Spec Mapper_Spec Quantity_Model Quantity_Spec
  SpaceRead_Model SpaceRead_Spec SpaceRead_Proofs
  Granularity_Model Granularity_Spec Granularity_Proofs Granularity_Proofs2.
From Coq Require Import Reals Permutation Lra Lia.
Local Open Scope R_scope.

(** The order of the stored granularities is that of the granularities. *)
Definition stored_order (s : store) : Prop := forall b b', In b (d_structs (s_db s)) -> In b' (d_structs (s_db s)) ->
  (s_gran s b = None <-> structure_granularity b (s_db s) = Ok None) /\
  forall q q' g g', s_gran s b = Some q -> s_gran s b' = Some q' ->
    structure_granularity b (s_db s) = Ok (Some g) -> structure_granularity b' (s_db s) = Ok (Some g') ->
    ((q <= q')%Q <-> g <= g').

Lemma in_compress c cols : forall bits, In c (compress cols bits) <-> exists n, nth_error cols n = Some c /\ nth_error bits n = Some true.
Proof.
  induction cols as [|k cols IH]; intros [|b bits]; cbn [compress].
  - split; [easy|]. intros ([|n] & H & _); discriminate H.
  - split; [easy|]. intros ([|n] & H & _); discriminate H.
  - split; [easy|]. intros ([|n] & _ & H); discriminate H.
  - destruct b; cbn [In]; rewrite IH; split.
    + intros [->|(n & H)]; [exists 0%nat; auto|exists (S n); auto].
    + intros ([|n] & H & H'); [cbn in H; left; congruence|right; exists n; auto].
    + intros (n & H); exists (S n); auto.
    + intros ([|n] & H & H'); [discriminate H'|exists n; auto].
Qed.
Lemma compress_incl cols bits : incl (compress cols bits) cols.
Proof. intros c H. apply in_compress in H. destruct H as (n & H & _). apply nth_error_In in H. exact H. Qed.
Lemma compress_all cols : compress cols (map (fun _ => true) cols) = cols.
Proof. induction cols; cbn; congruence. Qed.

Lemma nth_error_ext {A} (a : list A) : forall b, (forall n, nth_error a n = nth_error b n) -> a = b.
Proof.
  induction a as [|x a IH]; intros [|y b] H; auto; try (specialize (H 0%nat); discriminate H).
  f_equal; [specialize (H 0%nat); cbn in H; congruence|]. apply IH. intros n. exact (H (S n)).
Qed.
Lemma whole_separates s r r' : index_wf s -> defined s r -> defined s r' -> same_block s (d_labels s) r r' -> r = r'.
Proof.
  intros W [Hr _] [Hr' _] H. apply (iw_labels _ W); auto. 
  pose proof (iw_arity _ W r Hr) as L. pose proof (iw_arity _ W r' Hr') as L'. apply nth_error_ext. intros n.
  destruct (nth_error (d_labels s) n) as [c|] eqn:E.
  - pose proof (nth_error_In _ _ E) as Hc. destruct (nth_error (ix_labels r) n) as [v|] eqn:Ev.
    + assert (Hl : labelled s r c v) by (exists n; auto). apply (H c v Hc) in Hl. destruct Hl as (m & Em & Ev').
      replace m with n in Ev' by (apply (NoDup_nth_error (d_labels s)); [apply (iw_columns _ W)|apply nth_error_Some; congruence|congruence]). now rewrite Ev'.
    + apply nth_error_None in Ev. rewrite L in Ev. apply nth_error_None in Ev. congruence.
  - assert (Hn : (length (d_labels s) <= n)%nat) by now apply nth_error_None.
    transitivity (@None text); [apply nth_error_None; lia|symmetry; apply nth_error_None; lia].
Qed.

Theorem finest_unique s labels i j : space_ok s -> stored_order s -> length labels = length (d_labels (s_db s)) ->
  In (map (fun _ => true) (d_labels (s_db s))) (d_structs (s_db s)) ->
  finest s labels -> matches s labels i -> matches s labels j -> i <> 0%Z -> j <> 0%Z -> i = j.
Proof.
  intros OK Ho L Hw (bits & Hb & Hs & Hf) (r & Hr & Er & Ar) (r' & Hr' & Er' & Ar') Hi Hj.
  pose proof (sp_index _ OK) as W. pose proof (sp_structs _ OK) as S.
  assert (Hd : D (s_db s) <> []). { intros E. assert (H : In r (D (s_db s))) by (apply in_D; split; auto; congruence). rewrite E in H. easy. }
  assert (Hdr : defined (s_db s) r) by (split; auto; congruence). assert (Hdr' : defined (s_db s) r') by (split; auto; congruence).
  assert (Hcols : d_labels (s_db s) <> []).
  { intros E. pose proof (so_arity _ S bits Hb) as La. rewrite E in La. apply length_zero_iff_nil in La. now apply (so_some _ S bits Hb). }
  set (whole := map (fun _ : text => true) (d_labels (s_db s))) in *.
  assert (Gw : structure_granularity whole (s_db s) = Ok (Some (per_record (s_db s) (d_labels (s_db s))))).
  { unfold structure_granularity, whole. rewrite compress_all. apply granularity_some. repeat split; auto. apply incl_refl. }
  assert (Mw : per_record (s_db s) (d_labels (s_db s)) = log2 (INR (length (D (s_db s))))).
  { apply per_record_max; auto. intros a b Ha Hb'. now apply whole_separates. }
  specialize (Hf whole Hw). destruct (Ho whole bits Hw Hb) as [No Oo]. destruct (Ho bits whole Hb Hw) as [No' _].
  destruct (s_gran s whole) as [q|] eqn:Eq; [|rewrite (proj1 No eq_refl) in Gw; discriminate Gw].
  destruct (s_gran s bits) as [q'|] eqn:Eq'; [|easy].
  assert (Hc : compress (d_labels (s_db s)) bits <> []).
  { intros E. assert (En : structure_granularity bits (s_db s) = Ok None) by (apply granularity_none; auto). apply No' in En. discriminate En. }
  assert (Gb : structure_granularity bits (s_db s) = Ok (Some (per_record (s_db s) (compress (d_labels (s_db s)) bits)))).
  { apply granularity_some. repeat split; auto. apply compress_incl. }
  pose proof (proj1 (Oo q q' _ _ eq_refl eq_refl Gw Gb) Hf) as Hle. rewrite Mw in Hle.
  pose proof (per_record_range (s_db s) Hd (compress (d_labels (s_db s)) bits)) as Hrange.
  assert (Emax : per_record (s_db s) (compress (d_labels (s_db s)) bits) = log2 (INR (length (D (s_db s))))) by lra.
  rewrite per_record_max in Emax by auto. subst i j. f_equal. apply Emax; auto.
  assert (Ep : bits = map (fun v => negb (is_empty v)) labels).
  { apply same_bits_eq; auto. rewrite map_length, L. apply (so_arity _ S bits Hb). }
  assert (Hgo : forall x y, In x (d_index (s_db s)) -> In y (d_index (s_db s)) -> agrees labels x -> agrees labels y -> forall c v, In c (compress (d_labels (s_db s)) bits) -> labelled (s_db s) x c v -> labelled (s_db s) y c v).
  { intros x y Hx Hy Ax Ay c v Hc' (n & En & Ev). apply in_compress in Hc'. destruct Hc' as (m & Em & Et).
    assert (m = n) by (apply (NoDup_nth_error (d_labels (s_db s))); [apply (iw_columns _ W)|apply nth_error_Some; congruence|congruence]). subst m.
    rewrite Ep, nth_error_map in Et. destruct (nth_error labels n) as [w|] eqn:Ew; [|discriminate Et]. cbn [option_map] in Et.
    assert (Hne : w <> []) by (intros ->; discriminate Et). pose proof (Ax n w v Ew Ev Hne) as Evw. subst w.
    exists n. split; auto. destruct (nth_error (ix_labels y) n) as [u|] eqn:Eu; [rewrite (Ay n v u Ew Eu Hne); auto|].
    apply nth_error_None in Eu. rewrite (iw_arity _ W y Hy) in Eu. apply nth_error_None in Eu. congruence. }
  intros c v Hc'. split; intros H; [apply (Hgo r r')|apply (Hgo r' r)]; auto.
Qed.
