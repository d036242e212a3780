(** Lemmas for C61: rows by the names of columns; loading a row is inserting the quantity it describes. *)
From Coq Require Import NArith Permutation Lqa Lia.
From Verif Require Import Prelude QLemmas Selectors_Model Selectors_Proofs LinkRef_Model Db_Model Db_Spec Reader_Model Reader_Spec Reader_Proofs Mapper_Model MapCli_Model MapCli_Spec
  Streams_Proofs4 MapCli_Proofs LinkRef_Proofs Quantity_Model Quantity_Spec Quantity_Proofs2 Quantity_Proofs3 Quantity_Proofs4 IndexCli_Model QuantCli_Model QuantCli_Spec.
Local Open Scope nat_scope.

(** *** Rows by the names of columns *)

Lemma row_get_says cols : forall r k,
  (forall v, row_get k (combine cols r) = Some v <-> says cols r k v) /\
  (row_get k (combine cols r) = None <-> forall p, nth_error cols p = Some k -> nth_error r p = None).
Proof.
  induction cols as [|c cols IH]; intros r k.
  - cbn. split; [|split; auto; intros _ p; now destruct p]. intros v. split; [discriminate|]. intros ([|p] & H & _); discriminate H.
  - destruct r as [|x r].
    + cbn. split; [|split; auto; intros _ p; now destruct p]. intros v. split; [discriminate|]. intros ([|p] & _ & H & _); discriminate H.
    + cbn [combine row_get]. destruct (IH r k) as [I1 I2]. destruct (row_get k (combine cols r)) as [y|] eqn:E.
      * split.
        -- intros v. split.
           ++ intros H. inversion H; subst v. destruct (proj1 (I1 y) eq_refl) as (p & A & B & C). exists (S p). split; auto. split; auto.
              intros [|p'] Hp; [lia|]. apply C. lia.
           ++ intros ([|p] & A & B & C).
              ** destruct (proj1 (I1 y) eq_refl) as (p & A' & B' & _). assert (nth_error (x :: r) (S p) = None) by (apply C; [lia|exact A']). cbn in H. congruence.
              ** f_equal. assert (Some y = Some v); [|congruence]. apply I1. exists p. split; auto. split; auto. intros p' Hp Hk. apply (C (S p')); [lia|auto].
        -- split; [discriminate|]. intros H. destruct (proj1 (I1 y) eq_refl) as (p & A & B & _). specialize (H (S p) A). cbn in H. congruence.
      * assert (I2' := proj1 I2 eq_refl). destruct (text_eqb k c) eqn:Ek.
        -- apply text_eqb_iff in Ek. subst c. split.
           ++ intros v. split.
              ** intros H. inversion H; subst v. exists 0. split; auto. split; auto. intros [|p'] Hp Hk; [lia|]. now apply I2'.
              ** intros ([|p] & A & B & _); [cbn in B; congruence|]. specialize (I2' p A). cbn in B. congruence.
           ++ split; [discriminate|]. intros H. now specialize (H 0 eq_refl).
        -- assert (k <> c) by (intros ->; rewrite (proj2 (text_eqb_iff c c) eq_refl) in Ek; discriminate). split.
           ++ intros v. split; [discriminate|]. intros ([|p] & A & B & _); [cbn in A; congruence|]. specialize (I2' p A). cbn in B. congruence.
           ++ split; auto. intros _ [|p] Hk; [cbn in Hk; congruence|]. now apply I2'.
Qed.
Lemma get_iff cols r k v : row_get k (combine cols r) = Some v <-> says cols r k v.
Proof. apply row_get_says. Qed.
Lemma get_none cols r k : row_get k (combine cols r) = None <-> ~ reaches cols r k.
Proof.
  split.
  - intros E (v & H). apply get_iff in H. congruence.
  - intros H. destruct (row_get k (combine cols r)) eqn:E; auto. destruct H. exists t. now apply get_iff.
Qed.
Lemma says_one cols r k v w : says cols r k v -> says cols r k w -> v = w.
Proof. intros A B. apply get_iff in A. apply get_iff in B. congruence. Qed.
Lemma says_column cols r k v : says cols r k v -> In k cols.
Proof. intros (p & H & _). eapply nth_error_In, H. Qed.
Lemma row_at_ok cols r k v : row_at (combine cols r) k = Ok v <-> says cols r k v.
Proof. unfold row_at. rewrite <- get_iff. destruct (row_get k (combine cols r)); split; intros H; inversion H; auto. Qed.
Lemma row_at_err cols r k e : row_at (combine cols r) k = Err e -> e = KeyError /\ ~ reaches cols r k.
Proof. unfold row_at. destruct (row_get k (combine cols r)) eqn:E; [discriminate|]. intros H. inversion H. split; auto. now apply get_none. Qed.

(** *** Numbers *)

Lemma is_number_eq t q q' : (q == q')%Q -> is_number t q -> is_number t q'.
Proof.
  intros E (a & n & b & A & B & (s & k & ip & ft & fs & et & e & N) & D). exists a, n, b. split; [exact A|]. split; [exact B|]. split; [|exact D].
  exists s, k, ip, ft, fs, et, e. repeat (split; [apply N|]). rewrite <- E. apply N.
Qed.
Lemma number_some t q : number t = Some q -> is_number t q.
Proof.
  unfold number. destruct (sqlite_real t) as [x [|]] eqn:E; [|discriminate]. intros H. inversion H; subst x.
  destruct (real_spec _ _ _ E) as (_ & A & B). destruct (proj1 A eq_refl) as (q' & H'). eapply is_number_eq; [|exact H']. now apply B.
Qed.
Lemma number_none t : number t = None <-> forall q, ~ is_number t q.
Proof.
  unfold number. destruct (sqlite_real t) as [x b] eqn:E. destruct (real_spec _ _ _ E) as (_ & A & B). destruct b.
  - split; [discriminate|]. intros H. destruct (proj1 A eq_refl) as (q' & H'). now apply H in H'.
  - split; auto. intros _ q H. assert (false = true); [apply A; now exists q|discriminate].
Qed.
Lemma number_eq t q : is_number t q -> exists q', number t = Some q' /\ (q' == q)%Q.
Proof.
  intros H. destruct (number t) as [q'|] eqn:E; [|now apply (proj1 (number_none t) E) in H]. exists q'. split; auto.
  unfold number in E. destruct (sqlite_real t) as [x [|]] eqn:Er; [|discriminate]. inversion E; subst x. symmetry. now apply (real_spec _ _ _ Er).
Qed.

(** *** The quantity a row describes *)

Definition q_value (vc : text) (cols r : list text) : option Q :=
  match row_get vc (combine cols r) with Some t => number t | None => None end.
Definition q_of (vc : text) (labels names cols r : list text) : res q_row :=
  do attrs <- traverse (fun k => do v <- row_at (combine cols r) k; Ok (k, Some v)) names;
  do ls <- traverse (row_at (combine cols r)) labels;
  Ok {| qr_domain := row_get (txt "domain") (combine cols r); qr_labels := ls; qr_cells := attrs; qr_value := q_value vc cols r |}.
Lemma trav_ok {A B} (f : A -> res B) l bs : traverse f l = Ok bs <-> Forall2 (fun a b => f a = Ok b) l bs.
Proof. apply (Streams_Proofs4.traverse_iff f (fun a b => f a = Ok b)). reflexivity. Qed.
Lemma trav_err {A B} (f : A -> res B) l e : traverse f l = Err e -> exists a, In a l /\ f a = Err e.
Proof.
  induction l as [|x l IH]; cbn; [discriminate|]. destruct (f x) as [b|e'] eqn:E; cbn.
  - destruct (traverse f l) as [bs|e'] eqn:E'; cbn; [discriminate|]. intros H. inversion H; subst. destruct (IH eq_refl) as (a & Ha & Hf). exists a. auto.
  - intros H. inversion H; subst. exists x. auto.
Qed.

Lemma q_value_is vc cols r : value_is vc cols r (q_value vc cols r).
Proof.
  unfold q_value. destruct (row_get vc (combine cols r)) as [t|] eqn:E.
  - apply get_iff in E. destruct (number t) as [q|] eqn:En; cbn.
    + exists t. split; auto. now apply number_some.
    + intros t' q Ht. rewrite (says_one _ _ _ _ _ Ht E). now apply number_none.
  - apply get_none in E. intros t q Ht. destruct E. now exists t.
Qed.
Lemma value_is_same vc cols r v : value_is vc cols r v -> same_value v (q_value vc cols r).
Proof.
  intros H. pose proof (q_value_is vc cols r) as K. destruct v as [q|], (q_value vc cols r) as [q'|] eqn:E; cbn in *; auto.
  - destruct H as (t & A & B), K as (t' & A' & B'). rewrite (says_one _ _ _ _ _ A' A) in B'.
    destruct (number_eq _ _ B) as (x & X1 & X2), (number_eq _ _ B') as (y & Y1 & Y2). rewrite X1 in Y1. inversion Y1; subst. lra.
  - destruct H as (t & A & B). now apply (K t q A).
  - destruct K as (t & A & B). now apply (H t q' A).
Qed.
Lemma value_is_eq vc cols r v w : same_value v w -> value_is vc cols r v -> value_is vc cols r w.
Proof. destruct v, w; cbn; try easy. intros E (t & A & B). exists t. split; auto. eapply is_number_eq; eauto. Qed.

Section Row.
Context (vc : text) (s : store) (cols : list text).
Definition names_ : list text := filter (fun x => existsb (text_eqb x) cols) (s_registered s).
Lemma in_names k : In k names_ <-> In k (s_registered s) /\ In k cols.
Proof.
  unfold names_. rewrite filter_In, existsb_exists. split; intros (A & B); split; auto.
  - destruct B as (y & Hy & E). apply text_eqb_iff in E. now subst y.
  - exists k. split; auto. now apply text_eqb_iff.
Qed.
Notation read r := (q_of vc (d_labels (s_db s)) names_ cols r).

Lemma cells_ok r names attrs : traverse (fun k => do v <- row_at (combine cols r) k; Ok (k, Some v)) names = Ok attrs ->
  Forall2 (fun k p => exists v, p = (k, Some v) /\ says cols r k v) names attrs.
Proof.
  rewrite trav_ok. intros H. eapply Forall2_weaken; [|exact H]. intros k p E. cbn beta in E.
  destruct (row_at (combine cols r) k) as [v|] eqn:Er; [|discriminate]. inversion E. exists v. split; auto. now apply row_at_ok.
Qed.
Lemma cells_get r names attrs : Forall2 (fun k p => exists v, p = (k, Some v) /\ says cols r k v) names attrs ->
  forall k v, cell k attrs = Some v <-> In k names /\ says cols r k v.
Proof.
  induction 1 as [|k0 p names attrs (v0 & -> & S0) H IH]; intros k v; [cbn; easy|]. cbn [cell In]. destruct (text_eqb k k0) eqn:E.
  - apply text_eqb_iff in E. subst k0. split.
    + intros X. inversion X; subst. auto.
    + intros (_ & Hs). f_equal. eapply says_one; eauto.
  - assert (k <> k0) by (intros ->; rewrite (proj2 (text_eqb_iff k0 k0) eq_refl) in E; discriminate).
    rewrite IH. split; intros (A & B); split; auto. destruct A as [->|A]; [easy|auto].
Qed.
Lemma read_ok r q : read r = Ok q ->
  labels_are s cols r (qr_labels q) /\ (forall k v, names_value (s_registered s) (qr_cells q) k v <-> attribute_is s cols r k v) /\
  qr_value q = q_value vc cols r /\ qr_domain q = row_get (txt "domain") (combine cols r).
Proof.
  unfold q_of. destruct (traverse (fun k => _) names_) as [attrs|] eqn:Ea; [|discriminate]. cbn [bind].
  destruct (traverse (row_at _) _) as [ls|] eqn:El; [|discriminate]. cbn [bind]. intros H. inversion H. cbn. split; [|split; [|auto]].
  - apply trav_ok in El. eapply Forall2_weaken; [|exact El]. intros k v E. now apply row_at_ok.
  - intros k v. unfold names_value, attribute_is. rewrite (cells_get r _ _ (cells_ok r _ _ Ea)), in_names. split.
    + intros (A & B & _ & C). auto.
    + intros (A & B & C). repeat split; auto. eapply says_column, C.
Qed.
Lemma read_err r e : read r = Err e -> e = KeyError /\ ~ complete s cols r.
Proof.
  unfold q_of. destruct (traverse (fun k => _) names_) as [attrs|e1] eqn:Ea; cbn [bind].
  - destruct (traverse (row_at _) _) as [ls|e2] eqn:El; cbn [bind]; [discriminate|]. intros H. inversion H; subst e2.
    apply trav_err in El. destruct El as (k & Hk & E). apply row_at_err in E. destruct E as (-> & E). split; [reflexivity|]. intros C. apply E, C. auto.
  - intros H. inversion H; subst e1. apply trav_err in Ea. destruct Ea as (k & Hk & E). destruct (row_at (combine cols r) k) eqn:Er; [discriminate|].
    inversion E; subst. apply row_at_err in Er. destruct Er as (-> & Er). split; [reflexivity|]. intros C. apply Er, C. right. now apply in_names.
Qed.
Lemma read_complete r q : read r = Ok q -> complete s cols r.
Proof.
  intros H k Hk. unfold q_of in H. destruct (traverse (fun k => _) names_) as [attrs|] eqn:Ea; [|discriminate]. cbn [bind] in H.
  destruct (traverse (row_at _) _) as [ls|] eqn:El; [|discriminate]. destruct Hk as [Hk|Hk].
  - apply trav_ok in El. destruct (Forall2_in_l _ _ _ _ El Hk) as (v & _ & E). exists v. now apply row_at_ok.
  - apply in_names in Hk. destruct (Forall2_in_l _ _ _ _ (cells_ok r _ _ Ea) Hk) as (p & _ & v & _ & E). now exists v.
Qed.
Lemma read_total r : complete s cols r -> exists q, read r = Ok q.
Proof. intros C. destruct (read r) as [q|e] eqn:E; [now exists q|]. now destruct (read_err r e E). Qed.
Lemma read_length r q : read r = Ok q -> length (qr_labels q) = length (d_labels (s_db s)).
Proof. intros H. destruct (read_ok r q H) as (L & _). symmetry. clear -L. unfold labels_are in L. induction L; cbn; auto. Qed.
Lemma labels_one r l l' : labels_are s cols r l -> labels_are s cols r l' -> l = l'.
Proof.
  unfold labels_are. intros H. revert l'. induction H as [|k v ks vs S H IH]; intros l' H'; inversion H'; subst; auto.
  f_equal; [eapply says_one; eauto|auto].
Qed.
Lemma read_goes r q labels a : read r = Ok q -> dict a -> goes_to (s_registered s) labels a q <-> goes s cols labels a r.
Proof.
  intros H Hd. destruct (read_ok r q H) as (L & A & _). unfold goes_to, goes, has_attrs, row_attrs, attributed. split.
  - intros (<- & (k & v & K) & (_ & K')). split; auto. split; [exists k, v; now apply A|]. split; auto. intros k' v'. rewrite K'. apply A.
  - intros (L' & (k & v & K) & _ & K'). split; [eapply labels_one; eauto|]. split; [exists k, v; now apply A|]. split; auto. intros k' v'. rewrite K'. symmetry. apply A.
Qed.
Lemma read_attributed r q : read r = Ok q -> has_attrs (s_registered s) q <-> attributed s cols r.
Proof. intros H. destruct (read_ok r q H) as (_ & A & _). unfold has_attrs, attributed. split; intros (k & v & K); exists k, v; now apply A. Qed.
End Row.
