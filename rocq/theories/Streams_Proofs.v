From Coq Require Import NArith.
From Verif Require Import Prelude Selectors_Model BitFlags_Model IndexCode_Model IndexCode_Spec IndexCode_Proofs IndexCode_Proofs2 IndexCode_Proofs3
  Selectors_Proofs LinkRef_Proofs Streams_Model Streams_Spec.
Local Open Scope nat_scope.

(** *** Iterators *)
Lemma chain_app {A} (l m : list A) s : chain (l ++ m) s = chain l (chain m s).
Proof. induction l; cbn [chain app]; congruence. Qed.
Lemma reads_exists {A} (s : stream A) : exists l e, reads s l e.
Proof. induction s as [|e|a s (l & e & IH)]; eauto using @reads. Qed.
Lemma reads_fun {A} (s : stream A) l e : reads s l e -> forall l' e', reads s l' e' -> l = l' /\ e = e'.
Proof.
  induction 1; intros l' e' H'; inversion H'; subst; auto.
  destruct (IHreads _ _ H4) as [-> ->]. auto.
Qed.
Lemma reads_inj {A} (s : stream A) l e : reads s l e -> forall s', reads s' l e -> s = s'.
Proof. induction 1; intros s' H'; inversion H'; subst; auto. f_equal. auto. Qed.
Lemma reads_chain {A} (l m : list A) s e : reads s m e -> reads (chain l s) (l ++ m) e.
Proof. intro H. induction l; cbn [chain app]; [exact H | constructor; auto]. Qed.

Lemma islice_ok {A} n : forall (s : stream A) l s', islice n s = Ok (l, s') ->
  chain l s' = s /\ length l <= n.
Proof.
  induction n as [|n IH]; intros s l s' H; cbn [islice] in H.
  - injection H as <- <-. cbn. split; [reflexivity | lia].
  - destruct s as [|e|a s]; try discriminate.
    + injection H as <- <-. cbn. split; [reflexivity | lia].
    + destruct (islice n s) as [[m t]|] eqn:E; cbn [bind] in H; [|discriminate]. injection H as <- <-.
      destruct (IH _ _ _ E) as [<- L]. cbn. split; [reflexivity | lia].
Qed.
Lemma islice_reads {A} n : forall (s : stream A) l e, reads s l e -> e = None \/ n <= length l ->
  exists s', islice n s = Ok (firstn n l, s') /\ reads s' (skipn n l) e.
Proof.
  induction n as [|n IH]; intros s l e R D.
  - exists s. split; [reflexivity | exact R].
  - inversion R; subst; cbn [islice firstn skipn].
    + exists Stop. split; [reflexivity | constructor].
    + destruct D as [D|D]; [discriminate | cbn in D; lia].
    + destruct (IH _ _ _ H) as (s' & E & R'); [destruct D as [D|D]; [left; exact D | right; cbn in D; lia]|].
      rewrite E. cbn [bind]. exists s'. auto.
Qed.
Lemma islice_ok_reads {A} n (s : stream A) l e m s' : reads s l e -> islice n s = Ok (m, s') -> m = firstn n l /\ reads s' (skipn n l) e.
Proof.
  revert s l e m s'. induction n as [|n IH]; intros s l e m s' R H; cbn [islice] in H.
  - injection H as <- <-. split; [reflexivity | exact R].
  - inversion R; subst; cbn [firstn skipn]; try discriminate.
    + injection H as <- <-. split; [reflexivity | constructor].
    + destruct (islice n s0) as [[m' t]|] eqn:E; cbn [bind] in H; [|discriminate]. injection H as <- <-.
      destruct (IH _ _ _ _ _ H0 E) as [-> R']. auto.
Qed.
Lemma islice_agree {A} n m : forall (s t : stream A), agree (n + m) s t ->
  match islice n s, islice n t with
  | Ok (l, s'), Ok (l', t') => l = l' /\ (length l < n -> s' = Stop /\ t' = Stop) /\ agree m s' t'
  | Err e, Err e' => e = e'
  | _, _ => False
  end.
Proof.
  induction n as [|n IH]; intros s t H; cbn [islice].
  - split; [reflexivity|]. split; [cbn; lia | exact H].
  - inversion H as [|?|?|k a s1 t1 H1]; subst.
    + split; [reflexivity|]. split; [auto|]. destruct m; constructor.
    + reflexivity.
    + specialize (IH _ _ H1). destruct (islice n s1) as [[l s']|e], (islice n t1) as [[l' t']|e']; cbn [bind]; auto.
      destruct IH as (-> & S & A1). split; [reflexivity|]. split; [|exact A1]. cbn [length]. intro L. apply S. lia.
Qed.
Lemma agree_refl {A} n : forall s : stream A, agree n s s.
Proof. induction n as [|n IH]; intros s; [constructor|]. destruct s; constructor. apply IH. Qed.
Lemma agree_le {A} n : forall (s t : stream A), agree n s t -> forall m, m <= n -> agree m s t.
Proof. induction 1; intros m L; destruct m; try lia; constructor. apply IHagree. lia. Qed.

Lemma smap_row_by_row {A B} (f : A -> res B) (R : A -> B -> Prop) s :
  (forall a b, f a = Ok b <-> R a b) -> row_by_row R s (smap f s).
Proof.
  intros F l e H. induction H as [|e|a s l e H (l' & e' & R' & D)]; cbn [smap].
  - exists [], None. split; [constructor|]. left. auto.
  - exists [], (Some e). split; [constructor|]. left. auto.
  - destruct (f a) as [b|x] eqn:E.
    + exists (b :: l'), e'. split; [constructor; exact R'|]. destruct D as [[D ->] | (dn & a' & rest & x & -> & D & N & ->)].
      * left. split; [constructor; [apply F; exact E | exact D] | reflexivity].
      * right. exists (a :: dn), a', rest, x. split; [reflexivity|]. split; [constructor; [apply F; exact E | exact D]|]. auto.
    + exists [], (Some x). split; [constructor|]. right. exists [], a, l, x. split; [reflexivity|]. split; [constructor|].
      split; [|reflexivity]. intros b Hb. apply F in Hb. congruence.
Qed.

(** *** Cells *)
Lemma cell_eqb_eq a b : cell_eqb a b = true <-> a = b.
Proof.
  destruct a, b; cbn [cell_eqb]; try (split; [discriminate | discriminate || (intro H; discriminate H)]).
  - rewrite text_eqb_iff. split; [intros -> | intros [= ->]]; reflexivity.
  - split; reflexivity.
  - rewrite Z.eqb_eq. split; [intros -> | intros [= ->]]; reflexivity.
Qed.
Lemma cell_eqb_refl a : cell_eqb a a = true.
Proof. apply cell_eqb_eq. reflexivity. Qed.
Lemma cell_eqb_neq a b : cell_eqb a b = false <-> a <> b.
Proof. rewrite <- cell_eqb_eq. destruct (cell_eqb a b); split; congruence. Qed.
Lemma dict_find_some k d v : dict_find k d = Some v -> In (k, v) d.
Proof.
  induction d as [|[k' v'] d IH]; cbn [dict_find]; [discriminate|]. destruct (cell_eqb k k') eqn:E.
  - apply cell_eqb_eq in E. subst. intros [= ->]. left. reflexivity.
  - intro H. right. auto.
Qed.
Lemma dict_find_none k d : dict_find k d = None <-> ~ In k (map fst d).
Proof.
  induction d as [|[k' v'] d IH]; cbn [dict_find map fst In]; [split; auto|]. destruct (cell_eqb k k') eqn:E.
  - apply cell_eqb_eq in E. subst. split; [discriminate | intro H; exfalso; apply H; left; reflexivity].
  - apply cell_eqb_neq in E. rewrite IH. split; [intros H [->|H']; auto | intros H H'; apply H; right; exact H'].
Qed.
Lemma dict_get_value k d : value_of d k (dict_get k d).
Proof.
  unfold dict_get, value_of. destruct (dict_find k d) as [v|] eqn:E.
  - left. apply dict_find_some. exact E.
  - right. split; [apply dict_find_none; exact E | reflexivity].
Qed.
Lemma value_of_fun d k c c' : NoDup (map fst d) -> value_of d k c -> value_of d k c' -> c = c'.
Proof.
  intros Nd [H|[H ->]] [H'|[H' ->]]; try reflexivity.
  - revert Nd H H'. induction d as [|[k0 v0] d IH]; [intros _ []|]. cbn [map fst]. intro Nd. inversion_clear Nd as [|? ? N1 N2].
    intros [E1|H1] [E2|H2].
    + congruence.
    + injection E1 as -> ->. exfalso. apply N1. apply (in_map fst) in H2. exact H2.
    + injection E2 as -> ->. exfalso. apply N1. apply (in_map fst) in H1. exact H1.
    + auto.
  - exfalso. apply H'. apply (in_map fst) in H. exact H.
  - exfalso. apply H. apply (in_map fst) in H'. exact H'.
Qed.

(** *** Kinds of data *)
Lemma smap_get columns ds s e : reads s (map RMap ds) e ->
  reads (smap (get_row columns) s) (map (fun d => RSeq (map (fun x => dict_get x d) columns)) ds) e.
Proof.
  revert s. induction ds as [|d ds IH]; intros s R; inversion R; subst; cbn [smap map get_row].
  - constructor.
  - constructor.
  - constructor. apply IH. assumption.
Qed.
Lemma get_rows_spec columns ds : Forall2 (fun d r => exists l, r = RSeq l /\ Forall2 (value_of d) columns l) ds
  (map (fun d => RSeq (map (fun x => dict_get x d) columns)) ds).
Proof.
  induction ds as [|d ds IH]; cbn [map]; constructor; [|exact IH]. eexists. split; [reflexivity|].
  clear IH. induction columns as [|k columns IH]; cbn [map]; [constructor|]. constructor; [apply dict_get_value | exact IH].
Qed.
