(** Lemmas for C61: loading a table. *)
From Coq Require Import NArith Permutation Lqa Lia.
From Verif Require Import Prelude QLemmas Selectors_Model Selectors_Proofs LinkRef_Model Db_Model Db_Spec Reader_Model Reader_Spec Reader_Proofs Mapper_Model MapCli_Model MapCli_Spec
  LinkRef_Proofs Quantity_Model Quantity_Spec Quantity_Proofs2 Quantity_Proofs3 Quantity_Proofs4 IndexCli_Model QuantCli_Model QuantCli_Spec QuantCli_Proofs.
Local Open Scope nat_scope.

(** *** One row *)

Lemma put_err pol l g v s e : Quantity_Model.put pol l g v s = Err e -> e = ValueError \/ e = SqlIntegrityError /\ v = None.
Proof.
  unfold Quantity_Model.put, quantity_find. destruct v as [q|]; cbn [quantity_add].
  - destruct (existsb (quantity_is l g) (s_quants s)) eqn:E; [|discriminate].
    destruct (find (quantity_is l g) (s_quants s)) as [x|] eqn:F.
    + destruct pol; cbn; intros H; inversion H; auto.
    + apply existsb_exists in E. destruct E as (x & Hx & E). rewrite (find_none _ _ F x Hx) in E. discriminate.
  - destruct (find (quantity_is l g) (s_quants s)) as [x|]; [destruct pol; cbn|]; intros H; inversion H; auto.
Qed.
Lemma put_missing_ok pol l g s x : put_missing pol l g s = Ok x <-> Quantity_Model.put pol l g None s = Ok x.
Proof. unfold put_missing, Quantity_Model.put. cbn [quantity_add]. destruct (quantity_find l g s); [destruct pol|]; cbn; split; intros H; inversion H; auto. Qed.
Lemma put_missing_err pol l g s e : put_missing pol l g s = Err e -> e = ValueError \/ e = KeyError.
Proof. unfold put_missing. destruct (quantity_find l g s); [destruct pol|]; intros H; inversion H; auto. Qed.

Lemma insert_row_err pol al ap s ev q e : insert_row pol al ap (s, ev) q = Err e ->
  e = ValueError \/ e = SqlIntegrityError /\ qr_value q = None /\ has_attrs (s_registered s) q.
Proof.
  unfold insert_row. destruct (match qr_domain q with Some d => _ | None => _ end); [intros H; inversion H; auto|].
  destruct (nil_b (attr_dict (s_registered s) (qr_cells q))) eqn:En; [discriminate|].
  assert (HA : has_attrs (s_registered s) q) by (apply has_attrs_iff; now apply nil_b_false).
  destruct (negb _ && negb ap); [intros H; inversion H; auto|]. destruct (negb (negb _) && negb al); [intros H; inversion H; auto|].
  unfold get_location. destruct (nil_b (qr_labels q)); [intros H; inversion H; auto|].
  destruct (find _ (s_locs s)) as [l|]; cbn [bind fst snd].
  1,2: unfold get_group; destruct (find _ _) as [g|]; cbn [bind fst snd]; [|destruct (existsb _ _); [intros H; inversion H; auto|]; cbn [bind fst snd]];
    (destruct (Quantity_Model.put _ _ _ _ _) as [p|e'] eqn:Ep; cbn [bind]; [discriminate|]; intros H; inversion H; subst e'; apply put_err in Ep; destruct Ep as [->|(-> & ->)]; auto).
Qed.

Section Table.
Context (vc : text) (pol : policy) (al ap : bool) (cols : list text).
Notation names s := (names_ s cols).
Notation read s r := (q_of vc (d_labels (s_db s)) (names s) cols r).
Notation load s st r := (load_row vc pol al ap (names s) cols st r).

Lemma attr_dict_names s r q : read s r = Ok q -> attr_dict (s_registered s) (qr_cells q) <> [] <-> attributed s cols r.
Proof. intros H. rewrite <- has_attrs_iff. now apply (read_attributed vc). Qed.

(** The value is there, or not needed; otherwise the result is an error too. *)
Lemma load_ok s ev r x : load s (s, ev) r = Ok x <-> exists q, read s r = Ok q /\ insert_row pol al ap (s, ev) q = Ok x.
Proof.
  unfold load_row. cbn [fst]. unfold q_of, q_value.
  destruct (traverse (fun k => _) (names s)) as [attrs|e1] eqn:Ea; cbn [bind].
  2:{ split; [destruct (match row_get _ _ with Some d => _ | None => _ end); discriminate|]. intros (q & H & _). discriminate H. }
  destruct (traverse (row_at _) _) as [ls|e2] eqn:El; cbn [bind].
  2:{ split; [destruct (match row_get (txt "domain") _ with Some d => _ | None => _ end); discriminate|]. intros (q & H & _). discriminate H. }
  set (mk := fun v => {| qr_domain := row_get (txt "domain") (combine cols r); qr_labels := ls; qr_cells := attrs; qr_value := v |}).
  assert (Dom : forall v, (match row_get (txt "domain") (combine cols r) with Some d => negb (text_eqb d (s_domain s)) | None => false end) = true ->
    insert_row pol al ap (s, ev) (mk v) = Err ValueError).
  { intros v E. unfold insert_row, mk. cbn [qr_domain]. now rewrite E. }
  destruct (match row_get (txt "domain") (combine cols r) with Some d => negb (text_eqb d (s_domain s)) | None => false end) eqn:Ed.
  { split; [discriminate|]. intros (q & H & K). inversion H; subst q. fold (mk (match row_get vc (combine cols r) with Some t => number t | None => None end)) in K.
    rewrite Dom in K; [discriminate|auto]. }
  destruct (row_get vc (combine cols r)) as [t|] eqn:Ev.
  - split; [intros H; eexists; split; [reflexivity|exact H]|]. intros (q & H & K). inversion H; subst q. exact K.
  - assert (K : insert_missing pol al ap (s, ev) attrs ls = Ok x <-> insert_row pol al ap (s, ev) (mk None) = Ok x).
    { unfold insert_missing, insert_row, mk. cbn [qr_domain qr_cells qr_labels qr_value]. rewrite Ed.
      destruct (nil_b (attr_dict _ _)); [reflexivity|]. destruct (negb _ && negb ap); [reflexivity|]. destruct (negb (negb _) && negb al); [reflexivity|].
      destruct (get_location ls s) as [lx|]; cbn [bind]; [|reflexivity]. destruct (get_group _ (fst lx)) as [gx|]; cbn [bind]; [|reflexivity].
      pose proof (put_missing_ok pol (snd lx) (snd gx) (fst gx)) as P.
      destruct (put_missing pol (snd lx) (snd gx) (fst gx)) as [p|e] eqn:Ep, (Quantity_Model.put pol (snd lx) (snd gx) None (fst gx)) as [p'|e'] eqn:Ep'; cbn [bind].
      - assert (Ok p' = Ok p) by (apply P; reflexivity). inversion H. reflexivity.
      - assert (Err e' = Ok p) by (apply P; reflexivity). discriminate.
      - assert (Err e = Ok p') by (apply P; reflexivity). discriminate.
      - split; discriminate. }
    rewrite K. split; [intros H; eexists; split; [reflexivity|exact H]|]. intros (q & H & K'). inversion H; subst q. exact K'.
Qed.
Lemma load_err s ev r e : load s (s, ev) r = Err e ->
  e = ValueError \/
  e = KeyError /\ (~ complete s cols r \/ attributed s cols r /\ ~ reaches cols r vc) \/
  e = SqlIntegrityError /\ attributed s cols r /\ value_is vc cols r None.
Proof.
  intros H. destruct (read s r) as [q|e'] eqn:Er.
  - pose proof (attr_dict_names s r q Er) as HA. pose proof (read_attributed vc s cols r q Er) as HB. pose proof (read_ok vc s cols r q Er) as (_ & _ & Hv & _).
    unfold load_row in H. cbn [fst] in H. unfold q_of in Er.
    destruct (match row_get (txt "domain") (combine cols r) with Some d => _ | None => _ end); [inversion H; auto|].
    destruct (traverse (fun k => _) (names s)) as [attrs|e1] eqn:Ea; cbn [bind] in *; [|discriminate].
    destruct (traverse (row_at _) _) as [ls|e2] eqn:El; cbn [bind] in *; [|discriminate]. inversion Er; subst q; clear Er. cbn [qr_cells qr_value] in *.
    destruct (row_get vc (combine cols r)) as [t|] eqn:Ev.
    + apply insert_row_err in H. cbn [qr_value] in H. destruct H as [->|(-> & Hn & Ha)]; auto. right. right. split; auto. split.
      * apply HB. exact Ha.
      * pose proof (q_value_is vc cols r) as K. unfold q_value in K. now rewrite Ev, Hn in K.
    + unfold insert_missing in H. destruct (nil_b (attr_dict (s_registered s) attrs)) eqn:En; [discriminate|].
      apply nil_b_false in En. apply HA in En. apply get_none in Ev.
      destruct (negb _ && negb ap); [inversion H; auto|]. destruct (negb (negb _) && negb al); [inversion H; auto|].
      unfold get_location in H. destruct (nil_b ls); [inversion H; auto|].
      destruct (find _ (s_locs s)) as [l|]; cbn [bind fst snd] in H; unfold get_group in H;
        (destruct (find _ _) as [g|]; cbn [bind fst snd] in H; [|destruct (existsb _ _); [inversion H; auto|]; cbn [bind fst snd] in H]);
        (destruct (put_missing _ _ _ _) as [p|e'] eqn:Ep; cbn [bind] in H; [discriminate|]; inversion H; subst e'; apply put_missing_err in Ep; destruct Ep as [->| ->]; auto 6).
  - destruct (read_err vc s cols r e' Er) as (-> & C). unfold load_row in H. cbn [fst] in H. unfold q_of in Er.
    destruct (match row_get (txt "domain") (combine cols r) with Some d => _ | None => _ end); [inversion H; auto|].
    destruct (traverse (fun k => _) (names s)) as [attrs|e1] eqn:Ea; cbn [bind] in *; [|inversion Er; inversion H; subst; auto].
    destruct (traverse (row_at _) _) as [ls|e2] eqn:El; cbn [bind] in *; [discriminate|]. inversion Er; inversion H; subst; auto.
Qed.

(** *** All rows *)

Lemma names_rest s s' : same_rest s s' -> names s' = names s.
Proof. intros (_ & _ & _ & _ & E). unfold names_. now rewrite E. Qed.
Lemma fold_load rows : forall s ev x, store_wf s ->
  fold_res (load_row vc pol al ap (names s) cols) rows (s, ev) = Ok x <->
  exists qs, Forall2 (fun r q => read s r = Ok q) rows qs /\ fold_res (insert_row pol al ap) qs (s, ev) = Ok x.
Proof.
  induction rows as [|r rows IH]; intros s ev x W; cbn [fold_res].
  - split.
    + intros H. exists []. split; [constructor|exact H].
    + intros (qs & F & H). inversion F; subst. exact H.
  - split.
    + destruct (load s (s, ev) r) as [[s1 ev1]|] eqn:E; cbn [bind]; [|discriminate]. intros H.
      apply load_ok in E. destruct E as (q & Eq & Ei).
      destruct (insert_row_wf _ _ _ _ _ _ _ _ W (read_length vc s cols r q Eq) Ei) as (W1 & R1). rewrite <- (names_rest _ _ R1) in H.
      apply (IH s1 ev1 x W1) in H. destruct H as (qs & F & H). rewrite (names_rest _ _ R1) in F. destruct R1 as (Edb & _). rewrite Edb in F.
      exists (q :: qs). split; [constructor; auto|]. cbn [fold_res]. rewrite Ei. exact H.
    + intros (qs & F & H). inversion F as [|r' q rows' qs' Eq F' E1 E2]; subst. cbn [fold_res] in H.
      destruct (insert_row pol al ap (s, ev) q) as [[s1 ev1]|] eqn:Ei; cbn [bind] in H; [|discriminate].
      assert (E : load s (s, ev) r = Ok (s1, ev1)) by (apply load_ok; exists q; auto). rewrite E. cbn [bind].
      destruct (insert_row_wf _ _ _ _ _ _ _ _ W (read_length vc s cols r q Eq) Ei) as (W1 & R1). rewrite <- (names_rest _ _ R1).
      apply IH; auto. exists qs'. split; auto. rewrite (names_rest _ _ R1). destruct R1 as (Edb & _). now rewrite Edb.
Qed.
(** What is needed of the rows does not change while they are loaded. *)
Definition needs (s : store) (r : list text) (e : exn) : Prop :=
  e = ValueError \/
  e = KeyError /\ (~ complete s cols r \/ attributed s cols r /\ ~ reaches cols r vc) \/
  e = SqlIntegrityError /\ attributed s cols r /\ value_is vc cols r None.
Lemma needs_rest s s' r e : same_rest s s' -> needs s' r e -> needs s r e.
Proof.
  intros (A & _ & _ & _ & B). unfold needs, complete, attributed, attribute_is. now rewrite A, B.
Qed.
Lemma fold_load_err rows : forall s ev e, store_wf s ->
  fold_res (load_row vc pol al ap (names s) cols) rows (s, ev) = Err e -> exists r, In r rows /\ needs s r e.
Proof.
  induction rows as [|r rows IH]; intros s ev e W; cbn [fold_res]; [discriminate|].
  destruct (load s (s, ev) r) as [[s1 ev1]|e'] eqn:E; cbn [bind].
  - intros H. apply load_ok in E. destruct E as (q & Eq & Ei).
    destruct (insert_row_wf _ _ _ _ _ _ _ _ W (read_length vc s cols r q Eq) Ei) as (W1 & R1). rewrite <- (names_rest _ _ R1) in H.
    destruct (IH s1 ev1 e W1 H) as (r' & Hr & N). exists r'. split; [now right|]. eapply needs_rest; eauto.
  - intros H. inversion H; subst e'. exists r. split; [now left|]. exact (load_err s ev r e E).
Qed.

Lemma verify_iff required : verify_columns cols required = Ok tt <-> incl required cols.
Proof.
  unfold verify_columns. destruct (forallb _ required) eqn:E.
  - split; auto. intros _ k Hk. rewrite forallb_forall in E. specialize (E k Hk). apply existsb_exists in E.
    destruct E as (y & Hy & E). apply text_eqb_iff in E. now subst.
  - split; [discriminate|]. intros H. exfalso. rewrite <- Bool.not_true_iff_false in E. apply E. apply forallb_forall. intros k Hk. apply existsb_exists. exists k. split; [now apply H|now apply text_eqb_iff].
Qed.
Lemma verify_err required e : verify_columns cols required = Err e -> e = ValueError.
Proof. unfold verify_columns. destruct (forallb _ required); intros H; inversion H; auto. Qed.
Lemma required_iff s : incl (d_labels (s_db s) ++ names s ++ [vc]) cols <-> has_columns vc s cols.
Proof.
  unfold has_columns. split.
  - intros H. split; [apply H; rewrite !in_app_iff; cbn; auto|]. intros k Hk. apply H. rewrite !in_app_iff. auto.
  - intros (A & B) k. rewrite !in_app_iff. intros [H|[H|[->|[]]]]; auto. now apply in_names in H.
Qed.
Lemma table_ok rows s x : store_wf s ->
  insert_table vc pol al ap (cols :: rows) s = Ok x <->
  has_columns vc s cols /\ exists qs, Forall2 (fun r q => read s r = Ok q) rows qs /\ insert_quantities2 pol al ap qs s = Ok x.
Proof.
  intros W. unfold insert_table, insert_quantities2. cbn [header_of body_of]. destruct (nil_b (s_registered s)) eqn:En.
  { split; [discriminate|]. intros (_ & qs & _ & H). discriminate H. }
  fold (names s). rewrite <- (required_iff s). destruct (verify_columns cols (d_labels (s_db s) ++ names s ++ [vc])) as [[]|e] eqn:Ev; cbn [bind].
  - apply verify_iff in Ev. rewrite (fold_load rows s [] x W). split; [auto|]. intros (_ & H). exact H.
  - split; [discriminate|]. intros (H & _). apply verify_iff in H. congruence.
Qed.
Lemma table_err rows s e : store_wf s -> insert_table vc pol al ap (cols :: rows) s = Err e ->
  e = ToronError /\ s_registered s = [] \/ s_registered s <> [] /\ (e = ValueError \/ exists r, In r rows /\ needs s r e).
Proof.
  intros W. unfold insert_table. cbn [header_of body_of]. destruct (nil_b (s_registered s)) eqn:En.
  { intros H. inversion H. left. split; auto. now apply nil_b_iff. }
  apply nil_b_false in En. intros H. right. split; auto. fold (names s) in H.
  destruct (verify_columns cols (d_labels (s_db s) ++ names s ++ [vc])) as [[]|e'] eqn:Ev; cbn [bind] in H.
  - right. eapply fold_load_err; eauto.
  - left. inversion H; subst. eapply verify_err; eauto.
Qed.

(** *** Values that come in *)

Lemma Forall2_filter {A B} (R : A -> B -> Prop) (f : A -> bool) (g : B -> bool) l m :
  Forall2 (fun a b => R a b /\ f a = g b) l m -> Forall2 R (filter f l) (filter g m).
Proof. induction 1 as [|a b l m (H & E) F IH]; cbn; [constructor|]. rewrite E. destruct (g b); auto. Qed.
Lemma Forall2_conj_in {A B} (R S : A -> B -> Prop) l m : Forall2 R l m -> (forall a b, In a l -> In b m -> R a b -> S a b) -> Forall2 S l m.
Proof.
  induction 1 as [|a b l m H F IH]; intros K; constructor; [apply K; auto; now left|]. apply IH. intros a' b' Ha Hb. apply K; now right.
Qed.
Definition hit (s : store) (labels : list text) (a : row) : q_row -> bool :=
  hits (taken2 (s_registered s)) (fun r => attr_dict (s_registered s) (qr_cells r)) labels a.
Lemma coming_in s rows qs labels a vs : dict a -> Forall2 (fun r q => read s r = Ok q) rows qs ->
  coming vc s cols rows labels a vs -> exists vs', incoming (s_registered s) qs labels a vs' /\ Forall2 same_value vs vs'.
Proof.
  intros Hd F (sel & Hsel & Hv). exists (map qr_value (filter (hit s labels a) qs)). split; [now apply incoming_iff|].
  assert (K : Forall2 (fun r q => read s r = Ok q /\ sel r = hit s labels a q) rows qs).
  { eapply Forall2_conj_in; [exact F|]. intros r q Hr _ E. split; auto. apply Bool.eq_true_iff_eq. rewrite (Hsel r Hr). unfold hit. rewrite (hits2_iff _ _ _ _ Hd).
    symmetry. now apply (read_goes vc). }
  apply Forall2_filter in K. clear -Hv K. revert vs Hv. induction K as [|r q rs qs0 E K IH]; intros vs Hv; inversion Hv as [|r' v rs' vs' V Hv' E1 E2]; subst; cbn; constructor; auto.
  destruct (read_ok vc s cols r q E) as (_ & _ & -> & _). now apply value_is_same.
Qed.
Lemma in_coming s rows qs labels a : dict a -> Forall2 (fun r q => read s r = Ok q) rows qs ->
  coming vc s cols rows labels a (map qr_value (filter (hit s labels a) qs)).
Proof.
  intros Hd F. exists (fun r => match read s r with Ok q => hit s labels a q | Err _ => false end). split.
  - intros r Hr. destruct (Forall2_in_l _ _ _ _ F Hr) as (q & _ & E). rewrite E. unfold hit. rewrite (hits2_iff _ _ _ _ Hd). now apply (read_goes vc).
  - assert (K : Forall2 (fun r q => read s r = Ok q /\ match read s r with Ok q => hit s labels a q | Err _ => false end = hit s labels a q) rows qs).
    { eapply Forall2_conj_in; [exact F|]. intros r q _ _ E. split; auto. now rewrite E. }
    apply Forall2_filter in K. clear -K. induction K as [|r q rs qs0 E K IH]; cbn; constructor; auto.
    destruct (read_ok vc s cols r q E) as (_ & _ & -> & _). apply q_value_is.
Qed.
Lemma same_sum vs vs' : Forall2 same_value vs vs' -> (Qsum (map val vs) == Qsum (map val vs'))%Q.
Proof. induction 1 as [|a b l m H F IH]; cbn [map]; rewrite ?Qsum_cons, ?Qsum_nil; [reflexivity|]. rewrite IH. destruct a, b; cbn in *; try easy; lra. Qed.
Lemma Forall2_rev_ {A B} (R : A -> B -> Prop) l m : Forall2 R l m -> Forall2 R (rev l) (rev m).
Proof. induction 1; cbn; [constructor|]. apply Forall2_app; auto. Qed.
Lemma settle_values p old vs vs' : Forall2 same_value vs vs' -> same_value (settle p old vs) (settle p old vs').
Proof.
  intros H. pose proof (same_sum _ _ H) as S.
  assert (F : forall d, same_value (match vs with [] => d | v :: _ => v end) (match vs' with [] => d | v :: _ => v end)) by (intros d; destruct H; auto; apply same_value_refl).
  assert (L : same_value (match rev vs with [] => old | v :: _ => v end) (match rev vs' with [] => old | v :: _ => v end)).
  { pose proof (Forall2_rev_ _ _ _ H) as R. destruct R; auto. apply same_value_refl. }
  unfold settle. destruct p; auto; destruct old as [q|]; try apply same_value_refl; auto; try exact (F None).
  - cbn. rewrite S. reflexivity.
  - destruct H; cbn; auto.
Qed.
End Table.
