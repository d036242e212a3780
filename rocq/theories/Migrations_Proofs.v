(** Proofs about the upgrade of files. *)
From Verif Require Import Prelude QLemmas BitFlags_Model BitFlags_Spec BitFlags_Proofs Selectors_Model Selectors_Proofs
  SelectorParse_Model LinkRef_Model Db_Model Db_Proofs Db_ProofsLocal Reader_Model Reader_Proofs Migrations_Model Migrations_Spec.
From Coq Require Import Permutation Sorted Lqa.
Local Open Scope nat_scope.

Lemma unique_iff {A} (dec : forall x y : A, {x = y} + {x <> y}) l : unique dec l = true <-> NoDup l.
Proof.
  induction l as [|x l IH]; cbn [unique]; [split; auto; constructor|].
  rewrite andb_true_iff, negb_true_iff, IH. destruct (in_dec dec x l) as [H|H].
  - split; [intros [Q _]; discriminate|]. intros Q. inversion Q. contradiction.
  - split; [intros [_ Q]; now constructor|]. intros Q. inversion Q. auto.
Qed.

Lemma traverse_ok {A B} (f : A -> res B) l bs : traverse f l = Ok bs -> Forall2 (fun a b => f a = Ok b) l bs.
Proof.
  revert bs. induction l as [|a l IH]; intros bs H; cbn in H.
  - apply Ok_inj in H. subst. constructor.
  - apply bind_ok in H. destruct H as (b & H1 & H). apply bind_ok in H. destruct H as (bs' & H2 & H).
    apply Ok_inj in H. subst. constructor; auto.
Qed.
Lemma traverse_total {A B} (f : A -> res B) l : (forall a, In a l -> exists b, f a = Ok b) -> exists bs, traverse f l = Ok bs.
Proof.
  induction l as [|a l IH]; intros H; [cbn; eauto|].
  destruct (H a (or_introl eq_refl)) as (b & E). destruct IH as (bs & E'); [intros; apply H; now right|].
  exists (b :: bs). cbn. rewrite E. cbn [bind]. fold (traverse f l). rewrite E'. reflexivity.
Qed.

(** *** Quantities *)

Lemma sum_step_number a v b : sum_step a v = Ok b -> (number b == number a + number v)%Q.
Proof.
  destruct a, v; cbn [sum_step number]; try (intros H; apply Ok_inj in H; subst b; cbn [number]; reflexivity).
  destruct (in_i64 (z + z0)); [|discriminate]. intros H. apply Ok_inj in H. subst b. cbn [number]. rewrite inject_Z_plus. reflexivity.
Qed.
Lemma sum_fold_number vs : forall a b, fold_res sum_step vs a = Ok b -> (number b == number a + Qsum (map number vs))%Q.
Proof.
  induction vs as [|v vs IH]; intros a b H; cbn [fold_res] in H.
  - apply Ok_inj in H. subst. unfold Qsum. cbn. lra.
  - apply bind_ok in H. destruct H as (c & H1 & H). apply IH in H. apply sum_step_number in H1.
    unfold Qsum in *. cbn [map fold_right]. lra.
Qed.

Definition key_is (k : option Z * option Z) (q : qty) : bool := if qty_key_dec (qty_key q) k then true else false.
Lemma key_is_iff k q : key_is k q = true <-> qty_key q = k.
Proof. unfold key_is. destruct (qty_key_dec (qty_key q) k); split; congruence. Qed.

Lemma first_keys_spec l : forall seen, NoDup (first_keys seen l) /\
  (forall k, In k (first_keys seen l) <-> ~ In k seen /\ exists q, In q l /\ qty_key q = k).
Proof.
  induction l as [|q l IH]; intros seen; cbn [first_keys].
  - split; [constructor|]. intros k. split; [intros []|]. intros (_ & q & [] & _).
  - destruct (in_dec qty_key_dec (qty_key q) seen) as [H|H].
    + destruct (IH seen) as [N I]. split; [exact N|]. intros k. rewrite I. split.
      * intros (Hn & q' & Hq & E). split; auto. exists q'. split; [now right|auto].
      * intros (Hn & q' & [<-|Hq] & E); [subst k; contradiction|]. split; auto. eauto.
    + destruct (IH (qty_key q :: seen)) as [N I]. split.
      * constructor; auto. rewrite I. intros [Q _]. apply Q. now left.
      * intros k. cbn [In]. rewrite I. cbn [In]. split.
        -- intros [<-|(Hn & q' & Hq & E)].
           ++ split; auto. exists q. auto.
           ++ split; [tauto|]. exists q'. auto.
        -- intros (Hn & q' & [<-|Hq] & E); [now left|]. destruct (qty_key_dec (qty_key q) k) as [Q|Q]; [now left|].
           right. split; [tauto|]. eauto.
Qed.

Lemma min_id_spec l : forall i, (min_id i l <= i)%Z /\ (forall q, In q l -> min_id i l <= q_id q)%Z /\
  (min_id i l = i \/ exists q, In q l /\ q_id q = min_id i l).
Proof.
  induction l as [|q l IH]; intros i; cbn [min_id].
  - split; [lia|]. split; [intros q []|auto].
  - destruct (IH (Z.min i (q_id q))) as (A & B & C). split; [lia|]. split.
    + intros q' [<-|H]; [lia|auto].
    + destruct C as [C|(q' & H & C)]; [|right; exists q'; split; [now right|auto]].
      destruct (Z.min_spec i (q_id q)) as [[_ E]|[_ E]]; rewrite E in *; [auto|right; exists q; split; [now left|lia]].
Qed.

(** A row of the new table. *)
Definition grouped (qs : list qty) (k : option Z * option Z) (r : qty) : Prop :=
  qty_key r = k /\ q_loc r <> None /\ q_grp r <> None /\
  (number (q_val r) == Qsum (map (fun q => if key_is k q then number (q_val q) else 0%Q) qs))%Q /\
  (exists q, In q qs /\ qty_key q = k /\ q_id q = q_id r) /\
  (forall q, In q qs -> qty_key q = k -> q_id r <= q_id q)%Z.
Lemma qsum_filter (p : qty -> bool) (g : qty -> Q) l :
  (Qsum (map (fun q => if p q then g q else 0) l) == Qsum (map g (filter p l)))%Q.
Proof.
  unfold Qsum. induction l as [|q l IH]; cbn [map filter fold_right]; [reflexivity|].
  destruct (p q); cbn [map fold_right]; rewrite IH; lra.
Qed.
Lemma group_row_spec qs k r : group_row qs k = Ok r -> grouped qs k r.
Proof.
  unfold group_row. fold (key_is k).
  destruct (filter (key_is k) qs) as [|q rest] eqn:F; [discriminate|]. intros H. apply bind_ok in H. destruct H as (v & S & H).
  destruct k as [[l|] [g|]]; try discriminate. apply Ok_inj in H. subst r.
  assert (I : forall x, In x (q :: rest) <-> In x qs /\ qty_key x = (Some l, Some g)).
  { intros x. rewrite <- F, filter_In, key_is_iff. tauto. }
  unfold grouped. cbn [q_loc q_grp q_val q_id fst snd]. split; [reflexivity|]. split; [discriminate|]. split; [discriminate|].
  destruct (min_id_spec rest (q_id q)) as (M1 & M2 & M3). split; [|split].
  - rewrite qsum_filter, F. unfold sum_values in S. apply sum_fold_number in S. rewrite S, map_map. change (number (VInt 0)) with 0%Q. rewrite Qplus_0_l. reflexivity.
  - destruct M3 as [->|(q' & H & E)].
    + exists q. split; [apply I; now left|]. split; [apply I; now left|auto].
    + exists q'. split; [apply I; now right|]. split; [apply I; now right|auto].
  - intros x Hx Kx. destruct (proj2 (I x)) as [<-|H]; auto.
Qed.

Lemma step03_spec f f' : step03 f = Ok f' ->
  f' = with_qtys (f_qtys f') f /\ NoDup (map q_id (f_qtys f')) /\ NoDup (map qty_key (f_qtys f')) /\
  (forall r, In r (f_qtys f') -> grouped (f_qtys f) (qty_key r) r) /\
  (forall q, In q (f_qtys f) -> exists r, In r (f_qtys f') /\ qty_key r = qty_key q).
Proof.
  unfold step03. intros H. apply bind_ok in H. destruct H as (rows & T & H).
  destruct (unique Z.eq_dec (map q_id rows) && unique qty_key_dec (map qty_key rows)) eqn:U; [|discriminate].
  apply Ok_inj in H. subst f'. cbn [with_qtys f_qtys]. apply andb_true_iff in U. destruct U as [U1 U2].
  apply unique_iff in U1. apply unique_iff in U2. apply traverse_ok in T.
  assert (G : Forall2 (fun k r => grouped (f_qtys f) k r) (first_keys [] (f_qtys f)) rows).
  { clear - T. induction T; constructor; auto. now apply group_row_spec. }
  split; [reflexivity|]. split; [exact U1|]. split; [exact U2|]. split.
  - intros r Hr. clear - G Hr. induction G as [|k r' ks rs Hk G IH]; [destruct Hr|]. destruct Hr as [<-|Hr]; [|auto].
    assert (E := proj1 Hk). now rewrite E.
  - intros q Hq. destruct (first_keys_spec (f_qtys f) []) as [_ I].
    assert (Hk : In (qty_key q) (first_keys [] (f_qtys f))) by (apply I; split; [intros []|eauto]).
    clear - G Hk. induction G as [|k r' ks rs Hg G IH]; [destruct Hk|]. destruct Hk as [<-|Hk].
    + exists r'. split; [now left|exact (proj1 Hg)].
    + destruct (IH Hk) as (r & A & B). exists r. split; [now right|auto].
Qed.

(** Totals. *)
Definition part (l g : Z) (q : qty) : Q :=
  match q_loc q, q_grp q with
  | Some a, Some b => if (a =? l)%Z && (b =? g)%Z then number (q_val q) else 0%Q
  | _, _ => 0%Q end.
Lemma part_key l g q : part l g q = if key_is (Some l, Some g) q then number (q_val q) else 0%Q.
Proof.
  unfold part, key_is, qty_key. destruct q as [i [a|] [b|] v]; cbn [q_loc q_grp q_val];
    destruct (qty_key_dec _ _) as [E|E]; try reflexivity; try discriminate.
  - injection E as -> ->. now rewrite !Z.eqb_refl.
  - destruct (a =? l)%Z eqn:A, (b =? g)%Z eqn:B; cbn; try reflexivity. exfalso. apply E. f_equal; f_equal; lia.
Qed.
Lemma qsum_one (p : qty -> bool) (g : qty -> Q) l r : NoDup (map qty_key l) -> In r l ->
  (forall q, In q l -> p q = true <-> qty_key q = qty_key r) ->
  (Qsum (map (fun q => if p q then g q else 0) l) == g r)%Q.
Proof.
  unfold Qsum. induction l as [|q l IH]; intros N Hr Hp; [destruct Hr|]. cbn [map fold_right] in *. inversion_clear N as [|? ? Na Nb].
  destruct Hr as [->|Hr].
  - rewrite (proj2 (Hp r (or_introl eq_refl)) eq_refl).
    assert (Z0 : (fold_right Qplus 0 (map (fun q => if p q then g q else 0) l) == 0)%Q).
    { clear - Na Hp. assert (Hp' : forall q, In q l -> p q = false).
      { intros q Hq. apply not_true_iff_false. intros E. apply Hp in E; [|now right]. apply Na. rewrite <- E. now apply in_map. }
      clear - Hp'. induction l as [|q l IH]; cbn [map fold_right]; [reflexivity|].
      rewrite (Hp' q (or_introl eq_refl)), IH; [lra|]. intros; apply Hp'; now right. }
    rewrite Z0. lra.
  - assert (E : p q = false).
    { apply not_true_iff_false. intros E. apply Hp in E; [|now left]. apply Na. rewrite E. now apply in_map. }
    rewrite E, IH; auto; [lra|]. intros; apply Hp. now right.
Qed.
Lemma qsum_none (p : qty -> bool) (g : qty -> Q) l : (forall q, In q l -> p q = false) ->
  (Qsum (map (fun q => if p q then g q else 0) l) == 0)%Q.
Proof.
  unfold Qsum. induction l as [|q l IH]; intros H; cbn [map fold_right]; [reflexivity|].
  rewrite (H q (or_introl eq_refl)), IH; [lra|]. intros; apply H; now right.
Qed.
Lemma total_part f l g : (total f l g == Qsum (map (fun q => if key_is (Some l, Some g) q then number (q_val q) else 0) (f_qtys f)))%Q.
Proof.
  unfold total. replace (map _ (f_qtys f)) with (map (part l g) (f_qtys f)) by reflexivity.
  rewrite (map_ext _ _ (part_key l g)). reflexivity.
Qed.
Lemma step03_total f f' l g : step03 f = Ok f' -> (total f' l g == total f l g)%Q.
Proof.
  intros H. apply step03_spec in H. destruct H as (_ & _ & N & G & C). rewrite !total_part.
  destruct (existsb (key_is (Some l, Some g)) (f_qtys f')) eqn:E.
  - apply existsb_exists in E. destruct E as (r & Hr & K). apply key_is_iff in K.
    rewrite (qsum_one _ _ _ r N Hr).
    + destruct (G r Hr) as (_ & _ & _ & S & _). rewrite S, K. reflexivity.
    + intros q Hq. rewrite key_is_iff, K. tauto.
  - assert (F : forall q, In q (f_qtys f') -> key_is (Some l, Some g) q = false).
    { intros q Hq. apply not_true_iff_false. intros K. rewrite <- not_true_iff_false in E. apply E. apply existsb_exists. eauto. }
    rewrite !qsum_none; [reflexivity| |exact F].
    intros q Hq. apply not_true_iff_false. intros K. apply key_is_iff in K. destruct (C q Hq) as (r & Hr & Kr).
    specialize (F r Hr). rewrite <- not_true_iff_false in F. apply F. apply key_is_iff. congruence.
Qed.

(** *** Mappings *)
Lemma keeps_iff r : keeps r = true <-> ~ both_undefined r.
Proof.
  unfold keeps, both_undefined. destruct (r_index r) as [i|].
  - rewrite negb_true_iff, <- not_true_iff_false, andb_true_iff, !Z.eqb_eq. split.
    + intros H (A & [B|B]); [apply H; split; auto; congruence|discriminate].
    + intros H (A & B). apply H. split; auto. left. congruence.
  - rewrite negb_true_iff, <- not_true_iff_false, Z.eqb_eq. split; intros H; [intros (A & _); auto|intros A; apply H; auto].
Qed.
Lemma step02_spec lv f f' : step02 lv f = Ok f' ->
  f' = with_rels (f_rels f') f /\ NoDup (map r_id (f_rels f')) /\ NoDup (map rel_key (f_rels f')) /\
  Forall2 (same_mapping lv) (filter keeps (f_rels f)) (f_rels f') /\
  (forall r, In r (f_rels f') -> rel_ok r = true).
Proof.
  unfold step02. set (rows := map (fill_level lv) (filter keeps (f_rels f))). cbv zeta.
  destruct (forallb rel_ok rows && _ && _) eqn:U; [|discriminate]. intros H. apply Ok_inj in H. subst f'. cbn [with_rels f_rels].
  rewrite !andb_true_iff in U. destruct U as [[U0 U1] U2]. apply unique_iff in U1. apply unique_iff in U2.
  split; [reflexivity|]. split; [exact U1|]. split; [exact U2|]. split.
  - unfold rows. clear. induction (filter keeps (f_rels f)) as [|r l IH]; cbn [map]; constructor; auto.
    unfold same_mapping, fill_level. cbn. repeat (split; [reflexivity|]). now destruct (r_level r).
  - now apply forallb_forall.
Qed.

(** *** Properties *)
Lemma prop_get_set k v l j : prop_get j (prop_set k v l) =
  if text_eqb k j then match prop_get j l with Some _ => Some v | None => None end else prop_get j l.
Proof.
  unfold prop_set. induction l as [|[a x] l IH]; cbn [map prop_get fst]; [destruct (text_eqb k j); reflexivity|].
  destruct (text_eqb a k) eqn:A; cbn [prop_get].
  - apply text_eqb_iff in A. subst a. destruct (text_eqb k j) eqn:E; [reflexivity|exact IH].
  - destruct (text_eqb a j) eqn:E; [|exact IH]. destruct (text_eqb k j) eqn:E'; [|reflexivity].
    apply text_eqb_iff in E, E'. subst. rewrite text_eqb_refl in A. discriminate.
Qed.
Lemma prop_get_insert k v l l' j : prop_insert k v l = Ok l' ->
  prop_get k l = None /\ prop_get j l' = if text_eqb k j then Some v else prop_get j l.
Proof.
  unfold prop_insert. destruct (prop_get k l) eqn:G; [discriminate|]. intros H. apply Ok_inj in H. subst l'. split; auto.
  induction l as [|[a x] l IH]; cbn [app prop_get] in *.
  - destruct (text_eqb k j); reflexivity.
  - destruct (text_eqb a k) eqn:A; [discriminate|]. destruct (text_eqb a j) eqn:E; [|now apply IH].
    destruct (text_eqb k j) eqn:E'; [|reflexivity]. apply text_eqb_iff in E, E'. subst. rewrite text_eqb_refl in A. discriminate.
Qed.
Lemma prop_get_rename o n l l' j : o <> n -> prop_rename o n l = Ok l' ->
  prop_get j l' = if text_eqb o j then None
                  else if text_eqb n j then match prop_get o l with Some v => Some v | None => prop_get n l end
                  else prop_get j l.
Proof.
  intros Hon. unfold prop_rename. intros H.
  assert (E : l' = map (fun p => if text_eqb (fst p) o then (n, snd p) else p) l /\ (prop_get o l = None \/ prop_get n l = None)).
  { destruct (prop_get o l), (prop_get n l); try discriminate; apply Ok_inj in H; subst; auto. }
  clear H. destruct E as [-> E].
  destruct (text_eqb o j) eqn:Oj.
  - apply text_eqb_iff in Oj. subst j. clear E. induction l as [|[a x] l IH]; cbn [map prop_get fst snd]; [reflexivity|].
    destruct (text_eqb a o) eqn:A; cbn [prop_get].
    + destruct (text_eqb n o) eqn:No; [apply text_eqb_iff in No; congruence|exact IH].
    + now rewrite A.
  - destruct (text_eqb n j) eqn:Nj.
    + apply text_eqb_iff in Nj. subst j. induction l as [|[a x] l IH]; cbn [map prop_get fst snd] in *; [reflexivity|].
      destruct (text_eqb a o) eqn:A; cbn [prop_get].
      * now rewrite text_eqb_refl.
      * destruct (text_eqb a n) eqn:An; [|now apply IH].
        destruct E as [E|E]; [|discriminate]. now rewrite E.
    + clear E. induction l as [|[a x] l IH]; cbn [map prop_get fst snd]; [reflexivity|].
      destruct (text_eqb a o) eqn:A; cbn [prop_get].
      * apply text_eqb_iff in A. subst a. rewrite Nj, Oj. exact IH.
      * destruct (text_eqb a j); [reflexivity|exact IH].
Qed.

Lemma insert_text_spec t l : ascending l -> ascending (insert_text t l) /\ forall x, In x (insert_text t l) <-> x = t \/ In x l.
Proof.
  unfold ascending. induction 1 as [|u l S IH F]; cbn [insert_text].
  - split; [repeat constructor|]. intros x. cbn. intuition.
  - destruct (text_ltb u t) eqn:L.
    + destruct IH as [A B]. split.
      * constructor; auto. rewrite Forall_forall in *. intros x Hx. apply B in Hx. destruct Hx as [->|Hx]; auto.
      * intros x. cbn [In]. rewrite B. tauto.
    + destruct (text_eqb u t) eqn:E.
      * apply text_eqb_iff in E. subst u. split; [constructor; auto|]. intros x. cbn [In]. intuition.
      * assert (T : text_ltb t u = true).
        { destruct (text_ltb t u) eqn:T; auto. exfalso. apply text_eqb_neq in E. apply E. now apply text_ltb_total. }
        split; [|intros x; cbn [In]; intuition]. constructor; [now constructor|]. constructor; auto.
        rewrite Forall_forall in *. intros x Hx. apply (text_ltb_trans _ u); auto.
Qed.
Lemma sorted_set_spec l : ascending (sorted_set l) /\ forall x, In x (sorted_set l) <-> In x l.
Proof.
  unfold sorted_set. induction l as [|t l [A B]]; cbn [fold_right].
  - split; [constructor|]. tauto.
  - destruct (insert_text_spec t _ A) as [A' B']. split; auto. intros x. rewrite B', B. cbn [In]. intuition.
Qed.

Lemma domain_text_spec d : NoDup (map fst d) -> domain_name d (domain_text d).
Proof.
  intros N. assert (K : forall v, d = [(txt "domain", v)] -> domain_text d = v).
  { intros v ->. cbn [domain_text]. now rewrite text_eqb_refl. }
  assert (D : (exists v, d = [(txt "domain", v)]) \/ forall v, d <> [(txt "domain", v)]).
  { destruct d as [|[k v] [|x d]]; try (right; discriminate). destruct (text_eqb k (txt "domain")) eqn:E.
    - apply text_eqb_iff in E. subst k. left. eauto.
    - right. intros w [= Q _]. subst. rewrite text_eqb_refl in E. discriminate. }
  destruct D as [(v & E)|E].
  - left. exists v. split; auto.
  - right. split; auto. exists (sort_keys d). split; [apply sort_keys_perm|]. split.
    + pose proof (sort_keys_sorted d N) as S. unfold ascending. clear - S.
      induction S as [|p l S IH F]; cbn [map]; constructor; auto. rewrite Forall_forall in *. intros x Hx.
      apply in_map_iff in Hx. destruct Hx as (q & <- & Hq). exact (F q Hq).
    + destruct d as [|[k v] [|x d]]; try reflexivity. cbn [domain_text sort_keys insert_key map join flat_map fst snd].
      destruct (text_eqb k (txt "domain")) eqn:Q; [apply text_eqb_iff in Q; subst; destruct (E v); reflexivity|].
      now rewrite app_nil_r.
Qed.

(** *** References *)
Lemma refers_iff o ids : refers o ids = true <-> refers_to o ids.
Proof.
  unfold refers, refers_to. destruct o as [i|]; [|split; auto; discriminate].
  rewrite existsb_exists. split.
  - intros (x & Hx & E) j [= <-]. apply Z.eqb_eq in E. now subst.
  - intros H. exists i. split; [auto|apply Z.eqb_refl].
Qed.
Lemma foreign_key_iff f : foreign_key_check f = true <-> references f.
Proof.
  unfold foreign_key_check. rewrite !andb_true_iff, !forallb_forall. split.
  - intros [[A B] C]. split.
    + intros r Hr. specialize (A r Hr). rewrite andb_true_iff, !refers_iff in A. exact A.
    + intros w g i q Hw. specialize (B _ Hw). cbv beta iota in B. rewrite andb_true_iff, !refers_iff in B. exact B.
    + intros q Hq. specialize (C q Hq). rewrite andb_true_iff, !refers_iff in C. exact C.
  - intros [A B C]. split; [split|].
    + intros r Hr. rewrite andb_true_iff, !refers_iff. auto.
    + intros [[[w g] i] q] Hw. rewrite andb_true_iff, !refers_iff. eauto.
    + intros q Hq. rewrite andb_true_iff, !refers_iff. auto.
Qed.
