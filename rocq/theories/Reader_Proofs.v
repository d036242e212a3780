(** Proofs about readers: grouping, attribute dictionaries, output. *)
From Verif Require Import Prelude QLemmas Selectors_Model Selectors_Proofs LinkRef_Model LinkRef_Proofs
  Db_Model Db_Spec Reader_Model Reader_Spec.
From Coq Require Import Permutation Lqa.
From Coq Require Import ZifyBool ZifyNat ZifyN.
Open Scope Z_scope.

(** *** Lists *)

Lemma Forall2_in_l {A B} (R : A -> B -> Prop) l m a : Forall2 R l m -> In a l -> exists b, In b m /\ R a b.
Proof.
  induction 1 as [|x y l m H Hf IH]; [easy|]. intros [->|Hi]; [exists y; split; [now left|exact H]|].
  destruct (IH Hi) as (b & Hb & Rb). exists b. split; [now right|exact Rb].
Qed.
Lemma Forall2_in_r {A B} (R : A -> B -> Prop) l m b : Forall2 R l m -> In b m -> exists a, In a l /\ R a b.
Proof.
  induction 1 as [|x y l m H Hf IH]; [easy|]. intros [->|Hi]; [exists x; split; [now left|exact H]|].
  destruct (IH Hi) as (a & Ha & Ra). exists a. split; [now right|exact Ra].
Qed.

Lemma Forall2_weaken {A B} (R S : A -> B -> Prop) l m :
  (forall a b, R a b -> S a b) -> Forall2 R l m -> Forall2 S l m.
Proof. induction 2; constructor; auto. Qed.

Section Distinct.
  Context {K : Type} (eqb : K -> K -> bool) (Hk : forall a b, eqb a b = true <-> a = b).

  Lemma in_distinct x l : In x (distinct eqb l) <-> In x l.
  Proof.
    induction l as [|y l IH]; cbn [distinct In]; [tauto|].
    rewrite filter_In, IH, negb_true_iff. split; [intuition|].
    intros [->|Hx]; [now left|]. destruct (eqb y x) eqn:E; [left; now apply Hk|now right].
  Qed.

  Lemma nodup_distinct l : NoDup (distinct eqb l).
  Proof.
    induction l as [|y l IH]; cbn [distinct]; constructor.
    - rewrite filter_In, negb_true_iff. intros [_ H].
      assert (eqb y y = true) by now apply Hk. congruence.
    - now apply nodup_filter.
  Qed.

  Lemma sum_one (c : Q) x ks : NoDup ks -> In x ks ->
    (Qsum (map (fun k => if eqb x k then c else 0%Q) ks) == c)%Q.
  Proof.
    induction 1 as [|k ks Hn Hd IH]; [now intros []|]. intros Hx.
    cbn [map]. rewrite Qsum_cons. destruct (eqb x k) eqn:E.
    - apply Hk in E. subst k.
      rewrite (Qsum_zero (fun k => if eqb x k then c else 0%Q)); [lra|].
      intros k Ik. destruct (eqb x k) eqn:E; [|reflexivity].
      apply Hk in E. subst. contradiction.
    - destruct Hx as [->|Hx]; [|rewrite (IH Hx); lra].
      assert (eqb x x = true) by now apply Hk. congruence.
  Qed.

  (** The sums over the classes of a partition add up to the whole sum. *)
  Lemma partition_sum {A} (key : A -> K) (f : A -> Q) l ks : NoDup ks ->
    (forall x, In x l -> In (key x) ks) ->
    (Qsum (map (fun k => Qsum (map f (filter (fun x => eqb (key x) k) l))) ks) == Qsum (map f l))%Q.
  Proof.
    intros Hd. induction l as [|x l IH]; intros Hin.
    - cbn [map filter]. rewrite Qsum_nil. apply Qsum_zero. intros; reflexivity.
    - cbn [map]. rewrite Qsum_cons, <- IH by (intros; apply Hin; now right).
      rewrite <- (sum_one (f x) (key x) ks Hd (Hin x (or_introl eq_refl))).
      rewrite <- Qsum_plus. apply Qsum_ext. intros k _. cbn [filter].
      destruct (eqb (key x) k); cbn [map]; [rewrite Qsum_cons|]; lra.
  Qed.

  Lemma in_group_by f rows k v :
    In (k, v) (group_by eqb f rows) <->
    In k (map fst rows) /\ v = f (map snd (filter (fun r => eqb (fst r) k) rows)).
  Proof.
    unfold group_by. rewrite in_map_iff. split.
    - intros (k' & E & Hi). apply (proj1 (in_distinct _ _)) in Hi. inversion E; subst. split; [exact Hi|reflexivity].
    - intros [Hi ->]. exists k. split; [reflexivity|now apply in_distinct].
  Qed.

  Lemma fst_group_by f rows : map fst (group_by eqb f rows) = distinct eqb (map fst rows).
  Proof. unfold group_by. rewrite map_map. cbn. now rewrite map_id. Qed.

  Lemma nodup_group_by f rows : NoDup (map fst (group_by eqb f rows)).
  Proof. rewrite fst_group_by. apply nodup_distinct. Qed.
End Distinct.

Lemma val_sql_sum l : (val (sql_sum l) == Qsum (map val l))%Q.
Proof.
  assert (H : (Qsum (somes l) == Qsum (map val l))%Q).
  { induction l as [|[q|] l IH]; cbn [somes map]; rewrite ?Qsum_cons, ?IH; cbn [val]; lra. }
  rewrite <- H. unfold sql_sum. destruct (somes l); cbn [val]; [now rewrite Qsum_nil|reflexivity].
Qed.

Lemma in_somes {A} (x : A) l : In x (somes l) <-> In (Some x) l.
Proof.
  induction l as [|[y|] l IH]; cbn [somes In]; [tauto| |]; rewrite IH.
  - split; (intros [H|H]; [left; congruence|now right]).
  - split; [now right|intros [H|H]; [discriminate|exact H]].
Qed.

Lemma sql_sum_null l : null_sum l (sql_sum l).
Proof.
  pose proof (val_sql_sum l) as H. unfold sql_sum in *. unfold null_sum.
  destruct (somes l) as [|y s] eqn:E.
  - intros [x|] Hx; [|reflexivity]. apply in_somes in Hx. now rewrite E in Hx.
  - split; [|exact H]. exists y. apply in_somes. rewrite E. now left.
Qed.

Lemma total_group_by {K} (eqb : K -> K -> bool) (Hk : forall a b, eqb a b = true <-> a = b) rows :
  (Qsum (map (fun g => val (snd g)) (group_by eqb sql_sum rows)) == Qsum (map (fun r => val (snd r)) rows))%Q.
Proof.
  unfold group_by. rewrite map_map. cbn [snd].
  rewrite <- (partition_sum eqb Hk fst (fun r => val (snd r)) rows (distinct eqb (map fst rows))).
  - apply Qsum_ext. intros k _. now rewrite val_sql_sum, map_map.
  - now apply nodup_distinct.
  - intros x Hx. apply in_distinct; [exact Hk|]. now apply in_map.
Qed.

(** *** Attribute dictionaries *)

Lemma row_eqb_iff a : forall b, row_eqb a b = true <-> a = b.
Proof.
  induction a as [|[k v] a IH]; intros [|[k' v'] b]; cbn [row_eqb]; try (split; [discriminate|discriminate]).
  - tauto.
  - rewrite !andb_true_iff, !text_eqb_iff, IH. split; [intros [[-> ->] ->]; reflexivity|].
    intros E. inversion E. auto.
Qed.

Lemma key_eqb_iff a b : key_eqb a b = true <-> a = b.
Proof.
  destruct a as [i x], b as [j y]. unfold key_eqb. cbn [fst snd].
  rewrite andb_true_iff, Z.eqb_eq, row_eqb_iff. split; [intros [-> ->]; reflexivity|].
  intros E. inversion E. auto.
Qed.

Lemma text_ltb_irrefl a : text_ltb a a = false.
Proof. induction a as [|x a IH]; cbn [text_ltb]; [reflexivity|]. rewrite IH. lia. Qed.
Lemma text_ltb_trans a : forall b c, text_ltb a b = true -> text_ltb b c = true -> text_ltb a c = true.
Proof.
  induction a as [|x a IH]; intros [|y b] [|z c]; cbn [text_ltb]; try discriminate; try reflexivity.
  intros H1 H2. specialize (IH b c).
  destruct (x <? z)%N eqn:E1; [reflexivity|].
  destruct (x =? z)%N eqn:E2; [|lia].
  apply N.eqb_eq in E2. subst z.
  assert (x = y)%N by lia. subst y. rewrite N.ltb_irrefl, N.eqb_refl in *. cbn in *. auto.
Qed.
Lemma text_ltb_total a : forall b, text_ltb a b = false -> text_ltb b a = false -> a = b.
Proof.
  induction a as [|x a IH]; intros [|y b]; cbn [text_ltb]; try discriminate; try reflexivity.
  intros H1 H2. assert (x = y)%N by lia. subst y.
  rewrite N.ltb_irrefl, N.eqb_refl in *. cbn in *. f_equal. auto.
Qed.
Definition text_lt (a b : text) : Prop := text_ltb a b = true.
Definition key_ltp {V} (p q : text * V) : Prop := text_lt (fst p) (fst q).

Lemma insert_key_perm {V} (p : text * V) l : Permutation (p :: l) (insert_key p l).
Proof.
  induction l as [|q l IH]; cbn [insert_key]; [reflexivity|].
  destruct (text_ltb (fst q) (fst p)); [|reflexivity].
  rewrite perm_swap. now constructor.
Qed.
Lemma sort_keys_perm {V} (l : list (text * V)) : Permutation l (sort_keys l).
Proof.
  induction l as [|p l IH]; cbn [sort_keys]; [reflexivity|].
  rewrite <- insert_key_perm. now constructor.
Qed.
Lemma insert_key_sorted {V} (p : text * V) l : ~ In (fst p) (map fst l) ->
  StronglySorted key_ltp l -> StronglySorted key_ltp (insert_key p l).
Proof.
  intros Hn Hs. induction Hs as [|q l Hs IH Hf]; cbn [insert_key]; [repeat constructor|].
  cbn [map In] in Hn. destruct (text_ltb (fst q) (fst p)) eqn:E.
  - constructor; [apply IH; tauto|].
    rewrite Forall_forall in *. intros x Hx.
    apply (Permutation_in _ (Permutation_sym (insert_key_perm p l))) in Hx.
    destruct Hx as [<-|Hx]; [exact E|now apply Hf].
  - assert (H : text_lt (fst p) (fst q)).
    { unfold text_lt. destruct (text_ltb (fst p) (fst q)) eqn:E2; [reflexivity|].
      destruct Hn. left. symmetry. now apply text_ltb_total. }
    constructor; [now constructor|]. constructor; [exact H|].
    rewrite Forall_forall in *. intros x Hx. apply (text_ltb_trans _ (fst q)); [exact H|now apply Hf].
Qed.
Lemma sort_keys_sorted {V} (l : list (text * V)) : NoDup (map fst l) -> StronglySorted key_ltp (sort_keys l).
Proof.
  induction l as [|p l IH]; cbn [sort_keys map]; [constructor|]. intros H. inversion H; subst.
  apply insert_key_sorted; auto.
  intros Hi. apply H2. apply (Permutation_in _ (Permutation_map fst (Permutation_sym (sort_keys_perm l)))). exact Hi.
Qed.

Lemma dict_get_in k v d : dict d -> (dict_get k d = Some v <-> In (k, v) d).
Proof.
  unfold dict. induction d as [|[k' v'] d IH]; cbn [dict_get map In]; intros H; [easy|].
  inversion H; subst. destruct (text_eqb k k') eqn:E.
  - apply text_eqb_iff in E. subst k'. split; [intros E; inversion E; now left|].
    intros [E|Hi]; [now inversion E|]. destruct H2. now apply (in_map fst) in Hi.
  - rewrite IH by assumption. split; [now right|]. intros [E2|Hi]; [|exact Hi].
    inversion E2; subst. rewrite text_eqb_refl in E. discriminate.
Qed.
Lemma dict_get_none k d : dict_get k d = None <-> ~ In k (map fst d).
Proof.
  induction d as [|[k' v'] d IH]; cbn [dict_get map In fst]; [tauto|].
  destruct (text_eqb k k') eqn:E.
  - apply text_eqb_iff in E. subst. split; [discriminate|tauto].
  - rewrite IH. split; [|tauto]. intros H [->|Hi]; [|tauto]. now rewrite text_eqb_refl in E.
Qed.
Lemma dict_sort a : dict a -> dict (sort_keys a).
Proof. intros H. unfold dict. eapply Permutation_NoDup; [|exact H]. apply Permutation_map, sort_keys_perm. Qed.
Lemma dict_get_sort k a : dict a -> dict_get k (sort_keys a) = dict_get k a.
Proof.
  intros H. pose proof (dict_sort a H) as H'.
  destruct (dict_get k a) as [v|] eqn:E.
  - apply dict_get_in in E; [|exact H]. apply dict_get_in; [exact H'|].
    apply (Permutation_in _ (sort_keys_perm a)), E.
  - apply dict_get_none. apply dict_get_none in E. intros Hi. apply E.
    apply (Permutation_in _ (Permutation_map fst (Permutation_sym (sort_keys_perm a))) Hi).
Qed.

Lemma sorted_same {V} (R : V -> V -> Prop) (Hirr : forall x, ~ R x x)
  (Htr : forall x y z, R x y -> R y z -> R x z) l : forall m,
  StronglySorted R l -> StronglySorted R m -> (forall x, In x l <-> In x m) -> l = m.
Proof.
  induction l as [|x l IH]; intros [|y m] Hl Hm Hs; [reflexivity| | |].
  - destruct (proj2 (Hs y)). now left.
  - destruct (proj1 (Hs x)). now left.
  - inversion Hl as [|? ? Sl Fl]; inversion Hm as [|? ? Sm Fm]; subst.
    rewrite Forall_forall in *.
    assert (x = y).
    { destruct (proj1 (Hs x) (or_introl eq_refl)) as [E|Hx]; [now symmetry|].
      destruct (proj2 (Hs y) (or_introl eq_refl)) as [E|Hy]; [exact E|].
      destruct (Hirr x). eapply Htr; [apply Fl, Hy|apply Fm, Hx]. }
    subst y. f_equal. apply IH; [exact Sl|exact Sm|].
    intros z. specialize (Hs z). split; intros Hz.
    + destruct (proj1 Hs (or_intror Hz)) as [E|E]; [|exact E]. subst z. destruct (Hirr x). now apply Fl.
    + destruct (proj2 Hs (or_intror Hz)) as [E|E]; [|exact E]. subst z. destruct (Hirr x). now apply Fm.
Qed.

(** The JSON text is the same exactly for the same dictionary. *)
Lemma sort_keys_same a b : dict a -> dict b -> (sort_keys a = sort_keys b <-> same_attrs a b).
Proof.
  intros Ha Hb. split.
  - intros E k. now rewrite <- (dict_get_sort k a Ha), <- (dict_get_sort k b Hb), E.
  - intros Hs. apply (sorted_same key_ltp).
    + intros x Hx. unfold key_ltp, text_lt in Hx. now rewrite text_ltb_irrefl in Hx.
    + intros x y z. apply text_ltb_trans.
    + now apply sort_keys_sorted.
    + now apply sort_keys_sorted.
    + intros [k v]. rewrite <- !dict_get_in by now apply dict_sort.
      now rewrite !dict_get_sort, Hs by assumption.
Qed.

Lemma sorted_set_spec keys :
  StronglySorted text_lt (sorted_set keys) /\ forall k, In k (sorted_set keys) <-> In k keys.
Proof.
  unfold sorted_set. set (u := map (fun k => (k, tt)) (distinct text_eqb keys)).
  assert (Hu : map fst u = distinct text_eqb keys) by (unfold u; rewrite map_map; apply map_id).
  split.
  - assert (H : StronglySorted key_ltp (sort_keys u)).
    { apply sort_keys_sorted. rewrite Hu. apply nodup_distinct. intros; apply text_eqb_iff. }
    induction H as [|p l Hs IH Hf]; cbn [map]; constructor; [exact IH|].
    rewrite Forall_forall in *. intros x Hx. apply in_map_iff in Hx. destruct Hx as (q & <- & Hq). now apply Hf.
  - intros k. rewrite <- (in_distinct text_eqb (fun a b => text_eqb_iff a b) k keys), <- Hu.
    split; apply Permutation_in; apply Permutation_map; [symmetry|]; apply sort_keys_perm.
Qed.

(** *** Loading *)

Lemma zmax_ge l x : In x l -> x <= zmax l.
Proof.
  unfold zmax. induction l as [|y l IH]; cbn [fold_right In]; [easy|]. intros [->|H]; [lia|].
  specialize (IH H). lia.
Qed.

Definition attrs_ok (l : list attr) : Prop := NoDup (map a_id l) /\ NoDup (map a_attrs l).

Lemma get_attr_id_spec a l l' i : attrs_ok l -> get_attr_id a l = (l', i) ->
  attrs_ok l' /\ (exists x, In x l' /\ a_id x = i /\ a_attrs x = sort_keys a) /\
  (forall x, In x l -> In x l') /\
  (forall x, In x l' -> In x l \/ a_attrs x = sort_keys a).
Proof.
  intros [H1 H2] H. unfold get_attr_id in H.
  destruct (find _ l) as [x|] eqn:E; inversion H; subst; clear H.
  - apply find_some in E. destruct E as [Hi E]. apply row_eqb_iff in E.
    repeat split; auto. exists x. auto.
  - split; [split|].
    + rewrite map_app. apply nodup_app; [exact H1|repeat constructor; easy|].
      cbn [map a_id]. intros z Hz [<-|[]]. apply zmax_ge in Hz. lia.
    + rewrite map_app. apply nodup_app; [exact H2|repeat constructor; easy|].
      cbn [map a_attrs]. intros z Hz [<-|[]]. apply in_map_iff in Hz. destruct Hz as (x & Ex & Hx).
      apply (find_none _ _ E) in Hx. apply row_eqb_iff in Ex. congruence.
    + split; [|split].
      * eexists. rewrite in_app_iff. split; [right; left; reflexivity|]. auto.
      * intros x Hx. apply in_app_iff. now left.
      * intros x Hx. apply in_app_iff in Hx. destruct Hx as [Hx|[<-|[]]]; [now left|now right].
Qed.

Definition held (l : list attr) (d : datum) (q : quant) : Prop :=
  q_index q = n_index d /\ q_value q = n_value d /\
  exists a, In a l /\ a_id a = q_attr q /\ a_attrs a = sort_keys (n_attrs d).

Lemma load_list_spec data : forall attrs quants l qs, attrs_ok attrs ->
  load_list data attrs quants = (l, qs) ->
  attrs_ok l /\ (forall x, In x attrs -> In x l) /\
  (forall x, In x l -> In x attrs \/ exists d, In d data /\ a_attrs x = sort_keys (n_attrs d)) /\
  exists new, qs = quants ++ new /\ Forall2 (held l) data new.
Proof.
  induction data as [|d data IH]; intros attrs quants l qs Ha H; cbn [load_list] in H.
  - inversion H; subst. repeat split; auto; try apply Ha. exists []. rewrite app_nil_r. auto.
  - destruct (get_attr_id (n_attrs d) attrs) as [attrs' i] eqn:E.
    destruct (get_attr_id_spec _ _ _ _ Ha E) as (Ha' & (x & Hx & Ex & Ax) & Hsub & Hinv).
    destruct (IH _ _ _ _ Ha' H) as (Hl & Hs & Hi & new & Eq & Hf).
    split; [exact Hl|]. split; [auto|]. split.
    + intros y Hy. destruct (Hi y Hy) as [Hy'|(e & He & Ee)].
      * destruct (Hinv y Hy') as [Hy2|Ey]; [now left|]. right. exists d. split; [now left|exact Ey].
      * right. exists e. split; [now right|exact Ee].
    + eexists. rewrite <- app_assoc in Eq. split; [exact Eq|]. constructor; [|exact Hf].
      repeat split. exists x. auto.
Qed.

Lemma load_spec data :
  attrs_ok (r_attrs (load data)) /\ Forall2 (held (r_attrs (load data))) data (r_quants (load data)) /\
  (forall x, In x (r_attrs (load data)) -> exists d, In d data /\ a_attrs x = sort_keys (n_attrs d)).
Proof.
  unfold load. destruct (load_list data [] []) as [l qs] eqn:E. cbn [r_attrs r_quants].
  destruct (load_list_spec data [] [] l qs) as (H & _ & H2 & new & -> & Hf);
    [split; constructor|exact E|].
  split; [exact H|]. split; [exact Hf|]. intros x Hx. destruct (H2 x Hx) as [[]|Hd]. exact Hd.
Qed.

Lemma load_wf data : reader_wf (load data).
Proof.
  destruct (load_spec data) as ([H1 H2] & Hf & _). constructor; [exact H1|exact H2|].
  intros q Hq. destruct (Forall2_in_r _ _ _ _ Hf Hq) as (d & _ & _ & _ & a & Ha & Ei & _). eauto.
Qed.

Lemma filter_id l a : NoDup (map a_id l) -> In a l -> filter (fun x => a_id x =? a_id a) l = [a].
Proof.
  induction l as [|x l IH]; cbn [map In filter]; intros Hd Hi; [easy|].
  inversion Hd; subst. destruct Hi as [->|Hi].
  - rewrite Z.eqb_refl. f_equal. apply filter_nil_iff. intros y Hy. apply Z.eqb_neq. intros E.
    apply H1. rewrite <- E. now apply in_map.
  - destruct (a_id x =? a_id a) eqn:E; [|auto]. apply Z.eqb_eq in E. destruct H1. rewrite E. now apply in_map.
Qed.

(** The joined table has one row for each record. *)
Lemma joined_load data :
  map (fun qa => ((q_index (fst qa), a_attrs (snd qa)), q_value (fst qa))) (joined (load data)) =
  map (fun d => ((n_index d, sort_keys (n_attrs d)), n_value d)) data.
Proof.
  destruct (load_spec data) as ([H1 H2] & Hf & _). unfold joined. clear H2. revert Hf H1.
  generalize (r_attrs (load data)) (r_quants (load data)). intros l qs0 Hf H1.
  induction Hf as [|d q ds qs (E1 & E2 & a & Ha & Ei & Ea) Hf IH]; [reflexivity|].
  cbn [flat_map map]. rewrite <- Ei, (filter_id _ a H1 Ha). cbn [map app fst snd].
  rewrite E1, E2, Ea. f_equal. exact IH.
Qed.

(** *** Output *)

Lemma bind_ok {A B} (m : res A) (k : A -> res B) b : bind m k = Ok b -> exists a, m = Ok a /\ k a = Ok b.
Proof. destruct m as [a|e]; cbn; [eauto|discriminate]. Qed.

Lemma traverse_total {A B} (f : A -> res B) l : (forall a, In a l -> exists b, f a = Ok b) ->
  exists out, traverse f l = Ok out.
Proof.
  induction l as [|a l IH]; intros H; [now exists []|]. rewrite traverse_cons.
  destruct (H a (or_introl eq_refl)) as [b ->]. destruct IH as [bs ->]; [intros; apply H; now right|].
  now exists (b :: bs).
Qed.

Lemma index_get_ok s i r : index_get i s = Ok r -> In r (d_index s) /\ ix_id r = i.
Proof.
  unfold index_get, index_find. destruct (find _ _) as [x|] eqn:E; [|discriminate]. intros H. inversion H; subst.
  apply find_some in E. destruct E as [Hi E]. apply Z.eqb_eq in E. auto.
Qed.
Lemma index_get_total s i : has_index s i -> exists r, index_get i s = Ok r.
Proof.
  intros (r & Hr & E). unfold index_get, index_find.
  destruct (find_found (fun x => ix_id x =? i) (d_index s) r Hr) as [x ->]; [now apply Z.eqb_eq|eauto].
Qed.

Definition datum_row (d : datum) : (Z * row) * option Q := ((n_index d, sort_keys (n_attrs d)), n_value d).

Lemma groups_load data : output_groups (load data) = group_by key_eqb sql_sum (map datum_row data).
Proof. unfold output_groups. now rewrite joined_load. Qed.

Lemma filter_map {A B} (f : A -> B) p l : filter p (map f l) = map f (filter (fun x => p (f x)) l).
Proof. induction l as [|x l IH]; [reflexivity|]. cbn [map filter]. rewrite IH. now destruct (p (f x)). Qed.

Lemma group_value data d v : (forall e, In e data -> dict (n_attrs e)) -> In d data ->
  In ((n_index d, sort_keys (n_attrs d)), v) (group_by key_eqb sql_sum (map datum_row data)) ->
  sum_where (fun e => n_index e = n_index d /\ same_attrs (n_attrs e) (n_attrs d)) data v.
Proof.
  intros Hdict Hd H. apply in_group_by in H; [|apply key_eqb_iff]. destruct H as [_ ->].
  exists (fun e => key_eqb (fst (datum_row e)) (n_index d, sort_keys (n_attrs d))). split.
  - intros e He. rewrite key_eqb_iff. unfold datum_row. cbn [fst].
    rewrite <- (sort_keys_same _ _ (Hdict e He) (Hdict d Hd)).
    split; [intros E; inversion E; auto|intros [-> ->]; reflexivity].
  - rewrite filter_map, map_map. unfold datum_row at 1. cbn [snd]. apply sql_sum_null.
Qed.

Theorem output_total data s : (forall d, In d data -> has_index s (n_index d)) ->
  exists out, output s (load data) = Ok out.
Proof.
  intros H. apply traverse_total. intros [[i a] v] Hg. rewrite groups_load in Hg.
  apply in_group_by in Hg; [|apply key_eqb_iff]. destruct Hg as [Hg _].
  rewrite map_map in Hg. apply in_map_iff in Hg. destruct Hg as (d & Ed & Hd). inversion Ed; subst.
  cbn [fst snd]. destruct (index_get_total s _ (H d Hd)) as [r ->]. cbn. eauto.
Qed.

Lemma output_rows data s out : output s (load data) = Ok out ->
  Forall2 (fun g o => In {| ix_id := fst (fst g); ix_labels := o_labels o |} (d_index s) /\
                      o_attrs o = map (fun k => dict_get k (snd (fst g))) (r_keys (load data)) /\
                      o_value o = snd g)
    (group_by key_eqb sql_sum (map datum_row data)) out.
Proof.
  unfold output. intros H. apply traverse_ok in H. rewrite groups_load in H.
  revert H. apply Forall2_weaken. intros g o H. apply bind_ok in H. destruct H as (r & Hr & H).
  inversion H; subst; cbn [o_labels o_attrs o_value]. apply index_get_ok in Hr. destruct Hr as [Hr <-].
  destruct r as [ri rl]; cbn [ix_id ix_labels] in *. auto.
Qed.

Lemma group_of data g : In g (group_by key_eqb sql_sum (map datum_row data)) ->
  exists d, In d data /\ fst g = (n_index d, sort_keys (n_attrs d)).
Proof.
  destruct g as [k v]. intros H. apply in_group_by in H; [|apply key_eqb_iff]. destruct H as [H _].
  rewrite map_map in H. apply in_map_iff in H. destruct H as (d & Ed & Hd). exists d. cbn [fst]. auto.
Qed.

Lemma describes_group data s d g o : (forall e, In e data -> dict (n_attrs e)) -> In d data ->
  In g (group_by key_eqb sql_sum (map datum_row data)) -> fst g = (n_index d, sort_keys (n_attrs d)) ->
  In {| ix_id := fst (fst g); ix_labels := o_labels o |} (d_index s) ->
  o_attrs o = map (fun k => dict_get k (snd (fst g))) (r_keys (load data)) ->
  o_value o = snd g -> describes s data (r_keys (load data)) d o.
Proof.
  intros Hdict Hd Hg E H1 H2 H3. destruct g as [k v]. cbn [fst snd] in *. subst k. cbn [fst snd] in *.
  constructor; [exact H1| |rewrite H3; now apply group_value].
  rewrite H2. apply map_ext. intros k. apply dict_get_sort. auto.
Qed.

Theorem output_describes data s out : (forall d, In d data -> dict (n_attrs d)) ->
  output s (load data) = Ok out ->
  (forall d, In d data -> exists o, In o out /\ describes s data (r_keys (load data)) d o) /\
  (forall o, In o out -> exists d, In d data /\ describes s data (r_keys (load data)) d o).
Proof.
  intros Hdict H. pose proof (output_rows _ _ _ H) as Hf. split.
  - intros d Hd.
    assert (Hg : exists v, In ((n_index d, sort_keys (n_attrs d)), v) (group_by key_eqb sql_sum (map datum_row data))).
    { eexists. apply in_group_by; [apply key_eqb_iff|]. split; [|reflexivity].
      rewrite map_map. apply in_map_iff. exists d. auto. }
    destruct Hg as [v Hg]. destruct (Forall2_in_l _ _ _ _ Hf Hg) as (o & Ho & H1 & H2 & H3).
    exists o. split; [exact Ho|]. eapply describes_group; eauto.
  - intros o Ho. destruct (Forall2_in_r _ _ _ _ Hf Ho) as (g & Hg & H1 & H2 & H3).
    destruct (group_of _ _ Hg) as (d & Hd & Ed). exists d. split; [exact Hd|]. eapply describes_group; eauto.
Qed.

Lemma keys_load data :
  StronglySorted text_lt (r_keys (load data)) /\
  forall k, In k (r_keys (load data)) <-> exists d, In d data /\ In k (map fst (n_attrs d)).
Proof.
  unfold load. destruct (load_list data [] []). cbn [r_keys].
  destruct (sorted_set_spec (flat_map (fun d => map fst (n_attrs d)) data)) as [H1 H2].
  split; [exact H1|]. intros k. rewrite H2, in_flat_map. reflexivity.
Qed.

(** Two dictionaries with the same values of all columns are the same. *)
Lemma attrs_keys data a b : (forall d, In d data -> dict (n_attrs d)) -> In a data -> In b data ->
  map (fun k => dict_get k (sort_keys (n_attrs a))) (r_keys (load data)) =
  map (fun k => dict_get k (sort_keys (n_attrs b))) (r_keys (load data)) ->
  sort_keys (n_attrs a) = sort_keys (n_attrs b).
Proof.
  intros Hdict Ha Hb E. apply sort_keys_same; auto. intros k.
  rewrite <- (dict_get_sort k (n_attrs a)), <- (dict_get_sort k (n_attrs b)) by auto.
  destruct (keys_load data) as [_ Hk].
  assert (Hin : In k (r_keys (load data)) \/ ~ In k (r_keys (load data))).
  { destruct (in_dec (list_eq_dec N.eq_dec) k (r_keys (load data))); auto. }
  destruct Hin as [Hin|Hn].
  - revert E Hin. generalize (r_keys (load data)). intros ks. induction ks as [|k' ks IH]; [easy|].
    cbn [map In]. intros E [->|Hi]; inversion E; auto.
  - rewrite !dict_get_sort by auto.
    assert (N1 : ~ In k (map fst (n_attrs a))) by (intros Hi; apply Hn, Hk; eauto).
    assert (N2 : ~ In k (map fst (n_attrs b))) by (intros Hi; apply Hn, Hk; eauto).
    apply dict_get_none in N1, N2. congruence.
Qed.

Lemma nodup_Forall2 {A B C D} (R : A -> B -> Prop) (f : A -> C) (g : B -> D) l m :
  Forall2 R l m -> (forall a a' b b', In a l -> In a' l -> R a b -> R a' b' -> g b = g b' -> f a = f a') ->
  NoDup (map f l) -> NoDup (map g m).
Proof.
  induction 1 as [|a b l m Hr Hf IH]; intros Hi Hd; cbn [map]; [constructor|].
  cbn [map] in Hd. inversion Hd; subst. constructor.
  - intros Hb. apply in_map_iff in Hb. destruct Hb as (b' & E & Hb).
    destruct (Forall2_in_r _ _ _ _ Hf Hb) as (a' & Ha' & Ra'). apply H1.
    rewrite (Hi a a' b b'); auto; [now apply in_map|now left|now right].
  - apply IH; [|assumption]. intros; eapply Hi; eauto; now right.
Qed.

Theorem output_distinct data s out : (forall d, In d data -> dict (n_attrs d)) -> index_wf s ->
  output s (load data) = Ok out -> NoDup (map (fun o => (o_labels o, o_attrs o)) out).
Proof.
  intros Hdict Hw H. pose proof (output_rows _ _ _ H) as Hf.
  eapply (nodup_Forall2 _ fst (fun o => (o_labels o, o_attrs o)) _ _ Hf); [|apply nodup_group_by, key_eqb_iff].
  intros g g' o o' Hg Hg' (A1 & A2 & A3) (B1 & B2 & B3) E. inversion E as [[E1 E2]].
  destruct (group_of _ _ Hg) as (d & Hd & Ed). destruct (group_of _ _ Hg') as (d' & Hd' & Ed').
  rewrite Ed, Ed' in *. cbn [fst snd] in *. f_equal.
  - rewrite E1 in A1. pose proof (iw_labels s Hw _ _ A1 B1 eq_refl) as X. now inversion X.
  - apply (attrs_keys data); auto. congruence.
Qed.

Lemma Qsum_Forall2 {A B} (f : A -> Q) (g : B -> Q) l m :
  Forall2 (fun a b => (f a == g b)%Q) l m -> (Qsum (map f l) == Qsum (map g m))%Q.
Proof. induction 1; cbn [map]; rewrite ?Qsum_cons; [reflexivity|]. now rewrite H, IHForall2. Qed.

Theorem output_sum data s out : output s (load data) = Ok out ->
  (Qsum (map (fun o => val (o_value o)) out) == Qsum (map (fun d => val (n_value d)) data))%Q.
Proof.
  intros H. pose proof (output_rows _ _ _ H) as Hf.
  rewrite <- (Qsum_Forall2 (fun g => val (snd g)) (fun o => val (o_value o)) (group_by key_eqb sql_sum (map datum_row data)) out).
  2:{ revert Hf. apply Forall2_weaken. intros g o (_ & _ & ->). reflexivity. }
  rewrite total_group_by by apply key_eqb_iff. rewrite map_map. reflexivity.
Qed.
