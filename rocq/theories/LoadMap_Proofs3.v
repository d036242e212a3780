(** C60: the order of the categories, the matches of a row and the counters. *)
From Coq Require Import NArith Permutation Sorted ZifyBool ZifyN ZifyNat Lia Lqa.
From Verif Require Import Prelude QLemmas BitFlags_Model BitFlags_Spec BitFlags_Proofs Selectors_Model Selectors_Proofs LinkRef_Model LinkRef_Proofs
  Db_Model Db_Spec Db_Proofs Db_ProofsLocal Db_ProofsRun Reader_Model Reader_Spec Reader_Proofs Mapper_Model Mapper_Spec Mapper_Proofs Mapper_Proofs2 Mapper_Proofs3
  Elements_Model EdgeText_Model MapCli_Model MapCli_Spec MapCli_Proofs6 LoadMap_Model LoadMap_Spec LoadMap_Proofs2.
Local Open Scope nat_scope.

(** *** Order in lists *)

Lemma before_cons {A} (x : A) m a b : before (x :: m) a b <-> x = a /\ In b m \/ before m a b.
Proof.
  split.
  - intros ([|u p] & q & r & E); cbn [app] in E; inversion E; subst.
    + left. split; [reflexivity|]. apply in_or_app. right. now left.
    + right. now exists p, q, r.
  - intros [[-> H]|(p & q & r & ->)].
    + apply in_split in H as (q & r & ->). now exists [], q, r.
    + now exists (x :: p), q, r.
Qed.
Lemma before_nil {A} (a b : A) : ~ before [] a b.
Proof. intros ([|u p] & q & r & E); discriminate. Qed.
Lemma before_in {A} (l : list A) a b : before l a b -> In a l /\ In b l.
Proof.
  intros (p & q & r & ->). split; apply in_or_app; right; [now left|]. right. apply in_or_app. right. now left.
Qed.
Lemma before_total {A} (l : list A) a b : In a l -> In b l -> a <> b -> before l a b \/ before l b a.
Proof.
  induction l as [|x l IH]; [easy|]. intros Ha Hb Hn. rewrite !before_cons. destruct Ha as [->|Ha], Hb as [->|Hb]; auto.
  - contradiction.
  - destruct (IH Ha Hb Hn); auto.
Qed.
Lemma before_asym {A} (l : list A) a b : NoDup l -> before l a b -> ~ before l b a.
Proof.
  induction l as [|x l IH]; intros Hd H H'; [now apply before_nil in H|]. inversion Hd; subst. rewrite before_cons in H, H'.
  destruct H as [[-> H]|H].
  - destruct H' as [[-> _]|H']; [contradiction|]. apply before_in in H'. tauto.
  - destruct H' as [[-> H']|H']; [apply before_in in H; tauto|]. now apply IH.
Qed.
Lemma before_irrefl {A} (l : list A) a : NoDup l -> ~ before l a a.
Proof. intros Hd H. exact (before_asym l a a Hd H H). Qed.
Lemma before_filter {A} (f : A -> bool) l a b : before (filter f l) a b -> before l a b.
Proof.
  induction l as [|x l IH]; cbn [filter]; [auto|]. rewrite before_cons. destruct (f x); [|auto]. rewrite before_cons.
  intros [[-> H]|H]; [left|auto]. apply filter_In in H. tauto.
Qed.
Lemma before_distinct l u v : before (distinct bytes_eqb l) u v <-> u <> v /\ In v l /\ exists l1 l2, l = l1 ++ u :: l2 /\ ~ In v l1.
Proof.
  assert (G : forall l u v, before (distinct bytes_eqb l) u v -> u <> v /\ In v l /\ exists l1 l2, l = l1 ++ u :: l2 /\ ~ In v l1).
  { clear. induction l as [|x l IH]; intros u v H; cbn [distinct] in H; [now apply before_nil in H|]. apply before_cons in H as [[-> H]|H].
    - apply filter_In in H as [H E]. apply (proj1 (in_distinct bytes_eqb bytes_eqb_iff _ _)) in H. split; [|split; [now right|exists [], l; split; [reflexivity|easy]]].
      intros ->. rewrite negb_true_iff in E. assert (bytes_eqb v v = true) by (now apply bytes_eqb_iff). congruence.
    - pose proof (before_in _ _ _ H) as [_ Hv]. apply filter_In in Hv as [_ Ev]. apply before_filter in H. destruct (IH u v H) as (Hn & Hv & l1 & l2 & -> & Hl).
      split; [exact Hn|]. split; [now right|]. exists (x :: l1), l2. split; [reflexivity|]. intros [->|Hi]; [|contradiction].
      rewrite negb_true_iff in Ev. assert (bytes_eqb v v = true) by (now apply bytes_eqb_iff). congruence. }
  split; [apply G|]. intros (Hn & Hv & l1 & l2 & E & Hl). destruct (before_total (distinct bytes_eqb l) u v) as [H|H].
  - apply (proj2 (in_distinct bytes_eqb bytes_eqb_iff _ _)). rewrite E. apply in_or_app. right. now left.
  - now apply (proj2 (in_distinct bytes_eqb bytes_eqb_iff _ _)).
  - exact Hn.
  - exact H.
  - exfalso. apply G in H as (_ & _ & m1 & m2 & E' & Hm). rewrite E in E'. clear - E' Hl Hm Hn. revert m1 E' Hm. induction l1 as [|x l1 IH]; intros [|y m1] E' Hm; cbn [app] in E'; inversion E'; subst.
    + contradiction.
    + apply Hm. now left.
    + apply Hl. now left.
    + apply (IH (fun H => Hl (or_intror H)) m1 H1). intros H. apply Hm. now right.
Qed.

(** A list of optional images. *)
Definition images {A B} (f : A -> option B) (l : list A) : list B := flat_map (fun a => match f a with Some b => [b] | None => [] end) l.
Lemma in_images {A B} (f : A -> option B) l b : In b (images f l) <-> exists a, In a l /\ f a = Some b.
Proof.
  unfold images. rewrite in_flat_map. split; intros (a & Ha & H); exists a; (split; [exact Ha|]); destruct (f a); cbn in *.
  - destruct H as [->|[]]. reflexivity.
  - easy.
  - left. congruence.
  - discriminate.
Qed.
Lemma before_images {A B} (f : A -> option B) l u v : before (images f l) u v <-> exists a b, before l a b /\ f a = Some u /\ f b = Some v.
Proof.
  induction l as [|x l IH].
  - split; [intros H; now apply before_nil in H|]. intros (a & b & H & _). now apply before_nil in H.
  - change (images f (x :: l)) with ((match f x with Some b => [b] | None => [] end) ++ images f l). split.
    + intros H. assert (H' : f x = Some u /\ In v (images f l) \/ before (images f l) u v).
      { destruct (f x); cbn [app] in H; [apply before_cons in H as [[-> H]|H]; auto|auto]. }
      destruct H' as [[Ex Hv]|H'].
      * apply in_images in Hv as (b & Hb & Eb). exists x, b. split; [apply before_cons; auto|auto].
      * apply IH in H' as (a & b & Hb & E). exists a, b. split; [apply before_cons; auto|exact E].
    + intros (a & b & H & Ea & Eb). apply before_cons in H as [[-> H]|H].
      * rewrite Ea. cbn [app]. apply before_cons. left. split; [reflexivity|]. apply in_images. eauto.
      * assert (before (images f l) u v) by (apply IH; eauto). destruct (f x); [cbn [app]; apply before_cons; auto|assumption].
Qed.
Lemma nodup_images {A B} (f : A -> option B) l : NoDup l -> (forall a a' b, In a l -> In a' l -> f a = Some b -> f a' = Some b -> a = a') -> NoDup (images f l).
Proof.
  induction l as [|x l IH]; intros Hd Hf; [constructor|]. inversion Hd; subst. cbn [images flat_map]. fold (images f l).
  assert (IH' : NoDup (images f l)) by (apply IH; [assumption|]; intros a a' b Ha Ha'; apply Hf; now right).
  destruct (f x) as [b|] eqn:E; [|exact IH']. cbn [app]. constructor; [|exact IH']. intros Hb. apply in_images in Hb as (a & Ha & Ea).
  assert (x = a) by (eapply Hf; [now left|now right|exact E|exact Ea]). subst. contradiction.
Qed.

(** The sort. *)
Section Sort.
Context {A : Type} (key : A -> Q).
Definition ranks (l : list A) (x y : A) : Prop := (key y < key x)%Q \/ (key x == key y)%Q /\ before l x y.
Lemma insert_pair_perm x l : Permutation (x :: l) (insert_pair key x l).
Proof.
  induction l as [|y l IH]; cbn [insert_pair]; [reflexivity|]. destruct (Qle_bool _ _); [reflexivity|]. rewrite perm_swap. now constructor.
Qed.
Lemma sort_pairs_perm l : Permutation l (sort_pairs key l).
Proof.
  induction l as [|x l IH]; cbn [sort_pairs fold_right]; [reflexivity|]. rewrite <- insert_pair_perm. now constructor.
Qed.
Lemma sort_pairs_ranked l : StronglySorted (ranks l) (sort_pairs key l).
Proof.
  induction l as [|x l IH]; [constructor|]. change (sort_pairs key (x :: l)) with (insert_pair key x (sort_pairs key l)).
  assert (Hin : forall y, In y (sort_pairs key l) -> In y l) by (intros y; apply Permutation_in; symmetry; apply sort_pairs_perm).
  revert Hin. generalize dependent (sort_pairs key l). intros m IH Hin. induction IH as [|y m Hs IH Hf]; cbn [insert_pair]; [repeat constructor|].
  assert (Hup : Forall (ranks (x :: l) y) m).
  { rewrite Forall_forall in *. intros z Hz. destruct (Hf z Hz) as [H|[H1 H2]]; [now left|]. right. split; [exact H1|]. apply before_cons. now right. }
  assert (Hs' : StronglySorted (ranks (x :: l)) m).
  { clear - Hs. induction Hs as [|z m Hs IH Hf]; [constructor|]. constructor; [exact IH|]. rewrite Forall_forall in *. intros w Hw.
    destruct (Hf w Hw) as [H|[H1 H2]]; [now left|]. right. split; [exact H1|]. apply before_cons. now right. }
  destruct (Qle_bool (key y) (key x)) eqn:E.
  - apply Qle_bool_iff in E. constructor; [constructor; assumption|]. rewrite Forall_forall in *.
    assert (G : forall z, In z (y :: m) -> (key z <= key x)%Q).
    { intros z [<-|Hz]; [exact E|]. destruct (Hf z Hz) as [H|[H _]]; lra. }
    intros z Hz. specialize (G z Hz). destruct (Qlt_le_dec (key z) (key x)) as [H|H]; [now left|]. right. split; [lra|]. apply before_cons. left. split; [reflexivity|]. now apply Hin.
  - assert (Hlt : (key x < key y)%Q).
    { destruct (Qlt_le_dec (key x) (key y)) as [H|H]; [exact H|]. apply Qle_bool_iff in H. congruence. }
    constructor.
    + apply IH. intros z Hz. apply Hin. now right.
    + rewrite Forall_forall in *. intros z Hz. apply (Permutation_in z (Permutation_sym (insert_pair_perm x m))) in Hz as [<-|Hz]; [now left|auto].
Qed.
Lemma before_sorted l a b : StronglySorted (ranks l) (sort_pairs key l) -> before (sort_pairs key l) a b -> ranks l a b.
Proof.
  intros Hs. induction Hs as [|x m Hs IH Hf]; intros H; [now apply before_nil in H|]. apply before_cons in H as [[-> H]|H]; [|auto].
  rewrite Forall_forall in Hf. auto.
Qed.
Lemma before_sort l a b : NoDup l -> In a l -> In b l -> (before (sort_pairs key l) a b <-> ranks l a b).
Proof.
  intros Hd Ha Hb. split; [apply before_sorted, sort_pairs_ranked|]. intros Hr.
  assert (Hne : a <> b).
  { intros ->. destruct Hr as [H|[_ H]]; [lra|]. now apply before_irrefl in H. }
  destruct (before_total (sort_pairs key l) a b) as [H|H]; [..|exact Hne|exact H|].
  - eapply Permutation_in; [apply sort_pairs_perm|exact Ha].
  - eapply Permutation_in; [apply sort_pairs_perm|exact Hb].
  - exfalso. apply (before_sorted l b a (sort_pairs_ranked l)) in H. destruct Hr as [Hr|[E1 Hr]], H as [H|[E2 H]]; try lra.
    now apply (before_asym l a b Hd Hr).
Qed.
End Sort.

(** *** The levels of a table *)

Section Levels.
Context (gran : list bool -> option Q) (s : db) (columns : list text) (es : list (Z * list text)).
Context (U : usable s columns es).
Let levels := distinct bytes_eqb (map (fun e => old_level (snd e)) es).
Let pairs0 := map (level_pair gran s columns) levels.
Let N_ (loc : list text) := NL s columns loc.

Lemma levels_nd : NoDup levels.
Proof. apply (nodup_distinct bytes_eqb bytes_eqb_iff). Qed.
Lemma in_levels lv : In lv levels <-> exists e, In e es /\ lv = old_level (snd e).
Proof.
  unfold levels. rewrite (in_distinct bytes_eqb bytes_eqb_iff), in_map_iff. split; intros (e & H1 & H2); exists e; auto.
Qed.
Lemma pairs_fst : map fst pairs0 = levels.
Proof. unfold pairs0. rewrite map_map. cbn [level_pair fst]. apply map_id. Qed.
Lemma pairs_nd : NoDup pairs0.
Proof. apply (NoDup_map_inv fst). rewrite pairs_fst. exact levels_nd. Qed.
Lemma in_pairs p : In p pairs0 <-> exists e, In e es /\ p = level_pair gran s columns (old_level (snd e)).
Proof.
  unfold pairs0. rewrite in_map_iff. split.
  - intros (lv & <- & H). apply in_levels in H as (e & He & ->). eauto.
  - intros (e & He & ->). exists (old_level (snd e)). split; [reflexivity|]. apply in_levels. eauto.
Qed.
Lemma pair_some (e : Z * list text) b : category s columns (snd e) b -> level_pair gran s columns (old_level (snd e)) = (old_level (snd e), Some (level_of b)) /\
  pair_key gran s (old_level (snd e), Some (level_of b)) = gran b.
Proof.
  intros Hc. apply category_iff in Hc as (Hb & Ht & E). pose proof (find_structure_of gran s columns es U b Hb Ht) as F. split.
  - unfold level_pair. change (node_level columns (d_labels s) (old_level (snd e))) with (NL s columns (snd e)). rewrite <- E, F. reflexivity.
  - unfold pair_key. cbn [snd]. now rewrite F.
Qed.
Lemma pair_none (e : Z * list text) : no_category s columns (snd e) -> level_pair gran s columns (old_level (snd e)) = (old_level (snd e), None).
Proof.
  intros Hc. unfold level_pair. change (node_level columns (d_labels s) (old_level (snd e))) with (NL s columns (snd e)).
  destruct (find_structure gran s (NL s columns (snd e))) as [g|] eqn:F; [|reflexivity].
  exfalso. destruct (proj1 (find_category gran s columns (snd e))) as [b Hb]; [eauto|]. exact (Hc b Hb).
Qed.
Lemma pair_cases (e : Z * list text) : (exists b, category s columns (snd e) b) \/ no_category s columns (snd e).
Proof.
  destruct (find_structure gran s (NL s columns (snd e))) as [g|] eqn:F.
  - left. apply (find_category gran s columns). eauto.
  - right. intros b Hb. destruct (proj2 (find_category gran s columns (snd e))) as [g Hg]; [eauto|]. congruence.
Qed.

Context (pairs : list (list N * option (list N))).
Context (HP : get_level_pairs gran s columns levels = Ok pairs).
Lemma pairs_eq : pairs = sort_pairs (fun p => match pair_key gran s p with Some q => q | None => 0%Q end) pairs0.
Proof. unfold get_level_pairs in HP. fold pairs0 in HP. destruct (_ && _); [discriminate|]. congruence. Qed.
Lemma pairs_perm : Permutation pairs0 pairs.
Proof. rewrite pairs_eq. apply sort_pairs_perm. Qed.
Lemma keys_set p : In p pairs -> 1 < length pairs -> exists q, pair_key gran s p = Some q.
Proof.
  intros Hp Hl. rewrite <- (Permutation_length pairs_perm) in Hl. pose proof HP as HP'. unfold get_level_pairs in HP'. fold pairs0 in HP'.
  destruct (1 <? length pairs0) eqn:E1; [|lia]. cbn [andb] in HP'. destruct (existsb _ pairs0) eqn:E2; [discriminate|].
  destruct (pair_key gran s p) as [q|] eqn:E; [eauto|]. exfalso.
  assert (existsb (fun p => match pair_key gran s p with None => true | Some _ => false end) pairs0 = true); [|congruence].
  apply existsb_exists. exists p. split; [|now rewrite E]. eapply Permutation_in; [symmetry; apply pairs_perm|exact Hp].
Qed.
Definition node_levels : list (list N) := images snd pairs.
Lemma pair_in_of e b : In e es -> category s columns (snd e) b -> In (old_level (snd e), Some (level_of b)) pairs.
Proof.
  intros He Hc. eapply Permutation_in; [apply pairs_perm|]. apply in_pairs. exists e. split; [exact He|]. symmetry. now apply pair_some.
Qed.
Lemma pair_level_inv p lv : In p pairs -> snd p = Some lv -> exists e b, In e es /\ category s columns (snd e) b /\ lv = level_of b /\ p = (old_level (snd e), Some lv).
Proof.
  intros Hp E. apply (Permutation_in p (Permutation_sym pairs_perm)) in Hp. apply in_pairs in Hp as (e & He & ->).
  destruct (pair_cases e) as [[b Hb]|Hn].
  - destruct (pair_some e b Hb) as [Ep _]. rewrite Ep in *. cbn [snd] in E. injection E as <-. eauto 8.
  - rewrite (pair_none e Hn) in E. discriminate.
Qed.
Lemma node_levels_in lv : In lv node_levels <-> exists e b, In e es /\ category s columns (snd e) b /\ lv = level_of b.
Proof.
  unfold node_levels. rewrite in_images. split.
  - intros (p & Hp & E). destruct (pair_level_inv p lv Hp E) as (e & b & He & Hc & El & _). eauto.
  - intros (e & b & He & Hc & ->). eexists. split; [exact (pair_in_of e b He Hc)|reflexivity].
Qed.
Lemma node_level_pair p lv e b : In p pairs -> snd p = Some lv -> In e es -> category s columns (snd e) b -> lv = level_of b -> p = (old_level (snd e), Some lv).
Proof.
  intros Hp E He Hc El. destruct (pair_level_inv p lv Hp E) as (e' & b' & He' & Hc' & El' & ->). f_equal.
  apply (level_inj s columns es U); auto. apply category_iff in Hc as (_ & _ & E1). apply category_iff in Hc' as (_ & _ & E2). congruence.
Qed.
Lemma node_levels_nd : NoDup node_levels.
Proof.
  apply nodup_images; [eapply Permutation_NoDup; [apply pairs_perm|apply pairs_nd]|].
  intros p p' lv Hp Hp' E E'. destruct (pair_level_inv p lv Hp E) as (e & b & He & Hc & El & ->).
  symmetry. eapply node_level_pair; eauto.
Qed.
Lemma order_iff ea a eb b : In ea es -> category s columns (snd ea) a -> In eb es -> category s columns (snd eb) b ->
  (before node_levels (level_of a) (level_of b) <-> ahead gran s columns es a b).
Proof.
  intros Ha Ca Hb Cb. destruct (pair_some ea a Ca) as [Pa Ka]. destruct (pair_some eb b Cb) as [Pb Kb].
  set (pa := (old_level (snd ea), Some (level_of a))) in *. set (pb := (old_level (snd eb), Some (level_of b))) in *.
  set (key := fun p => match pair_key gran s p with Some q => q | None => 0%Q end).
  assert (Ia : In pa pairs0) by (apply in_pairs; eauto). assert (Ib : In pb pairs0) by (apply in_pairs; eauto).
  pose proof (before_sort key pairs0 pa pb pairs_nd Ia Ib) as BS. unfold key in BS at 1. rewrite <- pairs_eq in BS.
  assert (BL : before node_levels (level_of a) (level_of b) <-> before pairs pa pb).
  { unfold node_levels. rewrite before_images. split.
    - intros (p & q & H & Ep & Eq). pose proof (before_in _ _ _ H) as [Hp Hq].
      rewrite (node_level_pair p _ ea a Hp Ep Ha Ca eq_refl), (node_level_pair q _ eb b Hq Eq Hb Cb eq_refl) in H. exact H.
    - intros H. exists pa, pb. auto. }
  rewrite BL, BS. unfold ranks.
  assert (B0 : before pairs0 pa pb <-> level_of a <> level_of b /\ exists es1 e es2, es = es1 ++ e :: es2 /\ category s columns (snd e) a /\ forall e', In e' es1 -> ~ category s columns (snd e') b).
  { assert (Bl : before pairs0 pa pb <-> before levels (old_level (snd ea)) (old_level (snd eb))).
    { split; intros H; [apply (before_map fst) in H; now rewrite pairs_fst in H|]. apply (before_map (level_pair gran s columns)) in H. now rewrite Pa, Pb in H. }
    rewrite Bl. unfold levels. rewrite before_distinct.
    assert (Q : forall e c e', In e es -> In e' es -> category s columns (snd e) c -> (old_level (snd e') = old_level (snd e) <-> category s columns (snd e') c)).
    { intros e c e' He He' Hc. split.
      - intros E. apply category_iff in Hc as (H1 & H2 & H3). apply category_iff. split; [exact H1|]. split; [exact H2|]. rewrite H3. unfold NL. now rewrite E.
      - intros Hc'. apply (level_inj s columns es U); auto. apply category_iff in Hc as (_ & _ & E1). apply category_iff in Hc' as (_ & _ & E2). congruence. }
    split.
    - intros (Hn & Hv & l1 & l2 & E & Hl). apply map_eq_app in E as (es1 & r & -> & <- & E). apply map_eq_cons in E as (e & es2 & -> & Ee & <-).
      assert (He : In e (es1 ++ e :: es2)) by (apply in_or_app; right; now left). split.
      + intros El. apply Hn. apply (Q eb b ea Hb Ha Cb). apply category_iff in Ca as (A1 & A2 & A3). apply category_iff in Cb as (B1 & B2 & B3). apply category_iff. split; [exact B1|]. split; [exact B2|]. congruence.
      + exists es1, e, es2. split; [reflexivity|]. split; [now apply (Q ea a e Ha He Ca)|]. intros e' He' Hc. apply Hl. apply in_map_iff. exists e'. split; [|exact He'].
        apply (Q eb b e' Hb); auto. apply in_or_app. now left.
    - intros (Hn & es1 & e & es2 & E & Ce & Hb1). split; [|split].
      + intros El. apply Hn. apply category_iff in Ca as (_ & _ & A3). apply category_iff in Cb as (_ & _ & B3). rewrite A3, B3. unfold NL. now rewrite El.
      + apply in_map_iff. eauto.
      + assert (He : In e es) by (rewrite E; apply in_or_app; right; now left).
        exists (map (fun e => old_level (snd e)) es1), (map (fun e => old_level (snd e)) es2). split.
        * rewrite E, map_app. cbn [map]. f_equal. f_equal. now apply (Q ea a e Ha He Ca).
        * intros Hi. apply in_map_iff in Hi as (e' & Ee' & He'). apply (Hb1 e' He'). apply (Q eb b e' Hb); auto. rewrite E. apply in_or_app. now left. }
  rewrite B0. unfold key, ahead. rewrite Ka, Kb. split.
  - intros H. assert (Hlen : 1 < length pairs).
    { assert (Hbf : before pairs pa pb) by (apply BS; unfold ranks, key; rewrite Ka, Kb, B0; exact H). destruct Hbf as (x & y & z & ->).
      rewrite app_length. cbn [length]. rewrite app_length. cbn [length]. lia. }
    destruct (keys_set pa (pair_in_of ea a Ha Ca) Hlen) as [p Ep]. destruct (keys_set pb (pair_in_of eb b Hb Cb) Hlen) as [q Eq].
    rewrite Ka in Ep. rewrite Kb in Eq. rewrite Ep, Eq in H. exists p, q. split; [exact Ep|]. split; [exact Eq|]. tauto.
  - intros (p & q & -> & -> & [H|(H1 & H2 & H3)]); [now left|]. right. tauto.
Qed.
End Levels.

(** *** The match table *)

Section Table.
Context (gran : list bool -> option Q) (s : db) (limit : nat) (allow : bool) (columns : list text) (es : list (Z * list text)).
Context (U : usable s columns es) (W : index_wf s).
Context (l : list hit) (c : old_counter) (HM : old_match_records gran s limit allow columns es = Ok (l, c)).
Let levels := distinct bytes_eqb (map (fun e => old_level (snd e)) es).
Let lvl (loc : list text) := NL s columns loc.

Lemma match_parts : exists g pairs, get_default_weight_group s = Ok g /\ get_level_pairs gran s columns levels = Ok pairs /\
  let st := fold_left (old_match_level s g limit allow columns es) pairs ([], old_zero) in l = refresh_hits (fst st) /\ c = snd st.
Proof.
  unfold old_match_records in HM. fold levels in HM. destruct (get_default_weight_group s) as [g|] eqn:Eg; [|discriminate]. cbn [bind] in HM.
  destruct (get_level_pairs gran s columns levels) as [pairs|] eqn:Ep; [|discriminate]. cbn [bind] in HM. injection HM as <- <-.
  exists g, pairs. auto.
Qed.
Lemma rows_fst g lv w : forall st, fst (fold_left (old_match_row s g limit allow columns lv) w st) =
  fold_left (turn (nh_old s g) (ch_old s limit allow columns)) (map (pair lv) w) (fst st).
Proof.
  induction w as [|e w IH]; intros st; cbn [fold_left map]; [reflexivity|]. rewrite IH, old_row_fst. reflexivity.
Qed.
Lemma levels_fst g pairs : incl pairs (map (level_pair gran s columns) levels) -> forall st,
  fst (fold_left (old_match_level s g limit allow columns es) pairs st) =
  fold_left (turn (nh_old s g) (ch_old s limit allow columns)) (turns lvl (images snd pairs) es) (fst st).
Proof.
  induction pairs as [|p pairs IH]; intros Hi st; [reflexivity|]. cbn [fold_left]. rewrite IH by (intros x Hx; apply Hi; now right).
  assert (Hp : In p (map (level_pair gran s columns) levels)) by (apply Hi; now left). apply in_pairs in Hp as (e & He & ->).
  change (images snd (level_pair gran s columns (old_level (snd e)) :: pairs)) with
    ((match snd (level_pair gran s columns (old_level (snd e))) with Some b => [b] | None => [] end) ++ images snd pairs).
  unfold turns. rewrite flat_map_app, fold_left_app. f_equal. unfold old_match_level.
  destruct (pair_cases gran s columns e) as [[b Hb]|Hn].
  - destruct (pair_some gran s columns es U e b Hb) as [-> _]. cbn [snd fst flat_map]. rewrite app_nil_r, rows_fst. f_equal. f_equal.
    unfold old_at, at_. apply filter_ext_in. intros e' He'. apply category_iff in Hb as (_ & _ & E). rewrite E.
    destruct (bytes_eqb (old_level (snd e')) (old_level (snd e))) eqn:E1.
    + apply bytes_eqb_iff in E1. symmetry. apply bytes_eqb_iff. unfold lvl, NL. now rewrite E1.
    + destruct (bytes_eqb (lvl (snd e')) (NL s columns (snd e))) eqn:E2; [|reflexivity]. apply bytes_eqb_iff in E2.
      apply (level_inj s columns es U) in E2; auto. apply bytes_eqb_iff in E2. congruence.
  - rewrite (pair_none gran s columns e Hn). reflexivity.
Qed.

Lemma existsb_unweighted g ids :
  existsb (fun i => match old_weight s g i with None => true | Some _ => false end) ids = false <-> forall i, In i ids -> weight_there s g i.
Proof.
  split.
  - intros E i Hi. apply old_weight_there. intros En. assert (existsb (fun i => match old_weight s g i with None => true | Some _ => false end) ids = true); [|congruence].
    apply existsb_exists. exists i. split; [exact Hi|]. now rewrite En.
  - intros H. destruct (existsb _ ids) eqn:E; [|reflexivity]. exfalso. apply existsb_exists in E as (i & Hi & E). apply H, old_weight_there in Hi. destruct (old_weight s g i); [discriminate|congruence].
Qed.

(** The matches before the shares are set. *)
Lemma table_shape : exists g pairs T, get_default_weight_group s = Ok g /\ get_level_pairs gran s columns levels = Ok pairs /\ l = refresh_hits T /\
  T = fold_left (turn (nh_old s g) (ch_old s limit allow columns)) (turns lvl (node_levels pairs) es) [].
Proof.
  destruct match_parts as (g & pairs & Hg & Hp & El & _). exists g, pairs, (fst (fold_left (old_match_level s g limit allow columns es) pairs ([], old_zero))).
  split; [exact Hg|]. split; [exact Hp|]. split; [exact El|]. rewrite levels_fst; [reflexivity|].
  intros x Hx. apply (Permutation_in x (Permutation_sym (pairs_perm gran s columns es pairs Hp))). exact Hx.
Qed.
Lemma hit_row h : In h l -> exists loc b, In (h_run h, loc) es /\ category s columns loc b /\ h_level h = level_of b.
Proof.
  destruct table_shape as (g & pairs & T & Hg & Hp & -> & ET). intros Hh. unfold refresh_hits in Hh. apply in_map_iff in Hh as (h0 & <- & H0).
  cbn [refresh_hit h_run h_level]. destruct (turns_from _ (ch_old s limit allow columns) (nh_old_from s g) (turns lvl (node_levels pairs) es) []) as (T' & E & Ht).
  rewrite <- ET in E. cbn [app] in E. subst T'. destruct (Ht h0 H0) as ((lv & r & loc) & Hx & Er & El). cbn [fst snd] in *. apply in_turns in Hx as (Hl & He & Elv). cbn [snd] in Elv.
  apply (node_levels_in gran s columns es U pairs Hp) in Hl as (e & b & _ & Hc & E). exists loc, b. rewrite Er. split; [exact He|].
  apply category_iff in Hc as (B1 & B2 & _). split; [|congruence]. apply category_iff. split; [exact B1|]. split; [exact B2|]. unfold lvl in Elv. congruence.
Qed.
Lemma void_row run loc : In (run, loc) es -> no_category s columns loc -> of_run run l = [].
Proof.
  intros He Hn. apply of_run_none. intros h Hh E. destruct (hit_row h Hh) as (loc' & b & He' & Hc & _). rewrite E in He'.
  assert (loc' = loc) by (eapply nodup_fst_eq; [exact (us_runs _ _ _ U)|..]; eassumption). subst loc'. exact (Hn b Hc).
Qed.
Lemma taken_iff g pairs T loc run b i : get_level_pairs gran s columns levels = Ok pairs -> l = refresh_hits T -> In (run, loc) es -> category s columns loc b ->
  T = fold_left (turn (nh_old s g) (ch_old s limit allow columns)) (turns lvl (node_levels pairs) es) [] ->
  (taken (node_levels pairs) (level_of b) T i <-> matched_before gran s columns es b l i).
Proof.
  intros Hp El He Hc ET. rewrite <- taken_refresh, <- El. unfold taken, matched_before. split.
  - intros (h & Hh & Ei & Hb). destruct (hit_row h Hh) as (loc' & a & He' & Hc' & Ea). exists h, loc', a. repeat split; auto; try apply Hc'.
    rewrite Ea in Hb. eapply (order_iff gran s columns es U pairs Hp (h_run h, loc') a (run, loc) b); eauto.
  - intros (h & loc' & a & Hh & Ei & He' & Hc' & Ha). exists h. split; [exact Hh|]. split; [exact Ei|].
    destruct (hit_row h Hh) as (loc2 & a2 & He2 & Hc2 & Ea). assert (loc2 = loc') by (eapply nodup_fst_eq; [exact (us_runs _ _ _ U)|..]; eassumption). subst loc2.
    rewrite (category_fun s columns es U _ _ _ Hc2 Hc') in Ea. rewrite Ea. eapply (order_iff gran s columns es U pairs Hp (h_run h, loc') a (run, loc) b); eauto.
Qed.
Lemma row_hits run loc b : In (run, loc) es -> category s columns loc b ->
  exists g refs keep, get_default_weight_group s = Ok g /\ fitting s columns loc refs /\ remains gran s columns es allow b l refs keep /\
    (accepted s g limit refs keep -> map h_index (of_run run l) = keep) /\ (~ accepted s g limit refs keep -> of_run run l = []) /\
    forall h, In h (of_run run l) -> h_level h = level_of b /\ weight_of s g (h_index h) (h_weight h).
Proof.
  intros He Hc. destruct table_shape as (g & pairs & T & Hg & Hp & El & ET). exists g.
  assert (Elv : lvl loc = level_of b) by (apply category_iff in Hc as (_ & _ & E); symmetry; exact E).
  destruct (turn_row lvl (nh_old s g) (ch_old s limit allow columns) (nh_old_from s g) es (node_levels pairs) run loc (node_levels_nd gran s columns es U pairs Hp) (us_runs _ _ _ U) He) as (T1 & ER & HO).
  { rewrite Elv. apply (node_levels_in gran s columns es U pairs Hp). exists (run, loc), b. auto. }
  rewrite <- ET in ER, HO. rewrite Elv in ER, HO. set (refs := old_candidates s columns loc).
  pose proof (candidates_fit s columns es U W (run, loc) He) as [Fn Fi]. cbn [snd] in Fn, Fi. fold refs in Fn, Fi.
  set (keep := if (1 <? length refs) && negb allow then filter (fun i => negb (is_overlap (level_of b) T1 i)) refs else refs).
  exists refs, keep. split; [exact Hg|]. split; [split; assumption|].
  assert (HK : remains gran s columns es allow b l refs keep).
  { split.
    - unfold keep. destruct (_ && _); [now apply NoDup_filter|exact Fn].
    - intros i. unfold keep. rewrite <- (taken_iff g pairs T loc run b i Hp El He Hc ET), <- HO. destruct (1 <? length refs) eqn:E1; cbn [andb].
      + destruct allow; cbn [negb]; [split; [|tauto]; intros H; split; [exact H|discriminate]|]. rewrite filter_In, negb_true_iff. split.
        * intros [H Eo]. split; [exact H|]. intros _ _ E. congruence.
        * intros [H Eo]. split; [exact H|]. destruct (is_overlap (level_of b) T1 i); [|reflexivity]. exfalso. apply Eo; [reflexivity|lia|reflexivity].
      + split; [|tauto]. intros H. split; [exact H|]. lia. }
  split; [exact HK|].
  assert (EC : ch_old s limit allow columns (level_of b) T1 loc = if limit <? length refs then [] else keep) by reflexivity.
  assert (ER' : of_run run l = map (refresh_hit T) (nh_old s g (level_of b) run (if limit <? length refs then [] else keep))).
  { rewrite El, of_run_refresh, ER, EC. reflexivity. }
  split; [|split].
  - intros [A1 A2]. rewrite ER'. destruct (limit <? length refs) eqn:E; [lia|]. unfold nh_old.
    destruct (1 <? length keep) eqn:E1; cbn [andb].
    + rewrite (proj2 (existsb_unweighted g keep)) by (apply A2; lia). rewrite !map_map. cbn [refresh_hit h_index]. apply map_id.
    + rewrite !map_map. cbn [refresh_hit h_index]. apply map_id.
  - intros NA. rewrite ER'. destruct (limit <? length refs) eqn:E; [reflexivity|]. unfold nh_old. destruct (1 <? length keep) eqn:E1; cbn [andb].
    + destruct (existsb _ keep) eqn:E2; [reflexivity|]. exfalso. apply NA. split; [lia|]. intros _. now apply existsb_unweighted.
    + exfalso. apply NA. split; [lia|]. lia.
  - intros h Hh. rewrite ER' in Hh. apply in_map_iff in Hh as (h0 & <- & Hh). cbn [refresh_hit h_level h_index h_weight]. split.
    + apply nh_old_from in Hh. tauto.
    + unfold nh_old in Hh. match type of Hh with In _ (if ?x then _ else _) => destruct x end; [destruct Hh|]. apply in_map_iff in Hh as (i & <- & _). cbn. apply old_weight_of.
Qed.

(** *** Shares *)

Lemma nh_weights g lv run ids : length (nh_old s g lv run ids) <= 1 \/ forall h, In h (nh_old s g lv run ids) -> h_weight h <> None.
Proof.
  unfold nh_old. destruct (1 <? length ids) eqn:E1; cbn [andb].
  - destruct (existsb _ ids) eqn:E2; [left; cbn; lia|]. right. intros h Hh. apply in_map_iff in Hh as (i & <- & Hi). cbn [h_weight]. apply old_weight_there.
    now apply (proj1 (existsb_unweighted g ids) E2).
  - left. rewrite map_length. lia.
Qed.
Lemma nh_nonneg g lv run ids h q : weights_wf s -> In h (nh_old s g lv run ids) -> h_weight h = Some q -> (0 <= q)%Q.
Proof.
  intros Ww Hh E. unfold nh_old in Hh. destruct (_ && _); [easy|]. apply in_map_iff in Hh as (i & <- & _).
  cbn [h_weight] in E. pose proof (old_weight_of s g i) as Hb. rewrite E in Hb. cbn in Hb.
  destruct Hb as (x & Hx & _ & _ & <-). now apply (ww_nonneg _ Ww).
Qed.
Lemma old_shares run : weights_wf s -> matched run l = true ->
  (forall h, In h (of_run run l) -> exists p, h_prop h = Some p /\ (0 <= p <= 1)%Q /\
     ((0 < total_weight run l)%Q -> (p == val (h_weight h) / total_weight run l)%Q) /\
     ((total_weight run l == 0)%Q -> (p == 1 / inject_Z (Z.of_nat (length (of_run run l))))%Q)) /\
  (parts run l == 1)%Q.
Proof.
  intros Ww Hm. unfold matched in Hm. apply existsb_exists in Hm as (h & Hh & Er). apply Z.eqb_eq in Er.
  destruct (hit_row h Hh) as (loc & b & He & Hc & _). rewrite Er in He.
  destruct table_shape as (g & pairs & T & Hg & Hp & El & ET).
  assert (Elv : lvl loc = level_of b) by (apply category_iff in Hc as (_ & _ & E); symmetry; exact E).
  destruct (turn_row lvl (nh_old s g) (ch_old s limit allow columns) (nh_old_from s g) es (node_levels pairs) run loc (node_levels_nd gran s columns es U pairs Hp) (us_runs _ _ _ U) He) as (T1 & ER & _).
  { rewrite Elv. apply (node_levels_in gran s columns es U pairs Hp). exists (run, loc), b. auto. }
  rewrite <- ET in ER. destruct (run_shares T run) as [S1 S2].
  - rewrite ER. apply nh_weights.
  - intros h' q. rewrite ER. intros Hi. now apply (nh_nonneg _ _ _ _ h' q Ww Hi).
  - rewrite El. split.
    + intros h' Hh'. rewrite of_run_refresh in Hh'. apply in_map_iff in Hh' as (h0 & <- & H0).
      destruct (S1 h0 H0) as (p & Ep & Hr & H1 & H2). exists p. rewrite total_weight_refresh, of_run_refresh, map_length.
      cbn [refresh_hit h_weight]. auto.
    + unfold parts. rewrite of_run_refresh, map_map. apply S2. intros E.
      assert (Hin : In h (of_run run l)) by (apply filter_In; split; [exact Hh|lia]).
      rewrite El, of_run_refresh, E in Hin. destruct Hin.
Qed.

(** *** Counters *)

Definition over (e : Z * list text) : bool := limit <? length (old_candidates s columns (snd e)).
Lemma old_insert_counts g lv run ids st : oc_invalid (snd (old_insert s g lv run ids st)) = oc_invalid (snd st) /\ oc_overlimit (snd (old_insert s g lv run ids st)) = oc_overlimit (snd st).
Proof. unfold old_insert. destruct (_ && _); cbn; split; lia. Qed.
Lemma row_counts g lv st e : let c' := snd (old_match_row s g limit allow columns lv st e) in
  oc_invalid c' = oc_invalid (snd st) /\ oc_overlimit c' = oc_overlimit (snd st) + b2n (over e).
Proof.
  unfold old_match_row, over. set (all := old_candidates s columns (snd e)). destruct (limit <? length all) eqn:El.
  - assert (Hf : length (firstn (limit + 1) all) = limit + 1) by (rewrite firstn_length; lia). rewrite Hf.
    destruct (limit <? limit + 1) eqn:E2; [|lia]. cbn. lia.
  - rewrite (firstn_short (limit + 1) all) by lia. rewrite El. cbn [b2n]. destruct (1 <? length all).
    + destruct allow; cbv zeta; (edestruct old_insert_counts as [-> ->]); cbn; lia.
    + cbv zeta. destruct (old_insert_counts g lv (fst e) all st) as [-> ->]. lia.
Qed.
Lemma rows_counts g lv w : forall st, let c' := snd (fold_left (old_match_row s g limit allow columns lv) w st) in
  oc_invalid c' = oc_invalid (snd st) /\ oc_overlimit c' = oc_overlimit (snd st) + length (filter over w).
Proof.
  induction w as [|e w IH]; intros st; cbn [fold_left filter length]; [cbv zeta; lia|].
  destruct (IH (old_match_row s g limit allow columns lv st e)) as [I1 I2]. destruct (row_counts g lv st e) as [R1 R2]. cbv zeta in *.
  rewrite I1, I2, R1, R2. destruct (over e); cbn [b2n length]; lia.
Qed.
Definition bad (e : Z * list text) : bool := match snd (level_pair gran s columns (old_level (snd e))) with None => true | Some _ => false end.
Lemma levels_counts g pairs : forall st, incl pairs (map (level_pair gran s columns) levels) -> let c' := snd (fold_left (old_match_level s g limit allow columns es) pairs st) in
  oc_invalid c' = oc_invalid (snd st) + list_sum (map (fun p => length (filter bad (old_at (fst p) es))) pairs) /\
  oc_overlimit c' = oc_overlimit (snd st) + list_sum (map (fun p => length (filter (fun e => negb (bad e) && over e) (old_at (fst p) es))) pairs).
Proof.
  induction pairs as [|p pairs IH]; intros st Hi; cbn [fold_left map list_sum fold_right]; [cbv zeta; lia|].
  destruct (IH (old_match_level s g limit allow columns es st p)) as [I1 I2]; [intros x Hx; apply Hi; now right|]. cbv zeta in *. rewrite I1, I2. clear I1 I2 IH.
  assert (Hp : In p (map (level_pair gran s columns) levels)) by (apply Hi; now left). apply in_map_iff in Hp as (lv & Ep & _).
  assert (B : forall e, In e (old_at (fst p) es) -> bad e = match snd p with None => true | Some _ => false end).
  { intros e He. apply filter_In in He as [_ E]. apply bytes_eqb_iff in E. unfold bad. rewrite E, <- Ep. reflexivity. }
  assert (F1 : filter bad (old_at (fst p) es) = match snd p with None => old_at (fst p) es | Some _ => [] end).
  { rewrite (filter_ext_in _ _ _ B), filter_const. now destruct (snd p). }
  assert (F2 : filter (fun e => negb (bad e) && over e) (old_at (fst p) es) = match snd p with None => [] | Some _ => filter over (old_at (fst p) es) end).
  { rewrite (filter_ext_in (fun e => negb (bad e) && over e) (fun e => match snd p with None => false | Some _ => over e end)).
    - destruct (snd p); [reflexivity|rewrite filter_const; reflexivity].
    - intros e He. rewrite (B e He). now destruct (snd p). }
  rewrite F1, F2. unfold old_match_level. destruct (snd p) as [lv'|].
  - destruct (rows_counts g lv' (old_at (fst p) es) st) as [-> ->]. cbn [length]. unfold list_sum. lia.
  - cbn [snd oc_add oc_invalid oc_overlimit length]. unfold list_sum. lia.
Qed.
Lemma count_levels (q : Z * list text -> bool) : list_sum (map (fun lv => length (filter q (old_at lv es))) levels) = length (filter q es).
Proof.
  assert (G : forall ls es', NoDup ls -> (forall e, In e es' -> In (old_level (snd e)) ls) -> list_sum (map (fun lv => length (filter q (old_at lv es'))) ls) = length (filter q es')).
  { clear. induction es' as [|e es' IH]; intros Hd Hc.
    - cbn. induction ls; [reflexivity|]. cbn. inversion Hd. apply IHls; auto. easy.
    - assert (IH' := IH Hd (fun e' He' => Hc e' (or_intror He'))). cbn [filter]. specialize (Hc e (or_introl eq_refl)).
      replace (length (if q e then e :: filter q es' else filter q es')) with (b2n (q e) + length (filter q es')) by (destruct (q e); reflexivity).
      rewrite <- IH'. clear IH IH'. induction ls as [|lv ls IHl]; [easy|]. inversion Hd; subst. cbn [map list_sum fold_right]. fold (list_sum (map (fun lv => length (filter q (old_at lv es'))) ls)).
      fold (list_sum (map (fun lv => length (filter q (old_at lv (e :: es')))) ls)).
      assert (Hcons : forall k, length (filter q (old_at k (e :: es'))) = (if bytes_eqb (old_level (snd e)) k then b2n (q e) else 0) + length (filter q (old_at k es'))).
      { intros k. unfold old_at. cbn [filter]. destruct (bytes_eqb _ k); cbn [filter]; [|lia]. destruct (q e); cbn [length b2n]; lia. }
      rewrite Hcons. destruct (bytes_eqb (old_level (snd e)) lv) eqn:E.
      + apply bytes_eqb_iff in E. assert (Z : list_sum (map (fun lv => length (filter q (old_at lv (e :: es')))) ls) = list_sum (map (fun lv => length (filter q (old_at lv es'))) ls)).
        { f_equal. apply map_ext_in. intros k Hk. rewrite Hcons. destruct (bytes_eqb (old_level (snd e)) k) eqn:E2; [|reflexivity].
          apply bytes_eqb_iff in E2. exfalso. apply H1. congruence. }
        rewrite Z. lia.
      + destruct Hc as [Hc|Hc]; [apply eq_sym in Hc; apply bytes_eqb_iff in Hc; congruence|]. rewrite (IHl H2 Hc). lia. }
  apply G; [apply levels_nd|]. intros e He. apply in_levels. eauto.
Qed.
Lemma list_sum_perm a b : Permutation a b -> list_sum a = list_sum b.
Proof. induction 1; cbn [list_sum fold_right] in *; unfold list_sum in *; cbn [fold_right] in *; lia. Qed.
Lemma bad_iff e : bad e = true <-> no_category s columns (snd e).
Proof.
  unfold bad. destruct (pair_cases gran s columns e) as [[b Hb]|Hn].
  - destruct (pair_some gran s columns es U e b Hb) as [-> _]. cbn [snd]. split; [discriminate|]. intros H. exfalso. exact (H b Hb).
  - rewrite (pair_none gran s columns e Hn). cbn [snd]. tauto.
Qed.
Lemma old_counts : Mapper_Spec.counts (fun e => no_category s columns (snd e)) es (oc_invalid c) /\
  Mapper_Spec.counts (fun e => ~ no_category s columns (snd e) /\ exists refs, fitting s columns (snd e) refs /\ limit < length refs) es (oc_overlimit c).
Proof.
  destruct match_parts as (g & pairs & Hg & Hp & _ & Ec). cbv zeta in Ec. pose proof (pairs_perm gran s columns es pairs Hp) as PP. fold levels in PP.
  destruct (levels_counts g pairs ([], old_zero)) as [C1 C2].
  { intros x Hx. eapply Permutation_in; [symmetry; exact PP|exact Hx]. }
  cbv zeta in C1, C2. rewrite <- Ec in C1, C2. cbn [snd old_zero oc_invalid oc_overlimit Nat.add] in C1, C2.
  assert (G : forall q, list_sum (map (fun p : list N * option (list N) => length (filter q (old_at (fst p) es))) pairs) = length (filter q es)).
  { intros q. rewrite <- (count_levels q). rewrite <- (list_sum_perm _ _ (Permutation_map _ PP)). f_equal. rewrite map_map. cbn [level_pair fst]. reflexivity. }
  rewrite G in C1, C2. split.
  - exists bad. split; [|now symmetry]. intros e _. apply bad_iff.
  - exists (fun e => negb (bad e) && over e). split; [|now symmetry]. intros e He. rewrite andb_true_iff, negb_true_iff.
    assert (B : bad e = false <-> ~ no_category s columns (snd e)).
    { rewrite <- bad_iff. destruct (bad e); split; congruence. }
    rewrite B. unfold over. pose proof (candidates_fit s columns es U W e He) as F. split.
    + intros [H1 H2]. split; [exact H1|]. exists (old_candidates s columns (snd e)). split; [exact F|lia].
    + intros [H1 (refs & F' & H2)]. split; [exact H1|]. assert (length refs = length (old_candidates s columns (snd e))); [|lia].
      apply Permutation_length, NoDup_Permutation; [exact (proj1 F')|exact (proj1 F)|]. intros i. now rewrite (proj2 F' i), (proj2 F i).
Qed.
End Table.
