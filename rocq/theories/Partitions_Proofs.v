From Verif Require Import Prelude Partitions_Model Partitions_Spec.
From Coq Require Import Permutation Sorted.

(* -------------------------------------------------------------------- sets *)
Lemma lmem_iff x s : lmem x s = true <-> In x s.
Proof.
  unfold lmem. rewrite existsb_exists. split.
  - intros [y [Hy He]]. apply String.eqb_eq in He. subst. exact Hy.
  - intros H. exists x. split; [exact H | apply String.eqb_refl].
Qed.

Lemma lsubset_iff a b : lsubset a b = true <-> incl a b.
Proof.
  unfold lsubset. rewrite forallb_forall. unfold incl.
  split; intros H x Hx; specialize (H x Hx); apply lmem_iff; exact H.
Qed.

Lemma lset_eqb_iff a b : lset_eqb a b = true <-> same_set a b.
Proof.
  unfold lset_eqb. rewrite andb_true_iff, !lsubset_iff. unfold incl, same_set.
  split.
  - intros [H1 H2] x; split; auto.
  - intros H; split; intros x Hx; apply H; exact Hx.
Qed.

Lemma same_set_refl a : same_set a a.
Proof. intros x; tauto. Qed.
Lemma same_set_sym a b : same_set a b -> same_set b a.
Proof. intros H x; specialize (H x); tauto. Qed.
Lemma same_set_trans a b c : same_set a b -> same_set b c -> same_set a c.
Proof. intros H1 H2 x; specialize (H1 x); specialize (H2 x); tauto. Qed.

Lemma same_set_dec a b : {same_set a b} + {~ same_set a b}.
Proof.
  destruct (lset_eqb a b) eqn:E.
  - left. apply lset_eqb_iff. exact E.
  - right. intros H. apply lset_eqb_iff in H. congruence.
Qed.

Lemma lset_in_iff s l : lset_in s l = true <-> member s l.
Proof.
  unfold lset_in, member. rewrite existsb_exists. split.
  - intros [t [Ht He]]. exists t. split; [exact Ht|].
    apply same_set_sym. apply lset_eqb_iff. exact He.
  - intros [t [Ht He]]. exists t. split; [exact Ht|].
    apply lset_eqb_iff. apply same_set_sym. exact He.
Qed.

Lemma lset_in_false s l : lset_in s l = false <-> ~ member s l.
Proof.
  rewrite <- lset_in_iff. destruct (lset_in s l); split; intros H; try congruence.
Qed.

Lemma member_same s t l : same_set s t -> member s l -> member t l.
Proof.
  intros H [u [Hu He]]. exists u. split; [exact Hu|].
  eapply same_set_trans; eauto.
Qed.

Lemma member_app s a b : member s (a ++ b) <-> member s a \/ member s b.
Proof.
  unfold member. split.
  - intros [t [Ht He]]. apply in_app_or in Ht. destruct Ht; [left|right]; eauto.
  - intros [[t [Ht He]]|[t [Ht He]]]; exists t; split; auto; apply in_or_app; auto.
Qed.

Lemma member_In s l : In s l -> member s l.
Proof. intros H. exists s. split; [exact H | apply same_set_refl]. Qed.

Lemma all_distinct_snoc l s :
  all_distinct l -> ~ member s l -> all_distinct (l ++ [s]).
Proof.
  induction 1 as [|t l Ht Hl IH]; intros Hs; cbn.
  - constructor; [|constructor]. intros [u [[] _]].
  - constructor.
    + rewrite member_app. intros [H|H]; [exact (Ht H)|].
      destruct H as [u [[<-|[]] He]]. apply Hs. exists t.
      split; [left; reflexivity | apply same_set_sym; exact He].
    + apply IH. intros [u [Hu He]]. apply Hs. exists u. split; [right; exact Hu|exact He].
Qed.

(* ------------------------------------------------------------ combinations *)
Lemma combinations_incl {A} (l : list A) : forall k c, In c (combinations k l) -> incl c l.
Proof.
  induction l as [|x xs IH]; intros k c H.
  - destruct k; cbn in H; [destruct H as [<-|[]]; intros z [] | destruct H].
  - destruct k as [|k]; cbn in H.
    + destruct H as [<-|[]]. intros z [].
    + apply in_app_or in H. destruct H as [H|H].
      * apply in_map_iff in H. destruct H as [c' [<- H]].
        apply incl_cons; [left; reflexivity|].
        apply incl_tl. eapply IH; eauto.
      * apply incl_tl. eapply IH; eauto.
Qed.

(** Every choice of positions (a predicate on elements is enough here) occurs. *)
Lemma combinations_filter {A} (f : A -> bool) (l : list A) :
  In (filter f l) (combinations (length (filter f l)) l).
Proof.
  induction l as [|x xs IH]; cbn.
  - left; reflexivity.
  - destruct (f x) eqn:E; cbn.
    + apply in_or_app. left. apply in_map. exact IH.
    + destruct (length (filter f xs)) eqn:L.
      * left. destruct (filter f xs); [reflexivity|discriminate].
      * apply in_or_app. right. exact IH.
Qed.

Lemma filter_length_le' {A} (f : A -> bool) l : length (filter f l) <= length l.
Proof. induction l as [|x l IH]; cbn; [lia|]. destruct (f x); cbn; lia. Qed.

(* --------------------------------------------------------------- structure *)
Definition uq (defs : list labelset) (st : list labelset) : Prop :=
  all_distinct st /\ (forall s, In s st -> union_of defs s).

Lemma union_of_concat defs sub : incl sub defs -> union_of defs (concat sub).
Proof.
  intros H. exists sub. split; [exact H|]. intros x. rewrite in_concat. split.
  - intros [d [H1 H2]]; eauto.
  - intros [d [H1 H2]]; eauto.
Qed.

Lemma add_union_inv defs st c : uq defs st -> incl c defs -> uq defs (add_union st c).
Proof.
  intros [Hd Hu] Hc. unfold add_union.
  destruct (lset_in (concat c) st) eqn:E; [split; assumption|].
  apply lset_in_false in E. split.
  - apply all_distinct_snoc; assumption.
  - intros s Hs. apply in_app_or in Hs. destruct Hs as [Hs|[<-|[]]]; [auto|].
    apply union_of_concat. exact Hc.
Qed.

Lemma add_union_keeps s st c : member s st -> member s (add_union st c).
Proof.
  intros H. unfold add_union. destruct (lset_in _ _); [exact H|].
  apply member_app. left; exact H.
Qed.

Lemma add_union_adds st c : member (concat c) (add_union st c).
Proof.
  unfold add_union. destruct (lset_in (concat c) st) eqn:E.
  - apply lset_in_iff. exact E.
  - apply member_app. right. apply member_In. left; reflexivity.
Qed.

Lemma fold_add_union_inv defs cs : forall st,
  uq defs st -> (forall c, In c cs -> incl c defs) -> uq defs (fold_left add_union cs st).
Proof.
  induction cs as [|c cs IH]; intros st H Hc; cbn; [exact H|].
  apply IH.
  - apply add_union_inv; [exact H | apply Hc; left; reflexivity].
  - intros d Hd. apply Hc. right; exact Hd.
Qed.

Lemma fold_add_union_keeps s cs : forall st,
  member s st -> member s (fold_left add_union cs st).
Proof.
  induction cs as [|c cs IH]; intros st H; cbn; [exact H|].
  apply IH. apply add_union_keeps. exact H.
Qed.

Lemma fold_add_union_adds c cs : forall st,
  In c cs -> member (concat c) (fold_left add_union cs st).
Proof.
  induction cs as [|d cs IH]; intros st H; cbn; [destruct H|].
  destruct H as [->|H].
  - apply fold_add_union_keeps. apply add_union_adds.
  - apply IH. exact H.
Qed.

Definition outer (defs : list labelset) :=
  fun structure len => fold_left add_union (combinations len defs) structure.

Lemma outer_inv defs lens : forall st,
  uq defs st -> uq defs (fold_left (outer defs) lens st).
Proof.
  induction lens as [|n lens IH]; intros st H; cbn; [exact H|].
  apply IH. unfold outer. apply fold_add_union_inv; [exact H|].
  intros c Hc. eapply combinations_incl; eauto.
Qed.

Lemma outer_keeps defs s lens : forall st,
  member s st -> member s (fold_left (outer defs) lens st).
Proof.
  induction lens as [|n lens IH]; intros st H; cbn; [exact H|].
  apply IH. apply fold_add_union_keeps. exact H.
Qed.

Lemma outer_adds defs n lens c : forall st,
  In n lens -> In c (combinations n defs) ->
  member (concat c) (fold_left (outer defs) lens st).
Proof.
  induction lens as [|m lens IH]; intros st H Hc; cbn; [destruct H|].
  destruct H as [->|H].
  - apply outer_keeps. unfold outer. apply fold_add_union_adds. exact Hc.
  - apply IH; assumption.
Qed.

Lemma make_structure_inv defs : uq defs (make_structure defs).
Proof.
  unfold make_structure. apply (outer_inv defs). split; [constructor|].
  intros s [].
Qed.

Lemma make_structure_distinct defs : all_distinct (make_structure defs).
Proof. apply make_structure_inv. Qed.

Lemma member_structure_union defs s :
  member s (make_structure defs) <-> union_of defs s.
Proof.
  split.
  - intros [t [Ht He]].
    destruct (make_structure_inv defs) as [_ Hu].
    destruct (Hu t Ht) as [sub [Hi Hx]].
    exists sub. split; [exact Hi|]. intros x. rewrite <- (He x). apply Hx.
  - intros [sub [Hi Hx]].
    set (f := fun d => lset_in d sub).
    assert (Hm : member (concat (filter f defs)) (make_structure defs)).
    { unfold make_structure.
      apply outer_adds with (n := length (filter f defs)).
      - apply in_seq. pose proof (filter_length_le' f defs). lia.
      - apply combinations_filter. }
    eapply member_same; [|exact Hm].
    intros x. rewrite in_concat, Hx. split.
    + intros [d [Hd Hxd]]. apply filter_In in Hd. destruct Hd as [Hd Hf].
      unfold f in Hf. apply lset_in_iff in Hf. destruct Hf as [e [He Hs]].
      exists e. split; [exact He|]. apply Hs. exact Hxd.
    + intros [d [Hd Hxd]]. exists d. split; [|exact Hxd].
      apply filter_In. split; [apply Hi; exact Hd|].
      apply lset_in_iff. apply member_In. exact Hd.
Qed.

Lemma fold_add_union_prefix cs : forall st,
  exists l, fold_left add_union cs st = st ++ l.
Proof.
  induction cs as [|c cs IH]; intros st; cbn.
  - exists []. rewrite app_nil_r. reflexivity.
  - destruct (IH (add_union st c)) as [l Hl]. rewrite Hl.
    unfold add_union. destruct (lset_in _ _); [eauto|].
    exists (concat c :: l). rewrite <- app_assoc. reflexivity.
Qed.

Lemma outer_prefix defs lens : forall st,
  exists l, fold_left (outer defs) lens st = st ++ l.
Proof.
  induction lens as [|n lens IH]; intros st; cbn.
  - exists []. rewrite app_nil_r. reflexivity.
  - destruct (IH (outer defs st n)) as [l Hl]. rewrite Hl.
    unfold outer. destruct (fold_add_union_prefix (combinations n defs) st) as [l' Hl'].
    rewrite Hl'. exists (l' ++ l). rewrite <- app_assoc. reflexivity.
Qed.

Lemma make_structure_head defs : exists l, make_structure defs = [] :: l.
Proof.
  unfold make_structure. cbn [seq fold_left].
  destruct (outer_prefix defs (seq 1 (length defs)) (outer defs [] 0)) as [l Hl].
  unfold outer in Hl at 1. exists l. etransitivity; [exact Hl|].
  unfold outer. destruct defs; reflexivity.
Qed.

Lemma make_structure_closed defs a b :
  member a (make_structure defs) -> member b (make_structure defs) ->
  member (a ++ b) (make_structure defs).
Proof.
  rewrite !member_structure_union. intros [s1 [I1 H1]] [s2 [I2 H2]].
  exists (s1 ++ s2). split; [apply incl_app; assumption|].
  intros x. rewrite in_app_iff, H1, H2. split.
  - intros [[d [Hd Hx]]|[d [Hd Hx]]]; exists d; rewrite in_app_iff; auto.
  - intros [d [Hd Hx]]. apply in_app_or in Hd. destruct Hd; [left|right]; eauto.
Qed.

(* ----------------------------------------------------------- union algebra *)
Lemma union_of_same defs s t : same_set s t -> union_of defs s -> union_of defs t.
Proof.
  intros H [sub [Hi Hx]]. exists sub. split; [exact Hi|].
  intros x. rewrite <- (H x). apply Hx.
Qed.

Lemma union_of_self defs d : In d defs -> union_of defs d.
Proof.
  intros H. exists [d]. split.
  - intros z [<-|[]]. exact H.
  - intros x. split.
    + intros Hx. exists d. split; [left; reflexivity|exact Hx].
    + intros [e [[<-|[]] Hx]]. exact Hx.
Qed.

Lemma union_of_member defs d : member d defs -> union_of defs d.
Proof.
  intros [t [Ht He]]. eapply union_of_same; [exact He|]. apply union_of_self. exact Ht.
Qed.

Lemma union_of_empty defs : union_of defs [].
Proof.
  exists []. split; [intros z []|]. intros x. split; [intros []|intros [d [[] _]]].
Qed.

Lemma union_of_app defs a b : union_of defs a -> union_of defs b -> union_of defs (a ++ b).
Proof.
  rewrite <- !member_structure_union. apply make_structure_closed.
Qed.

(** A union of unions is a union. *)
Lemma union_of_trans defs defs' s :
  (forall d, In d defs -> union_of defs' d) -> union_of defs s -> union_of defs' s.
Proof.
  intros H [sub [Hi Hx]].
  assert (Hc : forall sub, incl sub defs -> union_of defs' (concat sub)).
  { clear sub Hi Hx. induction sub as [|d sub IH]; intros Hi; cbn.
    - apply union_of_empty.
    - apply union_of_app.
      + apply H. apply Hi. left; reflexivity.
      + apply IH. intros z Hz. apply Hi. right; exact Hz. }
  eapply union_of_same; [|apply (Hc sub Hi)].
  intros x. rewrite in_concat, Hx. split; intros [d [A B]]; eauto.
Qed.

Lemma union_of_mono defs defs' s : incl defs defs' -> union_of defs s -> union_of defs' s.
Proof. intros H [sub [Hi Hx]]. exists sub. split; [eapply incl_tran; eauto|exact Hx]. Qed.

(* ------------------------------------------------------------ sorted by len *)
Lemma insert_by_len_perm s l : Permutation (s :: l) (insert_by_len s l).
Proof.
  induction l as [|t l IH]; cbn; [reflexivity|].
  destruct (_ <=? _); [reflexivity|].
  etransitivity; [apply perm_swap|]. constructor. exact IH.
Qed.

Lemma sorted_by_len_perm l : Permutation l (sorted_by_len l).
Proof.
  induction l as [|s l IH]; cbn; [reflexivity|].
  etransitivity; [constructor; exact IH|]. apply insert_by_len_perm.
Qed.

Definition len_le (a b : labelset) : Prop := lset_len a <= lset_len b.

Lemma insert_by_len_sorted s l :
  StronglySorted len_le l -> StronglySorted len_le (insert_by_len s l).
Proof.
  induction 1 as [|t l Hl IH Ht]; cbn.
  - repeat constructor.
  - destruct (lset_len s <=? lset_len t) eqn:E.
    + apply Nat.leb_le in E. constructor; [constructor; assumption|].
      constructor; [exact E|]. eapply Forall_impl; [|exact Ht].
      intros a Ha. unfold len_le in *. lia.
    + apply Nat.leb_gt in E. constructor; [exact IH|].
      assert (Forall (len_le t) (s :: l)) as Hf.
      { constructor; [unfold len_le; lia|exact Ht]. }
      eapply Permutation_Forall; [apply insert_by_len_perm|exact Hf].
Qed.

Lemma sorted_by_len_sorted l : StronglySorted len_le (sorted_by_len l).
Proof.
  induction l as [|s l IH]; cbn; [constructor|]. apply insert_by_len_sorted. exact IH.
Qed.

(** A proper subset has fewer elements. *)
Lemma lset_len_same a b : same_set a b -> lset_len a = lset_len b.
Proof.
  intros H. unfold lset_len. apply Permutation_length.
  apply NoDup_Permutation; try apply NoDup_nodup.
  intros x. rewrite !nodup_In. apply H.
Qed.

Lemma lset_len_subset a b : incl a b -> lset_len b <= lset_len a -> same_set a b.
Proof.
  intros Hi Hl x. split; [apply Hi|].
  intros Hx. unfold lset_len in Hl.
  assert (incl (nodup string_dec b) (nodup string_dec a)) as H.
  { apply NoDup_length_incl.
    - apply NoDup_nodup.
    - exact Hl.
    - intros y Hy. rewrite nodup_In in *. apply Hi. exact Hy. }
  specialize (H x). rewrite !nodup_In in H. auto.
Qed.

(* ----------------------------------------------------------- find_minimal *)
Lemma add_if_new_cases D d :
  (union_of D d /\ add_if_new D d = D) \/ (~ union_of D d /\ add_if_new D d = D ++ [d]).
Proof.
  unfold add_if_new. destruct (lset_in d (make_structure D)) eqn:E.
  - left. split; [|reflexivity]. apply member_structure_union, lset_in_iff. exact E.
  - right. split; [|reflexivity]. rewrite <- member_structure_union, <- lset_in_iff. congruence.
Qed.

(** Invariant of the loop after processing the prefix [P] giving [D]. *)
Record min_inv (P D : list labelset) : Prop := {
  mi_incl : incl D P;
  mi_gen : forall d, In d P -> union_of D d;
  mi_distinct : all_distinct D;
  mi_irr : forall d, In d D -> irreducible P d }.

(** If [d] is the union of members of [P], removing the non-subsets is harmless
    and all members of the sub-collection are subsets. *)
Lemma cover_sub (d : labelset) (sub : list labelset) :
  (forall x, In x d <-> exists e, In e sub /\ In x e) -> forall e, In e sub -> incl e d.
Proof. intros H e He x Hx. apply H. eauto. Qed.

(** Adding an element that is not strictly smaller than [d] keeps irreducibility. *)
Lemma irreducible_add P d e :
  irreducible P d -> (~ incl e d \/ same_set e d) -> irreducible (P ++ [e]) d.
Proof.
  intros Hirr He [sub [Hi [Hne Hx]]]. apply Hirr. exists sub. split; [|split; assumption].
  intros z Hz. specialize (Hi z Hz). apply in_app_or in Hi.
  destruct Hi as [Hi|[<-|[]]]; [exact Hi|].
  exfalso. destruct He as [He|He].
  - apply He. eapply cover_sub; eauto.
  - apply (Hne e Hz). exact He.
Qed.

Lemma min_inv_step P D d :
  min_inv P D -> (forall e, In e P -> lset_len e <= lset_len d) ->
  min_inv (P ++ [d]) (add_if_new D d).
Proof.
  intros [Hincl Hgen Hdist Hirr] Hlen.
  assert (Hold : forall e, In e D -> irreducible (P ++ [d]) e).
  { intros e He. apply irreducible_add; [apply Hirr; exact He|].
    destruct (same_set_dec d e) as [Hs|Hs]; [right; exact Hs|left].
    intros Hsub. apply Hs. apply lset_len_subset; [exact Hsub|].
    apply Hlen. apply Hincl. exact He. }
  destruct (add_if_new_cases D d) as [[Hu ->]|[Hu ->]].
  - constructor.
    + intros z Hz. apply in_or_app. left. apply Hincl. exact Hz.
    + intros z Hz. apply in_app_or in Hz. destruct Hz as [Hz|[<-|[]]]; auto.
    + exact Hdist.
    + exact Hold.
  - constructor.
    + apply incl_app; [apply incl_appl; exact Hincl|apply incl_appr, incl_refl].
    + intros z Hz. apply in_app_or in Hz. destruct Hz as [Hz|[<-|[]]].
      * eapply union_of_mono; [|apply Hgen; exact Hz]. apply incl_appl, incl_refl.
      * apply union_of_self. apply in_or_app. right; left; reflexivity.
    + apply all_distinct_snoc; [exact Hdist|]. intros H. apply Hu. apply union_of_member. exact H.
    + intros e He. apply in_app_or in He. destruct He as [He|[<-|[]]]; [apply Hold; exact He|].
      apply irreducible_add; [|right; apply same_set_refl].
      intros [sub [Hi [_ Hx]]]. apply Hu.
      eapply union_of_trans; [exact Hgen|]. exists sub. split; assumption.
Qed.

Lemma find_minimal_fold L : forall P D,
  min_inv P D -> StronglySorted len_le L ->
  (forall e d, In e P -> In d L -> lset_len e <= lset_len d) ->
  min_inv (P ++ L) (fold_left add_if_new L D).
Proof.
  induction L as [|d L IH]; intros P D H HS Hlen; cbn.
  - rewrite app_nil_r. exact H.
  - inversion HS as [|? ? HS' HF]; subst.
    replace (P ++ d :: L) with ((P ++ [d]) ++ L) by (rewrite <- app_assoc; reflexivity).
    apply IH.
    + apply min_inv_step; [exact H|]. intros e He. apply Hlen; [exact He|left; reflexivity].
    + exact HS'.
    + intros e f He Hf. apply in_app_or in He. destruct He as [He|[<-|[]]].
      * apply Hlen; [exact He|right; exact Hf].
      * rewrite Forall_forall in HF. apply HF. exact Hf.
Qed.

Lemma find_minimal_sorted_inv bases :
  min_inv (sorted_by_len (concat bases)) (find_minimal bases).
Proof.
  unfold find_minimal.
  apply (find_minimal_fold (sorted_by_len (concat bases)) [] []).
  - constructor; [intros z []| intros z [] | constructor | intros z []].
  - apply sorted_by_len_sorted.
  - intros e d [].
Qed.

Lemma irreducible_ext P P' d :
  (forall e, In e P' -> In e P) -> irreducible P d -> irreducible P' d.
Proof.
  intros H Hi [sub [Hs [Hne Hx]]]. apply Hi. exists sub. split; [|split; assumption].
  intros z Hz. apply H. apply Hs. exact Hz.
Qed.

Lemma find_minimal_inv bases : min_inv (concat bases) (find_minimal bases).
Proof.
  destruct (find_minimal_sorted_inv bases) as [Hincl Hgen Hdist Hirr].
  pose proof (sorted_by_len_perm (concat bases)) as HP.
  constructor.
  - intros z Hz. eapply Permutation_in; [symmetry; exact HP|]. apply Hincl. exact Hz.
  - intros d Hd. apply Hgen. eapply Permutation_in; [exact HP|exact Hd].
  - exact Hdist.
  - intros d Hd. eapply irreducible_ext; [|apply Hirr; exact Hd].
    intros e He. eapply Permutation_in; [exact HP|exact He].
Qed.

Lemma find_minimal_generates bases s :
  union_of (find_minimal bases) s <-> union_of (concat bases) s.
Proof.
  destruct (find_minimal_inv bases) as [Hincl Hgen _ _]. split.
  - apply union_of_mono. exact Hincl.
  - apply union_of_trans. exact Hgen.
Qed.

(** Irreducible inputs are kept. *)
Lemma irreducible_kept P D d :
  incl D P -> union_of D d -> irreducible P d -> member d D.
Proof.
  intros Hi [sub [Hs Hx]] Hirr.
  assert (Hdec : (exists e, In e sub /\ same_set e d) \/ (forall e, In e sub -> ~ same_set e d)).
  { clear Hs Hx. induction sub as [|e sub IH]; [right; intros e []|].
    destruct (same_set_dec e d) as [H|H].
    - left. exists e. split; [left; reflexivity|exact H].
    - destruct IH as [[f [Hf Hsf]]|IH].
      + left. exists f. split; [right; exact Hf|exact Hsf].
      + right. intros f [<-|Hf]; auto. }
  destruct Hdec as [[e [He Hse]]|Hne].
  - exists e. split; [apply Hs; exact He|exact Hse].
  - exfalso. apply Hirr. exists sub. split; [eapply incl_tran; eauto|split; assumption].
Qed.

Lemma irreducible_same P d e : same_set d e -> irreducible P d -> irreducible P e.
Proof.
  intros H Hi [sub [Hs [Hne Hx]]]. apply Hi. exists sub. split; [exact Hs|]. split.
  - intros f Hf Hfd. apply (Hne f Hf). eapply same_set_trans; eauto.
  - intros x. rewrite (H x). apply Hx.
Qed.

Lemma find_minimal_member bases d :
  member d (find_minimal bases) <->
  member d (concat bases) /\ irreducible (concat bases) d.
Proof.
  destruct (find_minimal_inv bases) as [Hincl Hgen Hdist Hirr]. split.
  - intros [t [Ht He]]. split.
    + exists t. split; [apply Hincl; exact Ht|exact He].
    + eapply irreducible_same; [exact He|]. apply Hirr. exact Ht.
  - intros [[t [Ht He]] Hi]. apply irreducible_kept with (P := concat bases).
    + exact Hincl.
    + eapply union_of_same; [exact He|]. apply Hgen. exact Ht.
    + exact Hi.
Qed.

Lemma find_minimal_perm bases bases' d :
  Permutation (concat bases) (concat bases') ->
  member d (find_minimal bases) <-> member d (find_minimal bases').
Proof.
  intros HP. rewrite !find_minimal_member.
  assert (HP' := Permutation_sym HP).
  split; intros [Hm Hi]; split.
  - destruct Hm as [t [Ht He]]. exists t. split; [eapply Permutation_in; eauto|exact He].
  - eapply irreducible_ext; [|exact Hi]. intros e He. eapply Permutation_in; eauto.
  - destruct Hm as [t [Ht He]]. exists t. split; [eapply Permutation_in; eauto|exact He].
  - eapply irreducible_ext; [|exact Hi]. intros e He. eapply Permutation_in; eauto.
Qed.

(** No generating set of the same structure is smaller. *)
Lemma distinct_members_length D : forall G,
  all_distinct D -> (forall d, In d D -> member d G) -> length D <= length G.
Proof.
  induction D as [|d D IH]; intros G HD HG; cbn; [lia|].
  inversion HD as [|? ? Hnd HD']; subst.
  destruct (HG d (or_introl eq_refl)) as [g [Hg Hs]].
  destruct (in_split _ _ Hg) as [g1 [g2 ->]].
  specialize (IH (g1 ++ g2) HD'). rewrite app_length in *. cbn.
  assert (length D <= length g1 + length g2); [|lia].
  apply IH. intros e He.
  destruct (HG e (or_intror He)) as [f [Hf Hsf]].
  apply in_app_or in Hf. destruct Hf as [Hf|[Hf|Hf]].
  - exists f. split; [apply in_or_app; left; exact Hf|exact Hsf].
  - subst f. exfalso. apply Hnd. exists e. split; [exact He|].
    eapply same_set_trans; [apply same_set_sym; exact Hsf|exact Hs].
  - exists f. split; [apply in_or_app; right; exact Hf|exact Hsf].
Qed.

Lemma find_minimal_smallest bases G :
  (forall s, union_of G s <-> union_of (concat bases) s) ->
  length (find_minimal bases) <= length G.
Proof.
  intros HG. destruct (find_minimal_inv bases) as [Hincl Hgen Hdist Hirr].
  apply distinct_members_length; [exact Hdist|].
  intros d Hd. specialize (Hirr d Hd).
  assert (HuG : union_of G d).
  { apply HG. apply union_of_self. apply Hincl. exact Hd. }
  destruct HuG as [sub [Hs Hx]].
  assert (Hdec : (exists e, In e sub /\ same_set e d) \/ (forall e, In e sub -> ~ same_set e d)).
  { clear Hs Hx. induction sub as [|e sub IH]; [right; intros e []|].
    destruct (same_set_dec e d) as [H|H].
    - left. exists e. split; [left; reflexivity|exact H].
    - destruct IH as [[f [Hf Hsf]]|IH].
      + left. exists f. split; [right; exact Hf|exact Hsf].
      + right. intros f [<-|Hf]; auto. }
  destruct Hdec as [[e [He Hse]]|Hne].
  - exists e. split; [apply Hs; exact He|exact Hse].
  - exfalso.
    (* every member of sub is a proper subset of d and a union of inputs *)
    assert (Hcov : union_of (filter (fun e => lsubset e d && negb (lset_eqb e d)) (concat bases)) d).
    { apply union_of_trans with (defs := sub).
      - intros g Hg.
        assert (Hgd : incl g d) by (eapply cover_sub; eauto).
        assert (Hu : union_of (concat bases) g).
        { apply HG. apply union_of_self. apply Hs. exact Hg. }
        destruct Hu as [sub' [Hs' Hx']]. exists sub'. split; [|exact Hx'].
        intros e He. apply filter_In. split; [apply Hs'; exact He|].
        assert (Heg : incl e g) by (eapply cover_sub; eauto).
        apply andb_true_iff. split; [apply lsubset_iff; eapply incl_tran; eauto|].
        apply negb_true_iff. destruct (lset_eqb e d) eqn:E; [|reflexivity].
        exfalso. apply (Hne g Hg). apply lset_eqb_iff in E.
        intros x. split; [apply Hgd|]. intros Hxd. apply Heg. apply E. exact Hxd.
      - exists sub. split; [apply incl_refl|exact Hx]. }
    destruct Hcov as [sub' [Hs' Hx']]. apply Hirr. exists sub'. split.
    + intros e He. apply Hs' in He. apply filter_In in He. apply He.
    + split; [|exact Hx'].
      intros e He Hse. apply Hs' in He. apply filter_In in He. destruct He as [_ He].
      apply andb_true_iff in He. destruct He as [_ He]. apply negb_true_iff in He.
      apply lset_eqb_iff in Hse. congruence.
Qed.

(* --------------------------------------------------------------- histories *)
Record p_good (s : pspace) : Prop := {
  pg_cols : p_columns s <> [];
  pg_defs : exists d, p_defs s = Some d;
  pg_distinct : all_distinct (get_all_defs s);
  pg_irr : forall d, In d (get_all_defs s) -> irreducible (get_all_defs s) d;
  pg_known : forall d x, In d (get_all_defs s) -> In x d -> In x (p_columns s);
  pg_whole : member (p_columns s) (make_structure (get_all_defs s)) }.

Lemma find_minimal_good cols bases :
  cols <> [] ->
  (forall d x, In d (concat bases) -> In x d -> In x cols) ->
  member cols (concat bases) ->
  p_good {| p_columns := cols; p_defs := Some (find_minimal bases) |}.
Proof.
  intros Hc Hk Hw. destruct (find_minimal_inv bases) as [Hincl Hgen Hdist Hirr].
  constructor; cbn.
  - exact Hc.
  - eauto.
  - exact Hdist.
  - intros d Hd. eapply irreducible_ext; [|apply Hirr; exact Hd]. apply Hincl.
  - intros d x Hd. apply Hk. apply Hincl. exact Hd.
  - apply member_structure_union. destruct Hw as [t [Ht He]].
    eapply union_of_same; [exact He|]. apply Hgen. exact Ht.
Qed.

Lemma concat3 {A} (a b c : list A) : concat [a; b; c] = a ++ b ++ c.
Proof. cbn. rewrite app_nil_r. reflexivity. Qed.
Lemma concat2 {A} (a b : list A) : concat [a; b] = a ++ b.
Proof. cbn. rewrite app_nil_r. reflexivity. Qed.

Lemma rebuild_check_ok s s' : ds_rebuild_check s = Ok s' -> s' = s.
Proof.
  unfold ds_rebuild_check. destruct (p_columns s), (get_all_defs s); congruence.
Qed.

Lemma known_of_forallb defs cols :
  forallb (fun f => lmem f cols) (concat defs) = true ->
  forall d x, In d defs -> In x d -> In x cols.
Proof.
  intros H d x Hd Hx. rewrite forallb_forall in H.
  apply lmem_iff. apply H. apply in_concat. eauto.
Qed.

Lemma pcall_good s o s' : p_good s -> pcall s o = Ok s' -> p_good s'.
Proof.
  intros Hg. pose proof (pg_cols s Hg) as Hc. pose proof (pg_known s Hg) as Hk.
  destruct o as [d ds|d|d ds]; cbn [pcall].
  - unfold ds_add_partition_definitions.
    destruct (length (p_columns s) =? 0)%nat; cbn [bind]; [discriminate|].
    destruct (forallb _ _) eqn:E; cbn [negb bind]; [|discriminate].
    intros H. apply rebuild_check_ok in H. subst s'.
    apply find_minimal_good; [exact Hc| |].
    + rewrite concat3. intros e x He Hx. apply in_app_or in He. destruct He as [He|He].
      * eapply known_of_forallb; eauto.
      * apply in_app_or in He. destruct He as [He|[<-|[]]]; eauto.
    + rewrite concat3. apply member_In. apply in_or_app. right. apply in_or_app. right. left; reflexivity.
  - unfold ds_add_partition_definition.
    destruct (length (p_columns s) =? 0)%nat; cbn [bind]; [discriminate|].
    destruct (lsubset d (p_columns s)) eqn:E; cbn [negb bind]; [|discriminate].
    destruct (lset_in d (get_all_defs s)); cbn [bind]; [discriminate|].
    destruct (lset_in d (find_minimal _)); cbn [negb bind]; [|discriminate].
    intros H. apply rebuild_check_ok in H. subst s'.
    apply find_minimal_good; [exact Hc| |].
    + rewrite concat3. intros e x He Hx. apply in_app_or in He. destruct He as [[<-|[]]|He].
      * apply lsubset_iff in E. apply E. exact Hx.
      * apply in_app_or in He. destruct He as [He|[<-|[]]]; eauto.
    + rewrite concat3. apply member_In. apply in_or_app. right. apply in_or_app. right. left; reflexivity.
  - destruct (lset_in (p_columns s) (d :: ds)); [discriminate|].
    intros H. apply rebuild_check_ok in H. subst s'.
    unfold prop_update_defs. destruct (pg_defs s Hg) as [defs Hdefs]. rewrite Hdefs.
    apply find_minimal_good; [exact Hc| |].
    + rewrite concat2. intros e x He Hx. apply in_app_or in He. destruct He as [He|[<-|[]]].
      * apply filter_In in He. apply Hk with (d := e); [apply He|exact Hx].
      * exact Hx.
    + rewrite concat2. apply member_In. apply in_or_app. right. left; reflexivity.
Qed.

Lemma pstep_good s o : p_good s -> p_good (pstep s o).
Proof.
  intros H. unfold pstep. destruct (pcall s o) eqn:E; [|exact H].
  eapply pcall_good; eauto.
Qed.

Lemma pstep_columns s o : p_columns (pstep s o) = p_columns s.
Proof.
  unfold pstep. destruct (pcall s o) as [s'|] eqn:E; [|reflexivity].
  destruct o as [d ds|d|d ds]; cbn [pcall] in E.
  - unfold ds_add_partition_definitions in E.
    destruct (length (p_columns s) =? 0)%nat; cbn [bind] in E; [discriminate|].
    destruct (forallb _ _); cbn [negb bind] in E; [|discriminate].
    apply rebuild_check_ok in E. subst. reflexivity.
  - unfold ds_add_partition_definition in E.
    destruct (length (p_columns s) =? 0)%nat; cbn [bind] in E; [discriminate|].
    destruct (lsubset d (p_columns s)); cbn [negb bind] in E; [|discriminate].
    destruct (lset_in d (get_all_defs s)); cbn [bind] in E; [discriminate|].
    destruct (lset_in d (find_minimal _)); cbn [negb bind] in E; [|discriminate].
    apply rebuild_check_ok in E. subst. reflexivity.
  - destruct (lset_in (p_columns s) (d :: ds)); [discriminate|].
    apply rebuild_check_ok in E. subst. reflexivity.
Qed.

Lemma prun_good ops : forall s, p_good s -> p_good (prun s ops).
Proof.
  unfold prun. induction ops as [|o ops IH]; intros s H; cbn; [exact H|].
  apply IH. apply pstep_good. exact H.
Qed.

Lemma prun_columns ops : forall s, p_columns (prun s ops) = p_columns s.
Proof.
  unfold prun. induction ops as [|o ops IH]; intros s; cbn; [reflexivity|].
  rewrite IH. apply pstep_columns.
Qed.

(* --------------------------------------------- which calls are accepted *)
Lemma union_of_dec defs s : {union_of defs s} + {~ union_of defs s}.
Proof.
  destruct (lset_in s (make_structure defs)) eqn:E.
  - left. apply member_structure_union, lset_in_iff. exact E.
  - right. rewrite <- member_structure_union, <- lset_in_iff. congruence.
Qed.

Lemma cols_nonempty_test (cols : list string) :
  cols <> [] -> (length cols =? 0)%nat = false.
Proof. destruct cols; [congruence|reflexivity]. Qed.

Lemma rebuild_check_some cols bases :
  cols <> [] -> member cols (concat bases) ->
  ds_rebuild_check {| p_columns := cols; p_defs := Some (find_minimal bases) |}
  = Ok {| p_columns := cols; p_defs := Some (find_minimal bases) |}.
Proof.
  intros Hc [t [Ht He]]. unfold ds_rebuild_check. cbn.
  destruct cols as [|c cols]; [congruence|].
  destruct (find_minimal bases) eqn:E; [|reflexivity].
  exfalso. destruct (find_minimal_inv bases) as [_ Hgen _ _]. rewrite E in Hgen.
  destruct (Hgen t Ht) as [sub [Hi Hx]].
  assert (In c t) as Hin by (apply He; left; reflexivity).
  apply Hx in Hin. destruct Hin as [d [Hd _]]. destruct (Hi d Hd).
Qed.

Lemma add_one_accepts s d :
  p_good s ->
  (exists s', pcall s (PAddOne d) = Ok s') <->
  (incl d (p_columns s) /\ ~ union_of (get_all_defs s) d).
Proof.
  intros Hg. pose proof (pg_cols s Hg) as Hc.
  cbn [pcall]. unfold ds_add_partition_definition. rewrite (cols_nonempty_test _ Hc).
  destruct (lsubset d (p_columns s)) eqn:Es; cbn [negb bind].
  2:{ split; [intros [s' H]; discriminate|]. intros [H _].
      apply lsubset_iff in H. congruence. }
  apply lsubset_iff in Es.
  destruct (lset_in d (get_all_defs s)) eqn:Ed; cbn [bind].
  { split; [intros [s' H]; discriminate|]. intros [_ H]. exfalso. apply H.
    apply union_of_member. apply lset_in_iff. exact Ed. }
  apply lset_in_false in Ed.
  set (bases := [[d]; get_all_defs s; [p_columns s]]).
  assert (Hmem : member d (find_minimal bases) <-> ~ union_of (get_all_defs s) d).
  { rewrite find_minimal_member. unfold bases. rewrite concat3. split.
    - intros [_ Hirr] [sub [Hi Hx]]. apply Hirr. exists sub. split; [|split].
      + intros z Hz. apply in_or_app. right. apply in_or_app. left. apply Hi. exact Hz.
      + intros e He Hse. apply Ed. exists e. split; [apply Hi; exact He|exact Hse].
      + exact Hx.
    - intros Hnu. split; [apply member_In; left; reflexivity|].
      intros [sub [Hi [Hne Hx]]]. apply Hnu. exists sub. split; [|exact Hx].
      intros e He. specialize (Hi e He). cbn in Hi. destruct Hi as [Hi|Hi].
      + exfalso. apply (Hne e He). subst e. apply same_set_refl.
      + apply in_app_or in Hi. destruct Hi as [Hi|[Hi|[]]]; [exact Hi|].
        exfalso. apply (Hne e He). subst e. intros x. split.
        * intros Hin. apply Hx. eauto.
        * apply Es. }
  destruct (lset_in d (find_minimal bases)) eqn:Em; cbn [negb bind].
  - apply lset_in_iff in Em. split; [intros _; split; [exact Es|apply Hmem; exact Em]|].
    intros _. eexists. unfold prop_set_defs. apply rebuild_check_some; [exact Hc|].
    unfold bases. rewrite concat3. apply member_In. apply in_or_app. right. apply in_or_app. right. left; reflexivity.
  - apply lset_in_false in Em. split; [intros [s' H]; discriminate|].
    intros [_ H]. exfalso. apply Em. apply Hmem. exact H.
Qed.

Lemma add_many_accepts s d ds :
  p_good s ->
  (exists s', pcall s (PAddMany d ds) = Ok s') <->
  (forall e, In e (d :: ds) -> incl e (p_columns s)).
Proof.
  intros Hg. pose proof (pg_cols s Hg) as Hc.
  cbn [pcall]. unfold ds_add_partition_definitions. rewrite (cols_nonempty_test _ Hc).
  destruct (forallb (fun f => lmem f (p_columns s)) (concat (d :: ds))) eqn:E; cbn [negb bind].
  - split.
    + intros _ e He x Hx. eapply known_of_forallb; eauto.
    + intros _. eexists. unfold prop_set_defs. apply rebuild_check_some; [exact Hc|].
      rewrite concat3. apply member_In. apply in_or_app. right. apply in_or_app. right. left; reflexivity.
  - split; [intros [s' H]; discriminate|]. intros H. exfalso.
    assert (forallb (fun f => lmem f (p_columns s)) (concat (d :: ds)) = true); [|congruence].
    apply forallb_forall. intros x Hx. apply in_concat in Hx. destruct Hx as [e [He Hx]].
    apply lmem_iff. apply (H e He). exact Hx.
Qed.

Lemma drop_accepts s d ds :
  p_good s ->
  (exists s', pcall s (PDrop d ds) = Ok s') <->
  ~ member (p_columns s) (d :: ds).
Proof.
  intros Hg. pose proof (pg_cols s Hg) as Hc. cbn [pcall].
  destruct (lset_in (p_columns s) (d :: ds)) eqn:E.
  - apply lset_in_iff in E. split; [intros [s' H]; discriminate|intros H; contradiction].
  - apply lset_in_false in E. split; [intros _; exact E|]. intros _.
    eexists. unfold prop_update_defs. destruct (pg_defs s Hg) as [defs ->].
    apply rebuild_check_some; [exact Hc|].
    rewrite concat2. apply member_In. apply in_or_app. right. left; reflexivity.
Qed.

(** What the structure is after each successful call. *)
Definition op_generators (s : pspace) (o : pop) : list labelset :=
  match o with
  | PAddMany d ds => (d :: ds) ++ get_all_defs s
  | PAddOne d => d :: get_all_defs s
  | PDrop d ds => filter (fun x => negb (lset_in x (d :: ds))) (get_all_defs s) ++ [p_columns s]
  end.

Lemma union_of_eqv a b :
  (forall d, In d a -> union_of b d) -> (forall d, In d b -> union_of a d) ->
  forall u, union_of a u <-> union_of b u.
Proof. intros H1 H2 u; split; apply union_of_trans; assumption. Qed.

Lemma pcall_effect s o s' :
  p_good s -> pcall s o = Ok s' ->
  forall u, union_of (get_all_defs s') u <-> union_of (op_generators s o) u.
Proof.
  intros Hg. pose proof (pg_cols s Hg) as Hc. pose proof (pg_whole s Hg) as Hw.
  apply member_structure_union in Hw.
  assert (Hgen3 : forall news u,
    union_of (concat [news; get_all_defs s; [p_columns s]]) u <->
    union_of (news ++ get_all_defs s) u).
  { intros news. rewrite concat3. apply union_of_eqv.
    - intros e He. apply in_app_or in He. destruct He as [He|He].
      + apply union_of_self. apply in_or_app. left; exact He.
      + apply in_app_or in He. destruct He as [He|[<-|[]]].
        * apply union_of_self. apply in_or_app. right; exact He.
        * eapply union_of_mono; [|exact Hw]. apply incl_appr, incl_refl.
    - intros e He. apply union_of_self. apply in_app_or in He.
      apply in_or_app. destruct He as [He|He]; [left; exact He|right].
      apply in_or_app. left; exact He. }
  destruct o as [d ds|d|d ds]; cbn [pcall op_generators].
  - unfold ds_add_partition_definitions. rewrite (cols_nonempty_test _ Hc).
    destruct (forallb _ _) eqn:E; cbn [negb bind]; [|discriminate].
    intros H u. apply rebuild_check_ok in H. subst s'. unfold get_all_defs at 1. cbn [prop_set_defs p_defs].
    rewrite find_minimal_generates. apply Hgen3.
  - unfold ds_add_partition_definition. rewrite (cols_nonempty_test _ Hc).
    destruct (lsubset d (p_columns s)) eqn:E; cbn [negb bind]; [|discriminate].
    destruct (lset_in d (get_all_defs s)); cbn [bind]; [discriminate|].
    destruct (lset_in d (find_minimal _)); cbn [negb bind]; [|discriminate].
    intros H u. apply rebuild_check_ok in H. subst s'. unfold get_all_defs at 1. cbn [prop_set_defs p_defs].
    rewrite find_minimal_generates. apply (Hgen3 [d]).
  - destruct (lset_in (p_columns s) (d :: ds)); [discriminate|].
    intros H u. apply rebuild_check_ok in H. subst s'. unfold prop_update_defs.
    destruct (pg_defs s Hg) as [defs Hdefs]. unfold get_all_defs at 1. rewrite Hdefs at 1. cbn [p_defs].
    rewrite find_minimal_generates, concat2. tauto.
Qed.

Lemma initial_good cols : cols <> [] ->
  p_good {| p_columns := cols; p_defs := Some [cols] |}.
Proof.
  intros Hc. constructor; cbn [p_columns p_defs get_all_defs]; unfold get_all_defs; cbn [p_defs].
  - exact Hc.
  - eauto.
  - constructor; [intros [t [[] _]]|constructor].
  - intros d [<-|[]] [sub [Hi [Hne Hx]]].
    destruct sub as [|e sub].
    + destruct cols as [|c cols]; [congruence|].
      destruct (proj1 (Hx c) (or_introl eq_refl)) as [e [[] _]].
    + destruct (Hi e (or_introl eq_refl)) as [<-|[]].
      apply (Hne cols (or_introl eq_refl)). apply same_set_refl.
  - intros d x [<-|[]] Hx. exact Hx.
  - apply member_structure_union. apply union_of_self. left; reflexivity.
Qed.

Lemma history_invariant cols ops : cols <> [] ->
  let s := prun {| p_columns := cols; p_defs := Some [cols] |} ops in
  p_columns s = cols /\
  all_distinct (get_all_defs s) /\
  (forall d, In d (get_all_defs s) -> irreducible (get_all_defs s) d) /\
  (forall d x, In d (get_all_defs s) -> In x d -> In x cols) /\
  member cols (make_structure (get_all_defs s)).
Proof.
  intros Hc s.
  pose proof (prun_good ops _ (initial_good cols Hc)) as Hg. fold s in Hg.
  pose proof (prun_columns ops {| p_columns := cols; p_defs := Some [cols] |}) as Hcols.
  fold s in Hcols. cbn [p_columns] in Hcols. destruct Hg as [_ _ Hd Hi Hk Hw].
  rewrite Hcols in Hk, Hw. auto.
Qed.
