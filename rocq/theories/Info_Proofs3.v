(** Proofs for C68: partitions, when there is a description, the command. *)
From Coq Require Import Sorting.Sorted Sorting.Permutation.
From Verif Require Import Prelude Selectors_Model SelectorParse_Model LinkRef_Model PartSort_Model PartSort_Spec PartSort_Proofs FormatGran_Model FormatGran_Spec FormatGran_Proofs Info_Model Info_Spec Info_Proofs Info_Proofs2.
From Verif Require Json_Model Json_Spec Db_Model FileOpen_Proofs Migrations_Proofs.
Local Open Scope nat_scope.
Local Open Scope list_scope.

Lemma labels_nodup s : NoDup (s_columns s) -> NoDup (match s_order s with Some l => l | None => [] end) -> NoDup (labels_in_display_order s).
Proof.
  intros N1 N2. unfold labels_in_display_order. set (o := match s_order s with Some l => l | None => [] end) in *. clearbody o.
  induction o as [|x o IH]; cbn [app].
  - cbn [tmem existsb negb]. apply NoDup_filter. exact N1.
  - inversion N2; subst. assert (H : NoDup (o ++ filter (fun y => negb (tmem y (x :: o))) (s_columns s))).
    { assert (G : forall l, NoDup l -> NoDup (o ++ filter (fun y => negb (tmem y (x :: o))) l)).
      { intros l Nl. assert (F : NoDup (filter (fun y => negb (tmem y (x :: o))) l)) by (apply NoDup_filter; exact Nl).
        assert (D : forall y, In y o -> ~ In y (filter (fun y => negb (tmem y (x :: o))) l)).
        { intros y I J. apply filter_In in J. destruct J as [_ J]. apply negb_true_iff, tmem_false in J. apply J. right. exact I. }
        revert F D. generalize (filter (fun y => negb (tmem y (x :: o))) l). intros m F D. clear - H2 F D. induction o as [|z o IH]; [exact F|]. inversion H2; subst. cbn [app]. constructor.
        - intro I. apply in_app_iff in I. destruct I as [I|I]; [contradiction | exact (D z (or_introl eq_refl) I)].
        - apply IH; auto. intros y I. apply D. right. exact I. }
      apply G. exact N1. }
    constructor; [|exact H]. intro I. apply in_app_iff in I. destruct I as [I|I]; [contradiction|]. apply filter_In in I. destruct I as [_ I].
    apply negb_true_iff, tmem_false in I. apply I. left. reflexivity.
Qed.
Lemma labels_columns s x : In x (s_columns s) -> In x (labels_in_display_order s).
Proof.
  intro I. unfold labels_in_display_order. set (o := match s_order s with Some l => l | None => [] end). apply in_app_iff.
  destruct (tmem x o) eqn:E; [left; apply tmem_in; exact E|]. right. apply filter_In. split; [exact I|]. rewrite E. reflexivity.
Qed.
Lemma all_nodup s d : In d (all_definitions s) -> NoDup d.
Proof. unfold all_definitions. destruct (s_defs s) as [l|]; [|intros []]. intro I. apply in_map_iff in I. destruct I as (x & <- & _). apply set_of_nodup. Qed.

(** *** Rows *)
Lemma bits_iff a b : bits_eqb a b = true <-> a = b.
Proof.
  revert b. induction a as [|x a IH]; intros [|y b]; cbn [bits_eqb]; split; try discriminate; auto.
  - intro H. apply andb_prop in H. destruct H as [H1 H2]. apply Bool.eqb_prop in H1. apply IH in H2. congruence.
  - intro H. injection H as <- <-. rewrite Bool.eqb_reflx. cbn. apply IH. reflexivity.
Qed.
Lemma marked_bits columns labels bits : marked columns labels bits <-> bits = map (fun x => tmem x labels) columns.
Proof.
  unfold marked. split.
  - induction 1 as [|x b c l H F IH]; [reflexivity|]. cbn [map]. f_equal; [|exact IH]. destruct (tmem x labels) eqn:E.
    + apply H, tmem_in. exact E.
    + destruct b; [|reflexivity]. apply tmem_false in E. exfalso. apply E, H. reflexivity.
  - intros ->. induction columns as [|x c IH]; cbn [map]; constructor; [apply tmem_in | exact IH].
Qed.
Lemma get_bits_ok bits rows g : get_by_bits bits rows = Ok g -> In (bits, g) rows.
Proof.
  induction rows as [|[b h] rows IH]; cbn [get_by_bits]; [discriminate|]. destruct (bits_eqb b bits) eqn:E; [|intro H; right; auto].
  apply bits_iff in E. intro H. injection H as <-. left. congruence.
Qed.
Lemma get_bits_in bits rows g : In (bits, g) rows -> exists h, get_by_bits bits rows = Ok h.
Proof.
  induction rows as [|[b h] rows IH]; intros []; cbn [get_by_bits]; destruct (bits_eqb b bits) eqn:E; eauto.
  injection H as -> ->. assert (X : bits_eqb bits bits = true) by (apply bits_iff; reflexivity). congruence.
Qed.
Lemma get_bits_err bits rows e : get_by_bits bits rows = Err e -> e = KeyError.
Proof. induction rows as [|[b h] rows IH]; cbn [get_by_bits]; [congruence|]. destruct (bits_eqb b bits); [discriminate | exact IH]. Qed.
Lemma gran_get s d g : get_granularity s d = Ok g -> granularity_of s d g.
Proof.
  unfold get_granularity, granularity_of. destruct (s_structs s) as [|r rows] eqn:E; [intro H; injection H as <-; auto|]. intro H. right.
  exists (map (fun x => tmem x d) (s_columns s)). split; [apply get_bits_ok; exact H | apply marked_bits; reflexivity].
Qed.
Lemma gran_exists s d g : granularity_of s d g -> exists h, get_granularity s d = Ok h.
Proof.
  unfold get_granularity, granularity_of. intros [[-> ->]|(bits & I & M)]; [eauto|]. destruct (s_structs s) as [|r rows] eqn:E; [destruct I|].
  apply marked_bits in M. subst bits. eapply get_bits_in. exact I.
Qed.
Lemma gran_unique s d g h : NoDup (map fst (s_structs s)) -> granularity_of s d g -> granularity_of s d h -> g = h.
Proof.
  intros N [[E ->]|(b & I & M)] [[E' ->]|(b' & I' & M')]; try (rewrite E in *; contradiction); try (rewrite E' in *; contradiction); [reflexivity|].
  apply marked_bits in M, M'. rewrite M' in I'. rewrite M in I. clear M M' b b'. revert I I' N. generalize (map (fun x => tmem x d) (s_columns s)). intros bits.
  induction (s_structs s) as [|[b x] rows IH]; intros I I' N; [destruct I|]. cbn [map fst] in N. inversion N as [|? ? Ni N']; subst.
  destruct I as [I|I], I' as [I'|I'].
  - congruence.
  - injection I as -> ->. exfalso. apply Ni. apply in_map_iff. exists (bits, h). auto.
  - injection I' as -> ->. exfalso. apply Ni. apply in_map_iff. exists (bits, g). auto.
  - auto.
Qed.
Lemma gran_ext s a b g : (forall x, In x (s_columns s) -> (In x a <-> In x b)) -> granularity_of s a g -> granularity_of s b g.
Proof.
  intros H [?|(bits & I & M)]; [left; assumption|]. right. exists bits. split; [exact I|]. unfold marked in *. clear I. revert H M. generalize (s_columns s). intros c H M.
  induction M as [|x y c l Hx F IH]; constructor; [rewrite Hx; apply H; left; reflexivity|]. apply IH. intros z Iz. apply H. right. exact Iz.
Qed.
Lemma gran_shown s labels d g : (forall x, In x (s_columns s) -> In x labels) -> (granularity_of s (shown labels d) g <-> granularity_of s d g).
Proof. intro H. split; apply gran_ext; intros x I; rewrite shown_in; specialize (H x I); tauto. Qed.
Lemma gran_in s d g : granularity_of s d g -> g = GNone \/ In g (map snd (s_structs s)).
Proof. intros [[_ ->]|(b & I & _)]; [auto|]. right. apply in_map_iff. exists (b, g). auto. Qed.
Lemma grans_ok s values : granularities_ok s -> (forall g, In g values -> exists d, granularity_of s d g) -> wf values /\ no_negative_zero values.
Proof.
  intros [W Z] H. split.
  - intros b m I. destruct (H _ I) as (d & G). apply gran_in in G. destruct G as [G|G]; [discriminate | exact (W b m G)].
  - intros m I. destruct (H _ I) as (d & G). apply gran_in in G. destruct G as [G|G]; [discriminate | exact (Z m G)].
Qed.

(** *** The list of partitions *)
Lemma sorted_defs s : tables_ok s -> (forall d x, In d (all_definitions s) -> In x d -> In x (labels_in_display_order s)) ->
  exists todo order, displayed (all_definitions s) (labels_in_display_order s) todo /\ Permutation order todo /\
    StronglySorted (first_or_same (labels_in_display_order s)) order /\
    sort_partition_definitions (all_definitions s) (labels_in_display_order s) = Ok (map (shown (labels_in_display_order s)) order).
Proof.
  intros (N1 & N2 & _) H. apply display; [apply labels_nodup; assumption|]. apply Forall_forall. intros d I. split; [exact (all_nodup s d I) | exact (fun x => H d x I)].
Qed.
Lemma displayed_show s todo : displayed (all_definitions s) (labels_in_display_order s) todo ->
  (forall d, In d todo -> to_show s d) /\ (forall d, to_show s d -> exists d', In d' todo /\ same_set d d').
Proof.
  intro D. unfold to_show. destruct D as [[-> [E|(w & Iw & Sw)]]|(w & -> & Sw & _ & Ne & _)].
  - split; [auto|]. intros d [I|[H _]]; [exists d; split; [exact I | intro x; tauto] | congruence].
  - split; [auto|]. intros d [I|[_ Sd]]; [exists d; split; [exact I | intro x; tauto]|]. exists w. split; [exact Iw|]. intro x. rewrite (Sd x). symmetry. apply Sw.
  - split.
    + intros d I. apply in_app_iff in I. destruct I as [I|[<-|[]]]; auto.
    + intros d [I|[_ Sd]]; [exists d; split; [apply in_app_iff; auto | intro x; tauto]|]. exists w. split; [apply in_app_iff; right; left; reflexivity|]. intro x. rewrite (Sd x). symmetry. apply Sw.
Qed.
Lemma traverse_all {A B} (f : A -> res B) l : (forall a, In a l -> exists b, f a = Ok b) -> exists out, traverse f l = Ok out.
Proof.
  induction l as [|a l IH]; intro H; [exists []; reflexivity|]. destruct (H a (or_introl eq_refl)) as [b E]. destruct IH as [out Eo]; [intros; apply H; right; assumption|].
  exists (b :: out). cbn [traverse]. rewrite E. cbn [bind]. rewrite Eo. reflexivity.
Qed.
Lemma list_ok_parts s l : partition_list s = Ok l -> exists cats grans texts,
  sort_partition_definitions (all_definitions s) (labels_in_display_order s) = Ok cats /\ traverse (get_granularity s) cats = Ok grans /\
  format_granularity grans = Ok texts /\ l = or_none (partition_lines texts cats).
Proof.
  unfold partition_list. destruct (sort_partition_definitions _ _) as [cats|] eqn:E1; cbn [bind]; [|discriminate].
  destruct (traverse _ cats) as [grans|] eqn:E2; cbn [bind]; [|discriminate]. destruct (format_granularity grans) as [texts|] eqn:E3; cbn [bind]; [|discriminate].
  intro H. injection H as <-. eauto 10.
Qed.
Lemma list_iff s : tables_ok s -> ((exists l, partition_list s = Ok l) <->
  (forall d x, In d (all_definitions s) -> In x d -> In x (labels_in_display_order s)) /\
  (forall d, to_show s d -> exists g, granularity_of s d g) /\
  (exists places, 3 <= places <= 17 /\ forall values,
     (forall g, In g values -> exists d, to_show s d /\ granularity_of s d g) -> ~ collide places values)).
Proof.
  intro T. pose proof T as (N1 & N2 & N3 & Gk). split.
  - intros (l & E). apply list_ok_parts in E. destruct E as (cats & grans & texts & E1 & E2 & E3 & _).
    assert (K : forall d x, In d (all_definitions s) -> In x d -> In x (labels_in_display_order s)).
    { assert (X : Forall (fun d => incl d (labels_in_display_order s)) (all_definitions s)) by (apply raises; eauto). rewrite Forall_forall in X. intros d x I J. exact (X d I x J). }
    split; [exact K|]. destruct (sorted_defs s T K) as (todo & order & D & P & _ & E). rewrite E1 in E. injection E as ->.
    destruct (displayed_show s todo D) as [D1 D2]. apply Migrations_Proofs.traverse_ok in E2.
    assert (G1 : forall d, to_show s d -> exists g, In g grans /\ granularity_of s d g).
    { intros d Sd. destruct (D2 d Sd) as (d' & I & Ss). apply (Permutation_in _ (Permutation_sym P)) in I.
      assert (X : forall l gs, Forall2 (fun a b => get_granularity s a = Ok b) (map (shown (labels_in_display_order s)) l) gs -> In d' l -> exists g, In g gs /\ granularity_of s d' g).
      { intro m. induction m as [|a m IH]; intros gs F Ia; [destruct Ia|]. cbn [map] in F. inversion F as [|? g ? gs' Ha F']; subst. destruct Ia as [->|Ia].
        - exists g. split; [left; reflexivity|]. apply gran_get in Ha. apply gran_shown in Ha; [exact Ha | apply labels_columns].
        - destruct (IH gs' F' Ia) as (g' & Ig & Hg). exists g'. split; [right; exact Ig | exact Hg]. }
      destruct (X order grans E2 I) as (g & Ig & Hg). exists g. split; [exact Ig|]. revert Hg. apply gran_ext. intros x _. symmetry. apply Ss. }
    split; [intros d Sd; destruct (G1 d Sd) as (g & _ & H); eauto|].
    assert (Wg : wf grans /\ no_negative_zero grans).
    { apply (grans_ok s); [exact Gk|]. intros g I. clear - E2 I. revert I. remember (map _ order) as cs eqn:Q. clear Q. induction E2; intros []; [subst; eexists; apply gran_get; eassumption | auto]. }
    destruct Wg as [W Z]. destruct (proj1 (proj2 (gran_raises grans W Z)) (ex_intro _ texts E3)) as (q & L & C). exists q. split; [exact L|]. intros values Hv Cv. apply C.
    destruct Cv as (u & v & Iu & Iv & Ns & E). assert (X : forall w, In w (GNum false 0 :: values) -> In w (GNum false 0 :: grans)).
    { intros w [<-|Iw]; [left; reflexivity|]. right. destruct (Hv w Iw) as (d & Sd & Hd). destruct (G1 d Sd) as (g & Ig & Hg). rewrite (gran_unique s d w g N3 Hd Hg). exact Ig. }
    exists u, v. auto.
  - intros (K & G & q & L & C). destruct (sorted_defs s T K) as (todo & order & D & P & _ & E). destruct (displayed_show s todo D) as [D1 D2].
    assert (Sh : forall d, In d order -> to_show s d) by (intros d I; apply D1; exact (Permutation_in _ P I)).
    destruct (traverse_all (get_granularity s) (map (shown (labels_in_display_order s)) order)) as (grans & Et).
    { intros c I. apply in_map_iff in I. destruct I as (d & <- & I). destruct (G d (Sh d I)) as (g & Hg). apply (gran_exists _ _ g). apply gran_shown; [apply labels_columns | exact Hg]. }
    assert (V : forall g, In g grans -> exists d, to_show s d /\ granularity_of s d g).
    { apply Migrations_Proofs.traverse_ok in Et. clear - Et Sh. revert grans Et. induction order as [|d order IH]; intros grans Et g I; inversion Et as [|? g0 ? gs Ha F]; subst; [destruct I|].
      destruct I as [<-|I]; [exists d; split; [apply Sh; left; reflexivity | apply gran_get in Ha; apply gran_shown in Ha; [exact Ha | apply labels_columns]]|].
      apply (IH (fun d' I' => Sh d' (or_intror I')) gs F g I). }
    destruct (grans_ok s grans Gk) as [W Z]; [intros g I; destruct (V g I) as (d & _ & H); eauto|].
    destruct (proj2 (proj2 (gran_raises grans W Z))) as (texts & Ef); [exists q; split; [exact L | apply C; exact V]|].
    unfold partition_list. rewrite E. cbn [bind]. rewrite Et. cbn [bind]. rewrite Ef. cbn [bind]. eauto.
Qed.
Lemma outcome s : tables_ok s -> ((exists i, get_info s = Ok i) <-> describable s).
Proof.
  intro T. unfold describable. pose proof (list_iff s T) as X. split.
  - intros (i & E). unfold get_info in E. destruct (partition_list s) as [l|] eqn:E1; cbn [bind] in E; [|discriminate]. destruct (weights_list s) as [w|] eqn:E2; cbn [bind] in E; [|discriminate].
    destruct (s_created s) as [c|] eqn:E3; [|discriminate]. destruct (proj1 X (ex_intro _ l eq_refl)) as (A & B & C). split; [exact A|]. split; [exact B|]. split; [exact C|].
    split; [|discriminate]. destruct (s_groups s) as [|g gs] eqn:Gs; [auto|]. right. apply default_iff; [congruence | eauto].
  - intros (A & B & C & D & F). destruct (proj2 X) as (l & E); [auto|]. unfold get_info. rewrite E. cbn [bind].
    assert (Y : exists w, weights_list s = Ok w).
    { destruct (s_groups s) as [|g gs] eqn:Gs; [unfold weights_list; rewrite Gs; eauto|]. apply default_iff; [congruence|]. destruct D as [D|D]; [discriminate | exact D]. }
    destruct Y as (w & Ew). rewrite Ew. cbn [bind]. destruct (s_created s) as [c|]; [eauto | congruence].
Qed.
Lemma info_partitions s i : get_info s = Ok i -> partition_list s = Ok (i_partitions i).
Proof.
  unfold get_info. destruct (partition_list s); cbn [bind]; [|discriminate]. destruct (weights_list s); cbn [bind]; [|discriminate].
  destruct (s_created s); [|discriminate]. intro H. injection H as <-. reflexivity.
Qed.
Lemma partitions_spec s i : tables_ok s -> get_info s = Ok i -> let labels := labels_in_display_order s in
  exists todo order places width, displayed (all_definitions s) labels todo /\ Permutation order todo /\
    StronglySorted (fun a b => before_def labels a b \/ agree_on labels a b) order /\ 3 <= places <= 17 /\
    ((order = [] /\ i_partitions i = [txt "None"]) \/ (order <> [] /\ Forall2 (partition_line s labels places width) order (i_partitions i))).
Proof.
  intros T E labels. assert (De : describable s) by (apply outcome; eauto). destruct De as (K & _). apply info_partitions in E. apply list_ok_parts in E.
  destruct E as (cats & grans & texts & E1 & E2 & E3 & ->). destruct (sorted_defs s T K) as (todo & order & D & P & Ss & E). fold labels in D, Ss, E, E1. rewrite E1 in E. injection E as ->.
  apply Migrations_Proofs.traverse_ok in E2. pose proof T as (_ & _ & _ & Gk).
  assert (V : Forall2 (granularity_of s) order grans).
  { clear - E2. revert grans E2. induction order as [|d order IH]; intros grans E2; inversion E2 as [|? g ? gs Ha F]; subst; constructor; auto.
    apply gran_get in Ha. apply gran_shown in Ha; [exact Ha | apply labels_columns]. }
  destruct (grans_ok s grans Gk) as [W Z].
  { intros g I. clear - V I. revert I. induction V as [|d g0 l gs H F IH]; intros []; [subst; eauto | auto]. }
  destruct (gran_ok grans texts W Z E3) as (p & w & L & _ & _ & F & _). exists todo, order, p, w. split; [exact D|]. split; [exact P|]. split; [exact Ss|]. split; [exact L|].
  destruct order as [|d order].
  - left. inversion V; subst. inversion F; subst. auto.
  - right. split; [discriminate|].
    assert (X : Forall2 (partition_line s labels p w) (d :: order) (partition_lines texts (map (shown labels) (d :: order)))).
    { clear - V F. revert texts F. induction V as [|d0 g l gs H V IH]; intros texts F; inversion F as [|? t ? ts Ht F']; subst; cbn [map partition_lines]; constructor; [|apply IH; exact F'].
      destruct Ht as (t0 & _ & Pd & Sv & Ln). exists g, t, t0. auto. }
    destruct texts as [|t texts]; [inversion F; subst; inversion V|]. cbn [map partition_lines or_none] in *. exact X.
Qed.
Lemma partitions_ne s i : get_info s = Ok i -> i_partitions i <> [].
Proof.
  intro E. apply info_partitions in E. apply list_ok_parts in E. destruct E as (c & g & t & _ & _ & _ & ->). unfold or_none. destruct (partition_lines t c); discriminate.
Qed.
Lemma links_ne s i : get_info s = Ok i -> i_links i <> [].
Proof.
  intro E. rewrite (info_links _ _ E). unfold links_list. destruct (s_links s) as [|k l] eqn:G; [discriminate|]. rewrite <- G. intro X. apply map_eq_nil in X.
  pose proof (group_concat (sorted link_key_ltb (fun k => (k_other k, k_id k)) (s_links s))) as C. rewrite X in C. cbn in C.
  pose proof (sorted_perm link_key_ltb (fun k => (k_other k, k_id k)) (s_links s)) as P. rewrite <- C in P. apply Permutation_nil in P. congruence.
Qed.

(** *** The command *)
Lemma loaded_iff s : (exists l, loaded_attributes s = Ok l) <-> incl (s_loaded s) (registered_attributes s).
Proof.
  unfold loaded_attributes. destruct (forallb _ _) eqn:E.
  - split; [|eauto]. intros _ x I. rewrite forallb_forall in E. apply tmem_in. exact (E x I).
  - split; [intros (l & H); discriminate|]. intro H. exfalso. assert (X : forallb (fun x => tmem x (registered_attributes s)) (s_loaded s) = true) by (apply forallb_forall; intros x I; apply tmem_in, H, I). congruence.
Qed.
Lemma loaded_spec s l : loaded_attributes s = Ok l -> forall a, In a l <-> In a (registered_attributes s) /\ In a (s_loaded s).
Proof. unfold loaded_attributes. destruct (forallb _ _); [|discriminate]. intro H. injection H as <-. intro a. rewrite filter_In, tmem_in. tauto. Qed.
Lemma ok_eq {A} (a b : A) : Ok a = Ok b -> a = b.
Proof. congruence. Qed.
Definition no_style : style := {| bright := []; dim := []; reset := [] |}.
Lemma command_plain filename columns s t : info_command no_style filename columns s = Ok t <->
  incl (s_loaded s) (registered_attributes s) /\ exists r, let hr := repeat 9472%N (Nat.min (length filename) (columns - 1)) in
    repr hr s = Ok r /\ t = hr ++ nl ++ filename ++ nl ++ r ++ nl.
Proof.
  unfold info_command, repr. destruct (get_info s) as [i|]; cbn [bind]; [|split; [discriminate | intros (_ & r & H & _); discriminate]].
  assert (M : forall l, (forall a, In a l <-> In a (registered_attributes s) /\ In a (s_loaded s)) ->
              map (fun a => if tmem a l then a else dim no_style ++ a ++ reset no_style) (registered_attributes s) = registered_attributes s).
  { intros l _. rewrite <- (map_id (registered_attributes s)) at 2. apply map_ext. intro a. cbn [no_style dim reset app]. rewrite app_nil_r. destruct (tmem a l); reflexivity. }
  split.
  - destruct (loaded_attributes s) as [l|] eqn:E; cbn [bind]; [|discriminate]. intro H. apply ok_eq in H. split; [apply loaded_iff; eauto|]. eexists. split; [reflexivity|].
    rewrite (M l (loaded_spec s l E)) in H. rewrite <- H. unfold repr_text. cbn [no_style bright reset app]. rewrite <- !app_assoc. reflexivity.
  - intros (I & r & H & ->). apply loaded_iff in I. destruct I as (l & E). rewrite E. cbn [bind]. apply ok_eq in H. subst r. f_equal. rewrite (M l (loaded_spec s l E)).
    unfold repr_text. cbn [no_style bright reset app]. rewrite <- !app_assoc. reflexivity.
Qed.
Lemma command_attributes st filename columns s t : info_command st filename columns s = Ok t -> registered_attributes s <> [] -> (forall a, In a (registered_attributes s) -> a <> []) ->
  exists before after shown_attributes,
    Forall2 (fun a x => (In a (s_loaded s) -> x = a) /\ (~ In a (s_loaded s) -> x = dim st ++ a ++ reset st)) (registered_attributes s) shown_attributes /\
    t = before ++ bright st ++ txt "attributes:" ++ reset st ++ nl ++ txt "  " ++ join (txt ", ") shown_attributes ++ nl ++ after.
Proof.
  unfold info_command. destruct (get_info s) as [i|]; cbn [bind]; [|discriminate]. destruct (loaded_attributes s) as [l|] eqn:E; cbn [bind]; [|discriminate].
  pose proof (loaded_spec s l E) as Sp. intros H Ne Na. apply ok_eq in H. set (xs := map _ (registered_attributes s)) in H.
  assert (F : Forall2 (fun a x => (In a (s_loaded s) -> x = a) /\ (~ In a (s_loaded s) -> x = dim st ++ a ++ reset st)) (registered_attributes s) xs).
  { unfold xs. assert (G : forall m, incl m (registered_attributes s) -> Forall2 (fun a x => (In a (s_loaded s) -> x = a) /\ (~ In a (s_loaded s) -> x = dim st ++ a ++ reset st)) m (map (fun a => if tmem a l then a else dim st ++ a ++ reset st) m)).
    { induction m as [|a m IH]; intro I; cbn [map]; constructor; [|apply IH; intros x Ix; apply I; right; exact Ix]. specialize (Sp a). specialize (I a (or_introl eq_refl)).
      destruct (tmem a l) eqn:T; [apply tmem_in in T | apply tmem_false in T]; split; tauto. }
    apply G. intros x Ix. exact Ix. }
  assert (Nj : join (txt ", ") xs <> []).
  { destruct (registered_attributes s) as [|a m]; [congruence|]. inversion F as [|? x ? ys [H1 H2] F']. subst. unfold join. intro X. apply app_eq_nil in X. destruct X as [X _].
    assert (Ha : a <> []) by (apply Na; left; reflexivity). destruct (in_dec text_dec a (s_loaded s)) as [I|I]; [rewrite (H1 I) in X; contradiction|].
    rewrite (H2 I) in X. apply app_eq_nil in X. destruct X as [_ X]. apply app_eq_nil in X. destruct X as [X _]. contradiction. }
  clearbody xs. unfold text_or_none in H. destruct (join (txt ", ") xs) as [|c j] eqn:J; [congruence|]. rewrite <- J in H.
  match type of H with ?a ++ nl ++ ?b ++ nl ++ ?c ++ nl ++ (?d) ++ ?e1 ++ ?e2 ++ ?e3 ++ (?f) ++ ?g1 ++ ?g2 ++ ?g3 ++ (?h) ++ ?k1 ++ ?k2 ++ ?k3 ++ (?m) ++ ?n1 ++ ?n2 ++ ?n3 ++ ?rest = _ =>
    exists (a ++ nl ++ b ++ nl ++ c ++ nl ++ d ++ e1 ++ e2 ++ e3 ++ f ++ g1 ++ g2 ++ g3 ++ h ++ k1 ++ k2 ++ k3), rest, xs end.
  split; [exact F|]. rewrite <- H. rewrite <- !app_assoc. reflexivity.
Qed.
