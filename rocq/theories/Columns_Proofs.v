From Verif Require Import Prelude Partitions_Model Partitions_Spec Partitions_Proofs Columns_Model Columns_Spec.
From Coq Require Import Ascii Permutation ZifyBool ZifyNat.
Local Open Scope nat_scope.

(* ------------------------------------------------------------------ order *)
Lemma index_of_some e l n : index_of e l = Some n ->
  exists b, l = firstn n l ++ e :: b /\ ~ In e (firstn n l) /\ b = skipn (S n) l /\ n < length l.
Proof.
  revert n. induction l as [|x l IH]; intros n H; cbn [index_of] in H; [discriminate|].
  destruct (String.eqb_spec x e) as [->|N].
  - injection H as <-. exists l. cbn. split; [reflexivity|]. split; [tauto|]. split; [reflexivity|lia].
  - destruct (index_of e l) as [m|]; [|discriminate]. injection H as <-. destruct (IH m eq_refl) as (b & E & I & B & L).
    exists b. cbn [firstn app skipn length]. split; [congruence|]. split; [intros [X|X]; [congruence|tauto]|]. split; [exact B|lia].
Qed.
Lemma index_of_none e l : index_of e l = None <-> ~ In e l.
Proof.
  induction l as [|x l IH]; cbn [index_of In]; [tauto|]. destruct (String.eqb_spec x e) as [->|N].
  - split; [discriminate|tauto].
  - destruct (index_of e l); [split; [discriminate|]; intro H; exfalso; destruct IH as [_ IH]; assert (~ In e l) by tauto; specialize (IH H0); discriminate|].
    split; [|reflexivity]. intros _ [H|H]; [congruence|]. apply IH in H; [tauto|reflexivity].
Qed.

Lemma move_present l e offset : In e l -> exists l', change_element_order l e offset = Ok l' /\ moved l e offset l'.
Proof.
  intro H. unfold change_element_order. destruct (index_of e l) as [n|] eqn:E; [|apply index_of_none in E; tauto].
  eexists. split; [reflexivity|]. destruct (index_of_some _ _ _ E) as (b & El & Ni & Eb & L).
  set (p := Z.to_nat (Z.min (Z.max 0 (Z.of_nat n + offset)) (Z.of_nat (length l) - 1))).
  exists (firstn n l), b, (firstn p (pop_at n l)), (skipn p (pop_at n l)).
  split; [exact El|]. split; [exact Ni|]. split; [reflexivity|]. split; [rewrite firstn_skipn; unfold pop_at; rewrite Eb; reflexivity|].
  assert (Lp : length (pop_at n l) = length l - 1) by (unfold pop_at; rewrite app_length, firstn_length, skipn_length; lia).
  rewrite !firstn_length, Lp. subst p. lia.
Qed.
Lemma move_absent l e offset : ~ In e l -> change_element_order l e offset = Err ToronError.
Proof. intro H. unfold change_element_order. apply index_of_none in H. rewrite H. reflexivity. Qed.
Lemma move_spec l e offset l' : change_element_order l e offset = Ok l' -> moved l e offset l'.
Proof.
  intro H. destruct (in_dec string_dec e l) as [I|I].
  - destruct (move_present l e offset I) as (m & E & M). congruence.
  - rewrite (move_absent _ _ _ I) in H. discriminate H.
Qed.
Lemma moved_perm l e offset l' : moved l e offset l' -> Permutation l l'.
Proof.
  intros (a & b & c & d & -> & _ & -> & E & _). rewrite <- Permutation_middle. rewrite <- (Permutation_middle c). rewrite E. reflexivity.
Qed.
(** The others keep their order. *)
Lemma moved_others l e offset l' : moved l e offset l' -> NoDup l ->
  filter (fun x => negb (String.eqb e x)) l = filter (fun x => negb (String.eqb e x)) l'.
Proof.
  intros (a & b & c & d & -> & _ & -> & E & _) _. rewrite !filter_app. cbn [filter]. rewrite String.eqb_refl. cbn [negb].
  rewrite <- !filter_app, E. reflexivity.
Qed.
Lemma moved_zero l e l' : moved l e 0 l' -> l' = l.
Proof.
  intros (a & b & c & d & -> & _ & -> & E & L). rewrite app_length in L. cbn [length] in L. assert (Lc : length c = length a) by lia.
  assert (c = a /\ d = b) as [-> ->]; [|reflexivity].
  revert a Lc E L. clear. induction c as [|x c IH]; intros [|y a] Lc E L; try discriminate Lc; [auto|].
  injection E as -> E. injection Lc as Lc. destruct (IH a Lc E) as [-> ->]; [lia|auto].
Qed.
Lemma moved_functional l e o l1 l2 : moved l e o l1 -> moved l e o l2 -> l1 = l2.
Proof.
  intros (a & b & c & d & -> & Na & -> & E & L) (a' & b' & c' & d' & El & Na' & -> & E' & L').
  assert (a = a' /\ b = b') as [-> ->].
  { clear - El Na Na'. revert a' El Na'. induction a as [|x a IH]; intros [|y a'] El Na'; cbn in El.
    - injection El as ->. auto.
    - injection El as -> _. destruct Na'. now left.
    - injection El as -> _. destruct Na. now left.
    - injection El as -> El. destruct (IH (fun H => Na (or_intror H)) a' El (fun H => Na' (or_intror H))) as [-> ->]. auto. }
  assert (length c = length c') by lia. rewrite <- E' in E.
  assert (c = c' /\ d = d') as [-> ->]; [|reflexivity].
  clear - E H. revert c' H E. induction c as [|x c IH]; intros [|y c'] H E; try discriminate H; [auto|].
  injection E as -> E. injection H as H. destruct (IH c' H E) as [-> ->]. auto.
Qed.

Lemma display_has_all s x : In x (c_columns s) -> In x (display_order s).
Proof.
  intro H. unfold display_order. apply in_app_iff. set (d := match c_display s with Some d => d | None => [] end).
  destruct (in_dec string_dec x d) as [I|I]; [now left|right]. apply filter_In. split; [exact H|].
  apply negb_true_iff. destruct (lmem x d) eqn:E; [|reflexivity]. apply lmem_iff in E. tauto.
Qed.

Lemma lmem_false x l : lmem x l = false <-> ~ In x l.
Proof. rewrite <- lmem_iff. destruct (lmem x l); split; congruence. Qed.

(* --------------------------------------------------------- comparing names *)
Lemma reserved_iff x : lmem x all_reserved = true <-> reserved_name x.
Proof. rewrite lmem_iff. unfold all_reserved, reserved_name. cbn [In]. tauto. Qed.
Lemma reserved_false x : lmem x all_reserved = false <-> ~ reserved_name x.
Proof. rewrite <- reserved_iff. destruct (lmem x all_reserved); split; congruence. Qed.

Lemma lower_byte_nat a : nat_of_ascii (lower_byte a) =
  if (65 <=? nat_of_ascii a) && (nat_of_ascii a <=? 90) then nat_of_ascii a + 32 else nat_of_ascii a.
Proof.
  unfold lower_byte. destruct ((65 <=? nat_of_ascii a) && (nat_of_ascii a <=? 90)) eqn:E; [|reflexivity].
  apply nat_ascii_embedding. lia.
Qed.
Lemma lower_byte_same a b : lower_byte a = lower_byte b <-> same_letter a b.
Proof.
  assert (H : lower_byte a = lower_byte b <-> nat_of_ascii (lower_byte a) = nat_of_ascii (lower_byte b)).
  { split; [congruence|]. intro E. rewrite <- (ascii_nat_embedding (lower_byte a)), <- (ascii_nat_embedding (lower_byte b)), E. reflexivity. }
  rewrite H, !lower_byte_nat. unfold same_letter.
  generalize (nat_of_ascii a) (nat_of_ascii b). intros m n.
  destruct ((65 <=? m) && (m <=? 90)) eqn:E1, ((65 <=? n) && (n <=? 90)) eqn:E2; split; intro; try lia.
Qed.
Lemma sql_same_iff a b : sql_same a b = true <-> same_but_case a b.
Proof.
  unfold sql_same. rewrite String.eqb_eq. revert b. induction a as [|x a IH]; intros [|y b]; cbn [lower].
  - split; [constructor|reflexivity].
  - split; [discriminate|inversion 1].
  - split; [discriminate|inversion 1].
  - split.
    + intro H. injection H as H1 H2. constructor; [apply lower_byte_same; exact H1 | apply IH; exact H2].
    + inversion 1; subst. f_equal; [apply lower_byte_same; assumption | apply IH; assumption].
Qed.
Lemma sql_refl a : sql_same a a = true. Proof. apply String.eqb_refl. Qed.
Lemma sql_sym a b : sql_same a b = sql_same b a. Proof. apply String.eqb_sym. Qed.

Definition sql_fresh (x : string) (l : list string) : Prop := forall y, In y l -> sql_same x y = false.
Lemma sql_fresh_iff x l : existsb (sql_same x) l = false <-> sql_fresh x l.
Proof.
  unfold sql_fresh. induction l as [|y l IH]; cbn; [split; [intros _ y []|reflexivity]|].
  rewrite orb_false_iff, IH. split; [intros [H1 H2] z [<-|Hz]; auto|]. intro H. split; [apply H; now left|]. intros z Hz. apply H. now right.
Qed.
Lemma sql_distinct_cons x l : sql_distinct (x :: l) = true <-> sql_fresh x l /\ sql_distinct l = true.
Proof. cbn [sql_distinct]. rewrite andb_true_iff, negb_true_iff, sql_fresh_iff. reflexivity. Qed.
Lemma sql_distinct_nodup l : sql_distinct l = true -> NoDup l.
Proof.
  induction l as [|x l IH]; [constructor|]. rewrite sql_distinct_cons. intros [F D]. constructor; [|auto].
  intro I. specialize (F x I). rewrite sql_refl in F. discriminate F.
Qed.
Lemma sql_distinct_app a b : sql_distinct (a ++ b) = true <->
  sql_distinct a = true /\ sql_distinct b = true /\ forall x y, In x a -> In y b -> sql_same x y = false.
Proof.
  induction a as [|x a IH]; cbn [app].
  - split; [intro H; repeat split; auto; intros x y []|tauto].
  - rewrite !sql_distinct_cons, IH. unfold sql_fresh. split.
    + intros (F & Da & Db & X). split; [split; [|exact Da]; intros y Hy; apply F, in_app_iff; now left|].
      split; [exact Db|]. intros u v [<-|Hu] Hv; [apply F, in_app_iff; now right|auto].
    + intros ((F & Da) & Db & X). split; [|split; [exact Da|split; [exact Db|]]].
      * intros y Hy. apply in_app_iff in Hy as [Hy|Hy]; [auto|]. apply X; [now left|exact Hy].
      * intros u v Hu Hv. apply X; [now right|exact Hv].
Qed.
Lemma sql_distinct_inj l x y : sql_distinct l = true -> In x l -> In y l -> sql_same x y = true -> x = y.
Proof.
  induction l as [|z l IH]; [intros _ []|]. rewrite sql_distinct_cons. intros [F D] Hx Hy E.
  destruct Hx as [<-|Hx], Hy as [<-|Hy]; auto.
  - rewrite (F y Hy) in E. discriminate E.
  - rewrite sql_sym, (F x Hx) in E. discriminate E.
Qed.

(* ---------------------------------------------------------------- names *)
(** What holds after every history. *)
Record c_inv (s : cspace) : Prop := {
  ci_nul : forall x, In x (c_columns s) -> has_nul x = false;
  ci_distinct : sql_distinct (fixed_columns ++ c_columns s) = true;
  ci_reserved : forall x, In x (c_columns s) -> ~ reserved_name x;
  ci_attrs : NoDup (registered s);
  ci_attrs_reserved : forall x, In x (registered s) -> ~ reserved_name x;
  ci_disjoint : forall x, In x (c_columns s) -> In x (registered s) -> False }.

Lemma c_inv_names s : c_inv s -> names_ok (c_columns s) (registered s).
Proof.
  intros [NU D R A AR DJ]. constructor; auto. apply sql_distinct_app in D. apply sql_distinct_nodup. tauto.
Qed.
Lemma c_inv_new : c_inv c_new.
Proof. constructor; cbn; [intros x []|reflexivity|intros x []|constructor|intros x []|intros x []]. Qed.

Lemma validate_ok new s : validate_new new s = Ok tt <->
  forall x, In x new -> ~ reserved_name x /\ ~ In x (c_columns s) /\ ~ In x (registered s).
Proof.
  induction new as [|x new IH]; cbn [validate_new]; [split; [intros _ x []|reflexivity]|].
  destruct (lmem x all_reserved) eqn:E1; [split; [discriminate|]; intro H; destruct (H x (or_introl eq_refl)) as [N _]; destruct N; now apply reserved_iff|].
  destruct (lmem x (c_columns s)) eqn:E2; [split; [discriminate|]; intro H; destruct (H x (or_introl eq_refl)) as (_ & N & _); destruct N; now apply lmem_iff|].
  destruct (lmem x (registered s)) eqn:E3; [split; [discriminate|]; intro H; destruct (H x (or_introl eq_refl)) as (_ & _ & N); destruct N; now apply lmem_iff|].
  apply reserved_false in E1. apply lmem_false in E2, E3. rewrite IH. split.
  - intros H y [<-|Hy]; [tauto|auto].
  - intros H y Hy. apply H. now right.
Qed.
Lemma validate_err new s e : validate_new new s = Err e -> e = ToronError.
Proof.
  induction new as [|x new IH]; cbn [validate_new]; [discriminate|].
  destruct (lmem x all_reserved); [congruence|]. destruct (lmem x (c_columns s)); [congruence|]. destruct (lmem x (registered s)); [congruence|exact IH].
Qed.

Lemma alter_adds_spec cols : forall s s', alter_adds s cols = Ok s' ->
  c_columns s' = c_columns s ++ cols /\ c_defs s' = c_defs s /\ c_attrs s' = c_attrs s /\ c_display s' = c_display s /\
  c_structs s' = map (fun r => r ++ repeat false (length cols)) (c_structs s).
Proof.
  induction cols as [|x cols IH]; intros s s' H; cbn [alter_adds] in H.
  - injection H as <-. rewrite app_nil_r. repeat split; auto. cbn. rewrite map_ext with (g := fun r => r); [symmetry; apply map_id|]. intro; apply app_nil_r.
  - unfold alter_add in H. destruct (has_nul x); cbn [bind] in H; [discriminate|].
    destruct (existsb _ _); cbn [bind] in H; [discriminate|].
    apply IH in H. cbn [with_columns c_columns c_defs c_attrs c_display c_structs] in H. destruct H as (-> & -> & -> & -> & ->).
    rewrite <- app_assoc. repeat split; auto. rewrite map_map. apply map_ext. intro r. rewrite <- app_assoc. reflexivity.
Qed.
Lemma alter_adds_iff cols : forall s, sql_distinct (fixed_columns ++ c_columns s) = true ->
  ((exists s', alter_adds s cols = Ok s') <->
   (forall x, In x cols -> has_nul x = false) /\ sql_distinct (fixed_columns ++ c_columns s ++ cols) = true).
Proof.
  induction cols as [|x cols IH]; intros s D; cbn [alter_adds].
  - rewrite app_nil_r. split; [intros _; split; [intros x []|exact D]|eauto].
  - unfold alter_add. destruct (has_nul x) eqn:E1; cbn [bind].
    { split; [intros [s' H]; discriminate|]. intros [H _]. rewrite (H x (or_introl eq_refl)) in E1. discriminate. }
    destruct (existsb (sql_same x) (fixed_columns ++ c_columns s)) eqn:E2; cbn [bind].
    { split; [intros [s' H]; discriminate|]. intros [_ H]. rewrite app_assoc in H. apply sql_distinct_app in H as (_ & _ & X).
      apply existsb_exists in E2 as (y & Hy & E2). rewrite sql_sym, (X y x Hy (or_introl eq_refl)) in E2. discriminate. }
    apply sql_fresh_iff in E2. rewrite IH.
    + cbn [with_columns c_columns]. rewrite <- app_assoc. cbn [app]. split; intros [A B]; split; auto; [|intros y Hy; apply A; now right].
      intros y [<-|Hy]; auto.
    + cbn [with_columns c_columns]. rewrite app_assoc. apply sql_distinct_app. split; [exact D|]. split; [reflexivity|].
      intros u v Hu [<-|[]]. rewrite sql_sym. apply E2. exact Hu.
Qed.

Lemma create_constraints_ok s s' : create_constraints s = Ok s' -> s' = s.
Proof. unfold create_constraints. destruct (c_columns s); [congruence|]. destruct (unique_rows _); congruence. Qed.

(** Calls other than the ones on columns leave columns alone, etc. *)
Lemma rebuild_ok s s' : rebuild s = Ok s' ->
  c_columns s' = c_columns s /\ c_defs s' = c_defs s /\ c_attrs s' = c_attrs s /\ c_display s' = c_display s.
Proof.
  unfold rebuild. intro H.
  destruct (c_columns s) as [|c cs] eqn:E.
  - destruct (struct_adds _ _ _); cbn [bind] in H; [|discriminate]. injection H as <-. cbn. rewrite E. auto.
  - destruct (get_all_defs (pview s)); [discriminate|]. destruct (struct_adds _ _ _); cbn [bind] in H; [|discriminate]. injection H as <-. cbn. rewrite E. auto.
Qed.

Lemma alter_rename_spec s old new s' : alter_rename s (old, new) = Ok s' ->
  sql_distinct (fixed_columns ++ c_columns s') = true /\ c_defs s' = c_defs s /\ c_attrs s' = c_attrs s /\ c_display s' = c_display s /\
  c_structs s' = c_structs s /\ replace_first old new (c_columns s) = Some (c_columns s') /\ has_nul new = false.
Proof.
  unfold alter_rename. destruct (has_nul old || has_nul new) eqn:N; [discriminate|]. apply orb_false_iff in N as [_ N]. destruct (replace_first old new (c_columns s)) as [cols|] eqn:E; [|discriminate].
  destruct (sql_distinct (fixed_columns ++ cols)) eqn:D; [|discriminate]. intro H. injection H as <-. cbn. auto 10.
Qed.
Lemma replace_first_in old new cols : forall l, replace_first old new cols = Some l -> forall x, In x l -> x = new \/ In x cols.
Proof.
  induction cols as [|c cols IH]; intros l H x Hx; cbn [replace_first] in H; [discriminate|].
  destruct (sql_same old c); [injection H as <-; destruct Hx as [<-|Hx]; [now left|right; now right]|].
  destruct (replace_first old new cols) as [m|]; [|discriminate]. injection H as <-. destruct Hx as [<-|Hx]; [right; now left|].
  destruct (IH m eq_refl x Hx); [now left|right; now right].
Qed.
Lemma lm_rename_spec mapping : forall s s', lm_rename_columns s mapping = Ok s' ->
  (sql_distinct (fixed_columns ++ c_columns s) = true -> sql_distinct (fixed_columns ++ c_columns s') = true) /\
  c_defs s' = c_defs s /\ c_attrs s' = c_attrs s /\ c_display s' = c_display s /\ c_structs s' = c_structs s /\
  (forall x, In x (c_columns s') -> In x (map snd mapping) \/ In x (c_columns s)) /\
  forall x, In x (c_columns s') -> has_nul x = false \/ In x (c_columns s).
Proof.
  induction mapping as [|[old new] m IH]; intros s s' H; cbn [lm_rename_columns] in H.
  - injection H as <-. repeat split; auto.
  - destruct (alter_rename s (old, new)) as [s1|] eqn:E; cbn [bind] in H; [|discriminate].
    apply alter_rename_spec in E as (D & E1 & E2 & E3 & E4 & E5 & E6). apply IH in H as (D' & -> & -> & -> & -> & X & Y).
    repeat split; auto; intros x Hx.
    + destruct (X x Hx) as [I|I]; [left; now right|].
      destruct (replace_first_in _ _ _ _ E5 x I) as [->|J]; [left; now left|now right].
    + destruct (Y x Hx) as [I|I]; [left; exact I|].
      destruct (replace_first_in _ _ _ _ E5 x I) as [->|J]; [left; exact E6|now right].
Qed.

Lemma unique_attrs_spec cols attrs : forall seen l, unique_attrs cols seen attrs = Ok l <->
  l = seen ++ attrs /\ (forall x, In x attrs -> ~ reserved_name x /\ ~ In x cols /\ ~ In x seen) /\ NoDup attrs.
Proof.
  induction attrs as [|a attrs IH]; intros seen l; cbn [unique_attrs].
  - rewrite app_nil_r. split; [intro H; injection H as <-; repeat split; try constructor; contradiction|intros [-> _]; reflexivity].
  - destruct (lmem a all_reserved) eqn:E1; [split; [discriminate|]; intros (_ & H & _); destruct (H a (or_introl eq_refl)) as [N _]; destruct N; now apply reserved_iff|].
    destruct (lmem a cols) eqn:E2; [split; [discriminate|]; intros (_ & H & _); destruct (H a (or_introl eq_refl)) as (_ & N & _); destruct N; now apply lmem_iff|].
    destruct (lmem a seen) eqn:E3; [split; [discriminate|]; intros (_ & H & _); destruct (H a (or_introl eq_refl)) as (_ & _ & N); destruct N; now apply lmem_iff|].
    apply reserved_false in E1. apply lmem_false in E2, E3. rewrite IH, <- app_assoc. cbn [app]. split.
    + intros (-> & H & N). split; [reflexivity|]. split.
      * intros x [<-|Hx]; [auto|]. destruct (H x Hx) as (A & B & C). rewrite in_app_iff in C. tauto.
      * constructor; [|exact N]. intro I. destruct (H a I) as (_ & _ & C). apply C, in_app_iff. right. now left.
    + intros (-> & H & N). inversion N as [|? ? N1 N2]; subst. split; [reflexivity|]. split; [|exact N2].
      intros x Hx. destruct (H x (or_intror Hx)) as (A & B & C). repeat split; auto. rewrite in_app_iff. intros [I|[<-|[]]]; tauto.
Qed.
Lemma unique_attrs_err cols attrs : forall seen e, unique_attrs cols seen attrs = Err e -> e = ValueError.
Proof.
  induction attrs as [|a attrs IH]; intros seen e; cbn [unique_attrs]; [discriminate|].
  destruct (lmem a all_reserved); [congruence|]. destruct (lmem a cols); [congruence|]. destruct (lmem a seen); [congruence|apply IH].
Qed.
Lemma set_registered_spec attrs s s' : set_registered attrs s = Ok s' <->
  s' = with_attrs attrs s /\ (forall x, In x attrs -> ~ reserved_name x /\ ~ In x (c_columns s)) /\ NoDup attrs.
Proof.
  unfold set_registered. split.
  - destruct (unique_attrs (c_columns s) [] attrs) as [l|] eqn:E; cbn [bind]; [|discriminate]. intro H. injection H as <-.
    apply unique_attrs_spec in E as (-> & H & N). cbn [app]. split; [reflexivity|]. split; [|exact N]. intros x Hx. destruct (H x Hx). tauto.
  - intros (-> & H & N). assert (E : unique_attrs (c_columns s) [] attrs = Ok attrs).
    { apply unique_attrs_spec. split; [reflexivity|]. split; [|exact N]. intros x Hx. destruct (H x Hx). cbn [In]. tauto. }
    rewrite E. reflexivity.
Qed.
Lemma set_display_spec l s s' : set_display_order l s = Ok s' <-> s' = with_display l s /\ incl l (c_columns s).
Proof.
  unfold set_display_order. destruct (filter _ l) as [|y f] eqn:E.
  - split; [|intros [-> _]; reflexivity]. intro H. injection H as <-. split; [reflexivity|]. intros x Hx.
    destruct (in_dec string_dec x (c_columns s)) as [I|I]; [exact I|]. assert (In x []); [|contradiction]. rewrite <- E. apply filter_In. split; [exact Hx|].
    apply negb_true_iff, lmem_false. exact I.
  - split; [discriminate|]. intros [_ H]. assert (I : In y (filter (fun x => negb (lmem x (c_columns s))) l)) by (rewrite E; now left).
    apply filter_In in I as [I J]. apply negb_true_iff, lmem_false in J. destruct (J (H y I)).
Qed.

Lemma ds_add_one_cols d p p' : ds_add_partition_definition d p = Ok p' -> p_columns p' = p_columns p.
Proof.
  unfold ds_add_partition_definition. destruct (length (p_columns p) =? 0); [discriminate|]. destruct (negb _); [discriminate|].
  destruct (lset_in _ _); [discriminate|]. destruct (negb _); [discriminate|]. intro H. injection H as <-. reflexivity.
Qed.

Lemma c_inv_same s s' : c_columns s' = c_columns s -> c_attrs s' = c_attrs s -> c_inv s -> c_inv s'.
Proof.
  intros E1 E2 [NU D R A AR DJ]. assert (E3 : registered s' = registered s) by (unfold registered; rewrite E2; reflexivity).
  constructor; rewrite ?E1, ?E3; assumption.
Qed.

(** What each call does to columns and attributes. *)
Lemma add_index_columns_cols cols used s s' : add_index_columns cols used s = Ok s' ->
  (forall x, In x cols -> ~ reserved_name x /\ ~ In x (c_columns s) /\ ~ In x (registered s)) /\
  (exists s1, alter_adds s cols = Ok s1) /\
  c_columns s' = c_columns s ++ cols /\ c_attrs s' = c_attrs s /\ c_display s' = c_display s.
Proof.
  unfold add_index_columns. destruct (validate_new cols s) as [[]|] eqn:V; cbn [bind]; [|discriminate]. rewrite validate_ok in V.
  unfold lm_add_columns. destruct (alter_adds s cols) as [s1|] eqn:A; cbn [bind]; [|discriminate]. pose proof (alter_adds_spec _ _ _ A) as (C1 & _ & C3 & C4 & _).
  destruct (create_constraints s1) as [s2|] eqn:K; cbn [bind]; [|discriminate]. apply create_constraints_ok in K. subst s2.
  destruct (ds_add_partition_definition _ _) as [p2|]; cbn [bind]; [|discriminate].
  destruct (rebuild (with_defs p2 s1)) as [s3|] eqn:R; cbn [bind]; [|discriminate]. apply rebuild_ok in R as (R1 & _ & R3 & R4). cbn in R1, R3, R4.
  destruct (get_by_labels _ _) as [r|]; cbn [bind]; [|discriminate].
  destruct used; cbn [negb].
  - intro H. injection H as <-. split; [exact V|]. split; [eauto|]. repeat split; congruence.
  - destruct (ds_remove_partition_definition _ _) as [p4|]; cbn [bind]; [|discriminate]. intro H.
    apply rebuild_ok in H as (H1 & _ & H3 & H4). cbn in H1, H3, H4. split; [exact V|]. split; [eauto|]. repeat split; congruence.
Qed.

Lemma rename_index_columns_cols m s s' : rename_index_columns m s = Ok s' ->
  (forall p, In p m -> In (fst p) (c_columns s)) /\
  (forall x, In x (map snd m) -> ~ reserved_name x /\ ~ In x (c_columns s) /\ ~ In x (registered s)) /\
  exists s1, lm_rename_columns s m = Ok s1 /\ s' = rename_defs m s1.
Proof.
  unfold rename_index_columns. destruct (forallb _ m) eqn:F; cbn [negb]; [|discriminate]. rewrite forallb_forall in F.
  destruct (validate_new (map snd m) s) as [[]|] eqn:V; cbn [bind]; [|discriminate]. rewrite validate_ok in V.
  destruct (lm_rename_columns s m) as [s1|] eqn:A; cbn [bind]; [|discriminate]. intro H. injection H as <-.
  split; [intros p Hp; apply lmem_iff, F, Hp|]. split; [exact V|]. exists s1. auto.
Qed.
Lemma rename_label_is old new s : rename_label_column old new s = rename_index_columns [(old, new)] s.
Proof. unfold rename_label_column, rename_index_columns. cbn [forallb fst map snd]. rewrite andb_true_r. reflexivity. Qed.

Lemma drop_index_columns_cols cols clash s s' : drop_index_columns cols clash s = Ok s' ->
  c_columns s' = filter (fun c => negb (lmem c cols)) (c_columns s) /\ c_attrs s' = c_attrs s /\ c_display s' = c_display s /\ c_defs s' = c_defs s.
Proof.
  unfold drop_index_columns, lm_drop_columns. destruct (existsb _ cols); [discriminate|]. destruct (lsubset _ _); [discriminate|]. destruct clash; [discriminate|].
  intro H. apply create_constraints_ok in H. subst s'. cbn. auto.
Qed.

Lemma sql_distinct_filter f l : sql_distinct l = true -> sql_distinct (filter f l) = true.
Proof.
  induction l as [|x l IH]; [reflexivity|]. rewrite sql_distinct_cons. intros [F D]. cbn [filter]. destruct (f x); [|auto].
  apply sql_distinct_cons. split; [|auto]. intros y Hy. apply filter_In in Hy. apply F. tauto.
Qed.

Lemma c_inv_rename m s s' : c_inv s -> rename_index_columns m s = Ok s' -> c_inv s'.
Proof.
  intros I H. pose proof I as [NU D R A AR DJ]. apply rename_index_columns_cols in H as (_ & V & s1 & L & ->).
  apply lm_rename_spec in L as (D' & _ & L2 & _ & _ & L5 & L6). apply (c_inv_same s1); [reflexivity..|].
  assert (E3 : registered s1 = registered s) by (unfold registered; rewrite L2; reflexivity).
  constructor; rewrite ?E3; auto.
  - intros x Hx. destruct (L6 x Hx) as [J|J]; auto.
  - intros x Hx. destruct (L5 x Hx) as [J|J]; [apply (V x J)|auto].
  - intros x Hx Hy. destruct (L5 x Hx) as [J|J]; [apply (V x J); exact Hy|eauto].
Qed.

Lemma ccall_inv s o s' : c_inv s -> ccall s o = Ok s' -> c_inv s'.
Proof.
  intros I H. pose proof I as [NU D R A AR DJ]. destruct o as [c cs used|m|old new|c cs clash|d ds|d|d ds|attrs|a off|l off]; cbn [ccall] in H.
  - apply add_index_columns_cols in H as (V & (s1 & S1) & C & T & _).
    assert (E3 : registered s' = registered s) by (unfold registered; rewrite T; reflexivity).
    constructor; rewrite ?E3, ?C; auto.
    + intros x Hx. apply in_app_iff in Hx as [Hx|Hx]; [auto|]. apply (proj1 (alter_adds_iff (c :: cs) s D)); eauto.
    + apply (alter_adds_iff (c :: cs) s D). eauto.
    + intros x Hx. apply in_app_iff in Hx as [Hx|Hx]; [auto|]. apply (V x Hx).
    + intros x Hx Hy. apply in_app_iff in Hx as [Hx|Hx]; [eauto|]. apply (V x Hx). exact Hy.
  - exact (c_inv_rename _ _ _ I H).
  - rewrite rename_label_is in H. exact (c_inv_rename _ _ _ I H).
  - apply drop_index_columns_cols in H as (C & T & _).
    assert (E3 : registered s' = registered s) by (unfold registered; rewrite T; reflexivity).
    constructor; rewrite ?E3, ?C; auto.
    + intros x Hx. apply filter_In in Hx. apply NU. tauto.
    + apply sql_distinct_app in D as (D1 & D2 & D3). apply sql_distinct_app. split; [exact D1|]. split; [apply sql_distinct_filter; exact D2|].
      intros x y Hx Hy. apply filter_In in Hy. apply D3; tauto.
    + intros x Hx. apply filter_In in Hx. apply R. tauto.
    + intros x Hx. apply filter_In in Hx. apply DJ. tauto.
  - destruct (ds_add_partition_definitions _ _) as [p|]; cbn [bind] in H; [|discriminate]. apply rebuild_ok in H as (H1 & _ & H3 & _).
    apply (c_inv_same s); assumption.
  - destruct (ds_add_partition_definition _ _) as [p|]; cbn [bind] in H; [|discriminate]. apply rebuild_ok in H as (H1 & _ & H3 & _).
    apply (c_inv_same s); assumption.
  - destruct (lset_in _ _); [discriminate|]. apply rebuild_ok in H as (H1 & _ & H3 & _). apply (c_inv_same s); assumption.
  - apply set_registered_spec in H as (-> & V & N). constructor; cbn; auto; intros x Hx; [apply (V x Hx)|intro Hy; apply (V x Hy); exact Hx].
  - destruct (change_element_order _ _ _) as [l|]; cbn [bind] in H; [|discriminate].
    apply set_registered_spec in H as (-> & V & N). constructor; cbn; auto; intros x Hx; [apply (V x Hx)|intro Hy; apply (V x Hy); exact Hx].
  - destruct (change_element_order _ _ _) as [l'|]; cbn [bind] in H; [|discriminate].
    apply set_display_spec in H as (-> & _). apply (c_inv_same s); [reflexivity..|exact I].
Qed.
Lemma crun_inv ops : forall s, c_inv s -> c_inv (crun s ops).
Proof.
  induction ops as [|o ops IH]; intros s H; [exact H|]. cbn [crun fold_left]. apply IH. unfold cstep.
  destruct (ccall s o) as [s'|] eqn:E; [|exact H]. exact (ccall_inv _ _ _ H E).
Qed.
Lemma crun_names ops : names_ok (c_columns (crun c_new ops)) (registered (crun c_new ops)).
Proof. apply c_inv_names, crun_inv, c_inv_new. Qed.
Lemma crun_case ops x y : In x (c_columns (crun c_new ops)) -> In y (c_columns (crun c_new ops)) -> same_but_case x y -> x = y.
Proof.
  intros Hx Hy H. destruct (crun_inv ops _ c_inv_new) as [_ D _ _ _ _]. apply sql_distinct_app in D as (_ & D & _).
  exact (sql_distinct_inj _ _ _ D Hx Hy (proj2 (sql_same_iff x y) H)).
Qed.

(** Moving an attribute. *)
Lemma move_attribute s a off : c_inv s ->
  (In a (registered s) -> exists s', ccall s (CMoveAttribute a off) = Ok s' /\ moved (registered s) a off (registered s') /\
      c_columns s' = c_columns s /\ c_defs s' = c_defs s /\ c_structs s' = c_structs s /\ c_display s' = c_display s) /\
  (~ In a (registered s) -> ccall s (CMoveAttribute a off) = Err ToronError).
Proof.
  intros [NU D R A AR DJ]. split; intro H; cbn [ccall].
  - destruct (move_present _ _ off H) as (l & E & M). rewrite E. cbn [bind]. exists (with_attrs l s). split.
    + apply set_registered_spec. split; [reflexivity|]. pose proof (moved_perm _ _ _ _ M) as P. split.
      * intros x Hx. apply (Permutation_in x (Permutation_sym P)) in Hx. split; [auto|]. intro I. exact (DJ x I Hx).
      * exact (Permutation_NoDup P A).
    + cbn. auto.
  - rewrite (move_absent _ _ _ H). reflexivity.
Qed.
