From Verif Require Import Prelude Partitions_Model Partitions_Spec Partitions_Proofs Columns_Model Columns_Spec Columns_Proofs Columns_Proofs2.
From Coq Require Import Ascii Permutation ZifyBool ZifyNat.
Local Open Scope nat_scope.

Lemma case_distinct_iff l : sql_distinct l = true <-> case_distinct l.
Proof.
  unfold case_distinct. induction l as [|a l IH].
  - split; [intros _ [|i] j x y _ H; discriminate H|reflexivity].
  - rewrite sql_distinct_cons, IH. split.
    + intros [F D] [|i] [|j] x y N Hx Hy S; cbn in Hx, Hy.
      * congruence.
      * injection Hx as ->. apply nth_error_In in Hy. apply sql_same_iff in S. rewrite (F y Hy) in S. discriminate S.
      * injection Hy as ->. apply nth_error_In in Hx. apply sql_same_iff in S. rewrite sql_sym, (F x Hx) in S. discriminate S.
      * exact (D i j x y ltac:(lia) Hx Hy S).
    + intro H. split.
      * intros y Hy. apply In_nth_error in Hy as (j & Hj). destruct (sql_same a y) eqn:E; [|reflexivity].
        apply sql_same_iff in E. destruct (H 0 (S j) a y ltac:(lia) eq_refl Hj E).
      * intros i j x y N Hx Hy. exact (H (S i) (S j) x y ltac:(lia) Hx Hy).
Qed.
Lemma has_nul_iff t : has_nul t = true <-> contains_nul t.
Proof.
  unfold contains_nul. induction t as [|c t IH]; cbn [has_nul].
  - split; [discriminate|]. intros ([|x a] & b & E); discriminate E.
  - rewrite orb_true_iff, IH, Ascii.eqb_eq. split.
    + intros [->|(a & b & ->)]; [exists ""%string, t; reflexivity|exists (String c a), b; reflexivity].
    + intros ([|x a] & b & E); cbn in E; injection E as -> E; [now left|right; eauto].
Qed.
Lemma has_nul_false t : has_nul t = false <-> ~ contains_nul t.
Proof. rewrite <- has_nul_iff. destruct (has_nul t); split; congruence. Qed.

(* ---------------------------------------------------------- adding columns *)
Lemma add_iff s c cs used : c_good s ->
  ((exists s', ccall s (CAdd c cs used) = Ok s') <-> may_be_added (c_columns s) (registered s) (c :: cs)).
Proof.
  intro G. pose proof (ci_distinct _ (proj1 G)) as D. cbn [ccall]. unfold may_be_added. split.
  - intros (s' & H). apply add_index_columns_cols in H as (V & A & _). apply (alter_adds_iff _ _ D) in A as (A1 & A2). split.
    + intros x Hx. destruct (V x Hx) as (V1 & V2 & V3). repeat split; auto. apply has_nul_false. auto.
    + apply case_distinct_iff. exact A2.
  - intros (V & C). assert (A : exists s1, alter_adds s (c :: cs) = Ok s1).
    { apply (alter_adds_iff _ _ D). split; [intros x Hx; apply has_nul_false; apply (V x Hx)|]. apply case_distinct_iff. exact C. }
    destruct A as (s1 & A). destruct (add_columns_run s (c :: cs) used s1 G ltac:(discriminate)) as (s' & E & _).
    + intros x Hx. destruct (V x Hx) as (V1 & V2 & V3 & _). auto.
    + exact A.
    + eauto.
Qed.

Lemma add_effect s c cs used s' : c_good s -> ccall s (CAdd c cs used) = Ok s' ->
  c_columns s' = c_columns s ++ c :: cs /\ registered s' = registered s /\
  forall u, union_of (get_all_defs (pview s')) u <->
    exists sub, incl sub ((c_columns s ++ c :: cs) :: get_all_defs (pview s)) /\
      (used = false -> forall d, In d sub -> ~ same_set d (c_columns s)) /\
      forall x, In x u <-> exists d, In d sub /\ In x d.
Proof.
  intros G H. cbn [ccall] in H. pose proof (add_index_columns_cols _ _ _ _ H) as (V & (s1 & A) & _).
  destruct (add_columns_run s (c :: cs) used s1 G ltac:(discriminate) V A) as (s2 & E & S & C & T & _ & U). rewrite H in E. injection E as <-.
  split; [exact C|]. split; [unfold registered; rewrite T; reflexivity|]. intro u. rewrite U. unfold union_of. split.
  - intros (sub & I & X). exists sub. split; [|split; [|exact X]].
    + intros d Hd. specialize (I d Hd). apply in_app_iff in I as [I|[I|[]]]; [|left; exact I]. right. destruct used; [exact I|]. apply filter_In in I. tauto.
    + intros -> d Hd Sd. specialize (I d Hd). apply in_app_iff in I as [I|[<-|[]]].
      * apply filter_In in I as [_ I]. apply negb_true_iff in I. apply lset_eqb_iff in Sd. congruence.
      * destruct (V c (or_introl eq_refl)) as (_ & F & _). apply F, Sd, in_app_iff. right. now left.
  - intros (sub & I & N & X). exists sub. split; [|exact X]. intros d Hd. specialize (I d Hd). apply in_app_iff. destruct I as [<-|I]; [right; now left|].
    left. destruct used; [exact I|]. apply filter_In. split; [exact I|]. apply negb_true_iff. destruct (lset_eqb d (c_columns s)) eqn:E; [|reflexivity].
    apply lset_eqb_iff in E. destruct (N eq_refl d Hd E).
Qed.

(* --------------------------------------------------------------- renaming *)
Lemma single_nodup old new l : In old l -> ~ In new l -> NoDup l -> forall x, In x (map (single old new) l) <-> x = new \/ (In x l /\ x <> old).
Proof.
  intros Ho Hn N x. rewrite in_map_iff. unfold single. split.
  - intros (y & <- & Hy). destruct (String.eqb_spec old y) as [->|Q]; [now left|right; split; [exact Hy|congruence]].
  - intros [->|[Hx Q]]; [exists old; rewrite String.eqb_refl; auto|]. exists x. destruct (String.eqb_spec old x); [congruence|auto].
Qed.

Lemma rename_label_iff s old new : c_good s ->
  ((exists s', ccall s (CRenameLabel old new) = Ok s') <->
   In old (c_columns s) /\ ~ reserved_name new /\ ~ In new (c_columns s) /\ ~ In new (registered s) /\ ~ contains_nul new /\
   (forall x, In x (table_columns ++ c_columns s) -> x <> old -> ~ same_but_case x new)).
Proof.
  intro G. pose proof (proj1 G) as [NU D R A AR DJ]. cbn [ccall]. rewrite rename_label_is.
  assert (D' : sql_distinct (c_columns s) = true) by (apply sql_distinct_app in D; tauto).
  pose proof (sql_distinct_nodup _ D') as ND.
  assert (Do : In old (c_columns s) -> ~ In old table_columns).
  { intros Ho I. apply sql_distinct_app in D as (_ & _ & X). specialize (X old old I Ho). rewrite sql_refl in X. discriminate X. }
  assert (Key : In old (c_columns s) -> ~ In new (c_columns s) ->
    (sql_distinct (fixed_columns ++ map (single old new) (c_columns s)) = true <->
     forall x, In x (table_columns ++ c_columns s) -> x <> old -> ~ same_but_case x new)).
  { intros Ho Hn. split.
    - intros S x Hx Q B. apply sql_same_iff in B. assert (x = new).
      { apply (sql_distinct_inj _ x new S); [| |exact B].
        - apply in_app_iff. apply in_app_iff in Hx as [Hx|Hx]; [now left|right]. apply single_nodup; auto.
        - apply in_app_iff. right. apply single_nodup; auto. }
      subst x. apply in_app_iff in Hx as [Hx|Hx]; [|contradiction]. apply sql_distinct_app in S as (_ & _ & X).
      specialize (X new new Hx (proj2 (single_nodup old new _ Ho Hn ND new) (or_introl eq_refl))). rewrite sql_refl in X. discriminate X.
    - intro X. apply sql_distinct_app in D as (D1 & _ & D3). apply sql_distinct_app. split; [exact D1|]. split.
      + assert (X' : forall x, In x (c_columns s) -> x <> old -> sql_same x new = false).
        { intros x Hx Q. destruct (sql_same x new) eqn:E; [|reflexivity]. apply sql_same_iff in E. destruct (X x (in_or_app _ _ _ (or_intror Hx)) Q E). }
        clear - D' X'. induction (c_columns s) as [|a l IH]; [reflexivity|]. apply sql_distinct_cons in D' as [F D']. cbn [map]. apply sql_distinct_cons.
        split; [|apply IH; [exact D'|intros x Hx; apply X'; now right]]. intros y Hy. apply in_map_iff in Hy as (z & <- & Hz). unfold single.
        destruct (String.eqb_spec old a) as [Qa|Qa], (String.eqb_spec old z) as [Qz|Qz].
        * specialize (F z Hz). rewrite <- Qa, <- Qz in F. rewrite sql_refl in F. discriminate F.
        * rewrite sql_sym. apply X'; [now right|congruence].
        * apply X'; [now left|congruence].
        * apply F. exact Hz.
      + intros x y Hx Hy. apply single_nodup in Hy; auto. destruct Hy as [->|[Hy Q]]; [|apply D3; assumption].
        destruct (sql_same x new) eqn:E; [|reflexivity]. apply sql_same_iff in E. destruct (X x (in_or_app _ _ _ (or_introl Hx))); [|exact E].
        intros ->. exact (Do Ho Hx). }
  split.
  - intros (s' & H). apply rename_index_columns_cols in H as (K & V & s1 & L & _). specialize (K _ (or_introl eq_refl)). cbn [fst] in K.
    destruct (V new (or_introl eq_refl)) as (V1 & V2 & V3). cbn [lm_rename_columns] in L.
    destruct (alter_rename s (old, new)) as [s2|] eqn:E; cbn [bind] in L; [|discriminate]. apply alter_rename_spec in E as (E1 & _ & _ & _ & _ & E5 & E6).
    rewrite (replace_first_map _ _ _ D' K) in E5. injection E5 as E5. repeat split; auto; [apply has_nul_false; exact E6|].
    apply (Key K V2). rewrite E5. exact E1.
  - intros (Ho & V1 & V2 & V3 & V4 & X). apply has_nul_false in V4. apply (Key Ho V2) in X.
    assert (L : lmem old (c_columns s) = true) by (apply lmem_iff; exact Ho).
    unfold rename_index_columns. cbn [forallb fst]. rewrite L. cbn [andb negb].
    assert (V : validate_new (map snd [(old, new)]) s = Ok tt) by (apply validate_ok; intros x [<-|[]]; auto). rewrite V. cbn [bind lm_rename_columns].
    unfold alter_rename. rewrite (NU old Ho), V4. cbn [orb]. rewrite (replace_first_map _ _ _ D' Ho), X. cbn [bind]. eauto.
Qed.

Lemma mapping_single old new x : mapping_get [(old, new)] x = single old new x.
Proof. reflexivity. Qed.
Lemma renamed_map old new l : renamed old new l (map (single old new) l).
Proof.
  unfold renamed. induction l as [|x l IH]; cbn [map]; constructor; [|exact IH]. unfold single. destruct (String.eqb_spec old x) as [->|Q]; [now left|right; split; [congruence|reflexivity]].
Qed.
Lemma rename_label_effect s old new s' : c_good s -> ccall s (CRenameLabel old new) = Ok s' ->
  renamed old new (c_columns s) (c_columns s') /\
  Forall2 (renamed old new) (get_all_defs (pview s)) (get_all_defs (pview s')) /\
  c_structs s' = c_structs s /\ registered s' = registered s.
Proof.
  intros G H. cbn [ccall] in H. rewrite rename_label_is in H.
  destruct (rename_run s [(old, new)] s' G ltac:(cbn; constructor; [intros []|constructor]) H) as (C & Dd & S & T & _).
  split; [rewrite C; apply renamed_map|]. split; [|split; [exact S|unfold registered; rewrite T; reflexivity]].
  rewrite Dd. clear Dd. generalize (get_all_defs (pview s)). intro l. induction l as [|d l IH]; cbn [map]; constructor; [apply renamed_map|exact IH].
Qed.
Lemma rename_many_effect s m s' : c_good s -> NoDup (map fst m) -> ccall s (CRename m) = Ok s' ->
  (forall i x, nth_error (c_columns s) i = Some x ->
     exists y, nth_error (c_columns s') i = Some y /\ (forall z, In (x, z) m -> y = z) /\ ((forall z, ~ In (x, z) m) -> y = x)) /\
  length (c_columns s') = length (c_columns s) /\ c_structs s' = c_structs s /\ registered s' = registered s.
Proof.
  intros G N H. destruct (rename_run s m s' G N H) as (C & _ & S & T & _). rewrite C. split; [|split; [apply map_length|split; [exact S|unfold registered; rewrite T; reflexivity]]].
  intros i x Hx. exists (mapping_get m x). split; [rewrite nth_error_map, Hx; reflexivity|]. split.
  - intros z Hz. clear - N Hz. induction m as [|[a b] m IH]; [destruct Hz|]. cbn [mapping_get map fst] in *. inversion N as [|? ? N1 N2]; subst.
    destruct Hz as [E|Hz]; [injection E as -> ->; rewrite String.eqb_refl; reflexivity|]. destruct (String.eqb_spec a x) as [->|Q]; [|auto].
    destruct N1. apply in_map_iff. exists (x, z). auto.
  - intro F. apply mapping_get_out. intro I. apply in_map_iff in I as ([a b] & E & I). cbn in E. subst a. exact (F b I).
Qed.

(* --------------------------------------------- partition calls never get stuck *)
Lemma settled_rebuild s p : p_good p -> p_columns p = c_columns s -> exists s', rebuild (with_defs p s) = Ok s'.
Proof.
  intros G C. destruct (rebuild_succeeds (with_defs p s)) as (s' & E & _); [|eauto].
  replace (pview (with_defs p s)) with p; [exact G|]. unfold pview. cbn. rewrite <- C. destruct p; reflexivity.
Qed.
Lemma calls_agree s : c_good s -> c_columns s <> [] ->
  (forall d, (exists s', ccall s (CAddDef d) = Ok s') <-> (exists p, pcall (pview s) (PAddOne d) = Ok p)) /\
  (forall d ds, (exists s', ccall s (CAddDefs d ds) = Ok s') <-> (exists p, pcall (pview s) (PAddMany d ds) = Ok p)) /\
  (forall d ds, (exists s', ccall s (CDropDefs d ds) = Ok s') <-> (exists p, pcall (pview s) (PDrop d ds) = Ok p)).
Proof.
  intros [_ [(B & _)|[G _]]] Hc; [contradiction|]. split; [|split].
  - intro d. cbn [ccall pcall]. destruct (ds_add_partition_definition d (pview s)) as [p|] eqn:E; cbn [bind]; [|split; intros (x & H); discriminate].
    pose proof (ds_add_one_cols _ _ _ E) as Cp. cbn [pview p_columns] in Cp. split; intros (x & H).
    + exists p. exact (rebuild_check_of _ _ _ Cp H).
    + apply settled_rebuild; [|exact Cp]. apply (pcall_good (pview s) (PAddOne d)); [exact G|]. cbn [pcall]. rewrite E. cbn [bind]. pose proof (rebuild_check_ok _ _ H). congruence.
  - intros d ds. cbn [ccall pcall]. destruct (ds_add_partition_definitions (d :: ds) (pview s)) as [p|] eqn:E; cbn [bind]; [|split; intros (x & H); discriminate].
    assert (Cp : p_columns p = c_columns s).
    { unfold ds_add_partition_definitions in E. destruct (_ =? 0); [discriminate|]. destruct (negb _); [discriminate|]. injection E as <-. reflexivity. }
    split; intros (x & H).
    + exists p. exact (rebuild_check_of _ _ _ Cp H).
    + apply settled_rebuild; [|exact Cp]. apply (pcall_good (pview s) (PAddMany d ds)); [exact G|]. cbn [pcall]. rewrite E. cbn [bind]. pose proof (rebuild_check_ok _ _ H). congruence.
  - intros d ds. cbn [ccall pcall]. cbn [pview p_columns]. destruct (lset_in (c_columns s) (d :: ds)) eqn:E; [split; intros (x & H); discriminate|].
    change {| p_columns := c_columns s; p_defs := c_defs s |} with (pview s). set (p := prop_update_defs _ _).
    split; intros (x & H).
    + exists p. exact (rebuild_check_of p _ _ eq_refl H).
    + apply settled_rebuild; [|reflexivity]. apply (pcall_good (pview s) (PDrop d ds)); [exact G|]. cbn [pcall]. cbn [pview p_columns]. rewrite E.
      change {| p_columns := c_columns s; p_defs := c_defs s |} with (pview s). fold p. pose proof (rebuild_check_ok _ _ H). congruence.
Qed.
Lemma add_def_iff s d : c_good s -> c_columns s <> [] ->
  ((exists s', ccall s (CAddDef d) = Ok s') <-> incl d (c_columns s) /\ ~ union_of (get_all_defs (pview s)) d).
Proof.
  intros G Hc. rewrite (proj1 (calls_agree s G Hc)). destruct G as [_ [(B & _)|[G _]]]; [contradiction|]. apply (add_one_accepts (pview s) d G).
Qed.
Lemma add_defs_iff s d ds : c_good s -> c_columns s <> [] ->
  ((exists s', ccall s (CAddDefs d ds) = Ok s') <-> forall e, In e (d :: ds) -> incl e (c_columns s)).
Proof.
  intros G Hc. rewrite (proj1 (proj2 (calls_agree s G Hc))). destruct G as [_ [(B & _)|[G _]]]; [contradiction|]. apply (add_many_accepts (pview s) d ds G).
Qed.
Lemma drop_defs_iff s d ds : c_good s -> c_columns s <> [] ->
  ((exists s', ccall s (CDropDefs d ds) = Ok s') <-> ~ member (c_columns s) (d :: ds)).
Proof.
  intros G Hc. rewrite (proj2 (proj2 (calls_agree s G Hc))). destruct G as [_ [(B & _)|[G _]]]; [contradiction|]. apply (drop_accepts (pview s) d ds G).
Qed.

Lemma good_spec s : c_good s -> c_columns s <> [] ->
  definitions_ok (c_columns s) (get_all_defs (pview s)) /\ structure_ok (c_columns s) (get_all_defs (pview s)) (c_structs s).
Proof. intros [_ [(B & _)|[G S]]] Hc; [contradiction|]. split; [apply p_definitions_ok; exact G|exact S]. Qed.
Lemma good_blank s : c_good s -> c_columns s = [] -> get_all_defs (pview s) = [] /\ c_structs s = [].
Proof.
  intros [_ [(_ & B & C)|[G _]]] Hc; [|destruct (pg_cols _ G Hc)]. unfold get_all_defs. cbn. rewrite B. auto.
Qed.

(* ---------------------------------------------------------------- display *)
Definition shown (s : cspace) : list string := match c_display s with Some d => d | None => [] end.
Definition c_disp (s : cspace) : Prop := NoDup (shown s) /\ incl (shown s) (c_columns s).
Definition keeps_names (o : cop) : Prop := match o with CDrop _ _ _ => False | CRename _ => False | CRenameLabel _ _ => False | _ => True end.

Lemma display_perm s : c_inv s -> c_disp s -> Permutation (display_order s) (c_columns s).
Proof.
  intros I (N & K). pose proof (no_column_twice _ _ (c_inv_names _ I)) as Nc. apply NoDup_Permutation; [|exact Nc|].
  - unfold display_order. fold (shown s). revert N K. generalize (shown s). intros d N K.
    assert (F : NoDup (filter (fun x => negb (lmem x d)) (c_columns s))) by (apply NoDup_filter; exact Nc).
    clear K Nc I. assert (X : forall x, In x d -> In x (filter (fun x => negb (lmem x d)) (c_columns s)) -> False).
    { intros x Hx Hy. apply filter_In in Hy as [_ Hy]. apply negb_true_iff, lmem_false in Hy. contradiction. }
    revert X F. generalize (filter (fun x => negb (lmem x d)) (c_columns s)). intros f X F. clear s.
    induction d as [|a d IH]; [exact F|]. inversion N as [|? ? N1 N2]; subst. cbn [app]. constructor.
    + intro H. apply in_app_iff in H as [H|H]; [contradiction|]. apply (X a); [now left|exact H].
    + apply IH; [exact N2|]. intros x Hx. apply X. now right.
  - intro x. split; [|apply display_has_all]. unfold display_order. fold (shown s). intro H. apply in_app_iff in H as [H|H]; [auto|]. apply filter_In in H. tauto.
Qed.

Lemma ccall_disp s o s' : c_inv s -> c_disp s -> keeps_names o -> ccall s o = Ok s' -> c_disp s'.
Proof.
  intros I Dp Ko H. pose proof Dp as (N & K).
  assert (Same : c_display s' = c_display s -> incl (c_columns s) (c_columns s') -> c_disp s').
  { intros E Il. unfold c_disp, shown. rewrite E. split; [exact N|]. intros x Hx. apply Il, K, Hx. }
  destruct o as [c cs used|m|old new|c cs clash|d ds|d|d ds|attrs|a off|l off]; cbn [ccall] in H; cbn [keeps_names] in Ko; try contradiction.
  - apply add_index_columns_cols in H as (_ & _ & C & _ & E). apply Same; [exact E|]. rewrite C. apply incl_appl, incl_refl.
  - destruct (ds_add_partition_definitions _ _) as [p|]; cbn [bind] in H; [|discriminate]. apply rebuild_ok in H as (H1 & _ & _ & H4). cbn in H1, H4. apply Same; [exact H4|rewrite H1; apply incl_refl].
  - destruct (ds_add_partition_definition _ _) as [p|]; cbn [bind] in H; [|discriminate]. apply rebuild_ok in H as (H1 & _ & _ & H4). cbn in H1, H4. apply Same; [exact H4|rewrite H1; apply incl_refl].
  - destruct (lset_in _ _); [discriminate|]. apply rebuild_ok in H as (H1 & _ & _ & H4). cbn in H1, H4. apply Same; [exact H4|rewrite H1; apply incl_refl].
  - apply set_registered_spec in H as (-> & _). exact Dp.
  - destruct (change_element_order _ _ _) as [x|]; cbn [bind] in H; [|discriminate]. apply set_registered_spec in H as (-> & _). exact Dp.
  - destruct (change_element_order _ _ _) as [x|] eqn:E; cbn [bind] in H; [|discriminate]. apply set_display_spec in H as (-> & Il).
    apply move_spec, moved_perm in E. split; [|exact Il]. cbn [shown with_display c_display].
    apply (Permutation_NoDup E). apply (Permutation_NoDup (Permutation_sym (display_perm s I Dp))). exact (no_column_twice _ _ (c_inv_names _ I)).
Qed.
Lemma crun_disp ops : forall s, Forall keeps_names ops -> c_inv s -> c_disp s -> c_disp (crun s ops) /\ c_inv (crun s ops).
Proof.
  induction ops as [|o ops IH]; intros s F I D; [auto|]. inversion F; subst. cbn [crun fold_left]. unfold cstep at 2 4.
  destruct (ccall s o) as [s'|] eqn:E; [|apply IH; assumption]. apply IH; [assumption|exact (ccall_inv _ _ _ I E)|eapply ccall_disp; eauto].
Qed.
Lemma c_disp_new : c_disp c_new. Proof. split; [constructor|intros x []]. Qed.

Lemma move_label s l off : c_inv s -> c_disp s ->
  (In l (c_columns s) -> exists s', ccall s (CMoveLabel l off) = Ok s' /\ moved (display_order s) l off (display_order s') /\
     c_columns s' = c_columns s /\ c_defs s' = c_defs s /\ c_structs s' = c_structs s /\ c_attrs s' = c_attrs s) /\
  (~ In l (c_columns s) -> ccall s (CMoveLabel l off) = Err ToronError).
Proof.
  intros I D. pose proof (display_perm s I D) as P. split; intro H; cbn [ccall].
  - assert (Hd : In l (display_order s)) by (apply display_has_all; exact H).
    destruct (move_present _ _ off Hd) as (l' & E & M). rewrite E. cbn [bind]. pose proof (moved_perm _ _ _ _ M) as Pm.
    assert (Pc : Permutation l' (c_columns s)) by (transitivity (display_order s); [symmetry; exact Pm|exact P]).
    exists (with_display l' s). split; [apply set_display_spec; split; [reflexivity|]; intros x Hx; apply (Permutation_in x Pc Hx)|]. split; [|cbn; auto].
    replace (display_order (with_display l' s)) with l'; [exact M|]. unfold display_order. cbn [with_display c_display c_columns].
    rewrite <- (app_nil_r l') at 1. f_equal. symmetry. apply List.incl_l_nil. intros x Hx. exfalso. apply filter_In in Hx as [Hx Hn]. apply negb_true_iff, lmem_false in Hn. apply Hn.
    apply (Permutation_in x (Permutation_sym Pc) Hx).
  - rewrite move_absent; [reflexivity|]. intro Hd. apply H. exact (Permutation_in l P Hd).
Qed.
