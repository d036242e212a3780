(** Proofs about the administration commands: labels, partitions, attributes, weight groups. *)
From Coq Require Import NArith String Permutation.
From Verif Require Import Prelude Selectors_Model LinkRef_Model Partitions_Model Partitions_Spec Partitions_Proofs
  Columns_Model Columns_Spec Columns_Proofs Columns_Proofs2 Columns_Proofs3 Db_Model Db_ProofsLocal Json_Model Json_Spec Json_Proofs3 FileOpen_Model FileOpen_Proofs Csv_Model
  AdminCli_Model AdminCli_Spec.

(** ** Attributes *)

Lemma unknown_filter known : forall l r, unknown_of known l r -> filter (fun a => negb (lmem a known)) l = r.
Proof.
  induction 1 as [|a l r Ha U IH|a l r Ha U IH]; cbn [filter].
  - reflexivity.
  - rewrite (proj2 (lmem_iff _ _) Ha). exact IH.
  - destruct (lmem a known) eqn:E; [apply (proj1 (lmem_iff _ _)) in E; contradiction|]. cbn [negb]. now rewrite IH.
Qed.
Lemma unknown_not_known known : forall l r, unknown_of known l r -> forall x, In x r -> ~ In x known.
Proof.
  induction 1 as [|a l r Ha U IH|a l r Ha U IH]; intros x Hx; [destruct Hx|auto|]. destruct Hx as [<-|Hx]; auto.
Qed.
Lemma unknown_exists known : forall l, exists r, unknown_of known l r.
Proof.
  induction l as [|a l (r & IH)]; [exists []; constructor|]. destruct (in_dec string_dec a known).
  - exists r. now apply un_skip.
  - exists (a :: r). now apply un_keep.
Qed.

Lemma unique_attrs_error cols : forall attrs seen e, unique_attrs cols seen attrs = Err e -> e = ValueError.
Proof.
  induction attrs as [|a attrs IH]; intros seen e; cbn [unique_attrs]; [discriminate|].
  destruct (lmem a all_reserved); [congruence|]. destruct (lmem a cols); [congruence|]. destruct (lmem a seen); [congruence|]. apply IH.
Qed.

Lemma NoDup_app_iff {A} (a b : list A) : NoDup (a ++ b) <-> NoDup a /\ NoDup b /\ forall x, In x a -> ~ In x b.
Proof.
  induction a as [|x a IH]; cbn [app].
  - split; [intro H; split; [constructor|split; [exact H|intros x []]]|intros (_ & H & _); exact H].
  - rewrite !NoDup_cons_iff, in_app_iff, IH. cbn [In]. split.
    + intros (N & Na & Nb & D). repeat split; auto. intros y [<-|Hy] Hb; [auto|exact (D y Hy Hb)].
    + intros ((N & Na) & Nb & D). split; [intros [H|H]; [auto|exact (D x (or_introl eq_refl) H)]|].
      split; [exact Na|]. split; [exact Nb|]. intros y Hy. apply D. now right.
Qed.

Lemma add_attribute_spec ops attrs new : let s := crun c_new ops in
  let out := add_attribute attrs s in
  unknown_of (registered s) attrs new ->
  (NoDup new /\ (forall x, In x new -> ~ reserved_name x /\ ~ In x (c_columns s)) ->
   snd out = Exit 0 /\ registered (fst out) = registered s ++ new /\ c_columns (fst out) = c_columns s /\
   c_defs (fst out) = c_defs s /\ c_structs (fst out) = c_structs s /\ c_display (fst out) = c_display s) /\
  (~ (NoDup new /\ (forall x, In x new -> ~ reserved_name x /\ ~ In x (c_columns s))) -> out = (s, Exit 1)).
Proof.
  intros s out U. pose proof (unknown_filter _ _ _ U) as F. pose proof (unknown_not_known _ _ _ U) as D.
  assert (I : names_ok (c_columns s) (registered s)) by apply crun_names.
  assert (W : (NoDup new /\ (forall x, In x new -> ~ reserved_name x /\ ~ In x (c_columns s))) <->
              ccall s (CRegister (registered s ++ new)) = Ok (with_attrs (registered s ++ new) s)).
  { cbn [ccall]. rewrite set_registered_spec, NoDup_app_iff. destruct I as [_ I1 I2 _ I3]. split.
    - intros (N & H). split; [reflexivity|]. split.
      + intros x Hx. apply in_app_iff in Hx as [Hx|Hx]; [|auto]. split; [auto|]. intro Hc. exact (I2 x Hc Hx).
      + split; [exact I1|]. split; [exact N|]. intros x Hx Hn. exact (D x Hn Hx).
    - intros (_ & H & _ & N & _). split; [exact N|]. intros x Hx. apply H. apply in_app_iff. now right. }
  clearbody s. unfold out, add_attribute. cbv zeta. rewrite F. destruct new as [|a new].
  - split.
    + intros _. unfold after. cbn [fst snd main]. rewrite app_nil_r. auto 10.
    + intro H. exfalso. apply H. split; [constructor|intros x []].
  - split.
    + intro H. apply (proj1 W) in H. rewrite H. unfold after. cbn [reword fst snd main]. repeat split; reflexivity.
    + intro H. destruct (ccall s (CRegister (registered s ++ a :: new))) as [s'|e] eqn:E.
      * exfalso. apply H, W. cbn [ccall] in E. apply set_registered_spec in E as (-> & _). reflexivity.
      * assert (e = ValueError) as ->.
        { cbn [ccall] in E. unfold set_registered in E. destruct (unique_attrs _ _ _) as [l|e'] eqn:Eu; cbn [bind] in E; [discriminate|].
          apply unique_attrs_error in Eu. congruence. }
        reflexivity.
Qed.

(** ** Partitions *)

Lemma ds_add_error d p e : ds_add_partition_definition d p = Err e -> e = ValueError \/ e = RuntimeError.
Proof.
  unfold ds_add_partition_definition. destruct (_ =? _)%nat; [intro H; right; congruence|].
  destruct (negb _); [intro H; left; congruence|]. destruct (lset_in _ _); [intro H; right; congruence|].
  destruct (negb _); [intro H; right; congruence|discriminate].
Qed.

Lemma cadd_def_effect s d s' : c_good s -> c_columns s <> [] -> ccall s (CAddDef d) = Ok s' ->
  (forall u, union_of (get_all_defs (pview s')) u <-> union_of (d :: get_all_defs (pview s)) u) /\
  c_columns s' = c_columns s /\ registered s' = registered s /\ c_display s' = c_display s.
Proof.
  intros G Hc H. pose proof G as [_ [(B & _)|[Gp _]]]; [contradiction|].
  cbn [ccall] in H. destruct (ds_add_partition_definition d (pview s)) as [p|] eqn:E; [|discriminate]. cbn [bind] in H.
  pose proof (ds_add_one_cols _ _ _ E) as Cp. cbn [pview p_columns] in Cp.
  pose proof (rebuild_check_of _ _ _ Cp H) as Ck. destruct (rebuild_ok _ _ H) as (H1 & H2 & H3 & H4). cbn [with_defs c_columns c_defs c_attrs c_display] in *.
  split; [|split; [exact H1|split; [unfold registered; now rewrite H3|exact H4]]].
  assert (Ep : get_all_defs (pview s') = get_all_defs p). { unfold get_all_defs, pview. cbn [p_defs]. rewrite H2. reflexivity. }
  rewrite Ep. apply (pcall_effect (pview s) (PAddOne d) p Gp). cbn [pcall]. rewrite E. cbn [bind]. exact Ck.
Qed.

Lemma add_partition_spec s labels : c_good s ->
  let out := add_partition labels s in
  (c_columns s <> [] /\ incl labels (c_columns s) /\ ~ union_of (get_all_defs (pview s)) labels ->
   snd out = Exit 0 /\
   (forall u, union_of (get_all_defs (pview (fst out))) u <-> union_of (labels :: get_all_defs (pview s)) u) /\
   c_columns (fst out) = c_columns s /\ registered (fst out) = registered s /\ c_display (fst out) = c_display s) /\
  (~ (c_columns s <> [] /\ incl labels (c_columns s) /\ ~ union_of (get_all_defs (pview s)) labels) -> out = (s, Exit 1)).
Proof.
  intros G out. unfold out, add_partition. split.
  - intros (Hc & Hi & Hu). destruct (proj2 (add_def_iff s labels G Hc) (conj Hi Hu)) as (s' & E). rewrite E. unfold after. cbn [reword fst snd main].
    split; [reflexivity|]. exact (cadd_def_effect s labels s' G Hc E).
  - intro H. destruct (ccall s (CAddDef labels)) as [s'|e] eqn:E.
    + exfalso. apply H. destruct (c_columns s) as [|c cs] eqn:Ec.
      * cbn [ccall] in E. unfold ds_add_partition_definition in E. cbn [pview p_columns] in E. rewrite Ec in E. cbn in E. discriminate.
      * assert (Hc : c_columns s <> []) by (rewrite Ec; discriminate). split; [discriminate|]. rewrite <- Ec.
        apply (proj1 (add_def_iff s labels G Hc)). eauto.
    + assert (e = ValueError \/ e = RuntimeError) as [-> | ->]; [|reflexivity|reflexivity].
      cbn [ccall] in E. destruct (ds_add_partition_definition labels (pview s)) as [p|e'] eqn:Ea; cbn [bind] in E.
      * destruct (c_columns s) as [|c cs] eqn:Ec.
        { unfold ds_add_partition_definition in Ea. cbn [pview p_columns] in Ea. rewrite Ec in Ea. cbn in Ea. discriminate. }
        assert (Hc : c_columns s <> []) by (rewrite Ec; discriminate).
        assert (Gp : p_good (pview s)). { destruct G as [_ [(B & _)|[Gp _]]]; [congruence|exact Gp]. }
        assert (Eg : pcall (pview s) (PAddOne labels) = Ok p \/ exists x, pcall (pview s) (PAddOne labels) = Err x).
        { destruct (pcall (pview s) (PAddOne labels)) as [p'|x] eqn:Ep; [left|right; eauto].
          cbn [pcall] in Ep. rewrite Ea in Ep. cbn [bind] in Ep. apply rebuild_check_ok in Ep. now rewrite Ep. }
        destruct Eg as [Eg|(x & Eg)].
        -- pose proof (proj1 (calls_agree s G Hc) labels) as A. destruct (proj2 A (ex_intro _ p Eg)) as (s' & Es).
           cbn [ccall] in Es. rewrite Ea in Es. cbn [bind] in Es. congruence.
        -- cbn [pcall] in Eg. rewrite Ea in Eg. cbn [bind] in Eg.
           right. unfold rebuild in E. unfold ds_rebuild_check in Eg. pose proof (ds_add_one_cols _ _ _ Ea) as Cp. cbn [pview p_columns] in Cp.
           exfalso. assert (Ep : get_all_defs p = find_minimal [[labels]; get_all_defs (pview s); [p_columns (pview s)]]).
           { unfold ds_add_partition_definition in Ea. rewrite (cols_nonempty_test _ (pg_cols _ Gp)) in Ea.
             destruct (negb (lsubset _ _)); [discriminate|]. destruct (lset_in _ _); [discriminate|]. destruct (negb _); [discriminate|].
             injection Ea as <-. reflexivity. }
           assert (Hn : get_all_defs p <> []).
           { rewrite Ep. intro Hz. assert (Hw : union_of (concat [[labels]; get_all_defs (pview s); [p_columns (pview s)]]) (p_columns (pview s))).
             { apply union_of_self. rewrite concat3. apply in_or_app. right. apply in_or_app. right. left. reflexivity. }
             apply (proj2 (find_minimal_generates _ _)) in Hw. rewrite Hz in Hw. destruct Hw as (sub & Hsub & Hs).
             assert (sub = []) as -> by (destruct sub; [reflexivity|destruct (Hsub l (or_introl eq_refl))]).
             cbn [pview p_columns] in Hs. rewrite Ec in Hs. destruct (proj1 (Hs c) (or_introl eq_refl)) as (x0 & [] & _). }
           destruct (get_all_defs p) as [|d0 ds0]; [contradiction|]. destruct (p_columns p); discriminate Eg.
      * injection E as <-. exact (ds_add_error _ _ _ Ea).
Qed.

(** ** Labels *)

Lemma add_label_spec s labels used : c_good s ->
  let out := add_label labels used s in
  (labels <> [] /\ may_be_added (c_columns s) (registered s) labels ->
   snd out = Exit 0 /\ c_columns (fst out) = c_columns s ++ labels /\ registered (fst out) = registered s) /\
  (~ (labels <> [] /\ may_be_added (c_columns s) (registered s) labels) -> fst out = s /\ snd out <> Exit 0).
Proof.
  intros G out. unfold out, add_label. destruct labels as [|c cs].
  - split; [intros ([] & _); reflexivity|]. intros _. split; [reflexivity|discriminate].
  - pose proof (add_iff s c cs used G) as A. destruct (ccall s (CAdd c cs used)) as [s'|e] eqn:E.
    + destruct (add_effect s c cs used s' G E) as (E1 & E2 & _). unfold after. cbn [fst snd main]. split.
      * intros _. auto.
      * intro H. exfalso. apply H. split; [discriminate|]. apply A. eauto.
    + unfold after. cbn [fst snd]. split.
      * intros (_ & H). apply A in H as (s' & H). discriminate.
      * intros _. split; [reflexivity|]. destruct e; discriminate.
Qed.

Lemma rename_label_spec s old new : c_good s ->
  let out := rename_label old new s in
  let allowed := In old (c_columns s) /\ ~ reserved_name new /\ ~ In new (c_columns s) /\ ~ In new (registered s) /\ ~ contains_nul new /\
    (forall x, In x (table_columns ++ c_columns s) -> x <> old -> ~ same_but_case x new) in
  (allowed -> snd out = Exit 0 /\ renamed old new (c_columns s) (c_columns (fst out)) /\
     Forall2 (renamed old new) (get_all_defs (pview s)) (get_all_defs (pview (fst out))) /\ registered (fst out) = registered s) /\
  (~ allowed -> fst out = s /\ snd out <> Exit 0).
Proof.
  intros G out allowed. unfold out, rename_label. pose proof (rename_label_iff s old new G) as A.
  fold allowed in A. destruct (ccall s (CRenameLabel old new)) as [s'|e] eqn:E.
  - destruct (rename_label_effect s old new s' G E) as (E1 & E2 & _ & E4). unfold after. cbn [fst snd main]. split; [auto|].
    intro H. exfalso. apply H, A. eauto.
  - unfold after. cbn [fst snd]. split.
    + intro H. apply A in H as (s' & H). discriminate.
    + intros _. split; [reflexivity|]. destruct e; discriminate.
Qed.

Lemma offset_cases left right : (left = 0%N \/ right = 0%N) -> (left <> 0%N \/ right <> 0%N) ->
  offset_of left right = Ok (Z.of_N right - Z.of_N left)%Z.
Proof.
  unfold offset_of. intros A B. destruct (N.eqb_spec left 0) as [->|L], (N.eqb_spec right 0) as [->|R]; cbn [negb andb].
  - destruct B; contradiction.
  - f_equal. rewrite Z.sub_0_r. reflexivity.
  - f_equal.
  - destruct A; contradiction.
Qed.

Lemma update_label_spec ops label left right : Forall keeps_names ops -> let s := crun c_new ops in
  let out := update_label label left right s in
  (left = 0%N \/ right = 0%N) -> (left <> 0%N \/ right <> 0%N) ->
  (In label (c_columns s) -> snd out = Exit 0 /\
     moved (display_order s) label (Z.of_N right - Z.of_N left) (display_order (fst out)) /\
     c_columns (fst out) = c_columns s /\ c_defs (fst out) = c_defs s /\ c_structs (fst out) = c_structs s /\ c_attrs (fst out) = c_attrs s) /\
  (~ In label (c_columns s) -> out = (s, Exit 1)).
Proof.
  intros F s out A B. destruct (crun_disp ops c_new F c_inv_new c_disp_new) as [D I].
  unfold out, update_label. rewrite (offset_cases _ _ A B). cbn [bind].
  destruct (move_label _ label (Z.of_N right - Z.of_N left) I D) as [M1 M2]. fold s in M1, M2. split.
  - intro H. destruct (M1 H) as (s' & E & M). rewrite E. unfold after. cbn [fst snd main]. auto.
  - intro H. rewrite (M2 H). reflexivity.
Qed.
Lemma update_attribute_spec ops attr left right : let s := crun c_new ops in
  let out := update_attribute attr left right s in
  (left = 0%N \/ right = 0%N) -> (left <> 0%N \/ right <> 0%N) ->
  (In attr (registered s) -> snd out = Exit 0 /\
     moved (registered s) attr (Z.of_N right - Z.of_N left) (registered (fst out)) /\
     c_columns (fst out) = c_columns s /\ c_defs (fst out) = c_defs s /\ c_structs (fst out) = c_structs s /\ c_display (fst out) = c_display s) /\
  (~ In attr (registered s) -> out = (s, Exit 1)).
Proof.
  intros s out A B. unfold out, update_attribute. rewrite (offset_cases _ _ A B). cbn [bind].
  destruct (move_attribute _ attr (Z.of_N right - Z.of_N left) (crun_inv ops c_new c_inv_new)) as [M1 M2]. fold s in M1, M2. split.
  - intro H. destruct (M1 H) as (s' & E & M). rewrite E. unfold after. cbn [fst snd main]. auto.
  - intro H. rewrite (M2 H). reflexivity.
Qed.
