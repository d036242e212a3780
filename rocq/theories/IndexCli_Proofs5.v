(** Loading an exported table into another space: rows and the whole table. *)
From Coq Require Import NArith Permutation.
From Verif Require Import Prelude Selectors_Model Selectors_Proofs Reader_Model LinkRef_Model LinkRef_Proofs IndexCode_Model IndexCode_Spec
  Db_Model Db_Spec Db_Proofs Db_ProofsLocal Db_ProofsRun Db_ProofsOps Db_ProofsOps2 Db_ProofsOps3
  Streams_Model Streams_Spec Streams_Proofs IndexCli_Model IndexCli_Spec IndexCli_Proofs IndexCli_Proofs2 IndexCli_Proofs3 IndexCli_Proofs4.
Local Open Scope nat_scope.
Local Notation group := Db_Model.group.

Section Rows.
Context (show : Q -> text) (read_float : text -> option Q) (s t : db).
Context (Hf : faithful show read_float) (W : index_wf s) (Ww : weights_wf s) (Hl : d_labels s <> []) (El : d_labels s = d_labels t).
Notation G := (sorted_groups s).

(** What one record says about one group. *)
Definition says (l : list group) (r : ixrec) (n : text) (k : list text) (q : Q) : Prop :=
  k = ix_labels r /\ exists g w, In g l /\ g_name g = n /\ has_group t n /\ weight_find (g_id g) (ix_id r) s = Some w /\ w_value w = q.

Lemma load_label lpol pol b st r : keeps t (b + 1) (is_db st) -> In r (d_index s) -> (0 <= b)%Z ->
  exists st1 x, label_part lpol None (ix_labels r) st = Ok (st1, ix_id x) /\ In x (d_index (is_db st1)) /\ ix_labels x = ix_labels r /\
    keeps t b (is_db st1) /\ outcome t pol b (fun _ _ _ => False) [ix_labels r] st (Ok st1).
Proof.
  intros K Hr Hb. pose proof K as [Wi Wt At (Eg & Edl & Em & Ef & Es) In0 Sq]. destruct st as [d lb wt]. cbn [is_db] in *.
  assert (Kb : keeps t b d) by (constructor; auto; lia).
  cbn [label_part is_db]. pose proof (iw_arity _ W r Hr) as Ar.
  destruct (labels_clash (ix_labels r) (d_index d)) eqn:Ec.
  - apply existsb_exists in Ec. destruct Ec as (x & Hx & Ex). apply labels_eqb_iff in Ex. rewrite <- Ex.
    rewrite add_clash by (auto; congruence). rewrite by_labels_at by auto.
    exists {| is_db := d; is_label := lb; is_weight := wt |}, x. split; auto. split; auto. split; auto. split; auto.
    left. eexists. split; [reflexivity|]. cbn [is_db]. split; auto. split; [apply incl_refl|]. split.
    { intros l. cbn [In]. split; [auto|]. intros [A|[<-|[]]]; auto. exists x. auto. }
    split; [|intros _ (n & l & y & z & [] & _)]. intros n l q. unfold merged. destruct pol; tauto || (split; [right; split; auto|tauto]).
  - destruct (index_add (ix_labels r) d) as [[d' i]|e] eqn:Ea.
    + destruct (index_wf_add _ _ _ _ Wi Ea) as [Wi' _]. unfold index_add in Ea. destruct (ix_labels r) as [|t0 tl] eqn:Er; [discriminate|].
      repeat step_res Ea. subst d' i.
      set (i := (Z.max (d_seq d) (zmax (map ix_id (d_index d))) + 1)%Z) in *.
      assert (Zi : i = (d_seq d + 1)%Z).
      { unfold i. f_equal. apply Z.max_l. assert (Z0 : forall l, (forall y, In y l -> (y <= d_seq d)%Z) -> (0 <= d_seq d)%Z -> (zmax l <= d_seq d)%Z).
        { clear. induction l as [|y l IH]; intros H H0; cbn; [lia|]. pose proof (H y (or_introl eq_refl)). specialize (IH (fun z Hz => H z (or_intror Hz)) H0). unfold zmax in IH. lia. }
        apply Z0; [|pose proof (iw_range _ Wi _ (iw_undefined _ Wi)); lia]. intros y Hy. apply in_map_iff in Hy. destruct Hy as (z & <- & Hz). pose proof (iw_range _ Wi z Hz). lia. }
      set (x := {| ix_id := i; ix_labels := t0 :: tl |}).
      set (d' := set_index_seq (d_index d ++ [x]) i d) in *.
      exists {| is_db := d'; is_label := true; is_weight := wt |}, x. split; [reflexivity|]. cbn [is_db].
      assert (Hin : forall y, In y (d_index d') <-> In y (d_index d) \/ y = x).
      { intros y. unfold d'. cbn [set_index_seq d_index]. rewrite in_app_iff. cbn [In]. intuition auto. }
      split; [apply Hin; now right|]. split; [reflexivity|].
      assert (K' : keeps t b d').
      { constructor; auto.
        - eapply weights_wf_ext; [..|exact Wt]; reflexivity.
        - intros w Hw. destruct (At w Hw) as (y & Hy & Ey). exists y. split; auto. apply Hin. now left.
        - intros y Hy. apply Hin. left. now apply In0.
        - unfold d'. cbn [set_index_seq d_seq]. lia. }
      split; [exact K'|]. left. eexists. split; [reflexivity|]. cbn [is_db]. split; auto. split; [intros y Hy; apply Hin; now left|]. split.
      { intros l. cbn [In]. split.
        - intros (y & Hy & Ey). apply Hin in Hy. destruct Hy as [Hy| ->]; [left; exists y; auto|right; left; auto].
        - intros [(y & Hy & Ey)|[<-|[]]]; [exists y|exists x]; (split; [apply Hin; auto|auto]). }
      assert (Hw : forall n l q, weighs d' n l q <-> weighs d n l q).
      { intros n l q. split; intros (g1 & x1 & w1 & H1 & H2 & H3 & H4 & H5 & H6 & H7 & H8).
        - apply Hin in H3. destruct H3 as [H3| ->]; [exists g1, x1, w1; auto 10|]. exfalso. destruct (At w1 H5) as (y & Hy & Ey).
          pose proof (iw_range _ Wi y Hy). cbn [x ix_id] in H7. lia.
        - exists g1, x1, w1. assert (In x1 (d_index d')) by (apply Hin; auto). auto 10. }
      split; [|intros _ (n & l & y & z & [] & _)]. intros n l q. rewrite Hw. unfold merged. destruct pol; tauto || (split; [right; split; auto|tauto]).
    + exfalso. unfold index_add in Ea. destruct (ix_labels r) as [|t0 tl] eqn:Er; [destruct (d_labels s); [congruence|discriminate]|].
      rewrite Edl, <- El, Ar, Nat.eqb_refl in Ea. cbn [negb] in Ea.
      destruct (existsb is_empty (t0 :: tl)) eqn:Ee.
      { apply existsb_exists in Ee. destruct Ee as (y & Hy & Ey). rewrite <- Er in Hy. pose proof (iw_filled _ W r y Hr Hy). destruct y; [congruence|discriminate]. }
      rewrite Ec in Ea. destruct (max_id <=? Z.max (d_seq d) (zmax (map ix_id (d_index d))))%Z eqn:Em'; [|discriminate].
      assert (Z0 : forall l, (forall y, In y l -> (y <= d_seq d)%Z) -> (0 <= d_seq d)%Z -> (zmax l <= d_seq d)%Z).
      { clear. induction l as [|y l IH]; intros H H0; cbn; [lia|]. pose proof (H y (or_introl eq_refl)). specialize (IH (fun z Hz => H z (or_intror Hz)) H0). unfold zmax in IH. lia. }
      assert (zmax (map ix_id (d_index d)) <= d_seq d)%Z.
      { apply Z0; [|pose proof (iw_range _ Wi _ (iw_undefined _ Wi)); lia]. intros y Hy. apply in_map_iff in Hy. destruct Hy as (z & <- & Hz). pose proof (iw_range _ Wi z Hz). lia. }
      lia.
Qed.
Lemma not_undefined b d x r : keeps t b d -> In x (d_index d) -> In r (d_index s) -> ix_labels x = ix_labels r -> ix_id r <> 0%Z -> ix_id x <> 0%Z.
Proof.
  intros [Wi _ _ (_ & Edl & _) _ _] Hx Hr E H X. apply H.
  assert (x = undefined_record d) by (apply (nodup_map_inj ix_id (d_index d)); [apply (iw_unique _ Wi)|auto|apply (iw_undefined _ Wi)|exact X]).
  assert (r = undefined_record s); [|now subst].
  apply (iw_labels _ W); auto; [apply (iw_undefined _ W)|]. rewrite <- E. subst x. cbn [undefined_record ix_labels]. now rewrite Edl, <- El.
Qed.

Lemma load_item pol b st x r g : keeps t b (is_db st) -> In x (d_index (is_db st)) -> ix_labels x = ix_labels r -> ix_id x <> 0%Z -> ix_id r <> 0%Z ->
  outcome t pol b (says [g] r) [] st (insert_index_weight pol (ix_id x) st (weight_item read_float (d_groups t) (weight_text show s (ix_id r)) g)).
Proof.
  intros K Hx Ex Hi Hi'. unfold weight_item. rewrite named_group_of. cbn [name_of code_text].
  destruct (group_of (d_groups t) (g_name g)) as [g'|] eqn:E.
  - unfold group_of in E. apply find_some in E. destruct E as [Hg' E]. apply text_eqb_iff in E. unfold weight_text.
    destruct (weight_find (g_id g) (ix_id r) s) as [w|] eqn:Ew.
    + rewrite (read_shown show read_float Hf). assert (Hv : (0 <= w_value w)%Q).
      { unfold weight_find in Ew. apply find_some in Ew. apply (ww_nonneg _ Ww), Ew. }
      eapply outcome_ext; [| |exact (weight_step t pol b st x g' (w_value w) K Hx Hi Hg' Hv)]; [|tauto].
      intros n l q. unfold says. rewrite Ex, E. split.
      * intros (-> & -> & ->). split; auto. exists g, w. repeat split; auto; [now left|]. exists g'. auto.
      * intros (-> & g1 & w1 & [<-|[]] & <- & _ & E1 & <-). rewrite Ew in E1. injection E1 as <-. auto.
    + replace (ix_id r =? 0)%Z with false by lia. cbn [weight_cell insert_index_weight].
      apply outcome_same; auto. intros n l q (_ & g1 & w1 & [<-|[]] & _ & _ & E1 & _). congruence.
  - cbn [insert_index_weight]. apply outcome_same; auto. intros n l q (_ & g1 & w1 & [<-|[]] & <- & (g2 & Hg2 & E2) & _).
    unfold group_of in E. eapply find_none in E; [|exact Hg2]. rewrite E2, text_eqb_refl in E. discriminate.
Qed.
Lemma load_items pol b x r : ix_labels x = ix_labels r -> ix_id x <> 0%Z -> ix_id r <> 0%Z ->
  forall l, NoDup (map g_name l) -> forall st, keeps t b (is_db st) -> In x (d_index (is_db st)) ->
  outcome t pol b (says l r) [] st
    (fold_res (fun st g => insert_index_weight pol (ix_id x) st (weight_item read_float (d_groups t) (weight_text show s (ix_id r)) g)) l st).
Proof.
  intros Ex Hi Hi'. induction l as [|g l IH]; intros Nd st K Hx; cbn [fold_res].
  - apply outcome_same; auto. intros n k q (_ & g1 & w1 & [] & _).
  - inversion Nd; subst.
    eapply outcome_ext; [| |apply (outcome_bind t pol b b (says [g] r) (says l r) [] [])]; [| |exact (load_item pol b st x r g K Hx Ex Hi Hi')| |].
    + intros n k q. unfold says. split.
      * intros [(-> & g1 & w1 & [<-|[]] & H)|(-> & g1 & w1 & H0 & H)]; (split; [auto|]).
        -- exists g, w1. split; [now left|auto].
        -- exists g1, w1. split; [now right|auto].
      * intros (-> & g1 & w1 & [<-|H0] & H); [left|right]; (split; [auto|]); [exists g, w1|exists g1, w1]; (split; [|auto]); [now left|auto].
    + tauto.
    + intros n k q q' (_ & g1 & w1 & [<-|[]] & <- & _) (_ & g2 & w2 & Hg2 & E2 & _). apply H1. rewrite <- E2. now apply in_map.
    + intros st' _ K' I'. apply IH; auto.
Qed.

Lemma load_row lpol pol b st r : keeps t (b + 1) (is_db st) -> In r (d_index s) -> (0 <= b)%Z -> ix_id r <> 0%Z \/ G = [] ->
  outcome t pol b (says G r) [ix_labels r] st
    (apply_row read_float lpol pol (d_groups t) G None (ix_labels r) (weight_text show s (ix_id r)) st).
Proof.
  intros K Hr Hb Hz. destruct (load_label lpol pol b st r K Hr Hb) as (st1 & x & E & Hx & Ex & K1 & O1). unfold apply_row. rewrite E. cbn [bind fst snd].
  match goal with |- outcome _ _ _ _ _ _ ?F => change (outcome t pol b (says G r) [ix_labels r] st F); replace F with (do s1 <- Ok st1; F) by reflexivity end.
  eapply outcome_ext; [| |apply (outcome_bind t pol b b (fun _ _ _ => False) (says G r) [ix_labels r] [] st (Ok st1) _ O1)].
  - tauto.
  - intros l. rewrite app_nil_r. tauto.
  - intros n k q q' [].
  - intros st' [= <-] _ _. destruct Hz as [Hz|Hz].
    + apply load_items; auto.
      * eapply not_undefined; eauto.
      * eapply Permutation_NoDup; [apply Permutation_map; symmetry; apply sorted_groups_perm|apply (ww_groups _ Ww)].
    + rewrite Hz. cbn [fold_res]. apply outcome_same; auto. intros n k q (_ & g1 & w1 & [] & _).
Qed.

Definition all_say (R : list ixrec) (n : text) (k : list text) (q : Q) : Prop := exists r, In r R /\ says G r n k q.
Lemma load_rows lpol pol b : (0 <= b)%Z -> forall R, NoDup (map ix_labels R) -> incl R (d_index s) -> (forall r, In r R -> ix_id r <> 0%Z \/ G = []) ->
  forall st, keeps t (b + Z.of_nat (length R)) (is_db st) ->
  outcome t pol b (all_say R) (map ix_labels R) st
    (fold_res (fun st r => apply_row read_float lpol pol (d_groups t) G None (ix_labels r) (weight_text show s (ix_id r)) st) R st).
Proof.
  intros Hb. induction R as [|r R IH]; intros Nd Hi Hz st K; cbn [fold_res].
  - cbn [length] in K. rewrite Z.add_0_r in K. apply outcome_same; auto. intros n k q (r & [] & _).
  - inversion Nd; subst. cbn [length map] in *. rewrite Nat2Z.inj_succ in K.
    eapply outcome_ext; [| |apply (outcome_bind t pol b (b + Z.of_nat (length R)) (says G r) (all_say R) [ix_labels r] (map ix_labels R)); [apply load_row| |]].
    + intros n k q. unfold all_say. split.
      * intros [H|(r' & Hr & H)]; [exists r|exists r']; cbn [In]; auto.
      * intros (r' & [<-|Hr] & H); [now left|right; exists r'; auto].
    + intros l. reflexivity.
    + replace (b + Z.of_nat (length R) + 1)%Z with (b + Z.succ (Z.of_nat (length R)))%Z by lia. exact K.
    + apply Hi. now left.
    + lia.
    + apply Hz. now left.
    + intros n k q q' (-> & _) (r' & Hr & (E & _)). apply H1. rewrite E. now apply in_map.
    + intros st' _ K' _. apply IH; auto.
      * intros y Hy. apply Hi. now right.
      * intros y Hy. apply Hz. now right.
Qed.
End Rows.

(** *** The whole table *)
Lemma exported_all todecimal show nd s h rows : write_index show (n_id_bytes nd) h s = Ok rows ->
  hd [] rows = index_header h s /\ tl rows = map (own_cells show s (fun r => CText (the_code nd (ix_id r)))) (d_index s) /\
  forall r, In r (d_index s) -> index_code_to_id todecimal (the_code nd (ix_id r)) (n_id_bytes nd) = Ok (ix_id r).
Proof.
  unfold write_index. destruct (traverse (index_row show (n_id_bytes nd) s) (d_index s)) as [l|e] eqn:E; cbn [bind]; [|discriminate]. intros [= <-]. cbn [hd tl].
  split; auto. apply traverse_ok in E. induction E as [|r row R rows' Hr F IH]; [split; [auto|intros r []]|].
  destruct (row_is show nd s r row Hr) as [Ec ->]. destruct IH as [-> IH]. split; [reflexivity|].
  intros x [<-|Hx]; auto. eapply code_decodes; eauto.
Qed.

Lemma finish_facts st : let t' := finish st in d_index t' = d_index (is_db st) /\ d_weights t' = d_weights (is_db st) /\ d_maps t' = d_maps (is_db st) /\
  d_labels t' = d_labels (is_db st) /\ d_structs t' = d_structs (is_db st) /\ d_fk t' = d_fk (is_db st) /\
  map (fun g => (g_id g, g_name g)) (d_groups t') = map (fun g => (g_id g, g_name g)) (d_groups (is_db st)).
Proof.
  cbv zeta. unfold finish. destruct (is_label st), (is_weight st); cbn; repeat split; rewrite ?map_map; auto.
Qed.
Lemma groups_like (l m : list group) : map (fun g => (g_id g, g_name g)) l = map (fun g => (g_id g, g_name g)) m ->
  forall g, In g l -> exists g', In g' m /\ g_id g' = g_id g /\ g_name g' = g_name g.
Proof.
  intros E g Hg. assert (In (g_id g, g_name g) (map (fun g => (g_id g, g_name g)) m)) as H by (rewrite <- E; now apply (in_map (fun g => (g_id g, g_name g)))).
  apply in_map_iff in H. destruct H as (g' & [= A B] & H). eauto.
Qed.
Lemma weighs_like a b : d_index a = d_index b -> d_weights a = d_weights b ->
  map (fun g => (g_id g, g_name g)) (d_groups a) = map (fun g => (g_id g, g_name g)) (d_groups b) -> forall n l q, weighs a n l q -> weighs b n l q.
Proof.
  intros E1 E2 E3 n l q (g & x & w & H1 & H2 & H3 & H4 & H5 & H6 & H7 & H8). destruct (groups_like _ _ E3 g H1) as (g' & A & B & C).
  exists g', x, w. rewrite <- E1, <- E2, B, C. auto 10.
Qed.

Section Other.
Context (todecimal : N -> option N) (show : Q -> text) (read_float : text -> option Q) (nd nt : node).

Theorem other_import s t h rows row0 rows' lpol wpol :
  inv s -> inv t -> (d_fk t = true -> inv_fk t) -> weights_attached t -> d_labels s <> [] -> d_labels t = d_labels s ->
  faithful show read_float -> NoDup (index_header h s) -> ~ In (CText (txt "index_id")) (index_header h s) ->
  (forall n, has_group t n -> n <> code_header h /\ ~ In n (d_labels t)) ->
  write_index show (n_id_bytes nd) h s = Ok rows ->
  undefined_row todecimal (n_id_bytes nd) row0 -> Permutation (row0 :: rows') (tl rows) ->
  foreign todecimal (n_id_bytes nt) (index_header h s :: rows') -> (d_seq t + Z.of_nat (length rows') <= max_id)%Z ->
  let new := fun n l v => weighs s n l v /\ has_group t n in
  let result := import_index todecimal read_float nt lpol wpol (reader_of (index_header h s :: rows')) t in
  (strict wpol -> conflict new (weighs t) -> result = (t, Ok ExitErr)) /\
  (~ (strict wpol /\ conflict new (weighs t)) -> exists t', result = (t', Ok ExitOk) /\ combined wpol s t t').
Proof.
  intros Is It Ft At Hl El Hf Nd Hno Hg Hw H0 Hp Hfo Hsq new result.
  destruct (exported_all todecimal show nd s h rows Hw) as (_ & Etl & Hdec). rewrite Etl in Hp.
  apply Permutation_map_inv in Hp. destruct Hp as (l & El' & Pl). destruct l as [|r0 R]; [discriminate|]. cbn [map] in El'. injection El' as E0 ER.
  pose proof (i_index _ Is) as W. pose proof (i_weights _ Is) as Ww. pose proof (i_index _ It) as Wt.
  assert (Hin : forall r, In r (d_index s) <-> r = r0 \/ In r R).
  { intros r. split; intros H; [apply (Permutation_in _ Pl) in H; destruct H; auto|apply (Permutation_in _ (Permutation_sym Pl)); destruct H; [now left|now right]]. }
  assert (Z0 : ix_id r0 = 0%Z).
  { destruct H0 as (code & rest & Ec & Hd). rewrite Ec in E0. unfold own_cells, the_cells in E0. injection E0 as -> _.
    rewrite (Hdec r0) in Hd by (apply Hin; auto). congruence. }
  assert (Nr : NoDup (map ix_id (r0 :: R))) by (eapply Permutation_NoDup; [apply Permutation_map, Pl|apply (iw_unique _ W)]).
  assert (Hi : incl R (d_index s)) by (intros r Hr; apply Hin; auto).
  assert (Nl : NoDup (map ix_labels R)).
  { cbn [map] in Nr. inversion Nr; subst. clear - H3 Hi W. induction R as [|r R IH]; cbn [map] in *; constructor; inversion H3; subst.
    - intros H. apply in_map_iff in H. destruct H as (r' & E & Hr'). apply H1. rewrite <- (iw_labels _ W r' r); auto; [now apply in_map| |]; apply Hi; [now right|now left].
    - apply IH; auto. intros x Hx. apply Hi. now right. }
  assert (HR : forall r, In r R -> ix_id r <> 0%Z).
  { intros r Hr E. cbn [map] in Nr. inversion Nr; subst. apply H2. rewrite Z0, <- E. now apply in_map. }
  assert (Et : insert_index_table todecimal read_float lpol wpol (reader_of (index_header h s :: rows')) t =
     do st <- fold_res (fun st r => apply_row read_float lpol wpol (d_groups t) (sorted_groups s) None (ix_labels r) (weight_text show s (ix_id r)) st) R (start t); Ok (finish st)).
  { rewrite ER. unfold own_cells. apply (table_fold todecimal read_float lpol wpol t (CText (code_header h)) (d_labels s) (sorted_groups s) R (fun r => CText (the_code nd (ix_id r))) (fun _ => None)); auto.
    - intros g Hgg. destruct (Hg (g_name g)) as [A B]; [exists g; auto|]. split; [exact A|now rewrite <- El].
    - intros r Hr. split; [now apply (iw_arity _ W), Hi|]. intros x Hx. apply (iw_filled _ W r); auto.
    - intros r _. apply (id_code todecimal s h), Hno. }
  assert (K0 : keeps t (0 + Z.of_nat (length R)) t).
  { constructor; auto; [apply (i_weights _ It)|apply incl_refl|]. rewrite ER, map_length in Hsq. lia. }
  pose proof (load_rows show read_float s t Hf W Ww Hl (eq_sym El) lpol wpol 0 (Z.le_refl 0) R Nl Hi (fun r Hr => or_introl (HR r Hr)) (start t) K0) as O.
  assert (Hnew : forall n l v, all_say s t R n l v <-> new n l v).
  { intros n l v. split.
    - intros (r & Hr & (-> & g & w & Hgg & <- & Ht & Ew & Ev)). split; auto. unfold weight_find in Ew. apply find_some in Ew. destruct Ew as [Hww Ew].
      apply weight_is_iff in Ew. exists g, r, w. apply sorted_groups_in in Hgg. destruct Ew. repeat split; auto.
    - intros [(g & r & w & Hgg & En & Hr & Ell & Hww & Wg & Wi & Wv) Ht]. exists r. split.
      + apply Hin in Hr. destruct Hr as [-> |Hr]; auto. pose proof (ww_defined _ Ww w Hww). lia.
      + split; auto. exists g, w. rewrite (weight_find_at (g_id g) (ix_id r) s w) by auto. repeat split; auto. now apply sorted_groups_in. }
  apply (outcome_ext t wpol 0 _ new _ (map ix_labels R)) in O; [|exact Hnew|tauto].
  unfold result, import_index. rewrite read_foreign by auto.
  destruct O as [(st & Ef & K & I & Lb & M & C)|(Ef & S & C)].
  - split; [intros Hs Hc; exfalso; exact (C Hs Hc)|]. intros _. exists (finish st).
    destruct (finish_facts st) as (F1 & F2 & F3 & F4 & F5 & F6 & F7). destruct K as [Kw Kww Ka (Kg & Kl & Km & Kf & Ks) Ki _].
    split.
    + unfold transact. rewrite Et, Ef. cbn [bind]. rewrite F6, Kf. destruct (d_fk t) eqn:Efk; cbn [andb]; [|reflexivity].
      replace (fk_ok (finish st)) with true; [reflexivity|]. symmetry. apply fk_ok_iff. destruct (Ft eq_refl) as [_ _ _ _ Fm _]. split.
      * intros w Hww. rewrite F2 in Hww. destruct (Ka w Hww) as (x & Hx & Ex). exists x. now rewrite F1.
      * intros m Hm. rewrite F3, Km in Hm. destruct (Fm m Hm) as (x & Hx & Ex). exists x. rewrite F1. auto.
    + constructor.
      * intros lb. unfold has_labels at 1. rewrite F1. fold (has_labels (is_db st) lb). rewrite (Lb lb). cbn [start is_db]. split.
        -- intros [A|A]; auto. right. apply in_map_iff in A. destruct A as (r & <- & Hr). exists r. auto.
        -- intros [A|(r & Hr & E)]; auto. apply Hin in Hr. destruct Hr as [-> |Hr]; [|right; rewrite <- E; now apply in_map].
           left. exists (undefined_record t). split; [apply (iw_undefined _ Wt)|].
           assert (r0 = undefined_record s) by (apply (nodup_map_inj ix_id (d_index s)); [apply (iw_unique _ W)|apply Hin; auto|apply (iw_undefined _ W)|exact Z0]).
           subst r0. rewrite <- E. cbn. now rewrite El.
      * intros n lb v. pose proof (M n lb v) as Mn. cbn [start is_db] in Mn. fold new. rewrite <- Mn. split; apply weighs_like; auto; congruence.
      * rewrite F1. exact Ki.
      * rewrite F7, Kg. reflexivity.
      * rewrite F3, F4, F5. auto.
  - split; [|intros Hc; exfalso; apply Hc; auto]. intros _ _. unfold transact. rewrite Et, Ef. reflexivity.
Qed.

(** The row of the undefined record spoils the load. *)
Lemma load_item_weak (lpol wpol : policy) s t i r : let P := fun st => index_wf (is_db st) /\ weights_wf (is_db st) /\ d_groups (is_db st) = d_groups t /\ d_labels (is_db st) = d_labels t in
  forall st2 g st3, P st2 -> insert_index_weight wpol i st2 (weight_item read_float (d_groups t) (weight_text show s (ix_id r)) g) = Ok st3 -> P st3.
Proof.
  intros P st2 g st3 (Q1 & Q2 & Q3 & Q4) H. destruct (weight_item read_float (d_groups t) (weight_text show s (ix_id r)) g) as [og c].
  unfold insert_index_weight in H. repeat step_res H; subst; unfold P; cbn [is_db]; auto.
  - match goal with H : weight_update _ _ _ _ = Ok _ |- _ => pose proof (index_wf_prim _ _ (p_weight_update _ _ _ _ _ H) Q1); pose proof (weights_wf_prim _ _ (p_weight_update _ _ _ _ _ H) Q2);
      unfold weight_update in H; repeat step_res H; subst end; auto.
  - match goal with H : weight_add _ _ _ _ = Ok _ |- _ => pose proof (index_wf_prim _ _ (p_weight_add _ _ _ _ _ H) Q1); pose proof (weights_wf_prim _ _ (p_weight_add _ _ _ _ _ H) Q2);
      unfold weight_add in H; repeat step_res H; subst end; auto.
Qed.
Lemma load_row_weak lpol wpol s t : let P := fun st => index_wf (is_db st) /\ weights_wf (is_db st) /\ d_groups (is_db st) = d_groups t /\ d_labels (is_db st) = d_labels t in
  forall st r st', P st -> apply_row read_float lpol wpol (d_groups t) (sorted_groups s) None (ix_labels r) (weight_text show s (ix_id r)) st = Ok st' -> P st'.
Proof.
  intros P st r st' (P1 & P2 & P3 & P4) H. unfold apply_row in H. step_res H. destruct a as [st1 i].
  assert (Hp : P st1).
  { unfold label_part in E. repeat step_res E; subst; try (split; auto; fail); unfold P; cbn [is_db].
    match goal with H : index_add _ _ = Ok _ |- _ => pose proof (index_wf_prim _ _ (p_index_add _ _ _ _ H) P1); pose proof (weights_wf_prim _ _ (p_index_add _ _ _ _ H) P2);
        unfold index_add in H; destruct (ix_labels r); [discriminate|]; repeat step_res H; subst end; auto. }
  cbn [fst snd] in H. revert H. apply (fold_res_inv P); auto. intros st2 g st3 _ Hq. now apply load_item_weak.
Qed.

Lemma fold_res_visits {A S} (P : S -> Prop) (f : S -> A -> res S) l : forall s s', P s -> (forall s a s', In a l -> P s -> f s a = Ok s' -> P s') ->
  fold_res f l s = Ok s' -> forall a, In a l -> exists s1 s2, P s1 /\ f s1 a = Ok s2.
Proof.
  induction l as [|b l IH]; intros s s' Hp Hs H a Ha; [destruct Ha|]. cbn [fold_res] in H. destruct (f s b) as [s1|e] eqn:E; cbn [bind] in H; [|discriminate].
  destruct Ha as [->|Ha]; [eauto|]. apply (IH s1 s'); auto; [apply (Hs s b); auto; now left|]. intros x y z Hy. apply Hs. now right.
Qed.
Theorem undefined_spoils s t h rows row0 rows' lpol wpol n :
  inv s -> inv t -> d_labels s <> [] -> d_labels t = d_labels s ->
  faithful show read_float -> NoDup (index_header h s) -> ~ In (CText (txt "index_id")) (index_header h s) ->
  (forall n, has_group t n -> n <> code_header h /\ ~ In n (d_labels t)) ->
  write_index show (n_id_bytes nd) h s = Ok rows -> incl rows' (tl rows) ->
  undefined_row todecimal (n_id_bytes nd) row0 -> In row0 rows' -> has_group s n -> has_group t n ->
  foreign todecimal (n_id_bytes nt) (index_header h s :: rows') ->
  let result := import_index todecimal read_float nt lpol wpol (reader_of (index_header h s :: rows')) t in
  fst result = t /\ snd result <> Ok ExitOk.
Proof.
  intros Is It Hl El Hf Nd Hno Hg Hw Hin H0 Hr0 Hgs Hgt Hfo result.
  destruct (exported_rows show nd s h rows rows' Hw Hin) as (R & Hi & -> & Hc).
  pose proof (i_index _ Is) as W. pose proof (i_weights _ Is) as Ww.
  assert (Et : insert_index_table todecimal read_float lpol wpol (reader_of (index_header h s :: map (own_cells show s (fun r => CText (the_code nd (ix_id r)))) R)) t =
     do st <- fold_res (fun st r => apply_row read_float lpol wpol (d_groups t) (sorted_groups s) None (ix_labels r) (weight_text show s (ix_id r)) st) R (start t); Ok (finish st)).
  { unfold own_cells. apply (table_fold todecimal read_float lpol wpol t (CText (code_header h)) (d_labels s) (sorted_groups s) R (fun r => CText (the_code nd (ix_id r))) (fun _ => None)); auto.
    - intros g Hgg. destruct (Hg (g_name g)) as [A B]; [exists g; auto|]. split; [exact A|now rewrite <- El].
    - intros r Hr. split; [now apply (iw_arity _ W), Hi|]. intros x Hx. apply (iw_filled _ W r); auto.
    - intros r _. apply (id_code todecimal s h), Hno. }
  apply in_map_iff in Hr0. destruct Hr0 as (r0 & E0 & Hr0).
  assert (Z0 : ix_id r0 = 0%Z).
  { destruct H0 as (code & rest & Ec & Hd). rewrite Ec in E0. unfold own_cells, the_cells in E0. injection E0 as <- _.
    rewrite Forall_forall in Hc. destruct (code_decodes todecimal _ _ _ (Hc r0 Hr0)) as [_ D]. congruence. }
  assert (Hu : r0 = undefined_record s) by (apply (nodup_map_inj ix_id (d_index s)); [apply (iw_unique _ W)|auto|apply (iw_undefined _ W)|exact Z0]).
  assert (Hbad : forall st, fold_res (fun st r => apply_row read_float lpol wpol (d_groups t) (sorted_groups s) None (ix_labels r) (weight_text show s (ix_id r)) st) R (start t) <> Ok st).
  { intros st E. set (P := fun st => index_wf (is_db st) /\ weights_wf (is_db st) /\ d_groups (is_db st) = d_groups t /\ d_labels (is_db st) = d_labels t).
    assert (Hl' : forall st r st', P st -> apply_row read_float lpol wpol (d_groups t) (sorted_groups s) None (ix_labels r) (weight_text show s (ix_id r)) st = Ok st' -> P st') by (apply load_row_weak).
    destruct (fold_res_visits P _ R (start t) _ (conj (i_index _ It) (conj (i_weights _ It) (conj eq_refl eq_refl))) (fun a b c _ => Hl' a b c) E r0 Hr0) as (s1 & s2 & (P1 & P2 & P3 & P4) & E1).
    clear E. unfold apply_row in E1.
    assert (Eu : ix_labels r0 = ix_labels (undefined_record (is_db s1))) by (rewrite Hu; cbn; now rewrite P4, El).
    assert (E2 : label_part lpol None (ix_labels r0) s1 = Ok (s1, 0%Z)).
    { cbn [label_part]. rewrite Eu, add_clash; [|auto|congruence|apply (iw_undefined _ P1)]. rewrite by_labels_at; auto. apply (iw_undefined _ P1). }
    rewrite E2 in E1. cbn [bind fst snd] in E1.
    destruct Hgs as (g & Hgin & En).
    destruct (fold_res_visits P _ (sorted_groups s) s1 _ (conj P1 (conj P2 (conj P3 P4))) (fun a b c _ => load_item_weak lpol wpol s t 0%Z r0 a b c) E1 g (proj2 (sorted_groups_in s g) Hgin)) as (s3 & s4 & (Q1 & Q2 & Q3 & Q4) & E3).
    unfold weight_item in E3. rewrite named_group_of in E3. cbn [name_of code_text] in E3. destruct Hgt as (g' & Hg' & En').
    destruct (group_of (d_groups t) (g_name g)) as [g2|] eqn:Eg.
    - unfold weight_text in E3. rewrite Z0, (no_weight_0 s Ww) in E3. cbn [Z.eqb] in E3. rewrite (read_shown show read_float Hf) in E3. cbn [insert_index_weight] in E3.
      rewrite (no_weight_0 (is_db s3) Q2) in E3. cbn in E3. discriminate.
    - unfold group_of in Eg. eapply find_none in Eg; [|exact Hg']. rewrite En', En, text_eqb_refl in Eg. discriminate. }
  unfold result, import_index. rewrite read_foreign by auto. unfold transact. rewrite Et.
  match goal with |- context [fold_res ?f R (start t)] => destruct (fold_res f R (start t)) as [st|e] eqn:E end; [exfalso; exact (Hbad st eq_refl)|].
  cbn [bind]. destruct e; cbn [fst snd]; split; auto; discriminate.
Qed.
End Other.
