(** C60: the mappings that are made and how they are stored with a new link. *)
From Coq Require Import NArith ZifyBool ZifyN ZifyNat Lia Lqa.
From Verif Require Import Prelude QLemmas BitFlags_Model BitFlags_Spec BitFlags_Proofs Selectors_Model Selectors_Proofs LinkRef_Model LinkRef_Spec LinkRef_Proofs
  Db_Model Db_Spec Db_Proofs Db_ProofsLocal Db_ProofsRun Db_ProofsOps2 Db_ProofsInv3 Db_ProofsRefresh Db_ProofsInv3 Db_ProofsOps6 Db_ProofsOps7 Reader_Model Reader_Spec Reader_Proofs Reader_Proofs3
  Mapper_Model Mapper_Spec Mapper_Proofs Mapper_Proofs2 Mapper_Proofs3 Mapper_Proofs4 Mapper_Proofs5
  Elements_Model EdgeText_Model MapCli_Model MapCli_Spec MapCli_Proofs2 MapCli_Proofs5 MapCli_Proofs7 LoadMap_Model LoadMap_Spec.
Local Open Scope nat_scope.

(** *** The pairs of records *)

Definition no_side : side := {| sd_id := None; sd_loc := []; sd_level := [] |}.
Definition src_of (rows : list old_row) : list source :=
  map (fun r => {| sr_run := or_run r; sr_1 := no_side; sr_2 := no_side; sr_value := Some (or_value r) |}) rows.
Definition some_key (k : Mapper_Model.pair_key) : bool := negb ((fst (fst k) =? 0)%Z && (snd (fst k) =? 0)%Z).

Lemma filter_all {A} (p : A -> bool) l : (forall x, In x l -> p x = true) -> filter p l = l.
Proof.
  induction l as [|a l IH]; intros H; cbn [filter]; [reflexivity|]. rewrite (H a); [|now left]. f_equal. apply IH. intros x Hx. apply H. now right.
Qed.
Lemma old_joint_run from to r :
  filter (fun p => (h_run (fst p) =? r)%Z) (old_joint from to) = flat_map (fun a => map (pair a) (of_run r to)) (of_run r from).
Proof.
  unfold old_joint. rewrite filter_flat_map. unfold of_run at 2. rewrite <- flat_map_filter. apply flat_map_ext. intros a.
  destruct (h_run a =? r)%Z eqn:E.
  - assert (h_run a = r) by lia. subst r. unfold of_run. apply filter_all. intros p Hp. apply in_map_iff in Hp as (b & <- & _). cbn. lia.
  - apply filter_false. intros p Hp. apply in_map_iff in Hp as (b & <- & _). exact E.
Qed.
Lemma filter_map_ {A B} (p : B -> bool) (f : A -> B) l : filter p (map f l) = map f (filter (fun x => p (f x)) l).
Proof. induction l as [|a l IH]; cbn [map filter]; [reflexivity|]. destruct (p (f a)); cbn [map]; now rewrite IH. Qed.
Lemma joint_rows_filter rows from to :
  joint_rows (src_of rows) from to = filter (fun x => some_key (fst x)) (old_joint_rows rows from to).
Proof.
  unfold joint_rows, old_joint_rows, src_of. rewrite filter_flat_map, flat_map_concat_map, map_map, <- flat_map_concat_map.
  apply flat_map_ext. intros r. cbn [sr_run sr_value]. rewrite joint_run, old_joint_run, filter_map_. f_equal.
  rewrite filter_flat_map. apply flat_map_ext. intros a. rewrite filter_map_. f_equal.
Qed.
Lemma get_iter rows from to :
  iter_mappings (src_of rows) from to = filter (fun x => some_key (fst x)) (get_mappings rows from to).
Proof.
  unfold iter_mappings, get_mappings. rewrite (filter_group_by pair_eqb pair_eqb_iff sql_sum some_key).
  now rewrite joint_rows_filter.
Qed.
Lemma to_rows_filter out : to_rows (filter (fun x => some_key (fst x)) out) =
  filter (fun r => negb ((mr_other r =? 0)%Z && (mr_index r =? 0)%Z)) (to_rows out).
Proof.
  unfold to_rows. rewrite filter_flat_map, <- flat_map_filter. apply flat_map_ext. intros [[[o i] lv] [q|]]; cbn; unfold some_key; cbn.
  - now destruct (negb ((o =? 0)%Z && (i =? 0)%Z)).
  - now destruct (negb ((o =? 0)%Z && (i =? 0)%Z)).
Qed.
Lemma insert_skip l rows : forall x, fold_res (insert_mappings2_row l) rows x =
  fold_res (insert_mappings2_row l) (filter (fun r => negb ((mr_other r =? 0)%Z && (mr_index r =? 0)%Z)) rows) x.
Proof.
  induction rows as [|r rows IH]; intros x; cbn [filter]; [reflexivity|].
  destruct ((mr_other r =? 0)%Z && (mr_index r =? 0)%Z) eqn:E; cbn [negb fold_res].
  - assert (X : insert_mappings2_row l x r = Ok x).
    { unfold insert_mappings2_row. rewrite E. match goal with |- (if ?c then _ else _) = _ => now destruct c end. }
    rewrite X. cbn [bind]. apply IH.
  - destruct (insert_mappings2_row l x r); cbn [bind]; [apply IH|reflexivity].
Qed.
Lemma insert_get ref name rows from to s : insert_mappings2 ref name (to_rows (get_mappings rows from to)) s =
  insert_mappings2 ref name (to_rows (iter_mappings (src_of rows) from to)) s.
Proof.
  unfold insert_mappings2. destruct (get_link ref name true (d_links s)) as [k|e]; cbn [bind]; [|reflexivity].
  now rewrite insert_skip, get_iter, to_rows_filter.
Qed.

Section Pairs.
Context (rows : list old_row) (from to : list hit).
Context (Hf : forall h, In h from -> h_prop h <> None) (Ht : forall h, In h to -> h_prop h <> None).
Lemma src_values r : In r (src_of rows) -> sr_value r <> None.
Proof. intros H. apply in_map_iff in H as (x & <- & _). discriminate. Qed.
Lemma rows_sum o i lv : (Qsum (map (fun r => val (sr_value r) * (share_of (sr_run r) from o * share_at (sr_run r) to i lv)) (src_of rows)) =
  Qsum (map (fun r => or_value r * (share_of (or_run r) from o * share_at (or_run r) to i lv)) rows))%Q.
Proof. unfold src_of. rewrite map_map. reflexivity. Qed.
Lemma built_iff o i lv q : (exists q', In ((o, i, lv), Some q') (iter_mappings (src_of rows) from to) /\ (q' == q)%Q) <-> built rows from to o i lv q.
Proof.
  pose proof (iter_in (src_of rows) from to o i lv src_values Hf Ht) as K. unfold built. split.
  - intros (q' & H & E). destruct (proj1 K (ex_intro _ q' H)) as (N & r & x & y & Hr & Hx & Hy & Rx & Ry & Ix & Iy & Ly).
    split; [exact N|]. split.
    + apply in_map_iff in Hr as (r0 & <- & Hr). cbn in Rx, Ry. exists r0, x, y. auto 10.
    + rewrite <- rows_sum, <- E. apply level_value in H. exact H.
  - intros (N & (r & x & y & Hr & Hx & Rx & Ix & Hy & Ry & Iy & Ly) & E).
    destruct (proj2 K) as (q' & H).
    { split; [exact N|]. eexists _, x, y. split; [apply in_map; exact Hr|]. cbn. auto 10. }
    exists q'. split; [exact H|]. apply level_value in H. rewrite E, <- rows_sum. exact H.
Qed.
Lemma built_nonneg : (forall r, In r rows -> (0 <= or_value r)%Q) ->
  (forall h, In h from -> (0 <= part h)%Q) -> (forall h, In h to -> (0 <= part h)%Q) ->
  forall o i lv q, In ((o, i, lv), Some q) (iter_mappings (src_of rows) from to) -> (0 <= q)%Q.
Proof.
  intros V F T o i lv q H. apply (iter_nonneg (src_of rows) from to o i lv (Some q)); auto.
  intros r q0 Hr E. apply in_map_iff in Hr as (r0 & <- & Hr). cbn in E. inversion E; subst. auto.
Qed.
End Pairs.

(** Both directions carry the same total for two records. *)
Lemma old_directions rows l1 l2 a b :
  (carried (iter_mappings (src_of rows) l1 l2) a b == carried (iter_mappings (src_of rows) l2 l1) b a)%Q.
Proof. apply Mapper_Proofs5.directions. Qed.

(** *** The direction *)

Lemma starts_with_iff sub s : starts_with sub s = true <-> exists y, s = sub ++ y.
Proof.
  revert s. induction sub as [|a sub IH]; intros s; cbn [starts_with app]; [split; eauto|].
  destruct s as [|b s]; [split; [discriminate|intros (y & E); discriminate]|]. rewrite andb_true_iff, IH, N.eqb_eq. split.
  - intros (-> & y & ->). now exists y.
  - intros (y & E). inversion E; subst. eauto.
Qed.
Lemma within_iff sub s : within sub s = true <-> exists x y, s = x ++ sub ++ y.
Proof.
  induction s as [|b s IH]; cbn [within].
  - rewrite orb_false_r, starts_with_iff. split; [intros (y & E); now exists [], y|]. intros (x & y & E).
    symmetry in E. apply app_eq_nil in E as [-> E]. exists y. now rewrite E.
  - rewrite orb_true_iff, starts_with_iff, IH. split.
    + intros [(y & E)|(x & y & ->)]; [now exists [], y|now exists (b :: x), y].
    + intros ([|c x] & y & E); cbn [app] in E; [left; eauto|]. inversion E; subst. right. eauto.
Qed.
Lemma right_iff a : within (txt "->") (la_direction a) = true <-> to_the_right a.
Proof. apply within_iff. Qed.
Lemma left_iff a : within (txt "<-") (la_direction a) = true <-> to_the_left a.
Proof. apply within_iff. Qed.

(** *** The new link *)

Lemma insert_links ref name rows s s' k : insert_mappings2 ref name rows s = Ok s' -> get_link ref name true (d_links s) = Ok k ->
  exists h c, d_links s' = map (fun x => if (k_id x =? k_id k)%Z then with_status h c x else x) (d_links s) \/ d_links s' = d_links s.
Proof.
  intros H Hk. unfold insert_mappings2 in H. rewrite Hk in H. cbn [bind] in H. apply bind_ok in H. destruct H as ((s1 & b) & H1 & H). cbn [fst snd] in H.
  assert (L : d_links s1 = d_links s).
  { rewrite insert_skip in H1. apply insert_ok in H1.
    - destruct H1 as [-> _]. reflexivity.
    - intros r Hr. apply filter_In in Hr as [_ Hr]. lia. }
  destruct b; [|inversion H; subst; exists None, false; right; exact L].
  unfold refresh_link in H. rewrite refreshes_of_link in H. apply bind_ok in H. destruct H as (a & Hr & H). apply Ok_inj in H.
  destruct (refreshes_spec _ _ _ Hr) as ((R1 & R2) & _).
  set (h := Some (distinct_others (k_id k) s1)) in *. set (c := mapping_is_complete (k_id k) a) in *. exists h, c. left.
  subst s'. clearbody c h. rewrite R1. cbn. now rewrite L.
Qed.

Section Link.
Context (a : load_args) (from into : lspace) (ops : list op).
Context (HO : l_db into = run ops fresh) (H1 : one_session ops) (HN : la_link a <> []) (HI : sp_id (l_space from) <> []).
Definition s1 : db := fst (step (OAddLink (new_link a from) (la_default a)) (l_db into)).
Lemma linked_ok : (forall k, In k (d_links (l_db into)) -> k_other k = sp_id (l_space from) -> k_name k <> la_link a) <->
  snd (transact (add_link (new_link a from) (la_default a)) (l_db into)) = None.
Proof.
  pose proof (run_inv ops) as I. pose proof (run_fk ops H1) as F. rewrite <- HO in I, F.
  destruct (step_add_link (new_link a from) (la_default a) (l_db into) I (fun _ => F)) as (K & _). rewrite K. reflexivity.
Qed.
Lemma add_inv : snd (transact (add_link (new_link a from) (la_default a)) (l_db into)) = None ->
  inv s1 /\ inv_fk s1 /\
  exists i, let d := match la_default a with Some b => b | None => nil_b (find_by_other_unique_id (sp_id (l_space from)) (d_links (l_db into))) end in
    ~ In i (map k_id (d_links (l_db into))) /\
    s1 = set_links (map (fun x => if d && text_eqb (k_other x) (sp_id (l_space from)) then with_default false x else x) (d_links (l_db into)) ++
                    [with_id i (with_default d (new_link a from))]) (l_db into) /\
    get_link (sp_id (l_space from)) (Some (la_link a)) true (d_links s1) = Ok (with_id i (with_default d (new_link a from))) /\
    (d = true <-> la_default a = Some true \/ la_default a = None /\ forall x, In x (d_links (l_db into)) -> k_other x <> sp_id (l_space from)) /\
    (forall m, In m (d_maps s1) -> m_link m <> i).
Proof.
  intros H. pose proof (run_inv ops) as I. pose proof (run_fk ops H1) as F. destruct (refs_of ops H1) as [_ MR]. rewrite <- HO in I, F, MR.
  assert (I1 : inv s1) by (apply step_inv; exact I).
  assert (F1 : inv_fk s1).
  { unfold s1. rewrite HO. change (fst (step ?o (run ops fresh))) with (run [o] (run ops fresh)). apply run_fk_from; [|rewrite <- HO; exact I|rewrite <- HO; exact F].
    constructor; [intros []|constructor]. }
  split; [exact I1|]. split; [exact F1|].
  destruct (add_link_effect (new_link a from) (la_default a) (l_db into) (i_links _ I)) as [(_ & E)|(Hn & i & s' & E & Hi & Es)].
  - exfalso. unfold transact in H. rewrite E in H. discriminate.
  - cbn [new_link k_other] in Es, Hn.
    set (d := match la_default a with Some b => b | None => nil_b (find_by_other_unique_id (sp_id (l_space from)) (d_links (l_db into))) end) in *.
    assert (Es1 : s1 = s').
    { unfold s1. cbn [step]. unfold transact in *. rewrite E in *. destruct (d_fk s' && negb (fk_ok s')); [discriminate|reflexivity]. }
    exists i. cbv zeta. split; [exact Hi|]. rewrite <- Es1 in Es. split; [exact Es|]. split; [|split].
    + apply (get_link_iff _ _ _ _ _ (i_links _ I1)).
      set (k := with_id i (with_default d (new_link a from))) in *.
      assert (Hk : In k (d_links s1)) by (rewrite Es; cbn; apply in_or_app; right; now left).
      split; [exact HI|]. split; [|split].
      * intros x y (Hx & Mx) (Hy & My).
        assert (X : forall z, In z (d_links s1) -> by_id (sp_id (l_space from)) z \/ (forall x0, In x0 (d_links s1) -> ~ by_id (sp_id (l_space from)) x0) /\
           (by_file (sp_id (l_space from)) z \/ (forall x0, In x0 (d_links s1) -> ~ by_file (sp_id (l_space from)) x0) /\ by_prefix (sp_id (l_space from)) z) ->
           k_other z = sp_id (l_space from)).
        { intros z Hz [Hz'|[Hz' _]]; [exact Hz'|]. exfalso. apply (Hz' k Hk). reflexivity. }
        now rewrite (X x Hx Mx), (X y Hy My).
      * split; [exact Hk|]. left. reflexivity.
      * destruct (la_link a) as [|c n] eqn:En; [contradiction|]. cbn. exact En.
    + unfold d. destruct (la_default a) as [b|].
      * destruct b; split; intros; auto; [discriminate|]. destruct H0 as [H0|[H0 _]]; discriminate.
      * destruct (find_by_other_unique_id (sp_id (l_space from)) (d_links (l_db into))) as [|x l] eqn:Q; cbn [nil_b].
        -- split; auto. intros _. right. split; auto. intros k Hk Ek.
           assert (Hin : In k (find_by_other_unique_id (sp_id (l_space from)) (d_links (l_db into)))) by (apply others_in; auto). rewrite Q in Hin. exact Hin.
        -- split; [discriminate|]. intros [H0|[_ H0]]; [discriminate|]. exfalso.
           assert (Hin : In x (find_by_other_unique_id (sp_id (l_space from)) (d_links (l_db into)))) by (rewrite Q; now left). apply others_in in Hin.
           apply (H0 x); tauto.
    + rewrite Es. cbn. intros m Hm Em. destruct (mr_link _ MR m Hm) as (k0 & Hk0 & Ek). apply Hi. rewrite <- Em, <- Ek. now apply in_map.
Qed.

Context (rows : list old_row) (lf lt : list hit).
Context (Hf : forall h, In h lf -> h_prop h <> None) (Ht : forall h, In h lt -> h_prop h <> None).
Let R : list m_row := to_rows (get_mappings rows lf lt).
Lemma load_link_ok s' : load_link a from into R = (s', None) ->
  exists k, gets_link a from (fun o i lv q => level_there (l_db into) lv /\ built rows lf lt o i lv q) (l_db into) s' k.
Proof.
  intros H. unfold load_link in H. assert (T := add_inv). unfold s1 in T. cbn [step] in T.
  destruct (transact (add_link (new_link a from) (la_default a)) (l_db into)) as [t [e|]] eqn:E; [discriminate|]. cbn [fst snd] in T.
  destruct (T eq_refl) as (I1 & F1 & i & Hi & Es & Hl & Hd & Hm). clear T.
  set (d := match la_default a with Some b => b | None => nil_b (find_by_other_unique_id (sp_id (l_space from)) (d_links (l_db into))) end) in *.
  set (k := with_id i (with_default d (new_link a from))) in *.
  destruct (transact_cases (insert_mappings2 (sp_id (l_space from)) (Some (la_link a)) R) t) as [(s2 & Hb & Tt & _)|(e & Tt)]; rewrite Tt in H; [|discriminate].
  inversion H; subst s2. clear H Tt.
  pose proof Hb as Hb2. unfold R in Hb2. rewrite insert_get in Hb2.
  destruct (load_effect _ _ _ _ _ Hb2) as (k0 & k' & E0 & E' & Eid & V & C & Rest).
  { intros o j lv q Hj. apply iter_defined in Hj. apply Hj. }
  rewrite Hl in E0. apply Ok_inj in E0. subst k0.
  destruct (insert_links _ _ _ _ _ _ Hb Hl) as (h & c & EL).
  assert (Same : k_other k' = k_other k /\ k_hint k' = k_hint k /\ k_name k' = k_name k /\ k_selectors k' = k_selectors k /\ k_default k' = k_default k /\
    forall x, In x (d_links s') <-> x = k' \/ exists y, In y (d_links (l_db into)) /\ bystander d (sp_id (l_space from)) y x).
  { assert (Old : forall x, In x (d_links t) -> x = k \/ (k_id x <> i /\ exists y, In y (d_links (l_db into)) /\ bystander d (sp_id (l_space from)) y x)).
    { intros x Hx. rewrite Es in Hx. cbn in Hx. apply in_app_or in Hx as [Hx|[<-|[]]]; [|now left]. right.
      apply in_map_iff in Hx as (y & <- & Hy). split; [|exists y; split; [exact Hy|apply bystander_cleared]].
      intros Q. apply Hi. rewrite <- Q. replace (k_id (if d && text_eqb (k_other y) (sp_id (l_space from)) then with_default false y else y)) with (k_id y) by (destruct (d && _); reflexivity).
      now apply in_map. }
    assert (New : forall y x, In y (d_links (l_db into)) -> bystander d (sp_id (l_space from)) y x -> In x (d_links t) /\ k_id x <> i).
    { intros y x Hy B. apply bystander_eq in B. split.
      - rewrite Es. cbn. apply in_or_app. left. apply in_map_iff. exists y. split; [now symmetry|exact Hy].
      - intros Q. apply Hi. rewrite <- Q, B. replace (k_id (if d && text_eqb (k_other y) (sp_id (l_space from)) then with_default false y else y)) with (k_id y) by (destruct (d && _); reflexivity).
        now apply in_map. }
    assert (Kt : In k (d_links t)) by (rewrite Es; cbn; apply in_or_app; right; now left).
    assert (Ki : k_id k = i) by reflexivity.
    destruct EL as [EL|EL].
    - assert (K' : k' = with_status h c k).
      { rewrite EL, (get_link_map (fun x => if (k_id x =? k_id k)%Z then with_status h c x else x) (with_status_same (k_id k) h c)), Hl in E'.
        rewrite Z.eqb_refl in E'. apply Ok_inj in E'. now symmetry. }
      subst k'. do 5 (split; [reflexivity|]). intros x. rewrite EL, in_map_iff. rewrite Ki. split.
      + intros (y & <- & Hy). destruct (Old y Hy) as [->|(Ny & Hy')].
        * left. now rewrite Ki, Z.eqb_refl.
        * right. replace (k_id y =? i)%Z with false by lia. exact Hy'.
      + intros [->|(y & Hy & B)].
        * exists k. rewrite Ki, Z.eqb_refl. auto.
        * destruct (New y x Hy B) as [Hx Nx]. exists x. replace (k_id x =? i)%Z with false by lia. auto.
    - assert (K' : k' = k) by (rewrite EL, Hl in E'; apply Ok_inj in E'; now symmetry).
      subst k'. do 5 (split; [reflexivity|]). intros x. rewrite EL. split.
      + intros Hx. destruct (Old x Hx) as [->|(_ & Hx')]; auto.
      + intros [->|(y & Hy & B)]; [exact Kt|]. apply (New y x Hy B). }
  destruct Same as (S1 & S2 & S3 & S4 & S5 & S6).
  assert (Mk : forall o j lv q, mapping_in s' k' o j lv q <-> level_there (l_db into) lv /\ built rows lf lt o j lv q).
  { intros o j lv q. rewrite mapping_valued, Eid, <- (built_iff rows lf lt Hf Ht).
    assert (LT : level_there t lv <-> level_there (l_db into) lv) by (rewrite Es; reflexivity). split.
    - intros (q' & Hq & Eq). apply V in Hq. destruct Hq as [(m & Hm' & Em & _)|(_ & Hq & L)]; [exfalso; exact (Hm m Hm' Em)|]. split; [now apply LT|eauto].
    - intros (L & q' & Hq & Eq). exists q'. split; [apply V; right; split; [reflexivity|split; [exact Hq|now apply LT]]|exact Eq]. }
  exists k'. split.
  - rewrite S1, S2, S3, S4. repeat split; reflexivity.
  - rewrite S5. exact Hd.
  - destruct C as [(-> & Ess)|(C & o & j & lv & q & Hq & L)].
    + split; [discriminate|]. intros ((o & j & lv & q & (m & Hm' & Em & _)) & _). exfalso. subst s'. exact (Hm m Hm' Em).
    + rewrite Eid. rewrite C. split; [|tauto]. intros Q. split; [|exact Q]. exists o, j, lv, q. apply mapping_valued. exists q. split; [|reflexivity].
      rewrite Eid. apply V. right. auto.
  - rewrite Eid. intros x Hx Q. apply Hi. change i with (k_id k). rewrite <- Q. now apply in_map.
  - rewrite S5, S1. exact S6.
  - exact Mk.
  - intros k2 o j lv q N. rewrite !mapping_valued. rewrite Eid in N. split.
    + intros (q' & Hq & Eq). apply V in Hq. destruct Hq as [(m & Hm' & Hq)|(Q & _)]; [|contradiction]. exists q'. split; [|exact Eq]. exists m. split; [|exact Hq]. rewrite Es in Hm'. exact Hm'.
    + intros (q' & (m & Hm' & Hq) & Eq). exists q'. split; [|exact Eq]. apply V. left. exists m. split; [|exact Hq]. rewrite Es. exact Hm'.
  - destruct Rest as (R1 & R2 & R3 & R4 & R5 & R6). rewrite R1, R2, R3, R4, R5, R6, Es. repeat split.
Qed.

Lemma load_link_succeeds : (forall k, In k (d_links (l_db into)) -> k_other k = sp_id (l_space from) -> k_name k <> la_link a) ->
  (forall o i lv q, built rows lf lt o i lv q -> (0 <= q)%Q) ->
  (forall h, In h lt -> has_index (l_db into) (h_index h)) ->
  exists s', load_link a from into R = (s', None).
Proof.
  intros HF HV HH. apply linked_ok in HF. unfold load_link. assert (T := add_inv). unfold s1 in T. cbn [step] in T.
  destruct (transact (add_link (new_link a from) (la_default a)) (l_db into)) as [t [e|]] eqn:E; [discriminate|]. cbn [fst snd] in T.
  destruct (T eq_refl) as (I1 & F1 & i & Hi & Es & Hl & Hd & Hm). clear T.
  set (d := match la_default a with Some b => b | None => nil_b (find_by_other_unique_id (sp_id (l_space from)) (d_links (l_db into))) end) in *.
  set (k := with_id i (with_default d (new_link a from))) in *.
  destruct (load_stored (sp_id (l_space from)) (Some (la_link a)) (iter_mappings (src_of rows) lf lt) t k (i_maps _ I1) Hl) as (s' & Hs & _).
  - rewrite Es. cbn. apply in_or_app. right. now left.
  - exact Hm.
  - apply iter_keys.
  - intros o j lv q Hq. split; [|apply iter_defined in Hq; apply Hq]. apply (HV o j lv). apply (built_iff rows lf lt Hf Ht). exists q. split; [exact Hq|reflexivity].
  - exists s'. unfold transact, R. rewrite insert_get, Hs.
    destruct (load_effect _ _ _ _ _ Hs) as (k0 & k' & _ & _ & _ & V & _ & Ei & _ & _ & _ & Ew & Ef).
    { intros o j lv q Hj. apply iter_defined in Hj. apply Hj. }
    assert (F : d_fk s' && negb (fk_ok s') = false).
    { destruct (d_fk s'); [|reflexivity]. cbn [andb]. apply negb_false_iff. destruct F1 as [_ _ _ W M _]. apply fk_ok_iff. rewrite Ew. unfold has_index. rewrite Ei. split.
      - exact W.
      - intros m Hm'. assert (X : valued s' (m_link m) (m_other m) (m_index m) (m_level m) (m_value m)) by (exists m; auto 10).
        apply V in X. destruct X as [(m' & Hm2 & _ & _ & <- & _)|(_ & Hj & _)]; [exact (M m' Hm2)|].
        apply iter_defined in Hj. destruct Hj as (_ & _ & x & y & _ & _ & Hy & _ & _ & _ & <- & _). rewrite Es. exact (HH y Hy). }
    now rewrite F.
Qed.
End Link.

(** What is done is done by the operations of a space. *)
Lemma load_link_calls a from into rows : exists ops, fst (load_link a from into rows) = run ops (l_db into) /\ Forall honest ops /\ one_session ops.
Proof.
  unfold load_link. destruct (transact (add_link (new_link a from) (la_default a)) (l_db into)) as [t [e|]] eqn:E.
  - exists []. cbn. destruct (transact_cases (add_link (new_link a from) (la_default a)) (l_db into)) as [(s' & _ & Q & _)|(e' & Q)]; rewrite Q in E; inversion E; subst.
    split; [reflexivity|]. split; constructor.
  - exists [OAddLink (new_link a from) (la_default a); OInsertMappings2 (sp_id (l_space from)) (Some (la_link a)) rows]. cbn [run step]. rewrite E. cbn [fst].
    split; [reflexivity|]. split; repeat constructor; intros [].
Qed.
