From Verif Require Import Prelude Partitions_Model Partitions_Spec Partitions_Proofs Columns_Model Columns_Spec Columns_Proofs.
From Coq Require Import Ascii Permutation ZifyBool ZifyNat.
Local Open Scope nat_scope.

(* ------------------------------------------------------------------- bits *)
Lemma marks_bits cols l : marks cols (bits_of cols l) l.
Proof.
  split; [apply map_length|]. intros i x b Hx Hb. unfold bits_of in Hb. rewrite nth_error_map, Hx in Hb. cbn in Hb. injection Hb as <-. apply lmem_iff.
Qed.
Lemma marks_unique cols r l : marks cols r l -> r = bits_of cols l.
Proof.
  revert r. induction cols as [|c cols IH]; intros [|b r] [L M]; try discriminate L; [reflexivity|].
  cbn [bits_of map]. f_equal.
  - specialize (M 0 c b eq_refl eq_refl). apply Bool.eq_iff_eq_true. rewrite lmem_iff. exact M.
  - apply IH. split; [cbn in L; lia|]. intros i x b' Hx Hb. exact (M (S i) x b' Hx Hb).
Qed.
Lemma bits_eq cols a b : bits_of cols a = bits_of cols b <-> forall x, In x cols -> (In x a <-> In x b).
Proof.
  induction cols as [|c cols IH]; cbn [bits_of map]; [split; [intros _ x []|reflexivity]|]. fold (bits_of cols a) (bits_of cols b). split.
  - intro H. injection H as H1 H2. intros x [<-|Hx]; [rewrite <- !lmem_iff, H1; tauto|]. apply IH; assumption.
  - intro H. f_equal; [apply Bool.eq_iff_eq_true; rewrite !lmem_iff; apply H; now left|]. apply IH. intros x Hx. apply H. now right.
Qed.
Lemma bits_inj cols a b : incl a cols -> incl b cols -> bits_of cols a = bits_of cols b -> same_set a b.
Proof. intros Ia Ib E x. rewrite bits_eq in E. split; intro H; apply E; auto. Qed.

Lemma row_eqb_iff a b : row_eqb a b = true <-> a = b.
Proof. unfold row_eqb. destruct (list_eq_dec bool_dec a b); split; congruence. Qed.
Lemma row_in_iff r rows : existsb (row_eqb r) rows = true <-> In r rows.
Proof.
  rewrite existsb_exists. split; [intros (x & H & E); apply row_eqb_iff in E; congruence|]. intro H. exists r. split; [exact H|now apply row_eqb_iff].
Qed.
Lemma unique_rows_iff rows : unique_rows rows = true <-> NoDup rows.
Proof.
  induction rows as [|r rows IH]; cbn [unique_rows]; [split; [constructor|reflexivity]|].
  rewrite andb_true_iff, negb_true_iff, IH. destruct (existsb (row_eqb r) rows) eqn:E.
  - split; [intros [H _]; discriminate|]. apply row_in_iff in E. inversion 1; contradiction.
  - split; [|inversion 1; auto]. intros [_ H]. constructor; [|exact H]. intro I. apply row_in_iff in I. congruence.
Qed.

Lemma struct_adds_ok cols pdefs : forall rows rows', struct_adds cols rows pdefs = Ok rows' ->
  rows' = rows ++ map (bits_of cols) pdefs /\ (NoDup rows -> NoDup rows').
Proof.
  induction pdefs as [|d pdefs IH]; intros rows rows' H; cbn [struct_adds] in H.
  - injection H as <-. rewrite app_nil_r. auto.
  - unfold struct_add in H. destruct (bits_of cols d) as [|b bs] eqn:E; [discriminate|]. rewrite <- E in H.
    destruct (existsb (row_eqb (bits_of cols d)) rows) eqn:X; cbn [bind] in H; [discriminate|]. apply IH in H as [-> N].
    split; [cbn [map]; rewrite <- app_assoc; reflexivity|]. intro Nr. apply N.
    apply (Permutation_NoDup (Permutation_cons_append rows (bits_of cols d))). constructor; [|exact Nr]. intro I. apply row_in_iff in I. congruence.
Qed.
Lemma struct_adds_succeeds cols pdefs : cols <> [] -> forall rows, NoDup (rows ++ map (bits_of cols) pdefs) ->
  struct_adds cols rows pdefs = Ok (rows ++ map (bits_of cols) pdefs).
Proof.
  intro C. induction pdefs as [|d pdefs IH]; intros rows N; cbn [struct_adds map]; [cbn [map] in N; rewrite app_nil_r; reflexivity|].
  assert (E : struct_add rows (bits_of cols d) = Ok (rows ++ [bits_of cols d])).
  { unfold struct_add. destruct (bits_of cols d) as [|b bs] eqn:E; [destruct cols; [congruence|discriminate]|]. rewrite <- E.
    destruct (existsb _ rows) eqn:X; [|reflexivity]. apply row_in_iff in X. cbn [map] in N. apply NoDup_remove_2 in N. destruct N. apply in_app_iff. now left. }
  rewrite E. cbn [bind]. rewrite IH; [rewrite <- app_assoc; reflexivity|]. rewrite <- app_assoc. exact N.
Qed.

Lemma all_distinct_bits cols l : all_distinct l -> (forall d, In d l -> incl d cols) -> NoDup (map (bits_of cols) l).
Proof.
  induction 1 as [|d l N A IH]; intro K; [constructor|]. cbn [map]. constructor; [|apply IH; intros e He; apply K; now right].
  intro I. apply in_map_iff in I as (e & E & He). apply N. exists e. split; [exact He|].
  apply (bits_inj cols); [apply K; now right|apply K; now left|exact E].
Qed.

Lemma union_known defs l cols : (forall d x, In d defs -> In x d -> In x cols) -> union_of defs l -> incl l cols.
Proof. intros K (sub & I & X) x Hx. apply X in Hx as (d & Hd & Hx). apply (K d x); [apply I|]; assumption. Qed.

(** Any successful rebuild gives the structure of the definitions. *)
Lemma rebuild_structure s s' : rebuild s = Ok s' -> structure_ok (c_columns s') (get_all_defs (pview s')) (c_structs s').
Proof.
  intro H. assert (X : exists rows, struct_adds (c_columns s) [] (make_structure (get_all_defs (pview s))) = Ok rows /\ s' = with_structs rows s).
  { unfold rebuild in H. destruct (c_columns s) as [|c cs] eqn:E.
    - destruct (struct_adds _ _ _) as [rows|]; cbn [bind] in H; [|discriminate]. injection H as <-. eauto.
    - destruct (get_all_defs (pview s)) as [|d ds]; [discriminate|]. destruct (struct_adds _ _ _) as [rows|]; cbn [bind] in H; [|discriminate]. injection H as <-. eauto. }
  clear H. destruct X as (rows & E & ->). change (c_columns (with_structs rows s)) with (c_columns s). change (pview (with_structs rows s)) with (pview s).
  change (c_structs (with_structs rows s)) with rows. apply struct_adds_ok in E as [-> N]. cbn [app] in *. constructor.
  - apply N. constructor.
  - intros r Hr. apply in_map_iff in Hr as (d & <- & Hd). exists d. split; [|apply marks_bits]. apply member_structure_union, member_In, Hd.
  - intros l Hl. exists (bits_of (c_columns s) l). split; [|apply marks_bits]. apply member_structure_union in Hl as (t & Ht & E).
    apply in_map_iff. exists t. split; [|exact Ht]. apply bits_eq. intros x _. apply E.
Qed.

Lemma rebuild_succeeds s : p_good (pview s) -> exists s', rebuild s = Ok s' /\ s' = with_structs (c_structs s') s.
Proof.
  intros [C _ _ _ K W]. cbn [pview p_columns] in *. unfold rebuild.
  assert (N : NoDup ([] ++ map (bits_of (c_columns s)) (make_structure (get_all_defs (pview s))))).
  { cbn [app]. apply all_distinct_bits; [apply make_structure_distinct|]. intros d Hd. apply (union_known (get_all_defs (pview s))); [exact K|].
    apply member_structure_union, member_In, Hd. }
  apply struct_adds_succeeds in N; [|exact C]. destruct (c_columns s) as [|c cs] eqn:E; [congruence|].
  destruct (get_all_defs (pview s)) as [|d ds] eqn:G.
  - exfalso. destruct W as (t & Ht & Et). cbn in Ht. destruct Ht as [<-|[]]. destruct (proj2 (Et c) (or_introl eq_refl)).
  - rewrite N. cbn [bind]. eexists. split; [reflexivity|]. reflexivity.
Qed.

(* ------------------------------------------------------------------ states *)
Definition blank (s : cspace) : Prop := c_columns s = [] /\ c_defs s = None /\ c_structs s = [].
Definition settled (s : cspace) : Prop :=
  p_good (pview s) /\ structure_ok (c_columns s) (get_all_defs (pview s)) (c_structs s).
Definition c_good (s : cspace) : Prop := c_inv s /\ (blank s \/ settled s).

Lemma c_good_new : c_good c_new.
Proof. split; [apply c_inv_new|]. left. repeat split. Qed.

Lemma good_known s : c_good s -> forall d x, In d (get_all_defs (pview s)) -> In x d -> In x (c_columns s).
Proof.
  intros [_ [(C & D & _)|[G _]]] d x Hd Hx; [|exact (pg_known _ G d x Hd Hx)].
  unfold get_all_defs in Hd. cbn [pview p_defs] in Hd. rewrite D in Hd. destruct Hd.
Qed.
Lemma good_rows s : c_good s -> NoDup (c_structs s).
Proof. intros [_ [(_ & _ & ->)|[_ S]]]; [constructor|apply S]. Qed.
Lemma good_whole s : c_good s -> union_of (get_all_defs (pview s)) (c_columns s).
Proof.
  intros [_ [(C & D & _)|[G _]]]; [rewrite C; apply union_of_empty|]. apply member_structure_union. exact (pg_whole _ G).
Qed.

Lemma p_definitions_ok s : p_good (pview s) -> definitions_ok (c_columns s) (get_all_defs (pview s)).
Proof. intros [_ _ D I K W]. constructor; auto. apply member_structure_union. exact W. Qed.

(* ---------------------------------------------------------- adding columns *)
Lemma add_whole_definition s s1 cols : c_good s -> cols <> [] ->
  (forall x, In x cols -> ~ In x (c_columns s)) -> c_columns s1 = c_columns s ++ cols -> c_defs s1 = c_defs s ->
  let bases := [[c_columns s1]; get_all_defs (pview s); [c_columns s1]] in
  ds_add_partition_definition (c_columns s1) (pview s1) = Ok {| p_columns := c_columns s1; p_defs := Some (find_minimal bases) |} /\
  p_good {| p_columns := c_columns s1; p_defs := Some (find_minimal bases) |} /\ ~ same_set (c_columns s) (c_columns s1).
Proof.
  intros G Hc F C1 D1 bases. destruct cols as [|c cs]; [congruence|]. clear Hc.
  assert (Hw : In c (c_columns s1)) by (rewrite C1; apply in_app_iff; right; now left).
  assert (Hold : ~ In c (c_columns s)) by (apply F; now left).
  assert (Ne : c_columns s1 <> []) by (intro X; rewrite X in Hw; destruct Hw).
  pose proof (good_known s G) as K. assert (Gd : get_all_defs (pview s1) = get_all_defs (pview s)) by (unfold get_all_defs; cbn; rewrite D1; reflexivity).
  assert (K1 : forall d x, In d (get_all_defs (pview s)) -> In x d -> In x (c_columns s1)).
  { intros d x Hd Hx. rewrite C1. apply in_app_iff. left. eauto. }
  split; [|split].
  - unfold ds_add_partition_definition. cbn [pview p_columns]. rewrite (cols_nonempty_test _ Ne).
    assert (S : lsubset (c_columns s1) (c_columns s1) = true) by (apply lsubset_iff, incl_refl). rewrite S. cbn [negb].
    change {| p_columns := c_columns s1; p_defs := c_defs s1 |} with (pview s1). rewrite Gd.
    destruct (lset_in (c_columns s1) (get_all_defs (pview s))) eqn:E.
    { apply lset_in_iff in E as (t & Ht & Et). exfalso. apply Hold. apply (K t c Ht). apply Et. exact Hw. }
    match goal with |- (if negb ?b then _ else _) = _ => change b with (lset_in (c_columns s1) (find_minimal bases)) end.
    destruct (lset_in (c_columns s1) (find_minimal bases)) eqn:M; [reflexivity|]. apply lset_in_false in M. exfalso. apply M.
    apply find_minimal_member. unfold bases. rewrite concat3. split; [apply member_In; now left|].
    intros (sub & I & N & X). apply X in Hw as (e & He & Hx). specialize (I e He). cbn [app] in I.
    assert (Ie : e = c_columns s1 \/ In e (get_all_defs (pview s))).
    { destruct I as [I|I]; [left; congruence|]. apply in_app_iff in I as [I|[I|[]]]; [now right|left; congruence]. }
    destruct Ie as [->|Ie]; [apply (N _ He), same_set_refl|]. exact (Hold (K e c Ie Hx)).
  - apply find_minimal_good; [exact Ne| |].
    + unfold bases. rewrite concat3. intros d x Hd Hx. cbn [app] in Hd. destruct Hd as [<-|Hd]; [exact Hx|].
      apply in_app_iff in Hd as [Hd|[<-|[]]]; eauto.
    + unfold bases. rewrite concat3. apply member_In. now left.
  - intro E. apply Hold. apply E. exact Hw.
Qed.

Lemma remove_old s3 old : p_good (pview s3) -> ~ same_set old (c_columns s3) ->
  let keep := filter (fun x => negb (lset_eqb x old)) (get_all_defs (pview s3)) in
  ds_remove_partition_definition old (pview s3) = Ok {| p_columns := c_columns s3; p_defs := Some (find_minimal [keep; [c_columns s3]]) |} /\
  p_good {| p_columns := c_columns s3; p_defs := Some (find_minimal [keep; [c_columns s3]]) |}.
Proof.
  intros G N keep. split.
  - unfold ds_remove_partition_definition. cbn [pview p_columns]. destruct (lset_eqb old (c_columns s3)) eqn:E; [apply lset_eqb_iff in E; contradiction|].
    unfold prop_update_defs. destruct (pg_defs _ G) as (d & Ed). cbn [pview p_defs p_columns] in *. rewrite Ed. subst keep. unfold pview. rewrite Ed. reflexivity.
  - apply find_minimal_good; [exact (pg_cols _ G)| |].
    + rewrite concat2. intros d x Hd Hx. apply in_app_iff in Hd as [Hd|[<-|[]]]; [|exact Hx]. apply filter_In in Hd as [Hd _]. exact (pg_known _ G d x Hd Hx).
    + rewrite concat2. apply member_In, in_app_iff. right. now left.
Qed.

Lemma create_after_add s s1 cols : c_good s -> cols <> [] -> alter_adds s cols = Ok s1 -> create_constraints s1 = Ok s1.
Proof.
  intros G Hc H. apply alter_adds_spec in H as (C & _ & _ & _ & S). unfold create_constraints. rewrite C.
  destruct (c_columns s ++ cols) eqn:E; [apply app_eq_nil in E as [_ E]; congruence|].
  assert (U : unique_rows (c_structs s1) = true); [|rewrite U; reflexivity]. apply unique_rows_iff. rewrite S.
  apply FinFun.Injective_map_NoDup; [|apply good_rows; exact G]. intros a b X. apply app_inv_tail in X. exact X.
Qed.

(** Everything about adding columns to a node in good state. *)
Lemma add_columns_run s cols used s1 : c_good s -> cols <> [] ->
  (forall x, In x cols -> ~ reserved_name x /\ ~ In x (c_columns s) /\ ~ In x (registered s)) ->
  alter_adds s cols = Ok s1 ->
  exists s', add_index_columns cols used s = Ok s' /\ settled s' /\
    c_columns s' = c_columns s ++ cols /\ c_attrs s' = c_attrs s /\ c_display s' = c_display s /\
    forall u, union_of (get_all_defs (pview s')) u <->
      union_of ((if used then get_all_defs (pview s) else filter (fun x => negb (lset_eqb x (c_columns s))) (get_all_defs (pview s))) ++ [c_columns s ++ cols]) u.
Proof.
  intros G Hc V A. pose proof (alter_adds_spec _ _ _ A) as (C1 & D1 & T1 & Y1 & _).
  pose proof (create_after_add _ _ _ G Hc A) as K.
  destruct (add_whole_definition s s1 cols G Hc (fun x Hx => proj1 (proj2 (V x Hx))) C1 D1) as (P & PG & NS).
  set (bases := [[c_columns s1]; get_all_defs (pview s); [c_columns s1]]) in *. set (p2 := {| p_columns := c_columns s1; p_defs := Some (find_minimal bases) |}) in *.
  assert (PV : pview (with_defs p2 s1) = p2) by reflexivity.
  destruct (rebuild_succeeds (with_defs p2 s1)) as (s3 & R3 & E3); [rewrite PV; exact PG|].
  assert (C3 : c_columns s3 = c_columns s1) by (rewrite E3; reflexivity).
  assert (V3 : pview s3 = p2) by (rewrite E3; reflexivity).
  pose proof (rebuild_structure _ _ R3) as S3.
  assert (U3 : forall u, union_of (get_all_defs (pview s3)) u <-> union_of (get_all_defs (pview s) ++ [c_columns s1]) u).
  { intro u. rewrite V3. unfold p2. unfold get_all_defs at 1. cbn [p_defs]. rewrite find_minimal_generates. unfold bases. rewrite concat3. apply union_of_eqv.
    - intros d Hd. apply union_of_self. cbn [app] in Hd. apply in_app_iff. destruct Hd as [<-|Hd]; [right; now left|]. apply in_app_iff in Hd. exact Hd.
    - intros d Hd. apply union_of_self. right. exact Hd. }
  assert (L : get_by_labels (c_columns s) s3 = Ok (bits_of (c_columns s3) (c_columns s))).
  { unfold get_by_labels. destruct (unions_rows _ _ _ S3 (c_columns s)) as (r & Hr & M).
    - apply U3. eapply union_of_mono; [|apply good_whole; exact G]. apply incl_appl, incl_refl.
    - apply marks_unique in M. subst r. apply row_in_iff in Hr. rewrite Hr. reflexivity. }
  assert (Rn : add_index_columns cols used s = (if negb used then do p4 <- ds_remove_partition_definition (c_columns s) (pview s3); rebuild (with_defs p4 s3) else Ok s3)).
  { unfold add_index_columns. rewrite (proj2 (validate_ok cols s) V). cbn [bind]. unfold lm_add_columns. rewrite A. cbn [bind]. rewrite K. cbn [bind]. rewrite P. cbn [bind].
    rewrite R3. cbn [bind]. rewrite L. cbn [bind]. reflexivity. }
  rewrite Rn. destruct used; cbn [negb].
  - exists s3. split; [reflexivity|]. split; [split; [rewrite V3; exact PG|exact S3]|]. rewrite C3, C1. split; [reflexivity|].
    split; [rewrite E3; exact T1|]. split; [rewrite E3; exact Y1|]. rewrite <- C1. exact U3.
  - assert (G3 : p_good (pview s3)) by (rewrite V3; exact PG).
    destruct (remove_old s3 (c_columns s) G3) as (P4 & PG4); [rewrite C3; exact NS|].
    set (keep := filter _ (get_all_defs (pview s3))) in *. rewrite P4. cbn [bind]. set (p4 := {| p_columns := c_columns s3; p_defs := Some (find_minimal [keep; [c_columns s3]]) |}) in *.
    destruct (rebuild_succeeds (with_defs p4 s3)) as (s5 & R5 & E5); [exact PG4|].
    exists s5. split; [exact R5|]. assert (V5 : pview s5 = p4) by (rewrite E5; reflexivity).
    split; [split; [rewrite V5; exact PG4|exact (rebuild_structure _ _ R5)]|].
    assert (C5 : c_columns s5 = c_columns s3) by (rewrite E5; reflexivity).
    rewrite C5, C3, C1. split; [reflexivity|]. split; [rewrite E5, E3; exact T1|]. split; [rewrite E5, E3; exact Y1|].
    intro u. rewrite V5. unfold p4. unfold get_all_defs at 1. cbn [p_defs]. rewrite find_minimal_generates, concat2. rewrite C3, C1.
    apply union_of_eqv.
    + intros d Hd. apply in_app_iff in Hd as [Hd|[<-|[]]]; [|apply union_of_self, in_app_iff; right; now left].
      unfold keep in Hd. apply filter_In in Hd as [Hd Hn]. rewrite V3 in Hd. unfold p2, get_all_defs in Hd. cbn [p_defs] in Hd.
      apply (mi_incl _ _ (find_minimal_inv bases)) in Hd. unfold bases in Hd. rewrite concat3 in Hd. cbn [app] in Hd.
      apply union_of_self. apply in_app_iff. rewrite <- C1. destruct Hd as [<-|Hd]; [right; now left|]. apply in_app_iff in Hd as [Hd|Hd]; [left|now right].
      apply filter_In. auto.
    + intros d Hd. apply in_app_iff in Hd as [Hd|[<-|[]]]; [|apply union_of_self, in_app_iff; right; now left].
      apply filter_In in Hd as [Hd Hn].
      (* a definition other than the old whole space is still among the minimal ones *)
      assert (M : member d (find_minimal bases)).
      { apply find_minimal_member. unfold bases. rewrite concat3. cbn [app]. split; [apply member_In; right; apply in_app_iff; left; exact Hd|].
        intros (sub & I & N & X). destruct G as [_ [(_ & B & _)|[Gp _]]]; [unfold get_all_defs in Hd; cbn [pview p_defs] in Hd; rewrite B in Hd; destruct Hd|].
        apply (pg_irr _ Gp d Hd). exists sub. split; [|split; [exact N|exact X]]. intros e He. specialize (I e He). cbn [app] in I.
        assert (Ie : e = c_columns s1 \/ In e (get_all_defs (pview s))).
        { destruct I as [I|I]; [left; congruence|]. apply in_app_iff in I as [I|[I|[]]]; [right; exact I|left; congruence]. }
        destruct Ie as [->|Ie]; [|exact Ie]. exfalso. destruct cols as [|c cs]; [congruence|].
        destruct (V c (or_introl eq_refl)) as (_ & F & _). apply F. apply (pg_known _ Gp d c Hd). apply X. exists (c_columns s1). split; [exact He|].
        rewrite C1. apply in_app_iff. right. now left. }
      destruct M as (t & Ht & Et). apply union_of_same with (s := t); [exact Et|]. apply union_of_self. apply in_app_iff. left.
      unfold keep. apply filter_In. split; [rewrite V3; exact Ht|]. apply negb_true_iff. destruct (lset_eqb t (c_columns s)) eqn:Q; [|reflexivity].
      apply lset_eqb_iff in Q. apply negb_true_iff in Hn. assert (lset_eqb d (c_columns s) = true); [|congruence].
      apply lset_eqb_iff. eapply same_set_trans; [apply same_set_sym; exact Et|exact Q].
Qed.

(* -------------------------------------------------------------- renaming *)
Definition single (old new x : string) : string := if String.eqb old x then new else x.

Lemma replace_first_map old new cols : sql_distinct cols = true -> In old cols ->
  replace_first old new cols = Some (map (single old new) cols).
Proof.
  induction cols as [|c cols IH]; intros D I; [destruct I|]. apply sql_distinct_cons in D as [F D]. cbn [replace_first map]. unfold single at 1.
  destruct I as [->|I].
  - rewrite sql_refl, String.eqb_refl. f_equal. f_equal. rewrite <- (map_id cols) at 1. apply map_ext_in. intros x Hx. unfold single.
    destruct (String.eqb_spec old x) as [->|N]; [|reflexivity]. specialize (F x Hx). rewrite sql_refl in F. discriminate F.
  - assert (E : sql_same old c = false) by (rewrite sql_sym; apply F; exact I). rewrite E, (IH D I).
    destruct (String.eqb_spec old c) as [->|N]; [rewrite sql_refl in E; discriminate E|reflexivity].
Qed.

Lemma mapping_get_in m x : In x (map fst m) -> In (mapping_get m x) (map snd m).
Proof.
  induction m as [|[a b] m IH]; intros H; [destruct H|]. cbn [mapping_get map fst snd]. destruct (String.eqb_spec a x) as [->|N]; [now left|].
  right. apply IH. destruct H as [H|H]; [cbn in H; congruence|exact H].
Qed.
Lemma mapping_get_out m x : ~ In x (map fst m) -> mapping_get m x = x.
Proof.
  induction m as [|[a b] m IH]; intros H; [reflexivity|]. cbn [mapping_get]. destruct (String.eqb_spec a x) as [->|N]; [destruct H; now left|].
  apply IH. intro I. apply H. now right.
Qed.

Lemma lm_rename_map m : forall s s', sql_distinct (fixed_columns ++ c_columns s) = true -> NoDup (map fst m) ->
  (forall x, In x (map fst m) -> In x (c_columns s)) -> (forall x, In x (map snd m) -> ~ In x (map fst m)) ->
  lm_rename_columns s m = Ok s' -> c_columns s' = map (mapping_get m) (c_columns s).
Proof.
  induction m as [|[old new] m IH]; intros s s' D N K X H; cbn [lm_rename_columns] in H.
  - injection H as <-. symmetry. apply map_id.
  - destruct (alter_rename s (old, new)) as [s1|] eqn:E; cbn [bind] in H; [|discriminate].
    apply alter_rename_spec in E as (D1 & _ & _ & _ & _ & E5 & _). cbn [map fst snd] in *. inversion N as [|? ? N1 N2]; subst.
    assert (D' : sql_distinct (c_columns s) = true) by (apply sql_distinct_app in D; tauto).
    rewrite (replace_first_map _ _ _ D' (K old (or_introl eq_refl))) in E5. injection E5 as E5.
    apply IH in H; [| exact D1 | exact N2 | |].
    + rewrite H, <- E5, map_map. apply map_ext. intro x. cbn [mapping_get]. unfold single. destruct (String.eqb_spec old x) as [->|Q]; [|reflexivity].
      apply mapping_get_out. intro I. apply (X new (or_introl eq_refl)). now right.
    + intros x Hx. rewrite <- E5. apply in_map_iff. exists x. split; [|apply K; now right]. unfold single.
      destruct (String.eqb_spec old x) as [->|Q]; [contradiction|reflexivity].
    + intros x Hx Hy. apply (X x (or_intror Hx)). now right.
Qed.

(** Renaming with names that stay distinct carries definitions and structure over. *)
Section Renaming.
Context (f : string -> string) (cols : list string) (Inj : forall x y, In x cols -> In y cols -> f x = f y -> x = y).

Lemma ren_in l x : incl l cols -> In x cols -> (In (f x) (map f l) <-> In x l).
Proof.
  intros Il Hx. split; [|apply in_map]. intro H. apply in_map_iff in H as (y & E & Hy). rewrite <- (Inj y x); auto.
Qed.
Lemma ren_union defs l : union_of defs l -> union_of (map (map f) defs) (map f l).
Proof.
  intros (sub & I & X). exists (map (map f) sub). split; [apply incl_map; exact I|]. intro y. split.
  - intro H. apply in_map_iff in H as (x & <- & Hx). apply X in Hx as (d & Hd & Hx). exists (map f d). split; apply in_map; assumption.
  - intros (e & He & Hy). apply in_map_iff in He as (d & <- & Hd). apply in_map_iff in Hy as (x & <- & Hx). apply in_map, X. eauto.
Qed.
Lemma ren_union_back defs m : union_of (map (map f) defs) m -> exists l, union_of defs l /\ same_set (map f l) m.
Proof.
  intros (sub & I & X). assert (S : exists sub0, incl sub0 defs /\ sub = map (map f) sub0).
  { clear X. induction sub as [|e sub IH]; [exists []; split; [intros ? []|reflexivity]|].
    destruct IH as (s0 & I0 & ->); [intros z Hz; apply I; now right|]. assert (He : In e (map (map f) defs)) by (apply I; now left).
    apply in_map_iff in He as (d & <- & Hd). exists (d :: s0). split; [intros z [<-|Hz]; auto|reflexivity]. }
  destruct S as (s0 & I0 & ->). exists (concat s0). split; [apply union_of_concat; exact I0|]. intro y. rewrite X. split.
  - intro H. apply in_map_iff in H as (x & <- & Hx). apply in_concat in Hx as (d & Hd & Hx). exists (map f d). split; apply in_map; assumption.
  - intros (e & He & Hy). apply in_map_iff in He as (d & <- & Hd). apply in_map_iff in Hy as (x & <- & Hx). apply in_map, in_concat. eauto.
Qed.
Lemma ren_bits l : incl l cols -> bits_of (map f cols) (map f l) = bits_of cols l.
Proof.
  intro Il. unfold bits_of. rewrite map_map. apply map_ext_in. intros x Hx. apply Bool.eq_iff_eq_true. rewrite !lmem_iff. apply ren_in; assumption.
Qed.
Lemma ren_structure defs rows : (forall d x, In d defs -> In x d -> In x cols) ->
  structure_ok cols defs rows -> structure_ok (map f cols) (map (map f) defs) rows.
Proof.
  intros K [N R U]. constructor; [exact N| |].
  - intros r Hr. destruct (R r Hr) as (l & Ul & M). exists (map f l). split; [apply ren_union; exact Ul|].
    apply marks_unique in M. subst r. rewrite <- ren_bits by (eapply union_known; eauto). apply marks_bits.
  - intros m Hm. destruct (ren_union_back defs m Hm) as (l & Ul & E). destruct (U l Ul) as (r & Hr & M). exists r. split; [exact Hr|].
    apply marks_unique in M. subst r. rewrite <- ren_bits by (eapply union_known; eauto).
    replace (bits_of (map f cols) (map f l)) with (bits_of (map f cols) m); [apply marks_bits|]. apply bits_eq. intros x _. symmetry. apply E.
Qed.
Lemma ren_same a b : incl a cols -> incl b cols -> same_set (map f a) (map f b) -> same_set a b.
Proof.
  intros Ia Ib E x. split; intro H.
  - assert (J : In (f x) (map f b)) by (apply E, in_map, H). exact (proj1 (ren_in b x Ib (Ia x H)) J).
  - assert (J : In (f x) (map f a)) by (apply E, in_map, H). exact (proj1 (ren_in a x Ia (Ib x H)) J).
Qed.
Lemma ren_distinct defs : (forall d, In d defs -> incl d cols) -> all_distinct defs -> all_distinct (map (map f) defs).
Proof.
  intros K A. induction A as [|d defs N A IH]; [constructor|]. cbn [map]. constructor; [|apply IH; intros e He; apply K; now right].
  intros (t & Ht & Et). apply in_map_iff in Ht as (e & <- & He). apply N. exists e. split; [exact He|].
  apply ren_same; [apply K; now right|apply K; now left|exact Et].
Qed.
Lemma ren_irreducible defs d : (forall e, In e defs -> incl e cols) -> In d defs -> irreducible defs d -> irreducible (map (map f) defs) (map f d).
Proof.
  intros K Hd Irr (sub & I & N & X). assert (S : exists sub0, incl sub0 defs /\ sub = map (map f) sub0).
  { clear X N. induction sub as [|e sub IH]; [exists []; split; [intros ? []|reflexivity]|].
    destruct IH as (s0 & I0 & ->); [intros z Hz; apply I; now right|]. assert (He : In e (map (map f) defs)) by (apply I; now left).
    apply in_map_iff in He as (d' & <- & Hd'). exists (d' :: s0). split; [intros z [<-|Hz]; auto|reflexivity]. }
  destruct S as (s0 & I0 & ->). apply Irr. exists s0. split; [exact I0|]. split.
  - intros e He E. apply (N (map f e)); [apply in_map; exact He|]. intro y. split; intro H; apply in_map_iff in H as (x & <- & Hx); apply in_map, E, Hx.
  - intro x. split; intro H.
    + assert (J : In (f x) (map f d)) by (apply in_map; exact H). apply X in J as (e & He & Hx). apply in_map_iff in He as (e0 & <- & He0).
      exists e0. split; [exact He0|]. exact (proj1 (ren_in e0 x (K e0 (I0 e0 He0)) (K d Hd x H)) Hx).
    + destruct H as (e & He & Hx). assert (J : In (f x) (map f d)) by (apply X; exists (map f e); split; apply in_map; assumption).
      exact (proj1 (ren_in d x (K d Hd) (K e (I0 e He) x Hx)) J).
Qed.
Lemma ren_p_good d : p_good {| p_columns := cols; p_defs := Some d |} -> p_good {| p_columns := map f cols; p_defs := Some (map (map f) d) |}.
Proof.
  intros [C _ D I K W]. unfold get_all_defs in *. cbn [p_columns p_defs] in *. assert (K' : forall e, In e d -> incl e cols) by (intros e He x Hx; eauto).
  constructor; unfold get_all_defs; cbn [p_columns p_defs].
  - intro E. apply map_eq_nil in E. exact (C E).
  - eexists. reflexivity.
  - apply ren_distinct; assumption.
  - intros e He. apply in_map_iff in He as (e0 & <- & He0). apply ren_irreducible; auto.
  - intros e x He Hx. apply in_map_iff in He as (e0 & <- & He0). apply in_map_iff in Hx as (x0 & <- & Hx0). apply in_map. eauto.
  - apply member_structure_union. apply ren_union. apply member_structure_union. exact W.
Qed.
End Renaming.

Lemma NoDup_map_inj {A B} (f : A -> B) l : NoDup (map f l) -> forall x y, In x l -> In y l -> f x = f y -> x = y.
Proof.
  induction l as [|a l IH]; cbn [map]; intros N x y Hx Hy E; [destruct Hx|]. inversion N as [|? ? N1 N2]; subst.
  destruct Hx as [<-|Hx], Hy as [<-|Hy]; auto.
  - destruct N1. rewrite E. apply in_map. exact Hy.
  - destruct N1. rewrite <- E. apply in_map. exact Hx.
Qed.

Lemma rename_run s m s' : c_good s -> NoDup (map fst m) -> rename_index_columns m s = Ok s' ->
  c_columns s' = map (mapping_get m) (c_columns s) /\
  get_all_defs (pview s') = map (map (mapping_get m)) (get_all_defs (pview s)) /\
  c_structs s' = c_structs s /\ c_attrs s' = c_attrs s /\ c_display s' = c_display s /\ (blank s' \/ settled s').
Proof.
  intros G N H. pose proof (c_inv_rename _ _ _ (proj1 G) H) as I'.
  apply rename_index_columns_cols in H as (K & V & s1 & L & E).
  pose proof (lm_rename_spec _ _ _ L) as (_ & L1 & L2 & L3 & L4 & _).
  assert (C : c_columns s1 = map (mapping_get m) (c_columns s)).
  { apply lm_rename_map; auto.
    - apply (ci_distinct _ (proj1 G)).
    - intros x Hx. apply in_map_iff in Hx as (p & <- & Hp). auto.
    - intros x Hx Hy. apply in_map_iff in Hy as (p & <- & Hp). destruct (V _ Hx) as (_ & F & _). apply F. auto. }
  assert (Cs : c_columns s' = map (mapping_get m) (c_columns s)) by (rewrite E; exact C).
  assert (Gd : get_all_defs (pview s') = map (map (mapping_get m)) (get_all_defs (pview s))).
  { rewrite E. unfold rename_defs, with_defs, prop_update_defs, get_all_defs, pview. cbn [p_defs c_defs p_columns]. rewrite L1. destruct (c_defs s); reflexivity. }
  assert (Ss : c_structs s' = c_structs s) by (rewrite E; exact L4).
  repeat split; auto; [rewrite E; exact L2|rewrite E; exact L3|].
  destruct G as [_ [(B1 & B2 & B3)|[P S]]].
  - left. split; [rewrite Cs, B1; reflexivity|]. split; [|congruence]. rewrite E. cbn. rewrite L1, B2. reflexivity.
  - right. pose proof (no_column_twice _ _ (c_inv_names _ I')) as ND. rewrite Cs in ND. pose proof (NoDup_map_inj _ _ ND) as Inj.
    destruct (pg_defs _ P) as (d & Ed). cbn [pview p_defs] in Ed.
    assert (Pd : pview s' = {| p_columns := map (mapping_get m) (c_columns s); p_defs := Some (map (map (mapping_get m)) d) |}).
    { unfold pview. rewrite Cs. f_equal. rewrite E. cbn. rewrite L1, Ed. unfold get_all_defs. cbn. rewrite L1, Ed. reflexivity. }
    split.
    + rewrite Pd. apply ren_p_good; [exact Inj|]. unfold pview in P. rewrite Ed in P. exact P.
    + rewrite Cs, Gd, Ss. apply ren_structure; [exact Inj| |exact S]. intros e x. exact (pg_known _ P e x).
Qed.

(* -------------------------------------------------------- all the histories *)
(** Anything but dropping columns; a mapping is a dict. *)
Definition keeps_columns (o : cop) : Prop := match o with CDrop _ _ _ => False | CRename m => NoDup (map fst m) | _ => True end.

Lemma blank_no_pcall s p : blank s -> p_columns p = c_columns s -> forall s', rebuild (with_defs p s) = Ok s' -> False.
Proof.
  intros (B1 & B2 & B3) Cp s' H. unfold rebuild in H. cbn [with_defs c_columns] in H. rewrite B1 in H.
  destruct (make_structure_head (get_all_defs (pview (with_defs p s)))) as (l & E). rewrite E in H. cbn in H. discriminate H.
Qed.
Lemma settled_from_rebuild p s s' : p_good p -> p_columns p = c_columns s -> rebuild (with_defs p s) = Ok s' -> settled s'.
Proof.
  intros G Cp R. pose proof (rebuild_structure _ _ R) as S. split; [|exact S]. apply rebuild_ok in R as (R1 & R2 & _). cbn in R1, R2.
  replace (pview s') with p; [exact G|]. unfold pview. rewrite R1, R2, <- Cp. destruct p; reflexivity.
Qed.
Lemma rebuild_check_of p s s' : p_columns p = c_columns s -> rebuild (with_defs p s) = Ok s' -> ds_rebuild_check p = Ok p.
Proof.
  intros Cp H. unfold rebuild in H. unfold ds_rebuild_check. cbn [with_defs c_columns] in H. rewrite Cp.
  replace (get_all_defs (pview (with_defs p s))) with (get_all_defs p) in H by reflexivity.
  destruct (c_columns s); [reflexivity|]. destruct (get_all_defs p); [discriminate|reflexivity].
Qed.

Lemma ccall_good s o s' : c_good s -> keeps_columns o -> ccall s o = Ok s' -> c_good s'.
Proof.
  intros G Ko H. split; [exact (ccall_inv _ _ _ (proj1 G) H)|].
  destruct o as [c cs used|m|old new|c cs clash|d ds|d|d ds|attrs|a off|l off]; cbn [ccall] in H; cbn [keeps_columns] in Ko.
  - pose proof (add_index_columns_cols _ _ _ _ H) as (V & (s1 & A) & _).
    destruct (add_columns_run s (c :: cs) used s1 G ltac:(discriminate) V A) as (s2 & E & S & _). rewrite H in E. injection E as <-. now right.
  - exact (proj2 (proj2 (proj2 (proj2 (proj2 (rename_run _ _ _ G Ko H)))))).
  - rewrite rename_label_is in H. refine (proj2 (proj2 (proj2 (proj2 (proj2 (rename_run _ _ _ G _ H)))))). cbn. constructor; [intros []|constructor].
  - destruct Ko.
  - right. destruct (ds_add_partition_definitions _ _) as [p|] eqn:E; cbn [bind] in H; [|discriminate].
    assert (Cp : p_columns p = c_columns s).
    { unfold ds_add_partition_definitions in E. destruct (_ =? 0); [discriminate|]. destruct (negb _); [discriminate|]. injection E as <-. reflexivity. }
    destruct G as [_ [B|[P S]]]; [destruct (blank_no_pcall _ _ B Cp _ H)|].
    apply (settled_from_rebuild p s); auto. apply (pcall_good (pview s) (PAddMany d ds)); [exact P|]. cbn [pcall]. rewrite E. cbn [bind]. exact (rebuild_check_of _ _ _ Cp H).
  - right. destruct (ds_add_partition_definition _ _) as [p|] eqn:E; cbn [bind] in H; [|discriminate].
    pose proof (ds_add_one_cols _ _ _ E) as Cp. cbn [pview p_columns] in Cp.
    destruct G as [_ [B|[P S]]]; [destruct (blank_no_pcall _ _ B Cp _ H)|].
    apply (settled_from_rebuild p s); auto. apply (pcall_good (pview s) (PAddOne d)); [exact P|]. cbn [pcall]. rewrite E. cbn [bind]. exact (rebuild_check_of _ _ _ Cp H).
  - right. destruct (lset_in (c_columns s) (d :: ds)) eqn:E; [discriminate|]. set (p := prop_update_defs _ _) in H.
    assert (Cp : p_columns p = c_columns s) by reflexivity.
    destruct G as [_ [B|[P S]]]; [destruct (blank_no_pcall _ _ B Cp _ H)|].
    apply (settled_from_rebuild p s); auto. apply (pcall_good (pview s) (PDrop d ds)); [exact P|]. cbn [pcall]. cbn [pview p_columns]. rewrite E. exact (rebuild_check_of _ _ _ Cp H).
  - apply set_registered_spec in H as (-> & _). exact (proj2 G).
  - destruct (change_element_order _ _ _) as [l|]; cbn [bind] in H; [|discriminate]. apply set_registered_spec in H as (-> & _). exact (proj2 G).
  - destruct (change_element_order _ _ _) as [l'|]; cbn [bind] in H; [|discriminate]. apply set_display_spec in H as (-> & _). exact (proj2 G).
Qed.
Lemma crun_good ops : forall s, Forall keeps_columns ops -> c_good s -> c_good (crun s ops).
Proof.
  induction ops as [|o ops IH]; intros s F H; [exact H|]. inversion F; subst. cbn [crun fold_left]. apply IH; [assumption|]. unfold cstep.
  destruct (ccall s o) as [s'|] eqn:E; [|exact H]. eapply ccall_good; eauto.
Qed.
