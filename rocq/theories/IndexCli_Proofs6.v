(** The exported table, and loading as an operation of the space. *)
From Coq Require Import NArith Permutation.
From Verif Require Import Prelude Selectors_Model Selectors_Proofs Reader_Model Reader_Proofs LinkRef_Model LinkRef_Proofs IndexCode_Model IndexCode_Spec IndexCode_Proofs IndexCode_Proofs2 IndexCode_Proofs3
  Db_Model Db_Spec Db_Proofs Db_ProofsLocal Db_ProofsInv2 Db_ProofsRun Db_ProofsOps Db_ProofsOps2 Db_ProofsOps3
  Streams_Model Streams_Spec Streams_Proofs IndexCli_Model IndexCli_Spec IndexCli_Proofs IndexCli_Proofs2 IndexCli_Proofs3 IndexCli_Proofs4 IndexCli_Proofs5.
Local Open Scope nat_scope.
Local Notation group := Db_Model.group.

(** *** Ids fit into 64 bits *)
Lemma seq_prim s s' : prim s s' -> (d_seq s <= max_id)%Z -> (d_seq s' <= max_id)%Z.
Proof.
  intros P L. destruct P;
    try (solve [match goal with H : _ = Ok _ |- _ => eq_prim H; exact L | |- _ => exact L end]).
  - unfold index_add in H. destruct labels; [discriminate|]. repeat step_res H. subst. cbn [set_index_seq d_seq]. lia.
  - unfold group_delete. cbn [d_fk set_groups]. destruct (d_fk s); exact L.
  - unfold link_delete. cbn [d_fk set_links]. destruct (d_fk s); exact L.
Qed.
Lemma seq_run ops : (d_seq (run ops fresh) <= max_id)%Z.
Proof.
  induction ops as [|o ops IH] using rev_ind; [cbn; unfold max_id; lia|]. rewrite run_app. cbn [run].
  destruct (is_reopen_dec o) as [R|R].
  - destruct o; cbn in R; try contradiction. exact IH.
  - exact (steps_inv _ seq_prim _ _ (step_steps o (run ops fresh) R) IH).
Qed.

(** *** The table *)
Section Export.
Context (todecimal : N -> option N) (show : Q -> text) (u : list N).

Lemma row_succeeds s r : fits (ix_id r) -> exists row, index_row show u s r = Ok row.
Proof. intros F. destruct (code_round_trip todecimal (ix_id r) u F) as (t & E & _). unfold index_row. rewrite E. cbn [bind]. eauto. Qed.
Lemma export_succeeds h s : index_wf s -> (d_seq s <= max_id)%Z -> exists rows, write_index show u h s = Ok rows.
Proof.
  intros W L. unfold write_index. assert (F : forall r, In r (d_index s) -> exists row, index_row show u s r = Ok row).
  { intros r Hr. apply row_succeeds. pose proof (iw_range _ W r Hr). unfold fits, max_id in *. lia. }
  assert (exists l, traverse (index_row show u s) (d_index s) = Ok l) as (l & ->); [|cbn [bind]; eauto].
  induction (d_index s) as [|r R IH]; [exists []; reflexivity|]. destruct (F r) as (row & Er); [now left|].
  destruct IH as (l & El); [intros x Hx; apply F; now right|]. rewrite traverse_cons, Er, El. cbn [bind]. eauto.
Qed.

Lemma find_weighs s g r : index_wf s -> weights_wf s -> In g (d_groups s) -> In r (d_index s) -> forall q,
  weighs s (g_name g) (ix_labels r) q <-> exists w, weight_find (g_id g) (ix_id r) s = Some w /\ w_value w = q.
Proof.
  intros W Ww Hg Hr q. split.
  - intros (g' & x' & w & Hg' & En & Hx' & El & Hw & Wg & Wi & Wv). exists w. split; auto.
    assert (g' = g) by (apply (nodup_map_inj g_name (d_groups s)); auto; apply (ww_groups _ Ww)).
    assert (x' = r) by now apply (iw_labels _ W). subst. now apply weight_find_at.
  - intros (w & E & Ev). unfold weight_find in E. apply find_some in E. destruct E as [Hw E]. apply weight_is_iff in E. destruct E as [E1 E2].
    exists g, r, w. auto 10.
Qed.

Lemma row_content s r row : index_wf s -> weights_wf s -> In r (d_index s) -> index_row show u s r = Ok row ->
  row_tells todecimal show u s (map g_name (sorted_groups s)) r row.
Proof.
  intros W Ww Hr H. unfold index_row in H. destruct (index_id_to_code (ix_id r) u) as [c|e] eqn:Ec; cbn [bind] in H; [|discriminate]. injection H as <-.
  exists c, (map (fun g => CText (weight_text show s (ix_id r) g)) (sorted_groups s)). split; [reflexivity|].
  split; [now apply code_decodes|].
  assert (Hg : forall g, In g (sorted_groups s) -> In g (d_groups s)) by (intros g; apply sorted_groups_in).
  assert (F : forall (P : text -> cell -> Prop) l, (forall g, In g l -> P (g_name g) (CText (weight_text show s (ix_id r) g))) ->
     Forall2 P (map g_name l) (map (fun g => CText (weight_text show s (ix_id r) g)) l)).
  { clear. intros P l. induction l as [|g l IH]; intros H; cbn [map]; constructor; [apply H; now left|]. apply IH. intros x Hx. apply H. now right. }
  split; apply F; intros g Hgg.
  - intros v Hv. apply (find_weighs s g r W Ww (Hg g Hgg) Hr) in Hv. destruct Hv as (w & E & <-). unfold weight_text. now rewrite E.
  - intros Hv. unfold weight_text. destruct (weight_find (g_id g) (ix_id r) s) as [w|] eqn:E; [|now destruct (ix_id r =? 0)%Z].
    exfalso. apply (Hv (w_value w)). apply (find_weighs s g r W Ww (Hg g Hgg) Hr). eauto.
Qed.
Lemma export_rows h s rows : index_wf s -> weights_wf s -> write_index show u h s = Ok rows ->
  exists body, rows = index_header h s :: body /\ Forall2 (row_tells todecimal show u s (map g_name (sorted_groups s))) (d_index s) body.
Proof.
  intros W Ww. unfold write_index. destruct (traverse (index_row show u s) (d_index s)) as [l|e] eqn:E; cbn [bind]; [|discriminate]. intros [= <-].
  exists l. split; auto. apply traverse_ok in E.
  assert (G : forall R l, incl R (d_index s) -> Forall2 (fun r row => index_row show u s r = Ok row) R l -> Forall2 (row_tells todecimal show u s (map g_name (sorted_groups s))) R l).
  { clear - W Ww. intros R l Hi F. induction F; constructor; [apply row_content; auto; apply Hi; now left|]. apply IHF. intros x' Hx. apply Hi. now right. }
  apply G; [apply incl_refl|exact E].
Qed.
End Export.

(** *** The order of the groups *)
Section Order.
Context (s : db) (Ww : weights_wf s).

Lemma leb_before a b : In a (d_groups s) -> In b (d_groups s) -> group_leb (default_id s) a b = true -> comes_before s (g_name a) (g_name b).
Proof.
  intros Ha Hb. assert (D : forall g, In g (d_groups s) -> is_default s (g_name g) <-> not_default (default_id s) g = false).
  { intros g Hg. unfold is_default, not_default, default_id. destruct (d_default s) as [[i|]|].
    - split.
      + intros (g' & Hg' & En & [= ->]). assert (g' = g) by (apply (nodup_map_inj g_name (d_groups s)); auto; apply (ww_groups _ Ww)). subst. rewrite Z.eqb_refl. reflexivity.
      + intros E. exists g. repeat split; auto. repeat f_equal. lia.
    - split; [intros (g' & _ & _ & E); discriminate|discriminate].
    - split; [intros (g' & _ & _ & E); discriminate|discriminate]. }
  unfold group_leb, comes_before. rewrite (D a Ha), (D b Hb). destruct (not_default (default_id s) a), (not_default (default_id s) b); try discriminate; auto.
  intros E. apply negb_true_iff in E. right. split; [discriminate|exact E].
Qed.
Lemma leb_total a b : group_leb (default_id s) a b = false -> group_leb (default_id s) b a = true.
Proof.
  unfold group_leb. destruct (not_default (default_id s) a), (not_default (default_id s) b); try discriminate; auto; rewrite negb_false_iff, negb_true_iff; intros H;
    destruct (text_ltb (g_name a) (g_name b)) eqn:E; auto; pose proof (text_ltb_trans _ _ _ H E) as X; now rewrite text_ltb_irrefl in X.
Qed.
Lemma leb_trans a b c : group_leb (default_id s) a b = true -> group_leb (default_id s) b c = true -> group_leb (default_id s) a c = true.
Proof.
  unfold group_leb. destruct (not_default (default_id s) a), (not_default (default_id s) b), (not_default (default_id s) c); try discriminate; auto; rewrite !negb_true_iff; intros H1 H2;
    destruct (text_ltb (g_name c) (g_name a)) eqn:E; auto;
    (destruct (text_ltb (g_name a) (g_name b)) eqn:X; [pose proof (text_ltb_trans _ _ _ E X)|pose proof (text_ltb_total _ _ X H1)]); congruence.
Qed.
Fixpoint ascending (l : list group) : Prop :=
  match l with [] => True | g :: l' => (forall h, In h l' -> group_leb (default_id s) g h = true) /\ ascending l' end.
Lemma insert_ascending g l : ascending l -> ascending (insert_group (default_id s) g l).
Proof.
  induction l as [|h l IH]; intros H; cbn [insert_group]; [cbn; tauto|]. destruct H as [H1 H2]. destruct (group_leb (default_id s) g h) eqn:E.
  - cbn [ascending]. repeat split; auto. intros x [<-|Hx]; auto. eapply leb_trans; eauto.
  - cbn [ascending]. split; auto. intros x Hx. apply (Permutation_in _ (insert_group_perm _ g l)) in Hx. destruct Hx as [<-|Hx]; auto. now apply leb_total.
Qed.
Lemma groups_in_order : in_order (comes_before s) (map g_name (sorted_groups s)).
Proof.
  assert (A : ascending (sorted_groups s)) by (unfold sorted_groups; induction (d_groups s); cbn [fold_right]; [exact I|now apply insert_ascending]).
  assert (Hg : incl (sorted_groups s) (d_groups s)) by (intros g; apply sorted_groups_in).
  induction (sorted_groups s) as [|g l IH]; cbn [map]; constructor; destruct A as [A1 A2].
  - intros m Hm. apply in_map_iff in Hm. destruct Hm as (h & <- & Hh). apply leb_before; [apply Hg; now left|apply Hg; now right|auto].
  - apply IH; auto. intros x Hx. apply Hg. now right.
Qed.
End Order.

(** *** Loading is an operation of the space *)
Lemma import_is_op todecimal read_float nd lpol wpol reader s :
  exists ops, fst (import_index todecimal read_float nd lpol wpol reader s) = run ops s.
Proof.
  unfold import_index. destruct (read_index_stdin todecimal nd reader) as [it|e]; [|exists []; reflexivity].
  unfold transact. destruct (insert_index_table todecimal read_float lpol wpol it s) as [s'|e] eqn:E; [|exists []; destruct e; reflexivity].
  unfold insert_index_table in E. destruct (normalize_tabular (DIter it) None) as [[data columns]|e]; cbn [bind] in E; [|discriminate].
  destruct (nil_b (d_labels s)); [discriminate|]. destruct (label_positions (d_labels s) columns) as [pos|e]; cbn [bind] in E; [|discriminate].
  destruct (resolve_rows todecimal read_float (d_groups s) pos columns data) as [rows stop].
  destruct (insert_index None (map name_of columns) lpol wpol rows s) as [s''|e] eqn:Ei; cbn [bind] in E; [|discriminate].
  destruct stop; [discriminate|]. injection E as ->.
  exists [OInsertIndex None (map name_of columns) lpol wpol rows]. cbn [run step]. unfold transact. rewrite Ei.
  destruct (d_fk s' && negb (fk_ok s')); reflexivity.
Qed.

(** *** Which rows can be loaded into their own space *)
Section Loadable.
Context (todecimal : N -> option N) (show : Q -> text) (read_float : text -> option Q) (nd : node).
Notation u := (n_id_bytes nd).

Lemma strict_dec pol : strict pol \/ pol = PIgnore \/ pol = PReplace.
Proof. destruct pol; auto; left; split; discriminate. Qed.
Lemma weight_ok_cases s wpol i : weights_wf s ->
  Forall (own_weight_ok s wpol i) (sorted_groups s) \/
  ~ Forall (own_weight_ok s wpol i) (sorted_groups s) /\ (i = 0%Z /\ d_groups s <> [] \/ strict wpol /\ weighted s i).
Proof.
  intros Ww. assert (H : forall g, own_weight_ok s wpol i g \/ ~ own_weight_ok s wpol i g /\ (i = 0%Z \/ strict wpol /\ exists w, weight_find (g_id g) i s = Some w)).
  { intros g. unfold own_weight_ok. destruct (weight_find (g_id g) i s) as [w|] eqn:E.
    - destruct (strict_dec wpol) as [S|S]; [right|left; exact S]. destruct S as [S1 S2]. split; [intros [?|?]; contradiction|]. right. split; [split; auto|eauto].
    - destruct (Z.eq_dec i 0) as [Z|Z]; [right|left; exact Z]. split; auto. }
  assert (Hg : forall g, In g (sorted_groups s) -> In g (d_groups s)) by (intros g; apply sorted_groups_in).
  induction (sorted_groups s) as [|g l IH]; [left; constructor|].
  destruct IH as [IH|[IH IH']]; [intros x Hx; apply Hg; now right| |right; split; [intros F; inversion F; contradiction|exact IH']].
  destruct (H g) as [A|[A B]]; [left; now constructor|]. right. split; [intros F; inversion F; contradiction|].
  assert (Hin : In g (d_groups s)) by (apply Hg; now left). destruct B as [B|[B (w & C)]].
  - left. split; auto. intros E. rewrite E in Hin. destruct Hin.
  - right. split; auto. unfold weight_find in C. apply find_some in C. destruct C as [C1 C2]. apply weight_is_iff in C2. destruct C2. exists g, w. auto.
Qed.
Lemma not_ok_bad s wpol i : weights_wf s -> (i = 0%Z /\ d_groups s <> [] \/ strict wpol /\ weighted s i) -> ~ Forall (own_weight_ok s wpol i) (sorted_groups s).
Proof.
  intros Ww [[-> H]|[[S1 S2] (g & w & Hg & Hw & E1 & E2)]] F; rewrite Forall_forall in F.
  - destruct (d_groups s) as [|g l] eqn:E; [congruence|]. assert (Hin : In g (sorted_groups s)) by (apply sorted_groups_in; rewrite E; now left).
    apply F in Hin. unfold own_weight_ok in Hin. rewrite no_weight_0 in Hin by auto. congruence.
  - apply sorted_groups_in in Hg. apply F in Hg. unfold own_weight_ok in Hg. rewrite (weight_find_at (g_id g) i s w Ww Hw E1 E2) in Hg. destruct Hg; contradiction.
Qed.

Theorem own_space s h rows rows' lpol wpol :
  inv s -> (d_fk s = true -> inv_fk s) -> d_labels s <> [] ->
  good_names todecimal u (index_header h s) -> good_labels todecimal u s -> faithful show read_float ->
  write_index show u h s = Ok rows -> incl rows' (tl rows) ->
  let result := import_index todecimal read_float nd lpol wpol (reader_of (index_header h s :: rows')) s in
  (Exists (unloadable todecimal u wpol s) rows' -> result = (s, Ok ExitErr)) /\
  (~ Exists (unloadable todecimal u wpol s) rows' -> result = (s, Ok ExitOk)).
Proof.
  intros I F Hl Hn Hgl Hf Hw Hi result.
  destruct (own_import todecimal show read_float nd s h rows rows' lpol wpol I F Hl Hn Hgl Hf Hw Hi) as (R & Hin & -> & A & B).
  destruct (exported_all todecimal show nd s h rows Hw) as (_ & _ & Hd). fold result in A, B.
  assert (Hcode : forall r i, In r R -> row_of todecimal u i (own_cells show s (fun r => CText (the_code nd (ix_id r))) r) <-> i = ix_id r).
  { intros r i Hr. unfold row_of, own_cells, the_cells. split.
    - intros (code & rest & [= <- _] & D). rewrite Hd in D by auto. congruence.
    - intros ->. eexists _, _. split; [reflexivity|]. auto. }
  split; intros H.
  - apply B. apply Exists_exists in H. destruct H as (row & Hrow & i & Hro & Hbad). apply in_map_iff in Hrow. destruct Hrow as (r & <- & Hr).
    apply Hcode in Hro; auto. subst i. apply Exists_exists. exists r. split; auto. apply not_ok_bad; auto. apply (i_weights _ I).
  - apply A. apply Forall_forall. intros r Hr. destruct (weight_ok_cases s wpol (ix_id r) (i_weights _ I)) as [C|[_ C]]; auto.
    exfalso. apply H. apply Exists_exists. eexists. split; [apply in_map; exact Hr|]. exists (ix_id r). split; [now apply Hcode|exact C].
Qed.
End Loadable.
