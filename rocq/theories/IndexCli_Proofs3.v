(** Loading an exported table into the space it came from. *)
From Coq Require Import NArith Permutation.
From Verif Require Import Prelude Selectors_Model Selectors_Proofs Reader_Model LinkRef_Model LinkRef_Proofs IndexCode_Model IndexCode_Spec IndexCode_Proofs IndexCode_Proofs2 IndexCode_Proofs3
  Db_Model Db_Spec Db_Proofs Db_ProofsLocal Db_ProofsRun Db_ProofsOps Db_ProofsOps2 Db_ProofsOps3
  Streams_Model Streams_Spec Streams_Proofs IndexCli_Model IndexCli_Spec IndexCli_Proofs IndexCli_Proofs2.
Local Open Scope nat_scope.
Local Notation group := Db_Model.group.

Lemma code_decodes todecimal i u t : index_id_to_code i u = Ok t -> t <> [] /\ index_code_to_id todecimal t u = Ok i.
Proof.
  intros H. assert (F : fits i).
  { destruct (Z_le_dec (- 2 ^ 63) i) as [A|A]; [destruct (Z_lt_dec i (2 ^ 63)) as [B|B]|]; [split; assumption| |];
      rewrite code_overflow in H by (intros [? ?]; contradiction); discriminate. }
  destruct (code_round_trip todecimal i u F) as (t' & E & D). rewrite H in E. injection E as <-. split; auto.
  unfold index_id_to_code in H. destruct (pack_i64_be i); cbn [bind] in H; [|discriminate]. injection H as <-.
  intros E. apply app_eq_nil in E. destruct E as [_ E]. discriminate.
Qed.

Lemma set_weights_same s : set_weights (d_weights s) s = s.
Proof. now destruct s. Qed.
Lemma clash_in labels l r : In r l -> ix_labels r = labels -> labels_clash labels l = true.
Proof. intros H <-. apply existsb_exists. exists r. split; auto. now apply labels_eqb_iff. Qed.
Lemma by_labels_at s r : index_wf s -> In r (d_index s) -> index_by_labels (ix_labels r) s = Some r.
Proof.
  intros W H. unfold index_by_labels. destruct (find (fun x => labels_eqb (ix_labels x) (ix_labels r)) (d_index s)) as [x|] eqn:E.
  - apply find_some in E. destruct E as [Hx E]. apply labels_eqb_iff in E. f_equal. now apply (iw_labels _ W).
  - exfalso. eapply find_none in E; [|exact H]. cbn in E. assert (labels_eqb (ix_labels r) (ix_labels r) = true) by now apply labels_eqb_iff. congruence.
Qed.
Lemma get_at s r : index_wf s -> In r (d_index s) -> index_get (ix_id r) s = Ok r.
Proof. intros W H. unfold index_get. destruct r as [i l]. cbn [ix_id]. now rewrite (index_find_in i l s W H). Qed.
Lemma add_clash s r : index_wf s -> d_labels s <> [] -> In r (d_index s) -> index_add (ix_labels r) s = Err ValueError.
Proof.
  intros W Hl H. unfold index_add. pose proof (iw_arity _ W r H) as A. destruct (ix_labels r) as [|x l] eqn:E.
  - destruct (d_labels s); [congruence|discriminate].
  - rewrite A, Nat.eqb_refl. cbn [negb]. destruct (existsb is_empty (x :: l)) eqn:Ee; [reflexivity|].
    now rewrite (clash_in (x :: l) (d_index s) r H E).
Qed.

Section Own.
Context (show : Q -> text) (read_float : text -> option Q) (s : db).
Context (Hf : faithful show read_float) (W : index_wf s) (Ww : weights_wf s) (Hl : d_labels s <> []).
Notation G := (sorted_groups s).

Lemma own_label lpol id r st : is_db st = s -> In r (d_index s) -> id = Some (ix_id r) \/ id = None ->
  label_part lpol id (ix_labels r) st = Ok (st, ix_id r).
Proof.
  intros Es Hr [-> | ->]; unfold label_part; rewrite Es.
  - rewrite get_at by auto. cbn [bind]. replace (labels_eqb (ix_labels r) (ix_labels r)) with true by (symmetry; now apply labels_eqb_iff).
    now rewrite orb_true_r.
  - rewrite add_clash by auto. now rewrite by_labels_at by auto.
Qed.
Lemma own_find g : In g G -> group_of (d_groups s) (g_name g) = Some g.
Proof. intros H. apply group_of_some; [apply (ww_groups _ Ww)|now apply sorted_groups_in]. Qed.
Lemma read_shown q : weight_cell read_float (CText (show q)) = CNum q.
Proof. destruct (Hf q) as (H1 & H2 & _). cbn [weight_cell]. destruct (show q) eqn:E; [congruence|]. now rewrite H1. Qed.
Lemma no_weight_0 g : weight_find g 0 s = None.
Proof.
  destruct (weight_find g 0 s) as [w|] eqn:E; auto. unfold weight_find in E. apply find_some in E. destruct E as [Hw E].
  apply weight_is_iff in E. pose proof (ww_defined _ Ww w Hw). lia.
Qed.
Lemma weight_update_same g i w : weight_find g i s = Some w -> weight_update g i (w_value w) s = Ok s.
Proof.
  intros E. unfold weight_find in E. apply find_some in E. destruct E as [Hw E]. apply weight_is_iff in E. destruct E as [Eg Ei].
  unfold weight_update. replace (Qle_bool 0 (w_value w)) with true by (symmetry; apply Qle_bool_iff, (ww_nonneg _ Ww _ Hw)). cbn [negb].
  f_equal. rewrite (map_ext_in _ (fun x => x)); [rewrite map_id; apply set_weights_same|]. intros x Hx.
  destruct (weight_is g i x) eqn:Ex; auto. apply weight_is_iff in Ex. destruct Ex as [Xg Xi].
  replace x with w; [destruct w; cbn in *; subst; reflexivity|].
  apply (nodup_map_inj (fun w => (w_group w, w_index w)) (d_weights s)); auto; [apply (ww_unique _ Ww)|]. congruence.
Qed.

(** A weight of a record of the space. *)
Definition own_weight_ok (wpol : policy) (i : Z) (g : group) : Prop :=
  match weight_find (g_id g) i s with Some _ => wpol = PIgnore \/ wpol = PReplace | None => i <> 0%Z end.
Lemma own_item wpol i st g : is_db st = s -> In g G ->
  (own_weight_ok wpol i g -> insert_index_weight wpol i st (weight_item read_float (d_groups s) (weight_text show s i) g) = Ok st) /\
  (~ own_weight_ok wpol i g -> insert_index_weight wpol i st (weight_item read_float (d_groups s) (weight_text show s i) g) = Err ValueError).
Proof.
  intros Es Hg. unfold weight_item. rewrite named_group_of. cbn [name_of code_text]. rewrite (own_find g Hg).
  unfold weight_text, own_weight_ok. destruct (weight_find (g_id g) i s) as [w|] eqn:E.
  - rewrite read_shown. cbn [insert_index_weight]. rewrite Es, E. split.
    + intros [-> | ->]; [reflexivity|]. rewrite (weight_update_same _ _ _ E). cbn [bind]. rewrite <- Es. now destruct st.
    + intros H. destruct wpol; try reflexivity; exfalso; auto.
  - destruct (i =? 0)%Z eqn:Ei.
    + rewrite read_shown. cbn [insert_index_weight]. rewrite Es, E. split; [intros; lia|]. intros _. unfold weight_add. now rewrite Ei.
    + split; [reflexivity|]. intros H. exfalso. apply H. lia.
Qed.
Lemma own_weights wpol i l : incl l G -> forall st, is_db st = s ->
  (Forall (own_weight_ok wpol i) l -> fold_res (fun st g => insert_index_weight wpol i st (weight_item read_float (d_groups s) (weight_text show s i) g)) l st = Ok st) /\
  (~ Forall (own_weight_ok wpol i) l -> fold_res (fun st g => insert_index_weight wpol i st (weight_item read_float (d_groups s) (weight_text show s i) g)) l st = Err ValueError).
Proof.
  induction l as [|g l IH]; intros Hi st Es; cbn [fold_res].
  - split; [reflexivity|]. intros H. exfalso. apply H. constructor.
  - destruct (own_item wpol i st g Es) as [A B]; [apply Hi; now left|].
    destruct (IH (fun x Hx => Hi x (or_intror Hx)) st Es) as [C D].
    assert (Dec : own_weight_ok wpol i g \/ ~ own_weight_ok wpol i g).
    { unfold own_weight_ok. destruct (weight_find (g_id g) i s); [|destruct (Z.eq_dec i 0); [right|left]; lia].
      destruct wpol; (left; auto; fail) || (right; intros [?|?]; discriminate). }
    split.
    + intros H. inversion H; subst. rewrite A by auto. cbn [bind]. auto.
    + intros H. destruct Dec as [Dg|Dg]; [|now rewrite B by auto]. rewrite A by auto. cbn [bind]. apply D. intros F. apply H. now constructor.
Qed.
Lemma own_row lpol wpol id r st : is_db st = s -> In r (d_index s) -> id = Some (ix_id r) \/ id = None ->
  (Forall (own_weight_ok wpol (ix_id r)) G -> apply_row read_float lpol wpol (d_groups s) G id (ix_labels r) (weight_text show s (ix_id r)) st = Ok st) /\
  (~ Forall (own_weight_ok wpol (ix_id r)) G -> apply_row read_float lpol wpol (d_groups s) G id (ix_labels r) (weight_text show s (ix_id r)) st = Err ValueError).
Proof.
  intros Es Hr Hid. unfold apply_row. rewrite own_label by auto. cbn [bind fst snd]. apply own_weights; auto. apply incl_refl.
Qed.
Lemma own_rows lpol wpol idof R : incl R (d_index s) -> (forall r, idof r = Some (ix_id r) \/ idof r = None) -> forall st, is_db st = s ->
  (Forall (fun r => Forall (own_weight_ok wpol (ix_id r)) G) R ->
     fold_res (fun st r => apply_row read_float lpol wpol (d_groups s) G (idof r) (ix_labels r) (weight_text show s (ix_id r)) st) R st = Ok st) /\
  (Exists (fun r => ~ Forall (own_weight_ok wpol (ix_id r)) G) R ->
     fold_res (fun st r => apply_row read_float lpol wpol (d_groups s) G (idof r) (ix_labels r) (weight_text show s (ix_id r)) st) R st = Err ValueError).
Proof.
  induction R as [|r R IH]; intros Hi Hid st Es; cbn [fold_res].
  - split; [reflexivity|]. intros H. inversion H.
  - destruct (own_row lpol wpol (idof r) r st Es) as [A B]; [apply Hi; now left|apply Hid|].
    destruct (IH (fun x Hx => Hi x (or_intror Hx)) Hid st Es) as [C D].
    assert (Dec : forall l, Forall (own_weight_ok wpol (ix_id r)) l \/ ~ Forall (own_weight_ok wpol (ix_id r)) l).
    { induction l as [|g l [IHl|IHl]]; [left; constructor| |right; intros F; inversion F; contradiction].
      assert (Dg : own_weight_ok wpol (ix_id r) g \/ ~ own_weight_ok wpol (ix_id r) g).
      { unfold own_weight_ok. destruct (weight_find (g_id g) (ix_id r) s); [|destruct (Z.eq_dec (ix_id r) 0); [right|left]; lia].
        destruct wpol; (left; auto; fail) || (right; intros [?|?]; discriminate). }
      destruct Dg; [left; now constructor|right; intros F; inversion F; contradiction]. }
    split.
    + intros H. inversion H; subst. rewrite A by auto. cbn [bind]. auto.
    + intros H. destruct (Dec G) as [Dg|Dg]; [|now rewrite B by auto]. rewrite A by auto. cbn [bind]. apply D. inversion H; subst; [contradiction|auto].
Qed.
End Own.

Section Table.
Context (todecimal : N -> option N) (show : Q -> text) (read_float : text -> option Q) (nd : node).
Notation u := (n_id_bytes nd).
Notation G s := (sorted_groups s).

Definition the_code (i : Z) : text := match index_id_to_code i u with Ok c => c | Err _ => [] end.
Definition own_cells (s : db) (first : ixrec -> cell) (r : ixrec) : list cell :=
  the_cells (first r) (ix_labels r) (weight_text show s (ix_id r)) (G s).
Lemma row_is s r row : index_row show u s r = Ok row -> index_id_to_code (ix_id r) u = Ok (the_code (ix_id r)) /\ row = own_cells s (fun r => CText (the_code (ix_id r))) r.
Proof.
  unfold index_row, own_cells, the_code, the_cells. destruct (index_id_to_code (ix_id r) u); cbn [bind]; [|discriminate]. intros [= <-]. auto.
Qed.
(** Some rows of an exported table are the rows of some records. *)
Lemma exported_rows s h rows rows' : write_index show u h s = Ok rows -> incl rows' (tl rows) ->
  exists R, incl R (d_index s) /\ rows' = map (own_cells s (fun r => CText (the_code (ix_id r)))) R /\
    Forall (fun r => index_id_to_code (ix_id r) u = Ok (the_code (ix_id r))) R.
Proof.
  unfold write_index. destruct (traverse (index_row show u s) (d_index s)) as [l|e] eqn:E; cbn [bind]; [|discriminate]. intros [= <-]. cbn [tl].
  apply traverse_ok in E. intros Hi.
  assert (F : forall row, In row rows' -> exists r, In r (d_index s) /\ index_row show u s r = Ok row).
  { intros row Hr. apply Hi in Hr. clear - E Hr. induction E; [destruct Hr|]. destruct Hr as [<-|Hr]; [exists x; split; auto; now left|].
    destruct (IHE Hr) as (r & ? & ?). exists r. split; auto. now right. }
  clear E Hi. induction rows' as [|row rows' IH]; [exists []; repeat split; try constructor; intros x []|].
  destruct IH as (R & H1 & -> & H2); [intros x Hx; apply F; now right|]. destruct (F row) as (r & Hr & Er); [now left|].
  destruct (row_is s r row Er) as [Ec ->]. exists (r :: R). split; [intros x [<-|Hx]; auto|]. split; [reflexivity|]. now constructor.
Qed.

Lemma transact_same body s : body s = Ok s -> (d_fk s = true -> fk_ok s = true) -> transact body s = (s, None).
Proof. intros E F. unfold transact. rewrite E. destruct (d_fk s); cbn [andb]; [now rewrite F by auto|reflexivity]. Qed.

(** What the table is read as: the codes stay or become ids. *)
Lemma read_cases s h R : good_names todecimal u (index_header h s) -> good_labels todecimal u s -> faithful show read_float ->
  incl R (d_index s) -> Forall (fun r => index_id_to_code (ix_id r) u = Ok (the_code (ix_id r))) R ->
  exists c0 first, (c0 = CText (code_header h) /\ first = (fun r => CText (the_code (ix_id r))) \/ c0 = CText (txt "index_id") /\ first = (fun r => COther (ix_id r))) /\
    read_index_stdin todecimal nd (reader_of (index_header h s :: map (own_cells s (fun r => CText (the_code (ix_id r)))) R)) =
    Ok (reader_of (the_cells c0 (d_labels s) g_name (G s) :: map (own_cells s first) R)).
Proof.
  intros Hn Hgl Hf Hi Hc.
  set (its := map (fun r => (the_code (ix_id r), ix_id r, map CText (ix_labels r) ++ map (fun g => CText (weight_text show s (ix_id r) g)) (G s))) R).
  destruct (read_own todecimal nd (CText (code_header h)) (map CText (d_labels s) ++ map (fun g => CText (g_name g)) (G s)) its) as [E|E].
  - unfold its. rewrite Forall_forall in *. intros x Hx. apply in_map_iff in Hx. destruct Hx as (r & <- & Hr). destruct (code_decodes todecimal _ _ _ (Hc r Hr)) as [A B].
    split; auto. split; auto. intros t Ht. apply in_app_or in Ht. destruct Ht as [Ht|Ht]; apply in_map_iff in Ht; destruct Ht as (y & Ey & Hy).
    + injection Ey as <-. apply (Hgl r); auto.
    + injection Ey as <-. rewrite noX_no_code; [discriminate|]. unfold weight_text. destruct (weight_find (g_id y) (ix_id r) s); [apply Hf|].
      destruct (ix_id r =? 0)%Z; [apply Hf|intros []].
  - exact Hn.
  - exists (CText (code_header h)), (fun r => CText (the_code (ix_id r))). split; [now left|].
    unfold its in E. rewrite map_map in E. exact E.
  - exists (CText (txt "index_id")), (fun r => COther (ix_id r)). split; [now right|].
    unfold its in E. rewrite !map_map in E. exact E.
Qed.

(** The id in a row. *)
Lemma id_code s h (rest : list cell) : ~ In (CText (txt "index_id")) (index_header h s) ->
  raw_index_id todecimal (index_header h s) rest = Ok None.
Proof. intros H. unfold raw_index_id. now rewrite index_from_none. Qed.
Theorem own_import s h rows rows' lpol wpol :
  inv s -> (d_fk s = true -> inv_fk s) -> d_labels s <> [] ->
  good_names todecimal u (index_header h s) -> good_labels todecimal u s -> faithful show read_float ->
  write_index show u h s = Ok rows -> incl rows' (tl rows) ->
  exists R, incl R (d_index s) /\ rows' = map (own_cells s (fun r => CText (the_code (ix_id r)))) R /\
    (Forall (fun r => Forall (own_weight_ok s wpol (ix_id r)) (G s)) R ->
       import_index todecimal read_float nd lpol wpol (reader_of (index_header h s :: rows')) s = (s, Ok ExitOk)) /\
    (Exists (fun r => ~ Forall (own_weight_ok s wpol (ix_id r)) (G s)) R ->
       import_index todecimal read_float nd lpol wpol (reader_of (index_header h s :: rows')) s = (s, Ok ExitErr)).
Proof.
  intros I F Hl Hn Hgl Hf Hw Hi. destruct (exported_rows s h rows rows' Hw Hi) as (R & Hin & -> & Hc). exists R. split; auto. split; auto.
  destruct (read_cases s h R Hn Hgl Hf Hin Hc) as (c0 & first & Hcase & Er). unfold import_index. rewrite Er.
  pose proof (i_index _ I) as W. pose proof (i_weights _ I) as Ww.
  assert (Hid : exists idof, (forall r, idof r = Some (ix_id r) \/ idof r = None) /\
     insert_index_table todecimal read_float lpol wpol (reader_of (the_cells c0 (d_labels s) g_name (G s) :: map (own_cells s first) R)) s =
     do st <- fold_res (fun st r => apply_row read_float lpol wpol (d_groups s) (G s) (idof r) (ix_labels r) (weight_text show s (ix_id r)) st) R (start s); Ok (finish st)).
  { destruct Hn as (Nd & Hno & _).
    assert (Nd2 : NoDup (map CText (d_labels s) ++ map (fun g => CText (g_name g)) (G s))) by (inversion Nd; auto).
    assert (Hno2 : ~ In (CText (txt "index_id")) (map CText (d_labels s) ++ map (fun g => CText (g_name g)) (G s))) by (intros X; apply Hno; now right).
    assert (Hgs : forall g, In g (d_groups s) -> ~ In (g_name g) (d_labels s)).
    { intros g Hg Hin'. apply sorted_groups_in in Hg. clear - Nd2 Hg Hin'. induction (d_labels s) as [|x l IH]; [destruct Hin'|]. inversion Nd2; subst.
      destruct Hin' as [->|Hin']; auto. apply H1. apply in_or_app. right. change (CText (g_name g)) with ((fun g => CText (g_name g)) g). now apply in_map. }
    assert (HR : forall r, In r R -> length (ix_labels r) = length (d_labels s) /\ (forall x, In x (ix_labels r) -> x <> [])).
    { intros r Hr. split; [now apply (iw_arity _ W), Hin|]. intros x Hx. apply (iw_filled _ W r); auto. }
    destruct Hcase as [[-> ->]|[-> ->]].
    - exists (fun _ => None). split; [auto|]. apply (table_fold todecimal read_float lpol wpol s (CText (code_header h)) (d_labels s) (G s) R); auto.
      + intros g Hg. split; auto. intros Eg. cbn [name_of code_text] in Eg. apply sorted_groups_in in Hg. inversion Nd; subst. apply H1.
        rewrite <- Eg. apply in_or_app. right. change (CText (g_name g)) with ((fun g => CText (g_name g)) g). now apply in_map.
      + intros r _. apply (id_code s h), Hno.
    - exists (fun r => Some (ix_id r)). split; [auto|]. apply (table_fold todecimal read_float lpol wpol s (CText (txt "index_id")) (d_labels s) (G s) R); auto.
      + constructor; auto.
      + intros g Hg. split; auto. intros Eg. apply sorted_groups_in in Hg. apply Hno2.
        apply in_or_app. right. replace (txt "index_id") with (g_name g) by exact Eg. change (CText (g_name g)) with ((fun g => CText (g_name g)) g). now apply in_map. }
  destruct Hid as (idof & Hid & Et).
  destruct (own_rows show read_float s Hf W Ww Hl lpol wpol idof R Hin Hid (start s) eq_refl) as [A B]. split; intros H.
  - rewrite (transact_same _ s); [reflexivity| |].
    + rewrite Et, A by auto. reflexivity.
    + intros Hk. apply fk_ok_iff. destruct (F Hk). split; auto.
  - unfold transact. rewrite Et, B by auto. reflexivity.
Qed.
End Table.
