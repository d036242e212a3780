(** Lemmas for C61: the log, writing, and loading what was written. *)
From Coq Require Import NArith Permutation Lqa Lia.
From Verif Require Import Prelude QLemmas Selectors_Model Selectors_Proofs LinkRef_Model Db_Model Db_Spec Db_ProofsLocal Reader_Model Reader_Spec Reader_Proofs Mapper_Model MapCli_Model MapCli_Spec
  LinkRef_Proofs Quantity_Model Quantity_Spec Quantity_Proofs Quantity_Proofs2 Quantity_Proofs3 Quantity_Proofs4 IndexCli_Model QuantCli_Model QuantCli_Spec QuantCli_Proofs QuantCli_Proofs2 QuantCli_Proofs3.
Local Open Scope nat_scope.

(** *** The log *)

Section Log.
Context (vc : text) (pol : policy) (al ap : bool) (cols : list text) (rows : csv_file).
Notation import s := (import_quantities vc pol al ap (cols :: rows) s).
Notation read s r := (q_of vc (d_labels (s_db s)) (names_ s cols) cols r).

Lemma count_rows s qs (P : list text -> Prop) (p : q_row -> bool) : Forall2 (fun r q => read s r = Ok q) rows qs ->
  (forall r q, read s r = Ok q -> (p q = true <-> P r)) -> so_many rows P (length (filter p qs)).
Proof.
  intros F H. exists (fun r => match read s r with Ok q => p q | Err _ => false end). split.
  - intros r Hr. destruct (Forall2_in_l _ _ _ _ F Hr) as (q & _ & E). rewrite E. now apply H.
  - symmetry. apply (Forall2_length_ (fun r q => read s r = Ok q)). apply Forall2_filter. eapply Forall2_conj_in; [exact F|].
    intros r q _ _ E. split; auto. now rewrite E.
Qed.
Lemma bare_iff s r q : read s r = Ok q -> bare s q = true <-> ~ attributed s cols r.
Proof.
  intros E. rewrite <- (attr_dict_names vc cols s r q E). unfold bare. rewrite nil_b_iff. split; [intros ->; tauto|].
  destruct (attr_dict (s_registered s) (qr_cells q)); auto. intros H. destruct H. discriminate.
Qed.
Lemma bare_false s r q : read s r = Ok q -> bare s q = false <-> attributed s cols r.
Proof. intros E. rewrite <- (attr_dict_names vc cols s r q E). unfold bare. apply nil_b_false. Qed.
Lemma odd_iff s r q : read s r = Ok q -> odd s q = true <-> attributed s cols r /\ ~ of_partition s cols r.
Proof.
  intros E. unfold odd. rewrite Bool.andb_true_iff, !Bool.negb_true_iff, (bare_false s r q E), in_structure_false.
  destruct (read_ok vc s cols r q E) as (L & _). split; intros (A & B); (split; [exact A|]).
  - intros H. apply B, H, L.
  - intros H. apply B. intros l Hl. now rewrite (labels_one s cols r l _ Hl L).
Qed.
Lemma lost_iff s r q : index_wf (s_db s) -> read s r = Ok q -> lost s q = true <-> attributed s cols r /\ ~ of_index s cols r.
Proof.
  intros WI E. unfold lost. rewrite Bool.andb_true_iff, Bool.negb_true_iff, (bare_false s r q E), nil_b_iff.
  destruct (read_ok vc s cols r q E) as (L & _). split; intros (A & B); (split; [exact A|]).
  - intros H. destruct (H _ L) as (i & Hi). apply (in_candidates_iff s _ _ WI) in Hi. rewrite B in Hi. exact Hi.
  - destruct (candidates (s_db s) (qr_labels q)) as [|i l] eqn:Ec; auto. destruct B. intros labs Hl. rewrite (labels_one s cols r labs _ Hl L).
    exists i. apply in_candidates_iff; auto. rewrite Ec. now left.
Qed.
Theorem logged s s' log : index_wf (s_db s) -> store_wf s -> import s = (s', Ok (ExitOk, Loaded log)) ->
  exists b c d i, so_many rows (fun r => ~ attributed s cols r) b /\
    so_many rows (fun r => attributed s cols r /\ ~ of_partition s cols r) c /\
    so_many rows (fun r => attributed s cols r /\ ~ of_index s cols r) d /\
    length (s_quants s') = length (s_quants s) + i /\
    (forall n, In (Log NoAttrs n) log <-> n <> 0 /\ n = b) /\
    (forall n, In (Log InvalidCategory n) log <-> n <> 0 /\ n = c) /\
    (forall n, In (Log InvalidLabel n) log <-> n <> 0 /\ n = d) /\
    (forall n, In (Log Inserted n) log <-> n <> 0 /\ n = i) /\
    (In Nothing log <-> i = 0) /\
    (forall e n, kept_as pol e -> (In (Log e n) log <-> n <> 0 /\ b + n + i = length rows)) /\
    (forall e n, e = Ignored \/ e = Replaced \/ e = Summed -> ~ kept_as pol e -> ~ In (Log e n) log) /\
    (refuses_existing pol -> b + i = length rows).
Proof.
  intros WI W H. apply import_ok in H. destruct H as (ev & H & E). inversion E; subst log; clear E. apply table_ok in H; auto. destruct H as (_ & qs & F & H).
  assert (Hf := fits_read vc cols rows s qs F). unfold insert_quantities2 in H. destruct (nil_b (s_registered s)); [discriminate|].
  destruct (fold_events pol al ap qs s [] s' ev W Hf H) as (I1 & I2 & I3 & I4 & I5 & I6 & I7).
  change (times NoAttrs []) with 0 in *. change (times InvalidCategory []) with 0 in *. change (times InvalidLabel []) with 0 in *. change (times Inserted []) with 0 in *.
  rewrite <- (Forall2_length_ _ _ _ F) in I5, I7.
  assert (I5' : forall e, kept_as pol e -> times NoAttrs ev + times e ev + times Inserted ev = length rows).
  { intros e He. rewrite (I5 e He). change (times e []) with 0. lia. }
  assert (I6' : forall e, kept e = true -> ~ kept_as pol e -> times e ev = 0) by (intros e A B; now rewrite (I6 e A B)). clear I5 I6.
  assert (Lin : forall e n, In (Log e n) (line_if e ev) <-> n <> 0 /\ n = times e ev).
  { intros e n. rewrite in_line. split; [intros (A & B); inversion B; auto|]. intros (A & ->). auto. }
  assert (Oth : forall e e' n, e <> e' -> ~ In (Log e n) (line_if e' ev)) by (intros e e' n N K; apply in_line in K; destruct K as (_ & K); inversion K; congruence).
  assert (Non : forall e, ~ In Nothing (line_if e ev)) by (intros e K; apply in_line in K; destruct K as (_ & K); discriminate).
  set (mid := match line_if Ignored ev with [] => match line_if Replaced ev with [] => line_if Summed ev | x => x end | x => x end).
  set (last := match line_if Inserted ev with [] => [Nothing] | x => x end).
  assert (Mid : forall x, In x mid <-> exists e, kept_as pol e /\ In x (line_if e ev)).
  { intros x. split.
    - intros Hx. assert (K : exists e, kept e = true /\ In x (line_if e ev)).
      { unfold mid in Hx. destruct (line_if Ignored ev) eqn:E1; [|exists Ignored; split; auto; rewrite E1; exact Hx].
        destruct (line_if Replaced ev) eqn:E2; [|exists Replaced; split; auto; rewrite E2; exact Hx]. exists Summed. auto. }
      destruct K as (e & Ke & Kx). exists e. split; auto.
      assert (D : kept_as pol e \/ ~ kept_as pol e) by (unfold kept_as; destruct pol, e; try discriminate; (left; auto 6; fail) || (right; intros [(A & B)|[(A & B)|(A & B)]]; discriminate)).
      destruct D as [D|D]; auto. apply in_line in Kx. destruct Kx as (Kx & _). now rewrite (I6' e Ke D) in Kx.
    - intros (e & Ke & Hx).
      assert (Z : forall e', kept e' = true -> e' <> e -> line_if e' ev = []).
      { intros e' A B. apply line_nil. apply I6'; auto. intros K. apply B. symmetry. apply (kept_times pol e' e K Ke). }
      unfold mid. destruct Ke as [(_ & ->)|[(_ & ->)|(_ & ->)]].
      + destruct (line_if Ignored ev); easy.
      + rewrite (Z Ignored) by easy. destruct (line_if Replaced ev); easy.
      + rewrite (Z Ignored), (Z Replaced) by easy. exact Hx. }
  assert (Las : forall x, In x last <-> In x (line_if Inserted ev) \/ x = Nothing /\ times Inserted ev = 0).
  { intros x. unfold last. destruct (line_if Inserted ev) as [|y l] eqn:El.
    - apply line_nil in El. cbn. split; [intros [<-|[]]; auto|]. intros [[]|(-> & _)]; auto.
    - assert (times Inserted ev <> 0) by (intros K; apply line_nil in K; congruence). split; [auto|]. intros [K|(_ & K)]; auto. lia. }
  assert (All : forall x, In x (report ev) <-> In x (line_if NoAttrs ev) \/ In x (line_if InvalidCategory ev) \/ In x (line_if InvalidLabel ev) \/ In x mid \/ In x last).
  { intros x. unfold report. fold mid last. now rewrite !in_app_iff. }
  assert (NK : forall e, ~ kept_as pol e -> forall n, ~ In (Log e n) mid).
  { intros e He n K. apply Mid in K. destruct K as (e' & A & B). apply in_line in B. destruct B as (_ & B). inversion B; subst. now apply He. }
  assert (K1 : ~ kept_as pol NoAttrs /\ ~ kept_as pol InvalidCategory /\ ~ kept_as pol InvalidLabel /\ ~ kept_as pol Inserted).
  { unfold kept_as. repeat split; intros [(_ & A)|[(_ & A)|(_ & A)]]; discriminate. }
  destruct K1 as (K1 & K2 & K3 & K4).
  exists (times NoAttrs ev), (times InvalidCategory ev), (times InvalidLabel ev), (times Inserted ev).
  split; [rewrite I1; apply (count_rows s); auto; apply bare_iff|].
  split; [rewrite I2; apply (count_rows s); auto; apply odd_iff|].
  split; [rewrite I3; apply (count_rows s); auto; intros r q; now apply lost_iff|].
  split; [lia|].
  assert (Ins : forall e n, In (Log e n) last <-> In (Log e n) (line_if Inserted ev)) by (intros e n; rewrite Las; split; auto; intros [K|(K & _)]; [auto|discriminate]).
  split; [|split; [|split; [|split; [|split; [|split; [|split]]]]]].
  - intros n. rewrite All, Ins, Lin. pose proof (NK _ K1 n). pose proof (Oth NoAttrs InvalidCategory n). pose proof (Oth NoAttrs InvalidLabel n). pose proof (Oth NoAttrs Inserted n). split; [|auto]. intros [K|[K|[K|[K|K]]]]; auto; exfalso; auto; (apply H1 + apply H2 + apply H3); easy.
  - intros n. rewrite All, Ins, Lin. pose proof (NK _ K2 n). pose proof (Oth InvalidCategory NoAttrs n). pose proof (Oth InvalidCategory InvalidLabel n). pose proof (Oth InvalidCategory Inserted n). split; [|auto]. intros [K|[K|[K|[K|K]]]]; auto; exfalso; auto; (apply H1 + apply H2 + apply H3); easy.
  - intros n. rewrite All, Ins, Lin. pose proof (NK _ K3 n). pose proof (Oth InvalidLabel NoAttrs n). pose proof (Oth InvalidLabel InvalidCategory n). pose proof (Oth InvalidLabel Inserted n). split; [|auto]. intros [K|[K|[K|[K|K]]]]; auto; exfalso; auto; (apply H1 + apply H2 + apply H3); easy.
  - intros n. rewrite All, Ins, Lin. pose proof (NK _ K4 n). pose proof (Oth Inserted NoAttrs n). pose proof (Oth Inserted InvalidCategory n). pose proof (Oth Inserted InvalidLabel n). split; [|auto]. intros [K|[K|[K|[K|K]]]]; auto; exfalso; auto; (apply H1 + apply H2 + apply H3); easy.
  - rewrite All. rewrite Las. pose proof (Non NoAttrs). pose proof (Non InvalidCategory). pose proof (Non InvalidLabel). pose proof (Non Inserted).
    assert (~ In Nothing mid) by (intros K; apply Mid in K; destruct K as (e & _ & K); now apply (Non e)).
    split; [|auto 7]. intros [K|[K|[K|[K|[K|(_ & K)]]]]]; auto; now exfalso.
  - intros e n He. rewrite All, Ins, Mid. assert (e <> NoAttrs /\ e <> InvalidCategory /\ e <> InvalidLabel /\ e <> Inserted) as (X1 & X2 & X3 & X4) by (destruct He as [(_ & ->)|[(_ & ->)|(_ & ->)]]; easy).
    pose proof (I5' e He) as I5. split.
    + intros [K|[K|[K|[(e' & A & K)|K]]]]; try (exfalso; now apply (Oth _ _ _ X1 K) || now apply (Oth _ _ _ X2 K) || now apply (Oth _ _ _ X3 K) || now apply (Oth _ _ _ X4 K)).
      rewrite (kept_times pol e e' He A) in K. apply Lin in K. destruct K as (K & ->). split; auto.
    + intros (A & B). right. right. right. left. exists e. split; auto. apply Lin. split; auto. lia.
  - intros e n Hk He. rewrite All, Ins. assert (e <> NoAttrs /\ e <> InvalidCategory /\ e <> InvalidLabel /\ e <> Inserted) as (X1 & X2 & X3 & X4) by (destruct Hk as [->|[->| ->]]; easy).
    intros [K|[K|[K|[K|K]]]]; [now apply (Oth _ _ _ X1 K)|now apply (Oth _ _ _ X2 K)|now apply (Oth _ _ _ X3 K)|now apply (NK e He n)|now apply (Oth _ _ _ X4 K)].
  - intros P. rewrite I7; auto. intros e [(A & _)|[(A & _)|(A & _)]]; destruct P; congruence.
Qed.
End Log.

(** *** Writing *)

Lemma written show s : store_wf s -> store_ref s -> s_registered s <> [] ->
  exists lines xs, export_quantities show s = Ok (quantity_header s :: lines, length (s_quants s)) /\
    NoDup xs /\ (forall x, In x xs <-> In x (s_quants s)) /\ Forall2 (line_tells show s) xs lines.
Proof.
  intros W R Hr. destruct (select2_lists s W R Hr) as (outs & E & xs & N & Hin & F).
  assert (Hin' : forall x, In x xs <-> In x (s_quants s)).
  { intros x. rewrite Hin. split; [tauto|]. intros H. split; auto. destruct (sr_loc s R x H) as (l & A & B). exists l. auto. }
  exists (map (quantity_line show) outs), xs. split; [|split; [exact N|split; [exact Hin'|]]].
  - unfold export_quantities. rewrite E. cbn [bind]. f_equal. f_equal. rewrite <- (Forall2_length_ _ _ _ F).
    apply Permutation_length. apply NoDup_Permutation; auto. apply (nodup_map_NoDup qt_id), (sw_quant_ids s W).
  - clear -F. induction F as [|x o xs outs (l & g & A1 & A2 & A3 & A4 & A5 & A6 & A7 & A8) F IH]; cbn [map]; constructor; auto.
    exists l, g. repeat (split; auto). unfold quantity_line. rewrite A5, A6, A7, A8, map_map. reflexivity.
Qed.

Lemma combine_app_ {A B} (a a' : list A) (b b' : list B) : length a = length b -> combine (a ++ a') (b ++ b') = combine a b ++ combine a' b'.
Proof. revert b. induction a as [|x a IH]; intros [|y b] E; cbn in *; try discriminate; auto. f_equal. apply IH. lia. Qed.
Lemma says_in cols r k v : NoDup cols -> In (k, v) (combine cols r) -> says cols r k v.
Proof.
  intros N H. apply In_nth_error in H. destruct H as (p & Hp). exists p.
  assert (E : nth_error cols p = Some k /\ nth_error r p = Some v).
  { clear N. revert r p Hp. induction cols as [|c cols IH]; intros r p Hp; [destruct p; discriminate|]. destruct r as [|x r]; [destruct p; discriminate|].
    destruct p; cbn in *; [inversion Hp; auto|]. now apply IH. }
  split; [apply E|]. split; [apply E|]. intros p' Hlt Hk.
  assert (p = p'); [|lia]. apply (proj1 (NoDup_nth_error cols) N p p'); [|destruct E; congruence]. apply nth_error_Some. destruct E as [-> _]. discriminate.
Qed.
Lemma placed_by cols : forall labels, NoDup cols -> length labels = length cols -> exists f : text -> text, map f cols = labels.
Proof.
  induction cols as [|c cols IH]; intros [|x labels] N L; cbn in *; try discriminate; [exists (fun _ => []); auto|].
  inversion N as [|? ? N1 N2]; subst. destruct (IH labels N2) as (f & Hf); [lia|]. exists (fun k => if text_eqb k c then x else f k).
  rewrite (proj2 (text_eqb_iff c c) eq_refl). f_equal. rewrite <- Hf. apply map_ext_in. intros k Hk. destruct (text_eqb k c) eqn:E; auto.
  apply text_eqb_iff in E. now subst.
Qed.

(** *** Loading what was written *)

Section Again.
Context (show : Q -> text) (s t : store) (pol : policy) (al ap : bool) (xs : list quantity) (lines : csv_file).
Context (W : store_wf s) (HR : all_registered s) (P : prints show s) (U : understands s t (quantity_header s)).
Context (N : NoDup xs) (Hin : forall x, In x xs <-> In x (s_quants s)) (F : Forall2 (line_tells show s) xs lines).
Notation H := (quantity_header s).
Notation vc := (txt "quantity").

Lemma labels_nodup : NoDup (d_labels (s_db s)).
Proof.
  pose proof (un_columns _ _ _ U) as X. unfold quantity_header in X.
  destruct (is_empty (s_domain s)); cbn in X; [|inversion X as [|? ? _ X']; subst; clear X; rename X' into X]; clear -X.
  1,2: induction (d_labels (s_db s)) as [|k l IH]; [constructor|]; cbn in X; inversion X; subst; constructor; auto; intros K; apply H1; apply in_app_iff; auto.
Qed.
Lemma line_says x r : line_tells show s x r -> exists l g, In l (s_locs s) /\ l_id l = qt_loc x /\ In g (s_attrs s) /\ ag_id g = qt_attr x /\
  (forall f, placed s f = l_labels l -> forall k, In k (d_labels (s_db s)) -> says H r k (f k)) /\
  (forall k, In k (s_registered s) -> says H r k (match dict_get k (ag_attrs g) with Some v => v | None => [] end)) /\
  says H r vc (show (qt_value x)) /\ (s_domain s <> [] -> says H r (txt "domain") (s_domain s)).
Proof.
  intros (l & g & A1 & A2 & A3 & A4 & Er). exists l, g. repeat (split; [assumption|]).
  assert (Lab := sw_arity s W l A1).
  assert (C : combine H r = combine (if is_empty (s_domain s) then [] else [txt "domain"]) (match s_domain s with [] => [] | d => [d] end) ++
    combine (d_labels (s_db s)) (l_labels l) ++
    combine (s_registered s) (map (fun k => match dict_get k (ag_attrs g) with Some v => v | None => [] end) (s_registered s)) ++ [(vc, show (qt_value x))]).
  { rewrite Er. unfold quantity_header. rewrite combine_app_ by (destruct (s_domain s); reflexivity). f_equal. rewrite combine_app_ by auto. f_equal. rewrite combine_app_ by now rewrite map_length. reflexivity. }
  assert (S : forall k v, In (k, v) (combine H r) -> says H r k v) by (intros k v; apply says_in, U). rewrite C in S.
  split; [|split; [|split]].
  - intros f Ef k Hk. apply S. apply in_app_iff. right. apply in_app_iff. left. rewrite <- Ef. unfold placed. clear -Hk. induction (d_labels (s_db s)) as [|c cs IH]; cbn in *; [easy|]. destruct Hk as [->|Hk]; auto.
  - intros k Hk. apply S. apply in_app_iff. right. apply in_app_iff. right. apply in_app_iff. left. clear -Hk. induction (s_registered s) as [|c cs IH]; cbn in *; [easy|]. destruct Hk as [->|Hk]; auto.
  - apply S. apply in_app_iff. right. apply in_app_iff. right. apply in_app_iff. right. now left.
  - intros Hd. apply S. apply in_app_iff. left. destruct (s_domain s) as [|c d]; [easy|]. cbn. now left.
Qed.
Lemma header_labels k : In k (d_labels (s_db t)) <-> In k (d_labels (s_db s)).
Proof. split; apply Permutation_in; [|apply Permutation_sym]; apply U. Qed.
Lemma line_goes x r : line_tells show s x r -> In x (s_quants s) -> exists f g, complete t H r /\
  (forall labels, labels_are t H r labels <-> labels = placed t f) /\ In g (s_attrs s) /\ ag_id g = qt_attr x /\
  (forall k v, attribute_is t H r k v <-> In (k, v) (ag_attrs g)) /\
  stored s (placed s f) (ag_attrs g) (qt_value x) /\
  (forall d, says H r (txt "domain") d -> d = s_domain t) /\ value_is vc H r (Some (qt_value x)) /\
  (exists l, In l (s_locs s) /\ l_id l = qt_loc x /\ l_labels l = placed s f).
Proof.
  intros L Hx. destruct (line_says x r L) as (l & g & A1 & A2 & A3 & A4 & B1 & B2 & B3 & B4).
  destruct (placed_by (d_labels (s_db s)) (l_labels l) labels_nodup (sw_arity s W l A1)) as (f & Ef). fold (placed s f) in Ef.
  exists f, g. specialize (B1 f Ef).
  assert (LA : labels_are t H r (placed t f)).
  { unfold labels_are, placed. assert (K : forall k, In k (d_labels (s_db t)) -> says H r k (f k)) by (intros k Hk; apply B1; now apply header_labels).
    clear -K. induction (d_labels (s_db t)) as [|c cs IH]; cbn; constructor; [apply K; now left|]. apply IH. intros k Hk. apply K. now right. }
  split; [|split; [|split; [exact A3|split; [exact A4|split; [|split; [|split; [|split]]]]]]].
  - intros k [Hk|(Hk & Hc)]; [exists (f k); apply B1; now apply header_labels|]. eexists. apply B2. apply (un_others _ _ _ U); auto.
  - intros labels. split; [|intros ->; exact LA]. intros K. eapply (labels_one t H r); eauto.
  - intros k v. unfold attribute_is. split.
    + intros (K1 & K2 & K3). assert (Kr : In k (s_registered s)) by (apply (un_others _ _ _ U); auto; eapply says_column, K3).
      pose proof (says_one _ _ _ _ _ K3 (B2 k Kr)) as E. apply dict_get_in; [apply (sw_dicts s W g A3)|]. destruct (dict_get k (ag_attrs g)); congruence.
    + intros K. assert (Kr := HR g k v A3 K). split; [now apply (un_attrs _ _ _ U)|]. split; [now apply (proj2 (proj2 (sw_dicts s W g A3)) k v K)|].
      pose proof (B2 k Kr) as E. apply (dict_get_in k v) in K; [|apply (sw_dicts s W g A3)]. now rewrite K in E.
  - exists l, g, x. repeat split; auto.
  - intros d Hd. destruct (s_domain s) as [|c d0] eqn:Ed.
    + exfalso. apply (un_no_domain _ _ _ U Ed). eapply says_column, Hd.
    + rewrite (un_domain _ _ _ U) by (rewrite Ed; discriminate). rewrite Ed. apply (says_one H r (txt "domain")); auto. apply B4. discriminate.
  - cbn. exists (show (qt_value x)). split; auto.
  - exists l. auto.
Qed.
Lemma row_line r : In r lines -> exists x, In x (s_quants s) /\ line_tells show s x r.
Proof. intros Hr. destruct (Forall2_in_r _ _ _ _ F Hr) as (x & Hx & L). exists x. split; auto. now apply Hin. Qed.
Lemma rows_complete r : In r lines -> complete t H r.
Proof. intros Hr. destruct (row_line r Hr) as (x & Hx & L). now destruct (line_goes x r L Hx) as (f & g & C & _). Qed.
Lemma rows_numbers : all_numbers vc t H lines.
Proof. intros r Hr _. destruct (row_line r Hr) as (x & Hx & L). destruct (line_goes x r L Hx) as (f & g & _ & _ & _ & _ & _ & _ & _ & V & _). now exists (qt_value x). Qed.
(** The row of a quantity goes to its labels and attributes and to no others. *)
Lemma goes_stored x r labels a : line_tells show s x r -> In x (s_quants s) -> goes t H labels a r ->
  exists f, labels = placed t f /\ stored s (placed s f) a (qt_value x).
Proof.
  intros L Hx (G1 & _ & G3 & G4). destruct (line_goes x r L Hx) as (f & g & _ & B & A3 & _ & D & E & _). exists f. split; [now apply B|].
  apply (stored_same s _ (ag_attrs g)); auto. apply dict_ext; auto; [apply (sw_dicts s W g A3)|]. intros k v. rewrite G4. symmetry. apply D.
Qed.
Lemma placed_same f f' : placed t f = placed t f' -> placed s f = placed s f'.
Proof.
  unfold placed. intros E. apply map_ext_in. intros k Hk. apply header_labels in Hk. clear -E Hk. induction (d_labels (s_db t)) as [|c cs IH]; [easy|]. cbn in *. inversion E. destruct Hk as [->|Hk]; auto.
Qed.
Lemma stored_quantity labels a q : stored s labels a q -> exists l g x, In l (s_locs s) /\ l_labels l = labels /\ In g (s_attrs s) /\ same_attrs (ag_attrs g) a /\
    In x (s_quants s) /\ qt_loc x = l_id l /\ qt_attr x = ag_id g /\ qt_value x = q.
Proof. exact (fun K => K). Qed.
Lemma stored_goes f a q : dict a -> stored s (placed s f) a q -> exists x r, In r lines /\ line_tells show s x r /\ In x (s_quants s) /\ qt_value x = q /\ goes t H (placed t f) a r.
Proof.
  intros Hd (l & g & x & K1 & K2 & K3 & K4 & K5 & K6 & K7 & K8). destruct (Forall2_in_l _ _ _ _ F (proj2 (Hin x) K5)) as (r & Hr & L).
  exists x, r. repeat (split; [assumption|]). destruct (line_goes x r L K5) as (f' & g' & _ & B & A3 & A4 & D & E & _ & _ & l' & A1 & A2 & A0).
  assert (l' = l) by (apply (nodup_map_inj l_id (s_locs s)); auto; [apply (sw_loc_ids s W)|congruence]).
  assert (g' = g) by (apply (nodup_map_inj ag_id (s_attrs s)); auto; [apply (sw_group_ids s W)|congruence]). subst l' g'.
  split; [|split; [|split]]; auto.
  - apply B. unfold placed in *. apply map_ext_in. intros k Hk. apply header_labels in Hk. rewrite K2 in A0. clear -A0 Hk. induction (d_labels (s_db s)) as [|c cs IH]; [easy|]. cbn in *. inversion A0. destruct Hk as [->|Hk]; auto.
  - destruct (sw_dicts s W g K3) as (_ & Hnn & _). destruct (ag_attrs g) as [|[k v] al'] eqn:Eg; [easy|]. exists k, v. apply D. now left.
  - intros k v. rewrite D. apply same_attrs_in; auto; [apply (sw_dicts s W g K3)|]. now apply same_attrs_sym.
Qed.
Lemma key_one f f' a q q' x x' r r' : dict a -> line_tells show s x r -> line_tells show s x' r' -> In x (s_quants s) -> In x' (s_quants s) ->
  goes t H f a r -> goes t H f' a r' -> f = f' -> qt_value x = q -> qt_value x' = q' -> x = x'.
Proof.
  intros Hd L L' Hx Hx' G G' -> _ _. destruct G as (G1 & _ & _ & G4), G' as (G1' & _ & _ & G4').
  destruct (line_goes x r L Hx) as (h & g & _ & B & A3 & A4 & D & E & _ & _ & l & A1 & A2 & A0).
  destruct (line_goes x' r' L' Hx') as (h' & g' & _ & B' & A3' & A4' & D' & E' & _ & _ & l' & A1' & A2' & A0').
  apply B in G1. apply B' in G1'. assert (Eh : placed s h = placed s h') by (apply placed_same; congruence).
  assert (l = l') by (apply (sw_locs s W); auto; congruence).
  assert (g = g').
  { apply (sw_groups s W); auto. apply dict_ext; [apply (sw_dicts s W g A3)|apply (sw_dicts s W g' A3')|]. intros k v. rewrite <- D, <- D', <- G4, <- G4'. reflexivity. }
  subst. apply (nodup_map_inj (fun x => (qt_loc x, qt_attr x)) (s_quants s)); auto; [apply (sw_one s W)|congruence].
Qed.
Lemma coming_small labels a vs : dict a -> coming vc t H lines labels a vs -> length vs <= 1.
Proof.
  intros Hd (sel & Hs & V). rewrite <- (Forall2_length_ _ _ _ V). apply (Forall2_one (fun x r => line_tells show s x r /\ In r lines) sel xs lines); auto.
  - clear -F. assert (K : forall l, Forall2 (line_tells show s) xs l -> incl l lines -> Forall2 (fun x r => line_tells show s x r /\ In r lines) xs l).
    { clear F. induction xs as [|x l IH]; intros m Fm I; inversion Fm; subst; constructor; [split; auto; apply I; now left|]. apply IH; auto. intros z Hz. apply I. now right. }
    apply K; auto. apply incl_refl.
  - intros x1 y1 x2 y2 I1 I2 (L1 & J1) (L2 & J2) P1 P2. apply Hs in P1; auto. apply Hs in P2; auto. apply Hin in I1. apply Hin in I2.
    eapply (key_one labels labels a); eauto.
Qed.
Lemma coming_exact f a v vs : dict a -> reads s (placed s f) a v -> coming vc t H lines (placed t f) a vs -> Forall2 same_value vs (one v).
Proof.
  intros Hd Hr Hc. pose proof (coming_small _ a vs Hd Hc) as S. destruct Hc as (sel & Hs & V). destruct v as [q|]; cbn [one].
  - cbn in Hr. destruct (stored_goes f a q Hd Hr) as (x & r & I & L & Hx & E & G). assert (Ir : In r (filter sel lines)) by (apply filter_In; split; auto; now apply Hs).
    destruct (Forall2_in_l _ _ _ _ V Ir) as (w & Iw & Vw). destruct vs as [|w' [|]]; [easy| |cbn in S; lia]. destruct Iw as [->|[]]. constructor; [|constructor].
    destruct (line_goes x r L Hx) as (h & g & _ & _ & _ & _ & _ & _ & _ & Vx & _).
    eapply same_value_trans; [apply (value_is_same _ _ _ _ Vw)|]. apply same_value_sym. rewrite <- E. apply (value_is_same _ _ _ _ Vx).
  - destruct (filter sel lines) as [|r rs] eqn:Ef; [inversion V; constructor|]. exfalso.
    assert (Ir : In r (filter sel lines)) by (rewrite Ef; now left). apply filter_In in Ir. destruct Ir as (Ir & Sr). apply Hs in Sr; auto.
    destruct (row_line r Ir) as (x & Hx & L). destruct (goes_stored x r _ a L Hx Sr) as (h & Eh & St). apply placed_same in Eh. rewrite <- Eh in St. now apply (Hr (qt_value x)).
Qed.
Lemma clash_iff : no_clash vc t H lines <-> ~ clash s t.
Proof.
  destruct (all_read vc H lines t rows_complete) as (qs & Fq). split.
  - intros K (f & a & q & q' & Hd & A & B). pose proof (in_coming vc H t lines qs (placed t f) a Hd Fq) as C.
    destruct (K _ _ _ Hd C) as (_ & K2). refine (K2 _ q' B). pose proof (coming_exact f a (Some q) _ Hd A C) as Z. intros E. rewrite E in Z. inversion Z.
  - intros K labels a vs Hd C. split; [eapply coming_small; eauto|]. intros Hv q St. destruct C as (sel & Hs & V).
    destruct (filter sel lines) as [|r rs] eqn:Ef; [inversion V; subst; easy|].
    assert (Ir : In r (filter sel lines)) by (rewrite Ef; now left). apply filter_In in Ir. destruct Ir as (Ir & Sr). apply Hs in Sr; auto.
    destruct (row_line r Ir) as (x & Hx & L). destruct (goes_stored x r _ a L Hx Sr) as (h & Eh & Ss). apply K. exists h, a, (qt_value x), q. subst labels. auto.
Qed.
Theorem again : index_wf (s_db t) -> store_wf t -> store_ref t -> s_registered s <> [] -> d_labels (s_db s) <> [] ->
  (ap = false -> forall f a q, stored s (placed s f) a q -> structured t (placed t f)) ->
  (al = false -> forall f a q, stored s (placed s f) a q -> exists i, matches t (placed t f) i) ->
  let result := import_quantities vc pol al ap (H :: lines) t in
  (refuses_existing pol -> clash s t -> exists b, result = (t, Ok (ExitErr, Refused b))) /\
  (~ (refuses_existing pol /\ clash s t) -> exists t' log, result = (t', Ok (ExitOk, log)) /\ same_rest t t' /\
     forall f a v old, dict a -> reads s (placed s f) a v -> reads t (placed t f) a old ->
       exists new, reads t' (placed t f) a new /\ same_value new (settle pol old (one v))).
Proof.
  intros WI Wt Rt Hr Hl Hp Hi result.
  assert (Cols : has_columns vc t H).
  { split; [unfold quantity_header; rewrite !in_app_iff; cbn; auto|]. intros k Hk. apply header_labels in Hk. unfold quantity_header. rewrite !in_app_iff. auto. }
  assert (Reg : s_registered t <> []).
  { intros E. destruct (s_registered s) as [|k l] eqn:Es; [easy|]. pose proof (un_attrs _ _ _ U k) as K. rewrite E, Es in K. apply K. now left. }
  assert (Acc : forall r, In r lines -> acceptable al ap t H r).
  { intros r Hr'. destruct (row_line r Hr') as (x & Hx & L). destruct (line_goes x r L Hx) as (f & g & C & B & A3 & A4 & D & E & Dm & _).
    split; auto. split; auto. intros _. split; [|split; [|split]].
    - intros K. apply Hl. apply Permutation_nil. rewrite <- K. apply U.
    - intros v V. apply D in V. destruct (proj2 (proj2 (sw_dicts s W g A3)) [] v V) as (X & _). now apply X.
    - intros Ep labels K. apply B in K. subst labels. eapply Hp; eauto.
    - intros Ei labels K. apply B in K. subst labels. eapply Hi; eauto. }
  pose proof (accepts vc pol al ap H lines t WI Wt Rt rows_numbers) as A. split.
  - intros Hpol Hc. unfold result, import_quantities. destruct (insert_table vc pol al ap (H :: lines) t) as [[t' ev]|e] eqn:Et.
    + exfalso. assert (X : exists s' y, import_quantities vc pol al ap (H :: lines) t = (s', Ok (ExitOk, y))).
      { exists t', (Loaded (report ev)). apply import_ok. exists ev. auto. }
      apply A in X. destruct X as (_ & _ & _ & X). now apply (proj1 clash_iff (X Hpol)).
    + apply table_err in Et; auto. destruct Et as [(_ & Et)|(_ & Et)]; [easy|].
      assert (e = ValueError); [|subst e; eexists; reflexivity].
      destruct Et as [->|(r & Ir & [->|[(-> & [K|(_ & K)])|(-> & K1 & K2)]])]; auto; exfalso.
      * now apply K, rows_complete.
      * destruct (row_line r Ir) as (x & Hx & L). destruct (line_goes x r L Hx) as (f & g & _ & _ & _ & _ & _ & _ & _ & (y & Y & _) & _). apply K. now exists y.
      * destruct (rows_numbers r Ir K1) as (q & y & Y1 & Y2). now apply (K2 y q Y1).
  - intros Hn. destruct (proj2 A) as (t' & log & E).
    { split; auto. split; auto. split; auto. intros Hpol. apply clash_iff. tauto. }
    exists t', log. split; auto. destruct (loaded vc pol al ap H lines t t' log Wt Rt E) as (_ & _ & S & K). split; auto.
    intros f a v old Hd Hv Ho. destruct (all_read vc H lines t rows_complete) as (qs & Fq).
    pose proof (in_coming vc H t lines qs (placed t f) a Hd Fq) as C. destruct (K _ _ _ _ Hd Ho C) as (new & K1 & K2). exists new. split; auto.
    eapply same_value_trans; [exact K2|]. apply settle_values. eapply coming_exact; eauto.
Qed.
End Again.
