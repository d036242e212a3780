(** The name of the first column, and rows that are too short (C55). *)
From Verif Require Import Prelude QLemmas Selectors_Model Selectors_Proofs Reader_Model LinkRef_Model LinkRef_Proofs IndexCode_Model Db_Model Db_Spec Db_Proofs
  Streams_Model Streams_Spec Streams_Proofs IndexCli_Model IndexCli_Spec IndexCli_Proofs.
From Coq Require Import NArith Lia.
Local Open Scope nat_scope.

Lemma code_header_named h : named_for h (code_header h).
Proof.
  destruct h as [|c h]; [left; auto|]. right. split; [discriminate|]. unfold code_header.
  exists (map (fun c => if (c =? 32)%N then 95%N else c) (c :: h)). split; [reflexivity|].
  generalize (c :: h). clear. intros l. induction l as [|c l IH]; cbn [map]; constructor; auto.
  destruct (N.eqb_spec c 32); auto.
Qed.

Section Short.
Context (todecimal : N -> option N) (read_float : text -> option Q).

Lemma set_nth_length {A} (x : A) l : forall i l', set_nth i x l = Some l' -> length l' = length l.
Proof.
  induction l as [|a l IH]; intros [|i] l' E; cbn in E; try discriminate; [injection E as <-; reflexivity|].
  destruct (set_nth i x l) eqn:Es; [|discriminate]. injection E as <-. cbn [length]. f_equal. eauto.
Qed.
Lemma set_nth_other {A} (x : A) l : forall i l', set_nth i x l = Some l' -> forall j, j <> i -> nth_error l' j = nth_error l j.
Proof.
  induction l as [|a l IH]; intros [|i] l' E j Hj; cbn in E; try discriminate.
  - injection E as <-. destruct j; [contradiction|reflexivity].
  - destruct (set_nth i x l) eqn:Es; [|discriminate]. injection E as <-. destruct j; [reflexivity|]. cbn. eapply IH; eauto.
Qed.
Lemma set_nth_same {A} (x : A) l : forall i l', set_nth i x l = Some l' -> nth_error l' i = Some x.
Proof.
  induction l as [|a l IH]; intros [|i] l' E; cbn in E; try discriminate; [injection E as <-; reflexivity|].
  destruct (set_nth i x l) eqn:Es; [|discriminate]. injection E as <-. cbn. eauto.
Qed.
Lemma index_from_some name header : forall k i, index_from k name header = Some i -> exists p, i = k + p /\ nth_error header p = Some (CText name).
Proof.
  induction header as [|c l IH]; intros k i E; cbn [index_from] in E; [discriminate|]. destruct (cell_eqb (CText name) c) eqn:Ec.
  - injection E as <-. exists 0. split; [lia|]. cbn. f_equal. destruct c; try discriminate. cbn in Ec. apply text_eqb_iff in Ec. now subst.
  - destruct (IH _ _ E) as (p & -> & Hp). exists (S p). split; [lia|exact Hp].
Qed.
Lemma index_from_found name header p : nth_error header p = Some (CText name) -> forall k, index_from k name header <> None.
Proof.
  revert p. induction header as [|c l IH]; intros p E k; [destruct p; discriminate|]. cbn [index_from].
  destruct (cell_eqb (CText name) c) eqn:Ec; [discriminate|]. destruct p as [|p]; [|now apply (IH p)].
  cbn in E. injection E as ->. cbn in Ec. rewrite text_eqb_refl in Ec. discriminate.
Qed.

Lemma bad_stream groups positions columns f row rows : In row rows ->
  (forall r', f (RSeq row) = Ok r' -> exists e, resolve_row todecimal read_float groups positions columns r' = Err e) ->
  snd (resolve_rows todecimal read_float groups positions columns (smap f (reader_of rows))) <> None.
Proof.
  intros Hin Hb. induction rows as [|r rows IH]; [contradiction|]. rewrite reader_of_cons. cbn [smap].
  destruct (f (RSeq r)) as [r'|e] eqn:E; [|discriminate]. cbn [resolve_rows].
  destruct (resolve_row todecimal read_float groups positions columns r') as [o|e] eqn:Er; [|discriminate].
  destruct Hin as [->|Hin]; [destruct (Hb _ E) as (e & E'); congruence|]. specialize (IH Hin).
  destruct (resolve_rows todecimal read_float groups positions columns (smap f (reader_of rows))); exact IH.
Qed.
Lemma smap_ok_id (rows : list (list cell)) : smap Ok (reader_of rows) = reader_of rows.
Proof. induction rows as [|r rows IH]; [reflexivity|]. rewrite reader_of_cons. cbn [smap]. now rewrite IH. Qed.

(** The positions of the labels, if all of them are found. *)
Lemma positions_has labels columns pos x : In x labels -> label_positions labels columns = Ok pos ->
  pos = [] \/ exists p, In p pos /\ nth_error columns p = Some (CText x).
Proof.
  unfold label_positions. set (f := fun x => match index_from 0 x columns with Some i => [i] | None => [] end).
  intros Hx E. destruct (flat_map f labels) as [|a l] eqn:Ef; [injection E as <-; auto|].
  destruct (length (a :: l) =? length labels) eqn:En; [|discriminate]. injection E as <-. right. rewrite <- Ef in *. clear Ef a l.
  apply Nat.eqb_eq in En.
  assert (L : forall l, length (flat_map f l) <= length l).
  { clear. induction l as [|y l IH]; [cbn; lia|]. cbn [flat_map]. rewrite app_length. unfold f at 1. destruct (index_from 0 y columns); cbn [length]; lia. }
  assert (K : forall l, length (flat_map f l) = length l -> In x l -> index_from 0 x columns <> None).
  { clear - L. induction l as [|y l IH]; [contradiction|]. cbn [flat_map]. rewrite app_length. specialize (L l). unfold f at 1. cbn [length].
    intros E [->|Hin].
    - destruct (index_from 0 x columns); [discriminate|cbn in E; lia].
    - apply IH; [|exact Hin]. destruct (index_from 0 y columns); cbn in E; lia. }
  specialize (K _ En Hx). destruct (index_from 0 x columns) as [i|] eqn:Ei; [|contradiction].
  destruct (index_from_some _ _ _ _ Ei) as (p & -> & Hp). exists p. split; [|exact Hp].
  apply in_flat_map. exists x. split; [exact Hx|]. unfold f. rewrite Ei. now left.
Qed.
Lemma positions_found labels columns pos x p : In x labels -> nth_error columns p = Some (CText x) -> label_positions labels columns = Ok pos -> pos <> [].
Proof.
  unfold label_positions. set (f := fun x => match index_from 0 x columns with Some i => [i] | None => [] end). intros Hx Hp E ->.
  assert (N : flat_map f labels <> []).
  { apply in_split in Hx. destruct Hx as (l1 & l2 & ->). rewrite flat_map_app. cbn [flat_map]. unfold f at 2.
    destruct (index_from 0 x columns) eqn:Ei; [|exfalso; exact (index_from_found _ _ _ Hp _ Ei)].
    intros E0. apply app_eq_nil in E0. destruct E0 as [_ E0]. discriminate. }
  destruct (flat_map f labels); [now apply N|]. destruct (length _ =? length labels); discriminate.
Qed.

Lemma traverse_fails {A B} (f : A -> res B) l a : In a l -> (exists e, f a = Err e) -> exists e, traverse f l = Err e.
Proof.
  intros Hin (e & E). induction l as [|b l IH]; [contradiction|]. cbn [traverse]. destruct Hin as [->|Hin]; [rewrite E; cbn [bind]; eauto|].
  destruct (f b); cbn [bind]; [|eauto]. destruct (IH Hin) as (e' & ->). cbn [bind]. eauto.
Qed.
Lemma short_fails groups positions columns l p : l <> [] -> In p positions -> length l <= p ->
  exists e, resolve_row todecimal read_float groups positions columns (RSeq l) = Err e.
Proof.
  intros Hl Hp Hs. unfold resolve_row. cbn [row_cells bind]. destruct l as [|c l]; [contradiction|].
  destruct (traverse_fails (fun p => do c <- cell_at (c :: l) p; label_text c) positions p Hp) as (e & ->).
  { unfold cell_at. apply nth_error_None in Hs. rewrite Hs. cbn [bind]. eauto. }
  cbn [bind]. eauto.
Qed.

Lemma table_spoiled lpol wpol (header : list cell) f rows row s : In row rows ->
  (forall pos, label_positions (d_labels s) header = Ok pos ->
     forall r', f (RSeq row) = Ok r' -> exists e, resolve_row todecimal read_float (d_groups s) pos header r' = Err e) ->
  exists e, insert_index_table todecimal read_float lpol wpol (Item (RSeq header) (smap f (reader_of rows))) s = Err e.
Proof.
  intros Hin Hb. unfold insert_index_table, normalize_tabular. cbn [iter_data bind given]. destruct (nil_b (d_labels s)); [eauto|].
  destruct (label_positions (d_labels s) header) as [pos|e] eqn:Ep; cbn [bind]; [|eauto].
  pose proof (bad_stream (d_groups s) pos header f row rows Hin (Hb _ eq_refl)) as N.
  destruct (resolve_rows _ _ _ _ _ _) as [rs stop]. cbn [snd] in N.
  destruct (insert_index _ _ _ _ _ _); cbn [bind]; [|eauto]. destruct stop; [eauto|contradiction].
Qed.

Theorem short_refused nd lpol wpol header rows row x s : In x (d_labels s) -> x <> txt "index_id" -> ends_before header x row -> In row rows ->
  let result := import_index todecimal read_float nd lpol wpol (reader_of (header :: rows)) s in
  fst result = s /\ snd result <> Ok ExitOk.
Proof.
  intros Hx Hid ((p & Hp) & Hne & Hs) Hin. cbv zeta. unfold import_index.
  assert (D : forall it, (exists e, insert_index_table todecimal read_float lpol wpol it s = Err e) ->
    let r := match transact (insert_index_table todecimal read_float lpol wpol it) s with
    | (s', None) => (s', Ok ExitOk) | (s', Some ValueError) => (s', Ok ExitErr) | (s', Some e) => (s', Err e) end in fst r = s /\ snd r <> Ok ExitOk).
  { intros it (e & E). unfold transact. rewrite E. destruct e; cbn; split; auto; discriminate. }
  destruct (read_index_stdin todecimal nd (reader_of (header :: rows))) as [it|e] eqn:E; [|cbn; split; [reflexivity|discriminate]].
  apply D. revert E. unfold read_index_stdin.
  destruct (islice 10 (reader_of (header :: rows))) as [[sample rest]|e] eqn:Ei; cbn [bind]; [|discriminate].
  destruct (islice_ok _ _ _ _ Ei) as [Ec _]. rewrite Ec. rewrite reader_of_cons.
  destruct (code_position todecimal sample (n_id_bytes nd)) as [q|e]; intros E.
  - injection E as <-. unfold remap_index_codes_to_index_ids. cbn [row_cells].
    destruct (put q (CText (txt "index_id")) header) as [header'|e] eqn:Eh.
    2:{ unfold insert_index_table, normalize_tabular. cbn [iter_data bind]. eauto. }
    unfold put in Eh. destruct (set_nth q _ header) as [h'|] eqn:Es; [|discriminate]. injection Eh as ->.
    apply (table_spoiled lpol wpol header' _ rows row s Hin). intros pos Epos r' Er.
    unfold remap_row in Er. cbn [row_cells bind] in Er. unfold cell_at in Er. destruct (nth_error row q) as [c|] eqn:Eq; cbn [bind] in Er; [|discriminate].
    assert (Lq : q < length row) by (apply nth_error_Some; congruence).
    assert (Npq : p <> q) by (intros ->; specialize (Hs _ Hp); lia).
    assert (Hp' : nth_error header' p = Some (CText x)) by (rewrite (set_nth_other _ _ _ _ Es p Npq); exact Hp).
    assert (Hr : exists l', r' = RSeq l' /\ length l' = length row).
    { destruct (cell_true c); [|injection Er as <-; eauto]. destruct c as [t| |]; try discriminate.
      destruct (index_code_to_id todecimal t (n_id_bytes nd)); cbn [bind] in Er; [|discriminate]. unfold put in Er.
      destruct (set_nth q _ row) as [l'|] eqn:El; [|discriminate]. cbn [bind] in Er. injection Er as <-. exists l'. split; [reflexivity|]. eapply set_nth_length; eauto. }
    destruct Hr as (l' & -> & Ll).
    destruct (positions_has _ _ _ _ Hx Epos) as [->|(p' & Hin' & Hp2)]; [exfalso; exact (positions_found _ _ _ _ _ Hx Hp' Epos eq_refl)|].
    apply (short_fails _ _ _ _ p'); [destruct l'; [destruct row; [contradiction|discriminate]|discriminate]|exact Hin'|].
    rewrite Ll. apply Hs. destruct (Nat.eq_dec p' q) as [->|Hq]; [|rewrite <- (set_nth_other _ _ _ _ Es p' Hq); exact Hp2].
    rewrite (set_nth_same _ _ _ _ Es) in Hp2. congruence.
  - assert (it = Item (RSeq header) (smap Ok (reader_of rows))) as ->.
    { rewrite smap_ok_id. destruct e; try discriminate. destruct sample as [|r sample]; [discriminate|]. destruct (row_cells r); cbn [bind] in E; [|discriminate].
      destruct (existsb _ _); [discriminate|]. now injection E as <-. }
    apply (table_spoiled lpol wpol header _ rows row s Hin). intros pos Epos r' Er. injection Er as <-.
    destruct (positions_has _ _ _ _ Hx Epos) as [->|(p' & Hin' & Hp2)]; [exfalso; exact (positions_found _ _ _ _ _ Hx Hp Epos eq_refl)|].
    apply (short_fails _ _ _ _ p'); auto.
Qed.
End Short.
