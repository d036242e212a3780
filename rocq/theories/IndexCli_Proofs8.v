(** A table of codes and weights without labels (C55). *)
From Verif Require Import Prelude QLemmas Selectors_Model Selectors_Proofs Reader_Model LinkRef_Model LinkRef_Proofs IndexCode_Model IndexCode_Spec
  Db_Model Db_Spec Db_Proofs Db_ProofsLocal Db_ProofsRun Db_ProofsOps Db_ProofsOps2 Db_ProofsOps3
  Streams_Model Streams_Spec Streams_Proofs Streams_Proofs2 IndexCli_Model IndexCli_Spec IndexCli_Proofs IndexCli_Proofs2 IndexCli_Proofs3 IndexCli_Proofs4 IndexCli_Proofs5.
From Coq Require Import NArith Lia.
Local Open Scope nat_scope.
Local Notation group := Db_Model.group.

Section ByCode.
Context (todecimal : N -> option N) (show : Q -> text) (read_float : text -> option Q) (nd : node).
Notation u := (n_id_bytes nd).

Lemma read_one c0 name code i v : code <> [] -> index_code_to_id todecimal code u = Ok i -> ~ In 88%N v ->
  good_names todecimal u [CText c0; CText name] ->
  read_index_stdin todecimal nd (reader_of [[CText c0; CText name]; [CText code; CText v]]) =
  Ok (reader_of [[CText (txt "index_id"); CText name]; [COther i; CText v]]).
Proof.
  intros Hc Hd Hv (_ & Hn & Hh).
  pose proof (noX_no_code todecimal v u Hv) as Nv.
  unfold read_index_stdin. cbn [reader_of map chain islice bind].
  set (rows := [RSeq [CText c0; CText name]; RSeq [CText code; CText v]]).
  destruct (code_position_cases todecimal u rows) as (C1 & C2 & _ & C4).
  assert (I0 : forall p l c t j, In (RSeq l) rows -> nth_error l p = Some c -> c = CText t -> index_code_to_id todecimal t u = Ok j -> p = 0).
  { intros p l c t j [[= <-]|[[= <-]|[]]] Hp -> Ht.
    - rewrite (Hh t (nth_error_In _ _ Hp)) in Ht. discriminate.
    - destruct p as [|[|p]]; auto; [|destruct p; discriminate]. cbn in Hp. injection Hp as <-. congruence. }
  assert (E : code_position todecimal rows u = Ok 0).
  { destruct C4 as [(p & E)|E].
    - repeat constructor; eexists; (split; [reflexivity|]); intros t Ht; [rewrite (Hh t Ht); discriminate|].
      destruct Ht as [[= <-]|[[= <-]|[]]]; [rewrite Hd|rewrite Nv]; discriminate.
    - rewrite E. f_equal. destruct (C1 p E) as [(l & c & Hl & Hp & t & j & Et & Ht) _]. eapply I0; eauto.
    - exfalso. apply (C2 E 0). split.
      + exists [CText code; CText v], (CText code). split; [right; now left|]. split; [reflexivity|]. exists code, i. auto.
      + intros q (l & c & Hl & Hp & t & j & Et & Ht). eapply I0; eauto. }
  rewrite E. unfold remap_index_codes_to_index_ids. cbn [chain row_cells rows]. unfold put. cbn [set_nth smap remap_row row_cells bind]. unfold cell_at. cbn [nth_error bind].
  destruct code as [|x code]; [contradiction|]. cbn [cell_true]. rewrite Hd. cbn [bind]. unfold put. cbn [set_nth bind]. reflexivity.
Qed.

Lemma weight_index pol i st gc st' : insert_index_weight pol i st gc = Ok st' -> d_index (is_db st') = d_index (is_db st).
Proof.
  destruct gc as [[g|] [| |v]]; cbn [insert_index_weight]; try discriminate; try (intros [= <-]; reflexivity).
  assert (U : forall s s', weight_update (g_id g) i v s = Ok s' -> d_index s' = d_index s).
  { intros s s' E. unfold weight_update in E. repeat (match type of E with (if ?b then _ else _) = _ => destruct b end; [discriminate|]); injection E as <-; reflexivity. }
  assert (A : forall s s', weight_add (g_id g) i v s = Ok s' -> d_index s' = d_index s).
  { intros s s' E. unfold weight_add in E. repeat (match type of E with (if ?b then _ else _) = _ => destruct b end; [discriminate|]); injection E as <-; reflexivity. }
  destruct (weight_find (g_id g) i (is_db st)) as [w|].
  - destruct pol; try discriminate; [intros [= <-]; reflexivity|]. destruct (weight_update (g_id g) i v (is_db st)) eqn:E; cbn [bind]; [|discriminate]. intros [= <-]. eauto.
  - destruct (weight_add (g_id g) i v (is_db st)) eqn:E; cbn [bind]; [|discriminate]. intros [= <-]. eauto.
Qed.

Theorem by_code s c0 g r code v lpol wpol : inv s -> (d_seq s <= max_id)%Z -> (d_fk s = true -> inv_fk s) -> weights_attached s -> d_labels s <> [] ->
  faithful show read_float -> good_names todecimal u [CText c0; CText (g_name g)] ->
  (forall x, In x (d_labels s) -> x <> txt "index_id" /\ x <> g_name g) ->
  ~ has_group s (txt "index_id") -> In g (d_groups s) ->
  In r (d_index s) -> ix_id r <> 0%Z -> index_id_to_code (ix_id r) u = Ok code -> (0 <= v)%Q ->
  let new := fun n l q => n = g_name g /\ l = ix_labels r /\ q = v in
  let result := import_index todecimal read_float nd lpol wpol (reader_of [[CText c0; CText (g_name g)]; [CText code; CText (show v)]]) s in
  (strict wpol -> conflict new (weighs s) -> result = (s, Ok ExitErr)) /\
  (~ (strict wpol /\ conflict new (weighs s)) -> exists s', result = (s', Ok ExitOk) /\ reweighed wpol new s s').
Proof.
  intros I Sq Fk At Hl Hf Gn Hlab Hng Hg Hr Hi Hcode Hv new result. destruct (code_decodes todecimal _ _ _ Hcode) as [Hc Hd].
  pose proof (i_index _ I) as W. pose proof (i_weights _ I) as Ww. destruct (Hf v) as (Hf1 & Hf2 & Hf3).
  unfold result, import_index. rewrite (read_one c0 (g_name g) code (ix_id r) (show v)) by auto.
  assert (Et : insert_index_table todecimal read_float lpol wpol (reader_of [[CText (txt "index_id"); CText (g_name g)]; [COther (ix_id r); CText (show v)]]) s =
    do st <- insert_index_weight wpol (ix_id r) (start s) (Some g, CNum v); Ok (finish st)).
  { unfold insert_index_table, normalize_tabular. rewrite reader_of_cons. cbn [iter_data bind given].
    destruct (nil_b (d_labels s)) eqn:En; [destruct (d_labels s); [congruence|discriminate]|].
    assert (Ep : label_positions (d_labels s) [CText (txt "index_id"); CText (g_name g)] = Ok []).
    { unfold label_positions. replace (flat_map _ (d_labels s)) with (@nil nat); [reflexivity|]. symmetry.
      assert (F : forall l, incl l (d_labels s) -> flat_map (fun x => match index_from 0 x [CText (txt "index_id"); CText (g_name g)] with Some i => [i] | None => [] end) l = []).
      { induction l as [|x l IH]; intros Hx; [reflexivity|]. cbn [flat_map]. rewrite IH by (intros y Hy; apply Hx; now right).
        rewrite index_from_none; [reflexivity|]. destruct (Hlab x (Hx x (or_introl eq_refl))) as [A B]. intros [E|[E|[]]]; injection E; congruence. }
      apply F, incl_refl. }
    rewrite Ep. cbn [bind]. rewrite reader_of_cons. cbn [resolve_rows reader_of map chain]. unfold resolve_row. cbn [row_cells bind traverse existsb].
    unfold raw_index_id. cbn [index_from]. rewrite cell_eqb_refl. unfold cell_at. cbn [nth_error bind].
    assert (N0 : existsb (fun g0 => text_eqb (g_name g0) (name_of (CText (txt "index_id")))) (d_groups s) = false).
    { destruct (existsb _ (d_groups s)) eqn:Ex; auto. apply existsb_exists in Ex. destruct Ex as (g' & Hg' & Eg). apply text_eqb_iff in Eg.
      exfalso. apply Hng. exists g'. auto. }
    assert (N1 : existsb (fun g0 => text_eqb (g_name g0) (name_of (CText (g_name g)))) (d_groups s) = true).
    { apply existsb_exists. exists g. split; auto. apply text_eqb_refl. }
    cbn [weight_cells]. rewrite N0, N1. unfold cell_at. cbn [nth_error bind].
    rewrite (read_shown show read_float Hf). cbn [bind].
    unfold insert_index. rewrite En. cbn [bind map fold_res combine]. unfold insert_index_row at 1. cbn [ir_labels existsb ir_id ir_cells is_db].
    rewrite get_at by auto. cbn [bind nil_b orb snd fst combine fold_res].
    change (find (fun g0 => text_eqb (g_name g0) (name_of (CText (g_name g)))) (d_groups s)) with (group_of (d_groups s) (g_name g)).
    rewrite (group_of_some (d_groups s) g (proj2 (ww_groups _ Ww)) Hg).
    assert (E0 : forall o st, insert_index_weight wpol (ix_id r) st (o, CEmpty) = Ok st) by (intros [o|] st; reflexivity).
    rewrite E0. cbn [bind].
    fold (start s). destruct (insert_index_weight wpol (ix_id r) (start s) (Some g, CNum v)) as [st|e]; cbn [bind]; reflexivity. }
  assert (K0 : keeps s 0 s).
  { constructor; auto; [apply incl_refl|]. lia. }
  destruct (weight_step s wpol 0 (start s) r g v K0 Hr Hi Hg Hv) as [(st & Ef & K & _ & Lb & M & C)|(Ef & S & C)].
  - split; [intros Hs Hcf; exfalso; exact (C Hs Hcf)|]. intros _. exists (finish st).
    destruct (finish_facts st) as (F1 & F2 & F3 & F4 & F5 & F6 & F7). destruct K as [Kw Kww Ka (Kg & Kl & Km & Kf & Ks) Ki _].
    pose proof (weight_index _ _ _ _ _ Ef) as Ix. cbn [start is_db] in Ix. split.
    + unfold transact. rewrite Et, Ef. cbn [bind]. rewrite F6, Kf. destruct (d_fk s) eqn:Efk; cbn [andb]; [|reflexivity].
      replace (fk_ok (finish st)) with true; [reflexivity|]. symmetry. apply fk_ok_iff. destruct (Fk eq_refl) as [_ _ _ _ Fm _]. split.
      * intros w Hww. rewrite F2 in Hww. destruct (Ka w Hww) as (x & Hx & Ex). exists x. now rewrite F1.
      * intros m Hm. rewrite F3, Km in Hm. destruct (Fm m Hm) as (x & Hx & Ex). exists x. rewrite F1, Ix. auto.
    + constructor.
      * intros n lb q. pose proof (M n lb q) as Mn. cbn [start is_db] in Mn. fold new in Mn. rewrite <- Mn. split; apply weighs_like; auto; congruence.
      * rewrite F7, Kg. reflexivity.
      * rewrite F1, F3, F4, F5. auto.
  - split; [|intros Hcf; exfalso; apply Hcf; auto]. intros _ _. unfold transact. rewrite Et, Ef. reflexivity.
Qed.
End ByCode.
