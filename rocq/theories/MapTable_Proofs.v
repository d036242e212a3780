From Verif Require Import Prelude BitFlags_Model Selectors_Model Selectors_Proofs SelectorParse_Model LinkRef_Model LinkRef_Spec
  LinkRef_Proofs IndexCode_Model IndexCode_Spec IndexCode_Proofs2 Db_Model Db_Spec Db_ProofsLocal Db_Proofs Db_ProofsRun Db_ProofsOps
  Elements_Model Elements_Spec Elements_Proofs MapStats_Model MapStats_Spec MapStats_Proofs MapTable_Model MapTable_Spec.
From Coq Require Import String List.
Local Open Scope list_scope.

(** *** The rows of [get_mapping] *)

Lemma labels_shown_ok s i : labels_shown s i (side_labels s i).
Proof.
  unfold labels_shown, side_labels. destruct i as [i|].
  - unfold index_get. destruct (index_find i s) as [r|] eqn:E.
    + exists (map Some (ix_labels r)). split; [now apply labels_of_found|]. rewrite map_map. reflexivity.
    + exists (no_values s). split; [now apply labels_of_missing|]. unfold no_values. rewrite map_map. reflexivity.
  - exists (no_values s). split; [reflexivity|]. unfold no_values. rewrite map_map. reflexivity.
Qed.
Lemma side_labels_length s i : index_wf s -> List.length (side_labels s i) = List.length (d_labels s).
Proof.
  intros W. unfold side_labels, index_get. destruct i as [i|]; [|now rewrite map_length].
  destruct (index_find i s) as [r|] eqn:E; rewrite map_length; [|reflexivity].
  apply index_find_spec in E. apply (iw_arity _ W). tauto.
Qed.
Lemma domain_shown_ok d i : domain_shown d i (side_domain d i).
Proof. unfold domain_shown, side_domain, domain_vals. destruct i, d; repeat constructor. Qed.
Lemma side_domain_length d i : List.length (side_domain d i) = domain_width d.
Proof. unfold side_domain, domain_vals, domain_width. destruct i, d, (list_eq_dec N.eq_dec _ _); try discriminate; try congruence; reflexivity. Qed.
Lemma domain_keys_length d : List.length (domain_keys d) = domain_width d.
Proof. unfold domain_keys, domain_width. destruct d, (list_eq_dec N.eq_dec _ _); try discriminate; try congruence; reflexivity. Qed.
Lemma ambiguity_ok level names : ambiguity level names (text_cell (get_ambiguous_field_text level names)).
Proof.
  destruct level as [lv|]; [|reflexivity]. intros H. rewrite (ambiguous_full lv names H).
  destruct (join (txt ", ") (outside 0 names lv)); reflexivity.
Qed.

Definition header_layout name sd td src trg : layout :=
  {| l_source := CText (txt "index_id"); l_source_domain := domain_keys sd; l_source_labels := map CText (d_labels src);
     l_value := text_cell name; l_target := CText (txt "index_id"); l_target_domain := domain_keys td;
     l_target_labels := map CText (d_labels trg); l_ambiguous := CText (txt "ambiguous_fields") |}.
Definition row_layout sd td src trg (e : element) : layout :=
  {| l_source := id_cell (el_source e); l_source_domain := side_domain sd (el_source e);
     l_source_labels := side_labels src (el_source e); l_value := val_cell (snd e);
     l_target := id_cell (el_target e); l_target_domain := side_domain td (el_target e);
     l_target_labels := side_labels trg (el_target e);
     l_ambiguous := text_cell (get_ambiguous_field_text (snd (fst e)) (d_labels trg)) |}.
Lemma row_flat sd td src trg e : mapping_row sd td src trg e = flat (row_layout sd td src trg e).
Proof. destruct e as [[[s t] lv] v]. reflexivity. Qed.
Lemma heading_ok n sd td src trg : heading n src trg (header_layout (Some n) sd td src trg).
Proof.
  unfold heading, header_layout. cbn.
  assert (F : forall d, Forall (eq (CText (txt "domain"))) (domain_keys d)) by (intros [|]; repeat constructor).
  repeat split; auto.
Qed.
Lemma header_shaped name sd td src trg : shaped sd td src trg (header_layout name sd td src trg).
Proof. unfold shaped, header_layout. cbn [l_source_domain l_source_labels l_target_domain l_target_labels].
  rewrite !domain_keys_length, !map_length. auto. Qed.
Lemma shows_ok sd td src trg e : shows sd td src trg e (row_layout sd td src trg e).
Proof.
  split; [reflexivity|]. split; [apply domain_shown_ok|]. split; [apply labels_shown_ok|]. split; [reflexivity|].
  split; [reflexivity|]. split; [apply domain_shown_ok|]. split; [apply labels_shown_ok|]. apply ambiguity_ok.
Qed.
Lemma row_shaped sd td src trg e : index_wf src -> index_wf trg -> shaped sd td src trg (row_layout sd td src trg e).
Proof.
  intros Ws Wt. unfold shaped, row_layout. cbn [l_source_domain l_source_labels l_target_domain l_target_labels].
  rewrite !side_domain_length, !side_labels_length; auto.
Qed.

(** Rows of one width have one decomposition. *)
Lemma app_same {A} (a b c d : list A) : List.length a = List.length c -> a ++ b = c ++ d -> a = c /\ b = d.
Proof.
  revert c. induction a as [|x a IH]; intros [|y c] L E; cbn in L; try discriminate; auto.
  injection E as -> E. destruct (IH c) as [-> ->]; auto.
Qed.
Lemma flat_inj sd td src trg a b : shaped sd td src trg a -> shaped sd td src trg b -> flat a = flat b -> a = b.
Proof.
  intros (A1 & A2 & A3 & A4) (B1 & B2 & B3 & B4) E. destruct a, b. unfold flat in E. cbn in *.
  injection E as E0 E. apply app_same in E; [|congruence]. destruct E as [E1 E].
  apply app_same in E; [|congruence]. destruct E as [E2 E]. injection E as E3 E4 E.
  apply app_same in E; [|congruence]. destruct E as [E5 E]. apply app_same in E; [|congruence]. destruct E as [E6 E].
  injection E as E7. subst. reflexivity.
Qed.

(** *** The rows of [select_mappings] *)

Lemma desc_same m names : ambiguous_desc m names = get_ambiguous_field_text (Some (m_level m)) names.
Proof. unfold ambiguous_desc, get_ambiguous_field_text. destruct (m_level m); [destruct names|]; reflexivity. Qed.
Lemma maps_nodup s : maps_wf s -> NoDup (d_maps s).
Proof. intros W. pose proof (mw_unique _ W) as U. revert U. apply NoDup_map_inv. Qed.
Lemma select_rows_spec k s r : maps_wf s -> record_rows k s r (select_rows (k_id k) s r).
Proof.
  intros W. unfold record_rows, select_rows.
  set (ms := filter _ (d_maps s)). exists ms. split; [apply nodup_filter, maps_nodup, W|]. split.
  - intros m. unfold ms, of_link. rewrite filter_In, andb_true_iff, !Z.eqb_eq. tauto.
  - destruct ms as [|m0 ms']; [reflexivity|]. generalize (m0 :: ms') as l. clear. induction l as [|m l IH]; constructor; auto.
    exists (text_cell (ambiguous_desc m (d_labels s))). split; [reflexivity|]. rewrite desc_same. apply ambiguity_ok.
Qed.
Lemma records_nodup s : index_wf s -> NoDup (d_index s).
Proof. intros W. pose proof (iw_unique _ W) as U. revert U. apply NoDup_map_inv. Qed.
Lemma selected_spec k s c : index_wf s -> maps_wf s -> known_columns c s ->
  selected k s c (flat_map (select_rows (k_id k) s) (filter (fun r => negb (ix_id r =? 0)%Z) (filter_by_label c s))).
Proof.
  intros Wi Wm Kn. set (rs := filter _ _). exists rs, (map (select_rows (k_id k) s) rs). split; [|split; [|split]].
  - apply nodup_filter. apply nodup_filter. now apply records_nodup.
  - intros r. unfold rs. rewrite filter_In, (filter_by_label_iff c s r Wi Kn), negb_true_iff, Z.eqb_neq. tauto.
  - generalize rs. intros l. induction l; constructor; auto. now apply select_rows_spec.
  - now rewrite flat_map_concat_map.
Qed.

(** *** The text *)

Lemma number_ok n : (0 <= n)%Z -> number n (format_dec n).
Proof.
  intros P. unfold number, format_dec. destruct (n <? 0)%Z eqn:E; [lia|]. cbn [app].
  pose proof (dec_nonempty (Z.abs_N n)) as Ne. split; [exact Ne|].
  pose proof (dec_chars_digits (N.to_uint (Z.abs_N n))) as D. split; [exact D|].
  pose proof (py_int_dec (fun _ => None) n) as Py.
  apply py_int_iff in Py; [|auto|exact (format_dec_ascii (fun _ => None) n)]. unfold format_dec in Py. rewrite E in Py. exact Py.
Qed.
Lemma called_ok path uid : called path uid (short_hint path uid).
Proof.
  assert (Br : (forall stem, path <> Some (stem ++ txt ".toron")) -> called path uid (txt "[" ++ firstn 7 uid ++ txt "]")).
  { intros N. right. split; [exact N|]. exists (firstn 7 uid), (skipn 7 uid). split; [now rewrite firstn_skipn|]. split; [|reflexivity].
    rewrite firstn_length. destruct (Nat.le_gt_cases 7 (List.length uid)) as [L|L]; [left; lia|right].
    split; [lia|]. apply skipn_all2. lia. }
  unfold short_hint. destruct path as [h|]; [|apply Br; discriminate].
  destruct (endswith h (txt ".toron")) eqn:E.
  - apply endswith_iff in E. destruct E as (pre & ->).
    assert (Ne : is_empty (pre ++ txt ".toron") = false) by (destruct pre; reflexivity). rewrite Ne. cbn [negb andb].
    left. f_equal. f_equal. rewrite app_length. change (List.length (txt ".toron")) with 6%nat.
    replace (List.length pre + 6 - 6)%nat with (List.length pre) by lia. rewrite firstn_app, firstn_all, Nat.sub_diag. cbn [firstn].
    now rewrite app_nil_r.
  - rewrite andb_false_r. apply Br. intros stem [= ->]. assert (T : endswith (stem ++ txt ".toron") (txt ".toron") = true) by (apply endswith_iff; eauto).
    congruence.
Qed.
