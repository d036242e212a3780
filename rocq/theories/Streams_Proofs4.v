From Coq Require Import NArith.
From Verif Require Import Prelude Selectors_Model BitFlags_Model IndexCode_Model IndexCode_Spec IndexCode_Proofs2
  Selectors_Proofs LinkRef_Proofs Streams_Model Streams_Spec Streams_Proofs Streams_Proofs2 Streams_Proofs3.
Local Open Scope nat_scope.

(** *** Kinds of data *)
Theorem tabular_sequences d columns s h s1 : iter_data d = Ok s -> s = Item (RSeq h) s1 ->
  (columns = None \/ columns = Some [] -> normalize_tabular d columns = Ok (s1, h)) /\
  (forall c cs, columns = Some (c :: cs) -> normalize_tabular d columns = Ok (s, c :: cs)).
Proof.
  intros E ->. unfold normalize_tabular. rewrite E. cbn [bind]. split.
  - intros [-> | ->]; reflexivity.
  - intros c cs ->. reflexivity.
Qed.
Theorem tabular_mappings d columns s d1 ds e : iter_data d = Ok s -> reads s (map RMap (d1 :: ds)) e ->
  exists header s' rows, normalize_tabular d columns = Ok (s', header) /\ reads s' rows e /\
    (columns = None \/ columns = Some [] -> header = map fst d1) /\
    (forall c cs, columns = Some (c :: cs) -> header = c :: cs) /\
    Forall2 (fun d r => exists l, r = RSeq l /\ Forall2 (value_of d) header l) (d1 :: ds) rows.
Proof.
  intros E R. unfold normalize_tabular. rewrite E. cbn [bind]. destruct s as [|x|r s]; try (inversion R; fail).
  assert (r = RMap d1) as -> by (inversion R; reflexivity). change (chain [RMap d1] s) with (Item (RMap d1) s).
  eexists. eexists. exists (map (fun d => RSeq (map (fun x => dict_get x d) (match given columns with Some c => c | None => map fst d1 end))) (d1 :: ds)).
  split; [reflexivity|]. split; [apply smap_get; exact R|]. split; [intros [-> | ->]; reflexivity|]. split; [intros c cs ->; reflexivity|].
  apply get_rows_spec.
Qed.
Theorem tabular_returns d columns s s' header : iter_data d = Ok s -> normalize_tabular d columns = Ok (s', header) ->
  (s = Stop /\ s' = Stop) \/ s' = s \/ s = Item (RSeq header) s' \/ row_by_row (fun r r' => get_row header r = Ok r') s s'.
Proof.
  intros E H. unfold normalize_tabular in H. rewrite E in H. cbn [bind] in H. destruct s as [|x|r s]; [|discriminate|].
  - injection H as <- <-. left. auto.
  - destruct r as [l|it| |]; try discriminate.
    + destruct (given columns) as [c|]; injection H as <- <-; auto.
    + injection H as <- <-. right. right. right.
      refine (smap_row_by_row (get_row _) _ (Item (RMap it) s) _). reflexivity.
Qed.
Theorem readerlike_sequences d s h s1 : d = DReader s \/ d = DIter s -> s = Item (RSeq h) s1 -> make_readerlike d = Ok s.
Proof. intros [-> | ->] ->; reflexivity. Qed.
Theorem readerlike_mappings s d1 ds e : reads s (map RMap (d1 :: ds)) e ->
  exists s' rows, make_readerlike (DIter s) = Ok s' /\ reads s' (RSeq (map fst d1) :: rows) e /\
    Forall2 (fun d r => exists l, r = RSeq l /\ Forall2 (value_of d) (map fst d1) l) (d1 :: ds) rows.
Proof.
  intro R. destruct s as [|x|r s]; try (inversion R; fail). assert (r = RMap d1) as -> by (inversion R; reflexivity).
  unfold make_readerlike. change (chain [RMap d1] s) with (Item (RMap d1) s).
  eexists. eexists. split; [reflexivity|]. split; [constructor; apply smap_get; exact R | apply get_rows_spec].
Qed.
Theorem readerlike_dictreader fieldnames s ds e : reads s (map RMap ds) e ->
  exists s' rows, make_readerlike (DDictReader fieldnames s) = Ok s' /\ reads s' (RSeq fieldnames :: rows) e /\
    Forall2 (fun d r => exists l, r = RSeq l /\ Forall2 (value_of d) fieldnames l) ds rows.
Proof. intro R. eexists. eexists. split; [reflexivity|]. split; [constructor; apply smap_get; exact R | apply get_rows_spec]. Qed.
Theorem dictreaderlike_mappings d s d1 s1 : d = DReader s \/ d = DIter s -> s = Item (RMap d1) s1 -> make_dictreaderlike d = Ok s.
Proof. intros [-> | ->] ->; reflexivity. Qed.

Lemma dict_set_new k v d : ~ In k (map fst d) -> dict_set k v d = d ++ [(k, v)].
Proof.
  induction d as [|[k' v'] d IH]; cbn [dict_set map fst In app]; intro N; [reflexivity|].
  replace (cell_eqb k k') with false by (symmetry; apply cell_eqb_neq; intros ->; apply N; left; reflexivity). f_equal. apply IH. tauto.
Qed.
Lemma dict_of_app items d : NoDup (map fst (d ++ items)) -> fold_left (fun d kv => dict_set (fst kv) (snd kv) d) items d = d ++ items.
Proof.
  revert d. induction items as [|[k v] items IH]; intros d N; cbn [fold_left fst snd]; [rewrite app_nil_r; reflexivity|].
  rewrite dict_set_new.
  - rewrite IH; rewrite <- app_assoc; [reflexivity | exact N].
  - rewrite map_app in N. cbn [map fst] in N. apply NoDup_remove_2 in N. intro I. apply N. apply in_or_app. left. exact I.
Qed.
Lemma dict_of_distinct items : NoDup (map fst items) -> dict_of items = items.
Proof. intro N. unfold dict_of. apply (dict_of_app items []). exact N. Qed.
Lemma NoDup_firstn {A} n : forall l : list A, NoDup l -> NoDup (firstn n l).
Proof.
  induction n as [|n IH]; intros l N; [constructor|]. destruct N as [|a l Na N]; cbn [firstn]; constructor; [|auto].
  intro I. apply Na. rewrite <- (firstn_skipn n l). apply in_or_app. left. exact I.
Qed.
Lemma combine_fst {A B} (a : list A) : forall b : list B, map fst (combine a b) = firstn (length b) a.
Proof. induction a as [|x a IH]; intros [|y b]; cbn [combine map firstn length fst]; try reflexivity. f_equal. apply IH. Qed.
Theorem dictreaderlike_sequences s h ls e : reads s (map RSeq (h :: ls)) e -> NoDup h ->
  exists s', make_dictreaderlike (DIter s) = Ok s' /\ reads s' (map (fun l => RMap (combine h l)) ls) e.
Proof.
  intros R N. destruct s as [|x|r s]; try (inversion R; fail). cbn [map] in R. inversion R as [| |? ? ? ? R1]; subst.
  exists (smap (zip_row h) s). split; [reflexivity|]. clear R. revert s R1. induction ls as [|l ls IH]; intros s R1; inversion R1; subst; cbn [smap map zip_row].
  - constructor.
  - constructor.
  - rewrite dict_of_distinct by (rewrite combine_fst; apply NoDup_firstn; exact N). constructor. apply IH. assumption.
Qed.

Lemma cell_true_text t : cell_true (CText t) = true <-> t <> [].
Proof. destruct t; cbn; split; congruence. Qed.

Lemma eagerly_same {A} (g : stream A) : match eagerly_initialize g with Ok s => s = g | Err e => g = Boom e end.
Proof. destruct g; reflexivity. Qed.

Section S.
Context (todecimal : N -> option N) (edge_name : text -> option text).

(** *** Labels of a row *)
Lemma traverse_iff {A B} (f : A -> res B) (R : A -> B -> Prop) l : (forall a b, In a l -> (f a = Ok b <-> R a b)) ->
  forall out, traverse f l = Ok out <-> Forall2 R l out.
Proof.
  induction l as [|a l IH]; intros F out.
  - split; [intros [= <-]; constructor | inversion 1; reflexivity].
  - rewrite traverse_cons. split.
    + destruct (f a) as [b|] eqn:E; cbn [bind]; [|discriminate]. destruct (traverse f l) as [bs|] eqn:Et; cbn [bind]; [|discriminate].
      intros [= <-]. constructor; [apply F; [left; reflexivity | exact E]|]. apply (IH (fun a b I => F a b (or_intror I))). reflexivity.
    + intro H. inversion H as [|? b ? bs H1 H2]; subst. rewrite (proj2 (F a b (or_introl eq_refl)) H1). cbn [bind].
      rewrite (proj2 (IH (fun a b I => F a b (or_intror I)) bs) H2). reflexivity.
Qed.
Lemma Forall2_map_l {A B C} (f : A -> B) (R : B -> C -> Prop) l m : Forall2 R (map f l) m <-> Forall2 (fun a => R (f a)) l m.
Proof.
  revert m. induction l as [|a l IH]; intro m; cbn [map].
  - split; inversion 1; constructor.
  - split; intro H; inversion H; subst; constructor; try assumption; apply IH; assumption.
Qed.
Lemma index_from_spec name header : forall i, match index_from i name header with
  | Some j => i <= j /\ nth_error header (j - i) = Some (CText name)
  | None => ~ In (CText name) header
  end.
Proof.
  induction header as [|c header IH]; intro i; cbn [index_from]; [auto|].
  destruct (cell_eqb (CText name) c) eqn:E.
  - apply cell_eqb_eq in E. subst. rewrite Nat.sub_diag. split; [lia | reflexivity].
  - apply cell_eqb_neq in E. specialize (IH (S i)). destruct (index_from (S i) name header) as [j|].
    + destruct IH as [L IH]. split; [lia|]. replace (j - i) with (S (j - S i)) by lia. exact IH.
    + intros [->|I]; auto.
Qed.
Lemma has_duplicates_false l : has_duplicates l = false -> NoDup l.
Proof.
  induction l as [|c l IH]; cbn [has_duplicates]; [constructor|]. intro H. apply orb_false_iff in H. destruct H as [H1 H2].
  constructor; [|auto]. intro I. assert (existsb (cell_eqb c) l = true); [|congruence]. apply existsb_exists. exists c. split; [exact I | apply cell_eqb_refl].
Qed.
Lemma nth_slice columns start stop i : start <= stop -> nth_error (slice start stop columns) i = if i <? stop - start then nth_error columns (start + i) else None.
Proof.
  intro L. unfold slice. destruct (Nat.ltb_spec i (stop - start)) as [H|H].
  - rewrite <- (firstn_skipn start columns) at 2. 
    destruct (Nat.le_gt_cases start (length columns)) as [G|G].
    + rewrite nth_error_app2; rewrite firstn_length; [|lia]. replace (start + i - Nat.min start (length columns)) with i by lia.
      rewrite <- (firstn_skipn (stop - start) (skipn start columns)) at 2.
      destruct (nth_error (firstn (stop - start) (skipn start columns)) i) as [c|] eqn:E.
      * symmetry. rewrite nth_error_app1; [exact E|]. apply nth_error_Some. congruence.
      * apply nth_error_None in E. rewrite firstn_length in E. symmetry. apply nth_error_None. rewrite app_length, firstn_length, !skipn_length in *. lia.
    + rewrite (skipn_all2 (n := start)) by lia. rewrite firstn_nil, app_nil_r. rewrite firstn_all2 by lia.
      destruct i; cbn [nth_error]; symmetry; apply nth_error_None; lia.
  - apply nth_error_None. rewrite firstn_length. lia.
Qed.
Lemma location_spec columns labels start stop ix l : start <= stop -> location_indexes columns labels start stop = Ok ix ->
  forall loc, get_location ix l = Ok loc <-> Forall2 (label_cell columns start stop l) labels loc.
Proof.
  intros L H loc. unfold location_indexes in H. destruct (has_duplicates (slice start stop columns)) eqn:D; [discriminate|]. injection H as <-.
  apply has_duplicates_false in D. unfold get_location. rewrite <- (Forall2_map_l (fun name => name) _ labels loc), map_id.
  rewrite (traverse_iff _ (fun i c => match i with Some i => nth_error l i = Some c | None => c = CText [] end)).
  2:{ intros [i|] c _; [unfold cell_at; destruct (nth_error l i); split; intro E; inversion E; reflexivity|].
      split; [intros [= <-] | intros ->]; reflexivity. }
  rewrite Forall2_map_l.
  assert (Q : forall name c, match index_from start name (slice start stop columns) with Some i => nth_error l i = Some c | None => c = CText [] end
              <-> label_cell columns start stop l name c).
  { intros name c. pose proof (index_from_spec name (slice start stop columns) start) as F. unfold label_cell.
    destruct (index_from start name (slice start stop columns)) as [j|].
    - destruct F as [Lj F]. pose proof F as F0. rewrite nth_slice in F by exact L. destruct (Nat.ltb_spec (j - start) (stop - start)) as [G|G]; [|discriminate].
      replace (start + (j - start)) with j in F by lia. split.
      + intro E. left. exists j. split; [lia | auto].
      + intros [(j' & Lj' & E1 & E2)|[No _]]; [|exfalso; exact (No j ltac:(lia) F)].
        assert (j = j') as ->; [|exact E2].
        assert (E3 : nth_error (slice start stop columns) (j' - start) = Some (CText name)).
        { rewrite nth_slice by exact L. destruct (Nat.ltb_spec (j' - start) (stop - start)); [|lia]. replace (start + (j' - start)) with j' by lia. exact E1. }
        assert (j - start = j' - start); [|lia]. apply (proj1 (NoDup_nth_error _) D); [apply nth_error_Some; congruence | congruence].
    - split.
      + intros ->. right. split; [|reflexivity]. intros j Lj E. apply F. apply (nth_error_In _ (j - start)).
        rewrite nth_slice by exact L. destruct (Nat.ltb_spec (j - start) (stop - start)); [|lia]. replace (start + (j - start)) with j by lia. exact E.
      + intros [(j & Lj & E & _)|[_ ->]]; [|reflexivity]. exfalso. apply F. apply (nth_error_In _ (j - start)).
        rewrite nth_slice by exact L. destruct (Nat.ltb_spec (j - start) (stop - start)); [|lia]. replace (start + (j - start)) with j by lia. exact E. }
  split; intro G; induction G; constructor; try (apply Q; assumption); assumption.
Qed.

(** *** Ids of a row *)
Lemma index_id_spec nd o l id : get_index_id todecimal nd o l = Ok id <-> row_id todecimal (n_id_bytes nd) o l id.
Proof.
  unfold get_index_id, row_id. destruct o as [p|]; [|split; [intros [= <-] | intros ->]; reflexivity].
  unfold cell_at. destruct (nth_error l p) as [c|]; cbn [bind]; [|split; [discriminate | intros (c & H & _); discriminate]].
  destruct (cell_true c) eqn:T; cbn [negb].
  - split.
    + destruct c as [t| |z]; try discriminate. destruct (index_code_to_id todecimal t (n_id_bytes nd)) as [i|x] eqn:E.
      * intros [= <-]. exists (CText t). split; [reflexivity|]. right. exists t, i. split; [reflexivity|]. split; [apply cell_true_text; exact T | auto].
      * destruct x; discriminate.
    + intros (c' & [= <-] & [[F _]|(t & i & -> & _ & E & ->)]); [congruence|]. rewrite E. reflexivity.
  - split.
    + intros [= <-]. exists c. split; [reflexivity|]. left. auto.
    + intros (c' & [= <-] & [[_ ->]|(t & i & -> & Nt & _)]); [reflexivity|]. apply cell_true_text in Nt. congruence.
Qed.
Lemma level_spec nd id loc : row_level nd id loc (get_level nd id loc).
Proof. destruct id; cbn [row_level get_level]; [|reflexivity]. f_equal. induction (n_index_columns nd); cbn; congruence. Qed.

(** *** Mapping data *)
Context (node1 node2 : node).
Lemma mapping_row_spec columns p ix1 ix2 : p_start1 p <= p_stop1 p -> p_start2 p <= p_stop2 p ->
  location_indexes columns (n_index_columns node1) (p_start1 p) (p_stop1 p) = Ok ix1 ->
  location_indexes columns (n_index_columns node2) (p_start2 p) (p_stop2 p) = Ok ix2 ->
  forall r m, mapping_row_of todecimal node1 node2 p ix1 ix2 r = Ok m <-> mapping_row_for todecimal node1 node2 columns p r m.
Proof.
  intros L1 L2 I1 I2 r m. unfold mapping_row_of, mapping_row_for. destruct r as [l| | |]; cbn [row_cells bind];
    try (split; [discriminate | intros (l & H & _); discriminate]).
  split.
  - destruct (get_index_id todecimal node1 (p_index1 p) l) as [id1|] eqn:E1; cbn [bind]; [|discriminate].
    destruct (get_location ix1 l) as [loc1|] eqn:E2; cbn [bind]; [|discriminate].
    destruct (get_index_id todecimal node2 (p_index2 p) l) as [id2|] eqn:E3; cbn [bind]; [|discriminate].
    destruct (get_location ix2 l) as [loc2|] eqn:E4; cbn [bind]; [|discriminate].
    destruct (cell_at l (p_value p)) as [v|] eqn:E5; cbn [bind]; [|discriminate]. intros [= <-].
    cbn [mr_id1 mr_loc1 mr_level1 mr_id2 mr_loc2 mr_level2 mr_value]. exists l. split; [reflexivity|].
    split; [apply index_id_spec; exact E1|]. split; [apply (location_spec _ _ _ _ _ _ L1 I1); exact E2|]. split; [apply level_spec|].
    split; [apply index_id_spec; exact E3|]. split; [apply (location_spec _ _ _ _ _ _ L2 I2); exact E4|]. split; [apply level_spec|].
    unfold cell_at in E5. destruct (nth_error l (p_value p)); congruence.
  - intros (l' & [= <-] & R1 & F1 & V1 & R2 & F2 & V2 & N).
    apply index_id_spec in R1. apply index_id_spec in R2. rewrite R1. cbn [bind].
    apply (location_spec _ _ _ _ _ _ L1 I1) in F1. apply (location_spec _ _ _ _ _ _ L2 I2) in F2. rewrite F1. cbn [bind]. rewrite R2. cbn [bind]. rewrite F2. cbn [bind].
    unfold cell_at. rewrite N. cbn [bind]. f_equal. destruct m as [id1 loc1 lv1 id2 loc2 lv2 v].
    cbn [mr_id1 mr_loc1 mr_level1 mr_id2 mr_loc2 mr_level2 mr_value] in *. f_equal.
    + pose proof (level_spec node1 id1 loc1) as H. destruct id1; cbn [row_level] in *; congruence.
    + pose proof (level_spec node2 id2 loc2) as H. destruct id2; cbn [row_level] in *; congruence.
Qed.
Theorem mapping_data_rows link d is_list columns out :
  normalize_mapping_data todecimal edge_name node1 node2 link d is_list columns = Ok out ->
  exists rows header p, normalize_tabular d columns = Ok (rows, header) /\
    get_column_positions todecimal edge_name node1 node2 link rows is_list header = Ok (p, rows) /\
    row_by_row (mapping_row_for todecimal node1 node2 header p) rows out.
Proof.
  unfold normalize_mapping_data. destruct (normalize_tabular d columns) as [[rows header]|]; cbn [bind]; [|discriminate].
  destruct (get_column_positions todecimal edge_name node1 node2 link rows is_list header) as [[p s]|] eqn:G; cbn [bind]; [|discriminate].
  destruct (location_indexes header (n_index_columns node1) (p_start1 p) (p_stop1 p)) as [ix1|] eqn:I1; cbn [bind]; [|discriminate].
  destruct (location_indexes header (n_index_columns node2) (p_start2 p) (p_stop2 p)) as [ix2|] eqn:I2; cbn [bind]; [|discriminate].
  intro H. pose proof (eagerly_same (smap (mapping_row_of todecimal node1 node2 p ix1 ix2) s)) as E. rewrite H in E. subst out.
  pose proof (gcp_returns _ _ _ _ _ _ _ _ _ _ G) as ->. exists rows, header, p. split; [reflexivity|]. split; [exact G|].
  destruct (reads_exists rows) as (l & e & R). destruct (gcp_layout _ _ _ _ _ _ _ _ _ _ _ _ G R) as (_ & _ & _ & _ & _ & _ & _ & B).
  apply smap_row_by_row. apply mapping_row_spec; auto; lia.
Qed.

End S.

(** *** Index rows *)
Section I.
Context (todecimal : N -> option N).
Lemma set_nth_spec {A} (x : A) l : forall i l', set_nth i x l = Some l' <-> exists pre c post, l = pre ++ c :: post /\ length pre = i /\ l' = pre ++ x :: post.
Proof.
  induction l as [|a l IH]; intros i l'; cbn [set_nth].
  - split; [discriminate | intros ([|? ?] & c & post & H & _); discriminate].
  - destruct i as [|i].
    + split; [intros [= <-]; exists [], a, l; auto|]. intros (pre & c & post & E & Lp & ->). destruct pre; [|discriminate]. injection E as -> ->. reflexivity.
    + specialize (IH i). destruct (set_nth i x l) as [m|].
      * split.
        -- intros [= <-]. destruct (proj1 (IH m) eq_refl) as (pre & c & post & -> & <- & ->). exists (a :: pre), c, post. auto.
        -- intros (pre & c & post & E & Lp & ->). destruct pre as [|b pre]; [discriminate|]. injection E as -> E. injection Lp as Lp.
           assert (H : Some m = Some (pre ++ x :: post)) by (apply IH; exists pre, c, post; auto). injection H as ->. reflexivity.
      * split; [discriminate|]. intros (pre & c & post & E & Lp & ->). destruct pre as [|b pre]; [discriminate|]. injection E as -> E. injection Lp as Lp.
        assert (H : None = Some (pre ++ x :: post)) by (apply IH; exists pre, c, post; auto). discriminate.
Qed.
Lemma remap_spec u p r r' : remap_row todecimal u p r = Ok r' <-> recoded todecimal u p r r'.
Proof.
  unfold remap_row, recoded. destruct r as [l| | |]; cbn [row_cells bind]; try (split; [discriminate | intros (a & b & c & H & _); discriminate]).
  unfold cell_at. destruct (nth_error l p) as [c|] eqn:E; cbn [bind].
  2:{ split; [discriminate|]. intros (pre & c & post & [= ->] & <- & _). exfalso. rewrite nth_error_app2, Nat.sub_diag in E by lia. discriminate. }
  destruct (nth_error_split _ _ E) as (pre & post & -> & Lp).
  destruct (cell_true c) eqn:T.
  - split.
    + destruct c as [t| |z]; try discriminate. destruct (index_code_to_id todecimal t u) as [i|] eqn:C; cbn [bind]; [|discriminate].
      unfold put. destruct (set_nth p (COther i) (pre ++ CText t :: post)) as [m|] eqn:Es; cbn [bind]; [|discriminate]. intros [= <-].
      apply set_nth_spec in Es. destruct Es as (pre' & c & post' & Eq & Lp' & ->). exists pre', c, post'.
      split; [congruence|]. split; [exact Lp'|]. assert (c = CText t) as ->.
      { rewrite Eq in E. rewrite nth_error_app2 in E by lia. rewrite Lp', Nat.sub_diag in E. cbn in E. congruence. }
      right. exists t, i. split; [reflexivity|]. split; [apply cell_true_text; exact T | auto].
    + intros (pre' & c' & post' & [= Eq] & Lp' & D). assert (c' = c) as ->.
      { rewrite Eq in E. rewrite nth_error_app2 in E by lia. rewrite Lp', Nat.sub_diag in E. cbn in E. congruence. }
      destruct D as [[F _]|(t & i & -> & _ & C & ->)]; [congruence|]. rewrite C. cbn [bind]. unfold put.
      assert (Es : set_nth p (COther i) (pre ++ CText t :: post) = Some (pre' ++ COther i :: post')) by (apply set_nth_spec; exists pre', (CText t), post'; auto).
      rewrite Es. reflexivity.
  - split.
    + intros [= <-]. exists pre, c, post. auto.
    + intros (pre' & c' & post' & [= Eq] & Lp' & D). assert (c' = c) as ->.
      { rewrite Eq in E. rewrite nth_error_app2 in E by lia. rewrite Lp', Nat.sub_diag in E. cbn in E. congruence. }
      destruct D as [[_ ->]|(t & i & -> & Nt & _)]; [congruence|]. apply cell_true_text in Nt. congruence.
Qed.
Theorem index_rows nd s out rows e : read_index_stdin todecimal nd s = Ok out -> reads s rows e ->
  ((forall q, ~ identifies todecimal (n_id_bytes nd) (firstn 10 rows) q) /\ out = s /\
     exists h s1, s = Item (RSeq h) s1 /\ ~ In (CText (txt "index_id")) h) \/
  exists p, identifies todecimal (n_id_bytes nd) (firstn 10 rows) p /\
    exists h s1, s = Item (RSeq h) s1 /\
    ((length h <= p /\ out = Boom IndexError) \/
     exists pre c post out1, h = pre ++ c :: post /\ length pre = p /\
       out = Item (RSeq (pre ++ CText (txt "index_id") :: post)) out1 /\
       row_by_row (recoded todecimal (n_id_bytes nd) p) s1 out1).
Proof.
  unfold read_index_stdin. intros H R. destruct (islice 10 s) as [[m t]|] eqn:E; cbn [bind] in H; [|discriminate].
  destruct (islice_ok_reads _ _ _ _ _ _ R E) as [Em _]. destruct (islice_ok _ _ _ _ E) as [Ec _]. rewrite Ec in H.
  destruct (code_position_cases todecimal (n_id_bytes nd) m) as (C1 & C2 & _ & _).
  destruct (code_position todecimal m (n_id_bytes nd)) as [p|x] eqn:P.
  - right. exists p. specialize (C1 p eq_refl). rewrite <- Em. split; [exact C1|]. injection H as <-.
    unfold remap_index_codes_to_index_ids.
    assert (M : exists r0 m', m = r0 :: m') by (destruct C1 as [(l & c & I & _) _]; destruct m; [destruct I | eauto]). destruct M as (r0 & m' & ->).
    cbn [chain] in Ec. rewrite <- Ec in *. destruct r0 as [h| | |].
    2-4: exfalso; unfold code_position in P; rewrite traverse_cons in P; discriminate.
    exists h, (chain m' t). split; [reflexivity|]. cbn [row_cells]. unfold put. destruct (set_nth p (CText (txt "index_id")) h) as [h'|] eqn:Es.
    + right. apply set_nth_spec in Es. destruct Es as (pre & c & post & -> & Lp & ->). eexists pre, c, post, _. split; [reflexivity|]. split; [exact Lp|].
      split; [reflexivity|]. apply smap_row_by_row. apply remap_spec.
    + left. split; [|reflexivity]. destruct (Nat.le_gt_cases (length h) p) as [L|L]; [exact L|]. exfalso.
      destruct (nth_error h p) as [c|] eqn:En; [|apply nth_error_None in En; lia]. destruct (nth_error_split _ _ En) as (pre & post & -> & Lp).
      assert (Es' : set_nth p (CText (txt "index_id")) (pre ++ c :: post) = Some (pre ++ CText (txt "index_id") :: post)) by (apply set_nth_spec; exists pre, c, post; auto). congruence.
  - left. destruct x; try discriminate. specialize (C2 eq_refl). rewrite <- Em. split; [exact C2|].
    destruct m as [|r0 m']; [discriminate|]. cbn [chain] in Ec. destruct r0 as [h| | |]; cbn [row_cells bind] in H; try discriminate.
    destruct (existsb (cell_eqb (CText (txt "index_id"))) h) eqn:Ex; [discriminate|]. injection H as <-. split; [reflexivity|].
    exists h, (chain m' t). split; [symmetry; exact Ec|]. intro I. assert (existsb (cell_eqb (CText (txt "index_id"))) h = true); [|congruence].
    apply existsb_exists. eexists. split; [exact I | apply cell_eqb_refl].
Qed.
Theorem index_lookahead nd s t : agree 10 s t ->
  match read_index_stdin todecimal nd s, read_index_stdin todecimal nd t with
  | Ok _, Ok _ => True | Err e, Err e' => e = e' | _, _ => False end.
Proof.
  intro G. unfold read_index_stdin. pose proof (islice_agree 10 0 s t G) as J.
  destruct (islice 10 s) as [[m s']|x] eqn:Es, (islice 10 t) as [[m' t']|x'] eqn:Et; cbn [bind]; try contradiction; auto.
  destruct J as (<- & _). destruct (code_position todecimal m (n_id_bytes nd)) as [p|x]; auto.
  destruct x; auto. destruct m as [|r m]; auto. destruct (row_cells r) as [h|]; cbn [bind]; auto.
  destruct (existsb (cell_eqb (CText (txt "index_id"))) h); auto.
Qed.
End I.
