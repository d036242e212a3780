From Coq Require Import NArith.
From Verif Require Import Prelude Selectors_Model BitFlags_Model IndexCode_Model IndexCode_Spec IndexCode_Proofs2
  Selectors_Proofs LinkRef_Proofs Streams_Model Streams_Spec Streams_Proofs Streams_Proofs2.
Local Open Scope nat_scope.

Section S.
Context (todecimal : N -> option N) (edge_name : text -> option text).
Context (node1 node2 : node).
Notation u1 := (n_id_bytes node1).
Notation u2 := (n_id_bytes node2).
Notation scan := (scan_chunks todecimal).
Notation gcp := (get_column_positions todecimal edge_name node1 node2).

(** *** Only the first rows matter *)
Lemma scan_agree fuel : forall pos1 pos2 scanned sample budget s t, agree budget s t ->
  match scan fuel node1 node2 pos1 pos2 scanned sample budget s, scan fuel node1 node2 pos1 pos2 scanned sample budget t with
  | Ok (q1, q2, _, _), Ok (q1', q2', _, _) => q1 = q1' /\ q2 = q2'
  | Err e, Err e' => e = e'
  | _, _ => False
  end.
Proof.
  induction fuel as [|fuel IH]; intros pos1 pos2 scanned sample budget s t G.
  - destruct sample; cbn [scan_chunks]; auto.
  - destruct sample as [|r sample]; cbn [scan_chunks]; [auto|].
    destruct (find_pos todecimal pos1 (r :: sample) u1) as [o1|]; cbn [bind]; [|reflexivity].
    destruct (find_pos todecimal pos2 (r :: sample) u2) as [o2|]; cbn [bind]; [|reflexivity].
    assert (N : match (do (sample0, budget0, data_iter) <- next_chunk budget s; scan fuel node1 node2 o1 o2 (scanned ++ r :: sample) sample0 budget0 data_iter),
                      (do (sample0, budget0, data_iter) <- next_chunk budget t; scan fuel node1 node2 o1 o2 (scanned ++ r :: sample) sample0 budget0 data_iter) with
      | Ok (q1, q2, _, _), Ok (q1', q2', _, _) => q1 = q1' /\ q2 = q2'
      | Err e, Err e' => e = e'
      | _, _ => False
      end).
    { unfold next_chunk. replace budget with (Nat.min 8 budget + (budget - Nat.min 8 budget)) in G by lia.
      pose proof (islice_agree _ _ _ _ G) as J.
      destruct (islice (Nat.min 8 budget) s) as [[m s']|x] eqn:Es, (islice (Nat.min 8 budget) t) as [[m' t']|x'] eqn:Et; cbn [bind]; try contradiction; auto.
      destruct J as (<- & J1 & J2). apply IH. destruct (islice_ok _ _ _ _ Es) as [_ Lm].
      destruct (Nat.eq_dec (length m) (Nat.min 8 budget)) as [E|E]; [rewrite E; exact J2|].
      destruct J1 as [-> ->]; [lia|]. apply agree_refl. }
    destruct o1 as [i1|]; [destruct o2 as [i2|]|]; try exact N. auto.
Qed.

Definition finish (link : text) (is_list : bool) (columns : list cell) (v : nat) (o1 o2 : option nat) : res positions :=
  let n := length columns in
  let header_is (labels : list text) (sl : nat * nat) := is_list && cells_eqb labels (slice (fst sl) (snd sl) columns) in
  let result sl1 sl2 :=
    Ok {| p_index1 := o1; p_start1 := fst sl1; p_stop1 := snd sl1; p_index2 := o2; p_start2 := fst sl2; p_stop2 := snd sl2; p_value := v |} in
  match o1, o2 with
  | Some i1, Some i2 =>
    if (Nat.max i1 i2 <? v) || (v <? Nat.min i1 i2) then Err RuntimeError
    else result (side_of i1 v n) (side_of i2 v n)
  | Some i1, None =>
    let sl1 := side_of i1 v n in let other := other_side (fst sl1) v n in
    if header_is (n_index_columns node2) other then result sl1 other else Err ToronError
  | None, Some i2 =>
    let sl2 := side_of i2 v n in let other := other_side (fst sl2) v n in
    if header_is (n_index_columns node1) other then result other sl2 else Err ToronError
  | None, None =>
    if header_is (n_index_columns node1) (0, v) && header_is (n_index_columns node2) (v + 1, n)
    then result (0, v) (v + 1, n) else Err ToronError
  end.
Lemma gcp_unfold link s is_list columns : gcp link s is_list columns =
  (do v <- match get_mapping_value_position edge_name columns link with Err ValueError => Err ToronError | r => r end;
   do (sample, budget, s) <- next_chunk 256 s;
   do (o1, o2, sc, s) <- scan 33 node1 node2 None None [] sample budget s;
   do p <- finish link is_list columns v o1 o2; Ok (p, chain sc s)).
Proof.
  unfold get_column_positions, finish. destruct (match get_mapping_value_position edge_name columns link with Err ValueError => Err ToronError | r => r end) as [v|]; cbn [bind]; [|reflexivity].
  destruct (next_chunk 256 s) as [[[sample budget] s']|]; cbn [bind]; [|reflexivity].
  destruct (scan 33 node1 node2 None None [] sample budget s') as [[[[o1 o2] sc] s'']|]; cbn [bind]; [|reflexivity].
  destruct o1 as [i1|], o2 as [i2|]; cbn [fst snd]; match goal with |- context[if ?b then _ else _] => destruct b end; reflexivity.
Qed.
Theorem gcp_returns link s is_list columns p s' : gcp link s is_list columns = Ok (p, s') -> s' = s.
Proof.
  rewrite gcp_unfold. destruct (match get_mapping_value_position edge_name columns link with Err ValueError => Err ToronError | r => r end) as [v|]; cbn [bind]; [|discriminate].
  unfold next_chunk. destruct (islice (Nat.min 8 256) s) as [[m t]|] eqn:E; cbn [bind]; [|discriminate].
  destruct (scan 33 node1 node2 None None [] m (256 - length m) t) as [[[[o1 o2] sc] t']|] eqn:Es; cbn [bind]; [|discriminate].
  destruct (finish link is_list columns v o1 o2); cbn [bind]; [|discriminate]. intros [= <- <-].
  apply scan_returns in Es. rewrite Es. cbn [app]. exact (proj1 (islice_ok _ _ _ _ E)).
Qed.
Theorem gcp_agree link s t is_list columns : agree 256 s t ->
  match gcp link s is_list columns, gcp link t is_list columns with
  | Ok (p, _), Ok (p', _) => p = p'
  | Err e, Err e' => e = e'
  | _, _ => False
  end.
Proof.
  intro G. rewrite !gcp_unfold. destruct (match get_mapping_value_position edge_name columns link with Err ValueError => Err ToronError | r => r end) as [v|]; cbn [bind]; [|reflexivity].
  unfold next_chunk. change (Nat.min 8 256) with 8. pose proof (islice_agree 8 248 s t G) as J.
  destruct (islice 8 s) as [[m s']|x] eqn:Es, (islice 8 t) as [[m' t']|x'] eqn:Et; cbn [bind]; try contradiction; auto.
  destruct J as (<- & J1 & J2). destruct (islice_ok _ _ _ _ Es) as [_ Lm].
  assert (A : agree (256 - length m) s' t').
  { destruct (Nat.eq_dec (length m) 8) as [E|E]; [rewrite E; exact J2|]. destruct J1 as [-> ->]; [lia|]. apply agree_refl. }
  pose proof (scan_agree 33 None None [] m _ _ _ A) as K.
  destruct (scan 33 node1 node2 None None [] m (256 - length m) s') as [[[[o1 o2] sc] s'']|],
           (scan 33 node1 node2 None None [] m (256 - length m) t') as [[[[o1' o2'] sc'] t'']|]; cbn [bind]; try contradiction; auto.
  destruct K as [<- <-]. destruct (finish link is_list columns v o1 o2); cbn [bind]; reflexivity.
Qed.

(** *** The link column *)
Lemma names_link_b link col :
  text_eqb link col || match edge_name col with Some n => text_eqb link n | None => false end = true <-> names_link edge_name link (CText col).
Proof.
  rewrite orb_true_iff, text_eqb_iff. unfold names_link. split.
  - intros [->|H]; exists col; (split; [reflexivity|]); [left; reflexivity|]. right. destruct (edge_name col) as [n|]; [|discriminate].
    apply text_eqb_iff in H. congruence.
  - intros (c & [= <-] & [->|H]); [left; reflexivity|]. right. rewrite H. apply text_eqb_refl.
Qed.
Lemma value_position_ok link columns : forall i v, value_position_from edge_name i columns link = Ok v ->
  i <= v /\ link_column edge_name link columns (v - i).
Proof.
  induction columns as [|c columns IH]; intros i v H; cbn [value_position_from] in H; [discriminate|].
  destruct c as [col| |z]; try discriminate. destruct (text_eqb link col || _) eqn:E.
  - injection H as ->. split; [lia|]. exists [], (CText col), columns. rewrite Nat.sub_diag. split; [reflexivity|]. split; [reflexivity|].
    split; [apply names_link_b; exact E | constructor].
  - apply IH in H. destruct H as (L & pre & c & post & -> & Lp & Nc & F). split; [lia|].
    exists (CText col :: pre), c, post. split; [reflexivity|]. split; [cbn [length]; lia|]. split; [exact Nc|]. constructor; [|exact F].
    rewrite <- names_link_b. congruence.
Qed.
Lemma value_position_total link columns : Forall (fun c => exists t, c = CText t) columns -> forall i,
  (exists v, value_position_from edge_name i columns link = Ok v) \/
  (value_position_from edge_name i columns link = Err ValueError /\ Forall (fun c => ~ names_link edge_name link c) columns).
Proof.
  induction 1 as [|c columns (t & ->) _ IH]; intro i; cbn [value_position_from]; [right; auto|].
  destruct (text_eqb link t || _) eqn:E; [left; eauto|]. destruct (IH (S i)) as [[v ->]|[-> F]]; [left; eauto|].
  right. split; [reflexivity|]. constructor; [|exact F]. rewrite <- names_link_b. congruence.
Qed.
Lemma link_column_fun link columns v w : link_column edge_name link columns v -> link_column edge_name link columns w -> v = w.
Proof.
  intros (p & c & q & -> & <- & N & F) (p' & c' & q' & E & <- & N' & F').
  revert p' E F'. induction p as [|x p IH]; intros p' E F'; destruct p' as [|y p']; cbn [app length] in *.
  - reflexivity.
  - injection E as -> _. inversion_clear F' as [|? ? Nc _]. contradiction.
  - injection E as -> _. inversion_clear F as [|? ? Nc _]. contradiction.
  - injection E as -> E. inversion_clear F. inversion_clear F'. f_equal. eapply IH; eauto.
Qed.
Lemma link_column_lt link columns v : link_column edge_name link columns v -> v < length columns.
Proof. intros (p & c & q & -> & <- & _). rewrite app_length. cbn [length]. lia. Qed.

(** *** Slices *)
Lemma cells_eqb_eq a : forall b, cells_eqb a b = true <-> b = map CText a.
Proof.
  unfold cells_eqb. induction a as [|x a IH]; intros [|y b]; cbn [length Nat.eqb combine forallb map].
  { split; reflexivity. }
  { split; intro H; discriminate H. }
  { split; intro H; discriminate H. }
  specialize (IH b). rewrite andb_true_iff in *. rewrite andb_true_iff, cell_eqb_eq. split.
  - intros (L & <- & F). f_equal. apply IH. auto.
  - intros [= -> ->]. destruct (proj2 IH eq_refl) as [L F]. auto.
Qed.
Lemma header_slice columns start stop h : start <= stop <= length columns -> (header_between columns start stop h <-> slice start stop columns = h).
Proof.
  intro L. unfold header_between, slice. split.
  - intros (pre & post & -> & <- & E). rewrite skipn_app, skipn_all, Nat.sub_diag. cbn [app skipn].
    rewrite firstn_app. replace (stop - length pre) with (length h) by lia. rewrite firstn_all, Nat.sub_diag. cbn [firstn]. apply app_nil_r.
  - intros <-. exists (firstn start columns), (skipn (stop - start) (skipn start columns)).
    rewrite !firstn_skipn. split; [reflexivity|]. rewrite !firstn_length, skipn_length. lia.
Qed.
Lemma labels_at_b is_list nd columns start stop : start <= stop <= length columns ->
  (is_list && cells_eqb (n_index_columns nd) (slice start stop columns) = true <-> labels_at is_list nd columns start stop).
Proof. intro L. unfold labels_at. rewrite andb_true_iff, cells_eqb_eq, header_slice by exact L. reflexivity. Qed.

(** *** The layout *)
Definition placed (nd : node) (columns : list cell) (v : nat) (o : option nat) (start stop : nat) : Prop :=
  (forall i, o = Some i -> (i < v -> start = 0 /\ stop = v) /\ (v < i -> start = S v /\ stop = length columns)) /\
  (o = None -> header_between columns start stop (map CText (n_index_columns nd))).
Lemma finish_layout link is_list columns v o1 o2 : v < length columns ->
  ((exists p, finish link is_list columns v o1 o2 = Ok p) <-> acceptable is_list node1 node2 columns v o1 o2) /\
  forall p, finish link is_list columns v o1 o2 = Ok p ->
    p_value p = v /\ p_index1 p = o1 /\ p_index2 p = o2 /\
    placed node1 columns v o1 (p_start1 p) (p_stop1 p) /\ placed node2 columns v o2 (p_start2 p) (p_stop2 p) /\
    (o1 <> Some v -> o2 <> Some v ->
      (p_start1 p = 0 /\ p_stop1 p = v /\ p_start2 p = S v /\ p_stop2 p = length columns) \/
      (p_start2 p = 0 /\ p_stop2 p = v /\ p_start1 p = S v /\ p_stop1 p = length columns)) /\
    (o1 = None -> o2 = None -> p_start1 p = 0) /\
    (p_stop1 p <= length columns /\ p_stop2 p <= length columns /\ p_start1 p <= p_stop1 p /\ p_start2 p <= p_stop2 p).
Proof.
  intro Lv. unfold finish, acceptable, placed, side_of, other_side. set (n := length columns) in *. replace (v + 1) with (S v) by lia.
  destruct o1 as [i1|], o2 as [i2|].
  - destruct ((Nat.max i1 i2 <? v) || (v <? Nat.min i1 i2)) eqn:E.
    + split; [|discriminate]. split; [intros [p H]; discriminate|]. intros [N1 N2]. exfalso.
      apply orb_true_iff in E. rewrite !Nat.ltb_lt in E. lia.
    + apply orb_false_iff in E. rewrite !Nat.ltb_ge in E. split; [split; [intros _; lia | eauto]|].
      intros p [= <-]. cbn [p_value p_index1 p_index2 p_start1 p_stop1 p_start2 p_stop2].
      destruct (Nat.ltb_spec i1 v), (Nat.ltb_spec i2 v); cbn [fst snd]; repeat split; try reflexivity; try discriminate; try lia;
        try (injection H1 as <-; lia); try (injection H2 as <-; lia).
      all: intros; assert (i1 <> v) by congruence; assert (i2 <> v) by congruence; lia.
  - destruct (Nat.ltb_spec i1 v) as [L|L]; cbn [fst snd].
    + replace (v <? 0) with false by (symmetry; apply Nat.ltb_ge; lia). cbn [fst snd].
      pose proof (labels_at_b is_list node2 columns (S v) n) as B. destruct (is_list && cells_eqb (n_index_columns node2) (slice (S v) n columns)) eqn:E.
      * destruct B as [B _]; [fold n; lia|]. specialize (B eq_refl). split; [split; [intros _; split; [auto | lia] | eauto]|].
        intros p [= <-]. cbn [p_value p_index1 p_index2 p_start1 p_stop1 p_start2 p_stop2].
        repeat split; try reflexivity; try discriminate; try lia; try (injection H as <-; lia).
        intros _. exact (proj2 B).
      * split; [|discriminate]. split; [intros [p H]; discriminate|]. intros [N1 _]. destruct B as [_ B]; [fold n; lia|]. specialize (B (N1 L)). discriminate.
    + replace (v <? S v) with true by (symmetry; apply Nat.ltb_lt; lia). cbn [fst snd].
      pose proof (labels_at_b is_list node2 columns 0 v) as B. destruct (is_list && cells_eqb (n_index_columns node2) (slice 0 v columns)) eqn:E.
      * destruct B as [B _]; [fold n; lia|]. specialize (B eq_refl). split; [split; [intros _; split; [lia | auto] | eauto]|].
        intros p [= <-]. cbn [p_value p_index1 p_index2 p_start1 p_stop1 p_start2 p_stop2].
        repeat split; try reflexivity; try discriminate; try lia; try (injection H as <-; lia).
        intros _. exact (proj2 B).
      * split; [|discriminate]. split; [intros [p H]; discriminate|]. intros [_ N1]. destruct B as [_ B]; [fold n; lia|]. specialize (B (N1 L)). discriminate.
  - destruct (Nat.ltb_spec i2 v) as [L|L]; cbn [fst snd].
    + replace (v <? 0) with false by (symmetry; apply Nat.ltb_ge; lia). cbn [fst snd].
      pose proof (labels_at_b is_list node1 columns (S v) n) as B. destruct (is_list && cells_eqb (n_index_columns node1) (slice (S v) n columns)) eqn:E.
      * destruct B as [B _]; [fold n; lia|]. specialize (B eq_refl). split; [split; [intros _; split; [auto | lia] | eauto]|].
        intros p [= <-]. cbn [p_value p_index1 p_index2 p_start1 p_stop1 p_start2 p_stop2].
        repeat split; try reflexivity; try discriminate; try lia; try (injection H as <-; lia).
        intros _. exact (proj2 B).
      * split; [|discriminate]. split; [intros [p H]; discriminate|]. intros [N1 _]. destruct B as [_ B]; [fold n; lia|]. specialize (B (N1 L)). discriminate.
    + replace (v <? S v) with true by (symmetry; apply Nat.ltb_lt; lia). cbn [fst snd].
      pose proof (labels_at_b is_list node1 columns 0 v) as B. destruct (is_list && cells_eqb (n_index_columns node1) (slice 0 v columns)) eqn:E.
      * destruct B as [B _]; [fold n; lia|]. specialize (B eq_refl). split; [split; [intros _; split; [lia | auto] | eauto]|].
        intros p [= <-]. cbn [p_value p_index1 p_index2 p_start1 p_stop1 p_start2 p_stop2].
        repeat split; try reflexivity; try discriminate; try lia; try (injection H as <-; lia).
        intros _. exact (proj2 B).
      * split; [|discriminate]. split; [intros [p H]; discriminate|]. intros [_ N1]. destruct B as [_ B]; [fold n; lia|]. specialize (B (N1 L)). discriminate.
  - cbn [fst snd]. pose proof (labels_at_b is_list node1 columns 0 v) as B1. pose proof (labels_at_b is_list node2 columns (S v) n) as B2.
    fold n in B1, B2. specialize (B1 ltac:(lia)). specialize (B2 ltac:(lia)). rewrite <- B1, <- B2, <- andb_true_iff.
    set (b1 := is_list && cells_eqb (n_index_columns node1) (slice 0 v columns)) in *.
    set (b2 := is_list && cells_eqb (n_index_columns node2) (slice (S v) n columns)) in *. clearbody b1 b2.
    destruct (b1 && b2) eqn:E.
    + split; [split; [reflexivity | eauto]|]. apply andb_true_iff in E. destruct E as [E1 E2]. apply B1 in E1. apply B2 in E2.
      intros p [= <-]. cbn [p_value p_index1 p_index2 p_start1 p_stop1 p_start2 p_stop2].
      repeat split; try reflexivity; try discriminate; try lia.
      * intros _. exact (proj2 E1).
      * intros _. exact (proj2 E2).
    + split; [|discriminate]. split; [intros [p H]; discriminate | discriminate].
Qed.

Lemma first_scan fuel s rows e m t : reads s rows e -> islice 8 s = Ok (m, t) ->
  (forall q1 q2 sc s', scan fuel node1 node2 None None [] m (256 - length m) t = Ok (q1, q2, sc, s') ->
     detection todecimal u1 rows q1 /\ detection todecimal u2 rows q2) /\
  (clean todecimal node1 node2 rows e -> 32 < fuel -> exists q, scan fuel node1 node2 None None [] m (256 - length m) t = Ok q).
Proof.
  intros R E. destruct (islice_ok_reads _ _ _ _ _ _ R E) as [-> R'].
  destruct (scan_detects todecimal node1 node2 rows e fuel 0 None None [] (firstn 8 rows) (256 - length (firstn 8 rows)) t) as [D Tot].
  - left. split; [lia|]. split; [reflexivity|]. split; [exact R'|]. intro E8. change (group 0 rows) with (firstn 8 rows) in E8. rewrite E8. reflexivity.
  - intros j q L. lia.
  - intros j q L. lia.
  - split; [exact D|]. intros C L. apply Tot; [exact C | lia].
Qed.
Lemma gcp_unfold2 link s is_list columns : gcp link s is_list columns =
  (do v <- match get_mapping_value_position edge_name columns link with Err ValueError => Err ToronError | r => r end;
   do (m, t) <- islice 8 s;
   do (o1, o2, sc, s) <- scan 33 node1 node2 None None [] m (256 - length m) t;
   do p <- finish link is_list columns v o1 o2; Ok (p, chain sc s)).
Proof.
  rewrite gcp_unfold. destruct (match get_mapping_value_position edge_name columns link with Err ValueError => Err ToronError | r => r end) as [v|]; cbn [bind]; [|reflexivity].
  assert (N : next_chunk 256 s = (do (l, s') <- islice 8 s; Ok (l, 256 - length l, s'))) by reflexivity.
  rewrite N. generalize (scan_chunks todecimal 33) as sc. intro sc. destruct (islice 8 s) as [[m t]|]; reflexivity.
Qed.
Lemma gcp_unfold3 : exists fuel, 32 < fuel /\ forall link s is_list columns, gcp link s is_list columns =
  (do v <- match get_mapping_value_position edge_name columns link with Err ValueError => Err ToronError | r => r end;
   do (m, t) <- islice 8 s;
   do (o1, o2, sc, s) <- scan fuel node1 node2 None None [] m (256 - length m) t;
   do p <- finish link is_list columns v o1 o2; Ok (p, chain sc s)).
Proof. exists 33. split; [apply le_n | exact gcp_unfold2]. Qed.
Theorem gcp_layout link s is_list columns p s' rows e : gcp link s is_list columns = Ok (p, s') -> reads s rows e ->
  link_column edge_name link columns (p_value p) /\ detection todecimal u1 rows (p_index1 p) /\ detection todecimal u2 rows (p_index2 p) /\
  placed node1 columns (p_value p) (p_index1 p) (p_start1 p) (p_stop1 p) /\ placed node2 columns (p_value p) (p_index2 p) (p_start2 p) (p_stop2 p) /\
  (p_index1 p <> Some (p_value p) -> p_index2 p <> Some (p_value p) ->
      (p_start1 p = 0 /\ p_stop1 p = p_value p /\ p_start2 p = S (p_value p) /\ p_stop2 p = length columns) \/
      (p_start2 p = 0 /\ p_stop2 p = p_value p /\ p_start1 p = S (p_value p) /\ p_stop1 p = length columns)) /\
  (p_index1 p = None -> p_index2 p = None -> p_start1 p = 0) /\
  (p_stop1 p <= length columns /\ p_stop2 p <= length columns /\ p_start1 p <= p_stop1 p /\ p_start2 p <= p_stop2 p).
Proof.
  destruct gcp_unfold3 as (fuel & Lf & U). rewrite U. clear U. intros H R. destruct (get_mapping_value_position edge_name columns link) as [v|x] eqn:V; [|destruct x; discriminate]. cbn [bind] in H.
  destruct (islice 8 s) as [[m t]|] eqn:E; cbn [bind] in H; [|discriminate].
  destruct (scan fuel node1 node2 None None [] m (256 - length m) t) as [[[[o1 o2] sc] t']|] eqn:Es; cbn [bind] in H; [|discriminate].
  destruct (finish link is_list columns v o1 o2) as [p'|] eqn:F; cbn [bind] in H; [|discriminate]. injection H as <- _.
  apply value_position_ok in V. destruct V as [_ V]. rewrite Nat.sub_0_r in V.
  destruct (finish_layout link is_list columns v o1 o2 (link_column_lt _ _ _ V)) as [_ P]. destruct (P _ F) as (-> & -> & -> & P').
  split; [exact V|].
  destruct (first_scan fuel _ _ _ _ _ R E) as [D _]. destruct (D _ _ _ _ Es) as [D1 D2]. auto.
Qed.

Lemma detection_fun u rows o o' : detection todecimal u rows o -> detection todecimal u rows o' -> o = o'.
Proof.
  assert (A : forall p q, detected todecimal u rows p -> detected todecimal u rows q -> p = q).
  { intros p q (k & L & I & N) (k' & L' & I' & N'). destruct (Nat.lt_trichotomy k k') as [H|[->|H]].
    - exfalso. exact (N' _ _ H I).
    - apply (proj2 I'). exact (proj1 I).
    - exfalso. exact (N _ _ H I'). }
  destruct o as [p|], o' as [q|]; cbn [detection].
  - intros H H'. f_equal. exact (A _ _ H H').
  - intros (k & L & I & N) U. exfalso. exact (U _ _ L I).
  - intros U (k & L & I & N). exfalso. exact (U _ _ L I).
  - reflexivity.
Qed.
Theorem gcp_accepts link s is_list columns rows e o1 o2 : reads s rows e -> clean todecimal node1 node2 rows e ->
  Forall (fun c => exists t, c = CText t) columns -> detection todecimal u1 rows o1 -> detection todecimal u2 rows o2 ->
  ((exists p s', gcp link s is_list columns = Ok (p, s')) <->
   exists v, link_column edge_name link columns v /\ acceptable is_list node1 node2 columns v o1 o2).
Proof.
  intros R C T D1 D2. split.
  - intros (p & s' & H). destruct (gcp_layout _ _ _ _ _ _ _ _ H R) as (V & E1 & E2 & _).
    destruct gcp_unfold3 as (fuel & Lf & U). rewrite U in H. clear U. destruct (get_mapping_value_position edge_name columns link) as [v|x] eqn:Ev; [|destruct x; discriminate]. cbn [bind] in H.
    destruct (islice 8 s) as [[m t]|] eqn:E; cbn [bind] in H; [|discriminate].
    destruct (scan fuel node1 node2 None None [] m (256 - length m) t) as [[[[q1 q2] sc] t']|] eqn:Es; cbn [bind] in H; [|discriminate].
    destruct (finish link is_list columns v q1 q2) as [p'|] eqn:F; cbn [bind] in H; [|discriminate]. injection H as <- _.
    apply value_position_ok in Ev. destruct Ev as [_ Ev]. rewrite Nat.sub_0_r in Ev.
    destruct (finish_layout link is_list columns v q1 q2 (link_column_lt _ _ _ Ev)) as [A P]. destruct (P _ F) as (_ & E1' & E2' & _).
    exists v. split; [exact Ev|]. rewrite E1' in E1. rewrite E2' in E2.
    rewrite (detection_fun _ _ _ _ D1 E1), (detection_fun _ _ _ _ D2 E2). apply A. eauto.
  - intros (v & V & Ac). destruct gcp_unfold3 as (fuel & Lf & U). rewrite U. clear U.
    destruct (value_position_total link columns T 0) as [[w Ew]|[_ N]].
    2:{ exfalso. destruct V as (pre & c & post & -> & _ & Nc & _). rewrite Forall_app in N. destruct N as [_ N]. inversion_clear N. contradiction. }
    unfold get_mapping_value_position. rewrite Ew. cbn [bind]. apply value_position_ok in Ew. destruct Ew as [_ Ew]. rewrite Nat.sub_0_r in Ew.
    rewrite (link_column_fun _ _ _ _ V Ew) in *. clear V v.
    destruct (islice_reads 8 s rows e R) as (t & E & R'); [destruct (proj1 C); [left; assumption | right; lia]|].
    rewrite E. cbn [bind]. destruct (first_scan fuel _ _ _ _ _ R E) as [D Tot].
    destruct (Tot C Lf) as ([[[q1 q2] sc] t'] & Es). rewrite Es. cbn [bind]. destruct (D _ _ _ _ Es) as [E1 E2].
    rewrite (detection_fun _ _ _ _ D1 E1), (detection_fun _ _ _ _ D2 E2) in Ac.
    destruct (finish_layout link is_list columns w q1 q2 (link_column_lt _ _ _ Ew)) as [[_ A] _]. destruct (A Ac) as [p ->]. cbn [bind]. eauto.
Qed.
End S.
