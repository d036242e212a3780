From Coq Require Import NArith.
From Verif Require Import Prelude Selectors_Model BitFlags_Model IndexCode_Model IndexCode_Spec IndexCode_Proofs IndexCode_Proofs2 IndexCode_Proofs3
  Selectors_Proofs LinkRef_Proofs Streams_Model Streams_Spec Streams_Proofs.
Local Open Scope nat_scope.

Lemma skipn_add {A} a : forall b (l : list A), skipn a (skipn b l) = skipn (b + a) l.
Proof. intro b. induction b as [|b IH]; intro l; [reflexivity|]. destruct l; cbn [skipn Nat.add]; [apply skipn_nil | apply IH]. Qed.

Section S.
Context (todecimal : N -> option N).
Notation identifies := (identifies todecimal).
Notation code_position := (code_position todecimal).

(** *** The column of codes in some rows *)
Lemma row_cells_rows rows ls : traverse row_cells rows = Ok ls -> rows = map RSeq ls.
Proof.
  intro H. apply traverse_ok in H. induction H as [|r l rows ls E _ IH]; [reflexivity|]. cbn [map]. f_equal; [|exact IH].
  destruct r; cbn in E; try discriminate. injection E as ->. reflexivity.
Qed.
Lemma row_cells_err rows e : traverse row_cells rows = Err e -> e = TypeError.
Proof.
  induction rows as [|r rows IH]; [discriminate|]. rewrite traverse_cons. destruct r; cbn [row_cells bind]; try (intros [= <-]; reflexivity).
  destruct (traverse row_cells rows); cbn [bind]; [discriminate|]. intros [= <-]. apply IH. reflexivity.
Qed.
Lemma traverse_rows ls : traverse row_cells (map RSeq ls) = Ok ls.
Proof. induction ls as [|l ls IH]; [reflexivity|]. cbn [map]. rewrite traverse_cons. cbn [row_cells bind]. rewrite IH. reflexivity. Qed.

Definition truth (u : list N) (t : text) : bool := match index_code_to_id todecimal t u with Ok _ => true | Err _ => false end.
Lemma is_code_truth u t : is_index_code todecimal t u = Ok (truth u t) \/ is_index_code todecimal t u = Err StructError.
Proof.
  unfold is_index_code, truth. destruct (index_code_to_id todecimal t u) as [i|e] eqn:E; [left; reflexivity|].
  destruct (code_errors _ _ _ _ E) as [-> | ->]; auto.
Qed.
Lemma count_row_decided u row : forall counter, match count_row todecimal counter row u with
  | Ok _ => decided todecimal u (truth u) row | Err e => e = StructError end.
Proof.
  induction row as [|c row IH]; intro counter; cbn [count_row]; [constructor|].
  destruct (is_code_truth u c) as [E|E]; rewrite E; cbn [bind]; [|reflexivity].
  destruct counter as [|n counter].
  - specialize (IH []). destruct (count_row todecimal [] row u); cbn [bind]; [|exact IH]. constructor; assumption.
  - specialize (IH counter). destruct (count_row todecimal counter row u); cbn [bind]; [|exact IH]. constructor; assumption.
Qed.
Lemma count_rows_decided u rows : forall counter, match count_rows todecimal counter rows u with
  | Ok _ => Forall (decided todecimal u (truth u)) rows | Err e => e = StructError end.
Proof.
  induction rows as [|row rows IH]; intro counter; cbn [count_rows]; [constructor|].
  pose proof (count_row_decided u row counter) as H. destruct (count_row todecimal counter row u) as [k|]; cbn [bind]; [|exact H].
  specialize (IH k). destruct (count_rows todecimal k rows u); [constructor; assumption | exact IH].
Qed.
Lemma truth_code u c : truth u (code_text c) = true <-> code_cell todecimal u c.
Proof.
  unfold truth, code_cell. split.
  - destruct (index_code_to_id todecimal (code_text c) u) as [i|] eqn:E; [|discriminate]. intros _.
    destruct c as [t| |z]; cbn [code_text] in E; [eauto | discriminate | discriminate].
  - intros (t & i & -> & E). cbn [code_text]. rewrite E. reflexivity.
Qed.
Lemma has_code_column u ls p : has_code (truth u) (map (map code_text) ls) p <-> code_column todecimal u (map RSeq ls) p.
Proof.
  unfold has_code, code_column. split.
  - intros (row & t & I & E & T). apply in_map_iff in I. destruct I as (l & <- & I). rewrite nth_error_map in E.
    destruct (nth_error l p) as [c|] eqn:Ec; [|discriminate]. cbn in E. injection E as <-. exists l, c.
    split; [apply in_map; exact I|]. split; [exact Ec|]. apply truth_code. exact T.
  - intros (l & c & I & E & C). apply in_map_iff in I. destruct I as (l' & [= ->] & I). exists (map code_text l), (code_text c).
    split; [apply in_map; exact I|]. split; [rewrite nth_error_map, E; reflexivity|]. apply truth_code. exact C.
Qed.
Notation searchable := (searchable todecimal).
Lemma code_position_cases u rows :
  (forall p, code_position rows u = Ok p -> identifies u rows p) /\
  (code_position rows u = Err RuntimeError -> forall q, ~ identifies u rows q) /\
  (forall e, code_position rows u = Err e -> e = RuntimeError \/ e = StructError \/ e = TypeError) /\
  (Forall (searchable u) rows -> (exists p, code_position rows u = Ok p) \/ code_position rows u = Err RuntimeError).
Proof.
  unfold Streams_Model.code_position. destruct (traverse row_cells rows) as [ls|e] eqn:E; cbn [bind].
  2:{ apply row_cells_err in E as Ee. subst e. split; [discriminate|]. split; [discriminate|]. split; [intros e [= <-]; auto|].
      intro F. exfalso. induction F as [|r rows (l & -> & _) _ IH]; [discriminate|]. rewrite traverse_cons in E. cbn [row_cells bind] in E.
      destruct (traverse row_cells rows); cbn [bind] in E; [discriminate|]. auto. }
  apply row_cells_rows in E. subst rows.
  pose proof (count_rows_decided u (map (map code_text) ls) []) as D.
  destruct (count_rows todecimal [] (map (map code_text) ls) u) as [k|e] eqn:C.
  - destruct (position_iff todecimal u (truth u) _ D) as [P1 P2].
    assert (Q : forall p, get_index_code_position todecimal (map (map code_text) ls) u = Ok p <-> identifies u (map RSeq ls) p).
    { intro p. rewrite P1. unfold Streams_Spec.identifies. rewrite has_code_column. split; intros [H1 H2]; split; auto; intros q Hq; apply H2; apply has_code_column; exact Hq. }
    split; [intros p Hp; apply Q; exact Hp|]. split.
    + intros H q Hq. apply Q in Hq. congruence.
    + split; [intros e H; left; apply P2; exact H|]. intros _. destruct (get_index_code_position todecimal (map (map code_text) ls) u) as [p|e] eqn:G; [left; eauto|].
      right. rewrite (P2 e); reflexivity.
  - subst e. unfold get_index_code_position. rewrite C. cbn [bind]. split; [discriminate|]. split; [discriminate|]. split; [intros e [= <-]; auto|].
    intro F. exfalso. assert (A : Forall (decided todecimal u (truth u)) (map (map code_text) ls)).
    { rewrite Forall_map. rewrite Forall_map in F. eapply Forall_impl; [|exact F]. intros l (l' & [= <-] & H).
      unfold decided. rewrite Forall_map, Forall_forall. intros c Hc. destruct (is_code_truth u (code_text c)) as [Ec|Ec]; [exact Ec|]. exfalso.
      destruct c as [t| |z]; cbn [code_text] in Ec; try (cbn in Ec; discriminate).
      apply (H t Hc). unfold is_index_code in Ec. destruct (index_code_to_id todecimal t u) as [i|e]; [discriminate|]. destruct e; try discriminate; reflexivity. }
    destruct (count_rows_ok todecimal u (truth u) _ A []) as (k & E & _). congruence.
Qed.

(** *** The scan *)
Context (node1 node2 : node).
Notation u1 := (n_id_bytes node1).
Notation u2 := (n_id_bytes node2).
Notation scan := (scan_chunks todecimal).
(** What is known after the first [k] groups. *)
Definition known u (rows : list row) (k : nat) (o : option nat) : Prop :=
  match o with
  | Some p => exists j, j < k /\ identifies u (group j rows) p /\ forall i q, i < j -> ~ identifies u (group i rows) q
  | None => forall j q, j < k -> ~ identifies u (group j rows) q
  end.
Lemma find_pos_known u rows k o o' : known u rows k o -> find_pos todecimal o (group k rows) u = Ok o' -> known u rows (S k) o'.
Proof.
  destruct o as [p|]; cbn [find_pos known].
  - intros (j & L & I & N) [= <-]. exists j. split; [lia | auto].
  - intros N H. destruct (code_position_cases u (group k rows)) as (C1 & C2 & C3 & _).
    destruct (code_position (group k rows) u) as [p|e] eqn:E.
    + injection H as <-. exists k. split; [lia|]. split; [apply C1; reflexivity|]. exact N.
    + destruct e; try discriminate. injection H as <-. intros j q L. destruct (Nat.eq_dec j k) as [->|]; [apply C2; reflexivity|].
      apply N. lia.
Qed.
Lemma group_empty k rows : group k rows = [] <-> length rows <= 8 * k.
Proof.
  unfold group. split.
  - intro H. apply (f_equal (@length _)) in H. rewrite firstn_length, skipn_length in H. cbn [length] in H. lia.
  - intro L. rewrite skipn_all2 by lia. reflexivity.
Qed.
Lemma not_identified_empty u q : ~ identifies u [] q.
Proof. intros [(l & c & [] & _) _]. Qed.
Lemma known_end u rows k o : known u rows k o -> (k = 32 \/ length rows <= 8 * k) -> k <= 32 -> detection todecimal u rows o.
Proof.
  intros K D L. destruct o as [p|]; cbn [known detection] in *.
  - destruct K as (j & Lj & I & N). exists j. split; [lia | auto].
  - intros j q Lj. destruct (Nat.ltb_spec j k) as [H|H]; [apply K; exact H|]. destruct D as [->|D]; [lia|].
    assert (group j rows = []) as -> by (apply group_empty; lia). apply not_identified_empty.
Qed.
Lemma known_some u rows k p : known u rows k (Some p) -> k <= 32 -> detected todecimal u rows p.
Proof. intros (j & Lj & I & N) L. exists j. split; [lia | auto]. Qed.

Lemma scan_returns fuel : forall pos1 pos2 scanned sample budget s q1 q2 sc s',
  scan fuel node1 node2 pos1 pos2 scanned sample budget s = Ok (q1, q2, sc, s') -> chain sc s' = chain (scanned ++ sample) s.
Proof.
  induction fuel as [|fuel IH]; intros pos1 pos2 scanned sample budget s q1 q2 sc s' H.
  - destruct sample; [|discriminate]. cbn [scan_chunks] in H. injection H as <- <- <- <-. rewrite app_nil_r. reflexivity.
  - destruct sample as [|r sample]; cbn [scan_chunks] in H; [injection H as <- <- <- <-; rewrite app_nil_r; reflexivity|].
    destruct (find_pos todecimal pos1 (r :: sample) u1) as [o1|]; cbn [bind] in H; [|discriminate].
    destruct (find_pos todecimal pos2 (r :: sample) u2) as [o2|]; cbn [bind] in H; [|discriminate].
    assert (G : (do (sample0, budget0, data_iter) <- next_chunk budget s; scan fuel node1 node2 o1 o2 (scanned ++ r :: sample) sample0 budget0 data_iter) = Ok (q1, q2, sc, s')
      \/ (q1 = o1 /\ q2 = o2 /\ sc = scanned ++ r :: sample /\ s' = s)).
    { destruct o1, o2; auto. right. injection H as <- <- <- <-. auto. }
    destruct G as [G|(-> & -> & -> & ->)]; [|reflexivity].
    unfold next_chunk in G. destruct (islice (Nat.min 8 budget) s) as [[m t]|] eqn:E; cbn [bind] in G; [|discriminate].
    apply IH in G. rewrite G. destruct (islice_ok _ _ _ _ E) as [<- _]. rewrite chain_app. reflexivity.
Qed.


Notation clean := (clean todecimal node1 node2).
Lemma group_searchable u rows k : k < 32 -> Forall (searchable u) (firstn 256 rows) -> Forall (searchable u) (group k rows).
Proof.
  intros L F. rewrite Forall_forall in *. intros r I. apply F. unfold group in I.
  assert (E : firstn 256 rows = firstn (8 * k) rows ++ firstn (256 - 8 * k) (skipn (8 * k) rows)).
  { rewrite <- (firstn_skipn (8 * k) rows) at 1. rewrite firstn_app, firstn_firstn, firstn_length.
    replace (Nat.min 256 (8 * k)) with (8 * k) by lia. f_equal.
    destruct (Nat.le_gt_cases (8 * k) (length rows)) as [G|G]; [f_equal; lia|]. rewrite !skipn_all2 by lia. rewrite !firstn_nil. reflexivity. }
  rewrite E. apply in_or_app. right. replace (256 - 8 * k) with (8 + (248 - 8 * k)) by lia.
  rewrite <- (firstn_skipn 8 (skipn (8 * k) rows)), firstn_app. apply in_or_app. left. rewrite firstn_firstn.
  replace (Nat.min (8 + (248 - 8 * k)) 8) with 8 by lia. exact I.
Qed.
Lemma find_pos_total u o rows : Forall (searchable u) rows -> exists o', find_pos todecimal o rows u = Ok o'.
Proof.
  intro F. destruct o as [p|]; [eexists; reflexivity|]. cbn [find_pos]. destruct (code_position_cases u rows) as (_ & _ & _ & C).
  destruct (C F) as [[p ->] | ->]; eexists; reflexivity.
Qed.

Lemma scan_detects rows e fuel : forall k pos1 pos2 scanned sample budget s,
  ((k < 32 /\ sample = group k rows /\ reads s (skipn (8 * k + 8) rows) e /\ (length (group k rows) = 8 -> budget = 8 * (31 - k)))
   \/ (k = 32 /\ sample = [])) ->
  known u1 rows k pos1 -> known u2 rows k pos2 ->
  (forall q1 q2 sc s', scan fuel node1 node2 pos1 pos2 scanned sample budget s = Ok (q1, q2, sc, s') ->
     detection todecimal u1 rows q1 /\ detection todecimal u2 rows q2) /\
  (clean rows e -> 32 - k < fuel -> exists q, scan fuel node1 node2 pos1 pos2 scanned sample budget s = Ok q).
Proof.
  induction fuel as [|fuel IH]; intros k pos1 pos2 scanned sample budget s I K1 K2.
  - split; [|lia]. intros q1 q2 sc s' H. destruct sample as [|r sample]; [|discriminate]. cbn [scan_chunks] in H. injection H as <- <- <- <-.
    assert (D : k = 32 \/ length rows <= 8 * k) by (destruct I as [(L & E & _)|[-> _]]; [right; apply group_empty; congruence | left; reflexivity]).
    split; apply (known_end _ _ k); auto; destruct I as [(L & _)|[-> _]]; lia.
  - destruct sample as [|r sample].
    { cbn [scan_chunks]. split; [|eauto]. intros q1 q2 sc s' H. injection H as <- <- <- <-.
      assert (D : k = 32 \/ length rows <= 8 * k) by (destruct I as [(L & E & _)|[-> _]]; [right; apply group_empty; congruence | left; reflexivity]).
      split; apply (known_end _ _ k); auto; destruct I as [(L & _)|[-> _]]; lia. }
    destruct I as [(L & E & R & B)|[_ E]]; [|discriminate]. cbn [scan_chunks]. rewrite E.
    assert (F1 : forall o', find_pos todecimal pos1 (group k rows) u1 = Ok o' -> known u1 rows (S k) o') by (intros; eapply find_pos_known; eauto).
    assert (F2 : forall o', find_pos todecimal pos2 (group k rows) u2 = Ok o' -> known u2 rows (S k) o') by (intros; eapply find_pos_known; eauto).
    pose proof (fun C : clean rows e => find_pos_total u1 pos1 _ (group_searchable u1 rows k L (proj1 (proj2 C)))) as T1.
    pose proof (fun C : clean rows e => find_pos_total u2 pos2 _ (group_searchable u2 rows k L (proj2 (proj2 C)))) as T2.
    destruct (find_pos todecimal pos1 (group k rows) u1) as [o1|x]; cbn [bind].
    2:{ split; [discriminate|]. intros C _. destruct (T1 C). discriminate. }
    destruct (find_pos todecimal pos2 (group k rows) u2) as [o2|x]; cbn [bind].
    2:{ split; [discriminate|]. intros C _. destruct (T2 C). discriminate. }
    specialize (F1 _ eq_refl). specialize (F2 _ eq_refl). clear T1 T2.
    (* The next group. *)
    assert (N : (forall q1 q2 sc s', (do (sample0, budget0, data_iter) <- next_chunk budget s; scan fuel node1 node2 o1 o2 (scanned ++ group k rows) sample0 budget0 data_iter) = Ok (q1, q2, sc, s') ->
               detection todecimal u1 rows q1 /\ detection todecimal u2 rows q2) /\
      (clean rows e -> 32 - k < S fuel -> exists q, (do (sample0, budget0, data_iter) <- next_chunk budget s; scan fuel node1 node2 o1 o2 (scanned ++ group k rows) sample0 budget0 data_iter) = Ok q)).
    { unfold next_chunk.
      assert (J : forall m t, islice (Nat.min 8 budget) s = Ok (m, t) ->
        ((S k < 32 /\ m = group (S k) rows /\ reads t (skipn (8 * S k + 8) rows) e /\ (length (group (S k) rows) = 8 -> budget - length m = 8 * (31 - S k)))
         \/ (S k = 32 /\ m = []))).
      { intros m t G. destruct (islice_ok_reads _ _ _ _ _ _ R G) as [-> R'].
        destruct (Nat.eq_dec (length (group k rows)) 8) as [E8|E8].
        - specialize (B E8). subst budget. destruct (Nat.eq_dec k 31) as [->|].
          + right. split; [reflexivity|]. reflexivity.
          + left. split; [lia|]. replace (Nat.min 8 (8 * (31 - k))) with 8 in * by lia.
            assert (Eg : firstn 8 (skipn (8 * k + 8) rows) = group (S k) rows) by (unfold group; do 2 f_equal; lia).
            rewrite Eg in *. split; [reflexivity|]. split.
            * rewrite skipn_add in R'. replace (8 * S k + 8) with (8 * k + 8 + 8) by lia. exact R'.
            * intros ->. lia.
        - assert (Ln : length rows < 8 * k + 8).
          { unfold group in E8. rewrite firstn_length, skipn_length in E8. lia. }
          rewrite (skipn_all2 rows (n := 8 * k + 8)) in * by lia. rewrite firstn_nil, skipn_nil in *.
          destruct (Nat.eq_dec k 31) as [->|]; [right; auto|]. left. split; [lia|].
          assert (Eg : group (S k) rows = []) by (apply group_empty; lia). rewrite Eg. split; [reflexivity|].
          split; [rewrite skipn_all2 by lia; exact R' | discriminate]. }
      destruct (islice (Nat.min 8 budget) s) as [[m t]|x] eqn:G; cbn [bind].
      - destruct (IH (S k) o1 o2 (scanned ++ group k rows) m (budget - length m) t (J _ _ eq_refl) F1 F2) as [H1 H2].
        split; [exact H1|]. intros C Lf. apply H2; [exact C | lia].
      - split; [discriminate|]. intros [C _] _. exfalso. destruct (islice_reads (Nat.min 8 budget) _ _ _ R) as (s' & Es & _); [|congruence].
        destruct C as [C|C]; [left; exact C | right]. rewrite skipn_length.
        assert (E8 : length (group k rows) = 8) by (unfold group; rewrite firstn_length, skipn_length; lia). specialize (B E8). lia. }
    destruct o1 as [i1|]; [destruct o2 as [i2|]|]; try exact N.
    split; [|eauto]. intros q1 q2 sc s' H. injection H as <- <- <- <-.
    split; [apply (known_some _ _ (S k)) | apply (known_some _ _ (S k))]; auto; lia.
Qed.
End S.
