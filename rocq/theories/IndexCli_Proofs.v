From Coq Require Import NArith Permutation.
From Verif Require Import Prelude Selectors_Model Selectors_Proofs Reader_Model Reader_Proofs LinkRef_Model LinkRef_Proofs IndexCode_Model IndexCode_Spec IndexCode_Proofs IndexCode_Proofs2 IndexCode_Proofs3
  Db_Model Db_Spec Db_Proofs Db_ProofsLocal Db_ProofsRun Db_ProofsOps Db_ProofsOps2 Db_ProofsOps3
  Streams_Model Streams_Spec Streams_Proofs Streams_Proofs2 Streams_Proofs4 IndexCli_Model IndexCli_Spec.
Local Open Scope nat_scope.

(** *** The order of the groups *)
Lemma insert_group_perm d g l : Permutation (insert_group d g l) (g :: l).
Proof.
  induction l as [|h l IH]; cbn [insert_group]; [reflexivity|]. destruct (group_leb d g h); [reflexivity|].
  rewrite IH. apply perm_swap.
Qed.
Lemma sorted_groups_perm s : Permutation (sorted_groups s) (d_groups s).
Proof.
  unfold sorted_groups. induction (d_groups s) as [|g l IH]; cbn [fold_right]; [reflexivity|].
  rewrite insert_group_perm. now apply perm_skip.
Qed.
Lemma sorted_groups_in s g : In g (sorted_groups s) <-> In g (d_groups s).
Proof. split; intros H; eapply Permutation_in; try exact H; [|symmetry]; apply sorted_groups_perm. Qed.

(** *** Strings without X are no codes *)
Lemma partition_noX t : ~ In 88%N t -> partition_X t = (t, []).
Proof.
  induction t as [|c t IH]; intros H; cbn [partition_X]; [reflexivity|].
  destruct (N.eqb_spec c 88) as [->|Hc]; [exfalso; apply H; now left|]. rewrite IH; [reflexivity|]. intros I. apply H. now right.
Qed.
Lemma noX_no_code todecimal t u : ~ In 88%N t -> index_code_to_id todecimal t u = Err ValueError.
Proof.
  intros H. unfold index_code_to_id. rewrite partition_noX by exact H.
  change (py_int todecimal 16 []) with (@None Z). now destruct (py_int todecimal 10 t).
Qed.

(** *** Reading a table *)
Lemma reader_of_reads rows : reads (reader_of rows) (map RSeq rows) None.
Proof. unfold reader_of. induction rows; cbn; constructor; auto. Qed.
Lemma reader_of_cons r rows : reader_of (r :: rows) = Item (RSeq r) (reader_of rows).
Proof. reflexivity. Qed.

Lemma smap_reader (f : row -> res row) rows out : Forall2 (fun l l' => f (RSeq l) = Ok (RSeq l')) rows out ->
  smap f (reader_of rows) = reader_of out.
Proof. induction 1; [reflexivity|]. rewrite !reader_of_cons. cbn [smap]. rewrite H. now rewrite IHForall2. Qed.

Section Read.
Context (todecimal : N -> option N) (nd : node).
Notation u := (n_id_bytes nd).

Lemma read_foreign h rows : foreign todecimal u (h :: rows) -> ~ In (CText (txt "index_id")) h ->
  read_index_stdin todecimal nd (reader_of (h :: rows)) = Ok (reader_of (h :: rows)).
Proof.
  intros F Hn. unfold read_index_stdin.
  destruct (islice_reads 10 _ _ _ (reader_of_reads (h :: rows))) as (s' & E & R); [now left|].
  rewrite E. cbn [bind]. destruct (islice_ok _ _ _ _ E) as [Ec _]. rewrite Ec.
  destruct (code_position_cases todecimal u (firstn 10 (map RSeq (h :: rows)))) as (C1 & _ & _ & C4).
  destruct C4 as [(p & Hp)|Hp].
  - rewrite Forall_forall. intros r Hr. apply firstn_In in Hr || idtac.
    assert (Hr' : In r (map RSeq (h :: rows))) by (rewrite <- (firstn_skipn 10 (map RSeq (h :: rows))); apply in_or_app; now left).
    apply in_map_iff in Hr'. destruct Hr' as (l & <- & Hl). exists l. split; [reflexivity|]. intros t Ht. rewrite (F l t Hl Ht). discriminate.
  - exfalso. destruct (C1 p Hp) as [(l & c & Hl & Hc & t & i & -> & Ht) _].
    assert (Hr' : In (RSeq l) (map RSeq (h :: rows))) by (rewrite <- (firstn_skipn 10 (map RSeq (h :: rows))); apply in_or_app; now left).
    apply in_map_iff in Hr'. destruct Hr' as (l' & [= ->] & Hl'). rewrite (F l t Hl' (nth_error_In _ _ Hc)) in Ht. discriminate.
  - rewrite Hp. cbn [map firstn]. cbn [row_cells bind].
    destruct (existsb (cell_eqb (CText (txt "index_id"))) h) eqn:Ex; [|reflexivity].
    apply existsb_exists in Ex. destruct Ex as (c & Hc & Ec'). apply cell_eqb_eq in Ec'. subst c. contradiction.
Qed.

(** The rows with the codes replaced by the ids. *)
Lemma read_own h0 h (its : list (text * Z * list cell)) :
  Forall (fun '(code, i, tl) => code <> [] /\ index_code_to_id todecimal code u = Ok i /\
            forall t, In (CText t) tl -> index_code_to_id todecimal t u <> Err StructError) its ->
  good_names todecimal u (h0 :: h) ->
  let table := (h0 :: h) :: map (fun '(code, i, tl) => CText code :: tl) its in
  read_index_stdin todecimal nd (reader_of table) = Ok (reader_of table) \/
  read_index_stdin todecimal nd (reader_of table) =
    Ok (reader_of ((CText (txt "index_id") :: h) :: map (fun '(code, i, tl) => COther i :: tl) its)).
Proof.
  intros F (Nd & Hn & Hh) table. unfold read_index_stdin.
  destruct (islice_reads 10 _ _ _ (reader_of_reads table)) as (s' & E & R); [now left|].
  rewrite E. cbn [bind]. destruct (islice_ok _ _ _ _ E) as [Ec _]. rewrite Ec.
  assert (Hm : forall r, In r (firstn 10 (map RSeq table)) -> exists l, r = RSeq l /\ In l table).
  { intros r Hr. assert (Hr' : In r (map RSeq table)) by (rewrite <- (firstn_skipn 10 (map RSeq table)); apply in_or_app; now left).
    apply in_map_iff in Hr'. destruct Hr' as (l & <- & Hl). eauto. }
  rewrite Forall_forall in F.
  destruct (code_position_cases todecimal u (firstn 10 (map RSeq table))) as (C1 & _ & _ & C4).
  destruct C4 as [(p & Hp)|Hp].
  - rewrite Forall_forall. intros r Hr. destruct (Hm r Hr) as (l & -> & [<-|Hl]); eexists; (split; [reflexivity|]); intros t Ht.
    + rewrite (Hh t Ht). discriminate.
    + apply in_map_iff in Hl. destruct Hl as ([[c i] tl] & <- & Hl). destruct (F _ Hl) as (_ & F1 & F2).
      destruct Ht as [[= <-]|Ht]; [rewrite F1; discriminate|auto].
  - right. destruct (C1 p Hp) as [H1 H2]. assert (p = 0).
    { symmetry. apply H2. destruct its as [|[[c i] tl] its].
      - exfalso. destruct H1 as (l & cc & Hl & Hc & t & i & -> & Ht). destruct (Hm _ Hl) as (l' & [= <-] & [<-|[]]).
        rewrite (Hh t (nth_error_In _ _ Hc)) in Ht. discriminate.
      - exists (CText c :: tl), (CText c). split; [right; left; reflexivity|]. split; [reflexivity|].
        exists c, i. split; [reflexivity|]. apply (F (c, i, tl)). now left. }
    subst p. rewrite Hp. unfold remap_index_codes_to_index_ids. unfold table. rewrite reader_of_cons. cbn [row_cells].
    unfold put. cbn [set_nth]. rewrite reader_of_cons. f_equal. f_equal. apply smap_reader.
    clear - F. induction its as [|[[c i] tl] its IH]; cbn [map]; constructor.
    + destruct (F (c, i, tl)) as (Fc & F1 & _); [now left|]. unfold remap_row. cbn [row_cells bind cell_at nth_error].
      unfold cell_at. cbn [nth_error bind]. destruct c as [|x c]; [congruence|]. cbn [cell_true]. rewrite F1. reflexivity.
    + apply IH. intros x Hx. apply F. now right.
  - left. rewrite Hp. cbn [firstn map table row_cells bind].
    destruct (existsb (cell_eqb (CText (txt "index_id"))) (h0 :: h)) eqn:Ex; [|reflexivity].
    apply existsb_exists in Ex. destruct Ex as (c & Hc & Ec'). apply cell_eqb_eq in Ec'. subst c. contradiction.
Qed.
End Read.

(** *** Columns *)
Lemma index_from_at name header : NoDup header -> forall i k, nth_error header i = Some (CText name) -> index_from k name header = Some (k + i).
Proof.
  induction 1 as [|c header Hc Nd IH]; intros i k Hi; [destruct i; discriminate|]. cbn [index_from].
  destruct i as [|i]; cbn [nth_error] in Hi.
  - injection Hi as ->. rewrite cell_eqb_refl. f_equal. lia.
  - destruct (cell_eqb (CText name) c) eqn:E.
    + apply cell_eqb_eq in E. subst c. exfalso. apply Hc. eapply nth_error_In, Hi.
    + rewrite (IH i (S k) Hi). f_equal. lia.
Qed.
Lemma index_from_none name header : ~ In (CText name) header -> forall k, index_from k name header = None.
Proof.
  induction header as [|c header IH]; intros H k; cbn [index_from]; [reflexivity|]. destruct (cell_eqb (CText name) c) eqn:E.
  - apply cell_eqb_eq in E. subst c. exfalso. apply H. now left.
  - apply IH. intros I. apply H. now right.
Qed.

Lemma label_positions_ok c0 labels rest : labels <> [] -> NoDup (c0 :: map CText labels ++ rest) ->
  label_positions labels (c0 :: map CText labels ++ rest) = Ok (seq 1 (length labels)).
Proof.
  intros Hl Nd. unfold label_positions.
  assert (E : flat_map (fun x => match index_from 0 x (c0 :: map CText labels ++ rest) with Some i => [i] | None => [] end) labels = seq 1 (length labels)).
  { assert (G : forall k, k <= length labels -> flat_map (fun x => match index_from 0 x (c0 :: map CText labels ++ rest) with Some i => [i] | None => [] end) (skipn k labels) = seq (S k) (length labels - k)).
    { intros k. remember (length labels - k) as n eqn:En. revert k En. induction n as [|n IH]; intros k En Hk.
      - rewrite skipn_all2 by lia. reflexivity.
      - destruct (nth_error labels k) as [x|] eqn:Ex; [|apply nth_error_None in Ex; lia].
        assert (Es : skipn k labels = x :: skipn (S k) labels).
        { clear - Ex. revert k Ex. induction labels as [|y l IH]; intros [|k] Ex; try discriminate; cbn [nth_error skipn] in *; [now injection Ex as ->|apply IH, Ex]. }
        rewrite Es. cbn [flat_map seq]. rewrite (index_from_at x _ Nd (S k)).
        + cbn [app]. f_equal. apply IH; lia.
        + cbn [nth_error]. rewrite nth_error_app1; [rewrite nth_error_map, Ex; reflexivity|]. rewrite map_length. apply nth_error_Some. congruence. }
    specialize (G 0). rewrite Nat.sub_0_r in G. cbn [skipn] in G. apply G. lia. }
  rewrite E. destruct labels as [|x labels]; [congruence|]. cbn [length seq]. rewrite seq_length, Nat.eqb_refl. reflexivity.
Qed.
Lemma labels_read c0 rest labels : traverse (fun p => do c <- cell_at (c0 :: map CText labels ++ rest) p; label_text c) (seq 1 (length labels)) = Ok labels.
Proof.
  assert (G : forall pre l, traverse (fun p => do c <- cell_at (pre ++ map CText l ++ rest) p; label_text c) (seq (length pre) (length l)) = Ok l).
  { intros pre l. revert pre. induction l as [|x l IH]; intros pre; [reflexivity|]. cbn [length seq]. rewrite traverse_cons.
    unfold cell_at at 1. rewrite nth_error_app2 by lia. rewrite Nat.sub_diag. cbn [map app nth_error bind label_text].
    specialize (IH (pre ++ [CText x])). rewrite app_length in IH. cbn [length] in IH. rewrite Nat.add_1_r in IH.
    rewrite <- app_assoc in IH. cbn [app] in IH. rewrite IH. reflexivity. }
  exact (G [c0] labels).
Qed.
