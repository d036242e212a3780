(** Proofs for C75. *)
From Verif Require Import Prelude Selectors_Model Selectors_Proofs LinkRef_Model Db_Model Db_Spec Reader_Model Reader_Spec
  Mapper_Model Mapper_Spec Quantity_Model Quantity_Spec Reader_Proofs Quantity_Proofs4 LinkRef_Proofs QTable_Model QTable_Spec.
From Coq Require Import Sorted.

Definition cells_of (o : q_out) : list qcell :=
  map QcText (qo_domain o) ++ map QcText (qo_labels o) ++
  map (fun v => match v with Some v => QcText v | None => QcNone end) (qo_attrs o) ++ [QcNum (qo_value o)].

Lemma yield_ok cols s l outs :
  traverse (fun lx => do a <- attrs_get (qt_attr (snd lx)) s;
                      Ok {| qo_domain := domain_cells s; qo_labels := l_labels (fst lx);
                            qo_attrs := map (fun k => dict_get k a) cols; qo_value := qt_value (snd lx) |}) l = Ok outs ->
  yield_rows (table_row (Some cols) s) l = (map cells_of outs, None).
Proof.
  revert outs. induction l as [|lx l IH]; intros outs H; cbn [traverse yield_rows] in *; [injection H as <-; reflexivity|].
  unfold table_row at 1. destruct (attrs_get (qt_attr (snd lx)) s) as [a|]; [|discriminate]. cbn [bind] in *.
  apply bind_ok in H. destruct H as (outs' & E & H). injection H as <-. rewrite (IH outs' E). cbn [map fst snd].
  unfold cells_of at 2. cbn [qo_domain qo_labels qo_attrs qo_value]. rewrite map_map. reflexivity.
Qed.

(** Without a value for the columns nothing is yielded, and the first quantity raises. *)
Lemma yield_unbound s l : store_ref s -> (forall lx, In lx l -> In (snd lx) (s_quants s)) ->
  yield_rows (table_row None s) l = ([], if nil_b l then None else Some UnboundLocalError).
Proof.
  intros R H. destruct l as [|lx l]; [reflexivity|]. cbn [yield_rows nil_b]. unfold table_row.
  destruct (sr_group s R (snd lx) (H lx (or_introl eq_refl))) as (g & Hg & E). unfold attrs_get.
  destruct (find _ (s_attrs s)) eqn:F; [reflexivity|]. apply (find_none _ _ F) in Hg. cbv beta in Hg. lia.
Qed.

Lemma located_in locs s l x :
  In (l, x) (located locs s) <-> In l locs /\ In x (s_quants s) /\ l_id l = qt_loc x.
Proof.
  unfold located. rewrite in_flat_map. split.
  - intros (l' & Hl & H). apply in_map_iff in H. destruct H as (x' & E & H). injection E as <- <-. apply filter_In in H.
    destruct H as [H E]. repeat split; auto. lia.
  - intros (Hl & Hx & E). exists l. split; auto. apply in_map_iff. exists x. split; auto. apply filter_In. split; auto. lia.
Qed.

Lemma located_none locs s (P : location -> Prop) : (forall l, In l locs <-> In l (s_locs s) /\ P l) ->
  nil_b (located locs s) = true <-> ~ some_at s P.
Proof.
  intros H. split.
  - intros N (x & l & Hx & Hl & E & Hp). assert (I : In (l, x) (located locs s)) by (apply located_in; split; [apply H|]; auto).
    destruct (located locs s); [destruct I|discriminate].
  - intros N. destruct (located locs s) as [|[l x] rest] eqn:E; [reflexivity|]. exfalso. apply N.
    assert (I : In (l, x) (located locs s)) by (rewrite E; now left). apply located_in in I. destruct I as (Hl & Hx & El).
    apply H in Hl. exists x, l. tauto.
Qed.

(** *** Rows *)

Lemma get_cell g k : dict (ag_attrs g) ->
  attribute_cell g k (match dict_get k (ag_attrs g) with Some v => QcText v | None => QcNone end).
Proof.
  unfold attribute_cell, dict. induction (ag_attrs g) as [|[k' v'] d IH]; cbn [dict_get map fst]; intros N.
  - right. split; auto.
  - inversion N as [|? ? N1 N2]; subst. destruct (text_eqb k k') eqn:E.
    + apply text_eqb_iff in E. subst k'. left. exists v'. split; [now left|reflexivity].
    + destruct (IH N2) as [(v & Hv & E2)|[Hn E2]]; [left; exists v; split; [now right|exact E2]|].
      right. split; [|exact E2]. intros v [Ev|Hv]; [|exact (Hn v Hv)]. injection Ev as -> _.
      rewrite (proj2 (text_eqb_iff k k) eq_refl) in E. discriminate.
Qed.

Lemma describes_tells s cols x o : store_wf s -> describes s cols x o -> tells s cols x (cells_of o).
Proof.
  intros W (l & g & Hl & El & Hg & Eg & Ed & Elb & Ea & Ev). exists l, g.
  exists (map (fun v => match v with Some v => QcText v | None => QcNone end) (qo_attrs o)).
  do 4 (split; [assumption|]). split.
  - rewrite Ea, map_map. pose proof (proj1 (sw_dicts s W g Hg)) as D. clear -D. induction cols; cbn [map]; constructor; auto.
    now apply get_cell.
  - unfold cells_of. rewrite Ed, Elb, Ev. destruct (s_domain s); reflexivity.
Qed.

Lemma lists_tells s cols P outs : store_wf s -> lists s cols P outs -> tells_all s cols P (map cells_of outs).
Proof.
  intros W (xs & N & Hin & F). exists xs. split; [exact N|]. split; [exact Hin|]. clear N Hin.
  induction F; cbn [map]; constructor; auto. now apply describes_tells.
Qed.

Lemma tells_length s cols x row : store_wf s -> tells s cols x row -> length row = length (names_of s cols).
Proof.
  intros W (l & g & attrs & Hl & _ & _ & _ & F & ->). unfold names_of. rewrite !app_length, !map_length.
  rewrite (sw_arity s W l Hl). assert (E : length cols = length attrs) by (clear -F; induction F; cbn; auto). rewrite E.
  destruct (s_domain s); reflexivity.
Qed.

Lemma header_names s cols : table_header cols s = names_of s cols.
Proof.
  unfold table_header, names_of. rewrite !map_app. destruct (s_domain s); reflexivity.
Qed.

Lemma shows_ok s cols P l outs : store_wf s -> lists s cols P outs ->
  yield_rows (table_row (Some cols) s) l = (map cells_of outs, None) ->
  shows s cols P (with_header (table_header cols s) (yield_rows (table_row (Some cols) s) l)).
Proof.
  intros W L E. rewrite E. split; [reflexivity|]. exists (map cells_of outs). cbn [with_header fst]. rewrite header_names.
  split; [reflexivity|]. pose proof (lists_tells s cols P outs W L) as T. split; [|exact T].
  destruct T as (xs & _ & _ & F). clear -F W. induction F; intros row []; subst; auto. eapply tells_length; eauto.
Qed.

Lemma all_names_use s : names_in_use s (all_names s).
Proof.
  split; [|exact (all_names_in s)]. unfold all_names.
  destruct (Reader_Proofs.sorted_set_spec (flat_map (fun g => map fst (ag_attrs g)) (s_attrs s))) as [H _].
  induction H as [|k l H IH F]; constructor; auto. intros I. rewrite Forall_forall in F. apply F in I.
  unfold text_lt in I. rewrite text_ltb_irrefl in I. discriminate.
Qed.

Lemma yield_ends cols s l :
  (snd (yield_rows (table_row (Some cols) s) l) = None <->
   forall lx, In lx l -> exists g, In g (s_attrs s) /\ ag_id g = qt_attr (snd lx)) /\
  (snd (yield_rows (table_row (Some cols) s) l) = None \/ snd (yield_rows (table_row (Some cols) s) l) = Some KeyError).
Proof.
  induction l as [|lx l [IH1 IH2]]; cbn [yield_rows]; [split; [split; [intros _ ? []|reflexivity]|now left]|].
  assert (T : (exists row g, table_row (Some cols) s lx = Ok row /\ In g (s_attrs s) /\ ag_id g = qt_attr (snd lx)) \/
    (table_row (Some cols) s lx = Err KeyError /\ find (fun g => (ag_id g =? qt_attr (snd lx))%Z) (s_attrs s) = None)).
  { unfold table_row, attrs_get. destruct (find _ (s_attrs s)) as [g|] eqn:F; [left|right; auto].
    apply find_some in F. destruct F as [Hg E]. eexists; exists g; cbn [bind]; split; [reflexivity|]. split; auto. lia. }
  destruct T as [(row & g & -> & Hg & E)|[-> F]]; cbn [snd].
  - split; [|exact IH2]. rewrite IH1. split.
    + intros H lx' [<-|Hl]; [exists g; auto|auto].
    + intros H lx' Hl. apply H. now right.
  - split; [|now right]. split; [discriminate|]. intros H. destruct (H lx (or_introl eq_refl)) as (g & Hg & E).
    apply (find_none _ _ F) in Hg. cbv beta in Hg. lia.
Qed.

Lemma located_ends cols s locs (P : location -> Prop) : (forall l, In l locs <-> In l (s_locs s) /\ P l) ->
  ends s P (yield_rows (table_row (Some cols) s) (located locs s)).
Proof.
  intros H. destruct (yield_ends cols s (located locs s)) as [Y1 Y2]. split; [|exact Y2]. rewrite Y1. unfold grouped. split.
  - intros G x l Hx Hl E Hp. apply (G (l, x)). apply located_in. split; [apply H|]; auto.
  - intros G [l x] I. apply located_in in I. destruct I as (Hl & Hx & E). apply H in Hl. cbn [snd]. apply (G x l); tauto.
Qed.
