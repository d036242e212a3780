(** Proofs about quantity iterators. *)
From Verif Require Import Prelude QLemmas Streams_Model Selectors_Model Selectors_Proofs LinkRef_Model LinkRef_Spec LinkRef_Proofs
  Db_Model Db_Spec Db_ProofsRun Db_ProofsOps Db_ProofsOps3 Db_ProofsOps7 Reader_Model Reader_Spec Reader_Proofs Reader_Proofs2
  WeightIter_Model WeightIter_Spec.
From Coq Require Import Permutation Lqa.
From Coq Require Import ZifyBool.
Local Open Scope Z_scope.
Local Notation row := Selectors_Model.row.
Local Notation total := WeightIter_Spec.total.
Local Notation amount := WeightIter_Spec.amount.
Local Notation translate := WeightIter_Model.translate.

Lemma chain_inj {A} (l l' : list A) : chain l Stop = chain l' Stop -> l = l'.
Proof. revert l'. induction l as [|a l IH]; intros [|b l'] H; cbn in H; try discriminate; auto. injection H as -> H. f_equal. auto. Qed.
Lemma reads_fun {A} (s : stream A) l l' : reads s l -> reads s l' -> l = l'.
Proof. unfold reads. intros -> H. now apply chain_inj. Qed.

(** *** One tuple *)

Lemma emit_reads target d v ms : forall rest out, reads (emit target (it_attrs d) v ms rest) out ->
  exists o1 o2, out = o1 ++ o2 /\ Forall2 (applied target d v) ms o1 /\ reads rest o2.
Proof.
  induction ms as [|m ms IH]; intros rest out H; cbn [emit] in H.
  - exists [], out. auto.
  - destruct (m_prop m) as [p|] eqn:Ep; [|destruct out; discriminate].
    destruct (index_get (m_index m) target) as [r|] eqn:Er; [|destruct out; discriminate].
    destruct out as [|x out]; [discriminate|]. unfold reads in H. cbn [chain] in H. injection H as Ex H.
    destruct (IH _ _ H) as (o1 & o2 & -> & F & R). exists (x :: o1), o2. split; [reflexivity|]. split; [|exact R].
    constructor; [|exact F]. apply index_get_ok in Er. subst x. split; [apply Er|]. split; [apply Er|]. split; [reflexivity|].
    exists p. auto.
Qed.
Lemma emit_total target d v ms rest o2 : reads rest o2 ->
  (forall m, In m ms -> m_prop m <> None /\ has_index target (m_index m)) ->
  exists out, reads (emit target (it_attrs d) v ms rest) out.
Proof.
  intros R. induction ms as [|m ms IH]; intros H; cbn [emit]; [eauto|].
  destruct (H m) as [Hp Hi]; [now left|]. destruct (m_prop m) as [p|]; [|easy].
  destruct (index_get_total _ _ Hi) as [r ->]. destruct IH as [out Ho]; [intros x Hx; apply H; now right|].
  eexists (_ :: out). unfold reads. cbn [chain]. now rewrite Ho.
Qed.

Lemma items_reads upper fn target data : forall out, reads (translate_items upper fn target data) out ->
  exists l outs, reads data l /\ out = concat outs /\
    Forall2 (replaced target (fun a k => get_link_id upper fn a = Ok k)) l outs.
Proof.
  induction data as [|e|d rest IH]; intros out H; cbn [translate_items] in H.
  - exists [], []. destruct out; [|discriminate]. repeat split. constructor.
  - destruct out; discriminate.
  - destruct (it_value d) as [v|] eqn:Ev.
    + destruct (get_link_id upper fn (it_attrs d)) as [k|] eqn:Ek; [|destruct out; discriminate].
      destruct (emit_reads _ _ _ _ _ _ H) as (o1 & o2 & -> & F & R). destruct (IH _ R) as (l & outs & Rl & -> & F2).
      exists (d :: l), (o1 :: outs). split; [unfold reads in *; cbn; now rewrite Rl|]. split; [reflexivity|].
      constructor; [|exact F2]. unfold replaced. rewrite Ev. exists k. auto.
    + destruct (IH _ H) as (l & outs & Rl & -> & F2). exists (d :: l), ([] :: outs).
      split; [unfold reads in *; cbn; now rewrite Rl|]. split; [reflexivity|]. constructor; [|exact F2]. unfold replaced. now rewrite Ev.
Qed.
Lemma items_total upper fn target l : (forall d, In d l -> it_value d <> None -> exists k, get_link_id upper fn (it_attrs d) = Ok k /\
    forall m, In m (from k (ix_id (it_index d)) target) -> m_prop m <> None /\ has_index target (m_index m)) ->
  exists out, reads (translate_items upper fn target (chain l Stop)) out.
Proof.
  induction l as [|d l IH]; intros H; cbn [chain translate_items]; [exists []; reflexivity|].
  destruct IH as [o2 R]; [intros x Hx; apply H; now right|].
  destruct (it_value d) as [v|] eqn:Ev; [|eauto]. destruct (H d) as (k & -> & Hm); [now left|congruence|].
  eapply emit_total; [exact R|exact Hm].
Qed.

Theorem translate_rows upper qi x out : reads (qi_data (translate upper qi x)) out ->
  exists fn data outs, find_links (qi_id qi) (qi_hash qi) (ws_db x) = Ok fn /\ reads (qi_data qi) data /\
    out = concat outs /\ Forall2 (replaced (ws_db x) (fun a k => get_link_id upper fn a = Ok k)) data outs.
Proof.
  unfold translate. cbn [qi_data]. destruct (find_links _ _ _) as [fn|e]; [|intros H; destruct out; discriminate].
  intros H. destruct (items_reads _ _ _ _ _ H) as (l & outs & R & E & F). exists fn, l, outs. auto.
Qed.

(** *** Amounts *)

Lemma total_app a l l' : (total a (l ++ l') == total a l + total a l')%Q.
Proof. unfold total. now rewrite filter_app, map_app, Qsum_app. Qed.
Lemma amount_app a t l l' : (amount a t (l ++ l') == amount a t l + amount a t l')%Q.
Proof. unfold amount. now rewrite filter_app, map_app, Qsum_app. Qed.

Lemma applied_amount target d v ms out a t : Forall2 (applied target d v) ms out ->
  (amount a t out == if mine a d then v * Qsum (map share (filter (fun m => (m_index m =? t)%Z) ms)) else 0)%Q.
Proof.
  induction 1 as [|m x ms out H F IH].
  - unfold amount. cbn. destruct (mine a d); lra.
  - destruct H as (_ & Ei & Ea & p & Ep & Ev). unfold amount in *. cbn [filter]. unfold mine at 1. rewrite Ea. fold (mine a d).
    destruct (mine a d); cbn [andb]; [|exact IH]. rewrite Ei. destruct (m_index m =? t)%Z; [|exact IH].
    cbn [map Qsum]. rewrite !Qsum_cons. rewrite IH. unfold value, val, share. rewrite Ev, Ep. lra.
Qed.
Lemma applied_total target d v ms out a : Forall2 (applied target d v) ms out ->
  (total a out == if mine a d then v * Qsum (map share ms) else 0)%Q.
Proof.
  induction 1 as [|m x ms out H F IH].
  - unfold total. cbn. destruct (mine a d); lra.
  - destruct H as (_ & Ei & Ea & p & Ep & Ev). unfold total in *. cbn [filter]. unfold mine at 1. rewrite Ea. fold (mine a d).
    destruct (mine a d); [|exact IH].
    cbn [map Qsum]. rewrite !Qsum_cons. rewrite IH. unfold value, val, share. rewrite Ev, Ep. lra.
Qed.
