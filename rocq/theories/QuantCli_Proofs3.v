(** Lemmas for C61: what is loaded, when, and what is logged. *)
From Coq Require Import NArith Permutation Lqa Lia.
From Verif Require Import Prelude QLemmas Selectors_Model Selectors_Proofs LinkRef_Model Db_Model Db_Spec Reader_Model Reader_Spec Reader_Proofs Mapper_Model MapCli_Model MapCli_Spec
  LinkRef_Proofs Quantity_Model Quantity_Spec Quantity_Proofs2 Quantity_Proofs3 Quantity_Proofs4 IndexCli_Model QuantCli_Model QuantCli_Spec QuantCli_Proofs QuantCli_Proofs2.
Local Open Scope nat_scope.

Lemma Forall2_length_ {A B} (R : A -> B -> Prop) l m : Forall2 R l m -> length l = length m.
Proof. induction 1; cbn; auto. Qed.

Section Import.
Context (vc : text) (pol : policy) (al ap : bool) (cols : list text) (rows : csv_file).
Notation import s := (import_quantities vc pol al ap (cols :: rows) s).
Notation read s r := (q_of vc (d_labels (s_db s)) (names_ s cols) cols r).

Lemma import_ok file s s' y : import_quantities vc pol al ap file s = (s', Ok (ExitOk, y)) <->
  exists ev, insert_table vc pol al ap file s = Ok (s', ev) /\ y = Loaded (report ev).
Proof.
  unfold import_quantities. destruct (insert_table vc pol al ap file s) as [[s1 ev]|e].
  - split.
    + intros H. inversion H; subst. exists ev. auto.
    + intros (ev' & H & ->). inversion H; subst. reflexivity.
  - split; [destruct e; discriminate|]. intros (ev & H & _). discriminate H.
Qed.
Lemma fits_read s qs : Forall2 (fun r q => read s r = Ok q) rows qs -> fits s qs.
Proof. intros F q Hq. destruct (Forall2_in_r _ _ _ _ F Hq) as (r & _ & E). eapply (read_length vc), E. Qed.

Theorem loaded s s' y : store_wf s -> store_ref s -> import s = (s', Ok (ExitOk, y)) ->
  store_wf s' /\ store_ref s' /\ same_rest s s' /\
  forall labels a old vs, dict a -> reads s labels a old -> coming vc s cols rows labels a vs ->
    exists new, reads s' labels a new /\ same_value new (settle pol old vs).
Proof.
  intros W R H. apply import_ok in H. destruct H as (ev & H & _). apply table_ok in H; auto. destruct H as (_ & qs & F & H).
  destruct (insert2_effect _ _ _ _ _ _ _ W R (fits_read s qs F) H) as (W' & R' & S & K). repeat (split; auto).
  intros labels a old vs Hd Ho Hc. destruct (coming_in vc cols s rows qs labels a vs Hd F Hc) as (vs' & Hi & Hv).
  destruct (K labels a old vs' Hd Ho Hi) as (new & Hn & Hs & _). exists new. split; auto.
  eapply same_value_trans; [exact Hs|]. apply same_value_sym. now apply settle_values.
Qed.
Lemma loaded_once s s' y labels a old vs : store_wf s -> store_ref s -> import s = (s', Ok (ExitOk, y)) -> refuses_existing pol ->
  dict a -> reads s labels a old -> coming vc s cols rows labels a vs -> length vs <= 1 /\ (vs <> [] -> old = None).
Proof.
  intros W R H P Hd Ho Hc. apply import_ok in H. destruct H as (ev & H & _). apply table_ok in H; auto. destruct H as (_ & qs & F & H).
  destruct (insert2_effect _ _ _ _ _ _ _ W R (fits_read s qs F) H) as (_ & _ & _ & K).
  destruct (coming_in vc cols s rows qs labels a vs Hd F Hc) as (vs' & Hi & Hv). destruct (K labels a old vs' Hd Ho Hi) as (new & _ & _ & _ & X).
  destruct (X P) as (X1 & X2). pose proof (Forall2_length_ _ _ _ Hv) as L. split; [lia|]. intros N. apply X2. intros ->. now inversion Hv; subst.
Qed.

(** *** Tables that are accepted *)

Lemma storable_iff s r q : read s r = Ok q -> storable al ap s q <-> acceptable al ap s cols r.
Proof.
  intros E. pose proof (read_attributed vc s cols r q E) as HA. pose proof (read_ok vc s cols r q E) as (HL & HN & _ & HD).
  assert (Hne : qr_labels q <> [] <-> d_labels (s_db s) <> []).
  { pose proof (read_length vc s cols r q E) as L. destruct (qr_labels q), (d_labels (s_db s)); try easy. }
  assert (Hdom : (forall d, qr_domain q = Some d -> d = s_domain s) <-> (forall d, says cols r (txt "domain") d -> d = s_domain s)).
  { rewrite HD. split; intros H d Hd; apply H; now apply get_iff. }
  assert (Hp : structured s (qr_labels q) <-> of_partition s cols r).
  { split; [|intros H; now apply H]. intros H l Hl. now rewrite (labels_one s cols r l _ Hl HL). }
  assert (Hi : (exists i, matches s (qr_labels q) i) <-> of_index s cols r).
  { split; [|intros H; now apply H]. intros H l Hl. now rewrite (labels_one s cols r l _ Hl HL). }
  unfold storable, row_ok, acceptable. rewrite Hdom, HA. setoid_rewrite Hp. setoid_rewrite Hi. setoid_rewrite Hne. setoid_rewrite HN.
  pose proof (read_complete vc s cols r q E) as C. split.
  - intros ((A & B) & D). split; auto. split; auto. intros K. specialize (B K). specialize (D K). split; [tauto|]. split; [|tauto].
    intros v V. apply (proj2 D). now exists v.
  - intros (A & _ & B). split; [split; auto|].
    + intros K. specialize (B K). tauto.
    + intros K. specialize (B K). split; [tauto|]. intros (v & V). now apply (proj1 (proj2 B) v).
Qed.
Lemma all_read s : (forall r, In r rows -> complete s cols r) -> exists qs, Forall2 (fun r q => read s r = Ok q) rows qs.
Proof.
  clear -rows. induction rows as [|r l IH]; intros H; [exists []; constructor|]. destruct (read_total vc s cols r) as (q & E); [apply H; now left|].
  destruct IH as (qs & F); [intros r' Hr; apply H; now right|]. exists (q :: qs). now constructor.
Qed.
Lemma read_numeric s qs : Forall2 (fun r q => read s r = Ok q) rows qs -> all_numbers vc s cols rows -> numeric s qs.
Proof.
  intros F H q Hq Ha. destruct (Forall2_in_r _ _ _ _ F Hq) as (r & Hr & E). apply (read_attributed vc s cols r q E) in Ha.
  destruct (H r Hr Ha) as (x & Hx). destruct (read_ok vc s cols r q E) as (_ & _ & -> & _). pose proof (value_is_same _ _ _ _ Hx) as K.
  intros N. rewrite N in K. exact K.
Qed.
Lemma read_conflict s qs : Forall2 (fun r q => read s r = Ok q) rows qs -> no_conflict s qs <-> no_clash vc s cols rows.
Proof.
  intros F. split; intros H labels a vs Hd Hv.
  - destruct (coming_in vc cols s rows qs labels a vs Hd F Hv) as (vs' & Hi & Hs). destruct (H labels a vs' Hd Hi) as (A & B).
    pose proof (Forall2_length_ _ _ _ Hs) as L. split; [lia|]. intros N. apply B. intros ->. now inversion Hs; subst.
  - apply incoming_iff in Hv; auto. subst vs. now apply (H labels a), in_coming.
Qed.
Theorem accepts s : index_wf (s_db s) -> store_wf s -> store_ref s -> all_numbers vc s cols rows ->
  (exists s' y, import s = (s', Ok (ExitOk, y))) <->
  s_registered s <> [] /\ has_columns vc s cols /\ (forall r, In r rows -> acceptable al ap s cols r) /\
  (refuses_existing pol -> no_clash vc s cols rows).
Proof.
  intros WI W R N. split.
  - intros (s' & y & H). apply import_ok in H. destruct H as (ev & H & _). apply table_ok in H; auto. destruct H as (C & qs & F & H).
    assert (K : exists s' ev, insert_quantities2 pol al ap qs s = Ok (s', ev)) by (exists s', ev; auto).
    apply (insert2_accepts pol al ap qs s WI W R (fits_read s qs F) (read_numeric s qs F N)) in K. destruct K as (K1 & K2 & K3).
    split; auto. split; auto. split.
    + intros r Hr. destruct (Forall2_in_l _ _ _ _ F Hr) as (q & Hq & E). apply (storable_iff s r q E). auto.
    + intros P. apply (read_conflict s qs F). auto.
  - intros (A & C & B & D). destruct (all_read s) as (qs & F); [intros r Hr; now apply B|].
    destruct (proj2 (insert2_accepts pol al ap qs s WI W R (fits_read s qs F) (read_numeric s qs F N))) as (s' & ev & H).
    + split; auto. split.
      * intros q Hq. destruct (Forall2_in_r _ _ _ _ F Hq) as (r & Hr & E). apply (storable_iff s r q E). auto.
      * intros P. apply (read_conflict s qs F). auto.
    + exists s', (Loaded (report ev)). apply import_ok. exists ev. split; auto. apply table_ok; auto. split; auto. now exists qs.
Qed.
Theorem history ops : exists ops', fst (import (qrun ops fresh_store)) = qrun (ops ++ ops') fresh_store.
Proof.
  set (s := qrun ops fresh_store). pose proof (qrun_wf ops fresh_store fresh_store_wf) as W. fold s in W.
  unfold import_quantities. destruct (insert_table vc pol al ap (cols :: rows) s) as [[s' ev]|e] eqn:E.
  - apply table_ok in E; auto. destruct E as (_ & qs & F & H). exists [QInsert2 pol al ap qs]. rewrite qrun_app. fold s. cbn [qrun qstep fst].
    rewrite (proj2 (fits_b s qs) (fits_read s qs F)). rewrite H. reflexivity.
  - exists []. rewrite app_nil_r. destruct e; reflexivity.
Qed.

(** *** The log *)

Lemma times_app e a b : times e (a ++ b) = times e a + times e b.
Proof. unfold times. now rewrite filter_app, app_length. Qed.
Definition kept (e : event) : bool := match e with Ignored | Replaced | Summed => true | _ => false end.
Lemma put_events l g v s s' e : Quantity_Model.put pol l g v s = Ok (s', e) ->
  e = Inserted /\ length (s_quants s') = S (length (s_quants s)) \/ kept_as pol e /\ length (s_quants s') = length (s_quants s).
Proof.
  unfold Quantity_Model.put, kept_as. destruct (quantity_add l g v s) as [s1|e1] eqn:E.
  - intros H. inversion H; subst. left. split; auto. unfold quantity_add in E. destruct v; [|discriminate]. destruct (existsb _ _); [discriminate|]. inversion E. cbn. rewrite app_length. cbn. lia.
  - destruct (quantity_find l g s) as [x|]; [|discriminate]. destruct pol; try discriminate.
    + intros H. inversion H; subst. right. auto 6.
    + unfold quantity_update. destruct v; cbn; [|discriminate]. intros H. inversion H; subst. right. split; [auto 6|]. cbn. now rewrite map_length.
    + destruct v; [|discriminate]. cbn. intros H. inversion H; subst. right. split; [auto 6|]. cbn. now rewrite map_length.
Qed.
Lemma insert_row_events s ev q s' ev' : insert_row pol al ap (s, ev) q = Ok (s', ev') ->
  (attr_dict (s_registered s) (qr_cells q) = [] /\ s' = s /\ ev' = ev ++ [NoAttrs]) \/
  (attr_dict (s_registered s) (qr_cells q) <> [] /\ exists e,
     ev' = ev ++ (if in_structure (qr_labels q) s then [] else [InvalidCategory]) ++
                 (if negb (nil_b (candidates (s_db s) (qr_labels q))) then [] else [InvalidLabel]) ++ [e] /\
     (e = Inserted /\ length (s_quants s') = S (length (s_quants s)) \/ kept_as pol e /\ length (s_quants s') = length (s_quants s))).
Proof.
  unfold insert_row. destruct (match qr_domain q with Some d => _ | None => _ end); [discriminate|].
  destruct (nil_b (attr_dict _ _)) eqn:En; [intros H; apply nil_b_iff in En; inversion H; subst; left; auto|].
  apply nil_b_false in En. destruct (negb (in_structure (qr_labels q) s) && negb ap); [discriminate|].
  destruct (negb (negb (nil_b (candidates (s_db s) (qr_labels q)))) && negb al); [discriminate|].
  destruct (get_location (qr_labels q) s) as [[s1 i]|] eqn:El; cbn [bind fst snd]; [|discriminate].
  destruct (get_group _ s1) as [[s2 j]|] eqn:Eg; cbn [bind fst snd]; [|discriminate].
  destruct (Quantity_Model.put pol i j (qr_value q) s2) as [[s3 e]|] eqn:Ep; cbn [bind fst snd]; [|discriminate]. intros H. inversion H; subst s' ev'.
  right. split; auto. exists e. split; auto. apply put_events in Ep.
  assert (s_quants s1 = s_quants s).
  { unfold get_location in El. destruct (nil_b (qr_labels q)); [discriminate|]. destruct (find _ _); inversion El; subst; auto. }
  assert (s_quants s2 = s_quants s1).
  { unfold get_group in Eg. destruct (find _ _); [inversion Eg; subst; auto|]. destruct (existsb _ _); inversion Eg; subst; auto. }
  rewrite <- H0, <- H1. exact Ep.
Qed.
Definition bare (s : store) (q : q_row) : bool := nil_b (attr_dict (s_registered s) (qr_cells q)).
Definition odd (s : store) (q : q_row) : bool := negb (bare s q) && negb (in_structure (qr_labels q) s).
Definition lost (s : store) (q : q_row) : bool := negb (bare s q) && nil_b (candidates (s_db s) (qr_labels q)).
Definition of_pol : nat -> event -> Prop := fun n e => kept_as pol e \/ n = 0.
Lemma bare_rest s s' q : same_rest s s' -> bare s' q = bare s q /\ odd s' q = odd s q /\ lost s' q = lost s q.
Proof. intros (A & _ & _ & _ & B). unfold odd, lost, bare, in_structure. now rewrite A, B. Qed.
Lemma filter_ext_ {A} (f g : A -> bool) l : (forall a, f a = g a) -> filter f l = filter g l.
Proof. intros H. induction l; cbn; auto. now rewrite H, IHl. Qed.
Lemma kept_times e e' : kept_as pol e -> kept_as pol e' -> e' = e.
Proof. intros [(A & ->)|[(A & ->)|(A & ->)]] [(B & ->)|[(B & ->)|(B & ->)]]; congruence. Qed.
Lemma fold_events qs : forall s ev s' ev', store_wf s -> fits s qs -> fold_res (insert_row pol al ap) qs (s, ev) = Ok (s', ev') ->
  times NoAttrs ev' = times NoAttrs ev + length (filter (bare s) qs) /\
  times InvalidCategory ev' = times InvalidCategory ev + length (filter (odd s) qs) /\
  times InvalidLabel ev' = times InvalidLabel ev + length (filter (lost s) qs) /\
  length (s_quants s') + times Inserted ev = length (s_quants s) + times Inserted ev' /\
  (forall e, kept_as pol e -> times NoAttrs ev' + times e ev' + times Inserted ev' = times NoAttrs ev + times e ev + times Inserted ev + length qs) /\
  (forall e, kept e = true -> ~ kept_as pol e -> times e ev' = times e ev) /\
  ((forall e, ~ kept_as pol e) -> times NoAttrs ev' + times Inserted ev' = times NoAttrs ev + times Inserted ev + length qs).
Proof.
  induction qs as [|q qs IH]; intros s ev s' ev' W Hf; cbn [fold_res].
  { intros H. inversion H; subst. cbn. repeat split; intros; lia. }
  destruct (insert_row pol al ap (s, ev) q) as [[s1 ev1]|] eqn:E; cbn [bind]; [|discriminate]. intros H.
  destruct (insert_row_wf _ _ _ _ _ _ _ _ W (Hf q (or_introl eq_refl)) E) as (W1 & R1).
  assert (Hf1 : fits s1 qs). { intros q' Hq. destruct R1 as (-> & _). apply Hf. now right. }
  destruct (IH _ _ _ _ W1 Hf1 H) as (I1 & I2 & I3 & I4 & I5 & I6 & I7).
  rewrite (filter_ext_ (bare s1) (bare s)) in I1 by (intros; apply (bare_rest s s1); auto).
  rewrite (filter_ext_ (odd s1) (odd s)) in I2 by (intros; apply (bare_rest s s1); auto).
  rewrite (filter_ext_ (lost s1) (lost s)) in I3 by (intros; apply (bare_rest s s1); auto).
  destruct (insert_row_events _ _ _ _ _ E) as [(A & -> & ->)|(A & e & -> & B)].
  - assert (Eb : bare s q = true) by (unfold bare; now apply nil_b_iff). cbn [filter]. unfold odd at 1, lost at 1. rewrite Eb. cbn [negb andb length].
    rewrite !times_app in *. cbn in I1, I2, I3, I4. split; [lia|]. split; [lia|]. split; [lia|]. split; [lia|]. split; [|split].
    + intros e He. specialize (I5 e He). rewrite !times_app in I5. assert (times e [NoAttrs] = 0) by (destruct He as [(_ & ->)|[(_ & ->)|(_ & ->)]]; reflexivity). change (times NoAttrs [NoAttrs]) with 1 in I5. change (times Inserted [NoAttrs]) with 0 in I5. cbn [length]. lia.
    + intros e He Hn. specialize (I6 e He Hn). rewrite !times_app in I6. assert (times e [NoAttrs] = 0) by (destruct e; try discriminate; reflexivity). lia.
    + intros Hn. specialize (I7 Hn). rewrite ?times_app in I7. cbn in I7. lia.
  - assert (Eb : bare s q = false) by (unfold bare; now apply nil_b_false). cbn [filter]. unfold odd at 1, lost at 1. rewrite Eb. cbn [negb andb length].
    set (u := if in_structure (qr_labels q) s then [] else [InvalidCategory]) in *.
    set (w := if negb (nil_b (candidates (s_db s) (qr_labels q))) then [] else [InvalidLabel]) in *.
    assert (Ne : e = Inserted \/ kept_as pol e) by tauto.
    assert (Nk : e = Inserted \/ kept e = true) by (destruct Ne as [->|[(_ & ->)|[(_ & ->)|(_ & ->)]]]; auto).
    rewrite !times_app in *.
    assert (U1 : times InvalidCategory u = length (filter (fun x => x) [negb (in_structure (qr_labels q) s)])) by (unfold u; destruct (in_structure _ _); reflexivity).
    assert (W2 : times InvalidLabel w = length (filter (fun x => x) [nil_b (candidates (s_db s) (qr_labels q))])) by (unfold w; destruct (nil_b _); reflexivity).
    assert (Z1 : forall e, e <> InvalidCategory -> times e u = 0) by (intros e' He; unfold u; destruct (in_structure _ _), e'; easy).
    assert (Z2 : forall e, e <> InvalidLabel -> times e w = 0) by (intros e' He; unfold w; destruct (nil_b _), e'; easy).
    rewrite (Z1 NoAttrs), (Z2 NoAttrs) in I1 by easy. rewrite (Z2 InvalidCategory), U1 in I2 by easy. rewrite (Z1 InvalidLabel), W2 in I3 by easy.
    rewrite (Z1 Inserted), (Z2 Inserted) in I4 by easy.
    assert (E0 : times NoAttrs [e] = 0 /\ times InvalidCategory [e] = 0 /\ times InvalidLabel [e] = 0) by (destruct Nk as [->|Nk]; [easy|destruct e; easy]).
    destruct E0 as (E1 & E2 & E3).
    split; [lia|]. split; [rewrite E2 in I2; cbn [filter] in I2; destruct (in_structure _ _); cbn in *; lia|].
    split; [rewrite E3 in I3; cbn [filter] in I3; destruct (nil_b _); cbn in *; lia|].
    assert (Q : length (s_quants s1) = length (s_quants s) + times Inserted [e]).
    { destruct B as [(-> & ->)|(B & ->)]; [cbn; lia|]. destruct B as [(_ & ->)|[(_ & ->)|(_ & ->)]]; cbn; lia. }
    split; [lia|]. split; [|split].
    + intros e' He. specialize (I5 e' He). rewrite !times_app in I5.
      assert (e' <> InvalidCategory /\ e' <> InvalidLabel /\ e' <> NoAttrs) as (X1 & X2 & X3) by (destruct He as [(_ & ->)|[(_ & ->)|(_ & ->)]]; easy).
      rewrite !(Z1 e'), !(Z2 e'), (Z1 NoAttrs), (Z2 NoAttrs), (Z1 Inserted), (Z2 Inserted) in I5 by easy.
      assert (times e' [e] + times Inserted [e] = 1).
      { destruct Ne as [->|Ne]; [destruct He as [(_ & ->)|[(_ & ->)|(_ & ->)]]; reflexivity|]. rewrite (kept_times _ _ He Ne). destruct He as [(_ & ->)|[(_ & ->)|(_ & ->)]]; reflexivity. }
      lia.
    + intros e' He Hn. specialize (I6 e' He Hn). rewrite !times_app in I6. rewrite (Z1 e'), (Z2 e') in I6 by (destruct e'; easy).
      assert (times e' [e] = 0). { destruct Ne as [->|Ne]; [destruct e'; easy|]. destruct e', e; try reflexivity; easy. } lia.
    + intros Hn. specialize (I7 Hn). rewrite ?times_app in I7. rewrite (Z1 NoAttrs), (Z2 NoAttrs), (Z1 Inserted), (Z2 Inserted) in I7 by easy.
      destruct Ne as [->|Ne]; [cbn in *; lia|]. now apply Hn in Ne.
Qed.
Lemma in_line e l x : In x (line_if e l) <-> times e l <> 0 /\ x = Log e (times e l).
Proof. unfold line_if. destruct (times e l); cbn; split; [easy|lia| |]; intros H; [destruct H as [<-|[]]; auto|]. left. now destruct H. Qed.
Lemma line_nil e l : line_if e l = [] <-> times e l = 0.
Proof. unfold line_if. destruct (times e l); split; easy. Qed.
End Import.
