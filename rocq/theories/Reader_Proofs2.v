(** Proofs about readers: translation. *)
From Verif Require Import Prelude QLemmas Selectors_Model Selectors_Proofs LinkRef_Model LinkRef_Spec LinkRef_Proofs
  Db_Model Db_Spec Db_ProofsRun Db_ProofsOps Db_ProofsOps7 Quantize_Model Quantize_Spec Quantize_Proofs
  Reader_Model Reader_Spec Reader_Proofs.
From Coq Require Import Permutation Lqa Qabs.
From Coq Require Import ZifyBool ZifyNat ZifyN.
Open Scope Z_scope.

(** *** The links chosen *)

Lemma collect_keys upper r d : forall ps, collect upper Z r d = Ok ps ->
  forall x, In x ps -> In (snd x) (map fst d).
Proof.
  induction d as [|[k sels] d IH]; intros ps H x Hx; cbn [collect] in H.
  - inversion H; subst. easy.
  - apply bind_ok in H. destruct H as (b & _ & H). apply bind_ok in H. destruct H as (rest & Hr & H).
    inversion H; subst; clear H. cbn [map fst In]. destruct b as [sp|].
    + destruct Hx as [<-|Hx]; [now left|right; eauto].
    + right; eauto.
Qed.
Lemma insert_desc_in x l y : In y (insert_desc Z x l) -> y = x \/ In y l.
Proof.
  induction l as [|z l IH]; cbn [insert_desc In]; [intuition|].
  destruct (spec_ltb _ _); cbn [In]; intuition.
Qed.
Lemma sort_desc_in l y : In y (sort_desc Z l) -> In y l.
Proof.
  induction l as [|x l IH]; cbn [sort_desc In]; [easy|]. intros H. apply insert_desc_in in H.
  destruct H as [->|H]; auto.
Qed.
Lemma first_unique_in l : forall skip k, first_unique Z l skip = Some k -> In k (map snd l).
Proof.
  induction l as [|[sp k'] l IH]; intros skip k; cbn [first_unique]; [discriminate|].
  cbn [map snd In]. destruct (match skip with Some s => spec_eqb s sp | None => false end);
    [intros H; right; eauto|].
  destruct l as [|[sp' k2] l']; [intros H; inversion H; now left|].
  destruct (spec_eqb sp sp'); [intros H; right; eapply IH; eauto|]. intros H. inversion H. now left.
Qed.

Lemma get_link_id_in upper fn a k : get_link_id upper fn a = Ok k -> In k (map fst (fst fn)) \/ k = snd fn.
Proof.
  unfold get_link_id, greatest_unique. intros H. apply bind_ok in H. destruct H as (ps & Hp & H).
  inversion H as [E]; clear H. destruct (first_unique Z (sort_desc Z ps) None) as [k'|] eqn:F; [|now right].
  left. subst k'. apply first_unique_in in F. apply in_map_iff in F. destruct F as (x & <- & Hx).
  eapply collect_keys; [exact Hp|]. now apply sort_desc_in.
Qed.

Lemma make_link_hash uid links h fn : make_get_link_id uid links h = Ok fn ->
  (forall i, In i (map fst (fst fn)) \/ i = snd fn ->
     exists k, In k (find_links_by_ref uid links) /\ k_id k = i /\ k_hash k = Some h).
Proof.
  unfold make_get_link_id. set (m := find_links_by_ref uid links).
  destruct (nil_b m); [discriminate|].
  set (m' := filter (fun k => match k_hash k with Some h0 => zs_eqb h0 h | None => false end) m).
  assert (Hm : forall k, In k m' -> In k m /\ k_hash k = Some h).
  { intros k Hk. apply filter_In in Hk. destruct Hk as [Hk E]. split; [exact Hk|].
    destruct (k_hash k) as [h0|]; [|discriminate]. apply zs_eqb_iff in E. congruence. }
  destruct (nil_b m'); [discriminate|].
  destruct (find k_default m') as [dk|] eqn:F; [|discriminate].
  intros H. apply bind_ok in H. destruct H as (d & Hd & H). inversion H; subst; clear H. cbn [fst snd].
  intros i [Hi| ->].
  - apply in_map_iff in Hi. destruct Hi as (x & <- & Hx). apply traverse_ok in Hd.
    destruct (Forall2_in_r _ _ _ _ Hd Hx) as (k & Hk & E). apply bind_ok in E. destruct E as (sl & _ & E).
    inversion E; subst; clear E. cbn [fst]. apply filter_In in Hk. destruct Hk as [Hk _].
    destruct (Hm k Hk). exists k. auto.
  - apply find_some in F. destruct F as [Hk _]. destruct (Hm dk Hk). exists dk. auto.
Qed.

Lemma find_links_sub uid links k : In k (find_links_by_ref uid links) -> In k links.
Proof.
  unfold find_links_by_ref.
  assert (H1 : In k (find_by_other_unique_id uid links) -> In k links) by (intros H; now apply in_by_id in H).
  assert (H2 : forall x, In k (find_by_other_filename_hint x links) -> In k links) by (intros x H; now apply in_hint in H).
  assert (H3 : In k (find_by_prefix uid links) -> In k links) by (intros H; now apply in_prefix in H).
  destruct (find_by_other_unique_id uid links) as [|z m]; [|auto].
  destruct (_ ++ _) as [|y m] eqn:E.
  - destruct (7 <=? length uid)%nat; [auto|easy].
  - rewrite <- E. intros H. apply in_app_iff in H. destruct H as [H|H]; [eauto|].
    destruct (endswith uid ext); eauto.
Qed.

(** *** The tables after a translation *)

Definition linked (a a' : attr) (l : Z) : Prop := a_id a' = a_id a /\ a_attrs a' = a_attrs a /\ a_link a' = Some l.

Lemma assign_links_ok upper fn l l' : assign_links upper fn l = Ok l' ->
  Forall2 (fun a a' => exists k, get_link_id upper fn (a_attrs a) = Ok k /\ linked a a' k) l l'.
Proof.
  intros H. apply traverse_ok in H. revert H. apply Forall2_weaken. intros a a' H.
  apply bind_ok in H. destruct H as (k & Hk & H). inversion H; subst. exists k. repeat split. exact Hk.
Qed.
Lemma assign_links_map {B} (f : attr -> B) upper fn l l' :
  (forall a a' k, linked a a' k -> f a' = f a) -> assign_links upper fn l = Ok l' -> map f l' = map f l.
Proof.
  intros Hf H. apply assign_links_ok in H. induction H as [|a a' l l' (k & _ & Hl) H IH]; [reflexivity|].
  cbn [map]. rewrite IH. f_equal. eapply Hf; eauto.
Qed.

Lemma joined_rows r : NoDup (map a_id (r_attrs r)) ->
  (forall q, In q (r_quants r) -> exists a, In a (r_attrs r) /\ a_id a = q_attr q) ->
  Forall2 (fun q qa => fst qa = q /\ In (snd qa) (r_attrs r) /\ a_id (snd qa) = q_attr q) (r_quants r) (joined r).
Proof.
  intros Hd Hr. unfold joined. induction (r_quants r) as [|q qs IH]; [constructor|].
  destruct (Hr q (or_introl eq_refl)) as (a & Ha & Ea). cbn [flat_map].
  rewrite <- Ea, (filter_id _ a Hd Ha). cbn [map app]. constructor; [cbn [fst snd]; auto|].
  apply IH. intros; apply Hr; now right.
Qed.

Lemma Forall2_trans {A B C} (R : A -> B -> Prop) (S : B -> C -> Prop) l m n :
  Forall2 R l m -> Forall2 S m n -> Forall2 (fun a c => exists b, In b m /\ R a b /\ S b c) l n.
Proof.
  intros H. revert n. induction H as [|a b l m Hr H IH]; intros n H'; inversion H'; subst; constructor.
  - exists b. split; [now left|]. auto.
  - eapply Forall2_weaken; [|apply IH; eassumption]. cbn. intros u w (z & Hz & H1). exists z. split; [now right|exact H1].
Qed.

(** One record of the quantity table and what becomes of it. *)
Definition sent (b : bool) (target : db) (upper : text -> text) (fn : list (Z * option (list selector)) * Z)
  (r : reader) (q : quant) (out : list quant) : Prop :=
  exists a a' k, In a (r_attrs r) /\ a_id a = q_attr q /\ get_link_id upper fn (a_attrs a) = Ok k /\
    a_link a' = Some k /\ translate_quant b target (q, a') = Ok out.

Lemma translate_rows upper b uid h target r r' : reader_wf r ->
  translate upper b uid h target r = Ok r' ->
  exists fn outs, make_get_link_id uid (d_links target) h = Ok fn /\
    Forall2 (fun a a' => exists k, get_link_id upper fn (a_attrs a) = Ok k /\ linked a a' k) (r_attrs r) (r_attrs r') /\
    r_quants r' = concat outs /\ r_keys r' = r_keys r /\
    map a_id (r_attrs r') = map a_id (r_attrs r) /\ map a_attrs (r_attrs r') = map a_attrs (r_attrs r) /\
    same_dictionaries r r' /\
    Forall2 (sent b target upper fn r) (r_quants r) outs.
Proof.
  intros W H. unfold translate in H. apply bind_ok in H. destruct H as (fn & Hfn & H).
  apply bind_ok in H. destruct H as (attrs & Ha & H). apply bind_ok in H. destruct H as (outs & Ho & H).
  inversion H; subst; clear H. cbn [r_attrs r_quants r_keys]. exists fn, outs.
  split; [exact Hfn|]. pose proof (assign_links_ok _ _ _ _ Ha) as Hl. split; [exact Hl|].
  split; [reflexivity|]. split; [reflexivity|].
  assert (Hids : map a_id attrs = map a_id (r_attrs r)).
  { eapply assign_links_map; [|exact Ha]. now intros a a' k (E & _). }
  split; [exact Hids|]. split.
  { eapply assign_links_map; [|exact Ha]. now intros a a' k (_ & E & _). }
  split.
  { unfold same_dictionaries. cbn [r_attrs]. eapply assign_links_map; [|exact Ha]. intros a a' k (E1 & E2 & _). congruence. }
  set (r1 := {| r_attrs := attrs; r_quants := r_quants r; r_keys := r_keys r |}) in *.
  assert (Hj : Forall2 (fun q qa => fst qa = q /\ In (snd qa) attrs /\ a_id (snd qa) = q_attr q) (r_quants r) (joined r1)).
  { apply (joined_rows r1); cbn [r_attrs r_quants r1].
    - rewrite Hids. apply W.
    - intros q Hq. destruct (rw_ref r W q Hq) as (a & Hia & E).
      destruct (Forall2_in_l _ _ _ _ Hl Hia) as (a' & Ha' & k & _ & E1 & _). exists a'. split; [exact Ha'|congruence]. }
  apply traverse_ok in Ho. pose proof (Forall2_trans _ _ _ _ _ Hj Ho) as Hf.
  revert Hf. apply Forall2_weaken. intros q out ((q' & a') & _ & (E1 & Hi & E2) & Ht). cbn [fst snd] in *. subst q'.
  destruct (Forall2_in_r _ _ _ _ Hl Hi) as (a & Hia & k & Hk & E3 & E4 & E5).
  exists a, a', k. repeat split; auto. congruence.
Qed.

(** *** One record *)

Definition vals (l : list quant) : Q := Qsum (map (fun q => val (q_value q)) l).

Lemma shares_ok v ms items : shares v ms = Ok items ->
  items = map (fun m => (m_index m, val v * share m)%Q) ms /\
  (ms <> [] -> v <> None) /\ (forall m, In m ms -> m_prop m <> None).
Proof.
  revert items. induction ms as [|m ms IH]; intros items H.
  - inversion H; subst. split; [reflexivity|]. split; [easy|intros m []].
  - unfold shares in H. rewrite traverse_cons in H. apply bind_ok in H. destruct H as (x & Hx & H).
    apply bind_ok in H. destruct H as (xs & Hxs & H). inversion H; subst; clear H.
    destruct (IH xs Hxs) as (-> & _ & I2). destruct v as [y|]; [|discriminate].
    destruct (m_prop m) as [p|] eqn:E; [|discriminate]. inversion Hx; subst. split; [|split].
    + cbn [map]. unfold share at 2. now rewrite E.
    + discriminate.
    + intros m' [<-|Hm]; [congruence|auto].
Qed.
Lemma shares_total v ms : (ms <> [] -> v <> None) -> (forall m, In m ms -> m_prop m <> None) ->
  exists items, shares v ms = Ok items.
Proof.
  intros H1 H2. apply traverse_total. intros m Hm. destruct v as [x|].
  - destruct (m_prop m) eqn:E; [eauto|]. now apply H2 in Hm.
  - destruct H1; [now intros ->|reflexivity].
Qed.

Definition made (q : quant) (items : list (Z * Q)) : list quant :=
  map (fun p => {| q_index := fst p; q_attr := q_attr q; q_value := Some (snd p) |}) items.

Lemma translate_quant_ok b target q a k out : a_link a = Some k ->
  translate_quant b target (q, a) = Ok out ->
  (q_index q = 0 /\ out = [{| q_index := 0; q_attr := q_attr q; q_value := q_value q |}]) \/
  (q_index q <> 0 /\
   let items := map (fun m => (m_index m, val (q_value q) * share m)%Q) (from k (q_index q) target) in
   (from k (q_index q) target <> [] -> q_value q <> None) /\
   if b then exists items', quantized (q_value q) items = Ok items' /\ out = made q items'
   else out = made q items).
Proof.
  intros Hk H. unfold translate_quant in H. cbn [fst snd] in H. destruct (q_index q =? 0) eqn:E.
  - left. apply Z.eqb_eq in E. inversion H. auto.
  - right. apply Z.eqb_neq in E. split; [exact E|]. rewrite Hk in H.
    apply bind_ok in H. destruct H as (items & Hi & H). apply bind_ok in H. destruct H as (items' & Hq & H).
    apply shares_ok in Hi. destruct Hi as (-> & Hv & _). split; [exact Hv|].
    inversion H; subst; clear H. destruct b.
    + exists items'. auto.
    + inversion Hq. reflexivity.
Qed.

Lemma made_filter q items t :
  (vals (filter (fun x => q_index x =? t) (made q items)) == Qsum (map snd (filter (fun p => fst p =? t) items)))%Q.
Proof.
  unfold vals, made. rewrite filter_map, map_map. cbn [q_index q_value val]. reflexivity.
Qed.
Lemma made_all q items : vals (made q items) = Qsum (map snd items).
Proof. unfold vals, made. rewrite map_map. reflexivity. Qed.

Lemma items_at v ms t :
  (Qsum (map snd (filter (fun p => fst p =? t) (map (fun m => (m_index m, v * share m)%Q) ms))) ==
   v * Qsum (map share (filter (fun m => m_index m =? t) ms)))%Q.
Proof. rewrite filter_map, map_map. cbn [fst snd]. apply Qsum_scale. Qed.

Lemma sent_attr b target upper fn r q out x : sent b target upper fn r q out -> In x out -> q_attr x = q_attr q.
Proof.
  intros (a & a' & k & _ & _ & _ & Hl & H) Hx.
  destruct (translate_quant_ok _ _ _ _ _ _ Hl H) as [[_ ->]|(_ & _ & Hb)].
  - destruct Hx as [<-|[]]. reflexivity.
  - destruct b; [destruct Hb as (it & _ & ->)|subst out]; apply in_map_iff in Hx; destruct Hx as (p & <- & _); reflexivity.
Qed.

(** Plain translation: exactly the shares. *)
Lemma sent_plain target q a k out t : a_link a = Some k ->
  translate_quant false target (q, a) = Ok out ->
  (vals (filter (fun x => q_index x =? t) out) == arrives target k (q_index q) t (val (q_value q)))%Q.
Proof.
  intros Hl H. unfold arrives. destruct (translate_quant_ok _ _ _ _ _ _ Hl H) as [[E ->]|(E & _ & ->)].
  - rewrite E, Z.eqb_refl. cbn [filter q_index]. rewrite (Z.eqb_sym 0 t). destruct (t =? 0);
      unfold vals; cbn [map q_value]; rewrite ?Qsum_cons, Qsum_nil; lra.
  - apply Z.eqb_neq in E. rewrite E, made_filter, items_at. reflexivity.
Qed.

(** Quantized translation: whole shares with the same total. *)
Lemma quantized_spec v ms items' :
  (forall m, In m ms -> exists p, m_prop m = Some p /\ (0 <= p)%Q) ->
  (Qsum (map share ms) == 1)%Q -> v <> None ->
  quantized v (map (fun m => (m_index m, val v * share m)%Q) ms) = Ok items' ->
  (Qsum (map snd items') == val v)%Q /\ (whole (val v) -> forall p, In p items' -> whole (snd p)).
Proof.
  intros Hp Hs Hv H. destruct v as [x|]; [|easy]. unfold quantized in H. cbn [val] in *.
  set (its := map (fun p => (Z.to_N (fst p), snd p)) (map (fun m => (m_index m, x * share m)%Q) ms)) in *.
  assert (Hsum : (Qsum (map snd its) == x)%Q).
  { unfold its. rewrite !map_map. cbn [snd]. rewrite Qsum_scale, Hs. lra. }
  assert (Hsh : forall m, In m ms -> (0 <= share m)%Q).
  { intros m Hm. destruct (Hp m Hm) as (p & E & Pp). unfold share. now rewrite E. }
  assert (Hone : one_sign its).
  { unfold one_sign, its. destruct (Qlt_le_dec x 0) as [Hx|Hx]; [right|left];
      intros i v Hi; rewrite map_map in Hi; apply in_map_iff in Hi; destruct Hi as (m & E & Hm);
      inversion E; subst; specialize (Hsh m Hm); nra. }
  destruct (quantize_total its x Hone Hsum) as (its' & out & Eq & _ & _ & Ht & _).
  pose proof (quantize_whole_total its x Hone Hsum) as Hw. rewrite Eq in H, Hw. cbn [fst] in Hw.
  inversion H; subst; clear H. rewrite map_map. cbn [snd]. split; [exact Ht|].
  intros Wx p Hi. apply in_map_iff in Hi. destruct Hi as ([i v] & <- & Hi). cbn [snd]. eauto.
Qed.

Lemma quantized_close v ms items' :
  (forall m, In m ms -> 0 <= m_index m /\ exists p, m_prop m = Some p /\ (0 <= p)%Q) ->
  (Qsum (map share ms) == 1)%Q -> v <> None ->
  quantized v (map (fun m => (m_index m, val v * share m)%Q) ms) = Ok items' ->
  forall t,
  (Qabs (Qsum (map snd (filter (fun p => fst p =? t) items')) - val v * Qsum (map share (filter (fun m => m_index m =? t) ms)))
   <= inject_Z (Z.of_nat (length (filter (fun m => m_index m =? t) ms))))%Q.
Proof.
  intros Hp Hs Hv H t. rewrite <- items_at. destruct v as [x|]; [|easy]. unfold quantized in H. cbn [val] in *.
  set (items := map (fun m => (m_index m, x * share m)%Q) ms) in *.
  set (its := map (fun p => (Z.to_N (fst p), snd p)) items) in *.
  assert (Hsum : (Qsum (map snd its) == x)%Q).
  { unfold its, items. rewrite !map_map. cbn [snd]. rewrite Qsum_scale, Hs. lra. }
  assert (Hsh : forall m, In m ms -> (0 <= share m)%Q).
  { intros m Hm. destruct (Hp m Hm) as (_ & p & E & Pp). unfold share. now rewrite E. }
  assert (Hone : one_sign its).
  { unfold one_sign, its, items. destruct (Qlt_le_dec x 0) as [Hx|Hx]; [right|left];
      intros i v Hi; rewrite map_map in Hi; apply in_map_iff in Hi; destruct Hi as (m & E & Hm);
      inversion E; subst; specialize (Hsh m Hm); nra. }
  destruct (quantize_total its x Hone Hsum) as (its' & out & Eq & Hperm & Hc & _).
  rewrite Eq in H. inversion H; subst; clear H.
  assert (Hlen : length (filter (fun m => m_index m =? t) ms) = length (filter (fun p => (Z.of_N (fst p) =? t)) its)).
  { unfold its, items. rewrite !filter_map, !map_length. cbn [fst]. f_equal. apply filter_ext_in.
    intros m Hm. destruct (Hp m Hm) as [H0 _]. rewrite Z2N.id by exact H0. reflexivity. }
  assert (Hval : (Qsum (map snd (filter (fun p => (fst p =? t)%Z) items)) ==
                  Qsum (map snd (filter (fun p => (Z.of_N (fst p) =? t)) its)))%Q).
  { unfold its. rewrite filter_map, map_map. cbn [fst snd].
    rewrite (filter_ext_in (fun p => Z.of_N (Z.to_N (fst p)) =? t) (fun p => fst p =? t)); [reflexivity|].
    intros p Hi. unfold items in Hi. apply in_map_iff in Hi. destruct Hi as (m & <- & Hm). cbn [fst].
    destruct (Hp m Hm) as [H0 _]. now rewrite Z2N.id. }
  rewrite Hval, Hlen. clear Hval Hlen.
  assert (Hpf : forall l l' : list (N * Q), Permutation l l' ->
    (Qsum (map snd (filter (fun p => (Z.of_N (fst p) =? t)) l)) == Qsum (map snd (filter (fun p => (Z.of_N (fst p) =? t)) l')))%Q /\
    length (filter (fun p => (Z.of_N (fst p) =? t)) l) = length (filter (fun p => (Z.of_N (fst p) =? t)) l')).
  { intros l l' Hl. induction Hl as [|p l l' _ [I1 I2]|p p' l|l1 l2 l3 _ [I1 I2] _ [J1 J2]].
    - split; reflexivity.
    - cbn [filter]. destruct (Z.of_N (fst p) =? t); cbn [map length]; [|auto]. rewrite !Qsum_cons, I1, I2. split; reflexivity.
    - cbn [filter]. destruct (Z.of_N (fst p) =? t), (Z.of_N (fst p') =? t); cbn [map length]; rewrite ?Qsum_cons; split; try reflexivity; lra.
    - rewrite I1, J1, I2, J2. split; reflexivity. }
  destruct (Hpf _ _ Hperm) as [-> ->]. clear Hpf Hperm Eq Hone Hsum.
  rewrite filter_map, map_map. cbn [fst snd].
  induction Hc as [|p o l l' [E Hlt] Hc IH].
  - cbn [filter map length]. vm_compute. discriminate.
  - cbn [filter]. rewrite <- E. destruct (Z.of_N (fst p) =? t); [|exact IH].
    cbn [map length]. rewrite !Qsum_cons, Nat2Z.inj_succ, <- Z.add_1_l, inject_Z_plus.
    set (A := Qsum (map snd (filter _ l'))) in *. set (B := Qsum (map snd (filter _ l))) in *.
    setoid_replace (snd o + A - (snd p + B))%Q with ((snd o - snd p) + (A - B))%Q by ring.
    eapply Qle_trans; [apply Qabs_triangle|]. apply Qplus_le_compat; [|exact IH].
    apply Qlt_le_weak, Hlt.
Qed.

Lemma quantized_total v ms :
  (forall m, In m ms -> exists p, m_prop m = Some p /\ (0 <= p)%Q) ->
  (Qsum (map share ms) == 1)%Q -> v <> None ->
  exists items', quantized v (map (fun m => (m_index m, val v * share m)%Q) ms) = Ok items'.
Proof.
  intros Hp Hs Hv. destruct v as [x|]; [|easy]. unfold quantized. cbn [val] in *.
  set (its := map (fun p => (Z.to_N (fst p), snd p)) (map (fun m => (m_index m, x * share m)%Q) ms)) in *.
  assert (Hsum : (Qsum (map snd its) == x)%Q).
  { unfold its. rewrite !map_map. cbn [snd]. rewrite Qsum_scale, Hs. lra. }
  assert (Hsh : forall m, In m ms -> (0 <= share m)%Q).
  { intros m Hm. destruct (Hp m Hm) as (p & E & Pp). unfold share. now rewrite E. }
  assert (Hone : one_sign its).
  { unfold one_sign, its. destruct (Qlt_le_dec x 0) as [Hx|Hx]; [right|left];
      intros i v Hi; rewrite map_map in Hi; apply in_map_iff in Hi; destruct Hi as (m & E & Hm);
      inversion E; subst; specialize (Hsh m Hm); nra. }
  destruct (quantize_total its x Hone Hsum) as (its' & out & Eq & _). rewrite Eq. eauto.
Qed.

Lemma sum_one_nonempty ms : (Qsum (map share ms) == 1)%Q -> ms <> [].
Proof. intros H ->. cbn in H. discriminate. Qed.

Lemma sent_whole b target q a k out h : a_link a = Some k -> maps_whole target k h -> In (q_index q) h ->
  translate_quant b target (q, a) = Ok out ->
  (vals out == val (q_value q))%Q /\
  (b = true -> whole (val (q_value q)) -> forall x, In x out -> whole (val (q_value x))).
Proof.
  intros Hl Hm Hi H. destruct (translate_quant_ok _ _ _ _ _ _ Hl H) as [[E ->]|(E & Hv & Hb)].
  - split; [unfold vals; cbn [map q_value]; rewrite Qsum_cons, Qsum_nil; lra|].
    intros _ Hw x [<-|[]]. exact Hw.
  - destruct (Hm _ Hi E) as [Hp Hs]. specialize (Hv (sum_one_nonempty _ Hs)). destruct b.
    + destruct Hb as (items' & Hq & ->). destruct (quantized_spec _ _ _ Hp Hs Hv Hq) as [H1 H2].
      rewrite made_all. split; [exact H1|]. intros _ Hw x Hx. apply in_map_iff in Hx.
      destruct Hx as (p & <- & Hx). cbn [q_value val]. auto.
    + subst out. rewrite made_all, map_map. cbn [snd]. rewrite Qsum_scale, Hs. split; [lra|discriminate].
Qed.

Lemma sent_close b target q a k out h t : a_link a = Some k -> maps_whole target k h -> In (q_index q) h ->
  (forall m, In m (d_maps target) -> 0 <= m_index m) ->
  translate_quant b target (q, a) = Ok out ->
  (Qabs (vals (filter (fun x => q_index x =? t) out) - arrives target k (q_index q) t (val (q_value q)))
   <= ways target k (q_index q) t)%Q.
Proof.
  intros Hl Hm Hi Hr H.
  assert (Hnn : (0 <= ways target k (q_index q) t)%Q).
  { unfold ways. destruct (_ =? _); [lra|]. change 0%Q with (inject_Z 0). rewrite <- Zle_Qle. lia. }
  assert (Hex : forall x y : Q, (x == y)%Q -> (Qabs (x - y) <= ways target k (q_index q) t)%Q).
  { intros x y E. setoid_replace (x - y)%Q with 0%Q by (rewrite E; ring). exact Hnn. }
  destruct b; [|apply Hex; eapply sent_plain; eauto].
  destruct (translate_quant_ok _ _ _ _ _ _ Hl H) as [[E ->]|(E & Hv & items' & Hq & ->)].
  - apply Hex. unfold arrives. rewrite E, Z.eqb_refl. cbn [filter q_index]. rewrite (Z.eqb_sym 0 t). destruct (t =? 0);
      unfold vals; cbn [map q_value]; rewrite ?Qsum_cons, Qsum_nil; lra.
  - destruct (Hm _ Hi E) as [Hp Hs]. specialize (Hv (sum_one_nonempty _ Hs)).
    unfold arrives, ways. apply Z.eqb_neq in E. rewrite E, made_filter.
    apply quantized_close; auto. intros m Hm'. split; [|auto]. apply Hr. now apply filter_In in Hm'.
Qed.

(** *** All records *)

Lemma vals_concat P outs : (vals (filter P (concat outs)) == Qsum (map (fun o => vals (filter P o)) outs))%Q.
Proof.
  induction outs as [|o outs IH]; [reflexivity|]. cbn [concat map]. rewrite Qsum_cons, filter_app.
  unfold vals in *. rewrite map_app, Qsum_app, IH. reflexivity.
Qed.

Lemma filter_attr_all (P : quant -> bool) out i : (forall x, In x out -> q_attr x = i) ->
  filter (fun x => (q_attr x =? i) && P x) out = filter P out.
Proof. intros H. apply filter_ext_in. intros x Hx. now rewrite (H x Hx), Z.eqb_refl. Qed.
Lemma filter_attr_none (P : quant -> bool) out i j : i <> j -> (forall x, In x out -> q_attr x = i) ->
  filter (fun x => (q_attr x =? j) && P x) out = [].
Proof.
  intros Hn H. apply filter_nil_iff. intros x Hx. rewrite (H x Hx). apply andb_false_iff. left. now apply Z.eqb_neq.
Qed.

(** Amounts of one dictionary come from the amounts of that dictionary. *)
Lemma rows_attr (R : quant -> list quant -> Prop) (P : quant -> bool) qs outs i :
  (forall q out x, R q out -> In x out -> q_attr x = q_attr q) -> Forall2 R qs outs ->
  exists f : list (quant * list quant),
    map fst f = filter (fun q => q_attr q =? i) qs /\
    (forall q o, In (q, o) f -> R q o /\ In q qs) /\
    (vals (filter (fun x => (q_attr x =? i) && P x) (concat outs)) == Qsum (map (fun p => vals (filter P (snd p))) f))%Q.
Proof.
  intros Ha. induction 1 as [|q out qs outs Hr Hf (f & F1 & F2 & F3)].
  - exists []. repeat split; try easy.
  - cbn [filter concat]. destruct (q_attr q =? i) eqn:E.
    + apply Z.eqb_eq in E. exists ((q, out) :: f). cbn [map fst]. rewrite F1. split; [reflexivity|]. split.
      * intros q' o' [X|X]; [inversion X; subst; split; [exact Hr|now left]|]. destruct (F2 _ _ X). split; [auto|now right].
      * rewrite Qsum_cons, <- F3, filter_app. unfold vals at 1. rewrite map_app, Qsum_app. cbn [snd].
        rewrite filter_attr_all by (intros x Hx; rewrite <- E; eauto). reflexivity.
    + apply Z.eqb_neq in E. exists f. split; [exact F1|]. split.
      * intros q' o' X. destruct (F2 _ _ X). split; [auto|now right].
      * rewrite filter_app, (filter_attr_none P out (q_attr q) i) by (eauto). exact F3.
Qed.

Lemma attr_eq r a b : reader_wf r -> In a (r_attrs r) -> In b (r_attrs r) -> a_id a = a_id b -> a = b.
Proof.
  intros W Ha Hb E. pose proof (rw_ids r W) as Hd. revert Ha Hb Hd. induction (r_attrs r) as [|x l IH]; [easy|].
  cbn [map In]. intros Ha Hb Hd. inversion Hd; subst.
  destruct Ha as [->|Ha], Hb as [->|Hb]; auto.
  - destruct H1. rewrite E. now apply in_map.
  - destruct H1. rewrite <- E. now apply in_map.
Qed.

Lemma Qsum_fst {A B} (f : A -> Q) (l : list (A * B)) m : map fst l = m -> Qsum (map f m) = Qsum (map (fun p => f (fst p)) l).
Proof. intros <-. now rewrite map_map. Qed.

Theorem translate_amounts upper uid h target r r' : reader_wf r ->
  translate upper false uid h target r = Ok r' ->
  exists fn, make_get_link_id uid (d_links target) h = Ok fn /\
  forall a, In a (r_attrs r) -> exists k, get_link_id upper fn (a_attrs a) = Ok k /\
    forall t, (amount r' (a_id a) t ==
      Qsum (map (fun q => arrives target k (q_index q) t (val (q_value q)))
                (filter (fun q => q_attr q =? a_id a) (r_quants r))))%Q.
Proof.
  intros W H. destruct (translate_rows _ _ _ _ _ _ _ W H) as (fn & outs & Hfn & Hl & Hq & _ & _ & _ & _ & Hf).
  exists fn. split; [exact Hfn|]. intros a Ha. destruct (Forall2_in_l _ _ _ _ Hl Ha) as (a' & _ & k & Hk & _).
  exists k. split; [exact Hk|]. intros t. unfold amount. rewrite Hq.
  destruct (rows_attr _ (fun q => q_index q =? t) _ _ (a_id a) (sent_attr false target upper fn r) Hf) as (f & F1 & F2 & F3).
  fold (vals (filter (fun x => (q_attr x =? a_id a) && (q_index x =? t)) (concat outs))). rewrite F3.
  rewrite (Qsum_fst _ f _ F1). apply Qsum_ext. intros [q o] Hi. cbn [fst snd]. destruct (F2 _ _ Hi) as [Hs Hin].
  destruct Hs as (b & b' & k' & Hb & Eb & Hk' & Hlk & Ht).
  assert (q_attr q = a_id a).
  { assert (X : In q (filter (fun q => q_attr q =? a_id a) (r_quants r))) by (rewrite <- F1; apply in_map_iff; exists (q, o); auto).
    apply filter_In in X. destruct X as [_ X]. now apply Z.eqb_eq. }
  assert (b = a) by (apply (attr_eq r); auto; congruence). subst b.
  assert (k' = k) by congruence. subst k'. eapply sent_plain; eauto.
Qed.

Definition chosen_whole upper fn (target : db) (h : list Z) (r : reader) : Prop :=
  forall a k, In a (r_attrs r) -> get_link_id upper fn (a_attrs a) = Ok k -> maps_whole target k h.

Theorem translate_totals upper b uid h target r r' : reader_wf r ->
  (forall q, In q (r_quants r) -> In (q_index q) h) ->
  (forall fn, make_get_link_id uid (d_links target) h = Ok fn -> chosen_whole upper fn target h r) ->
  translate upper b uid h target r = Ok r' ->
  (forall a, (total r' a == total r a)%Q) /\
  (b = true -> (forall q, In q (r_quants r) -> whole (val (q_value q))) ->
     forall q, In q (r_quants r') -> whole (val (q_value q))).
Proof.
  intros W Hin Hch H. destruct (translate_rows _ _ _ _ _ _ _ W H) as (fn & outs & Hfn & Hl & Hq & _ & _ & _ & _ & Hf).
  specialize (Hch fn Hfn). rewrite Hq. unfold total. rewrite Hq.
  assert (Hs : forall q o, In q (r_quants r) -> sent b target upper fn r q o ->
    (vals o == val (q_value q))%Q /\ (b = true -> whole (val (q_value q)) -> forall x, In x o -> whole (val (q_value x)))).
  { intros q o Hiq (x & x' & k & Hx & Ex & Hk & Hlk & Ht). eapply sent_whole; eauto. }
  split.
  - intros i. destruct (rows_attr _ (fun _ => true) _ _ i (sent_attr b target upper fn r) Hf) as (f & F1 & F2 & F3).
    fold (vals (filter (fun q => q_attr q =? i) (concat outs))).
    rewrite (filter_ext _ (fun x => (q_attr x =? i) && true)) by (intros; now rewrite andb_true_r). rewrite F3.
    rewrite (Qsum_fst _ f _ F1). apply Qsum_ext. intros [q o] Hi. cbn [fst snd]. destruct (F2 _ _ Hi) as [S1 S2].
    assert (X : filter (fun _ : quant => true) o = o) by (clear; induction o as [|? ? IH]; cbn; congruence).
    rewrite X. apply (Hs q o); auto.
  - intros Hb Hw q Hi. apply in_concat in Hi. destruct Hi as (o & Ho & Hi).
    destruct (Forall2_in_r _ _ _ _ Hf Ho) as (q0 & Hq0 & S). destruct (Hs _ _ Hq0 S) as [_ X]. eapply X; eauto.
Qed.

Theorem translate_close upper b uid h target r r' : reader_wf r ->
  (forall q, In q (r_quants r) -> In (q_index q) h) ->
  (forall m, In m (d_maps target) -> 0 <= m_index m) ->
  (forall fn, make_get_link_id uid (d_links target) h = Ok fn -> chosen_whole upper fn target h r) ->
  translate upper b uid h target r = Ok r' ->
  exists fn, make_get_link_id uid (d_links target) h = Ok fn /\
  forall a, In a (r_attrs r) -> exists k, get_link_id upper fn (a_attrs a) = Ok k /\
    forall t,
    let mine := filter (fun q => q_attr q =? a_id a) (r_quants r) in
    (Qabs (amount r' (a_id a) t - Qsum (map (fun q => arrives target k (q_index q) t (val (q_value q))) mine))
     <= Qsum (map (fun q => ways target k (q_index q) t) mine))%Q.
Proof.
  intros W Hin Hr Hch H. destruct (translate_rows _ _ _ _ _ _ _ W H) as (fn & outs & Hfn & Hl & Hq & _ & _ & _ & _ & Hf).
  specialize (Hch fn Hfn).
  exists fn. split; [exact Hfn|]. intros a Ha. destruct (Forall2_in_l _ _ _ _ Hl Ha) as (a' & _ & k & Hk & _).
  exists k. split; [exact Hk|]. intros t. unfold amount. rewrite Hq. cbv zeta.
  destruct (rows_attr _ (fun q => q_index q =? t) _ _ (a_id a) (sent_attr b target upper fn r) Hf) as (f & F1 & F2 & F3).
  fold (vals (filter (fun x => (q_attr x =? a_id a) && (q_index x =? t)) (concat outs))). rewrite F3.
  rewrite !(Qsum_fst _ f _ F1).
  assert (Hone : forall p, In p f ->
    (Qabs (vals (filter (fun q => (q_index q =? t)%Z) (snd p)) - arrives target k (q_index (fst p)) t (val (q_value (fst p))))
     <= ways target k (q_index (fst p)) t)%Q).
  { intros [q o] Hi. cbn [fst snd]. destruct (F2 _ _ Hi) as [Hs Hiq].
    destruct Hs as (x & x' & k' & Hx & Ex & Hk' & Hlk & Ht).
    assert (q_attr q = a_id a).
    { assert (X : In q (filter (fun q => q_attr q =? a_id a) (r_quants r))) by (rewrite <- F1; apply in_map_iff; exists (q, o); auto).
      apply filter_In in X. destruct X as [_ X]. now apply Z.eqb_eq. }
    assert (x = a) by (apply (attr_eq r); auto; congruence). subst x.
    assert (k' = k) by congruence. subst k'. eapply sent_close; eauto. }
  clear F1 F2 F3. induction f as [|p f IH].
  - vm_compute. discriminate.
  - cbn [map]. rewrite !Qsum_cons.
    set (A := Qsum (map (fun p => vals (filter _ (snd p))) f)) in *.
    set (B := Qsum (map (fun p => arrives target k _ t _) f)) in *.
    match goal with |- (Qabs (?u + _ - (?v + _)) <= _)%Q => setoid_replace (u + A - (v + B))%Q with ((u - v) + (A - B))%Q by ring end.
    eapply Qle_trans; [apply Qabs_triangle|]. apply Qplus_le_compat; [apply Hone; now left|].
    apply IH. intros; apply Hone; now right.
Qed.

(** The result is again a well-formed reader, over the target space. *)
Theorem translate_wf upper b uid h target r r' : reader_wf r -> index_wf target -> maps_ref target ->
  translate upper b uid h target r = Ok r' ->
  reader_wf r' /\ same_dictionaries r r' /\ r_keys r' = r_keys r /\ placed_in target r'.
Proof.
  intros W I M H. destruct (translate_rows _ _ _ _ _ _ _ W H) as (fn & outs & Hfn & Hl & Hq & Hk & Hi & Ha & Hd & Hf).
  split; [|split; [exact Hd|split; [exact Hk|]]].
  - constructor; [rewrite Hi; apply W|rewrite Ha; apply W|]. rewrite Hq. intros q Hiq.
    apply in_concat in Hiq. destruct Hiq as (o & Ho & Hx). destruct (Forall2_in_r _ _ _ _ Hf Ho) as (q0 & Hq0 & S).
    rewrite (sent_attr _ _ _ _ _ _ _ _ S Hx). destruct (rw_ref r W q0 Hq0) as (a & Hia & Ea).
    destruct (Forall2_in_l _ _ _ _ Hl Hia) as (a' & Ha' & k & _ & E & _). exists a'. split; [exact Ha'|congruence].
  - intros q Hiq. rewrite Hq in Hiq. apply in_concat in Hiq. destruct Hiq as (o & Ho & Hx).
    destruct (Forall2_in_r _ _ _ _ Hf Ho) as (q0 & Hq0 & x & x' & k & _ & _ & _ & Hlk & Ht).
    assert (H0 : has_index target 0) by (exists (undefined_record target); split; [apply I|reflexivity]).
    assert (Hms : forall m, In m (from k (q_index q0) target) -> has_index target (m_index m)).
    { intros m Hm. apply filter_In in Hm. now apply M. }
    destruct (translate_quant_ok _ _ _ _ _ _ Hlk Ht) as [[E ->]|(E & Hv & Hb)].
    + destruct Hx as [<-|[]]. exact H0.
    + destruct b; [|subst o; apply in_map_iff in Hx; destruct Hx as (p & <- & Hp); apply in_map_iff in Hp;
                    destruct Hp as (m & <- & Hm); cbn [q_index fst]; auto].
      destruct Hb as (items' & Hqz & ->). apply in_map_iff in Hx. destruct Hx as (p & <- & Hp). cbn [q_index].
      unfold quantized in Hqz. destruct (q_value q0) as [v|]; [|discriminate].
      set (its := map (fun p => (Z.to_N (fst p), snd p)) _) in Hqz.
      destruct (quantize_values its v) as [out [e|]] eqn:Eq; [discriminate|]. inversion Hqz; subst; clear Hqz.
      apply in_map_iff in Hp. destruct Hp as ([n y] & <- & Hp). cbn [fst].
      assert (Hn : In n (map fst its)).
      { assert (X : forall e, In e (sort_entries (map split_item its)) -> In (e_id e) (map fst its)).
        { intros e He. apply (Permutation_in _ (Permutation_sym (sort_perm _))) in He. apply in_map_iff in He.
          destruct He as (it & <- & He). cbn [split_item e_id]. now apply in_map. }
        unfold quantize_values in Eq. cbv zeta in Eq.
        set (s := sort_entries (map split_item its)) in *.
        set (n0 := Z.abs_nat _) in Eq.
        assert (Hfs : forall e, In e (firstn n0 s) -> In e s) by (intros e He; rewrite <- (firstn_skipn n0 s); apply in_app_iff; now left).
        assert (Hsk : forall e, In e (skipn n0 s) -> In e s) by (intros e He; rewrite <- (firstn_skipn n0 s); apply in_app_iff; now right).
        destruct (negb _).
        - destruct (skipn n0 s) as [|e rest]; [discriminate|]. inversion Eq; subst; clear Eq.
          apply in_app_iff in Hp. destruct Hp as [Hp|[Hp|Hp]].
          + apply in_map_iff in Hp. destruct Hp as (e' & E' & He'). inversion E'; subst. apply X, Hfs, He'.
          + inversion Hp; subst. apply X, Hsk. now left.
          + apply in_map_iff in Hp. destruct Hp as (e' & E' & He'). inversion E'; subst. apply X, Hsk. now right.
        - inversion Eq; subst; clear Eq. apply in_app_iff in Hp. destruct Hp as [Hp|Hp];
          apply in_map_iff in Hp; destruct Hp as (e' & E' & He'); inversion E'; subst; apply X; auto. }
      unfold its in Hn. rewrite !map_map in Hn. apply in_map_iff in Hn. destruct Hn as (m & <- & Hm). cbn [fst].
      destruct (Hms m Hm) as (rec & Hrec & Erec). pose proof (iw_range target I rec Hrec) as Hge.
      rewrite Z2N.id by lia. exists rec. auto.
Qed.

(** It succeeds when the links can be chosen, the values are present and the chosen links map
    all records. *)
Theorem translate_succeeds upper b uid h target r fn : reader_wf r ->
  (forall q, In q (r_quants r) -> In (q_index q) h /\ q_value q <> None) ->
  make_get_link_id uid (d_links target) h = Ok fn -> chosen_whole upper fn target h r ->
  (forall a, In a (r_attrs r) -> exists k, get_link_id upper fn (a_attrs a) = Ok k) ->
  exists r', translate upper b uid h target r = Ok r'.
Proof.
  intros W Hq Hfn Hch Hk. unfold translate. rewrite Hfn. cbn [bind].
  assert (Ha : exists attrs, assign_links upper fn (r_attrs r) = Ok attrs).
  { apply traverse_total. intros a Ha. destruct (Hk a Ha) as [k ->]. cbn. eauto. }
  destruct Ha as [attrs Ha]. rewrite Ha. cbn [bind].
  set (r1 := {| r_attrs := attrs; r_quants := r_quants r; r_keys := r_keys r |}).
  assert (Ho : exists outs, traverse (translate_quant b target) (joined r1) = Ok outs).
  { apply traverse_total. intros [q a'] Hj. unfold joined in Hj. apply in_flat_map in Hj.
    destruct Hj as (q0 & Hq0 & Hj). apply in_map_iff in Hj. destruct Hj as (a0 & E & Hj). inversion E; subst q0 a0; clear E.
    cbn [r_quants r1 r_attrs] in *. apply filter_In in Hj. destruct Hj as [Hj _].
    destruct (Forall2_in_r _ _ _ _ (assign_links_ok _ _ _ _ Ha) Hj) as (a & Hia & k & Hgk & _ & _ & Hlk).
    unfold translate_quant. cbn [fst snd]. destruct (q_index q =? 0) eqn:E; [eauto|]. apply Z.eqb_neq in E.
    rewrite Hlk. destruct (Hq q Hq0) as [Hh Hv]. destruct (Hch a k Hia Hgk _ Hh E) as [Hp Hs].
    change (filter _ (d_maps target)) with (from k (q_index q) target).
    destruct (shares_total (q_value q) (from k (q_index q) target)) as [items Hit]; [auto| |].
    { intros m Hm. destruct (Hp m Hm) as (p & -> & _). discriminate. }
    rewrite Hit. cbn [bind]. apply shares_ok in Hit. destruct Hit as (-> & _).
    destruct b; [|cbn; eauto]. destruct (quantized_total _ _ Hp Hs Hv) as [items' ->]. cbn. eauto. }
  destruct Ho as [outs ->]. cbn. eauto.
Qed.

(** *** Spaces *)

(** A link whose recorded hash is the current one maps every record of its source, in shares
    that make up the whole. *)
Lemma current_whole ops2 k h : Forall honest ops2 -> one_session ops2 ->
  In k (d_links (run ops2 fresh)) -> k_hash k = Some h -> (forall i, In i h -> 0 <= i) ->
  maps_whole (run ops2 fresh) (k_id k) h.
Proof.
  intros Hh Ho Hk Eh Hpos i Hi H0. destruct (run_exact ops2 Hh Ho) as (_ & _ & L).
  destruct (L k Hk) as [L1 _]. destruct (L1 h Eh) as [_ L2].
  destruct (proj1 (L2 i) Hi) as [->|(Hp & m & Hm & E1 & E2)]; [easy|].
  pose proof (props_of ops2 Ho) as P. split.
  - intros x Hx. apply filter_In in Hx. destruct Hx as [Hx E]. apply andb_true_iff in E.
    destruct E as [_ E]. apply Z.eqb_eq in E. destruct (P x Hx) as [_ P2].
    destruct P2 as [P2 _]; [lia|]. destruct (m_prop x) as [p|] eqn:Ep; [|easy].
    exists p. split; [reflexivity|]. apply (mw_prop _ (i_maps _ (run_inv ops2)) x p Hx Ep).
  - destruct (P m Hm) as [_ P2]. destruct P2 as [_ P2]; [lia|]. now rewrite E1, E2 in P2.
Qed.

Lemma chosen_current upper ops1 ops2 uid r fn : Forall honest ops2 -> one_session ops2 ->
  make_get_link_id uid (d_links (run ops2 fresh)) (d_hash (run ops1 fresh)) = Ok fn ->
  chosen_whole upper fn (run ops2 fresh) (d_hash (run ops1 fresh)) r.
Proof.
  intros Hh Ho Hfn a k _ Hk. apply get_link_id_in in Hk. destruct (make_link_hash _ _ _ _ Hfn k Hk) as (x & Hx & <- & E).
  apply find_links_sub in Hx. apply (current_whole ops2 x); auto.
  intros i Hi. destruct (i_hash _ (run_inv ops1)) as [_ H]. apply H in Hi. destruct Hi as (rec & Hr & <-).
  apply (iw_range _ (i_index _ (run_inv ops1)) rec Hr).
Qed.

Lemma placed_hash ops r : placed_in (run ops fresh) r -> forall q, In q (r_quants r) -> In (q_index q) (d_hash (run ops fresh)).
Proof. intros H q Hq. destruct (i_hash _ (run_inv ops)) as [_ X]. apply X. now apply H. Qed.

Lemma maps_index_nonneg ops : one_session ops -> forall m, In m (d_maps (run ops fresh)) -> 0 <= m_index m.
Proof.
  intros Ho m Hm. destruct (refs_of ops Ho) as [_ M]. destruct (mr_ref_index _ M m Hm) as (rec & Hr & <-).
  apply (iw_range _ (i_index _ (run_inv ops)) rec Hr).
Qed.

Theorem translate_spaces upper b uid ops1 ops2 r r' :
  Forall honest ops2 -> one_session ops2 -> reader_wf r -> placed_in (run ops1 fresh) r ->
  translate upper b uid (d_hash (run ops1 fresh)) (run ops2 fresh) r = Ok r' ->
  reader_wf r' /\ placed_in (run ops2 fresh) r' /\ same_dictionaries r r' /\ r_keys r' = r_keys r /\
  (forall a, (total r' a == total r a)%Q) /\
  (b = true -> (forall q, In q (r_quants r) -> whole (val (q_value q))) ->
     forall q, In q (r_quants r') -> whole (val (q_value q))).
Proof.
  intros Hh Ho W P H.
  destruct (translate_wf _ _ _ _ _ _ _ W (i_index _ (run_inv ops2)) (proj2 (refs_of ops2 Ho)) H) as (W' & D & K & P').
  destruct (translate_totals _ _ _ _ _ _ _ W (placed_hash ops1 r P)
              (fun fn Hfn => chosen_current upper ops1 ops2 uid r fn Hh Ho Hfn) H) as [T1 T2].
  split; [exact W'|]. split; [exact P'|]. split; [exact D|]. split; [exact K|]. split; [exact T1|exact T2].
Qed.

Theorem translate_spaces_close upper b uid ops1 ops2 r r' :
  Forall honest ops2 -> one_session ops2 -> reader_wf r -> placed_in (run ops1 fresh) r ->
  translate upper b uid (d_hash (run ops1 fresh)) (run ops2 fresh) r = Ok r' ->
  exists fn, make_get_link_id uid (d_links (run ops2 fresh)) (d_hash (run ops1 fresh)) = Ok fn /\
  forall a, In a (r_attrs r) -> exists k, get_link_id upper fn (a_attrs a) = Ok k /\
    forall t,
    let mine := filter (fun q => q_attr q =? a_id a) (r_quants r) in
    (Qabs (amount r' (a_id a) t - Qsum (map (fun q => arrives (run ops2 fresh) k (q_index q) t (val (q_value q))) mine))
     <= Qsum (map (fun q => ways (run ops2 fresh) k (q_index q) t) mine))%Q.
Proof.
  intros Hh Ho W P H. eapply translate_close; eauto using placed_hash, maps_index_nonneg, chosen_current.
Qed.

Theorem translate_spaces_succeeds upper b uid ops1 ops2 r fn :
  Forall honest ops2 -> one_session ops2 -> reader_wf r -> placed_in (run ops1 fresh) r -> filled r ->
  make_get_link_id uid (d_links (run ops2 fresh)) (d_hash (run ops1 fresh)) = Ok fn ->
  (forall a, In a (r_attrs r) -> exists k, get_link_id upper fn (a_attrs a) = Ok k) ->
  exists r', translate upper b uid (d_hash (run ops1 fresh)) (run ops2 fresh) r = Ok r'.
Proof.
  intros Hh Ho W P F Hfn Hk. eapply translate_succeeds; eauto using chosen_current.
  intros q Hq. split; [now apply (placed_hash ops1 r)|now apply F].
Qed.

(** The chosen links belong to the reader's space and are up to date. *)
Theorem chosen_link upper uid links h fn a k : (exists x, In x links /\ k_other x = uid) ->
  make_get_link_id uid links h = Ok fn -> get_link_id upper fn a = Ok k ->
  exists x, current links uid h x /\ k_id x = k.
Proof.
  intros He Hfn Hk. apply get_link_id_in in Hk. destruct (make_link_hash _ _ _ _ Hfn k Hk) as (x & Hx & Ei & E).
  rewrite (find_exact uid links He) in Hx. apply in_by_id in Hx. destruct Hx as [Hx Ho].
  exists x. repeat split; auto.
Qed.
