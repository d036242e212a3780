(** Reading a space: what is read, totals, failure. *)
From Verif Require Import Prelude QLemmas BitFlags_Model BitFlags_Spec BitFlags_Proofs Selectors_Model Selectors_Spec Selectors_Proofs
  LinkRef_Model LinkRef_Proofs Db_Model Db_Spec Db_Proofs Db_ProofsLocal Quantize_Model Quantize_Spec Quantize_Proofs
  Disaggregate_Model Disaggregate_Spec Disaggregate_Proofs Reader_Model Reader_Spec Reader_Proofs Reader_Proofs3
  Mapper_Model Mapper_Spec Mapper_Proofs Mapper_Proofs2 Mapper_Proofs3 Quantity_Model Quantity_Spec Quantity_Proofs Quantity_Proofs2
  Quantity_Proofs3 SpaceRead_Model SpaceRead_Spec SpaceRead_Proofs SpaceRead_Proofs2.
From Coq Require Import Permutation Lqa Qabs Qround.
From Coq Require Import ZifyBool ZifyNat ZifyN.
Local Open Scope nat_scope.

Lemma located_one s x l labels : store_wf s -> In l (s_locs s) -> l_id l = qt_loc x -> located s x labels -> labels = l_labels l.
Proof.
  intros W Hl El (l' & Hl' & El' & <-). f_equal. eapply nodup_map_inj; [exact (sw_loc_ids _ W)|exact Hl'|exact Hl|congruence].
Qed.
Lemma attributed_one s x a a' : store_wf s -> attributed s x a -> attributed s x a' -> a = a'.
Proof.
  intros W (g & Hg & Eg & <-) (g' & Hg' & Eg' & <-). f_equal.
  eapply nodup_map_inj; [exact (sw_group_ids _ W)|exact Hg|exact Hg'|congruence].
Qed.

Lemma shown_of s names x a : store_wf s -> attributed s x a -> shown_attrs s names x (filter_attrs names s (add_domain s a)).
Proof.
  intros W Ha. assert (Hd : dict a) by (destruct Ha as (g & Hg & _ & <-); now apply (sw_dicts _ W)).
  pose proof (add_domain_spec s a Hd) as HD. split; [apply filter_attrs_dict, HD|].
  exists a, (add_domain s a). split; [exact Ha|]. split; [exact HD|]. intros k v. apply filter_attrs_in.
Qed.
Lemma shown_one s names x a a' : store_wf s -> shown_attrs s names x a -> shown_attrs s names x a' -> same_attrs a a'.
Proof.
  intros W (D & own & full & H1 & H2 & H3) (D' & own' & full' & H1' & H2' & H3').
  assert (own' = own) by (eapply attributed_one; eauto). subst own'.
  pose proof (with_domain_perm s own full full' H2 H2') as E.
  apply dict_ext; auto. intros k v. rewrite H3, H3', E. tauto.
Qed.

Section Whole.
Context (upper : text -> text) (s : store) (OK : space_ok s).
Context (sels : list selector) (Hp : Forall proper sels).

Lemma disaggregate_ok ids quantize data default : get_default_weight_group (s_db s) = Ok default ->
  disaggregate upper ids quantize s = Ok data ->
  is_complete default (s_db s) = true /\ exists first rest outs, structures s = first :: rest /\ data = concat outs /\
    Forall2 (fun p ds => read_quantity upper quantize (gran_eqb (s_gran s (fst p)) (s_gran s first)) default s (snd p) = Ok ds)
      (reads_of ids s) outs.
Proof.
  intros Ed H. assert (Ec : is_complete default (s_db s) = true).
  { unfold disaggregate in H. rewrite Ed in H. cbn [bind] in H. destruct (is_complete _ _); [reflexivity|discriminate]. }
  split; [exact Ec|]. destruct (structures s) as [|first rest] eqn:Es.
  { unfold disaggregate in H. rewrite Ed in H. cbn [bind] in H. rewrite Ec, Es in H. discriminate. }
  rewrite (disaggregate_eq upper ids quantize s default first rest (sp_structs _ OK) Ed Ec Es) in H.
  apply bind_ok in H. destruct H as (outs & Ho & H). inversion H; subst. exists first, rest, outs.
  split; [reflexivity|]. split; [reflexivity|]. now apply traverse_ok in Ho.
Qed.

Lemma reads_finest ids first rest bits x l : structures s = first :: rest -> In (bits, (x, l)) (reads_of ids s) ->
  (gran_eqb (s_gran s bits) (s_gran s first) = true <-> finest s (l_labels l)).
Proof.
  intros Es H. apply in_reads in H; [|apply OK|apply OK]. destruct H as (-> & Hb & _ & Hl & _).
  exact (finest_iff s (l_labels l) first rest (sp_structs _ OK) (sp_gran _ OK) (sw_arity _ (sp_tables _ OK) l Hl) Hb Es).
Qed.

Lemma parts_of ids quantize names default first rest : d_default (s_db s) = Some (Some default) ->
  structures s = first :: rest ->
  forall rds outs, (forall p, In p rds -> In p (reads_of ids s)) ->
  Forall2 (fun p ds => read_quantity upper quantize (gran_eqb (s_gran s (fst p)) (s_gran s first)) default s (snd p) = Ok ds) rds outs ->
  exists parts, map p_quantity parts = map (fun p => fst (snd p)) rds /\
    map (fun d => {| n_index := n_index d; n_attrs := filter_attrs names s (n_attrs d); n_value := n_value d |}) (concat outs)
      = flat_map part_data parts /\
    forall p, In p parts -> well_read upper quantize names s p.
Proof.
  intros Hdef Es rds outs Hin HF. revert Hin. induction HF as [|[bits [x l]] ds rds outs Hrd HF IH]; intros Hin.
  - exists []. repeat split; try easy.
  - destruct IH as (parts & E1 & E2 & Hw); [intros p H; apply Hin; now right|].
    assert (Hr : In (bits, (x, l)) (reads_of ids s)) by (apply Hin; now left). cbn [fst snd] in Hrd.
    pose proof (reads_finest ids first rest bits x l Es Hr) as Hf.
    apply in_reads in Hr; [|apply OK|apply OK]. destruct Hr as (_ & _ & _ & Hl & El & _).
    destruct (read_quantity_ok upper s (sp_index _ OK) (sp_weights _ OK) (sp_tables _ OK) (sp_sels _ OK) default Hdef
                quantize _ x l ds Hl Hf Hrd) as (a & items & Ha & -> & Hb & Hsum & Hm & Hn & Hne).
    exists ({| p_quantity := x; p_attrs := filter_attrs names s (add_domain s a); p_items := items |} :: parts).
    split; [cbn [map p_quantity]; now rewrite E1|]. split.
    + cbn [concat flat_map]. rewrite map_app, E2. f_equal. unfold data_of, part_data. cbn [p_items p_attrs]. rewrite map_map. reflexivity.
    + intros p [<-|H]; [|now apply Hw]. split; cbn [p_quantity p_attrs p_items].
      * apply shown_of; [apply OK|exact Ha].
      * exact Hsum.
      * exists (l_labels l), a. split; [exists l; auto|]. auto 10.
Qed.

Theorem read_parts quantize names data : read_data upper sels quantize names s = Ok data ->
  exists parts, data = flat_map part_data parts /\ NoDup (map p_quantity parts) /\
    (forall x, In x (map p_quantity parts) <-> is_read upper sels s x) /\
    forall p, In p parts -> well_read upper quantize names s p.
Proof.
  intros H. unfold read_data in H.
  destruct (read_filter_ok upper sels s Hp (sp_tables _ OK)) as (ids & Ei & Hids & Hex). rewrite Ei in H. cbn [bind] in H.
  apply bind_ok in H. destruct H as (log & Hlog & H). apply bind_ok in H. destruct H as (ds & Hds & H). inversion H; subst data; clear H.
  unfold matching_groups in Hlog. apply bind_ok in Hlog. destruct Hlog as (default & Ed & _).
  destruct (disaggregate_ok ids quantize ds default Ed Hds) as (Ec & first & rest & outs & Es & -> & HF).
  pose proof (proj1 (proj1 (default_found s default) Ed)) as Hdef.
  destruct (parts_of ids quantize names default first rest Hdef Es _ _ (fun p H => H) HF) as (parts & E1 & E2 & Hw).
  exists parts. split; [exact E2|]. split; [rewrite E1; apply nodup_reads; apply OK|]. split; [|exact Hw].
  intros x. split.
  - intros Hx. assert (Ha : exists a, attributed s x a).
    { apply in_map_iff in Hx. destruct Hx as (p & <- & Hpp). destruct (wr_becomes _ _ _ _ _ (Hw p Hpp)) as (lab & a & _ & Ha & _). eauto. }
    rewrite E1 in Hx. apply in_map_iff in Hx. destruct Hx as ((bits & x' & l) & E & Hin). cbn [fst snd] in E. subst x'.
    apply in_reads in Hin; [|apply OK|apply OK]. destruct Hin as (Eb & Hb & Hxq & Hl & El & Hch).
    split; [exact Hxq|]. split.
    + exists (l_labels l). split; [now exists l|]. apply structured_pattern; [apply OK| |now subst].
      now apply (sw_arity _ (sp_tables _ OK)).
    + destruct Ha as (a & g & Hg & Eg & Ea). exists a. split; [now exists g|]. subst a. apply Hids; [exact Hg|]. now rewrite Eg.
  - intros (Hxq & (labels & (l & Hl & El & <-) & Hst) & (a & (g & Hg & Eg & <-) & Hpk)). rewrite E1.
    apply in_map_iff. exists (pattern (l_labels l), (x, l)). split; [reflexivity|]. apply in_reads; [apply OK|apply OK|].
    split; [reflexivity|]. split.
    { apply structured_pattern; [apply OK| |exact Hst]. now apply (sw_arity _ (sp_tables _ OK)). }
    repeat split; auto. rewrite <- Eg. now apply Hids.
Qed.

Theorem read_total quantize names : store_ref s ->
  (exists data, read_data upper sels quantize names s = Ok data) <->
  default_ok s /\ d_structs (s_db s) <> [] /\ forall x, is_read upper sels s x -> readable upper s x.
Proof.
  intros SR. destruct (read_filter_ok upper sels s Hp (sp_tables _ OK)) as (ids & Ei & Hids & Hex).
  assert (Hsn : structures s <> [] <-> d_structs (s_db s) <> []).
  { pose proof (sort_levels_perm (s_gran s) (d_structs (s_db s))) as P. fold (structures s) in P. split; intros H E; apply H.
    - rewrite E in P. now apply Permutation_nil in P.
    - rewrite E in P. now apply Permutation_sym, Permutation_nil in P. }
  assert (Hread : forall default first rest bits x l, d_default (s_db s) = Some (Some default) -> structures s = first :: rest ->
    In (bits, (x, l)) (reads_of ids s) ->
    ((exists ds, read_quantity upper quantize (gran_eqb (s_gran s bits) (s_gran s first)) default s (x, l) = Ok ds) <-> readable upper s x) /\
    is_read upper sels s x).
  { intros default first rest bits x l Hdef Es Hin. pose proof (reads_finest ids first rest bits x l Es Hin) as Hf.
    apply in_reads in Hin; [|apply OK|apply OK]. destruct Hin as (Eb & Hb & Hxq & Hl & El & Hch).
    destruct (sr_group _ SR x Hxq) as (g & Hg & Eg). split.
    - apply read_quantity_total; auto; try apply OK. exists (ag_attrs g). now exists g.
    - split; [exact Hxq|]. split.
      + exists (l_labels l). split; [now exists l|]. apply structured_pattern; [apply OK| |now subst].
        now apply (sw_arity _ (sp_tables _ OK)).
      + exists (ag_attrs g). split; [now exists g|]. apply Hids; [exact Hg|]. now rewrite Eg. }
  unfold read_data. rewrite Ei. cbn [bind]. split.
  - intros [data H]. apply bind_ok in H. destruct H as (log & Hlog & H). apply bind_ok in H. destruct H as (ds & Hds & _).
    unfold matching_groups in Hlog. apply bind_ok in Hlog. destruct Hlog as (default & Ed & _).
    destruct (disaggregate_ok ids quantize ds default Ed Hds) as (Ec & first & rest & outs & Es & _ & HF).
    pose proof (proj1 (default_found s default) Ed) as [Hdef (g & Hg & Eg)]. split; [|split].
    + exists g. split; [exact Hg|]. split; [congruence|]. rewrite <- Eg in Ec. rewrite <- (is_complete_iff s g); auto. apply (ww_groups _ (sp_weights _ OK)).
    + apply Hsn. rewrite Es. discriminate.
    + intros x (Hxq & (labels & (l & Hl & El & <-) & Hst) & (a & (g' & Hg' & Eg' & <-) & Hpk)).
      assert (Hin : In (pattern (l_labels l), (x, l)) (reads_of ids s)).
      { apply in_reads; [apply OK|apply OK|]. split; [reflexivity|]. split.
        { apply structured_pattern; [apply OK| |exact Hst]. now apply (sw_arity _ (sp_tables _ OK)). }
        repeat split; auto. rewrite <- Eg'. now apply Hids. }
      apply (Hread default first rest _ x l Hdef Es Hin).
      destruct (Forall2_in_l _ _ _ _ HF Hin) as (d & _ & Hd). now exists d.
  - intros ((g & Hg & Hdef & Hc) & Hs & Hall). assert (Ed : get_default_weight_group (s_db s) = Ok (g_id g)) by (apply default_found; eauto).
    destruct (matching_groups_ok upper ids s (g_id g) (sp_tables _ OK) (sp_weights _ OK) (sp_sels _ OK) Ed Hex) as [log ->]. cbn [bind].
    assert (Ec : is_complete (g_id g) (s_db s) = true) by (rewrite is_complete_iff; auto; apply (ww_groups _ (sp_weights _ OK))).
    apply Hsn in Hs. destruct (structures s) as [|first rest] eqn:Es; [easy|].
    rewrite (disaggregate_eq upper ids quantize s (g_id g) first rest (sp_structs _ OK) Ed Ec Es).
    destruct (traverse_total (fun p => read_quantity upper quantize (gran_eqb (s_gran s (fst p)) (s_gran s first)) (g_id g) s (snd p)) (reads_of ids s)) as [outs ->].
    { intros (bits & x & l) Hin. cbn [fst snd]. destruct (Hread (g_id g) first rest bits x l Hdef eq_refl Hin) as [H1 H2]. apply H1. now apply Hall. }
    cbn [bind]. eauto.
Qed.
End Whole.

(** *** Totals in the output *)

Lemma output_attr_total data st out (p : list (option text) -> bool) : output st (load data) = Ok out ->
  (forall d, In d data -> dict (n_attrs d)) ->
  (Qsum (map (fun o => val (o_value o)) (filter (fun o => p (o_attrs o)) out)) ==
   Qsum (map (fun d => val (n_value d))
             (filter (fun d => p (map (fun k => dict_get k (n_attrs d)) (r_keys (load data)))) data)))%Q.
Proof.
  intros H Hd. apply output_rows in H. set (keys := r_keys (load data)) in *.
  set (pr := fun kr : Z * row => p (map (fun k => dict_get k (snd kr)) keys)).
  assert (E1 : (Qsum (map (fun o => val (o_value o)) (filter (fun o => p (o_attrs o)) out)) ==
    Qsum (map (fun g => val (snd g)) (filter (fun g => pr (fst g)) (group_by key_eqb sql_sum (map datum_row data)))))%Q).
  { induction H as [|g o gs out (_ & Ha & Hv) _ IH]; [reflexivity|]. cbn [filter]. rewrite Ha. change (p (map _ keys)) with (pr (fst g)).
    destruct (pr (fst g)); [|exact IH]. cbn [map]. rewrite !Qsum_cons, Hv, IH. reflexivity. }
  rewrite E1, (filter_group_by key_eqb key_eqb_iff), (total_group_by key_eqb key_eqb_iff). rewrite filter_map, !map_map. cbn [snd].
  assert (E2 : filter (fun x => pr (fst (datum_row x))) data = filter (fun d => p (map (fun k => dict_get k (n_attrs d)) keys)) data).
  { apply filter_ext_in. intros d Hin. unfold pr, datum_row. cbn [fst snd]. f_equal. apply map_ext. intros k. apply dict_get_sort. now apply Hd. }
  rewrite E2. reflexivity.
Qed.

Lemma part_data_sum p : (Qsum (map (fun d => val (n_value d)) (part_data p)) == Qsum (map snd (p_items p)))%Q.
Proof. unfold part_data. rewrite map_map. cbn [n_value val]. reflexivity. Qed.
Lemma parts_sum (f : datum -> bool) (g : part -> bool) parts :
  (forall p d, In p parts -> In d (part_data p) -> f d = g p) ->
  (Qsum (map (fun d => val (n_value d)) (filter f (flat_map part_data parts))) ==
   Qsum (map (fun p => Qsum (map snd (p_items p))) (filter g parts)))%Q.
Proof.
  induction parts as [|p parts IH]; intros H; [reflexivity|]. cbn [flat_map filter]. rewrite filter_app, map_app, Qsum_app.
  rewrite IH by (intros p' d Hp'; apply H; now right).
  assert (E : filter f (part_data p) = if g p then part_data p else []).
  { assert (G : forall d, In d (part_data p) -> f d = g p) by (intros d; apply H; now left).
    revert G. generalize (part_data p) as l. induction l as [|d l IHl]; intros G; [now destruct (g p)|].
    cbn [filter]. rewrite (G d (or_introl eq_refl)), IHl by (intros; apply G; now right). now destruct (g p). }
  rewrite E. destruct (g p); [|cbn [map]; rewrite Qsum_nil; lra].
  cbn [map]. rewrite Qsum_cons, part_data_sum. reflexivity.
Qed.

Lemma cells_dec (a b : list (option text)) : {a = b} + {a <> b}.
Proof. repeat decide equality. Defined.

Theorem read_conserved upper s sels quantize names data : space_ok s -> Forall proper sels ->
  read_data upper sels quantize names s = Ok data ->
  exists out, output (s_db s) (load data) = Ok out /\
    forall x0 a0 (selo : out_row -> bool) (selx : quantity -> bool),
      is_read upper sels s x0 -> shown_attrs s names x0 a0 ->
      (forall o, In o out -> (selo o = true <-> o_attrs o = map (fun k => dict_get k a0) (r_keys (load data)))) ->
      (forall x, In x (s_quants s) -> (selx x = true <-> reads_as upper sels names s a0 x)) ->
      (Qsum (map (fun o => val (o_value o)) (filter selo out)) == Qsum (map qt_value (filter selx (s_quants s))))%Q.
Proof.
  intros OK Hp H. destruct (read_parts upper s OK sels Hp quantize names data H) as (parts & Ed & Hn & Hin & Hw).
  assert (Hdict : forall d, In d data -> dict (n_attrs d)).
  { intros d Hd. rewrite Ed in Hd. apply in_flat_map in Hd. destruct Hd as (p & Hpp & Hd). unfold part_data in Hd.
    apply in_map_iff in Hd. destruct Hd as (iv & <- & _). cbn [n_attrs]. apply (wr_attrs _ _ _ _ _ (Hw p Hpp)). }
  destruct (output_total data (s_db s)) as [out Ho].
  { intros d Hd. rewrite Ed in Hd. apply in_flat_map in Hd. destruct Hd as (p & Hpp & Hd). unfold part_data in Hd.
    apply in_map_iff in Hd. destruct Hd as (iv & <- & Hiv). cbn [n_index].
    destruct (wr_becomes _ _ _ _ _ (Hw p Hpp)) as (lab & a & _ & _ & Hm & _).
    destruct (Hm (fst iv)) as (r & Hr & Er & _); [now apply in_map|]. now exists r. }
  exists out. split; [exact Ho|]. intros x0 a0 selo selx Hx0 Ha0 Hselo Hselx.
  set (keys := r_keys (load data)) in *.
  set (want := map (fun k => dict_get k a0) keys).
  set (p := fun l => if cells_dec l want then true else false).
  assert (Eo : filter selo out = filter (fun o => p (o_attrs o)) out).
  { apply filter_ext_in. intros o Hino. apply Bool.eq_true_iff_eq. rewrite (Hselo o Hino). unfold p. fold want.
    destruct (cells_dec (o_attrs o) want); split; congruence. }
  rewrite Eo, (output_attr_total data (s_db s) out p Ho Hdict). fold keys. rewrite Ed.
  assert (Hkeys : forall q, In q parts -> p_items q <> [] -> forall k, In k (map fst (p_attrs q)) -> In k keys).
  { intros q Hq Hne k Hk. apply (proj2 (keys_load data)). rewrite Ed. destruct (p_items q) as [|iv items] eqn:Ei; [easy|].
    exists {| n_index := fst iv; n_attrs := p_attrs q; n_value := Some (snd iv) |}. split; [|exact Hk].
    apply in_flat_map. exists q. split; [exact Hq|]. unfold part_data. rewrite Ei. now left. }
  assert (Hk0 : forall k, In k (map fst a0) -> In k keys).
  { apply Hin in Hx0. apply in_map_iff in Hx0. destruct Hx0 as (q0 & <- & Hq0). pose proof (Hw q0 Hq0) as W0.
    destruct (wr_becomes _ _ _ _ _ W0) as (_ & _ & _ & _ & _ & _ & Hne & _).
    intros k Hk. apply (Hkeys q0 Hq0 Hne). pose proof (shown_one s names _ _ _ (sp_tables _ OK) Ha0 (wr_attrs _ _ _ _ _ W0)) as Hs.
    destruct (in_dec (list_eq_dec N.eq_dec) k (map fst (p_attrs q0))) as [|Hnk]; [assumption|]. exfalso.
    apply dict_get_none in Hnk. rewrite <- (Hs k) in Hnk. apply dict_get_none in Hnk. now apply Hnk. }
  rewrite (parts_sum _ (fun q => selx (p_quantity q))).
  - assert (E2 : (Qsum (map (fun q => Qsum (map snd (p_items q))) (filter (fun q => selx (p_quantity q)) parts)) ==
        Qsum (map qt_value (map p_quantity (filter (fun q => selx (p_quantity q)) parts))))%Q).
    { rewrite map_map. apply Qsum_ext. intros q Hq. apply filter_In in Hq. apply (wr_total _ _ _ _ _ (Hw q (proj1 Hq))). }
    rewrite E2, <- filter_map. apply Qsum_perm, Permutation_map. apply NoDup_Permutation.
    + apply nodup_filter, Hn.
    + apply nodup_filter. apply (NoDup_map_inv qt_id). apply (sw_quant_ids _ (sp_tables _ OK)).
    + intros x. rewrite !filter_In. split.
      * intros [Hx Hs]. apply Hin in Hx. split; [apply Hx|exact Hs].
      * intros [Hx Hs]. split; [|exact Hs]. apply Hin. apply (Hselx x Hx) in Hs. apply Hs.
  - intros q d Hq Hd. pose proof (Hw q Hq) as Wq. assert (Ea : n_attrs d = p_attrs q).
    { unfold part_data in Hd. apply in_map_iff in Hd. now destruct Hd as (iv & <- & _). }
    rewrite Ea. assert (Hr : is_read upper sels s (p_quantity q)) by (apply Hin; now apply in_map).
    destruct (wr_becomes _ _ _ _ _ Wq) as (_ & _ & _ & _ & _ & _ & Hne & _).
    apply Bool.eq_true_iff_eq. rewrite (Hselx (p_quantity q)) by apply Hr.
    assert (Hiff : map (fun k => dict_get k (p_attrs q)) keys = want <-> same_attrs (p_attrs q) a0).
    { split.
      - intros E k. destruct (in_dec (list_eq_dec N.eq_dec) k keys) as [Hk|Hk].
        + unfold want in E. clear - E Hk. induction keys as [|k0 l IH]; [easy|]. cbn [map] in E. inversion E as [[E1 E2]].
          destruct Hk as [<-|Hk]; auto.
        + rewrite (proj2 (dict_get_none k (p_attrs q))), (proj2 (dict_get_none k a0)); [reflexivity| |].
          * intros Hk'. apply Hk. now apply Hk0.
          * intros Hk'. apply Hk. now apply (Hkeys q).
      - intros E. unfold want. apply map_ext. exact E. }
    unfold p. destruct (cells_dec _ want) as [E|E]; [rewrite Hiff in E|rewrite Hiff in E]; split; try congruence.
    + intros _. split; [exact Hr|]. exists (p_attrs q). split; [apply Wq|exact E].
    + intros (_ & a' & Ha' & Es). exfalso. apply E. intros k. rewrite <- (Es k).
      apply (shown_one s names _ _ _ (sp_tables _ OK) (wr_attrs _ _ _ _ _ Wq) Ha').
Qed.

(** *** Histories *)

Lemma structures_nil s : structures s = [] <-> d_structs (s_db s) = [].
Proof.
  pose proof (sort_levels_perm (s_gran s) (d_structs (s_db s))) as P. fold (structures s) in P. split; intros E; rewrite E in P.
  - now apply Permutation_sym, Permutation_nil in P.
  - now apply Permutation_nil in P.
Qed.

Lemma whole_plus a b : whole a -> whole b -> whole (a + b)%Q.
Proof. intros [x Hx] [y Hy]. exists (x + y)%Z. rewrite Hx, Hy, inject_Z_plus. reflexivity. Qed.
Lemma whole_minus a b : whole a -> whole b -> whole (a - b)%Q.
Proof. intros [x Hx] [y Hy]. exists (x - y)%Z. rewrite Hx, Hy. unfold Qminus, Z.sub. rewrite inject_Z_plus, inject_Z_opp. reflexivity. Qed.
Lemma whole_eq a b : (a == b)%Q -> whole a -> whole b.
Proof. intros E [x Hx]. exists x. now rewrite <- E. Qed.
Lemma whole_sum (l : list (Z * Q)) : (forall i v, In (i, v) l -> whole v) -> whole (Qsum (map snd l)).
Proof.
  induction l as [|[i v] l IH]; intros H; cbn [map snd]; [exists 0%Z; reflexivity|].
  apply (whole_eq (v + Qsum (map snd l))%Q); [now rewrite Qsum_cons|]. apply whole_plus; [apply (H i); now left|].
  apply IH. intros j w Hj. apply (H j). now right.
Qed.
Lemma rounded_whole e items q : rounded e items -> (Qsum (map snd items) == q)%Q -> whole q ->
  forall i v, In (i, v) items -> whole v.
Proof.
  intros [_ [H|(a & [j w] & b & -> & H)]] Hs Wq; [exact H|].
  assert (Ww : whole w).
  { apply (whole_eq (q - Qsum (map snd (a ++ b)))%Q).
    - rewrite <- Hs, !map_app. cbn [map snd]. rewrite !Qsum_app, Qsum_cons. lra.
    - apply whole_minus; [exact Wq|]. now apply whole_sum. }
  intros i v Hi. apply in_app_iff in Hi. destruct Hi as [Hi|[Hi|Hi]].
  - apply (H i). apply in_app_iff. now left.
  - inversion Hi; now subst.
  - apply (H i). apply in_app_iff. now right.
Qed.

Lemma read_whole upper s sels names data : space_ok s -> Forall proper sels ->
  (forall x, is_read upper sels s x -> whole (qt_value x)) ->
  read_data upper sels true names s = Ok data ->
  forall d, In d data -> exists v, n_value d = Some v /\ whole v.
Proof.
  intros OK Hp Hall H d Hd. destruct (read_parts upper s OK sels Hp true names data H) as (parts & Ed & Hn & Hin & Hw).
  rewrite Ed in Hd. apply in_flat_map in Hd. destruct Hd as (p & Hpp & Hd). unfold part_data in Hd.
  apply in_map_iff in Hd. destruct Hd as ([i v] & <- & Hiv). cbn [n_value snd]. exists v. split; [reflexivity|].
  assert (Wq : whole (qt_value (p_quantity p))) by (apply Hall, Hin; now apply in_map).
  destruct (wr_becomes _ _ _ _ _ (Hw p Hpp)) as (lab & a & _ & _ & _ & _ & _ & Hb1 & Hb2).
  pose proof (wr_total _ _ _ _ _ (Hw p Hpp)) as Ht.
  assert (Hdec : whole v \/ ~ whole v).
  { destruct (Qeq_dec v (inject_Z (Qfloor v))) as [E|E]; [left; now exists (Qfloor v)|right].
    intros [z Hz]. apply E. rewrite Hz at 1. rewrite (Qfloor_comp _ _ Hz), Qfloor_Z. reflexivity. }
  destruct Hdec as [Hv|Hv]; [exact Hv|]. destruct Hb2 as (full & g & w & e & _ & _ & _ & _ & Hr).
  - intros Hf. destruct (Hb1 Hf) as (j & _ & E). rewrite E in Hiv. destruct Hiv as [Hiv|[]]. inversion Hiv; subst. now apply Hv.
  - now apply (rounded_whole e (p_items p) (qt_value (p_quantity p)) Hr Ht Wq i v).
Qed.

Lemma read_grand upper s sels quantize names data out (selx : quantity -> bool) : space_ok s -> Forall proper sels ->
  read_data upper sels quantize names s = Ok data -> output (s_db s) (load data) = Ok out ->
  (forall x, In x (s_quants s) -> (selx x = true <-> is_read upper sels s x)) ->
  (Qsum (map (fun o => val (o_value o)) out) == Qsum (map qt_value (filter selx (s_quants s))))%Q.
Proof.
  intros OK Hp H Ho Hs. destruct (read_parts upper s OK sels Hp quantize names data H) as (parts & Ed & Hn & Hin & Hw).
  rewrite (output_sum data (s_db s) out Ho), Ed.
  pose proof (parts_sum (fun _ => true) (fun _ => true) parts (fun _ _ _ _ => eq_refl)) as E. rewrite !filter_true in E. rewrite E.
  assert (E2 : (Qsum (map (fun q => Qsum (map snd (p_items q))) parts) == Qsum (map qt_value (map p_quantity parts)))%Q).
  { rewrite map_map. apply Qsum_ext. intros q Hq. apply (wr_total _ _ _ _ _ (Hw q Hq)). }
  rewrite E2. apply Qsum_perm, Permutation_map. apply NoDup_Permutation.
  - exact Hn.
  - apply nodup_filter. apply (NoDup_map_inv qt_id). apply (sw_quant_ids _ (sp_tables _ OK)).
  - intros x. rewrite filter_In, Hin. split.
    + intros Hx. split; [apply Hx|]. apply Hs; [apply Hx|exact Hx].
    + intros [Hx Hsx]. now apply Hs.
Qed.
