(** C59: weights read from a space and carried to other spaces. *)
From Verif Require Import Prelude QLemmas Streams_Model Selectors_Model SelectorParse_Model LinkRef_Model LinkRef_Spec Db_Model Db_Spec
  Db_ProofsRun Reader_Model Reader_Spec WeightIter_Model WeightIter_Spec WeightIter_Proofs WeightIter_Proofs2 WeightIter_Proofs3.
From Verif Require Import Db_Properties.
From Coq Require Import Permutation Ascii String List Lqa.
Import ListNotations.
Local Notation row := Selectors_Model.row.
Local Notation total := WeightIter_Spec.total.
Local Notation amount := WeightIter_Spec.amount.
Local Notation translate := WeightIter_Model.translate.

(** *** Reading *)

(** Selecting weights gives one tuple for each defined record that satisfies the criteria, with its weight
    or [None]. *)
Theorem C59_select ops x g c : ws_db x = run ops fresh -> In g (d_groups (ws_db x)) -> known_columns c (ws_db x) ->
  exists l, reads (qi_data (select_weights (g_name g) c x)) l /\ weights_of (ws_db x) (g_name g) (g_id g) c l.
Proof. exact (select_spec ops x g c). Qed.
Print Assumptions C59_select.

(** An unknown name gives nothing, and no error. *)
Theorem C59_select_unknown x name c : (forall g, In g (d_groups (ws_db x)) -> g_name g <> name) ->
  reads (qi_data (select_weights name c x)) [].
Proof. exact (select_unknown x name c). Qed.
Print Assumptions C59_select_unknown.

(** Without criteria the tuples add up to all weights of the group. *)
Theorem C59_select_total ops x g l : one_session ops -> ws_db x = run ops fresh -> weights_of (ws_db x) (g_name g) (g_id g) [] l ->
  (total [(txt "weight", g_name g)] l == group_total (ws_db x) (g_id g))%Q.
Proof.
  intros Ho E. pose proof (i_weights _ (run_inv ops)) as W. pose proof (proj1 (Db_ProofsOps7.refs_of ops Ho)) as R. rewrite <- E in W, R.
  exact (select_total _ _ _ _ W R).
Qed.
Print Assumptions C59_select_total.

(** *** One translation *)

(** The links a selector can choose are the complete ones with selectors; the fallback is the default link, which must be
    complete and up to date. *)
Theorem C59_choice uid s h d dflt : link_table (d_links s) -> find_links uid h s = Ok (d, dflt) ->
  (exists k, In k (d_links s) /\ k_other k = uid) ->
  (exists k, fallback (d_links s) uid h k /\ k_id k = dflt) /\ NoDup (map fst d) /\
  (forall i sels, In (i, sels) d <-> exists k l, offered (d_links s) uid k /\ k_id k = i /\ sels = Some l /\
     Forall2 (fun t s => parse_selector t = Ok s) (k_selectors k) l).
Proof. exact (find_links_choice uid s h d dflt). Qed.
Print Assumptions C59_choice.

(** Without such a default link nothing is yielded but a RuntimeError. *)
Theorem C59_fails upper qi x : link_table (d_links (ws_db x)) -> (forall k, ~ fallback (d_links (ws_db x)) (qi_id qi) (qi_hash qi) k) ->
  (exists k, In k (d_links (ws_db x)) /\ k_other k = qi_id qi) \/ find_links_by_ref (qi_id qi) (d_links (ws_db x)) = [] ->
  qi_data (translate upper qi x) = Boom RuntimeError.
Proof.
  intros T H C. cbn [translate qi_data]. destruct C as [C|C]; [rewrite find_links_fails|rewrite find_links_none]; auto.
Qed.
Print Assumptions C59_fails.

(** Every tuple is replaced by the shares of the mappings of its record; a tuple without a value is left out. *)
Theorem C59_rows upper qi x out : reads (qi_data (translate upper qi x)) out ->
  exists fn data outs, find_links (qi_id qi) (qi_hash qi) (ws_db x) = Ok fn /\ reads (qi_data qi) data /\
    out = concat outs /\ Forall2 (replaced (ws_db x) (fun a k => get_link_id upper fn a = Ok k)) data outs.
Proof. exact (translate_rows upper qi x out). Qed.
Print Assumptions C59_rows.

(** The amount at each record is the sum of what the mappings of the chosen link pass on. *)
Theorem C59_amounts upper qi x out data : reads (qi_data (translate upper qi x)) out -> reads (qi_data qi) data ->
  exists fn, find_links (qi_id qi) (qi_hash qi) (ws_db x) = Ok fn /\
  forall a k t, get_link_id upper fn a = Ok k ->
    (amount a t out == Qsum (map (fun d => passes (ws_db x) k (ix_id (it_index d)) t (value d)) (filter (mine a) data)))%Q.
Proof. exact (iter_amounts upper qi x out data). Qed.
Print Assumptions C59_amounts.

(** Totals are kept, but for what lies on the undefined record. *)
Theorem C59_totals upper qi x ops out data : made ops x -> (forall i, In i (qi_hash qi) -> (0 <= i)%Z) ->
  all_current (d_links (ws_db x)) (qi_id qi) (qi_hash qi) -> lies_on (qi_hash qi) data ->
  reads (qi_data (translate upper qi x)) out -> reads (qi_data qi) data ->
  (forall a, total a out == placed a data)%Q.
Proof. exact (iter_totals upper qi x ops out data). Qed.
Print Assumptions C59_totals.

(** The new tuples lie on records of the target. *)
Theorem C59_target upper qi x ops out : ws_db x = run ops fresh -> reads (qi_data (translate upper qi x)) out ->
  lies_on (d_hash (ws_db x)) out /\ forall d, In d out -> In (it_index d) (d_index (ws_db x)).
Proof. exact (iter_lies_on upper qi x ops out). Qed.
Print Assumptions C59_target.

(** It is read to the end without an error if a link can be chosen for each value. *)
Theorem C59_succeeds upper qi x ops data fn : made ops x -> (forall i, In i (qi_hash qi) -> (0 <= i)%Z) ->
  all_current (d_links (ws_db x)) (qi_id qi) (qi_hash qi) -> lies_on (qi_hash qi) data -> reads (qi_data qi) data ->
  find_links (qi_id qi) (qi_hash qi) (ws_db x) = Ok fn ->
  (forall d, In d data -> it_value d <> None -> exists k, get_link_id upper fn (it_attrs d) = Ok k) ->
  exists out, reads (qi_data (translate upper qi x)) out.
Proof. exact (iter_succeeds upper qi x ops data fn). Qed.
Print Assumptions C59_succeeds.

(** A reader with the same quantities arrives at the same amounts. *)
Theorem C59_reader upper qi x out data r r' : reader_wf r -> same_contents r data ->
  link_table (d_links (ws_db x)) -> (exists k, In k (d_links (ws_db x)) /\ k_other k = qi_id qi) ->
  all_current (d_links (ws_db x)) (qi_id qi) (qi_hash qi) ->
  (forall d, In d data -> ix_id (it_index d) <> 0%Z) ->
  reads (qi_data qi) data -> reads (qi_data (translate upper qi x)) out ->
  Reader_Model.translate upper false (qi_id qi) (qi_hash qi) (ws_db x) r = Ok r' ->
  forall a t, In a (r_attrs r) -> (Reader_Spec.amount r' (a_id a) t == amount (a_attrs a) t out)%Q.
Proof. exact (iter_reader upper qi x out data r r'). Qed.
Print Assumptions C59_reader.

(** *** Routes *)

(** Along a route the only loss is what lands on the undefined record at an earlier stop. *)
Theorem C59_chain upper xs qi out : Forall (fun x => exists ops, made ops x) xs ->
  (forall i, In i (qi_hash qi) -> (0 <= i)%Z) -> route_current (qi_id qi) (qi_hash qi) xs ->
  (forall data, reads (qi_data qi) data -> lies_on (qi_hash qi) data) ->
  reads (qi_data (translate_all upper qi xs)) out ->
  exists ls, stages upper qi xs ls /\ last ls [] = out /\
    forall a, (total a out + Qsum (map (amount a 0) (removelast ls)) == total a (hd [] ls))%Q.
Proof. exact (iter_chain upper xs qi out). Qed.
Print Assumptions C59_chain.

(** From the stored weights to the far end. *)
Theorem C59_weights upper ops x g xs out : made ops x -> In g (d_groups (ws_db x)) ->
  Forall (fun x => exists ops, made ops x) xs -> route_current (ws_id x) (d_hash (ws_db x)) xs ->
  reads (qi_data (translate_all upper (select_weights (g_name g) [] x) xs)) out ->
  exists ls, stages upper (select_weights (g_name g) [] x) xs ls /\ last ls [] = out /\
    let a := [(txt "weight", g_name g)] in
    (total a out + Qsum (map (amount a 0) (tl (removelast ls))) == group_total (ws_db x) (g_id g))%Q.
Proof. exact (weights_chain upper ops x g xs out). Qed.
Print Assumptions C59_weights.

(** *** Tables *)

(** Every row shows its tuple and has a cell for each column, before and after a translation. *)
Theorem C59_shape qi rows data : (exists ops name c x, ws_db x = run ops fresh /\ qi = select_weights name c x) \/
    (exists ops upper qi' x, ws_db x = run ops fresh /\ qi = translate upper qi' x) ->
  reads (qi_data qi) data -> reads (rows_of qi) rows ->
  Forall2 (row_shows (qi_domain qi) (qi_keys qi)) data rows /\ Forall (fun r => length r = length (columns qi)) rows.
Proof.
  intros H. apply rows_show. destruct H as [(ops & name & c & x & E & ->)|(ops & upper & qi' & x & E & ->)];
    [exact (select_fits ops name c x E)|exact (translate_fits ops upper qi' x E)].
Qed.
Print Assumptions C59_shape.

(** The columns: labels of the last space, domain of the first one, the attribute, the value. *)
Theorem C59_columns upper name c x xs : columns (translate_all upper (select_weights name c x) xs) =
  d_labels (ws_db (last xs x)) ++ with_domain (ws_domain x) (txt "domain") [txt "weight"; txt "value"].
Proof. exact (columns_route upper name c x xs). Qed.
Print Assumptions C59_columns.

(** The table of weights has a row for every record and a column for every group asked for. *)
Theorem C59_table ops names header x rows : ws_db x = run ops fresh -> get_weights names header x = Ok rows ->
  exists gs body, asked (ws_db x) names gs /\
    rows = (if header then [table_head (ws_db x) (ws_domain x) gs] else []) ++ body /\
    Forall2 (table_row (ws_db x) (ws_domain x) gs) (d_index (ws_db x)) body.
Proof. exact (table_spec ops names header x rows). Qed.
Print Assumptions C59_table.

(** It fails exactly for unknown names, with a ValueError. *)
Theorem C59_table_error names header x : weights_wf (ws_db x) ->
  (get_weights names header x = Err ValueError /\
     exists ns n, names = Some ns /\ In n ns /\ forall g, In g (d_groups (ws_db x)) -> g_name g <> n) \/
  ((exists rows, get_weights names header x = Ok rows) /\
   forall ns n, names = Some ns -> In n ns -> exists g, In g (d_groups (ws_db x)) /\ g_name g = n).
Proof. exact (table_error names header x). Qed.
Print Assumptions C59_table_error.

(** *** Examples *)

Definition bare (a b : string) : ins_row := {| ir_id := None; ir_labels := [txt a; txt b]; ir_cells := [] |}.
Definition base : list op :=
  [OAddColumns [txt "A"; txt "B"]; OSetStructure [[false; false]; [true; false]; [true; true]];
   OInsertIndex None [] PAbort PAbort [bare "p" "1"; bare "q" "1"]].
(** Half of record 2 is mapped to the undefined record. *)
Definition hist2 : list op := base ++
  [OAddLink (lk "u9" "m1") None;
   OInsertMappings (txt "u9") None
     [mp 1 1 3 whole "p" "1"; mp 1 2 1 whole "q" "1"; mp 2 1 1 whole "p" "1"; mp 2 0 1 whole "-" "-"; mp 3 2 5 whole "q" "1"]].
Definition hist3 : list op := base ++
  [OAddLink (lk "u2" "m1") None; OInsertMappings (txt "u2") None [mp 1 1 3 whole "p" "1"; mp 2 2 1 whole "q" "1"]].
(** The second link has a selector and maps only record 1, on all records of the target. *)
Definition for_pop (k : link) : link :=
  {| k_id := 0; k_other := k_other k; k_hint := None; k_name := k_name k; k_selectors := [txt "[weight=""pop""]"%string];
     k_default := false; k_hash := None; k_complete := false |}.
Definition hist4 : list op := base ++
  [OAddLink (lk "u1" "m1") None; OAddLink (for_pop (lk "u1" "m2")) None;
   OInsertMappings (txt "u1") (Some (txt "m1")) [mp 1 1 3 whole "p" "1"; mp 2 2 1 whole "q" "1"; mp 3 2 5 whole "q" "1"];
   OInsertMappings (txt "u1") (Some (txt "m2")) [mp 1 1 3 whole "p" "1"; mp 1 2 1 whole "q" "1"]].
Definition sp (n : string) (ops : list op) : wspace := {| ws_id := txt n; ws_domain := txt "d"; ws_db := run ops fresh |}.
Definition pop : list item -> Q := total [(txt "weight", txt "pop")].
Definition of_pop (x : wspace) : qiter := select_weights (txt "pop") [] x.
Definition idt (t : text) : text := t.
Definition route : list wspace := [sp "u9" hist; sp "u2" hist2; sp "u3" hist3].

Fixpoint taken {A} (s : stream A) : list A := match s with Item a s' => a :: taken s' | _ => [] end.
Fixpoint ends {A} (s : stream A) : bool := match s with Stop => true | Boom _ => false | Item _ s' => ends s' end.
Lemma ends_reads {A} (s : stream A) : ends s = true -> reads s (taken s).
Proof. unfold reads. induction s as [|e|a s IH]; cbn; intros H; try discriminate; auto. now rewrite <- IH. Qed.

Lemma made_hist n : made hist (sp n hist).
Proof. split; [repeat constructor|]. split; [repeat constructor; cbn; auto|reflexivity]. Qed.
Lemma made_hist2 n : made hist2 (sp n hist2).
Proof. split; [repeat constructor|]. split; [repeat constructor; cbn; auto|reflexivity]. Qed.
Lemma made_hist3 n : made hist3 (sp n hist3).
Proof. split; [repeat constructor|]. split; [repeat constructor; cbn; auto|reflexivity]. Qed.
Lemma made_hist4 n : made hist4 (sp n hist4).
Proof. split; [repeat constructor|]. split; [repeat constructor; cbn; auto|reflexivity]. Qed.

Definition all_current_b links uid h : bool :=
  forallb (fun k => negb (k_complete k) || nil_b (k_selectors k) || match k_hash k with Some x => zs_eqb x h | None => false end) (find_links_by_ref uid links).
Lemma all_current_dec links uid h : all_current_b links uid h = true -> all_current links uid h.
Proof.
  unfold all_current_b. rewrite forallb_forall. intros H k Hk Hc Hs. specialize (H k Hk). rewrite Hc in H. cbn [negb orb] in H.
  destruct (k_selectors k) as [|]; [easy|]. cbn [nil_b orb] in H. destruct (k_hash k) as [x|]; [|discriminate]. apply LinkRef_Proofs.zs_eqb_iff in H. now subst.
Qed.

(** The weights 10, 20 and 0 of the group pop, carried along a route of three spaces. *)
Example C59_case :
  In (hd {| g_id := 0; g_name := []; g_complete := false |} (d_groups (ws_db (sp "u1" hist)))) (d_groups (ws_db (sp "u1" hist))) /\
  made hist (sp "u1" hist) /\ Forall (fun x => exists ops, made ops x) route /\
  route_current (txt "u1") (d_hash (run hist fresh)) route /\
  reads (qi_data (translate_all idt (of_pop (sp "u1" hist)) route)) (taken (qi_data (translate_all idt (of_pop (sp "u1" hist)) route))) /\
  map (fun d => (ix_id (it_index d), option_map Qred (it_value d))) (taken (qi_data (translate_all idt (of_pop (sp "u1" hist)) route)))
    = [(1%Z, Some (45 # 8)); (2%Z, Some (15 # 8)); (1%Z, Some (5 # 4)); (2%Z, Some 20%Q); (1%Z, Some 0%Q)] /\
  map (fun d => item_row (of_pop (sp "u1" hist)) d) (taken (qi_data (select_weights (txt "pop") [(txt "B", txt "2")] (sp "u1" hist))))
    = [[OText (txt "x"); OText (txt "2"); OText (txt "d"); OText (txt "pop"); ONum 20%Q]] /\
  get_weights (Some [txt "pop"]) true (sp "u1" hist) =
    Ok [[WText (txt "index_id"); WText (txt "domain"); WText (txt "A"); WText (txt "B"); WText (txt "pop")];
        [WId 0; WText (txt "d"); WText (txt "-"); WText (txt "-"); WNum 0];
        [WId 1; WText (txt "d"); WText (txt "x"); WText (txt "1"); WNum 10];
        [WId 2; WText (txt "d"); WText (txt "x"); WText (txt "2"); WNum 20];
        [WId 3; WText (txt "d"); WText (txt "y"); WText (txt "1"); WNum 0]].
Proof.
  split; [vm_compute; left; reflexivity|]. split; [apply made_hist|]. split.
  { apply Forall_cons; [exists hist; apply made_hist|]. apply Forall_cons; [exists hist2; apply made_hist2|].
    apply Forall_cons; [exists hist3; apply made_hist3|constructor]. }
  split.
  { split; [apply all_current_dec; vm_compute; reflexivity|]. split; [apply all_current_dec; vm_compute; reflexivity|].
    split; [apply all_current_dec; vm_compute; reflexivity|exact I]. }
  split; [apply ends_reads; vm_compute; reflexivity|]. split; [vm_compute; reflexivity|]. split; vm_compute; reflexivity.
Qed.

(** Finding: what lands on the undefined record is dropped by the next translation (a reader keeps it), although all
    links are complete and up to date. *)
Theorem C59_undefined_refuted :
  exists x y z out, made hist x /\ made hist2 y /\ made hist3 z /\
    route_current (ws_id x) (d_hash (ws_db x)) [y; z] /\
    reads (qi_data (translate_all idt (of_pop x) [y; z])) out /\ ~ (pop out == group_total (ws_db x) 1)%Q.
Proof.
  exists (sp "u9" hist), (sp "u2" hist2), (sp "u3" hist3). eexists.
  split; [apply made_hist|]. split; [apply made_hist2|]. split; [apply made_hist3|]. split.
  { split; [apply all_current_dec; vm_compute; reflexivity|]. split; [apply all_current_dec; vm_compute; reflexivity|exact I]. }
  split; [apply ends_reads; vm_compute; reflexivity|]. vm_compute. discriminate.
Qed.
Print Assumptions C59_undefined_refuted.

(** Finding: a link that is not the default is chosen by its selector although it is out of date; the values of the
    records it does not map are dropped without an error.  A reader would not use that link. *)
Theorem C59_stale_link_refuted :
  exists x y out, made hist x /\ made hist4 y /\
    reads (qi_data (translate idt (of_pop x) y)) out /\ ~ (pop out == group_total (ws_db x) 1)%Q /\
    exists fn, make_get_link_id (ws_id x) (d_links (ws_db y)) (d_hash (ws_db x)) = Ok fn /\
      get_link_id idt fn [(txt "weight", txt "pop")] = Ok 1%Z /\ current (d_links (ws_db y)) (ws_id x) (d_hash (ws_db x)) (hd (lk "" "") (d_links (ws_db y))).
Proof.
  exists (sp "u1" hist), (sp "u4" hist4). eexists.
  split; [apply made_hist|]. split; [apply made_hist4|]. split; [apply ends_reads; vm_compute; reflexivity|].
  split; [vm_compute; discriminate|]. eexists. split; [vm_compute; reflexivity|]. split; [vm_compute; reflexivity|].
  vm_compute. repeat split. now left.
Qed.
Print Assumptions C59_stale_link_refuted.
