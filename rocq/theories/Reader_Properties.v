(** C18, C19, C20: readers. *)
From Verif Require Import Prelude QLemmas Selectors_Model LinkRef_Model LinkRef_Spec Db_Model Db_Spec
  Quantize_Spec Reader_Model Reader_Spec Reader_Proofs Reader_Proofs2 Reader_Proofs3.
From Verif Require Db_Properties.
From Coq Require Import Qabs.

(** *** Records used in the examples *)

Definition dat (i : Z) (a : list (string * string)) (v : Q) : datum :=
  {| n_index := i; n_attrs := map (fun p => (txt (fst p), txt (snd p))) a; n_value := Some v |}.
(** Two records differ only in the order of the attributes; one is on the undefined record. *)
Definition data : list datum :=
  [dat 1 [("sex", "f"); ("age", "old")]%string 7; dat 2 [("sex", "f")]%string 5;
   dat 1 [("age", "old"); ("sex", "f")]%string 4; dat 0 [("sex", "f")]%string 2;
   dat 2 [("age", "old")]%string 1].
Definition space := run Db_Properties.hist fresh.

Lemma data_dicts : forall d, In d data -> dict (n_attrs d).
Proof.
  unfold dict. intros d H. cbn [data In] in H.
  repeat (destruct H as [<-|H]; [vm_compute; repeat constructor; cbn; intuition discriminate|]). destruct H.
Qed.

(** *** C19 *)

(** The columns of the output are the attribute names in use, sorted and distinct. *)
Theorem C19_columns data :
  StronglySorted text_lt (r_keys (load data)) /\
  forall k, In k (r_keys (load data)) <-> exists d, In d data /\ In k (map fst (n_attrs d)).
Proof. exact (keys_load data). Qed.
Print Assumptions C19_columns.

(** One output record for every pair of record and attributes, holding exactly their sum. *)
Theorem C19_grouped_totals data s out : (forall d, In d data -> dict (n_attrs d)) ->
  output s (load data) = Ok out ->
  (forall d, In d data -> exists o, In o out /\ describes s data (r_keys (load data)) d o) /\
  (forall o, In o out -> exists d, In d data /\ describes s data (r_keys (load data)) d o).
Proof. exact (output_describes data s out). Qed.
Print Assumptions C19_grouped_totals.

Theorem C19_one_record_per_pair data s out : (forall d, In d data -> dict (n_attrs d)) -> index_wf s ->
  output s (load data) = Ok out -> NoDup (map (fun o => (o_labels o, o_attrs o)) out).
Proof. exact (output_distinct data s out). Qed.
Print Assumptions C19_one_record_per_pair.

Theorem C19_grand_total data s out : output s (load data) = Ok out ->
  (Qsum (map (fun o => val (o_value o)) out) == Qsum (map (fun d => val (n_value d)) data))%Q.
Proof. exact (output_sum data s out). Qed.
Print Assumptions C19_grand_total.

Theorem C19_output_succeeds data s : (forall d, In d data -> has_index s (n_index d)) ->
  exists out, output s (load data) = Ok out.
Proof. exact (output_total data s). Qed.
Print Assumptions C19_output_succeeds.

Example C19_case :
  (forall d, In d data -> dict (n_attrs d)) /\
  r_keys (load data) = [txt "age"; txt "sex"] /\
  exists out, output space (load data) = Ok out /\
  map (fun o => (o_labels o, o_attrs o, option_map Qred (o_value o))) out =
    [([txt "x"; txt "1"], [Some (txt "old"); Some (txt "f")], Some 11%Q);
     ([txt "x"; txt "2"], [None; Some (txt "f")], Some 5%Q);
     ([txt "-"; txt "-"], [None; Some (txt "f")], Some 2%Q);
     ([txt "x"; txt "2"], [Some (txt "old"); None], Some 1%Q)].
Proof.
  split; [exact data_dicts|]. split; [vm_compute; reflexivity|].
  destruct (output space (load data)) as [out|] eqn:E; vm_compute in E; [|discriminate].
  exists out. split; [reflexivity|]. inversion E. vm_compute. reflexivity.
Qed.

(** *** C18 *)

(** A reader made from records is well-formed. *)
Theorem C18_loaded data : reader_wf (load data).
Proof. exact (load_wf data). Qed.
Print Assumptions C18_loaded.

(** The link chosen for a dictionary comes from the reader's space and its hash is current. *)
Theorem C18_chosen_link upper uid links h fn a k : (exists x, In x links /\ k_other x = uid) ->
  make_get_link_id uid links h = Ok fn -> get_link_id upper fn a = Ok k ->
  exists x, current links uid h x /\ k_id x = k.
Proof. exact (chosen_link upper uid links h fn a k). Qed.
Print Assumptions C18_chosen_link.

(** The amounts are exactly the shares of the mappings of the chosen link, for every table; a
    quantity on the undefined record stays there, one without mappings adds nothing. *)
Theorem C18_amounts upper uid h target r r' : reader_wf r ->
  translate upper false uid h target r = Ok r' ->
  exists fn, make_get_link_id uid (d_links target) h = Ok fn /\
  forall a, In a (r_attrs r) -> exists k, get_link_id upper fn (a_attrs a) = Ok k /\
    forall t, (amount r' (a_id a) t ==
      Qsum (map (fun q => arrives target k (q_index q) t (val (q_value q)))
                (filter (fun q => (q_attr q =? a_id a)%Z) (r_quants r))))%Q.
Proof. exact (translate_amounts upper uid h target r r'). Qed.
Print Assumptions C18_amounts.

(** Totals are conserved if the mappings of the chosen links make up the whole. *)
Theorem C18_totals upper b uid h target r r' : reader_wf r ->
  (forall q, In q (r_quants r) -> In (q_index q) h) ->
  (forall fn a k, make_get_link_id uid (d_links target) h = Ok fn -> In a (r_attrs r) ->
     get_link_id upper fn (a_attrs a) = Ok k -> maps_whole target k h) ->
  translate upper b uid h target r = Ok r' ->
  (forall a, (total r' a == total r a)%Q) /\
  (b = true -> (forall q, In q (r_quants r) -> whole (val (q_value q))) ->
     forall q, In q (r_quants r') -> whole (val (q_value q))).
Proof. intros W H C. exact (translate_totals upper b uid h target r r' W H (fun fn F a k => C fn a k F)). Qed.
Print Assumptions C18_totals.

(** For the spaces that can be made, the hash check guarantees that. *)
Theorem C18_spaces upper b uid ops1 ops2 r r' :
  Forall honest ops2 -> one_session ops2 -> reader_wf r -> placed_in (run ops1 fresh) r ->
  translate upper b uid (d_hash (run ops1 fresh)) (run ops2 fresh) r = Ok r' ->
  reader_wf r' /\ placed_in (run ops2 fresh) r' /\ same_dictionaries r r' /\ r_keys r' = r_keys r /\
  (forall a, (total r' a == total r a)%Q) /\
  (b = true -> (forall q, In q (r_quants r) -> whole (val (q_value q))) ->
     forall q, In q (r_quants r') -> whole (val (q_value q))).
Proof. exact (translate_spaces upper b uid ops1 ops2 r r'). Qed.
Print Assumptions C18_spaces.

(** Quantizing moves the amount at a record by at most one for each mapping used. *)
Theorem C18_quantized_close upper b uid ops1 ops2 r r' :
  Forall honest ops2 -> one_session ops2 -> reader_wf r -> placed_in (run ops1 fresh) r ->
  translate upper b uid (d_hash (run ops1 fresh)) (run ops2 fresh) r = Ok r' ->
  exists fn, make_get_link_id uid (d_links (run ops2 fresh)) (d_hash (run ops1 fresh)) = Ok fn /\
  forall a, In a (r_attrs r) -> exists k, get_link_id upper fn (a_attrs a) = Ok k /\
    forall t,
    let mine := filter (fun q => (q_attr q =? a_id a)%Z) (r_quants r) in
    (Qabs (amount r' (a_id a) t - Qsum (map (fun q => arrives (run ops2 fresh) k (q_index q) t (val (q_value q))) mine))
     <= Qsum (map (fun q => ways (run ops2 fresh) k (q_index q) t) mine))%Q.
Proof. exact (translate_spaces_close upper b uid ops1 ops2 r r'). Qed.
Print Assumptions C18_quantized_close.

(** It succeeds whenever the links can be chosen and no value is missing. *)
Theorem C18_succeeds upper b uid ops1 ops2 r fn :
  Forall honest ops2 -> one_session ops2 -> reader_wf r -> placed_in (run ops1 fresh) r -> filled r ->
  make_get_link_id uid (d_links (run ops2 fresh)) (d_hash (run ops1 fresh)) = Ok fn ->
  (forall a, In a (r_attrs r) -> exists k, get_link_id upper fn (a_attrs a) = Ok k) ->
  exists r', translate upper b uid (d_hash (run ops1 fresh)) (run ops2 fresh) r = Ok r'.
Proof. exact (translate_spaces_succeeds upper b uid ops1 ops2 r fn). Qed.
Print Assumptions C18_succeeds.

Definition show_quants (r : reader) := map (fun q => (q_index q, q_attr q, option_map Qred (q_value q))) (r_quants r).

(** Source and target have the records 0 to 3; link 1 maps 1 to 1 and 2 with shares 3/4 and 1/4,
    2 to 3, 3 to 2. *)
Example C18_case :
  Forall honest Db_Properties.hist /\ one_session Db_Properties.hist /\ placed_in space (load data) /\
  (exists r', translate (fun t => t) false (txt "u1") (d_hash space) space (load data) = Ok r' /\
     show_quants r' = [(1, 1, Some (21 # 4)); (2, 1, Some (7 # 4)); (3, 2, Some 5%Q); (1, 1, Some 3%Q);
                       (2, 1, Some 1%Q); (0, 2, Some 2%Q); (3, 3, Some 1%Q)]%Z) /\
  (exists r', translate (fun t => t) true (txt "u1") (d_hash space) space (load data) = Ok r' /\
     show_quants r' = [(2, 1, Some 2%Q); (1, 1, Some 5%Q); (3, 2, Some 5%Q); (1, 1, Some 3%Q);
                       (2, 1, Some 1%Q); (0, 2, Some 2%Q); (3, 3, Some 1%Q)]%Z).
Proof.
  split; [repeat constructor|]. split; [repeat constructor; cbn; auto|]. split.
  { apply placed_dec. vm_compute. reflexivity. }
  split.
  - destruct (translate (fun t => t) false (txt "u1") (d_hash space) space (load data)) as [r'|] eqn:E; vm_compute in E; [|discriminate].
    exists r'. split; [reflexivity|]. inversion E. vm_compute. reflexivity.
  - destruct (translate (fun t => t) true (txt "u1") (d_hash space) space (load data)) as [r'|] eqn:E; vm_compute in E; [|discriminate].
    exists r'. split; [reflexivity|]. inversion E. vm_compute. reflexivity.
Qed.

(** Finding: nothing checks that a source record has mappings; for a link whose recorded hash is
    set by hand the quantity is dropped without an error. *)
Theorem C18_dropped_refuted :
  exists target r r', reader_wf r /\
    translate (fun t => t) false (txt "u1") [0; 1]%Z target r = Ok r' /\
    r_quants r <> [] /\ r_quants r' = [].
Proof.
  exists (set_links [{| k_id := 1; k_other := txt "u1"; k_hint := None; k_name := txt "m"; k_selectors := [];
                        k_default := true; k_hash := Some [0; 1]%Z; k_complete := true |}] fresh),
         (load [dat 1 [("sex", "f")]%string 7]).
  eexists. split; [apply load_wf|]. split; [vm_compute; reflexivity|]. split; [discriminate|reflexivity].
Qed.
Print Assumptions C18_dropped_refuted.

(** *** C20 *)

(** Each cell is the sum of exactly the records with that row and those attribute values. *)
Theorem C20_cells columns s r p : reader_wf r -> pivot AggSum columns s r = Ok p ->
  exists keys ids, pivot_of columns s r (fun i key v => quants_where (in_cell columns r i key) r v) p keys ids.
Proof. exact (pivot_spec AggSum columns s r p). Qed.
Print Assumptions C20_cells.

Theorem C20_mean_cells columns s r p : reader_wf r -> pivot AggMean columns s r = Ok p ->
  exists keys ids, pivot_of columns s r (mean_where columns r) p keys ids.
Proof. exact (pivot_spec AggMean columns s r p). Qed.
Print Assumptions C20_mean_cells.

(** Nothing is lost. *)
Theorem C20_sum columns s r p : reader_wf r -> pivot AggSum columns s r = Ok p ->
  exists sel : quant -> bool,
    (forall q, In q (r_quants r) ->
       (sel q = true <-> exists key, in_cell columns r (q_index q) key q /\ has_some key)) /\
    (Qsum (map (fun row => Qsum (map val (snd row))) (p_rows p)) ==
     Qsum (map (fun q => val (q_value q)) (filter sel (r_quants r))))%Q.
Proof. exact (pivot_sum_sel columns s r p). Qed.
Print Assumptions C20_sum.

Theorem C20_succeeds agg columns s r : reader_wf r -> placed_in s r -> exists p, pivot agg columns s r = Ok p.
Proof. exact (pivot_total agg columns s r). Qed.
Print Assumptions C20_succeeds.

Example C20_case :
  reader_wf (load data) /\
  (exists p, pivot AggSum [txt "sex"; txt "age"] space (load data) = Ok p /\
     p_columns p = [Tuple [txt "f"; txt "old"]; Single (txt "f"); Tuple [[]; txt "old"]] /\
     map (fun row => (fst row, map (option_map Qred) (snd row))) (p_rows p) =
       [([txt "-"; txt "-"], [None; Some 2%Q; None]); ([txt "x"; txt "1"], [Some 11%Q; None; None]);
        ([txt "x"; txt "2"], [None; Some 5%Q; Some 1%Q])]) /\
  (exists p, pivot AggMean [txt "age"] space (load (dat 2 [("age", "old"); ("sex", "f")]%string 3 :: data)) = Ok p /\
     map (fun row => (fst row, map (option_map Qred) (snd row))) (p_rows p) =
       [([txt "x"; txt "1"], [Some 11%Q]); ([txt "x"; txt "2"], [Some 2%Q])]).
Proof.
  split; [apply load_wf|]. split.
  - destruct (pivot AggSum [txt "sex"; txt "age"] space (load data)) as [p|] eqn:E; vm_compute in E; [|discriminate].
    exists p. split; [reflexivity|]. inversion E. vm_compute. split; reflexivity.
  - destruct (pivot AggMean [txt "age"] space (load (dat 2 [("age", "old"); ("sex", "f")]%string 3 :: data))) as [p|] eqn:E; vm_compute in E; [|discriminate].
    exists p. split; [reflexivity|]. inversion E. vm_compute. reflexivity.
Qed.
