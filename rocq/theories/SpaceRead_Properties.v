(** C16: reading disaggregated quantities from a space. *)
From Verif Require Import Prelude QLemmas BitFlags_Model BitFlags_Spec Selectors_Model Selectors_Spec LinkRef_Model Db_Model Db_Spec Db_ProofsRun
  Quantize_Spec Disaggregate_Spec Reader_Model Reader_Spec Mapper_Model Mapper_Spec Quantity_Model Quantity_Spec Quantity_Proofs Quantity_Proofs2 Quantity_Proofs3
  SpaceRead_Model SpaceRead_Spec SpaceRead_Proofs SpaceRead_Proofs2 SpaceRead_Proofs3.
From Coq Require Import Permutation.
Local Open Scope nat_scope.


(** *** Spaces in order *)

(** Every space built by its operations is in order, given structure rows of the right length,
    granularities that are not negative and properly built selectors. *)
Theorem C16_reached ops : let s := qrun ops fresh_store in
  structs_ok s -> sels_ok s -> gran_ok s -> space_ok s.
Proof.
  intros s S1 S2 S3. constructor; auto; subst s.
  - exact (qrun_index ops).
  - destruct (qrun_run ops) as (ops' & -> & _). exact (i_weights _ (run_inv ops')).
  - exact (qrun_wf ops _ fresh_store_wf).
Qed.
Print Assumptions C16_reached.

(** *** C16 *)

(** Each quantity at a structured location whose attributes the selectors pick is read exactly
    once; its value is divided among the records that match its location, by the weights of the
    group its attributes select, without loss. *)
Theorem C16_read upper s sels quantize names data : space_ok s -> Forall proper sels ->
  read_data upper sels quantize names s = Ok data ->
  exists parts, data = flat_map part_data parts /\ NoDup (map p_quantity parts) /\
    (forall x, In x (map p_quantity parts) <-> is_read upper sels s x) /\
    forall p, In p parts -> well_read upper quantize names s p.
Proof. intros OK H. exact (read_parts upper s OK sels H quantize names data). Qed.
Print Assumptions C16_read.

(** The rows of the reader can be listed, and for each set of attributes they add up to the
    stored quantities with these attributes. *)
Theorem C16_conserved upper s sels quantize names data : space_ok s -> Forall proper sels ->
  read_data upper sels quantize names s = Ok data ->
  exists out, output (s_db s) (load data) = Ok out /\
    forall x0 a0 (selo : out_row -> bool) (selx : quantity -> bool),
      is_read upper sels s x0 -> shown_attrs s names x0 a0 ->
      (forall o, In o out -> (selo o = true <-> o_attrs o = map (fun k => dict_get k a0) (r_keys (load data)))) ->
      (forall x, In x (s_quants s) -> (selx x = true <-> reads_as upper sels names s a0 x)) ->
      (Qsum (map (fun o => val (o_value o)) (filter selo out)) == Qsum (map qt_value (filter selx (s_quants s))))%Q.
Proof. exact (read_conserved upper s sels quantize names data). Qed.
Print Assumptions C16_conserved.

(** All rows add up to all quantities that are read. *)
Theorem C16_grand_total upper s sels quantize names data out (selx : quantity -> bool) :
  space_ok s -> Forall proper sels ->
  read_data upper sels quantize names s = Ok data -> output (s_db s) (load data) = Ok out ->
  (forall x, In x (s_quants s) -> (selx x = true <-> is_read upper sels s x)) ->
  (Qsum (map (fun o => val (o_value o)) out) == Qsum (map qt_value (filter selx (s_quants s))))%Q.
Proof. exact (read_grand upper s sels quantize names data out selx). Qed.
Print Assumptions C16_grand_total.

(** With quantization whole quantities become whole values. *)
Theorem C16_whole upper s sels names data : space_ok s -> Forall proper sels ->
  (forall x, is_read upper sels s x -> whole (qt_value x)) ->
  read_data upper sels true names s = Ok data ->
  forall d, In d data -> exists v, n_value d = Some v /\ whole v.
Proof. exact (read_whole upper s sels names data). Qed.
Print Assumptions C16_whole.

(** Reading succeeds exactly when the default weight group is complete, there is a structure,
    and each quantity concerned can be read. *)
Theorem C16_succeeds upper s sels quantize names : space_ok s -> Forall proper sels -> store_ref s ->
  (exists data, read_data upper sels quantize names s = Ok data) <->
  default_ok s /\ d_structs (s_db s) <> [] /\ forall x, is_read upper sels s x -> readable upper s x.
Proof. intros OK H. exact (read_total upper s OK sels H quantize names). Qed.
Print Assumptions C16_succeeds.

(** *** A case *)

(** Records 1 = (a, x), 2 = (a, y), 3 = (b, x) with two weight groups; group 2 is for 'k' = 'n'. *)
Definition ix2 (l : list string) : ins_row := {| ir_id := None; ir_labels := map txt l; ir_cells := [] |}.
Definition wt (l : list string) (q : Q) : w_row := {| wr_id := None; wr_labels := map txt l; wr_cell := CNum q |}.
Definition gran2 (bits : list bool) : option Q :=
  match bits with [true; true] => Some 3%Q | [true; false] => Some 1%Q | _ => None end.
Definition sel_n : selector := SSimple (txt "k") (Some OpEq) (Some (txt "n")) false.
Definition base : list qop :=
  [ QIndex (OAddColumns [txt "A"; txt "B"]);
    QIndex (OInsertIndex None [] PAbort PAbort [ix2 ["a"; "x"]; ix2 ["a"; "y"]; ix2 ["b"; "x"]])%string;
    QIndex (OAddGroup (txt "w") false (Some true)); QIndex (OAddGroup (txt "v") false (Some false));
    QIndex (OInsertWeights (txt "w") PAbort [wt ["a"; "x"] 1; wt ["a"; "y"] 3; wt ["b"; "x"] 5])%string;
    QIndex (OInsertWeights (txt "v") PAbort [wt ["a"; "x"] 1; wt ["a"; "y"] 1; wt ["b"; "x"] 1])%string;
    QSetSelectors [(2%Z, [sel_n])]; QSetGranularity gran2;
    QIndex (OSetStructure [[false; false]; [true; false]; [true; true]]);
    QRegister [txt "k"; txt "j"]; QSetDomain (txt "d") ].
Definition qr (l : list string) (k : string) (j : string) (q : Q) : q_row :=
  {| qr_domain := Some (txt "d"); qr_labels := map txt l; qr_cells := [(txt "k", Some (txt k)); (txt "j", Some (txt j))]; qr_value := Some q |}.
Definition hist : list qop := base ++
  [QInsert2 PAbort false false [qr ["a"; ""] "m" "p" 10; qr ["a"; ""] "m" "q" 2; qr ["b"; "x"] "m" "p" 7;
                                qr ["a"; ""] "n" "p" 5; qr [""; ""] "n" "p" 9]]%string.
Definition shown (sels : list selector) (quantize : bool) (names : list text) (s : store) :=
  match read_space (fun t => t) sels quantize names s with
  | Ok r => match output (s_db s) r with
            | Ok out => Some (r_keys r, map (fun o => (o_labels o, o_attrs o, match o_value o with Some q => Some (Qred q) | None => None end)) out)
            | Err _ => None
            end
  | Err _ => None
  end.

Lemma structs_by s cols st : d_labels (s_db s) = cols -> d_structs (s_db s) = st -> NoDup st ->
  forallb (fun b => (length b =? length cols) && negb (length b =? 0)) st = true -> structs_ok s.
Proof.
  intros E1 E2 N F. rewrite forallb_forall in F. constructor; rewrite E2; auto; rewrite ?E1; intros b Hb; apply F in Hb;
    apply andb_prop in Hb; destruct Hb as [H1 H2]; [now apply Nat.eqb_eq|].
  intros ->. discriminate H2.
Qed.
Lemma nodup_bits : NoDup [[false; false]; [true; false]; [true; true]].
Proof. repeat constructor; cbn; intros H; repeat (destruct H as [H|H]; [discriminate H|]); exact H. Qed.
Lemma gran2_ok : forall bits q, gran2 bits = Some q -> (0 <= q)%Q.
Proof. intros [|[] [|[] [|]]] q H; inversion H; easy. Qed.

Lemma C16_case_ok : space_ok (qrun hist fresh_store).
Proof.
  assert (E1 : d_labels (s_db (qrun hist fresh_store)) = [txt "A"; txt "B"]) by (vm_compute; reflexivity).
  assert (E2 : d_structs (s_db (qrun hist fresh_store)) = [[false; false]; [true; false]; [true; true]]) by (vm_compute; reflexivity).
  assert (E3 : s_sels (qrun hist fresh_store) = [(2%Z, [sel_n])]) by (vm_compute; reflexivity).
  assert (E4 : s_gran (qrun hist fresh_store) = gran2) by (vm_compute; reflexivity).
  pose proof (C16_reached hist) as H. cbv zeta in H. revert H E1 E2 E3 E4. generalize (qrun hist fresh_store) as s. intros s H E1 E2 E3 E4.
  apply H.
  - exact (structs_by s _ _ E1 E2 nodup_bits eq_refl).
  - split; rewrite E3; [repeat constructor; easy|]. intros i l x [E|[]] Hx. inversion E; subst. destruct Hx as [<-|[]]. exact I.
  - unfold gran_ok. rewrite E4. exact gran2_ok.
Qed.

Example C16_case :
  shown [] false [] (qrun hist fresh_store) =
    Some ([txt "domain"; txt "j"; txt "k"],
      [ (map txt ["b"; "x"], map (fun t => Some (txt t)) ["d"; "p"; "m"], Some 7%Q);
        (map txt ["a"; "x"], map (fun t => Some (txt t)) ["d"; "p"; "m"], Some (5 # 2));
        (map txt ["a"; "y"], map (fun t => Some (txt t)) ["d"; "p"; "m"], Some (15 # 2));
        (map txt ["a"; "x"], map (fun t => Some (txt t)) ["d"; "q"; "m"], Some (1 # 2));
        (map txt ["a"; "y"], map (fun t => Some (txt t)) ["d"; "q"; "m"], Some (3 # 2));
        (map txt ["a"; "x"], map (fun t => Some (txt t)) ["d"; "p"; "n"], Some (11 # 2));
        (map txt ["a"; "y"], map (fun t => Some (txt t)) ["d"; "p"; "n"], Some (11 # 2));
        (map txt ["-"; "-"], map (fun t => Some (txt t)) ["d"; "p"; "n"], Some 0%Q);
        (map txt ["b"; "x"], map (fun t => Some (txt t)) ["d"; "p"; "n"], Some 3%Q) ])%string /\
  shown [] true [txt "k"] (qrun hist fresh_store) =
    Some ([txt "domain"; txt "k"],
      [ (map txt ["b"; "x"], map (fun t => Some (txt t)) ["d"; "m"], Some 7%Q);
        (map txt ["a"; "x"], map (fun t => Some (txt t)) ["d"; "m"], Some 4%Q);
        (map txt ["a"; "y"], map (fun t => Some (txt t)) ["d"; "m"], Some 8%Q);
        (map txt ["a"; "x"], map (fun t => Some (txt t)) ["d"; "n"], Some 6%Q);
        (map txt ["a"; "y"], map (fun t => Some (txt t)) ["d"; "n"], Some 5%Q);
        (map txt ["b"; "x"], map (fun t => Some (txt t)) ["d"; "n"], Some 3%Q);
        (map txt ["-"; "-"], map (fun t => Some (txt t)) ["d"; "n"], Some 0%Q) ])%string.
Proof. split; vm_compute; reflexivity. Qed.

(** *** Findings *)

(** Where the undefined record matches too, a quantity at the finest granularity is given to it,
    although exactly one defined record matches. *)
Definition gran1 (bits : list bool) : option Q :=
  match bits with [true; true] | [true; false] => Some 1%Q | _ => None end.
Definition hist_u : list qop :=
  [ QIndex (OAddColumns [txt "A"; txt "B"]);
    QIndex (OInsertIndex None [] PAbort PAbort [ix2 ["a"; "x"]; ix2 ["-"; "y"]])%string;
    QIndex (OAddGroup (txt "w") false (Some true));
    QIndex (OInsertWeights (txt "w") PAbort [wt ["a"; "x"] 1; wt ["-"; "y"] 3])%string;
    QSetGranularity gran1; QIndex (OSetStructure [[false; false]; [true; false]; [true; true]]);
    QRegister [txt "k"; txt "j"]; QSetDomain (txt "d");
    QInsert2 PAbort false false [qr ["-"; ""] "m" "p" 10]%string ].
Theorem C16_undefined_refuted : exists ops data x labels,
  let s := qrun ops fresh_store in
  space_ok s /\ read_data (fun t => t) [] false [] s = Ok data /\
  s_quants s = [x] /\ located s x labels /\ qt_value x = 10%Q /\
  matches s labels 2%Z /\ (forall i, matches s labels i -> i = 0%Z \/ i = 2%Z) /\
  map (fun d => (n_index d, n_value d)) data = [(0%Z, Some 10%Q)].
Proof.
  exists hist_u. eexists. exists {| qt_id := 1; qt_loc := 1; qt_attr := 1; qt_value := 10 |}, (map txt ["-"; ""]%string). cbv zeta.
  assert (E1 : d_labels (s_db (qrun hist_u fresh_store)) = [txt "A"; txt "B"]) by (vm_compute; reflexivity).
  assert (E2 : d_structs (s_db (qrun hist_u fresh_store)) = [[false; false]; [true; false]; [true; true]]) by (vm_compute; reflexivity).
  assert (E3 : s_sels (qrun hist_u fresh_store) = []) by (vm_compute; reflexivity).
  assert (E4 : s_gran (qrun hist_u fresh_store) = gran1) by (vm_compute; reflexivity).
  assert (E5 : candidates (s_db (qrun hist_u fresh_store)) (map txt ["-"; ""]%string) = [0%Z; 2%Z]) by (vm_compute; reflexivity).
  assert (E6 : s_locs (qrun hist_u fresh_store) = [{| l_id := 1; l_labels := map txt ["-"; ""]%string |}]) by (vm_compute; reflexivity).
  assert (E7 : s_quants (qrun hist_u fresh_store) = [{| qt_id := 1; qt_loc := 1; qt_attr := 1; qt_value := 10 |}]) by (vm_compute; reflexivity).
  assert (E8 : read_data (fun t => t) [] false [] (qrun hist_u fresh_store) =
    Ok [{| n_index := 0; n_attrs := [(txt "j", txt "p"); (txt "k", txt "m"); (txt "domain", txt "d")]; n_value := Some 10%Q |}]) by (vm_compute; reflexivity).
  pose proof (C16_reached hist_u) as H. cbv zeta in H. revert H E1 E2 E3 E4 E5 E6 E7 E8.
  generalize (qrun hist_u fresh_store) as s. intros s H E1 E2 E3 E4 E5 E6 E7 E8.
  assert (OK : space_ok s).
  { apply H.
    - exact (structs_by s _ _ E1 E2 nodup_bits eq_refl).
    - split; rewrite E3; [constructor|easy].
    - unfold gran_ok. rewrite E4. intros [|[] [|[] [|]]] q Hq; inversion Hq; easy. }
  split; [exact OK|]. split; [exact E8|]. split; [exact E7|]. split.
  { eexists. rewrite E6. split; [left; reflexivity|]. split; reflexivity. }
  split; [reflexivity|].
  assert (M : forall i, matches s (map txt ["-"; ""]%string) i <-> In i [0%Z; 2%Z]).
  { intros i. rewrite <- E5. symmetry. apply in_candidates_iff. exact (sp_index _ OK). }
  split; [apply M; right; left; reflexivity|]. split; [|reflexivity].
  intros i Hi. apply M in Hi. destruct Hi as [<-|[<-|[]]]; auto.
Qed.
Print Assumptions C16_undefined_refuted.

(** The log names the weight group chosen without the domain, but the domain takes part in the
    choice of the group that is used: the log says that group 1 (weights 1 and 3) was used for a
    quantity of 8, which in fact was divided equally by group 2. *)
Definition hist_l : list qop := base ++
  [ QSetSelectors [(2%Z, [SSimple (txt "domain") (Some OpEq) (Some (txt "d")) false])];
    QInsert2 PAbort false false [qr ["a"; ""] "m" "p" 8]%string ].
Theorem C16_log_refuted : exists ops a log data,
  let s := qrun ops fresh_store in
  matching_groups (fun t => t) None s = Ok log /\ log = [(a, 1%Z)] /\
  map (fun x => (w_index x, w_value x)) (filter (fun x => (w_group x =? 1)%Z) (d_weights (s_db s))) = [(1%Z, 1%Q); (2%Z, 3%Q); (3%Z, 5%Q)] /\
  read_data (fun t => t) [] true [] s = Ok data /\
  map (fun d => (n_index d, n_value d)) data = [(1%Z, Some 4%Q); (2%Z, Some 4%Q)].
Proof. exists hist_l. do 3 eexists. cbv zeta. split; [|split; [reflexivity|split; [|split]]]; vm_compute; reflexivity. Qed.
Print Assumptions C16_log_refuted.

(** One quantity at a location that no record matches is enough to make reading fail, whatever
    else is stored. *)
Theorem C16_unmatched_fails upper s sels quantize names x labels : space_ok s -> Forall proper sels -> store_ref s ->
  is_read upper sels s x -> located s x labels -> (forall i, ~ matches s labels i) ->
  ~ exists data, read_data upper sels quantize names s = Ok data.
Proof.
  intros OK Hp R Hx Hl Hn E. apply (C16_succeeds upper s sels quantize names OK Hp R) in E. destruct E as (_ & _ & E).
  destruct (E x Hx) as (labels' & a & Hl' & _ & (i & Hi) & _). destruct Hl as (l & H1 & H2 & H3).
  rewrite (located_one s x l labels' (sp_tables _ OK) H1 H2 Hl'), H3 in Hi. exact (Hn i Hi).
Qed.
Print Assumptions C16_unmatched_fails.
Example C16_unmatched_case :
  shown [] false [] (qrun (hist ++ [QInsert2 PAbort true false [qr ["c"; ""] "m" "p" 1]%string]) fresh_store) = None /\
  length (s_quants (qrun (hist ++ [QInsert2 PAbort true false [qr ["c"; ""] "m" "p" 1]%string]) fresh_store)) = 6.
Proof. split; vm_compute; reflexivity. Qed.
