(** C47: looking ahead into tabular data never loses, repeats or reorders rows. *)
From Coq Require Import NArith.
From Verif Require Import Prelude Selectors_Model BitFlags_Model IndexCode_Model Streams_Model Streams_Spec
  Streams_Proofs Streams_Proofs2 Streams_Proofs3 Streams_Proofs4.
Local Open Scope nat_scope.

(** *** Mapping data *)

(** After the search for the columns the iterator gives exactly what the given one would have given. *)
Theorem C47_positions_return todecimal edge_name node1 node2 link s is_list columns p s' :
  get_column_positions todecimal edge_name node1 node2 link s is_list columns = Ok (p, s') -> s' = s.
Proof. exact (gcp_returns todecimal edge_name node1 node2 link s is_list columns p s'). Qed.
Print Assumptions C47_positions_return.

(** No row beyond the 256th is looked at: data that agree so far give the same positions or the same error. *)
Theorem C47_positions_limit todecimal edge_name node1 node2 link s t is_list columns : agree 256 s t ->
  match get_column_positions todecimal edge_name node1 node2 link s is_list columns,
        get_column_positions todecimal edge_name node1 node2 link t is_list columns with
  | Ok (p, _), Ok (p', _) => p = p'
  | Err e, Err e' => e = e'
  | _, _ => False
  end.
Proof. exact (gcp_agree todecimal edge_name node1 node2 link s t is_list columns). Qed.
Print Assumptions C47_positions_limit.

(** What is found: the first column that names the link; for each space the column told by the first
    telling group of eight rows; and the columns of each space, on opposite sides of the link column. *)
Theorem C47_positions_found todecimal edge_name node1 node2 link s is_list columns p s' rows e :
  get_column_positions todecimal edge_name node1 node2 link s is_list columns = Ok (p, s') -> reads s rows e ->
  link_column edge_name link columns (p_value p) /\
  detection todecimal (n_id_bytes node1) rows (p_index1 p) /\ detection todecimal (n_id_bytes node2) rows (p_index2 p) /\
  (p_index1 p <> Some (p_value p) -> p_index2 p <> Some (p_value p) ->
     (p_start1 p = 0 /\ p_stop1 p = p_value p /\ p_start2 p = S (p_value p) /\ p_stop2 p = length columns) \/
     (p_start2 p = 0 /\ p_stop2 p = p_value p /\ p_start1 p = S (p_value p) /\ p_stop1 p = length columns)) /\
  (forall i, p_index1 p = Some i -> i < p_value p -> p_start1 p = 0) /\
  (forall i, p_index1 p = Some i -> p_value p < i -> p_start1 p = S (p_value p)) /\
  (forall i, p_index2 p = Some i -> i < p_value p -> p_start2 p = 0) /\
  (forall i, p_index2 p = Some i -> p_value p < i -> p_start2 p = S (p_value p)) /\
  (p_index1 p = None -> header_between columns (p_start1 p) (p_stop1 p) (map CText (n_index_columns node1))) /\
  (p_index2 p = None -> header_between columns (p_start2 p) (p_stop2 p) (map CText (n_index_columns node2))) /\
  (p_index1 p = None -> p_index2 p = None -> p_start1 p = 0).
Proof.
  intros H R. destruct (gcp_layout _ _ _ _ _ _ _ _ _ _ _ _ H R) as (V & D1 & D2 & [A1 A2] & [B1 B2] & O & F & _).
  repeat (split; [assumption|]).
  split; [intros i Hi L; exact (proj1 (proj1 (A1 i Hi) L))|]. split; [intros i Hi L; exact (proj1 (proj2 (A1 i Hi) L))|].
  split; [intros i Hi L; exact (proj1 (proj1 (B1 i Hi) L))|]. split; [intros i Hi L; exact (proj1 (proj2 (B1 i Hi) L))|].
  auto.
Qed.
Print Assumptions C47_positions_found.

(** When it is found: exactly if the layout is acceptable, provided the rows can be read and searched. *)
Theorem C47_positions_accept todecimal edge_name node1 node2 link s is_list columns rows e o1 o2 :
  reads s rows e -> clean todecimal node1 node2 rows e -> Forall (fun c => exists t, c = CText t) columns ->
  detection todecimal (n_id_bytes node1) rows o1 -> detection todecimal (n_id_bytes node2) rows o2 ->
  ((exists p s', get_column_positions todecimal edge_name node1 node2 link s is_list columns = Ok (p, s')) <->
   exists v, link_column edge_name link columns v /\ acceptable is_list node1 node2 columns v o1 o2).
Proof. exact (gcp_accepts todecimal edge_name node1 node2 link s is_list columns rows e o1 o2). Qed.
Print Assumptions C47_positions_accept.

(** The normalized mapping data: one item for each data row, in order, with the ids, labels, levels and
    value of that row. *)
Theorem C47_mapping_rows todecimal edge_name node1 node2 link d is_list columns out :
  normalize_mapping_data todecimal edge_name node1 node2 link d is_list columns = Ok out ->
  exists rows header p, normalize_tabular d columns = Ok (rows, header) /\
    get_column_positions todecimal edge_name node1 node2 link rows is_list header = Ok (p, rows) /\
    row_by_row (mapping_row_for todecimal node1 node2 header p) rows out.
Proof. exact (mapping_data_rows todecimal edge_name node1 node2 link d is_list columns out). Qed.
Print Assumptions C47_mapping_rows.

(** *** Index data *)

(** The rows passed to the loader: the rows that were given, or, if the first ten tell a code column,
    those rows with the codes in that column replaced by their ids and the name of the column by [index_id]. *)
Theorem C47_index_rows todecimal nd s out rows e : read_index_stdin todecimal nd s = Ok out -> reads s rows e ->
  ((forall q, ~ identifies todecimal (n_id_bytes nd) (firstn 10 rows) q) /\ out = s /\
     exists h s1, s = Item (RSeq h) s1 /\ ~ In (CText (txt "index_id")) h) \/
  exists p, identifies todecimal (n_id_bytes nd) (firstn 10 rows) p /\
    exists h s1, s = Item (RSeq h) s1 /\
    ((length h <= p /\ out = Boom IndexError) \/
     exists pre c post out1, h = pre ++ c :: post /\ length pre = p /\
       out = Item (RSeq (pre ++ CText (txt "index_id") :: post)) out1 /\
       row_by_row (recoded todecimal (n_id_bytes nd) p) s1 out1).
Proof. exact (index_rows todecimal nd s out rows e). Qed.
Print Assumptions C47_index_rows.
Theorem C47_index_limit todecimal nd s t : agree 10 s t ->
  match read_index_stdin todecimal nd s, read_index_stdin todecimal nd t with
  | Ok _, Ok _ => True | Err e, Err e' => e = e' | _, _ => False end.
Proof. exact (index_lookahead todecimal nd s t). Qed.
Print Assumptions C47_index_limit.

(** *** Kinds of tabular data *)

(** Rows that are sequences: the first is the header unless columns are given; nothing else changes. *)
Theorem C47_tabular_sequences d columns s h s1 : iter_data d = Ok s -> s = Item (RSeq h) s1 ->
  (columns = None \/ columns = Some [] -> normalize_tabular d columns = Ok (s1, h)) /\
  (forall c cs, columns = Some (c :: cs) -> normalize_tabular d columns = Ok (s, c :: cs)).
Proof. exact (tabular_sequences d columns s h s1). Qed.
Print Assumptions C47_tabular_sequences.
(** Rows that are mappings: every one gives its values, the first one included. *)
Theorem C47_tabular_mappings d columns s d1 ds e : iter_data d = Ok s -> reads s (map RMap (d1 :: ds)) e ->
  exists header s' rows, normalize_tabular d columns = Ok (s', header) /\ reads s' rows e /\
    (columns = None \/ columns = Some [] -> header = map fst d1) /\
    (forall c cs, columns = Some (c :: cs) -> header = c :: cs) /\
    Forall2 (fun d r => exists l, r = RSeq l /\ Forall2 (value_of d) header l) (d1 :: ds) rows.
Proof. exact (tabular_mappings d columns s d1 ds e). Qed.
Print Assumptions C47_tabular_mappings.
Theorem C47_readerlike_sequences d s h s1 : d = DReader s \/ d = DIter s -> s = Item (RSeq h) s1 -> make_readerlike d = Ok s.
Proof. exact (readerlike_sequences d s h s1). Qed.
Print Assumptions C47_readerlike_sequences.
Theorem C47_readerlike_mappings s d1 ds e : reads s (map RMap (d1 :: ds)) e ->
  exists s' rows, make_readerlike (DIter s) = Ok s' /\ reads s' (RSeq (map fst d1) :: rows) e /\
    Forall2 (fun d r => exists l, r = RSeq l /\ Forall2 (value_of d) (map fst d1) l) (d1 :: ds) rows.
Proof. exact (readerlike_mappings s d1 ds e). Qed.
Print Assumptions C47_readerlike_mappings.
Theorem C47_readerlike_dictreader fieldnames s ds e : reads s (map RMap ds) e ->
  exists s' rows, make_readerlike (DDictReader fieldnames s) = Ok s' /\ reads s' (RSeq fieldnames :: rows) e /\
    Forall2 (fun d r => exists l, r = RSeq l /\ Forall2 (value_of d) fieldnames l) ds rows.
Proof. exact (readerlike_dictreader fieldnames s ds e). Qed.
Print Assumptions C47_readerlike_dictreader.
Theorem C47_dictreaderlike_mappings d s d1 s1 : d = DReader s \/ d = DIter s -> s = Item (RMap d1) s1 -> make_dictreaderlike d = Ok s.
Proof. exact (dictreaderlike_mappings d s d1 s1). Qed.
Print Assumptions C47_dictreaderlike_mappings.
(** Sequences under a header with distinct names: each row pairs the names with its cells. *)
Theorem C47_dictreaderlike_sequences s h ls e : reads s (map RSeq (h :: ls)) e -> NoDup h ->
  exists s', make_dictreaderlike (DIter s) = Ok s' /\ reads s' (map (fun l => RMap (combine h l)) ls) e.
Proof. exact (dictreaderlike_sequences s h ls e). Qed.
Print Assumptions C47_dictreaderlike_sequences.

(** Running a generator up to its first item changes nothing but the time of its errors. *)
Theorem C47_eager {A} (g : stream A) : match eagerly_initialize g with Ok s => s = g | Err e => g = Boom e end.
Proof. exact (eagerly_same g). Qed.
Print Assumptions C47_eager.

(** *** Cases *)
Definition no_digits (c : N) : option N := None.
Definition no_edge (t : text) : option text := None.
Definition T (s : string) : cell := CText (txt s).
Definition a_node : node := {| n_id_bytes := repeat 17%N 16; n_index_columns := [txt "county"] |}.
Definition b_node : node := {| n_id_bytes := repeat 34%N 16; n_index_columns := [txt "town"; txt "ward"] |}.
Definition header : list cell := [T "code"; T "county"; T "population"; T "town"; T "ward"].
(** Nine rows without a code, then one with a code of the first space. *)
Definition plain_row (town : string) : row := RSeq [T ""; T "X"; COther 5; T town; T ""].
Definition code_row : row := RSeq [T "8XC1A3F9B3"; T ""; COther 7; T "Y"; T "Z"].
Definition the_rows : list row := repeat (plain_row "Y") 9 ++ [code_row].
Example C47_case_positions :
  exists p, get_column_positions no_digits no_edge a_node b_node (txt "population") (chain the_rows (Boom OsError)) true header = Err OsError /\
  get_column_positions no_digits no_edge a_node b_node (txt "population") (chain the_rows Stop) true header = Ok (p, chain the_rows Stop) /\
  p_index1 p = Some 0 /\ p_index2 p = None /\ p_start2 p = 3 /\ p_stop2 p = 5 /\ p_value p = 2.
Proof. eexists. split; [vm_compute; reflexivity|]. split; [vm_compute; reflexivity|]. cbn. repeat split. Qed.
Example C47_case_mapping : exists out,
  normalize_mapping_data no_digits no_edge a_node b_node (txt "population") (DIter (Item (RSeq header) (chain the_rows Stop))) true None = Ok out /\
  exists l, reads out l None /\ length l = 10 /\
    nth_error l 0 = Some {| mr_id1 := None; mr_loc1 := [T "X"]; mr_level1 := of_bits [true]; mr_id2 := None; mr_loc2 := [T "Y"; T ""];
                            mr_level2 := of_bits [true; false]; mr_value := COther 5 |} /\
    nth_error l 9 = Some {| mr_id1 := Some 8%Z; mr_loc1 := [T ""]; mr_level1 := of_bits [true]; mr_id2 := None; mr_loc2 := [T "Y"; T "Z"];
                            mr_level2 := of_bits [true; true]; mr_value := COther 7 |}.
Proof.
  eexists. split; [vm_compute; reflexivity|]. eexists. split; [repeat constructor|]. split; [vm_compute; reflexivity|]. split; vm_compute; reflexivity.
Qed.
Example C47_case_clean : clean no_digits a_node b_node the_rows None.
Proof.
  split; [left; reflexivity|].
  assert (H : forall u, u = n_id_bytes a_node \/ u = n_id_bytes b_node -> Forall (searchable no_digits u) (firstn 256 the_rows)).
  { intros u Hu. change (firstn 256 the_rows) with the_rows. unfold the_rows. apply Forall_app. split.
    - apply Forall_forall. intros r I. apply repeat_spec in I. subst r. eexists. split; [reflexivity|]. intros t I. unfold T in I.
      repeat destruct I as [I|I]; try discriminate; try contradiction; injection I as <-; destruct Hu as [-> | ->]; vm_compute; discriminate.
    - constructor; [|constructor]. eexists. split; [reflexivity|]. intros t I. unfold T in I.
      repeat destruct I as [I|I]; try discriminate; try contradiction; injection I as <-; destruct Hu as [-> | ->]; vm_compute; discriminate. }
  split; apply H; auto.
Qed.
Example C47_case_index :
  read_index_stdin no_digits a_node (chain [RSeq [T "code"; T "county"]; RSeq [T "8XC1A3F9B3"; T "X"]; RSeq [T ""; T "Y"]] Stop) =
  Ok (chain [RSeq [T "index_id"; T "county"]; RSeq [COther 8; T "X"]; RSeq [T ""; T "Y"]] Stop).
Proof. vm_compute. reflexivity. Qed.
Example C47_case_mappings :
  normalize_tabular (DIter (chain [RMap [(T "a", T "1"); (T "b", T "2")]; RMap [(T "b", T "3")]] (Boom OsError))) None =
  Ok (chain [RSeq [T "1"; T "2"]; RSeq [CNone; T "3"]] (Boom OsError), [T "a"; T "b"]).
Proof. vm_compute. reflexivity. Qed.

(** *** Findings *)

(** A first row that is [None] is taken for the end of the data: all other rows are dropped silently. *)
Theorem C47_none_row_refuted : forall s, make_readerlike (DIter (Item RNone s)) = Ok Stop /\ make_dictreaderlike (DIter (Item RNone s)) = Ok Stop.
Proof. intro s. split; reflexivity. Qed.
Print Assumptions C47_none_row_refuted.
(** With a code in the link column the two spaces can be given the same columns. *)
Theorem C47_same_side_refuted : exists s p, 
  get_column_positions no_digits no_edge a_node b_node (txt "population") s true header = Ok (p, s) /\
  p_start1 p = 3 /\ p_stop1 p = 5 /\ p_start2 p = 3 /\ p_stop2 p = 5.
Proof.
  exists (Item (RSeq [T ""; T "X"; T "8XC1A3F9B3"; T "3X23CE6FFF"; T ""]) Stop). eexists. split; [vm_compute; reflexivity|]. cbn. repeat split.
Qed.
Print Assumptions C47_same_side_refuted.
(** A header that is a tuple, as that of dictionary rows always is, is refused although it has the labels
    of both spaces. *)
Theorem C47_tuple_header_refuted : exists columns,
  (exists p, get_column_positions no_digits no_edge a_node b_node (txt "population") Stop true columns = Ok (p, Stop)) /\
  get_column_positions no_digits no_edge a_node b_node (txt "population") Stop false columns = Err ToronError.
Proof.
  exists [T "county"; T "population"; T "town"; T "ward"]. split; [eexists|]; vm_compute; reflexivity.
Qed.
Print Assumptions C47_tuple_header_refuted.
(** Empty input to the index command ends with an [IndexError]. *)
Theorem C47_empty_input_refuted : forall nd, read_index_stdin no_digits nd Stop = Err IndexError.
Proof. intro nd. reflexivity. Qed.
Print Assumptions C47_empty_input_refuted.
