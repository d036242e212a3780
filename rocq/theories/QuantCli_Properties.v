(** C61: tables of quantities. *)
From Coq Require Import NArith Permutation Ascii String List Lia.
Import ListNotations.
From Verif Require Import Prelude QLemmas BitFlags_Model BitFlags_Spec Selectors_Model LinkRef_Model Db_Model Db_Spec Reader_Model Reader_Spec Reader_Proofs Mapper_Model Mapper_Spec
  MapCli_Model MapCli_Spec MapCli_Proofs Quantity_Model Quantity_Spec Quantity_Proofs2 Quantity_Proofs3 Quantity_Proofs4 Quantity_Properties IndexCli_Model
  QuantCli_Model QuantCli_Spec QuantCli_Proofs QuantCli_Proofs2 QuantCli_Proofs3 QuantCli_Proofs4.
From Verif Require Streams_Model.
Local Open Scope nat_scope.

(** The header and the rows are those that the general treatment of tables finds (C47). *)
Theorem C61_table file :
  let cells := fun rows => map (fun r => Streams_Model.RSeq (map Streams_Model.CText r)) rows in
  Streams_Model.normalize_tabular (Streams_Model.DReader (Streams_Model.chain (cells file) Streams_Model.Stop)) None =
    Ok (Streams_Model.chain (cells (body_of file)) Streams_Model.Stop, map Streams_Model.CText (header_of file)).
Proof. destruct file as [|h rows]; reflexivity. Qed.
Print Assumptions C61_table.

(** A space with quantities at a, at (b, x) and at (a, y), and a space with the labels in the other order and one
    more attribute. *)
Definition texts (l : list (list string)) : csv_file := map (map txt) l.
Definition from_ops : list qop := setup ++
  [QInsert2 PAbort true false [qr ["a"; ""] (Some "m") 5; qr ["b"; "x"] (Some "m") (25 # 2); qr ["a"; "y"] (Some "n") 3]]%string.
Definition from_ : store := qrun from_ops fresh_store.
Definition into_ops : list qop :=
  [ QIndex (OAddColumns [txt "B"; txt "A"]);
    QIndex (OInsertIndex None [] PAbort PAbort [ix2 ["x"; "b"]; ix2 ["y"; "a"]])%string;
    QIndex (OSetStructure [[false; true]; [true; true]]);
    QRegister [txt "z"; txt "k"];
    QInsert2 PAbort false false [{| qr_domain := None; qr_labels := map txt ["x"; "b"]%string; qr_cells := [(txt "k", Some (txt "m"))]; qr_value := Some 1%Q |}] ].
Definition into_ : store := qrun into_ops fresh_store.
Definition places (s : store) : list (list text * row * Q) :=
  flat_map (fun x => flat_map (fun l => flat_map (fun g => if ((l_id l =? qt_loc x) && (ag_id g =? qt_attr x))%Z then [(l_labels l, ag_attrs g, Qred (qt_value x))] else [])
    (s_attrs s)) (s_locs s)) (s_quants s).
Definition table_ : csv_file := texts
  [["B"; "note"; "k"; "A"; "count"];
   ["x"; "first"; "m"; "b"; "2.5"];
   ["";  "";      "n"; "a"; "4"];
   ["x"; "";      "";  "b"; "9"];
   ["y"; "";      "n"; "b"; " 1e1 "];
   ["x"; "";      "m"; "b"; "10"]]%string.

(** *** Loading *)

Section Load.
Context (value_column : text) (pol : policy) (any_label any_partition : bool) (columns : list text) (rows : csv_file) (ops : list qop).
Notation s := (qrun ops fresh_store).
Notation load := (import_quantities value_column pol any_label any_partition (columns :: rows) s).

(** If the command succeeds, at every place the value is what the policy makes of the value there and of the numbers
    of the rows about these labels and attributes, in their order; nothing else in the space has changed. *)
Theorem C61_loaded s' log : store_ref s -> load = (s', Ok (ExitOk, log)) ->
  store_wf s' /\ store_ref s' /\ same_rest s s' /\
  forall labels a old vs, dict a -> reads s labels a old -> coming value_column s columns rows labels a vs ->
    exists new, reads s' labels a new /\ same_value new (settle pol old vs).
Proof. intros R. exact (loaded value_column pol any_label any_partition columns rows s s' log (proj1 (C34_tables ops)) R). Qed.

(** If all values are numbers, the command succeeds if and only if: some attribute is registered; the table has the
    columns of the labels and of the value; every row reaches its cells, has the domain of the space if it has one,
    and is of a known category and of the index unless that is allowed otherwise; and, if existing quantities are to
    be refused, no two rows are about the same place and none about an occupied one. *)
Theorem C61_accepts : store_ref s -> all_numbers value_column s columns rows ->
  (exists s' log, load = (s', Ok (ExitOk, log))) <->
  s_registered s <> [] /\ has_columns value_column s columns /\ (forall r, In r rows -> acceptable any_label any_partition s columns r) /\
  (refuses_existing pol -> no_clash value_column s columns rows).
Proof. exact (accepts value_column pol any_label any_partition columns rows s (proj2 (C34_tables ops)) (proj1 (C34_tables ops))). Qed.

(** Whatever the values: if the command succeeds, all this has been checked. *)
Theorem C61_checked s' log : store_ref s -> load = (s', Ok (ExitOk, log)) ->
  s_registered s <> [] /\ has_columns value_column s columns /\ (forall r, In r rows -> acceptable any_label any_partition s columns r) /\
  (refuses_existing pol -> no_clash value_column s columns rows).
Proof.
  intros R H. destruct (C34_tables ops) as (W & WI). pose proof H as H0. apply import_ok in H. destruct H as (ev & H & _). apply table_ok in H; auto. destruct H as (C & qs & F & H).
  unfold insert_quantities2 in H. destruct (nil_b (s_registered s)) eqn:En; [discriminate|]. apply nil_b_false in En. split; auto. split; auto. split.
  - intros r Hr. destruct (Forall2_in_l _ _ _ _ F Hr) as (q & Hq & E). apply (storable_iff value_column any_label any_partition columns s r q E).
    exact (rows_storable _ _ _ _ _ _ _ WI W R (fits_read value_column columns rows s qs F) H q Hq).
  - intros P labels a vs Hd Hc. destruct (reads_total s labels a W Hd) as (old & Ho).
    destruct (loaded_once value_column pol any_label any_partition columns rows s s' log labels a old vs W R H0 P Hd Ho Hc) as (A & B). split; auto.
    intros Nv q Hq. rewrite (B Nv) in Ho. now apply (Ho q).
Qed.

(** If it does not succeed, nothing has changed, and either the message is shown, with a warning exactly if the
    space has no records, or there is an exception: there are no registered attributes, or some row is too short,
    or the value of some row with attributes is no number. *)
Theorem C61_failure s' r : load = (s', r) -> (forall log, r <> Ok (ExitOk, log)) ->
  s' = s /\
  ((exists b, r = Ok (ExitErr, Refused b) /\ (b = true <-> forall i, In i (d_index (s_db s)) -> ix_id i = 0%Z)) \/
   r = Err ToronError /\ s_registered s = [] \/
   r = Err KeyError /\ (exists row, In row rows /\ (~ complete s columns row \/ attributed s columns row /\ ~ reaches columns row value_column)) \/
   r = Err SqlIntegrityError /\ (exists row, In row rows /\ attributed s columns row /\ value_is value_column columns row None)).
Proof.
  intros H N. destruct (C34_tables ops) as (W & _). unfold import_quantities in H.
  destruct (insert_table value_column pol any_label any_partition (columns :: rows) s) as [[s1 ev]|e] eqn:E.
  - inversion H; subst. now destruct (N (Loaded (report ev))).
  - assert (VE : forall x y, (s', r) = (s, Ok (ExitErr, Refused (nil_b (filter (fun r => negb (ix_id r =? 0)%Z) (d_index (s_db s))))) : res (exit_code * shown_text)) ->
      s' = s /\ ((exists b, r = Ok (ExitErr, Refused b) /\ (b = true <-> forall i, In i (d_index (s_db s)) -> ix_id i = 0%Z)) \/ x \/ y)).
    { intros x y X. inversion X. split; auto. left. eexists. split; [reflexivity|]. rewrite nil_b_iff. split.
      - intros Ef i Hi. destruct (Z.eqb_spec (ix_id i) 0) as [|Ne]; auto. assert (K : In i (filter (fun r => negb (ix_id r =? 0)%Z) (d_index (s_db s)))).
        { apply filter_In. split; auto. apply Bool.negb_true_iff. now apply Z.eqb_neq. } rewrite Ef in K. destruct K.
      - intros K. destruct (filter _ _) as [|i l] eqn:Ef; auto. assert (Hi : In i (i :: l)) by now left. rewrite <- Ef in Hi. apply filter_In in Hi.
        destruct Hi as (Hi & Hn). rewrite (K i Hi) in Hn. discriminate. }
    destruct (table_err value_column pol any_label any_partition columns rows s e W E) as [(-> & En)|(_ & [->|(row & Hr & [->|[(-> & K)|(-> & K)]])])].
    + inversion H; subst. split; auto.
    + now apply VE.
    + now apply VE.
    + inversion H; subst. split; auto. right. right. left. split; auto. now exists row.
    + inversion H; subst. split; auto. right. right. right. split; auto. now exists row.
Qed.

(** A table without one of the columns is refused with the message; so is a file without a header. *)
Theorem C61_missing_column : s_registered s <> [] -> ~ has_columns value_column s columns -> exists b, load = (s, Ok (ExitErr, Refused b)).
Proof.
  intros Hr Hc. unfold import_quantities, insert_table. cbn [header_of body_of]. apply nil_b_false in Hr. rewrite Hr.
  fold (names_ s columns). destruct (verify_columns columns (d_labels (s_db s) ++ names_ s columns ++ [value_column])) as [[]|e] eqn:E.
  - apply verify_iff in E. apply required_iff in E. contradiction.
  - apply verify_err in E. subst e. cbn [bind]. eexists. reflexivity.
Qed.
Theorem C61_empty_file : s_registered s <> [] -> exists b, import_quantities value_column pol any_label any_partition [] s = (s, Ok (ExitErr, Refused b)).
Proof.
  intros Hr. unfold import_quantities, insert_table. cbn [header_of body_of]. apply nil_b_false in Hr. rewrite Hr.
  unfold verify_columns. rewrite !forallb_app. cbn [existsb forallb]. rewrite !Bool.andb_false_r. cbn [bind]. eexists. reflexivity.
Qed.

(** The space after the command is that of a history of operations. *)
Theorem C61_history : exists ops', fst load = qrun (ops ++ ops') fresh_store.
Proof. exact (history value_column pol any_label any_partition columns rows ops). Qed.

(** What is logged: how many rows have no attributes, are of no category, or have labels that are not in the index;
    how many quantities there are more than before, and a warning if there are none; and the other rows as ignored,
    replaced or added, according to the policy.  A number is logged unless it is zero. *)
Theorem C61_log s' log : load = (s', Ok (ExitOk, Loaded log)) ->
  exists b c d i, so_many rows (fun r => ~ attributed s columns r) b /\
    so_many rows (fun r => attributed s columns r /\ ~ of_partition s columns r) c /\
    so_many rows (fun r => attributed s columns r /\ ~ of_index s columns r) d /\
    List.length (s_quants s') = List.length (s_quants s) + i /\
    (forall n, In (Log NoAttrs n) log <-> n <> 0 /\ n = b) /\
    (forall n, In (Log InvalidCategory n) log <-> n <> 0 /\ n = c) /\
    (forall n, In (Log InvalidLabel n) log <-> n <> 0 /\ n = d) /\
    (forall n, In (Log Inserted n) log <-> n <> 0 /\ n = i) /\
    (In Nothing log <-> i = 0) /\
    (forall e n, kept_as pol e -> (In (Log e n) log <-> n <> 0 /\ b + n + i = List.length rows)) /\
    (forall e n, e = Ignored \/ e = Replaced \/ e = Summed -> ~ kept_as pol e -> ~ In (Log e n) log) /\
    (refuses_existing pol -> b + i = List.length rows).
Proof. exact (logged value_column pol any_label any_partition columns rows s s' log (proj2 (C34_tables ops)) (proj1 (C34_tables ops))). Qed.
End Load.
Print Assumptions C61_loaded.
Print Assumptions C61_accepts.
Print Assumptions C61_checked.
Print Assumptions C61_failure.
Print Assumptions C61_missing_column.
Print Assumptions C61_empty_file.
Print Assumptions C61_history.
Print Assumptions C61_log.

(** Five rows: one for an occupied place, one without attributes, one whose labels are not in the index, and a second
    one for the place of the first. *)
Definition loaded_ (pol : policy) := import_quantities (txt "count") pol true false table_ into_.
Example C61_loaded_case : store_ref into_ /\
  places into_ = [(map txt ["x"; "b"]%string, [(txt "k", txt "m")], 1%Q)] /\
  (places (fst (loaded_ PSum)), snd (loaded_ PSum)) =
    ([(map txt ["x"; "b"]%string, [(txt "k", txt "m")], (27 # 2)%Q); (map txt [""; "a"]%string, [(txt "k", txt "n")], 4%Q);
      (map txt ["y"; "b"]%string, [(txt "k", txt "n")], 10%Q)],
     Ok (ExitOk, Loaded [Log NoAttrs 1; Log InvalidLabel 1; Log Summed 2; Log Inserted 2])) /\
  map snd (places (fst (loaded_ PReplace))) = [10; 4; 10]%Q /\ map snd (places (fst (loaded_ PIgnore))) = [1; 4; 10]%Q /\
  loaded_ PAbort = (into_, Ok (ExitErr, Refused false)) /\
  import_quantities (txt "count") PSum false false table_ into_ = (into_, Ok (ExitErr, Refused false)) /\
  import_quantities (txt "number") PSum true false table_ into_ = (into_, Ok (ExitErr, Refused false)).
Proof.
  split; [apply (C34_references into_ops []); repeat constructor; discriminate|].
  repeat (split; [vm_compute; reflexivity|]). vm_compute. reflexivity.
Qed.
(** The hypothesis about numbers. *)
Lemma all_numbers_b vc s columns rows : forallb (fun r => match q_value vc columns r with Some _ => true | None => false end) rows = true -> all_numbers vc s columns rows.
Proof.
  intros H r Hr _. rewrite forallb_forall in H. specialize (H r Hr). pose proof (q_value_is vc columns r) as K.
  destruct (q_value vc columns r) as [q|]; [now exists q|discriminate].
Qed.
Lemma table_numbers : all_numbers (txt "count") into_ (header_of table_) (body_of table_).
Proof. apply all_numbers_b. vm_compute. reflexivity. Qed.
Example C61_accepts_case : all_numbers (txt "count") into_ (header_of table_) (body_of table_) /\
  exists s' log, import_quantities (txt "count") PSum true false table_ into_ = (s', Ok (ExitOk, log)).
Proof. split; [exact table_numbers|]. do 2 eexists. vm_compute. reflexivity. Qed.

(** *** Writing *)

(** All quantities are written, each in one row with its labels, its values for the registered attributes and its
    value; the header names them. *)
Theorem C61_export show ops : let s := qrun ops fresh_store in store_ref s -> s_registered s <> [] ->
  exists lines xs, export_quantities show s = Ok (quantity_header s :: lines, List.length (s_quants s)) /\
    quantity_header s = (match s_domain s with [] => [] | _ => [txt "domain"] end) ++ d_labels (s_db s) ++ s_registered s ++ [txt "quantity"] /\
    NoDup xs /\ (forall x, In x xs <-> In x (s_quants s)) /\ Forall2 (line_tells show s) xs lines.
Proof.
  intros s R Hr. destruct (written show s (proj1 (C34_tables ops)) R Hr) as (lines & xs & E & K). exists lines, xs. split; auto. split; auto.
  unfold quantity_header. now destruct (s_domain s).
Qed.
Print Assumptions C61_export.
(** Without registered attributes nothing can be written. *)
Theorem C61_export_unregistered show s : s_registered s = [] -> export_quantities show s = Err ToronError.
Proof. intros E. unfold export_quantities, select_quantities2. now rewrite E. Qed.
Print Assumptions C61_export_unregistered.
Definition show_ (q : Q) : text := if Qeq_bool q 5 then txt "5.0" else if Qeq_bool q 3 then txt "3.0" else txt "12.5".
Definition exported_ : csv_file := match export_quantities show_ from_ with Ok (f, _) => f | Err _ => [] end.
Example C61_export_case : exported_ = texts [["A"; "B"; "k"; "quantity"]; ["a"; ""; "m"; "5.0"]; ["b"; "x"; "m"; "12.5"]; ["a"; "y"; "n"; "3.0"]]%string.
Proof. vm_compute. reflexivity. Qed.

(** What was written from one space is loaded into another: at every place, the labels given by the names of the
    columns, the value is what the policy makes of the values of both; the command fails only if existing quantities
    are to be refused and there are some. *)
Theorem C61_round_trip show ops ops' file n pol any_label any_partition :
  let s := qrun ops fresh_store in let t := qrun ops' fresh_store in
  store_ref s -> store_ref t -> all_registered s -> prints show s -> d_labels (s_db s) <> [] ->
  export_quantities show s = Ok (file, n) -> understands s t (quantity_header s) ->
  (any_partition = false -> forall f a q, stored s (placed s f) a q -> structured t (placed t f)) ->
  (any_label = false -> forall f a q, stored s (placed s f) a q -> exists i, matches t (placed t f) i) ->
  let result := import_quantities (txt "quantity") pol any_label any_partition file t in
  (refuses_existing pol -> clash s t -> exists b, result = (t, Ok (ExitErr, Refused b))) /\
  (~ (refuses_existing pol /\ clash s t) -> exists t' log, result = (t', Ok (ExitOk, log)) /\ same_rest t t' /\
     forall f a v old, dict a -> reads s (placed s f) a v -> reads t (placed t f) a old ->
       exists new, reads t' (placed t f) a new /\ same_value new (settle pol old (one v))).
Proof.
  intros s t Rs Rt HR P Hl E U Hp Hi. destruct (C34_tables ops) as (Ws & _), (C34_tables ops') as (Wt & WI). fold s in Ws. fold t in Wt, WI.
  assert (Hr : s_registered s <> []) by (intros K; rewrite (C61_export_unregistered show s K) in E; discriminate E).
  destruct (written show s Ws Rs Hr) as (lines & xs & E' & N & Hin & F). rewrite E in E'. inversion E'; subst file n.
  exact (again show s t pol any_label any_partition xs lines Ws HR P U N Hin F WI Wt Rt Hr Hl Hp Hi).
Qed.
Print Assumptions C61_round_trip.

Lemma from_prints : prints show_ from_.
Proof.
  intros x Hx. assert (E : map (fun x => Qred (qt_value x)) (s_quants from_) = [5; 25 # 2; 3]%Q /\ map (fun x => number (show_ (qt_value x))) (s_quants from_) = [Some (50 # 10); Some (125 # 10); Some (30 # 10)]%Q) by (split; vm_compute; reflexivity).
  destruct E as (E1 & E2). destruct (s_quants from_) as [|x1 [|x2 [|x3 [|]]]]; try discriminate E1. cbn [map] in E1, E2. injection E1 as A1 A2 A3. injection E2 as B1 B2 B3.
  destruct Hx as [<-|[<-|[<-|[]]]]; (eapply is_number_eq; [|apply number_some; eassumption]); rewrite <- (Qred_correct (qt_value _)); rewrite ?A1, ?A2, ?A3; reflexivity.
Qed.
Lemma from_registered : all_registered from_.
Proof.
  assert (E : map ag_attrs (s_attrs from_) = [[(txt "k", txt "m")]; [(txt "k", txt "n")]] /\ s_registered from_ = [txt "k"]) by (split; vm_compute; reflexivity).
  destruct E as (E1 & E2). intros g k v Hg Hk. rewrite E2. apply (in_map ag_attrs) in Hg. rewrite E1 in Hg.
  destruct Hg as [K|[K|[]]]; rewrite <- K in Hk; destruct Hk as [Hk|[]]; inversion Hk; now left.
Qed.
Lemma from_header : quantity_header from_ = map txt ["A"; "B"; "k"; "quantity"]%string. Proof. vm_compute. reflexivity. Qed.
Lemma into_understands : understands from_ into_ (quantity_header from_).
Proof.
  assert (E : d_labels (s_db into_) = map txt ["B"; "A"]%string /\ d_labels (s_db from_) = map txt ["A"; "B"]%string /\ s_registered from_ = [txt "k"] /\
    s_registered into_ = [txt "z"; txt "k"] /\ s_domain from_ = []) by (repeat split; vm_compute; reflexivity).
  destruct E as (E1 & E2 & E3 & E4 & E5). rewrite from_header. constructor; rewrite ?E1, ?E2, ?E3, ?E4, ?E5.
  - repeat constructor; cbn; intuition discriminate.
  - cbn. apply perm_swap.
  - intros k [<-|[]]. right. now left.
  - intros k [<-|[<-|[]]]; [|now left]. cbn. intuition discriminate.
  - easy.
  - intros _. cbn. intuition discriminate.
Qed.
Definition again_ (pol : policy) := import_quantities (txt "quantity") pol true false exported_ into_.
Example C61_round_trip_case :
  (exists n, export_quantities show_ from_ = Ok (exported_, n)) /\ prints show_ from_ /\ all_registered from_ /\ understands from_ into_ (quantity_header from_) /\
  clash from_ into_ /\ again_ PAbort = (into_, Ok (ExitErr, Refused false)) /\
  places (fst (again_ PSum)) = [(map txt ["x"; "b"]%string, [(txt "k", txt "m")], (27 # 2)%Q); (map txt [""; "a"]%string, [(txt "k", txt "m")], 5%Q);
    (map txt ["y"; "a"]%string, [(txt "k", txt "n")], 3%Q)] /\
  snd (again_ PSum) = Ok (ExitOk, Loaded [Log Summed 1; Log Inserted 2]).
Proof.
  split; [eexists; vm_compute; reflexivity|]. split; [exact from_prints|]. split; [exact from_registered|]. split; [exact into_understands|].
  split; [|repeat (split; [vm_compute; reflexivity|]); vm_compute; reflexivity].
  exists (fun k => if text_eqb k (txt "A") then txt "b" else txt "x"), [(txt "k", txt "m")], (25 # 2)%Q, 1%Q.
  split; [repeat constructor; cbn; tauto|]. split.
  - exists {| l_id := 2; l_labels := map txt ["b"; "x"]%string |}, {| ag_id := 1; ag_attrs := [(txt "k", txt "m")] |}, {| qt_id := 2; qt_loc := 2; qt_attr := 1; qt_value := 25 # 2 |}.
    split; [vm_compute; auto 6|]. split; [vm_compute; reflexivity|]. split; [vm_compute; auto|]. split; [intros k; reflexivity|]. split; [vm_compute; auto 6|]. repeat split.
  - exists {| l_id := 1; l_labels := map txt ["x"; "b"]%string |}, {| ag_id := 1; ag_attrs := [(txt "k", txt "m")] |}, {| qt_id := 1; qt_loc := 1; qt_attr := 1; qt_value := 1 |}.
    split; [vm_compute; auto 6|]. split; [vm_compute; reflexivity|]. split; [vm_compute; auto|]. split; [intros k; reflexivity|]. split; [vm_compute; auto 6|]. repeat split.
Qed.

(** *** Findings *)

(** A blank line ends the command with an exception instead of the message. *)
Theorem C61_blank_line_refuted vc pol al ap columns rows ops : let s := qrun ops fresh_store in
  s_registered s <> [] -> has_columns vc s columns -> d_labels (s_db s) <> [] ->
  import_quantities vc pol al ap (columns :: [] :: rows) s = (s, Err KeyError).
Proof.
  intros s Hr Hc Hl. unfold import_quantities, insert_table. cbn [header_of body_of]. apply nil_b_false in Hr. rewrite Hr. fold (names_ s columns).
  rewrite (proj2 (verify_iff columns _) (proj2 (required_iff vc columns s) Hc)). cbn [bind fold_res].
  assert (E : load_row vc pol al ap (names_ s columns) columns (s, []) [] = Err KeyError); [|rewrite E; reflexivity].
  unfold load_row. cbn [fst]. assert (En : combine columns (@nil text) = []) by (destruct columns; reflexivity). rewrite En. cbn [row_get].
  destruct (names_ s columns) as [|k l]; [|reflexivity]. cbn [traverse bind]. destruct (d_labels (s_db s)) as [|k l]; [easy|]. reflexivity.
Qed.
Print Assumptions C61_blank_line_refuted.
(** A value that is no number: an exception, or the message if it is to be added to an existing quantity; with
    'ignore' it is passed over. *)
Theorem C61_not_a_number_refuted : exists file, let load := fun pol => import_quantities (txt "count") pol false false file into_ in
  load PReplace = (into_, Err SqlIntegrityError) /\ load PSum = (into_, Ok (ExitErr, Refused false)) /\
  load PIgnore = (into_, Ok (ExitOk, Loaded [Log Ignored 1; Nothing])).
Proof. exists (texts [["B"; "A"; "k"; "count"]; ["x"; "b"; "m"; "1,000"]]%string). cbv zeta. split; [vm_compute; reflexivity|]. split; vm_compute; reflexivity. Qed.
Print Assumptions C61_not_a_number_refuted.
(** A table without columns of registered attributes: nothing is loaded and the command succeeds. *)
Theorem C61_no_attributes_refuted vc pol al ap columns rows ops : let s := qrun ops fresh_store in
  s_registered s <> [] -> has_columns vc s columns -> (forall k, In k (s_registered s) -> ~ In k columns) -> ~ In (txt "domain") columns ->
  (forall r, In r rows -> complete s columns r) -> rows <> [] ->
  import_quantities vc pol al ap (columns :: rows) s = (s, Ok (ExitOk, Loaded [Log NoAttrs (List.length rows); Nothing])).
Proof.
  intros s Hr Hc Hn Hd Hrows Hne. unfold import_quantities, insert_table. cbn [header_of body_of]. apply nil_b_false in Hr. rewrite Hr. fold (names_ s columns).
  rewrite (proj2 (verify_iff columns _) (proj2 (required_iff vc columns s) Hc)). cbn [bind].
  assert (K : forall rows ev, (forall r, In r rows -> complete s columns r) ->
    fold_res (load_row vc pol al ap (names_ s columns) columns) rows (s, ev) = Ok (s, ev ++ repeat NoAttrs (List.length rows))).
  { clear rows Hrows Hne. induction rows as [|r rows IH]; intros ev Hrows; cbn [fold_res List.length repeat]; [now rewrite app_nil_r|].
    destruct (read_total vc s columns r (Hrows r (or_introl eq_refl))) as (q & Eq).
    assert (E : load_row vc pol al ap (names_ s columns) columns (s, ev) r = Ok (s, ev ++ [NoAttrs])).
    { apply load_ok. exists q. split; auto. unfold insert_row. destruct (read_ok vc s columns r q Eq) as (_ & A & _ & D).
      assert (Ed : qr_domain q = None). { rewrite D. apply get_none. intros (v & V). apply Hd. eapply says_column, V. } rewrite Ed.
      assert (Ea : attr_dict (s_registered s) (qr_cells q) = []).
      { destruct (attr_dict (s_registered s) (qr_cells q)) as [|[k v] l] eqn:El; auto. exfalso. assert (X : In (k, v) (attr_dict (s_registered s) (qr_cells q))) by (rewrite El; now left).
        apply in_attr_dict in X. apply A in X. destruct X as (X1 & _ & X2). apply (Hn k X1). eapply says_column, X2. }
      rewrite Ea. reflexivity. }
    rewrite E. cbn [bind]. rewrite IH by (intros r' Hr'; apply Hrows; now right). now rewrite <- app_assoc. }
  rewrite K by auto. cbn [app].
  assert (T : times NoAttrs (repeat NoAttrs (List.length rows)) = List.length rows).
  { unfold times. induction (List.length rows) as [|n IH]; cbn; auto. }
  assert (Z : forall e, e <> NoAttrs -> times e (repeat NoAttrs (List.length rows)) = 0).
  { clear T. intros e He. unfold times. induction (List.length rows) as [|n IH]; cbn; auto. destruct e; try easy; exact IH. }
  unfold report, line_if. rewrite T, !Z by discriminate. destruct (List.length rows) eqn:El; [destruct rows; [easy|discriminate]|]. reflexivity.
Qed.
Print Assumptions C61_no_attributes_refuted.
Example C61_no_attributes_case :
  import_quantities (txt "count") PAbort false false (texts [["B"; "A"; "K"; "count"]; ["x"; "b"; "m"; "1"]]%string) into_ = (into_, Ok (ExitOk, Loaded [Log NoAttrs 1; Nothing])).
Proof. vm_compute. reflexivity. Qed.

(** A label named like the column of the values is not reserved: what is written from such a space is loaded
    with other labels. *)
Definition quantity_ops : list qop :=
  [ QIndex (OAddColumns [txt "quantity"]); QIndex (OInsertIndex None [] PAbort PAbort [ix2 ["a"]; ix2 ["3.0"]])%string; QIndex (OSetStructure [[true]]); QRegister [txt "k"] ].
Theorem C61_label_quantity_refuted : exists file n s' log,
  let s := qrun (quantity_ops ++ [QInsert2 PAbort false false [qr ["a"%string] (Some "m"%string) 3]]) fresh_store in
  let t := qrun quantity_ops fresh_store in
  export_quantities show_ s = Ok (file, n) /\
  import_quantities (txt "quantity") PAbort false false file t = (s', Ok (ExitOk, log)) /\
  places s = [([txt "a"], [(txt "k", txt "m")], 3%Q)] /\ places s' = [([txt "3.0"], [(txt "k", txt "m")], 3%Q)].
Proof. do 4 eexists. cbv zeta. split; [vm_compute; reflexivity|]. split; [vm_compute; reflexivity|]. split; vm_compute; reflexivity. Qed.
Print Assumptions C61_label_quantity_refuted.
(** What was written from a space with a domain is refused by a space with another one or none. *)
Theorem C61_domain_refuted vc pol al ap columns rows ops r : let s := qrun ops fresh_store in store_ref s ->
  In r rows -> (exists d, says columns r (txt "domain") d /\ d <> s_domain s) ->
  let result := import_quantities vc pol al ap (columns :: rows) s in
  fst result = s /\ forall log, snd result <> Ok (ExitOk, log).
Proof.
  intros s R Hr (d & Hd & Ne) result.
  assert (X : forall log, snd result <> Ok (ExitOk, log)).
  { intros log E. destruct result as [s' y] eqn:Er. cbn in E. subst y. destruct (C61_checked _ _ _ _ _ _ _ _ _ R Er) as (_ & _ & K & _). apply Ne. now apply (K r Hr). }
  split; auto. destruct result as [s' y] eqn:Er. cbn in *. exact (proj1 (C61_failure _ _ _ _ _ _ _ _ _ Er X)).
Qed.
Print Assumptions C61_domain_refuted.
Example C61_domain_case : import_quantities (txt "n") PAbort true true (texts [["domain"; "B"; "A"; "k"; "n"]; ["d1"; "x"; "a"; "m"; "1"]]%string) into_ = (into_, Ok (ExitErr, Refused false)).
Proof. vm_compute. reflexivity. Qed.
