(** C37: reshaping a wide table into a long one is lossless. *)
From Coq Require Import Ascii String.
From Verif Require Import Prelude Selectors_Model Selectors_Proofs LinkRef_Proofs Streams_Model Streams_Spec Streams_Proofs Reshape_Model Reshape_Spec Reshape_Proofs.
Local Open Scope nat_scope.
Local Open Scope list_scope.

(** *** wide_to_long, tables whose rows are sequences *)

(** The header, then for each row one long row for each stacked column, in order; a short row counts
    as continued with [None], what a long row has beyond the header is ignored; an error of the data
    is passed on after the rows before it. *)
Theorem C37_long_sequences d cols s h ls e var val : iter_data d = Ok s -> reads s (map RSeq (h :: ls)) e ->
  NoDup h -> incl cols h -> (~ In CNone h \/ Forall (fun l => length l <= length h) ls) ->
  exists s' blocks, wide_to_long d (SCols cols) var val = Ok s' /\
    reads s' (RSeq (kept cols h ++ [var; val]) :: concat blocks) e /\ Forall2 (long_block h cols) ls blocks.
Proof. exact (long_sequences d cols s h ls e var val). Qed.
Print Assumptions C37_long_sequences.

(** Two wide tables with the same header and the same long table are the same table. *)
Theorem C37_long_lossless cols s1 s2 h ls1 ls2 e1 e2 var val out : reads s1 (map RSeq (h :: ls1)) e1 -> reads s2 (map RSeq (h :: ls2)) e2 ->
  NoDup h -> incl cols h -> cols <> [] -> Forall (fun l => length l = length h) ls1 -> Forall (fun l => length l = length h) ls2 ->
  wide_to_long (DIter s1) (SCols cols) var val = Ok out -> wide_to_long (DIter s2) (SCols cols) var val = Ok out -> ls1 = ls2 /\ e1 = e2.
Proof. exact (long_lossless cols s1 s2 h ls1 ls2 e1 e2 var val out). Qed.
Print Assumptions C37_long_lossless.

(** A stacked column that the header (or the first mapping) does not have is a [ValueError]. *)
Theorem C37_long_missing d cols s h s1 var val : iter_data d = Ok s -> s = Item (RSeq h) s1 \/ (exists d1, s = Item (RMap d1) s1 /\ h = map fst d1) ->
  ~ incl cols h -> wide_to_long d (SCols cols) var val = Err ValueError.
Proof. exact (long_missing d cols s h s1 var val). Qed.
Print Assumptions C37_long_missing.

(** A single name stands for the list of this name. *)
Theorem C37_long_name d c var val : wide_to_long d (SName c) var val = wide_to_long d (SCols [c]) var val.
Proof. reflexivity. Qed.
Print Assumptions C37_long_name.

(** *** wide_to_long, tables of mappings *)

Theorem C37_long_mappings d cols s d1 ds e var val : iter_data d = Ok s -> reads s (map RMap (d1 :: ds)) e ->
  NoDup (map fst d1) -> incl cols (map fst d1) -> var <> val ->
  ~ In var (kept cols (map fst d1)) -> ~ In val (kept cols (map fst d1)) -> cols <> [] \/ e = None ->
  exists s' blocks, wide_to_long d (SCols cols) var val = Ok s' /\
    reads s' (concat blocks) e /\ Forall2 (long_dict_block (map fst d1) cols var val) (d1 :: ds) blocks.
Proof. exact (long_mappings d cols s d1 ds e var val). Qed.
Print Assumptions C37_long_mappings.

Theorem C37_long_mappings_lossless cols s1 s2 h ds1 ds2 e1 e2 var val out : reads s1 (map RMap ds1) e1 -> reads s2 (map RMap ds2) e2 ->
  ds1 <> [] -> ds2 <> [] -> NoDup h -> incl cols h -> cols <> [] -> var <> val -> ~ In var (kept cols h) -> ~ In val (kept cols h) ->
  Forall (fun d => map fst d = h) ds1 -> Forall (fun d => map fst d = h) ds2 ->
  wide_to_long (DIter s1) (SCols cols) var val = Ok out -> wide_to_long (DIter s2) (SCols cols) var val = Ok out -> ds1 = ds2 /\ e1 = e2.
Proof. exact (long_mappings_lossless cols s1 s2 h ds1 ds2 e1 e2 var val out). Qed.
Print Assumptions C37_long_mappings_lossless.

Theorem C37_long_other d x s cols var val : iter_data d = Ok (Item x s) -> (forall l, x <> RSeq l) -> (forall m, x <> RMap m) ->
  wide_to_long d cols var val = Err TypeError.
Proof. exact (long_other d x s cols var val). Qed.
Print Assumptions C37_long_other.

(** *** wide_to_narrow *)

(** One block for each mapping, whatever keys each of them has. *)
Theorem C37_narrow_mappings cols var val s ds e : reads s (map RMap ds) e -> var <> val ->
  Forall (fun d => NoDup (map fst d) /\ incl cols (map fst d) /\ ~ In var (map fst d) /\ ~ In val (map fst d)) ds ->
  exists blocks, reads (wide_to_narrow (DIter s) cols var val) (concat blocks) e /\
    Forall2 (fun d b => long_dict_block (map fst d) cols var val d b) ds blocks.
Proof. exact (narrow_all cols var val s ds e). Qed.
Print Assumptions C37_narrow_mappings.

Theorem C37_narrow_sequences cols var val s h ls e : reads s (map RSeq (h :: ls)) e -> NoDup h -> incl cols h -> var <> val -> ~ In var h -> ~ In val h ->
  Forall (fun l => length l = length h) ls ->
  exists blocks, reads (wide_to_narrow (DIter s) cols var val) (concat blocks) e /\
    Forall2 (fun l b => long_dict_block h cols var val (combine h l) b) ls blocks.
Proof. exact (narrow_sequences cols var val s h ls e). Qed.
Print Assumptions C37_narrow_sequences.

(** The first row that has a column named like a new column stops the generator, after the blocks of
    the rows before it. *)
Theorem C37_narrow_clash cols var val s good d rest e : reads s (map RMap good ++ RMap d :: rest) e -> var <> val ->
  Forall (fun d => NoDup (map fst d) /\ incl cols (map fst d) /\ ~ In var (map fst d) /\ ~ In val (map fst d)) good ->
  In var (map fst d) \/ In val (map fst d) ->
  exists blocks, reads (wide_to_narrow (DIter s) cols var val) (concat blocks) (Some ValueError) /\
    Forall2 (fun d b => long_dict_block (map fst d) cols var val d b) good blocks.
Proof. exact (narrow_clash cols var val s good d rest e). Qed.
Print Assumptions C37_narrow_clash.

(** The first row without a stacked column stops it as well, after the rows for the columns before. *)
Theorem C37_narrow_missing cols1 c cols2 var val s good d rest e : reads s (map RMap good ++ RMap d :: rest) e -> var <> val ->
  Forall (fun d => NoDup (map fst d) /\ incl (cols1 ++ c :: cols2) (map fst d) /\ ~ In var (map fst d) /\ ~ In val (map fst d)) good ->
  ~ In var (map fst d) -> ~ In val (map fst d) -> incl cols1 (map fst d) -> ~ In c (map fst d) ->
  exists blocks part, reads (wide_to_narrow (DIter s) (cols1 ++ c :: cols2) var val) (concat blocks ++ part) (Some KeyError) /\
    Forall2 (fun d b => long_dict_block (map fst d) (cols1 ++ c :: cols2) var val d b) good blocks /\ length part = length cols1.
Proof. exact (narrow_no_column cols1 c cols2 var val s good d rest e). Qed.
Print Assumptions C37_narrow_missing.

(** On mappings with the same keys the two functions give the same rows. *)
Theorem C37_narrow_agrees cols var val s d1 ds e : reads s (map RMap (d1 :: ds)) e -> var <> val ->
  Forall (fun d => NoDup (map fst d) /\ incl cols (map fst d) /\ ~ In var (map fst d) /\ ~ In val (map fst d)) (d1 :: ds) ->
  Forall (fun d => map fst d = map fst d1) ds -> cols <> [] ->
  exists s' rows, wide_to_long (DIter s) (SCols cols) var val = Ok s' /\ reads s' rows e /\ reads (wide_to_narrow (DIter s) cols var val) rows e.
Proof. exact (narrow_agrees cols var val s d1 ds e). Qed.
Print Assumptions C37_narrow_agrees.

(** *** Non-vacuity *)
Definition ct (s : string) : cell := CText (txt s).
Definition ex_header : list cell := [ct "A"; ct "B"; ct "C"].
Definition ex_table : stream row := chain [RSeq ex_header; RSeq [ct "x"; COther 10; COther 20]; RSeq [ct "y"; COther 40]; RSeq [ct "z"; COther 70; COther 80; COther 90]] Stop.
Example C37_ex_long : wide_to_long (DIter ex_table) (SCols [ct "C"; ct "B"]) (ct "variable") (ct "value") =
  Ok (chain [RSeq [ct "A"; ct "variable"; ct "value"];
             RSeq [ct "x"; ct "C"; COther 20]; RSeq [ct "x"; ct "B"; COther 10];
             RSeq [ct "y"; ct "C"; CNone]; RSeq [ct "y"; ct "B"; COther 40];
             RSeq [ct "z"; ct "C"; COther 80]; RSeq [ct "z"; ct "B"; COther 70]] Stop).
Proof. vm_compute. reflexivity. Qed.
Lemma ex_header_nodup : NoDup ex_header.
Proof.
  unfold ex_header. repeat constructor; cbn [In]; intro H; repeat destruct H as [H|H]; try exact H; revert H; vm_compute; discriminate.
Qed.
Example C37_ex_hypotheses : exists s' blocks, wide_to_long (DIter ex_table) (SCols [ct "C"; ct "B"]) (ct "variable") (ct "value") = Ok s' /\
  reads s' (RSeq (kept [ct "C"; ct "B"] ex_header ++ [ct "variable"; ct "value"]) :: concat blocks) None /\
  Forall2 (long_block ex_header [ct "C"; ct "B"]) [[ct "x"; COther 10; COther 20]; [ct "y"; COther 40]; [ct "z"; COther 70; COther 80; COther 90]] blocks.
Proof.
  apply C37_long_sequences with (s := ex_table).
  - reflexivity.
  - unfold ex_table. cbn [map chain]. repeat constructor.
  - exact ex_header_nodup.
  - intros x [<-|[<-|[]]]; cbn; auto.
  - left. intros [H|[H|[H|[]]]]; discriminate.
Qed.
Definition ex_dicts : list dict := [[(ct "A", ct "x"); (ct "B", COther 10); (ct "C", COther 20)]; [(ct "A", ct "y"); (ct "B", COther 40); (ct "C", CNone)]].
Example C37_ex_mappings : exists s' rows, wide_to_long (DIter (chain (map RMap ex_dicts) Stop)) (SCols [ct "C"; ct "B"]) (ct "variable") (ct "value") = Ok s' /\
  reads s' rows None /\ reads (wide_to_narrow (DIter (chain (map RMap ex_dicts) Stop)) [ct "C"; ct "B"] (ct "variable") (ct "value")) rows None.
Proof.
  unfold ex_dicts. eapply C37_narrow_agrees with (d1 := [(ct "A", ct "x"); (ct "B", COther 10); (ct "C", COther 20)]) (ds := [[(ct "A", ct "y"); (ct "B", COther 40); (ct "C", CNone)]]).
  - cbn [map chain]. repeat constructor.
  - discriminate.
  - assert (G : forall d : dict, map fst d = ex_header -> NoDup (map fst d) /\ incl [ct "C"; ct "B"] (map fst d) /\ ~ In (ct "variable") (map fst d) /\ ~ In (ct "value") (map fst d)).
    { intros d ->. split; [exact ex_header_nodup|]. split; [intros x [<-|[<-|[]]]; cbn; auto|]. split; intros [H|[H|[H|[]]]]; discriminate. }
    constructor; [apply G; reflexivity|]. constructor; [apply G; reflexivity | constructor].
  - repeat constructor.
  - discriminate.
Qed.

(** *** Findings: what the short statement "wide_to_long is lossless" leaves out *)

(** Stacked columns given as an iterator that can be read once pass the check and are then used up: the
    header keeps all columns and every row of the table is lost, without an error. *)
Theorem C37_iterator_refuted : exists cols, incl cols ex_header /\
  wide_to_long (DIter ex_table) (SOnce cols) (ct "variable") (ct "value") = Ok (chain [RSeq (ex_header ++ [ct "variable"; ct "value"])] Stop).
Proof. exists [ct "B"; ct "C"]. split; [intros x [<-|[<-|[]]]; cbn; auto | vm_compute; reflexivity]. Qed.
Print Assumptions C37_iterator_refuted.
Theorem C37_iterator_loses h s cols var val : incl cols h -> forall rows e, reads s (map RSeq rows) e ->
  exists s', wide_to_long (DIter (Item (RSeq h) s)) (SOnce cols) var val = Ok s' /\ reads s' [RSeq (h ++ [var; val])] e.
Proof.
  intros I rows e R. exists (Item (RSeq (h ++ [var; val])) (sflat (long_rows h h []) s)). split.
  - unfold wide_to_long, wide_to_long_gen. cbn [iter_data checked_cols cols_after]. rewrite (proj2 (check_cols cols h) I). cbn [negb].
    rewrite kept_filter. assert (K : kept [] h = h) by (clear; induction h as [|x h IH]; [reflexivity | cbn; f_equal; exact IH]). rewrite K. reflexivity.
  - constructor. replace (@nil row) with (concat (map (fun _ => @nil row) rows)) by (clear; induction rows; auto).
    eapply sflat_reads; [exact R|]. clear. induction rows; cbn [map]; constructor; auto.
Qed.
Print Assumptions C37_iterator_loses.

(** Two columns of the same name: different tables have the same long table. *)
Theorem C37_same_name_refuted : exists h l1 l2 cols, incl cols h /\ length l1 = length h /\ length l2 = length h /\ l1 <> l2 /\
  wide_to_long (DIter (chain [RSeq h; RSeq l1] Stop)) (SCols cols) (ct "variable") (ct "value") =
  wide_to_long (DIter (chain [RSeq h; RSeq l2] Stop)) (SCols cols) (ct "variable") (ct "value").
Proof.
  exists [ct "A"; ct "A"; ct "B"], [COther 1; COther 2; COther 3], [COther 7; COther 2; COther 3], [ct "B"].
  split; [intros x [<-|[]]; cbn; auto|]. split; [reflexivity|]. split; [reflexivity|]. split; [discriminate | vm_compute; reflexivity].
Qed.
Print Assumptions C37_same_name_refuted.

(** A kept column named like a new column is overwritten in a table of mappings, without an error. *)
Theorem C37_overwritten_refuted : exists d1 d2 cols, map fst d1 = map fst d2 /\ NoDup (map fst d1) /\ incl cols (map fst d1) /\ d1 <> d2 /\
  wide_to_long (DIter (chain [RMap d1] Stop)) (SCols cols) (ct "variable") (ct "value") =
  wide_to_long (DIter (chain [RMap d2] Stop)) (SCols cols) (ct "variable") (ct "value").
Proof.
  exists [(ct "value", COther 1); (ct "B", COther 3)], [(ct "value", COther 2); (ct "B", COther 3)], [ct "B"].
  split; [reflexivity|]. split.
  - cbn [map fst]. repeat constructor; cbn [In]; intro H; repeat destruct H as [H|H]; try exact H; revert H; vm_compute; discriminate.
  - split; [intros x [<-|[]]; cbn; auto|]. split; [discriminate | vm_compute; reflexivity].
Qed.
Print Assumptions C37_overwritten_refuted.

(** Cells beyond the header and keys that the first mapping does not have are dropped, without an error. *)
Theorem C37_extra_cells_refuted : exists l1 l2, l1 <> l2 /\
  wide_to_long (DIter (chain [RSeq ex_header; RSeq l1] Stop)) (SCols [ct "B"]) (ct "variable") (ct "value") =
  wide_to_long (DIter (chain [RSeq ex_header; RSeq l2] Stop)) (SCols [ct "B"]) (ct "variable") (ct "value").
Proof. exists [ct "x"; COther 1; COther 2], [ct "x"; COther 1; COther 2; COther 3]. split; [discriminate | vm_compute; reflexivity]. Qed.
Print Assumptions C37_extra_cells_refuted.
Theorem C37_extra_keys_refuted : exists d1 d2 d2', d2 <> d2' /\
  wide_to_long (DIter (chain [RMap d1; RMap d2] Stop)) (SCols [ct "B"]) (ct "variable") (ct "value") =
  wide_to_long (DIter (chain [RMap d1; RMap d2'] Stop)) (SCols [ct "B"]) (ct "variable") (ct "value").
Proof.
  exists [(ct "A", COther 1); (ct "B", COther 2)], [(ct "A", COther 1); (ct "B", COther 2)], [(ct "A", COther 1); (ct "B", COther 2); (ct "C", COther 3)].
  split; [discriminate | vm_compute; reflexivity].
Qed.
Print Assumptions C37_extra_keys_refuted.

(** Without stacked columns only the header is left of a table. *)
Theorem C37_no_columns_refuted : exists ls1 ls2, ls1 <> ls2 /\
  wide_to_long (DIter (chain (map RSeq (ex_header :: ls1)) Stop)) (SCols []) (ct "variable") (ct "value") =
  wide_to_long (DIter (chain (map RSeq (ex_header :: ls2)) Stop)) (SCols []) (ct "variable") (ct "value").
Proof. exists [[ct "x"; COther 1; COther 2]], []. split; [discriminate | vm_compute; reflexivity]. Qed.
Print Assumptions C37_no_columns_refuted.

(** Data without any item are an error of the generator, not a table without rows. *)
Theorem C37_empty_refuted cols var val : wide_to_long (DIter Stop) cols var val = Err RuntimeError.
Proof. reflexivity. Qed.
Print Assumptions C37_empty_refuted.
