(** C66: tables written to stdout and read from stdin, and lists of names given as arguments. *)
From Coq Require Import Ascii String List.
From Verif Require Import Prelude Selectors_Model FileOpen_Model FileOpen_Spec FileOpen_Proofs Csv_Model Csv_Spec Csv_Proofs Csv_Proofs2.
Import ListNotations.
Local Open Scope N_scope.
Local Open Scope list_scope.

(** Text and its UTF-8 bytes determine each other; no other bytes are accepted. *)
Theorem C66_encoding : forall t b, (py_text t /\ utf8 t = Ok b) <-> utf8_decode b = Ok t.
Proof. intros t b. split; [intros [P U]; eapply decode_utf8; eassumption|apply utf8_of_decode]. Qed.
Print Assumptions C66_encoding.

(** Every file in the format of RFC 4180, with line ends of any system and with or without a
    last line end, is read as the table that it describes. *)
Theorem C66_rfc4180 : forall limit nul_ok t b rows,
  File t rows -> Forall (Forall (Fits limit nul_ok)) rows -> py_text t -> utf8 t = Ok b ->
  read_stdin limit nul_ok b = Ok rows.
Proof.
  intros limit nul_ok t b rows F Fi P U. unfold read_stdin. rewrite (decode_utf8 t b P U). cbn [bind]. apply file_read; assumption.
Qed.
Print Assumptions C66_rfc4180.

(** What is written is in that format and stands for the table written, as long as no cell
    contains a carriage return. *)
Theorem C66_written : forall quote_cr rows b,
  Forall (fun row => row <> []) rows -> Forall (Forall (fun s => ~ In 13 s)) rows ->
  write_stdout quote_cr rows = Ok b -> exists t, utf8 t = Ok b /\ File t rows.
Proof.
  intros quote_cr rows b N0 C W. exists (flat_map (write_row quote_cr) rows). split; [exact W|]. apply written_file; assumption.
Qed.
Print Assumptions C66_written.

(** A table sent from one command to another comes back as it was. *)
Theorem C66_roundtrip : forall limit nul_ok quote_cr rows b,
  Forall (fun row => row <> []) rows ->
  Forall (Forall (fun s => Fits limit nul_ok s /\ py_text s /\ ~ In 13 s)) rows ->
  write_stdout quote_cr rows = Ok b -> read_stdin limit nul_ok b = Ok rows.
Proof.
  intros limit nul_ok quote_cr rows b N0 F W.
  unfold read_stdin. rewrite (decode_utf8 (flat_map (write_row quote_cr) rows) b).
  - cbn [bind]. apply file_read.
    + apply written_file; [exact N0|]. eapply Forall_impl; [|exact F]. intros row. apply Forall_impl. tauto.
    + eapply Forall_impl; [|exact F]. intros row. apply Forall_impl. unfold fits, nul_free, Fits. tauto.
  - intros c I. apply write_in in I. destruct I as [->|[->|[->|(row & s & A & B & C)]]]; try reflexivity.
    rewrite Forall_forall in F. specialize (F row A). rewrite Forall_forall in F. apply (F s B). exact C.
  - exact W.
Qed.
Print Assumptions C66_roundtrip.

(** Writing fails exactly when some cell contains a surrogate, and then as a ValueError. *)
Theorem C66_write_fails : forall quote_cr rows e,
  write_stdout quote_cr rows = Err e <-> e = ValueError /\ ~ Forall (Forall unicode) rows.
Proof.
  intros quote_cr rows e. unfold write_stdout.
  assert (U : unicode (flat_map (write_row quote_cr) rows) <-> Forall (Forall unicode) rows).
  { split.
    - intro U. apply Forall_forall. intros row R. apply Forall_forall. intros s S0 c C. apply U. apply write_contains. eauto.
    - intros F c I. apply write_in in I. destruct I as [->|[->|[->|(row & s & A & B & C)]]]; try lia.
      rewrite Forall_forall in F. specialize (F row A). rewrite Forall_forall in F. exact (F s B c C). }
  split.
  - intro E. split; [eapply utf8_error, E|]. intro F. apply U in F. apply utf8_ok_iff in F. destruct F as (b & F). congruence.
  - intros (-> & N0). destruct (utf8 _) as [b|e] eqn:Q; [exfalso; apply N0, U; apply utf8_ok_iff; eauto|]. f_equal. eapply utf8_error, Q.
Qed.
Print Assumptions C66_write_fails.

(** From Python 3.13 on, any table comes back with the line ends inside cells read as LF. *)
Theorem C66_roundtrip_newlines : forall limit nul_ok rows b,
  Forall (fun row => row <> []) rows ->
  Forall (Forall (fun s => Fits limit nul_ok s /\ py_text s)) rows ->
  write_stdout true rows = Ok b ->
  exists rows', Forall2 (Forall2 Newlines) rows rows' /\ read_stdin limit nul_ok b = Ok rows'.
Proof.
  intros limit nul_ok rows b N0 F W. exists (map (map translate) rows). split.
  - clear. induction rows as [|row rows IH]; constructor; [|exact IH]. induction row as [|s row IH']; constructor; [|exact IH'].
    apply newlines_translate. reflexivity.
  - unfold read_stdin. rewrite (decode_utf8 (flat_map (write_row true) rows) b); [|intros c I|exact W].
    + cbn [bind]. apply file_read.
      * apply write_file; [exact N0|]. apply Forall_forall. intros row _. apply Forall_forall. auto.
      * apply Forall_forall. intros row' I. apply in_map_iff in I. destruct I as (row & <- & I). apply Forall_forall. intros s' J.
        apply in_map_iff in J. destruct J as (s & <- & J). rewrite Forall_forall in F. specialize (F row I). rewrite Forall_forall in F.
        destruct (F s J) as ((L & Z) & _). split; [pose proof (translate_length s); lia|].
        destruct Z as [Z|Z]; [left; exact Z|right]. intro K. apply Z, translate_zero, K.
    + apply write_in in I. destruct I as [->|[->|[->|(row & s & A & B & C)]]]; try reflexivity.
      rewrite Forall_forall in F. specialize (F row A). rewrite Forall_forall in F. apply (F s B). exact C.
Qed.
Print Assumptions C66_roundtrip_newlines.

(** Different tables are written differently. *)
Theorem C66_injective : forall quote_cr rows rows' b,
  Forall (fun row => row <> []) rows -> Forall (fun row => row <> []) rows' ->
  Forall (Forall (fun s => py_text s /\ ~ In 13 s)) rows -> Forall (Forall (fun s => py_text s /\ ~ In 13 s)) rows' ->
  write_stdout quote_cr rows = Ok b -> write_stdout quote_cr rows' = Ok b -> rows = rows'.
Proof.
  intros quote_cr rows rows' b A A' B B' W W'.
  set (m := List.list_max (map (@List.length N) (concat rows ++ concat rows'))).
  assert (M : forall row s, In row rows \/ In row rows' -> In s row -> (List.length s <= m)%nat).
  { intros row s R I. subst m. pose proof (proj1 (list_max_le (map (@List.length N) (concat rows ++ concat rows')) _) (Nat.le_refl _)) as L.
    rewrite Forall_forall in L. apply L. apply (in_map (@List.length N)). apply in_app_iff. destruct R as [R|R]; [left|right]; apply in_concat; eauto. }
  assert (R1 : read_stdin m true b = Ok rows).
  { apply (C66_roundtrip m true quote_cr rows b A); [|exact W]. apply Forall_forall. intros row I. apply Forall_forall. intros s J.
    rewrite Forall_forall in B. specialize (B row I). rewrite Forall_forall in B. destruct (B s J) as (B1 & B2). split; [|split; assumption]. split; [eapply M; eauto|left; reflexivity]. }
  assert (R2 : read_stdin m true b = Ok rows').
  { apply (C66_roundtrip m true quote_cr rows' b A'); [|exact W']. apply Forall_forall. intros row I. apply Forall_forall. intros s J.
    rewrite Forall_forall in B'. specialize (B' row I). rewrite Forall_forall in B'. destruct (B' s J) as (B1 & B2). split; [|split; assumption]. split; [eapply M; eauto|left; reflexivity]. }
  congruence.
Qed.
Print Assumptions C66_injective.

(** Reading never fails on text that is shorter than the limit: broken quotes are repaired
    silently. *)
Theorem C66_total : forall limit nul_ok t b,
  Fits limit nul_ok t -> py_text t -> utf8 t = Ok b -> exists rows, read_stdin limit nul_ok b = Ok rows.
Proof.
  intros limit nul_ok t b (L & Z) P U. unfold read_stdin. rewrite (decode_utf8 t b P U). cbn [bind]. apply read_total; assumption.
Qed.
Print Assumptions C66_total.

(** * Names given as arguments *)

(** The arguments are taken one after the other. *)
Theorem C66_args : forall limit nul_ok word a b,
  normalize_arg_list limit nul_ok word (a ++ b) =
  do x <- normalize_arg_list limit nul_ok word a; do y <- normalize_arg_list limit nul_ok word b; Ok (x ++ y).
Proof. intros. apply normalize_app. Qed.
Print Assumptions C66_args.

(** Names are never empty, never padded and never contain a line end. *)
Theorem C66_args_clean : forall limit nul_ok word args l,
  normalize_arg_list limit nul_ok word args = Ok l -> Forall (Clean line_end space) l.
Proof. intros. eapply normalize_clean; eassumption. Qed.
Print Assumptions C66_args_clean.

(** A line in the format of RFC 4180, with white space around the names, gives the names that
    are not empty. *)
Theorem C66_args_names : forall limit nul_ok word e cs labels,
  Record_ e cs -> Forall (fun c => line_end c = false) e -> Forall (Fits limit nul_ok) cs ->
  Forall2 (Padded space) cs labels ->
  normalize_arg_list limit nul_ok word [e] = Ok (filter (fun x => match x with [] => false | _ => true end) labels).
Proof. intros limit nul_ok word e cs labels R F Fi P. exact (normalize_record limit nul_ok word e cs labels R F Fi P). Qed.
Print Assumptions C66_args_names.

(** Names that are written like cells come back in their order. *)
Theorem C66_args_quoted : forall limit nul_ok word quote_cr labels,
  labels <> [] -> Forall (Clean line_end space) labels -> Forall (Fits limit nul_ok) labels ->
  normalize_arg_list limit nul_ok word [join_cells (map (write_cell quote_cr) labels)] = Ok labels.
Proof.
  intros limit nul_ok word quote_cr labels N0 C F.
  assert (CR : Forall (fun s => quote_cr = true \/ ~ In 13 s) labels).
  { eapply Forall_impl; [|exact C]. intros s (_ & L & _). right. intro I. rewrite Forall_forall in L. apply L in I. discriminate. }
  assert (R : Record_ (join_cells (map (write_cell quote_cr) labels)) labels).
  { assert (T : map translate labels = labels).
    { rewrite <- (map_id labels) at 2. apply map_ext_in. intros s I. apply translate_id. rewrite Forall_forall in C. destruct (C s I) as (_ & L & _).
      intro K. rewrite Forall_forall in L. apply L in K. discriminate. }
    rewrite <- T at 2. clear -N0 CR. revert N0 CR. induction labels as [|s row IH]; intros N0 CR; [congruence|]. inversion CR; subst. destruct row as [|s' row].
    - cbn. constructor. apply write_cell_cell; assumption.
    - cbn [map]. rewrite join_cons. constructor; [apply write_cell_cell; assumption|]. apply IH; [discriminate|assumption]. }
  rewrite (normalize_record limit nul_ok word _ labels labels).
  - f_equal. clear -C. induction C as [|s l (N0 & _) C IH]; [reflexivity|]. cbn. destruct s; [congruence|]. cbn. congruence.
  - exact R.
  - apply Forall_forall. intros c I.
    assert (J : In c (flat_map (write_row quote_cr) [labels])).
    { cbn. rewrite app_nil_r. unfold write_row. destruct labels as [|[|x s] [|s' row]]; try (apply in_app_iff; left; exact I). destruct I. }
    apply cell_chars in I. destruct I as [->|[->|(s & A & B)]]; try reflexivity.
    rewrite Forall_forall in C. destruct (C s A) as (_ & L & _). rewrite Forall_forall in L. auto.
  - exact F.
  - clear -C. induction C as [|s l (N0 & _ & A & B) C IH]; constructor; [|exact IH].
    exists [], []. rewrite app_nil_r. repeat split; auto.
Qed.
Print Assumptions C66_args_quoted.

(** A line end between two words counts as a space. *)
Theorem C66_args_wrapped : forall limit nul_ok word p x nl y q,
  word 10 = false -> word 13 = false -> word 32 = false -> word x = true -> word y = true ->
  nl = [10] \/ nl = [13; 10] ->
  normalize_arg_list limit nul_ok word [p ++ x :: nl ++ y :: q] = normalize_arg_list limit nul_ok word [p ++ x :: 32 :: y :: q].
Proof. intros limit nul_ok word p x nl y q W1 W2 W3 X Y NL. cbn [normalize_arg_list]. rewrite (sub_join word p x nl y q) by assumption. reflexivity. Qed.
Print Assumptions C66_args_wrapped.

(** A line end beside any other character (after a comma, say) does not count at all. *)
Theorem C66_args_wrapped_elsewhere : forall limit nul_ok word p x y q,
  word 10 = false -> word 13 = false -> x <> 10 -> x <> 13 -> y <> 10 -> y <> 13 -> word x && word y = false ->
  normalize_arg_list limit nul_ok word [p ++ x :: 10 :: y :: q] = normalize_arg_list limit nul_ok word [p ++ x :: y :: q].
Proof. intros limit nul_ok word p x y q W1 W2 A B C D W. cbn [normalize_arg_list]. rewrite (sub_drop word p x y q) by assumption. reflexivity. Qed.
Print Assumptions C66_args_wrapped_elsewhere.

(** * What does not hold *)

(** Before Python 3.13 a lone carriage return in a cell breaks the row in two. *)
Theorem C66_cr_splits_row_refuted : ~ (forall rows b, Forall (fun row => row <> []) rows -> Forall (Forall unicode) rows ->
  write_stdout false rows = Ok b -> exists rows', read_stdin std_limit true b = Ok rows' /\ List.length rows' = List.length rows).
Proof.
  intro H. destruct (H [[[97; 13; 98]; [99]]] [97; 13; 98; 44; 99; 10]) as (rows' & R & L).
  - constructor; [discriminate|constructor].
  - repeat constructor; intros c I; cbn [In] in I; lia.
  - vm_compute. reflexivity.
  - assert (E : read_stdin std_limit true [97; 13; 98; 44; 99; 10] = Ok [[[97]]; [[98]; [99]]]) by (vm_compute; reflexivity).
    rewrite E in R. injection R as <-. discriminate L.
Qed.
Print Assumptions C66_cr_splits_row_refuted.

(** With any Python a CR LF inside a cell does not survive. *)
Theorem C66_crlf_refuted : ~ (forall quote_cr rows b, Forall (fun row => row <> []) rows -> Forall (Forall unicode) rows ->
  write_stdout quote_cr rows = Ok b -> read_stdin std_limit true b = Ok rows).
Proof.
  intro H. specialize (H true [[[97; 13; 10; 98]]] [34; 97; 13; 10; 98; 34; 10]).
  assert (E : read_stdin std_limit true [34; 97; 13; 10; 98; 34; 10] = Ok [[[97; 10; 98]]]) by (vm_compute; reflexivity).
  rewrite E in H. discriminate H.
  - constructor; [discriminate|constructor].
  - repeat constructor; intros c I; cbn [In] in I; lia.
  - vm_compute. reflexivity.
Qed.
Print Assumptions C66_crlf_refuted.

(** A file that starts with a byte order mark, as spreadsheets save it, has the mark in the name
    of its first column. *)
Theorem C66_bom_refuted : ~ (forall t rows b, File t rows -> Forall (Forall (Fits std_limit true)) rows -> py_text t ->
  utf8 (65279 :: t) = Ok b -> read_stdin std_limit true b = Ok rows).
Proof.
  intro H. specialize (H (txt "id") [[txt "id"]] [239; 187; 191; 105; 100]).
  assert (E : read_stdin std_limit true [239; 187; 191; 105; 100] = Ok [[[65279; 105; 100]]]) by (vm_compute; reflexivity).
  rewrite E in H. discriminate H.
  - apply F_last; [|discriminate]. apply R_one, C_plain. repeat constructor; discriminate.
  - constructor; [|constructor]. constructor; [|constructor]. split; [|left; reflexivity]. apply Nat.leb_le. vm_compute. reflexivity.
  - intros c I. cbn in I. lia.
  - vm_compute. reflexivity.
Qed.
Print Assumptions C66_bom_refuted.

(** A quoted name after a comma and a space is torn apart at the comma inside it. *)
Theorem C66_args_quote_after_space_refuted : ~ (forall word a b,
  Plain a -> Clean line_end space a -> Clean line_end space b ->
  normalize_arg_list std_limit true word [a ++ [44; 32] ++ write_cell false b] = Ok [a; b]).
Proof.
  intro H. specialize (H (fun _ => true) [65] [66; 44; 67]).
  assert (E : normalize_arg_list std_limit true (fun _ => true) [[65] ++ [44; 32] ++ write_cell false [66; 44; 67]] = Ok [[65]; [34; 66]; [67; 34]])
    by (vm_compute; reflexivity).
  rewrite E in H.
  assert (C : Forall (Clean line_end space) [[65]; [66; 44; 67]])
    by (apply (normalize_clean std_limit true (fun _ => true) [[65]; [34; 66; 44; 67; 34]]); vm_compute; reflexivity).
  inversion C as [|? ? C1 C']; subst. inversion C' as [|? ? C2 C'']; subst.
  assert (P : Plain [65]) by (repeat constructor; discriminate).
  specialize (H P C1 C2). discriminate H.
Qed.
Print Assumptions C66_args_quote_after_space_refuted.

(** A carriage return alone between two words, though a line end, glues the words. *)
Theorem C66_args_cr_refuted : ~ (forall word p x y q, word 10 = false -> word 13 = false -> word 32 = false -> word x = true -> word y = true ->
  normalize_arg_list std_limit true word [p ++ x :: 13 :: y :: q] = normalize_arg_list std_limit true word [p ++ x :: 32 :: y :: q]).
Proof.
  intro H. specialize (H (fun c => (97 <=? c) && (c <=? 122)) [] 97 98 [] eq_refl eq_refl eq_refl eq_refl eq_refl).
  vm_compute in H. discriminate H.
Qed.
Print Assumptions C66_args_cr_refuted.

(** * Concrete cases *)

Definition q : text := [34].
Definition ex_rows : list (list text) :=
  [[txt "id"; txt "county"]; [txt "1"; txt "a" ++ q ++ txt "b,c"]; [[]]; [txt "x" ++ [10] ++ txt "y"; [233; 8364; 128512]]].
Definition ex_bytes : list N :=
  match write_stdout false ex_rows with Ok b => b | Err _ => [] end.

Example C66_roundtrip_case :
  write_stdout false ex_rows = Ok ex_bytes /\ read_stdin std_limit true ex_bytes = Ok ex_rows.
Proof. split; vm_compute; reflexivity. Qed.

(** The hypotheses of [C66_roundtrip] for that table. *)
Example C66_roundtrip_hyps : Forall (fun row => row <> []) ex_rows
  /\ Forall (Forall (fun s => Fits std_limit true s /\ py_text s /\ ~ In 13 s)) ex_rows.
Proof.
  split; [repeat constructor; discriminate|].
  assert (B : forall s, (List.length s <=? std_limit)%nat && forallb (fun c => (c <? 1114112) && negb (c =? 13)) s = true -> Fits std_limit true s /\ py_text s /\ ~ In 13 s).
  { intros s E. apply andb_true_iff in E. destruct E as [L E]. rewrite forallb_forall in E. split; [split; [apply Nat.leb_le, L|left; reflexivity]|].
    split; [intros c I; apply E in I; apply andb_true_iff in I; apply N.ltb_lt; tauto|]. intro I. apply E in I. discriminate. }
  apply Forall_forall. intros row I. apply Forall_forall. intros s J. apply B.
  assert (A : forallb (forallb (fun s => (List.length s <=? std_limit)%nat && forallb (fun c => (c <? 1114112) && negb (c =? 13)) s)) ex_rows = true) by (vm_compute; reflexivity).
  rewrite forallb_forall in A. specialize (A row I). rewrite forallb_forall in A. apply A, J.
Qed.

(** A file with line ends of all systems, a blank line, a quoted line end and no last line end. *)
Example C66_rfc4180_case : File ([97; 44] ++ [13; 10] ++ [10] ++ [34; 34; 34; 13; 34] ++ [13] ++ [98]) [[[97]; []]; []; [[34; 10]]; [[98]]]
  /\ reader std_limit true (lines (translate ([97; 44] ++ [13; 10] ++ [10] ++ [34; 34; 34; 13; 34] ++ [13] ++ [98]))) = Ok [[[97]; []]; []; [[34; 10]]; [[98]]].
Proof.
  split; [|vm_compute; reflexivity].
  apply F_more; [|discriminate|right; left; reflexivity|].
  { apply (R_more [97] [97] [] [[]]); [apply C_plain; repeat constructor; discriminate|apply R_one, C_plain; constructor]. }
  apply F_blank; [left; reflexivity|]. apply F_more; [|discriminate|right; right; split; [reflexivity|discriminate]|].
  { apply R_one. apply (C_quoted [34; 34; 13] [34; 13] [34; 10]); repeat constructor; discriminate. }
  apply F_last; [|discriminate]. apply R_one, C_plain. repeat constructor; discriminate.
Qed.

(** The documented cases of lists of names, and quoted ones. *)
Definition az (c : N) : bool := (65 <=? c) && (c <=? 90) || (97 <=? c) && (c <=? 122).
Example C66_args_case :
  normalize_arg_list std_limit true az [txt "A , B"; txt " ,C "] = Ok [txt "A"; txt "B"; txt "C"]
  /\ normalize_arg_list std_limit true az [q ++ txt "A,B" ++ q ++ txt " ,C"; txt "New" ++ [13; 10] ++ txt "York," ++ [10] ++ txt "D"]
     = Ok [txt "A,B"; txt "C"; txt "New York"; txt "D"]
  /\ Forall (Clean line_end space) [txt "A,B"; txt "New York"].
Proof.
  split; [vm_compute; reflexivity|]. split; [vm_compute; reflexivity|].
  apply (normalize_clean std_limit true az [q ++ txt "A,B" ++ q; txt "New York"]). vm_compute. reflexivity.
Qed.

(** Broken quotes are accepted. *)
Example C66_total_case : read_stdin std_limit true (txt "a," ++ q ++ txt "b" ++ [10] ++ txt "c") = Ok [[txt "a"; txt "b" ++ [10] ++ txt "c"]].
Proof. vm_compute. reflexivity. Qed.

(** A surrogate cannot be written. *)
Example C66_write_fails_case : write_stdout true [[txt "a"; [55300]]] = Err ValueError.
Proof. vm_compute. reflexivity. Qed.
