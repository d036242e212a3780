(** C55: writing the index to a CSV file and loading it again. *)
From Verif Require Import Prelude QLemmas Selectors_Model Reader_Model LinkRef_Model IndexCode_Model IndexCode_Spec Db_Model Db_Spec Db_ProofsRun Db_ProofsOps Db_Properties
  Streams_Model IndexCli_Model IndexCli_Spec IndexCli_Proofs IndexCli_Proofs3 IndexCli_Proofs5 IndexCli_Proofs6 IndexCli_Proofs7 IndexCli_Proofs8.
From Coq Require Import NArith Permutation Ascii String List.
Local Open Scope list_scope.
Local Open Scope nat_scope.

(** In all theorems the spaces are in any state that operations can lead to; [nd] and [nt] are the nodes of the
    space that is written and of the one that is loaded into, [h] is the domain of the former; [todecimal],
    [show] and [read_float] are the decimal digits of Unicode, [repr] and [float]. *)

(** *** Writing *)

(** Writing never fails.  The header has a name for the column of the codes and the names of the label columns and of the groups, the default group
    first and the others by name; there is one row for each record, in their order. *)
Theorem C55_export todecimal show u h ops : let s := run ops fresh in
  exists names body first, write_index show u h s = Ok (index_header h s :: body) /\
    index_header h s = CText first :: map CText (d_labels s) ++ map CText names /\ named_for h first /\
    Permutation names (map g_name (d_groups s)) /\ in_order (comes_before s) names /\
    Forall2 (row_tells todecimal show u s names) (d_index s) body.
Proof.
  cbv zeta. destruct (run_state ops) as [I _]. destruct (export_succeeds todecimal show u h _ (i_index _ I) (seq_run ops)) as (rows & E).
  destruct (export_rows todecimal show u h _ rows (i_index _ I) (i_weights _ I) E) as (body & -> & F).
  exists (map g_name (sorted_groups (run ops fresh))), body, (code_header h). split; [exact E|]. split; [unfold index_header; now rewrite map_map|].
  split; [apply code_header_named|].
  split; [apply Permutation_map, sorted_groups_perm|]. split; [apply groups_in_order, (i_weights _ I)|exact F].
Qed.
Print Assumptions C55_export.

(** *** Loading *)

(** Loading is an insertion of index records or nothing, so what holds in all reachable states (C25-C33) holds
    after loading any table. *)
Theorem C55_import_is_operation todecimal read_float nd lpol wpol reader ops :
  exists ops', fst (import_index todecimal read_float nd lpol wpol reader (run ops fresh)) = run (ops ++ ops') fresh.
Proof.
  destruct (import_is_op todecimal read_float nd lpol wpol reader (run ops fresh)) as (ops' & E). exists ops'. now rewrite run_app.
Qed.
Print Assumptions C55_import_is_operation.

(** Whatever the table: if a row ends before one of the label columns, nothing is loaded. *)
Theorem C55_short_row todecimal read_float nd lpol wpol header rows row x ops : let s := run ops fresh in
  In x (d_labels s) -> x <> txt "index_id" -> ends_before header x row -> In row rows ->
  let result := import_index todecimal read_float nd lpol wpol (reader_of (header :: rows)) s in
  fst result = s /\ snd result <> Ok ExitOk.
Proof. cbv zeta. exact (short_refused todecimal read_float nd lpol wpol header rows row x (run ops fresh)). Qed.
Print Assumptions C55_short_row.

(** Loading some of the rows, in any order and any number of times, into the space that they come from changes
    nothing. *)
Theorem C55_own_space todecimal show read_float nd h ops rows rows' lpol wpol : let s := run ops fresh in let u := n_id_bytes nd in
  d_labels s <> [] -> good_names todecimal u (index_header h s) -> good_labels todecimal u s -> faithful show read_float ->
  write_index show u h s = Ok rows -> incl rows' (tl rows) ->
  let result := import_index todecimal read_float nd lpol wpol (reader_of (index_header h s :: rows')) s in
  (Exists (unloadable todecimal u wpol s) rows' -> result = (s, Ok ExitErr)) /\
  (~ Exists (unloadable todecimal u wpol s) rows' -> result = (s, Ok ExitOk)).
Proof. cbv zeta. destruct (run_state ops) as [I F]. exact (own_space todecimal show read_float nd _ h rows rows' lpol wpol I F). Qed.
Print Assumptions C55_own_space.

(** A row with the code of a record, a weight, and no labels sets the weight of this record and of no other; where
    it has one, the policy decides. *)
Theorem C55_by_code todecimal show read_float nd c0 g r code v lpol wpol ops : let s := run ops fresh in let u := n_id_bytes nd in
  weights_attached s -> d_labels s <> [] -> faithful show read_float -> good_names todecimal u [CText c0; CText (g_name g)] ->
  (forall x, In x (d_labels s) -> x <> txt "index_id" /\ x <> g_name g) -> ~ has_group s (txt "index_id") -> In g (d_groups s) ->
  In r (d_index s) -> ix_id r <> 0%Z -> index_id_to_code (ix_id r) u = Ok code -> (0 <= v)%Q ->
  let new := fun n l q => n = g_name g /\ l = ix_labels r /\ q = v in
  let result := import_index todecimal read_float nd lpol wpol (reader_of [[CText c0; CText (g_name g)]; [CText code; CText (show v)]]) s in
  (strict wpol -> conflict new (weighs s) -> result = (s, Ok ExitErr)) /\
  (~ (strict wpol /\ conflict new (weighs s)) -> exists s', result = (s', Ok ExitOk) /\ reweighed wpol new s s').
Proof.
  cbv zeta. destruct (run_state ops) as [I F]. exact (by_code todecimal show read_float nd _ c0 g r code v lpol wpol I (seq_run ops) F).
Qed.
Print Assumptions C55_by_code.

(** Finding: if the space has a weight group, the table as it is written is never accepted by the space it comes
    from, because it has a weight for the undefined record. *)
Theorem C55_own_space_refuted todecimal show read_float nd h ops rows lpol wpol : let s := run ops fresh in let u := n_id_bytes nd in
  d_labels s <> [] -> d_groups s <> [] -> good_names todecimal u (index_header h s) -> good_labels todecimal u s -> faithful show read_float ->
  write_index show u h s = Ok rows ->
  import_index todecimal read_float nd lpol wpol (reader_of rows) s = (s, Ok ExitErr).
Proof.
  cbv zeta. intros Hl Hg Hn Hgl Hf Hw. destruct (run_state ops) as [I F].
  destruct (exported_all todecimal show nd _ h rows Hw) as (E1 & E2 & E3).
  destruct (own_space todecimal show read_float nd _ h rows (tl rows) lpol wpol I F Hl Hn Hgl Hf Hw (incl_refl _)) as [A _].
  destruct rows as [|hd' body]; [discriminate|]. cbn [hd tl] in *. subst hd'. apply A. apply Exists_exists.
  pose proof (iw_undefined _ (i_index _ I)) as Hu. eexists. split; [rewrite E2; apply in_map; exact Hu|].
  exists 0%Z. split; [|auto]. eexists _, _. split; [reflexivity|]. exact (E3 _ Hu).
Qed.
Print Assumptions C55_own_space_refuted.

(** Loading the rows of the defined records, in any order, into another space with the same label columns adds the
    records that it does not have and the weights in the groups that it has; nothing else changes.  Where both
    spaces have a weight, the policy decides; if it is strict nothing is loaded. *)
Theorem C55_other_space todecimal show read_float nd nt h ops ops' rows row0 rows' lpol wpol :
  let s := run ops fresh in let t := run ops' fresh in
  weights_attached t -> d_labels s <> [] -> d_labels t = d_labels s -> faithful show read_float ->
  NoDup (index_header h s) -> ~ In (CText (txt "index_id")) (index_header h s) ->
  (forall n, has_group t n -> n <> code_header h /\ ~ In n (d_labels t)) ->
  write_index show (n_id_bytes nd) h s = Ok rows ->
  undefined_row todecimal (n_id_bytes nd) row0 -> Permutation (row0 :: rows') (tl rows) ->
  foreign todecimal (n_id_bytes nt) (index_header h s :: rows') -> (d_seq t + Z.of_nat (List.length rows') <= max_id)%Z ->
  let new := fun n l v => weighs s n l v /\ has_group t n in
  let result := import_index todecimal read_float nt lpol wpol (reader_of (index_header h s :: rows')) t in
  (strict wpol -> conflict new (weighs t) -> result = (t, Ok ExitErr)) /\
  (~ (strict wpol /\ conflict new (weighs t)) -> exists t', result = (t', Ok ExitOk) /\ combined wpol s t t').
Proof.
  cbv zeta. destruct (run_state ops) as [I _]. destruct (run_state ops') as [It Ft].
  exact (other_import todecimal show read_float nd nt _ _ h rows row0 rows' lpol wpol I It Ft).
Qed.
Print Assumptions C55_other_space.

(** Finding: a table with the row of the undefined record is never accepted by a space that has one of the groups. *)
Theorem C55_other_space_refuted todecimal show read_float nd nt h ops ops' rows row0 rows' lpol wpol n :
  let s := run ops fresh in let t := run ops' fresh in
  d_labels s <> [] -> d_labels t = d_labels s -> faithful show read_float ->
  NoDup (index_header h s) -> ~ In (CText (txt "index_id")) (index_header h s) ->
  (forall n, has_group t n -> n <> code_header h /\ ~ In n (d_labels t)) ->
  write_index show (n_id_bytes nd) h s = Ok rows -> incl rows' (tl rows) ->
  undefined_row todecimal (n_id_bytes nd) row0 -> In row0 rows' -> has_group s n -> has_group t n ->
  foreign todecimal (n_id_bytes nt) (index_header h s :: rows') ->
  let result := import_index todecimal read_float nt lpol wpol (reader_of (index_header h s :: rows')) t in
  fst result = t /\ snd result <> Ok ExitOk.
Proof.
  cbv zeta. destruct (run_state ops) as [I _]. destruct (run_state ops') as [It _].
  exact (undefined_spoils todecimal show read_float nd nt _ _ h rows row0 rows' lpol wpol n I It).
Qed.
Print Assumptions C55_other_space_refuted.

(** *** Cases *)

(** Numbers as tally marks: numerator / denominator. *)
Definition tally_show (q : Q) : text :=
  (if Z.ltb (Qnum q) 0 then [45%N] else []) ++ repeat 49%N (Z.abs_nat (Qnum q)) ++ 47%N :: repeat 49%N (Pos.to_nat (Qden q)).
Fixpoint marks (t : text) : nat * text :=
  match t with 49%N :: t' => let '(n, r) := marks t' in (S n, r) | _ => (0, t) end.
Definition sign (t : text) : bool * text := match t with 45%N :: t' => (true, t') | _ => (false, t) end.
Definition tally_read (t : text) : option Q :=
  let '(neg, t) := sign t in
  let '(n, r) := marks t in
  match r with
  | 47%N :: r' => let '(d, _) := marks r' in Some (Qmake (if neg : bool then - Z.of_nat n else Z.of_nat n) (Pos.of_nat d))
  | _ => None
  end.
Lemma marks_repeat n r : (forall r', r <> 49%N :: r') -> marks (repeat 49%N n ++ r) = (n, r).
Proof.
  intros H. induction n as [|n IH]; cbn [repeat app marks]; [|now rewrite IH].
  destruct r as [|c r]; [reflexivity|]. cbn [marks]. destruct (N.eq_dec c 49) as [->|E]; [exfalso; now apply (H r)|].
  destruct c as [|p]; auto. repeat (destruct p as [p|p|]; auto). congruence.
Qed.
Lemma tally_faithful : faithful tally_show tally_read.
Proof.
  intros [n d]. unfold tally_show, tally_read. cbn [Qnum Qden]. split; [|split].
  - assert (E : forall m, marks (repeat 49%N m ++ 47%N :: repeat 49%N (Pos.to_nat d)) = (m, 47%N :: repeat 49%N (Pos.to_nat d))) by (intros m; apply marks_repeat; discriminate).
    assert (Ed : marks (repeat 49%N (Pos.to_nat d)) = (Pos.to_nat d, [])) by (rewrite <- (app_nil_r (repeat 49%N (Pos.to_nat d))); apply marks_repeat; discriminate).
    destruct (Z.ltb_spec n 0) as [L|L]; cbn [app].
    + cbn [sign]. rewrite E, Ed. rewrite Pos2Nat.id. repeat f_equal. lia.
    + destruct (repeat 49%N (Z.abs_nat n) ++ 47%N :: repeat 49%N (Pos.to_nat d)) as [|c l] eqn:El; [destruct (Z.abs_nat n); discriminate|].
      assert (Hc : (c = 49 \/ c = 47)%N) by (destruct (Z.abs_nat n); injection El as <- _; auto).
      assert (Em : sign (c :: l) = (false, c :: l)) by (destruct Hc as [-> | ->]; reflexivity).
      rewrite Em, <- El, E, Ed, Pos2Nat.id. repeat f_equal. lia.
  - destruct (Z.ltb n 0); [discriminate|]. cbn [app]. destruct (Z.abs_nat n); discriminate.
  - intros H. rewrite !in_app_iff in H. cbn [In] in H.
    destruct H as [H|[H|[H|H]]]; [destruct (Z.ltb n 0); [destruct H as [H|[]]; discriminate|destruct H] |apply repeat_spec in H; discriminate|discriminate|apply repeat_spec in H; discriminate].
Qed.

Definition ascii_only (_ : N) : option N := None.
Definition node1 : node := {| n_id_bytes := repeat 1%N 16; n_index_columns := [txt "A"; txt "B"] |}.
Definition node2 : node := {| n_id_bytes := repeat 2%N 16; n_index_columns := [txt "A"; txt "B"] |}.
(** The other space has one record of [hist], with another weight, and one of its own. *)
Definition hist2 : list op :=
  [OAddColumns [txt "A"; txt "B"]; OAddGroup (txt "pop") false None; OAddGroup (txt "area") false None;
   OInsertIndex None [txt "pop"] PAbort PAbort [rec_ "x" "1" 7; rec_ "z" "9" 1]].
Definition table1 : list (list cell) :=
  Eval vm_compute in match write_index tally_show (n_id_bytes node1) [] (run hist fresh) with Ok rows => rows | Err _ => [] end.
(** Concrete tables. *)
Ltac each H := repeat (destruct H as [H|H]; [|]); try (exfalso; exact H).
Ltac codes :=
  let row := fresh in let t := fresh in let Hr := fresh in let Ht := fresh in
  intros row t Hr Ht; vm_compute in Hr; each Hr; subst row; vm_compute in Ht; each Ht;
  first [injection Ht as <- | subst t]; vm_compute; (reflexivity || discriminate).

Example table1_case : write_index tally_show (n_id_bytes node1) [] (run hist fresh) = Ok table1 /\
  map (firstn 3) table1 =
    [[CText (txt "index_code"); CText (txt "A"); CText (txt "B")];
     [CText (txt "0X1DDAA9C2"); CText (txt "-"); CText (txt "-")];
     [CText (txt "1X9A7C6281"); CText (txt "x"); CText (txt "1")];
     [CText (txt "2XC9E63905"); CText (txt "x"); CText (txt "2")];
     [CText (txt "3X4E40F246"); CText (txt "y"); CText (txt "1")]] /\
  map (skipn 3) table1 = map (fun c => [c]) [CText (txt "pop"); CText (tally_show 0); CText (tally_show 10); CText (tally_show 20); CText (tally_show 0)].
Proof. vm_compute. repeat split; reflexivity. Qed.
Definition rows1 : list (list cell) := skipn 2 table1.

(** The hypotheses of [C55_own_space] hold; loading the second and the third record changes nothing, a strict
    policy refuses, and so does every policy if the row of the undefined record is there. *)
Example own_case : let s := run hist fresh in
  (d_labels s <> [] /\ d_groups s <> [] /\ good_names ascii_only (n_id_bytes node1) (index_header [] s) /\
   good_labels ascii_only (n_id_bytes node1) s /\ faithful tally_show tally_read) /\
  import_index ascii_only tally_read node1 PAbort PReplace (reader_of (index_header [] s :: skipn 1 rows1)) s = (s, Ok ExitOk) /\
  import_index ascii_only tally_read node1 PAbort PAbort (reader_of (index_header [] s :: skipn 1 rows1)) s = (s, Ok ExitErr) /\
  import_index ascii_only tally_read node1 PAbort PReplace (reader_of table1) s = (s, Ok ExitErr).
Proof.
  cbv zeta. split; [|vm_compute; repeat split; reflexivity].
  split; [vm_compute; discriminate|]. split; [vm_compute; discriminate|]. split; [split; [|split]|split; [|exact tally_faithful]].
  - vm_compute. repeat constructor; cbn [In]; intros H; each H; discriminate.
  - vm_compute. intros H. each H; discriminate.
  - intros t Ht. vm_compute in Ht. each Ht; injection Ht as <-; vm_compute; reflexivity.
  - codes.
Qed.

Definition seen (s : db) := (map (fun r => (ix_id r, ix_labels r)) (d_index s), show_weights s).
Definition groups2 := Eval vm_compute in d_groups (run hist2 fresh).
Definition labels2 := Eval vm_compute in d_labels (run hist2 fresh).
Lemma groups2_is : d_groups (run hist2 fresh) = groups2. Proof. vm_cast_no_check (eq_refl groups2). Qed.
Lemma labels2_is : d_labels (run hist2 fresh) = labels2. Proof. vm_cast_no_check (eq_refl labels2). Qed.
(** The hypotheses of [C55_other_space] hold; the record x, 1 has the weight 7 there and 10 here. *)
Example other_case : let s := run hist fresh in let t := run hist2 fresh in
  let load pol := import_index ascii_only tally_read node2 PAbort pol (reader_of (index_header [] s :: rows1)) t in
  (weights_attached t /\ d_labels s <> [] /\ d_labels t = d_labels s /\ NoDup (index_header [] s) /\
   ~ In (CText (txt "index_id")) (index_header [] s) /\ (forall n, has_group t n -> n <> code_header [] /\ ~ In n (d_labels t)) /\
   (exists row0, undefined_row ascii_only (n_id_bytes node1) row0 /\ Permutation (row0 :: rows1) (tl table1)) /\
   foreign ascii_only (n_id_bytes node2) (index_header [] s :: rows1) /\ (d_seq t + Z.of_nat (List.length rows1) <= max_id)%Z /\
   conflict (fun n l v => weighs s n l v /\ has_group t n) (weighs t)) /\
  load PAbort = (t, Ok ExitErr) /\
  (let records := [(0, [txt "-"; txt "-"]); (1, [txt "x"; txt "1"]); (2, [txt "z"; txt "9"]); (3, [txt "x"; txt "2"]); (4, [txt "y"; txt "1"])]%Z in
   snd (load PIgnore) = Ok ExitOk /\ seen (fst (load PIgnore)) = (records, [(1%Z, 1%Z, 7%Q); (1%Z, 2%Z, 1%Q); (1%Z, 3%Z, 20%Q); (1%Z, 4%Z, 0%Q)]) /\
   snd (load PReplace) = Ok ExitOk /\ seen (fst (load PReplace)) = (records, [(1%Z, 1%Z, 10%Q); (1%Z, 2%Z, 1%Q); (1%Z, 3%Z, 20%Q); (1%Z, 4%Z, 0%Q)])).
Proof.
  cbv zeta. split; [|vm_compute; repeat split; reflexivity].
  split.
  { intros w Hw. vm_compute in Hw. each Hw; subst w;
      [exists {| ix_id := 1; ix_labels := [txt "x"; txt "1"] |}|exists {| ix_id := 2; ix_labels := [txt "z"; txt "9"] |}]; vm_compute; auto. }
  split; [vm_compute; discriminate|]. split; [reflexivity|].
  split; [vm_compute; repeat constructor; cbn [In]; intros H; each H; discriminate|].
  split; [vm_compute; intros H; each H; discriminate|].
  split.
  { intros n (g & Hg & <-). rewrite groups2_is in Hg. rewrite labels2_is. unfold groups2, labels2 in *.
    each Hg; subst g; cbn [g_name]; (split; [vm_compute; discriminate|]); intros H; each H; discriminate. }
  split.
  { exists (nth 1 table1 []). split; [|change (tl table1) with (nth 1 table1 [] :: rows1); reflexivity].
    exists (txt "0X1DDAA9C2"), (tl (nth 1 table1 [])). split; vm_compute; reflexivity. }
  split; [codes|]. split; [vm_compute; discriminate|].
  exists (txt "pop"), [txt "x"; txt "1"], 10%Q, 7%Q. split; [split|].
  - exists {| g_id := 1; g_name := txt "pop"; g_complete := true |}, {| ix_id := 1; ix_labels := [txt "x"; txt "1"] |}, {| w_group := 1; w_index := 1; w_value := 10 |}.
    vm_compute. repeat split; auto 10.
  - eexists. split; [vm_compute; left; reflexivity|reflexivity].
  - eexists _, {| ix_id := 1; ix_labels := [txt "x"; txt "1"] |}, {| w_group := 1; w_index := 1; w_value := 7 |}.
    split; [vm_compute; left; reflexivity|]. vm_compute. repeat split; auto 10.
Qed.
(** The complete table is refused by the other space. *)
Example other_refused : snd (import_index ascii_only tally_read node2 PAbort PReplace (reader_of table1) (run hist2 fresh)) = Ok ExitErr /\
  has_group (run hist fresh) (txt "pop") /\ has_group (run hist2 fresh) (txt "pop") /\
  foreign ascii_only (n_id_bytes node2) (index_header [] (run hist fresh) :: tl table1).
Proof.
  split; [vm_compute; reflexivity|]. split; [|split]; [eexists; split; [vm_compute; left; reflexivity|reflexivity]..|codes].
Qed.

(** The hypotheses of [C55_short_row] hold for a row without the second label; nothing of the row before it is
    loaded. *)
Example short_case : let s := run hist fresh in let header := [CText (txt "A"); CText (txt "B")] in
  In (txt "B") (d_labels s) /\ ends_before header (txt "B") [CText (txt "q")] /\
  import_index ascii_only tally_read node1 PAbort PIgnore (reader_of [header; [CText (txt "new"); CText (txt "5")]; [CText (txt "q")]]) s = (s, Err IndexError).
Proof.
  cbv zeta. split; [vm_compute; right; left; reflexivity|]. split; [|vm_compute; reflexivity].
  split; [exists 1; reflexivity|]. split; [discriminate|]. intros [|[|p]] E; [discriminate|cbn; auto|destruct p; discriminate].
Qed.
(** The hypotheses of [C55_by_code] hold for the record x, 2, which has the weight 20. *)
Definition groups1 := Eval vm_compute in d_groups (run hist fresh).
Lemma groups1_is : d_groups (run hist fresh) = groups1. Proof. vm_cast_no_check (eq_refl groups1). Qed.
Example codes_case : let s := run hist fresh in let u := n_id_bytes node1 in
  let g := {| g_id := 1; g_name := txt "pop"; g_complete := true |} in
  let r := {| ix_id := 2; ix_labels := [txt "x"; txt "2"] |} in
  let load wpol := import_index ascii_only tally_read node1 PAbort wpol
    (reader_of [[CText (txt "code"); CText (g_name g)]; [CText (txt "2XC9E63905"); CText (tally_show 5)]]) s in
  (weights_attached s /\ d_labels s <> [] /\ good_names ascii_only u [CText (txt "code"); CText (g_name g)] /\
   (forall x, In x (d_labels s) -> x <> txt "index_id" /\ x <> g_name g) /\ ~ has_group s (txt "index_id") /\ In g (d_groups s) /\
   In r (d_index s) /\ index_id_to_code (ix_id r) u = Ok (txt "2XC9E63905")) /\
  map w_value (d_weights s) = [10; 20; 0]%Q /\
  snd (load PReplace) = Ok ExitOk /\ map w_value (d_weights (fst (load PReplace))) = [10; 5; 0]%Q /\
  snd (load PIgnore) = Ok ExitOk /\ map w_value (d_weights (fst (load PIgnore))) = [10; 20; 0]%Q /\
  load PAbort = (s, Ok ExitErr).
Proof.
  cbv zeta. split; [|vm_compute; repeat split; reflexivity].
  split.
  { intros w Hw. vm_compute in Hw. each Hw; subst w;
      [exists {| ix_id := 1; ix_labels := [txt "x"; txt "1"] |}|exists {| ix_id := 2; ix_labels := [txt "x"; txt "2"] |}|
       exists {| ix_id := 3; ix_labels := [txt "y"; txt "1"] |}]; vm_compute; auto 10. }
  split; [vm_compute; discriminate|]. split.
  { split; [|split].
    - repeat constructor; cbn [In]; intros H; each H; discriminate.
    - intros H. each H; discriminate.
    - intros t Ht. each Ht; injection Ht as <-; vm_compute; reflexivity. }
  split; [intros x Hx; vm_compute in Hx; each Hx; subst x; split; discriminate|].
  split; [intros (g & Hg & E); rewrite groups1_is in Hg; unfold groups1 in Hg; each Hg; subst g; discriminate|].
  split; [rewrite groups1_is; left; reflexivity|]. split; [vm_compute; auto 10|vm_compute; reflexivity].
Qed.

(** Finding: a label column may have the name that the column of the codes gets in a space without a domain.  The
    codes are then loaded as labels. *)
Definition hist3 : list op :=
  [OAddColumns [txt "index_code"; txt "B"]; OInsertIndex None [] PAbort PAbort [{| ir_id := None; ir_labels := [txt "x"; txt "1"]; ir_cells := [] |}]].
Theorem C55_code_column_refuted : let s := run hist3 fresh in let t := run (firstn 1 hist3) fresh in
  exists rows t', write_index tally_show (n_id_bytes node1) [] s = Ok rows /\
    import_index ascii_only tally_read node2 PAbort PAbort (reader_of rows) t = (t', Ok ExitOk) /\
    has_labels s [txt "x"; txt "1"] /\ ~ has_labels t' [txt "x"; txt "1"].
Proof.
  cbv zeta. eexists _, _. split; [vm_compute; reflexivity|]. split; [vm_compute; reflexivity|]. split.
  - eexists. split; [vm_compute; right; left; reflexivity|reflexivity].
  - intros (r & Hr & E). vm_compute in Hr. each Hr; subst r; discriminate.
Qed.
Print Assumptions C55_code_column_refuted.

(** Finding: an empty line is skipped in a table without codes and is an error in a table with codes. *)
Theorem C55_empty_line_refuted : let s := run hist fresh in
  let load rows := import_index ascii_only tally_read node1 PAbort PIgnore (reader_of rows) s in
  load ([CText (txt "A"); CText (txt "B")] :: [[]; [CText (txt "x"); CText (txt "1")]]) = (s, Ok ExitOk) /\
  load (index_header [] s :: rows1) = (s, Ok ExitOk) /\
  load (index_header [] s :: [] :: rows1) = (s, Err IndexError).
Proof. vm_compute. repeat split; reflexivity. Qed.
Print Assumptions C55_empty_line_refuted.
