(** C58: loading mappings from a table on standard input. *)
From Coq Require Import NArith.
From Verif Require Import Prelude BitFlags_Model BitFlags_Spec Selectors_Model LinkRef_Model LinkRef_Spec IndexCode_Model Db_Model Db_Spec Db_Proofs Db_ProofsRun
  Mapper_Model Mapper_Spec Mapper_Properties Streams_Model Streams_Spec EdgeText_Model IndexCli_Model IndexCli_Spec IndexCli_Properties
  Elements_Model Elements_Spec Elements_Properties Db_Properties
  MapCli_Model MapCli_Spec MapCli_Proofs MapCli_Proofs2 MapCli_Proofs3 MapCli_Proofs4 MapCli_Proofs5 MapCli_Proofs6 MapCli_Proofs7 MapCli_Proofs8.
From Coq Require Import Ascii String List Lia ZifyBool ZifyN ZifyNat.
Local Open Scope list_scope.
Local Open Scope nat_scope.
Local Notation cell := Streams_Model.cell.

(** *** Numbers *)

(** The text of a value counts as the longest number at its front, zero without one; it is recognised as a number iff
    it is one, between blanks, and then counts as this number. *)
Theorem C58_numbers t q b : sqlite_real t = (q, b) ->
  counts_as t q /\ (b = true <-> exists q', is_number t q') /\ (forall q', is_number t q' -> (q' == q)%Q).
Proof. exact (real_spec t q b). Qed.
Print Assumptions C58_numbers.
Example C58_numbers_case :
  map (fun t => let '(q, b) := sqlite_real (txt t) in (Qred q, b)) [" 12.50 "; "-.5e1"; "1,000"; "7 apples"; "n/a"; ""; "1e"]%string =
    [(25 # 2, true); (-5 # 1, true); (1 # 1, false); (7 # 1, false); (0 # 1, false); (0 # 1, false); (1 # 1, false)]%Q.
Proof. vm_compute. reflexivity. Qed.

(** *** Links and files *)

Section Any.
Context (todecimal : N -> option N) (o : options) (x1 x2 : space) (stdin : stream row).
Let R := read_from_stdin todecimal o x1 x2 stdin.

(** Without the link that is needed the command fails with one message and changes nothing. *)
Theorem C58_links :
  (r_exit R = Ok ExitErr <-> refused o x1 x2) /\
  (refused o x1 x2 -> r_1 R = sp_db x1 /\ r_2 R = sp_db x2 /\
     r_log R = [match o_direction o with Both => NoLink | ToLeft => NoLinkToFile1 | ToRight => NoLinkToFile2 end]).
Proof.
  unfold R. destruct (outcome_cases todecimal o x1 x2 stdin) as [(E & U & A & B & m & L)|(NU & dir & log & _ & _ & _ & C)].
  - split; [tauto|]. intros _. split; [exact A|]. split; [exact B|].
    unfold read_from_stdin, resolve, refused in *. destruct (o_direction o).
    + destruct U as [U1 U2]. apply finds_link_false in U1. apply finds_link_false in U2. rewrite U1, U2. reflexivity.
    + apply finds_link_false in U. rewrite U. reflexivity.
    + apply finds_link_false in U. rewrite U. reflexivity.
  - split; [|tauto]. split; [|tauto]. intros E.
    destruct C as [(e & _ & E' & _)|(rr & lr & _ & [(e & _ & _ & E' & _)|(log2 & _ & [(e & _ & _ & E' & _)|(log1 & _ & E' & _)])])]; congruence.
Qed.
(** Only the files that are asked for change. *)
Theorem C58_one_side : (~ asked_right o x1 x2 -> r_2 R = sp_db x2) /\ (~ asked_left o x1 x2 -> r_1 R = sp_db x1).
Proof.
  unfold R. destruct (outcome_cases todecimal o x1 x2 stdin) as [(E & U & A & B & m & L)|(NU & dir & log & _ & _ & _ & C)]; [auto|].
  destruct C as [(e & _ & _ & A & B & _)|(rr & lr & _ & [(e & AR & _ & _ & A & B)|(log2 & C2 & [(e & AL & _ & _ & A)|(log1 & C1 & _)])])]; auto.
  - split; [|tauto]. destruct C2 as [(AR & _)|(_ & C2 & _)]; [tauto|auto].
  - split; [destruct C2 as [(AR & _)|(_ & C2 & _)]; [tauto|auto]|destruct C1 as [(AL & _)|(_ & C1 & _)]; [tauto|auto]].
Qed.
(** An error leaves FILE1 as it was, and FILE2 too unless mappings were asked for in both directions: then FILE2 may have
    been loaded as by the command for FILE2 alone (see C58_not_atomic_refuted). *)
Theorem C58_all_or_nothing e : r_exit R = Err e ->
  r_1 R = sp_db x1 /\
  (r_2 R = sp_db x2 \/
   asked_right o x1 x2 /\ asked_left o x1 x2 /\
   let R' := read_from_stdin todecimal (to_right o) x1 x2 stdin in r_exit R' = Ok ExitOk /\ r_2 R = r_2 R').
Proof.
  unfold R. intros HE. destruct (outcome_cases todecimal o x1 x2 stdin) as [(E & U & A & B & m & L)|(NU & dir & log & _ & _ & _ & C)]; [congruence|].
  destruct C as [(e' & _ & _ & A & B & _)|(rr & lr & Bd & [(e' & AR & _ & _ & A & B)|(log2 & C2 & [(e' & AL & _ & _ & A)|(log1 & C1 & E & _)])])]; auto; [|congruence].
  split; [exact A|]. destruct C2 as [(AR & Ld & _)|(_ & C2 & _)]; [right|now left].
  split; [exact AR|]. split; [exact AL|].
  assert (Fd : finds_link o x1 x2 = true) by (apply finds_link_iff; apply AR).
  cbv zeta. set (s := r_2 (read_from_stdin todecimal o x1 x2 stdin)) in *. clearbody s. unfold read_from_stdin. cbn [resolve to_right o_direction].
  unfold resolve. cbn [to_right o_direction]. change (finds_link (to_right o) x1 x2) with (finds_link o x1 x2). rewrite Fd. cbn [negb].
  change (build_mappings todecimal (to_right o) x1 x2 stdin) with (build_mappings todecimal o x1 x2 stdin). rewrite Bd.
  change (load_into (to_right o) x1 x2 rr) with (load_into o x1 x2 rr). rewrite Ld. cbn. auto.
Qed.
(** A successful command reports for each file that was asked for whether the mapping is complete, after the warnings. *)
Theorem C58_report : r_exit R = Ok ExitOk -> exists log log2 log1, r_log R = log ++ log2 ++ log1 /\
  (o_direction o <> Both -> log = []) /\
  (o_direction o = Both -> (unlinked (o_link o) x2 x1 -> log = [NoLinkToFile1]) /\ (unlinked (o_link o) x1 x2 -> log = [NoLinkToFile2]) /\
     (asked_left o x1 x2 -> asked_right o x1 x2 -> log = [])) /\
  (asked_right o x1 x2 -> reports (o_link o) x1 (r_2 R) log2) /\ (~ asked_right o x1 x2 -> log2 = []) /\
  (asked_left o x1 x2 -> reports (o_link o) x2 (r_1 R) log1) /\ (~ asked_left o x1 x2 -> log1 = []).
Proof.
  unfold R. intros HE. destruct (outcome_cases todecimal o x1 x2 stdin) as [(E & U & A & B & m & L)|(NU & dir & log & Rs & _ & _ & C)]; [congruence|].
  destruct C as [(e' & _ & E & _)|(rr & lr & Bd & [(e' & _ & _ & E & _)|(log2 & C2 & [(e' & _ & _ & E & _)|(log1 & C1 & _ & L)])])]; try congruence.
  exists log, log2, log1. split; [exact L|].
  destruct (resolve_cases o x1 x2) as [(m & E & U)|(_ & dir' & log' & E & _ & _ & D)]; [contradiction|]. rewrite Rs in E. inversion E; subst dir' log'. split.
  { intros N. destruct (o_direction o); [contradiction|exact D|exact D]. }
  split. { intros N. rewrite N in D. exact D. }
  split; [|split; [|split]].
  - intros A. destruct C2 as [(_ & _ & P & _)|(N & _)]; [exact P|contradiction].
  - intros A. destruct C2 as [(N & _)|(_ & _ & P)]; [contradiction|exact P].
  - intros A. destruct C1 as [(_ & _ & P & _)|(N & _)]; [exact P|contradiction].
  - intros A. destruct C1 as [(N & _)|(_ & _ & P)]; [contradiction|exact P].
Qed.
(** If anything was loaded, the report tells whether every record of the file has a mapping of the link. *)
Theorem C58_report_true : r_exit R = Ok ExitOk ->
  (forall k, get_link (sp_id x1) (Some (o_link o)) true (d_links (r_2 R)) = Ok k -> asked_right o x1 x2 ->
     r_2 R = sp_db x2 \/ (k_complete k = true <-> link_complete (r_2 R) (k_id k))) /\
  (forall k, get_link (sp_id x2) (Some (o_link o)) true (d_links (r_1 R)) = Ok k -> asked_left o x1 x2 ->
     r_1 R = sp_db x1 \/ (k_complete k = true <-> link_complete (r_1 R) (k_id k))).
Proof.
  unfold R. intros HE. destruct (outcome_cases todecimal o x1 x2 stdin) as [(E & U & A & B & m & L)|(NU & dir & log & Rs & _ & _ & C)]; [congruence|].
  destruct C as [(e' & _ & E & _)|(rr & lr & Bd & [(e' & _ & _ & E & _)|(log2 & C2 & [(e' & _ & _ & E & _)|(log1 & C1 & _ & L)])])]; try congruence.
  destruct (build_no00 _ _ _ _ _ _ _ Bd) as [(out2 & E2 & N2) (out1 & E1 & N1)]. split; intros k Hk As.
  - destruct C2 as [(_ & _ & _ & _ & P)|(N & _)]; [|contradiction]. rewrite E2 in P. destruct (load_effect _ _ _ _ _ P N2) as (k0 & k' & _ & Hk' & Ei & _ & [(_ & E)|(E & _)] & _); [now left|right].
    rewrite Hk' in Hk. inversion Hk; subst k'. now rewrite Ei.
  - destruct C1 as [(_ & _ & _ & _ & P)|(N & _)]; [|contradiction]. rewrite E1 in P. destruct (load_effect _ _ _ _ _ P N1) as (k0 & k' & _ & Hk' & Ei & _ & [(_ & E)|(E & _)] & _); [now left|right].
    rewrite Hk' in Hk. inversion Hk; subst k'. now rewrite Ei.
Qed.
(** What becomes of the files is also the effect of calls on the spaces: all that holds after such calls (C26-C36) holds. *)
Theorem C58_calls : exists ops1 ops2, r_1 R = run ops1 (sp_db x1) /\ r_2 R = run ops2 (sp_db x2) /\
  Forall honest ops1 /\ Forall honest ops2 /\ one_session ops1 /\ one_session ops2.
Proof.
  unfold R. assert (One : forall r n rows s s', step (OInsertMappings2 r n rows) s = (s', None) -> s' = run [OInsertMappings2 r n rows] s) by (intros; cbn [run]; now rewrite H).
  assert (Hon : forall r n rows, Forall honest [OInsertMappings2 r n rows] /\ one_session [OInsertMappings2 r n rows]) by (intros; split; repeat constructor; cbn; auto).
  assert (Nil : Forall honest [] /\ one_session []) by (split; constructor).
  destruct (outcome_cases todecimal o x1 x2 stdin) as [(E & U & A & B & m & L)|(NU & dir & log & Rs & _ & _ & C)].
  { exists [], []. cbn [run]. rewrite A, B. tauto. }
  destruct C as [(e' & _ & _ & A & B & _)|(rr & lr & Bd & [(e' & _ & _ & _ & A & B)|(log2 & C2 & C)])]; [exists [], []; cbn [run]; rewrite A, B; tauto|exists [], []; cbn [run]; rewrite A, B; tauto|].
  assert (X2 : exists ops2, r_2 (read_from_stdin todecimal o x1 x2 stdin) = run ops2 (sp_db x2) /\ Forall honest ops2 /\ one_session ops2).
  { destruct C2 as [(_ & _ & _ & S & _)|(_ & -> & _)]; [eexists; split; [exact (One _ _ _ _ _ S)|apply Hon]|exists []; split; [reflexivity|exact Nil]]. }
  assert (X1 : exists ops1, r_1 (read_from_stdin todecimal o x1 x2 stdin) = run ops1 (sp_db x1) /\ Forall honest ops1 /\ one_session ops1).
  { destruct C as [(e' & _ & _ & _ & ->)|(log1 & [(_ & _ & _ & S & _)|(_ & -> & _)] & _)]; [exists []; split; [reflexivity|exact Nil]|eexists; split; [exact (One _ _ _ _ _ S)|apply Hon]|exists []; split; [reflexivity|exact Nil]]. }
  destruct X1 as (a & A1 & A2 & A3). destruct X2 as (b & B1 & B2 & B3). exists a, b. tauto.
Qed.
End Any.
Print Assumptions C58_links.
Print Assumptions C58_one_side.
Print Assumptions C58_all_or_nothing.
Print Assumptions C58_report.
Print Assumptions C58_report_true.
Print Assumptions C58_calls.

(** *** What is loaded *)

(** The spaces come from any calls; the table has a header and rows. *)
Section Table.
Context (todecimal : N -> option N) (o : options) (x1 x2 : space) (header : list cell) (rows : list (list cell)) (ops1 ops2 : list op).
Context (S1 : sp_db x1 = run ops1 fresh) (S2 : sp_db x2 = run ops2 fresh)
  (L1 : NoDup (map level_of (d_structs (sp_db x1)))) (L2 : NoDup (map level_of (d_structs (sp_db x2)))).
Let R := read_from_stdin todecimal o x1 x2 (reader_of (header :: rows)).

Lemma sides data l1 l2 : matches o x1 x2 data l1 l2 <-> matched_side o x1 side1 data l1 /\ matched_side o x2 side2 data l2.
Proof.
  unfold matches, matched_side. rewrite side_1_sources, side_2_sources. split.
  - intros (c1 & c2 & A & B). split; eauto.
  - intros ((c1 & A) & (c2 & B)). eauto.
Qed.

(** After a successful command all rows were understood, and each link that was asked for has, besides what it had, one
    mapping for each two records matched by a row; its value is the sum over the rows of the row's value times the shares of
    the two records. *)
Theorem C58_loaded : r_exit R = Ok ExitOk ->
  exists data l1 l2, understood todecimal (o_link o) x1 x2 header rows data /\ Forall (loadable x1 x2) data /\
    matched_side o x1 side1 data l1 /\ matched_side o x2 side2 data l2 /\
    (forall k, linked (o_link o) x1 x2 k -> o_direction o <> ToLeft ->
       loads k (fun a b lv q => level_there (sp_db x2) lv /\ made (numbered data) l1 l2 a b lv q) (sp_db x2) (r_2 R)) /\
    (forall k, linked (o_link o) x2 x1 k -> o_direction o <> ToRight ->
       loads k (fun a b lv q => level_there (sp_db x1) lv /\ made (numbered data) l2 l1 a b lv q) (sp_db x1) (r_1 R)).
Proof.
  intros E. destruct (loaded todecimal o x1 x2 header rows ops1 ops2 S1 S2 L1 L2 E) as (data & l1 & l2 & U & Ld & M & _ & A & B).
  apply sides in M. exists data, l1, l2. tauto.
Qed.
(** Without the option for incomplete mappings every record of both spaces is referred to by a row. *)
Theorem C58_complete : r_exit R = Ok ExitOk -> o_incomplete o = false ->
  exists data, understood todecimal (o_link o) x1 x2 header rows data /\
    (forall i, defined (sp_db x1) i -> exists m, In m data /\ refers (sp_db x1) (side1 m) i) /\
    (forall i, defined (sp_db x2) i -> exists m, In m data /\ refers (sp_db x2) (side2 m) i).
Proof.
  intros E I. destruct (loaded todecimal o x1 x2 header rows ops1 ops2 S1 S2 L1 L2 E) as (data & l1 & l2 & U & Ld & M & [C|C] & _); [congruence|].
  exists data. split; [exact U|]. exact (complete_rows o x1 x2 ops1 ops2 S1 S2 L1 L2 data l1 l2 Ld M C).
Qed.
(** The rows are understood in at most one way. *)
Theorem C58_understood_once data data' :
  understood todecimal (o_link o) x1 x2 header rows data -> understood todecimal (o_link o) x1 x2 header rows data' -> data = data'.
Proof. apply understood_fun. Qed.
(** When each row gives both records by code, or is void on one side, the links get for each two records that some row
    gives the sum of the values of these rows, at the level of all columns. *)
Theorem C58_by_code data : understood todecimal (o_link o) x1 x2 header rows data ->
  Forall (fun m => by_codes x1 x2 m \/ void (o_limit o) x1 x2 m) data -> r_exit R = Ok ExitOk ->
  (forall k, linked (o_link o) x1 x2 k -> o_direction o <> ToLeft -> d_labels (sp_db x2) <> [] ->
     loads k (fun a b => given (gives a b) data (every_column (sp_db x2)) a b) (sp_db x2) (r_2 R)) /\
  (forall k, linked (o_link o) x2 x1 k -> o_direction o <> ToRight -> d_labels (sp_db x1) <> [] ->
     loads k (fun a b => given (gives b a) data (every_column (sp_db x1)) a b) (sp_db x1) (r_1 R)).
Proof.
  intros U F E. destruct (loaded todecimal o x1 x2 header rows ops1 ops2 S1 S2 L1 L2 E) as (data' & l1 & l2 & U' & Ld & M & _ & A & B).
  rewrite (understood_fun _ _ _ _ _ _ _ _ U' U) in *. destruct (by_code todecimal o x1 x2 header rows ops1 ops2 S1 S2 L1 L2 data l1 l2 U Ld M F) as [G1 G2]. split; intros k K D N.
  - exact (loads_ext k _ _ _ _ (G1 N) (A k K D)).
  - exact (loads_ext k _ _ _ _ (G2 N) (B k K D)).
Qed.
End Table.
Print Assumptions C58_loaded.
Print Assumptions C58_complete.
Print Assumptions C58_understood_once.
Print Assumptions C58_by_code.

(** The command succeeds when the rows are understood and can be loaded, and the links have no mappings yet. *)
Theorem C58_succeeds todecimal o x1 x2 header rows ops1 ops2 data : sp_db x1 = run ops1 fresh -> sp_db x2 = run ops2 fresh ->
  matchable (sp_db x1) -> matchable (sp_db x2) ->
  understood todecimal (o_link o) x1 x2 header rows data -> Forall (loadable x1 x2) data -> Forall (fun m => 0 <= worth m)%Q data ->
  o_incomplete o = true \/ all_by_code x1 x2 data -> ~ refused o x1 x2 ->
  (forall k, linked (o_link o) x1 x2 k -> o_direction o <> ToLeft -> no_mappings (sp_db x2) k /\ references (sp_db x2)) ->
  (forall k, linked (o_link o) x2 x1 k -> o_direction o <> ToRight -> no_mappings (sp_db x1) k /\ references (sp_db x1)) ->
  r_exit (read_from_stdin todecimal o x1 x2 (reader_of (header :: rows))) = Ok ExitOk.
Proof. intros. eapply succeeds; eassumption. Qed.
Print Assumptions C58_succeeds.

(** *** Export and load *)

(** The table written for a link, loaded into a copy of FILE2 without its mappings, gives the mappings back, provided that:
    all mappings have the level of all columns and existing records; numbers are written as such; no other cell looks like a
    code; no column before the values is named like the link; the limit is below the number of records of both spaces. *)
Theorem C58_round_trip todecimal show o x1 x2 y ops1 ops2 ops3 k k' h1 h2 table :
  sp_db x1 = run ops1 fresh -> sp_db x2 = run ops2 fresh -> sp_db y = run ops3 fresh ->
  export_mapping show (o_link o) h1 h2 x1 x2 = Ok table -> the_link (o_link o) (sp_id x1) (sp_db x2) k ->
  sp_bytes y = sp_bytes x2 -> d_labels (sp_db y) = d_labels (sp_db x2) -> d_index (sp_db y) = d_index (sp_db x2) ->
  matchable (sp_db x1) -> matchable (sp_db y) ->
  (forall m, of_link k (sp_db x2) m -> m_level m = every_column (sp_db x2)) ->
  (forall m, of_link k (sp_db x2) m -> has_index (sp_db x1) (m_other m) /\ has_index (sp_db x2) (m_index m)) ->
  is_number (show 0%Q) 0 -> (forall m, of_link k (sp_db x2) m -> is_number (show (m_value m)) (m_value m)) ->
  o_limit o < List.length (d_index (sp_db x1)) -> o_limit o < List.length (d_index (sp_db x2)) ->
  codes_only_at todecimal (sp_bytes x1) 0 (tl table) ->
  codes_only_at todecimal (sp_bytes x2) (List.length (d_labels (sp_db x1)) + 2) (tl table) ->
  Forall (fun t => ~ names_link shorthand_name (o_link o) (CText t)) (h1 :: d_labels (sp_db x1)) ->
  ~ In [] (d_labels (sp_db x2)) -> NoDup (h1 :: d_labels (sp_db x1)) -> NoDup (h2 :: d_labels (sp_db x2)) ->
  o_direction o = ToRight -> linked (o_link o) x1 y k' -> no_mappings (sp_db y) k' -> references (sp_db y) -> d_labels (sp_db x2) <> [] ->
  o_incomplete o = true \/ Forall honest ops2 ->
  let R := read_from_stdin todecimal o x1 y (reader_of table) in
  r_exit R = Ok ExitOk /\ r_1 R = sp_db x1 /\
  loads k' (fun a b lv q => mapping_in (sp_db x2) k a b lv q /\ ~ (a = 0 /\ b = 0)%Z) (sp_db y) (r_2 R).
Proof. intros. eapply round_trip; eassumption. Qed.
Print Assumptions C58_round_trip.

(** *** A case used in the examples *)

Definition one_ (a : string) (w : Z) : ins_row := {| ir_id := None; ir_labels := [txt a]; ir_cells := [CNum (inject_Z w)] |}.
(** FILE1: records 1, 2, 3 with labels p, q, r; a link to FILE2. *)
Definition hist_1 (column : string) (labels : list string) : list op :=
  [OAddColumns [txt column]; OSetStructure [[false]; [true]]; OAddGroup (txt "w") false None;
   OInsertIndex None [txt "w"] PAbort PAbort (map (fun a => one_ a 5) labels); OAddLink (lk "u2" "m1") None].
(** FILE2: records 1 to 4; a link to FILE1; mappings. *)
Definition hist_2 (maps : list m_row) : list op :=
  [OAddColumns [txt "A"; txt "B"]; OSetStructure [[false; false]; [true; false]; [true; true]]; OAddGroup (txt "pop") false None;
   OInsertIndex None [txt "pop"] PAbort PAbort [rec_ "x" "1" 10; rec_ "x" "2" 20; rec_ "y" "1" 0; rec_ "z" "9" 5];
   OAddLink (lk "u1" "m1") None; OInsertMappings2 (txt "u1") None maps].
Definition pqr : list string := ["p"; "q"; "r"]%string.
Definition file1 : space := {| sp_id := txt "u1"; sp_bytes := u16 1; sp_gran := by_size; sp_db := run (hist_1 "C" pqr) fresh |}.
Definition file2 (maps : list m_row) : space := {| sp_id := txt "u2"; sp_bytes := u16 2; sp_gran := by_size; sp_db := run (hist_2 maps) fresh |}.
Definition full_maps : list m_row := [mp 1 1 3 whole "x" "1"; mp 1 2 (25 # 2) whole "x" "2"; mp 2 3 0 whole "y" "1"].
Definition show_ (q : Q) : text :=
  if Qeq_bool q 0 then txt "0.0" else if Qeq_bool q 3 then txt "3.0" else if Qeq_bool q 5 then txt "5.0" else txt "12.5".
Definition opts (d : direction) (limit : nat) (overlapping incomplete : bool) : options :=
  {| o_link := txt "m1"; o_direction := d; o_limit := limit; o_overlapping := overlapping; o_incomplete := incomplete |}.
Definition texts (l : list (list string)) : list (list cell) := map (map (fun t => CText (txt t))) l.
Definition exported_table (x1 x2 : space) : list (list cell) :=
  match export_mapping show_ (txt "m1") (txt "i1") (txt "i2") x1 x2 with Ok t => t | Err _ => [] end.
Definition shown_maps (s : db) := map (fun m => (m_link m, m_other m, m_index m, m_level m, Qred (m_value m))) (d_maps s).
Definition result (r : outcome) := (r_exit r, r_log r, shown_maps (r_1 r), shown_maps (r_2 r)).

(** Rows by labels in both directions: x is a label of two records; a text is loaded as the number at its front. *)
Definition by_labels_table : list (list cell) :=
  texts [["C"; "m1"; "A"; "B"]; ["p"; "6"; "x"; ""]; ["q"; "1,000"; "y"; "1"]; ["r"; "4"; "z"; "9"]; ["p"; "1"; "x"; "1"]]%string.
Example C58_case :
  result (read_from_stdin ascii_only (opts Both 2 true false) file1 (file2 []) (reader_of by_labels_table)) =
  (Ok ExitOk, [Complete; Complete],
   [(1, 1, 1, [128%N], 3%Q); (1, 2, 1, [128%N], 4%Q); (1, 3, 2, [128%N], 1%Q); (1, 4, 3, [128%N], 4%Q)],
   [(1, 1, 1, [128%N], 2%Q); (1, 1, 2, [128%N], 4%Q); (1, 2, 3, [192%N], 1%Q); (1, 3, 4, [192%N], 4%Q); (1, 1, 1, [192%N], 1%Q)])%Z.
Proof. vm_compute. reflexivity. Qed.

(** Helpers to check the hypotheses of the round trip. *)
Fixpoint codes_only_row todecimal (u : list N) (c j : nat) (row : list cell) : bool :=
  match row with
  | [] => true
  | x :: row => match x with CText t => (j =? c) || match index_code_to_id todecimal t u with Err ValueError => true | _ => false end | _ => true end &&
                codes_only_row todecimal u c (S j) row
  end.
Lemma codes_only_row_ok todecimal u c row : forall j, codes_only_row todecimal u c j row = true ->
  forall i t, nth_error row i = Some (CText t) -> j + i <> c -> index_code_to_id todecimal t u = Err ValueError.
Proof.
  induction row as [|x row IH]; intros j H i t E N; [destruct i; discriminate|]. cbn in H. apply andb_true_iff in H. destruct H as [H G]. destruct i as [|i]; cbn in E.
  - inversion E; subst x. apply orb_true_iff in H. destruct H as [H|H]; [lia|]. now destruct (index_code_to_id todecimal t u) as [|[]].
  - apply (IH (S j) G i t E). lia.
Qed.
Lemma codes_only_ok todecimal u c rows : forallb (codes_only_row todecimal u c 0) rows = true -> codes_only_at todecimal u c rows.
Proof. intros H row j t Hr E N. rewrite forallb_forall in H. exact (codes_only_row_ok todecimal u c row 0 (H row Hr) j t E N). Qed.
Lemma shown_number t q b : sqlite_real (txt t) = (b, true) -> (b == q)%Q -> is_number (txt t) q.
Proof.
  intros E H. destruct (C58_numbers _ _ _ E) as (_ & X & Y). destruct (proj1 X eq_refl) as (q' & a & n & c & A & B & (s & k & ip & ft & fs & et & e & N) & D).
  exists a, n, c. split; [exact A|]. split; [exact B|]. split; [|exact D]. exists s, k, ip, ft, fs, et, e. repeat (split; [apply N|]).
  assert (Z : (q' == b)%Q) by (apply Y; exists a, n, c; split; [exact A|split; [exact B|split; [|exact D]]]; exists s, k, ip, ft, fs, et, e; exact N).
  rewrite <- H, <- Z. apply N.
Qed.
Lemma index_there s z : existsb (fun i => (ix_id i =? z)%Z) (d_index s) = true -> has_index s z.
Proof. intros H. apply existsb_exists in H. destruct H as (i & Hi & E). exists i. split; [exact Hi|lia]. Qed.
Definition db_1 := Eval vm_compute in sp_db file1.
Definition db_2 := Eval vm_compute in sp_db (file2 full_maps).
Definition db_3 := Eval vm_compute in sp_db (file2 []).
Lemma db_1_ok : sp_db file1 = db_1. Proof. vm_cast_no_check (eq_refl db_1). Qed.
Lemma db_2_ok : sp_db (file2 full_maps) = db_2. Proof. vm_cast_no_check (eq_refl db_2). Qed.
Lemma db_3_ok : sp_db (file2 []) = db_3. Proof. vm_cast_no_check (eq_refl db_3). Qed.
Definition table_ := Eval vm_compute in exported_table file1 (file2 full_maps).
Lemma table_ok : export_mapping show_ (txt "m1") (txt "i1") (txt "i2") file1 (file2 full_maps) = Ok table_. Proof. vm_cast_no_check (eq_refl (Ok table_)). Qed.
Definition link_2 := Eval vm_compute in hd (lk "" "") (d_links db_2).
Definition link_3 := Eval vm_compute in hd (lk "" "") (d_links db_3).

Example C58_round_trip_case :
  let R := read_from_stdin ascii_only (opts ToRight 1 false false) file1 (file2 []) (reader_of table_) in
  r_exit R = Ok ExitOk /\ loads link_3 (fun a b lv q => mapping_in (sp_db (file2 full_maps)) link_2 a b lv q /\ ~ (a = 0 /\ b = 0)%Z) (sp_db (file2 [])) (r_2 R) /\
  result R = (Ok ExitOk, [Incomplete], [], [(1, 1, 1, [192%N], 3%Q); (1, 1, 2, [192%N], 25 # 2); (1, 2, 3, [192%N], 0%Q)])%Z.
Proof.
  cbv zeta.
  assert (Ms : forall m, of_link link_2 (sp_db (file2 full_maps)) m -> In m (d_maps db_2)) by (rewrite db_2_ok; intros m [H _]; exact H).
  destruct (C58_round_trip ascii_only show_ (opts ToRight 1 false false) file1 (file2 full_maps) (file2 []) (hist_1 "C" pqr) (hist_2 full_maps) (hist_2 []) link_2 link_3 (txt "i1") (txt "i2") table_) as (A & _ & B).
  - reflexivity.
  - reflexivity.
  - reflexivity.
  - exact table_ok.
  - rewrite db_2_ok. split; [now left|]. split; reflexivity.
  - reflexivity.
  - rewrite db_2_ok, db_3_ok. reflexivity.
  - rewrite db_2_ok, db_3_ok. reflexivity.
  - rewrite db_1_ok. split; cbn; [exists 1%Z; split; [reflexivity|]; eexists; split; [now left|reflexivity]|auto|auto|].
    vm_compute. repeat constructor; cbn; intuition discriminate.
  - rewrite db_3_ok. split; cbn; [exists 1%Z; split; [reflexivity|]; eexists; split; [now left|reflexivity]|auto|auto|].
    vm_compute. repeat constructor; cbn; intuition discriminate.
  - intros m Hm. apply Ms in Hm. rewrite db_2_ok. cbn in Hm. destruct Hm as [<-|[<-|[<-|[]]]]; vm_compute; reflexivity.
  - intros m Hm. apply Ms in Hm. rewrite db_1_ok, db_2_ok. cbn in Hm.
    destruct Hm as [<-|[<-|[<-|[]]]]; split; apply index_there; reflexivity.
  - apply (shown_number "0.0" 0 (fst (sqlite_real (txt "0.0")))); vm_compute; reflexivity.
  - intros m Hm. apply Ms in Hm. cbn in Hm. destruct Hm as [<-|[<-|[<-|[]]]].
    + apply (shown_number "3.0" _ (fst (sqlite_real (txt "3.0")))); vm_compute; reflexivity.
    + apply (shown_number "12.5" _ (fst (sqlite_real (txt "12.5")))); vm_compute; reflexivity.
    + apply (shown_number "0.0" _ (fst (sqlite_real (txt "0.0")))); vm_compute; reflexivity.
  - rewrite db_1_ok. cbn. lia.
  - rewrite db_2_ok. cbn. lia.
  - apply codes_only_ok. vm_compute. reflexivity.
  - rewrite db_1_ok. apply codes_only_ok. vm_compute. reflexivity.
  - rewrite db_1_ok. cbn [db_1 d_labels].
    apply Forall_cons; [|apply Forall_cons; [|apply Forall_nil]]; intros (c & E & [D|D]); injection E as <-; revert D; vm_compute; discriminate.
  - rewrite db_2_ok. cbn. intuition discriminate.
  - rewrite db_1_ok. cbn. repeat constructor; cbn; intuition discriminate.
  - rewrite db_2_ok. cbn. repeat constructor; cbn; intuition discriminate.
  - reflexivity.
  - unfold linked. rewrite db_3_ok. vm_compute. reflexivity.
  - rewrite db_3_ok. intros m [].
  - intros _. split; [apply (C28_weights_belong (hist_2 []))|apply (C31_mappings_belong (hist_2 []))]; repeat constructor; cbn; auto.
  - rewrite db_2_ok. discriminate.
  - right. repeat constructor.
  - split; [exact A|]. split; [exact B|]. vm_compute. reflexivity.
Qed.

(** *** Findings *)

(** A number with a thousands separator is loaded as the digits before it, without a message. *)
Theorem C58_thousands_refuted : exists o x1 x2 table t, In [CText (txt "q"); CText t; CText (txt "y"); CText (txt "1")] table /\ t = txt "1,000" /\
  let R := read_from_stdin ascii_only o x1 x2 (reader_of table) in
  result R = (Ok ExitOk, [Incomplete], [], [(1, 2, 3, [192%N], 1%Q)])%Z.
Proof.
  exists (opts ToRight 1 false true), file1, (file2 []), (texts [["C"; "m1"; "A"; "B"]; ["q"; "1,000"; "y"; "1"]]%string), (txt "1,000").
  split; [right; now left|]. split; [reflexivity|]. vm_compute. reflexivity.
Qed.
Print Assumptions C58_thousands_refuted.

(** In both directions an error in loading FILE1 leaves the mappings in FILE2. *)
Definition file1_mapped : space := {| sp_id := txt "u1"; sp_bytes := u16 1; sp_gran := by_size;
  sp_db := run (hist_1 "C" pqr ++ [OInsertMappings2 (txt "u2") None
    [{| mr_other := 2; mr_index := 1; mr_level := Some (level_of [true]); Db_Model.mr_value := 1; mr_labels := [] |}]]) fresh |}.
Theorem C58_not_atomic_refuted : exists o x1 x2 table,
  let R := read_from_stdin ascii_only o x1 x2 (reader_of table) in
  r_exit R = Err SqlIntegrityError /\ shown_maps (sp_db x2) = [] /\ shown_maps (r_2 R) = [(1, 1, 2, [192%N], 6%Q)]%Z.
Proof.
  exists (opts Both 2 false true), file1_mapped, (file2 []), (texts [["C"; "m1"; "A"; "B"]; ["p"; "6"; "x"; "2"]]%string).
  vm_compute. repeat split.
Qed.
Print Assumptions C58_not_atomic_refuted.

(** A mapping of a coarser level comes back from the exported table at the level of all columns. *)
Theorem C58_level_lost_refuted : exists o x1 x2 y table,
  export_mapping show_ (o_link o) (txt "i1") (txt "i2") x1 x2 = Ok table /\ shown_maps (sp_db x2) = [(1, 2, 2, [128%N], 5%Q)]%Z /\
  let R := read_from_stdin ascii_only o x1 y (reader_of table) in
  r_exit R = Ok ExitOk /\ shown_maps (r_2 R) = [(1, 2, 2, [192%N], 5%Q)]%Z.
Proof.
  exists (opts ToRight 1 false true), file1, (file2 [mp 2 2 5 coarse "" ""]), (file2 []), (exported_table file1 (file2 [mp 2 2 5 coarse "" ""])).
  vm_compute. repeat split.
Qed.
Print Assumptions C58_level_lost_refuted.

(** A label column of FILE1 with the name of the link is read for the values. *)
Definition file1_column : space := {| sp_id := txt "u1"; sp_bytes := u16 1; sp_gran := by_size; sp_db := run (hist_1 "m1" ["7"; "8"; "9"]%string) fresh |}.
Theorem C58_label_column_refuted : exists o x1 x2 y table,
  export_mapping show_ (o_link o) (txt "i1") (txt "i2") x1 x2 = Ok table /\
  shown_maps (sp_db x2) = [(1, 1, 1, [192%N], 3%Q); (1, 1, 2, [192%N], 25 # 2); (1, 2, 3, [192%N], 0%Q)]%Z /\
  let R := read_from_stdin ascii_only o x1 y (reader_of table) in
  r_exit R = Ok ExitOk /\ shown_maps (r_2 R) = [(1, 1, 1, [192%N], 7%Q); (1, 1, 2, [192%N], 7%Q); (1, 2, 3, [192%N], 8%Q)]%Z.
Proof.
  exists (opts ToRight 1 false false), file1_column, (file2 full_maps), (file2 []), (exported_table file1_column (file2 full_maps)).
  vm_compute. repeat split.
Qed.
Print Assumptions C58_label_column_refuted.

(** An incomplete mapping is loaded from its exported table without the option for incomplete mappings: the rows of
    records without a mapping count as matches. *)
Theorem C58_incomplete_refuted : exists o x1 x2 table k, o_incomplete o = false /\
  let R := read_from_stdin ascii_only o x1 x2 (reader_of table) in
  r_exit R = Ok ExitOk /\ In Incomplete (r_log R) /\ linked (o_link o) x1 x2 k /\ ~ link_complete (r_2 R) (k_id k).
Proof.
  exists (opts ToRight 1 false false), file1, (file2 []), table_, link_3. split; [reflexivity|]. cbv zeta.
  split; [vm_compute; reflexivity|]. split; [vm_compute; auto|]. split; [unfold linked; rewrite db_3_ok; vm_compute; reflexivity|].
  intros H. assert (D : defined (r_2 (read_from_stdin ascii_only (opts ToRight 1 false false) file1 (file2 []) (reader_of table_))) 4).
  { split; [|discriminate]. exists {| ix_id := 4; ix_labels := [txt "z"; txt "9"] |}. split; [|reflexivity]. vm_compute. auto 6. }
  destruct (H 4%Z D) as (m & Hm & E1 & E2). vm_compute in Hm. destruct Hm as [<-|[<-|[<-|[]]]]; vm_compute in E2; discriminate.
Qed.
Print Assumptions C58_incomplete_refuted.

(** With overlapping allowed and a high limit, the rows of records without a mapping become mappings from every record of
    FILE1 with value zero, and the link is reported as complete. *)
Theorem C58_no_source_refuted : exists o x1 x2 y table,
  export_mapping show_ (o_link o) (txt "i1") (txt "i2") x1 x2 = Ok table /\ List.length (d_maps (sp_db x2)) = 3 /\
  let R := read_from_stdin ascii_only o x1 y (reader_of table) in
  r_exit R = Ok ExitOk /\ r_log R = [Complete] /\
  shown_maps (r_2 R) = [(1, 1, 1, [192%N], 3%Q); (1, 1, 2, [192%N], 25 # 2); (1, 2, 3, [192%N], 0%Q);
                        (1, 0, 4, [192%N], 0%Q); (1, 1, 4, [192%N], 0%Q); (1, 2, 4, [192%N], 0%Q); (1, 3, 4, [192%N], 0%Q)]%Z.
Proof.
  exists (opts ToRight 20 true false), file1, (file2 full_maps), (file2 []), (exported_table file1 (file2 full_maps)).
  vm_compute. repeat split.
Qed.
Print Assumptions C58_no_source_refuted.
