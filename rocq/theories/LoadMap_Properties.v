(** C60: loading a table as a new link between two spaces. *)
From Coq Require Import NArith.
From Verif Require Import Prelude BitFlags_Model BitFlags_Spec Selectors_Model LinkRef_Model LinkRef_Spec Db_Model Db_Spec Db_Proofs Db_ProofsRun
  Reader_Model Reader_Spec Mapper_Model Mapper_Spec Mapper_Properties Streams_Model Streams_Spec EdgeText_Model
  Elements_Model Elements_Spec Elements_Properties Db_Properties MapCli_Model MapCli_Spec MapCli_Properties
  LoadMap_Model LoadMap_Spec LoadMap_Proofs LoadMap_Proofs2 LoadMap_Proofs3 LoadMap_Proofs4 LoadMap_Proofs5 LoadMap_Proofs6.
From Coq Require Import Ascii String List Lia ZifyBool ZifyN ZifyNat.
Local Open Scope list_scope.
Local Open Scope nat_scope.
Local Notation cell := Streams_Model.cell.

(** *** The table *)

Section Table.
Context (a : load_args) (x1 x2 : lspace) (d : Streams_Model.data) (columns : option (list cell)) (header : list text) (cells : list (list cell)).
Context (HT : is_table d columns header cells) (Reg : regular header cells).
Let R := load_mapping a x1 x2 d columns.

(** If the table cannot be understood, there is an error and nothing changes.  The same if it cannot be matched. *)
Theorem C60_refused : (forall c1 c2 rows l1 l2, table_is a x1 x2 header cells c1 c2 rows -> ~ matched_sides a x1 x2 c1 c2 rows l1 l2) ->
  ld_exit R <> None /\ ld_left R = l_db x1 /\ ld_right R = l_db x2.
Proof. exact (refused_table a x1 x2 d columns header cells HT Reg). Qed.
(** There is one way to understand a table. *)
Theorem C60_table_once c1 c2 rows c1' c2' rows' :
  table_is a x1 x2 header cells c1 c2 rows -> table_is a x1 x2 header cells c1' c2' rows' -> c1 = c1' /\ c2 = c2' /\ rows = rows'.
Proof.
  intros H H'. apply (read_table_iff a x1 x2 header cells) in H; [|exact Reg]. apply (read_table_iff a x1 x2 header cells) in H'; [|exact Reg].
  rewrite H in H'. inversion H'. auto.
Qed.
(** A row with another domain than the space has is an error, and nothing changes. *)
Theorem C60_wrong_domain n l p q v : link_column shorthand_name (la_link a) (map CText header) n -> In l cells -> ~ In (txt "domain") p ->
  (l_domain x1 <> [] /\ firstn n header = p ++ txt "domain" :: q /\ nth_error l (List.length p) = Some v /\ v <> CText (l_domain x1) \/
   l_domain x2 <> [] /\ skipn (n + 1) header = p ++ txt "domain" :: q /\ nth_error l (n + 1 + List.length p) = Some v /\ v <> CText (l_domain x2)) ->
  ld_exit R <> None /\ ld_left R = l_db x1 /\ ld_right R = l_db x2.
Proof.
  intros L Hl N H. apply C60_refused. intros c1 c2 rows l1 l2 T _. destruct (wrong_domain a x1 x2 header cells c1 c2 rows n l p q v Reg T L Hl) as [A B].
  destruct H as [(D & E & Hv & Nv)|(D & E & Hv & Nv)]; apply Nv; auto.
Qed.
(** When the rows of a table can be used. *)
Theorem C60_usable c1 c2 rows : table_is a x1 x2 header cells c1 c2 rows ->
  (NoDup c1 -> NoDup (map level_of (d_structs (l_db x1))) ->
   (forall r c v, In r rows -> filled c1 (or_left r) c v -> In c (d_labels (l_db x1)) /\ c <> txt "index_id") -> usable (l_db x1) c1 (left_rows rows)) /\
  (NoDup c2 -> NoDup (map level_of (d_structs (l_db x2))) ->
   (forall r c v, In r rows -> filled c2 (or_right r) c v -> In c (d_labels (l_db x2)) /\ c <> txt "index_id") -> usable (l_db x2) c2 (right_rows rows)).
Proof. exact (usable_sides a x1 x2 header cells c1 c2 rows Reg). Qed.
End Table.
Print Assumptions C60_refused.
Print Assumptions C60_table_once.
Print Assumptions C60_wrong_domain.
Print Assumptions C60_usable.

(** *** The matches of a side *)

Section Side.
Context (gran : list bool -> option Q) (s : db) (limit : nat) (allow : bool) (columns : list text) (es : list (Z * list text)).
Context (l : list hit) (c : old_counter) (HM : old_match_records gran s limit allow columns es = Ok (l, c)).
Context (ops : list op) (HS : s = run ops fresh).

(** A row of a category is matched with the records that have all its labels, if these are not too many.  Records that were
    matched by a category with a higher granularity are left out, unless overlaps are allowed or it is the only record. *)
Theorem C60_matches run loc b : usable s columns es -> In (run, loc) es -> category s columns loc b ->
  exists g refs keep, get_default_weight_group s = Ok g /\ fitting s columns loc refs /\ remains gran s columns es allow b l refs keep /\
    (accepted s g limit refs keep -> map h_index (of_run run l) = keep) /\ (~ accepted s g limit refs keep -> of_run run l = []) /\
    forall h, In h (of_run run l) -> h_level h = level_of b /\ weight_of s g (h_index h) (h_weight h).
Proof.
  intros U. subst s. exact (row_hits gran _ limit allow columns es U (i_index _ (run_inv ops)) l c HM run loc b).
Qed.
(** A row of no category is matched with nothing, and a match belongs to a row. *)
Theorem C60_no_category : usable s columns es ->
  (forall run loc, In (run, loc) es -> no_category s columns loc -> of_run run l = []) /\
  (forall h, In h l -> exists loc b, In (h_run h, loc) es /\ category s columns loc b /\ h_level h = level_of b).
Proof.
  intros U. split.
  - intros run loc. exact (void_row gran s limit allow columns es U l c HM run loc).
  - exact (hit_row gran s limit allow columns es U l c HM).
Qed.
(** A row with a label in a column that the space does not have is matched with nothing (but see C60_column_name_refuted). *)
Theorem C60_unknown run loc col v : NoDup columns -> NoDup (map fst es) -> In (run, loc) es ->
  filled columns loc col v -> ~ In col (d_labels s) -> col <> txt "index_id" -> v <> col -> of_run run l = [].
Proof. intros. eapply unknown_row; eauto. Qed.
(** The rows that are reported as invalid and as matching too many records. *)
Theorem C60_counters : usable s columns es ->
  Mapper_Spec.counts (fun e => no_category s columns (snd e)) es (oc_invalid c) /\
  Mapper_Spec.counts (fun e => ~ no_category s columns (snd e) /\ exists refs, fitting s columns (snd e) refs /\ limit < List.length refs) es (oc_overlimit c).
Proof. intros U. subst s. exact (old_counts gran _ limit allow columns es U (i_index _ (run_inv ops)) l c HM). Qed.
(** The shares of the records that a row is matched with: by weight, equal if there is no weight; in total 1. *)
Theorem C60_shares r : usable s columns es -> matched r l = true ->
  (forall h, In h (of_run r l) -> exists p, h_prop h = Some p /\ (0 <= p <= 1)%Q /\
     ((0 < total_weight r l)%Q -> (p == val (h_weight h) / total_weight r l)%Q) /\
     ((total_weight r l == 0)%Q -> (p == 1 / inject_Z (Z.of_nat (List.length (of_run r l))))%Q)) /\
  (parts r l == 1)%Q.
Proof. intros U. subst s. exact (old_shares gran _ limit allow columns es U l c HM r (i_weights _ (run_inv ops))). Qed.
End Side.
Print Assumptions C60_matches.
Print Assumptions C60_no_category.
Print Assumptions C60_unknown.
Print Assumptions C60_counters.
Print Assumptions C60_shares.

(** Tables with the same labels for the same columns are matched in the same way, whatever the order of the columns and
    whatever other columns without labels there are. *)
Theorem C60_same_rows gran s limit allow columns columns' es es' : usable s columns es -> usable s columns' es' -> same_rows columns columns' es es' ->
  old_match_records gran s limit allow columns es = old_match_records gran s limit allow columns' es'.
Proof. exact (same_matches gran s limit allow columns columns' es es'). Qed.
Print Assumptions C60_same_rows.

(** *** Loading *)

(** Both directions carry the same in total between two records. *)
Theorem C60_both_ways rows l1 l2 i j : ~ (i = 0 /\ j = 0)%Z ->
  (carried (get_mappings rows l1 l2) i j == carried (get_mappings rows l2 l1) j i)%Q.
Proof. exact (both_ways rows l1 l2 i j). Qed.
Print Assumptions C60_both_ways.

Section Load.
Context (a : load_args) (x1 x2 : lspace) (d : Streams_Model.data) (columns : option (list cell)).
Let R := load_mapping a x1 x2 d columns.
(** A space that is no target does not change. *)
Theorem C60_one_side : (~ to_the_right a -> ld_right R = l_db x2) /\ (~ to_the_left a -> ld_left R = l_db x1).
Proof. exact (one_side a x1 x2 d columns). Qed.
(** The spaces change by their own operations only, which keep their invariants (see C28 to C33). *)
Theorem C60_calls : exists ops1 ops2, ld_left R = run ops1 (l_db x1) /\ ld_right R = run ops2 (l_db x2) /\
  Forall honest ops1 /\ Forall honest ops2 /\ one_session ops1 /\ one_session ops2.
Proof. exact (calls a x1 x2 d columns). Qed.

Context (ops1 ops2 : list op) (HO1 : l_db x1 = run ops1 fresh) (HO2 : l_db x2 = run ops2 fresh) (H1 : one_session ops1) (H2 : one_session ops2).
Context (HN : la_link a <> []) (I1 : sp_id (l_space x1) <> []) (I2 : sp_id (l_space x2) <> []).
(** If loading fails, a target is unchanged, or has the link without mappings, or (the right space) is loaded. *)
Theorem C60_failed e : ld_exit R = Some e ->
  (ld_left R = l_db x1 \/ exists k, gets_link a x2 nothing (l_db x1) (ld_left R) k) /\
  (ld_right R = l_db x2 \/ (exists k, gets_link a x1 nothing (l_db x2) (ld_right R) k) \/
   let R' := load_mapping (rightwards a) x1 x2 d columns in to_the_right a /\ ld_exit R' = None /\ ld_right R' = ld_right R).
Proof. exact (failed a x1 x2 d columns ops1 ops2 e HO1 HO2 H1 H2 HN I1 I2). Qed.

Context (header : list text) (cells : list (list cell)) (HT : is_table d columns header cells) (Reg : regular header cells).
(** If there is no error, the table was understood and each target has got the link, with just the mappings that the rows make. *)
Theorem C60_loaded : ld_exit R = None ->
  exists c1 c2 rows l1 l2, table_is a x1 x2 header cells c1 c2 rows /\ matched_sides a x1 x2 c1 c2 rows l1 l2 /\
  (usable (l_db x1) c1 (left_rows rows) -> usable (l_db x2) c2 (right_rows rows) ->
    (to_the_right a -> exists k, gets_link a x1 (built rows l1 l2) (l_db x2) (ld_right R) k) /\
    (to_the_left a -> exists k, gets_link a x2 (built rows l2 l1) (l_db x1) (ld_left R) k)).
Proof. exact (whole a x1 x2 d columns header cells HT Reg ops1 ops2 HO1 HO2 H1 H2 HN I1 I2). Qed.
(** Loading succeeds with a table that is understood, values that are not negative and a new name. *)
Theorem C60_succeeds c1 c2 rows : table_is a x1 x2 header cells c1 c2 rows ->
  usable (l_db x1) c1 (left_rows rows) -> usable (l_db x2) c2 (right_rows rows) ->
  graded (sp_gran (l_space x1)) (l_db x1) c1 (left_rows rows) -> graded (sp_gran (l_space x2)) (l_db x2) c2 (right_rows rows) ->
  (forall r, In r rows -> (0 <= or_value r)%Q) ->
  (to_the_right a -> forall k, In k (d_links (l_db x2)) -> k_other k = sp_id (l_space x1) -> k_name k <> la_link a) ->
  (to_the_left a -> forall k, In k (d_links (l_db x1)) -> k_other k = sp_id (l_space x2) -> k_name k <> la_link a) ->
  ld_exit R = None.
Proof. exact (succeeds a x1 x2 d columns header cells HT Reg ops1 ops2 HO1 HO2 H1 H2 HN I1 I2 c1 c2 rows). Qed.
End Load.
Print Assumptions C60_one_side.
Print Assumptions C60_calls.
Print Assumptions C60_failed.
Print Assumptions C60_loaded.
Print Assumptions C60_succeeds.

(** *** Cases *)

Definition in_domain (x : space) (dom : string) : lspace := {| l_space := x; l_domain := txt dom; l_hint := Some (txt "file.toron") |}.
Definition args (name dir : string) (dflt : option bool) (limit : nat) (overlapping : bool) : load_args :=
  {| la_link := txt name; la_direction := txt dir; la_selectors := []; la_default := dflt; la_limit := limit; la_overlapping := overlapping |}.
Definition seen (r : loaded) := (ld_exit r, shown_maps (ld_left r), shown_maps (ld_right r)).
Definition shown_links (s : db) := map (fun k => (k_id k, k_other k, k_name k, k_default k, k_complete k)) (d_links s).
Definition as_data (l : list (list string)) : Streams_Model.data := DIter (chain (map RSeq (texts l)) Stop).

(** Domains on both sides; x is a label of two records. *)
Definition table_1 : list (list string) :=
  [["domain"; "C"; "m2"; "domain"; "B"; "A"]; ["d1"; "p"; "6"; "d2"; ""; "x"]; ["d1"; "q"; "1"; "d2"; "1"; "y"];
   ["d1"; "r"; "4"; "d2"; "9"; "z"]; ["d1"; "p"; "1"; "d2"; "1"; "x"]]%string.
Definition left_1 := in_domain file1 "d1".
Definition right_1 := in_domain (file2 []) "d2".
Definition both_1 := args "m2" "<->" None 2 true.
Example C60_case : seen (load_mapping both_1 left_1 right_1 (as_data table_1) None) =
  (None, [(2, 1, 1, [128%N], 3%Q); (2, 2, 1, [128%N], 4%Q); (2, 3, 2, [128%N], 1%Q); (2, 4, 3, [128%N], 4%Q)],
   [(2, 1, 1, [128%N], 2%Q); (2, 1, 2, [128%N], 4%Q); (2, 2, 3, [192%N], 1%Q); (2, 3, 4, [192%N], 4%Q); (2, 1, 1, [192%N], 1%Q)])%Z.
Proof. vm_compute. reflexivity. Qed.

(** The hypotheses of the theorems hold of this case. *)
Definition header_1 : list text := map txt (hd [] table_1).
Definition cells_1 : list (list cell) := tl (texts table_1).
Definition rows_1 : list old_row :=
  match read_table (txt "m2") cells_1 header_1 (txt "d1") (txt "d2") with Ok (_, _, rows) => rows | Err _ => [] end.
Lemma table_1_is : is_table (as_data table_1) None header_1 cells_1.
Proof. vm_compute. reflexivity. Qed.
Lemma table_1_regular : regular header_1 cells_1.
Proof. intros l Hl. right. cbn in Hl. destruct Hl as [<-|[<-|[<-|[<-|[]]]]]; reflexivity. Qed.
Lemma table_1_read : table_is both_1 left_1 right_1 header_1 cells_1 [txt "C"] [txt "B"; txt "A"] rows_1.
Proof. apply read_table_iff; [exact table_1_regular|]. vm_compute. reflexivity. Qed.
Lemma filled_in columns loc c v : filled columns loc c v -> In c columns.
Proof. intros (n & H & _). eapply nth_error_In; exact H. Qed.
Lemma usable_1 : usable (l_db left_1) [txt "C"] (left_rows rows_1) /\ usable (l_db right_1) [txt "B"; txt "A"] (right_rows rows_1).
Proof.
  destruct (C60_usable both_1 left_1 right_1 header_1 cells_1 table_1_regular _ _ _ table_1_read) as [A B]. split.
  - apply A.
    + repeat constructor; cbn; intuition discriminate.
    + unfold l_db. cbn [left_1 in_domain l_space]. rewrite db_1_ok. vm_compute. repeat constructor; cbn; intuition discriminate.
    + intros r c v _ H. apply filled_in in H. unfold l_db. cbn [left_1 in_domain l_space]. rewrite db_1_ok. destruct H as [<-|[]]. split; [now left|discriminate].
  - apply B.
    + repeat constructor; cbn; intuition discriminate.
    + unfold l_db. cbn [right_1 in_domain l_space]. rewrite db_3_ok. vm_compute. repeat constructor; cbn; intuition discriminate.
    + intros r c v _ H. apply filled_in in H. unfold l_db. cbn [right_1 in_domain l_space]. rewrite db_3_ok. destruct H as [<-|[<-|[]]]; (split; [cbn; auto|discriminate]).
Qed.
Lemma sess_1 : one_session (hist_1 "C" pqr). Proof. repeat constructor; intros []. Qed.
Lemma sess_2 : one_session (hist_2 []). Proof. repeat constructor; intros []. Qed.
Lemma left_1_run : l_db left_1 = run (hist_1 "C" pqr) fresh. Proof. unfold left_1, l_db, in_domain, l_space, file1, sp_db. reflexivity. Qed.
Lemma right_1_run : l_db right_1 = run (hist_2 []) fresh. Proof. unfold right_1, l_db, in_domain, l_space, file2, sp_db. reflexivity. Qed.
Lemma left_1_db : l_db left_1 = db_1. Proof. exact db_1_ok. Qed.
Lemma right_1_db : l_db right_1 = db_3. Proof. exact db_3_ok. Qed.
Lemma graded_left : graded (sp_gran (l_space left_1)) (l_db left_1) [txt "C"] (left_rows rows_1).
Proof. rewrite left_1_db. split; [|discriminate]. exists 1%Z. split; [reflexivity|]. eexists. split; [now left|reflexivity]. Qed.
Lemma graded_right : graded (sp_gran (l_space right_1)) (l_db right_1) [txt "B"; txt "A"] (right_rows rows_1).
Proof. rewrite right_1_db. split; [|discriminate]. exists 1%Z. split; [reflexivity|]. eexists. split; [now left|reflexivity]. Qed.
Lemma rows_1_nonneg : forall r, In r rows_1 -> (0 <= or_value r)%Q.
Proof. intros r Hr. vm_compute in Hr. destruct Hr as [<-|[<-|[<-|[<-|[]]]]]; vm_compute; discriminate. Qed.
Lemma free_right : to_the_right both_1 -> forall k, In k (d_links (l_db right_1)) -> k_other k = sp_id (l_space left_1) -> k_name k <> la_link both_1.
Proof. intros _ k Hk _. rewrite right_1_db in Hk. destruct Hk as [<-|[]]. discriminate. Qed.
Lemma free_left : to_the_left both_1 -> forall k, In k (d_links (l_db left_1)) -> k_other k = sp_id (l_space right_1) -> k_name k <> la_link both_1.
Proof. intros _ k Hk _. rewrite left_1_db in Hk. destruct Hk as [<-|[]]. discriminate. Qed.
Lemma named_1 : la_link both_1 <> [] /\ sp_id (l_space left_1) <> [] /\ sp_id (l_space right_1) <> [].
Proof. repeat split; discriminate. Qed.
Example C60_succeeds_case :
  let R := load_mapping both_1 left_1 right_1 (as_data table_1) None in ld_exit R = None /\
  exists c1 c2 rows l1 l2, table_is both_1 left_1 right_1 header_1 cells_1 c1 c2 rows /\ matched_sides both_1 left_1 right_1 c1 c2 rows l1 l2 /\
    (exists k, gets_link both_1 left_1 (built rows l1 l2) (l_db right_1) (ld_right R) k) /\
    (exists k, gets_link both_1 right_1 (built rows l2 l1) (l_db left_1) (ld_left R) k).
Proof.
  destruct usable_1 as [U1 U2]. destruct named_1 as (N0 & N1 & N2).
  pose proof (C60_succeeds both_1 left_1 right_1 (as_data table_1) None (hist_1 "C" pqr) (hist_2 []) left_1_run right_1_run sess_1 sess_2 N0 N1 N2
      header_1 cells_1 table_1_is table_1_regular _ _ _ table_1_read U1 U2 graded_left graded_right rows_1_nonneg free_right free_left) as E.
  cbv zeta. split; [exact E|].
  destruct (C60_loaded both_1 left_1 right_1 (as_data table_1) None (hist_1 "C" pqr) (hist_2 []) left_1_run right_1_run sess_1 sess_2 N0 N1 N2
      header_1 cells_1 table_1_is table_1_regular E) as (c1 & c2 & rows & l1 & l2 & T & M & G).
  destruct (C60_table_once both_1 left_1 right_1 header_1 cells_1 table_1_regular _ _ _ _ _ _ T table_1_read) as (-> & -> & ->).
  destruct (G U1 U2) as [L1 L2]. do 5 eexists. split; [exact T|]. split; [exact M|]. split.
  - apply L1. exists [60%N], []. reflexivity.
  - apply L2. exists [], [62%N]. reflexivity.
Qed.
(** A row with another domain. *)
Definition table_2 : list (list string) := [hd [] table_1; ["d1"; "p"; "6"; "d1"; ""; "x"]%string].
Example C60_wrong_domain_case : exists n l p q v, link_column shorthand_name (txt "m2") (map CText header_1) n /\
  In l (tl (texts table_2)) /\ ~ In (txt "domain") p /\
  skipn (n + 1) header_1 = p ++ txt "domain" :: q /\ nth_error l (n + 1 + List.length p) = Some v /\ v <> CText (txt "d2") /\
  ld_exit (load_mapping both_1 left_1 right_1 (as_data table_2) None) = Some ValueError.
Proof.
  exists 2, (map CText (map txt ["d1"; "p"; "6"; "d1"; ""; "x"]%string)), [], [txt "B"; txt "A"], (CText (txt "d1")).
  split; [apply value_position_iff; vm_compute; reflexivity|]. split; [now left|]. split; [auto|]. split; [reflexivity|]. split; [reflexivity|]. split; [discriminate|].
  vm_compute. reflexivity.
Qed.
(** The matches of the right side: a row of the first category, one of the second, one of none (a label for B only), one that fits two records, one that
    fits none.  Without overlaps the first row keeps only the record that no row of the finer category has. *)
Definition side_1_ : list (Z * list text) :=
  map (fun e => (fst e, map txt (snd e))) [(1, ["x"; ""]); (2, ["x"; "1"]); (3, [""; "1"]); (4, ["y"; "7"])]%Z%string.
Definition shown_hits (r : res (list hit * old_counter)) :=
  match r with Ok (l, c) => Ok (map (fun h => (h_run h, h_index h, h_level h, h_weight h, h_prop h)) l, (oc_invalid c, oc_overlimit c, oc_excluded c)) | Err e => Err e end.
Example C60_matches_case :
  shown_hits (old_match_records by_size (l_db right_1) 2 false [txt "A"; txt "B"] side_1_) =
    Ok ([(2, 1, [192%N], Some (inject_Z 10), Some (10 # 10)%Q); (1, 2, [128%N], Some (inject_Z 20), Some (20 # 20)%Q)]%Z, (1, 0, 1)) /\
  shown_hits (old_match_records by_size (l_db right_1) 1 false [txt "A"; txt "B"] side_1_) =
    Ok ([(2, 1, [192%N], Some (inject_Z 10), Some (10 # 10)%Q)]%Z, (1, 1, 0)).
Proof. split; vm_compute; reflexivity. Qed.
Example C60_same_rows_case :
  same_rows [txt "A"; txt "B"] [txt "B"; txt "Z"; txt "A"] side_1_ (map (fun e => (fst e, match snd e with [a; b] => [b; []; a] | l => l end)) side_1_).
Proof.
  repeat (apply Forall2_cons); [..|apply Forall2_nil]; (split; [reflexivity|]); intros c v; cbn [snd map side_1_]; split.
  all: intros (n & Hc & Hv & Hn); destruct n as [|[|[|n]]]; try discriminate; try (destruct n; discriminate).
  all: cbn in Hc, Hv; injection Hc as <-; injection Hv as <-; try congruence; try (exfalso; now apply Hn).
  all: first [exists 0; split; [reflexivity|]; split; [reflexivity|exact Hn]|exists 1; split; [reflexivity|]; split; [reflexivity|exact Hn]
             |exists 2; split; [reflexivity|]; split; [reflexivity|exact Hn]].
Qed.

(** *** Findings *)

(** A right space that has no links. *)
Definition hist_3 : list op := firstn 4 (hist_2 []).
Definition file3 : space := {| sp_id := txt "u2"; sp_bytes := u16 2; sp_gran := by_size; sp_db := run hist_3 fresh |}.
Definition right_3 := in_domain file3 "d2".
Definition plain (name : string) (rows : list (list string)) := as_data (["C"; name; "A"; "B"]%string :: rows).

(** Loading is not atomic: the right space is loaded although loading into the left space fails (there is such a link). *)
Theorem C60_not_atomic_refuted : exists a x1 x2 d, let R := load_mapping a x1 x2 d None in
  seen R = (Some ToronError, [], [(1, 1, 1, [192%N], 5%Q)])%Z /\ shown_maps (l_db x2) = [].
Proof. exists (args "m1" "<->" None 1 false), left_1, right_3, (plain "m1" [["p"; "5"; "x"; "1"]]%string). split; vm_compute; reflexivity. Qed.
(** A link without mappings stays when a value is refused. *)
Theorem C60_link_stays_refuted : exists a x1 x2 d, let R := load_mapping a x1 x2 d None in
  seen R = (Some SqlIntegrityError, [], []) /\ shown_links (l_db x2) = [] /\ shown_links (ld_right R) = [(1%Z, txt "u1", txt "m2", true, false)].
Proof. exists (args "m2" "->" None 1 false), left_1, right_3, (plain "m2" [["p"; "-5"; "x"; "1"]]%string). repeat split; vm_compute; reflexivity. Qed.
(** A direction that is not known is accepted, and nothing is loaded. *)
Theorem C60_direction_refuted : exists a x1 x2 d, la_direction a = txt "=>" /\ let R := load_mapping a x1 x2 d None in
  ld_exit R = None /\ ld_left R = l_db x1 /\ ld_right R = l_db x2.
Proof.
  exists (args "m2" "=>" None 1 false), left_1, right_3, (plain "m2" [["p"; "5"; "x"; "1"]]%string). split; [reflexivity|]. cbv zeta.
  split; [vm_compute; reflexivity|]. destruct (C60_one_side (args "m2" "=>" None 1 false) left_1 right_3 (plain "m2" [["p"; "5"; "x"; "1"]]%string) None) as [A B].
  split; [apply B; intros H; apply left_iff in H|apply A; intros H; apply right_iff in H]; vm_compute in H; discriminate.
Qed.
(** A row that fits no record is not reported. *)
Theorem C60_silent_refuted : exists gran s columns es l c, old_match_records gran s 1 false columns es = Ok (l, c) /\ usable s columns es /\
  es <> [] /\ l = [] /\ c = old_zero.
Proof.
  exists by_size, (l_db right_3), [txt "A"; txt "B"], [(1%Z, [txt "y"; txt "7"])], [], old_zero. split; [vm_compute; reflexivity|]. split; [|split; [discriminate|auto]].
  split.
  - repeat constructor; cbn; intuition discriminate.
  - intros e [<-|[]]. reflexivity.
  - intros e c v _ H. apply filled_in in H. replace (d_labels (l_db right_3)) with [txt "A"; txt "B"] by (vm_compute; reflexivity). destruct H as [<-|[<-|[]]]; (split; [cbn; auto|discriminate]).
  - repeat constructor; cbn; intuition discriminate.
  - vm_compute. repeat constructor; cbn; intuition discriminate.
Qed.
(** A label in a column that the space does not have is passed over if it is the name of the column. *)
Theorem C60_column_name_refuted : exists a x1 x2 d, let R := load_mapping a x1 x2 d None in
  ~ In (txt "Z") (d_labels (l_db x2)) /\ seen R = (None, [], [(1, 1, 1, [192%N], 5%Q)])%Z.
Proof.
  exists (args "m2" "->" None 1 false), left_1, right_3, (as_data [["C"; "m2"; "A"; "B"; "Z"]; ["p"; "5"; "x"; "1"; "Z"]; ["p"; "3"; "x"; "2"; "W"]]%string). split; [|vm_compute; reflexivity].
  replace (d_labels (l_db right_3)) with [txt "A"; txt "B"] by (vm_compute; reflexivity). cbn. intuition discriminate.
Qed.
(** A blank row is passed over, but not if domains are checked. *)
Theorem C60_blank_row_refuted : exists a x1 x2 d d', seen (load_mapping a x1 x2 d None) = (None, [], [(1, 1, 1, [192%N], 5%Q)])%Z /\
  seen (load_mapping a x1 x2 d' None) = (Some IndexError, [], []).
Proof.
  exists (args "m2" "->" None 1 false), left_1, right_3, (plain "m2" [["p"; "5"; "x"; "1"]; []]%string), (as_data [["domain"; "C"; "m2"; "A"; "B"]; ["d1"; "p"; "5"; "x"; "1"]; []]%string).
  split; vm_compute; reflexivity.
Qed.
(** Negative values are accepted if another row makes up for them. *)
Theorem C60_negative_refuted : exists a x1 x2 d, seen (load_mapping a x1 x2 d None) = (None, [], [(1, 1, 1, [192%N], 3%Q)])%Z /\
  d = plain "m2" [["p"; "5"; "x"; "1"]; ["p"; "-2"; "x"; "1"]]%string.
Proof. exists (args "m2" "->" None 1 false), left_1, right_3, (plain "m2" [["p"; "5"; "x"; "1"]; ["p"; "-2"; "x"; "1"]]%string). split; [vm_compute|]; reflexivity. Qed.
(** Without granularities a table with one category is loaded, one with two is not. *)
Theorem C60_no_granularity_refuted : exists a x1 x2 d d', seen (load_mapping a x1 x2 d None) = (None, [], [(1, 1, 1, [192%N], 5%Q)])%Z /\
  seen (load_mapping a x1 x2 d' None) = (Some TypeError, [], []).
Proof.
  exists (args "m2" "->" None 2 false), left_1, (in_domain {| sp_id := txt "u2"; sp_bytes := u16 2; sp_gran := fun _ => None; sp_db := run hist_3 fresh |} "d2"),
    (plain "m2" [["p"; "5"; "x"; "1"]]%string), (plain "m2" [["p"; "5"; "x"; "1"]; ["p"; "5"; "y"; ""]]%string).
  split; vm_compute; reflexivity.
Qed.
(** With an empty name the mappings go to another link, the default. *)
Theorem C60_empty_name_refuted : exists a x1 x2 d, la_link a = [] /\ let R := load_mapping a x1 x2 d None in
  shown_links (l_db x2) = [(1%Z, txt "u1", txt "m1", true, false)] /\ shown_links (ld_right R) = [(1%Z, txt "u1", txt "m1", true, false); (2%Z, txt "u1", [], false, false)] /\
  seen R = (None, [], [(1, 1, 1, [192%N], 5%Q)])%Z.
Proof. exists (args "" "->" None 1 false), left_1, right_1, (plain "" [["p"; "5"; "x"; "1"]]%string). repeat split; vm_compute; reflexivity. Qed.
