(** C45, C53: the export of a link's mappings. *)
From Verif Require Import Prelude BitFlags_Model BitFlags_Spec BitFlags_Proofs Selectors_Model Selectors_Proofs
  SelectorParse_Model LinkRef_Model LinkRef_Spec IndexCode_Model IndexCode_Spec
  Db_Model Db_Spec Db_ProofsRun Db_ProofsOps Elements_Model Elements_Spec Elements_Proofs Db_Properties.
From Coq Require Import Ascii String List.
Local Open Scope list_scope.
Local Open Scope nat_scope.

(** In all theorems the target space is the result of any sequence [ops] of calls on a new space, and the
    source space of any other sequence [ops']. *)

(** *** C45: the elements *)

(** A link of that name to the source gives a result, without one there is an error. *)
Theorem C45_link_needed ops ops' n id :
  (generate_mapping_elements (Some n) id (run ops' fresh) (run ops fresh) = Err PlainException <->
     forall k, ~ the_link n id (run ops fresh) k) /\
  (forall x, generate_mapping_elements (Some n) id (run ops' fresh) (run ops fresh) = Err x -> x = PlainException) /\
  generate_mapping_elements None id (run ops' fresh) (run ops fresh) = Err PlainException.
Proof.
  pose proof (run_inv ops) as I. pose proof (run_inv ops') as I'. split; [|split].
  - split; [|apply elements_none]. intros H k L.
    destruct (elements_of k n id (run ops' fresh) (run ops fresh) (iw_unique _ (i_index _ I')) (i_links _ I) (i_maps _ I) L)
      as (els & E & _). congruence.
  - intros x H. unfold generate_mapping_elements in H. destruct (pick_link (Some n) id (d_links (run ops fresh))) as [k|] eqn:E; [|congruence].
    apply pick_link_some in E.
    destruct (elements_of k n id (run ops' fresh) (run ops fresh) (iw_unique _ (i_index _ I')) (i_links _ I) (i_maps _ I) E)
      as (els & Ee & _). unfold generate_mapping_elements in Ee.
    rewrite (proj2 (pick_link_iff n id _ k (i_links _ I)) E) in Ee. congruence.
  - unfold generate_mapping_elements. now rewrite pick_link_no_name.
Qed.
Print Assumptions C45_link_needed.

(** The elements are those of the specification. *)
Theorem C45_exported ops ops' n id k : the_link n id (run ops fresh) k ->
  exists els, generate_mapping_elements (Some n) id (run ops' fresh) (run ops fresh) = Ok els /\
    exported k (run ops' fresh) (run ops fresh) els.
Proof.
  exact (elements_of k n id _ _ (iw_unique _ (i_index _ (run_inv ops'))) (i_links _ (run_inv ops)) (i_maps _ (run_inv ops))).
Qed.
Print Assumptions C45_exported.

(** No record is reported unmatched while it has a mapping, no element is empty, and each
    unmatched record is reported once. *)
Theorem C45_not_both ops ops' n id k els : the_link n id (run ops fresh) k ->
  generate_mapping_elements (Some n) id (run ops' fresh) (run ops fresh) = Ok els ->
  (forall e i, In e els -> el_source e = None -> el_target e = Some i ->
     ~ exists e' o, In e' els /\ el_target e' = Some i /\ el_source e' = Some o) /\
  (forall e o, In e els -> el_target e = None -> el_source e = Some o ->
     ~ exists e' i, In e' els /\ el_source e' = Some o /\ el_target e' = Some i) /\
  (forall e, In e els -> el_source e <> None \/ el_target e <> None) /\ NoDup els.
Proof.
  intros L H. destruct (C45_exported ops ops' n id k L) as (els' & E & X). assert (els' = els) by congruence. subst els'.
  destruct X as (ms & rs & ls & -> & (Nm & Xm) & (Nr & Xr) & (Nl & Xl)).
  assert (In_ : forall e, In e (undefined_pair :: map shown ms ++ map lone_target rs ++ map lone_source ls) ->
    e = undefined_pair \/ (exists m, e = shown m /\ of_link k (run ops fresh) m) \/
    (exists i, e = lone_target i /\ defined (run ops fresh) i /\ ~ mapped_target k (run ops fresh) i) \/
    (exists o, e = lone_source o /\ defined (run ops' fresh) o /\ ~ mapped_source k (run ops fresh) o)).
  { intros e [<-|He]; [auto|]. rewrite !in_app_iff, !in_map_iff in He.
    destruct He as [(m & <- & Hm)|[(i & <- & Hi)|(i & <- & Hi)]].
    - right. left. exists m. split; auto. now apply Xm.
    - right. right. left. exists i. split; auto. apply Xr in Hi. tauto.
    - right. right. right. exists i. split; auto. apply Xl in Hi. tauto. }
  split; [|split; [|split]].
  - intros e i He Es Et (e' & o & He' & Et' & Es').
    destruct (In_ e He) as [->|[(m & -> & _)|[(j & -> & D & N)|(j & -> & _)]]]; try discriminate. injection Et as <-.
    destruct (In_ e' He') as [->|[(m & -> & M)|[(j' & -> & _)|(j' & -> & _)]]]; try discriminate.
    + injection Et' as <-. now apply D.
    + injection Et' as <-. apply N. now exists m.
  - intros e o He Et Es (e' & i & He' & Es' & Et').
    destruct (In_ e He) as [->|[(m & -> & _)|[(j & -> & _)|(j & -> & D & N)]]]; try discriminate. injection Es as <-.
    destruct (In_ e' He') as [->|[(m & -> & M)|[(j' & -> & _)|(j' & -> & _)]]]; try discriminate.
    + injection Es' as <-. now apply D.
    + injection Es' as <-. apply N. now exists m.
  - intros e He. destruct (In_ e He) as [->|[(m & -> & _)|[(j & -> & _)|(j & -> & _)]]]; cbn; (left; discriminate) || (right; discriminate).
  - assert (Inj : forall {A} (f : A -> element) l, (forall x y, In x l -> In y l -> f x = f y -> x = y) -> NoDup l -> NoDup (map f l)).
    { intros A f l Hf Hn. induction Hn as [|x l Hx Hn IH]; cbn [map]; constructor.
      - intros Q. apply in_map_iff in Q. destruct Q as (y & Ey & Hy). apply Hx. rewrite <- (Hf y x); auto; [now right|now left].
      - apply IH. intros; apply Hf; auto; now right. }
    assert (App : forall (a b : list element), NoDup a -> NoDup b -> (forall x, In x a -> ~ In x b) -> NoDup (a ++ b)).
    { intros a b Ha Hb D. induction Ha as [|x a Hx Ha IH]; cbn [app]; auto. constructor.
      - rewrite in_app_iff. intros [Q|Q]; [auto|]. exact (D x (or_introl eq_refl) Q).
      - apply IH. intros y Hy. apply D. now right. }
    constructor.
    + rewrite !in_app_iff, !in_map_iff. intros [(m & Em & Hm)|[(i & Ei & _)|(i & Ei & _)]]; try discriminate.
    + apply App; [|apply App|].
      * apply Inj; auto. intros x y Hx Hy E1. apply Xm in Hx. apply Xm in Hy. injection E1 as E2 E3 E4 E5.
        pose proof (mw_unique _ (i_maps _ (run_inv ops))) as U. destruct Hx as [Hx Lx], Hy as [Hy Ly].
        clear - U Hx Hy E2 E3 E4 Lx Ly. induction (d_maps (run ops fresh)) as [|z l IH]; [destruct Hx|].
        cbn [map] in U. inversion_clear U as [|? ? Na Nb].
        assert (K : forall a b, m_other a = m_other b -> m_index a = m_index b -> m_level a = m_level b -> m_link a = m_link b -> 
           In b l -> a <> z \/ False).
        { intros a b Q1 Q2 Q3 Q4 Hb. left. intros ->. apply Na. apply in_map_iff. exists b. split; auto. congruence. }
        destruct Hx as [->|Hx], Hy as [->|Hy]; auto.
        -- destruct (K x y) as [Q|[]]; auto; congruence.
        -- destruct (K y x) as [Q|[]]; auto; congruence.
      * apply Inj; auto. intros x y _ _ [= Q]. auto.
      * apply Inj; auto. intros x y _ _ [= Q]. auto.
      * intros x Hx Hy. apply in_map_iff in Hx, Hy. destruct Hx as (i & <- & _), Hy as (j & Ej & _). discriminate.
      * intros x Hx Hy. rewrite in_app_iff, !in_map_iff in Hy. apply in_map_iff in Hx.
        destruct Hx as (m & <- & _), Hy as [(j & Ej & _)|(j & Ej & _)]; discriminate.
Qed.
Print Assumptions C45_not_both.

(** As long as nobody claimed completeness that did not hold, the export covers both spaces: every
    defined record of the target and of the source occurs. *)
Theorem C45_covers_target ops ops' n id k els i : Forall honest ops -> the_link n id (run ops fresh) k ->
  generate_mapping_elements (Some n) id (run ops' fresh) (run ops fresh) = Ok els ->
  defined (run ops fresh) i -> exists e, In e els /\ el_target e = Some i.
Proof.
  intros Hh L H D. destruct (C45_exported ops ops' n id k L) as (els' & E & X). assert (els' = els) by congruence. subst els'.
  exact (covered_target k n id _ _ els i X L (proj2 (run_sound ops Hh)) D).
Qed.
Print Assumptions C45_covers_target.
Theorem C45_covers_source ops ops' n id k els o : Forall honest ops -> the_link n id (run ops fresh) k ->
  generate_mapping_elements (Some n) id (run ops' fresh) (run ops fresh) = Ok els ->
  defined (run ops' fresh) o -> exists e, In e els /\ el_source e = Some o.
Proof.
  intros Hh L H D. destruct (C45_exported ops ops' n id k L) as (els' & E & X). assert (els' = els) by congruence. subst els'.
  exact (covered_source k n id _ _ els o X L (run_sources ops Hh) (i_hash _ (run_inv ops')) D).
Qed.
Print Assumptions C45_covers_source.

(** The source used in the examples: four records, so that the link of [hist] is not current. *)
Definition src_hist : list op :=
  [OAddColumns [txt "C"]; 
   OInsertIndex None [] PAbort PAbort
     (map (fun a => {| ir_id := None; ir_labels := [txt a]; ir_cells := [] |}) ["p"; "q"; "r"; "s"]%string)].
(** The target of the examples: one more record, which leaves the link incomplete. *)
Definition trg_hist : list op :=
  hist ++ [OInsertIndex None [txt "pop"] PAbort PAbort [rec_ "z" "9" 5]].
Definition show_els (r : res (list element)) :=
  match r with
  | Ok els => Some (map (fun e => (el_source e, el_target e, snd (fst e), option_map Qred (snd e))) els)
  | Err _ => None
  end.

Example C45_case :
  Forall honest trg_hist /\ (exists k, the_link (txt "m1") (txt "u1") (run trg_hist fresh) k) /\
  show_els (generate_mapping_elements (Some (txt "m1")) (txt "u1") (run src_hist fresh) (run trg_hist fresh)) =
    Some [(Some 0, Some 0, None, Some 0%Q);
          (Some 1, Some 1, Some whole, Some 3%Q); (Some 1, Some 2, Some whole, Some 1%Q);
          (Some 2, Some 3, Some whole, Some 0%Q); (Some 3, Some 2, Some coarse, Some 5%Q);
          (None, Some 4, None, None);
          (Some 4, None, None, None)]%Z.
Proof.
  split; [repeat constructor|]. split; [|vm_compute; reflexivity].
  values. eexists. split; [left; reflexivity|split; reflexivity].
Qed.

(** Finding: a link marked complete by hand hides unmatched target records. *)
Theorem C45_dishonest_flag_refuted : exists ops ops' n id k els i,
  the_link n id (run ops fresh) k /\ generate_mapping_elements (Some n) id (run ops' fresh) (run ops fresh) = Ok els /\
  defined (run ops fresh) i /\ ~ exists e, In e els /\ el_target e = Some i.
Proof.
  exists (trg_hist ++ [OEditLink (txt "u1") (txt "m1")
            {| c_other := None; c_hint := None; c_hash := None; c_name := None; c_selectors := None;
               c_default := None; c_complete := Some true |}]), src_hist, (txt "m1"), (txt "u1").
  values. eexists. eexists. exists 4%Z.
  split; [split; [left; reflexivity|split; reflexivity]|]. split; [vm_compute; reflexivity|].
  split; [split; [eexists; split; [right; right; right; right; left; reflexivity|reflexivity]|discriminate]|].
  intros (e & He & Et). vm_compute in He. repeat (destruct He as [<-|He]; [discriminate|]). destruct He.
Qed.
Print Assumptions C45_dishonest_flag_refuted.

(** *** C45: the CSV output of the command line *)

(** One row for each element, in order, with codes that read back and the labels of both records; an
    extra column exactly if some mapping is not at the level of the whole space; correct counts. *)
Theorem C45_rows ops ops' name id sb tb sh th header rows c :
  let src := run ops' fresh in let trg := run ops fresh in
  write_to_stdout name id sb tb sh th src trg = Ok (header, rows, c) ->
  exists k els full, the_link name id trg k /\ exported k src trg els /\
    generate_mapping_elements (Some name) id src trg = Ok els /\
    (full = true <-> forall m, of_link k trg m -> m_level m = whole_level trg) /\
    header = [sh] ++ d_labels src ++ [name; th] ++ d_labels trg ++ (if full then [] else [txt "ambiguous_fields"]) /\
    Forall2 (row_of src trg sb tb) els rows /\
    Forall2 (fun e r => r_ambiguous r =
      if full then None else Some (get_ambiguous_field_text (snd (fst e)) (d_labels trg))) els rows /\
    n_rows c = length els /\ counted (gone src) els (n_invalid_source c) /\
    counted no_source els (n_unmatched_source c) /\ counted no_target els (n_unmatched_target c).
Proof.
  exact (write_spec name id sb tb sh th _ _ header rows c (iw_unique _ (i_index _ (run_inv ops')))
           (i_links _ (run_inv ops)) (i_maps _ (run_inv ops))).
Qed.
Print Assumptions C45_rows.

(** With a link, the output is written (ids are 64-bit integers in the file). *)
Theorem C45_writes ops ops' name id sb tb sh th k : one_session ops ->
  let src := run ops' fresh in let trg := run ops fresh in
  the_link name id trg k ->
  (forall m, of_link k trg m -> fits (m_other m)) ->
  (forall i, has_index src i -> fits i) -> (forall i, has_index trg i -> fits i) ->
  exists out, write_to_stdout name id sb tb sh th src trg = Ok out.
Proof.
  intros O src trg L M Fs Ft. pose proof (i_index _ (run_inv ops)) as Iw.
  apply (write_ok name id sb tb sh th src trg k); auto.
  - exact (iw_unique _ (i_index _ (run_inv ops'))).
  - exact (i_links _ (run_inv ops)).
  - exact (i_maps _ (run_inv ops)).
  - exists (undefined_record trg). split; [exact (iw_undefined _ Iw)|reflexivity].
  - intros m Hm. split; [|auto]. exact (mr_ref_index _ (C31_mappings_belong ops O) m (proj1 Hm)).
Qed.
Print Assumptions C45_writes.

Definition show_out (r : res (list text * list out_row * counts)) :=
  match r with
  | Ok (h, rows, c) =>
      Some (h, map (fun r => (r_src_labels r, option_map Qred (r_value r), r_trg_labels r, r_ambiguous r)) rows,
            (n_rows c, n_invalid_source c, n_unmatched_source c, n_unmatched_target c), messages c)
  | Err _ => None
  end.
Definition u16 (n : N) : list N := repeat n 16.
Definition shown_case := show_out (write_to_stdout (txt "m1") (txt "u1") (u16 1) (u16 2) (txt "i1") (txt "i2")
              (run src_hist fresh) (run trg_hist fresh)).
Example C45_rows_case :
  let x := Some (txt "x") in let y := Some (txt "y") in let d := Some (txt "-") in
  let none : option text := None in
  one_session trg_hist /\
  shown_case =
    Some (map txt ["i1"; "C"; "m1"; "i2"; "A"; "B"; "ambiguous_fields"]%string,
      [([d], Some 0%Q, [d; d], Some None);
       ([Some (txt "p")], Some 3%Q, [x; Some (txt "1")], Some None);
       ([Some (txt "p")], Some 1%Q, [x; Some (txt "2")], Some None);
       ([Some (txt "q")], Some 0%Q, [y; Some (txt "1")], Some None);
       ([Some (txt "r")], Some 5%Q, [x; Some (txt "2")], Some (Some (txt "B")));
       ([none], None, [Some (txt "z"); Some (txt "9")], Some None);
       ([Some (txt "s")], None, [none; none], Some None)],
      (7, 0, 1, 1), [MUnmatchedFile1 1; MUnmatchedFile2 1; MWritten 7]).
Proof. split; [repeat constructor; cbn; auto|vm_compute; reflexivity]. Qed.

(** What the log says: the number of rows, and the number of rows whose source is not a record, if there
    are any.  (The other two numbers are those of rows without source and without target; see the
    finding below for what they are called.) *)
Theorem C45_log ops ops' name id sb tb sh th header rows c els :
  let src := run ops' fresh in let trg := run ops fresh in
  write_to_stdout name id sb tb sh th src trg = Ok (header, rows, c) ->
  generate_mapping_elements (Some name) id src trg = Ok els ->
  (forall n, In (MWritten n) (messages c) <-> n = length rows) /\
  (forall n, In (MInvalidFile1 n) (messages c) <-> n <> 0 /\ counted (gone src) els n) /\
  (forall n, In (MUnmatchedFile1 n) (messages c) <-> n <> 0 /\ counted no_source els n) /\
  (forall n, In (MUnmatchedFile2 n) (messages c) <-> n <> 0 /\ counted no_target els n).
Proof.
  intros src trg H E. apply C45_rows in H. fold src trg in H.
  destruct H as (k & els' & full & _ & _ & E' & _ & _ & F & _ & N & C1 & C2 & C3).
  assert (els' = els) by congruence. subst els'.
  assert (U : forall P (l : list element) a, counted P l a -> forall b, counted P l b -> a = b).
  { clear. induction 1 as [|x l a Hx H IH|x l a Hx H IH]; intros b Hb; inversion Hb; subst; auto; contradiction. }
  assert (L : length rows = length els) by (clear - F; induction F; cbn; auto).
  assert (O : forall (f : nat -> message) v x, In x (match v with O => [] | _ => [f v] end) <-> v <> 0 /\ x = f v).
  { intros f [|v] x; cbn [In]; [split; [intros []|intros [Q _]; congruence]|]. split; [intros [<-|[]]; auto|intros [_ ->]; auto]. }
  assert (or_both : forall A B C D : Prop, (A <-> B) -> (C <-> D) -> (A \/ C <-> B \/ D)) by (clear; tauto).
  assert (X : forall x, In x (messages c) <->
    (n_invalid_source c <> 0 /\ x = MInvalidFile1 (n_invalid_source c)) \/
    (n_unmatched_source c <> 0 /\ x = MUnmatchedFile1 (n_unmatched_source c)) \/
    (n_unmatched_target c <> 0 /\ x = MUnmatchedFile2 (n_unmatched_target c)) \/ x = MWritten (n_rows c)).
  { intros x. unfold messages. rewrite !in_app_iff.
    assert (W : In x [MWritten (n_rows c)] <-> x = MWritten (n_rows c)) by (cbn [In]; split; [intros [<-|[]]; auto|auto]).
    rewrite W. apply or_both; [|apply or_both; [|apply or_both; [|reflexivity]]].
    - rewrite <- O. destruct (n_invalid_source c); reflexivity.
    - rewrite <- O. destruct (n_unmatched_source c); reflexivity.
    - rewrite <- O. destruct (n_unmatched_target c); reflexivity. }
  split; [|split; [|split]]; intros n; rewrite X; (split; [|intros Q]).
  - intros [[_ Q]|[[_ Q]|[[_ Q]|Q]]]; try discriminate. injection Q as ->. congruence.
  - right. right. right. congruence.
  - intros [[H Q]|[[_ Q]|[[_ Q]|Q]]]; try discriminate. injection Q as ->. auto.
  - left. destruct Q as [Hn Hc]. rewrite (U _ _ _ Hc _ C1) in *. auto.
  - intros [[_ Q]|[[H Q]|[[_ Q]|Q]]]; try discriminate. injection Q as ->. auto.
  - right. left. destruct Q as [Hn Hc]. rewrite (U _ _ _ Hc _ C2) in *. auto.
  - intros [[_ Q]|[[_ Q]|[[H Q]|Q]]]; try discriminate. injection Q as ->. auto.
  - right. right. left. destruct Q as [Hn Hc]. rewrite (U _ _ _ Hc _ C3) in *. auto.
Qed.
Print Assumptions C45_log.

(** Finding: the warnings name the wrong file.  The log reports unmatched records of FILE1 (the source)
    when all records of the source are mapped and one of FILE2 (the target) is not. *)
Theorem C45_warning_refuted : exists ops ops' header rows c els,
  Forall honest ops /\ Forall honest ops' /\
  let src := run ops' fresh in let trg := run ops fresh in
  write_to_stdout (txt "m1") (txt "u1") (u16 1) (u16 2) (txt "i1") (txt "i2") src trg = Ok (header, rows, c) /\
  generate_mapping_elements (Some (txt "m1")) (txt "u1") src trg = Ok els /\
  messages c = [MUnmatchedFile1 1; MWritten (n_rows c)] /\
  (forall o, defined src o -> exists e i, In e els /\ el_source e = Some o /\ el_target e = Some i) /\
  (exists i, defined trg i /\ ~ exists e o, In e els /\ el_target e = Some i /\ el_source e = Some o).
Proof.
  exists trg_hist, [OAddColumns [txt "C"]; OInsertIndex None [] PAbort PAbort
     (map (fun a => {| ir_id := None; ir_labels := [txt a]; ir_cells := [] |}) ["p"; "q"; "r"]%string)].
  values. do 4 eexists.
  split; [repeat constructor|]. split; [repeat constructor|]. cbv zeta.
  split; [vm_compute; reflexivity|]. split; [vm_compute; reflexivity|]. split; [reflexivity|]. split.
  - intros o ((r & Hr & <-) & N). vm_compute in Hr.
    destruct Hr as [<-|[<-|[<-|[<-|[]]]]]; [destruct N; reflexivity|..]; cbn [ix_id].
    + eexists. exists 1%Z. split; [right; left; reflexivity|split; reflexivity].
    + eexists. exists 3%Z. split; [right; right; right; left; reflexivity|split; reflexivity].
    + eexists. exists 2%Z. split; [right; right; right; right; left; reflexivity|split; reflexivity].
  - exists 4%Z. split; [split; [eexists; split; [right; right; right; right; left; reflexivity|reflexivity]|discriminate]|].
    intros (e & o & He & Et & Es). vm_compute in He.
    repeat (destruct He as [<-|He]; [discriminate|]). destruct He.
Qed.
Print Assumptions C45_warning_refuted.

(** Finding: in a space that was stored and opened again a mapping may have a target that is not a
    record, and then the output stops with a KeyError. *)
Theorem C45_dangling_target_refuted : exists ops ops' k,
  Forall honest ops /\ Forall honest ops' /\ the_link (txt "m1") (txt "u1") (run ops fresh) k /\
  write_to_stdout (txt "m1") (txt "u1") (u16 1) (u16 2) (txt "i1") (txt "i2") (run ops' fresh) (run ops fresh) = Err KeyError.
Proof.
  exists (hist ++ [OReopen; OInsertMappings2 (txt "u1") None [mp 1 99 1 whole "x" "1"]]), src_hist.
  values. eexists. split; [repeat constructor|]. split; [repeat constructor|].
  split; [split; [left; reflexivity|split; reflexivity]|]. vm_compute. reflexivity.
Qed.
Print Assumptions C45_dangling_target_refuted.

(** *** C53: the ambiguous fields *)

(** The names listed are those of the columns outside the level, as far as the level, without its
    trailing zero bytes, has bits. *)
Theorem C53_exact lv names :
  get_ambiguous_field_text (Some lv) names =
  match join (txt ", ") (outside 0 (firstn (bf_len (of_bytes lv)) names) lv) with [] => None | t => Some t end.
Proof. exact (ambiguous_exact lv names). Qed.
Print Assumptions C53_exact.

(** So the text is right if there is at least one bit for each column. *)
Theorem C53_all_columns lv names : length names <= bf_len (of_bytes lv) ->
  get_ambiguous_field_text (Some lv) names =
  match join (txt ", ") (outside 0 names lv) with [] => None | t => Some t end.
Proof. exact (ambiguous_full lv names). Qed.
Print Assumptions C53_all_columns.

(** In particular for levels with a column, in a space of at most eight columns. *)
Theorem C53_eight_columns bits names : length names <= 8 -> (exists i, nth i bits false = true) ->
  get_ambiguous_field_text (Some (bf_to_bytes (of_bits bits))) names =
  match join (txt ", ") (outside 0 names (bf_to_bytes (of_bits bits))) with [] => None | t => Some t end.
Proof.
  intros H (i & Hi). apply ambiguous_full. 
  assert (N : nth i (bf_iter (of_bytes (bf_to_bytes (of_bits bits)))) false = true).
  { change (bit_at (bf_iter (of_bytes (bf_to_bytes (of_bits bits)))) i = true). rewrite of_bytes_iter.
    pose proof (of_bits_iter bits i) as Q. unfold bit_at in Q. rewrite Hi in Q. rewrite <- Q.
    change (byte_bit (bf_bytes (of_bits bits)) i = bit_at (bf_iter (of_bits bits)) i). symmetry. 
    unfold bit_at, bf_iter. apply nth_flat_map_byte. }
  assert (L : 0 < length (bf_iter (of_bytes (bf_to_bytes (of_bits bits))))).
  { destruct (bf_iter (of_bytes (bf_to_bytes (of_bits bits)))); [destruct i; discriminate|cbn; lia]. }
  rewrite bf_iter_length in L. unfold bf_len in *. lia.
Qed.
Print Assumptions C53_eight_columns.

Example C53_case :
  get_ambiguous_field_text (Some (bf_to_bytes (of_bits [true; false; false]))) (map txt ["foo"; "bar"; "baz"]%string)
    = Some (txt "bar, baz") /\
  get_ambiguous_field_text (Some (bf_to_bytes (of_bits [true; true; true]))) (map txt ["foo"; "bar"; "baz"]%string) = None /\
  get_ambiguous_field_text None (map txt ["foo"; "bar"; "baz"]%string) = None.
Proof. vm_compute. repeat split; reflexivity. Qed.

(** Finding: in a space of nine columns a level can lack a column that is not listed; nor are columns
    listed for the empty level. *)
Theorem C53_many_columns_refuted : exists bits names c,
  length bits = length names /\ In c (outside 0 names (bf_to_bytes (of_bits bits))) /\
  get_ambiguous_field_text (Some (bf_to_bytes (of_bits bits))) names = None.
Proof.
  exists (repeat true 8 ++ [false]), (map txt ["a"; "b"; "c"; "d"; "e"; "f"; "g"; "h"; "i"]%string), (txt "i").
  vm_compute. repeat split; auto.
Qed.
Print Assumptions C53_many_columns_refuted.
Theorem C53_empty_level_refuted : exists names c,
  In c (outside 0 names (bf_to_bytes (of_bits [false; false]))) /\ length names = 2 /\
  get_ambiguous_field_text (Some (bf_to_bytes (of_bits [false; false]))) names = None.
Proof. exists (map txt ["a"; "b"]%string), (txt "a"). vm_compute. repeat split; auto. Qed.
Print Assumptions C53_empty_level_refuted.
