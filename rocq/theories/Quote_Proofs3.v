From Verif Require Import Prelude Selectors_Model MapCli_Model QuantCli_Model Quote_Model Quote_Spec Quote_Proofs Quote_Proofs2.

(** *** Names *)
Lemma lower_iff a b : lower_letter a b <-> lower_char a = b.
Proof.
  unfold lower_letter, lower_char. destruct (N.leb_spec 65 a), (N.leb_spec a 90); cbn; split; intros; try lia;
    try (destruct H1 as [[? ?]|[? ?]]; lia).
Qed.
Lemma lowers_iff a l : Forall2 lower_letter a l <-> map lower_char a = l.
Proof.
  split.
  - induction 1; cbn; [reflexivity|]. apply lower_iff in H. congruence.
  - intros <-. induction a; cbn; constructor; auto. now apply lower_iff.
Qed.
Lemma teqb a b : text_eqb a b = true <-> a = b.
Proof.
  revert b. induction a as [|x a IH]; intros [|y b]; cbn; split; intro H; try discriminate; auto.
  - apply andb_true_iff in H as [H1 H2]. apply N.eqb_eq in H1. apply IH in H2. congruence.
  - injection H as -> ->. apply andb_true_iff. split; [apply N.eqb_refl|now apply IH].
Qed.
Lemma teqb_refl a : text_eqb a a = true.
Proof. now apply teqb. Qed.
Lemma same_iff a b : same_name a b = true <-> same_for_sqlite a b.
Proof.
  unfold same_name, same_for_sqlite. rewrite teqb. split.
  - intro E. exists (map lower_char a). split; apply lowers_iff; congruence.
  - intros (l & A & B). apply lowers_iff in A, B. congruence.
Qed.
Lemma same_sym a b : same_for_sqlite a b -> same_for_sqlite b a.
Proof. intros (l & A & B). now exists l. Qed.
Lemma same_trans a b c : same_for_sqlite a b -> same_for_sqlite b c -> same_for_sqlite a c.
Proof. rewrite <- !same_iff. unfold same_name. rewrite !teqb. congruence. Qed.
Lemma position_spec t l n : 
  match position t l n with
  | Some i => exists j x, i = n + j /\ nth_error l j = Some x /\ same_for_sqlite t x
  | None => forall x, In x l -> ~ same_for_sqlite t x
  end.
Proof.
  revert n. induction l as [|x l IH]; intro n; cbn; [tauto|]. destruct (same_name t x) eqn:E.
  - apply same_iff in E. exists 0, x. split; [lia|]. split; [reflexivity|exact E].
  - specialize (IH (S n)). destruct (position t l (S n)).
    + destruct IH as (j & y & -> & A & B). exists (S j), y. split; [lia|]. split; auto.
    + intros y [<-|H]; [|now apply IH]. rewrite <- same_iff. congruence.
Qed.
(** A name of a label column means that column. *)
Lemma resolve_label t q k n : names_ok t -> same_for_sqlite k n -> In n (l_names t) ->
  exists i, resolve t (TName q k) = Some (MLabel i) /\ nth_error (l_names t) i = Some n.
Proof.
  intros W SM I. cbn [resolve]. apply In_nth_error in I as (i & I).
  destruct (same_name k (l_key t)) eqn:E.
  - apply same_iff in E. exfalso. assert (0 = S i); [|discriminate].
    apply (no_two _ W 0 (S i) (l_key t) n); [reflexivity|exact I|]. eapply same_trans; [apply same_sym; exact E|exact SM].
  - pose proof (position_spec k (l_names t) 0) as P. destruct (position k (l_names t) 0) as [j|].
    + destruct P as (j' & x & -> & A & B). cbn [Nat.add]. exists j'. split; [reflexivity|].
      assert (S j' = S i); [|congruence]. apply (no_two _ W (S j') (S i) x n A I). eapply same_trans; [apply same_sym; exact B|exact SM].
    + elim (P n); auto. eapply nth_error_In, I.
Qed.
Lemma label_at_iff ns vs n v : length vs = length ns -> NoDup ns -> forall i, nth_error ns i = Some n ->
  (label_at ns vs n v <-> nth i vs [] = v).
Proof.
  revert vs. induction ns as [|m ns IH]; intros [|w vs] L N i I; try discriminate; [now destruct i|].
  inversion N as [|? ? N1 N2]; subst. destruct i as [|i]; cbn in I.
  - injection I as ->. cbn. split.
    + intro H. inversion H as [|? ? ? ? ? ? H']; subst; [reflexivity|]. exfalso. apply N1. clear -H'. induction H'; [now left|now right].
    + intros ->. constructor.
  - cbn. rewrite <- (IH vs) by (auto; cbn in L; lia). split.
    + intro H. inversion H; subst; [|assumption]. elim N1. eapply nth_error_In, I.
    + intro H. now constructor.
Qed.
Lemma names_nodup t : names_ok t -> NoDup (l_names t).
Proof.
  intro W. apply NoDup_nth_error. intros i j L E. destruct (nth_error (l_names t) i) as [x|] eqn:X.
  - assert (S i = S j); [|congruence]. apply (no_two _ W (S i) (S j) x x); [exact X|cbn; now rewrite <- E|].
    apply same_iff. unfold same_name. apply teqb_refl.
  - apply nth_error_None in X. lia.
Qed.

(** *** Conditions *)
Lemma parse_between gs cs : Forall2 (fun g c => forall rest, parse_condition (g ++ rest) = Some (c, rest)) gs cs -> gs <> [] ->
  forall fuel, length (between (sql "AND") gs) <= fuel -> parse_conditions fuel (between (sql "AND") gs) = Some cs.
Proof.
  induction 1 as [|g c gs cs P F IH]; [congruence|]. intros _ fuel L.
  assert (G : g <> []). { intros ->. specialize (P []). discriminate P. }
  destruct fuel as [|fuel]; [exfalso|].
  { destruct g as [|x g]; [congruence|]. destruct gs; cbn in L; lia. }
  destruct F as [|g2 c2 gs cs P2 F].
  - cbn [between parse_conditions]. rewrite <- (app_nil_r g) at 1. now rewrite P.
  - change (between (sql "AND") (g :: g2 :: gs)) with (g ++ TWord (txt "AND") :: between (sql "AND") (g2 :: gs)) in *.
    cbn [parse_conditions]. rewrite P. change (text_eqb (txt "AND") (txt "AND")) with true. cbv iota. rewrite IH; [reflexivity|discriminate|].
    rewrite app_length in L. cbn [length] in L. destruct g; [congruence|]. cbn [length] in L. lia.
Qed.
Definition crit_cond (k : text) : condition := {| k_column := TName 34 k; k_equal := true; k_with := OParam |}.
Definition key_cond : condition := {| k_column := TWord (txt "index_id"); k_equal := false; k_with := ONum (txt "0") |}.
Definition filled_cond (p : text * bool) : condition :=
  {| k_column := TName 34 (fst p); k_equal := negb (snd p); k_with := OText [] |}.
Lemma parse_criterion k rest : parse_condition (criterion k ++ rest) = Some (crit_cond k, rest).
Proof. reflexivity. Qed.
Lemma parse_key rest : parse_condition (sql "index_id != 0" ++ rest) = Some (key_cond, rest).
Proof. reflexivity. Qed.
Lemma parse_filled p rest : parse_condition (filled p ++ rest) = Some (filled_cond p, rest).
Proof. destruct p as [c []]; reflexivity. Qed.
Definition filter_conds (keys : list text) (u : bool) : list condition := map crit_cond keys ++ (if u then [] else [key_cond]).
Lemma parse_filter what keys (u : bool) sql_ : sql what <> [] -> length (sql what) = 1 ->
  tokens sql_ = sql "SELECT" ++ sql what ++ sql "FROM main . label_index" ++
    match map criterion keys ++ (if u then [] else [sql "index_id != 0"]) with [] => [] | l => sql "WHERE" ++ between (sql "AND") l end ->
  exists w, parse_query (tokens sql_) = Some {| y_what := w; y_table := txt "label_index"; y_where := filter_conds keys u |}.
Proof.
  intros _ L ->. destruct (sql what) as [|w [|]]; try discriminate. exists w.
  assert (F : Forall2 (fun g c => forall rest, parse_condition (g ++ rest) = Some (c, rest))
     (map criterion keys ++ (if u then [] else [sql "index_id != 0"])) (filter_conds keys u)).
  { unfold filter_conds. apply Forall2_app; [|destruct u; constructor; [exact parse_key|constructor]].
    induction keys; cbn [map]; constructor; [intro; apply parse_criterion|assumption]. }
  revert F. generalize (filter_conds keys u). generalize (map criterion keys ++ (if u then [] else [sql "index_id != 0"])). intros gs cs F.
  pose proof (parse_between gs cs F) as P. destruct F as [|g c gs cs PC F]; [reflexivity|].
  specialize (P ltac:(discriminate) _ (le_n _)). revert P. generalize (between (sql "AND") (g :: gs)). intros ts P.
  change (sql "WHERE" ++ ts) with (TWord (txt "WHERE") :: ts). cbn [app]. 
  change (option_map (fun c : list condition => {| y_what := w; y_table := txt "label_index"; y_where := c |}) (parse_conditions (length ts) ts) = Some {| y_what := w; y_table := txt "label_index"; y_where := c :: cs |}).
  rewrite P. reflexivity.
Qed.

(** *** Rows *)
Lemma key_zero t r : l_key t = txt "index_id" -> 
  row_matches t [key_cond] [] r = Ok (negb (fst r =? 0)%Z).
Proof.
  intro K. cbn [row_matches resolve k_column key_cond k_with text_value k_equal]. rewrite K.
  change (same_name (txt "index_id") (txt "index_id")) with true. cbv iota. cbn [bind]. f_equal. rewrite andb_true_r.
  cbn [holds]. replace (number (txt "0")) with (Some 0%Q) by (vm_compute; reflexivity).
  assert (E : Qeq_bool 0 (inject_Z (fst r)) = (fst r =? 0)%Z).
  { unfold Qeq_bool. cbn. rewrite Z.mul_1_r. destruct (Z.eqb_spec (fst r) 0) as [->|N]; [reflexivity|]. 
    rewrite <- not_true_iff_false. rewrite <- Zeq_is_eq_bool. congruence. }
  rewrite E. now destruct (fst r =? 0)%Z.
Qed.
Lemma crits_rows t criteria tail ptail r b : names_ok t -> length (snd r) = length (l_names t) ->
  (forall k, In k (map fst criteria) -> exists n, In n (l_names t) /\ same_for_sqlite k n) ->
  row_matches t tail ptail r = Ok b ->
  exists m, row_matches t (map crit_cond (map fst criteria) ++ tail) (map snd criteria ++ ptail) r = Ok (m && b) /\ (m = true <-> meets t criteria r).
Proof.
  intros W L K T. induction criteria as [|[k v] criteria IH].
  - exists true. cbn. split; [now rewrite T|]. split; [|reflexivity]. intros _ k v [].
  - destruct IH as (m & E & M); [intros x Hx; apply K; now right|]. cbn [map fst snd app]. cbn [row_matches crit_cond k_column k_with text_value hd tl k_equal].
    destruct (K k) as (n & I & SM); [now left|]. destruct (resolve_label t 34 k n W SM I) as (i & R & N). rewrite R. rewrite E. cbn [bind].
    exists (holds r (MLabel i) v && m). split. { f_equal. destruct (holds r (MLabel i) v), m, b; reflexivity. }
    rewrite andb_true_iff, M. cbn [holds]. rewrite teqb. pose proof (label_at_iff _ (snd r) n v L (names_nodup t W) i N) as LA. split.
    + intros [A B] k' v' [H|H]; [injection H as <- <-|now apply B]. exists n. split; [exact SM|now apply LA].
    + intro H. split; [|intros k' v' Hk; apply H; now right]. destruct (H k v) as (n' & S' & A'); [now left|].
      assert (n' = n) as ->; [|now apply LA]. clear -W SM S' A' N. assert (exists j, nth_error (l_names t) j = Some n') as (j & J).
      { apply In_nth_error. clear -A'. induction A'; [now left|now right]. }
      assert (S j = S i); [|congruence]. apply (no_two _ W (S j) (S i) n' n J N). eapply same_trans; [apply same_sym; exact S'|exact SM].
Qed.
Lemma rows_total t conds params r : (forall c, In c conds -> resolve t (k_column c) <> None) -> exists b, row_matches t conds params r = Ok b.
Proof.
  revert params. induction conds as [|c conds IH]; intros params H; [now exists true|]. cbn [row_matches].
  destruct (resolve t (k_column c)) eqn:R; [|elim (H c); auto; now left].
  destruct (text_value params (k_with c)) as [v params']. destruct (IH params') as (b & ->); [intros x Hx; apply H; now right|]. cbn. eauto.
Qed.
Lemma marks_picked (P : lrow -> Prop) (f : lrow -> res bool) l : (forall r, In r l -> exists b, f r = Ok b /\ (b = true <-> P r)) ->
  exists ms, traverse (fun r => do b <- f r; Ok (r, b)) l = Ok ms /\ picked P l (map fst (filter snd ms)).
Proof.
  induction l as [|r l IH]; intro H; [exists []; split; [reflexivity|constructor]|]. destruct IH as (ms & E & P0); [intros; apply H; now right|].
  destruct (H r) as (b & F & B); [now left|]. exists ((r, b) :: ms). cbn [traverse]. rewrite F. cbn [bind]. rewrite E. cbn [bind].
  split; [reflexivity|]. destruct b; cbn; [apply pk_in|apply pk_out]; auto; [now apply B|]. intro C. apply B in C. discriminate.
Qed.
Lemma execute_picked t name sql_ params w conds (P : lrow -> Prop) :
  parse_query (tokens sql_) = Some {| y_what := w; y_table := name; y_where := conds |} -> count_params conds = length params ->
  (forall c, In c conds -> resolve t (k_column c) <> None) ->
  (forall r, In r (l_rows t) -> exists b, row_matches t conds params r = Ok b /\ (b = true <-> P r)) ->
  exists rows, execute t name sql_ params = Ok rows /\ picked P (l_rows t) rows.
Proof.
  intros Q C R H. unfold execute. rewrite Q. cbn [y_table y_where]. rewrite teqb_refl. cbn [negb]. rewrite C, Nat.eqb_refl. cbn [negb].
  destruct (rows_total t conds params (0%Z, []) R) as (b0 & ->). cbn [bind].
  destruct (marks_picked P (row_matches t conds params) (l_rows t) H) as (ms & E & K). rewrite E. cbn [bind]. eauto.
Qed.
Lemma count_crits keys tail : count_params (map crit_cond keys ++ tail) = length keys + count_params tail.
Proof. unfold count_params. induction keys; cbn; auto. Qed.
Lemma resolve_quoted t k : resolve t (TName 34 k) <> None.
Proof. cbn [resolve]. destruct (same_name k (l_key t)); [discriminate|]. destruct (position k (l_names t) 0); [discriminate|]. match goal with |- context [existsb ?f ?l] => destruct (existsb f l) end; discriminate. Qed.
Lemma filter_resolves t keys u : l_key t = txt "index_id" -> forall c, In c (filter_conds keys u) -> resolve t (k_column c) <> None.
Proof.
  intros K c H. unfold filter_conds in H. apply in_app_iff in H as [H|H].
  - apply in_map_iff in H as (k & <- & _). apply resolve_quoted.
  - destruct u; [destruct H|]. destruct H as [<-|[]]. cbn [k_column key_cond resolve]. rewrite K. change (same_name (txt "index_id") (txt "index_id")) with true. discriminate.
Qed.
Lemma star_good : good (txt "*") (sql "*").
Proof. change (sql "*") with (lex Between (txt "*")). flush. Qed.
Lemma ids_good : good (txt "index_id") (sql "index_id").
Proof. change (sql "index_id") with (lex Between (txt "index_id")). flush. Qed.

Lemma filter_rows what t criteria u sql_ : good (txt what) (sql what) -> length (sql what) = 1 ->
  names_ok t -> l_key t = txt "index_id" -> Forall usable (map fst criteria) -> known t criteria ->
  filter_sql (txt what) (map fst criteria) u = Ok sql_ ->
  exists rows, execute t (txt "label_index") sql_ (map snd criteria) = Ok rows /\ picked (wanted t criteria u) (l_rows t) rows.
Proof.
  intros G L W K U KN E. destruct (filter_tokens what (map fst criteria) u G U) as (s & E' & T). rewrite E in E'. injection E' as <-.
  destruct (parse_filter what _ u sql_ ltac:(destruct (sql what); discriminate) L T) as (w & Q).
  assert (KN' : forall k, In k (map fst criteria) -> exists n, In n (l_names t) /\ same_for_sqlite k n).
  { intros k Hk. apply in_map_iff in Hk as ([k' v] & <- & Hk). exact (KN _ _ Hk). }
  eapply execute_picked; [exact Q| | |].
  - unfold filter_conds. rewrite count_crits, !map_length. destruct u; cbn; lia.
  - now apply filter_resolves.
  - intros r Hr. pose proof (widths _ W r Hr) as Wd. rewrite <- (app_nil_r (map snd criteria)).
    destruct (crits_rows t criteria (if u then [] else [key_cond]) [] r (if u then true else negb (fst r =? 0)%Z) W Wd KN') as (m & R & M).
    { destruct u; [reflexivity|]. now apply key_zero. }
    exists (m && (if u then true else negb (fst r =? 0)%Z)). split; [exact R|]. unfold wanted. rewrite andb_true_iff, M. destruct u.
    + split; [intros [? _]; split; auto; discriminate|intros [? _]; auto].
    + rewrite negb_true_iff, Z.eqb_neq. tauto.
Qed.
Lemma filter_run t criteria u : names_ok t -> l_key t = txt "index_id" -> Forall usable (map fst criteria) -> known t criteria ->
  exists rows, filter_by_label t criteria u = Ok rows /\ picked (wanted t criteria u) (l_rows t) rows.
Proof.
  intros W K U KN. unfold filter_by_label. destruct (filter_tokens "*" (map fst criteria) u star_good U) as (s & E & _). rewrite E. cbn [bind].
  eapply filter_rows; eauto using star_good.
Qed.
Lemma filter_ids_run t criteria u : names_ok t -> l_key t = txt "index_id" -> Forall usable (map fst criteria) -> known t criteria ->
  exists rows, filter_index_ids_by_label t criteria u = Ok (map fst rows) /\ picked (wanted t criteria u) (l_rows t) rows.
Proof.
  intros W K U KN. unfold filter_index_ids_by_label. destruct (filter_tokens "index_id" (map fst criteria) u ids_good U) as (s & E & _). rewrite E. cbn [bind].
  destruct (filter_rows "index_id" t criteria u s ids_good eq_refl W K U KN E) as (rows & X & P). rewrite X. cbn [bind]. eauto.
Qed.
(** Locations. *)
Lemma parse_location gs cs sql_ : Forall2 (fun g c => forall rest, parse_condition (g ++ rest) = Some (c, rest)) gs cs -> gs <> [] ->
  tokens sql_ = sql "SELECT * FROM main . label_location WHERE" ++ between (sql "AND") gs ->
  exists w, parse_query (tokens sql_) = Some {| y_what := w; y_table := txt "label_location"; y_where := cs |}.
Proof.
  intros F N ->. pose proof (parse_between gs cs F N _ (le_n _)) as P. revert P. generalize (between (sql "AND") gs). intros ts P.
  exists (TOp (txt "*")). 
  change (option_map (fun c : list condition => {| y_what := TOp (txt "*"); y_table := txt "label_location"; y_where := c |}) (parse_conditions (length ts) ts)
    = Some {| y_what := TOp (txt "*"); y_table := txt "label_location"; y_where := cs |}). rewrite P. reflexivity.
Qed.
Lemma find_run t criteria : names_ok t -> criteria <> [] -> Forall usable (map fst criteria) -> known t criteria ->
  exists rows, find_by_label t criteria = Ok rows /\ picked (meets t criteria) (l_rows t) rows.
Proof.
  intros W N U KN. unfold find_by_label. destruct (location_tokens (map fst criteria)) as (s & E & T); [destruct criteria; [congruence|discriminate]|exact U|].
  rewrite E. cbn [bind]. destruct (fun A B => parse_location (map criterion (map fst criteria)) (map crit_cond (map fst criteria)) s A B T) as (w & Q).
  { generalize (map fst criteria). intro l. induction l; cbn [map]; constructor; [intro; apply parse_criterion|assumption]. }
  { destruct criteria; [congruence|discriminate]. }
  assert (KN' : forall k, In k (map fst criteria) -> exists n, In n (l_names t) /\ same_for_sqlite k n).
  { intros k Hk. apply in_map_iff in Hk as ([k' v] & <- & Hk). exact (KN _ _ Hk). }
  eapply execute_picked; [exact Q| | |].
  - rewrite <- (app_nil_r (map crit_cond _)), count_crits, !map_length. cbn. lia.
  - intros c Hc. apply in_map_iff in Hc as (k & <- & _). apply resolve_quoted.
  - intros r Hr. pose proof (widths _ W r Hr) as Wd. rewrite <- (app_nil_r (map snd criteria)), <- (app_nil_r (map crit_cond _)).
    destruct (crits_rows t criteria [] [] r true W Wd KN' eq_refl) as (m & R & M). rewrite andb_true_r in R. eauto.
Qed.
Lemma filled_rows t l r : names_ok t -> length (snd r) = length (l_names t) -> (forall n b, In (n, b) l -> In n (l_names t)) ->
  exists m, row_matches t (map filled_cond l) [] r = Ok m /\
    (m = true <-> forall n b, In (n, b) l -> exists v, label_at (l_names t) (snd r) n v /\ (b = true <-> v <> [])).
Proof.
  intros W L K. induction l as [|[n b] l IH].
  - exists true. split; [reflexivity|]. split; [|reflexivity]. intros _ n b [].
  - destruct IH as (m & E & M); [intros n' b' H; apply (K n' b'); now right|]. cbn [map row_matches filled_cond k_column k_with text_value k_equal fst snd].
    assert (SM : same_for_sqlite n n) by (apply same_iff; unfold same_name; apply teqb_refl).
    destruct (resolve_label t 34 n n W SM (K n b (or_introl eq_refl))) as (i & R & N). rewrite R, E. cbn [bind]. eexists. split; [reflexivity|].
    cbn [holds]. pose proof (fun v => label_at_iff _ (snd r) n v L (names_nodup t W) i N) as LA.
    assert (X : Bool.eqb (text_eqb (nth i (snd r) []) []) (negb b) = true <-> (b = true <-> nth i (snd r) [] <> [])).
    { destruct (nth i (snd r) []), b; cbn; intuition (try discriminate; try congruence). }
    rewrite andb_true_iff, M, X. split.
    + intros [A B] n' b' [H|H]; [injection H as <- <-|now apply B]. exists (nth i (snd r) []). split; [now apply LA|exact A].
    + intro H. split; [|intros n' b' Hn; apply H; now right]. destruct (H n b (or_introl eq_refl)) as (v & A & B). apply LA in A. now rewrite A.
Qed.
Lemma structure_run t bits : names_ok t -> combine (l_names t) bits <> [] -> Forall usable (map fst (combine (l_names t) bits)) ->
  exists rows, find_by_structure t bits = Ok rows /\ picked (fits t bits) (l_rows t) rows.
Proof.
  intros W N U. unfold find_by_structure. destruct (location_structure_tokens (l_names t) bits U) as (s & E & T). rewrite E. cbn [bind].
  destruct (fun A B => parse_location (map filled (combine (l_names t) bits)) (map filled_cond (combine (l_names t) bits)) s A B T) as (w & Q).
  { generalize (combine (l_names t) bits). intro l. induction l; cbn [map]; constructor; [intro; apply parse_filled|assumption]. }
  { destruct (combine _ _); [congruence|discriminate]. }
  eapply execute_picked; [exact Q| | |].
  - generalize (combine (l_names t) bits). intro l. unfold count_params. induction l; cbn; auto.
  - intros c Hc. apply in_map_iff in Hc as (k & <- & _). apply resolve_quoted.
  - intros r Hr. apply filled_rows; [exact W|exact (widths _ W r Hr)|]. intros n b H. eapply in_combine_l, H.
Qed.
(** A name that is no column. *)
Lemma unknown_name t k v : usable k -> l_key t = txt "index_id" -> 
  (forall n, In n (l_key t :: txt "rowid" :: txt "oid" :: txt "_rowid_" :: l_names t) -> ~ same_for_sqlite k n) ->
  filter_by_label t [(k, v)] true = Ok (if text_eqb k v then l_rows t else []).
Proof.
  intros U K N. unfold filter_by_label. cbn [map fst snd].
  destruct (filter_tokens "*" [k] true star_good (Forall_cons _ U (Forall_nil _))) as (s & E & T). cbn [map fst] in E. rewrite E. cbn [bind].
  destruct (parse_filter "*" [k] true s ltac:(discriminate) eq_refl T) as (w & Q). unfold execute. rewrite Q. cbn [y_table y_where].
  rewrite teqb_refl. cbn [negb filter_conds map app count_params filter crit_cond k_with length Nat.eqb].
  assert (R : resolve t (TName 34 k) = Some (MText k)).
  { cbn [resolve]. assert (X : forall n, In n (l_key t :: txt "rowid" :: txt "oid" :: txt "_rowid_" :: l_names t) -> same_name k n = false).
    { intros n H. rewrite <- not_true_iff_false, same_iff. now apply N. }
    rewrite X by (now left). pose proof (position_spec k (l_names t) 0) as P. destruct (position k (l_names t) 0).
    - destruct P as (j & x & _ & A & B). elim (N x); auto. do 4 right. eapply nth_error_In, A.
    - cbn [existsb]. rewrite !X by (cbn; tauto). reflexivity. }
  assert (M : forall r, row_matches t [{| k_column := TName 34 k; k_equal := true; k_with := OParam |}] [v] r = Ok (text_eqb k v)).
  { intro r. cbn [row_matches k_column k_with text_value hd tl k_equal]. rewrite R. cbn [bind holds]. now destruct (text_eqb k v). }
  rewrite M. cbn [bind]. induction (l_rows t) as [|r l IH]; [now destruct (text_eqb k v)|].
  cbn [traverse]. rewrite M. cbn [bind]. destruct (traverse _ l) as [ms|]; [|discriminate]. cbn [bind] in *. injection IH as IH.
  f_equal. destruct (text_eqb k v); cbn; [now f_equal|exact IH].
Qed.
Lemma no_criteria_structure t bits : combine (l_names t) bits = [] -> find_by_structure t bits = Err SqlOperationalError.
Proof. intro E. unfold find_by_structure, location_structure_sql, zip_bits. rewrite E. reflexivity. Qed.
