(** Proofs about lists of names given as arguments. *)
From Verif Require Import Prelude Selectors_Model FileOpen_Model FileOpen_Spec FileOpen_Proofs Csv_Model Csv_Spec Csv_Proofs.
Local Open Scope N_scope.

(** * Stripping *)

Lemma lstrip_skip : forall a t, Forall (fun c => space c = true) a -> lstrip (a ++ t) = lstrip t.
Proof. induction a as [|c a IH]; intros t F; [reflexivity|]. inversion F; subst. cbn [app lstrip]. rewrite H1. apply IH. assumption. Qed.
Lemma lstrip_keep : forall t, (forall c r, t = c :: r -> space c = false) -> lstrip t = t.
Proof. intros [|c t] H; [reflexivity|]. cbn [lstrip]. rewrite (H c t eq_refl). reflexivity. Qed.
Lemma lstrip_head : forall t c r, lstrip t = c :: r -> space c = false.
Proof. induction t as [|x t IH]; intros c r E; cbn [lstrip] in E; [discriminate|]. destruct (space x) eqn:S0; [eauto|congruence]. Qed.
Lemma lstrip_split : forall t, exists a, t = a ++ lstrip t.
Proof. induction t as [|x t (a & IH)]; [exists []; reflexivity|]. cbn [lstrip]. destruct (space x); [exists (x :: a); cbn; congruence|exists []; reflexivity]. Qed.

Lemma strip_pad : forall a l b, Forall (fun c => space c = true) a -> Forall (fun c => space c = true) b ->
  (forall c r, l = c :: r -> space c = false) -> (forall c r, l = r ++ [c] -> space c = false) -> strip (a ++ l ++ b) = l.
Proof.
  intros a l b A B H1 H2. unfold strip. rewrite lstrip_skip by exact A.
  destruct l as [|x l].
  - cbn [app]. rewrite <- (app_nil_r b). rewrite lstrip_skip by exact B. reflexivity.
  - cbn [app]. rewrite (lstrip_keep (x :: l ++ b)) by (intros c r E; injection E as <- _; eapply H1; reflexivity).
    change (x :: l ++ b) with ((x :: l) ++ b). rewrite rev_app_distr. rewrite lstrip_skip by (apply Forall_rev, B).
    rewrite lstrip_keep; [apply rev_involutive|]. intros c r E. apply (H2 c (rev r)). apply (f_equal (@rev N)) in E.
    rewrite rev_involutive in E. exact E.
Qed.

Lemma strip_ends : forall t, (forall c r, strip t = c :: r -> space c = false) /\ (forall c r, strip t = r ++ [c] -> space c = false)
  /\ (forall c, In c (strip t) -> In c t).
Proof.
  intro t. unfold strip. destruct (lstrip_split t) as (a & E). destruct (lstrip_split (rev (lstrip t))) as (b & E').
  assert (E2 : lstrip t = rev (lstrip (rev (lstrip t))) ++ rev b).
  { apply (f_equal (@rev N)) in E'. rewrite rev_involutive, rev_app_distr in E'. exact E'. }
  split; [|split].
  - intros c r H. rewrite H in E2. cbn [app] in E2. eapply lstrip_head, E2.
  - intros c r H. apply (f_equal (@rev N)) in H. rewrite rev_involutive, rev_app_distr in H. cbn in H. eapply lstrip_head, H.
  - intros c I. rewrite E. apply in_app_iff. right. rewrite E2. apply in_app_iff. auto.
Qed.

(** * The characters of cells come from the lines *)

Section Csv.
Context (limit : nat) (nul_ok : bool).

Section Chars.
Context (P : N -> Prop).
Definition inside (s : pst) : Prop := Forall P (p_field s) /\ Forall (Forall P) (p_fields s).

Lemma inside_save : forall q s, inside s -> inside (save q s).
Proof. intros q s (A & B). split; cbn; [constructor|]. apply Forall_app. split; [exact B|]. constructor; [exact A|constructor]. Qed.
Lemma inside_add : forall c q s s', P c -> inside s -> add limit c q s = Ok s' -> inside s'.
Proof.
  intros c q s s' C (A & B) E. unfold add in E. destruct (limit <=? length (p_field s))%nat; [discriminate|]. injection E as <-.
  split; cbn; [|exact B]. apply Forall_app. split; [exact A|]. constructor; [exact C|constructor].
Qed.
Lemma inside_process : forall s c s', (forall x, c = Some x -> P x) -> inside s -> process limit s c = Ok s' -> inside s'.
Proof.
  intros s c s' C I E. unfold process, start_field in E.
  assert (G : forall q, inside (goto q s)) by (intro q; exact I).
  destruct (p_st s); destruct c as [x|]; try specialize (C x eq_refl);
    repeat match type of E with (if ?b then _ else _) = _ => destruct b end;
    try (injection E as <-); auto using inside_save; try discriminate; eapply inside_add; eauto.
Qed.
Lemma inside_feed_all : forall l s s', Forall P l -> inside s -> feed_all limit nul_ok s l = Ok s' -> inside s'.
Proof.
  induction l as [|c l IH]; intros s s' F I E; cbn [feed_all] in E.
  - eapply inside_process; [|exact I|exact E]. discriminate.
  - inversion F; subst. destruct (feed limit nul_ok s c) as [s1|] eqn:Q; [|discriminate]. cbn [bind] in E.
    eapply IH; [assumption| |exact E]. unfold feed in Q. destruct ((c =? 0) && negb nul_ok); [discriminate|].
    eapply inside_process; [|exact I|exact Q]. intros x X. injection X as <-. assumption.
Qed.
Lemma inside_run : forall ls s rows, Forall (Forall P) ls -> inside s -> run limit nul_ok ls s = Ok rows -> Forall (Forall (Forall P)) rows.
Proof.
  induction ls as [|l ls IH]; intros s rows F I E; cbn [run] in E.
  - assert (I2 : Forall (Forall P) (p_fields s ++ [p_field s])) by (destruct I; apply Forall_app; auto).
    destruct (p_field s); [destruct (p_st s)|]; injection E as <-; auto.
  - inversion F; subst. destruct (feed_all limit nul_ok s l) as [s1|] eqn:Q; [|discriminate]. cbn [bind] in E.
    assert (I1 : inside s1) by (eapply inside_feed_all; eauto). destruct (at_start s1).
    + destruct (run limit nul_ok ls init) as [rows'|] eqn:R; [|discriminate]. cbn [bind] in E. injection E as <-.
      constructor; [exact (proj2 I1)|]. eapply IH; [assumption| |exact R]. split; constructor.
    + eapply IH; eauto.
Qed.
End Chars.

(** * normalize_arg_list *)

Context (word : N -> bool).
Notation normalize := (normalize_arg_list limit nul_ok word).

Lemma normalize_app : forall a b, normalize (a ++ b) = do x <- normalize a; do y <- normalize b; Ok (x ++ y).
Proof.
  induction a as [|v a IH]; intro b; cbn [app normalize_arg_list bind].
  - destruct (normalize b); reflexivity.
  - destruct (reader limit nul_ok _) as [rows|]; [|reflexivity]. cbn [bind]. rewrite IH.
    destruct (normalize a) as [x|]; [|reflexivity]. cbn [bind]. destruct (normalize b) as [y|]; [|reflexivity]. cbn [bind].
    rewrite app_assoc. reflexivity.
Qed.

Theorem normalize_clean : forall args l, normalize args = Ok l -> Forall (Clean line_end space) l.
Proof.
  induction args as [|v args IH]; intros l E; cbn [normalize_arg_list] in E; [injection E as <-; constructor|].
  destruct (reader limit nul_ok _) as [rows|] eqn:R; [|discriminate]. cbn [bind] in E.
  destruct (normalize args) as [rest|]; [|discriminate]. cbn [bind] in E. injection E as <-.
  apply Forall_app. split; [|apply IH; reflexivity]. apply Forall_forall. intros s I. apply filter_In in I. destruct I as [I N0].
  apply in_map_iff in I. destruct I as (c & <- & I). destruct (strip_ends c) as (A & B & C).
  split; [intro Z; rewrite Z in N0; discriminate|]. split; [|split; assumption].
  apply (inside_run (fun c => line_end c = false)) in R.
  - apply Forall_forall. intros x X. apply C in X. destruct rows as [|row rows]; [destruct I|]. cbn [hd] in I.
    inversion R; subst. rewrite Forall_forall in H1. specialize (H1 c I). rewrite Forall_forall in H1. auto.
  - constructor; [|constructor]. apply Forall_forall. intros x X. apply filter_In in X. destruct X as [_ X]. destruct (line_end x); [discriminate|reflexivity].
  - split; constructor.
Qed.

(** Newlines between words. *)
Lemma sub_join : forall p x nl y q, word 10 = false -> word 13 = false -> word 32 = false -> word x = true -> word y = true ->
  nl = [10] \/ nl = [13; 10] -> forall prev,
  sub_newlines word prev (p ++ x :: nl ++ y :: q) = sub_newlines word prev (p ++ x :: 32 :: y :: q).
Proof.
  intros p x nl y q W1 W2 W3 X Y NL. assert (X10 : x <> 10) by congruence. assert (X13 : x <> 13) by congruence.
  remember (length p) as n eqn:E. assert (L : (length p <= n)%nat) by lia. clear E. revert p L.
  assert (Base : forall prev, sub_newlines word prev (x :: nl ++ y :: q) = sub_newlines word prev (x :: 32 :: y :: q)).
  { intro prev. cbn [sub_newlines]. apply N.eqb_neq in X10, X13. rewrite X10, X13, !andb_false_r. cbn [andb]. rewrite X.
    change (32 =? 10) with false. change (32 =? 13) with false. cbn [andb]. rewrite W3. f_equal.
    destruct NL as [->| ->]; cbn [app sub_newlines].
    - change (10 =? 10) with true. cbn [andb]. rewrite Y. reflexivity.
    - change (13 =? 10) with false. change (13 =? 13) with true. change (10 =? 10) with true. cbn [andb]. rewrite Y. reflexivity. }
  induction n as [|n IH]; intros [|c p] L prev; cbn [length] in L; try lia; try apply Base.
  cbn [app sub_newlines].
  assert (Hd : match p ++ x :: nl ++ y :: q with d :: _ => word d | [] => false end = match p ++ x :: 32 :: y :: q with d :: _ => word d | [] => false end)
    by (destruct p; reflexivity).
  rewrite Hd. destruct (prev && (c =? 10) && _); [f_equal; apply IH; lia|].
  destruct (prev && (c =? 13)); [|f_equal; apply IH; lia].
  destruct p as [|d p].
  - cbn [app]. apply N.eqb_neq in X10. rewrite X10. cbn [andb]. f_equal. apply Base.
  - cbn [app]. assert (Hd2 : match p ++ x :: nl ++ y :: q with d :: _ => word d | [] => false end = match p ++ x :: 32 :: y :: q with d :: _ => word d | [] => false end)
      by (destruct p; reflexivity).
    rewrite Hd2. cbn [length] in L. destruct ((d =? 10) && _); f_equal; [apply IH; lia|].
    change (d :: p ++ x :: nl ++ y :: q) with ((d :: p) ++ x :: nl ++ y :: q).
    change (d :: p ++ x :: 32 :: y :: q) with ((d :: p) ++ x :: 32 :: y :: q). apply IH. cbn [length]. lia.
Qed.

Notation unlined := (filter (fun c => negb (line_end c))).

Lemma sub_drop : forall p x y q, word 10 = false -> word 13 = false -> x <> 10 -> x <> 13 -> y <> 10 -> y <> 13 -> word x && word y = false -> forall prev,
  unlined (sub_newlines word prev (p ++ x :: 10 :: y :: q)) = unlined (sub_newlines word prev (p ++ x :: y :: q)).
Proof.
  intros p x y q W1 W2 X10 X13 Y10 Y13 XY.
  remember (length p) as n eqn:E. assert (L : (length p <= n)%nat) by lia. clear E. revert p L.
  assert (F10 : forall r, unlined (10 :: r) = unlined r) by reflexivity.
  assert (Base : forall prev, unlined (sub_newlines word prev (x :: 10 :: y :: q)) = unlined (sub_newlines word prev (x :: y :: q))).
  { intro prev. cbn [sub_newlines]. apply N.eqb_neq in X10, X13, Y10, Y13. rewrite X10, X13, Y10, Y13, !andb_false_r. cbn [andb].
    change (10 =? 10) with true. change (10 =? 13) with false. rewrite ?andb_true_r, ?andb_false_r. cbn [andb]. rewrite XY, ?andb_false_r. cbn [andb]. rewrite ?W1. reflexivity. }
  assert (Cons : forall c a b, unlined a = unlined b -> unlined (c :: a) = unlined (c :: b)).
  { intros c a b H. cbn [filter]. destruct (negb (line_end c)); congruence. }
  induction n as [|n IH]; intros [|c p] L prev; cbn [length] in L; try lia; try apply Base.
  cbn [app sub_newlines].
  assert (Hd : match p ++ x :: 10 :: y :: q with d :: _ => word d | [] => false end = match p ++ x :: y :: q with d :: _ => word d | [] => false end)
    by (destruct p; reflexivity).
  rewrite Hd. destruct (prev && (c =? 10) && _); [apply Cons; apply IH; lia|].
  destruct (prev && (c =? 13)); [|apply Cons; apply IH; lia].
  destruct p as [|d p].
  - cbn [app]. apply N.eqb_neq in X10. rewrite X10. cbn [andb]. apply Cons. apply Base.
  - cbn [app]. assert (Hd2 : match p ++ x :: 10 :: y :: q with d :: _ => word d | [] => false end = match p ++ x :: y :: q with d :: _ => word d | [] => false end)
      by (destruct p; reflexivity).
    rewrite Hd2. cbn [length] in L. destruct ((d =? 10) && _); apply Cons; [apply IH; lia|].
    change (d :: p ++ x :: 10 :: y :: q) with ((d :: p) ++ x :: 10 :: y :: q).
    change (d :: p ++ x :: y :: q) with ((d :: p) ++ x :: y :: q). apply IH. cbn [length]. lia.
Qed.

Lemma sub_id : forall t prev, ~ In 10 t -> ~ In 13 t -> sub_newlines word prev t = t.
Proof.
  induction t as [|c t IH]; intros prev A B; [reflexivity|]. cbn [sub_newlines].
  destruct (N.eqb_spec c 10) as [->|N1]; [exfalso; apply A; left; reflexivity|]. destruct (N.eqb_spec c 13) as [->|N2]; [exfalso; apply B; left; reflexivity|].
  rewrite !andb_false_r. cbn [andb]. f_equal. apply IH; intro I; [apply A|apply B]; right; exact I.
Qed.

Lemma unlined_id : forall t, Forall (fun c => line_end c = false) t -> unlined t = t.
Proof. induction 1 as [|c t E F IH]; [reflexivity|]. cbn. rewrite E. cbn. congruence. Qed.

Lemma reader_line : forall e, ~ In 10 e -> ~ In 13 e -> e <> [] -> reader limit nul_ok [e] = reader limit nul_ok (lines (translate e)).
Proof. intros e A B N0. rewrite translate_id by exact B. rewrite one_line by assumption. reflexivity. Qed.

Theorem normalize_record : forall e cs labels, Record_ e cs -> Forall (fun c => line_end c = false) e -> Forall (fits limit nul_ok) cs ->
  Forall2 (Padded space) cs labels -> normalize [e] = Ok (filter nonempty labels).
Proof.
  intros e cs labels R F Fi P.
  assert (A : ~ In 10 e) by (rewrite Forall_forall in F; intro I; apply F in I; discriminate).
  assert (B : ~ In 13 e) by (rewrite Forall_forall in F; intro I; apply F in I; discriminate).
  assert (St : map strip cs = labels).
  { clear -P. induction P as [|c l cs ls (a & b & -> & A & B & H1 & H2) P IH]; [reflexivity|]. cbn [map]. rewrite IH. f_equal. apply strip_pad; assumption. }
  cbn [normalize_arg_list]. rewrite sub_id by assumption. rewrite unlined_id by exact F.
  destruct e as [|x e].
  - change (reader limit nul_ok [[]]) with (Ok [[]] : res (list (list text))). cbn [bind hd map filter app].
    inversion R as [e0 c C E1 E2|e0 c e' cs' C R' E1 E2]; subst.
    + inversion C; subst. cbn [map]. change (strip []) with ([] : text). reflexivity.
    + destruct e0; discriminate.
  - rewrite reader_line by (assumption || discriminate).
    rewrite (file_read limit nul_ok (x :: e) [cs]); [|apply F_last; [exact R|discriminate]|constructor; [exact Fi|constructor]].
    cbn [bind hd]. rewrite St, app_nil_r. reflexivity.
Qed.
End Csv.

Lemma translate_zero : forall t, In 0 (translate t) -> In 0 t.
Proof.
  intros t. assert (H : Newlines t (translate t)) by (apply newlines_translate; reflexivity).
  induction H; cbn [In] in *; [tauto|tauto| |]; (intros [E|I]; [discriminate|tauto]).
Qed.

Lemma cell_in : forall qc s c, In c (write_cell qc s) -> c = 34 \/ In c s.
Proof.
  intros qc s c I. unfold write_cell in I. destruct (existsb (special qc) s); [|auto]. destruct I as [<-|I]; [auto|].
  apply in_app_iff in I. destruct I as [I|[<-|[]]]; [|auto]. apply in_flat_map in I. destruct I as (x & I & J). unfold double in J.
  destruct (N.eqb_spec x 34) as [->|N0]; destruct J as [<-|J]; auto. destruct J as [<-|[]]; auto. destruct J.
Qed.

Lemma cell_chars : forall qc row c, In c (join_cells (map (write_cell qc) row)) -> c = 34 \/ c = 44 \/ exists s, In s row /\ In c s.
Proof.
  intros qc. induction row as [|s row IH]; intros c I; [destruct I|]. destruct row as [|s' row].
  - cbn in I. apply cell_in in I. destruct I as [->|I]; [auto|]. right. right. exists s. split; [left; reflexivity|exact I].
  - cbn [map] in I. rewrite join_cons in I. apply in_app_iff in I. destruct I as [I|[<-|I]]; [|auto|].
    + apply cell_in in I. destruct I as [->|I]; [auto|]. right. right. exists s. split; [left; reflexivity|exact I].
    + apply IH in I. destruct I as [I|[I|(x & A & B)]]; auto. right. right. exists x. split; [right; exact A|exact B].
Qed.

Lemma write_contains : forall qc rows c, (exists row s, In row rows /\ In s row /\ In c s) -> In c (flat_map (write_row qc) rows).
Proof.
  intros qc rows c (row & s & R & I & C). apply in_flat_map. exists row. split; [exact R|].
  assert (J : forall row, In s row -> In c (join_cells (map (write_cell qc) row))).
  { assert (W : In c (write_cell qc s)).
    { unfold write_cell. destruct (existsb (special qc) s); [|exact C]. right. apply in_app_iff. left. apply in_flat_map. exists c. split; [exact C|].
      unfold double. destruct (N.eqb_spec c 34); subst; left; reflexivity. }
    induction row0 as [|x row0 IH]; intro K; [destruct K|]. destruct row0 as [|y row0].
    - destruct K as [->|[]]. exact W.
    - cbn [map]. rewrite join_cons. apply in_app_iff. destruct K as [->|K]; [left; exact W|right; right; apply IH, K]. }
  specialize (J row I). unfold write_row. destruct row as [|[|x t] [|y r]]; try (apply in_app_iff; left; exact J). destruct I as [<-|[]]. destruct C.
Qed.

Lemma utf8_error : forall t e, utf8 t = Err e -> e = ValueError.
Proof.
  induction t as [|c t IH]; intros e E; cbn in E; [discriminate|]. destruct (surrogate c); [congruence|].
  destruct (utf8 t); cbn in E; [discriminate|apply IH; congruence].
Qed.

Lemma enc2 : forall q m, 2 <= q < 32 -> m < 64 -> utf8_char (q * 64 + m) = [192 + q; 128 + m].
Proof.
  intros q m Q M. unfold utf8_char. destruct (N.ltb_spec (q * 64 + m) 128); [lia|]. destruct (N.ltb_spec (q * 64 + m) 2048); [|lia].
  rewrite N.div_add_l by lia. rewrite (N.div_small m 64) by lia. rewrite N.add_0_r.
  replace (q * 64 + m) with (m + q * 64) by lia. rewrite N.mod_add by lia. rewrite N.mod_small by lia. reflexivity.
Qed.
Lemma enc3 : forall p q m, p < 16 -> q < 64 -> m < 64 -> 2048 <= p * 4096 + q * 64 + m -> utf8_char (p * 4096 + q * 64 + m) = [224 + p; 128 + q; 128 + m].
Proof.
  intros p q m P Q M L. unfold utf8_char. remember (p * 4096 + q * 64 + m) as v eqn:V.
  destruct (N.ltb_spec v 128); [lia|]. destruct (N.ltb_spec v 2048); [lia|]. destruct (N.ltb_spec v 65536); [|lia].
  assert (D1 : v / 4096 = p) by (symmetry; apply (N.div_unique v 4096 p (q * 64 + m)); lia).
  assert (D2 : v / 64 = p * 64 + q) by (symmetry; apply (N.div_unique v 64 (p * 64 + q) m); lia).
  assert (D3 : v mod 64 = m) by (symmetry; apply (N.mod_unique v 64 (p * 64 + q) m); lia).
  assert (D4 : (p * 64 + q) mod 64 = q) by (symmetry; apply (N.mod_unique _ 64 p q); lia).
  rewrite D1, D2, D3, D4. reflexivity.
Qed.
Lemma enc4 : forall o p q m, o < 5 -> p < 64 -> q < 64 -> m < 64 -> 65536 <= o * 262144 + p * 4096 + q * 64 + m ->
  utf8_char (o * 262144 + p * 4096 + q * 64 + m) = [240 + o; 128 + p; 128 + q; 128 + m].
Proof.
  intros o p q m O P Q M L. unfold utf8_char. remember (o * 262144 + p * 4096 + q * 64 + m) as v eqn:V.
  destruct (N.ltb_spec v 128); [lia|]. destruct (N.ltb_spec v 2048); [lia|]. destruct (N.ltb_spec v 65536); [lia|].
  assert (D0 : v / 262144 = o) by (symmetry; apply (N.div_unique v 262144 o (p * 4096 + q * 64 + m)); lia).
  assert (D1 : v / 4096 = o * 64 + p) by (symmetry; apply (N.div_unique v 4096 (o * 64 + p) (q * 64 + m)); lia).
  assert (D2 : v / 64 = (o * 64 + p) * 64 + q) by (symmetry; apply (N.div_unique v 64 _ m); lia).
  assert (D3 : v mod 64 = m) by (symmetry; apply (N.mod_unique v 64 ((o * 64 + p) * 64 + q) m); lia).
  assert (D4 : ((o * 64 + p) * 64 + q) mod 64 = q) by (symmetry; apply (N.mod_unique _ 64 (o * 64 + p) q); lia).
  assert (D5 : (o * 64 + p) mod 64 = p) by (symmetry; apply (N.mod_unique _ 64 o p); lia).
  rewrite D0, D1, D2, D3, D4, D5. reflexivity.
Qed.

Lemma utf8_cons : forall c t b, surrogate c = false -> utf8 t = Ok b -> utf8 (c :: t) = Ok (utf8_char c ++ b).
Proof. intros c t b S0 E. cbn. rewrite S0, E. reflexivity. Qed.
Lemma py_cons : forall c t, c < 1114112 -> py_text t -> py_text (c :: t).
Proof. intros c t C P x [<-|I]; [exact C|apply P, I]. Qed.

Lemma utf8_of_decode : forall b t, utf8_decode b = Ok t -> py_text t /\ utf8 t = Ok b.
Proof.
  intros b. remember (length b) as n eqn:E. assert (L : (length b <= n)%nat) by lia. clear E. revert b L.
  assert (Low : forall c, c < 55296 -> surrogate c = false).
  { intros c C. unfold surrogate. destruct (N.leb_spec 55296 c); [lia|reflexivity]. }
  assert (Cont : forall x, cont x = true -> exists m, x = 128 + m /\ m < 64).
  { intros x C. unfold cont in C. apply andb_true_iff in C. destruct C as [A B]. apply N.leb_le in A, B. exists (x - 128). lia. }
  induction n as [|n IH]; intros [|x b] L t E; cbn [length] in L; try lia; try (cbn in E; injection E as <-; split; [intros c []|reflexivity]).
  cbn [utf8_decode] in E. destruct (N.ltb_spec x 128) as [X|X].
  { destruct (utf8_decode b) as [t'|] eqn:D; [|discriminate]. cbn [bind] in E. injection E as <-. apply IH in D; [|lia]. destruct D as [P U].
    split; [apply py_cons; [lia|exact P]|]. rewrite (utf8_cons x t' b) by (try apply Low; try lia; exact U).
    unfold utf8_char. apply N.ltb_lt in X. rewrite X. reflexivity. }
  destruct b as [|y b]; [discriminate|]. cbn [length] in L.
  destruct ((194 <=? x) && (x <=? 223) && cont y) eqn:C2.
  { apply andb_true_iff in C2. destruct C2 as [C2 CY]. apply andb_true_iff in C2. destruct C2 as [A B]. apply N.leb_le in A, B.
    apply Cont in CY. destruct CY as (m & -> & M). assert (Q : exists k, x = 192 + k /\ 2 <= k < 32) by (exists (x - 192); lia).
    destruct Q as (k & -> & K). replace (192 + k - 192) with k in E by lia. replace (128 + m - 128) with m in E by lia.
    destruct (utf8_decode b) as [t'|] eqn:D; [|discriminate]. cbn [bind] in E. injection E as <-. apply IH in D; [|lia]. destruct D as [P U].
    split; [apply py_cons; [lia|exact P]|]. rewrite (utf8_cons _ t' b) by (try apply Low; try lia; exact U). rewrite enc2 by assumption. reflexivity. }
  destruct b as [|z b]; [discriminate|]. cbn [length] in L. cbv zeta in E.
  match type of E with (if ?c then _ else _) = _ => destruct c eqn:C3 end.
  { rewrite !andb_true_iff in C3. destruct C3 as (((((A & B) & CY) & CZ) & V) & S0). apply N.leb_le in A, B, V. apply negb_true_iff in S0.
    apply Cont in CY, CZ. destruct CY as (m & -> & M). destruct CZ as (m2 & -> & M2).
    assert (Q : exists k, x = 224 + k /\ k < 16) by (exists (x - 224); lia). destruct Q as (k & -> & K).
    replace (224 + k - 224) with k in * by lia. replace (128 + m - 128) with m in * by lia. replace (128 + m2 - 128) with m2 in * by lia.
    destruct (utf8_decode b) as [t'|] eqn:D; [|discriminate]. cbn [bind] in E. injection E as <-. apply IH in D; [|lia]. destruct D as [P U].
    split; [apply py_cons; [lia|exact P]|]. rewrite (utf8_cons _ t' b) by assumption. rewrite enc3 by assumption. reflexivity. }
  destruct b as [|w b]; [discriminate|]. cbn [length] in L.
  match type of E with (if ?c then _ else _) = _ => destruct c eqn:C4 end; [|discriminate].
  rewrite !andb_true_iff in C4. destruct C4 as ((((((A & B) & CY) & CZ) & CW) & V) & T). apply N.leb_le in A, B, V. apply N.ltb_lt in T.
  apply Cont in CY, CZ, CW. destruct CY as (m & -> & M). destruct CZ as (m2 & -> & M2). destruct CW as (m3 & -> & M3).
  assert (Q : exists k, x = 240 + k /\ k < 5) by (exists (x - 240); lia). destruct Q as (k & -> & K).
  replace (240 + k - 240) with k in * by lia. replace (128 + m - 128) with m in * by lia. replace (128 + m2 - 128) with m2 in * by lia. replace (128 + m3 - 128) with m3 in * by lia.
  destruct (utf8_decode b) as [t'|] eqn:D; [|discriminate]. cbn [bind] in E. injection E as <-. apply IH in D; [|lia]. destruct D as [P U].
  split; [apply py_cons; [lia|exact P]|]. rewrite (utf8_cons _ t' b).
  - rewrite enc4 by assumption. reflexivity.
  - unfold surrogate. match goal with |- _ && (?v <=? 57343) = false => destruct (N.leb_spec v 57343); [lia|apply andb_false_r] end.
  - exact U.
Qed.

Lemma written_file : forall quote_cr rows, Forall (fun row => row <> []) rows -> Forall (Forall (fun s => ~ In 13 s)) rows ->
  File (flat_map (write_row quote_cr) rows) rows.
Proof.
  intros quote_cr rows N0 C.
  assert (E : map (map translate) rows = rows).
  { rewrite <- (map_id rows) at 2. apply map_ext_in. intros row I. rewrite <- (map_id row) at 2. apply map_ext_in. intros s J.
    apply translate_id. rewrite Forall_forall in C. specialize (C row I). rewrite Forall_forall in C. auto. }
  rewrite <- E at 2. apply write_file; [exact N0|]. eapply Forall_impl; [|exact C]. intros row. apply Forall_impl. auto.
Qed.
