(** Proofs about CSV files. *)
From Verif Require Import Prelude Selectors_Model FileOpen_Model FileOpen_Spec FileOpen_Proofs Csv_Model Csv_Spec.
Local Open Scope N_scope.

(** * UTF-8 *)

Lemma decode_char : forall c r, c < 1114112 -> ~ (55296 <= c <= 57343) ->
  utf8_decode (utf8_char c ++ r) = do t <- utf8_decode r; Ok (c :: t).
Proof.
  intros c r L S0. unfold utf8_char. destruct (N.ltb_spec c 128) as [A|A].
  { cbn [app utf8_decode]. apply N.ltb_lt in A. rewrite A. reflexivity. }
  destruct (N.ltb_spec c 2048) as [B|B].
  { assert (D : c / 64 < 32) by (apply N.div_lt_upper_bound; lia). assert (D' : 2 <= c / 64) by (apply N.div_le_lower_bound; lia).
    pose proof (N.mod_lt c 64 ltac:(lia)) as M. pose proof (N.div_mod' c 64) as E. revert D D' M E.
    generalize (c / 64), (c mod 64). intros q m D D' M E. cbn [app utf8_decode]. unfold cont.
    destruct (N.ltb_spec (192 + q) 128); [lia|]. destruct (N.leb_spec 194 (192 + q)); [|lia]. destruct (N.leb_spec (192 + q) 223); [|lia].
    destruct (N.leb_spec 128 (128 + m)); [|lia]. destruct (N.leb_spec (128 + m) 191); [|lia]. cbn [andb].
    replace ((192 + q - 192) * 64 + (128 + m - 128)) with c by lia. reflexivity. }
  destruct (N.ltb_spec c 65536) as [B'|B'].
  { assert (D : c / 4096 < 16) by (apply N.div_lt_upper_bound; lia).
    pose proof (N.mod_lt c 64 ltac:(lia)) as M. pose proof (N.div_mod' c 64) as E.
    pose proof (N.mod_lt (c / 64) 64 ltac:(lia)) as M2. pose proof (N.div_mod' (c / 64) 64) as E2.
    rewrite N.div_div in E2 by lia. change (64 * 64) with 4096 in E2. revert D M E M2 E2.
    generalize (c / 4096), (c mod 64), ((c / 64) mod 64). generalize (c / 64). intros q q2 m m2 D M E M2 E2.
    cbn [app utf8_decode]. unfold cont.
    assert (V : (224 + q2 - 224) * 4096 + (128 + m2 - 128) * 64 + (128 + m - 128) = c) by lia. rewrite V.
    destruct (N.ltb_spec (224 + q2) 128); [lia|]. destruct (N.leb_spec (224 + q2) 223); [lia|]. rewrite andb_false_r. cbn [andb].
    destruct (N.leb_spec 224 (224 + q2)); [|lia]. destruct (N.leb_spec (224 + q2) 239); [|lia].
    destruct (N.leb_spec 128 (128 + m2)); [|lia]. destruct (N.leb_spec (128 + m2) 191); [|lia].
    destruct (N.leb_spec 128 (128 + m)); [|lia]. destruct (N.leb_spec (128 + m) 191); [|lia].
    destruct (N.leb_spec 2048 c); [|lia]. unfold surrogate.
    destruct (N.leb_spec 55296 c); [|reflexivity]. destruct (N.leb_spec c 57343); [exfalso; apply S0; split; assumption|reflexivity]. }
  { assert (D : c / 262144 < 5) by (apply N.div_lt_upper_bound; lia).
    pose proof (N.mod_lt c 64 ltac:(lia)) as M. pose proof (N.div_mod' c 64) as E.
    pose proof (N.mod_lt (c / 64) 64 ltac:(lia)) as M2. pose proof (N.div_mod' (c / 64) 64) as E2.
    rewrite N.div_div in E2 by lia. change (64 * 64) with 4096 in E2.
    pose proof (N.mod_lt (c / 4096) 64 ltac:(lia)) as M3. pose proof (N.div_mod' (c / 4096) 64) as E3.
    rewrite N.div_div in E3 by lia. change (4096 * 64) with 262144 in E3. revert D M E M2 E2 M3 E3.
    generalize (c / 262144), (c mod 64), ((c / 64) mod 64), ((c / 4096) mod 64). generalize (c / 64), (c / 4096).
    intros q q' q2 m m2 m3 D M E M2 E2 M3 E3.
    cbn [app utf8_decode]. unfold cont.
    assert (V : (240 + q2 - 240) * 262144 + (128 + m3 - 128) * 4096 + (128 + m2 - 128) * 64 + (128 + m - 128) = c) by lia. rewrite V.
    destruct (N.ltb_spec (240 + q2) 128); [lia|]. destruct (N.leb_spec (240 + q2) 223); [lia|]. rewrite andb_false_r. cbn [andb].
    destruct (N.leb_spec (240 + q2) 239); [lia|]. rewrite andb_false_r. cbn [andb].
    destruct (N.leb_spec 240 (240 + q2)); [|lia]. destruct (N.leb_spec (240 + q2) 244); [|lia].
    destruct (N.leb_spec 128 (128 + m3)); [|lia]. destruct (N.leb_spec (128 + m3) 191); [|lia].
    destruct (N.leb_spec 128 (128 + m2)); [|lia]. destruct (N.leb_spec (128 + m2) 191); [|lia].
    destruct (N.leb_spec 128 (128 + m)); [|lia]. destruct (N.leb_spec (128 + m) 191); [|lia].
    destruct (N.leb_spec 65536 c); [|lia]. destruct (N.ltb_spec c 1114112); [reflexivity|lia]. }
Qed.

Lemma decode_utf8 : forall t b, py_text t -> utf8 t = Ok b -> utf8_decode b = Ok t.
Proof.
  induction t as [|c t IH]; intros b P E; cbn in E; [injection E as <-; reflexivity|].
  destruct (surrogate c) eqn:S0; [discriminate|]. destruct (utf8 t) as [b'|] eqn:U; [|discriminate]. cbn in E. injection E as <-.
  rewrite decode_char; [|apply P; left; reflexivity|].
  - rewrite (IH b') by (auto; intros x I; apply P; right; exact I). reflexivity.
  - unfold surrogate in S0. intros [A B]. apply N.leb_le in A, B. rewrite A, B in S0. discriminate.
Qed.

(** * Newlines *)

Lemma translate_cons : forall c r, c <> 13 -> translate (c :: r) = c :: translate r.
Proof. intros c r N. cbn. apply N.eqb_neq in N. rewrite N. reflexivity. Qed.
Lemma translate_crlf : forall r, translate (13 :: 10 :: r) = 10 :: translate r.
Proof. reflexivity. Qed.
Lemma translate_cr : forall r, (forall q, r <> 10 :: q) -> translate (13 :: r) = 10 :: translate r.
Proof.
  intros [|d r] N; [reflexivity|]. cbn [translate]. change (13 =? 13) with true. cbv iota.
  destruct (N.eqb_spec d 10); [subst; exfalso; eapply N; reflexivity|]. reflexivity.
Qed.

Lemma newlines_translate : forall t t', Newlines t t' <-> translate t = t'.
Proof.
  split.
  - induction 1; [reflexivity|rewrite translate_cons by assumption; congruence|rewrite translate_crlf; congruence|].
    rewrite translate_cr by assumption. congruence.
  - intros <-. remember (length t) as n eqn:E. assert (L : (length t <= n)%nat) by lia. clear E. revert t L.
    induction n as [|n IH]; intros [|c t] L; cbn [length] in L; try lia; try constructor.
    destruct (N.eq_dec c 13) as [->|N0].
    + destruct t as [|d t]; [rewrite translate_cr by discriminate; constructor; [discriminate|constructor]|].
      destruct (N.eq_dec d 10) as [->|N1].
      * rewrite translate_crlf. constructor. apply IH. cbn [length] in L. lia.
      * assert (Q : forall q, d :: t <> 10 :: q) by congruence. rewrite translate_cr by exact Q. constructor; [exact Q|]. apply IH. lia.
    + rewrite translate_cons by exact N0. constructor; [exact N0|]. apply IH. lia.
Qed.

(** Translation is local around a character that is no line end. *)
Lemma translate_app : forall a c b, c <> 13 -> c <> 10 -> translate (a ++ c :: b) = translate a ++ c :: translate b.
Proof.
  intros a c b N1 N2. remember (length a) as n eqn:E. assert (L : (length a <= n)%nat) by lia. clear E. revert a L.
  induction n as [|n IH]; intros [|x a] L; cbn [length] in L; try lia; try (cbn [app]; rewrite translate_cons by exact N1; reflexivity).
  destruct (N.eq_dec x 13) as [->|N3].
  - destruct a as [|d a].
    + cbn [app]. rewrite translate_cr by congruence. rewrite translate_cons by exact N1. reflexivity.
    + destruct (N.eq_dec d 10) as [->|N4].
      * cbn [app]. rewrite !translate_crlf. rewrite IH by (cbn [length] in L; lia). reflexivity.
      * cbn [app]. rewrite !translate_cr by congruence. change (d :: a ++ c :: b) with ((d :: a) ++ c :: b). rewrite IH by lia. reflexivity.
  - cbn [app]. rewrite !translate_cons by exact N3. rewrite IH by lia. reflexivity.
Qed.

Lemma translate_id : forall t, ~ In 13 t -> translate t = t.
Proof.
  induction t as [|c t IH]; intro N; [reflexivity|]. rewrite translate_cons by (intros ->; apply N; left; reflexivity).
  f_equal. apply IH. intro I. apply N. right. exact I.
Qed.

Lemma translate_no_cr : forall t, ~ In 13 (translate t).
Proof.
  intro t. assert (H : Newlines t (translate t)) by (apply newlines_translate; reflexivity).
  induction H; cbn [In]; [tauto|intros [E|I]; auto|intros [E|I]; [discriminate|auto]|intros [E|I]; [discriminate|auto]].
Qed.

Lemma translate_length : forall t, (length (translate t) <= length t)%nat.
Proof.
  intro t. assert (H : Newlines t (translate t)) by (apply newlines_translate; reflexivity).
  induction H; cbn [length] in *; lia.
Qed.

(** * The reader as a function of characters *)

Section Csv.
Context (limit : nat) (nul_ok : bool).
Notation process := (process limit).
Notation feed := (feed limit nul_ok).
Notation feed_all := (feed_all limit nul_ok).
Notation run := (run limit nul_ok).

(** The end of a line. *)
Definition finish (s : pst) (k : pst -> res (list (list text))) : res (list (list text)) :=
  if at_start s then do rows <- k init; Ok (p_fields s :: rows) else k s.

Fixpoint stream (mid : bool) (s : pst) (u : text) : res (list (list text)) :=
  match u with
  | [] => if mid then do s' <- process s None; finish s' (run []) else run [] s
  | c :: r =>
      do s1 <- feed s c;
      if c =? 10 then do s2 <- process s1 None; finish s2 (fun s => stream false s r)
      else stream true s1 r
  end.

(** Running with the rest of the current line. *)
Definition resume (s : pst) (ls : list text) : res (list (list text)) :=
  match ls with
  | [] => do s' <- feed_all s []; finish s' (run [])
  | l :: r => do s' <- feed_all s l; finish s' (run r)
  end.

Lemma run_cons : forall l r s, run (l :: r) s = do s' <- feed_all s l; finish s' (run r).
Proof. intros. cbn [Csv_Model.run]. destruct (feed_all s l); reflexivity. Qed.

Lemma stream_lines : forall u s, stream true s u = resume s (lines u) /\ stream false s u = run (lines u) s.
Proof.
  induction u as [|c u IH]; intro s; [split; reflexivity|].
  cbn [stream lines]. destruct (N.eqb_spec c 10) as [->|N0].
  - assert (H : (do s1 <- feed s 10; do s2 <- process s1 None; finish s2 (fun s => stream false s u)) = resume s ([10] :: lines u)).
    { unfold resume. cbn [Csv_Model.feed_all]. destruct (feed s 10) as [s1|]; [|reflexivity]. cbn [bind].
      destruct (process s1 None) as [s2|]; [|reflexivity]. cbn [bind]. unfold finish. rewrite !(proj2 (IH _)). reflexivity. }
    split; [exact H|]. rewrite run_cons. exact H.
  - assert (H : (do s1 <- feed s c; stream true s1 u) = resume s (match lines u with [] => [[c]] | l :: ls => (c :: l) :: ls end)).
    { destruct (feed s c) as [s1|e] eqn:F; cbn [bind].
      - rewrite (proj1 (IH s1)). destruct (lines u) as [|l ls]; unfold resume; cbn [Csv_Model.feed_all]; rewrite F; reflexivity.
      - destruct (lines u) as [|l ls]; unfold resume; cbn [Csv_Model.feed_all]; rewrite F; reflexivity. }
    split; [exact H|]. rewrite H. destruct (lines u) as [|l ls]; rewrite run_cons; reflexivity.
Qed.

(** * Cells, with LF only *)

Definition nul_free (t : text) : Prop := nul_ok = true \/ ~ In 0 t.

Lemma feed_ok : forall s c, nul_free [c] -> feed s c = process s (Some c).
Proof.
  intros s c [H|H]; unfold Csv_Model.feed; [rewrite H, andb_false_r; reflexivity|].
  destruct (N.eqb_spec c 0); [exfalso; apply H; left; auto|reflexivity].
Qed.

Lemma nul_cons : forall c t, nul_free (c :: t) -> nul_free [c] /\ nul_free t.
Proof. intros c t [H|H]; [split; left; exact H|]. split; right; intro I; apply H; [destruct I as [->|[]]; left; reflexivity|right; exact I]. Qed.
Lemma nul_app : forall a t, nul_free (a ++ t) -> nul_free a /\ nul_free t.
Proof. intros c t [H|H]; [split; left; exact H|]. split; right; intro I; apply H; apply in_app_iff; auto. Qed.

(** A cell has been read up to its end. *)
Definition ready (s : pst) : Prop := p_st s = StartField \/ p_st s = InField \/ p_st s = QuoteInQuoted.

Definition mk (q : st) (f : text) (fs : list text) : pst := {| p_st := q; p_field := f; p_fields := fs |}.

Lemma add_ok : forall c q q0 f fs, (length f < limit)%nat -> add limit c q (mk q0 f fs) = Ok (mk q (f ++ [c]) fs).
Proof. intros. unfold add. cbn. destruct (Nat.leb_spec limit (length f)); [lia|reflexivity]. Qed.

Lemma infield_stream : forall p f fs r, Plain p -> (length f + length p <= limit)%nat -> nul_free p ->
  stream true (mk InField f fs) (p ++ r) = stream true (mk InField (f ++ p) fs) r.
Proof.
  induction p as [|c p IH]; intros f fs r P L Z; [rewrite app_nil_r; reflexivity|].
  inversion P as [|? ? (Q1 & Q2 & Q3 & Q4) P']; subst. cbn [length] in L. destruct (nul_cons _ _ Z) as [Z1 Z2].
  cbn [app stream]. rewrite feed_ok by exact Z1. unfold Csv_Model.process. cbn [p_st mk]. unfold is_nl.
  apply N.eqb_neq in Q2, Q3, Q4. rewrite Q2, Q3, Q4. cbn [orb]. fold (mk InField f fs). rewrite add_ok by lia. cbn [bind].
  rewrite IH by (auto; rewrite app_length; cbn [length]; lia). rewrite <- app_assoc. reflexivity.
Qed.

Lemma plain_stream : forall q p fs r mid, q = StartRecord \/ q = StartField -> Plain p -> p <> [] -> (length p <= limit)%nat -> nul_free p ->
  stream mid (mk q [] fs) (p ++ r) = stream true (mk InField p fs) r.
Proof.
  intros q [|c p] fs r mid Q P N0 L Z; [congruence|]. inversion P as [|? ? (Q1 & Q2 & Q3 & Q4) P']; subst.
  cbn [length] in L. destruct (nul_cons _ _ Z) as [Z1 Z2]. cbn [app stream]. rewrite feed_ok by exact Z1.
  assert (E : process (mk q [] fs) (Some c) = Ok (mk InField [c] fs)).
  { unfold Csv_Model.process, start_field, is_nl. apply N.eqb_neq in Q1, Q2, Q3, Q4. cbn [p_st mk].
    destruct Q as [->| ->]; rewrite Q1, Q2, Q3, Q4; cbn [orb]; apply (add_ok c InField _ [] fs); cbn [length]; lia. }
  rewrite E. cbn [bind]. apply N.eqb_neq in Q3. rewrite Q3. rewrite infield_stream by (auto; cbn [length]; lia). reflexivity.
Qed.

Lemma body_stream : forall b s, Body b s -> forall f fs r mid, (length f + length s <= limit)%nat -> nul_free s ->
  exists mid', stream mid (mk InQuoted f fs) (b ++ 34 :: r) = stream mid' (mk InQuoted (f ++ s) fs) (34 :: r).
Proof.
  induction 1 as [|c b s N0 B IH|b s B IH]; intros f fs r mid L Z.
  - rewrite app_nil_r. exists mid. reflexivity.
  - cbn [length] in L. destruct (nul_cons _ _ Z) as [Z1 Z2]. cbn [app]. cbn [stream]. rewrite feed_ok by exact Z1.
    assert (E : process (mk InQuoted f fs) (Some c) = Ok (mk InQuoted (f ++ [c]) fs)).
    { unfold Csv_Model.process. cbn [p_st mk]. apply N.eqb_neq in N0. rewrite N0. apply add_ok. lia. }
    rewrite E. cbn [bind]. replace (f ++ c :: s) with ((f ++ [c]) ++ s) by (rewrite <- app_assoc; reflexivity).
    destruct (N.eqb_spec c 10).
    + cbn [bind]. unfold Csv_Model.process at 1. cbn [p_st mk bind]. unfold finish. cbn [at_start p_st].
      apply (IH (f ++ [c]) fs r false); [rewrite app_length; cbn [length]; lia|exact Z2].
    + apply (IH (f ++ [c]) fs r true); [rewrite app_length; cbn [length]; lia|exact Z2].
  - cbn [length] in L. destruct (nul_cons _ _ Z) as [Z1 Z2]. cbn [app].
    assert (E : process (mk InQuoted f fs) (Some 34) = Ok (mk QuoteInQuoted f fs)) by reflexivity.
    assert (E' : process (mk QuoteInQuoted f fs) (Some 34) = Ok (mk InQuoted (f ++ [34]) fs)).
    { unfold Csv_Model.process. cbn [p_st mk]. change (34 =? 34) with true. cbv iota. apply add_ok. lia. }
    replace (f ++ 34 :: s) with ((f ++ [34]) ++ s) by (rewrite <- app_assoc; reflexivity).
    destruct (IH (f ++ [34]) fs r true) as (mid' & I); [rewrite app_length; cbn [length]; lia|exact Z2|].
    exists mid'. rewrite <- I. cbn [stream]. rewrite feed_ok by exact Z1. rewrite E. cbn [bind]. change (34 =? 10) with false. cbv iota.
    rewrite feed_ok by exact Z1. rewrite E'. cbn [bind]. reflexivity.
Qed.

(** Cells of translated texts. *)
Inductive CellL : text -> text -> Prop :=
| CL_plain s : Plain s -> CellL s s
| CL_quoted b s : Body b s -> CellL (34 :: b ++ [34]) s.
Inductive RecordL : text -> list text -> Prop :=
| RL_one e c : CellL e c -> RecordL e [c]
| RL_more e c e' cs : CellL e c -> RecordL e' cs -> RecordL (e ++ 44 :: e') (c :: cs).

Definition fits (c : text) : Prop := (length c <= limit)%nat /\ nul_free c.

Lemma nul34 : nul_free [34]. Proof. right. intros [H|[]]; discriminate. Qed.
Lemma nul44 : nul_free [44]. Proof. right. intros [H|[]]; discriminate. Qed.
Lemma nul10 : nul_free [10]. Proof. right. intros [H|[]]; discriminate. Qed.

Lemma cell_stream : forall e c q fs r mid, CellL e c -> fits c -> q = StartRecord \/ q = StartField ->
  (e <> [] \/ q = StartField) ->
  exists q', (q' = StartField \/ q' = InField \/ q' = QuoteInQuoted) /\
    stream mid (mk q [] fs) (e ++ r) = stream (match e with [] => mid | _ => true end) (mk q' c fs) r.
Proof.
  intros e c q fs r mid C (L & Z) Q N0. destruct C as [s P|b s B].
  - destruct s as [|x s].
    + destruct N0 as [N0|N0]; [congruence|]. subst q. exists StartField. split; [auto|reflexivity].
    + exists InField. split; [auto|]. apply plain_stream; auto; discriminate.
  - exists QuoteInQuoted. split; [auto|]. cbn [app]. cbn [stream]. rewrite feed_ok by exact nul34.
    assert (E : process (mk q [] fs) (Some 34) = Ok (mk InQuoted [] fs)) by (destruct Q as [->| ->]; reflexivity).
    rewrite E. cbn [bind]. change (34 =? 10) with false. cbv iota. rewrite <- app_assoc.
    destruct (body_stream b s B [] fs r true) as (mid' & H); [exact L|exact Z|].
    etransitivity; [exact H|]. cbn [stream app]. rewrite feed_ok by exact nul34. reflexivity.
Qed.

(** The cells before the last one, and the last one. *)
Lemma record_stream : forall e cs, RecordL e cs -> forall q fs r mid, Forall fits cs -> q = StartRecord \/ q = StartField ->
  (e <> [] \/ q = StartField) ->
  exists q' cs0 c, (q' = StartField \/ q' = InField \/ q' = QuoteInQuoted) /\ cs = cs0 ++ [c] /\
    stream mid (mk q [] fs) (e ++ r) = stream (match e with [] => mid | _ => true end) (mk q' c (fs ++ cs0)) r.
Proof.
  induction 1 as [e c C|e c e' cs C R IH]; intros q fs r mid F Q N0.
  - inversion F; subst. destruct (cell_stream e c q fs r mid C H1 Q N0) as (q' & Q' & E). exists q', [], c. rewrite app_nil_r. auto.
  - inversion F; subst.
    assert (E1 : stream mid (mk q [] fs) (e ++ 44 :: e' ++ r) = stream true (mk StartField [] (fs ++ [c])) (e' ++ r)).
    { destruct e as [|x e].
      - inversion C; subst. cbn [app stream]. rewrite feed_ok by exact nul44.
        assert (E : process (mk q [] fs) (Some 44) = Ok (mk StartField [] (fs ++ [[]]))) by (destruct Q as [->| ->]; reflexivity).
        rewrite E. reflexivity.
      - destruct (cell_stream (x :: e) c q fs (44 :: e' ++ r) mid C H1 Q) as (q' & Q' & ->); [left; discriminate|].
        cbn [stream]. rewrite feed_ok by exact nul44.
        assert (E : process (mk q' c fs) (Some 44) = Ok (mk StartField [] (fs ++ [c]))) by (destruct Q' as [->|[->| ->]]; reflexivity).
        rewrite E. reflexivity. }
    rewrite <- app_assoc. cbn [app]. rewrite E1.
    destruct (IH StartField (fs ++ [c]) r true H2) as (q' & cs0 & c' & Q' & -> & E); [auto|auto|].
    exists q', (c :: cs0), c'. split; [exact Q'|]. split; [reflexivity|]. rewrite E. rewrite <- app_assoc. cbn [app].
    destruct e' as [|y e']; destruct e as [|x e]; reflexivity.
Qed.

Lemma record_lf : forall e cs r, RecordL e cs -> Forall fits cs -> e <> [] ->
  stream false init (e ++ 10 :: r) = do rows <- stream false init r; Ok (cs :: rows).
Proof.
  intros e cs r R F N0. destruct (record_stream e cs R StartRecord [] (10 :: r) false F) as (q & cs0 & c & Q & -> & E); [auto|auto|].
  change init with (mk StartRecord [] []) at 1. rewrite E. cbn [stream]. rewrite feed_ok by exact nul10.
  assert (P : process (mk q c ([] ++ cs0)) (Some 10) = Ok (mk EatCrnl [] (cs0 ++ [c]))) by (destruct Q as [->|[->| ->]]; reflexivity).
  rewrite P. reflexivity.
Qed.

Lemma record_end : forall e cs, RecordL e cs -> Forall fits cs -> e <> [] -> stream false init e = Ok [cs].
Proof.
  intros e cs R F N0. destruct (record_stream e cs R StartRecord [] [] false F) as (q & cs0 & c & Q & -> & E); [auto|auto|].
  rewrite app_nil_r in E. change init with (mk StartRecord [] []) at 1. rewrite E. destruct e as [|x e]; [congruence|].
  cbn [stream]. assert (P : process (mk q c ([] ++ cs0)) None = Ok (mk StartRecord [] (cs0 ++ [c]))) by (destruct Q as [->|[->| ->]]; reflexivity).
  rewrite P. reflexivity.
Qed.

(** * From files to translated files *)

Lemma plain_no_cr : forall s, Plain s -> ~ In 13 s.
Proof. intros s P I. unfold Plain in P. rewrite Forall_forall in P. apply P in I. tauto. Qed.

Lemma body_translate : forall b s, Body b s -> Body (translate b) (translate s).
Proof.
  intros b s. remember (length b) as n eqn:E. assert (L : (length b <= n)%nat) by lia. clear E. revert b s L.
  induction n as [|n IH]; intros b s L B; inversion B; subst; cbn [length] in L; try lia; try (exact B_nil).
  - destruct (N.eq_dec c 13) as [->|N0].
    + inversion H0; subst.
      * cbn. constructor; [discriminate|constructor].
      * destruct (N.eq_dec c 10) as [->|N1].
        -- rewrite !translate_crlf. constructor; [discriminate|]. apply IH; [cbn [length] in L; lia|assumption].
        -- rewrite !translate_cr by congruence. constructor; [discriminate|]. apply IH; [cbn [length] in *; lia|exact H0].
      * rewrite !translate_cr by discriminate. constructor; [discriminate|]. apply IH; [cbn [length] in *; lia|exact H0].
    + rewrite !translate_cons by exact N0. constructor; [exact H|]. apply IH; [lia|assumption].
  - rewrite !translate_cons by discriminate. apply B_quote. apply IH; [lia|assumption].
Qed.

Lemma cell_last : forall e c, Cell e c -> e = [] \/ exists a x, e = a ++ [x] /\ x <> 10 /\ x <> 13.
Proof.
  intros e c C. destruct C as [s P|b s s' B Nl].
  - destruct s as [|x s] using rev_ind; [left; reflexivity|right]. exists s, x. split; [reflexivity|].
    unfold Plain in P. rewrite Forall_forall in P. specialize (P x). rewrite in_app_iff in P. cbn in P. tauto.
  - right. exists (34 :: b), 34. split; [reflexivity|]. split; discriminate.
Qed.

Lemma cell_translate : forall e c, Cell e c -> CellL (translate e) c.
Proof.
  intros e c C. destruct C as [s P|b s s' B Nl].
  - rewrite translate_id by (apply plain_no_cr, P). constructor. exact P.
  - apply newlines_translate in Nl. subst s'. rewrite translate_cons by discriminate. rewrite translate_app by discriminate.
    cbn [translate]. constructor. apply body_translate, B.
Qed.

Lemma record_translate : forall e cs, Record_ e cs -> RecordL (translate e) cs.
Proof.
  induction 1 as [e c C|e c e' cs C R IH]; [constructor; apply cell_translate, C|].
  rewrite translate_app by discriminate. constructor; [apply cell_translate, C|exact IH].
Qed.

Lemma record_last : forall e cs, Record_ e cs -> e = [] \/ exists a x, e = a ++ [x] /\ x <> 10 /\ x <> 13.
Proof.
  induction 1 as [e c C|e c e' cs C R IH]; [eapply cell_last, C|]. right. destruct IH as [->|(a & x & -> & N1 & N2)].
  - exists e, 44. split; [reflexivity|]. split; discriminate.
  - exists (e ++ 44 :: a), x. split; [rewrite <- app_assoc; reflexivity|auto].
Qed.

Lemma eol_translate : forall n r, Eol n r -> translate (n ++ r) = 10 :: translate r.
Proof.
  intros n r [->|[->|(-> & H)]]; cbn [app]; [apply translate_cons; discriminate|apply translate_crlf|apply translate_cr, H].
Qed.

Lemma translate_nonempty : forall t, t <> [] -> translate t <> [].
Proof. intros [|c t] N0; [congruence|]. cbn. destruct (c =? 13); [destruct t as [|d t]; [discriminate|destruct (d =? 10); discriminate]|discriminate]. Qed.

Theorem file_read : forall t rows, File t rows -> Forall (Forall fits) rows -> reader limit nul_ok (lines (translate t)) = Ok rows.
Proof.
  intros t rows H F. unfold reader. rewrite <- (proj2 (stream_lines (translate t) init)).
  induction H as [|e cs R N0|n r rows E H IH|e cs n r rows R N0 E H IH].
  - reflexivity.
  - inversion F; subst. apply record_end; [apply record_translate, R|assumption|apply translate_nonempty, N0].
  - inversion F; subst. rewrite (eol_translate _ _ E). cbn [stream]. rewrite feed_ok by exact nul10.
    change (process init (Some 10)) with (Ok (mk EatCrnl [] [])). cbn [bind]. change (10 =? 10) with true. cbv iota.
    unfold Csv_Model.process. cbn [p_st mk bind]. unfold finish. cbn [at_start goto p_st mk p_fields]. rewrite (IH H3). reflexivity.
  - inversion F; subst. destruct (record_last e cs R) as [->|(a & x & -> & N1 & N2)]; [congruence|].
    assert (T : translate ((a ++ [x]) ++ n ++ r) = translate (a ++ [x]) ++ 10 :: translate r).
    { rewrite <- app_assoc. cbn [app]. rewrite !translate_app by assumption. rewrite (eol_translate _ _ E). cbn [translate]. rewrite <- app_assoc. reflexivity. }
    rewrite T. rewrite (record_lf _ cs); [|apply record_translate, R|assumption|apply translate_nonempty, N0].
    rewrite (IH H3). reflexivity.
Qed.

(** Without CR and with room for all characters the reader never fails. *)
Lemma stream_total : forall u mid s, ~ In 13 u -> nul_free u -> p_st s <> EatCrnl -> (length (p_field s) + length u <= limit)%nat ->
  exists rows, stream mid s u = Ok rows.
Proof.
  assert (Run0 : forall s, exists rows, run [] s = Ok rows).
  { intro s. cbn. destruct (p_field s); [destruct (p_st s)|]; eauto. }
  assert (Fin : forall s k, p_st s = StartRecord \/ p_st s = InQuoted -> (forall s', s' = init \/ s' = s -> exists rows, k s' = Ok rows) -> exists rows, finish s k = Ok rows).
  { intros s k _ K. unfold finish. destruct (at_start s); [|apply K; auto]. destruct (K init) as (rows & ->); [auto|]. cbn. eauto. }
  assert (Pn : forall s, p_st s <> EatCrnl -> exists s', process s None = Ok s' /\ (p_st s' = StartRecord \/ p_st s' = InQuoted) /\ (length (p_field s') <= length (p_field s))%nat).
  { intros s N0. unfold Csv_Model.process. destruct (p_st s) eqn:Q; try congruence; eexists; (split; [reflexivity|]); cbn; rewrite ?Q; split; auto; lia. }
  induction u as [|c u IH]; intros mid s N0 Z E L.
  - cbn [stream]. destruct mid; [|apply Run0]. destruct (Pn s E) as (s' & -> & Q & _). cbn [bind]. apply Fin; [exact Q|]. intros. apply Run0.
  - cbn [stream length] in *. destruct (nul_cons _ _ Z) as [Z1 Z2]. rewrite feed_ok by exact Z1.
    assert (N13 : c <> 13) by (intros ->; apply N0; left; reflexivity).
    assert (N0' : ~ In 13 u) by (intro I; apply N0; right; exact I).
    destruct (N.eqb_spec c 10) as [->|N10].
    + assert (P : exists s1, process s (Some 10) = Ok s1 /\ (p_st s1 = EatCrnl \/ p_st s1 = InQuoted) /\ (length (p_field s1) <= length (p_field s) + 1)%nat).
      { unfold Csv_Model.process, start_field, add. change (is_nl 10) with true. change (10 =? 34) with false. change (10 =? 44) with false.
        destruct (p_st s); try congruence; cbv iota; try (eexists; split; [reflexivity|]; cbn; split; [auto|lia]).
        destruct (Nat.leb_spec limit (length (p_field s))); [lia|]. eexists. split; [reflexivity|]. cbn. split; [auto|rewrite app_length; cbn; lia]. }
      destruct P as (s1 & -> & Q1 & L1). cbn [bind].
      assert (P2 : exists s2, process s1 None = Ok s2 /\ (p_st s2 = StartRecord \/ p_st s2 = InQuoted) /\ (length (p_field s2) <= length (p_field s1))%nat).
      { unfold Csv_Model.process. destruct Q1 as [Q1|Q1]; rewrite Q1; eexists; (split; [reflexivity|]); cbn; rewrite ?Q1; split; auto. }
      destruct P2 as (s2 & -> & Q2 & L2). cbn [bind]. apply Fin; [exact Q2|]. intros s' [->| ->]; apply IH; auto.
      * discriminate.
      * cbn. lia.
      * destruct Q2; congruence.
      * lia.
    + assert (P : exists s1, process s (Some c) = Ok s1 /\ p_st s1 <> EatCrnl /\ (length (p_field s1) <= length (p_field s) + 1)%nat).
      { unfold Csv_Model.process, start_field, add, is_nl. apply N.eqb_neq in N10, N13. rewrite N10, N13. cbn [orb].
        destruct (Nat.leb_spec limit (length (p_field s))); [lia|].
        destruct (p_st s); try congruence; destruct (c =? 34); try destruct (c =? 44);
          (eexists; split; [reflexivity|]); cbn; (split; [discriminate|rewrite ?app_length; cbn; lia]). }
      destruct P as (s1 & -> & Q1 & L1). cbn [bind]. apply IH; auto. lia.
Qed.

Theorem read_total : forall t, (length t <= limit)%nat -> nul_free t -> exists rows, reader limit nul_ok (lines (translate t)) = Ok rows.
Proof.
  intros t L Z. unfold reader. rewrite <- (proj2 (stream_lines (translate t) init)). apply stream_total.
  - apply translate_no_cr.
  - destruct Z as [Z|Z]; [left; exact Z|right]. assert (H : Newlines t (translate t)) by (apply newlines_translate; reflexivity).
    clear L. induction H; cbn [In] in *; [tauto|tauto| |]; (intros [E|I]; [discriminate|tauto]).
  - discriminate.
  - cbn. pose proof (translate_length t). lia.
Qed.

(** One line without line ends. *)
Lemma one_line : forall l, ~ In 10 l -> l <> [] -> lines l = [l].
Proof.
  induction l as [|c l IH]; intros N0 N1; [congruence|]. cbn. destruct (N.eqb_spec c 10) as [->|N2]; [exfalso; apply N0; left; reflexivity|].
  destruct l as [|d l]; [reflexivity|]. rewrite IH; [reflexivity| |discriminate]. intro I. apply N0. right. exact I.
Qed.
End Csv.

(** * The writer *)

Section Writer.
Context (quote_cr : bool).

Lemma double_body : forall s, Body (flat_map double s) s.
Proof.
  induction s as [|c s IH]; [constructor|]. cbn. unfold double. destruct (N.eqb_spec c 34) as [->|N0]; cbn [app]; constructor; assumption.
Qed.

Lemma write_cell_cell : forall s, quote_cr = true \/ ~ In 13 s -> Cell (write_cell quote_cr s) (translate s).
Proof.
  intros s H. unfold write_cell. destruct (existsb (special quote_cr) s) eqn:E.
  - econstructor; [apply double_body|]. apply newlines_translate. reflexivity.
  - assert (P : Plain s).
    { apply Forall_forall. intros c I. assert (S0 : special quote_cr c = false).
      { destruct (special quote_cr c) eqn:Q; [|reflexivity]. assert (existsb (special quote_cr) s = true) by (apply existsb_exists; eauto). congruence. }
      unfold special in S0. apply orb_false_iff in S0. destruct S0 as [S0 C]. apply orb_false_iff in S0. destruct S0 as [S0 D].
      apply orb_false_iff in S0. destruct S0 as [A B]. apply N.eqb_neq in A, B, D. repeat split; auto.
      intros ->. destruct H as [->|H]; [discriminate|auto]. }
    rewrite translate_id by (apply plain_no_cr, P). constructor. exact P.
Qed.

Lemma join_cons : forall x y r, join_cells (x :: y :: r) = x ++ 44 :: join_cells (y :: r).
Proof. reflexivity. Qed.

Lemma write_row_record : forall row, row <> [] -> Forall (fun s => quote_cr = true \/ ~ In 13 s) row ->
  exists e, write_row quote_cr row = e ++ [10] /\ e <> [] /\ Record_ e (map translate row).
Proof.
  assert (J : forall row, row <> [] -> Forall (fun s => quote_cr = true \/ ~ In 13 s) row ->
    Record_ (join_cells (map (write_cell quote_cr) row)) (map translate row)).
  { induction row as [|s row IH]; intros N0 F; [congruence|]. inversion F; subst. destruct row as [|s' row].
    - cbn. constructor. apply write_cell_cell; assumption.
    - cbn [map]. rewrite join_cons. constructor; [apply write_cell_cell; assumption|]. apply IH; [discriminate|assumption]. }
  intros row N0 F. destruct row as [|s row]; [congruence|]. destruct s as [|c s]; [destruct row as [|s' row]|].
  - exists [34; 34]. split; [reflexivity|]. split; [discriminate|]. cbn. constructor. apply (C_quoted [] [] []); constructor.
  - exists (join_cells (map (write_cell quote_cr) ([] :: s' :: row))). split; [reflexivity|]. split; [|apply J; assumption].
    cbn [map]. rewrite join_cons. cbn. discriminate.
  - exists (join_cells (map (write_cell quote_cr) ((c :: s) :: row))). split; [reflexivity|]. split; [|apply J; assumption].
    assert (W : write_cell quote_cr (c :: s) <> []) by (unfold write_cell; destruct (existsb (special quote_cr) (c :: s)); discriminate).
    cbn [map]. destruct row as [|s' row]; [exact W|]. cbn [map]. rewrite join_cons. destruct (write_cell quote_cr (c :: s)); [congruence|discriminate].
Qed.

Theorem write_file : forall rows, Forall (fun row => row <> []) rows -> Forall (Forall (fun s => quote_cr = true \/ ~ In 13 s)) rows ->
  File (flat_map (write_row quote_cr) rows) (map (map translate) rows).
Proof.
  induction rows as [|row rows IH]; intros N0 F; [constructor|]. inversion N0; subst. inversion F; subst.
  destruct (write_row_record row H1 H3) as (e & E & Ne & R). cbn [flat_map map]. rewrite E, <- app_assoc. cbn [app].
  change (e ++ 10 :: flat_map (write_row quote_cr) rows) with (e ++ [10] ++ flat_map (write_row quote_cr) rows).
  constructor; auto. left. reflexivity.
Qed.

Lemma write_in : forall rows c, In c (flat_map (write_row quote_cr) rows) -> c = 10 \/ c = 34 \/ c = 44 \/ exists row s, In row rows /\ In s row /\ In c s.
Proof.
  assert (D : forall s c, In c (write_cell quote_cr s) -> c = 34 \/ In c s).
  { intros s c I. unfold write_cell in I. destruct (existsb (special quote_cr) s); [|auto]. destruct I as [<-|I]; [auto|].
    apply in_app_iff in I. destruct I as [I|[<-|[]]]; [|auto]. apply in_flat_map in I. destruct I as (x & I & J). unfold double in J.
    destruct (N.eqb_spec x 34) as [->|N0]; destruct J as [<-|J]; auto. destruct J as [<-|[]]; auto. destruct J. }
  assert (J : forall row c, In c (join_cells (map (write_cell quote_cr) row)) -> c = 34 \/ c = 44 \/ exists s, In s row /\ In c s).
  { induction row as [|s row IH]; intros c I; [destruct I|]. destruct row as [|s' row].
    - cbn in I. apply D in I. destruct I as [->|I]; [auto|]. right. right. exists s. split; [left; reflexivity|exact I].
    - cbn [map] in I. rewrite join_cons in I. apply in_app_iff in I. destruct I as [I|[<-|I]]; [|auto|].
      + apply D in I. destruct I as [->|I]; [auto|]. right. right. exists s. split; [left; reflexivity|exact I].
      + apply IH in I. destruct I as [I|[I|(x & A & B)]]; auto. right. right. exists x. split; [right; exact A|exact B]. }
  intros rows c I. apply in_flat_map in I. destruct I as (row & R & I).
  assert (K : c = 10 \/ In c (join_cells (map (write_cell quote_cr) row)) \/ c = 34).
  { unfold write_row in I. destruct row as [|[|x s] [|s' row]]; try (apply in_app_iff in I; destruct I as [I|[<-|[]]]; auto; fail).
    destruct I as [<-|[<-|[<-|[]]]]; auto. }
  destruct K as [->|[K| ->]]; auto. apply J in K. destruct K as [K|[K|(s & A & B)]]; auto. right. right. right. eauto.
Qed.
End Writer.
