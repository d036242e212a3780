From Verif Require Import Prelude Selectors_Model Quote_Model Quote_Spec.

Lemma run_app s a b : run s (a ++ b) = before (fst (run s a)) (run (snd (run s a)) b).
Proof.
  revert s. induction a as [|c a IH]; intro s; cbn [run app fst snd]; [unfold before; cbn; now destruct (run s b)|].
  rewrite IH. unfold before. cbn [fst snd]. now rewrite app_assoc.
Qed.
Lemma run_quote q t u : q = 34%N -> run (InQuote q t) (double_quotes u) = ([], InQuote q (t ++ u)).
Proof.
  intros ->. revert t. induction u as [|c u IH]; intro t; cbn [double_quotes flat_map]; [now rewrite app_nil_r|].
  fold (double_quotes u). destruct (N.eqb_spec c 34) as [->|N].
  - cbn [app run]. change (step (InQuote 34 t) 34) with (@nil token, AfterQuote 34 t). cbn [fst snd].
    change (step (AfterQuote 34 t) 34) with (@nil token, InQuote 34 (t ++ [34%N])). cbn [fst snd]. unfold before. cbn [app fst snd].
    rewrite IH, <- app_assoc. reflexivity.
  - cbn [app run step]. apply N.eqb_neq in N. rewrite N. unfold before. cbn [fst snd app]. rewrite IH, <- app_assoc. reflexivity.
Qed.
Definition q34 (c : text) : text := 34%N :: double_quotes c ++ [34%N].
Lemma run_q34 c : run Between (q34 c) = ([], AfterQuote 34 c).
Proof.
  unfold q34. cbn [run step]. change (start 34) with (@nil token, InQuote 34 []). unfold before. cbn [fst snd app].
  rewrite run_app, (run_quote 34 [] c eq_refl). reflexivity.
Qed.
Lemma format_cases v : (usable v /\ format_identifier v = Ok (q34 v)) \/ (~ usable v /\ format_identifier v = Err ValueError).
Proof.
  unfold format_identifier. destruct (existsb is_surrogate v) eqn:A.
  - right. split; auto. apply existsb_exists in A as (c & Hc & S). unfold is_surrogate in S. apply andb_true_iff in S as [S1 S2].
    apply N.leb_le in S1, S2. intro U. apply (proj2 (U c Hc)). lia.
  - destruct (existsb (N.eqb 0) v) eqn:B.
    + right. split; auto. apply existsb_exists in B as (c & Hc & S). apply N.eqb_eq in S. subst. intro U. now apply (proj1 (U _ Hc)).
    + left. split; [|reflexivity]. intros c Hc. split.
      * intros ->. assert (existsb (N.eqb 0) v = true) by (apply existsb_exists; exists 0%N; auto). congruence.
      * intros [L1 L2]. assert (existsb is_surrogate v = true); [|congruence]. apply existsb_exists. exists c. split; auto.
        unfold is_surrogate. apply andb_true_iff. split; now apply N.leb_le.
Qed.
Lemma format_ok v q : format_identifier v = Ok q -> q = q34 v.
Proof. destruct (format_cases v) as [[_ E]|[_ E]]; rewrite E; congruence. Qed.
Lemma format_all_cases l : (Forall usable l /\ format_all l = Ok (map q34 l)) \/ (~ Forall usable l /\ format_all l = Err ValueError).
Proof.
  unfold format_all. induction l as [|v l IH]; cbn; [left; auto|]. destruct (format_cases v) as [[U E]|[U E]]; rewrite E; cbn.
  - destruct IH as [[F G]|[F G]]; rewrite G; cbn; [left; auto|right]. split; auto. intro H. inversion H; auto.
  - right. split; auto. intro H. inversion H; auto.
Qed.

(** Composition. *)
Definition lex (s : lstate) (t : text) : list token := fst (run s t) ++ finish (snd (run s t)).
Lemma lex_app s a b : lex s (a ++ b) = fst (run s a) ++ lex (snd (run s a)) b.
Proof. unfold lex. rewrite run_app. unfold before. cbn [fst snd]. now rewrite app_assoc. Qed.
Lemma lex_cons s c b : lex s (c :: b) = fst (step s c) ++ lex (snd (step s c)) b.
Proof. change (c :: b) with ([c] ++ b). rewrite lex_app. cbn [run]. unfold before. cbn. now rewrite app_nil_r. Qed.
(** After a closed name any character but a quote begins a new token. *)
Lemma lex_after c b : hd 0%N b <> 34%N -> lex (AfterQuote 34 c) b = TName 34 c :: lex Between b.
Proof.
  destruct b as [|x b]; intro H; [reflexivity|]. rewrite !lex_cons. cbn [step]. cbn [hd] in H. apply N.eqb_neq in H. rewrite H. reflexivity.
Qed.
Lemma lex_name c b : hd 0%N b <> 34%N -> lex Between (q34 c ++ b) = TName 34 c :: lex Between b.
Proof. intro H. rewrite lex_app, run_q34. cbn [fst snd app]. now apply lex_after. Qed.
(** A text and what follows. *)
Definition flushes (s : lstate) (x : N) : Prop := step s x = before (finish s) (start x).
Lemma lex_seg a b : b = [] \/ flushes (snd (run Between a)) (hd 0%N b) -> lex Between (a ++ b) = lex Between a ++ lex Between b.
Proof.
  intros [->|F]; [unfold lex at 3; cbn; now rewrite !app_nil_r|]. destruct b as [|x b]; [unfold lex at 3; cbn; now rewrite !app_nil_r|].
  cbn [hd] in F. unfold flushes in F. rewrite lex_app. rewrite lex_cons, F, lex_cons. unfold before. cbn [fst snd step].
  unfold lex at 2. now rewrite <- !app_assoc.
Qed.
(** What may follow a part of a list: nothing, a space, a line break, a comma or a closing parenthesis. *)
Definition stop (b : text) : Prop := b = [] \/ In (hd 0%N b) [32; 10; 44; 41]%N.
Definition good (p : text) (g : list token) : Prop := forall b, stop b -> lex Between (p ++ b) = g ++ lex Between b.
Lemma good_lit a : Forall (flushes (snd (run Between a))) [32; 10; 44; 41]%N -> good a (lex Between a).
Proof. intros F b [->|S]; apply lex_seg; [now left|right]. rewrite Forall_forall in F. now apply F. Qed.
Lemma stop_not_quote b : stop b -> hd 0%N b <> 34%N.
Proof. intros [->|S]; [discriminate|]. cbn [In] in S. intuition congruence. Qed.
Lemma good_name c : good (q34 c) (col c).
Proof. intros b S. rewrite lex_name by (now apply stop_not_quote). reflexivity. Qed.
Lemma good_name_then c a g : hd 0%N a <> 34%N -> a <> [] -> good a g -> good (q34 c ++ a) (col c ++ g).
Proof.
  intros H N G b S. rewrite <- app_assoc. rewrite lex_name; [|destruct a; [congruence|exact H]]. rewrite G by exact S. reflexivity.
Qed.
(** Parts joined with a separator. *)
Lemma lex_join sep stok parts gs end_ : stop sep -> sep <> [] -> (forall b, lex Between (sep ++ b) = stok ++ lex Between b) ->
  Forall2 good parts gs -> stop end_ ->
  lex Between (join_text sep parts ++ end_) = between stok gs ++ lex Between end_.
Proof.
  intros S N Q F E. induction F as [|p g parts gs P F IH]; [reflexivity|]. destruct F as [|p2 g2 parts gs P2 F].
  - cbn. now apply P.
  - change (join_text sep (p :: p2 :: parts)) with (p ++ sep ++ join_text sep (p2 :: parts)).
    change (between stok (g :: g2 :: gs)) with (g ++ stok ++ between stok (g2 :: gs)).
    rewrite <- !app_assoc. rewrite P; [|destruct S as [->|S]; [congruence|right; destruct sep; [congruence|exact S]]].
    rewrite Q, IH. reflexivity.
Qed.
Lemma good_join sep stok parts gs : stop sep -> sep <> [] -> (forall b, lex Between (sep ++ b) = stok ++ lex Between b) ->
  Forall2 good parts gs -> good (join_text sep parts) (between stok gs).
Proof. intros S N Q F b E. now apply lex_join. Qed.
Lemma comma_lex b : lex Between (comma ++ b) = sql "," ++ lex Between b.
Proof. rewrite lex_app. reflexivity. Qed.
Lemma and_lex b : lex Between (and_ ++ b) = sql "AND" ++ lex Between b.
Proof. rewrite lex_app. reflexivity. Qed.
Lemma good_commas parts gs : Forall2 good parts gs -> good (join_text comma parts) (between (sql ",") gs).
Proof. apply good_join; [right; cbn; tauto|discriminate|exact comma_lex]. Qed.
Lemma good_ands parts gs : Forall2 good parts gs -> good (join_text and_ parts) (between (sql "AND") gs).
Proof. apply good_join; [right; cbn; tauto|discriminate|exact and_lex]. Qed.
Lemma Forall2_map {A} (f : A -> text) (g : A -> list token) l : (forall x, good (f x) (g x)) -> Forall2 good (map f l) (map g l).
Proof. intro H. induction l; cbn; constructor; auto. Qed.
Lemma good_cols names : good (join_text comma (map q34 names)) (cols names).
Proof. apply good_commas. apply Forall2_map. exact good_name. Qed.
Lemma good_marks n : good (qmarks n) (marks n).
Proof.
  apply good_commas. induction n; cbn; constructor; auto. apply good_lit. repeat constructor.
Qed.
(** A literal text, then a good part, then a literal text. *)
Lemma lex_frame a p g z : snd (run Between a) = Between -> good p g -> stop z ->
  lex Between (a ++ p ++ z) = lex Between a ++ g ++ lex Between z.
Proof.
  intros A G S. rewrite lex_seg; [now rewrite G|]. right. rewrite A. unfold flushes. cbn. now destruct (start _).
Qed.
