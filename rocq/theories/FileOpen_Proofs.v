(** Encodings, paths and URIs (property C64). *)
From Verif Require Import Prelude Selectors_Model FileOpen_Model FileOpen_Spec.
Local Open Scope N_scope.

Lemma teqb_iff : forall a b : list N, text_eqb a b = true <-> a = b.
Proof.
  induction a; destruct b; simpl; split; intro H; try discriminate; auto.
  - apply andb_true_iff in H. destruct H as [H1 H2]. apply N.eqb_eq in H1. apply IHa in H2. congruence.
  - injection H as -> ->. rewrite N.eqb_refl. simpl. apply IHa. reflexivity.
Qed.
Lemma teqb_refl : forall a : list N, text_eqb a a = true.
Proof. intro. apply teqb_iff. reflexivity. Qed.
Lemma teqb_neq : forall a b : list N, text_eqb a b = false <-> a <> b.
Proof.
  intros. split; intro H.
  - intros ->. rewrite teqb_refl in H. discriminate.
  - destruct (text_eqb a b) eqn:E; auto. apply teqb_iff in E. contradiction.
Qed.
Lemma leqb_iff : forall a b : loc, loc_eqb a b = true <-> a = b.
Proof.
  induction a; destruct b; simpl; split; intro H; try discriminate; auto.
  - apply andb_true_iff in H. destruct H as [H1 H2]. apply teqb_iff in H1. apply IHa in H2. congruence.
  - injection H as -> ->. rewrite teqb_refl. simpl. apply IHa. reflexivity.
Qed.
Lemma leqb_refl : forall a, loc_eqb a a = true.
Proof. intro. apply leqb_iff. reflexivity. Qed.
Lemma leqb_neq : forall a b, loc_eqb a b = false <-> a <> b.
Proof.
  intros. split; intro H.
  - intros ->. rewrite leqb_refl in H. discriminate.
  - destruct (loc_eqb a b) eqn:E; auto. apply leqb_iff in E. contradiction.
Qed.
Lemma loc_dec : forall a b : loc, {a = b} + {a <> b}.
Proof. intros. destruct (loc_eqb a b) eqn:E; [left; apply leqb_iff|right; apply leqb_neq]; exact E. Qed.

(** Components *)
Lemma split_ne : forall s, split_slash s <> [].
Proof. induction s; simpl; [discriminate|]. destruct (a =? 47); [discriminate|]. destruct (split_slash s); discriminate. Qed.
Lemma split_app : forall a b, split_slash (a ++ 47 :: b) = split_slash a ++ split_slash b.
Proof.
  induction a; intros; simpl; auto.
  destruct (a =? 47); [rewrite IHa; reflexivity|].
  rewrite IHa. destruct (split_slash a0) eqn:E; [destruct (split_ne _ E)|]. reflexivity.
Qed.
Lemma split_single : forall w, ~ In 47 w -> split_slash w = [w].
Proof.
  induction w; intros; simpl; auto.
  destruct (N.eqb_spec a 47); [subst; exfalso; apply H; left; reflexivity|].
  rewrite IHw; auto. intro. apply H. right. auto.
Qed.
Lemma split_no47 : forall s, Forall (fun w => ~ In 47 w) (split_slash s).
Proof.
  induction s; simpl; [repeat constructor; auto|].
  destruct (N.eqb_spec a 47); [constructor; auto|].
  destruct (split_slash s); [repeat constructor; intros [|[]]; auto|].
  inversion IHs; subst. constructor; auto. intros [|]; auto.
Qed.
Lemma split_sub : forall (P : N -> Prop) s, Forall P s -> Forall (Forall P) (split_slash s).
Proof.
  induction s; intros; simpl; [repeat constructor|].
  inversion H; subst. specialize (IHs H3).
  destruct (a =? 47); [constructor; auto|].
  destruct (split_slash s); [repeat constructor; auto|].
  inversion IHs; subst. constructor; auto.
Qed.

Definition plain_name (w : list N) : Prop := w <> [] /\ w <> dot /\ w <> dotdot.

Lemma norm_from_prop : forall (P : list N -> Prop) l acc,
  Forall P acc -> Forall P l -> Forall P (norm_from acc l).
Proof.
  induction l; intros; simpl; [apply Forall_rev; auto|].
  inversion H0; subst.
  destruct (text_eqb a [] || text_eqb a dot); auto.
  destruct (text_eqb a dotdot); auto.
  apply IHl; auto. destruct acc; simpl; auto. inversion H; auto.
Qed.
Lemma norm_from_plain : forall l acc,
  Forall plain_name acc -> Forall plain_name (norm_from acc l).
Proof.
  induction l; intros; simpl; [apply Forall_rev; auto|].
  destruct (text_eqb a []) eqn:E1; simpl; auto.
  destruct (text_eqb a dot) eqn:E2; simpl; auto.
  destruct (text_eqb a dotdot) eqn:E3.
  - apply IHl. destruct acc; simpl; auto. inversion H; auto.
  - apply IHl. constructor; auto. repeat split; apply teqb_neq; auto.
Qed.
Lemma norm_plain : forall l, Forall plain_name (norm l).
Proof. intros. apply norm_from_plain. constructor. Qed.
Lemma norm_from_id : forall l acc, Forall plain_name l -> norm_from acc l = rev acc ++ l.
Proof.
  induction l; intros; simpl; [rewrite app_nil_r; auto|].
  inversion H; subst. destruct H2 as (A & B & C).
  apply teqb_neq in A, B, C. rewrite A, B, C. simpl. rewrite IHl; auto. simpl. rewrite <- app_assoc. reflexivity.
Qed.
Lemma norm_id : forall l, Forall plain_name l -> norm l = l.
Proof. intros. unfold norm. rewrite norm_from_id; auto. Qed.
Lemma norm_skip : forall l, norm ([] :: l) = norm l.
Proof. reflexivity. Qed.

Lemma split_abs : forall l, Forall (fun w => ~ In 47 w) l -> l <> [] -> split_slash (abs_text l) = [] :: l.
Proof.
  intros l H N0. destruct l as [|w l]; [contradiction|]. unfold abs_text. clear N0.
  assert (G : forall l w, ~ In 47 w -> Forall (fun w => ~ In 47 w) l ->
          split_slash (w ++ flat_map (fun w => 47 :: w) l) = w :: l).
  { induction l0 as [|v l0 IH]; intros; simpl.
    - rewrite app_nil_r. apply split_single; auto.
    - inversion H1; subst. rewrite split_app. rewrite (split_single w0) by auto. rewrite IH; auto. }
  inversion H; subst. simpl. rewrite G; auto.
Qed.
Lemma norm_split_abs : forall l, Forall (fun w => ~ In 47 w) l -> Forall plain_name l ->
  norm (split_slash (abs_text l)) = l.
Proof.
  intros. destruct l; [reflexivity|]. rewrite split_abs by (auto; discriminate). rewrite norm_skip. apply norm_id; auto.
Qed.
Lemma abs_is_abs : forall l, is_abs (abs_text l) = true.
Proof. destruct l; reflexivity. Qed.
Lemma full_abs : forall cwd p, is_abs p = true -> full cwd p = p.
Proof. intros. unfold full. rewrite H. reflexivity. Qed.
Lemma abspath_abs : forall cwd p, is_abs (abspath cwd p) = true.
Proof. intros. apply abs_is_abs. Qed.
Lemma full_is_abs : forall cwd p, is_abs cwd = true -> is_abs (full cwd p) = true.
Proof. intros. unfold full. destruct (is_abs p) eqn:E; auto. destruct cwd; simpl in *; auto. Qed.

(** Encodings *)
Lemma utf8_char_low : forall c, c < 128 -> utf8_char c = [c].
Proof. intros. unfold utf8_char. apply N.ltb_lt in H. rewrite H. reflexivity. Qed.
Lemma utf8_char_high : forall c b, 128 <= c -> In b (utf8_char c) -> 128 <= b.
Proof.
  intros c b H I. unfold utf8_char in I.
  assert (L : (c <? 128) = false) by (apply N.ltb_ge; auto). rewrite L in I.
  destruct (c <? 2048); [|destruct (c <? 65536)]; cbn [In] in I;
    repeat (destruct I as [<-|I]; [match goal with |- _ <= ?a + ?x => generalize x; intro; lia end|]); destruct I.
Qed.
Lemma utf8_char_ne : forall c, utf8_char c <> [].
Proof. intro. unfold utf8_char. destruct (c <? 128); [discriminate|]. destruct (c <? 2048); [discriminate|]. destruct (c <? 65536); discriminate. Qed.
Lemma utf8_char_byte : forall c b, c < 1114112 -> In b (utf8_char c) -> b < 256.
Proof.
  intros c b H I. unfold utf8_char in I.
  destruct (N.ltb_spec c 128); [cbn [In] in I; destruct I as [<-|[]]; lia|].
  destruct (N.ltb_spec c 2048); [|destruct (N.ltb_spec c 65536)]; cbn [In] in I.
  - assert (c / 64 < 32) by (apply N.div_lt_upper_bound; lia).
    assert (c mod 64 < 64) by (apply N.mod_lt; lia).
    repeat (destruct I as [<-|I]; [lia|]). destruct I.
  - assert (c / 4096 < 16) by (apply N.div_lt_upper_bound; lia).
    assert (c mod 64 < 64) by (apply N.mod_lt; lia).
    assert ((c / 64) mod 64 < 64) by (apply N.mod_lt; lia).
    repeat (destruct I as [<-|I]; [lia|]). destruct I.
  - assert (c / 262144 < 16) by (apply N.div_lt_upper_bound; lia).
    assert (c mod 64 < 64) by (apply N.mod_lt; lia).
    assert ((c / 64) mod 64 < 64) by (apply N.mod_lt; lia).
    assert ((c / 4096) mod 64 < 64) by (apply N.mod_lt; lia).
    repeat (destruct I as [<-|I]; [lia|]). destruct I.
Qed.

Lemma utf8_fsencode : forall t b, utf8 t = Ok b -> fsencode t = Ok b.
Proof.
  induction t; simpl; intros; auto.
  destruct (surrogate a); [discriminate|]. destruct (utf8 t); simpl in *; [|discriminate].
  rewrite (IHt _ eq_refl). exact H.
Qed.
Lemma surrogate_iff : forall c, surrogate c = true <-> 55296 <= c <= 57343.
Proof. intros. unfold surrogate. rewrite andb_true_iff, !N.leb_le. reflexivity. Qed.
Lemma utf8_ok_iff : forall t, (exists b, utf8 t = Ok b) <-> unicode t.
Proof.
  induction t; simpl.
  - split; [intros _ c []|eauto].
  - destruct (surrogate a) eqn:E.
    + split; [intros [b H]; discriminate|]. intro U. apply surrogate_iff in E.
      destruct (U a (or_introl eq_refl) E).
    + split.
      * intros [b H] c [<-|I].
        -- intro G. apply surrogate_iff in G. congruence.
        -- destruct (utf8 t) eqn:F; [|discriminate]. apply (proj1 IHt); eauto.
      * intro U. destruct (proj2 IHt) as [b B].
        { intros c I. apply U. right; auto. }
        rewrite B. simpl. eauto.
Qed.
Lemma utf8_not_unicode : forall t, ~ unicode t -> utf8 t = Err ValueError.
Proof.
  intros. destruct (utf8 t) eqn:E.
  - exfalso. apply H. apply utf8_ok_iff. eauto.
  - f_equal. clear H. revert E. induction t; simpl; intros; [discriminate|].
    destruct (surrogate a); [congruence|]. destruct (utf8 t); simpl in *; [discriminate|]. apply IHt. congruence.
Qed.

(** One encoded character. *)
Definition enc_char (c : N) : res (list N) :=
  if surrogate c then if (56448 <=? c) && (c <=? 56575) then Ok [c - 56320] else Err ValueError
  else Ok (utf8_char c).
Lemma fsencode_cons : forall c t, fsencode (c :: t) = (do x <- enc_char c; do b <- fsencode t; Ok (x ++ b)).
Proof.
  intros. simpl. unfold enc_char. destruct (surrogate c); auto.
  destruct ((56448 <=? c) && (c <=? 56575)); auto.
Qed.
Lemma enc_char_low : forall c, c < 128 -> enc_char c = Ok [c].
Proof.
  intros. unfold enc_char. destruct (surrogate c) eqn:E; [apply surrogate_iff in E; lia|].
  rewrite utf8_char_low; auto.
Qed.
Lemma enc_char_high : forall c x b, 128 <= c -> enc_char c = Ok x -> In b x -> 128 <= b.
Proof.
  intros c x b H E I. unfold enc_char in E. destruct (surrogate c).
  - destruct ((56448 <=? c) && (c <=? 56575)) eqn:F; [|discriminate]. injection E as <-.
    apply andb_true_iff in F. destruct F as [F1 F2]. apply N.leb_le in F1, F2.
    destruct I as [<-|[]]. lia.
  - injection E as <-. eapply utf8_char_high; eauto.
Qed.
Lemma enc_char_ne : forall c, enc_char c <> Ok [].
Proof.
  intros c E. unfold enc_char in E. destruct (surrogate c); [destruct ((56448 <=? c) && (c <=? 56575)); discriminate|].
  injection E as E. apply (utf8_char_ne _ E).
Qed.

Definition enc (w b : list N) : Prop := fsencode w = Ok b.
Lemma enc_app : forall a b x y, enc a x -> enc b y -> enc (a ++ b) (x ++ y).
Proof.
  unfold enc. induction a; intros.
  - simpl in *. injection H as <-. auto.
  - rewrite fsencode_cons in H. simpl app. rewrite fsencode_cons.
    destruct (enc_char a); simpl in *; [|discriminate]. destruct (fsencode a0) eqn:E; simpl in *; [|discriminate].
    injection H as <-. rewrite (IHa _ _ _ eq_refl H0). simpl. rewrite app_assoc. reflexivity.
Qed.
Lemma enc_cons_low : forall c w b, c < 128 -> enc w b -> enc (c :: w) (c :: b).
Proof. intros. unfold enc in *. rewrite fsencode_cons, enc_char_low by auto. simpl. rewrite H0. reflexivity. Qed.
Lemma enc_inv : forall c w b, enc (c :: w) b ->
  exists x y, enc_char c = Ok x /\ enc w y /\ b = x ++ y.
Proof.
  unfold enc. intros. rewrite fsencode_cons in H. destruct (enc_char c); simpl in *; [|discriminate].
  destruct (fsencode w) eqn:E; simpl in *; [|discriminate]. injection H as <-. eauto 6.
Qed.
Lemma enc_low_head : forall c w b0 b', enc (c :: w) (b0 :: b') -> b0 < 128 -> c = b0 /\ enc w b'.
Proof.
  intros. apply enc_inv in H. destruct H as (x & y & E & F & G).
  destruct (N.lt_ge_cases c 128) as [L|L].
  - rewrite enc_char_low in E by auto. injection E as <-. simpl in G. injection G as -> ->. auto.
  - destruct x; [destruct (enc_char_ne _ E)|]. simpl in G. injection G as -> ->.
    pose proof (enc_char_high _ _ n L E (or_introl eq_refl)). lia.
Qed.
Lemma enc_nil : forall w, enc w [] <-> w = [].
Proof.
  split; [|intros ->; reflexivity]. destruct w; auto. intro H. apply enc_inv in H.
  destruct H as (x & y & E & F & G). destruct x; [destruct (enc_char_ne _ E)|discriminate].
Qed.
Lemma enc_ascii : forall v w b, Forall (fun c => c < 128) v -> enc w b -> (b = v <-> w = v).
Proof.
  induction v; intros.
  - split; intros ->. + apply enc_nil; auto. + unfold enc in H0. simpl in H0. congruence.
  - inversion H; subst. split; intros ->.
    + destruct w; [discriminate|]. assert (K := enc_low_head _ _ _ _ H0 H3). destruct K as [-> K].
      f_equal. apply (proj1 (IHv w v H4 K) eq_refl).
    + apply enc_inv in H0. destruct H0 as (x & y & E & F & ->). rewrite enc_char_low in E by auto. injection E as <-.
      simpl. f_equal. apply (IHv v y H4 F). reflexivity.
Qed.
Lemma split_app_no47 : forall x y, ~ In 47 x ->
  split_slash (x ++ y) = match split_slash y with w :: ws => (x ++ w) :: ws | [] => [] end.
Proof.
  induction x; intros; simpl.
  - destruct (split_slash y); auto.
  - destruct (N.eqb_spec a 47); [subst; destruct H; left; auto|].
    rewrite IHx by (intro; apply H; right; auto).
    destruct (split_slash y) eqn:E; [destruct (split_ne _ E)|]. reflexivity.
Qed.
Lemma enc_split : forall t b, enc t b -> Forall2 enc (split_slash t) (split_slash b).
Proof.
  induction t; intros.
  - unfold enc in H. simpl in H. injection H as <-. repeat constructor.
  - apply enc_inv in H. destruct H as (x & y & E & F & ->). specialize (IHt _ F).
    simpl split_slash at 1. destruct (N.eqb_spec a 47).
    + subst. rewrite enc_char_low in E by lia. injection E as <-. simpl. constructor; auto. reflexivity.
    + rewrite split_app_no47.
      * inversion IHt as [A B|A B l l' P Q A1 B1].
        -- destruct (split_ne t). auto.
        -- constructor; auto. unfold enc. rewrite fsencode_cons, E. simpl. unfold enc in P. rewrite P. reflexivity.
      * intro I. destruct (N.lt_ge_cases a 128) as [L|L].
        -- rewrite enc_char_low in E by auto. injection E as <-. destruct I as [I|[]]; auto.
        -- pose proof (enc_char_high _ _ _ L E I). lia.
Qed.
Lemma enc_norm_from : forall l l' acc acc', Forall2 enc l l' -> Forall2 enc acc acc' ->
  Forall2 enc (norm_from acc l) (norm_from acc' l').
Proof.
  intros l l' acc acc' H. revert acc acc'. induction H; intros; simpl.
  - clear - H. assert (forall a a' b b', Forall2 enc a a' -> Forall2 enc b b' -> Forall2 enc (rev a ++ b) (rev a' ++ b')) as G.
    { intros a a' b b' K. revert b b'. induction K; intros; simpl; auto. rewrite <- !app_assoc. simpl. apply IHK. constructor; auto. }
    specialize (G _ _ [] [] H (Forall2_nil _)). rewrite !app_nil_r in G. exact G.
  - assert (A : forall v, Forall (fun c => c < 128) v -> text_eqb x v = text_eqb y v).
    { intros v V. pose proof (enc_ascii v x y V H) as K.
      destruct (text_eqb x v) eqn:E1, (text_eqb y v) eqn:E2; auto.
      - apply teqb_iff in E1. apply teqb_neq in E2. tauto.
      - apply teqb_iff in E2. apply teqb_neq in E1. tauto. }
    rewrite (A []), (A dot), (A dotdot) by (repeat constructor; lia).
    destruct (text_eqb y [] || text_eqb y dot); auto.
    destruct (text_eqb y dotdot); auto.
    apply IHForall2. destruct H1; simpl; auto.
Qed.
Lemma enc_abs : forall l l', Forall2 enc l l' -> enc (abs_text l) (abs_text l').
Proof.
  intros. destruct H; [apply enc_cons_low; [lia|reflexivity]|].
  unfold abs_text. assert (G : forall l l', Forall2 enc l l' -> enc (flat_map (fun w => 47 :: w) l) (flat_map (fun w => 47 :: w) l')).
  { induction 1; simpl; [reflexivity|]. apply enc_cons_low; [lia|]. apply enc_app; auto. }
  apply (G (x :: l) (y :: l')). constructor; auto.
Qed.
Lemma enc_abspath : forall cwd p b, fsencode (full cwd p) = Ok b ->
  fsencode (abspath cwd p) = Ok (abs_text (norm (split_slash b))).
Proof.
  intros. unfold abspath. apply enc_abs. apply enc_norm_from; [|constructor]. apply enc_split. exact H.
Qed.

(** URIs *)
Lemma safe_not : forall b, safe b = true -> b <> 35 /\ b <> 63 /\ b <> 37.
Proof. intros b H. repeat split; intros ->; vm_compute in H; discriminate. Qed.
Lemma hex_unhex : forall d, d < 16 -> unhex (hex d) = Some d.
Proof.
  intros. unfold hex. destruct (N.ltb_spec d 10); unfold unhex.
  - replace ((48 <=? 48 + d) && (48 + d <=? 57)) with true.
    + f_equal. lia.
    + symmetry. apply andb_true_iff. rewrite !N.leb_le. lia.
  - replace ((48 <=? 55 + d) && (55 + d <=? 57)) with false.
    + replace ((65 <=? 55 + d) && (55 + d <=? 70)) with true.
      * f_equal. lia.
      * symmetry. apply andb_true_iff. rewrite !N.leb_le. lia.
    + symmetry. apply andb_false_iff. rewrite !N.leb_gt. lia.
Qed.
Lemma octet_hex : forall b, b < 256 -> octet (hex (b / 16)) (hex (b mod 16)) = Some b.
Proof.
  intros. unfold octet. rewrite !hex_unhex.
  - f_equal. symmetry. apply N.div_mod. lia.
  - apply N.mod_lt. lia.
  - apply N.div_lt_upper_bound; lia.
Qed.
Lemma uri_path_quote : forall b q, Forall (fun x => 0 < x < 256) b ->
  uri_path false (quote_bytes b ++ q) = (b ++ fst (uri_path false q), snd (uri_path false q)).
Proof.
  induction b; intros; simpl; [destruct (uri_path false q); auto|].
  inversion H; subst. specialize (IHb q H3). unfold quote_byte. destruct (safe a) eqn:S1.
  - simpl app. destruct (safe_not _ S1) as (A & B & C). apply N.eqb_neq in A, B, C.
    simpl. rewrite A, B, C. unfold keep. rewrite IHb. reflexivity.
  - simpl. rewrite octet_hex by lia. destruct a as [|a]; [lia|].
    fold (quote_bytes b). rewrite IHb. reflexivity.
Qed.
Lemma collapse_from_app : forall x s af, ~ In 47 x -> x <> [] ->
  collapse_from af (x ++ s) = x ++ collapse_from false s.
Proof.
  induction x; intros; [contradiction|]. simpl.
  destruct (N.eqb_spec a 47); [subst; destruct H; left; auto|].
  destruct x; auto. f_equal. apply IHx; [intro; apply H; right; auto|discriminate].
Qed.
Lemma hex_not47 : forall d, d < 16 -> hex d <> 47.
Proof. intros. unfold hex. destruct (d <? 10) eqn:E; lia. Qed.
Lemma collapse_quote : forall b af, Forall (fun x => 0 < x < 256) b ->
  collapse_from af (quote_bytes b) = quote_bytes (collapse_from af b).
Proof.
  induction b; intros; auto. inversion H; subst.
  change (quote_bytes (a :: b)) with (quote_byte a ++ quote_bytes b).
  destruct (N.eqb_spec a 47).
  - subst. simpl. destruct af; simpl; rewrite IHb; auto.
  - assert (Q : ~ In 47 (quote_byte a) /\ quote_byte a <> []).
    { unfold quote_byte. destruct (safe a).
      - split; [intros [|[]]; auto|discriminate].
      - split; [|discriminate]. intros [I|[I|[I|[]]]]; [discriminate| |]; revert I; apply hex_not47.
        + apply N.div_lt_upper_bound; lia.
        + apply N.mod_lt. lia. }
    destruct Q. rewrite collapse_from_app by auto. rewrite IHb by auto.
    simpl collapse_from. apply N.eqb_neq in n. rewrite n. reflexivity.
Qed.
Lemma collapse_sub : forall (P : N -> Prop) s af, Forall P s -> Forall P (collapse_from af s).
Proof.
  induction s; intros; simpl; auto. inversion H; subst.
  destruct (a =? 47); [destruct af; auto|]; constructor; auto.
Qed.
Lemma collapse_head : forall s c, is_abs s = true -> starts [47; 47] (collapse s ++ c) = None \/ exists r, c = 47 :: r.
Proof.
  intros. destruct s as [|x s]; [discriminate|]. simpl in H. apply N.eqb_eq in H. subst. unfold collapse. simpl.
  assert (G : forall s, match collapse_from true s with [] => True | y :: _ => y <> 47 end).
  { induction s0; simpl; auto. destruct (N.eqb_spec a 47); auto. }
  specialize (G s).
  assert (K : forall n r, n <> 47 -> starts [47; 47] (47 :: n :: r) = None).
  { intros n r e. unfold starts. change (47 =? 47) with true. cbv iota. apply N.neq_sym, N.eqb_neq in e. rewrite e. reflexivity. }
  destruct (collapse_from true s) as [|y q]; cbn [app].
  - destruct c as [|n c]; [left; reflexivity|]. destruct (N.eqb_spec 47 n) as [e|e].
    + right. exists c. congruence.
    + left. apply K. congruence.
  - left. apply K. exact G.
Qed.

Definition default_mode (m : option mode) : mode := match m with Some m => m | None => RWC end.

Lemma starts_app : forall p s, starts p (p ++ s) = Some s.
Proof. induction p; intros; simpl; auto. rewrite N.eqb_refl. auto. Qed.

Lemma bytes_of_path : forall t b, utf8 t = Ok b -> (forall c, In c t -> c < 1114112) -> ~ In 0 t ->
  Forall (fun x => 0 < x < 256) b.
Proof.
  induction t; simpl; intros; [injection H as <-; constructor|].
  destruct (surrogate a); [discriminate|]. destruct (utf8 t) eqn:E; [|discriminate]. simpl in H. injection H as <-.
  apply Forall_app. split.
  - apply Forall_forall. intros x I. split; [|eapply utf8_char_byte; eauto].
    destruct (N.lt_ge_cases a 128) as [L|L].
    + rewrite utf8_char_low in I by auto. destruct I as [<-|[]]. assert (a <> 0) by (intros ->; apply H1; auto). lia.
    + pose proof (utf8_char_high _ _ L I). lia.
  - apply IHt; auto.
Qed.

Lemma uri_round : forall path b m, is_abs path = true -> utf8 path = Ok b ->
  Forall (fun x => 0 < x < 256) b ->
  (do u <- make_uri path m; sqlite_uri u) = Ok (collapse b, default_mode m).
Proof.
  intros path b m A U F. unfold make_uri, quote. rewrite U. cbv beta iota zeta delta [bind].
  assert (B : is_abs b = true).
  { destruct path as [|c path]; [discriminate|]. simpl in A. apply N.eqb_eq in A. subst.
    simpl in U. destruct (utf8 path); [|discriminate]. simpl in U. injection U as <-. reflexivity. }
  unfold collapse. rewrite collapse_quote by auto. fold (collapse b).
  assert (FC : Forall (fun x => 0 < x < 256) (collapse b)) by (apply collapse_sub; auto).
  assert (H0 : forall c, (c = [] \/ exists r, c = 63 :: r) -> starts [47; 47] (quote_bytes (collapse b) ++ c) = None).
  { intros c C. unfold collapse. rewrite <- collapse_quote by auto. fold (collapse (quote_bytes b)).
    destruct (collapse_head (quote_bytes b) c) as [K|[r K]]; auto.
    - destruct b as [|x b]; [discriminate|]. simpl in B. apply N.eqb_eq in B. subst. reflexivity.
    - destruct C as [C|[r' C]]; congruence. }
  unfold sqlite_uri. destruct m as [m|].
  - rewrite starts_app. rewrite (H0 (txt "?mode=" ++ mode_text m)) by (right; eexists; reflexivity).
    rewrite uri_path_quote by auto. cbn [fst snd].
    assert (E : uri_path false (txt "?mode=" ++ mode_text m) = ([], txt "mode=" ++ mode_text m)) by reflexivity.
    rewrite E. cbn [fst snd]. rewrite app_nil_r. destruct m; reflexivity.
  - rewrite starts_app. rewrite <- (app_nil_r (quote_bytes (collapse b))). rewrite H0 by auto.
    rewrite uri_path_quote by auto. simpl. rewrite app_nil_r. reflexivity.
Qed.

Lemma norm_ne : forall l acc, norm_from acc l = norm_from acc (filter (fun w => negb (text_eqb w [])) l).
Proof.
  induction l; intros; simpl; auto. destruct (text_eqb a []) eqn:E; simpl; auto.
  rewrite E. simpl. destruct (text_eqb a dot); auto. destruct (text_eqb a dotdot); auto.
Qed.
Definition ne_parts (s : list N) : list (list N) := filter (fun w => negb (text_eqb w [])) (split_slash s).
Lemma collapse_parts : forall b,
  (exists w r1 r2, split_slash (collapse_from false b) = w :: r1 /\ split_slash b = w :: r2 /\
     filter (fun w => negb (text_eqb w [])) r1 = filter (fun w => negb (text_eqb w [])) r2) /\
  ne_parts (collapse_from true b) = ne_parts b.
Proof.
  induction b; [split; [exists [], [], []; auto|reflexivity]|].
  destruct IHb as [(w & r1 & r2 & A & B & C) T]. unfold ne_parts in *. simpl. destruct (N.eqb_spec a 47).
  - subst. split.
    + exists [], (split_slash (collapse_from true b)), (split_slash b). simpl. auto.
    + simpl. exact T.
  - apply N.eqb_neq in n. simpl. rewrite n. rewrite A, B. split.
    + exists (a :: w), r1, r2. auto.
    + simpl. rewrite C. reflexivity.
Qed.
Lemma collapse_norm : forall b, norm (split_slash (collapse b)) = norm (split_slash b).
Proof.
  intros. unfold norm, collapse. destruct (collapse_parts b) as [(w & r1 & r2 & A & B & C) _].
  rewrite A, B. rewrite (norm_ne (w :: r1)), (norm_ne (w :: r2)). simpl. rewrite C. reflexivity.
Qed.
Lemma collapse_ne_parts : forall b, ne_parts (collapse b) = ne_parts b.
Proof.
  intros. unfold ne_parts, collapse. destruct (collapse_parts b) as [(w & r1 & r2 & A & B & C) _].
  rewrite A, B. simpl. rewrite C. reflexivity.
Qed.
