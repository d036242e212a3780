(** Writing and reading values: everything written follows the grammar, and sorting makes the
    text canonical. *)
From Coq Require Import Nnat Permutation Sorted.
From Verif Require Import Prelude Selectors_Model Json_Model Json_Spec FileOpen_Proofs Json_Proofs.
Local Open Scope N_scope.

Lemma json_ind2 : forall P : json -> Prop,
  P JNull -> (forall b, P (JBool b)) -> (forall z, P (JInt z)) -> (forall t, P (JReal t)) ->
  P JNaN -> (forall b, P (JInf b)) -> (forall s, P (JStr s)) ->
  (forall l, Forall P l -> P (JArr l)) ->
  (forall kv, Forall (fun p => P (snd p)) kv -> P (JObj kv)) ->
  forall v, P v.
Proof.
  intros P H1 H2 H3 H4 H5 H6 H7 HA HO.
  fix IH 1. intros [ |b|z|t| |b|s|l|kv];
    [exact H1|apply H2|apply H3|apply H4|exact H5|apply H6|apply H7|apply HA|apply HO].
  - induction l as [|x l IHl]; constructor; [apply IH|exact IHl].
  - induction kv as [|p l IHl]; constructor; [apply IH|exact IHl].
Qed.

Lemma all_forall : forall {A} (P : A -> Prop) l, all P l <-> Forall P l.
Proof.
  intros A P l. induction l as [|x l IH]; cbn; split; intro H; auto.
  - destruct H as [H1 H2]. constructor; [exact H1|apply IH; exact H2].
  - inversion H; subst. split; [assumption|apply IH; assumption].
Qed.

(** * Strings *)

Lemma hexd_digit : forall v, v < 16 -> HexDigit (hexd v) v.
Proof. intros v H. unfold HexDigit, hexd. destruct (N.ltb_spec v 10); lia. Qed.

Definition h4 (n : N) : text := [hexd (n / 4096); hexd (n / 256 mod 16); hexd (n / 16 mod 16); hexd (n mod 16)].

Lemma u_esc_h4 : forall n, u_esc n = 92 :: 117 :: h4 n.
Proof. reflexivity. Qed.

Lemma h4_hex : forall n, n < 65536 -> Hex4 (h4 n) n.
Proof.
  intros n H. unfold h4. exists (hexd (n / 4096)), (hexd (n / 256 mod 16)), (hexd (n / 16 mod 16)), (hexd (n mod 16)).
  exists (n / 4096), (n / 256 mod 16), (n / 16 mod 16), (n mod 16).
  assert (A : n / 4096 < 16) by (apply N.div_lt_upper_bound; lia).
  split; [reflexivity|]. split; [apply hexd_digit; exact A|].
  split; [apply hexd_digit, N.mod_lt; lia|]. split; [apply hexd_digit, N.mod_lt; lia|].
  split; [apply hexd_digit, N.mod_lt; lia|].
  pose proof (N.div_mod' n 16) as E1. pose proof (N.div_mod' (n / 16) 16) as E2.
  pose proof (N.div_mod' (n / 256) 16) as E3.
  rewrite N.div_div in E2 by lia. rewrite N.div_div in E3 by lia.
  change (16 * 16) with 256 in E2. change (256 * 16) with 4096 in E3. lia.
Qed.

Lemma pair_parts : forall c, 65536 <= c -> c < 1114112 ->
  High (55296 + (c - 65536) / 1024) /\ Low (56320 + (c - 65536) mod 1024)
  /\ c = 65536 + (55296 + (c - 65536) / 1024 - 55296) * 1024 + (56320 + (c - 65536) mod 1024 - 56320).
Proof.
  intros c L U. pose proof (N.div_mod' (c - 65536) 1024) as E.
  assert (A : (c - 65536) / 1024 < 1024) by (apply N.div_lt_upper_bound; lia).
  assert (B : (c - 65536) mod 1024 < 1024) by (apply N.mod_lt; lia).
  unfold High, Low. generalize dependent ((c - 65536) / 1024). generalize dependent ((c - 65536) mod 1024).
  intros m M q E Q. repeat split; lia.
Qed.

Lemma joined_tail : forall c s, joined (c :: s) -> joined s.
Proof.
  intros c s [F N]. split; [inversion F; assumption|].
  intros a u w b ->. apply (N (c :: a) u w b). reflexivity.
Qed.

Lemma four : forall h h' e e' : text, length h = 4%nat -> length h' = 4%nat ->
  92 :: 117 :: h ++ e = 92 :: 117 :: h' ++ e' -> h = h'.
Proof.
  intros h h' e e' L L' E. injection E as E.
  destruct h as [|a [|b [|c [|d [|x h]]]]]; try discriminate.
  destruct h' as [|a' [|b' [|c' [|d' [|x' h']]]]]; try discriminate.
  cbn in E. injection E as -> -> -> -> _. reflexivity.
Qed.

Lemma h4_length : forall n, length (h4 n) = 4%nat.
Proof. reflexivity. Qed.

Lemma esc_char_cases : forall c, c < 1114112 ->
  (exists l x, esc_char c = [92; l] /\ l <> 117 /\ In (l, x) escapes /\ x = c)
  \/ (32 <= c /\ c <> 34 /\ c <> 92 /\ esc_char c = [c])
  \/ (c < 65536 /\ esc_char c = 92 :: 117 :: h4 c)
  \/ (65536 <= c /\ esc_char c = 92 :: 117 :: h4 (55296 + (c - 65536) / 1024)
        ++ 92 :: 117 :: h4 (56320 + (c - 65536) mod 1024)).
Proof.
  intros c L. unfold esc_char.
  repeat (gcase; [left; eexists _, _; split; [reflexivity|]; split; [discriminate|]; split;
    [|symmetry; eassumption]; cbn [escapes In]; auto 9|]).
  right. gcase; [gcase|]; cbn [andb]; [left; auto| |]; right; (gcase; [left; auto|]).
  - right. auto.
  - lia.
Qed.

(** A text that starts with an escape of four digits comes from a character with these digits. *)
Lemma esc_uni_start : forall s h w e', Forall (fun c => c < 1114112) s ->
  flat_map esc_char s = 92 :: 117 :: h ++ e' -> Hex4 h w -> Low w ->
  exists s', s = w :: s'.
Proof.
  intros [|c s] h w e' F E H Lo; [discriminate|]. inversion F as [|x y Hc Hs]; subst.
  assert (Lh : length h = 4%nat) by (destruct (hex4_len _ _ H) as (a & b & c1 & d & ->); reflexivity).
  cbn [flat_map] in E.
  destruct (esc_char_cases c Hc) as [(l & x & Ec & Nl & _)|[(L & N1 & N2 & Ec)|[(L & Ec)|(L & Ec)]]];
    rewrite Ec in E.
  - cbn [app] in E. injection E as E _. congruence.
  - cbn [app] in E. injection E as E _. congruence.
  - apply four in E; [|apply h4_length|exact Lh]. subst h. exists s. f_equal.
    apply (hex4_fun (h4 c)); [apply h4_hex; exact L|exact H].
  - exfalso. destruct (pair_parts c L Hc) as (Hi & _).
    change ((92 :: 117 :: h4 (55296 + (c - 65536) / 1024) ++ 92 :: 117 :: h4 (56320 + (c - 65536) mod 1024)) ++ flat_map esc_char s)
      with (92 :: 117 :: (h4 (55296 + (c - 65536) / 1024) ++ 92 :: 117 :: h4 (56320 + (c - 65536) mod 1024)) ++ flat_map esc_char s) in E.
    rewrite <- app_assoc in E. apply four in E; [|apply h4_length|exact Lh]. subst h.
    revert Hi H. generalize (55296 + (c - 65536) / 1024). intros u Hi H.
    assert (w = u) by (apply (hex4_fun (h4 u)); [exact H|apply h4_hex; unfold High in Hi; lia]).
    unfold High, Low in *. lia.
Qed.

Lemma esc_chars : forall s, joined s -> Chars (flat_map esc_char s) s.
Proof.
  induction s as [|c s IH]; intro J; [constructor|].
  specialize (IH (joined_tail _ _ J)). destruct J as [F N]. inversion F as [|x y Hc Hs]; subst.
  cbn [flat_map].
  destruct (esc_char_cases c Hc) as [(l & x & Ec & Nl & Ie & ->)|[(L & N1 & N2 & Ec)|[(L & Ec)|(L & Ec)]]]; rewrite Ec.
  - apply Ch_esc; assumption.
  - apply Ch_raw; assumption.
  - apply (Ch_uni (h4 c)); [apply h4_hex; exact L| |exact IH].
    intros (Hi & h' & w & e' & X & Lo & E). destruct (esc_uni_start s h' w e' Hs E X Lo) as (s' & ->).
    apply (N [] c w s'); [reflexivity|auto].
  - destruct (pair_parts c L Hc) as (Hi & Lo & E).
    revert Hi Lo E. generalize (55296 + (c - 65536) / 1024), (56320 + (c - 65536) mod 1024). intros u w Hi Lo ->.
    change ((92 :: 117 :: h4 u ++ 92 :: 117 :: h4 w) ++ flat_map esc_char s)
      with (92 :: 117 :: (h4 u ++ 92 :: 117 :: h4 w) ++ flat_map esc_char s).
    rewrite <- app_assoc. apply (Ch_pair (h4 u) u (h4 w) w); auto; apply h4_hex; unfold High, Low in *; lia.
Qed.

(** * Integers *)

Lemma dval_app : forall a x, dval (a ++ [x]) = dval a * 10 + (x - 48).
Proof.
  induction a as [|c a IH]; intros x; cbn [app dval length]; [change (10 ^ N.of_nat 0) with 1; lia|].
  rewrite IH, app_length. cbn [length]. rewrite Nat.add_1_r, Nat2N.inj_succ, N.pow_succ_r'. lia.
Qed.

Lemma dec_ok : forall f n, n < 10 ^ N.of_nat f -> (0 < f)%nat ->
  dval (dec f n) = n /\ ((n = 0 /\ dec f n = [48]) \/ exists c d, dec f n = c :: d /\ 49 <= c <= 57 /\ Forall Digit d).
Proof.
  induction f as [|f IH]; intros n L P; [lia|]. cbn [dec]. destruct (N.ltb_spec n 10) as [A|A].
  - split; [cbn [dval length]; change (10 ^ N.of_nat 0) with 1; lia|]. destruct (N.eq_dec n 0) as [->|Z]; [left; auto|]. right. exists (48 + n), [].
    repeat split; try lia. constructor.
  - rewrite Nat2N.inj_succ, N.pow_succ_r' in L.
    assert (L' : n / 10 < 10 ^ N.of_nat f) by (apply N.div_lt_upper_bound; lia).
    assert (Q : 1 <= n / 10) by (apply N.div_le_lower_bound; lia).
    destruct f as [|f]; [cbn in L'; lia|].
    destruct (IH (n / 10) L') as (E & R); [lia|].
    rewrite dval_app, E. pose proof (N.div_mod' n 10) as D.
    assert (M : n mod 10 < 10) by (apply N.mod_lt; lia).
    split; [rewrite (N.add_comm 48), N.add_sub; rewrite D at 3; apply N.add_cancel_r, N.mul_comm|]. right. destruct R as [[Z _]|(c & d & -> & C & F)]; [lia|].
    exists c, (d ++ [48 + n mod 10]). split; [reflexivity|]. split; [exact C|].
    apply Forall_app. split; [exact F|]. constructor; [|constructor].
    unfold Digit. revert M. generalize (n mod 10). intros m M. lia.
Qed.

Lemma dec_text_ok : forall n, IntPart (dec_text n) /\ dval (dec_text n) = n.
Proof.
  intros n. unfold dec_text. assert (L : n < 10 ^ N.of_nat (S (N.to_nat (N.log2 n)))).
  { rewrite Nat2N.inj_succ, N2Nat.id. destruct (N.eq_dec n 0) as [->|Z].
    - cbn. lia.
    - apply N.lt_le_trans with (2 ^ N.succ (N.log2 n)).
      + apply N.log2_spec. lia.
      + apply N.pow_le_mono_l. lia. }
  destruct (dec_ok _ _ L) as (E & R); [lia|]. split; [|exact E].
  destruct R as [[_ ->]|R]; [left; reflexivity|right; exact R].
Qed.

Section G.
Context (consts : bool).

Lemma int_value : forall z, Value consts (int_text z) (JInt z).
Proof.
  intros z. unfold int_text. destruct z as [|p|p].
  - destruct (dec_text_ok (Z.to_N 0)) as [I E]. rewrite <- (Z2N.id 0) at 2 by lia. rewrite <- E at 2. apply V_int; exact I.
  - destruct (dec_text_ok (Z.to_N (Zpos p))) as [I E]. rewrite <- (Z2N.id (Zpos p)) at 2 by lia. rewrite <- E at 2. apply V_int; exact I.
  - destruct (dec_text_ok (Npos p)) as [I E].
    replace (Zneg p) with (- Z.of_N (dval (dec_text (Npos p))))%Z by (rewrite E; reflexivity). apply V_neg; exact I.
Qed.

(** * All values *)

Lemma elems_ws : forall w t l, Ws w -> Elems consts t l -> Elems consts (w ++ t) l.
Proof.
  intros w t l W E. destruct E; rewrite (app_assoc w); [apply E_one|apply E_more]; auto; apply Forall_app; auto.
Qed.
Lemma members_ws : forall w t l, Ws w -> Members consts t l -> Members consts (w ++ t) l.
Proof.
  intros w t l W E. destruct E; rewrite (app_assoc w); [apply M_one|apply M_more]; auto; apply Forall_app; auto.
Qed.

Lemma space_ws : Ws [32].
Proof. constructor; [cbn; auto|constructor]. Qed.

Definition fin_or (v : json) : Prop := consts = true \/ finite v.

Lemma dumps_value : forall v, pyval v -> fin_or v -> Value consts (dumps v) v.
Proof.
  induction v as [ |b|z|t| |b|s|l IH|kv IH] using json_ind2; intros W Fi; cbn [dumps].
  - constructor.
  - destruct b; constructor.
  - apply int_value.
  - apply V_real. exact W.
  - destruct Fi as [C|[]]. apply V_nan. exact C.
  - destruct Fi as [C|[]]. destruct b; constructor; exact C.
  - unfold esc. apply V_str, esc_chars. exact W.
  - cbn [pyval] in W. apply all_forall in W.
    destruct l as [|x l]; [apply (V_arr0 consts []); constructor|]. apply V_arr.
    assert (Fi' : Forall fin_or (x :: l)).
    { apply Forall_forall. intros y I. destruct Fi as [C|C]; [left; exact C|right].
      cbn [finite] in C. apply all_forall in C. rewrite Forall_forall in C. apply C, I. }
    revert x IH W Fi Fi'. induction l as [|y l IHl]; intros x IH W Fi Fi'; inversion IH; subst; inversion W; subst; inversion Fi'; subst.
    + cbn. rewrite <- (app_nil_r (dumps x)). apply (E_one consts [] (dumps x) [] x); auto; constructor.
    + change (join (txt ", ") (map dumps (x :: y :: l))) with (dumps x ++ txt ", " ++ join (txt ", ") (map dumps (y :: l))).
      apply (E_more consts [] (dumps x) [] x (32 :: join (txt ", ") (map dumps (y :: l)))); auto; try constructor.
      apply (elems_ws [32]); [apply space_ws|]. apply IHl; auto.
      destruct Fi as [C|C]; [left; exact C|right; apply C].
  - cbn [pyval] in W. destruct W as [_ W]. apply all_forall in W.
    destruct kv as [|x l]; [apply (V_obj0 consts []); constructor|]. apply V_obj.
    assert (Fi' : Forall (fun p => fin_or (snd p)) (x :: l)).
    { apply Forall_forall. intros y I. destruct Fi as [C|C]; [left; exact C|right].
      cbn [finite] in C. apply all_forall in C. rewrite Forall_forall in C. apply C, I. }
    revert x IH W Fi Fi'. induction l as [|y l IHl]; intros x IH W Fi Fi'; inversion IH; subst; inversion W as [|? ? [J Px] Wl]; subst; inversion Fi'; subst.
    + destruct x as [k v]. cbn [fst snd] in *. cbn [map join fst snd]. unfold esc.
      replace ((34 :: flat_map esc_char k ++ [34]) ++ txt ": " ++ dumps v)
        with ([] ++ (34 :: flat_map esc_char k ++ [34]) ++ [] ++ 58 :: [32] ++ dumps v ++ []) by (rewrite app_nil_r; reflexivity).
      apply M_one; auto; try constructor; [apply esc_chars; exact J| cbn; auto|constructor].
    + destruct x as [k v]. cbn [fst snd] in *.
      change (join (txt ", ") (map (fun p => esc (fst p) ++ txt ": " ++ dumps (snd p)) ((k, v) :: y :: l)))
        with ((esc k ++ txt ": " ++ dumps v) ++ txt ", " ++
              join (txt ", ") (map (fun p => esc (fst p) ++ txt ": " ++ dumps (snd p)) (y :: l))).
      set (T := join (txt ", ") (map (fun p => esc (fst p) ++ txt ": " ++ dumps (snd p)) (y :: l))) in *.
      unfold esc.
      replace (((34 :: flat_map esc_char k ++ [34]) ++ txt ": " ++ dumps v) ++ txt ", " ++ T)
        with ([] ++ (34 :: flat_map esc_char k ++ [34]) ++ [] ++ 58 :: [32] ++ dumps v ++ [] ++ 44 :: (32 :: T)).
      2:{ change (txt ": ") with [58; 32]. change (txt ", ") with [44; 32]. cbn [app].
          repeat (rewrite <- app_assoc || (progress cbn [app])). reflexivity. }
      apply M_more; auto; try constructor; [apply esc_chars; exact J| cbn; auto|constructor|].
      apply (members_ws [32]); [apply space_ws|]. apply IHl; auto.
      destruct Fi as [C|C]; [left; exact C|right; apply C].
Qed.

Lemma scan_dumps : forall v, pyval v -> fin_or v -> scan_doc consts (dumps v) = Some v.
Proof.
  intros v W Fi. apply scan_doc_iff. exists [], (dumps v), []. rewrite app_nil_r.
  repeat split; [constructor|apply dumps_value; assumption|constructor].
Qed.
End G.

(** * Dicts *)

Lemma dict_get_in : forall {A} k (d : list (text * A)) v, dict_get k d = Some v -> In (k, v) d.
Proof.
  intros A k d v. induction d as [|[k' v'] d IH]; cbn; [discriminate|].
  destruct (text_eqb k' k) eqn:E; [|auto]. apply teqb_iff in E. subst. intros [= ->]. auto.
Qed.

Lemma dict_get_none : forall {A} k (d : list (text * A)), dict_get k d = None <-> ~ In k (map fst d).
Proof.
  intros A k d. induction d as [|[k' v'] d IH]; cbn; [tauto|].
  destruct (text_eqb k' k) eqn:E.
  - apply teqb_iff in E. subst. split; [discriminate|tauto].
  - apply teqb_neq in E. rewrite IH. tauto.
Qed.

Lemma dict_get_nodup : forall {A} k (d : list (text * A)) v, NoDup (map fst d) -> In (k, v) d -> dict_get k d = Some v.
Proof.
  intros A k d v. induction d as [|[k' v'] d IH]; cbn; intros N I; [destruct I|]. inversion N; subst.
  destruct I as [[= -> ->]|I]; [rewrite teqb_refl; reflexivity|].
  destruct (text_eqb k' k) eqn:E; [|auto]. apply teqb_iff in E. subst. exfalso. apply H1.
  change k with (fst (k, v)). apply in_map. exact I.
Qed.

Lemma dict_set_fresh : forall {A} k (v : A) d, ~ In k (map fst d) -> dict_set k v d = d ++ [(k, v)].
Proof.
  intros A k v d. induction d as [|[k' v'] d IH]; cbn; intro N; [reflexivity|].
  destruct (text_eqb k' k) eqn:E; [apply teqb_iff in E; subst; tauto|]. rewrite IH by tauto. reflexivity.
Qed.

Lemma dict_of_from : forall {A} (l d : list (text * A)), NoDup (map fst (d ++ l)) ->
  fold_left (fun d p => dict_set (fst p) (snd p) d) l d = d ++ l.
Proof.
  intros A l. induction l as [|[k v] l IH]; intros d N; cbn [fold_left fst snd]; [rewrite app_nil_r; reflexivity|].
  rewrite dict_set_fresh.
  - rewrite IH; [rewrite <- app_assoc; reflexivity|]. rewrite <- app_assoc. exact N.
  - rewrite map_app in N. cbn in N. apply NoDup_remove_2 in N. rewrite in_app_iff in N. tauto.
Qed.

Lemma dict_of_id : forall {A} (l : list (text * A)), NoDup (map fst l) -> dict_of l = l.
Proof. intros A l N. unfold dict_of. rewrite dict_of_from; auto. Qed.

Lemma dict_get_set : forall {A} k k' (v : A) d,
  dict_get k (dict_set k' v d) = if text_eqb k' k then Some v else dict_get k d.
Proof.
  intros A k k' v d. induction d as [|[k0 v0] d IH]; cbn; [reflexivity|].
  destruct (text_eqb k0 k') eqn:E; cbn.
  - apply teqb_iff in E. subst k0. destruct (text_eqb k' k); reflexivity.
  - destruct (text_eqb k0 k) eqn:E2; [|exact IH]. apply teqb_iff in E2. subst k0.
    destruct (text_eqb k' k) eqn:E3; [|reflexivity]. apply teqb_iff in E3. subst k'. rewrite teqb_refl in E. discriminate.
Qed.

Lemma dict_set_keys : forall {A} k (v : A) d x, In x (map fst (dict_set k v d)) <-> x = k \/ In x (map fst d).
Proof.
  intros A k v d x. induction d as [|[k0 v0] d IH]; cbn; [intuition|].
  destruct (text_eqb k0 k) eqn:E; cbn; [apply teqb_iff in E; subst; intuition|]. rewrite IH. tauto.
Qed.

Lemma dict_set_nodup : forall {A} k (v : A) d, NoDup (map fst d) -> NoDup (map fst (dict_set k v d)).
Proof.
  intros A k v d. induction d as [|[k0 v0] d IH]; cbn; intro N; [constructor; [tauto|constructor]|].
  inversion N; subst. destruct (text_eqb k0 k) eqn:E; cbn; [exact N|]. apply teqb_neq in E.
  constructor; [|auto]. rewrite dict_set_keys. intros [X|X]; auto.
Qed.

Lemma dict_of_nodup : forall {A} (l : list (text * A)), NoDup (map fst (dict_of l)).
Proof.
  intros A l. unfold dict_of.
  assert (G : forall d, NoDup (map fst d) -> NoDup (map fst (fold_left (fun d p => dict_set (fst p) (snd p) d) l d))).
  { induction l as [|[k v] l IH]; intros d N; cbn; [exact N|]. apply IH, dict_set_nodup, N. }
  apply G. constructor.
Qed.

Lemma dict_of_get : forall {A} (l d : list (text * A)) k,
  dict_get k (fold_left (fun d p => dict_set (fst p) (snd p) d) l d) =
  match dict_get k (rev l) with Some v => Some v | None => dict_get k d end.
Proof.
  intros A l. induction l as [|[k0 v0] l IH] using rev_ind; intros d k; cbn; [reflexivity|].
  rewrite fold_left_app, rev_app_distr. cbn. rewrite dict_get_set. destruct (text_eqb k0 k); [reflexivity|apply IH].
Qed.

Lemma last_value_get : forall k kv v, last_value k kv v <-> dict_get k (rev kv) = Some v.
Proof.
  intros k kv v. induction kv as [|[k0 v0] kv IH] using rev_ind.
  - cbn. split; [intros ([|? ?] & b & E & _); discriminate|discriminate].
  - rewrite rev_app_distr. cbn. destruct (text_eqb k0 k) eqn:E.
    + apply teqb_iff in E. subst k0. split.
      * intros (a & b & Eq & N). destruct b as [|x b] using rev_ind.
        -- change (a ++ [(k, v)]) with (a ++ [(k, v)]) in Eq. apply app_inj_tail in Eq. destruct Eq as [_ [= ->]]. reflexivity.
        -- rewrite app_comm_cons, app_assoc in Eq. apply app_inj_tail in Eq. destruct Eq as [_ <-].
           exfalso. apply N. rewrite map_app, in_app_iff. right. left. reflexivity.
      * intros [= ->]. exists kv, []. split; [reflexivity|cbn; tauto].
    + apply teqb_neq in E. rewrite <- IH. split.
      * intros (a & b & Eq & N). destruct b as [|x b] using rev_ind.
        -- apply app_inj_tail in Eq. destruct Eq as [_ Eq]. congruence.
        -- rewrite app_comm_cons, app_assoc in Eq. apply app_inj_tail in Eq. destruct Eq as [-> _].
           exists a, b. split; [reflexivity|]. intro I. apply N. rewrite map_app, in_app_iff. auto.
      * intros (a & b & -> & N). exists a, (b ++ [(k0, v0)]). split; [rewrite <- app_assoc; reflexivity|].
        rewrite map_app, in_app_iff. cbn. intuition.
Qed.

Lemma py_value_id : forall v, pyval v -> py_value v = v.
Proof.
  induction v as [ |b|z|t| |b|s|l IH|kv IH] using json_ind2; intros W; cbn [py_value]; try reflexivity.
  - f_equal. cbn in W. apply all_forall in W. induction l as [|x l IHl]; [reflexivity|].
    inversion IH; subst. inversion W; subst. cbn. f_equal; auto.
  - f_equal. cbn in W. destruct W as [N W]. apply all_forall in W.
    assert (E : map (fun p => (fst p, py_value (snd p))) kv = kv).
    { clear N. induction kv as [|[k x] l IHl]; [reflexivity|].
      inversion IH; subst. inversion W as [|? ? [_ P] W']; subst. cbn in *. f_equal; [rewrite H1 by exact P; reflexivity|auto]. }
    rewrite E. apply dict_of_id. exact N.
Qed.

Theorem loads_dumps : forall v, pyval v -> loads (dumps v) = Ok v.
Proof.
  intros v W. unfold loads. rewrite (scan_dumps true v W) by (left; reflexivity). rewrite py_value_id by exact W. reflexivity.
Qed.

(** * Order of texts *)

Lemma ltb_irrefl : forall a, text_ltb a a = false.
Proof. induction a as [|x a IH]; cbn; [reflexivity|]. rewrite N.ltb_irrefl, N.eqb_refl, IH. reflexivity. Qed.

Lemma ltb_trans : forall a b c, text_ltb a b = true -> text_ltb b c = true -> text_ltb a c = true.
Proof.
  induction a as [|x a IH]; intros [|y b] [|z c] H1 H2; cbn in *; try discriminate; auto.
  apply orb_prop in H1, H2.
  destruct H1 as [H1|H1]; [apply N.ltb_lt in H1|apply andb_prop in H1; destruct H1 as [E1 H1]; apply N.eqb_eq in E1; subst];
  (destruct H2 as [H2|H2]; [apply N.ltb_lt in H2|apply andb_prop in H2; destruct H2 as [E2 H2]; apply N.eqb_eq in E2; subst]).
  - assert (L : x < z) by lia. apply N.ltb_lt in L. rewrite L. reflexivity.
  - apply N.ltb_lt in H1. rewrite H1. reflexivity.
  - apply N.ltb_lt in H2. rewrite H2. reflexivity.
  - rewrite N.eqb_refl, (IH _ _ H1 H2). rewrite orb_true_r. reflexivity.
Qed.

Lemma ltb_total : forall a b, text_ltb a b = false -> a <> b -> text_ltb b a = true.
Proof.
  induction a as [|x a IH]; intros [|y b] H N; cbn in *; auto; try congruence.
  apply orb_false_iff in H. destruct H as [H1 H2]. apply N.ltb_ge in H1.
  destruct (N.eqb_spec x y) as [->|D].
  - rewrite N.eqb_refl, (IH b H2); [rewrite orb_true_r; reflexivity|congruence].
  - assert (L : y < x) by lia. apply N.ltb_lt in L. rewrite L. reflexivity.
Qed.

Definition key_lt {A} (p q : text * A) : Prop := text_ltb (fst p) (fst q) = true.

Lemma insert_perm : forall {A} (p : text * A) l, Permutation (insert_item p l) (p :: l).
Proof.
  intros A p l. induction l as [|q l IH]; cbn; [reflexivity|].
  destruct (text_ltb (fst q) (fst p)); [|reflexivity]. rewrite IH. apply perm_swap.
Qed.
Lemma sort_perm : forall {A} (l : list (text * A)), Permutation (sort_items l) l.
Proof.
  intros A l. induction l as [|p l IH]; cbn; [reflexivity|]. unfold sort_items in IH. rewrite insert_perm, IH. reflexivity.
Qed.

Lemma insert_sorted : forall {A} (p : text * A) l, ~ In (fst p) (map fst l) -> StronglySorted key_lt l ->
  StronglySorted key_lt (insert_item p l).
Proof.
  intros A p l. induction l as [|q l IH]; intros N H; cbn; [constructor; constructor|].
  inversion H; subst. destruct (text_ltb (fst q) (fst p)) eqn:E.
  - constructor; [apply IH; [cbn in N; tauto|assumption]|].
    apply (Permutation_Forall (Permutation_sym (insert_perm p l))). constructor; [exact E|assumption].
  - constructor; [exact H|]. assert (P : key_lt p q) by (apply ltb_total; [exact E|cbn in N; intro; apply N; left; auto]).
    constructor; [exact P|]. eapply Forall_impl; [|exact H3]. intros a Q. unfold key_lt in *. eapply ltb_trans; eassumption.
Qed.
Lemma sort_sorted : forall {A} (l : list (text * A)), NoDup (map fst l) -> StronglySorted key_lt (sort_items l).
Proof.
  intros A l. induction l as [|p l IH]; intro N; cbn; [constructor|]. inversion N; subst.
  apply insert_sorted; [|apply IH; assumption].
  intro I. apply H1. apply (Permutation_in _ (Permutation_map fst (sort_perm l))). exact I.
Qed.

Lemma sorted_unique : forall {A} (a b : list (text * A)), StronglySorted key_lt a -> StronglySorted key_lt b ->
  (forall x, In x a <-> In x b) -> a = b.
Proof.
  intros A a. induction a as [|x a IH]; intros b Sa Sb E.
  - destruct b as [|y b]; [reflexivity|]. exfalso. apply (E y). left. reflexivity.
  - destruct b as [|y b]; [exfalso; apply (E x); left; reflexivity|].
    inversion Sa; subst. inversion Sb; subst. rewrite Forall_forall in *.
    assert (Irr : forall p : text * A, key_lt p p -> False) by (intros p K; unfold key_lt in K; rewrite ltb_irrefl in K; discriminate).
    assert (X : x = y).
    { destruct (proj1 (E x) (or_introl eq_refl)) as [->|I1]; [reflexivity|].
      destruct (proj2 (E y) (or_introl eq_refl)) as [->|I2]; [reflexivity|].
      exfalso. apply (Irr x). unfold key_lt. eapply ltb_trans; [apply H2; exact I2|apply H4; exact I1]. }
    subst y. f_equal. apply IH; auto. intro z. split; intro I.
    + destruct (proj1 (E z) (or_intror I)) as [<-|]; [exfalso; apply (Irr x), H2, I|assumption].
    + destruct (proj2 (E z) (or_intror I)) as [<-|]; [exfalso; apply (Irr x), H4, I|assumption].
Qed.

Lemma sort_in : forall {A} (l : list (text * A)) x, In x (sort_items l) <-> In x l.
Proof. intros A l x. split; apply Permutation_in; [apply sort_perm|apply Permutation_sym, sort_perm]. Qed.

Lemma sort_keys_in : forall {A} (l : list (text * A)) k, In k (map fst (sort_items l)) <-> In k (map fst l).
Proof. intros A l x. split; apply Permutation_in; [|apply Permutation_sym]; apply Permutation_map, sort_perm. Qed.

Lemma sort_nodup : forall {A} (l : list (text * A)), NoDup (map fst l) -> NoDup (map fst (sort_items l)).
Proof. intros A l N. eapply Permutation_NoDup; [|exact N]. apply Permutation_sym, Permutation_map, sort_perm. Qed.

(** * Sorting of values *)

Definition sf (p : text * json) : text * json := (fst p, sortk (snd p)).

Lemma sf_keys : forall kv, map fst (map sf kv) = map fst kv.
Proof. intros kv. rewrite map_map. reflexivity. Qed.

Lemma sortk_obj : forall kv, sortk (JObj kv) = JObj (sort_items (map sf kv)).
Proof. reflexivity. Qed.

Lemma pyval_sortk : forall v, pyval v -> pyval (sortk v).
Proof.
  induction v as [ |b|z|t| |b|s|l IH|kv IH] using json_ind2; intros W; try exact W.
  - cbn in *. apply all_forall in W. apply all_forall. induction l as [|x l IHl]; [constructor|].
    inversion IH; subst. inversion W; subst. constructor; auto.
  - rewrite sortk_obj. cbn in *. destruct W as [N W]. apply all_forall in W. split.
    + apply sort_nodup. rewrite sf_keys. exact N.
    + apply all_forall. eapply Permutation_Forall; [apply Permutation_sym, sort_perm|].
      rewrite Forall_forall in *. intros p I. apply in_map_iff in I. destruct I as (q & <- & I).
      destruct (W q I) as [J P]. split; [exact J|]. apply (IH q I). exact P.
Qed.

Lemma finite_sortk : forall v, finite v -> finite (sortk v).
Proof.
  induction v as [ |b|z|t| |b|s|l IH|kv IH] using json_ind2; intros W; try exact W.
  - cbn in *. apply all_forall in W. apply all_forall. induction l as [|x l IHl]; [constructor|].
    inversion IH; subst. inversion W; subst. constructor; auto.
  - rewrite sortk_obj. cbn in *. apply all_forall in W.
    apply all_forall. eapply Permutation_Forall; [apply Permutation_sym, sort_perm|].
    rewrite Forall_forall in *. intros p I. apply in_map_iff in I. destruct I as (q & <- & I).
    apply (IH q I). apply W. exact I.
Qed.

Lemma key_unique : forall {A} k (x y : A) (l : list (text * A)), NoDup (map fst l) -> In (k, x) l -> In (k, y) l -> x = y.
Proof.
  intros A k x y l N I J. pose proof (dict_get_nodup k l x N I). pose proof (dict_get_nodup k l y N J). congruence.
Qed.

Theorem sortk_same : forall a b, pyval a -> pyval b -> (sortk a = sortk b <-> same a b).
Proof.
  induction a as [ |x|z|t| |x|s|l IH|kv IH] using json_ind2; intros b Wa Wb;
    try (cbn [sortk same]; destruct b; cbn [sortk]; split; intro H; (congruence || discriminate)).
  - cbn [same]. split.
    + intro H. destruct b as [ | | | | | | |l'|]; try discriminate. cbn in H. injection H as H.
      exists l'. split; [reflexivity|]. cbn in Wa, Wb. apply all_forall in Wa, Wb. clear - IH Wa Wb H.
      revert l' Wb H. induction l as [|x l IHl]; intros [|y l'] Wb H; try discriminate; [exact I|].
      inversion IH; subst. inversion Wa; subst. inversion Wb; subst. cbn in H. injection H as Hx Hl.
      split; [apply H2; assumption|apply IHl; assumption].
    + intros (l' & -> & H). cbn. f_equal. cbn in Wa, Wb. apply all_forall in Wa, Wb.
      revert l' Wb H. induction l as [|x l IHl]; intros [|y l'] Wb H; try contradiction; [reflexivity|].
      inversion IH; subst. inversion Wa; subst. inversion Wb; subst. destruct H as [E H]. cbn. f_equal.
      * apply H2; assumption.
      * apply IHl; assumption.
  - rewrite sortk_obj. cbn [same]. cbn [pyval] in Wa. destruct Wa as [Na Wa]. apply all_forall in Wa.
    rewrite Forall_forall in IH, Wa. split.
    + intro H. destruct b as [ | | | | | | | |kv']; try discriminate. rewrite sortk_obj in H. injection H as H.
      cbn [pyval] in Wb. destruct Wb as [Nb Wb]. apply all_forall in Wb. rewrite Forall_forall in Wb.
      exists kv'. split; [reflexivity|].
      assert (P : forall x, In x (map sf kv) <-> In x (map sf kv')).
      { intro x. rewrite <- sort_in, H, sort_in. reflexivity. }
      split.
      * intro k. rewrite <- (sf_keys kv), <- (sf_keys kv'). split; intro I; apply in_map_iff in I; destruct I as (p & <- & I);
          apply in_map, P, I.
      * apply all_forall. rewrite Forall_forall. intros p I y J.
        assert (K : In (sf p) (map sf kv')) by (apply P, in_map, I).
        apply in_map_iff in K. destruct K as ([k' y'] & E & K). unfold sf in E. cbn in E. injection E as E1 E2. subst k'.
        pose proof (key_unique _ _ _ _ Nb K J) as Q. subst y'. apply (IH p I); [apply (Wa p I)|apply (Wb _ J)|auto].
    + intros (kv' & -> & K & H). rewrite sortk_obj. f_equal.
      cbn [pyval] in Wb. destruct Wb as [Nb Wb]. apply all_forall in Wb, H. rewrite Forall_forall in Wb, H.
      apply sorted_unique.
      * apply sort_sorted. rewrite sf_keys. exact Na.
      * apply sort_sorted. rewrite sf_keys. exact Nb.
      * intro q. rewrite !sort_in. split; intro I; apply in_map_iff in I; destruct I as ([k x] & <- & I).
        -- assert (J : In k (map fst kv')) by (apply K; change k with (fst (k, x)); apply in_map, I).
           apply in_map_iff in J. destruct J as ([k' y] & E & J). cbn in E. subst k'.
           apply in_map_iff. exists (k, y). split; [|exact J]. unfold sf. cbn. f_equal. symmetry.
           apply (IH _ I); [apply (Wa _ I)|apply (Wb _ J)|apply (H _ I y J)].
        -- assert (J : In k (map fst kv)) by (apply K; change k with (fst (k, x)); apply in_map, I).
           apply in_map_iff in J. destruct J as ([k' y] & E & J). cbn in E. subst k'.
           apply in_map_iff. exists (k, y). split; [|exact J]. unfold sf. cbn. f_equal.
           apply (IH _ J); [apply (Wa _ J)|apply (Wb _ I)|apply (H _ J x I)].
Qed.

Lemma sort_fixed : forall {A} (l : list (text * A)), NoDup (map fst l) -> StronglySorted key_lt l -> sort_items l = l.
Proof.
  intros A l N H. apply sorted_unique; [apply sort_sorted; exact N|exact H|intro; apply sort_in].
Qed.

Lemma sortk_idem : forall v, pyval v -> sortk (sortk v) = sortk v.
Proof.
  induction v as [ |b|z|t| |b|s|l IH|kv IH] using json_ind2; intros W; try reflexivity.
  - cbn in *. apply all_forall in W. f_equal. rewrite map_map. apply map_ext_in. intros x I.
    rewrite Forall_forall in IH, W. apply IH; auto.
  - rewrite !sortk_obj. cbn in W. destruct W as [N W]. apply all_forall in W. rewrite Forall_forall in IH, W.
    f_equal.
    assert (E : map sf (sort_items (map sf kv)) = sort_items (map sf kv)).
    { rewrite <- (map_id (sort_items (map sf kv))) at 2. apply map_ext_in. intros q I. rewrite sort_in in I.
      apply in_map_iff in I. destruct I as (p & <- & I). unfold sf. cbn. f_equal. apply (IH p I). apply (W p I). }
    rewrite E. apply sort_fixed.
    + apply sort_nodup. rewrite sf_keys. exact N.
    + apply sort_sorted. rewrite sf_keys. exact N.
Qed.

Theorem same_sortk : forall v, pyval v -> same v (sortk v).
Proof. intros v W. apply sortk_same; [exact W|apply pyval_sortk; exact W|]. symmetry. apply sortk_idem. exact W. Qed.

Theorem loads_sorted : forall v, pyval v -> loads (dumps_sorted v) = Ok (sortk v).
Proof. intros v W. apply loads_dumps, pyval_sortk, W. Qed.

Theorem canonical : forall a b, pyval a -> pyval b -> (dumps_sorted a = dumps_sorted b <-> same a b).
Proof.
  intros a b Wa Wb. rewrite <- (sortk_same a b Wa Wb). split; [|unfold dumps_sorted; congruence].
  intro H. pose proof (loads_sorted a Wa) as A. rewrite H, (loads_sorted b Wb) in A. injection A as A. auto.
Qed.
