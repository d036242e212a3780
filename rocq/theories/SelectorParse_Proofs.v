From Verif Require Import Prelude Selectors_Model Selectors_Spec Selectors_Proofs
  SelectorParse_Model SelectorParse_Spec.
From Coq Require Import ZifyBool.

(* ------------------------------------------------------- parity of runs *)
(** Boolean form of [printable], reading left to right. *)
Fixpoint vok (v : text) (odd : bool) : bool :=
  match v with
  | [] => negb odd
  | c :: v' =>
      if (c =? 10)%N then false
      else if (c =? 34)%N then negb odd && vok v' false
      else if (c =? 92)%N then vok v' (negb odd)
      else vok v' false
  end.

Definition par (v : text) : bool := Nat.odd (trailing_run v).

Lemma trailing_run_snoc p c :
  trailing_run (p ++ [c]) = if (c =? 92)%N then S (trailing_run p) else 0.
Proof. unfold trailing_run. rewrite rev_app_distr. cbn. reflexivity. Qed.

Lemma par_snoc p c : par (p ++ [c]) = if (c =? 92)%N then negb (par p) else false.
Proof.
  unfold par. rewrite trailing_run_snoc. destruct (c =? 92)%N; [|reflexivity].
  rewrite Nat.odd_succ, <- Nat.negb_odd. reflexivity.
Qed.

Lemma even_par v : Nat.Even (trailing_run v) <-> par v = false.
Proof.
  unfold par. rewrite <- Nat.even_spec, <- Nat.negb_odd. destruct (Nat.odd _); cbn; split; congruence.
Qed.

Lemma vok_iff v : forall p,
  vok v (par p) = true <->
  (~ In 10%N v /\ par (p ++ v) = false /\
   (forall pre post, v = pre ++ 34%N :: post -> par (p ++ pre) = false)).
Proof.
  induction v as [|c v IH]; intros p; cbn [vok].
  - rewrite app_nil_r. split.
    + intros H. split; [intros []|]. split; [destruct (par p); [discriminate|reflexivity]|].
      intros pre post Hp. destruct pre; discriminate.
    + intros [_ [H _]]. rewrite H. reflexivity.
  - destruct (N.eqb_spec c 10) as [->|Hc10].
    { split; [discriminate|]. intros [H _]. exfalso. apply H. left. reflexivity. }
    assert (Hstep : forall b, par (p ++ [c]) = b ->
      (vok v b = true <-> (~ In 10%N v /\ par (p ++ c :: v) = false /\
        (forall pre post, v = pre ++ 34%N :: post -> par (p ++ c :: pre) = false)))).
    { intros b <-. rewrite IH. rewrite <- app_assoc. cbn [app].
      split; intros [H1 [H2 H3]]; (split; [exact H1|]); (split; [exact H2|]);
        intros pre post Hp; specialize (H3 pre post Hp);
        [rewrite <- app_assoc in H3|rewrite <- app_assoc]; exact H3. }
    assert (Hin : ~ In 10%N (c :: v) <-> ~ In 10%N v).
    { cbn. split; [tauto|]. intros H [H'|H']; [congruence|tauto]. }
    rewrite Hin. rewrite par_snoc in Hstep.
    destruct (N.eqb_spec c 34) as [->|Hc34].
    + rewrite andb_true_iff. specialize (Hstep false eq_refl). rewrite Hstep. split.
      * intros [Hp [H1 [H2 H3]]]. split; [exact H1|]. split; [exact H2|].
        intros pre post Hpp. destruct pre as [|x pre].
        -- rewrite app_nil_r. destruct (par p); [discriminate|reflexivity].
        -- inversion Hpp; subst. eapply H3. reflexivity.
      * intros [H1 [H2 H3]]. split.
        -- specialize (H3 [] v eq_refl). rewrite app_nil_r in H3. rewrite H3. reflexivity.
        -- split; [exact H1|]. split; [exact H2|]. intros pre post ->. apply (H3 (34%N :: pre) post). reflexivity.
    + assert (Hrest : (forall pre post, c :: v = pre ++ 34%N :: post -> par (p ++ pre) = false) <->
                      (forall pre post, v = pre ++ 34%N :: post -> par (p ++ c :: pre) = false)).
      { split; intros H pre post Hp.
        - subst v. apply (H (c :: pre) post). reflexivity.
        - destruct pre as [|x pre]; inversion Hp; subst; [congruence|]. eapply H. reflexivity. }
      rewrite Hrest. destruct (N.eqb_spec c 92); apply Hstep; reflexivity.
Qed.

Lemma printable_vok v : printable v <-> vok v false = true.
Proof.
  change false with (par []). rewrite vok_iff. cbn [app]. unfold printable.
  setoid_rewrite even_par. reflexivity.
Qed.

(* ------------------------------------------------------------- strings *)
Lemma scan_escaped v : forall odd rest, vok v odd = true ->
  scan_quoted 34 (escape v ++ 34%N :: rest) odd = Some (escape v, rest).
Proof.
  induction v as [|c v IH]; intros odd rest H.
  - cbn in H. destruct odd; [discriminate|]. cbn. reflexivity.
  - cbn [vok] in H. destruct (N.eqb_spec c 10) as [->|Hc10]; [discriminate|].
    cbn [escape flat_map]. fold (escape v). destruct (N.eqb_spec c 34) as [->|Hc34].
    + apply andb_prop in H. destruct H as [Ho Hv]. destruct odd; [discriminate|].
      cbn [app scan_quoted]. cbn. rewrite (IH false rest Hv). reflexivity.
    + cbn [app scan_quoted]. destruct (N.eqb_spec c 10); [contradiction|].
      destruct (N.eqb_spec c 34); [contradiction|]. cbn [andb].
      destruct (N.eqb_spec c 92) as [->|Hc92]; rewrite (IH _ rest H); reflexivity.
Qed.

Lemma escape_head v : match escape v with c :: _ => c <> 34%N | [] => True end.
Proof.
  destruct v as [|c v]; cbn; [exact I|]. destruct (N.eqb_spec c 34); cbn; [discriminate|exact n].
Qed.

Lemma unescape_escape v : unescape 34 (escape v) = v.
Proof.
  induction v as [|c v IH]; [reflexivity|]. cbn [escape flat_map]. fold (escape v).
  destruct (N.eqb_spec c 34) as [->|Hc]; cbn [app unescape].
  - cbn. rewrite IH. reflexivity.
  - destruct (N.eqb_spec c 92) as [->|Hc92]; [|rewrite IH; reflexivity].
    pose proof (escape_head v) as Hh. destruct (escape v) as [|d e] eqn:E.
    + destruct v as [|x v]; [reflexivity|]. cbn in E. destruct (x =? 34)%N; discriminate.
    + destruct (N.eqb_spec d 34); [contradiction|]. rewrite IH. reflexivity.
Qed.

(* -------------------------------------------------------- identifiers *)
Definition stops (t : text) : Prop :=
  match t with c :: _ => other_char c = false | [] => True end.

Lemma span_other_app a : forall rest, forallb other_char a = true -> stops rest ->
  span_other (a ++ rest) = (a, rest).
Proof.
  induction a as [|c a IH]; intros rest Ha Hr.
  - cbn. destruct rest as [|c rest]; [reflexivity|]. cbn in *. rewrite Hr. reflexivity.
  - cbn in *. apply andb_prop in Ha. destruct Ha as [Hc Ha]. rewrite Hc, (IH rest Ha Hr). reflexivity.
Qed.

Lemma span_other_spec t : forall a r, span_other t = (a, r) ->
  t = a ++ r /\ forallb other_char a = true /\ stops r.
Proof.
  induction t as [|c t IH]; intros a r H; cbn in H.
  - inversion H; subst. repeat split.
  - destruct (other_char c) eqn:E.
    + destruct (span_other t) as [a' r'] eqn:Es. inversion H; subst.
      destruct (IH a' r eq_refl) as [-> [H1 H2]]. repeat split; [cbn; rewrite E; exact H1|exact H2].
    + inversion H; subst. repeat split. exact E.
Qed.

(** A well-formed identifier. *)
Definition ident (a : text) : Prop := scan_ident a = Some (a, []).

Lemma first_not_dash c : first_char c = true -> c <> 45%N.
Proof. intros H ->. discriminate. Qed.

Lemma ident_scan a rest : ident a -> stops rest -> scan_ident (a ++ rest) = Some (a, rest).
Proof.
  unfold ident, scan_ident. intros H Hr. destruct a as [|c a]; [discriminate|]. cbn [app].
  destruct (first_char c).
  - destruct (span_other a) as [x r] eqn:E. inversion H; subst.
    destruct (span_other_spec _ _ _ E) as [Ha [Hall _]]. rewrite (span_other_app a rest Hall Hr). reflexivity.
  - destruct (c =? 45)%N; [|discriminate]. destruct a as [|d a]; cbn [app].
    + destruct rest as [|d rest]; [reflexivity|].
      assert (Hd : first_char d = false).
      { cbn in Hr. unfold other_char in Hr. destruct (first_char d); [discriminate|reflexivity]. }
      rewrite Hd. reflexivity.
    + destruct (first_char d); [|inversion H].
      destruct (span_other a) as [x r] eqn:E. inversion H; subst.
      destruct (span_other_spec _ _ _ E) as [Ha [Hall _]]. rewrite (span_other_app a rest Hall Hr). reflexivity.
Qed.

Lemma scan_ident_spec t a r : scan_ident t = Some (a, r) ->
  t = a ++ r /\ ident a /\ a <> [].
Proof.
  unfold ident, scan_ident. destruct t as [|c t]; [discriminate|].
  destruct (first_char c) eqn:Ec.
  - destruct (span_other t) as [x r'] eqn:E. intros H; inversion H; subst.
    destruct (span_other_spec _ _ _ E) as [-> [Hall _]]. split; [reflexivity|]. split; [|discriminate].
    rewrite Ec. pose proof (span_other_app x [] Hall I) as Hs. rewrite app_nil_r in Hs. rewrite Hs. reflexivity.
  - destruct (c =? 45)%N eqn:Ed; [|discriminate]. destruct t as [|d t].
    + intros H; inversion H; subst. split; [reflexivity|]. split; [|discriminate].
      rewrite Ec, Ed. reflexivity.
    + destruct (first_char d) eqn:Edd.
      * destruct (span_other t) as [x r'] eqn:E. intros H; inversion H; subst.
        destruct (span_other_spec _ _ _ E) as [-> [Hall _]]. split; [reflexivity|]. split; [|discriminate].
        rewrite Ec, Ed, Edd. pose proof (span_other_app x [] Hall I) as Hs. rewrite app_nil_r in Hs. rewrite Hs. reflexivity.
      * intros H; inversion H; subst. split; [reflexivity|]. split; [|discriminate].
        rewrite Ec, Ed. reflexivity.
Qed.

Lemma ident_head a : ident a -> exists c a', a = c :: a' /\ is_ws c = false /\ c <> 93%N.
Proof.
  unfold ident, scan_ident. destruct a as [|c a]; [discriminate|]. intros H.
  exists c, a. split; [reflexivity|].
  destruct (first_char c) eqn:E.
  - unfold first_char in E. unfold is_ws. lia.
  - destruct (N.eqb_spec c 45); [|discriminate]. subst c. split; [reflexivity|discriminate].
Qed.

Lemma skip_ws_id t : match t with c :: _ => is_ws c = false | [] => True end -> skip_ws t = t.
Proof. destruct t as [|c t]; [reflexivity|]. cbn. intros ->. reflexivity. Qed.

Lemma skip_ws_ident a rest : ident a -> skip_ws (a ++ rest) = a ++ rest.
Proof.
  intros H. destruct (ident_head a H) as [c [a' [-> [Hw _]]]]. cbn. rewrite Hw. reflexivity.
Qed.

(* ------------------------------------------- selectors that parsing yields *)
Fixpoint pitem (s : selector) : Prop :=
  match s with
  | SSimple a None None ic => ident a /\ ic = false
  | SSimple a (Some _) (Some v) _ => ident a /\ v <> []
  | SSimple _ _ _ _ => False
  | SCont CAny l => 2 <= length l /\ fold_right (fun x P => pitem x /\ P) True l
  | SCont (CNot | CWhere) l => 1 <= length l /\ fold_right (fun x P => pitem x /\ P) True l
  | SCont CCompound _ => False
  | SLoop _ => False
  end.
Definition ptop (s : selector) : Prop :=
  pitem s \/ exists l, s = SCont CCompound l /\ 2 <= length l /\ Forall pitem l.

Lemma fold_and_Forall (P : selector -> Prop) l :
  fold_right (fun x Q => P x /\ Q) True l <-> Forall P l.
Proof.
  induction l as [|x l IH]; cbn; [split; auto|]. rewrite IH. split.
  - intros [H1 H2]. constructor; assumption.
  - intros H. inversion H; auto.
Qed.

Lemma op_of_op_text o : op_of_text (op_text o) = Some o.
Proof. destruct o; vm_compute; reflexivity. Qed.

Lemma p_op_text o rest : p_op (op_text o ++ rest) = Some (op_text o, rest).
Proof. destruct o; reflexivity. Qed.

Lemma op_text_stops o rest : stops (op_text o ++ rest) /\
  skip_ws (op_text o ++ rest) = op_text o ++ rest /\ lit (txt "]") (op_text o ++ rest) = None.
Proof. destruct o; repeat split; reflexivity. Qed.

Lemma mk_simple_value a o v ic : v <> [] ->
  mk_simple a (Some (op_text o)) (Some v) ic = Ok (SSimple a (Some o) (Some v) ic).
Proof.
  intros Hv. destruct v as [|c v]; [congruence|]. unfold mk_simple.
  rewrite op_of_op_text. destruct o, ic; reflexivity.
Qed.

Lemma simple_round a o v ic rest : ident a ->
  match o, v with
  | None, None => ic = false
  | Some _, Some w => w <> [] /\ vok w false = true
  | _, _ => False
  end ->
  exists body, print (SSimple a o v ic) = 91%N :: body /\
    p_simple (body ++ rest) = PDone (SSimple a o v ic) rest.
Proof.
  intros Ha Hv. destruct o as [o|], v as [w|]; try contradiction.
  - destruct Hv as [Hne Hok].
    exists (a ++ op_text o ++ [34%N] ++ escape w ++ [34%N] ++ (if ic then txt " i" else []) ++ txt "]").
    split.
    { destruct w; [congruence|]. reflexivity. }
    unfold p_simple. rewrite <- !app_assoc. rewrite (skip_ws_ident a _ Ha).
    destruct (op_text_stops o ([34%N] ++ escape w ++ [34%N] ++ (if ic then txt " i" else []) ++ txt "]" ++ rest))
      as [H1 [H2 H3]].
    rewrite (ident_scan a _ Ha H1). cbv beta iota zeta. rewrite H2, H3, p_op_text.
    cbn [app skip_ws p_value]. change (is_ws 34) with false. cbn iota.
    cbn [p_value]. change (34 =? 34)%N with true. cbn iota.
    rewrite (scan_escaped w false _ Hok). rewrite unescape_escape.
    destruct ic; cbn; rewrite (mk_simple_value a o w _ Hne); reflexivity.
  - subst ic. exists (a ++ txt "]"). split; [reflexivity|].
    unfold p_simple. rewrite <- app_assoc, (skip_ws_ident a _ Ha).
    rewrite (ident_scan a (txt "]" ++ rest) Ha eq_refl). reflexivity.
Qed.

Lemma print_nonempty s : pitem s -> exists c body, print s = c :: body /\ (c = 91 \/ c = 58)%N.
Proof.
  destruct s as [a o v ic|c l|c]; cbn [pitem]; intros H.
  - cbn [print]. destruct (truthy v); eexists; eexists; (split; [reflexivity|auto]).
  - destruct c; cbn [print]; try contradiction; eexists; eexists; (split; [reflexivity|auto]).
  - destruct H.
Qed.

Lemma join_cons s l :
  join (txt ", ") (map print (s :: l)) =
  print s ++ match l with [] => [] | _ => txt ", " ++ join (txt ", ") (map print l) end.
Proof.
  cbn [map join]. f_equal. destruct l as [|x l]; [reflexivity|]. cbn. reflexivity.
Qed.

Lemma skip_space t : skip_ws (32%N :: t) = skip_ws t.
Proof. reflexivity. Qed.

Definition sel_round (s : selector) : Prop := forall n rest,
  S (length (print s)) <= n -> p_sel n (print s ++ rest) = PDone s rest.

Lemma p_sel_space n t : p_sel n (32%N :: t) = p_sel n t.
Proof. destruct n; reflexivity. Qed.

Lemma list_round l : Forall sel_round l -> Forall pitem l -> l <> [] -> forall n rest,
  S (S (length (join (txt ", ") (map print l)))) <= n ->
  p_list n (join (txt ", ") (map print l) ++ 41%N :: rest) = PDone l rest /\
  p_list n (32%N :: join (txt ", ") (map print l) ++ 41%N :: rest) = PDone l rest.
Proof.
  induction l as [|s l IH]; intros HR HP Hne n rest Hn; [congruence|].
  inversion HR as [|? ? Rs Rl]; subst. inversion HP as [|? ? Ps Pl]; subst.
  rewrite join_cons in *. rewrite app_length in Hn.
  destruct n as [|n]; [lia|]. cbn [p_list]. rewrite p_sel_space, <- app_assoc.
  rewrite Rs by lia. destruct l as [|s' l].
  - cbn. auto.
  - assert (Hgoal : forall m rest', S (S (length (join (txt ", ") (map print (s' :: l))))) <= m ->
       p_list m (32%N :: join (txt ", ") (map print (s' :: l)) ++ 41%N :: rest') = PDone (s' :: l) rest').
    { intros m rest' Hm. apply IH; auto. discriminate. }
    change (txt ", ") with [44; 32]%N in *. cbn [app]. rewrite skip_ws_id by reflexivity.
    change (lit (txt ",") (44%N :: ?x)) with (Some x). cbn [lit txt map list_ascii_of_string].
    change (Ascii.N_of_ascii _ =? 44)%N with true. cbn iota.
    rewrite Hgoal; [auto|]. rewrite app_length in Hn. cbn [length] in Hn. lia.
Qed.

Lemma cont_step_any n t : p_sel (S n) (txt ":is(" ++ t) =
  match p_list n t with
  | PDone l r' => PDone (mk_container CAny l) r' | PErr e => PErr e | PFuel => PFuel end.
Proof. reflexivity. Qed.
Lemma cont_step_not n t : p_sel (S n) (txt ":not(" ++ t) =
  match p_list n t with
  | PDone l r' => PDone (mk_container CNot l) r' | PErr e => PErr e | PFuel => PFuel end.
Proof. reflexivity. Qed.
Lemma cont_step_where n t : p_sel (S n) (txt ":where(" ++ t) =
  match p_list n t with
  | PDone l r' => PDone (mk_container CWhere l) r' | PErr e => PErr e | PFuel => PFuel end.
Proof. reflexivity. Qed.

Lemma sel_round_all s : pitem s -> values_printable s -> sel_round s.
Proof.
  induction s as [a o v ic|c l IH|c] using selector_ind'; intros Hp Hv n rest Hn.
  - destruct n as [|n]; [lia|].
    destruct (simple_round a o v ic rest) as [body [Eb Hb]].
    + cbn in Hp. destruct o, v; try contradiction; apply Hp.
    + cbn in Hp, Hv. destruct o, v; try contradiction; [|apply Hp].
      split; [apply Hp|]. apply printable_vok. exact Hv.
    + rewrite Eb. cbn [app]. cbn [p_sel skip_ws]. change (is_ws 91) with false. cbn iota.
      cbn. exact Hb.
  - assert (Hl : l <> [] /\ Forall pitem l /\ c <> CCompound).
    { destruct c; cbn in Hp; try contradiction; destruct Hp as [H1 H2]; apply fold_and_Forall in H2;
        (split; [intros ->; cbn in H1; lia|]); (split; [exact H2|discriminate]). }
    destruct Hl as [Hne [Hpl Hc]].
    assert (Hvl : Forall values_printable l) by (apply fold_and_Forall; exact Hv).
    assert (HR : Forall sel_round l).
    { rewrite Forall_forall in *. intros x Hx. apply IH; auto. }
    assert (Hmk : mk_container c l = SCont c l).
    { destruct c; try reflexivity; [|congruence]. cbn in Hp. destruct l as [|x [|y l]]; cbn in Hp; try lia; reflexivity. }
    destruct n as [|n]; [lia|].
    assert (Hlist : S (S (length (join (txt ", ") (map print l)))) <= n).
    { destruct c; [| | |congruence]; cbn [print] in Hn; rewrite !app_length in Hn;
        set (J := length (join _ _)) in *; cbn in Hn; lia. }
    destruct (list_round l HR Hpl Hne n rest Hlist) as [HL _].
    destruct c; [| | |congruence]; cbn [print]; rewrite <- !app_assoc;
      change (txt ")" ++ rest) with (41%N :: rest); first [rewrite cont_step_any|rewrite cont_step_not|rewrite cont_step_where];
      rewrite HL, Hmk; reflexivity.
  - destruct Hp.
Qed.

(* --------------------------------------------------------------- top *)
Lemma start_round l : Forall pitem l -> Forall values_printable l -> l <> [] -> forall n,
  2 + length (join [] (map print l)) <= n ->
  p_start n (join [] (map print l)) = PDone l [].
Proof.
  intros HP HV. induction l as [|s l IH]; intros Hne n Hn; [congruence|].
  inversion HP as [|? ? Ps Pl]; subst. inversion HV as [|? ? Vs Vl]; subst.
  assert (Hj : join [] (map print (s :: l)) = print s ++ join [] (map print l)).
  { cbn [map join]. f_equal. destruct l; reflexivity. }
  rewrite Hj in *. rewrite app_length in Hn. destruct n as [|n]; [lia|]. cbn [p_start].
  rewrite (sel_round_all s Ps Vs) by lia.
  destruct l as [|s' l].
  - reflexivity.
  - assert (Hne' : s' :: l <> []) by discriminate.
    inversion Pl as [|? ? Ps' Pl']; subst.
    destruct (print_nonempty s' Ps') as [c [body [Ec Hc]]].
    assert (Hj' : exists t, join [] (map print (s' :: l)) = c :: t).
    { cbn [map join]. rewrite Ec. eexists. reflexivity. }
    destruct Hj' as [t Ht]. rewrite skip_ws_id by (rewrite Ht; destruct Hc; subst c; reflexivity).
    rewrite Ht. rewrite <- Ht.
    destruct (print_nonempty s Ps) as [c0 [body0 [Ec0 _]]]. rewrite Ec0 in Hn. cbn [length] in Hn.
    rewrite (IH Pl Vl Hne' n) by lia. reflexivity.
Qed.

Lemma round_trip s : ptop s -> values_printable s -> parse_selector (print s) = Ok s.
Proof.
  intros [Hp|[l [-> [Hlen Hp]]]] Hv; unfold parse_selector, parse_fuel.
  - pose proof (start_round [s]) as H. cbn [map join flat_map] in H. rewrite app_nil_r in H.
    rewrite H; [|auto|auto|discriminate|lia].
    cbn. destruct s as [| c l |]; [reflexivity| |destruct Hp].
    destruct c; [reflexivity|reflexivity|reflexivity|destruct Hp].
  - cbn [print]. rewrite start_round.
    + destruct l as [|x [|y l]]; cbn in Hlen; try lia. reflexivity.
    + exact Hp.
    + apply fold_and_Forall. exact Hv.
    + intros ->. cbn in Hlen. lia.
    + lia.
Qed.

(* ------------------------------------------- what parsing can produce *)
Lemma lit_spec l : forall t r, lit l t = Some r -> t = l ++ r.
Proof.
  induction l as [|x l IH]; intros t r H; cbn in H.
  - inversion H. reflexivity.
  - destruct t as [|y t]; [discriminate|]. destruct (N.eqb_spec x y); [|discriminate].
    subst y. rewrite (IH _ _ H). reflexivity.
Qed.

Lemma skip_ws_spec t : exists w, t = w ++ skip_ws t.
Proof.
  induction t as [|c t [w IH]]; [exists []; reflexivity|]. cbn.
  destruct (is_ws c); [exists (c :: w); cbn; congruence|exists []; reflexivity].
Qed.

Lemma skip_ws_length t : length (skip_ws t) <= length t.
Proof.
  destruct (skip_ws_spec t) as [w H]. apply (f_equal (@length N)) in H. rewrite app_length in H. lia.
Qed.

Lemma mk_simple_inv a o v ic s : mk_simple a o v ic = Ok s ->
  (o = None /\ s = SSimple a None v ic /\ ic = false /\ truthy v = false) \/
  (exists o' w, v = Some w /\ w <> [] /\ s = SSimple a (Some o') (Some w) ic).
Proof.
  unfold mk_simple. destruct (xorb (truthy o) (truthy v)) eqn:E1; [discriminate|].
  destruct (ic && negb (truthy o && truthy v)) eqn:E2; [discriminate|].
  destruct o as [t|].
  - destruct (op_of_text t) as [o'|] eqn:Eo; [|discriminate]. intros H; inversion H; subst.
    assert (Ht : t <> []) by (intros ->; vm_compute in Eo; discriminate).
    destruct t as [|y t]; [congruence|]. destruct v as [[|x v]|]; cbn in E1; try discriminate.
    right. exists o', (x :: v). repeat split. discriminate.
  - intros H; inversion H; subst. left. cbn in *. destruct (truthy v); [discriminate|].
    repeat split. destruct ic; [discriminate|reflexivity].
Qed.

Lemma scan_quoted_spec q t : q <> 10%N -> forall odd inner r, scan_quoted q t odd = Some (inner, r) ->
  exists r', t = inner ++ q :: r' /\ r = r'.
Proof.
  intros Hq. induction t as [|c t IH]; intros odd inner r H; [discriminate|]. cbn in H.
  destruct (N.eqb_spec c 10); [discriminate|].
  destruct (N.eqb_spec c q) as [->|Hc]; [destruct odd|]; cbn [andb negb] in H.
  - destruct (scan_quoted q t _) as [[i r']|] eqn:E; [|discriminate]. inversion H; subst.
    destruct (IH _ _ _ E) as [r'' [-> ->]]. eexists. split; reflexivity.
  - inversion H; subst. eexists. split; reflexivity.
  - destruct (scan_quoted q t _) as [[i r']|] eqn:E; [|discriminate]. inversion H; subst.
    destruct (IH _ _ _ E) as [r'' [-> ->]]. eexists. split; reflexivity.
Qed.

Lemma p_value_length t v r : p_value t = Some (v, r) -> length r < length t.
Proof.
  unfold p_value. destruct t as [|c t]; [discriminate|].
  destruct (c =? 34)%N.
  - destruct (scan_quoted 34 t false) as [[i r']|] eqn:E; [|discriminate]. intros H; inversion H; subst.
    apply scan_quoted_spec in E; [|discriminate]. destruct E as [r'' [-> ->]]. cbn. rewrite app_length. cbn. lia.
  - destruct (c =? 39)%N.
    + destruct (scan_quoted 39 t false) as [[i r']|] eqn:E; [|discriminate]. intros H; inversion H; subst.
      apply scan_quoted_spec in E; [|discriminate]. destruct E as [r'' [-> ->]]. cbn. rewrite app_length. cbn. lia.
    + destruct (scan_ident (c :: t)) as [[a r']|] eqn:E; [|discriminate]. intros H; inversion H; subst.
      apply scan_ident_spec in E. destruct E as [E [_ Hne]]. rewrite E, app_length.
      destruct a; [congruence|cbn; lia].
Qed.

Lemma p_op_length t o r : p_op t = Some (o, r) -> length r < length t.
Proof.
  unfold p_op. intros H.
  repeat (match type of H with
          | context [lit ?l t] => let E := fresh "E" in destruct (lit l t) eqn:E;
              [inversion H; subst; apply lit_spec in E; rewrite E, app_length; cbn; lia|clear E]
          end).
  discriminate.
Qed.

Lemma p_flag_length t b r : p_flag t = (b, r) -> length r <= length t.
Proof.
  unfold p_flag. destruct t as [|c t]; [intros H; inversion H; lia|].
  destruct ((c =? 105) || (c =? 73))%N; intros H; inversion H; subst; cbn; lia.
Qed.

Lemma p_simple_done t s r : p_simple t = PDone s r ->
  length r < length t /\ pitem s.
Proof.
  unfold p_simple. pose proof (skip_ws_length t) as L1.
  destruct (scan_ident (skip_ws t)) as [[a t2]|] eqn:Ei; [|discriminate].
  destruct (scan_ident_spec _ _ _ Ei) as [Et [Ha Hne]].
  assert (L2 : length t2 < length t).
  { rewrite Et, app_length in L1. destruct a; [congruence|cbn in L1; lia]. }
  pose proof (skip_ws_length t2) as L3.
  destruct (lit (txt "]") (skip_ws t2)) as [t4|] eqn:El.
  - cbn. intros H; inversion H; subst. apply lit_spec in El. rewrite El in L3. cbn in L3.
    split; [lia|]. cbn. auto.
  - destruct (p_op (skip_ws t2)) as [[o t4]|] eqn:Eo; [|discriminate]. apply p_op_length in Eo.
    pose proof (skip_ws_length t4) as L4.
    destruct (p_value (skip_ws t4)) as [[v t5]|] eqn:Ev; [|discriminate]. apply p_value_length in Ev.
    pose proof (skip_ws_length t5) as L5.
    destruct (p_flag (skip_ws t5)) as [ic t6] eqn:Ef. apply p_flag_length in Ef.
    pose proof (skip_ws_length t6) as L6.
    destruct (lit (txt "]") (skip_ws t6)) as [t7|] eqn:El2; [|discriminate].
    apply lit_spec in El2. rewrite El2 in L6. cbn in L6.
    destruct (mk_simple a (Some o) v ic) as [s'|] eqn:Em; [|discriminate]. cbn.
    intros H; inversion H; subst. split; [lia|].
    apply mk_simple_inv in Em. destruct Em as [[Hn _]|[o' [w [-> [Hw ->]]]]]; [discriminate|].
    cbn. auto.
Qed.

Lemma p_simple_fuel t : p_simple t <> PFuel.
Proof.
  unfold p_simple. destruct (scan_ident (skip_ws t)) as [[a t2]|]; [|discriminate].
  destruct (lit _ (skip_ws t2)) as [t4|]; [discriminate|].
  destruct (p_op (skip_ws t2)) as [[o t4]|]; [|discriminate].
  destruct (p_value (skip_ws t4)) as [[v t5]|]; [|discriminate].
  destruct (p_flag (skip_ws t5)) as [ic t6].
  destruct (lit _ (skip_ws t6)) as [t7|]; [|discriminate].
  destruct (mk_simple a (Some o) v ic); discriminate.
Qed.

(** Parsed selectors are items unless a self-containing object came up. *)
Definition good (s : selector) : Prop := has_loop s = true \/ pitem s.

Lemma good_list l : Forall good l -> existsb has_loop l = true \/ Forall pitem l.
Proof.
  induction 1 as [|x l Hx Hl IH]; [auto|]. cbn. destruct Hx as [Hx|Hx]; [rewrite Hx; auto|].
  destruct IH as [IH|IH]; [rewrite IH; left; apply orb_true_r|auto].
Qed.

Lemma mk_container_good c l : c <> CCompound -> l <> [] -> Forall good l -> good (mk_container c l).
Proof.
  intros Hc Hne Hl.
  assert (Hmany : (c = CAny -> 2 <= length l) -> good (SCont c l)).
  { intros Hlen. destruct (good_list l Hl) as [H|H]; [left; exact H|]. right.
    destruct c; try congruence; cbn [pitem]; rewrite fold_and_Forall; split; auto;
      (destruct l; [congruence|cbn; lia]). }
  destruct c; try congruence; try (apply Hmany; discriminate).
  destruct l as [|x [|y l]]; [congruence| |apply Hmany; cbn; lia].
  inversion Hl as [|? ? Hx _]; subst. destruct x as [a o v ic|c' m|c']; cbn.
  - exact Hx.
  - destruct c'; cbn; try exact Hx. left. reflexivity.
  - destruct c'; cbn; try exact Hx; left; reflexivity.
Qed.

Lemma parse_good n :
  (forall t s r, p_sel n t = PDone s r -> length r < length t /\ good s) /\
  (forall t l r, p_list n t = PDone l r -> length r < length t /\ l <> [] /\ Forall good l).
Proof.
  induction n as [|n [IHs IHl]]; split; intros t x r H; try discriminate.
  - cbn [p_sel] in H. pose proof (skip_ws_length t) as Lt.
    assert (Hcont : forall c tok, c <> CCompound ->
      forall r0, lit (txt tok) (skip_ws t) = Some r0 ->
      match p_list n r0 with
      | PDone l r' => PDone (mk_container c l) r' | PErr e => PErr e | PFuel => PFuel end = PDone x r ->
      length r < length t /\ good x).
    { intros c tok Hc r0 Hr0 Hx. apply lit_spec in Hr0. rewrite Hr0, app_length in Lt.
      destruct (p_list n r0) as [l r'| |] eqn:E; try discriminate. inversion Hx; subst.
      destruct (IHl _ _ _ E) as [H1 [H2 H3]]. split; [lia|]. apply mk_container_good; assumption. }
    destruct (lit (txt "[") (skip_ws t)) as [r0|] eqn:E1.
    { apply lit_spec in E1. rewrite E1, app_length in Lt. destruct (p_simple_done _ _ _ H) as [H1 H2].
      split; [lia|right; exact H2]. }
    destruct (lit (txt ":is(") (skip_ws t)) as [r0|] eqn:E2;
      [apply (Hcont CAny ":is("%string ltac:(discriminate) r0 E2 H)|].
    destruct (lit (txt ":not(") (skip_ws t)) as [r0|] eqn:E3;
      [apply (Hcont CNot ":not("%string ltac:(discriminate) r0 E3 H)|].
    destruct (lit (txt ":where(") (skip_ws t)) as [r0|] eqn:E4;
      [apply (Hcont CWhere ":where("%string ltac:(discriminate) r0 E4 H)|discriminate].
  - cbn [p_list] in H. destruct (p_sel n t) as [s r0| |] eqn:E; try discriminate.
    destruct (IHs _ _ _ E) as [H1 H2]. pose proof (skip_ws_length r0) as L0.
    destruct (lit (txt ",") (skip_ws r0)) as [r1|] eqn:E1.
    + apply lit_spec in E1. rewrite E1, app_length in L0.
      destruct (p_list n r1) as [l r2| |] eqn:E2; try discriminate. inversion H; subst.
      destruct (IHl _ _ _ E2) as [H3 [H4 H5]]. split; [lia|]. split; [discriminate|]. constructor; assumption.
    + destruct (lit (txt ")") (skip_ws r0)) as [r1|] eqn:E2; [|discriminate]. inversion H; subst.
      apply lit_spec in E2. rewrite E2, app_length in L0. split; [lia|]. split; [discriminate|]. auto.
Qed.

Lemma start_good n : forall t l r, p_start n t = PDone l r -> l <> [] /\ Forall good l.
Proof.
  induction n as [|n IH]; intros t l r H; [discriminate|]. cbn [p_start] in H.
  destruct (p_sel n t) as [s r0| |] eqn:E; try discriminate.
  destruct (proj1 (parse_good n) _ _ _ E) as [H1 H2].
  destruct (skip_ws r0) as [|c r1] eqn:Es.
  - inversion H; subst. split; [discriminate|auto].
  - destruct (p_start n (c :: r1)) as [l' r2| |] eqn:E2; try discriminate. inversion H; subst.
    destruct (IH _ _ _ E2) as [H3 H4]. split; [discriminate|]. constructor; assumption.
Qed.

Lemma parse_ptop t s : parse_selector t = Ok s -> has_loop s = false -> ptop s.
Proof.
  unfold parse_selector, parse_fuel. intros H HL.
  destruct (p_start _ t) as [l r| |] eqn:E; try discriminate. inversion H; subst. clear H.
  destruct (start_good _ _ _ _ E) as [Hne Hl].
  destruct l as [|x [|y l]]; [congruence| |].
  - inversion Hl as [|? ? Hx _]; subst. left.
    destruct x as [a o v ic|c m|c]; cbn [mk_container] in *.
    + destruct Hx as [Hx|Hx]; [discriminate|exact Hx].
    + destruct c; cbn [container_eqb] in *; try discriminate;
        (destruct Hx as [Hx|Hx]; [congruence|exact Hx]).
    + destruct c; cbn in *; discriminate.
  - right. exists (x :: y :: l). split; [reflexivity|]. split; [cbn; lia|].
    destruct (good_list _ Hl) as [H|H]; [|exact H]. cbn [mk_container has_loop] in HL. congruence.
Qed.

(* -------------------------------------------------------------- fuel *)
Lemma parse_no_fuel n :
  (forall t, 2 * length t < n -> p_sel n t <> PFuel) /\
  (forall t, 2 * length t + 1 < n -> p_list n t <> PFuel).
Proof.
  induction n as [|n [IHs IHl]]; split; intros t Hn; try lia; intros H.
  - cbn [p_sel] in H. pose proof (skip_ws_length t) as Lt.
    assert (Hcont : forall c tok, txt tok <> [] ->
      forall r0, lit (txt tok) (skip_ws t) = Some r0 ->
      match p_list n r0 with
      | PDone l r' => PDone (mk_container c l) r' | PErr e => PErr e | PFuel => PFuel end = PFuel -> False).
    { intros c tok Htok r0 Hr0 Hx. apply lit_spec in Hr0. rewrite Hr0, app_length in Lt.
      assert (1 <= length (txt tok)) by (destruct (txt tok); [congruence|cbn; lia]).
      destruct (p_list n r0) as [l r'| |] eqn:E; try discriminate. apply (IHl r0); [lia|exact E]. }
    destruct (lit (txt "[") (skip_ws t)) as [r0|] eqn:E1; [exact (p_simple_fuel _ H)|].
    destruct (lit (txt ":is(") (skip_ws t)) as [r0|] eqn:E2;
      [apply (Hcont CAny ":is("%string ltac:(discriminate) r0 E2 H)|].
    destruct (lit (txt ":not(") (skip_ws t)) as [r0|] eqn:E3;
      [apply (Hcont CNot ":not("%string ltac:(discriminate) r0 E3 H)|].
    destruct (lit (txt ":where(") (skip_ws t)) as [r0|] eqn:E4;
      [apply (Hcont CWhere ":where("%string ltac:(discriminate) r0 E4 H)|discriminate].
  - cbn [p_list] in H. destruct (p_sel n t) as [s r0| |] eqn:E; try discriminate.
    + destruct (proj1 (parse_good n) _ _ _ E) as [H1 _]. pose proof (skip_ws_length r0) as L0.
      destruct (lit (txt ",") (skip_ws r0)) as [r1|] eqn:E1.
      * apply lit_spec in E1. rewrite E1, app_length in L0.
        destruct (p_list n r1) as [l r2| |] eqn:E2; try discriminate.
        apply (IHl r1); [lia|exact E2].
      * destruct (lit (txt ")") (skip_ws r0)); discriminate.
    + apply (IHs t); [lia|exact E].
Qed.

Lemma start_no_fuel n : forall t, 2 * length t + 1 < n -> p_start n t <> PFuel.
Proof.
  induction n as [|n IH]; intros t Hn H; [lia|]. cbn [p_start] in H.
  destruct (p_sel n t) as [s r0| |] eqn:E; try discriminate.
  - destruct (proj1 (parse_good n) _ _ _ E) as [H1 _]. pose proof (skip_ws_length r0) as L0.
    destruct (skip_ws r0) as [|c r1] eqn:Es; [discriminate|].
    destruct (p_start n (c :: r1)) as [l' r2| |] eqn:E2; try discriminate.
    apply (IH (c :: r1)); [lia|exact E2].
  - apply (proj1 (parse_no_fuel n) t); [lia|exact E].
Qed.

Lemma fuel_suffices t : parse_fuel t <> PFuel.
Proof.
  unfold parse_fuel. intros H. pose proof (start_no_fuel (2 + 2 * length t) t ltac:(lia)) as Hn.
  destruct (p_start _ t); try discriminate. congruence.
Qed.

(* ------------------------- values written without single quotes are printable *)
(** Reading the raw text between double quotes: every quote in it is preceded by an
    odd run of backslashes, and the run at its end is even. *)
Fixpoint raw_ok (v : text) (odd : bool) : bool :=
  match v with
  | [] => negb odd
  | c :: v' =>
      if (c =? 10)%N then false
      else if (c =? 34)%N then odd && raw_ok v' false
      else if (c =? 92)%N then raw_ok v' (negb odd)
      else raw_ok v' false
  end.

Lemma scan_raw t : forall odd inner r, scan_quoted 34 t odd = Some (inner, r) -> raw_ok inner odd = true.
Proof.
  induction t as [|c t IH]; intros odd inner r H; [discriminate|]. cbn [scan_quoted] in H.
  destruct (N.eqb_spec c 10) as [|Hc10]; [discriminate|].
  destruct (N.eqb_spec c 34) as [->|Hc34]; [destruct odd|]; cbn [andb negb] in H.
  - change (34 =? 92)%N with false in H. cbn iota in H.
    destruct (scan_quoted 34 t false) as [[i r']|] eqn:E; [|discriminate]. inversion H; subst. cbn. eapply IH; eauto.
  - inversion H; subst. reflexivity.
  - destruct (c =? 92)%N eqn:E92.
    + destruct (scan_quoted 34 t (negb odd)) as [[i r']|] eqn:E; [|discriminate]. inversion H; subst.
      cbn [raw_ok]. destruct (N.eqb_spec c 10); [contradiction|]. destruct (N.eqb_spec c 34); [contradiction|].
      rewrite E92. eapply IH; eauto.
    + destruct (scan_quoted 34 t false) as [[i r']|] eqn:E; [|discriminate]. inversion H; subst.
      cbn [raw_ok]. destruct (N.eqb_spec c 10); [contradiction|]. destruct (N.eqb_spec c 34); [contradiction|].
      rewrite E92. eapply IH; eauto.
Qed.

Lemma raw_vok v : forall odd, raw_ok v odd = true ->
  match odd, v with
  | true, c :: v' => if (c =? 34)%N then vok (unescape 34 v') false = true
                     else vok (unescape 34 v) true = true
  | true, [] => False
  | false, _ => vok (unescape 34 v) false = true
  end.
Proof.
  induction v as [|c v IH]; intros odd H.
  - cbn in H. destruct odd; [discriminate|reflexivity].
  - cbn [raw_ok] in H. destruct (N.eqb_spec c 10) as [|Hc10]; [discriminate|].
    destruct (N.eqb_spec c 34) as [->|Hc34].
    + apply andb_prop in H. destruct H as [-> H]. exact (IH false H).
    + assert (Hgoal : vok (unescape 34 (c :: v)) odd = true).
      { cbn [unescape]. destruct (N.eqb_spec c 92) as [->|Hc92].
        - specialize (IH (negb odd) H). destruct odd; cbn [negb] in *.
          + destruct v as [|d v]; [reflexivity|]. destruct (N.eqb_spec d 34) as [->|Hd].
            * cbn in H. discriminate.
            * cbn [vok]. cbn. exact IH.
          + destruct v as [|d v]; [contradiction|]. destruct (N.eqb_spec d 34) as [->|Hd].
            * cbn. exact IH.
            * cbn [vok]. cbn. exact IH.
        - cbn [vok]. destruct (N.eqb_spec c 10); [contradiction|]. destruct (N.eqb_spec c 34); [contradiction|].
          destruct (N.eqb_spec c 92); [contradiction|]. exact (IH false H). }
      destruct odd; exact Hgoal.
Qed.

Lemma p_value_printable t v r : ~ In 39%N t -> p_value t = Some (Some v, r) -> printable v.
Proof.
  intros Hq. unfold p_value. destruct t as [|c t]; [discriminate|].
  destruct (c =? 34)%N.
  - destruct (scan_quoted 34 t false) as [[i r']|] eqn:E; [|discriminate]. intros H; inversion H; subst.
    apply printable_vok. apply scan_raw in E. exact (raw_vok _ _ E).
  - destruct (N.eqb_spec c 39) as [->|]; [exfalso; apply Hq; left; reflexivity|].
    destruct (scan_ident (c :: t)) as [[a r']|]; discriminate.
Qed.

Definition suffix (r t : text) : Prop := exists w, t = w ++ r.
Lemma suffix_in r t c : suffix r t -> ~ In c t -> ~ In c r.
Proof. intros [w ->] H Hr. apply H. apply in_or_app. auto. Qed.
Lemma suffix_trans a b c : suffix a b -> suffix b c -> suffix a c.
Proof. intros [x ->] [y ->]. exists (y ++ x). rewrite app_assoc. reflexivity. Qed.
Lemma suffix_ws t : suffix (skip_ws t) t.
Proof. destruct (skip_ws_spec t) as [w H]. exists w. exact H. Qed.
Lemma suffix_lit l t r : lit l t = Some r -> suffix r t.
Proof. intros H. apply lit_spec in H. exists l. exact H. Qed.
Lemma suffix_ident t a r : scan_ident t = Some (a, r) -> suffix r t.
Proof. intros H. apply scan_ident_spec in H. exists a. apply H. Qed.
Lemma suffix_op t o r : p_op t = Some (o, r) -> suffix r t.
Proof.
  unfold p_op. intros H.
  repeat (match type of H with
          | context [lit ?l t] => destruct (lit l t) eqn:?E;
              [inversion H; subst; eapply suffix_lit; eassumption|]
          end).
  discriminate.
Qed.
Lemma suffix_value t v r : p_value t = Some (v, r) -> suffix r t.
Proof.
  unfold p_value. destruct t as [|c t]; [discriminate|].
  assert (Hq : forall q i r', q <> 10%N -> scan_quoted q t false = Some (i, r') -> suffix r' (c :: t)).
  { intros q i r' Hq E. apply scan_quoted_spec in E; [|exact Hq]. destruct E as [r'' [-> ->]].
    exists (c :: i ++ [q]). cbn. rewrite <- app_assoc. reflexivity. }
  destruct (c =? 34)%N.
  - destruct (scan_quoted 34 t false) as [[i r']|] eqn:E; [|discriminate]. intros H; inversion H; subst.
    eapply Hq; eauto. discriminate.
  - destruct (c =? 39)%N.
    + destruct (scan_quoted 39 t false) as [[i r']|] eqn:E; [|discriminate]. intros H; inversion H; subst.
      eapply Hq; eauto. discriminate.
    + destruct (scan_ident (c :: t)) as [[a r']|] eqn:E; [|discriminate]. intros H; inversion H; subst.
      eapply suffix_ident; eauto.
Qed.
Lemma suffix_flag t b r : p_flag t = (b, r) -> suffix r t.
Proof.
  unfold p_flag. destruct t as [|c t]; [intros H; inversion H; exists []; reflexivity|].
  destruct ((c =? 105) || (c =? 73))%N; intros H; inversion H; subst; [exists [c]|exists []]; reflexivity.
Qed.

Lemma p_simple_values t s r : ~ In 39%N t -> p_simple t = PDone s r ->
  suffix r t /\ values_printable s.
Proof.
  unfold p_simple. intros Hq.
  destruct (scan_ident (skip_ws t)) as [[a t2]|] eqn:Ei; [|discriminate].
  assert (S2 : suffix t2 t) by (eapply suffix_trans; [eapply suffix_ident; exact Ei|apply suffix_ws]).
  assert (S3 : suffix (skip_ws t2) t) by (eapply suffix_trans; [apply suffix_ws|exact S2]).
  destruct (lit (txt "]") (skip_ws t2)) as [t4|] eqn:El.
  - cbn. intros H; inversion H; subst. split; [|exact I].
    eapply suffix_trans; [eapply suffix_lit; exact El|exact S3].
  - destruct (p_op (skip_ws t2)) as [[o t4]|] eqn:Eo; [|discriminate].
    assert (S4 : suffix (skip_ws t4) t).
    { eapply suffix_trans; [apply suffix_ws|]. eapply suffix_trans; [eapply suffix_op; exact Eo|exact S3]. }
    destruct (p_value (skip_ws t4)) as [[v t5]|] eqn:Ev; [|discriminate].
    assert (S5 : suffix (skip_ws t5) t).
    { eapply suffix_trans; [apply suffix_ws|]. eapply suffix_trans; [eapply suffix_value; exact Ev|exact S4]. }
    destruct (p_flag (skip_ws t5)) as [ic t6] eqn:Ef.
    destruct (lit (txt "]") (skip_ws t6)) as [t7|] eqn:El2; [|discriminate].
    destruct (mk_simple a (Some o) v ic) as [s'|] eqn:Em; [|discriminate]. cbn.
    intros H; inversion H; subst. split.
    + eapply suffix_trans; [eapply suffix_lit; exact El2|]. eapply suffix_trans; [apply suffix_ws|].
      eapply suffix_trans; [eapply suffix_flag; exact Ef|exact S5].
    + apply mk_simple_inv in Em. destruct Em as [[Hn _]|[o' [w [-> [Hw ->]]]]]; [discriminate|].
      cbn. eapply p_value_printable; [|exact Ev]. eapply suffix_in; [exact S4|exact Hq].
Qed.

Lemma mk_container_values c l : Forall values_printable l -> values_printable (mk_container c l).
Proof.
  intros H. assert (Hm : values_printable (SCont c l)) by (cbn; apply fold_and_Forall; exact H).
  destruct c; try exact Hm.
  - destruct l as [|x [|y l]]; try exact Hm. inversion H; subst.
    destruct x as [a o v ic|c' m|c']; cbn; try assumption; destruct c'; cbn; auto.
  - destruct l as [|x [|y l]]; try exact Hm. inversion H; subst.
    destruct x as [a o v ic|c' m|c']; cbn; try assumption; destruct c'; cbn; auto.
Qed.

Lemma parse_values n :
  (forall t s r, ~ In 39%N t -> p_sel n t = PDone s r -> suffix r t /\ values_printable s) /\
  (forall t l r, ~ In 39%N t -> p_list n t = PDone l r -> suffix r t /\ Forall values_printable l).
Proof.
  induction n as [|n [IHs IHl]]; split; intros t x r Hq H; try discriminate.
  - cbn [p_sel] in H. pose proof (suffix_ws t) as St.
    assert (Hcont : forall c tok r0, lit (txt tok) (skip_ws t) = Some r0 ->
      match p_list n r0 with
      | PDone l r' => PDone (mk_container c l) r' | PErr e => PErr e | PFuel => PFuel end = PDone x r ->
      suffix r t /\ values_printable x).
    { intros c tok r0 Hr0 Hx. apply suffix_lit in Hr0.
      assert (S0 : suffix r0 t) by (eapply suffix_trans; eassumption).
      destruct (p_list n r0) as [l r'| |] eqn:E; try discriminate. inversion Hx; subst.
      destruct (IHl _ _ _ (suffix_in _ _ _ S0 Hq) E) as [H1 H2].
      split; [eapply suffix_trans; eassumption|]. apply mk_container_values. exact H2. }
    destruct (lit (txt "[") (skip_ws t)) as [r0|] eqn:E1.
    { apply suffix_lit in E1. assert (S0 : suffix r0 t) by (eapply suffix_trans; eassumption).
      destruct (p_simple_values _ _ _ (suffix_in _ _ _ S0 Hq) H) as [H1 H2].
      split; [eapply suffix_trans; eassumption|exact H2]. }
    destruct (lit (txt ":is(") (skip_ws t)) as [r0|] eqn:E2; [apply (Hcont CAny ":is("%string r0 E2 H)|].
    destruct (lit (txt ":not(") (skip_ws t)) as [r0|] eqn:E3; [apply (Hcont CNot ":not("%string r0 E3 H)|].
    destruct (lit (txt ":where(") (skip_ws t)) as [r0|] eqn:E4;
      [apply (Hcont CWhere ":where("%string r0 E4 H)|discriminate].
  - cbn [p_list] in H. destruct (p_sel n t) as [s r0| |] eqn:E; try discriminate.
    destruct (IHs _ _ _ Hq E) as [H1 H2].
    assert (S0 : suffix (skip_ws r0) t) by (eapply suffix_trans; [apply suffix_ws|exact H1]).
    destruct (lit (txt ",") (skip_ws r0)) as [r1|] eqn:E1.
    + apply suffix_lit in E1. assert (S1 : suffix r1 t) by (eapply suffix_trans; eassumption).
      destruct (p_list n r1) as [l r2| |] eqn:E2; try discriminate. inversion H; subst.
      destruct (IHl _ _ _ (suffix_in _ _ _ S1 Hq) E2) as [H3 H4].
      split; [eapply suffix_trans; eassumption|]. constructor; assumption.
    + destruct (lit (txt ")") (skip_ws r0)) as [r1|] eqn:E2; [|discriminate]. inversion H; subst.
      apply suffix_lit in E2. split; [eapply suffix_trans; eassumption|]. auto.
Qed.

Lemma start_values n : forall t l r, ~ In 39%N t -> p_start n t = PDone l r -> Forall values_printable l.
Proof.
  induction n as [|n IH]; intros t l r Hq H; [discriminate|]. cbn [p_start] in H.
  destruct (p_sel n t) as [s r0| |] eqn:E; try discriminate.
  destruct (proj1 (parse_values n) _ _ _ Hq E) as [H1 H2]. pose proof (suffix_ws r0) as Sw.
  destruct (skip_ws r0) as [|c r1] eqn:Es.
  - inversion H; subst. auto.
  - destruct (p_start n (c :: r1)) as [l' r2| |] eqn:E2; try discriminate. inversion H; subst.
    constructor; [exact H2|]. eapply IH; [|exact E2]. eapply suffix_in; [|exact Hq].
    eapply suffix_trans; eassumption.
Qed.

Lemma parse_values_printable t s : ~ In 39%N t -> parse_selector t = Ok s -> values_printable s.
Proof.
  unfold parse_selector, parse_fuel. intros Hq H.
  destruct (p_start _ t) as [l r| |] eqn:E; try discriminate. inversion H; subst.
  apply (mk_container_values CCompound l). eapply start_values; eauto.
Qed.

Lemma parse_print_parse t s text : parse_selector t = Ok s -> values_printable s ->
  sel_str s = Ok text -> parse_selector text = Ok s.
Proof.
  unfold sel_str. intros Hp Hv. destruct (has_loop s) eqn:E; [discriminate|].
  intros H; inversion H; subst. apply round_trip; [|exact Hv]. eapply parse_ptop; eauto.
Qed.

Lemma parse_print_parse_double t s text : ~ In 39%N t -> parse_selector t = Ok s ->
  sel_str s = Ok text -> parse_selector text = Ok s.
Proof.
  intros Hq Hp. apply (parse_print_parse t); [exact Hp|]. eapply parse_values_printable; eauto.
Qed.

(** Parsed selectors are well formed in the sense of C07. *)
Lemma pitem_proper s : pitem s -> proper s.
Proof.
  induction s as [a o v ic|c l IH|c] using selector_ind'; intros Hp.
  - cbn in *. destruct o, v as [[|x v]|]; try contradiction; try exact I; destruct Hp as [H1 H2]; auto.
  - assert (Hl : l <> [] /\ Forall pitem l).
    { destruct c; cbn in Hp; try contradiction; destruct Hp as [H1 H2]; apply fold_and_Forall in H2;
        (split; [intros ->; cbn in H1; lia|exact H2]). }
    destruct Hl as [Hne Hl]. apply proper_forall; [exact Hne|].
    rewrite Forall_forall in *. intros x Hx. apply IH; auto.
  - destruct Hp.
Qed.

Lemma parse_proper t s : parse_selector t = Ok s -> has_loop s = false -> proper s.
Proof.
  intros H HL. destruct (parse_ptop t s H HL) as [Hp|[l [-> [Hlen Hp]]]].
  - apply pitem_proper. exact Hp.
  - apply proper_forall; [intros ->; cbn in Hlen; lia|]. eapply Forall_impl; [|exact Hp]. apply pitem_proper.
Qed.

(* --------------------------------------------- the whole language parses *)
Lemma first_char_iff c : first_char c = true <-> name_first c.
Proof. unfold first_char, name_first. lia. Qed.
Lemma other_char_iff c : other_char c = true <-> name_other c.
Proof. unfold other_char, name_other. rewrite <- first_char_iff. destruct (first_char c); cbn; lia. Qed.

Lemma identifier_ident a : identifier a -> ident a.
Proof.
  unfold ident. intros [->|[c [rest [Ha [Hc Hr]]]]]; [reflexivity|].
  assert (Hall : forallb other_char rest = true).
  { apply forallb_forall. rewrite Forall_forall in Hr. intros x Hx. apply other_char_iff. auto. }
  pose proof (span_other_app rest [] Hall I) as Hs. rewrite app_nil_r in Hs.
  apply first_char_iff in Hc. destruct Ha as [->| ->]; cbn [scan_ident].
  - rewrite Hc, Hs. reflexivity.
  - change (first_char 45) with false. cbn. rewrite Hc, Hs. reflexivity.
Qed.

Lemma basic_pitem s : basic s -> pitem s /\ values_printable s.
Proof.
  induction s as [a o v ic|c l IH|c] using selector_ind'; intros Hb.
  - cbn in *. destruct o, v; try contradiction; intuition auto using identifier_ident.
  - assert (Hl : Forall basic l).
    { apply fold_and_Forall. destruct c; cbn in Hb; try contradiction; apply Hb. }
    assert (Hb' : Forall pitem l /\ Forall values_printable l).
    { rewrite !Forall_forall in *. split; intros x Hx; apply IH; auto. }
    destruct Hb' as [H1 H2]. apply fold_and_Forall in H1. split; [|cbn; apply fold_and_Forall; exact H2].
    destruct c; cbn in *; try contradiction; intuition.
  - destruct Hb.
Qed.

Lemma in_language_round s : in_language s -> sel_str s = Ok (print s) /\ parse_selector (print s) = Ok s.
Proof.
  intros H. assert (Hp : ptop s /\ values_printable s).
  { destruct H as [H|[l [-> [Hlen H]]]].
    - apply basic_pitem in H. split; [left|]; apply H.
    - split; [right; exists l; repeat split; [exact Hlen|]|cbn; apply fold_and_Forall];
      (eapply Forall_impl; [|exact H]; intros x Hx; apply basic_pitem in Hx; apply Hx). }
  destruct Hp as [Hp Hv]. pose proof (round_trip s Hp Hv) as HR. split; [|exact HR].
  unfold sel_str. destruct (has_loop s) eqn:E; [|reflexivity].
  assert (Hprop : proper s).
  { destruct Hp as [Hp|[l [-> [Hlen Hp]]]]; [apply pitem_proper; exact Hp|].
    apply proper_forall; [intros ->; cbn in Hlen; lia|]. eapply Forall_impl; [|exact Hp]. apply pitem_proper. }
  rewrite (proper_no_loop s Hprop) in E. discriminate.
Qed.

Lemma ident_identifier a : ident a -> identifier a.
Proof.
  unfold ident, scan_ident. destruct a as [|c a]; [discriminate|].
  destruct (first_char c) eqn:Ec.
  - destruct (span_other a) as [x r] eqn:E. intros H; inversion H; subst.
    destruct (span_other_spec _ _ _ E) as [_ [Hall _]]. right. exists c, a. split; [auto|].
    split; [apply first_char_iff; exact Ec|]. apply Forall_forall. intros y Hy.
    apply other_char_iff. rewrite forallb_forall in Hall. auto.
  - destruct (N.eqb_spec c 45) as [->|]; [|discriminate]. destruct a as [|d a]; [left; reflexivity|].
    destruct (first_char d) eqn:Ed.
    + destruct (span_other a) as [x r] eqn:E. intros H; inversion H; subst.
      destruct (span_other_spec _ _ _ E) as [_ [Hall _]]. right. exists d, a. split; [auto|].
      split; [apply first_char_iff; exact Ed|]. apply Forall_forall. intros y Hy.
      apply other_char_iff. rewrite forallb_forall in Hall. auto.
    + intros H; inversion H.
Qed.

Lemma pitem_basic s : pitem s -> values_printable s -> basic s.
Proof.
  induction s as [a o v ic|c l IH|c] using selector_ind'; intros Hp Hv.
  - cbn in *. destruct o, v; try contradiction; intuition auto using ident_identifier.
  - assert (Hl : Forall pitem l).
    { apply fold_and_Forall. destruct c; cbn in Hp; try contradiction; apply Hp. }
    cbn in Hv. apply fold_and_Forall in Hv.
    assert (Hb : Forall basic l).
    { rewrite Forall_forall in *. intros x Hx. apply IH; auto. }
    apply fold_and_Forall in Hb. destruct c; cbn in *; try contradiction; intuition.
  - destruct Hp.
Qed.

(** Exactly the printable selectors of the language come out of the parser. *)
Lemma parsed_in_language t s : parse_selector t = Ok s -> has_loop s = false -> values_printable s ->
  in_language s.
Proof.
  intros H HL Hv. destruct (parse_ptop t s H HL) as [Hp|[l [-> [Hlen Hp]]]].
  - left. apply pitem_basic; assumption.
  - right. exists l. split; [reflexivity|]. split; [exact Hlen|]. cbn in Hv. apply fold_and_Forall in Hv.
    rewrite Forall_forall in *. intros x Hx. apply pitem_basic; auto.
Qed.
