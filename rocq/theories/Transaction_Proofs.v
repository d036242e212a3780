(** Proofs about the managed transaction. *)
From Verif Require Import Prelude Transaction_Model Transaction_Spec.

Section T.
Context {S V : Type}.
Implicit Types (p : prog S V) (c : conn S).

Lemma works_total p : forall s, exists out, works p s out.
Proof.
  induction p as [|x|f k IH]; intros s; [eexists; constructor|eexists; constructor|].
  destruct (f s) as [s' v|e|e] eqn:E; [destruct (IH (Got v) s') as (out & H)|destruct (IH (Failed e) s) as (out & H)|].
  - exists out. eapply W_done; eauto.
  - exists out. eapply W_refused; eauto.
  - exists GivenUp. eapply W_aborted; eauto.
Qed.
Lemma works_fun p s o1 : works p s o1 -> forall o2, works p s o2 -> o1 = o2.
Proof.
  induction 1 as [s|x s|f k s s' v out E H IH|f k s e out E H IH|f k s e E]; intros o2 H2; inversion H2; subst; auto; try congruence.
  - rewrite E in H3. inversion H3; subst. auto.
  - rewrite E in H3. inversion H3; subst. auto.
Qed.

(** A body run in a transaction. *)
Lemma run_body_in p : careful p -> forall c w, working c = Some w ->
  forall out, works p w out ->
  match out with
  | Finishes s => run_body p c = ({| committed := committed c; working := Some s |}, None)
  | Raises x => exists w', run_body p c = ({| committed := committed c; working := Some w' |}, Some x)
  | GivenUp => exists r, run_body p c = ({| committed := committed c; working := None |}, r)
  end.
Proof.
  induction 1 as [|x|f k Hk IH Ha]; intros c w Ew out H; inversion H; subst; cbn [run_body].
  - destruct c as [cm wk]; cbn in *; subst. reflexivity.
  - exists w. destruct c as [cm wk]; cbn in *; subst. reflexivity.
  - unfold execute. rewrite Ew. match goal with E : f w = _ |- _ => rewrite E end.
    match goal with H : works (k _) _ _ |- _ => exact (IH (Got v) {| committed := committed c; working := Some s' |} s' eq_refl out H) end.
  - unfold execute. rewrite Ew. match goal with E : f w = _ |- _ => rewrite E end.
    match goal with H : works (k _) _ _ |- _ => exact (IH (Failed e) c w Ew out H) end.
  - unfold execute. rewrite Ew. match goal with E : f w = _ |- _ => rewrite E; destruct (Ha _ _ E) as [E'|(x & E')]; rewrite E' end; cbn [run_body]; eauto.
Qed.

Lemma finish_idle (cr : conn S * option raised) : working (fst (finish cr)) = None /\ committed (fst (finish cr)) = committed (fst cr).
Proof. destruct cr as [[cm [w|]] r]; unfold finish, is_active, rollback; cbn; auto. Qed.

Theorem managed_closed b o p c : working c = None -> working (fst (managed_transaction b o p c)) = None.
Proof.
  intros Hc. unfold managed_transaction, is_active. rewrite Hc. unfold begin. destruct b as [e|]; [exact Hc|].
  destruct (match run_body p _ with (c0, None) => commit o c0 | (c0, Some x) => (c0, Some x) end) as [c1 r].
  apply finish_idle.
Qed.

Theorem managed_atomic b o p c : working c = None -> careful p ->
  (snd (managed_transaction b o p c) = None <-> b = None /\ o = CommitOk /\ exists s, works p (committed c) (Finishes s)) /\
  (snd (managed_transaction b o p c) = None -> works p (committed c) (Finishes (committed (fst (managed_transaction b o p c))))) /\
  (snd (managed_transaction b o p c) <> None -> fst (managed_transaction b o p c) = c).
Proof.
  intros Hc Hp. destruct c as [cm wk]. cbn in Hc. subst wk. unfold managed_transaction, is_active, begin. cbn [working committed].
  destruct b as [e|]; [cbn; split; [split; [discriminate|intros (H & _); discriminate H]|split; [discriminate|auto]]|].
  destruct (works_total p cm) as (out & H).
  pose proof (run_body_in p Hp {| committed := cm; working := Some cm |} cm eq_refl out H) as R. cbn [committed] in R.
  assert (U : forall s, works p cm (Finishes s) -> out = Finishes s) by (intros s Hs; exact (works_fun p cm out H _ Hs)).
  destruct out as [s|x|].
  - rewrite R. unfold commit. cbn [working committed]. destruct o as [|e|e]; cbn; (split; [split|split]); try discriminate; auto.
    + intros _. eauto.
    + now intros [].
    + intros (_ & E & _). discriminate E.
    + intros (_ & E & _). discriminate E.
  - destruct R as (w' & R). rewrite R. destruct x as [e|]; cbn; (split; [split|split]); try discriminate; auto;
      intros (_ & _ & s & Hs); apply U in Hs; discriminate Hs.
  - destruct R as (r & R). rewrite R. destruct r as [[e|]|]; cbn; (split; [split|split]); try discriminate; auto;
      intros (_ & _ & s & Hs); apply U in Hs; discriminate Hs.
Qed.

(** The error of the body is the one the caller sees, unless the database gave up. *)
Theorem managed_error b o p c x : working c = None -> careful p -> b = None -> works p (committed c) (Raises x) ->
  snd (managed_transaction b o p c) = Some x.
Proof.
  intros Hc Hp -> H. destruct c as [cm wk]. cbn in Hc. subst wk. unfold managed_transaction, is_active, begin. cbn [working committed].
  pose proof (run_body_in p Hp {| committed := cm; working := Some cm |} cm eq_refl _ H) as R. cbn in R. destruct R as (w & R). cbn [committed] in *. rewrite R.
  destruct x as [e|]; reflexivity.
Qed.

Theorem managed_nested b o p c : working c <> None -> managed_transaction b o p c = (c, Some (Exn PlainException)).
Proof. intros H. unfold managed_transaction, is_active. destruct (working c); [reflexivity|easy]. Qed.

Theorem run_all_history (l : list (option exn * commit_fault * prog S V)) : forall c, working c = None -> Forall (fun x => careful (snd x)) l ->
  working (fst (run_all l c)) = None /\
  history (map snd l) (snd (run_all l c)) (committed c) (committed (fst (run_all l c))).
Proof.
  induction l as [|[[b o] p] l IH]; intros c Hc H; cbn [run_all map snd]; [split; [exact Hc|constructor]|].
  inversion H as [|? ? Hp Hl]; subst. cbn [snd] in Hp. pose proof (managed_closed b o p c Hc) as Hi.
  destruct (managed_atomic b o p c Hc Hp) as (_ & A & B).
  destruct (managed_transaction b o p c) as [c1 r] eqn:E. cbn [fst snd] in *.
  destruct (IH c1 Hi Hl) as (H1 & H2). destruct (run_all l c1) as [c2 rs]. cbn [fst snd] in *. split; [exact H1|].
  destruct r as [x|].
  - assert (E1 : c1 = c) by (apply B; discriminate). subst c1. constructor. exact H2.
  - eapply H_done; [apply A; reflexivity|exact H2].
Qed.

(** Without a transaction every statement that succeeded stays. *)
Lemma unmanaged_keeps (f : S -> answer S V) (k : reply V -> prog S V) c s v e : working c = None -> f (committed c) = Done s v -> k (Got v) = Raise (Exn e) ->
  unmanaged (Execute f k) c = ({| committed := s; working := None |}, Some (Exn e)).
Proof. intros Hc E Ek. unfold unmanaged. cbn [run_body]. unfold execute. rewrite Hc, E, Ek. reflexivity. Qed.
End T.
