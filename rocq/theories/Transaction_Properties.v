(** C23: operations are all-or-nothing. *)
From Verif Require Import Prelude Transaction_Model Transaction_Spec Transaction_Proofs.
Local Open Scope nat_scope.

(** No transaction is left open, whatever the body does and whatever fails. *)
Theorem C23_closed {S V} b o (p : prog S V) c : idle c -> idle (fst (managed_transaction b o p c)).
Proof. exact (managed_closed b o p c). Qed.
Print Assumptions C23_closed.

(** The operation succeeds exactly if it could begin, the body finished and the commit was
    accepted; then all its writes are visible; else the data and the connection are as before. *)
Theorem C23_all_or_nothing {S V} b o (p : prog S V) c : idle c -> careful p ->
  (snd (managed_transaction b o p c) = None <-> b = None /\ o = CommitOk /\ exists s, works p (committed c) (Finishes s)) /\
  (snd (managed_transaction b o p c) = None -> works p (committed c) (Finishes (committed (fst (managed_transaction b o p c))))) /\
  (snd (managed_transaction b o p c) <> None -> fst (managed_transaction b o p c) = c).
Proof. exact (managed_atomic b o p c). Qed.
Print Assumptions C23_all_or_nothing.

(** The caller sees the error of the body, be it an exception or an interrupt. *)
Theorem C23_error {S V} o (p : prog S V) c x : idle c -> careful p -> works p (committed c) (Raises x) ->
  snd (managed_transaction None o p c) = Some x.
Proof. intros H1 H2. exact (managed_error None o p c x H1 H2 eq_refl). Qed.
Print Assumptions C23_error.

(** A transaction within a transaction is refused and leaves the outer one alone. *)
Theorem C23_nested {S V} b o (p : prog S V) c : ~ idle c -> managed_transaction b o p c = (c, Some (Exn PlainException)).
Proof. exact (managed_nested b o p c). Qed.
Print Assumptions C23_nested.

(** Any list of operations: the data is that of the operations which reported success. *)
Theorem C23_history {S V} (l : list (option exn * commit_fault * prog S V)) c : idle c -> Forall (fun x => careful (snd x)) l ->
  idle (fst (run_all l c)) /\ history (map snd l) (snd (run_all l c)) (committed c) (committed (fst (run_all l c))).
Proof. exact (run_all_history l c). Qed.
Print Assumptions C23_history.

(** *** A case: a list of numbers; the body adds 1, tries to add a number that is refused, and goes
    on with 2 *)
Definition put (n : nat) (s : list nat) : answer (list nat) unit := if n <? 5 then Done (s ++ [n]) tt else Refused SqlIntegrityError.
Definition body (n : nat) : prog (list nat) unit :=
  Execute (put 1) (fun _ => Execute (put 7) (fun _ => Execute (put n) (fun r => match r with Got _ => Return | Failed e => Raise (Exn e) end))).
Lemma body_careful n : careful (body n).
Proof.
  assert (P : forall m s e, put m s <> Aborted e) by (intros m s e; unfold put; destruct (m <? 5); discriminate).
  constructor; [intros _|intros s e E; now apply P in E]. constructor; [intros _|intros s e E; now apply P in E].
  constructor; [intros [v|e]; constructor|intros s e E; now apply P in E].
Qed.
Example C23_case :
  run_all [(None, CommitOk, body 2); (None, CommitOk, body 9); (None, CommitRefused SqlOperationalError, body 3); (None, CommitOk, body 4)]
    {| committed := [0]; working := None |} =
  ({| committed := [0; 1; 2; 1; 4]; working := None |}, [None; Some (Exn SqlIntegrityError); Some (Exn SqlOperationalError); None]).
Proof. reflexivity. Qed.

(** *** Findings *)

(** If the database gives up the transaction, the caller gets the error of the failed ROLLBACK
    instead of the one that caused it. *)
Theorem C23_masked_refuted : exists (p : prog (list nat) unit) e, careful p /\
  (forall s, works p s GivenUp) /\ p = Execute (fun _ => Aborted e) (fun r => match r with Got _ => Return | Failed e => Raise (Exn e) end) /\
  forall o c, idle c -> snd (managed_transaction None o p c) = Some (Exn SqlOperationalError) /\ e <> SqlOperationalError.
Proof.
  exists (Execute (fun _ => Aborted OsError) (fun r => match r with Got _ => Return | Failed e => Raise (Exn e) end)), OsError.
  split; [|split; [|split; [reflexivity|]]].
  - constructor; [intros [v|e]; constructor|]. intros s e _. right. eauto.
  - intros s. eapply W_aborted. reflexivity.
  - intros o [cm wk] Hc. cbn in Hc. unfold idle in Hc. cbn in Hc. subst wk. split; [reflexivity|discriminate].
Qed.
Print Assumptions C23_masked_refuted.

(** A body that catches such an error and goes on writes outside any transaction: the
    operation fails, but part of it is kept. *)
Theorem C23_swallowed_refuted : exists (p : prog (list nat) unit) c,
  idle c /\ snd (managed_transaction None CommitOk p c) <> None /\
  committed c = [0] /\ committed (fst (managed_transaction None CommitOk p c)) = [0; 2].
Proof.
  exists (Execute (put 1) (fun _ => Execute (fun _ => Aborted OsError) (fun _ => Execute (put 2) (fun _ => Return)))).
  exists {| committed := [0]; working := None |}. split; [reflexivity|]. cbn. repeat split. discriminate.
Qed.
Print Assumptions C23_swallowed_refuted.

(** Operations that use a cursor without a transaction are not all-or-nothing. *)
Theorem C23_unmanaged_refuted : exists (p : prog (list nat) unit) c, careful p /\
  idle c /\ snd (unmanaged p c) <> None /\ committed c = [0] /\ committed (fst (unmanaged p c)) = [0; 1].
Proof.
  exists (body 9), {| committed := [0]; working := None |}. split; [apply body_careful|]. cbn. repeat split. discriminate.
Qed.
Print Assumptions C23_unmanaged_refuted.
