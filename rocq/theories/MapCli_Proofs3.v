(** Proofs for C58: exit status, files and log. *)
From Coq Require Import NArith ZifyBool ZifyN ZifyNat Lia.
From Verif Require Import Prelude QLemmas BitFlags_Model Selectors_Model LinkRef_Model Db_Model Db_Spec Db_Proofs Db_ProofsRun
  Mapper_Model Mapper_Spec Mapper_Proofs3 Mapper_Proofs4 Streams_Model IndexCli_Model MapCli_Model MapCli_Spec MapCli_Proofs2.
Local Open Scope nat_scope.

Definition no00 (rows : list m_row) : Prop := exists out, rows = to_rows out /\ forall o i lv q, In ((o, i, lv), Some q) out -> ~ (o = 0 /\ i = 0)%Z.
Lemma iter_no00 src from to : no00 (to_rows (iter_mappings src from to)).
Proof. eexists. split; [reflexivity|]. intros o i lv q H. apply iter_defined in H. apply H. Qed.

Lemma load_into_cases o from into rows : no00 rows ->
  (exists e, load_into o from into rows = (sp_db into, Err e)) \/
  (exists s' m, load_into o from into rows = (s', Ok [m]) /\ step (OInsertMappings2 (sp_id from) (Some (o_link o)) rows) (sp_db into) = (s', None) /\
     insert_mappings2 (sp_id from) (Some (o_link o)) rows (sp_db into) = Ok s' /\ reports (o_link o) from s' [m]).
Proof.
  intros (out & -> & N). unfold load_into.
  destruct (transact_cases (insert_mappings2 (sp_id from) (Some (o_link o)) (to_rows out)) (sp_db into)) as [(s' & H & T & _)|(e & T)]; rewrite T; [|left; eauto].
  right. destruct (load_effect _ _ _ _ _ H N) as (k & k' & _ & Hk & _). rewrite Hk. cbn [bind]. exists s'. eexists. split; [reflexivity|].
  split; [exact T|]. split; [exact H|]. exists k'. auto.
Qed.

Lemma build_no00 todecimal o x1 x2 stdin r l : build_mappings todecimal o x1 x2 stdin = Ok (r, l) -> no00 r /\ no00 l.
Proof.
  unfold build_mappings. intros H. apply bind_ok in H. destruct H as (data & _ & H). apply bind_ok in H. destruct H as (src & _ & H).
  apply bind_ok in H. destruct H as ((l1 & c1) & _ & H). apply bind_ok in H. destruct H as ((l2 & c2) & _ & H).
  destruct (_ && _); [discriminate|]. inversion H; subst. split; apply iter_no00.
Qed.


Section Outcome.
Context (todecimal : N -> option N) (o : options) (x1 x2 : space) (stdin : stream row).
Let R := read_from_stdin todecimal o x1 x2 stdin.

(** Both links, and what the direction asks for. *)
Local Notation asked_right := (MapCli_Spec.asked_right o x1 x2).
Local Notation asked_left := (MapCli_Spec.asked_left o x1 x2).
Local Notation refused := (MapCli_Spec.refused o x1 x2).
Lemma resolve_cases :
  (exists m, resolve o x1 x2 = inr m /\ refused) \/
  (~ refused /\ exists dir log, resolve o x1 x2 = inl (dir, log) /\ (asked_right <-> dir <> ToLeft) /\ (asked_left <-> dir <> ToRight) /\
     match o_direction o with
     | Both => (unlinked (o_link o) x2 x1 -> log = [NoLinkToFile1]) /\ (unlinked (o_link o) x1 x2 -> log = [NoLinkToFile2]) /\
               (asked_left -> asked_right -> log = [])
     | _ => log = [] end).
Proof.
  unfold resolve, refused, MapCli_Spec.asked_right, MapCli_Spec.asked_left.
  destruct (finds_link o x2 x1) eqn:L, (finds_link o x1 x2) eqn:K; cbn [andb negb];
    first [apply finds_link_iff in L|apply finds_link_false in L]; first [apply finds_link_iff in K|apply finds_link_false in K];
    assert (L' := L); assert (K' := K); try (destruct L' as (lk & L')); try (destruct K' as (rk & K')); destruct (o_direction o) eqn:D;
    first [left; eexists; split; [reflexivity|]; auto; fail|right].
  all: split; [intros X; repeat match goal with H : _ /\ _ |- _ => destruct H end; repeat match goal with U : unlinked _ ?a ?b, V : linked _ ?a ?b _ |- _ => exact (U _ V) end|].
  all: eexists; eexists; split; [reflexivity|]; split; [|split].
  all: try reflexivity.
  all: try (split; [intros (A & B) ?|intros A; split; eauto]; try congruence;
    try (destruct B as (? & B)); try congruence; try (repeat match goal with U : unlinked _ ?a ?b, V : linked _ ?a ?b _ |- _ => destruct (U _ V) end)).
  all: try discriminate.
  all: repeat split; try (intros; reflexivity); try (intros U; exfalso; eapply U; eassumption).
  all: intros (_ & a & A) (_ & b & B); exfalso; first [eapply L; eassumption|eapply K; eassumption].
Qed.

Lemma outcome_cases :
  (r_exit R = Ok ExitErr /\ refused /\ r_1 R = sp_db x1 /\ r_2 R = sp_db x2 /\ exists m, r_log R = [m]) \/
  ~ refused /\ exists dir log, resolve o x1 x2 = inl (dir, log) /\ (asked_right <-> dir <> ToLeft) /\ (asked_left <-> dir <> ToRight) /\
  ((exists e, build_mappings todecimal o x1 x2 stdin = Err e /\ r_exit R = Err e /\ r_1 R = sp_db x1 /\ r_2 R = sp_db x2 /\ r_log R = log) \/
   exists rr lr, build_mappings todecimal o x1 x2 stdin = Ok (rr, lr) /\
   ((exists e, asked_right /\ load_into o x1 x2 rr = (sp_db x2, Err e) /\ r_exit R = Err e /\ r_1 R = sp_db x1 /\ r_2 R = sp_db x2) \/
    exists log2, (asked_right /\ load_into o x1 x2 rr = (r_2 R, Ok log2) /\ reports (o_link o) x1 (r_2 R) log2 /\
             step (OInsertMappings2 (sp_id x1) (Some (o_link o)) rr) (sp_db x2) = (r_2 R, None) /\
             insert_mappings2 (sp_id x1) (Some (o_link o)) rr (sp_db x2) = Ok (r_2 R) \/
           ~ asked_right /\ r_2 R = sp_db x2 /\ log2 = []) /\
    ((exists e, asked_left /\ load_into o x2 x1 lr = (sp_db x1, Err e) /\ r_exit R = Err e /\ r_1 R = sp_db x1) \/
     exists log1, (asked_left /\ load_into o x2 x1 lr = (r_1 R, Ok log1) /\ reports (o_link o) x2 (r_1 R) log1 /\
              step (OInsertMappings2 (sp_id x2) (Some (o_link o)) lr) (sp_db x1) = (r_1 R, None) /\
              insert_mappings2 (sp_id x2) (Some (o_link o)) lr (sp_db x1) = Ok (r_1 R) \/
            ~ asked_left /\ r_1 R = sp_db x1 /\ log1 = []) /\
       r_exit R = Ok ExitOk /\ r_log R = log ++ log2 ++ log1))).
Proof.
  subst R. unfold read_from_stdin. destruct resolve_cases as [(m & -> & U)|(U & dir & log & -> & AR & AL & _)].
  - left. cbn. repeat split; eauto.
  - right. split; [exact U|]. exists dir, log. split; [reflexivity|]. split; [exact AR|]. split; [exact AL|].
    destruct (build_mappings todecimal o x1 x2 stdin) as [[rr lr]|e] eqn:B; [|left; exists e; cbn; auto].
    right. exists rr, lr. split; [reflexivity|]. destruct (build_no00 _ _ _ _ _ _ _ B) as [Nr Nl].
    set (first := match dir with ToLeft => (sp_db x2, Ok []) | _ => load_into o x1 x2 rr end).
    assert (F : (exists e, asked_right /\ load_into o x1 x2 rr = (sp_db x2, Err e) /\ first = (sp_db x2, Err e)) \/
      exists s2 log2, first = (s2, Ok log2) /\ (asked_right /\ load_into o x1 x2 rr = (s2, Ok log2) /\ reports (o_link o) x1 s2 log2 /\
             step (OInsertMappings2 (sp_id x1) (Some (o_link o)) rr) (sp_db x2) = (s2, None) /\
             insert_mappings2 (sp_id x1) (Some (o_link o)) rr (sp_db x2) = Ok s2 \/
           ~ asked_right /\ s2 = sp_db x2 /\ log2 = [])).
    { assert (C : dir = ToLeft \/ (dir <> ToLeft /\ first = load_into o x1 x2 rr)) by (destruct dir; [right; split; [discriminate|reflexivity]|left; reflexivity|right; split; [discriminate|reflexivity]]).
      destruct C as [->|[C E]].
      - right. exists (sp_db x2), []. split; [reflexivity|]. right. split; [intros A; apply (proj1 AR A); reflexivity|auto].
      - rewrite E. destruct (load_into_cases o x1 x2 rr Nr) as [(e & H)|(s' & m & H & S & I & Rp)]; [left; exists e; split; [exact (proj2 AR C)|auto]|].
        right. exists s', [m]. split; [exact H|]. left. split; [exact (proj2 AR C)|]. auto. }
    clearbody first. destruct F as [(e & A & L & ->)|(s2 & log2 & -> & C2)].
    + left. exists e. cbn. auto.
    + right. exists log2.
      set (second := match dir with ToRight => (sp_db x1, Ok []) | _ => load_into o x2 x1 lr end).
      assert (G : (exists e, asked_left /\ load_into o x2 x1 lr = (sp_db x1, Err e) /\ second = (sp_db x1, Err e)) \/
        exists s1 log1, second = (s1, Ok log1) /\ (asked_left /\ load_into o x2 x1 lr = (s1, Ok log1) /\ reports (o_link o) x2 s1 log1 /\
               step (OInsertMappings2 (sp_id x2) (Some (o_link o)) lr) (sp_db x1) = (s1, None) /\
               insert_mappings2 (sp_id x2) (Some (o_link o)) lr (sp_db x1) = Ok s1 \/
             ~ asked_left /\ s1 = sp_db x1 /\ log1 = [])).
      { assert (C : dir = ToRight \/ (dir <> ToRight /\ second = load_into o x2 x1 lr)) by (destruct dir; [right; split; [discriminate|reflexivity]|right; split; [discriminate|reflexivity]|left; reflexivity]).
        destruct C as [->|[C E]].
        - right. exists (sp_db x1), []. split; [reflexivity|]. right. split; [intros A; apply (proj1 AL A); reflexivity|auto].
        - rewrite E. destruct (load_into_cases o x2 x1 lr Nl) as [(e & H)|(s' & m & H & S & I & Rp)]; [left; exists e; split; [exact (proj2 AL C)|auto]|].
          right. exists s', [m]. split; [exact H|]. left. split; [exact (proj2 AL C)|]. auto. }
      clearbody second. destruct G as [(e & A & L & ->)|(s1 & log1 & -> & C1)].
      * cbn [r_1 r_2 r_log r_exit]. split; [exact C2|]. left. exists e. auto.
      * cbn [r_1 r_2 r_log r_exit]. split; [exact C2|]. right. exists log1. split; [exact C1|]. auto.
Qed.
End Outcome.
