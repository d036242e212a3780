(** C40: the checksum over index ids accepts exactly the documented sequences, and
    never feeds the same bytes for two different ones. *)
From Verif Require Import Prelude IndexCode_Spec SeqHash_Model SeqHash_Spec SeqHash_Proofs.
Local Open Scope Z_scope.

Theorem C40_accepts_exactly : forall vs, (exists h, new_seqhash (Some vs) = Ok h) <-> legal vs.
Proof. exact accepts. Qed.
Print Assumptions C40_accepts_exactly.

Theorem C40_otherwise_value_error : forall vs, ~ legal vs -> new_seqhash (Some vs) = Err ValueError.
Proof. exact rejects. Qed.
Print Assumptions C40_otherwise_value_error.

(** What reaches the hash function: every value as eight bytes, in order. *)
Theorem C40_bytes : forall vs h, new_seqhash (Some vs) = Ok h -> written vs (sh_fed h).
Proof. exact fed_written. Qed.
Print Assumptions C40_bytes.

Theorem C40_distinct : forall vs ws h k,
  new_seqhash (Some vs) = Ok h -> new_seqhash (Some ws) = Ok k -> sh_fed h = sh_fed k -> vs = ws.
Proof. exact injective. Qed.
Print Assumptions C40_distinct.

(** Values given later count like values given at once. *)
Theorem C40_incremental : forall vs ws h,
  new_seqhash (Some vs) = Ok h -> add_values h ws = new_seqhash (Some (vs ++ ws)).
Proof. exact incremental. Qed.
Print Assumptions C40_incremental.

(** One more value is accepted exactly when it continues the sequence, and a
    rejected value leaves the object as it was. *)
Theorem C40_rejected_value_changes_nothing : forall vs h v, new_seqhash (Some vs) = Ok h ->
  (snd (add_value h v) = None <-> legal (vs ++ [v])) /\
  (snd (add_value h v) <> None -> add_value h v = (h, Some ValueError)).
Proof. exact add_value_iff. Qed.
Print Assumptions C40_rejected_value_changes_nothing.

(** A caller that catches errors and carries on ends with the checksum of the
    values that were accepted. *)
Theorem C40_carry_on : forall vs h0 h es, new_seqhash None = Ok h0 -> feed h0 vs = (h, es) ->
  exists k, kept vs es k /\ new_seqhash (Some k) = Ok h /\ (forall e, In (Some e) es -> e = ValueError).
Proof. intros vs h0 h es E. injection E as <-. exact (feed_start vs h es). Qed.
Print Assumptions C40_carry_on.

(** The stored index hash tells different sets of index ids apart. *)
Theorem C40_index_hash : forall ids js, legal ids -> legal js ->
  exists a b, index_hash_bytes ids = Ok a /\ index_hash_bytes js = Ok b /\ (a = b <-> ids = js).
Proof. exact index_hash_distinguishes. Qed.
Print Assumptions C40_index_hash.

Definition c40_ids : list Z := [0; 1; 2; 5; 256; 18446744073709551615].
Example c40_accepted : exists h, new_seqhash (Some c40_ids) = Ok h.
Proof. eexists. vm_compute. reflexivity. Qed.
Example c40_legal : legal c40_ids.
Proof. apply C40_accepts_exactly. exact c40_accepted. Qed.
Example c40_too_big : ~ legal (c40_ids ++ [18446744073709551616]).
Proof. intro H. apply C40_accepts_exactly in H as (h & E). vm_compute in E. discriminate E. Qed.
Example c40_repeat : ~ legal [3; 3].
Proof. intro H. apply C40_accepts_exactly in H as (h & E). vm_compute in E. discriminate E. Qed.
Example c40_carries_on :
  exists h, feed {| sh_prev := -1; sh_fed := [] |} [4; 4; -7; 6] = (h, [None; Some ValueError; Some ValueError; None])
         /\ new_seqhash (Some [4; 6]) = Ok h.
Proof. eexists. split; vm_compute; reflexivity. Qed.
