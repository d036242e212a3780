(** C12 and C13: disaggregating one quantity over index records. *)
From Verif Require Import Prelude Disaggregate_Model Disaggregate_Spec Disaggregate_Proofs.

(** C12: conservation, for every value, every collection of distinct ids and every
    weights (of any sign, zero, or missing on the undefined record). *)
Theorem C12_conserves q ids w : NoDup ids -> ids <> [] -> ~ lacks_weight w ids ->
  exists out, disaggregate_value q ids w = Ok out /\ map fst out = ids /\
    (Qsum (map snd out) == q)%Q.
Proof. exact (disaggregate_conserves q ids w). Qed.
Print Assumptions C12_conserves.

(** It raises exactly in the two remaining cases. *)
Theorem C12_raises q ids w :
  (lacks_weight w ids -> disaggregate_value q ids w = Err KeyError) /\
  (ids = [] -> disaggregate_value q ids w = Err RuntimeError).
Proof. exact (disaggregate_raises q ids w). Qed.
Print Assumptions C12_raises.

(** C13: the share of each record. *)
Theorem C13_proportional q ids w out i x : NoDup ids ->
  disaggregate_value q ids w = Ok out -> In (i, x) out ->
  (~ (total_weight w ids == 0)%Q -> (x == q * weight_or_zero w i / total_weight w ids)%Q) /\
  ((total_weight w ids == 0)%Q ->
     (ids = [i] -> (x == q)%Q) /\
     (ids <> [i] -> i = 0%Z -> (x == 0)%Q) /\
     (ids <> [i] -> i <> 0%Z -> (x == q / inject_Z (Z.of_nat (defined_count ids)))%Q)).
Proof. exact (disaggregate_proportional q ids w out i x). Qed.
Print Assumptions C13_proportional.

Theorem C13_nonnegative q ids w out i x : NoDup ids -> (0 <= q)%Q ->
  (forall j v, w j = Some v -> (0 <= v)%Q) ->
  disaggregate_value q ids w = Ok out -> In (i, x) out -> (0 <= x)%Q.
Proof. exact (disaggregate_nonneg q ids w out i x). Qed.
Print Assumptions C13_nonnegative.

(** The function itself does not check its weights: with negative ones a positive quantity may
    get a negative share.  Stored weights are never negative (C28). *)
Theorem C13_negative_weights_refuted : exists q ids w out i x,
  NoDup ids /\ (0 <= q)%Q /\ disaggregate_value q ids w = Ok out /\ In (i, x) out /\ (x < 0)%Q.
Proof.
  exists 10%Q, [1; 2]%Z, (fun i => if (i =? 1)%Z then Some (-1)%Q else Some 2%Q).
  eexists. exists 1%Z. eexists. split; [repeat constructor; cbn; intuition discriminate|].
  split; [discriminate|]. split; [vm_compute; reflexivity|]. split; [left; reflexivity|reflexivity].
Qed.
Print Assumptions C13_negative_weights_refuted.

Example C12_case :
  let w := fun i => if (i =? 0)%Z then None else if (i =? 7)%Z then Some 3%Q else Some 1%Q in
  NoDup [0; 7; 9]%Z /\ ~ lacks_weight w [0; 7; 9]%Z /\
  exists out, disaggregate_value 10 [0; 7; 9]%Z w = Ok out /\
    map (fun p => (fst p, Qred (snd p))) out = [(0%Z, 0%Q); (7%Z, 15 # 2); (9%Z, 5 # 2)]%Q.
Proof.
  split; [repeat constructor; cbn; intuition discriminate|]. split.
  - intros [i [Hi [Hne H]]]. cbn in Hi. destruct Hi as [<-|[<-|[<-|[]]]]; [congruence|discriminate|discriminate].
  - eexists. split; vm_compute; reflexivity.
Qed.

Example C13_case :
  exists out, disaggregate_value 10 [0; 7; 9]%Z (fun i => if (i =? 0)%Z then None else Some 0%Q) = Ok out /\
    map (fun p => (fst p, Qred (snd p))) out = [(0%Z, 0%Q); (7%Z, 5%Q); (9%Z, 5%Q)].
Proof. eexists. split; vm_compute; reflexivity. Qed.
