(** C14 and C15: quantizing a list of quantities to whole numbers. *)
From Verif Require Import Prelude Quantize_Model Quantize_Spec Quantize_Proofs.
From Coq Require Import Qabs Permutation.

(** C14: when all values lie on one side of zero and add up to [T], quantizing never
    raises, keeps every item once, moves each by less than one, keeps the total, and
    leaves at most one value that is not whole. *)
Theorem C14_quantize items T : one_sign items -> (Qsum (map snd items) == T)%Q ->
  exists items' out, quantize_values items T = (out, None) /\
    Permutation items items' /\ Forall2 close items' out /\
    (Qsum (map snd out) == T)%Q /\ at_most_one_odd out.
Proof. exact (quantize_total items T). Qed.
Print Assumptions C14_quantize.

(** Consequence: a whole total gives only whole values. *)
Theorem C14_whole_total items T : one_sign items -> (Qsum (map snd items) == T)%Q -> whole T ->
  forall i v, In (i, v) (fst (quantize_values items T)) -> whole v.
Proof. exact (quantize_whole_total items T). Qed.
Print Assumptions C14_whole_total.

(** Finding: with values of both signs the total is not kept. *)
Theorem C14_mixed_signs_refuted : exists items T out,
  (Qsum (map snd items) == T)%Q /\ quantize_values items T = (out, None) /\
  ~ (Qsum (map snd out) == T)%Q.
Proof.
  exists [(1%N, 9#10); (2%N, 9#10); (3%N, -26#5)], (-17#5). eexists.
  split; [reflexivity|]. split; [vm_compute; reflexivity|]. vm_compute. discriminate.
Qed.
Print Assumptions C14_mixed_signs_refuted.

(** Finding: a stated total above what the items hold runs the iterator dry. *)
Theorem C14_wrong_total_refuted : exists items T out,
  one_sign items /\ quantize_values items T = (out, Some RuntimeError).
Proof.
  exists [(1%N, 1#2)], (3#2). eexists. split; [|vm_compute; reflexivity].
  left. intros i v [E|[]]. inversion E. discriminate.
Qed.
Print Assumptions C14_wrong_total_refuted.

(** C15: the result does not depend on the order of the items. *)
Theorem C15_order_independent items items' T :
  NoDup (map fst items) -> (forall i v, In (i, v) items -> (i < two64)%N) ->
  Permutation items items' -> quantize_values items T = quantize_values items' T.
Proof. exact (quantize_order items items' T). Qed.
Print Assumptions C15_order_independent.

(** The tie breaking hash permutes the 64-bit integers. *)
Theorem C15_splitmix_bijective :
  (forall x, (x < two64)%N -> (splitmix64 x < two64)%N) /\
  (forall x y, (x < two64)%N -> (y < two64)%N -> splitmix64 x = splitmix64 y -> x = y) /\
  (forall y, (y < two64)%N -> exists x, (x < two64)%N /\ splitmix64 x = y).
Proof. exact splitmix_bijective. Qed.
Print Assumptions C15_splitmix_bijective.

Example C14_case :
  let items := [(1%N, -1#2); (2%N, -7#4); (3%N, -5#4); (4%N, -1#1)] in
  one_sign items /\ (Qsum (map snd items) == -9#2)%Q /\
  map (fun p => (fst p, Qred (snd p))) (fst (quantize_values items (-9#2))) =
    [(2%N, -2#1); (1%N, -1#2); (3%N, -1#1); (4%N, -1#1)].
Proof.
  split; [|split; vm_compute; reflexivity].
  right. intros i v H. cbn in H.
  repeat (destruct H as [H|H]; [inversion H; subst; discriminate|]). destruct H.
Qed.

Example C15_case :
  quantize_values [(7%N, 1#2); (8%N, 1#2)] 1 = quantize_values [(8%N, 1#2); (7%N, 1#2)] 1 /\
  quantize_values [(7%N, 1#2); (8%N, 1#2)] 1 <> quantize_values [(8%N, 1#2); (9%N, 1#2)] 1 /\
  splitmix64 0 = 16294208416658607535%N.
Proof. split; [vm_compute; reflexivity|]. split; [vm_compute; discriminate|vm_compute; reflexivity]. Qed.
