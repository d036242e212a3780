(** Property theorems C06. *)
From Verif Require Import Prelude BitFlags_Model BitFlags_Spec BitFlags_Proofs.

(** Building from bits and iterating gives the bits back up to trailing zeros, in the
    shortest whole number of bytes. *)
Theorem C06_of_bits : forall l,
  same_bits (bf_iter (of_bits l)) l /\
  length (bf_iter (of_bits l)) = bf_len (of_bits l) /\
  tight_length (bf_len (of_bits l)) (bf_iter (of_bits l)).
Proof.
  exact (fun l => conj (of_bits_iter l)
           (conj (bf_iter_length (of_bits l)) (bf_tight _ (of_bits_wf l)))).
Qed.
Print Assumptions C06_of_bits.

(** Building from bytes: the bits of the bytes, most significant first. *)
Theorem C06_of_bytes : forall bs, is_bytes bs ->
  (forall i, bit_at (bf_iter (of_bytes bs)) i = byte_bit bs i) /\
  length (bf_iter (of_bytes bs)) = bf_len (of_bytes bs) /\
  tight_length (bf_len (of_bytes bs)) (bf_iter (of_bytes bs)).
Proof.
  exact (fun bs H => conj (of_bytes_iter bs)
           (conj (bf_iter_length (of_bytes bs)) (bf_tight _ (of_bytes_wf bs H)))).
Qed.
Print Assumptions C06_of_bytes.

(** [bytes(x)] fed back gives the same object, whichever way [x] was built. *)
Theorem C06_bytes_round_trip : forall l bs, is_bytes bs ->
  of_bytes (bf_to_bytes (of_bits l)) = of_bits l /\
  of_bytes (bf_to_bytes (of_bytes bs)) = of_bytes bs.
Proof.
  exact (fun l bs H => conj (of_bytes_round _ (of_bits_wf l)) (of_bytes_round _ (of_bytes_wf bs H))).
Qed.
Print Assumptions C06_bytes_round_trip.

(** Equality is equality of bits up to trailing zeros, for any mix of constructors. *)
Theorem C06_equality : forall l bs l' bs', is_bytes bs -> is_bytes bs' ->
  (bf_eqb (of_bits l) (of_bits l') = true <-> same_bits l l') /\
  (bf_eqb (of_bits l) (of_bytes bs) = true <-> forall i, bit_at l i = byte_bit bs i) /\
  (bf_eqb (of_bytes bs) (of_bytes bs') = true <-> forall i, byte_bit bs i = byte_bit bs' i) /\
  (bf_eqb_iterable (of_bits l) l' = true <-> same_bits l l') /\
  (bf_eqb_iterable (of_bytes bs) l' = true <-> forall i, byte_bit bs i = bit_at l' i).
Proof.
  intros l bs l' bs' Hb Hb'.
  pose proof (of_bits_wf l) as W. pose proof (of_bits_wf l') as W'.
  pose proof (of_bytes_wf _ Hb) as V. pose proof (of_bytes_wf _ Hb') as V'.
  pose proof (of_bits_iter l) as I. pose proof (of_bits_iter l') as I'.
  pose proof (of_bytes_iter bs) as J. pose proof (of_bytes_iter bs') as J'.
  rewrite (bf_eqb_spec _ _ W W'), (bf_eqb_spec _ _ W V), (bf_eqb_spec _ _ V V'),
    (bf_eqb_iterable_spec _ l' W), (bf_eqb_iterable_spec _ l' V).
  unfold same_bits in *.
  repeat split; intros H i; specialize (H i);
    rewrite ?I, ?I', ?J, ?J' in *; congruence.
Qed.
Print Assumptions C06_equality.

(** Indexing agrees with iteration; out of range raises. *)
Theorem C06_getitem : forall x i,
  bf_getitem x i =
    let n := Z.of_nat (length (bf_iter x)) in
    if (0 <=? i)%Z && (i <? n)%Z then Ok (bit_at (bf_iter x) (Z.to_nat i))
    else if (- n <=? i)%Z && (i <? 0)%Z then Ok (bit_at (bf_iter x) (Z.to_nat (n + i)))
    else Err IndexError.
Proof. exact getitem_spec. Qed.
Print Assumptions C06_getitem.

(** [x | y] is position-wise or, and again in shortest form. *)
Theorem C06_or : forall x y,
  (forall i, bit_at (bf_iter (bf_or x y)) i = bit_at (bf_iter x) i || bit_at (bf_iter y) i) /\
  (forall l l', bf_or (of_bits l) (of_bits l') =
                of_bytes (bf_to_bytes (bf_or (of_bits l) (of_bits l')))).
Proof.
  exact (fun x y => conj (or_spec x y)
    (fun l l' => eq_sym (of_bytes_round _ (bf_or_wf _ _ (of_bits_wf l) (of_bits_wf l'))))).
Qed.
Print Assumptions C06_or.

(** Finding: comparing with a [bytes] object reads each byte as one bit, unlike the
    constructor, so an object built from bytes may differ from those bytes. *)
Theorem C06_bytes_equality_refuted :
  exists bs, is_bytes bs /\ bf_eqb_bytes (of_bytes bs) bs = false.
Proof. exists [208%N]. split; [repeat constructor|vm_compute; reflexivity]. Qed.
Print Assumptions C06_bytes_equality_refuted.

Example C06_example :
  bf_to_bytes (of_bits [true; true; false; true]) = [208%N] /\
  bf_iter (of_bytes [208; 0; 0]%N) = [true; true; false; true; false; false; false; false] /\
  bf_getitem (of_bytes [208%N]) (-5) = Ok true /\
  bf_getitem (of_bytes [208%N]) 8 = Err IndexError /\
  bf_iter (bf_or (of_bytes [128%N]) (of_bytes [1; 1]%N)) =
    [true; false; false; false; false; false; false; true;
     false; false; false; false; false; false; false; true].
Proof. vm_compute. repeat split. Qed.
