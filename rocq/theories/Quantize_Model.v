(** Model of quantizing by the largest remainder method.  Source: src/toron/_utils.py.
    Values are exact rationals, so [modf] and the sums are exact and there is no
    negative zero. *)
From Verif Require Import Prelude.
From Coq Require Import Qabs Qround.

Definition mask64 : N := 18446744073709551615.

(** Models src/toron/_utils.py lines 526-554 [splitmix64] for non-negative input. *)
Definition splitmix64 (x : N) : N :=
  let x := N.land (x + 11400714819323198485) mask64 in
  let x := N.land (N.lxor x (N.shiftr x 30) * 13787848793156543929) mask64 in
  let x := N.land (N.lxor x (N.shiftr x 27) * 10723151780598845931) mask64 in
  N.lxor x (N.shiftr x 31).

(** [math.modf(x)]: fractional and whole part, both with the sign of [x]. *)
Definition trunc (x : Q) : Z := Z.quot (Qnum x) (QDen x).
Definition frac (x : Q) : Q := (x - inject_Z (trunc x))%Q.

(** One entry of [idx_frac_whole]. *)
Record entry := { e_id : N; e_frac : Q; e_whole : Z }.

(** First loop.  Models lines 604-610. *)
Definition split_item (it : N * Q) : entry :=
  {| e_id := fst it; e_frac := frac (snd it); e_whole := trunc (snd it) |}.
Definition sum_whole (l : list entry) : Z := fold_left (fun acc e => acc + e_whole e)%Z l 0%Z.

(** [sort_key(a) < sort_key(b)], tuples [(-abs(frac), splitmix64(id))].
    Models line 615. *)
Definition key_lt (a b : entry) : bool :=
  let fa := (- Qabs (e_frac a))%Q in
  let fb := (- Qabs (e_frac b))%Q in
  negb (Qle_bool fb fa) ||
  (Qeq_bool fa fb && (splitmix64 (e_id a) <? splitmix64 (e_id b))%N).

(** [sorted(idx_frac_whole, key=sort_key)], a stable sort.  Models line 616. *)
Fixpoint insert_entry (x : entry) (l : list entry) : list entry :=
  match l with
  | [] => [x]
  | y :: l' => if key_lt y x then y :: insert_entry x l' else x :: l
  end.
Fixpoint sort_entries (l : list entry) : list entry :=
  match l with
  | [] => []
  | x :: l' => insert_entry x (sort_entries l')
  end.

(** [copysign(1.0, sum_total)] (negative zero is not modelled).  Models line 626. *)
Definition increment (sum_total : Q) : Z := if Qle_bool 0 sum_total then 1 else -1.

(** Models src/toron/_utils.py lines 557-640 [quantize_values]: the yielded items and
    the exception that ends the generator, if any.  [next] on an exhausted iterator
    inside a generator surfaces as RuntimeError (PEP 479). *)
Definition quantize_values (items : list (N * Q)) (sum_total : Q)
  : list (N * Q) * option exn :=
  let l := map split_item items in
  let s := sort_entries l in
  let r := (sum_total - inject_Z (sum_whole l))%Q in
  let n := Z.abs_nat (trunc r) in
  let first := map (fun e => (e_id e, inject_Z (e_whole e + increment sum_total))) (firstn n s) in
  let rest := skipn n s in
  let plain := map (fun e => (e_id e, inject_Z (e_whole e))) in
  if negb (Qeq_bool (frac r) 0) then
    match rest with
    | [] => (first, Some RuntimeError)
    | e :: rest' => (first ++ (e_id e, inject_Z (e_whole e) + frac r)%Q :: plain rest', None)
    end
  else (first ++ plain rest, None).
