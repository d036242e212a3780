(** C38: index codes round trip and detect typos. *)
From Coq Require Import NArith.
From Verif Require Import Prelude Selectors_Model IndexCode_Model IndexCode_Spec IndexCode_Proofs IndexCode_Proofs2 IndexCode_Proofs3.
Local Open Scope N_scope.

(** Decoding the code of an id with the same space gives back the id; every id in the range of
    64 bits has a code, no other has one. *)
Theorem C38_round_trip todecimal i u : fits i ->
  exists t, index_id_to_code i u = Ok t /\ index_code_to_id todecimal t u = Ok i.
Proof. exact (code_round_trip todecimal i u). Qed.
Print Assumptions C38_round_trip.
Theorem C38_overflow i u : ~ fits i -> index_id_to_code i u = Err StructError.
Proof. exact (code_overflow i u). Qed.
Print Assumptions C38_overflow.

(** A code is the id in decimal without leading zeros, an X, and eight upper-case hexadecimal digits. *)
Theorem C38_shape i u t : byte_list u -> index_id_to_code i u = Ok t ->
  exists sign ds hs, t = sign ++ ds ++ [88] ++ hs /\ (sign = if (i <? 0)%Z then [45] else []) /\
    Forall (fun c => 48 <= c <= 57) ds /\ ds <> [] /\ (hd 0 ds = 48 -> i = 0%Z) /\
    Forall (fun c => 48 <= c <= 57 \/ 65 <= c <= 70) hs /\ length hs = 8%nat.
Proof. exact (code_shape i u t). Qed.
Print Assumptions C38_shape.

(** A text is accepted exactly if it is a number, an X, and a hexadecimal number equal to the
    checksum of the eight bytes of the id and the bytes of the space. *)
Theorem C38_accepts todecimal t u i : Forall (fun c => c < 127) t -> byte_list u ->
  (index_code_to_id todecimal t u = Ok i <->
   exists d h l, t = d ++ 88 :: h /\ ~ In 88 d /\ literal 10 d i /\ literal 16 h (Z.of_N (crc32 (l ++ u))) /\
     byte_list l /\ length l = 8%nat /\ Z.of_N (be_value l) = (i mod 2 ^ 64)%Z /\ fits i).
Proof. exact (code_accepts todecimal t u i). Qed.
Print Assumptions C38_accepts.
(** Text beyond ASCII is read as the ASCII text it stands for. *)
Theorem C38_unicode todecimal t u : (forall c d, todecimal c = Some d -> d <= 9) ->
  index_code_to_id todecimal t u = index_code_to_id todecimal (map (to_ascii todecimal) t) u.
Proof. exact (code_unicode todecimal t u). Qed.
Print Assumptions C38_unicode.
Theorem C38_is_code todecimal t u :
  is_index_code todecimal t u = Ok true <-> exists i, index_code_to_id todecimal t u = Ok i.
Proof. exact (is_code_iff todecimal u t). Qed.
Print Assumptions C38_is_code.

(** The checksum of one id is refused for any id whose big-endian bytes differ from those of the first
    only within four consecutive bytes. *)
Theorem C38_typo todecimal i j bi bj u t d h d' : fits i -> fits j -> byte_list u ->
  byte_list bi -> length bi = 8%nat -> Z.of_N (be_value bi) = (i mod 2 ^ 64)%Z ->
  byte_list bj -> length bj = 8%nat -> Z.of_N (be_value bj) = (j mod 2 ^ 64)%Z ->
  differ_within_32_bits bi bj -> index_id_to_code i u = Ok t -> t = d ++ 88 :: h -> ~ In 88 d ->
  Forall (fun c => c < 127) d' -> ~ In 88 d' -> literal 10 d' j ->
  index_code_to_id todecimal (d' ++ 88 :: h) u = Err ValueError.
Proof. exact (code_detects todecimal i j bi bj u t d h d'). Qed.
Print Assumptions C38_typo.
(** In particular for any two ids with the same high half, such as all ids below 2^32. *)
Theorem C38_typo_low todecimal i j u t d h d' : fits i -> fits j -> byte_list u -> i <> j -> (i / 2 ^ 32 = j / 2 ^ 32)%Z ->
  index_id_to_code i u = Ok t -> t = d ++ 88 :: h -> ~ In 88 d ->
  Forall (fun c => c < 127) d' -> ~ In 88 d' -> literal 10 d' j ->
  index_code_to_id todecimal (d' ++ 88 :: h) u = Err ValueError.
Proof. exact (code_detects_low todecimal i j u t d h d'). Qed.
Print Assumptions C38_typo_low.
(** A code of a space is refused by every space whose identifier differs within four consecutive bytes. *)
Theorem C38_other_space todecimal i u v t : byte_list u -> byte_list v -> differ_within_32_bits u v ->
  index_id_to_code i u = Ok t -> index_code_to_id todecimal t v = Err ValueError.
Proof. exact (code_detects_space todecimal i u v t). Qed.
Print Assumptions C38_other_space.

(** The column of codes: found exactly if it is the only one with a code in the sample. *)
Theorem C38_position todecimal u f rows :
  Forall (Forall (fun c => is_index_code todecimal c u = Ok (f c))) rows ->
  (forall p, get_index_code_position todecimal rows u = Ok p <-> has_code f rows p /\ forall q, has_code f rows q -> q = p) /\
  (forall e, get_index_code_position todecimal rows u = Err e -> e = RuntimeError).
Proof. exact (position_iff todecimal u f rows). Qed.
Print Assumptions C38_position.

(** *** Cases *)
Definition u1 : list N := [17; 17; 17; 17; 17; 17; 17; 17; 17; 17; 17; 17; 17; 17; 17; 17].
Definition no_digits (c : N) : option N := None.
(** The published check value of CRC-32. *)
Example C38_check : crc32 (txt "123456789"%string) = 0xCBF43926.
Proof. vm_compute. reflexivity. Qed.
Example C38_case :
  fits 8 /\ byte_list u1 /\ index_id_to_code 8 u1 = Ok (txt "8XC1A3F9B3"%string) /\
  index_code_to_id no_digits (txt "8XC1A3F9B3"%string) u1 = Ok 8%Z /\
  index_code_to_id no_digits (txt "9XC1A3F9B3"%string) u1 = Err ValueError /\
  index_code_to_id no_digits (txt "8"%string) u1 = Err ValueError /\
  get_index_code_position no_digits [[txt "A"%string; txt "8XC1A3F9B3"%string]; [txt "B"%string]] u1 = Ok 1%nat /\
  get_index_code_position no_digits [[txt "8XC1A3F9B3"%string; txt "8XC1A3F9B3"%string]] u1 = Err RuntimeError.
Proof. split; [unfold fits; lia|]. split; [repeat constructor|]. vm_compute. repeat split. Qed.
Example C38_typo_case : differ_within_32_bits [0; 0; 0; 0; 0; 0; 0; 8] [0; 0; 0; 0; 0; 0; 1; 9] /\ literal 10 [50; 54; 53] 265%Z.
Proof.
  split.
  - exists [0; 0; 0; 0; 0; 0], [0; 8], [1; 9], []. repeat split; [cbn; lia | discriminate].
  - exists [], [], [], [], [50; 54; 53], [], 265. split; [reflexivity|]. split; [constructor|]. split; [constructor|]. split; [auto|]. split; [auto|].
    split; [|reflexivity]. apply (num_more 10 [50; 54] 26 53 5); [|unfold digit_of; lia | lia].
    apply (num_more 10 [50] 2 54 6); [|unfold digit_of; lia | lia]. apply num_digit; [unfold digit_of; lia | lia].
Qed.

(** *** Findings *)

(** Texts that are not the code of any id are accepted: lower case, blanks, signs, underscores, prefixes. *)
Theorem C38_canonical_refuted : exists t i, index_code_to_id no_digits t u1 = Ok i /\ forall j, index_id_to_code j u1 <> Ok t.
Proof.
  exists (txt " +0_8X0xc1a3f9b3"%string), 8%Z. split; [vm_compute; reflexivity|]. intros j H.
  assert (B : byte_list u1) by (repeat constructor).
  destruct (code_shape _ _ _ B H) as (sign & ds & hs & E & Es & Fd & Nd & _). 
  destruct (Z.ltb_spec j 0); subst sign; cbn in E.
  - discriminate E.
  - destruct ds as [|c ds]; [congruence|]. inversion_clear Fd as [|? ? Hc _]. injection E as <- _. unfold dec_digit in Hc. lia.
Qed.
Print Assumptions C38_canonical_refuted.
(** Ids that differ in more than 32 bits can share the checksum. *)
Theorem C38_collision_refuted : exists i j d h, fits i /\ fits j /\ i <> j /\
  index_id_to_code i u1 = Ok (d ++ 88 :: h) /\ index_code_to_id no_digits (format_dec j ++ 88 :: h) u1 = Ok j.
Proof.
  exists 5%Z, 550301317352%Z, [53], (txt "D31D5AA1"%string). unfold fits.
  split; [lia|]. split; [lia|]. split; [discriminate|]. vm_compute. auto.
Qed.
Print Assumptions C38_collision_refuted.
(** A cell like [99999999999999999999X0] makes the search for codes fail with an error that is not caught. *)
Theorem C38_struct_refuted : exists t, is_index_code no_digits t u1 = Err StructError /\
  forall rows row, get_index_code_position no_digits ([t] :: row :: rows) u1 = Err StructError.
Proof. exists (txt "99999999999999999999X0"%string). split; [vm_compute; reflexivity|]. intros. unfold get_index_code_position. cbn [count_rows count_row]. 
  assert (E : is_index_code no_digits (txt "99999999999999999999X0"%string) u1 = Err StructError) by (vm_compute; reflexivity). rewrite E. reflexivity. Qed.
Print Assumptions C38_struct_refuted.
