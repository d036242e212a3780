(** C07, C08, C09 and C11: meaning, specificity and equality of selectors, and the
    choice by greatest unique specificity. *)
From Verif Require Import Prelude Selectors_Model Selectors_Spec Selectors_Proofs.
From Coq Require Import Permutation.

(** C07: calling a selector on a row never raises and answers whether the documented
    meaning holds, for every tree. *)
Theorem C07_meaning upper r s : proper s ->
  exists b, call upper r s = Ok b /\ (b = true <-> means upper r s).
Proof. exact (call_means upper r s). Qed.
Print Assumptions C07_meaning.

(** The constructor of attribute tests only delivers selectors covered by [C07_meaning]. *)
Theorem C07_constructed_simple attr op val ic s :
  mk_simple attr op val ic = Ok s -> proper s.
Proof. exact (mk_simple_ok attr op val ic s). Qed.
Print Assumptions C07_constructed_simple.

(** So do the container constructors, and the object has the meaning of the container
    that was asked for, unless :is or juxtaposition gets one member of its own class. *)
Theorem C07_constructed_container upper r c l : l <> [] -> Forall proper l ->
  (forall x, l = [x] -> same_class c x -> c <> CAny /\ c <> CCompound) ->
  proper (mk_container c l) /\
  (means upper r (mk_container c l) <-> means upper r (SCont c l)).
Proof. exact (constructed upper r c l). Qed.
Print Assumptions C07_constructed_container.

(** Finding: the excluded case is real.  [:is(:is(a, b))] becomes an object that
    contains itself, and calling it on any row raises RecursionError. *)
Theorem C07_nested_is_refuted upper r a b :
  call upper r (mk_container CAny [mk_container CAny [a; b]]) = Err RecursionError /\
  call upper r (mk_container CCompound [mk_container CCompound [a; b]]) = Err RecursionError.
Proof. exact (conj eq_refl eq_refl). Qed.
Print Assumptions C07_nested_is_refuted.

Example C07_case :
  let s := SCont CCompound
    [SSimple (txt "A") (Some OpDash) (Some (txt "x")) false;
     SCont CNot [SSimple (txt "B") None None false;
                 SSimple (txt "A") (Some OpWord) (Some (txt "YZ")) true]] in
  proper s /\
  call ascii_upper [(txt "A", txt "x-1 yz"); (txt "C", txt "c")] s = Ok false /\
  call ascii_upper [(txt "A", txt "x-1 y z")] s = Ok true /\
  call ascii_upper [(txt "A", txt "x-1 y z"); (txt "B", txt "b")] s = Ok false.
Proof. vm_compute. intuition discriminate. Qed.

(** C08: specificity is the pair prescribed by the documentation. *)
Theorem C08_specificity s : proper s ->
  exists a b, specificity s = Ok [a; b]%Z /\ spec_of s (a, b) /\ (0 <= b <= a)%Z.
Proof. exact (specificity_pair s). Qed.
Print Assumptions C08_specificity.

Theorem C08_prescription_unique s p q : spec_of s p -> spec_of s q -> p = q.
Proof. exact (spec_of_det s p q). Qed.
Print Assumptions C08_prescription_unique.

Theorem C08_reordering c l l' : l <> [] -> Forall proper l -> Permutation l l' ->
  specificity (SCont c l) = specificity (SCont c l').
Proof. exact (spec_of_perm_eq c l l'). Qed.
Print Assumptions C08_reordering.

Theorem C08_compound_grows l x p : l <> [] -> Forall proper l -> proper x ->
  specificity (SCont CCompound l) = Ok [fst p; snd p] ->
  exists q, specificity (SCont CCompound (x :: l)) = Ok [fst q; snd q] /\ pair_le p q.
Proof. exact (specificity_grows l x p). Qed.
Print Assumptions C08_compound_grows.

Example C08_case :
  let a := SSimple (txt "A") None None false in
  let b := SSimple (txt "B") (Some OpEq) (Some (txt "b")) false in
  specificity (SCont CCompound [a; SCont CAny [a; b]; SCont CWhere [b]; SCont CNot [a; SCont CCompound [a; b]]])
  = Ok [4; 2]%Z.
Proof. vm_compute. reflexivity. Qed.

(** C09: equality of selectors is an equivalence. *)
Theorem C09_equivalence lower :
  (forall s, proper s -> sel_eqb lower s s = Ok true) /\
  (forall s1 s2, sel_eqb lower s1 s2 = Ok true -> sel_eqb lower s2 s1 = Ok true) /\
  (forall s1 s2 s3, sel_eqb lower s1 s2 = Ok true -> sel_eqb lower s2 s3 = Ok true ->
     sel_eqb lower s1 s3 = Ok true).
Proof. exact (eq_equivalence lower). Qed.
Print Assumptions C09_equivalence.

(** Equal selectors give the same answer on every row, whenever texts with the same
    lower-case form have the same upper-case form (true for ASCII, [C09_ascii]). *)
Theorem C09_equal_match upper lower
  (Hcase : forall a b, lower a = lower b -> upper a = upper b) s1 s2 r :
  proper s1 -> proper s2 -> sel_eqb lower s1 s2 = Ok true -> call upper r s1 = call upper r s2.
Proof. exact (equal_same_results upper lower Hcase s1 s2 r). Qed.
Print Assumptions C09_equal_match.

Theorem C09_ascii a b : ascii_lower a = ascii_lower b -> ascii_upper a = ascii_upper b.
Proof. exact (ascii_case a b). Qed.
Print Assumptions C09_ascii.

(** Finding: for Unicode text the hypothesis fails.  The Kelvin sign (U+212A) lowers to
    [k] but is its own upper-case form, so two equal selectors match differently. *)
Theorem C09_unicode_refuted upper lower :
  lower [8490%N] = [107%N] -> lower [107%N] = [107%N] ->
  upper [8490%N] = [8490%N] -> upper [107%N] = [75%N] ->
  exists s1 s2 r, proper s1 /\ proper s2 /\ sel_eqb lower s1 s2 = Ok true /\
    call upper r s1 = Ok true /\ call upper r s2 = Ok false.
Proof.
  intros H1 H2 H3 H4.
  exists (SSimple (txt "A") (Some OpEq) (Some [107%N]) true),
         (SSimple (txt "A") (Some OpEq) (Some [8490%N]) true), [(txt "A", [107%N])].
  split; [exact I|]. split; [exact I|]. unfold sel_eqb. cbn. rewrite H1, H2, H3, H4.
  split; [reflexivity|]. split; reflexivity.
Qed.
Print Assumptions C09_unicode_refuted.

(** Finding: equal selectors may have different specificity, because repeated members
    are ignored by equality but not by specificity. *)
Theorem C09_specificity_refuted lower :
  exists s1 s2, proper s1 /\ proper s2 /\ sel_eqb lower s1 s2 = Ok true /\
    specificity s1 <> specificity s2.
Proof.
  exists (SCont CCompound [SSimple (txt "A") None None false; SSimple (txt "A") None None false;
                           SSimple (txt "B") None None false]),
         (SCont CCompound [SSimple (txt "A") None None false; SSimple (txt "B") None None false]).
  split; [cbn; intuition discriminate|]. split; [cbn; intuition discriminate|].
  split; [reflexivity|discriminate].
Qed.
Print Assumptions C09_specificity_refuted.

Example C09_case :
  let a := SSimple (txt "A") (Some OpEq) (Some (txt "xY")) true in
  let a' := SSimple (txt "A") (Some OpEq) (Some (txt "Xy")) true in
  let b := SSimple (txt "B") None None false in
  proper (SCont CAny [a; b]) /\ proper (SCont CAny [b; a'; b]) /\
  sel_eqb ascii_lower (SCont CAny [a; b]) (SCont CAny [b; a'; b]) = Ok true /\
  sel_eqb ascii_lower (SCont CAny [a; b]) (SCont CAny [b]) = Ok false.
Proof. vm_compute. intuition discriminate. Qed.

(** C11: the answer is the right key if there is one, else the default. *)
Theorem C11_greatest_unique upper K (Kdec : forall a b : K, {a = b} + {a <> b}) r (d : dict K) default :
  NoDup (map fst d) -> dict_proper K d ->
  (exists k, greatest_unique upper K r d default = Ok k /\ right_key upper r d k) \/
  (greatest_unique upper K r d default = Ok default /\ forall k, ~ right_key upper r d k).
Proof. exact (greatest_unique_spec upper K Kdec r d default). Qed.
Print Assumptions C11_greatest_unique.

Theorem C11_right_key_unique upper K r (d : dict K) k1 k2 :
  right_key upper r d k1 -> right_key upper r d k2 -> k1 = k2.
Proof. exact (right_key_unique upper K r d k1 k2). Qed.
Print Assumptions C11_right_key_unique.

Theorem C11_order_independent upper K (Kdec : forall a b : K, {a = b} + {a <> b}) r (d d' : dict K) default :
  NoDup (map fst d) -> dict_proper K d -> Permutation d d' ->
  greatest_unique upper K r d default = greatest_unique upper K r d' default.
Proof. exact (greatest_unique_order upper K Kdec r d d' default). Qed.
Print Assumptions C11_order_independent.

Example C11_case :
  let a := SSimple (txt "A") None None false in
  let b := SSimple (txt "B") (Some OpEq) (Some (txt "b")) false in
  let d := [(1, Some [a]); (2, Some [a; b]); (3, Some [b]); (4, None); (5, Some [SCont CWhere [a]])] in
  NoDup (map fst d) /\ dict_proper nat d /\
  greatest_unique ascii_upper nat [(txt "A", txt "x"); (txt "B", txt "b")] d 0 = Ok 1 /\
  greatest_unique ascii_upper nat [(txt "A", txt "x")] d 0 = Ok 5 /\
  greatest_unique ascii_upper nat [(txt "B", txt "b")] d 0 = Ok 0.
Proof.
  split; [repeat constructor; cbn; lia|]. split.
  - intros k l H. cbn in H. intuition; try discriminate; match goal with H : (_, _) = _ |- _ => inversion H end;
      repeat constructor; cbn; auto; discriminate.
  - vm_compute. repeat split.
Qed.
