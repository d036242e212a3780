(** Shared facts about exact sums of rationals.  No modelled code lives here. *)
From Verif Require Import Prelude.
From Coq Require Import Lqa Permutation.

Lemma Qsum_nil : Qsum [] = 0%Q.
Proof. reflexivity. Qed.

Lemma Qsum_cons x l : Qsum (x :: l) = (x + Qsum l)%Q.
Proof. reflexivity. Qed.

Lemma Qsum_app a b : (Qsum (a ++ b) == Qsum a + Qsum b)%Q.
Proof.
  induction a as [|x a IH]; cbn [app]; rewrite ?Qsum_nil, ?Qsum_cons; [ring|]. rewrite IH. ring.
Qed.

Lemma Qsum_ext {A} (f g : A -> Q) l :
  (forall x, In x l -> (f x == g x)%Q) -> (Qsum (map f l) == Qsum (map g l))%Q.
Proof.
  induction l as [|x l IH]; intros H; cbn [map]; [reflexivity|]. rewrite !Qsum_cons.
  rewrite (H x) by (left; reflexivity).
  rewrite IH; [reflexivity|]. intros y Hy. apply H. right. exact Hy.
Qed.

Lemma Qsum_scale {A} (f : A -> Q) c l : (Qsum (map (fun x => c * f x) l) == c * Qsum (map f l))%Q.
Proof.
  induction l as [|x l IH]; cbn [map]; rewrite ?Qsum_nil, ?Qsum_cons; [ring|]. rewrite IH. ring.
Qed.

Lemma Qsum_plus {A} (f g : A -> Q) l :
  (Qsum (map (fun x => f x + g x) l) == Qsum (map f l) + Qsum (map g l))%Q.
Proof.
  induction l as [|x l IH]; cbn [map]; rewrite ?Qsum_nil, ?Qsum_cons; [ring|]. rewrite IH. ring.
Qed.

Lemma Qsum_const {A} c (l : list A) :
  (Qsum (map (fun _ => c) l) == inject_Z (Z.of_nat (length l)) * c)%Q.
Proof.
  induction l as [|x l IH]; cbn [map length]; rewrite ?Qsum_nil, ?Qsum_cons; [cbn; ring|]. rewrite IH.
  rewrite Nat2Z.inj_succ. unfold Z.succ. rewrite inject_Z_plus. ring.
Qed.

Lemma Qsum_zero {A} (f : A -> Q) l : (forall x, In x l -> (f x == 0)%Q) -> (Qsum (map f l) == 0)%Q.
Proof.
  intros H. rewrite (Qsum_ext f (fun _ => 0%Q) l H). rewrite Qsum_const. ring.
Qed.

Lemma Qsum_perm a b : Permutation a b -> (Qsum a == Qsum b)%Q.
Proof.
  induction 1 as [|x a b HP IH|x y a|a b c H1 IH1 H2 IH2]; rewrite ?Qsum_cons.
  - reflexivity.
  - rewrite IH. reflexivity.
  - ring.
  - rewrite IH1. exact IH2.
Qed.

Lemma Qsum_nonneg l : (forall x, In x l -> (0 <= x)%Q) -> (0 <= Qsum l)%Q.
Proof.
  induction l as [|x l IH]; intros H; rewrite ?Qsum_nil, ?Qsum_cons; [lra|].
  assert (0 <= x)%Q by (apply H; left; reflexivity).
  assert (0 <= Qsum l)%Q by (apply IH; intros y Hy; apply H; right; exact Hy). lra.
Qed.

Lemma Qsum_nonneg_le l x : (forall y, In y l -> (0 <= y)%Q) -> In x l -> (x <= Qsum l)%Q.
Proof.
  induction l as [|y l IH]; intros H Hin; [destruct Hin|]. rewrite Qsum_cons.
  assert (0 <= y)%Q by (apply H; left; reflexivity).
  assert (0 <= Qsum l)%Q by (apply Qsum_nonneg; intros z Hz; apply H; right; exact Hz).
  destruct Hin as [<-|Hin]; [lra|].
  assert (x <= Qsum l)%Q by (apply IH; [intros z Hz; apply H; right; exact Hz|exact Hin]). lra.
Qed.

Lemma Qsum_filter {A} (p : A -> bool) (f : A -> Q) l :
  (Qsum (map f l) == Qsum (map f (filter p l)) + Qsum (map f (filter (fun x => negb (p x)) l)))%Q.
Proof.
  induction l as [|x l IH]; cbn [map filter]; [rewrite !Qsum_nil; ring|].
  destruct (p x); cbn [negb map]; rewrite !Qsum_cons, IH; ring.
Qed.

Lemma Qsum_if {A} (p : A -> bool) (f : A -> Q) l :
  (Qsum (map (fun x => if p x then f x else 0%Q) l) == Qsum (map f (filter p l)))%Q.
Proof.
  induction l as [|x l IH]; cbn [map filter]; [reflexivity|].
  destruct (p x); cbn [map]; rewrite ?Qsum_cons, IH; [reflexivity|ring].
Qed.

Lemma Qsum_concat ll : (Qsum (concat ll) == Qsum (map Qsum ll))%Q.
Proof.
  induction ll as [|l ll IH]; cbn [concat map]; [reflexivity|]. rewrite Qsum_app, Qsum_cons, IH. reflexivity.
Qed.

Lemma Qsum_flat_map {A} (f : A -> list Q) l :
  (Qsum (flat_map f l) == Qsum (map (fun x => Qsum (f x)) l))%Q.
Proof. rewrite flat_map_concat_map, Qsum_concat, map_map. reflexivity. Qed.

Lemma inject_nat_pos n : (0 < n)%nat -> ~ (inject_Z (Z.of_nat n) == 0)%Q.
Proof. intros H. unfold Qeq, inject_Z. cbn. lia. Qed.
