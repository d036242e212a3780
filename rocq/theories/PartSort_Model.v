(** Model of the order in which partition definitions are displayed.
    Source: src/toron/formatters.py lines 10-42 [sort_partition_definitions].
    A set of labels is a list of labels without repetition, in the order in which Python happens to
    iterate over the set. *)
From Verif Require Import Prelude Selectors_Model.
Local Open Scope nat_scope.

(** [x in cat]. *)
Definition tmem (x : text) (l : list text) : bool := existsb (text_eqb x) l.
(** [a == b] for sets. *)
Definition set_eqb (a b : list text) : bool := forallb (fun x => tmem x b) a && forallb (fun x => tmem x a) b.
(** [set(labels)]; the order is the one of the last occurrences (any order would do). *)
Fixpoint set_of (l : list text) : list text :=
  match l with [] => [] | x :: l' => if tmem x l' then set_of l' else x :: set_of l' end.

(** [sorted(l, key=...)]: a stable sort that compares keys with "less than" only. *)
Fixpoint insert_by {A K} (ltb : K -> K -> bool) (x : A * K) (l : list (A * K)) : list (A * K) :=
  match l with
  | [] => [x]
  | y :: l' => if ltb (snd y) (snd x) then y :: insert_by ltb x l' else x :: y :: l'
  end.
Fixpoint sort_by {A K} (ltb : K -> K -> bool) (l : list (A * K)) : list (A * K) :=
  match l with [] => [] | x :: l' => insert_by ltb x (sort_by ltb l') end.
(** [sorted(l, key=key)]. *)
Definition sorted {A K} (ltb : K -> K -> bool) (key : A -> K) (l : list A) : list A :=
  map fst (sort_by ltb (map (fun a => (a, key a)) l)).
(** [sorted(l, key=key, reverse=True)]: reversed, sorted and reversed back, so that it is stable. *)
Definition sorted_reverse {A K} (ltb : K -> K -> bool) (key : A -> K) (l : list A) : list A :=
  rev (sorted ltb key (rev l)).

(** Tuples of booleans: [False < True], the first difference decides, a shorter tuple is less. *)
Fixpoint bools_ltb (a b : list bool) : bool :=
  match a, b with
  | _, [] => false
  | [], _ :: _ => true
  | x :: a', y :: b' => if eqb x y then bools_ltb a' b' else negb x && y
  end.
(** Line 34 [catkey]. *)
Definition catkey (labels cat : list text) : list bool := map (fun x => tmem x cat) labels.
(** Line 38: [{label: i for (i, label) in enumerate(labels)}], the last index of the label. *)
Fixpoint label_to_index (labels : list text) (i : nat) (x : text) : option nat :=
  match labels with
  | [] => None
  | y :: labels' =>
    match label_to_index labels' (S i) x with
    | Some j => Some j
    | None => if text_eqb x y then Some i else None
    end
  end.
(** Lines 39-42: [sorted(cat, key=lblkey)]; the keys are computed first, a missing one is an error. *)
Definition sort_labels (labels cat : list text) : res (list text) :=
  do keyed <- traverse (fun x => match label_to_index labels 0 x with Some i => Ok (x, i) | None => Err ValueError end) cat;
  Ok (map fst (sort_by Nat.ltb keyed)).

(** Lines 30-32: the list given by the caller after the call. *)
Definition definitions_after (definitions : list (list text)) (labels : list text) : list (list text) :=
  let whole_space := set_of labels in
  match whole_space with
  | [] => definitions
  | _ => if existsb (set_eqb whole_space) definitions then definitions else definitions ++ [whole_space]
  end.
(** The whole function. *)
Definition sort_partition_definitions (definitions : list (list text)) (labels : list text) : res (list (list text)) :=
  traverse (sort_labels labels) (sorted_reverse bools_ltb (catkey labels) (definitions_after definitions labels)).
