(** C57: what the description of an edge means. *)
From Coq Require Import NArith.
From Verif Require Import Prelude Selectors_Model EdgeText_Model.
Local Open Scope N_scope.

Definition blank (w : text) : Prop := Forall (fun c => isspace c = true) w.

(** A name or file name: not empty, without the reserved characters. *)
Definition reserved : text := [60; 62; 58; 34; 47; 92; 124; 63; 42].
Definition word (x : text) : Prop := x <> [] /\ forall c, In c x -> ~ In c reserved.
(** No white space at either end. *)
Definition trimmed (x : text) : Prop :=
  (forall c y, x = c :: y -> isspace c = false) /\ (forall c y, x = y ++ [c] -> isspace c = false).
(** A selector: in brackets, on one line. *)
Definition bracketed (x : text) : Prop := exists y, x = [91] ++ y ++ [93] /\ ~ In 10 y.

Definition is_direction (d : text) : Prop :=
  In d [txt "->"; txt "-->"; txt "<->"; txt "<-->"; txt "<-"; txt "<--"].

(** What may follow the second file: nothing, or a colon, and then perhaps a selector. *)
Definition ending (sel : option text) (t : text) : Prop :=
  match sel with
  | Some x => exists w w', t = [58] ++ w ++ x ++ w' /\ blank w /\ blank w' /\ bracketed x
  | None => blank t \/ exists w, t = [58] ++ w /\ blank w
  end.
(** [s] is the description [name : file1 direction file2], perhaps with [: selector], with any white space between
    the parts. *)
Definition describes (s : text) (e : edge) : Prop :=
  exists w1 w2 w3 w4 w5 w6 t,
    s = w1 ++ e_name e ++ w2 ++ [58] ++ w3 ++ e_file1 e ++ w4 ++ e_direction e ++ w5 ++ e_file2 e ++ w6 ++ t /\
    blank w1 /\ blank w2 /\ blank w3 /\ blank w4 /\ blank w5 /\ blank w6 /\ w4 <> [] /\ w5 <> [] /\
    word (e_name e) /\ word (e_file1 e) /\ word (e_file2 e) /\ is_direction (e_direction e) /\ ending (e_selector e) t.
Definition tidy (e : edge) : Prop := trimmed (e_name e) /\ trimmed (e_file1 e) /\ trimmed (e_file2 e).
(** A single white space character. *)
Definition lone (x : text) : Prop := exists c, x = [c] /\ isspace c = true.
