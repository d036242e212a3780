(** Specification vocabulary for C07-C09 and C11, independent of the model's
    functions (only the syntax of selectors and texts is shared). *)
From Verif Require Import Prelude Selectors_Model.

(** Documented operator meanings: [v] is the selector's value, [b] the row's. *)
Definition is_space (c : N) : Prop :=
  In c [9; 10; 11; 12; 13; 28; 29; 30; 31; 32; 133; 160; 5760; 8192; 8193; 8194; 8195;
        8196; 8197; 8198; 8199; 8200; 8201; 8202; 8232; 8233; 8239; 8287; 12288]%N.

(** [w] is one of the whitespace separated words of [b]. *)
Definition word_of (w b : text) : Prop :=
  w <> [] /\ (forall c, In c w -> ~ is_space c) /\
  exists pre post, b = pre ++ w ++ post /\
    (pre = [] \/ exists p c, pre = p ++ [c] /\ is_space c) /\
    (post = [] \/ exists c p, post = c :: p /\ is_space c).

Definition op_holds (o : sel_op) (v b : text) : Prop :=
  match o with
  | OpEq => b = v
  | OpWord => word_of v b
  | OpDash => b = v \/ exists rest, b = v ++ [45%N] ++ rest
  | OpPrefix => exists rest, b = v ++ rest
  | OpSuffix => exists pre, b = pre ++ v
  | OpSubstr => exists pre post, b = pre ++ v ++ post
  end.

(** What a row holds for an attribute; a missing attribute is the empty string. *)
Inductive holds : row -> text -> text -> Prop :=
| holds_missing k : holds [] k []
| holds_here k v r : holds ((k, v) :: r) k v
| holds_later k k' v' r v : k <> k' -> holds r k v -> holds ((k', v') :: r) k v.

(** Meaning of a selector on a row. *)
Fixpoint means (upper : text -> text) (r : row) (s : selector) : Prop :=
  match s with
  | SSimple a None _ _ => exists v, holds r a v /\ v <> []
  | SSimple a (Some o) (Some w) false => exists v, holds r a v /\ op_holds o w v
  | SSimple a (Some o) (Some w) true => exists v, holds r a v /\ op_holds o (upper w) (upper v)
  | SSimple _ (Some _) None _ => False
  | SCont (CAny | CWhere) l => fold_right (fun x P => means upper r x \/ P) False l
  | SCont CNot l => fold_right (fun x P => ~ means upper r x /\ P) True l
  | SCont CCompound l => fold_right (fun x P => means upper r x /\ P) True l
  | SLoop _ => False
  end.

(** Selectors that the constructors deliver, apart from self-containing ones: an
    operator always comes with a value, and :is, :not, :where and juxtaposition have
    at least one member. *)
Fixpoint proper (s : selector) : Prop :=
  match s with
  | SSimple _ None v ic => ic = false /\ (v = None \/ v = Some [])
  | SSimple _ (Some _) (Some (_ :: _)) _ => True
  | SSimple _ (Some _) _ _ => False
  | SCont _ l => l <> [] /\ fold_right (fun x P => proper x /\ P) True l
  | SLoop _ => False
  end.

(** Lexicographic order of pairs. *)
Definition pair_lt (a b : Z * Z) : Prop :=
  (fst a < fst b \/ fst a = fst b /\ snd a < snd b)%Z.
Definition pair_le (a b : Z * Z) : Prop := a = b \/ pair_lt a b.

(** Specificity as documented. *)
Inductive spec_of : selector -> Z * Z -> Prop :=
| so_any_value a v ic : v = None \/ v = Some [] -> spec_of (SSimple a None v ic) (1, 0)%Z
| so_value a o w ic : w <> [] -> spec_of (SSimple a (Some o) (Some w) ic) (1, 1)%Z
| so_where l : spec_of (SCont CWhere l) (0, 0)%Z
| so_max c l s m : c = CAny \/ c = CNot ->
    In s l -> spec_of s m ->
    (forall x, In x l -> exists n, spec_of x n /\ pair_le n m) ->
    spec_of (SCont c l) m
| so_sum l ps : Forall2 spec_of l ps ->
    spec_of (SCont CCompound l)
      (fold_right Z.add 0 (map fst ps), fold_right Z.add 0 (map snd ps))%Z.

(** [m] is the best specificity with which one of [sels] matches the row. *)
Definition best (upper : text -> text) (r : row) (sels : option (list selector)) (m : Z * Z) : Prop :=
  exists l, sels = Some l /\
    (exists s, In s l /\ means upper r s /\ spec_of s m) /\
    (forall s n, In s l -> means upper r s -> spec_of s n -> pair_le n m).

(** Key [k] is the right answer: unique at its best specificity, and every greater
    best specificity is shared by two different keys. *)
Definition right_key {K} (upper : text -> text) (r : row)
    (d : list (K * option (list selector))) (k : K) : Prop :=
  exists sels m, In (k, sels) d /\ best upper r sels m /\
    (forall k' sels', In (k', sels') d -> best upper r sels' m -> k' = k) /\
    (forall k1 s1 m1, In (k1, s1) d -> best upper r s1 m1 -> pair_lt m m1 ->
       exists k2 s2, k2 <> k1 /\ In (k2, s2) d /\ best upper r s2 m1).
