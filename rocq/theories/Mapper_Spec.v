(** What matching rows to records and spreading values over pairs must achieve. *)
From Verif Require Import Prelude BitFlags_Model Selectors_Model Db_Model Db_Spec Reader_Model Reader_Spec Mapper_Model.

(** A record agrees with a location when it has every label that is not left empty. *)
Definition agrees (loc : list text) (r : ixrec) : Prop :=
  forall n v w, nth_error loc n = Some v -> nth_error (ix_labels r) n = Some w -> v <> [] -> v = w.

(** The records that a row refers to: the one with its explicit id, else all that agree. *)
Definition refers (s : db) (d : side) (i : Z) : Prop :=
  has_index s i /\
  match sd_id d with
  | Some j => i = j
  | None => exists r, In r (d_index s) /\ ix_id r = i /\ agrees (sd_loc d) r
  end.
(** [refs] lists the records a row refers to, each once. *)
Definition refers_to (s : db) (d : side) (refs : list Z) : Prop :=
  NoDup refs /\ forall i, In i refs <-> refers s d i.
Definition by_labels (d : side) : Prop := sd_id d = None.

(** [a] stands before [b]. *)
Definition before {A} (l : list A) (a b : A) : Prop := exists x y z, l = x ++ a :: y ++ b :: z.

(** The weight that a matched record brings along. *)
Definition brings (s : db) (g i : Z) (w : option Q) : Prop :=
  match w with
  | Some q => (exists x, In x (d_weights s) /\ w_group x = g /\ w_index x = i /\ w_value x = q) \/
              (~ weight_there s g i /\ i = 0%Z /\ q = 0%Q)
  | None => ~ weight_there s g i /\ i <> 0%Z
  end.

Definition of_run (run : Z) (l : list hit) : list hit := filter (fun h => (h_run h =? run)%Z) l.

(** A record is taken already when it was matched at a level that stands earlier. *)
Definition taken (levels : list (list N)) (lv : list N) (l : list hit) (i : Z) : Prop :=
  exists h, In h l /\ h_index h = i /\ before levels (h_level h) lv.

(** The matches [l] that a row with side [d] should get: [refs] are the records it refers to,
    [keep] those left when records taken by earlier levels are dropped. *)
Record keeps (levels : list (list N)) (allow : bool) (l : list hit) (d : side) (refs keep : list Z) : Prop := {
  kp_nodup : NoDup keep;
  kp_in : forall i, In i keep <->
    In i refs /\ (by_labels d -> allow = false -> (1 < length refs)%nat -> ~ taken levels (sd_level d) l i)
}.
Definition acceptable (s : db) (g : Z) (limit : nat) (d : side) (refs keep : list Z) : Prop :=
  (by_labels d -> (length refs <= limit)%nat) /\
  ((1 < length keep)%nat -> forall i, In i keep -> i = 0%Z \/ weight_there s g i).

(** Share of a run's value that a match receives; the shares of a run. *)
Definition part (h : hit) : Q := val (h_prop h).
Definition parts (run : Z) (l : list hit) : Q := Qsum (map part (of_run run l)).
Definition matched (run : Z) (l : list hit) : bool := existsb (fun h => (h_run h =? run)%Z) l.

(** Value carried from record [a] to record [b]. *)
Definition carried (out : list (pair_key * option Q)) (a b : Z) : Q :=
  Qsum (map (fun x => val (snd x)) (filter (fun x => (fst (fst (fst x)) =? a)%Z && (snd (fst (fst x)) =? b)%Z) out)).

(** Share of a run's value that goes to record [i]. *)
Definition share_of (run : Z) (l : list hit) (i : Z) : Q :=
  Qsum (map part (filter (fun h => (h_index h =? i)%Z) (of_run run l))).
(** The same for one level. *)
Definition share_at (run : Z) (l : list hit) (i : Z) (lv : list N) : Q :=
  Qsum (map part (filter (fun h => (h_index h =? i)%Z && bytes_eqb (h_level h) lv) (of_run run l))).
Definition total_weight (run : Z) (l : list hit) : Q := Qsum (map (fun h => val (h_weight h)) (of_run run l)).

(** [n] elements of [l] satisfy [P]. *)
Definition counts {A} (P : A -> Prop) (l : list A) (n : nat) : Prop :=
  exists sel, (forall x, In x l -> (sel x = true <-> P x)) /\ length (filter sel l) = n.
Definition refers_count (s : db) (d : side) (Q : nat -> Prop) : Prop :=
  exists refs, refers_to s d refs /\ Q (length refs).
Definition reported (c : counter) : nat :=
  c_missing c + c_nolabel c + c_overlimit c + c_unweighted c + c_excluded c.

(** One use of the mapper: data loaded for two spaces, both sides matched once.  The
    structure rows of a space are distinct (UNIQUE constraint of its table). *)
Record mapped (gran1 gran2 : list bool -> option Q) (s1 s2 : db) (limit : nat) (allow : bool)
  (src : list source) (l1 l2 : list hit) : Prop := {
  md_load : exists data, load_mapper s1 s2 data = Ok src;
  md_1 : exists c, match_records gran1 s1 limit allow (side_1 src) [] = Ok (l1, c);
  md_2 : exists c, match_records gran2 s2 limit allow (side_2 src) [] = Ok (l2, c);
  md_levels1 : NoDup (map level_of (d_structs s1));
  md_levels2 : NoDup (map level_of (d_structs s2))
}.
