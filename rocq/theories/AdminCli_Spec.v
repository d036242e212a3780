(** What the administration commands are to do, independent of how they do it. *)
From Coq Require Import NArith String.
From Verif Require Import Prelude Selectors_Model LinkRef_Model LinkRef_Spec Db_Model Db_Spec Json_Spec AdminCli_Model.

(** The names of [given] that are not [known], in order. *)
Inductive unknown_of (known : list string) : list string -> list string -> Prop :=
| un_nil : unknown_of known [] []
| un_skip a l r : In a known -> unknown_of known l r -> unknown_of known (a :: l) r
| un_keep a l r : ~ In a known -> unknown_of known l r -> unknown_of known (a :: l) (a :: r).

(** ** Weight groups *)

(** Ids and names tell groups apart; the default is one of them, and there is one as soon as
    there is a group. *)
Record weights_ok (s : wspace) : Prop := {
  ok_ids : NoDup (map w_id (w_groups s));
  ok_names : NoDup (map w_name (w_groups s));
  ok_default : forall i, w_default s = Some i -> In i (map w_id (w_groups s));
  ok_some_default : w_groups s <> [] -> w_default s <> None }.

(** How often a text occurs in a list. *)
Fixpoint occurs (x : text) (l : list text) : nat :=
  match l with
  | [] => 0
  | y :: r => (if list_eq_dec N.eq_dec y x then 1 else 0) + occurs x r
  end.
Definition listed (o : option (list text)) : list text := match o with Some l => l | None => [] end.
(** No line feed: nothing to replace. *)
Definition one_line (t : text) : Prop := ~ In 10%N t.

(** [new] holds what is left of the old and the added selectors when every removed one takes
    away one occurrence; each once, in the order of code points. *)
Definition selectors_left (old added removed new : list text) : Prop :=
  increasing new /\ forall x, In x new <-> (occurs x removed < occurs x (old ++ added))%nat.

(** [g'] is [g] after the update. *)
Record updated (a : update_args) (g g' : wgroup) : Prop := {
  up_id : w_id g' = w_id g;
  up_name : w_name g' = w_name g;
  up_complete : w_complete g' = w_complete g;
  up_desc : w_desc g' = match u_desc a with Some (c :: t) => Some (c :: t) | _ => w_desc g end;
  up_sel : (u_add a = [] -> u_remove a = [] -> w_sel g' = w_sel g \/ w_sel g = Some [] /\ w_sel g' = None) /\
    (u_add a <> [] \/ u_remove a <> [] -> w_sel g' <> Some [] /\
       exists new, selectors_left (listed (w_sel g)) (u_add a) (u_remove a) new /\
         Forall2 (fun x y => List.length x = List.length y /\
                    forall i c, nth_error x i = Some c -> nth_error y i = Some (if (c =? 10)%N then 32%N else c))
                 new (listed (w_sel g'))) }.

(** ** Links *)

(** No link from [tail] has the name. *)
Definition name_is_free (tail : file) (a : link_args) (s : db) : Prop :=
  forall k, In k (d_links s) -> k_other k = f_uid tail -> k_name k <> a_link a.
(** [s'] is [s] with one new link from [tail]; others lose their default status only to it. *)
Definition link_added (tail : file) (a : link_args) (s s' : db) : Prop :=
  exists k', ~ In (k_id k') (map k_id (d_links s)) /\ k_other k' = f_uid tail /\ k_hint k' = f_hint tail /\
    k_name k' = a_link a /\ k_selectors k' = a_selectors a /\ k_hash k' = None /\ k_complete k' = false /\
    (k_default k' = true <-> a_default a = true \/ forall k, In k (d_links s) -> k_other k <> f_uid tail) /\
    (forall k2, In k2 (d_links s') <-> k2 = k' \/ exists k, In k (d_links s) /\ bystander (k_default k') (f_uid tail) k k2) /\
    s' = set_links (d_links s') s.

(** [s'] is [s] without the link that the id of [tail] and the name mean, and without its mappings. *)
Definition link_dropped (tail : file) (name : text) (s s' : db) : Prop :=
  exists k, meant (d_links s) (f_uid tail) (Some name) true k /\
    (forall x, In x (d_links s') <-> In x (d_links s) /\ x <> k) /\
    (d_fk s = true -> forall m, In m (d_maps s') <-> In m (d_maps s) /\ m_link m <> k_id k) /\
    s' = set_maps (d_maps s') (set_links (d_links s') s).
Definition link_missing (tail : file) (name : text) (s : db) : Prop :=
  forall k, ~ meant (d_links s) (f_uid tail) (Some name) true k.
(** The link is taken out if it is there. *)
Definition link_gone (tail : file) (name : text) (s s' : db) : Prop :=
  link_dropped tail name s s' \/ link_missing tail name s /\ s' = s.

(** ** Paths *)

(** [b] is what follows the last slash of [p]. *)
Definition last_part (p b : text) : Prop := ~ In 47%N b /\ (p = b \/ exists d, p = d ++ 47%N :: b).
(** [b] has the extension [ext] after [root]: the root has more than dots before the last one. *)
Definition has_extension (b root ext : text) : Prop :=
  b = root ++ 46%N :: ext /\ ~ In 46%N ext /\ exists c, In c root /\ c <> 46%N.
Definition without_extension (b r : text) : Prop :=
  (exists ext, has_extension b r ext) \/ r = b /\ forall root ext, ~ has_extension b root ext.
(** Nothing but whitespace, as Python's str.strip understands it. *)
Definition blank (t : text) : Prop := Forall (fun c => Csv_Model.space c = true) t.
