(** What weight groups and their default do, in terms of names. *)
From Verif Require Import Prelude Selectors_Model LinkRef_Model Db_Model Db_Spec WGroup_Model.

(** The names of the groups and the name of the default. *)
Record view := { v_names : list text; v_default : option text }.
(** What a space shows. *)
Definition shows (s : db) (v : view) : Prop :=
  map g_name (weight_groups s) = v_names v /\ exists og, space_default s = Ok og /\ option_map g_name og = v_default v.

(** The default is only ever set to a group that is there. *)
Definition sound_call (o : op) (s : db) : Prop :=
  match o with
  | OSetDefaultGroup None => False
  | OSetDefaultGroup (Some i) => exists g, In g (weight_groups s) /\ g_id g = i
  | _ => True
  end.
Fixpoint sound (ops : list op) (s : db) : Prop :=
  match ops with [] => True | o :: ops' => sound_call o s /\ sound ops' (fst (step o s)) end.

Definition rename (n x y : text) : text := if text_eqb y n then x else y.

(** The outcome [out] of a call and what is shown after it.  [gs]: the groups before it. *)
Definition follows (o : op) (gs : list group) (v : view) (out : option exn) (v' : view) : Prop :=
  match o with
  | OAddGroup n _ mk =>
      (In n (v_names v) /\ out = Some ToronError /\ v' = v) \/
      (~ In n (v_names v) /\ out = None /\ v_names v' = v_names v ++ [n] /\
       ((mk = Some true \/ (mk = None /\ v_names v = [])) /\ v_default v' = Some n \/
        ~ (mk = Some true \/ (mk = None /\ v_names v = [])) /\ v_default v' = v_default v))
  | OEditGroup n nn _ =>
      (~ In n (v_names v) /\ out = None /\ v' = v) \/
      (In n (v_names v) /\ nn = None /\ out = None /\ v' = v) \/
      (exists x, In n (v_names v) /\ nn = Some x /\ x <> n /\ In x (v_names v) /\ out = Some SqlIntegrityError /\ v' = v) \/
      (exists x, In n (v_names v) /\ nn = Some x /\ (x = n \/ ~ In x (v_names v)) /\ out = None /\
         v_names v' = map (rename n x) (v_names v) /\ v_default v' = option_map (rename n x) (v_default v))
  | ODropGroup n =>
      (~ In n (v_names v) /\ out = None /\ v' = v) \/
      (In n (v_names v) /\ v_default v = None /\ out = Some KeyError /\ v' = v) \/
      (exists before after, v_names v = before ++ n :: after /\ out = None /\ v_names v' = before ++ after /\
         (v_default v = Some n /\ v_default v' = None \/
          exists m, v_default v = Some m /\ m <> n /\ v_default v' = Some m))
  | OSetDefaultGroup i =>
      exists g, In g gs /\ i = Some (g_id g) /\ out = None /\ v_names v' = v_names v /\ v_default v' = Some (g_name g)
  | OInsertWeights n _ _ =>
      v_default v' = v_default v /\
      (v_names v' = v_names v /\ (out <> None \/ In n (v_names v)) \/ v_names v' = v_names v ++ [n] /\ ~ In n (v_names v) /\ out = None)
  | _ => v' = v
  end.
