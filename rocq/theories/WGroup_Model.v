(** Model of the default weight group as the calls on a space show it.

    Sources: src/toron/data_service.py lines 620-647; src/toron/space.py lines 1116-1143;
    src/toron/dal1/repositories.py lines 366-397.  The calls that change weight groups
    (space.py lines 1128-1133, 1145-1214, 1270-1366) are in Db_Model.

    Simplifications that hold for the whole file: those of Db_Model (a group has an id, a name and
    a completeness flag; for description and selectors see C67); [weight_groups] is given in the
    order in which groups were added, not sorted by name (for the order see C68). *)
From Verif Require Import Prelude Selectors_Model LinkRef_Model Db_Model.

(** Models data_service.py lines 631-647 [get_default_weight_group]. *)
Definition get_default_weight_group (s : db) : res group :=
  match d_default s with
  | None => Err RuntimeError
  | Some None => Err TypeError
  | Some (Some i) => match group_by_id i s with Some g => Ok g | None => Err KeyError end
  end.

(** Models space.py lines 1135-1143 [DataSpace.get_default_weight_group]. *)
Definition space_default (s : db) : res (option group) :=
  match get_default_weight_group s with
  | Ok g => Ok (Some g)
  | Err RuntimeError => Ok None
  | Err e => Err e
  end.

(** Models space.py lines 1116-1119 [weight_groups]. *)
Definition weight_groups (s : db) : list group := d_groups s.

(** Models space.py lines 1121-1126 [get_weight_group]. *)
Definition get_weight_group (n : text) (s : db) : option group := group_by_name n s.

(** [space.set_default_weight_group(space.get_weight_group(n))]. *)
Definition choose (n : text) (s : db) : op := OSetDefaultGroup (option_map g_id (get_weight_group n s)).
