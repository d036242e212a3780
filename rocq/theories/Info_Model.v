(** Model of the description of a data space: [repr(space)] and the command [toron info].
    Source: src/toron/data_service.py lines 631-647, 995-1001, 1038-1068, 1089-1108 and 1143-1233,
    src/toron/space.py lines 2976-3008, src/toron/cli/command_info.py lines 22-80,
    src/toron/data_models.py lines 564-590.
    The order of the definitions and the text of granularities are the models of formatters.py. *)
From Verif Require Import Prelude Selectors_Model SelectorParse_Model LinkRef_Model PartSort_Model FormatGran_Model.
From Verif Require Json_Model Db_Model.
Local Open Scope nat_scope.
Local Open Scope list_scope.

(** What the description reads.  [None] for a property that is not stored.  [s_structs]: the rows of
    label_structure in the order of [get_all], as bits in column order and granularity.  [s_loaded]: the
    attribute names of all attribute groups.  [s_created]: the stored time, already converted to local
    time and formatted (lines 1223-1225; the conversion is not modelled).  The domain is a str and the
    default id an int or null, as the setters store them. *)
Record ispace := {
  s_domain : option text;
  s_order : option (list text);
  s_columns : list text;
  s_defs : option (list (list text));
  s_structs : list (list bool * gval);
  s_groups : list Db_Model.group;
  s_default : option (option Z);
  s_links : list link;
  s_attrs : option (list text);
  s_loaded : list text;
  s_created : option text
}.

(** Models data_service.py lines 995-1001 [get_domain] and 1153-1155. *)
Definition domain_str (s : ispace) : text :=
  let domain := match s_domain s with Some d => d | None => [] end in
  match domain with [] => txt "None" | _ => domain end.
(** Models data_service.py lines 1089-1108 [get_labels_in_display_order]. *)
Definition labels_in_display_order (s : ispace) : list text :=
  let display := match s_order s with Some d => d | None => [] end in
  display ++ filter (fun x => negb (tmem x display)) (s_columns s).
(** Models data_service.py lines 690-698 [get_all_partition_definitions]. *)
Definition all_definitions (s : ispace) : list (list text) :=
  match s_defs s with Some l => map set_of l | None => [] end.
(** [tuple == tuple] for bits. *)
Fixpoint bits_eqb (a b : list bool) : bool :=
  match a, b with
  | [], [] => true
  | x :: a', y :: b' => Bool.eqb x y && bits_eqb a' b'
  | _, _ => false
  end.
(** Models data_models.py lines 564-579 [get_by_bits] of a table that is not empty. *)
Fixpoint get_by_bits (bits : list bool) (rows : list (list bool * gval)) : res gval :=
  match rows with
  | [] => Err KeyError
  | (b, g) :: rows' => if bits_eqb b bits then Ok g else get_by_bits bits rows'
  end.
(** Models data_service.py lines 1166-1170 [_get_granularity], with data_models.py lines 581-590
    [get_by_labels]. *)
Definition get_granularity (s : ispace) (cat : list text) : res gval :=
  match s_structs s with
  | [] => Ok GNone
  | rows => get_by_bits (map (fun x => tmem x cat) (s_columns s)) rows
  end.
(** Lines 1174-1176: [f"{g}  {', '.join(c)}"] over [zip]. *)
Fixpoint partition_lines (texts : list text) (cats : list (list text)) : list text :=
  match texts, cats with
  | g :: texts', c :: cats' => (g ++ txt "  " ++ join (txt ", ") c) :: partition_lines texts' cats'
  | _, _ => []
  end.
Definition or_none (l : list text) : list text := match l with [] => [txt "None"] | _ => l end.
(** Models data_service.py lines 1157-1179. *)
Definition partition_list (s : ispace) : res (list text) :=
  do sorted_definitions <- sort_partition_definitions (all_definitions s) (labels_in_display_order s);
  do raw_granularity <- traverse (get_granularity s) sorted_definitions;
  do formatted_granularity <- format_granularity raw_granularity;
  Ok (or_none (partition_lines formatted_granularity sorted_definitions)).

(** Models data_service.py lines 631-647 [get_default_weight_group] and 1184-1188: the id, or [None] if
    no default is defined. *)
Definition default_group_id (s : ispace) : res (option Z) :=
  match s_default s with
  | None => Ok None
  | Some None => Err TypeError
  | Some (Some i) =>
      if existsb (fun g => (Db_Model.g_id g =? i)%Z) (s_groups s) then Ok (Some i) else Err KeyError
  end.
(** Lines 1190-1193. *)
Definition group_note (default_id : option Z) (g : Db_Model.group) : text :=
  if match default_id with Some i => (Db_Model.g_id g =? i)%Z | None => false end
  then if Db_Model.g_complete g then txt " (default)" else txt " (default, incomplete)"
  else if Db_Model.g_complete g then [] else txt " (incomplete)".
(** Models data_service.py lines 1181-1197. *)
Definition weights_list (s : ispace) : res (list text) :=
  match s_groups s with
  | [] => Ok [txt "None"]
  | groups =>
      do d <- default_group_id s;
      Ok (map (fun g => Db_Model.g_name g ++ group_note d g) (sorted Json_Model.text_ltb Db_Model.g_name groups))
  end.

(** Lines 1202-1209. *)
Definition link_note (k : link) : text :=
  if k_default k then
    if k_complete k then txt " (default)" else txt " (default, locally incomplete)"
  else if k_complete k then [] else txt " (locally incomplete)".
(** Line 1211: tuples compare by the id of the other space first. *)
Definition link_key_ltb (a b : text * Z) : bool :=
  Json_Model.text_ltb (fst a) (fst b) || (text_eqb (fst a) (fst b) && (snd a <? snd b)%Z).
(** Line 1213: [groupby] by the id of the other space; no group is empty, so each is given as its first
    link and the others. *)
Fixpoint group_links (l : list link) : list (link * list link) :=
  match l with
  | [] => []
  | k :: l' =>
      match group_links l' with
      | (k', rest) :: gs =>
          if text_eqb (k_other k) (k_other k') then (k, k' :: rest) :: gs else (k, []) :: (k', rest) :: gs
      | [] => [(k, [])]
      end
  end.
(** Lines 1215-1216. *)
Definition space_ref (k : link) : text :=
  match k_hint k with
  | Some (c :: h) => c :: h
  | _ => txt "[" ++ firstn 7 (k_other k) ++ txt "]"
  end.
(** Lines 1217-1220. *)
Definition link_line (g : link * list link) : text :=
  let sub_list := sorted Json_Model.text_ltb (fun x => x) (map (fun x => k_name x ++ link_note x) (fst g :: snd g)) in
  space_ref (fst g) ++ txt ": " ++ join (txt ", ") sub_list.
(** Models data_service.py lines 1199-1222. *)
Definition links_list (s : ispace) : list text :=
  match s_links s with
  | [] => [txt "None"]
  | links => map link_line (group_links (sorted link_key_ltb (fun k => (k_other k, k_id k)) links))
  end.

(** The dict that is returned. *)
Record info := {
  i_domain : text; i_partitions : list text; i_weights : list text; i_links : list text; i_created : text
}.
(** Models data_service.py lines 1143-1233 [get_dataspace_info_text]. *)
Definition get_info (s : ispace) : res info :=
  do partitions <- partition_list s;
  do weights <- weights_list s;
  match s_created s with
  | None => Err KeyError
  | Some created =>
      Ok {| i_domain := domain_str s; i_partitions := partitions; i_weights := weights;
            i_links := links_list s; i_created := created |}
  end.

(** Models data_service.py lines 1038-1046 [get_registered_attributes]. *)
Definition registered_attributes (s : ispace) : list text := match s_attrs s with Some l => l | None => [] end.
(** Models data_service.py lines 1048-1068 [get_loaded_attributes]. *)
Definition loaded_attributes (s : ispace) : res (list text) :=
  if forallb (fun x => tmem x (registered_attributes s)) (s_loaded s)
  then Ok (filter (fun a => tmem a (s_loaded s)) (registered_attributes s))
  else Err RuntimeError.

Definition nl : text := [10%N].
(** [a or 'None'] for a text. *)
Definition text_or_none (t : text) : text := match t with [] => txt "None" | _ => t end.
(** Models space.py lines 2992-3008, the text; [first]: the default repr of an object. *)
Definition repr_text (first : text) (i : info) (attributes : text) : text :=
  first ++ nl ++
  txt "domain:" ++ nl ++
  txt "  " ++ i_domain i ++ nl ++
  txt "partitions:" ++ nl ++
  txt "  " ++ join (nl ++ txt "  ") (i_partitions i) ++ nl ++
  txt "weights:" ++ nl ++
  txt "  " ++ join (txt ", ") (i_weights i) ++ nl ++
  txt "attributes:" ++ nl ++
  txt "  " ++ attributes ++ nl ++
  txt "incoming links:" ++ nl ++
  txt "  " ++ join (nl ++ txt "  ") (i_links i) ++ nl ++
  txt "created:" ++ nl ++
  txt "  " ++ i_created i.
(** Models space.py lines 2976-3008 [__repr__]. *)
Definition repr (first : text) (s : ispace) : res text :=
  do i <- get_info s;
  Ok (repr_text first i (text_or_none (join (txt ", ") (registered_attributes s)))).

(** The codes of args.stdout_style that are used. *)
Record style := { bright : text; dim : text; reset : text }.
(** Models cli/command_info.py lines 22-80 [write_to_stdout]: the text that is written.  [filename]: the
    last part of the path; [columns]: the width of the terminal. *)
Definition info_command (st : style) (filename : text) (columns : nat) (s : ispace) : res text :=
  do i <- get_info s;
  do loaded <- loaded_attributes s;
  let hr := repeat 9472%N (Nat.min (length filename) (columns - 1)) in
  let formatted_attributes :=
    map (fun a => if tmem a loaded then a else dim st ++ a ++ reset st) (registered_attributes s) in
  let head (t : text) := bright st ++ t ++ reset st ++ nl in
  Ok (hr ++ nl ++ filename ++ nl ++ hr ++ nl ++
      head (txt "domain:") ++
      txt "  " ++ i_domain i ++ nl ++
      head (txt "partitions:") ++
      txt "  " ++ join (nl ++ txt "  ") (i_partitions i) ++ nl ++
      head (txt "weights:") ++
      txt "  " ++ join (txt ", ") (i_weights i) ++ nl ++
      head (txt "attributes:") ++
      txt "  " ++ text_or_none (join (txt ", ") formatted_attributes) ++ nl ++
      head (txt "incoming links:") ++
      txt "  " ++ join (nl ++ txt "  ") (i_links i) ++ nl ++
      head (txt "created:") ++
      txt "  " ++ i_created i ++ nl).
