(** Model of resolving a reference to a link.  Source: src/toron/data_service.py.
    Strings are code point lists ([text]). *)
From Verif Require Import Prelude Selectors_Model SelectorParse_Model.

(** A [Link] record: src/toron/data_models.py [class Link].  Description and user
    properties are not modelled.  [other_index_hash] is modelled by the sequence of
    ids that was hashed. *)
Record link := {
  k_id : Z;
  k_other : text;              (* other_unique_id *)
  k_hint : option text;        (* other_filename_hint *)
  k_name : text;
  k_selectors : list text;
  k_default : bool;
  k_hash : option (list Z);    (* other_index_hash *)
  k_complete : bool            (* is_locally_complete *)
}.

Definition ext : text := txt ".toron".

(** Models src/toron/dal1/repositories.py lines 955-965 [find_by_other_unique_id]. *)
Definition find_by_other_unique_id (ref : text) (links : list link) : list link :=
  filter (fun k => text_eqb (k_other k) ref) links.

(** Models src/toron/dal1/repositories.py lines 967-976 [find_by_other_filename_hint]. *)
Definition find_by_other_filename_hint (ref : text) (links : list link) : list link :=
  filter (fun k => match k_hint k with Some h => text_eqb h ref | None => false end) links.

Definition find_by_prefix (ref : text) (links : list link) : list link :=
  filter (fun k => startswith (k_other k) ref) links.

(** Models src/toron/data_service.py lines 382-408 [find_links_by_ref].  [ref[:-6]]
    removes the six characters of the extension. *)
Definition find_links_by_ref (ref : text) (links : list link) : list link :=
  match find_by_other_unique_id ref links with
  | (_ :: _) as m => m
  | [] =>
      let m := find_by_other_filename_hint ref links ++
               (if endswith ref ext
                then find_by_other_filename_hint (firstn (length ref - 6) ref) links
                else find_by_other_filename_hint (ref ++ ext) links) in
      match m with
      | _ :: _ => m
      | [] => if 7 <=? length ref then find_by_prefix ref links else []
      end
  end.

(** [len({x.other_unique_id: .. for x in matches}) > 1]. *)
Definition several_sources (m : list link) : bool :=
  match m with
  | [] => false
  | k :: m' => existsb (fun x => negb (text_eqb (k_other x) (k_other k))) m'
  end.

(** Models src/toron/data_service.py lines 411-454 [get_links_by_ref]. *)
Definition get_links_by_ref (ref : text) (links : list link) : res (list link) :=
  match ref with
  | [] => Err ToronError
  | _ =>
      match find_by_other_unique_id ref links with
      | (_ :: _) as m => Ok m
      | [] =>
          let m := find_by_other_filename_hint ref links ++
                   (if negb (endswith ref ext)
                    then find_by_other_filename_hint (ref ++ ext) links else []) in
          let m := match m with
                   | [] => if 7 <=? length ref then find_by_prefix ref links else []
                   | _ => m
                   end in
          if several_sources m then Err ToronError
          else match m with [] => Err ToronError | _ => Ok m end
      end
  end.

(** Models src/toron/data_service.py lines 457-498 [get_link].  A [None] and an empty
    name are both falsy. *)
Definition get_link (ref : text) (name : option text) (allow_default : bool)
  (links : list link) : res link :=
  do m <- get_links_by_ref ref links;
  if truthy name then
    match name with
    | Some n =>
        match find (fun k => text_eqb (k_name k) n) m with
        | Some k => Ok k
        | None => Err ToronError
        end
    | None => Err ToronError
    end
  else
    match m with
    | [k] => Ok k
    | _ =>
        if negb allow_default then Err ToronError
        else match find k_default m with
             | Some k => Ok k
             | None => Err ToronError
             end
    end.

Definition nil_b {A} (l : list A) : bool := match l with [] => true | _ => false end.
Definition zs_eqb (a b : list Z) : bool :=
  if list_eq_dec Z.eq_dec a b then true else false.

(** Models src/toron/data_service.py lines 501-550 [make_get_link_id_func]: builds
    the selector dictionary and the default, once. *)
Definition make_get_link_id (ref : text) (links : list link) (other_index_hash : list Z)
  : res (list (Z * option (list selector)) * Z) :=
  let m := find_links_by_ref ref links in
  if nil_b m then Err RuntimeError else
  let m' := filter (fun k => match k_hash k with
                             | Some h => zs_eqb h other_index_hash
                             | None => false end) m in
  if nil_b m' then Err RuntimeError else
  match find k_default m' with
  | None => Err RuntimeError
  | Some dk =>
      let m'' := filter (fun k => k_complete k && negb (nil_b (k_selectors k))) m' in
      do d <- traverse (fun k => do s <- traverse parse_selector (k_selectors k);
                                 Ok (k_id k, Some s)) m'';
      Ok (d, k_id dk)
  end.

(** The returned closure: lines 541-548. *)
Definition get_link_id (upper : text -> text) (fn : list (Z * option (list selector)) * Z)
  (attributes : row) : res Z :=
  greatest_unique upper Z attributes (fst fn) (snd fn).
