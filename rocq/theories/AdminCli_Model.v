(** Model of the commands that administrate a file: src/toron/cli/command_add.py,
    command_update.py, command_remove.py, command_rename.py and command_init.py, with the way
    src/toron/cli/main.py (its last lines) turns errors into exit codes.

    The columns are those of Columns_Model, links and mappings those of Db_Model, with their
    simplifications.  Weight groups have their descriptions and selectors here.  The two files of
    add_link and remove_link are different files.  Lists of names come after normalize_arg_list
    (Csv_Model).  Backups, log texts and errors of opening a file are left out (FileOpen_Model). *)
From Coq Require Import NArith String.
From Verif Require Import Prelude Selectors_Model LinkRef_Model Partitions_Model Columns_Model Db_Model Json_Model FileOpen_Model Csv_Model.

(** * Exit codes *)

(** How a command ends for the shell: an exit code, or a traceback. *)
Inductive outcome := Exit (code : N) | Traceback (e : exn).
(** Models the last five lines of main.py, [main]: ToronError is logged and gives exit code 1. *)
Definition main {A} (r : res A) : outcome :=
  match r with
  | Ok _ => Exit 0
  | Err ToronError => Exit 1
  | Err e => Traceback e
  end.

(** * Labels, partitions and attributes *)

(** A command on one file: the state it leaves behind, and how it ends.  Every method of the
    space runs in one transaction. *)
Definition after (s : cspace) (r : res cspace) : cspace * outcome :=
  (match r with Ok s' => s' | Err _ => s end, main r).

(** Models command_add.py lines 19-30 [add_label]; without labels the required argument of
    add_index_columns is missing.  [used]: see [CAdd]. *)
Definition add_label (labels : list string) (used : bool) (s : cspace) : cspace * outcome :=
  after s match labels with
          | [] => Err TypeError
          | c :: cs => ccall s (CAdd c cs used)
          end.

(** Errors that a command rewords as ToronError. *)
Definition reword (caught : exn -> bool) {A} (r : res A) : res A :=
  match r with
  | Err e => if caught e then Err ToronError else Err e
  | ok => ok
  end.
Definition is_value_error (e : exn) : bool := match e with ValueError => true | _ => false end.
Definition is_value_or_runtime_error (e : exn) : bool :=
  match e with ValueError | RuntimeError => true | _ => false end.

(** Models command_add.py lines 51-64 [add_partition]. *)
Definition add_partition (labels : list string) (s : cspace) : cspace * outcome :=
  after s (reword is_value_or_runtime_error (ccall s (CAddDef labels))).

(** Models command_add.py lines 67-91 [add_attribute]. *)
Definition add_attribute (attrs : list string) (s : cspace) : cspace * outcome :=
  let columns := registered s in
  let new := filter (fun a => negb (lmem a columns)) attrs in
  after s match new with
          | [] => Ok s
          | _ => reword is_value_error (ccall s (CRegister (columns ++ new)))
          end.

(** Models command_update.py lines 20-34 [update_label] and 81-95 [update_attribute]: exactly
    one of the two numbers may be different from zero. *)
Definition offset_of (left right : N) : res Z :=
  if negb (left =? 0)%N && (right =? 0)%N then Ok (- Z.of_N left)%Z
  else if negb (right =? 0)%N && (left =? 0)%N then Ok (Z.of_N right)
  else Err PlainException.
Definition update_label (label : string) (left right : N) (s : cspace) : cspace * outcome :=
  after s (do o <- offset_of left right; ccall s (CMoveLabel label o)).
Definition update_attribute (attr : string) (left right : N) (s : cspace) : cspace * outcome :=
  after s (do o <- offset_of left right; ccall s (CMoveAttribute attr o)).

(** Models command_rename.py lines 15-23 [rename_label]. *)
Definition rename_label (old_label new_label : string) (s : cspace) : cspace * outcome :=
  after s (ccall s (CRenameLabel old_label new_label)).

(** * Weight groups *)

Local Open Scope N_scope.

Record wgroup := {
  w_id : Z; w_name : text; w_desc : option text; w_sel : option (list text); w_complete : bool
}.
(** The table weight_group and the property default_weight_group_id. *)
Record wspace := { w_groups : list wgroup; w_default : option Z }.

(** Models dal1/repositories.py lines 381-393 [get_by_name]; names are unique. *)
Definition w_by_name (n : text) (s : wspace) : option wgroup :=
  find (fun g => text_eqb (w_name g) n) (w_groups s).
(** Models dal1/repositories.py lines 400-418 [update] for an unchanged name: an empty list of
    selectors becomes NULL. *)
Definition w_update (g : wgroup) (s : wspace) : wspace :=
  let g := {| w_id := w_id g; w_name := w_name g; w_desc := w_desc g;
              w_sel := match w_sel g with Some [] => None | x => x end; w_complete := w_complete g |} in
  {| w_groups := map (fun x => if (w_id x =? w_id g)%Z then g else x) (w_groups s); w_default := w_default s |}.

(** Models space.py lines 1185-1195 [edit_weight_group] with a new description. *)
Definition edit_description (n d : text) (s : wspace) : wspace :=
  match w_by_name n s with
  | Some g => w_update {| w_id := w_id g; w_name := w_name g; w_desc := Some d; w_sel := w_sel g; w_complete := w_complete g |} s
  | None => s
  end.
(** The same with new selectors. *)
Definition edit_selectors (n : text) (l : list text) (s : wspace) : wspace :=
  match w_by_name n s with
  | Some g => w_update {| w_id := w_id g; w_name := w_name g; w_desc := w_desc g; w_sel := Some l; w_complete := w_complete g |} s
  | None => s
  end.

(** Models space.py lines 1145-1183 [add_weight_group] as command_add.py lines 33-48
    [add_weight] calls it. *)
Definition add_weight (n : text) (desc : option text) (sel : option (list text)) (make_default : bool) (s : wspace)
  : wspace * outcome :=
  match w_by_name n s with
  | Some _ => (s, main (A := unit) (Err ToronError))
  | None =>
      let i := (zmax (map w_id (w_groups s)) + 1)%Z in
      let d := make_default || match w_groups s with [] => true | _ => false end in
      ({| w_groups := w_groups s ++ [{| w_id := i; w_name := n; w_desc := desc; w_sel := sel; w_complete := false |}];
          w_default := if d then Some i else w_default s |}, Exit 0)
  end.

(** [list.remove(x)] *)
Fixpoint list_remove (x : text) (l : list text) : list text :=
  match l with
  | [] => []
  | y :: r => if text_eqb y x then r else y :: list_remove x r
  end.
Definition text_dec := list_eq_dec N.eq_dec.

(** [x.replace('\n', ' ').replace('\r\n', ' ')] *)
Definition replace_lf (t : text) : text := map (fun c => if c =? 10 then 32 else c) t.
Fixpoint replace_crlf (t : text) : text :=
  match t with
  | [] => []
  | c :: r =>
      match r with
      | d :: r' => if (c =? 13) && (d =? 10) then 32 :: replace_crlf r' else c :: replace_crlf r
      | [] => [c]
      end
  end.
Definition unbroken (t : text) : text := replace_crlf (replace_lf t).

(** Models command_update.py lines 51-69: the new selectors. *)
Definition new_selectors (old : option (list text)) (added removed : list text) : list text :=
  let selectors := match old with Some l => l | None => [] end in
  let selectors := selectors ++ added in
  let selectors := fold_left (fun l x => if existsb (text_eqb x) l then list_remove x l else l) removed selectors in
  map unbroken (sort_texts (nodup text_dec selectors)).

Record update_args := { u_weight : text; u_desc : option text; u_add : list text; u_remove : list text; u_default : bool }.
(** Models command_update.py lines 37-78 [update_weight]; an option that is not given and an
    empty one are both falsy. *)
Definition update_weight (a : update_args) (s : wspace) : wspace * outcome :=
  match w_by_name (u_weight a) s with
  | None => (s, Exit 1)
  | Some g =>
      let s1 := match u_desc a with
                | None | Some [] => s
                | Some d => edit_description (u_weight a) d s
                end in
      let s2 := match u_add a, u_remove a with
                | [], [] => s1
                | _, _ => edit_selectors (u_weight a) (new_selectors (w_sel g) (u_add a) (u_remove a)) s1
                end in
      let s3 := if u_default a then
                  match w_by_name (u_weight a) s2 with
                  | Some g => {| w_groups := w_groups s2; w_default := Some (w_id g) |}
                  | None => s2
                  end
                else s2 in
      (s3, Exit 0)
  end.

(** * Links *)

Record file := { f_uid : text; f_hint : option text; f_db : db }.
Inductive direction := Both | ToLeft | ToRight | Unknown.
Record link_args := { a_link : text; a_selectors : list text; a_default : bool; a_direction : direction }.

(** What is left in the two files, and how the command ends. *)
Record linked := { n_left : db; n_right : db; n_end : outcome }.

Definition ending (e : option exn) : outcome := match e with None => Exit 0 | Some x => main (A := unit) (Err x) end.

(** Models command_add.py lines 100-107 [do_add]. *)
Definition do_add (tail head : file) (a : link_args) : db * option exn :=
  transact (add_link {| k_id := 0; k_other := f_uid tail; k_hint := f_hint tail; k_name := a_link a;
                        k_selectors := a_selectors a; k_default := false; k_hash := None; k_complete := false |}
                     (if a_default a then Some true else None)) (f_db head).

(** Models command_add.py lines 94-119 [add_link]. *)
Definition cli_add_link (a : link_args) (f1 f2 : file) : linked :=
  match a_direction a with
  | Both =>
      match do_add f1 f2 a with
      | (s2, Some e) => {| n_left := f_db f1; n_right := s2; n_end := ending (Some e) |}
      | (s2, None) => let (s1, e) := do_add f2 f1 a in {| n_left := s1; n_right := s2; n_end := ending e |}
      end
  | ToRight => let (s2, e) := do_add f1 f2 a in {| n_left := f_db f1; n_right := s2; n_end := ending e |}
  | ToLeft => let (s1, e) := do_add f2 f1 a in {| n_left := s1; n_right := f_db f2; n_end := ending e |}
  | Unknown => {| n_left := f_db f1; n_right := f_db f2; n_end := Traceback RuntimeError |}
  end.

(** Models command_remove.py line 24 [do_remove]. *)
Definition do_remove (tail head : file) (name : text) : db * option exn :=
  transact (drop_link (f_uid tail) name) (f_db head).

(** Models command_remove.py lines 18-68 [remove_link]: only ToronError is caught. *)
Definition cli_remove_link (name : text) (dir : direction) (f1 f2 : file) : linked :=
  match dir with
  | Both =>
      let (s1, e1) := do_remove f2 f1 name in
      match e1 with
      | None | Some ToronError =>
          let (s2, e2) := do_remove f1 f2 name in
          {| n_left := s1; n_right := s2;
             n_end := match e1, e2 with
                      | Some ToronError, Some ToronError => Exit 1
                      | _, None | _, Some ToronError => Exit 0
                      | _, Some e => Traceback e
                      end |}
      | Some e => {| n_left := s1; n_right := f_db f2; n_end := Traceback e |}
      end
  | ToLeft => let (s1, e) := do_remove f2 f1 name in {| n_left := s1; n_right := f_db f2; n_end := ending e |}
  | ToRight => let (s2, e) := do_remove f1 f2 name in {| n_left := f_db f1; n_right := s2; n_end := ending e |}
  | Unknown => {| n_left := f_db f1; n_right := f_db f2; n_end := Traceback RuntimeError |}
  end.

(** * init *)

(** [os.path.basename] (posix) *)
Definition basename (p : text) : text := snd (path_split p).

(** genericpath._splitext for the posix flavour, root only, of a name without separator:
    leading dots do not start an extension. *)
Fixpoint leading_dots (t : text) : nat :=
  match t with
  | c :: r => if c =? 46 then S (leading_dots r) else O
  | [] => O
  end.
Fixpoint last_dot (t : text) : option nat :=
  match t with
  | [] => None
  | c :: r => match last_dot r with
              | Some n => Some (S n)
              | None => if c =? 46 then Some O else None
              end
  end.
Definition splitext_root (t : text) : text :=
  let k := leading_dots t in
  match last_dot (skipn k t) with
  | Some n => firstn (k + n) t
  | None => t
  end.

(** The files by their paths; a new space has its domain only.  [writable]: whether to_file can
    write there (see SaveFile_Model for what to_file does). *)
Record newspace := { ns_domain : text }.
Inductive entry := Other | Space (x : newspace).
Definition files := list (text * entry).
Definition lookup (p : text) (fs : files) : option entry :=
  match find (fun x => text_eqb (fst x) p) fs with Some x => Some (snd x) | None => None end.

(** Models command_init.py lines 13-39 [create_file]. *)
Definition create_file (path : text) (domain : option text) (writable : bool) (fs : files) : files * outcome :=
  match strip (basename path) with
  | [] => (fs, Exit 1)
  | _ =>
      match lookup path fs with
      | Some _ => (fs, Exit 1)
      | None =>
          let d := match domain with
                   | None | Some [] => splitext_root (basename path)
                   | Some d => d
                   end in
          if writable then ((path, Space {| ns_domain := d |}) :: fs, Exit 0) else (fs, Exit 1)
      end
  end.

(** * Histories of weight groups *)

Inductive wop :=
| WAdd (n : text) (desc : option text) (sel : option (list text)) (make_default : bool)
| WUpdate (a : update_args).
Definition wcommand (o : wop) (s : wspace) : wspace * outcome :=
  match o with
  | WAdd n desc sel make_default => add_weight n desc sel make_default s
  | WUpdate a => update_weight a s
  end.
Definition wspace_new : wspace := {| w_groups := []; w_default := None |}.
Definition wrun (ops : list wop) : wspace := fold_left (fun s o => fst (wcommand o s)) ops wspace_new.
