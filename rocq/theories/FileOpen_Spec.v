(** Specification vocabulary for opening files (property C64). *)
From Verif Require Import Prelude Selectors_Model FileOpen_Model.
Local Open Scope N_scope.

(** A name in a directory. *)
Definition good_name (w : list N) : Prop :=
  w <> [] /\ w <> [46] /\ w <> [46; 46] /\ ~ In 47 w /\ ~ In 0 w.

(** Reading UTF-8 (The Unicode Standard, table 3-6): the number of bytes of a character is told
    by its first byte. *)
Fixpoint decode (b : list N) : option (list N) :=
  let more (c : N) (r : option (list N)) := match r with Some t => Some (c :: t) | None => None end in
  match b with
  | [] => Some []
  | a :: r =>
      if a <? 128 then more a (decode r)
      else if a <? 224 then
        match r with x :: r' => more ((a - 192) * 64 + (x - 128)) (decode r') | _ => None end
      else if a <? 240 then
        match r with
        | x :: y :: r' => more ((a - 224) * 4096 + (x - 128) * 64 + (y - 128)) (decode r')
        | _ => None
        end
      else
        match r with
        | x :: y :: z :: r' =>
            more ((a - 240) * 262144 + (x - 128) * 4096 + (y - 128) * 64 + (z - 128)) (decode r')
        | _ => None
        end
  end.

(** The location that a path names (whether or not something is there), as the kernel reads
    the path without symbolic links. *)
Definition names (cwd p : list N) (l : loc) : Prop :=
  exists b, os_bytes cwd p = Ok b /\ l = norm (split_slash b).

(** The parts of a path between slashes, empty ones left out. *)
Definition parts (p : list N) : list (list N) :=
  filter (fun w => match w with [] => false | _ => true end) (split_slash p).

Section Spec.
Context {D : Type}.

(** A file system: the root is a directory, whatever has a location lies in a directory, all
    names are names, and headers of databases have their sizes. *)
Definition wf_content (c : @content D) : Prop :=
  match c with
  | Database between vacuum user app _ =>
      length between = 44%nat /\ length vacuum = 4%nat /\ user < 4294967296 /\ app < 4294967296
  | Other _ => True
  end.
Definition wf_fs (fs : @fsys D) : Prop :=
  (exists w, get fs [] = Some (Dir w)) /\
  (forall l x n, get fs (l ++ [x]) = Some n -> good_name x /\ exists w, get fs l = Some (Dir w)) /\
  (forall l r w c, get fs l = Some (File r w c) -> wf_content c).

(** The file at [l] became [n], all else is as before. *)
Definition only_changed (fs fs' : @fsys D) (l : loc) (n : @node D) : Prop :=
  get fs' l = Some n /\ forall k, k <> l -> get fs' k = get fs k.
Definition same_files (fs fs' : @fsys D) : Prop := forall k, get fs' k = get fs k.

(** No surrogate in the absolute path: the path is a Unicode text. *)
Definition unicode (t : list N) : Prop := forall c, In c t -> ~ (55296 <= c <= 57343).

(** Python texts: code points. *)
Definition py_text (t : list N) : Prop := forall c, In c t -> c < 1114112.

(** A Toron database file: SQLite's file with Toron's application id and the version 'DAL1'. *)
Definition toron_content (c : @content D) (d : @dbase D) : Prop :=
  exists between vacuum,
    c = Database between vacuum 1145130033 19760328 (Some d).

(** The contents with the database replaced. *)
Definition replaced (c : @content D) (d : @dbase D) : @content D :=
  match c with Database x v u a _ => Database x v u a (Some d) | Other b => Other b end.

Definition holds (c : @content D) (d : @dbase D) : Prop :=
  exists x v u a, c = Database x v u a (Some d).

(** A space works on the file at [l]: whenever there is a database, queries see it, and changes
    go there, and only there, if the space may write and the file permits it; otherwise changes
    fail and nothing happens. *)
Definition works_on (k : @connector D) (l : loc) (may_write : bool) : Prop :=
  forall (fs : @fsys D) w c d, get fs l = Some (File true w c) -> holds c d ->
    query fs k = (fs, Ok c) /\
    forall f,
      let d' := {| d_version := d_version d; d_uid := d_uid d; d_data := f (d_data d) |} in
      if may_write && w then
        exists fs', modify fs k f = (fs', Ok k) /\ only_changed fs fs' l (File true w (replaced c d'))
      else modify fs k f = (fs, Err SqlOperationalError).

(** When the file at [l] can be bound: a readable Toron file, writable unless the mode is 'ro',
    whose path is a Unicode text, and which is up to date or can be brought up to date. *)
Definition bindable (migrate : @dbase D -> res (@dbase D)) (fs : @fsys D) (cwd p : list N) (l : loc) (m : mode) (w : bool) (c : @content D) (d : @dbase D) : Prop :=
  get fs l = Some (File true w c) /\ toron_content c d /\ (m <> RO -> w = true) /\
  unicode (abspath cwd p) /\
  (d_version d = latest \/ (m <> RO /\ exists d', migrate d = Ok d')).

(** A run of queries and changes through one space; errors do not stop it. *)
Inductive use := UQuery | UModify (f : D -> D).
Fixpoint uses (fs : @fsys D) (k : @connector D) (l : list use) : @fsys D * @connector D :=
  match l with
  | [] => (fs, k)
  | UQuery :: r => uses (fst (query fs k)) k r
  | UModify f :: r =>
      match modify fs k f with
      | (fs', Ok k') => uses fs' k' r
      | (fs', Err _) => uses fs' k r
      end
  end.
End Spec.
