(** Model of how node files are found, recognised, opened, created, read and backed up:
    src/toron/dal1/data_connector.py 35-131 and 280-320 and 466-584, src/toron/data_access.py
    108-136, src/toron/space.py 171-197 and 3011-3082, src/toron/cli/common.py 76-111.

    Only POSIX systems (the Windows branches of make_sqlite_uri_filepath are left out).  A
    text is a list of code points, a byte string a list of numbers below 256.  The file system
    has directories and files with read and write permissions, and no symbolic links; nobody
    else changes it during a call. *)
From Verif Require Import Prelude Selectors_Model.
Local Open Scope N_scope.

(** * Encodings *)

(** UTF-8 form of one code point (Python's str.encode). *)
Definition utf8_char (c : N) : list N :=
  if c <? 128 then [c]
  else if c <? 2048 then [192 + c / 64; 128 + c mod 64]
  else if c <? 65536 then [224 + c / 4096; 128 + (c / 64) mod 64; 128 + c mod 64]
  else [240 + c / 262144; 128 + (c / 4096) mod 64; 128 + (c / 64) mod 64; 128 + c mod 64].

Definition surrogate (c : N) : bool := (55296 <=? c) && (c <=? 57343).

(** Encoding with errors='strict' (used by urllib.parse.quote): a surrogate raises
    UnicodeEncodeError, a subclass of ValueError. *)
Fixpoint utf8 (t : list N) : res (list N) :=
  match t with
  | [] => Ok []
  | c :: r => if surrogate c then Err ValueError
              else do b <- utf8 r; Ok (utf8_char c ++ b)
  end.

(** os.fsencode, errors='surrogateescape': the surrogates U+DC80 to U+DCFF stand for the bytes
    128 to 255 of names that are not valid UTF-8. *)
Fixpoint fsencode (t : list N) : res (list N) :=
  match t with
  | [] => Ok []
  | c :: r =>
      if surrogate c then
        if (56448 <=? c) && (c <=? 56575) then do b <- fsencode r; Ok ((c - 56320) :: b)
        else Err ValueError
      else do b <- fsencode r; Ok (utf8_char c ++ b)
  end.

(** * Paths (posixpath) *)

(** Components between slashes (byte strings and texts alike). *)
Fixpoint split_slash (s : list N) : list (list N) :=
  match s with
  | [] => [[]]
  | c :: r =>
      if c =? 47 then [] :: split_slash r
      else match split_slash r with
           | w :: ws => (c :: w) :: ws
           | [] => [[c]]
           end
  end.

Definition dot : list N := [46].
Definition dotdot : list N := [46; 46].

(** os.path.normpath of an absolute path, on components: empty components and '.' vanish,
    '..' removes the component before it.  The accumulator is in reverse order. *)
Fixpoint norm_from (acc : list (list N)) (l : list (list N)) : list (list N) :=
  match l with
  | [] => rev acc
  | w :: r =>
      if text_eqb w [] || text_eqb w dot then norm_from acc r
      else if text_eqb w dotdot then norm_from (tl acc) r
      else norm_from (w :: acc) r
  end.
Definition norm (l : list (list N)) : list (list N) := norm_from [] l.

(** '/' + '/'.join(components) *)
Definition abs_text (l : list (list N)) : list N :=
  match l with
  | [] => [47]
  | _ => flat_map (fun w => 47 :: w) l
  end.

Definition is_abs (p : list N) : bool := match p with c :: _ => c =? 47 | [] => false end.

(** os.path.join(cwd, path); cwd is the absolute path of the working directory. *)
Definition full (cwd p : list N) : list N := if is_abs p then p else cwd ++ 47 :: p.

(** os.path.abspath (os.fsdecode of a str is the str itself).  normpath keeps exactly two
    leading slashes; here they become one, which names the same file. *)
Definition abspath (cwd p : list N) : list N := abs_text (norm (split_slash (full cwd p))).

(** Part up to the last slash inclusive, and the rest. *)
Fixpoint cut_last (s : list N) : list N * list N :=
  match s with
  | [] => ([], [])
  | c :: r =>
      let (h, t) := cut_last r in
      if c =? 47 then (c :: h, t)
      else match h with [] => ([], c :: t) | _ => (c :: h, t) end
  end.

Fixpoint strip_slashes (s : list N) : list N :=
  match s with
  | [] => []
  | c :: r => match strip_slashes r with
              | [] => if c =? 47 then [] else [c]
              | q => c :: q
              end
  end.

(** posixpath.split: the head loses its trailing slashes unless it is all slashes. *)
Definition path_split (p : list N) : list N * list N :=
  let (h, t) := cut_last p in
  (match strip_slashes h with [] => h | q => q end, t).
Definition dirname (p : list N) : list N := fst (path_split p).

(** posixpath.join of two parts, the second not starting with a slash. *)
Definition ends_slash (a : list N) : bool := match rev a with c :: _ => c =? 47 | [] => false end.
Definition path_join (a b : list N) : list N :=
  match a with
  | [] => b
  | _ => if ends_slash a then a ++ b else a ++ 47 :: b
  end.

(** * SQLite file URIs *)

(** Characters that urllib.parse.quote leaves alone: letters, digits, '_.-~' and '/'. *)
Definition safe (b : N) : bool :=
  ((48 <=? b) && (b <=? 57)) || ((65 <=? b) && (b <=? 90)) || ((97 <=? b) && (b <=? 122))
  || (b =? 95) || (b =? 46) || (b =? 45) || (b =? 126) || (b =? 47).
Definition hex (d : N) : N := if d <? 10 then 48 + d else 55 + d.
Definition quote_byte (b : N) : list N :=
  if safe b then [b] else [37; hex (b / 16); hex (b mod 16)].
Definition quote_bytes (b : list N) : list N := flat_map quote_byte b.
Definition quote (path : list N) : res (list N) := do b <- utf8 path; Ok (quote_bytes b).

(** re.sub('/+', '/', path) *)
Fixpoint collapse_from (after : bool) (s : list N) : list N :=
  match s with
  | [] => []
  | c :: r =>
      if c =? 47 then if after then collapse_from true r else c :: collapse_from true r
      else c :: collapse_from false r
  end.
Definition collapse (s : list N) : list N := collapse_from false s.

Inductive mode := RO | RW | RWC.
Definition mode_text (m : mode) : list N :=
  match m with RO => txt "ro" | RW => txt "rw" | RWC => txt "rwc" end.

(** make_sqlite_uri_filepath, src/toron/dal1/data_connector.py 35-60. *)
Definition make_uri (path : list N) (m : option mode) : res (list N) :=
  do q <- quote path;
  let p := collapse q in
  Ok (match m with
      | Some m => txt "file:" ++ p ++ txt "?mode=" ++ mode_text m
      | None => txt "file:" ++ p
      end).

(** SQLite's sqlite3ParseUri, the part for the path: up to '?' or '#', %HH decoded, and after
    %00 everything ignored.  Result: the file name and the query after '?'. *)
Definition unhex (c : N) : option N :=
  if (48 <=? c) && (c <=? 57) then Some (c - 48)
  else if (65 <=? c) && (c <=? 70) then Some (c - 55)
  else if (97 <=? c) && (c <=? 102) then Some (c - 87)
  else None.
Definition octet (a b : N) : option N :=
  match unhex a, unhex b with Some x, Some y => Some (16 * x + y) | _, _ => None end.

Definition keep (ignore : bool) (c : N) (r : list N * list N) : list N * list N :=
  if ignore then r else (c :: fst r, snd r).

Fixpoint uri_path (ignore : bool) (s : list N) : list N * list N :=
  match s with
  | [] => ([], [])
  | c :: r =>
      if c =? 35 then ([], [])
      else if c =? 63 then ([], r)
      else if c =? 37 then
        match r with
        | a :: (b :: r2) =>
            match octet a b with
            | Some 0 => uri_path true r2
            | Some x => keep ignore x (uri_path ignore r2)
            | None => keep ignore c (uri_path ignore r)
            end
        | _ => keep ignore c (uri_path ignore r)
        end
      else keep ignore c (uri_path ignore r)
  end.

(** The query "mode=ro", "mode=rw" or "mode=rwc"; the URIs made here have no other options
    (any other query is an error in this model).  Without query the flags of sqlite3.connect
    hold: read, write and create. *)
Definition uri_mode (q : list N) : res mode :=
  if text_eqb q [] then Ok RWC
  else if text_eqb q (txt "mode=ro") then Ok RO
  else if text_eqb q (txt "mode=rw") then Ok RW
  else if text_eqb q (txt "mode=rwc") then Ok RWC
  else Err SqlOperationalError.

Fixpoint starts (p s : list N) : option (list N) :=
  match p, s with
  | [], _ => Some s
  | a :: p', b :: s' => if a =? b then starts p' s' else None
  | _ :: _, [] => None
  end.

(** After 'file:' two slashes start an authority, which must be empty (or localhost; left out,
    as the URIs made here have single slashes only). *)
Definition sqlite_uri (u : list N) : res (list N * mode) :=
  match starts (txt "file:") u with
  | None => Err SqlOperationalError
  | Some r =>
      match starts [47; 47] r with
      | Some r2 => if is_abs r2 then
                     do m <- uri_mode (snd (uri_path false r2)); Ok (fst (uri_path false r2), m)
                   else Err SqlOperationalError
      | None => do m <- uri_mode (snd (uri_path false r)); Ok (fst (uri_path false r), m)
      end
  end.

(** * Files *)
Section Files.
Context {D : Type} (empty_data : D).

(** What a Toron database says about itself, and its other tables. *)
Record dbase := { d_version : list N; d_uid : list N; d_data : D }.

(** Contents of a file: a SQLite database with the fields of its header, where [c_db] is None
    if it has no Toron tables; or other bytes. *)
Inductive content :=
| Database (between : list N) (vacuum : list N) (user_version application_id : N) (db : option dbase)
| Other (bytes : list N).

Inductive node := Dir (w : bool) | File (r w : bool) (c : content).

Definition loc := list (list N).
Definition fsys := list (loc * node).

Fixpoint loc_eqb (a b : loc) : bool :=
  match a, b with
  | [], [] => true
  | x :: a', y :: b' => text_eqb x y && loc_eqb a' b'
  | _, _ => false
  end.
Fixpoint get (fs : fsys) (l : loc) : option node :=
  match fs with
  | [] => None
  | (k, n) :: r => if loc_eqb k l then Some n else get r l
  end.
Fixpoint set (fs : fsys) (l : loc) (n : node) : fsys :=
  match fs with
  | [] => [(l, n)]
  | (k, m) :: r => if loc_eqb k l then (k, n) :: r else (k, m) :: set r l n
  end.

(** How the kernel follows the components of an absolute path. *)
Fixpoint walk (fs : fsys) (at_ : loc) (l : list (list N)) : option loc :=
  match l with
  | [] => Some at_
  | w :: r =>
      match get fs at_ with
      | Some (Dir _) =>
          if text_eqb w [] || text_eqb w dot then walk fs at_ r
          else if text_eqb w dotdot then walk fs (removelast at_) r
          else match get fs (at_ ++ [w]) with
               | Some _ => walk fs (at_ ++ [w]) r
               | None => None
               end
      | _ => None
      end
  end.

(** A path as Python hands it to the kernel: encoded, and without NUL. *)
Definition os_bytes (cwd p : list N) : res (list N) :=
  do b <- fsencode (full cwd p);
  if existsb (N.eqb 0) b then Err ValueError else Ok b.
Definition lookup_bytes (fs : fsys) (b : list N) : option loc := walk fs [] (split_slash b).
Definition lookup (fs : fsys) (cwd p : list N) : res (option loc) :=
  match p with
  | [] => Ok None
  | _ => do b <- os_bytes cwd p; Ok (lookup_bytes fs b)
  end.

(** os.path.exists and isfile answer False for names that cannot be encoded; os.access and
    open raise ValueError. *)
Definition exists_ (fs : fsys) (cwd p : list N) : bool :=
  match lookup fs cwd p with Ok (Some _) => true | _ => false end.
Definition is_file (fs : fsys) (cwd p : list N) : bool :=
  match lookup fs cwd p with
  | Ok (Some l) => match get fs l with Some (File _ _ _) => true | _ => false end
  | _ => false
  end.
Definition writable (n : option node) : bool :=
  match n with Some (Dir w) => w | Some (File _ w _) => w | None => false end.
Definition access_w (fs : fsys) (cwd p : list N) : res bool :=
  do o <- lookup fs cwd p;
  Ok (match o with Some l => writable (get fs l) | None => false end).

(** TORON_MAGIC_NUMBER, src/toron/data_models.py 49; b'SQLite format 3\x00'. *)
Definition toron_magic : list N := [1; 45; 132; 200].
Definition dal1 : list N := txt "DAL1".
Definition sqlite_magic : list N := txt "SQLite format 3" ++ [0].

(** int.from_bytes(b, 'big') and SQLite's 4-byte big-endian header fields. *)
Definition from_bytes (b : list N) : N := fold_left (fun a x => 256 * a + x) b 0.
Definition be32 (n : N) : list N :=
  [n / 16777216 mod 256; n / 65536 mod 256; n / 256 mod 256; n mod 256].

(** The first bytes of a file (https://www.sqlite.org/fileformat.html): 16 bytes of magic, 44
    bytes of other fields, user_version, 4 bytes of incremental-vacuum mode, application_id. *)
Definition first_bytes (c : content) : list N :=
  match c with
  | Database between vacuum user app _ => sqlite_magic ++ between ++ be32 user ++ vacuum ++ be32 app
  | Other b => b
  end.

(** get_backend_from_path, src/toron/data_access.py 108-136; only the answer 'DAL1' exists. *)
Definition slice (a b : nat) (l : list N) : list N := firstn (b - a) (skipn a l).
Definition is_toron (header : list N) : bool :=
  match starts sqlite_magic header with
  | Some _ => text_eqb (slice 68 72 header) toron_magic && text_eqb (slice 60 64 header) dal1
  | None => false
  end.
Definition get_backend (fs : fsys) (cwd p : list N) : res unit :=
  do o <- lookup fs cwd p;
  match o with
  | None => Err OsError
  | Some l =>
      match get fs l with
      | Some (File true _ c) =>
          if is_toron (firstn 72 (first_bytes c)) then Ok tt else Err ValueError
      | _ => Err OsError
      end
  end.

(** An open connection: the file, and whether it may be written. *)
Record handle := { h_at : loc; h_writable : bool }.

(** sqlite3.connect with a URI (get_sqlite_connection, data_connector.py 86-131, for a path
    that is neither ':memory:' nor empty).  SQLite tidies the path itself.  Opening for writing
    falls back to reading if there is no permission to write.  A missing file is made, empty,
    only in mode 'rwc'. *)
Definition connect (fs : fsys) (path : list N) (m : option mode) : fsys * res handle :=
  match (do u <- make_uri path m; sqlite_uri u) with
  | Err e => (fs, Err e)
  | Ok (b, om) =>
      let l := norm (split_slash b) in
      match get fs l with
      | Some (File true w _) =>
          (fs, Ok {| h_at := l; h_writable := match om with RO => false | _ => w end |})
      | Some _ => (fs, Err SqlOperationalError)
      | None =>
          match om, get fs (removelast l) with
          | RWC, Some (Dir true) =>
              (set fs l (File true true (Other [])), Ok {| h_at := l; h_writable := true |})
          | _, _ => (fs, Err SqlOperationalError)
          end
      end
  end.

(** The Toron database in a file.  A file that is no database raises sqlite3.DatabaseError,
    which stands here under its subclass OperationalError. *)
Definition db_of (n : option node) : res dbase :=
  match n with
  | Some (File _ _ (Database _ _ _ _ (Some d))) => Ok d
  | _ => Err SqlOperationalError
  end.
Definition put_db (n : option node) (d : dbase) : option node :=
  match n with
  | Some (File r w (Database x v u a _)) => Some (File r w (Database x v u a (Some d)))
  | _ => n
  end.
Definition update (fs : fsys) (l : loc) (d : dbase) : fsys :=
  match put_db (get fs l) d with Some n => set fs l n | None => fs end.

(** create_node_schema, src/toron/dal1/schema.py 356-374 and 229-236, for a file just made:
    [uuid] is the value of uuid4().  The other fields of the header are zeros here. *)
Definition latest : list N := txt "0.3.1".
Definition new_content (uuid : list N) : content :=
  Database (repeat 0 44) (repeat 0 4) (from_bytes dal1) (from_bytes toron_magic)
    (Some {| d_version := latest; d_uid := uuid; d_data := empty_data |}).
Definition create_node_schema (fs : fsys) (h : handle) (uuid : list N) : fsys * res (list N) :=
  match get fs (h_at h) with
  | Some (File r w (Other [])) =>
      if h_writable h then (set fs (h_at h) (File r w (new_content uuid)), Ok uuid)
      else (fs, Err SqlOperationalError)
  | Some (File _ _ (Database _ _ _ _ _)) => (fs, Err RuntimeError)
  | _ => (fs, Err SqlOperationalError)
  end.

(** What the migration steps make of an older database (their effect is the subject of the
    model Migrations_Model.v). *)
Context (migrate : dbase -> res dbase).

(** apply_migrations, src/toron/dal1/migrations.py 230-300, on a database. *)
Definition apply_migrations (d : dbase) (m : option mode) : res dbase :=
  if text_eqb (d_version d) latest then Ok d
  else match m with
       | Some RO => Err PlainException
       | _ => migrate d
       end.

(** A data connector: the path and mode of its file, or its data in memory. *)
Record connector := {
  k_uid : list N; k_mode : option mode; k_path : option (list N); k_mem : option content }.
Record space := { s_conn : connector; s_hint : option (list N) }.

(** DataConnector.bind_file, data_connector.py 532-584.  A failed migration is rolled back. *)
Definition connector_bind (fs : fsys) (cwd uuid p : list N) (m : mode) : fsys * res connector :=
  let path := abspath cwd p in
  let is_new := negb (exists_ fs cwd path) in
  let made (uid : list N) := {| k_uid := uid; k_mode := Some m; k_path := Some path; k_mem := None |} in
  match connect fs path (Some m) with
  | (fs1, Err e) => (fs1, Err e)
  | (fs1, Ok h) =>
      if is_new then
        match create_node_schema fs1 h uuid with
        | (fs2, Err e) => (fs2, Err e)
        | (fs2, Ok uid) => (fs2, Ok (made uid))
        end
      else
        match db_of (get fs1 (h_at h)) with
        | Err e => (fs1, Err e)
        | Ok d =>
            match apply_migrations d (Some m) with
            | Err e => (fs1, Err e)
            | Ok d' =>
                if text_eqb (d_version d) latest then (fs1, Ok (made (d_uid d)))
                else if h_writable h then (update fs1 (h_at h) d', Ok (made (d_uid d')))
                else (fs1, Err SqlOperationalError)
            end
        end
  end.

(** bind_file, src/toron/space.py 3028-3082; the mode comes as a text. *)
Definition read_mode (m : list N) : option mode :=
  if text_eqb m (txt "ro") then Some RO
  else if text_eqb m (txt "rw") then Some RW
  else if text_eqb m (txt "rwc") then Some RWC
  else None.

Definition may_bind (fs : fsys) (cwd p : list N) (m : mode) : res unit :=
  if exists_ fs cwd p then
    match m with
    | RO => get_backend fs cwd p
    | _ => do w <- access_w fs cwd p;
           if w then get_backend fs cwd p else Err OsError
    end
  else
    match m with
    | RWC => do w <- access_w fs cwd (dirname p);
             if w then Ok tt else Err OsError
    | _ => Err OsError
    end.

Definition bind_file (fs : fsys) (cwd uuid p mt : list N) : fsys * res space :=
  match read_mode mt with
  | None => (fs, Err ValueError)
  | Some m =>
      match may_bind fs cwd p m with
      | Err e => (fs, Err e)
      | Ok _ =>
          match connector_bind fs cwd uuid p m with
          | (fs1, Err e) => (fs1, Err e)
          | (fs1, Ok k) => (fs1, Ok {| s_conn := k; s_hint := Some p |})
          end
      end
  end.

(** read_from_file, data_connector.py 466-529, with cache_to_drive=False: the file is copied
    into memory and migrated there. *)
Definition content_at (fs : fsys) (l : loc) : res content :=
  match get fs l with
  | Some (File _ _ c) => match db_of (get fs l) with Ok _ => Ok c | Err e => Err e end
  | _ => Err SqlOperationalError
  end.
Definition with_db (c : content) (d : dbase) : content :=
  match c with Database x v u a _ => Database x v u a (Some d) | Other _ => c end.
Definition db_in (c : content) : res dbase :=
  match c with Database _ _ _ _ (Some d) => Ok d | _ => Err SqlOperationalError end.

Definition connector_read (fs : fsys) (cwd p : list N) : fsys * res connector :=
  let path := abspath cwd p in
  if is_file fs cwd path then
    match connect fs path None with
    | (fs1, Err e) => (fs1, Err e)
    | (fs1, Ok h) =>
        (fs1, do c <- content_at fs1 (h_at h);
              do d <- db_in c;
              do d' <- apply_migrations d None;
              Ok {| k_uid := d_uid d'; k_mode := None; k_path := None; k_mem := Some (with_db c d') |})
    end
  else (fs, Err OsError).

(** read_file, src/toron/space.py 3011-3025. *)
Definition read_file (fs : fsys) (cwd p : list N) : fsys * res space :=
  match get_backend fs cwd p with
  | Err e => (fs, Err e)
  | Ok _ =>
      match connector_read fs cwd p with
      | (fs1, Err e) => (fs1, Err e)
      | (fs1, Ok k) => (fs1, Ok {| s_conn := k; s_hint := Some p |})
      end
  end.

(** Reading through acquire_connection, data_connector.py 305-320. *)
Definition query (fs : fsys) (k : connector) : fsys * res content :=
  match k_mem k with
  | Some c => (fs, Ok c)
  | None =>
      match k_path k with
      | None => (fs, Err RuntimeError)
      | Some path =>
          match connect fs path (k_mode k) with
          | (fs1, Err e) => (fs1, Err e)
          | (fs1, Ok h) => (fs1, content_at fs1 (h_at h))
          end
      end
  end.

(** A statement or transaction that changes the data by [f]; a connection that may not write
    raises OperationalError ('attempt to write a readonly database'). *)
Definition modify (fs : fsys) (k : connector) (f : D -> D) : fsys * res connector :=
  let change (d : dbase) := {| d_version := d_version d; d_uid := d_uid d; d_data := f (d_data d) |} in
  match k_mem k with
  | Some c =>
      match db_in c with
      | Ok d => (fs, Ok {| k_uid := k_uid k; k_mode := k_mode k; k_path := k_path k;
                           k_mem := Some (with_db c (change d)) |})
      | Err e => (fs, Err e)
      end
  | None =>
      match k_path k with
      | None => (fs, Err RuntimeError)
      | Some path =>
          match connect fs path (k_mode k) with
          | (fs1, Err e) => (fs1, Err e)
          | (fs1, Ok h) =>
              match db_of (get fs1 (h_at h)) with
              | Err e => (fs1, Err e)
              | Ok d => if h_writable h then (update fs1 (h_at h) (change d), Ok k)
                        else (fs1, Err SqlOperationalError)
              end
          end
      end
  end.

(** save_to_file, data_connector.py 361-464, in effect (the steps through a temporary file and
    their failures are the subject of SaveFile_Model.v): a name with NUL fails when the
    temporary file is made, a surrogate when its name is given to SQLite (one that occurs in
    the extension only would do no harm in the code).  VACUUM INTO copies the fields of the
    header.  The new file gets default permissions. *)
Definition save_to_file (fs : fsys) (cwd : list N) (k : connector) (p : list N) : fsys * res unit :=
  let path := abspath cwd p in
  match access_w fs cwd (dirname path) with
  | Err e => (fs, Err e)
  | Ok false => (fs, Err OsError)
  | Ok true =>
      let refused := is_file fs cwd path &&
                     negb (match access_w fs cwd path with Ok w => w | Err _ => false end) in
      if refused then (fs, Err OsError)
      else
        match (do b <- utf8 path; if existsb (N.eqb 0) b then Err ValueError else Ok b) with
        | Err e => (fs, Err e)
        | Ok b =>
            match query fs k with
            | (fs1, Err e) => (fs1, Err e)
            | (fs1, Ok c) =>
                let l := norm (split_slash b) in
                match get fs1 l with
                | Some (Dir _) => (fs1, Err OsError)
                | _ => (set fs1 l (File true true c), Ok tt)
                end
            end
        end
  end.

(** DataSpace.to_file, src/toron/space.py 190-197. *)
Definition to_file (fs : fsys) (cwd : list N) (s : space) (p : list N) : fsys * res space :=
  match save_to_file fs cwd (s_conn s) p with
  | (fs1, Err e) => (fs1, Err e)
  | (fs1, Ok _) =>
      (fs1, Ok {| s_conn := s_conn s;
                  s_hint := match s_hint s with
                            | None | Some [] => Some p
                            | h => h
                            end |})
  end.

(** process_backup_option, src/toron/cli/common.py 86-111. *)
Definition backup_path (hint : list N) : list N :=
  let (d, b) := path_split hint in path_join d (txt "backup-" ++ b).
Fixpoint make_backups (fs : fsys) (cwd : list N) (nodes : list space) : fsys * res unit :=
  match nodes with
  | [] => (fs, Ok tt)
  | s :: r =>
      match s_hint s with
      | None => (fs, Err OsError)
      | Some hint =>
          match to_file fs cwd s (backup_path hint) with
          | (fs1, Err e) => (fs1, Err e)
          | (fs1, Ok _) => make_backups fs1 cwd r
          end
      end
  end.
Definition process_backup_option (fs : fsys) (cwd : list N) (backup : bool) (nodes : list space)
  : fsys * res unit :=
  if backup then make_backups fs cwd nodes else (fs, Ok tt).

(** cli_bind_file, src/toron/cli/common.py 76-83: OSErrors of bind_file are PermissionError or
    FileNotFoundError, except IsADirectoryError for a directory. *)
Definition is_dir (fs : fsys) (cwd p : list N) : bool :=
  match lookup fs cwd p with
  | Ok (Some l) => match get fs l with Some (Dir _) => true | _ => false end
  | _ => false
  end.
Definition cli_bind_file (fs : fsys) (cwd uuid p mt : list N) : fsys * res space :=
  match bind_file fs cwd uuid p mt with
  | (fs1, Err ValueError) => (fs1, Err ToronError)
  | (fs1, Err OsError) =>
      if is_dir fs cwd p && (match read_mode mt with Some RO => true | _ => match access_w fs cwd p with Ok w => w | Err _ => false end end)
      then (fs1, Err OsError) else (fs1, Err ToronError)
  | r => r
  end.
End Files.
