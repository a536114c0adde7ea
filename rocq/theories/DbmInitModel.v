(** Model of creating, migrating, opening and saving databases (sqlite3/cee_dbm.c:117-325,
    377-429; sqlite3/cee-sqlite3.c:7-72, 868-878).

    SQLite is given by what a script does to a database, and by the version that is stored in a
    database.  Database files are in the file system of [DbmDirModel].  Scripts are files too,
    but not among those that are made here: they are given by their paths.  The log is the list
    of its rows; its own database works.  What is written to stderr is not modelled. *)
From Coq Require Import String Ascii ZArith List Bool.
From Verif Require Import Base Numeral Json DbmTextModel DbmDirModel.
Import ListNotations.
Open Scope Z_scope.
Open Scope outcome_scope.

(** snprintf(buf, size, ...) into an array of [size] bytes: what is in it afterwards *)
Definition cut (size : nat) (t : text) : text := firstn (size - 1) t.

(** The path of a file that is there (the operating system) *)
Definition locate (fs : fsys) (cwd : list text) (t : text) : option (list text) :=
  if c_stat fs cwd t then walk fs (start cwd t) (names_of t) else None.
(** open(2) of a file, which is created if it is not there *)
Definition create_file (fs : fsys) (cwd : list text) (t : text) : option (fsys * list text) :=
  match locate fs cwd t with
  | Some p => match entry fs p with Some File => Some (fs, p) | _ => None end
  | None =>
    if last t slash =? slash then None
    else match rev (names_of t) with
         | [] => None
         | n :: r =>
           match walk fs (start cwd t) (rev r) with
           | None => None
           | Some d =>
             match entry fs d with
             | Some Dir =>
               if is_name n dot || is_name n dotdot then None
               else match entry fs (d ++ [n]) with Some _ => None | None => Some (fs ++ [(d ++ [n], File)], d ++ [n]) end
             | _ => None
             end
           end
         end
  end.

(** The paths, by their contents *)
Record dirs : Type := Dirs { p_schema : text; p_data : text; p_db : text }.

Section Dbm.
Variable DB : Type.
(** An empty database *)
Variable fresh : DB.
(** sqlite3_exec of a script; [None] is an error *)
Variable run : DB -> text -> option DB.
(** PRAGMA user_version *)
Variable user_version : DB -> Z.
(** cee_load_whole_file (cee-utils, not in the repository): NULL if there is no such file *)
Variable script : text -> option text.
(** system(3) *)
Variable shell : text -> Z.
Variable cwd : list text.

(** The files, what is in the databases, the rows of the log, and the number of open connections *)
Record dbm : Type := Dbm { d_fs : fsys; d_db : list text -> DB; d_log : list (text * text * text); d_open : Z }.
Definition set_db (w : dbm) (p : list text) (d : DB) : dbm :=
  Dbm (d_fs w) (fun q => if path_dec q p then d else d_db w q) (d_log w) (d_open w).

(** sqlite3_open (library): the file is opened, and made if it is not there; a new file is an
    empty database.  A connection counts as open until it is closed. *)
Definition sqlite3_open (w : dbm) (f : text) : option (dbm * list text) :=
  match create_file (d_fs w) cwd f with
  | None => None
  | Some (fs, p) =>
    let w' := Dbm fs (d_db w) (d_log w) (d_open w + 1) in
    Some (match entry (d_fs w) p with None => set_db w' p fresh | Some _ => w' end, p)
  end.
Definition closed (w : dbm) : dbm := Dbm (d_fs w) (d_db w) (d_log w) (d_open w - 1).

(** sqlite3/cee-sqlite3.c:7-65 [cee_sqlite3_init_db], [db_p] is NULL; with it a file that
    cannot be opened leads to *db_p (15).  Starting and ending the transaction succeed. *)
Definition init_db (w : dbm) (db_file : text) (sqlstmts : option text) : outcome dbm :=
  match sqlite3_open w db_file with
  | None => Bad NullDeref
  | Some (w, p) =>
    match sqlstmts with
    | None => Ok (closed w)
    | Some s =>
      match run (d_db w p) s with
      | None => Bad Abort
      | Some d => Ok (closed (set_db w p d))
      end
    end
  end.
(** sqlite3/cee-sqlite3.c:68-72 [cee_sqlite3_drop_all_tables] *)
Definition drop_stmt : text :=
  bytes "PRAGMA writable_schema = 1;" ++ [10] ++ bytes "delete from sqlite_master where type in ('table', 'index', 'trigger');" ++ [10] ++
  bytes "PRAGMA writable_schema = 0;" ++ [10].
Definition drop_all_tables (w : dbm) (db_file : text) : outcome dbm := init_db w db_file (Some drop_stmt).

(** sqlite3/cee_dbm.c:151-157 [get_user_version] with sqlite3/cee-sqlite3.c:868-878: 0 for a file
    that cannot be opened *)
Definition get_user_version (w : dbm) (db_file : text) : Z * dbm :=
  match sqlite3_open w db_file with
  | None => (0, w)
  | Some (w, p) => (user_version (d_db w p), closed w)
  end.

(** sqlite3/cee_dbm.c:160-171 [open_dbm_log]: is there a connection? *)
Definition open_dbm_log (w : dbm) (d : dirs) : dbm * bool :=
  match create_file (d_fs w) cwd (cut 128 (p_db d ++ bytes "/cee_dbm_log.db")) with
  | None => (w, false)
  | Some (fs, _) => (Dbm fs (d_db w) (d_log w) (d_open w + 1), true)
  end.
(** sqlite3/cee_dbm.c:173-191 [add_log]: without a connection the row goes to stderr. *)
Definition add_log (w : dbm) (conn : bool) (kind action row : text) : dbm :=
  if conn then Dbm (d_fs w) (d_db w) (d_log w ++ [(kind, action, row)]) (d_open w) else w.
(** sqlite3_close of the log; NULL is allowed. *)
Definition close_log (w : dbm) (conn : bool) : dbm := if conn then closed w else w.

(** sqlite3/cee_dbm.c:193-202 [my_apply_script] *)
Definition my_apply_script (w : dbm) (kind db_file script_file : text) (conn : bool) : outcome dbm :=
  let w := add_log w conn kind (bytes "apply") (cut 64 (script_file ++ bytes " to " ++ db_file)) in
  init_db w db_file (script script_file).

(** sqlite3/cee_dbm.c:204-211 [cee_dbm_db_exist] *)
Definition db_exist (w : dbm) (d : dirs) (db_file_ : text) : bool :=
  c_stat (d_fs w) cwd (cut 128 (p_db d ++ bytes "/" ++ db_file_)).

(** The names of scripts: <dir>/<kind>_<what>.<version>.sql, in 128 bytes *)
Definition script_file (dir kind what : text) (v : Z) : text :=
  cut 128 (dir ++ bytes "/" ++ kind ++ what ++ decimal_of v ++ bytes ".sql").

(** rindex(db_file, '/'): what is before the last slash *)
Definition before_slash (t : text) : option text :=
  match drop_name (rev t) with [] => None | _ :: r => Some (rev r) end.

(** access(db_script, F_OK) == 0 *)
Definition there (f : text) : bool := match script f with Some _ => true | None => false end.

(** sqlite3/cee_dbm.c:265-303, the data of a new database.  [prefix] is restore_data_prefix. *)
Definition restore (w : dbm) (d : dirs) (s : db_info) (db_file : text) (prefix : option text) (v : Z) (conn : bool) : outcome dbm :=
  let f := script_file (p_data d) (match prefix with Some p => p | None => kind s end) (bytes "_insert.") v in
  let* w :=
    if there f then
      my_apply_script (add_log w conn (kind s) (bytes "restore") (cut 256 (bytes "run " ++ f ++ bytes " to restore data " ++ db_file))) (kind s) db_file f conn
    else Ok (add_log w conn (kind s) (bytes "restore") (cut 256 (bytes "cannot find restoration script " ++ f))) in
  if customize_db s then
    let f := script_file (p_data d) (kind s) (bytes "_customize.") v in
    if there f then
      my_apply_script (add_log w conn (kind s) (bytes "restore") (cut 256 (bytes "run " ++ f ++ bytes " to customize data " ++ db_file))) (kind s) db_file f conn
    else Ok (add_log w conn (kind s) (bytes "restore") (cut 256 (bytes "cannot find customization script " ++ f)))
  else Ok w.

(** sqlite3/cee_dbm.c:306-320, the migration *)
Definition migrate (w : dbm) (d : dirs) (s : db_info) (db_file : text) (v : Z) (conn : bool) : outcome dbm :=
  let f := script_file (p_schema d) (kind s) (bytes "_migrate.") v in
  if there f then
    let* w := my_apply_script w (kind s) db_file f conn in
    let (v', w) := get_user_version w db_file in
    Ok (if v' =? v then w
        else add_log w conn (kind s) (bytes "migrate") (cut 256 (bytes "ran " ++ f ++ bytes " to migrate " ++ db_file ++ bytes " to version " ++ decimal_of v')))
  else Ok (add_log w conn (kind s) (bytes "migrate") (cut 256 (bytes "cannot find " ++ f ++ bytes ", no migration"))).

(** sqlite3/cee_dbm.c:213-325 [cee_dbm_db_init]: the result, [*db_version], and the world.  The
    precision of %.*s (237) is not an int; it is taken to work.  The directory is at most 127
    bytes long. *)
Definition db_init (w : dbm) (d : dirs) (s : db_info) (db_file_ prefix : option text) : outcome (bool * Z * dbm) :=
  let (w, conn) := open_dbm_log w d in
  let db_file := cut 128 (p_db d ++ bytes "/" ++ match db_file_ with Some f => f | None => file s end) in
  let w := add_log w conn (kind s) (bytes "open") (cut 256 db_file) in
  let* w :=
    match before_slash db_file with
    | None => Ok w
    | Some dir =>
      let* (r, fs) := mkdir_p 200 (d_fs w) cwd (Some dir) in
      if r =? 0 then Ok (Dbm fs (d_db w) (d_log w) (d_open w)) else Bad Abort
    end in
  let create := script_file (p_schema d) (kind s) (bytes "_create.") (create_version s) in
  let* (is_new_db, w) :=
    if c_stat (d_fs w) cwd db_file then
      if recreate_db s then
        let w := add_log w conn (kind s) (bytes "recreate") (cut 256 (bytes "drop all tables of " ++ db_file ++ bytes " to RECREATE a fresh db")) in
        let* w := drop_all_tables w db_file in
        let* w := my_apply_script w (kind s) db_file create conn in
        Ok (true, w)
      else Ok (false, w)
    else
      let w := add_log w conn (kind s) (bytes "create") (cut 256 (bytes "create a new " ++ db_file ++ bytes " with " ++ create)) in
      let* w := my_apply_script w (kind s) db_file create conn in
      Ok (true, w) in
  let (current_version, w) := get_user_version w db_file in
  let w := add_log w conn (kind s) (bytes "open") (cut 256 (bytes "user_version " ++ decimal_of current_version)) in
  let* w := if is_new_db && restore_db s then restore w d s db_file prefix current_version conn else Ok w in
  let* w := migrate w d s db_file current_version conn in
  let (v, w) := get_user_version w db_file in
  Ok (is_new_db, v, close_log w conn).

(** sqlite3/cee_dbm.c:377-429 [cee_dbm_db_backup]; without a file the log stays open. *)
Definition db_backup (w : dbm) (d : dirs) (s : db_info) (db_file_ prefix : option text) : bool * dbm :=
  let (w, conn) := open_dbm_log w d in
  let db_file := cut 128 (p_db d ++ bytes "/" ++ match db_file_ with Some f => f | None => file s end) in
  let w := add_log w conn (kind s) (bytes "open") (cut 256 db_file) in
  if c_stat (d_fs w) cwd db_file then
    let (v, w) := get_user_version w db_file in
    let w := add_log w conn (kind s) (bytes "open") (cut 256 (bytes "user_version " ++ decimal_of v)) in
    let command := cut 128 (bytes "/cxd/s/dump_insert.sh " ++ db_file ++ bytes " > " ++ p_data d ++ bytes "/" ++
                            match prefix with Some p => p | None => kind s end ++ bytes "_insert." ++ decimal_of v ++ bytes ".sql") in
    let w := add_log w conn (kind s) (if shell command =? 0 then bytes "backup" else bytes "backup_failed") command in
    (true, close_log w conn)
  else (false, add_log w conn (kind s) (bytes "backup_failed") (cut 256 (db_file ++ bytes " does not exist"))).

(** sqlite3/cee_dbm.c:117-128 [cee_dbm_open_db]: the file that is given to open_db *)
Definition open_db (w : dbm) (d : dirs) (db_file : text) : outcome text :=
  let f := cut 128 (p_db d ++ bytes "/" ++ db_file) in
  if c_stat (d_fs w) cwd f then Ok f else Bad Abort.
(** sqlite3/cee_dbm.c:130-149 [cee_dbm_attach_db]: the statement; [exec] tells whether it is
    carried out *)
Definition attach_db (exec : text -> bool) (w : dbm) (d : dirs) (db_file as_name : text) : outcome text :=
  let f := cut 256 (p_db d ++ bytes "/" ++ db_file) in
  if c_stat (d_fs w) cwd f then
    let sql := cut 256 (bytes "attach 'file:" ++ p_db d ++ bytes "/" ++ db_file ++ bytes "?mode=ro' as " ++ as_name ++ bytes ";") in
    if exec sql then Ok sql else Bad Abort
  else Bad Abort.
End Dbm.
