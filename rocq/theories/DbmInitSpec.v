(** What making and migrating a database is meant to do (sqlite3/cee_dbm.h:7, 15-26, 47-53; the
    names of the scripts in sqlite3/cee_dbm.c). *)
From Coq Require Import String Ascii ZArith List Bool.
From Verif Require Import Base Numeral Json DbmTextSpec DbmDirModel.
Import ListNotations.
Open Scope Z_scope.

(** <dir>/<kind>_<what>.<version>.sql *)
Definition sql_file (dir kind : text) (what : string) (v : Z) : text :=
  dir ++ 47 :: kind ++ 95 :: code what ++ 46 :: decimal_of v ++ code ".sql".

(** The text [dp] names the directory [dir], which is there. *)
Definition home (cwd : list text) (dp : text) (dir : list text) (fs : fsys) : Prop :=
  walk fs (start cwd dp) (names_of dp) = Some dir /\ entry fs dir = Some Dir.

Section Wanted.
Variable DB : Type.
Variable fresh : DB.
Variable run : DB -> text -> option DB.
Variable user_version : DB -> Z.
Variable script : text -> option text.

(** A script that must be there, and one that need not.  [None]: it fails. *)
Definition applied (x : DB) (f : text) : option DB := match script f with Some s => run x s | None => None end.
Definition if_there (x : DB) (f : text) : option DB := match script f with Some s => run x s | None => Some x end.
Definition andthen {A B} (a : option A) (f : A -> option B) : option B := match a with Some x => f x | None => None end.

(** The tables of a database are dropped; its entries in the list of tables are deleted. *)
Variable drop : DB -> option DB.

(** How the script that makes a database is run: [applied], or as the code does, [if_there] *)
Section Making.
Variable making : DB -> text -> option DB.
(** The database when it is made, before it gets data *)
Definition made_by (schema kind : text) (create_version : Z) (recreate : bool) (old : option DB) : option DB :=
  match old with
  | Some x => if recreate then andthen (drop x) (fun x => making x (sql_file schema kind "create" create_version)) else Some x
  | None => making fresh (sql_file schema kind "create" create_version)
  end.
(** The database: whether it is new, and what is in it.  [old]: what was in it.
    A new one, and one that is to be made anew, is made by its script; then it gets the data
    and what is special.  In the end each is brought from the version that it had to the next. *)
Definition wanted_by (schema data kind prefix : text) (create_version : Z) (recreate restore customize : bool) (old : option DB) : option (bool * DB) :=
  andthen (made_by schema kind create_version recreate old)
    (fun x =>
       let v := user_version x in
       let new := match old with Some _ => recreate | None => true end in
       andthen (if new && restore then if_there x (sql_file data prefix "insert" v) else Some x) (fun x =>
       andthen (if new && restore && customize then if_there x (sql_file data kind "customize" v) else Some x) (fun x =>
       andthen (if_there x (sql_file schema kind "migrate" v)) (fun x => Some (new, x))))).
End Making.
Definition when_made := made_by applied.
Definition wanted := wanted_by applied.

(** * The log *)
(** What fits into an array of [size] bytes, with the byte at the end *)
Definition short (size : nat) (t : text) : text := firstn (size - 1) t.
Definition row : Type := text * text * text.
Section Rows.
Variables kind db_file : text.
Definition ran (f : text) : row := (kind, code "apply", short 64 (f ++ code " to " ++ db_file)).
(** A script for the data: it is run, or it is not there. *)
Definition data_rows (f : text) (why missing : string) : list row :=
  match script f with
  | Some _ => [(kind, code "restore", short 256 (code "run " ++ f ++ code why ++ db_file)); ran f]
  | None => [(kind, code "restore", short 256 (code missing ++ f))]
  end.
(** The rows, in turn.  [x]: the database when it is made; [y]: in the end *)
Definition log_rows (schema data prefix : text) (create_version : Z) (recreate restore customize : bool) (old : option DB) (x y : DB) : list row :=
  let create := sql_file schema kind "create" create_version in
  let new := match old with Some _ => recreate | None => true end in
  let v := user_version x in
  let insert := sql_file data prefix "insert" v in
  let special := sql_file data kind "customize" v in
  let next := sql_file schema kind "migrate" v in
  (match old with
   | None => [(kind, code "create", short 256 (code "create a new " ++ db_file ++ code " with " ++ create)); ran create]
   | Some _ => if recreate then [(kind, code "recreate", short 256 (code "drop all tables of " ++ db_file ++ code " to RECREATE a fresh db")); ran create] else []
   end) ++
  [(kind, code "open", short 256 (code "user_version " ++ decimal_of v))] ++
  (if new && restore then
     data_rows insert " to restore data " "cannot find restoration script " ++
     (if customize then data_rows special " to customize data " "cannot find customization script " else [])
   else []) ++
  match script next with
  | Some _ => ran next :: (if user_version y =? v then [] else [(kind, code "migrate", short 256 (code "ran " ++ next ++ code " to migrate " ++ db_file ++ code " to version " ++ decimal_of (user_version y)))])
  | None => [(kind, code "migrate", short 256 (code "cannot find " ++ next ++ code ", no migration"))]
  end.
End Rows.
End Wanted.
