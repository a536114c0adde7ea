(** Model of the functions of sqlite3/cee-sqlite3.c that set up a connection: its names,
    attaching and detaching databases, pragmas, and copies of operations. *)
From Coq Require Import String Ascii ZArith List Bool.
From Verif Require Import Base Json StrModel BlockModel DbmTextModel.
Import ListNotations.
Open Scope string_scope.
Open Scope list_scope.
Open Scope Z_scope.
Open Scope outcome_scope.

(** sqlite3/cee-sqlite3.h:16-21 [struct cee_sqlite3]: two arrays; the database and the
    state are pointers. *)
Record conn : Type := Conn { db_name : list (option Z); db_path : list (option Z); c_db : nat; c_state : nat }.

(** sqlite3/cee-sqlite3.c:98-104 [cee_sqlite3_init] *)
Definition init (x : conn) (name path : text) (state db : nat) : outcome conn :=
  let* n := snprintf_at (db_name x) 0 (Z.of_nat (length (db_name x))) name in
  let* p := snprintf_at (db_path x) 0 (Z.of_nat (length (db_path x))) path in
  Ok (Conn n p db state).

(** strrchr(s, c) - s (library); [None] if it gives NULL *)
Fixpoint strrchr (s : text) (c : Z) : option nat :=
  match s with
  | [] => None
  | x :: s =>
    match strrchr s c with
    | Some n => Some (S n)
    | None => if x =? c then Some O else None
    end
  end.

(** sqlite3/cee-sqlite3.c:1194-1200 [cee_sqlite3_attach_db]: the buffer afterwards and
    the statement that is given to sqlite3_exec.  [filename] is what
    sqlite3_db_filename gives, "" for a database in memory; the difference of NULL
    and a pointer is undefined.  The difference is given for an int; it is below 2^31.
    What sqlite3_exec does is not modelled. *)
Definition attach_db (filename db_file as_name : text) (buf : list (option Z)) (size : Z) : outcome (list (option Z) * text) :=
  let* n := of_option BadPointer (strrchr filename 47) in
  let* buf := snprintf_at buf 0 size
    (bytes "attach database """ ++ firstn n filename ++ bytes "/" ++ db_file ++ bytes """ as " ++ as_name ++ bytes ";") in
  let* sql := c_string buf in
  Ok (buf, sql).

(** sqlite3/cee-sqlite3.c:1202-1206 [cee_sqlite3_detach_db] *)
Definition detach_db (as_name : text) (buf : list (option Z)) (size : Z) : outcome (list (option Z) * text) :=
  let* buf := snprintf_at buf 0 size (bytes "detach database '" ++ as_name ++ bytes "';") in
  let* sql := c_string buf in
  Ok (buf, sql).

(** sqlite3_column_int (library): the lower 32 bits, signed *)
Definition column_int (v : Z) : Z := let u := wrap 32 v in if u <? 2 ^ 31 then u else u - 2 ^ 32.

(** sqlite3/cee-sqlite3.c:869-878 [cee_sqlite3_get_pragma_variable].  [exec] gives the
    first column of the first row that a statement yields, [None] if it cannot be
    prepared or yields none; then sqlite3_column_int gives 0. *)
Definition get_pragma (exec : text -> option Z) (name : text) : outcome Z :=
  let* buf := snprintf_at (repeat None 256) 0 256 (bytes "PRAGMA " ++ name ++ bytes ";") in
  let* sql := c_string buf in
  Ok (match exec sql with Some v => column_int v | None => 0 end).

(** sqlite3/cee-sqlite3.h:44-52 [struct cee_sqlite3_bind_data] and :54-78
    [struct cee_sqlite3_bind_info]: their sizes *)
Definition SIZE_DATA : Z := 40.
Definition SIZE_INFO : Z := 80.
(** sqlite3/cee-sqlite3.h:254-258 [struct cee_sqlite3_db_op]: three pointers *)
Record db_op (D : Type) : Type := DbOp { o_stmts : nat; o_info : nat; o_data : D }.

(** sqlite3/cee-sqlite3.c:949-961 [new_cee_sqlite3_db_op]: the new operation, with the
    block it uses as data.  The block of the operation itself has the right size. *)
Definition new_db_op {D} (op : db_op D) (size_of_bind_infos : Z) : outcome (db_op chunk) :=
  let s := wrap 64 (SIZE_DATA * size_of_bind_infos) / SIZE_INFO in
  let* b := block_mk s in
  Ok (DbOp _ (o_stmts _ op) (o_info _ op) b).
