(** Model of sqlite3/cee-sqlite3.c: the operations on JSON objects. *)
From Coq Require Import ZArith List Bool.
From Verif Require Import Base TsearchModel MapModel ListModel Json JsonHeapModel JsonSelectModel SqlModel SqlJsonModel SqlSelectModel.
Import ListNotations.
Open Scope Z_scope.
Open Scope outcome_scope.

(** "id" (sqlite3/cee-sqlite3.c:892) *)
Definition key_id : text := [105; 100].

Section Generic.
(** SQLite, as in SqlModel.v *)
Variable DB : Type.
Variable prepare : DB -> text -> Z * list (option text).
Variable exec : DB -> text -> list sqlv -> DB * list (list sqlv) * Z.
Variable columns : DB -> text -> list text.
Variable limit : Z.
Variable counters : DB -> counts.
Variable msg_unbound : text -> Z -> text -> text.
Variable msg_failed : Z -> text -> text.
Variable mk_str : text -> outcome text.
Notation world := (world DB).

(** sqlite3/cee-sqlite3.c:549-556 [cee_sqlite3_insert_wrapper] *)
Definition insert_wrapper (w : world) info data (t : stmts) (status : option (option nat)) : outcome (Z * world * option (option nat)) :=
  let* (rc, w, status, _) := sql_insert DB prepare exec limit counters msg_unbound msg_failed mk_str w info data (insert_of t) status None in
  Ok (rc, w, status).
(** sqlite3/cee-sqlite3.c:541-547 [cee_sqlite3_select_wrapper] *)
Definition select_wrapper (fuel : nat) (w : world) info data (t : stmts) (status : option (option nat)) : outcome (Z * world * option (option nat)) :=
  sql_select DB prepare exec columns limit msg_unbound msg_failed mk_str fuel w info data (t_select t) status.

Notation generic op := (generic_opcode mk_str DB op).

(** sqlite3/cee-sqlite3.c:882-894 [cee_sqlite3_insert_op]; [*status] is read in any case. *)
Definition insert_op (w : world) (json : option nat) info data (t : stmts) (status : option (option nat))
  : outcome (Z * world * option (list bind_data) * option (option nat)) :=
  let* (rc, w, data, status) := generic insert_wrapper w json info data t status in
  let* s := of_option NullDeref status in
  let* r := of_option NullDeref s in
  let* (_, h) := object_rename mk_str (w_heap DB w) r key_rowid key_id in
  Ok (rc, on_heap DB w h, data, status).
(** sqlite3/cee-sqlite3.c:896-932 [cee_sqlite3_update_or_insert_op], [cee_sqlite3_update_op],
    [cee_sqlite3_update_if_exists_op] *)
Definition update_or_insert_op (w : world) (json : option nat) info data (t : stmts) status :=
  generic (update_or_insert DB prepare exec limit counters msg_unbound msg_failed mk_str) w json info data t status.
Definition update_op (w : world) (json : option nat) info data (t : stmts) status :=
  generic (sql_update DB prepare exec limit counters msg_unbound msg_failed mk_str) w json info data t status.
Definition update_if_exists_op (w : world) (json : option nat) info data (t : stmts) status :=
  generic (update_if_exists DB prepare exec limit counters msg_unbound msg_failed mk_str) w json info data t status.
(** sqlite3/cee-sqlite3.c:934-945 [cee_sqlite3_select_op] *)
Definition select_op (fuel : nat) (w : world) (json : option nat) info data (t : stmts) status :=
  generic (select_wrapper fuel) w json info data t status.
End Generic.
