(** Model of sqlite3/cee-sqlite3.c: inserting the objects of an array as rows of a
    table.

    Strings that cee_str_catf extends are texts here (StrModel.v has the buffers).  The
    state that insert_one_json_object makes and deletes, and what it prints to stderr,
    are left out. *)
From Coq Require Import ZArith List Bool.
From Verif Require Import Base TsearchModel MapModel ListModel Json JsonHeapModel JsonArrayModel SqlModel SqlJsonModel.
Import ListNotations.
Open Scope Z_scope.
Open Scope outcome_scope.

(** sqlite3/cee-sqlite3.c:1102-1107 [struct insert_columns_values]: the texts of the
    columns and the values, and the entries of [info] that are in use; [idx] is their
    number. *)
Record columns : Type := Columns { c_columns : text; c_values : text; c_infos : list bind_info }.
(** sqlite3/cee-sqlite3.c:1105: the size of [info] *)
Definition max_infos : nat := 50.

(** "null", "insert into ", " (", ") values (", ");" *)
Definition t_null : text := [110; 117; 108; 108].
Definition t_insert_into : text := [105; 110; 115; 101; 114; 116; 32; 105; 110; 116; 111; 32].
Definition t_open : text := [32; 40].
Definition t_values : text := [41; 32; 118; 97; 108; 117; 101; 115; 32; 40].
Definition t_close : text := [41; 59].

Section SqlInsert.
(** As in SqlModel.v *)
Variable DB : Type.
Variable prepare : DB -> text -> Z * list (option text).
Variable exec : DB -> text -> list sqlv -> DB * list (list sqlv) * Z.
Variable limit : Z.
Variable counters : DB -> counts.
Variable msg_unbound : text -> Z -> text -> text.
Variable msg_failed : Z -> text -> text.
Variable mk_str : text -> outcome text.

(** sqlite3/cee-sqlite3.c:1125-1145: the entry for one column that has a value.  The
    entry is beyond the array if all of that is in use.  The name is made by
    cee_str_mk. *)
Definition add_entry (c : columns) (cols vals : text) (key : text) (ty : sqltype) (d : bind_data) : outcome (columns * Z) :=
  if (length (c_infos c) <? max_infos)%nat then
    let* var := mk_str (64 :: key) in
    Ok (Columns cols vals (c_infos c ++ [BindInfo var key ty d false false false false]), 0)
  else Bad OutOfBounds.
(** sqlite3/cee-sqlite3.c:1109-1145 [collect_colums_values] *)
Definition collect (h : heap) (c : columns) (key : text) (val : option nat) : outcome (columns * Z) :=
  let comma := match c_columns c with [] => 32 | _ => 44 end in
  let cols := c_columns c ++ [comma] ++ key in
  let* v := load h val in
  match v with
  | NNull => Ok (Columns cols (c_values c ++ [comma] ++ t_null) (c_infos c), 0)
  | NStr s => add_entry c cols (c_values c ++ [comma; 64] ++ key) key T_TEXT (BindData 0 0 (Some (with_nul s)) 0 true false)
  | NI64 z => add_entry c cols (c_values c ++ [comma; 64] ++ key) key T_INT64 (BindData 0 z None 0 true false)
  | _ => Bad Abort
  end.

(** sqlite3/cee-sqlite3.c:1152-1182 [insert_one_json_object].  cee-json/value.c:508-516
    [cee_json_object_iterate].  If all entries of [info] are in use none has the NULL name that
    ends the loop in cee_sqlite3_bind_run_sql (:141), which is reached if the statement
    can be prepared. *)
Definition insert_one (table : text) (w : world DB) (one : option nat) (i : Z) : outcome (world DB * Z) :=
  let* m := object_at (w_heap DB w) one in
  let* (c, _) := map_iterate text nat (Some m) (collect (w_heap DB w)) (Columns [] [] []) in
  let sql := t_insert_into ++ table ++ t_open ++ c_columns c ++ t_values ++ c_values c ++ t_close in
  if (length (c_infos c) =? max_infos)%nat && (fst (prepare (w_db DB w) sql) =? SQLITE_OK) then Bad OutOfBounds
  else
    let* (_, w, _, _) := sql_insert DB prepare exec limit counters msg_unbound msg_failed mk_str w (Some (c_infos c)) None sql (Some None) None in
    Ok (w, 0).

(** sqlite3/cee-sqlite3.c:1184-1192 [cee_sqlite3_insert_json_array]; the array is not changed
    meanwhile.  [None] is a result that was never set. *)
Definition insert_json_array (fuel : nat) (w : world DB) (table : text) (array : option nat) : outcome (world DB * option Z) :=
  array_iterate fuel (w_heap DB w) array w (insert_one table).
End SqlInsert.
