(** Model of sqlite3/cee-sqlite3.c: select statements, and what is built on them. *)
From Coq Require Import ZArith List Bool.
From Verif Require Import Base TsearchModel MapModel ListModel Json JsonTokModel JsonHeapModel JsonSelectModel SqlModel.
Import ListNotations.
Open Scope Z_scope.
Open Scope outcome_scope.

(** sqlite3/cee-sqlite3.c:375-395 [dont_return_colum], [dont_label]: what the first
    entry for the column says.  An entry without a column has the name [] here. *)
Fixpoint flag_of (flag : bind_info -> bool) (infos : list bind_info) (name : text) : bool :=
  match infos with
  | [] => false
  | info :: r => if strcmp (i_col info) name =? 0 then flag info else flag_of flag r name
  end.
Definition column_flag (flag : bind_info -> bool) (info : option (list bind_info)) (name : text) : bool :=
  match info with None => false | Some infos => flag_of flag infos name end.

(** The text before the first NUL, as sqlite3_column_text gives it to "%s" *)
Definition column_text (t : text) : text := JsonTokModel.c_string_n t.

Section Select.
(** SQLite, as in SqlModel.v, and the names of the columns of a statement's rows *)
Variable DB : Type.
Variable prepare : DB -> text -> Z * list (option text).
Variable exec : DB -> text -> list sqlv -> DB * list (list sqlv) * Z.
Variable columns : DB -> text -> list text.
Variable limit : Z.
Variable counters : DB -> counts.
Variable msg_unbound : text -> Z -> text -> text.
Variable msg_failed : Z -> text -> text.
Variable mk_str : text -> outcome text.
Notation world := (world DB).
Notation bind_run_sql := (bind_run_sql DB prepare exec limit msg_unbound msg_failed mk_str).
Notation World := (World DB).
Notation w_heap := (w_heap DB).
Notation w_db := (w_db DB).
Notation w_open := (w_open DB).

(** sqlite3/cee-sqlite3.c:458-481: the node for a value.  A blob is known by its size; there is
    one null in C (cee_json_null), here a new one each time. *)
Definition column_node (v : sqlv) : outcome node :=
  match v with
  | V_INT z => Ok (NI64 z)
  | V_REAL d => Ok (NDouble d)
  | V_TEXT t => let* s := mk_str (column_text t) in Ok (NStr s)
  | V_NULL => Ok NNull
  | V_BLOB t => Ok (NBlob (Z.of_nat (length t)))
  end.
(** sqlite3_column_*: without a current row the result is undefined. *)
Definition column_of (row : option (list sqlv)) (i : nat) : outcome sqlv :=
  match row with None => Bad Uninit | Some vs => of_option Uninit (nth_error vs i) end.

(** sqlite3/cee-sqlite3.c:451-482, the loop: the memory, single_value, no_label *)
Fixpoint row_loop (h : heap) (obj : nat) (info : option (list bind_info)) (names : list text) (i : nat) (row : option (list sqlv))
  (single : option nat) (no_label : bool) : outcome (heap * option nat * bool) :=
  match names with
  | [] => Ok (h, single, no_label)
  | name :: r =>
    if column_flag i_no_return info name then row_loop h obj info r (S i) row single no_label
    else
      let no_label := column_flag i_no_label info name in
      let* v := column_of row i in
      let* n := column_node v in
      let (h, x) := alloc h n in
      let* h := object_set mk_str h (Some obj) name (Some x) in
      row_loop h obj info r (S i) row (Some x) no_label
  end.
(** sqlite3/cee-sqlite3.c:441-488 [get_a_row] *)
Definition get_a_row (array : nat) (info : option (list bind_info)) (h : heap) (names : list text) (row : option (list sqlv)) : outcome (heap * Z) :=
  let (h, obj) := alloc h (NObj map_mk) in
  let* (h, single, no_label) := row_loop h obj info names 0 row None false in
  let* h := if (length names =? 1)%nat && no_label then array_append h array single else array_append h array (Some obj) in
  Ok (h, 0).

(** sqlite3_step: the next row, or the end.  After an end that is not SQLITE_DONE the
    statement is run again from the start. *)
Definition next_row (db : DB) (s : stmt) : DB * stmt * Z :=
  match s_rows s with
  | _ :: (_ :: _) as r => (db, Stmt (s_sql s) (s_vals s) r (s_end s), SQLITE_ROW)
  | [_] => (db, Stmt (s_sql s) (s_vals s) [] (s_end s), s_end s)
  | [] =>
    let '(db, rows, rc) := exec db (s_sql s) (s_vals s) in
    (db, Stmt (s_sql s) (s_vals s) rows rc, match rows with [] => rc | _ => SQLITE_ROW end)
  end.
(** sqlite3/cee-sqlite3.c:430-438, the loop, with sqlite3_finalize *)
Fixpoint iter_rows (fuel : nat) (f : heap -> list text -> option (list sqlv) -> outcome (heap * Z)) (w : world) (s : stmt) (rc : Z)
  : outcome (Z * world) :=
  if rc =? SQLITE_DONE then Ok (rc, World (w_db w) (w_open w - 1) (w_heap w))
  else
    match fuel with
    | O => Bad OutOfFuel
    | S n =>
      let* (h, stop) := f (w_heap w) (columns (w_db w) (s_sql s)) (hd_error (s_rows s)) in
      if negb (stop =? 0) then Ok (SQLITE_DONE, World (w_db w) (w_open w - 1) h)
      else
        let '(db, s, rc) := next_row (w_db w) s in
        iter_rows n f (World db (w_open w) h) s rc
    end.

(** cee_json_select(j, ".error") *)
Definition error_of (h : heap) (j : option nat) : outcome (option nat) := select 10 h j (46 :: key_error) [].
Definition pointee (status : option (option nat)) : option nat := match status with Some o => o | None => None end.

(** sqlite3/cee-sqlite3.c:400-439 [cee_sqlite3_select_iter] *)
Definition select_iter (fuel : nat) (f : heap -> list text -> option (list sqlv) -> outcome (heap * Z))
  (w : world) (info : option (list bind_info)) (data : option (list bind_data)) (sql : text) (status : option (option nat))
  : outcome (Z * world * option (option nat)) :=
  let* _ := match status with
            | Some (Some a) => let* _ := array_at (w_heap w) (Some a) in Ok tt
            | _ => Ok tt
            end in
  let* (rc, w, my_status, s) := bind_run_sql w info data sql true (Some None) in
  if negb (rc =? SQLITE_ROW) && negb (rc =? SQLITE_DONE) then
    match status with
    | None => Ok (rc, w, status)
    | Some _ =>
      let (h, status) := accept_result (w_heap w) status in
      let* e := error_of h (pointee my_status) in
      let* h := object_append mk_str fuel h (pointee status) key_error e in
      let* h := set_error mk_str h status (Ok (msg_failed rc sql)) in
      Ok (rc, World (w_db w) (w_open w) h, status)
    end
  else
    let* s := of_option NullDeref s in
    let* (rc, w) := iter_rows fuel f w s rc in
    Ok (rc, w, status).

(** sqlite3/cee-sqlite3.c:492-506 [cee_sqlite3_select] *)
Definition sql_select (fuel : nat) (w : world) (info : option (list bind_info)) (data : option (list bind_data)) (sql : text) (status : option (option nat))
  : outcome (Z * world * option (option nat)) :=
  let (h, array) := alloc (w_heap w) (NArr (list_mk 10)) in
  let* (rc, w, status) := select_iter fuel (get_a_row array info) (World (w_db w) (w_open w) h) info data sql status in
  if rc =? SQLITE_DONE then
    match status with
    | None => Ok (rc, w, status)
    | Some (Some a) => let* (_, h) := merge fuel (w_heap w) (Some a) (Some array) in Ok (rc, World (w_db w) (w_open w) h, status)
    | Some None => Ok (rc, w, Some (Some array))
    end
  else Ok (rc, w, status).

(** sqlite3/cee-sqlite3.c:511-536 [cee_sqlite3_select1] *)
Definition sql_select1 (fuel : nat) (w : world) (info : option (list bind_info)) (data : option (list bind_data)) (sql : text) (status : option (option nat))
  : outcome (Z * world * option (option nat)) :=
  let* (rc, w, result) := sql_select fuel w info data sql (Some None) in
  let* error := error_of (w_heap w) (pointee result) in
  match error with
  | Some e =>
    match status with
    | None => Ok (rc, w, status)
    | Some _ =>
      let (h, status) := accept_result (w_heap w) status in
      let* h := object_append mk_str fuel h (pointee status) key_error (Some e) in
      Ok (rc, World (w_db w) (w_open w) h, status)
    end
  | None =>
    let* one := select 10 (w_heap w) (pointee result) [91; 48; 93] [] in
    match one, status with
    | Some x, Some (Some a) => let* (_, h) := merge fuel (w_heap w) (Some a) (Some x) in Ok (rc, World (w_db w) (w_open w) h, status)
    | Some x, Some None => Ok (rc, w, Some (Some x))
    | _, _ => Ok (rc, w, status)
    end
  end.

(** sqlite3/cee-sqlite3.c:558-598 [cee_sqlite3_select1_or_insert] *)
Definition select1_or_insert (fuel : nat) (w : world) (info : option (list bind_info)) (data : option (list bind_data)) (t : stmts) (status : option (option nat))
  : outcome (Z * world * option (option nat)) :=
  let* (rc, w, result) := sql_select1 fuel w info data (t_select t) (Some None) in
  match pointee result with
  | Some r =>
    match status with
    | None => Ok (rc, w, status)
    | Some s =>
      let* error := error_of (w_heap w) (Some r) in
      match error, s with
      | Some e, Some a => let* h := object_append mk_str fuel (w_heap w) (Some a) key_error (Some e) in Ok (rc, World (w_db w) (w_open w) h, status)
      | None, Some a => let* (_, h) := merge fuel (w_heap w) (Some a) (Some r) in Ok (rc, World (w_db w) (w_open w) h, status)
      | _, None => Ok (rc, w, Some (Some r))
      end
    end
  | None =>
    let (h, status) := accept_result (w_heap w) status in
    let result := pointee status in
    let insert := insert_of t in
    let* (rc, w, status, _) := bind_run_sql (World (w_db w) (w_open w) h) info data insert false status in
    if negb (rc =? SQLITE_DONE) then
      let* h := set_error mk_str (w_heap w) status (Ok (msg_failed rc insert)) in Ok (rc, World (w_db w) (w_open w) h, status)
    else
      match result with
      | Some _ =>
        let* w := set_field DB mk_str w status key_rowid (NI64 (to_int32 (last_insert_rowid (counters (w_db w))))) in Ok (rc, w, status)
      | None => Ok (rc, w, status)
      end
  end.

(** sqlite3/cee-sqlite3.c:990-1016 [cee_sqlite3_select_as] *)
Definition select_as (fuel : nat) (w : world) (info : option (list bind_info)) (data : option (list bind_data)) (sql : text) (status : option (option nat)) (key : text)
  : outcome (Z * world * option (option nat)) :=
  let* (rc, w, result) := sql_select fuel w info data sql (Some None) in
  let array := pointee result in
  let* error := error_of (w_heap w) array in
  match status with
  | None => Ok (rc, w, status)
  | Some None => Ok (rc, w, Some array)
  | Some (Some a) =>
    let* h := match error with
              | Some e => object_append mk_str fuel (w_heap w) (Some a) key_error (Some e)
              | None => object_append mk_str fuel (w_heap w) (Some a) key array
              end in
    Ok (rc, World (w_db w) (w_open w) h, status)
  end.

(** sqlite3/cee-sqlite3.c:962-988 [cee_sqlite3_select1_as] *)
Definition select1_as (fuel : nat) (w : world) (info : option (list bind_info)) (data : option (list bind_data)) (sql : text) (status : option (option nat)) (key : text)
  : outcome (Z * world * option (option nat)) :=
  let* (rc, w, one) := sql_select1 fuel w info data sql (Some None) in
  let one := pointee one in
  let* error := error_of (w_heap w) one in
  match error, status with
  | Some _, Some _ => Ok (rc, w, Some one)
  | _, None => Ok (rc, w, status)
  | None, Some _ =>
    let (h, status) := accept_result (w_heap w) status in
    let* old := object_get h (pointee status) (Some key) in
    let* (h, v) := match old with
                   | Some o => let* (_, h) := merge fuel h (Some o) one in Ok (h, Some o)
                   | None => Ok (h, one)
                   end in
    let* h := object_set mk_str h (pointee status) key v in
    Ok (rc, World (w_db w) (w_open w) h, status)
  end.

(** sqlite3/cee-sqlite3.c:1074-1099 [cee_sqlite3_next_int]; snprintf keeps 127 bytes.
    [max_value] is the name of the column; [:n] and [:!] are type tests.  The sum of
    ints is undefined when it overflows.  The result and what [status] points to. *)
Definition key_max : text := [109; 97; 120; 95; 118; 97; 108; 117; 101].
Definition max_query (column from_clause : text) : text :=
  [115; 101; 108; 101; 99; 116; 32; 109; 97; 120; 40] ++ column ++ [41; 32; 97; 115; 32] ++ key_max ++ [32] ++ from_clause ++ [59].
Definition next_int (fuel : nat) (w : world) (column from_clause : text) (status : option nat) : outcome (Z * world * option nat) :=
  let qx := firstn 127 (max_query column from_clause) in
  let* (_, w, input) := sql_select1 fuel w None None qx (Some None) in
  let input := pointee input in
  let* error := error_of (w_heap w) input in
  match error with
  | Some _ => Ok (-1, w, input)
  | None =>
    let* n := select 14 (w_heap w) input (46 :: key_max ++ [58; 110]) [] in
    match n with
    | Some a =>
      let* v := load (w_heap w) (Some a) in
      match v with
      | NI64 z => let i := to_int32 z in if i =? 2 ^ 31 - 1 then Bad Overflow else Ok (i + 1, w, status)
      | _ => Ok (-1, w, input)
      end
    | None =>
      let* x := select 14 (w_heap w) input (46 :: key_max ++ [58; 33]) [] in
      match x with
      | Some _ => Ok (1, w, status)
      | None => Ok (-1, w, input)
      end
    end
  end.
End Select.
