(** Model of sqlite3/cee-sqlite3.c: binding parameters and running statements.

    SQLite itself is not modelled: what a statement does is given by parameters
    (Section Sql).  The status is a JSON value in the memory of JsonHeapModel.v. *)
From Coq Require Import ZArith List Bool.
From Verif Require Import Base TsearchModel MapModel Json JsonHeapModel JsonSelectModel.
Import ListNotations.
Open Scope Z_scope.
Open Scope outcome_scope.

(** sqlite3/cee-sqlite3.h:33-39 [enum cee_sqlite3_type] *)
Inductive sqltype : Type := T_UNDEF | T_TEXT | T_INT | T_INT64 | T_BLOB.
(** sqlite3/cee-sqlite3.h:44-52 [struct cee_sqlite3_bind_data]; [d_value] are the
    bytes from the pointer to the end of the object that it points into. *)
Record bind_data : Type := BindData { d_i : Z; d_i64 : Z; d_value : option text; d_size : Z; d_has_value : bool; d_is_null : bool }.
(** sqlite3/cee-sqlite3.h:54-78 [struct cee_sqlite3_bind_info]; the array ends with
    an entry without a name, here the end of a list. *)
Record bind_info : Type := BindInfo {
  i_var : text; i_col : text; i_type : sqltype; i_data : bind_data;
  i_no_update : bool; i_not_null : bool; i_no_return : bool; i_no_label : bool }.

(** Values of SQLite; REAL as its bits *)
Inductive sqlv : Type := V_NULL | V_INT (z : Z) | V_REAL (bits : Z) | V_TEXT (t : text) | V_BLOB (t : text).

(** <sqlite3.h>: the codes compared with in sqlite3/cee-sqlite3.c:14, :209, :248, :253 *)
Definition SQLITE_OK : Z := 0.
Definition SQLITE_ERROR : Z := 1.
Definition SQLITE_ROW : Z := 100.
Definition SQLITE_DONE : Z := 101.

(** * The kind of a statement *)
Inductive stmt_type : Type := SELECT | INSERT | UPDATE | DELETE | OTHER.
Definition lower (c : Z) : Z := if (65 <=? c) && (c <=? 90) then c + 32 else c.
(** strcasestr(p, word) == p *)
Fixpoint starts_nocase (p word : text) {struct word} : bool :=
  match word, p with
  | [], _ => true
  | _, [] => false
  | w :: word, c :: p => (lower c =? w) && starts_nocase p word
  end.
Fixpoint skip_spaces (p : text) : text :=
  match p with [] => [] | c :: r => if isspace c then skip_spaces r else p end.
(** sqlite3/cee-sqlite3.c:82-96 [get_stmt_type] *)
Definition get_stmt_type (sql : text) : stmt_type :=
  let p := skip_spaces sql in
  if starts_nocase p [115; 101; 108; 101; 99; 116] then SELECT
  else if starts_nocase p [105; 110; 115; 101; 114; 116] then INSERT
  else if starts_nocase p [117; 112; 100; 97; 116; 101] then UPDATE
  else if starts_nocase p [100; 101; 108; 101; 116; 101] then DELETE
  else OTHER.

(** sqlite3_last_insert_rowid, sqlite3_changes and sqlite3_total_changes *)
Record counts : Type := Counts { last_insert_rowid : Z; changes : Z; total_changes : Z }.

Section Sql.
(** A database, and SQLite:
    - [prepare db sql]: the result code, and the names of the parameters in the order
      of their numbers ([None]: one without a name);
    - [exec db sql values]: what running a statement to its end does: the database
      after it, the rows, and the code that ends it (SQLITE_DONE or an error).  The
      first sqlite3_step is taken to have all of the effect.
    - the limit on the length of a text or blob *)
Variable DB : Type.
Variable prepare : DB -> text -> Z * list (option text).
Variable exec : DB -> text -> list sqlv -> DB * list (list sqlv) * Z.
Variable limit : Z.
Variable counters : DB -> counts.
(** The error messages; [%s] with NULL is undefined. *)
Variable msg_unbound : text -> Z -> text -> text.
Variable msg_failed : Z -> text -> text.
(** cee_str_mkv and cee_str_mk: the text of the string made (JsonHeapModel.v) *)
Variable mk_str : text -> outcome text.

(** * Binding *)

(** sqlite3_bind_parameter_index: 0 if there is none *)
Fixpoint parameter_index_from (i : Z) (params : list (option text)) (name : text) : Z :=
  match params with
  | [] => 0
  | Some n :: r => if list_eq_dec Z.eq_dec n name then i else parameter_index_from (i + 1) r name
  | None :: r => parameter_index_from (i + 1) r name
  end.
Definition parameter_index := parameter_index_from 1.

(** The bytes before the NUL *)
Fixpoint c_string (t : text) : outcome text :=
  match t with
  | [] => Bad OutOfBounds
  | c :: r => if c =? 0 then Ok [] else let* s := c_string r in Ok (c :: s)
  end.
Definition bytes (t : text) (n : Z) : outcome text :=
  if n <=? Z.of_nat (length t) then Ok (firstn (Z.to_nat n) t) else Bad OutOfBounds.
(** A value that is too long is not bound, and the error is not looked at. *)
Definition within_limit (s : text) (v : sqlv) : sqlv := if Z.of_nat (length s) <=? limit then v else V_NULL.
(** sqlite3_bind_text(stmt, idx, p, n, SQLITE_STATIC) with an int [n] *)
Definition bind_text (p : option text) (n : Z) : outcome sqlv :=
  match p with
  | None => Ok V_NULL
  | Some t =>
    let* s := if n <? 0 then c_string t else bytes t n in
    Ok (within_limit s (V_TEXT s))
  end.
(** sqlite3_bind_blob likewise; a negative length is refused, [None]. *)
Definition bind_blob (p : option text) (n : Z) : outcome (option sqlv) :=
  if n <? 0 then Ok None
  else
    match p with
    | None => Ok (Some V_NULL)
    | Some t => let* s := bytes t n in Ok (Some (within_limit s (V_BLOB s)))
    end.

(** sqlite3/cee-sqlite3.c:153-173: the default of a field that is not null *)
Definition bind_default (ty : sqltype) : outcome sqlv :=
  match ty with
  | T_UNDEF => Bad Abort
  | T_INT | T_INT64 => Ok (V_INT 0)
  | T_TEXT => Ok (V_TEXT [])
  | T_BLOB => Ok (V_BLOB [])
  end.
(** sqlite3/cee-sqlite3.c:178-203: [None] if nothing is bound.  A size_t is
    converted to an int. *)
Definition bind_value (info : bind_info) (d : bind_data) : outcome (option sqlv) :=
  if d_is_null d && negb (i_not_null info) then Ok (Some V_NULL)
  else
    match i_type info with
    | T_UNDEF => Bad Abort
    | T_INT => Ok (Some (V_INT (d_i d)))
    | T_INT64 => Ok (Some (V_INT (d_i64 d)))
    | T_TEXT => let* v := bind_text (d_value d) (if d_size d =? 0 then -1 else to_int32 (d_size d)) in Ok (Some v)
    | T_BLOB => bind_blob (d_value d) (to_int32 (d_size d))
    end.

(** [data && data[i].has_value] *)
Definition data_at (data : option (list bind_data)) (i : nat) : outcome (option bind_data) :=
  match data with
  | None => Ok None
  | Some l => let* d := of_option OutOfBounds (nth_error l i) in Ok (if d_has_value d then Some d else None)
  end.

(** sqlite3/cee-sqlite3.c:149-203: one entry; [None] if nothing is bound *)
Definition bind_entry (ty : stmt_type) (info : bind_info) (data : option (list bind_data)) (i : nat) : outcome (option sqlv) :=
  let* d := data_at data i in
  match d with
  | Some d => bind_value info d
  | None =>
    if d_has_value (i_data info) then bind_value info (i_data info)
    else
      match ty with
      | INSERT => if i_not_null info then let* v := bind_default (i_type info) in Ok (Some v) else Ok None
      | _ => Ok None
      end
  end.

(** sqlite3/cee-sqlite3.c:141-204, the loop: the parameters that have a value, and
    the array [bound] *)
Fixpoint bind_loop (ty : stmt_type) (params : list (option text)) (infos : list bind_info) (data : option (list bind_data)) (i : nat)
  (vals : list sqlv) (bound : list bool) : outcome (list sqlv * list bool) :=
  match infos with
  | [] => Ok (vals, bound)
  | info :: r =>
    let idx := parameter_index params (i_var info) in
    if idx <=? 0 then bind_loop ty params r data (S i) vals bound
    else
      let n := Z.to_nat (idx - 1) in
      let bound := update bound n true in
      let* v := bind_entry ty info data i in
      bind_loop ty params r data (S i) (match v with Some v => update vals n v | None => vals end) bound
  end.

(** sqlite3/cee-sqlite3.c:205-211: the first parameter that is not bound *)
Fixpoint first_unbound (i : nat) (bound : list bool) : option nat :=
  match bound with
  | [] => None
  | b :: r => if b then first_unbound (S i) r else Some i
  end.

(** * Errors *)
(** cee-json/value.c:381-396 [cee_json_set_error].  [x] is NULL, or points to NULL or
    to a value. *)
Definition key_error : text := [101; 114; 114; 111; 114].
Definition set_error (h : heap) (x : option (option nat)) (msg : outcome text) : outcome heap :=
  match x with
  | None | Some None => Ok h
  | Some (Some o) =>
    let* _ := object_at h (Some o) in
    let* old := select 10 h (Some o) (46 :: key_error) [] in
    match old with
    | Some _ => Ok h
    | None =>
      let* m := msg in
      let* m := mk_str m in
      let (h, v) := alloc h (NStr m) in
      object_set mk_str h (Some o) key_error (Some v)
    end
  end.

(** A status that is to be filled: sqlite3/cee-sqlite3.c:223-234 [accept_result] and
      :125-132; the pointer and what it points to *)
Definition accept_result (h : heap) (status : option (option nat)) : heap * option (option nat) :=
  match status with
  | Some None => let (h, o) := alloc h (NObj map_mk) in (h, Some (Some o))
  | _ => (h, status)
  end.

(** * Running *)

(** A statement that is being stepped through: the rows to come, its end, and the
    number of parameters that it has values for *)
Record stmt : Type := Stmt { s_sql : text; s_vals : list sqlv; s_rows : list (list sqlv); s_end : Z }.
(** The database, the number of prepared statements that are not finalized, and
    the memory *)
Record world : Type := World { w_db : DB; w_open : Z; w_heap : heap }.

(** sqlite3/cee-sqlite3.c:213-216: sqlite3_step, and sqlite3_finalize unless the
    caller takes the statement *)
Definition step_once (w : world) (sql : text) (vals : list sqlv) (take : bool) : Z * world * option stmt :=
  let '(db, rows, rc) := exec (w_db w) sql vals in
  let code := match rows with [] => rc | _ => SQLITE_ROW end in
  let opened := if take then w_open w else w_open w - 1 in
  (code, World db opened (w_heap w), if take then Some (Stmt sql vals rows rc) else None).

(** sqlite3/cee-sqlite3.c:106-220 [cee_sqlite3_bind_run_sql]: the code, the world, what
    [ret] points to, and the statement if [take] (sql_stmt_pp is not NULL) *)
Definition bind_run_sql (w : world) (info : option (list bind_info)) (data : option (list bind_data)) (sql : text) (take : bool)
  (ret : option (option nat)) : outcome (Z * world * option (option nat) * option stmt) :=
  let (rc, params) := prepare (w_db w) sql in
  let (h, ret) := accept_result (w_heap w) ret in
  if rc =? SQLITE_OK then
    let w := World (w_db w) (w_open w + 1) h in
    let unset := map (fun _ => V_NULL) params in
    match info with
    | None => let '(code, w, st) := step_once w sql unset take in Ok (code, w, ret, st)
    | Some infos =>
      let* (vals, bound) := bind_loop (get_stmt_type sql) params infos data 0 unset (map (fun _ => false) params) in
      match first_unbound 0 bound with
      | Some i =>
        let msg := let* name := of_option NullDeref (nth i params None) in Ok (msg_unbound sql (Z.of_nat i + 1) name) in
        let* h := set_error (w_heap w) ret msg in
        Ok (SQLITE_ERROR, World (w_db w) (w_open w) h, ret, if take then Some (Stmt sql vals [] SQLITE_ERROR) else None)
      | None => let '(code, w, st) := step_once w sql vals take in Ok (code, w, ret, st)
      end
    end
  else
    let* h := set_error h ret (Ok (msg_failed rc sql)) in
    Ok (rc, World (w_db w) (w_open w) h, ret, None).

(** cee_json_set_error on what [status] points to, after a code other than [ok] *)
Definition report (w : world) (status : option (option nat)) (rc : Z) (sql : text) : outcome world :=
  let* h := set_error (w_heap w) status (Ok (msg_failed rc sql)) in
  Ok (World (w_db w) (w_open w) h).
(** A field of the status; for a NULL value cee_json_object_set_* does nothing
    (cee-json/value.c:481-488) *)
Definition set_field (w : world) (status : option (option nat)) (key : text) (n : node) : outcome world :=
  let* h := object_set_new mk_str (w_heap w) (match status with Some o => o | None => None end) key n in
  Ok (World (w_db w) (w_open w) h).

(** sqlite3/cee-sqlite3.c:268, :323, :369, :252: "last_insert_rowid", "deleted",
    "updated_rows", "warning" *)
Definition key_rowid : text := [108; 97; 115; 116; 95; 105; 110; 115; 101; 114; 116; 95; 114; 111; 119; 105; 100].
Definition key_deleted : text := [100; 101; 108; 101; 116; 101; 100].
Definition key_updated : text := [117; 112; 100; 97; 116; 101; 100; 95; 114; 111; 119; 115].
Definition key_warning : text := [119; 97; 114; 110; 105; 110; 103].

(** sqlite3/cee-sqlite3.c:274-300 [cee_sqlite3_insert]; the last result is what is
    stored at [id], where that is not NULL.  The row id is an int. *)
Definition sql_insert (w : world) info data (sql : text) (status : option (option nat)) (key : option text)
  : outcome (Z * world * option (option nat) * option Z) :=
  let (h, status) := accept_result (w_heap w) status in
  let* (rc, w, status, _) := bind_run_sql (World (w_db w) (w_open w) h) info data sql false status in
  if negb (rc =? SQLITE_DONE) then
    let* w := report w status rc sql in Ok (rc, w, status, None)
  else
    match status with
    | Some (Some _) =>
      let id := to_int32 (last_insert_rowid (counters (w_db w))) in
      let* w := set_field w status (match key with Some k => k | None => key_rowid end) (NI64 id) in
      Ok (rc, w, status, Some id)
    | _ => Ok (rc, w, status, None)
    end.

(** sqlite3/cee-sqlite3.c:303-325 [cee_sqlite3_delete] *)
Definition sql_delete (w : world) info data (sql : text) (status : option (option nat)) (key : option text)
  : outcome (Z * world * option (option nat)) :=
  let (h, status) := accept_result (w_heap w) status in
  let* (rc, w, status, _) := bind_run_sql (World (w_db w) (w_open w) h) info data sql false status in
  let* w := if negb (rc =? SQLITE_DONE) then report w status rc sql else Ok w in
  let* w := set_field w status (match key with Some k => k | None => key_deleted end) (NI64 (changes (counters (w_db w)))) in
  Ok (rc, w, status).

(** sqlite3/cee-sqlite3.h:81-107 [struct cee_sqlite3_stmt_strs] *)
Record stmts : Type := Stmts {
  t_table : text; t_select : text; t_insert : text; t_insert_dynamic : bool; t_insert_x : text;
  t_delete : text; t_update : option text; t_update_template : option text; t_update_x : option text }.
Definition update_of (t : stmts) : option text := match t_update t with Some u => Some u | None => t_update_x t end.
Definition insert_of (t : stmts) : text := if t_insert_dynamic t then t_insert_x t else t_insert t.
(** what "nothing to update %s" gives *)
Definition msg_nothing (table : text) : text :=
  [110; 111; 116; 104; 105; 110; 103; 32; 116; 111; 32; 117; 112; 100; 97; 116; 101; 32] ++ table.

(** sqlite3/cee-sqlite3.c:250-256 and :357-363: the statement to update with, or a
    warning *)
Definition no_update (w : world) (t : stmts) (status : option (option nat)) : outcome world :=
  match status with
  | None => Bad Abort
  | Some o =>
    let* h := object_set_str mk_str (w_heap w) o key_warning (msg_nothing (t_table t)) in
    Ok (World (w_db w) (w_open w) h)
  end.

(** sqlite3/cee-sqlite3.c:343-373 [cee_sqlite3_update_if_exists] *)
Definition update_if_exists (w : world) info data (t : stmts) (status : option (option nat)) : outcome (Z * world * option (option nat)) :=
  let (h, status) := accept_result (w_heap w) status in
  let* (rc, w, status, _) := bind_run_sql (World (w_db w) (w_open w) h) info data (t_select t) false status in
  if rc =? SQLITE_ROW then
    match update_of t with
    | None => let* w := no_update w t status in Ok (SQLITE_DONE, w, status)
    | Some update =>
      let* (rc, w, status, _) := bind_run_sql w info data update false status in
      let* w :=
        if negb (rc =? SQLITE_DONE) then report w status rc update
        else match status with Some _ => set_field w status key_updated (NI64 (total_changes (counters (w_db w)))) | None => Ok w end in
      Ok (rc, w, status)
    end
  else Ok (rc, w, status).

(** sqlite3/cee-sqlite3.c:328-341 [cee_sqlite3_update] *)
Definition sql_update (w : world) info data (t : stmts) (status : option (option nat)) : outcome (Z * world * option (option nat)) :=
  let* (rc, w, status) := update_if_exists w info data t status in
  let* w := if rc =? SQLITE_OK then report w status rc (t_select t) else Ok w in
  Ok (rc, w, status).

(** sqlite3/cee-sqlite3.c:236-272 [cee_sqlite3_update_or_insert] *)
Definition update_or_insert (w : world) info data (t : stmts) (status : option (option nat)) : outcome (Z * world * option (option nat)) :=
  let (h, status) := accept_result (w_heap w) status in
  let* (rc, w, status, _) := bind_run_sql (World (w_db w) (w_open w) h) info data (t_select t) false status in
  if rc =? SQLITE_ROW then
    match update_of t with
    | None => let* w := no_update w t status in Ok (SQLITE_DONE, w, status)
    | Some update =>
      let* (rc, w, status, _) := bind_run_sql w info data update false status in
      let* w := if negb (rc =? SQLITE_DONE) then report w status rc update else Ok w in
      Ok (rc, w, status)
    end
  else
    let insert := insert_of t in
    let* (rc, w, status, _) := bind_run_sql w info data insert false status in
    let* w :=
      if negb (rc =? SQLITE_DONE) then report w status rc insert
      else match status with
           | Some (Some _) => set_field w status key_rowid (NI64 (to_int32 (last_insert_rowid (counters (w_db w)))))
           | _ => Ok w
           end in
    Ok (rc, w, status).
End Sql.
