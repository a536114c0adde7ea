(** Model of sqlite3/join.c: a select statement for each object of an array, or for one
    object, with parameters from the members of the object.

    The descriptions and the data are changed in place; here they are a part of the
    state. *)
From Coq Require Import ZArith List Bool.
From Verif Require Import Base TsearchModel MapModel ListModel Json JsonHeapModel JsonSelectModel SqlModel SqlSelectModel SqlJsonModel.
Import ListNotations.
Open Scope Z_scope.
Open Scope outcome_scope.

(** sqlite3/join.c:35, 43: [item->i] and [item->value]; nothing else changes. *)
Definition with_int (d : bind_data) (z : Z) : bind_data := BindData (to_int32 z) (d_i64 d) (d_value d) (d_size d) (d_has_value d) (d_is_null d).
Definition with_text (d : bind_data) (s : text) : bind_data := BindData (d_i d) (d_i64 d) (Some (with_nul s)) (d_size d) (d_has_value d) (d_is_null d).
Definition with_data (info : bind_info) (d : bind_data) : bind_info :=
  BindInfo (i_var info) (i_col info) (i_type info) d (i_no_update info) (i_not_null info) (i_no_return info) (i_no_label info).

(** sqlite3/join.c:18-25: the item to fill, and whether it is in [data] *)
Definition item_at (info : bind_info) (data : option (list bind_data)) (i : nat) : outcome (option (bind_data * bool)) :=
  let* d := data_at data i in
  match d with
  | Some d => Ok (Some (d, true))
  | None => Ok (if d_has_value (i_data info) then Some (i_data info, false) else None)
  end.
Definition put_item (infos : list bind_info) (data : option (list bind_data)) (i : nat) (info : bind_info) (in_data : bool) (d : bind_data)
  : list bind_info * option (list bind_data) :=
  if in_data then (infos, data_put data i d) else (update infos i (with_data info d), data).

Section Join.
(** As in SqlSelectModel.v *)
Variable DB : Type.
Variable prepare : DB -> text -> Z * list (option text).
Variable exec : DB -> text -> list sqlv -> DB * list (list sqlv) * Z.
Variable columns : DB -> text -> list text.
Variable limit : Z.
Variable msg_unbound : text -> Z -> text -> text.
Variable msg_failed : Z -> text -> text.
(** The messages of sqlite3/join.c:29-30, 46-54 *)
Variable msg_missing : text -> text -> text.
Variable msg_kind : text -> node -> text.
Variable mk_str : text -> outcome text.

(** sqlite3/join.c:18-57, the loop; [todo] are the entries that are left.  The last result
    is the message, if it stops.  cee_json_to_intx cannot fail for an integer. *)
Fixpoint fill_items (h : heap) (elem : option nat) (todo : list bind_info) (i : nat) (infos : list bind_info) (data : option (list bind_data))
  : outcome (list bind_info * option (list bind_data) * option text) :=
  match todo with
  | [] => Ok (infos, data, None)
  | info :: r =>
    let* item := item_at info data i in
    match item with
    | None => fill_items h elem r (S i) infos data
    | Some (d, in_data) =>
      let* v := object_get h elem (Some (i_col info)) in
      match v with
      | None => Ok (infos, data, Some (msg_missing (i_col info) (i_var info)))
      | Some x =>
        let* n := load h (Some x) in
        match n with
        | NI64 z => let (infos, data) := put_item infos data i info in_data (with_int d z) in fill_items h elem r (S i) infos data
        | NStr s => let (infos, data) := put_item infos data i info in_data (with_text d s) in fill_items h elem r (S i) infos data
        | _ => Ok (infos, data, Some (msg_kind (i_col info) n))
        end
      end
    end
  end.

(** The world, [info] and [data] *)
Definition join_state : Type := world DB * list bind_info * option (list bind_data).

(** sqlite3/join.c:11-72 [join_one].  cee-json/value.c:466-479
    [cee_json_object_set_strf]: text and key are made by cee_str_mkv and cee_str_mk. *)
Definition join_one (fuel : nat) (sql : text) (key : option text) (s : join_state) (elem : option nat) (idx : Z) : outcome (join_state * Z) :=
  let '(w, infos, data) := s in
  let* (infos, data, stop) := fill_items (w_heap DB w) elem infos 0 infos data in
  match stop with
  | Some msg =>
    let* h := object_set_str mk_str (w_heap DB w) elem key_error msg in
    Ok ((World DB (w_db DB w) (w_open DB w) h, infos, data), 1)
  | None =>
    match key with
    | None =>
      let* (_, w, one) := sql_select1 DB prepare exec columns limit msg_unbound msg_failed mk_str fuel w (Some infos) data sql (Some elem) in
      let* error := error_of (w_heap DB w) (pointee one) in
      Ok ((w, infos, data), match error with Some _ => 1 | None => 0 end)
    | Some k =>
      let* (_, w, rows) := sql_select DB prepare exec columns limit msg_unbound msg_failed mk_str fuel w (Some infos) data sql (Some None) in
      let* h := object_set mk_str (w_heap DB w) elem k (pointee rows) in
      let* error := error_of h (pointee rows) in
      Ok ((World DB (w_db DB w) (w_open DB w) h, infos, data), match error with Some _ => 1 | None => 0 end)
    end
  end.

(** sqlite3/join.c:74-87 [cee_sqlite3_json_array_join_table].  The array itself is not
    changed meanwhile.  NULL for something that is no array: nothing is done. *)
Definition array_join (fuel : nat) (s : join_state) (json : option nat) (sql : text) (key : option text) : outcome join_state :=
  let* l := to_array (w_heap DB (fst (fst s))) json in
  match l with
  | None => Ok s
  | Some l => let* (s, _) := list_iterate (fun _ => l) (join_one fuel sql key) fuel false s in Ok s
  end.
(** sqlite3/join.c:89-101 [cee_sqlite3_json_object_join_table] *)
Definition object_join (fuel : nat) (s : join_state) (json : option nat) (sql : text) (key : option text) : outcome join_state :=
  let* (s, _) := join_one fuel sql key s json 0 in Ok s.
End Join.
