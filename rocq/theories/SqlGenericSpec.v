(** What the operations on JSON objects are meant to do. *)
From Coq Require Import ZArith List Bool Sorting.Permutation.
From Verif Require Import Base Json JsonHeapModel JsonHeapSpec SqlModel SqlSpec SqlJsonSpec.
Import ListNotations.
Open Scope Z_scope.

(** "insert into T (a,b) values (@a,@b)" *)
Definition insert_sql (table : text) (l : list bind_info) : text :=
  [105; 110; 115; 101; 114; 116; 32; 105; 110; 116; 111; 32] ++ table ++ [32; 40] ++ joined (map i_col l) ++
  [41; 32; 118; 97; 108; 117; 101; 115; 32; 40] ++ joined (map i_var l) ++ [41].
(** A template has one %s, for the columns to set. *)
Definition template (tp before behind : text) : Prop := tp = before ++ [37; 115] ++ behind /\ ~ In 37 before /\ ~ In 37 behind.
(** [composed kvs infos data t t']: [t'] is [t] with the statements made for the object.
    The update is there only if there is something to set. *)
Definition composed (kvs : list (text * json)) (infos : list bind_info) (data : option (list bind_data)) (t t' : stmts) : Prop :=
  t_table t' = t_table t /\ t_select t' = t_select t /\ t_insert t' = t_insert t /\ t_insert_dynamic t' = t_insert_dynamic t /\
  t_delete t' = t_delete t /\ t_update t' = t_update t /\ t_update_template t' = t_update_template t /\
  (match t_update_template t with
   | None => t_update_x t' = t_update_x t
   | Some tp => exists l, picked (to_set kvs data) 0 infos l /\
       (l = [] -> t_update_x t' = None) /\
       (l <> [] -> exists before behind, template tp before behind /\ t_update_x t' = Some (before ++ joined (map assignment l) ++ behind))
   end) /\
  (if t_insert_dynamic t then exists l, picked (to_insert data) 0 infos l /\ t_insert_x t' = insert_sql (t_table t) l
   else t_insert_x t' = t_insert_x t).

(** The report: the statements that were made, the keys that were used and those that were
    not *)
Definition k_update : text := [117; 112; 100; 97; 116; 101].
Definition k_insert : text := [105; 110; 115; 101; 114; 116].
Definition k_used : text := [117; 115; 101; 100; 95; 107; 101; 121; 115].
Definition k_unused : text := [117; 110; 117; 115; 101; 100; 95; 107; 101; 121; 115].
Definition k_debug : text := [100; 101; 98; 117; 103].
Definition k_id : text := [105; 100].
Definition debug_value (t t' : stmts) (us ns : list text) : json :=
  JObj ((match t_update_template t, t_update_x t' with Some _, Some x => [(k_update, JStr x)] | _, _ => [] end) ++
        (if t_insert_dynamic t then [(k_insert, JStr (t_insert_x t'))] else []) ++
        [(k_used, JArr (map JStr us))] ++
        (match ns with [] => [] | _ => [(k_unused, JArr (map JStr ns))] end)).
(** The status afterwards: what it was, and the report *)
Definition with_debug (h h' : heap) (s : option (option nat)) (d : json) : Prop :=
  match s with
  | Some (Some r) => exists kas kas' x, object_fields h r kas /\ object_fields h' r kas' /\ lookup k_debug kas' = Some x /\ holds h' d x /\
      forall k, k <> k_debug -> lookup k kas' = lookup k kas
  | _ => True
  end.

(** * Inserting an object *)
(** JSON values as SQL values *)
Definition sql_of (v : json) : option sqlv :=
  match v with JNull => Some V_NULL | JI64 z => Some (V_INT z) | JStr s => Some (V_TEXT s) | _ => None end.
(** What an entry has as its own value *)
Inductive own_value (limit : Z) (info : bind_info) : sqlv -> Prop :=
| own_null : d_is_null (i_data info) = true -> i_not_null info = false -> own_value limit info V_NULL
| own_data v : d_is_null (i_data info) = false \/ i_not_null info = true -> denotes limit (i_data info) (i_type info) v -> own_value limit info v.
(** The value of a column: that of the object, else its own, else zero *)
Inductive column_value (limit : Z) (kvs : list (text * json)) (info : bind_info) : sqlv -> Prop :=
| from_member j v : lookup (i_col info) kvs = Some j -> sql_of j = Some v -> column_value limit kvs info v
| from_own v : lookup (i_col info) kvs = None -> d_has_value (i_data info) = true -> own_value limit info v -> column_value limit kvs info v
| from_zero v : lookup (i_col info) kvs = None -> d_has_value (i_data info) = false -> i_not_null info = true -> zero_value (i_type info) v ->
    column_value limit kvs info v.
(** The columns that are inserted *)
Definition inserted (kvs : list (text * json)) (i : nat) (info : bind_info) : Prop :=
  In (i_col info) (map fst kvs) \/ d_has_value (i_data info) = true \/ i_not_null info = true.
(** An entry that makes sense: it has a name, its own value is one, and there is a zero if it
    must not be null. *)
Definition good_entry (limit : Z) (info : bind_info) : Prop :=
  i_col info <> [] /\ (d_has_value (i_data info) = true -> exists v, own_value limit info v) /\ (i_not_null info = true -> exists v, zero_value (i_type info) v).
(** Data that has not been used at all *)
Definition unused_data (d : bind_data) : Prop := d_has_value d = false /\ fresh d.
(** SQLite finds the parameters of such an insert, or refuses it. *)
Definition finds_params (DB : Type) (prepare : DB -> text -> Z * list (option text)) (infos : list bind_info) (table : text) : Prop :=
  forall db l, incl l infos -> NoDup (map i_var l) ->
    prepare db (insert_sql table l) = (SQLITE_OK, map (fun i => Some (i_var i)) l) \/
    exists rc, rc <> SQLITE_OK /\ prepare db (insert_sql table l) = (rc, []).

(** * Updating from an object *)
Definition updated (kvs : list (text * json)) (i : nat) (info : bind_info) : Prop := In (i_col info) (map fst kvs) /\ i_no_update info = false.
(** The statements that are run: the given ones, or those that are made for the object *)
Inductive update_stmt (kvs : list (text * json)) (infos : list bind_info) (t : stmts) : text -> Prop :=
| update_given u : t_update t = Some u -> update_stmt kvs infos t u
| update_made tp before behind l : t_update t = None -> t_update_template t = Some tp -> template tp before behind -> picked (updated kvs) 0 infos l ->
    update_stmt kvs infos t (before ++ joined (map assignment l) ++ behind).
Inductive insert_stmt (kvs : list (text * json)) (infos : list bind_info) (t : stmts) : text -> Prop :=
| insert_given : t_insert_dynamic t = false -> insert_stmt kvs infos t (t_insert t)
| insert_made l : t_insert_dynamic t = true -> picked (inserted kvs) 0 infos l -> insert_stmt kvs infos t (insert_sql (t_table t) l).
(** There is something to update. *)
Definition updating (kvs : list (text * json)) (infos : list bind_info) (t : stmts) : Prop :=
  match t_update_template t with
  | Some tp => (exists before behind, template tp before behind) /\ exists info, In info infos /\ In (i_col info) (map fst kvs) /\ i_no_update info = false
  | None => t_update t <> None
  end.

Section Performs.
Variable DB : Type.
Variable prepare : DB -> text -> Z * list (option text).
Variable exec : DB -> text -> list sqlv -> DB * list (list sqlv) * Z.
Variable limit : Z.
Variable kvs : list (text * json).
Variable infos : list bind_info.
(** The parameters of a statement have names, and there is a value for each that is known. *)
Definition good_params (sql : text) : Prop :=
  forall db, let params := snd (prepare db sql) in
    (forall p, In p params -> p <> None) /\ NoDup params /\
    (forall info, In info infos -> In (Some (i_var info)) params ->
       In (i_col info) (map fst kvs) \/ d_has_value (i_data info) = true \/ (is_insert sql /\ i_not_null info = true)).
(** A parameter has the value of the column that it stands for. *)
Definition value_of (p : option text) (v : sqlv) : Prop := exists info, In info infos /\ p = Some (i_var info) /\ column_value limit kvs info v.
Inductive performs_with (db : DB) (sql : text) : Z -> DB -> Prop :=
| with_runs params vals rc db' : prepare db sql = (SQLITE_OK, params) -> Forall2 value_of params vals -> ran DB exec db sql vals rc db' -> performs_with db sql rc db'
| with_fails rc0 params rc : prepare db sql = (rc0, params) -> (rc0 <> SQLITE_OK \/ ~ Forall (named infos) params) ->
    rc = (if rc0 =? SQLITE_OK then SQLITE_ERROR else rc0) -> performs_with db sql rc db.
End Performs.
