(** Specification of inserting rows: the statement for a row, the values, and what
    happens to the database. *)
From Coq Require Import ZArith List Bool Permutation.
From Verif Require Import Base Json JsonHeapModel SqlModel SqlSpec SqlJsonSpec.
Import ListNotations.
Open Scope Z_scope.

(** A row: the members of an object *)
Definition row_of := list (text * json).
(** The value that is stored for a column; a null is part of the statement. *)
Inductive stored_as : json -> sqlv -> Prop :=
| stored_int z : stored_as (JI64 z) (V_INT z)
| stored_text s : stored_as (JStr s) (V_TEXT s).
(** What a row may consist of *)
Definition flat (limit : Z) (v : json) : Prop :=
  v = JNull \/ (exists z, v = JI64 z) \/ (exists s, v = JStr s /\ ~ In 0 s /\ Z.of_nat (length s) <= limit).
Definition flat_row (limit : Z) (kvs : row_of) : Prop := Forall (fun kv => flat limit (snd kv)) kvs.
(** The columns that are not null *)
Definition is_null (v : json) : bool := match v with JNull => true | _ => false end.
Definition bound_columns (kvs : row_of) : row_of := filter (fun kv => negb (is_null (snd kv))) kvs.

(** insert into T ( a,b) values ( @a,null); *)
Definition after_space (l : list text) : text := match l with [] => [] | _ => 32 :: joined l end.
Definition placeholder (kv : text * json) : text := if is_null (snd kv) then [110; 117; 108; 108] else 64 :: fst kv.
Definition row_sql (table : text) (kvs : row_of) : text :=
  [105; 110; 115; 101; 114; 116; 32; 105; 110; 116; 111; 32] ++ table ++ [32; 40] ++ after_space (map fst kvs) ++
  [41; 32; 118; 97; 108; 117; 101; 115; 32; 40] ++ after_space (map placeholder kvs) ++ [41; 59].

Section Rows.
Variable DB : Type.
Variable prepare : DB -> text -> Z * list (option text).
Variable exec : DB -> text -> list sqlv -> DB * list (list sqlv) * Z.
Variable table : text.

(** The parameter of a column *)
Definition column_of (kvs : row_of) (p : option text) (v : json) : Prop := exists k, p = Some (64 :: k) /\ In (k, v) (bound_columns kvs).
(** The row is stored with the values that it has, or it is not and nothing changes:
    the statement does not compile, or has a parameter that is not a column. *)
Inductive row_done (db : DB) (kvs : row_of) : Z -> DB -> Prop :=
| row_runs params vals rc db' : prepare db (row_sql table kvs) = (SQLITE_OK, params) ->
    Forall2 (fun p x => exists v, column_of kvs p v /\ stored_as v x) params vals ->
    ran DB exec db (row_sql table kvs) vals rc db' -> row_done db kvs rc db'
| row_fails rc0 params rc : prepare db (row_sql table kvs) = (rc0, params) ->
    (rc0 <> SQLITE_OK \/ exists p, In p params /\ forall v, ~ column_of kvs p v) ->
    rc = (if rc0 =? SQLITE_OK then SQLITE_ERROR else rc0) -> row_done db kvs rc db.
(** All rows, one after the other; the columns are in some order. *)
Inductive rows_done : DB -> list row_of -> list Z -> DB -> Prop :=
| rows_nil db : rows_done db [] [] db
| rows_cons db kvs kvs' rows rc db1 rcs db' : Permutation kvs kvs' -> row_done db kvs' rc db1 -> rows_done db1 rows rcs db' ->
    rows_done db (kvs :: rows) (rc :: rcs) db'.

(** SQLite: the parameters of these statements have names, and are different. *)
Definition named_parameters (rows : list row_of) : Prop := forall db kvs kvs', In kvs rows -> Permutation kvs kvs' ->
  Forall (fun p => p <> None) (snd (prepare db (row_sql table kvs'))) /\ NoDup (snd (prepare db (row_sql table kvs'))).
(** ... and they are the columns. *)
Definition parameters_are_columns (rows : list row_of) : Prop := forall db kvs kvs', In kvs rows -> Permutation kvs kvs' ->
  Forall (fun p => exists v, column_of kvs' p v) (snd (prepare db (row_sql table kvs'))).
End Rows.
