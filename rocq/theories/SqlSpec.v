(** What the binding of SQL parameters is meant to do (sqlite3/cee-sqlite3.h:41-78
    and the comment at sqlite3/cee-sqlite3.c:136-139). *)
From Coq Require Import ZArith List Bool.
From Verif Require Import Base MapModel MapProofs Json JsonHeapModel JsonHeapSpec SqlModel.
Import ListNotations.
Open Scope Z_scope.

(** [denotes limit ty d v]: as a field of type [ty], the data [d] is the SQL value
    [v].  A text without a size ends at the NUL. *)
Inductive denotes (limit : Z) (d : bind_data) : sqltype -> sqlv -> Prop :=
| den_int : denotes limit d T_INT (V_INT (d_i d))
| den_int64 : denotes limit d T_INT64 (V_INT (d_i64 d))
| den_no_text : d_value d = None -> denotes limit d T_TEXT V_NULL
| den_string s rest : d_value d = Some (s ++ 0 :: rest) -> ~ In 0 s -> d_size d = 0 -> Z.of_nat (length s) <= limit ->
    denotes limit d T_TEXT (V_TEXT s)
| den_text s rest : d_value d = Some (s ++ rest) -> d_size d = Z.of_nat (length s) -> 0 < Z.of_nat (length s) <= limit ->
    denotes limit d T_TEXT (V_TEXT s)
| den_no_blob : d_value d = None -> 0 <= d_size d < 2 ^ 31 -> denotes limit d T_BLOB V_NULL
| den_blob s rest : d_value d = Some (s ++ rest) -> d_size d = Z.of_nat (length s) -> Z.of_nat (length s) <= limit ->
    denotes limit d T_BLOB (V_BLOB s).
(** The default values of fields that are not null *)
Inductive zero_value : sqltype -> sqlv -> Prop :=
| zero_int : zero_value T_INT (V_INT 0) | zero_int64 : zero_value T_INT64 (V_INT 0)
| zero_text : zero_value T_TEXT (V_TEXT []) | zero_blob : zero_value T_BLOB (V_BLOB []).

(** The data of an entry: what is supplied for it, else its own *)
Definition source (info : bind_info) (given : option bind_data) : option bind_data :=
  let own := if d_has_value (i_data info) then Some (i_data info) else None in
  match given with Some d => if d_has_value d then Some d else own | None => own end.
(** The value supplied for an entry; there may be none. *)
Inductive supplied (limit : Z) (inserting : Prop) (info : bind_info) (given : option bind_data) : sqlv -> Prop :=
| supplied_null d : source info given = Some d -> d_is_null d = true -> i_not_null info = false ->
    supplied limit inserting info given V_NULL
| supplied_data d v : source info given = Some d -> d_is_null d = false \/ i_not_null info = true ->
    denotes limit d (i_type info) v -> supplied limit inserting info given v
| supplied_zero v : source info given = None -> inserting -> i_not_null info = true ->
    zero_value (i_type info) v -> supplied limit inserting info given v.

(** The data for entry [i] *)
Definition given (data : option (list bind_data)) (i : nat) : option bind_data :=
  match data with Some l => nth_error l i | None => None end.
Definition covers (data : option (list bind_data)) (n : nat) : Prop :=
  match data with Some l => (n <= length l)%nat | None => True end.
(** Entries with a parameter *)
Definition named (infos : list bind_info) (p : option text) : Prop := exists i, In i infos /\ p = Some (i_var i).

(** The first word of a statement, in any case, after white space *)
Definition same_letter (a b : Z) : Prop := a = b \/ (97 <= b <= 122 /\ a = b - 32).
Definition begins_with (word sql : text) : Prop :=
  exists sp w rest, sql = sp ++ w ++ rest /\ Forall (fun c => In c [9; 10; 11; 12; 13; 32]) sp /\ Forall2 same_letter w word.

Definition is_insert : text -> Prop := begins_with [105; 110; 115; 101; 114; 116].

(** * The status *)
(** An object in memory and the addresses of its fields (as in JsonHeapSpec.holds) *)
Definition object_fields (h : heap) (a : nat) (kas : list (text * nat)) : Prop :=
  exists m, nth_error h a = Some (NObj m) /\ mrep strcmp m (map (fun ka => (fst ka, Some (snd ka))) kas).
(** The status is not asked for, not there yet, or an object. *)
Definition is_status (h : heap) (s : option (option nat)) : Prop :=
  match s with
  | Some (Some a) => exists kas, object_fields h a kas /\ Z.of_nat (length kas) < 2 ^ 32
  | _ => True
  end.
(** An error is reported in the status, if one is asked for. *)
Definition error_key : text := [101; 114; 114; 111; 114].
Definition has_error (h : heap) (s : option (option nat)) : Prop :=
  match s with
  | None => True
  | Some None => False
  | Some (Some a) => exists kas v, object_fields h a kas /\ lookup error_key kas = Some v
  end.
(** The fields that a status has *)
Definition status_fields (h : heap) (s : option (option nat)) (kas : list (text * nat)) : Prop :=
  match s with
  | Some (Some a) => object_fields h a kas
  | _ => kas = []
  end.
(** The status is the same object, or a new one. *)
Definition same_status (h : heap) (s s' : option (option nat)) : Prop :=
  match s with Some None => s' = Some (Some (length h)) | _ => s' = s end.
(** Of the memory that there was, only the status has changed. *)
Definition only_status (h h' : heap) (s : option (option nat)) : Prop :=
  (length h <= length h')%nat /\ forall c, (c < length h)%nat -> s <> Some (Some c) -> nth_error h' c = nth_error h c.
(** The field [k] of the status is [nd], if a status is asked for. *)
Definition reports (h : heap) (s : option (option nat)) (k : text) (nd : node) : Prop :=
  match s with
  | Some (Some a) => exists kas x, object_fields h a kas /\ lookup k kas = Some x /\ nth_error h x = Some nd
  | _ => True
  end.

(** * Statements *)
Section Statements.
Variable DB : Type.
Variable prepare : DB -> text -> Z * list (option text).
Variable exec : DB -> text -> list sqlv -> DB * list (list sqlv) * Z.
Variable limit : Z.
Variable infos : list bind_info.
Variable data : option (list bind_data).

(** Every parameter has the value that is supplied for its name. *)
Definition all_right (sql : text) (params : list (option text)) (vals : list sqlv) : Prop :=
  length vals = length params /\
  forall k p, nth_error params k = Some p ->
    exists j info v, nth_error infos j = Some info /\ p = Some (i_var info) /\ nth_error vals k = Some v /\ supplied limit (is_insert sql) info (given data j) v.
(** What a statement does when it runs *)
Definition ran (db : DB) (sql : text) (vals : list sqlv) (rc : Z) (db' : DB) : Prop :=
  exists rows fin, exec db sql vals = (db', rows, fin) /\ rc = match rows with [] => fin | _ => SQLITE_ROW end.
(** In SQLite parameters have numbers, those with the same name the same.  All of them
    have a name here, and a value if the name is known. *)
Definition good_sql (sql : text) : Prop :=
  forall db, let params := snd (prepare db sql) in
    (forall p, In p params -> p <> None) /\ NoDup params /\
    (forall j info, nth_error infos j = Some info -> In (Some (i_var info)) params -> exists v, supplied limit (is_insert sql) info (given data j) v).
(** Running one on a database: it has its effect, or fails and has none. *)
Inductive performs (db : DB) (sql : text) : Z -> DB -> Prop :=
| performs_runs params vals rc db' : prepare db sql = (SQLITE_OK, params) -> Forall (named infos) params ->
    all_right sql params vals -> ran db sql vals rc db' -> performs db sql rc db'
| performs_fails rc0 params rc : prepare db sql = (rc0, params) -> (rc0 <> SQLITE_OK \/ ~ Forall (named infos) params) ->
    rc = (if rc0 =? SQLITE_OK then SQLITE_ERROR else rc0) -> performs db sql rc db.
(** Updating: there may be nothing to update. *)
Definition updates (db : DB) (t : stmts) (rc : Z) (db' : DB) : Prop :=
  match (match t_update t with Some u => Some u | None => t_update_x t end) with
  | Some u => performs db u rc db'
  | None => rc = SQLITE_DONE /\ db' = db
  end.
Definition after (w : world DB) (s : option (option nat)) (w' : world DB) (s' : option (option nat)) : Prop :=
  same_status (w_heap DB w) s s' /\ only_status (w_heap DB w) (w_heap DB w') s.
End Statements.

(** Every parameter of the statement has an entry. *)
Definition all_named (DB : Type) (prepare : DB -> text -> Z * list (option text)) (info : option (list bind_info)) (sql : text) : Prop :=
  match info with Some infos => forall db, NoDup (snd (prepare db sql)) /\ Forall (named infos) (snd (prepare db sql)) | None => True end.
