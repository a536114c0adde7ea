(** What select statements are meant to give (sqlite3/cee-sqlite3.h:41-78: [no_return],
    [no_label]; the comments at sqlite3/cee-sqlite3.c:397-399, 489-491, 508-510). *)
From Coq Require Import ZArith List Bool.
From Verif Require Import Base Json JsonHeapModel JsonHeapSpec SqlModel SqlSpec.
Import ListNotations.
Open Scope Z_scope.

(** * Rows as JSON *)
(** A text ends at the first NUL. *)
Fixpoint before_nul (t : text) : text :=
  match t with [] => [] | c :: r => if Z.eq_dec c 0 then [] else c :: before_nul r end.
Definition value_json (v : sqlv) : json :=
  match v with
  | V_NULL => JNull | V_INT z => JI64 z | V_REAL d => JDouble d
  | V_TEXT t => JStr (before_nul t) | V_BLOB t => JBlob (Z.of_nat (length t))
  end.

(** What the description says about a column: the first entry for it counts. *)
Definition entry_for (info : option (list bind_info)) (name : text) : option bind_info :=
  match info with
  | None => None
  | Some infos => find (fun i => if list_eq_dec Z.eq_dec (i_col i) name then true else false) infos
  end.
Definition returned (info : option (list bind_info)) (name : text) : bool :=
  match entry_for info name with Some i => negb (i_no_return i) | None => true end.
Definition labelled (info : option (list bind_info)) (name : text) : bool :=
  match entry_for info name with Some i => negb (i_no_label i) | None => true end.

(** The members of an object that is given them one after the other: a name keeps its
    first place and has its last value. *)
Definition object_of (l : list (text * json)) : list (text * json) :=
  flat_map (fun k => match lookup k (rev l) with Some v => [(k, v)] | None => [] end)
    (rev (nodup (list_eq_dec Z.eq_dec) (rev (map fst l)))).
(** A row: the columns that are to be returned, by name.  If there is one column, and
    it has no label, it is the value itself. *)
Definition row_value (info : option (list bind_info)) (names : list text) (vs : list sqlv) : json :=
  let cols := filter (fun nv => returned info (fst nv)) (combine names vs) in
  match names, cols with
  | [_], [(n, v)] => if labelled info n then JObj [(n, value_json v)] else value_json v
  | _, _ => JObj (object_of (map (fun nv => (fst nv, value_json (snd nv))) cols))
  end.
Definition rows_value (info : option (list bind_info)) (names : list text) (rows : list (list sqlv)) : list json :=
  map (row_value info names) rows.

(** * Running a select statement *)
Section Statements.
Variable DB : Type.
Variable prepare : DB -> text -> Z * list (option text).
Variable limit : Z.
(** The statement is accepted, and its parameters have names and values.  Without a
    description all parameters are NULL. *)
Definition can_run (info : option (list bind_info)) (data : option (list bind_data)) (db : DB) (sql : text) : Prop :=
  fst (prepare db sql) = SQLITE_OK /\
  match info with
  | None => True
  | Some infos =>
    let params := snd (prepare db sql) in
    NoDup (map i_var infos) /\ covers data (length infos) /\ NoDup params /\ Forall (named infos) params /\
    (forall j info, nth_error infos j = Some info -> In (Some (i_var info)) params ->
       exists v, supplied limit (is_insert sql) info (given data j) v)
  end.
(** The values that it runs with *)
Definition runs_with (info : option (list bind_info)) (data : option (list bind_data)) (db : DB) (sql : text) (vals : list sqlv) : Prop :=
  match info with
  | None => vals = map (fun _ => V_NULL) (snd (prepare db sql))
  | Some infos => all_right limit infos data sql (snd (prepare db sql)) vals
  end.
End Statements.

(** The status of a select: not asked for, not there yet, or an array in which no array or
    object appears twice. *)
Definition is_list (h : heap) (s : option (option nat)) (old : list json) : Prop :=
  match s with
  | Some (Some a) => holds h (JArr old) a /\ NoDup (containers h (JArr old) a)
  | _ => old = []
  end.
(** Afterwards it is an array; it is the same one, or one made of new arrays and objects. *)
Definition all_new (h h' : heap) (j : json) (a : nat) : Prop := forall c, In c (containers h' j a) -> (length h <= c)%nat.
Definition now_list (h h' : heap) (s s' : option (option nat)) (l : list json) : Prop :=
  match s with
  | None => s' = None
  | Some None => exists a, s' = Some (Some a) /\ holds h' (JArr l) a /\ all_new h h' (JArr l) a
  | Some (Some a) => s' = s /\ holds h' (JArr l) a
  end.
(** The status of the others: any value *)
Definition is_value (h : heap) (s : option (option nat)) (old : json) : Prop :=
  match s with
  | Some (Some a) => holds h old a /\ NoDup (containers h old a)
  | _ => old = JNull
  end.
(** A result is merged into the status (JsonHeapSpec.merged), or is the new status.  One
    that cannot be merged is dropped. *)
Definition now_merged (h h' : heap) (s s' : option (option nat)) (old new : json) : Prop :=
  match s with
  | None => s' = None
  | Some None => exists a, s' = Some (Some a) /\ holds h' new a
  | Some (Some a) => s' = s /\ exists z, holds h' z a /\ (if mergeable old new then merged old new z else z = old)
  end.
(** Of the memory that there was, only the status has changed. *)
Definition only_value (h h' : heap) (s : option (option nat)) (old : json) : Prop :=
  (length h <= length h')%nat /\
  forall c, (c < length h)%nat -> match s with Some (Some a) => ~ In c (containers h old a) | _ => True end -> nth_error h' c = nth_error h c.
(** Nothing of the memory that there was has changed. *)
Definition quiet (h h' : heap) : Prop := (length h <= length h')%nat /\ forall c, (c < length h)%nat -> nth_error h' c = nth_error h c.
(** The error in a status is a text. *)
Definition error_text (h : heap) (s : option (option nat)) : Prop :=
  match s with
  | None => True
  | Some None => False
  | Some (Some a) => exists kas v m, object_fields h a kas /\ lookup error_key kas = Some v /\ nth_error h v = Some (NStr m)
  end.
(** A status without an error: not asked for, not there yet, or an object *)
Definition no_error_yet (h : heap) (s : option (option nat)) : Prop :=
  match s with
  | Some (Some a) => exists kas, object_fields h a kas /\ Z.of_nat (length kas) < 2 ^ 32 /\ lookup error_key kas = None
  | _ => True
  end.
(** The status is the same object, or a new one. *)
Definition same_or_new (h : heap) (s s' : option (option nat)) : Prop :=
  match s with Some None => exists a, s' = Some (Some a) /\ (length h <= a)%nat | _ => s' = s end.
