(** Specification of joining: what each object of an array gets from the database. *)
From Coq Require Import ZArith List Bool.
From Verif Require Import Base Json JsonHeapModel JsonHeapSpec SqlModel SqlSpec SqlSelectSpec.
From Verif Require JsonSpec.
Import ListNotations.
Open Scope Z_scope.

(** A member as the value of a parameter *)
Inductive member_as : sqltype -> json -> sqlv -> Prop :=
| member_int z : member_as T_INT (JI64 z) (V_INT z)
| member_int64 z : member_as T_INT64 (JI64 z) (V_INT z)
| member_text s : member_as T_TEXT (JStr s) (V_TEXT s).
Definition usable (limit : Z) (ty : sqltype) (x : json) : Prop :=
  match ty, x with
  | T_INT, JI64 z => - 2 ^ 31 <= z < 2 ^ 31
  | T_INT64, JI64 _ => True
  | T_TEXT, JStr s => ~ In 0 s /\ Z.of_nat (length s) <= limit
  | _, _ => False
  end.

Section Join.
Variable DB : Type.
Variable prepare : DB -> text -> Z * list (option text).
Variable exec : DB -> text -> list sqlv -> DB * list (list sqlv) * Z.
Variable columns : DB -> text -> list text.
Variable limit : Z.
(** The databases that the statement may meet *)
Variable good : DB -> Prop.
Variable infos : list bind_info.
Variable data : option (list bind_data).
Variable sql : text.
Variable key : option text.

(** The entries that have a value: it is replaced by a member of the object. *)
Definition replaced (info : bind_info) : Prop := exists j d, nth_error infos j = Some info /\ source info (given data j) = Some d.
Definition joinable (obj : list (text * json)) : Prop :=
  forall info, replaced info -> exists x, lookup (i_col info) obj = Some x /\ usable limit (i_type info) x.
(** A member that is not there, or not supported, and the message about it *)
Definition lacks (obj : list (text * json)) (info : bind_info) : Prop :=
  match lookup (i_col info) obj with Some (JI64 _) | Some (JStr _) => False | _ => True end.
Definition complains (msg_missing : text -> text -> text) (msg_kind : text -> node -> text) (obj : list (text * json)) (info : bind_info) (msg : text) : Prop :=
  match lookup (i_col info) obj with
  | None => msg = msg_missing (i_col info) (i_var info)
  | Some (JI64 _) | Some (JStr _) => False
  | Some _ => exists n, msg = msg_kind (i_col info) n
  end.
(** Entries of type int, or of type text without a size, that are not set to null *)
Definition simple : Prop :=
  forall j info d, nth_error infos j = Some info -> source info (given data j) = Some d ->
    d_is_null d = false /\ (i_type info = T_INT \/ (i_type info = T_TEXT /\ d_size d = 0)).
(** Without a key: neither a column nor a member is called error. *)
Definition no_error_column : Prop := key = None -> forall db, good db -> ~ In error_key (columns db sql).
Definition no_error_member (obj : list (text * json)) : Prop := key = None -> lookup error_key obj = None.
(** The entries have different names; the statement is accepted, and its parameters are
    different, with such entries. *)
Definition statement_fits : Prop :=
  NoDup (map i_var infos) /\ covers data (length infos) /\
  forall db, good db -> fst (prepare db sql) = SQLITE_OK /\ NoDup (snd (prepare db sql)) /\
    Forall (fun p => exists info, replaced info /\ p = Some (i_var info)) (snd (prepare db sql)).
(** It always finishes; its rows have as many columns as there are names, and are not too
    large. *)
Definition finishes (n : nat) : Prop :=
  forall db vals, good db -> exists db' rows, exec db sql vals = (db', rows, SQLITE_DONE) /\ good db' /\
    Forall (fun r => length r = length (columns db' sql)) rows /\ Z.of_nat (length (columns db' sql)) <= 2 ^ 64 /\
    (size (JArr (rows_value (Some infos) (columns db' sql) rows)) <= n)%nat.

(** The rows for an object *)
Definition rows_for (db : DB) (obj : list (text * json)) (rows : list (list sqlv)) (db' : DB) : Prop :=
  exists vals, exec db sql vals = (db', rows, SQLITE_DONE) /\
    Forall2 (fun p v => exists info x, In info infos /\ p = Some (i_var info) /\ lookup (i_col info) obj = Some x /\ member_as (i_type info) x v)
      (snd (prepare db sql)) vals.
(** What an entry with the data [d] makes of a member: null if the data say so; an int is
    the number modulo 2^32; an int64 is the one that was in the data; a text is as long
    as the size in the data, if there is one (the NUL at its end counts). *)
Definition used (info : bind_info) (d : bind_data) : Prop := d_is_null d = false \/ i_not_null info = true.
Inductive sent (info : bind_info) (d : bind_data) (x : json) : sqlv -> Prop :=
| sent_null : d_is_null d = true -> i_not_null info = false -> sent info d x V_NULL
| sent_int z z' : used info d -> i_type info = T_INT -> x = JI64 z -> - 2 ^ 31 <= z' < 2 ^ 31 -> (z' - z) mod 2 ^ 32 = 0 -> sent info d x (V_INT z')
| sent_kept : used info d -> i_type info = T_INT64 -> sent info d x (V_INT (d_i64 d))
| sent_text s : used info d -> i_type info = T_TEXT -> x = JStr s -> d_size d = 0 -> sent info d x (V_TEXT s)
| sent_part s t rest : used info d -> i_type info = T_TEXT -> x = JStr s -> s ++ [0] = t ++ rest -> d_size d = Z.of_nat (length t) -> 0 < d_size d -> sent info d x (V_TEXT t).
(** The members it can be made of *)
Definition sendable_as (info : bind_info) (d : bind_data) (x : json) : Prop :=
  match x with JI64 _ | JStr _ => True | _ => False end /\
  (used info d ->
   match i_type info, x with
   | T_INT, JI64 _ | T_INT64, _ => True
   | T_TEXT, JStr s => ~ In 0 s /\ Z.of_nat (length s) <= limit /\ 0 <= d_size d <= Z.of_nat (length s) + 1 /\ d_size d <= limit
   | _, _ => False
   end).
Definition sendable (obj : list (text * json)) : Prop :=
  forall j info d, nth_error infos j = Some info -> source info (given data j) = Some d -> exists x, lookup (i_col info) obj = Some x /\ sendable_as info d x.
Definition rows_sent (db : DB) (obj : list (text * json)) (rows : list (list sqlv)) (db' : DB) : Prop :=
  exists vals, exec db sql vals = (db', rows, SQLITE_DONE) /\
    Forall2 (fun p v => exists j info d x, nth_error infos j = Some info /\ source info (given data j) = Some d /\ p = Some (i_var info) /\
      lookup (i_col info) obj = Some x /\ sent info d x v) (snd (prepare db sql)) vals.
(** ... become a member of it, or the first is merged into it, if there is one. *)
Definition with_rows (obj : list (text * json)) (names : list text) (rows : list (list sqlv)) (z : json) : Prop :=
  match key with
  | Some k => z = JObj (JsonSpec.with_member obj k (JArr (rows_value (Some infos) names rows)))
  | None =>
    match rows with
    | [] => z = JObj obj
    | r :: _ => if mergeable (JObj obj) (row_value (Some infos) names r) then merged (JObj obj) (row_value (Some infos) names r) z else z = JObj obj
    end
  end.
Inductive joined_by (rf : DB -> list (text * json) -> list (list sqlv) -> DB -> Prop) : DB -> list (list (text * json)) -> list json -> DB -> Prop :=
| joined_nil db : joined_by rf db [] [] db
| joined_cons db obj objs rows db1 z zs db' : rf db obj rows db1 -> with_rows obj (columns db1 sql) rows z -> joined_by rf db1 objs zs db' ->
    joined_by rf db (obj :: objs) (z :: zs) db'.
Definition all_joined : DB -> list (list (text * json)) -> list json -> DB -> Prop := joined_by rows_for.
End Join.
