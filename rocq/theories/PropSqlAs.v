(** Property C73: selecting rows, or one row, under a name. *)
From Coq Require Import ZArith List Bool Lia Arith.
From Verif Require Import Base MapModel MapProofs ListModel Json JsonHeapModel JsonHeapSpec JsonHeapProofs SqlModel SqlSpec SqlProofs
  SqlSelectModel SqlSelectSpec SqlSelectProofs PropSql PropSqlSelect SqlAsSpec SqlAsProofs.
Import ListNotations.
Open Scope Z_scope.

Notation toy_as := (select_as toy toy_prepare toy_exec toy_columns 1000 no_msg no_msg2 byval_str_mk).
Notation toy_as1 := (select1_as toy toy_prepare toy_exec toy_columns 1000 no_msg no_msg2 byval_str_mk).
(** The small SQLite with rows, and the objects of [bd] and the like in memory *)
Definition toy_with (h : heap) (found : list (list sqlv)) (fin : Z) : world toy := World toy (Toy [] found fin) 0 h.
Definition grown (h : heap) (key : text) (n : node) : heap :=
  match object_set_new byval_str_mk h (Some 0%nat) key n with Ok h => h | Bad _ => [] end.

(** The status before: an object with these members in which nothing appears twice, or no object yet. *)
Definition members_of (h : heap) (s : option nat) (kjs : list (text * json)) : Prop :=
  match s with Some a => holds h (JObj kjs) a /\ NoDup (containers h (JObj kjs) a) | None => kjs = [] end.

(** * All rows *)

(** The full property.  The rows are put under the name: in a new object, as a new member, or
    behind those that the member has. *)
Definition C73_statement : Prop :=
  forall DB prepare exec columns limit mu mf (w : world DB) info data sql key s kjs,
  limit < 2 ^ 31 -> can_run DB prepare limit info data (w_db DB w) sql -> members_of (w_heap DB w) s kjs ->
  exists vals, runs_with DB prepare limit info data (w_db DB w) sql vals /\
    forall db' rows, exec (w_db DB w) sql vals = (db', rows, SQLITE_DONE) ->
    let names := columns db' sql in
    Forall (fun r => length r = length names) rows -> Z.of_nat (length names) <= 2 ^ 64 ->
    Z.of_nat (size (JObj kjs) + size (JArr (rows_value info names rows))) < 2 ^ 64 ->
    forall fuel, (size (JObj kjs) + size (JArr (rows_value info names rows)) < fuel)%nat ->
    forall kjs', gathered kjs key (rows_value info names rows) = Some kjs' ->
    exists h' a, select_as DB prepare exec columns limit mu mf byval_str_mk fuel w info data sql (Some s) key = Ok (SQLITE_DONE, World DB db' (w_open DB w) h', Some (Some a)) /\
      same_or_new (w_heap DB w) (Some s) (Some (Some a)) /\ holds h' (JObj kjs') a /\ only_value (w_heap DB w) h' (Some s) (JObj kjs).

(** It holds when the status is an object. *)
Theorem C73_rows_partial :
  forall DB prepare exec columns limit mu mf (w : world DB) info data sql key a kjs,
  limit < 2 ^ 31 -> can_run DB prepare limit info data (w_db DB w) sql ->
  holds (w_heap DB w) (JObj kjs) a -> NoDup (containers (w_heap DB w) (JObj kjs) a) ->
  exists vals, runs_with DB prepare limit info data (w_db DB w) sql vals /\
    forall db' rows, exec (w_db DB w) sql vals = (db', rows, SQLITE_DONE) ->
    let names := columns db' sql in
    Forall (fun r => length r = length names) rows -> Z.of_nat (length names) <= 2 ^ 64 ->
    Z.of_nat (size (JObj kjs) + size (JArr (rows_value info names rows))) < 2 ^ 64 ->
    forall fuel, (size (JObj kjs) + size (JArr (rows_value info names rows)) < fuel)%nat ->
    forall kjs', gathered kjs key (rows_value info names rows) = Some kjs' ->
    exists h', select_as DB prepare exec columns limit mu mf byval_str_mk fuel w info data sql (Some (Some a)) key = Ok (SQLITE_DONE, World DB db' (w_open DB w) h', Some (Some a)) /\
      holds h' (JObj kjs') a /\ only_value (w_heap DB w) h' (Some (Some a)) (JObj kjs).
Proof.
  intros DB prepare exec columns limit mu mf w info data sql key a kjs Lm. exact (select_as_ok DB prepare exec columns limit mu mf Lm w info data sql key a kjs).
Qed.
(** Under the name z, then once more, then under a name that has a text. *)
Example C73_rows_example :
  let r1 := JObj [([97], JI64 1)] in let r2 := JObj [([97], JI64 2)] in
  match toy_as 40 (toy_with bd [[V_INT 1]; [V_INT 2]] 101) None None q_all (Some (Some 0%nat)) [122] with
  | Ok (rc, w, Some (Some a)) =>
    rc = SQLITE_DONE /\ a = 0%nat /\ w_open toy w = 0 /\ shown 5 (w_heap toy w) a = JObj [([98], JI64 5); ([100], JI64 6); ([122], JArr [r1; r2])] /\
    match toy_as 40 (toy_with (w_heap toy w) [[V_INT 1]] 101) None None q_all (Some (Some 0%nat)) [122] with
    | Ok (_, w, Some (Some a)) => shown 5 (w_heap toy w) a = JObj [([98], JI64 5); ([100], JI64 6); ([122], JArr [r1; r2; r1])]
    | _ => False
    end
  | _ => False
  end /\
  match toy_as 40 (toy_with (grown bd [122] (NStr [120])) [[V_INT 1]] 101) None None q_all (Some (Some 0%nat)) [122] with
  | Ok (_, w, Some (Some a)) => shown 5 (w_heap toy w) a = JObj [([98], JI64 5); ([100], JI64 6); ([122], JArr [JStr [120]; r1])]
  | _ => False
  end.
Proof. vm_compute. repeat split. Qed.

(** Without an object the rows themselves become the status, and the name is lost. *)
Theorem C73_new_refuted :
  match toy_as 40 (toy_world [[V_INT 1]] 101) None None q_all (Some None) [122] with
  | Ok (_, w, Some (Some a)) => shown 5 (w_heap toy w) a = JArr [JObj [([97], JI64 1)]]
  | _ => False
  end /\ ~ C73_statement.
Proof.
  split; [vm_compute; reflexivity|]. intros S.
  destruct (S toy toy_prepare toy_exec toy_columns 1000 no_msg no_msg2 (toy_world [[V_INT 1]] 101) None None q_all [122] None []) as (vals & Rw & F).
  - reflexivity.
  - split; [reflexivity|exact I].
  - reflexivity.
  - cbv in Rw. subst vals. destruct (F (Toy [] [[V_INT 1]] 101) [[V_INT 1]] eq_refl) with (fuel := 40%nat) (kjs' := [([122], JArr [JObj [([97], JI64 1)]])]) as (h' & a & E & _ & H & _).
    + repeat constructor.
    + vm_compute. discriminate.
    + vm_compute. reflexivity.
    + vm_compute. lia.
    + reflexivity.
    + apply holds_obj in H as (cm & kas & N & _).
      assert (T : match toy_as 40 (toy_world [[V_INT 1]] 101) None None q_all (Some None) [122] with
        | Ok (_, w, Some (Some a)) => match nth_error (w_heap toy w) a with Some (NObj _) => False | _ => True end | _ => False end) by (vm_compute; exact I).
      change (toy_world [[V_INT 1]] 101) with (World toy (Toy [] [[V_INT 1]] 101) 0 []) in *.
      rewrite E in T. cbn [w_heap] in T. rewrite N in T. exact T.
Qed.
(** A member of another kind: a number stops the program, with an object NULL is followed. *)
Theorem C73_kinds_refuted :
  toy_as 40 (toy_with bd [[V_INT 1]] 101) None None q_all (Some (Some 0%nat)) [98] = Bad Abort /\
  toy_as 40 (toy_with (grown bd [122] (NObj map_mk)) [[V_INT 1]] 101) None None q_all (Some (Some 0%nat)) [122] = Bad NullDeref.
Proof. vm_compute. auto. Qed.

(** A statement that fails: its code, and the error in the status. *)
Theorem C73_rows_error_partial :
  forall DB prepare exec columns limit mu mf (w : world DB) infos data sql key s,
  limit < 2 ^ 31 -> NoDup (map i_var infos) -> covers data (length infos) -> good_sql DB prepare limit infos data sql -> no_error_yet (w_heap DB w) s ->
  exists rc db', performs DB prepare exec limit infos data (w_db DB w) sql rc db' /\
    (rc <> SQLITE_ROW -> rc <> SQLITE_DONE -> forall fuel, (0 < fuel)%nat -> exists w' s',
      select_as DB prepare exec columns limit mu mf byval_str_mk fuel w (Some infos) data sql s key = Ok (rc, w', s') /\ w_db DB w' = db' /\
      same_or_new (w_heap DB w) s s' /\ error_text (w_heap DB w') s' /\ only_status (w_heap DB w) (w_heap DB w') s).
Proof.
  intros DB prepare exec columns limit mu mf w infos data sql key s Lm. exact (select_as_fails DB prepare exec columns limit mu mf Lm w infos data sql key s).
Qed.
Example C73_rows_error_example :
  match toy_as 30 (toy_with bd [] 5) (Some [ea]) (Some [int_data 7]) q_select (Some (Some 0%nat)) [122] with
  | Ok (rc, w, Some (Some a)) => rc = 5 /\ shown 3 (w_heap toy w) a = JObj [([98], JI64 5); ([100], JI64 6); (error_key, JStr q_select)]
  | _ => False
  end.
Proof. vm_compute. auto. Qed.

(** * One row *)

(** The full property for one row.  The row is put under the name, in a new object if there is
    none.  If there is no row nothing changes. *)
Definition C73_one_statement : Prop :=
  forall DB prepare exec columns limit mu mf (w : world DB) info data sql key s kjs,
  limit < 2 ^ 31 -> can_run DB prepare limit info data (w_db DB w) sql -> members_of (w_heap DB w) s kjs ->
  exists vals, runs_with DB prepare limit info data (w_db DB w) sql vals /\
    forall db' rows, exec (w_db DB w) sql vals = (db', rows, SQLITE_DONE) ->
    let names := columns db' sql in
    Forall (fun r => length r = length names) rows -> Z.of_nat (length names) <= 2 ^ 64 ->
    Z.of_nat (size (JObj kjs) + size (JArr (rows_value info names rows))) < 2 ^ 64 ->
    forall fuel, (size (JObj kjs) + size (JArr (rows_value info names rows)) < fuel)%nat ->
    exists h' s', select1_as DB prepare exec columns limit mu mf byval_str_mk fuel w info data sql (Some s) key = Ok (SQLITE_DONE, World DB db' (w_open DB w) h', Some s') /\
      only_value (w_heap DB w) h' (Some s) (JObj kjs) /\
      match rows with
      | [] => forall kjs, members_of (w_heap DB w) s kjs -> members_of h' s' kjs
      | row :: _ => exists a kjs', s' = Some a /\ same_or_new (w_heap DB w) (Some s) (Some (Some a)) /\
                      row_under kjs key (row_value info names row) kjs' /\ holds h' (JObj kjs') a
      end.
(** It holds if there is a row, and it has no column error (C73_column_refuted). *)
Theorem C73_one_partial :
  forall DB prepare exec columns limit mu mf (w : world DB) info data sql key s kjs,
  limit < 2 ^ 31 -> can_run DB prepare limit info data (w_db DB w) sql -> members_of (w_heap DB w) s kjs ->
  exists vals, runs_with DB prepare limit info data (w_db DB w) sql vals /\
    forall db' row rows, exec (w_db DB w) sql vals = (db', row :: rows, SQLITE_DONE) ->
    let names := columns db' sql in
    Forall (fun r => length r = length names) (row :: rows) -> Z.of_nat (length names) <= 2 ^ 64 ->
    (match row_value info names row with JObj k => lookup error_key k = None | _ => True end) ->
    Z.of_nat (size (JObj kjs) + size (JArr (rows_value info names (row :: rows)))) < 2 ^ 64 ->
    forall fuel, (size (JObj kjs) + size (JArr (rows_value info names (row :: rows))) < fuel)%nat ->
    exists h' a kjs', select1_as DB prepare exec columns limit mu mf byval_str_mk fuel w info data sql (Some s) key = Ok (SQLITE_DONE, World DB db' (w_open DB w) h', Some (Some a)) /\
      same_or_new (w_heap DB w) (Some s) (Some (Some a)) /\
      row_under kjs key (row_value info names row) kjs' /\ holds h' (JObj kjs') a /\ only_value (w_heap DB w) h' (Some s) (JObj kjs).
Proof.
  intros DB prepare exec columns limit mu mf w info data sql key s kjs Lm. exact (select1_as_ok DB prepare exec columns limit mu mf Lm w info data sql key s kjs).
Qed.
(** In a new object; as a new member; into the object that the member is; a member that is a
    number keeps its value. *)
Example C73_one_example :
  let row := [([97], JI64 1); ([98], JStr [120; 121]); ([99], JNull)] in
  match toy_as1 40 (toy_world two_rows 101) None None q_all (Some None) [122], toy_as1 40 (toy_with bd two_rows 101) None None q_all (Some (Some 0%nat)) [122],
        toy_as1 40 (toy_with bd two_rows 101) None None q_all (Some (Some 0%nat)) [98] with
  | Ok (rc, w, Some (Some a)), Ok (rc', w', Some (Some a')), Ok (rc'', w'', Some (Some a'')) =>
    (rc, rc', rc'') = (101, 101, 101) /\ shown 5 (w_heap toy w) a = JObj [([122], JObj row)] /\
    shown 5 (w_heap toy w') a' = JObj [([98], JI64 5); ([100], JI64 6); ([122], JObj row)] /\
    shown 5 (w_heap toy w'') a'' = JObj [([98], JI64 5); ([100], JI64 6)] /\
    match toy_as1 40 (toy_with (w_heap toy w') [[V_INT 9]] 101) None None q_all (Some (Some a')) [122] with
    | Ok (_, w, Some (Some a)) => shown 5 (w_heap toy w) a = JObj [([98], JI64 5); ([100], JI64 6); ([122], JObj [([97], JI64 9); ([98], JStr [120; 121]); ([99], JNull)])]
    | _ => False
    end
  | _, _, _ => False
  end.
Proof. vm_compute. repeat split. Qed.

(** No row: NULL is stored as the member, which is followed when the member is read. *)
Theorem C73_none_refuted :
  toy_as1 40 (toy_with bd [] 101) None None q_all (Some (Some 0%nat)) [122] = Bad NullDeref /\
  toy_as1 40 (toy_world [] 101) None None q_all (Some None) [122] = Bad NullDeref /\ ~ C73_one_statement.
Proof.
  split; [vm_compute; reflexivity|]. split; [vm_compute; reflexivity|]. intros S.
  destruct (S toy toy_prepare toy_exec toy_columns 1000 no_msg no_msg2 (toy_world [] 101) None None q_all [122] None []) as (vals & Rw & F).
  - reflexivity.
  - split; [reflexivity|exact I].
  - reflexivity.
  - cbv in Rw. subst vals. destruct (F (Toy [] [] 101) [] eq_refl) with (fuel := 40%nat) as (h' & a & E & _).
    + constructor.
    + vm_compute. discriminate.
    + vm_compute. reflexivity.
    + vm_compute. lia.
    + vm_compute in E. discriminate.
Qed.
(** A row with a column that is called error becomes the status, in place of the object. *)
Theorem C73_column_refuted :
  match select1_as toy toy_prepare toy_exec (fun _ _ => [[97]; error_key]) 1000 no_msg no_msg2 byval_str_mk 40
      (toy_with bd [[V_INT 1; V_TEXT [120]]] 101) None None q_all (Some (Some 0%nat)) [122] with
  | Ok (rc, w, Some (Some a)) => rc = SQLITE_DONE /\ a <> 0%nat /\ shown 5 (w_heap toy w) a = JObj [([97], JI64 1); (error_key, JStr [120])]
  | _ => False
  end.
Proof. vm_compute. split; [reflexivity|]. split; [discriminate|reflexivity]. Qed.

(** A statement that fails: its code, and the error in a new object, which replaces the status. *)
Theorem C73_one_error :
  forall DB prepare exec columns limit mu mf (w : world DB) infos data sql key s,
  limit < 2 ^ 31 -> NoDup (map i_var infos) -> covers data (length infos) -> good_sql DB prepare limit infos data sql ->
  exists rc db', performs DB prepare exec limit infos data (w_db DB w) sql rc db' /\
    (rc <> SQLITE_ROW -> rc <> SQLITE_DONE -> forall fuel, (0 < fuel)%nat -> exists w' r,
      select1_as DB prepare exec columns limit mu mf byval_str_mk fuel w (Some infos) data sql (Some s) key = Ok (rc, w', Some (Some r)) /\ w_db DB w' = db' /\
      (length (w_heap DB w) <= r)%nat /\ error_text (w_heap DB w') (Some (Some r)) /\ quiet (w_heap DB w) (w_heap DB w')).
Proof.
  intros DB prepare exec columns limit mu mf w infos data sql key s Lm. exact (select1_as_fails DB prepare exec columns limit mu mf Lm w infos data sql key s).
Qed.
Example C73_one_error_example :
  match toy_as1 30 (toy_with bd [] 5) (Some [ea]) (Some [int_data 7]) q_select (Some (Some 0%nat)) [122] with
  | Ok (rc, w, Some (Some a)) => rc = 5 /\ shown 3 (w_heap toy w) a = JObj [(error_key, JStr q_select)] /\ shown 3 (w_heap toy w) 0 = JObj [([98], JI64 5); ([100], JI64 6)]
  | _ => False
  end.
Proof. vm_compute. auto. Qed.
(** So what was in the status is not there any more, unlike with cee_sqlite3_select_as. *)
Theorem C73_replaced_refuted :
  match toy_as1 30 (toy_with bd [] 5) (Some [ea]) (Some [int_data 7]) q_select (Some (Some 0%nat)) [122],
        toy_as 30 (toy_with bd [] 5) (Some [ea]) (Some [int_data 7]) q_select (Some (Some 0%nat)) [122] with
  | Ok (_, w, Some (Some a)), Ok (_, w', Some (Some a')) =>
    shown 3 (w_heap toy w) a = JObj [(error_key, JStr q_select)] /\ shown 3 (w_heap toy w') a' = JObj [([98], JI64 5); ([100], JI64 6); (error_key, JStr q_select)]
  | _, _ => False
  end.
Proof. vm_compute. auto. Qed.

Print Assumptions C73_rows_partial.
Print Assumptions C73_one_partial.
Print Assumptions C73_one_error.
