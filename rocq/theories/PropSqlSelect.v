(** Properties C57, C58, C59, C60: select statements, and what is built on them. *)
From Coq Require Import ZArith List Bool Lia Arith.
From Verif Require Import Base IntSpec MapModel MapProofs ListModel ListProofs Json JsonHeapModel JsonHeapSpec JsonHeapProofs JsonFrame JsonMergeProofs JsonFieldProofs JsonSelectModel SqlModel SqlSpec SqlProofs
  SqlSelectModel SqlSelectSpec SqlSelectProofs PropSql.
Import ListNotations.
Open Scope Z_scope.

(** * For the examples *)
(** The value in memory, [n] levels of it *)
Fixpoint shown (n : nat) (h : heap) (a : nat) : json :=
  match n with
  | O => JUndefined
  | S n =>
    match nth_error h a with
    | Some (NArr _) => JArr (map (shown n h) (kids h a))
    | Some (NObj m) => JObj (combine (m_keys m) (map (shown n h) (kids h a)))
    | Some (NStr s) => JStr s | Some (NStrn s) => JStrn s | Some (NBlob z) => JBlob z
    | Some (NBool b) => JBool b | Some (NI64 z) => JI64 z | Some (NU64 z) => JU64 z | Some (NDouble z) => JDouble z
    | Some NNull => JNull
    | _ => JUndefined
    end
  end.
(** The columns of the rows of the small SQLite: a, b, c *)
Definition toy_columns (db : toy) (sql : text) : list text := firstn (match found db with r :: _ => length r | [] => 3 end) [[97]; [98]; [99]].
Notation toy_select := (sql_select toy toy_prepare toy_exec toy_columns 1000 no_msg no_msg2 byval_str_mk).
Notation toy_select1 := (sql_select1 toy toy_prepare toy_exec toy_columns 1000 no_msg no_msg2 byval_str_mk).
Notation toy_soi := (select1_or_insert toy toy_prepare toy_exec toy_columns 1000 toy_counts no_msg no_msg2 byval_str_mk).
Definition hidden (c : Z) : bind_info := BindInfo [64; c] [c] T_INT no_data false false true false.
Definition bare (c : Z) : bind_info := BindInfo [64; c] [c] T_INT no_data false false false true.
Definition two_rows : list (list sqlv) := [[V_INT 1; V_TEXT [120; 121; 0; 122]; V_NULL]; [V_INT 2; V_BLOB [0; 1]; V_REAL 9]].
(** select *)
Definition q_all : text := [115; 101; 108; 101; 99; 116].

(** * C57: select *)

(** The full property.  A statement runs and gives rows, until it is done or fails.  When it
    is done, the status is the array of its rows, in order, after what was in it; when it
    fails the code is returned and the error is in the status.  No statement stays open. *)
Definition C57_statement : Prop :=
  forall DB prepare exec columns limit mu mf (w : world DB) info data sql status old,
  limit < 2 ^ 31 -> can_run DB prepare limit info data (w_db DB w) sql -> is_list (w_heap DB w) status old ->
  exists vals, runs_with DB prepare limit info data (w_db DB w) sql vals /\
    forall db' rows fin, exec (w_db DB w) sql vals = (db', rows, fin) -> fin <> SQLITE_ROW ->
    let names := columns db' sql in
    Forall (fun r => length r = length names) rows -> Z.of_nat (length names) <= 2 ^ 64 ->
    Z.of_nat (size (JArr old) + size (JArr (rows_value info names rows))) < 2 ^ 64 ->
    forall fuel, (size (JArr old) + size (JArr (rows_value info names rows)) < fuel)%nat ->
    exists h' status', sql_select DB prepare exec columns limit mu mf byval_str_mk fuel w info data sql status = Ok (fin, World DB db' (w_open DB w) h', status') /\
      only_value (w_heap DB w) h' status (JArr old) /\
      (fin = SQLITE_DONE -> now_list (w_heap DB w) h' status status' (old ++ rows_value info names rows)) /\
      (fin <> SQLITE_DONE -> has_error h' status').

(** It holds for statements that finish. *)
Theorem C57_rows_partial :
  forall DB prepare exec columns limit mu mf (w : world DB) info data sql status old,
  limit < 2 ^ 31 -> can_run DB prepare limit info data (w_db DB w) sql -> is_list (w_heap DB w) status old ->
  exists vals, runs_with DB prepare limit info data (w_db DB w) sql vals /\
    forall db' rows, exec (w_db DB w) sql vals = (db', rows, SQLITE_DONE) ->
    let names := columns db' sql in
    Forall (fun r => length r = length names) rows -> Z.of_nat (length names) <= 2 ^ 64 ->
    Z.of_nat (size (JArr old) + size (JArr (rows_value info names rows))) < 2 ^ 64 ->
    forall fuel, (size (JArr old) + size (JArr (rows_value info names rows)) < fuel)%nat ->
    exists h' status', sql_select DB prepare exec columns limit mu mf byval_str_mk fuel w info data sql status = Ok (SQLITE_DONE, World DB db' (w_open DB w) h', status') /\
      now_list (w_heap DB w) h' status status' (old ++ rows_value info names rows) /\
      only_value (w_heap DB w) h' status (JArr old).
Proof.
  intros DB prepare exec columns limit mu mf w info data sql status old Lm.
  exact (select_ok DB prepare exec columns limit mu mf Lm w info data sql status old).
Qed.
(** Two rows; a text with a NUL is cut.  Column b is not returned.  One column without a label. *)
Example C57_rows_example :
  match toy_select 30 (toy_world two_rows 101) None None q_all (Some None),
        toy_select 30 (toy_world two_rows 101) (Some [hidden 98; bare 97]) None q_all (Some None),
        toy_select 30 (toy_world [[V_INT 1]; [V_INT 2]] 101) (Some [bare 97]) None q_all (Some None) with
  | Ok (rc, w, Some (Some a)), Ok (rc', w', Some (Some a')), Ok (rc'', w'', Some (Some a'')) =>
    (rc, rc', rc'', w_open toy w, w_open toy w', w_open toy w'') = (101, 101, 101, 0, 0, 0) /\
    shown 5 (w_heap toy w) a = JArr [JObj [([97], JI64 1); ([98], JStr [120; 121]); ([99], JNull)]; JObj [([97], JI64 2); ([98], JBlob 2); ([99], JDouble 9)]] /\
    shown 5 (w_heap toy w) a = JArr (rows_value None [[97]; [98]; [99]] two_rows) /\
    shown 5 (w_heap toy w') a' = JArr [JObj [([97], JI64 1); ([99], JNull)]; JObj [([97], JI64 2); ([99], JDouble 9)]] /\
    shown 5 (w_heap toy w'') a'' = JArr [JI64 1; JI64 2]
  | _, _, _ => False
  end.
Proof. vm_compute. repeat split. Qed.

(** Errors: when nothing was given yet the code is returned, the error is in a new object,
    and nothing else has changed.  The statements that fail in this way are those that are
    not accepted, that have parameters without an entry, or that fail at once. *)
Theorem C57_error_partial :
  forall DB prepare exec columns limit mu mf (w : world DB) infos data sql s,
  limit < 2 ^ 31 -> NoDup (map i_var infos) -> covers data (length infos) -> good_sql DB prepare limit infos data sql -> s = None \/ s = Some None ->
  exists rc db', performs DB prepare exec limit infos data (w_db DB w) sql rc db' /\
    (rc <> SQLITE_ROW -> rc <> SQLITE_DONE -> forall fuel, (0 < fuel)%nat -> exists w' s',
      sql_select DB prepare exec columns limit mu mf byval_str_mk fuel w (Some infos) data sql s = Ok (rc, w', s') /\ w_db DB w' = db' /\
      same_or_new (w_heap DB w) s s' /\ error_text (w_heap DB w') s' /\ quiet (w_heap DB w) (w_heap DB w')).
Proof.
  intros DB prepare exec columns limit mu mf w infos data sql s Lm N C G Hs.
  destruct (select_fails DB prepare exec columns limit mu mf Lm w infos data sql s N C G Hs) as (rc & db' & P & F). exists rc, db'. split; [auto|].
  intros Nr Nd fuel Lf. destruct (F Nr Nd fuel Lf) as (w' & s' & E & Ed & A & B & Q). exists w', s'. split; [exact E|]. split; [auto|].
  destruct Hs as [-> | ->]; [rewrite (B eq_refl); split; [reflexivity|]; split; [exact I|auto]|]. destruct (A eq_refl) as (a & -> & La & Et). split; [exists a; auto|]. auto.
Qed.
Example C57_error_example :
  match toy_select 30 (toy_world [] 5) (Some [ea]) (Some [int_data 7]) q_select (Some None), toy_select 30 (toy_world [] 101) (Some [ea]) (Some [int_data 7]) q_other (Some None) with
  | Ok (rc, w, Some (Some a)), Ok (rc', w', Some (Some a')) =>
    rc = 5 /\ shown 3 (w_heap toy w) a = JObj [(error_key, JStr q_select)] /\ rc' = 1 /\ shown 3 (w_heap toy w') a' = JObj [(error_key, JStr [64; 122])]
  | _, _ => False
  end.
Proof. vm_compute. auto. Qed.

(** What is missing: a statement that fails after a row.  The row is taken; then, though there
    is no current row, the columns are read again.  Also a statement that fails stays open; and
    an error cannot be stored in a status that is an array already. *)
Theorem C57_fails_later_refuted :
  toy_select 30 (toy_world [[V_INT 1]] 5) (Some [ea]) (Some [int_data 7]) q_select (Some None) = Bad Uninit /\ ~ C57_statement.
Proof.
  split; [vm_compute; reflexivity|]. intros S.
  destruct (S toy toy_prepare toy_exec toy_columns 1000 no_msg no_msg2 (toy_world [[V_INT 1]] 5) None None q_all (Some None) []) as (vals & Rw & F).
  - reflexivity.
  - split; [reflexivity|exact I].
  - reflexivity.
  - cbv in Rw. subst vals. destruct (F (Toy [] [[V_INT 1]] 5) [[V_INT 1]] 5 eq_refl) with (fuel := 30%nat) as (h' & s' & E & _).
    + discriminate.
    + repeat constructor.
    + vm_compute. discriminate.
    + vm_compute. reflexivity.
    + vm_compute. lia.
    + vm_compute in E. discriminate.
Qed.
(** This is so for every statement that gives rows and then fails, if it has a column that is
    returned: what is read without a row is undefined. *)
Lemma bare_loop ms obj info : forall names i h single nl, Exists (fun n => returned info n = true) names ->
  row_loop ms h obj info names i None single nl = Bad Uninit.
Proof.
  induction names as [|n names IH]; intros i h single nl X; inversion X as [? ? R|? ? R]; subst; cbn [row_loop]; rewrite returned_ok.
  - rewrite R. reflexivity.
  - destruct (returned info n); [reflexivity|]. apply IH, R.
Qed.
Lemma iter_fails DB exec columns b a info sql vals names fin rows : fin <> SQLITE_DONE -> Exists (fun n => returned info n = true) names -> forall fuel w js,
  columns (w_db DB w) sql = names -> collects b (w_heap DB w) js a -> (b <= length (w_heap DB w))%nat ->
  Forall (fun r => length r = length names) rows -> Z.of_nat (length names) <= 2 ^ 64 -> (length rows < fuel)%nat ->
  iter_rows DB exec columns fuel (get_a_row byval_str_mk a info) w (Stmt sql vals rows fin) (code_of rows fin) = Bad Uninit.
Proof.
  intros Nd Rt. induction rows as [|row rows IH]; intros fuel w js Ec C Lb Fr B Lf.
  - destruct fuel as [|fuel]; [cbn [length] in Lf; lia|]. cbn [iter_rows code_of]. apply Z.eqb_neq in Nd. rewrite Nd. cbn [s_sql s_rows hd_error].
    rewrite Ec. unfold get_a_row. cbn [alloc]. rewrite bare_loop by auto. reflexivity.
  - destruct fuel as [|fuel]; [cbn [length] in Lf; lia|]. inversion Fr as [|? ? Lr Fr']; subst. cbn [iter_rows code_of].
    change (SQLITE_ROW =? SQLITE_DONE) with false. cbn iota. cbn [s_sql s_rows hd_error].
    destruct (a_row_ok b (w_heap DB w) js a info (columns (w_db DB w) sql) row C Lb Lr B) as (h1 & E1 & C1 & L1 & O1).
    rewrite E1. cbn [bind]. change (negb (0 =? 0)) with false. cbn iota. cbn [length] in Lf.
    specialize (IH fuel (World DB (w_db DB w) (w_open DB w) h1) _ eq_refl C1). cbn [w_heap] in IH. specialize (IH ltac:(lia) Fr' B ltac:(lia)).
    destruct rows as [|r2 rows]; cbn [next_row s_rows s_sql s_vals s_end code_of] in *; exact IH.
Qed.
Theorem C57_fails_later :
  forall DB prepare exec columns limit mu mf (w : world DB) info data sql status old,
  limit < 2 ^ 31 -> can_run DB prepare limit info data (w_db DB w) sql -> is_list (w_heap DB w) status old ->
  exists vals, runs_with DB prepare limit info data (w_db DB w) sql vals /\
    forall db' row rows fin, exec (w_db DB w) sql vals = (db', row :: rows, fin) -> fin <> SQLITE_DONE ->
    let names := columns db' sql in
    Forall (fun r => length r = length names) (row :: rows) -> Z.of_nat (length names) <= 2 ^ 64 -> Exists (fun n => returned info n = true) names ->
    forall fuel, (length (row :: rows) < fuel)%nat ->
    sql_select DB prepare exec columns limit mu mf byval_str_mk fuel w info data sql status = Bad Uninit.
Proof.
  intros DB prepare exec columns limit mu mf w info data sql status old Lm Cr Il. set (h0 := w_heap DB w) in *.
  destruct (run_take DB prepare exec limit mu mf Lm (World DB (w_db DB w) (w_open DB w) (h0 ++ [NArr (list_mk 10)])) info data sql Cr) as (vals & Rw & Run).
  exists vals. split; [exact Rw|]. intros db' row rows fin Ex Nd names Fr B Rt fuel Lf. specialize (Run db' (row :: rows) fin Ex). cbn [w_heap w_open] in Run.
  unfold sql_select. cbn [alloc]. fold h0. unfold select_iter. cbn [w_heap w_db w_open].
  assert (Check : match status with Some (Some a) => bind (array_at (h0 ++ [NArr (list_mk 10)]) (Some a)) (fun _ => Ok tt) | _ => Ok tt end = Ok tt).
  { destruct status as [[a|]|]; auto. destruct Il as (Ho & _). apply holds_arr in Ho as (l & xs & E & _).
    rewrite (array_at_ok _ a l); [auto|]. rewrite alloc_other; [auto|apply nth_error_Some; congruence]. }
  rewrite Check. cbn [bind]. rewrite Run. cbn [bind code_of]. change (negb (SQLITE_ROW =? SQLITE_ROW)) with false. cbn [andb of_option bind].
  change SQLITE_ROW with (code_of (row :: rows) fin).
  rewrite (iter_fails DB exec columns (length h0) (length h0) info sql vals names fin (row :: rows) Nd Rt fuel _ []); cbn [w_heap w_db]; auto.
  - exists (list_mk 10), []. split; [rewrite alloc_other by (rewrite app_length; cbn [length]; lia); apply alloc_new|]. split; [apply rep_mk; lia|]. split; [constructor|].
    split; [intros []|]. split; [auto|intros c []].
  - rewrite !app_length. lia.
Qed.
Example C57_fails_later_example : toy_select 30 (toy_world two_rows 5) (Some [hidden 98; bare 97]) None q_all (Some None) = Bad Uninit /\
  Exists (fun n => returned (Some [hidden 98; bare 97]) n = true) (toy_columns (Toy [] two_rows 5) q_all).
Proof. split; [reflexivity|]. apply Exists_cons_hd. reflexivity. Qed.
Theorem C57_open_refuted :
  match toy_select 30 (toy_world [] 5) (Some [ea]) (Some [int_data 7]) q_select (Some None) with Ok (rc, w, _) => rc = 5 /\ w_open toy w = 1 | _ => False end.
Proof. vm_compute. auto. Qed.
Theorem C57_array_status_refuted :
  toy_select 30 (World toy (Toy [] [] 5) 0 [NArr (list_mk 10)]) (Some [ea]) (Some [int_data 7]) q_select (Some (Some 0%nat)) = Bad Abort.
Proof. vm_compute. auto. Qed.

(** * C58: select1 *)

(** The first row is merged into the status, or is the new status; without a row nothing
    changes.  The full statement, as C57_statement, has errors at any time. *)
Theorem C58_row_partial :
  forall DB prepare exec columns limit mu mf (w : world DB) info data sql status old,
  limit < 2 ^ 31 -> can_run DB prepare limit info data (w_db DB w) sql -> is_value (w_heap DB w) status old ->
  exists vals, runs_with DB prepare limit info data (w_db DB w) sql vals /\
    forall db' rows, exec (w_db DB w) sql vals = (db', rows, SQLITE_DONE) ->
    let names := columns db' sql in
    Forall (fun r => length r = length names) rows -> Z.of_nat (length names) <= 2 ^ 64 ->
    Z.of_nat (size old + size (JArr (rows_value info names rows))) < 2 ^ 64 ->
    forall fuel, (size old + size (JArr (rows_value info names rows)) < fuel)%nat ->
    exists h' status', sql_select1 DB prepare exec columns limit mu mf byval_str_mk fuel w info data sql status = Ok (SQLITE_DONE, World DB db' (w_open DB w) h', status') /\
      match rows with
      | [] => status' = status /\ quiet (w_heap DB w) h'
      | r :: _ => now_merged (w_heap DB w) h' status status' old (row_value info names r) /\ only_value (w_heap DB w) h' status old
      end.
Proof.
  intros DB prepare exec columns limit mu mf w info data sql status old Lm Cr V.
  destruct (select1_ok DB prepare exec columns limit mu mf Lm w info data sql status old Cr V) as (vals & Rw & F). exists vals. split; [exact Rw|].
  intros db' rows Ex names A B C fuel Lf. destruct (F db' rows Ex A B C fuel Lf) as (h' & s' & E & Q). exists h', s'. split; [exact E|].
  destruct rows as [|r rows]; [exact Q|]. destruct Q as (Q1 & Q2 & _). auto.
Qed.
(** The status is an object with b and d; the row has a, b and c. *)
Definition bd : heap :=
  match object_set_new byval_str_mk [NObj map_mk] (Some 0%nat) [98] (NI64 5) with
  | Ok h => match object_set_new byval_str_mk h (Some 0%nat) [100] (NI64 6) with Ok h => h | Bad _ => [] end
  | Bad _ => []
  end.
Example C58_row_example :
  match toy_select1 30 (World toy (Toy [] two_rows 101) 0 bd) None None q_all (Some (Some 0%nat)), toy_select1 30 (toy_world two_rows 101) None None q_all (Some None),
    toy_select1 30 (toy_world [] 101) None None q_all (Some None) with
  | Ok (rc, w, Some (Some a)), Ok (rc', w', Some (Some a')), Ok (rc'', w'', s'') =>
    (rc, rc', rc'', s'') = (101, 101, 101, Some None) /\
    shown 5 (w_heap toy w) a = JObj [([98], JStr [120; 121]); ([100], JI64 6); ([97], JI64 1); ([99], JNull)] /\
    shown 5 (w_heap toy w') a' = JObj [([97], JI64 1); ([98], JStr [120; 121]); ([99], JNull)]
  | _, _, _ => False
  end.
Proof. vm_compute. repeat split. Qed.
Theorem C58_error_partial :
  forall DB prepare exec columns limit mu mf (w : world DB) infos data sql s,
  limit < 2 ^ 31 -> NoDup (map i_var infos) -> covers data (length infos) -> good_sql DB prepare limit infos data sql -> no_error_yet (w_heap DB w) s ->
  exists rc db', performs DB prepare exec limit infos data (w_db DB w) sql rc db' /\
    (rc <> SQLITE_ROW -> rc <> SQLITE_DONE -> forall fuel, (0 < fuel)%nat -> exists w' s',
      sql_select1 DB prepare exec columns limit mu mf byval_str_mk fuel w (Some infos) data sql s = Ok (rc, w', s') /\ w_db DB w' = db' /\
      same_or_new (w_heap DB w) s s' /\ error_text (w_heap DB w') s' /\ only_status (w_heap DB w) (w_heap DB w') s).
Proof.
  intros DB prepare exec columns limit mu mf w infos data sql s Lm. exact (select1_fails DB prepare exec columns limit mu mf Lm w infos data sql s).
Qed.
(** Failing after a row: as in C57. *)
Theorem C58_fails_later :
  forall DB prepare exec columns limit mu mf (w : world DB) info data sql status,
  limit < 2 ^ 31 -> can_run DB prepare limit info data (w_db DB w) sql ->
  exists vals, runs_with DB prepare limit info data (w_db DB w) sql vals /\
    forall db' row rows fin, exec (w_db DB w) sql vals = (db', row :: rows, fin) -> fin <> SQLITE_DONE ->
    let names := columns db' sql in
    Forall (fun r => length r = length names) (row :: rows) -> Z.of_nat (length names) <= 2 ^ 64 -> Exists (fun n => returned info n = true) names ->
    forall fuel, (length (row :: rows) < fuel)%nat ->
    sql_select1 DB prepare exec columns limit mu mf byval_str_mk fuel w info data sql status = Bad Uninit.
Proof.
  intros DB prepare exec columns limit mu mf w info data sql status Lm Cr.
  destruct (C57_fails_later DB prepare exec columns limit mu mf w info data sql (Some None) [] Lm Cr eq_refl) as (vals & Rw & F). exists vals. split; [exact Rw|].
  intros db' row rows fin Ex Nd names A B R fuel Lf. unfold sql_select1. rewrite (F db' row rows fin Ex Nd A B R fuel Lf). reflexivity.
Qed.
Example C58_fails_later_example : toy_select1 30 (World toy (Toy [] two_rows 5) 0 bd) None None q_all (Some (Some 0%nat)) = Bad Uninit.
Proof. reflexivity. Qed.
Example C58_error_example :
  match toy_select1 30 (World toy (Toy [] [] 5) 0 bd) (Some [ea]) (Some [int_data 7]) q_select (Some (Some 0%nat)) with
  | Ok (rc, w, Some (Some a)) => rc = 5 /\ shown 3 (w_heap toy w) a = JObj [([98], JI64 5); ([100], JI64 6); (error_key, JStr q_select)]
  | _ => False
  end.
Proof. vm_compute. auto. Qed.
Theorem C58_fails_later_refuted :
  toy_select1 30 (toy_world [[V_INT 1]] 5) (Some [ea]) (Some [int_data 7]) q_select (Some None) = Bad Uninit.
Proof. vm_compute. reflexivity. Qed.

(** * C59: select1 or insert *)

(** A row is found: it is given, nothing is inserted.  The row has no column error
    (C59_column_refuted). *)
Theorem C59_found_partial :
  forall DB prepare exec columns limit counters mu mf (w : world DB) info data t status old,
  limit < 2 ^ 31 -> can_run DB prepare limit info data (w_db DB w) (t_select t) -> is_value (w_heap DB w) status old ->
  exists vals, runs_with DB prepare limit info data (w_db DB w) (t_select t) vals /\
    forall db' row rows, exec (w_db DB w) (t_select t) vals = (db', row :: rows, SQLITE_DONE) ->
    let names := columns db' (t_select t) in
    Forall (fun r => length r = length names) (row :: rows) -> Z.of_nat (length names) <= 2 ^ 64 ->
    (match row_value info names row with JObj kjs => lookup error_key kjs = None | _ => True end) ->
    Z.of_nat (size old + size (JArr (rows_value info names (row :: rows)))) < 2 ^ 64 ->
    forall fuel, (size old + size (JArr (rows_value info names (row :: rows))) < fuel)%nat ->
    exists h' status', select1_or_insert DB prepare exec columns limit counters mu mf byval_str_mk fuel w info data t status = Ok (SQLITE_DONE, World DB db' (w_open DB w) h', status') /\
      now_merged (w_heap DB w) h' status status' old (row_value info names row) /\ only_value (w_heap DB w) h' status old.
Proof.
  intros DB prepare exec columns limit counters mu mf w info data t status old Lm. exact (or_insert_found DB prepare exec columns limit counters mu mf Lm w info data t status old).
Qed.
(** There is none: what is inserted is what cee_sqlite3_insert would insert (C54), with the id of
    the row, or an error.  The full statement has the id and not its low 32 bits (C54_rowid_refuted). *)
Theorem C59_inserts_partial :
  forall DB prepare exec columns limit counters mu mf (w : world DB) infos data t s,
  limit < 2 ^ 31 -> can_run DB prepare limit (Some infos) data (w_db DB w) (t_select t) -> good_sql DB prepare limit infos data (insert_of t) -> is_status (w_heap DB w) s ->
  exists vals, runs_with DB prepare limit (Some infos) data (w_db DB w) (t_select t) vals /\
    forall db', exec (w_db DB w) (t_select t) vals = (db', [], SQLITE_DONE) -> Z.of_nat (length (columns db' (t_select t))) <= 2 ^ 64 ->
    forall fuel, (2 < fuel)%nat ->
    exists rc w' s', select1_or_insert DB prepare exec columns limit counters mu mf byval_str_mk fuel w (Some infos) data t s = Ok (rc, w', s') /\
      same_or_new (w_heap DB w) s s' /\ only_status (w_heap DB w) (w_heap DB w') s /\
      performs DB prepare exec limit infos data db' (insert_of t) rc (w_db DB w') /\
      (rc <> SQLITE_DONE -> has_error (w_heap DB w') s') /\
      (rc = SQLITE_DONE -> exists i, low_int (last_insert_rowid (counters (w_db DB w'))) i /\
         reports (w_heap DB w') s' [108; 97; 115; 116; 95; 105; 110; 115; 101; 114; 116; 95; 114; 111; 119; 105; 100] (NI64 i)).
Proof.
  intros DB prepare exec columns limit counters mu mf w infos data t s Lm Cr G St. apply status_st in St as (n & St & B).
  destruct (or_insert_none DB prepare exec columns limit counters mu mf Lm w infos data t s n Cr G St B) as (vals & Rw & F). exists vals. split; [exact Rw|].
  intros db' Ex Bc fuel Lf. destruct (F db' Ex Bc fuel Lf) as (rc & w' & s' & E & S1 & O & P & He & R). exists rc, w', s'. split; [exact E|].
  split; [auto|]. split; [auto|]. split; [auto|]. split; [auto|]. intros Ed. eexists. split; [apply low_int_ok|]. apply R, Ed.
Qed.
(** The select fails: nothing is inserted, and the error is reported. *)
Theorem C59_error_partial :
  forall DB prepare exec columns limit counters mu mf (w : world DB) infos data t s,
  limit < 2 ^ 31 -> NoDup (map i_var infos) -> covers data (length infos) -> good_sql DB prepare limit infos data (t_select t) -> no_error_yet (w_heap DB w) s ->
  exists rc db', performs DB prepare exec limit infos data (w_db DB w) (t_select t) rc db' /\
    (rc <> SQLITE_ROW -> rc <> SQLITE_DONE -> forall fuel, (0 < fuel)%nat -> exists w' s',
      select1_or_insert DB prepare exec columns limit counters mu mf byval_str_mk fuel w (Some infos) data t s = Ok (rc, w', s') /\ w_db DB w' = db' /\
      same_or_new (w_heap DB w) s s' /\ error_text (w_heap DB w') s' /\ only_status (w_heap DB w) (w_heap DB w') s).
Proof.
  intros DB prepare exec columns limit counters mu mf w infos data t s Lm. exact (or_insert_fails DB prepare exec columns limit counters mu mf Lm w infos data t s).
Qed.
Example C59_example :
  let d := Some [int_data 7; no_data; no_data] in
  match toy_soi 30 (toy_world two_rows 101) (Some [ea; eb; ec]) d the_stmts (Some None), toy_soi 30 (toy_world [] 101) (Some [ea; eb; ec]) d the_stmts (Some None),
    toy_soi 30 (toy_world [] 5) (Some [ea; eb; ec]) d the_stmts (Some None) with
  | Ok (rc, w, Some (Some a)), Ok (rc', w', Some (Some a')), Ok (rc'', w'', Some (Some a'')) =>
    (rc, rc', rc'') = (101, 101, 5) /\ log (w_db toy w) = [] /\ shown 5 (w_heap toy w) a = JObj [([97], JI64 1); ([98], JStr [120; 121]); ([99], JNull)] /\
    log (w_db toy w') = [(q_insert, [V_INT 7; V_TEXT [120; 121]; V_TEXT []])] /\ shown 5 (w_heap toy w') a' = JObj [(key_rowid, JI64 1)] /\
    log (w_db toy w'') = [] /\ shown 5 (w_heap toy w'') a'' = JObj [(error_key, JStr q_select)]
  | _, _, _ => False
  end.
Proof. vm_compute. repeat split. Qed.
(** A row with a column that is called error is taken for an error: the status gets this
    column and not the others. *)
Theorem C59_column_refuted :
  match select1_or_insert toy toy_prepare toy_exec (fun _ _ => [[97]; error_key]) 1000 toy_counts no_msg no_msg2 byval_str_mk 30
      (World toy (Toy [] [[V_INT 1; V_TEXT [120]]] 101) 0 bd) None None the_stmts (Some (Some 0%nat)) with
  | Ok (rc, w, Some (Some a)) => rc = SQLITE_DONE /\ shown 5 (w_heap toy w) a = JObj [([98], JI64 5); ([100], JI64 6); (error_key, JStr [120])]
  | _ => False
  end.
Proof. vm_compute. auto. Qed.

(** * C60: the next int *)
Notation the_max := [109; 97; 120; 95; 118; 97; 108; 117; 101].
(** What the query is: select max(column) as max_value from_clause; *)
Definition is_max_query (q column from : text) : Prop :=
  q = [115; 101; 108; 101; 99; 116; 32; 109; 97; 120; 40] ++ column ++ [41; 32; 97; 115; 32] ++ the_max ++ [32] ++ from ++ [59].
(** The full property: one more than the greatest value, 1 if there is none. *)
Definition C60_statement : Prop :=
  forall DB prepare exec columns limit mu mf (w : world DB) column from status q db' v,
  limit < 2 ^ 31 -> is_max_query q column from -> fst (prepare (w_db DB w) q) = SQLITE_OK ->
  exec (w_db DB w) q (map (fun _ => V_NULL) (snd (prepare (w_db DB w) q))) = (db', [[v]], SQLITE_DONE) -> columns db' q = [the_max] ->
  forall fuel, (4 < fuel)%nat ->
  exists h', quiet (w_heap DB w) h' /\
    match v with
    | V_INT z => next_int DB prepare exec columns limit mu mf byval_str_mk fuel w column from status = Ok (z + 1, World DB db' (w_open DB w) h', status)
    | V_NULL => next_int DB prepare exec columns limit mu mf byval_str_mk fuel w column from status = Ok (1, World DB db' (w_open DB w) h', status)
    | _ => exists a, next_int DB prepare exec columns limit mu mf byval_str_mk fuel w column from status = Ok (-1, World DB db' (w_open DB w) h', Some a)
    end.
(** It holds for queries of at most 127 bytes and results that are ints; of longer ones the first
    127 bytes are run, and of other results the low 32 bits count. *)
Definition is_first (n : nat) (s whole : text) : Prop := (exists rest, whole = s ++ rest) /\ length s = Nat.min n (length whole).
Lemma is_first_ok n s whole : is_first n s whole <-> s = firstn n whole.
Proof.
  split.
  - intros ((rest & ->) & L). rewrite app_length in L. rewrite firstn_app. destruct (Nat.le_gt_cases n (length s)) as [A|A].
    + assert (n = length s) by lia. subst n. rewrite firstn_all, Nat.sub_diag. cbn [firstn]. rewrite app_nil_r. auto.
    + assert (length rest = 0%nat) by lia. destruct rest; [|discriminate]. rewrite firstn_nil, app_nil_r, firstn_all2 by lia. auto.
  - intros ->. split; [exists (skipn n whole); symmetry; apply firstn_skipn|apply firstn_length].
Qed.
Theorem C60_next_int_partial :
  forall DB prepare exec columns limit mu mf (w : world DB) column from status whole q db' v,
  limit < 2 ^ 31 -> is_max_query whole column from -> is_first 127 q whole -> fst (prepare (w_db DB w) q) = SQLITE_OK ->
  exec (w_db DB w) q (map (fun _ => V_NULL) (snd (prepare (w_db DB w) q))) = (db', [[v]], SQLITE_DONE) -> columns db' q = [the_max] ->
  forall fuel, (4 < fuel)%nat ->
  exists h', quiet (w_heap DB w) h' /\
    match v with
    | V_INT z => exists i, low_int z i /\
        next_int DB prepare exec columns limit mu mf byval_str_mk fuel w column from status =
          (if i =? 2 ^ 31 - 1 then Bad Overflow else Ok (i + 1, World DB db' (w_open DB w) h', status))
    | V_NULL => next_int DB prepare exec columns limit mu mf byval_str_mk fuel w column from status = Ok (1, World DB db' (w_open DB w) h', status)
    | _ => exists a, next_int DB prepare exec columns limit mu mf byval_str_mk fuel w column from status = Ok (-1, World DB db' (w_open DB w) h', Some a)
    end.
Proof.
  intros DB prepare exec columns limit mu mf w column from status whole q db' v Lm -> Lq P Ex Ec fuel Lf. apply is_first_ok in Lq. subst q.
  destruct (next_int_ok DB prepare exec columns limit mu mf Lm w column from status db' v P Ex Ec fuel Lf) as (h' & Q & R). exists h'. split; [auto|].
  destruct v; auto.
  - exists (to_int32 z). split; [apply low_int_ok|exact R].
  - destruct R as (a & E & _). exists a. exact E.
  - destruct R as (a & E & _). exists a. exact E.
  - destruct R as (a & E & _). exists a. exact E.
Qed.
(** A query that fails: -1, and the error is in the status. *)
Theorem C60_error :
  forall DB prepare exec columns limit mu mf (w : world DB) column from status whole q,
  limit < 2 ^ 31 -> is_max_query whole column from -> is_first 127 q whole -> (forall db, snd (prepare db q) = []) ->
  exists rc db', performs DB prepare exec limit [] None (w_db DB w) q rc db' /\
    (rc <> SQLITE_ROW -> rc <> SQLITE_DONE -> forall fuel, (0 < fuel)%nat -> exists w' a,
      next_int DB prepare exec columns limit mu mf byval_str_mk fuel w column from status = Ok (-1, w', Some a) /\ w_db DB w' = db' /\
      (length (w_heap DB w) <= a)%nat /\ error_text (w_heap DB w') (Some (Some a)) /\ quiet (w_heap DB w) (w_heap DB w')).
Proof.
  intros DB prepare exec columns limit mu mf w column from status whole q Lm -> Lq Np. apply is_first_ok in Lq. subst q. exact (next_int_fails DB prepare exec columns limit mu mf Lm w column from status Np).
Qed.
Notation toy_next := (next_int toy toy_prepare toy_exec (fun _ _ => [the_max]) 1000 no_msg no_msg2 byval_str_mk).
Definition next_of (v : sqlv) : outcome (Z * option nat) :=
  match toy_next 30 (toy_world [[v]] 101) [97] [102] None with Ok (n, _, s) => Ok (n, s) | Bad b => Bad b end.
Example C60_example : next_of (V_INT 41) = Ok (42, None) /\ next_of V_NULL = Ok (1, None) /\ next_of (V_INT (-5)) = Ok (-4, None) /\
  match toy_next 30 (toy_world [] 5) [97] [102] None with
  | Ok (n, w, Some a) => n = -1 /\ shown 3 (w_heap toy w) a = JObj [(error_key, JStr (max_query [97] [102]))]
  | _ => False
  end.
Proof. vm_compute. auto 6. Qed.
(** More than 31 bits: cut, or an int that overflows.  A longer query is cut, here to one that
    does not compile. *)
Theorem C60_int_refuted : next_of (V_INT (2 ^ 32 + 5)) = Ok (6, None) /\ next_of (V_INT (2 ^ 31 - 1)) = Bad Overflow /\ ~ C60_statement.
Proof.
  split; [vm_compute; reflexivity|]. split; [vm_compute; reflexivity|]. intros S.
  destruct (S toy toy_prepare toy_exec (fun _ _ => [the_max]) 1000 no_msg no_msg2 (toy_world [[V_INT (2 ^ 32 + 5)]] 101) [97] [102] None _ (Toy [] [[V_INT (2 ^ 32 + 5)]] 101) (V_INT (2 ^ 32 + 5))
    eq_refl eq_refl eq_refl eq_refl eq_refl 30%nat ltac:(lia)) as (h' & _ & E). vm_compute in E. discriminate.
Qed.
Definition needs_end (db : toy) (sql : text) : Z * list (option text) := (if last sql 0 =? 59 then 0 else 1, []).
Theorem C60_long_refuted :
  match next_int toy needs_end toy_exec (fun _ _ => [the_max]) 1000 no_msg no_msg2 byval_str_mk 30 (toy_world [[V_INT 41]] 101) [97] (repeat 102 100) None with
  | Ok (n, _, Some a) => n = -1
  | _ => False
  end /\
  (let q := max_query [97] (repeat 102 100) in needs_end (Toy [] [] 0) q = (SQLITE_OK, []) /\ is_max_query q [97] (repeat 102 100)).
Proof. vm_compute. auto. Qed.

Print Assumptions C57_rows_partial.
Print Assumptions C57_error_partial.
Print Assumptions C57_fails_later_refuted.
Print Assumptions C57_fails_later.
Print Assumptions C58_row_partial.
Print Assumptions C58_fails_later.
Print Assumptions C58_error_partial.
Print Assumptions C59_found_partial.
Print Assumptions C59_inserts_partial.
Print Assumptions C59_error_partial.
Print Assumptions C60_next_int_partial.
Print Assumptions C60_error.
Print Assumptions C60_int_refuted.
