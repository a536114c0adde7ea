(** C87: iterating over the rows of a statement. *)
From Coq Require Import ZArith List Bool Lia Arith.
From Verif Require Import Base MapModel MapProofs ListModel Json JsonHeapModel JsonHeapSpec JsonHeapProofs SqlModel SqlSpec SqlProofs
  SqlSelectModel SqlSelectSpec SqlSelectProofs PropSql PropSqlSelect.
Import ListNotations.
Open Scope Z_scope.

(** The function [f] gets the rows in order, until it says stop. *)
Inductive fed (f : heap -> list text -> option (list sqlv) -> outcome (heap * Z)) (names : list text) : list (list sqlv) -> heap -> heap -> Prop :=
| fed_end h : fed f names [] h h
| fed_stop r rows h h' z : f h names (Some r) = Ok (h', z) -> z <> 0 -> fed f names (r :: rows) h h'
| fed_go r rows h h1 h' : f h names (Some r) = Ok (h1, 0) -> fed f names rows h1 h' -> fed f names (r :: rows) h h'.

Section Iter.
Variable DB : Type.
Variable prepare : DB -> text -> Z * list (option text).
Variable exec : DB -> text -> list sqlv -> DB * list (list sqlv) * Z.
Variable columns : DB -> text -> list text.

Lemma rows_fed f names sql vals rows h h' : fed f names rows h h' -> forall fuel db o, columns db sql = names -> (length rows <= fuel)%nat ->
  iter_rows DB exec columns fuel f (World DB db o h) (Stmt sql vals rows SQLITE_DONE) (code_of rows SQLITE_DONE) = Ok (SQLITE_DONE, World DB db (o - 1) h').
Proof.
  induction 1 as [h|r rows h h' z E Z|r rows h h1 h' E F IH]; intros fuel db o C L.
  - destruct fuel; reflexivity.
  - destruct fuel as [|fuel]; [cbn [length] in L; lia|]. cbn [iter_rows code_of]. change (SQLITE_ROW =? SQLITE_DONE) with false. cbn iota. cbn [s_sql s_rows hd_error w_heap w_db].
    rewrite C, E. cbn [bind]. replace (z =? 0) with false by (symmetry; apply Z.eqb_neq; auto). reflexivity.
  - destruct fuel as [|fuel]; [cbn [length] in L; lia|]. cbn [iter_rows code_of]. change (SQLITE_ROW =? SQLITE_DONE) with false. cbn iota. cbn [s_sql s_rows hd_error w_heap w_db w_open].
    rewrite C, E. cbn [bind]. change (negb (0 =? 0)) with false. cbn iota. cbn [length] in L.
    specialize (IH fuel db o C ltac:(lia)). destruct rows as [|r2 rows]; cbn [next_row s_rows s_sql s_vals s_end code_of] in *; exact IH.
Qed.
End Iter.

(** Full statement: for a statement that runs, [f] is called for every row of its
    result in order, until it gives something other than 0 or the rows are over; no
    other value in memory changes, and the statement is closed.  If the statement
    fails, its code is returned.  That is false (below) for statements that fail
    after a row.  Proved: for those that do not fail. *)
Theorem C87_iter_partial :
  forall DB prepare exec columns limit mu mf (w : world DB) info data sql status old,
  limit < 2 ^ 31 -> can_run DB prepare limit info data (w_db DB w) sql -> is_list (w_heap DB w) status old ->
  exists vals, runs_with DB prepare limit info data (w_db DB w) sql vals /\
    forall db' rows, exec (w_db DB w) sql vals = (db', rows, SQLITE_DONE) ->
    exists h1, (forall c, (c < length (w_heap DB w))%nat -> nth_error h1 c = nth_error (w_heap DB w) c) /\
      forall f h' fuel, fed f (columns db' sql) rows h1 h' -> (length rows <= fuel)%nat ->
      select_iter DB prepare exec columns limit mu mf byval_str_mk fuel f w info data sql status = Ok (SQLITE_DONE, World DB db' (w_open DB w) h', status).
Proof.
  intros DB prepare exec columns limit mu mf w info data sql status old Lm Cr Il.
  destruct (run_take DB prepare exec limit mu mf Lm w info data sql Cr) as (vals & Rw & Run). exists vals. split; [exact Rw|]. intros db' rows Ex.
  specialize (Run db' rows SQLITE_DONE Ex). exists (w_heap DB w ++ [NObj map_mk]). split; [intros c L; apply nth_error_app1; auto|]. intros f h' fuel F L.
  unfold select_iter.
  assert (Check : match status with Some (Some a) => bind (array_at (w_heap DB w) (Some a)) (fun _ => Ok tt) | _ => Ok tt end = Ok tt).
  { destruct status as [[a|]|]; auto. destruct Il as (Ho & _). apply holds_arr in Ho as (l & xs & E & _). rewrite (array_at_ok _ a l); auto. }
  rewrite Check. cbn [bind]. rewrite Run. cbn [bind].
  assert (Ec : (negb (code_of rows SQLITE_DONE =? SQLITE_ROW) && negb (code_of rows SQLITE_DONE =? SQLITE_DONE))%bool = false) by (destruct rows; reflexivity).
  rewrite Ec. cbn [of_option bind]. rewrite (rows_fed DB exec columns f (columns db' sql) sql vals rows _ h' F); auto. cbn [bind]. replace (w_open DB w + 1 - 1) with (w_open DB w) by lia. reflexivity.
Qed.

(** What happens in all cases.  [f] gets each row.  At an end that is not SQLITE_DONE it is
    called without a row, and then, if it does not say stop, the statement is run again from the
    start, on what the database is now.  This goes on until [f] says stop or SQLITE_DONE comes. *)
Inductive called {DB} (exec : DB -> text -> list sqlv -> DB * list (list sqlv) * Z) (columns : DB -> text -> list text)
  (f : heap -> list text -> option (list sqlv) -> outcome (heap * Z)) (sql : text) (vals : list sqlv) : DB -> list (list sqlv) -> Z -> heap -> DB -> heap -> Prop :=
| called_done db h : called exec columns f sql vals db [] SQLITE_DONE h db h
| called_stop db r rows fin h h' z : f h (columns db sql) (Some r) = Ok (h', z) -> z <> 0 -> called exec columns f sql vals db (r :: rows) fin h db h'
| called_row db r rows fin h h1 db' h' : f h (columns db sql) (Some r) = Ok (h1, 0) -> called exec columns f sql vals db rows fin h1 db' h' ->
    called exec columns f sql vals db (r :: rows) fin h db' h'
| called_bare_stop db fin h h' z : fin <> SQLITE_DONE -> f h (columns db sql) None = Ok (h', z) -> z <> 0 -> called exec columns f sql vals db [] fin h db h'
| called_again db fin h h1 db1 rows1 fin1 db' h' : fin <> SQLITE_DONE -> f h (columns db sql) None = Ok (h1, 0) -> exec db sql vals = (db1, rows1, fin1) ->
    called exec columns f sql vals db1 rows1 fin1 h1 db' h' -> called exec columns f sql vals db [] fin h db' h'.
Lemma rows_called DB exec columns f sql vals db rows fin h db' h' : @called DB exec columns f sql vals db rows fin h db' h' ->
  exists n, forall fuel o, (n <= fuel)%nat ->
  iter_rows DB exec columns fuel f (World DB db o h) (Stmt sql vals rows fin) (code_of rows fin) = Ok (SQLITE_DONE, World DB db' (o - 1) h').
Proof.
  induction 1 as [db h|db r rows fin h h' z E Z|db r rows fin h h1 db' h' E C IH|db fin h h' z Nd E Z|db fin h h1 db1 rows1 fin1 db' h' Nd E Ex C IH].
  - exists 0%nat. intros fuel o _. destruct fuel; reflexivity.
  - exists 1%nat. intros fuel o L. destruct fuel as [|fuel]; [lia|]. cbn [iter_rows code_of]. change (SQLITE_ROW =? SQLITE_DONE) with false. cbn iota. cbn [s_sql s_rows hd_error w_heap w_db].
    rewrite E. cbn [bind]. apply Z.eqb_neq in Z. rewrite Z. reflexivity.
  - destruct IH as (n & IH). exists (S n). intros fuel o L. destruct fuel as [|fuel]; [lia|]. cbn [iter_rows code_of]. change (SQLITE_ROW =? SQLITE_DONE) with false. cbn iota.
    cbn [s_sql s_rows hd_error w_heap w_db w_open]. rewrite E. cbn [bind]. change (negb (0 =? 0)) with false. cbn iota.
    specialize (IH fuel o ltac:(lia)). destruct rows as [|r2 rows]; cbn [next_row s_rows s_sql s_vals s_end code_of] in *; exact IH.
  - exists 1%nat. intros fuel o L. destruct fuel as [|fuel]; [lia|]. cbn [iter_rows code_of]. apply Z.eqb_neq in Nd. rewrite Nd. cbn [s_sql s_rows hd_error w_heap w_db].
    rewrite E. cbn [bind]. apply Z.eqb_neq in Z. rewrite Z. reflexivity.
  - destruct IH as (n & IH). exists (S n). intros fuel o L. destruct fuel as [|fuel]; [lia|]. cbn [iter_rows code_of]. apply Z.eqb_neq in Nd. rewrite Nd.
    cbn [s_sql s_rows hd_error w_heap w_db w_open]. rewrite E. cbn [bind]. change (negb (0 =? 0)) with false. cbn iota. cbn [next_row s_rows s_sql s_vals s_end]. rewrite Ex.
    exact (IH fuel o ltac:(lia)).
Qed.
Theorem C87_calls :
  forall DB prepare exec columns limit mu mf (w : world DB) info data sql status old,
  limit < 2 ^ 31 -> can_run DB prepare limit info data (w_db DB w) sql -> is_list (w_heap DB w) status old ->
  exists vals, runs_with DB prepare limit info data (w_db DB w) sql vals /\
    forall db' rows fin, exec (w_db DB w) sql vals = (db', rows, fin) -> (rows = [] -> fin = SQLITE_DONE) ->
    exists h1, (forall c, (c < length (w_heap DB w))%nat -> nth_error h1 c = nth_error (w_heap DB w) c) /\
      forall f db2 h2, called exec columns f sql vals db' rows fin h1 db2 h2 -> exists n, forall fuel, (n <= fuel)%nat ->
      select_iter DB prepare exec columns limit mu mf byval_str_mk fuel f w info data sql status = Ok (SQLITE_DONE, World DB db2 (w_open DB w) h2, status).
Proof.
  intros DB prepare exec columns limit mu mf w info data sql status old Lm Cr Il.
  destruct (run_take DB prepare exec limit mu mf Lm w info data sql Cr) as (vals & Rw & Run). exists vals. split; [exact Rw|]. intros db' rows fin Ex Nf.
  specialize (Run db' rows fin Ex). exists (w_heap DB w ++ [NObj map_mk]). split; [intros c L; apply nth_error_app1; auto|]. intros f db2 h2 C.
  destruct (rows_called _ _ _ _ _ _ _ _ _ _ _ _ C) as (n & R). exists n. intros fuel L. unfold select_iter.
  assert (Check : match status with Some (Some a) => bind (array_at (w_heap DB w) (Some a)) (fun _ => Ok tt) | _ => Ok tt end = Ok tt).
  { destruct status as [[a|]|]; auto. destruct Il as (Ho & _). apply holds_arr in Ho as (l & xs & E & _). rewrite (array_at_ok _ a l); auto. }
  rewrite Check. cbn [bind]. rewrite Run. cbn [bind].
  assert (Ec : (negb (code_of rows fin =? SQLITE_ROW) && negb (code_of rows fin =? SQLITE_DONE))%bool = false) by (destruct rows; [rewrite (Nf eq_refl)|]; reflexivity).
  rewrite Ec. cbn [of_option bind]. rewrite R by auto. cbn [bind]. replace (w_open DB w + 1 - 1) with (w_open DB w) by lia. reflexivity.
Qed.

(** For the examples: [f] keeps the first column of each row, and stops at 2. *)
Definition keep_first (h : heap) (names : list text) (row : option (list sqlv)) : outcome (heap * Z) :=
  match row with
  | Some (V_INT z :: _) => Ok (h ++ [NI64 z], if z =? 2 then 1 else 0)
  | Some _ => Ok (h, 0)
  | None => Ok (h ++ [NNull], 1)
  end.
Notation toy_iter := (select_iter toy toy_prepare toy_exec toy_columns 1000 no_msg no_msg2 byval_str_mk).
Definition ints (h : heap) : list json := flat_map (fun n => match n with NI64 z => [JI64 z] | NNull => [JNull] | _ => [] end) h.
Example C87_example :
  match toy_iter 30 keep_first (toy_world [[V_INT 1]; [V_NULL]; [V_INT 2]; [V_INT 3]] 101) None None q_all (Some None),
        toy_iter 30 keep_first (toy_world [[V_INT 1]; [V_INT 3]] 101) None None q_all None with
  | Ok (rc, w, s), Ok (rc', w', s') => (rc, w_open toy w, s, ints (w_heap toy w)) = (101, 0, Some None, [JI64 1; JI64 2]) /\
                                       (rc', w_open toy w', s', ints (w_heap toy w')) = (101, 0, None, [JI64 1; JI64 3])
  | _, _ => False
  end.
Proof. vm_compute. auto. Qed.
(** One row, then the statement is interrupted (code 9): [f] is called once more, when
    there is no row. *)
Theorem C87_fails_later_refuted :
  match toy_iter 30 keep_first (toy_world [[V_INT 1]] 9) None None q_all (Some None) with
  | Ok (rc, w, s) => rc = 101 /\ s = Some None /\ ints (w_heap toy w) = [JI64 1; JNull]
  | Bad _ => False
  end.
Proof. vm_compute. auto. Qed.

(** It is interrupted after one row; [f] does not mind that there is no row; then it runs again, and
    is interrupted again, until [f] has seen enough. *)
Definition keep_four (h : heap) (names : list text) (row : option (list sqlv)) : outcome (heap * Z) :=
  Ok (h ++ [match row with Some (V_INT z :: _) => NI64 z | _ => NNull end], if (length h <? 4)%nat then 0 else 1).
Example C87_calls_example :
  match toy_iter 30 keep_four (toy_world [[V_INT 1]] 9) None None q_all (Some None) with
  | Ok (rc, w, s) => rc = 101 /\ s = Some None /\ ints (w_heap toy w) = [JI64 1; JNull; JI64 1; JNull]
  | Bad _ => False
  end /\
  called toy_exec toy_columns keep_four q_all [] (Toy [] [[V_INT 1]] 9) [[V_INT 1]] 9 [NUndefined] (Toy [] [[V_INT 1]] 9) [NUndefined; NI64 1; NNull; NI64 1; NNull].
Proof.
  split; [vm_compute; auto|]. eapply called_row; [reflexivity|]. eapply called_again; [discriminate|reflexivity|reflexivity|].
  eapply called_row; [reflexivity|]. eapply called_bare_stop; [discriminate|reflexivity|discriminate].
Qed.

Print Assumptions C87_iter_partial.
Print Assumptions C87_calls.
Print Assumptions C87_fails_later_refuted.
