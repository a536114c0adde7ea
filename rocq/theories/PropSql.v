(** Properties C44, C53, C54, C55: binding and running SQL statements. *)
From Coq Require Import String Ascii.
From Coq Require Import ZArith List Bool Lia Arith.
From Verif Require Import Base IntSpec ArrayLemmas TsearchModel MapModel MapProofs Json JsonHeapModel JsonHeapSpec JsonHeapProofs JsonFrame JsonMergeProofs JsonFieldProofs
  JsonSelectModel SqlModel SqlSpec SqlProofs.
Import ListNotations.
Open Scope string_scope.
Open Scope list_scope.
Open Scope Z_scope.

Definition ascii (s : string) : text := map (fun c => Z.of_nat (nat_of_ascii c)) (list_ascii_of_string s).

(** * A small SQLite for the examples *)
(** The database is the list of what was run on it, and the answers to give to
    select statements.  Parameters are an @ and one letter; a statement that begins
    with ! does not compile. *)
Record toy : Type := Toy { log : list (text * list sqlv); found : list (list sqlv); fin : Z }.
Fixpoint toy_params (sql : text) : list (option text) :=
  match sql with
  | 64 :: ((c :: _) as r) => Some [64; c] :: filter (fun p => match p with Some [_; d] => negb (c =? d) | _ => true end) (toy_params r)
  | 63 :: r => None :: toy_params r
  | _ :: r => toy_params r
  | [] => []
  end.
Definition toy_prepare (db : toy) (sql : text) : Z * list (option text) :=
  match sql with 33 :: _ => (1, []) | _ => (0, toy_params sql) end.
Definition toy_exec (db : toy) (sql : text) (vals : list sqlv) : toy * list (list sqlv) * Z :=
  match sql with
  | 115 :: _ => (db, found db, fin db)
  | _ => (Toy (log db ++ [(sql, vals)]) (found db) (fin db), [], 101)
  end.
Definition toy_counts (db : toy) : counts := let n := Z.of_nat (length (log db)) in Counts n (100 + n) (10 + n).
Definition no_msg (sql : text) (i : Z) (name : text) : text := name.
Definition no_msg2 (rc : Z) (sql : text) : text := sql.
Notation toy_run := (bind_run_sql toy toy_prepare toy_exec 1000 no_msg no_msg2).
Definition toy_world (found : list (list sqlv)) (fin : Z) : world toy := World toy (Toy [] found fin) 0 [].

Definition no_data : bind_data := BindData 0 0 None 0 false false.
Definition int_data (z : Z) : bind_data := BindData z 0 None 0 true false.
Definition text_data (t : text) : bind_data := BindData 0 0 (Some (t ++ [0])) 0 true false.
Definition entry (c : Z) (ty : sqltype) (d : bind_data) (not_null : bool) : bind_info := BindInfo [64; c] [c] ty d false not_null false false.
Definition ea := entry 97 T_INT no_data false.
Definition eb := entry 98 T_TEXT (text_data [120; 121]) false.
Definition ec := entry 99 T_TEXT no_data true.
(** insert @a@b@c ; update @a@b ; select @a ; select @a@z *)
Definition q_insert : text := [105; 110; 115; 101; 114; 116; 32; 64; 97; 64; 98; 64; 99].
Definition q_update : text := [117; 112; 100; 97; 116; 101; 32; 64; 98; 64; 97].
Definition q_select : text := [115; 101; 108; 101; 99; 116; 32; 64; 97].
Definition q_other : text := [115; 101; 108; 101; 99; 116; 32; 64; 97; 64; 122].

(** * C44: parameters *)

(** The full property.  The entries have distinct names; the data that is there is
    valid.  The statement runs if and only if all its parameters have a value, which
    they are bound to; otherwise an error is reported and nothing runs. *)
Definition C44_statement : Prop :=
  forall DB prepare exec limit msg_unbound msg_failed (w : world DB) infos data sql take ret rc0 params,
  limit < 2 ^ 31 -> is_status (w_heap DB w) ret ->
  prepare (w_db DB w) sql = (rc0, params) -> (forall p, In p params -> p <> None) -> NoDup params ->
  NoDup (map i_var infos) -> covers data (length infos) ->
  (forall j info, nth_error infos j = Some info -> In (Some (i_var info)) params ->
     (exists v, supplied limit (is_insert sql) info (given data j) v) \/ source info (given data j) = None) ->
  exists rc w' ret' stm, bind_run_sql DB prepare exec limit msg_unbound msg_failed byval_str_mk w (Some infos) data sql take ret = Ok (rc, w', ret', stm) /\
    after DB w ret w' ret' /\
    ((rc0 = SQLITE_OK /\ exists vals, all_right limit infos data sql params vals /\ ran DB exec (w_db DB w) sql vals rc (w_db DB w')) \/
     ((rc0 <> SQLITE_OK \/ ~ exists vals, all_right limit infos data sql params vals) /\
      rc = (if rc0 =? SQLITE_OK then SQLITE_ERROR else rc0) /\ w_db DB w' = w_db DB w /\ has_error (w_heap DB w') ret')).

(** It holds if every parameter that has an entry has a value; parameters without
    an entry are found.  What is missing: entries without a value
    (C44_no_value_refuted).  Also, the messages and the keys of the status are made by
    cee_str_mk (C12, C44_message_refuted). *)
Theorem C44_bound_partial : forall DB prepare exec limit msg_unbound msg_failed (w : world DB) infos data sql take ret rc0 params,
  limit < 2 ^ 31 -> is_status (w_heap DB w) ret ->
  prepare (w_db DB w) sql = (rc0, params) -> (forall p, In p params -> p <> None) -> NoDup params ->
  NoDup (map i_var infos) -> covers data (length infos) ->
  (forall j info, nth_error infos j = Some info -> In (Some (i_var info)) params ->
     exists v, supplied limit (is_insert sql) info (given data j) v) ->
  exists rc w' ret' stm, bind_run_sql DB prepare exec limit msg_unbound msg_failed byval_str_mk w (Some infos) data sql take ret = Ok (rc, w', ret', stm) /\
    after DB w ret w' ret' /\
    ((rc0 = SQLITE_OK /\ Forall (named infos) params /\ exists vals, all_right limit infos data sql params vals /\ ran DB exec (w_db DB w) sql vals rc (w_db DB w')) \/
     ((rc0 <> SQLITE_OK \/ ~ Forall (named infos) params) /\
      rc = (if rc0 =? SQLITE_OK then SQLITE_ERROR else rc0) /\ w_db DB w' = w_db DB w /\ has_error (w_heap DB w') ret')).
Proof.
  intros DB prepare exec limit mu mf w infos data sql take ret rc0 params Lm St P NN Np N C Sp.
  assert (St' : exists n, st (w_heap DB w) ret n /\ Z.of_nat n <= 2 ^ 64).
  { destruct ret as [[a|]|]; cbn [is_status] in St; try (exists 0%nat; split; [exact I|lia]). destruct St as (kas & F & L). exists (length kas). split; [exists kas; auto|lia]. }
  destruct St' as (n & St' & B).
  destruct (run_ok DB prepare exec limit mu mf Lm w infos data sql take ret rc0 params n St' B P NN Np N C Sp) as (rc & w' & ret' & stm & E & Ss & _ & Os & D).
  exists rc, w', ret', stm. split; [exact E|]. split; [split; auto|].
  destruct D as [(H & F & vals & A & R & _)|(X & Ed & Er & He & _)]; [left; split; [auto|]; split; [auto|]; exists vals; auto|right; auto].
Qed.
(** @a is given, @b has a default, @c is not null *)
Example C44_bound_example :
  toy_run byval_str_mk (toy_world [] 101) (Some [ea; eb; ec]) (Some [int_data 7; no_data; no_data]) q_insert false None =
    Ok (101, World toy (Toy [(q_insert, [V_INT 7; V_TEXT [120; 121]; V_TEXT []])] [] 101) 0 [], None, None) /\
  toy_run byval_str_mk (toy_world [] 101) (Some [ea; eb; ec]) (Some [int_data 7; text_data [122]; no_data]) q_update false None =
    Ok (101, World toy (Toy [(q_update, [V_TEXT [122]; V_INT 7])] [] 101) 0 [], None, None) /\
  match toy_run byval_str_mk (toy_world [] 101) (Some [ea; eb; ec]) (Some [int_data 7; no_data; no_data]) q_other false (Some None) with
  | Ok (rc, w, Some (Some s), _) => rc = 1 /\ log (w_db toy w) = [] /\ s = 0%nat /\ nth_error (w_heap toy w) 1 = Some (NStr [64; 122])
  | _ => False
  end.
Proof. vm_compute. auto 8. Qed.

(** An entry that has no value: the statement runs with NULL for it. *)
Theorem C44_no_value_refuted :
  (exists rc db', toy_run byval_str_mk (toy_world [] 101) (Some [ea; eb]) None q_update false (Some None) = Ok (rc, World toy db' 0 [NObj map_mk], Some (Some 0%nat), None) /\
    rc = SQLITE_DONE /\ log db' = [(q_update, [V_TEXT [120; 121]; V_NULL])]) /\
  ~ C44_statement.
Proof.
  split; [do 2 eexists; split; [vm_compute; reflexivity|vm_compute; auto]|].
  intros S.
  destruct (S toy toy_prepare toy_exec 1000 no_msg no_msg2 (toy_world [] 101) [ea; eb] None q_update false None 0 [Some [64; 98]; Some [64; 97]]) as (rc & w' & ret' & stm & E & _ & D).
  - reflexivity.
  - exact I.
  - reflexivity.
  - intros p [<-|[<-|[]]]; discriminate.
  - constructor; [intros [H|[]]; discriminate|constructor; [intros []|constructor]].
  - constructor; [intros [H|[]]; discriminate|constructor; [intros []|constructor]].
  - exact I.
  - intros [|[|j]] info Ej _.
    + injection Ej as <-. right. reflexivity.
    + injection Ej as <-. left. exists (V_TEXT [120; 121]). eapply supplied_data; [reflexivity|auto|].
      apply (den_string 1000 (text_data [120; 121]) [120; 121] []); [reflexivity|intros [H|[H|[]]]; discriminate|reflexivity|vm_compute; discriminate].
    + destruct j; discriminate.
  - vm_compute in E. injection E as <- <- _ _. destruct D as [(_ & vals & (_ & A) & _)|(_ & X & _)].
    + destruct (A 1%nat (Some [64; 97]) eq_refl) as (j & info & v & Ej & Ei & _ & Sv). destruct j as [|[|j]]; [injection Ej as <-|injection Ej as <-; discriminate|destruct j; discriminate].
      inversion Sv as [d Es|d v' Es|v' Es Is]; subst; try discriminate Es. apply insert_iff in Is. discriminate.
    + discriminate.
Qed.
(** Without a binding description nothing is checked: all parameters are NULL. *)
Theorem C44_no_info_refuted : forall DB prepare exec limit mu mf (w : world DB) data sql params,
  prepare (w_db DB w) sql = (SQLITE_OK, params) ->
  exists rc w', bind_run_sql DB prepare exec limit mu mf byval_str_mk w None data sql false None = Ok (rc, w', None, None) /\
    ran DB exec (w_db DB w) sql (repeat V_NULL (length params)) rc (w_db DB w').
Proof.
  intros DB prepare exec limit mu mf w data sql params P. unfold bind_run_sql. rewrite P. cbn [accept_result]. change (SQLITE_OK =? SQLITE_OK) with true. cbn iota.
  unfold step_once. cbn [w_db w_open w_heap].
  replace (map (fun _ => V_NULL) params) with (repeat V_NULL (length params)) by (clear; induction params; cbn; congruence).
  destruct (exec (w_db DB w) sql (repeat V_NULL (length params))) as ((db', rows), f) eqn:E. do 2 eexists. split; [reflexivity|]. exists rows, f. auto.
Qed.
(** With cee_str_mk as it is, an error that is to be reported is undefined behaviour. *)
Theorem C44_message_refuted :
  toy_run c_str_mk (toy_world [] 101) (Some [ea; eb]) None q_other false (Some None) = Bad BadVaList /\
  toy_run c_str_mk (toy_world [] 101) (Some [ea; eb]) None [33] false (Some None) = Bad BadVaList.
Proof. vm_compute. auto. Qed.
(** A parameter without a name cannot be reported: %s is given NULL. *)
Theorem C44_unnamed_refuted : toy_run byval_str_mk (toy_world [] 101) (Some [ea; eb]) None [63] false (Some None) = Bad NullDeref.
Proof. vm_compute. auto. Qed.
(** A text that is too long for SQLite is bound as NULL. *)
Theorem C44_long_refuted : forall s, 1000 < Z.of_nat (length s) -> ~ In 0 s -> 
  exists rc w', toy_run byval_str_mk (toy_world [] 101) (Some [entry 97 T_TEXT (text_data s) false]) None [105; 64; 97] false None = Ok (rc, w', None, None) /\
    rc = SQLITE_DONE /\ log (w_db toy w') = [([105; 64; 97], [V_NULL])].
Proof.
  intros s L N. unfold bind_run_sql. cbn [toy_world w_db w_open w_heap toy_prepare toy_params accept_result]. change (0 =? SQLITE_OK) with true. cbn iota.
  cbn - [c_string within_limit]. rewrite c_string_ok by auto. cbn [bind]. unfold within_limit. destruct (Z.leb_spec (Z.of_nat (length s)) 1000); [lia|].
  cbn. do 2 eexists. split; [reflexivity|]. auto.
Qed.

(** * C53: update or insert *)
Lemma status_st h s : is_status h s -> exists n, st h s n /\ Z.of_nat n < 2 ^ 32.
Proof.
  destruct s as [[a|]|]; cbn [is_status]; try (intros; exists 0%nat; split; [exact I|lia]). intros (kas & F & L). exists (length kas). split; [exists kas; auto|lia].
Qed.

(** The full property: the select decides; if it fails nothing else is done. *)
Definition C53_statement : Prop :=
  forall DB prepare exec limit counters msg_unbound msg_failed (w : world DB) infos data t s,
  limit < 2 ^ 31 -> is_status (w_heap DB w) s -> NoDup (map i_var infos) -> covers data (length infos) ->
  good_sql DB prepare limit infos data (t_select t) -> good_sql DB prepare limit infos data (insert_of t) ->
  (match update_of t with Some u => good_sql DB prepare limit infos data u | None => s <> None end) ->
  exists rc w' s' rc1 db1,
    update_or_insert DB prepare exec limit counters msg_unbound msg_failed byval_str_mk w (Some infos) data t s = Ok (rc, w', s') /\
    after DB w s w' s' /\ performs DB prepare exec limit infos data (w_db DB w) (t_select t) rc1 db1 /\
    (rc1 = SQLITE_ROW -> updates DB prepare exec limit infos data db1 t rc (w_db DB w')) /\
    (rc1 = SQLITE_DONE -> performs DB prepare exec limit infos data db1 (insert_of t) rc (w_db DB w')) /\
    (rc1 <> SQLITE_ROW -> rc1 <> SQLITE_DONE -> w_db DB w' = db1 /\ rc <> SQLITE_DONE) /\
    (rc <> SQLITE_DONE -> has_error (w_heap DB w') s').
(** What it does: it inserts whenever the select gives no row, and reports the id of
    the new row.  What is missing: a select that fails (C53_select_error_refuted). *)
Theorem C53_update_or_insert_partial :
  forall DB prepare exec limit counters msg_unbound msg_failed (w : world DB) infos data t s,
  limit < 2 ^ 31 -> is_status (w_heap DB w) s -> NoDup (map i_var infos) -> covers data (length infos) ->
  good_sql DB prepare limit infos data (t_select t) -> good_sql DB prepare limit infos data (insert_of t) ->
  (match update_of t with Some u => good_sql DB prepare limit infos data u | None => s <> None end) ->
  exists rc w' s' rc1 db1,
    update_or_insert DB prepare exec limit counters msg_unbound msg_failed byval_str_mk w (Some infos) data t s = Ok (rc, w', s') /\
    after DB w s w' s' /\ performs DB prepare exec limit infos data (w_db DB w) (t_select t) rc1 db1 /\
    (rc1 = SQLITE_ROW -> updates DB prepare exec limit infos data db1 t rc (w_db DB w')) /\
    (rc1 <> SQLITE_ROW -> performs DB prepare exec limit infos data db1 (insert_of t) rc (w_db DB w') /\
       (rc = SQLITE_DONE -> exists i, low_int (last_insert_rowid (counters (w_db DB w'))) i /\ reports (w_heap DB w') s' (ascii "last_insert_rowid") (NI64 i))) /\
    (rc <> SQLITE_DONE -> has_error (w_heap DB w') s').
Proof.
  intros DB prepare exec limit counters mu mf w infos data t s Lm St N C Gs Gi Gu. apply status_st in St as (n & St & B).
  destruct (update_or_insert_ok DB prepare exec limit counters mu mf Lm w infos data t s n St B N C Gs Gi Gu) as (rc & w' & s' & rc1 & db1 & E & (A & _) & P & U & I & He).
  exists rc, w', s', rc1, db1. split; [exact E|]. split; [auto|]. split; [auto|]. split; [auto|]. split; [|auto].
  intros Ne. destruct (I Ne) as (Pi & R). split; [auto|]. intros Ed. eexists. split; [apply low_int_ok|auto].
Qed.
Definition the_stmts : stmts := Stmts [116] q_select q_insert false [] [] (Some q_update) None None.
Notation toy_uoi := (update_or_insert toy toy_prepare toy_exec 1000 toy_counts no_msg no_msg2 byval_str_mk).
Example C53_example :
  let d := Some [int_data 7; no_data; no_data] in
  match toy_uoi (toy_world [[V_INT 1]] 101) (Some [ea; eb; ec]) d the_stmts (Some None), toy_uoi (toy_world [] 101) (Some [ea; eb; ec]) d the_stmts (Some None) with
  | Ok (rc, w, _), Ok (rc', w', _) =>
    rc = 101 /\ log (w_db toy w) = [(q_update, [V_TEXT [120; 121]; V_INT 7])] /\ rc' = 101 /\ log (w_db toy w') = [(q_insert, [V_INT 7; V_TEXT [120; 121]; V_TEXT []])] /\
    nth_error (w_heap toy w') 1 = Some (NI64 1)
  | _, _ => False
  end.
Proof. vm_compute. auto 8. Qed.

(** The select fails (SQLITE_BUSY), and a row is inserted; nothing is reported. *)
Lemma good_toy n infos data sql : (forall db, toy_prepare db sql = (0, n)) -> (forall p, In p n -> p <> None) -> NoDup n ->
  (forall j info, nth_error infos j = Some info -> In (Some (i_var info)) n -> exists v, supplied 1000 (is_insert sql) info (given data j) v) ->
  good_sql toy toy_prepare 1000 infos data sql.
Proof. intros E A B D db. rewrite E. cbn [snd]. auto. Qed.
Theorem C53_select_error_refuted :
  (match toy_uoi (toy_world [] 5) (Some [ea; eb; ec]) (Some [int_data 7; no_data; no_data]) the_stmts (Some None) with
   | Ok (rc, w, Some (Some s)) => rc = SQLITE_DONE /\ log (w_db toy w) = [(q_insert, [V_INT 7; V_TEXT [120; 121]; V_TEXT []])] /\
       object_get (w_heap toy w) (Some s) (Some error_key) = Ok None
   | _ => False
   end) /\ ~ C53_statement.
Proof.
  split; [vm_compute; auto|]. intros S. set (i1 := entry 97 T_INT (int_data 7) false).
  set (t := Stmts [116] [115; 64; 97] [105; 64; 97] false [] [] (Some [117; 64; 97]) None None).
  assert (G : forall sql, (forall db, toy_prepare db sql = (0, [Some [64; 97]])) -> good_sql toy toy_prepare 1000 [i1] None sql).
  { intros sql E. apply (good_toy _ _ _ _ E).
    - intros p [<-|[]]; discriminate.
    - constructor; [intros []|constructor].
    - intros [|[|j]] info Ej _; try discriminate. injection Ej as <-. exists (V_INT 7). eapply supplied_data; [reflexivity|auto|]. apply (den_int 1000 (int_data 7)). }
  destruct (S toy toy_prepare toy_exec 1000 toy_counts no_msg no_msg2 (toy_world [] 5) [i1] None t None) as (rc & w' & s' & rc1 & db1 & E & _ & P & U & I & F & _).
  - reflexivity.
  - exact Logic.I.
  - constructor; [intros []|constructor].
  - exact Logic.I.
  - apply G. reflexivity.
  - apply G. reflexivity.
  - apply G. reflexivity.
  - assert (rc1 = 5).
    { destruct P as [params vals rcx dbx Ep _ _ R|rc0 params rcx Ep X _].
      - destruct R as (rows & f & Ex & ->). cbn in Ex. injection Ex as <- <- <-. reflexivity.
      - exfalso. cbn in Ep. injection Ep as <- <-. destruct X as [X|X]; [auto|]. apply X. constructor; [|constructor]. exists i1. split; [left; auto|reflexivity]. }
    subst rc1. destruct F as (_ & F); [discriminate|discriminate|]. apply F. vm_compute in E. injection E as <- _ _. reflexivity.
Qed.

(** * C54: what the operations report *)

(** Inserting: the id of the row, or an error.  The full statement has the id
    itself, and gives it also without a status.  What is missing: it is stored in
    an int, so only its low 32 bits are left (C54_rowid_refuted), and only with a status (C54_id_refuted). *)
Theorem C54_insert_partial : forall DB prepare exec limit counters mu mf (w : world DB) infos data sql s key,
  limit < 2 ^ 31 -> is_status (w_heap DB w) s -> NoDup (map i_var infos) -> covers data (length infos) -> good_sql DB prepare limit infos data sql ->
  exists rc w' s' id, sql_insert DB prepare exec limit counters mu mf byval_str_mk w (Some infos) data sql s key = Ok (rc, w', s', id) /\
    after DB w s w' s' /\ performs DB prepare exec limit infos data (w_db DB w) sql rc (w_db DB w') /\
    (rc <> SQLITE_DONE -> has_error (w_heap DB w') s') /\
    (rc = SQLITE_DONE -> exists i, low_int (last_insert_rowid (counters (w_db DB w'))) i /\
       reports (w_heap DB w') s' (match key with Some k => k | None => [108; 97; 115; 116; 95; 105; 110; 115; 101; 114; 116; 95; 114; 111; 119; 105; 100] end) (NI64 i) /\
       (s <> None -> id = Some i)).
Proof.
  intros DB prepare exec limit counters mu mf w infos data sql s key Lm St N C G. apply status_st in St as (n & St & B).
  destruct (insert_ok DB prepare exec limit counters mu mf Lm w infos data sql s key n St B N C G) as (rc & w' & s' & id & E & (A & _) & P & He & R).
  exists rc, w', s', id. split; [exact E|]. split; [auto|]. split; [auto|]. split; [intros X; apply He; auto|]. intros Ed. destruct (R Ed) as (R1 & R2).
  eexists. split; [apply low_int_ok|auto].
Qed.
Example C54_insert_example :
  match sql_insert toy toy_prepare toy_exec 1000 toy_counts no_msg no_msg2 byval_str_mk (toy_world [] 101) (Some [ea; eb; ec]) (Some [int_data 7; no_data; no_data]) q_insert (Some None) None with
  | Ok (rc, w, Some (Some s), id) => rc = SQLITE_DONE /\ id = Some 1 /\ object_get (w_heap toy w) (Some s) (Some (ascii "last_insert_rowid")) = Ok (Some 1%nat) /\ nth_error (w_heap toy w) 1 = Some (NI64 1)
  | _ => False
  end.
Proof. vm_compute. auto. Qed.
(** The 2^32-th row has id 0. *)
Theorem C54_rowid_refuted :
  match sql_insert toy toy_prepare toy_exec 1000 (fun _ => Counts (2 ^ 32) 1 1) no_msg no_msg2 byval_str_mk (toy_world [] 101) (Some [ea; eb; ec]) (Some [int_data 7; no_data; no_data]) q_insert (Some None) None with
  | Ok (rc, w, Some (Some s), id) => rc = SQLITE_DONE /\ id = Some 0 /\ nth_error (w_heap toy w) 1 = Some (NI64 0)
  | _ => False
  end.
Proof. vm_compute. auto. Qed.
(** Without a status the id is not given, even if it is asked for. *)
Theorem C54_id_refuted :
  match sql_insert toy toy_prepare toy_exec 1000 toy_counts no_msg no_msg2 byval_str_mk (toy_world [] 101) (Some [ea; eb; ec]) (Some [int_data 7; no_data; no_data]) q_insert None None with
  | Ok (rc, w, s, id) => rc = SQLITE_DONE /\ length (log (w_db toy w)) = 1%nat /\ id = None
  | _ => False
  end.
Proof. vm_compute. auto. Qed.

(** Deleting: the number of rows that SQLite says were changed, and an error if it
    failed. *)
Theorem C54_delete : forall DB prepare exec limit counters mu mf (w : world DB) infos data sql s key,
  limit < 2 ^ 31 -> is_status (w_heap DB w) s -> NoDup (map i_var infos) -> covers data (length infos) -> good_sql DB prepare limit infos data sql ->
  exists rc w' s', sql_delete DB prepare exec limit counters mu mf byval_str_mk w (Some infos) data sql s key = Ok (rc, w', s') /\
    after DB w s w' s' /\ performs DB prepare exec limit infos data (w_db DB w) sql rc (w_db DB w') /\
    (rc <> SQLITE_DONE -> has_error (w_heap DB w') s') /\
    reports (w_heap DB w') s' (match key with Some k => k | None => [100; 101; 108; 101; 116; 101; 100] end) (NI64 (changes (counters (w_db DB w')))).
Proof.
  intros DB prepare exec limit counters mu mf w infos data sql s key Lm St N C G. apply status_st in St as (n & St & B).
  exact (delete_ok DB prepare exec limit counters mu mf Lm w infos data sql s key n St B N C G).
Qed.
Example C54_delete_example :
  match sql_delete toy toy_prepare toy_exec 1000 (fun _ => Counts 1 3 9) no_msg no_msg2 byval_str_mk (toy_world [] 101) (Some [ea]) (Some [int_data 7]) [100; 64; 97] (Some None) None with
  | Ok (rc, w, Some (Some s)) => rc = SQLITE_DONE /\ log (w_db toy w) = [([100; 64; 97], [V_INT 7])] /\
      object_get (w_heap toy w) (Some s) (Some (ascii "deleted")) = Ok (Some 1%nat) /\ nth_error (w_heap toy w) 1 = Some (NI64 3)
  | _ => False
  end.
Proof. vm_compute. auto. Qed.

(** Updating what exists; what is reported is the number of all changes so far
    (C54_update_refuted). *)
Theorem C54_update_if_exists : forall DB prepare exec limit counters mu mf (w : world DB) infos data t s,
  limit < 2 ^ 31 -> is_status (w_heap DB w) s -> NoDup (map i_var infos) -> covers data (length infos) ->
  good_sql DB prepare limit infos data (t_select t) ->
  (match update_of t with Some u => good_sql DB prepare limit infos data u | None => s <> None end) ->
  exists rc w' s' rc1 db1,
    update_if_exists DB prepare exec limit counters mu mf byval_str_mk w (Some infos) data t s = Ok (rc, w', s') /\
    after DB w s w' s' /\ performs DB prepare exec limit infos data (w_db DB w) (t_select t) rc1 db1 /\
    (rc1 = SQLITE_ROW -> updates DB prepare exec limit infos data db1 t rc (w_db DB w') /\ (rc <> SQLITE_DONE -> has_error (w_heap DB w') s') /\
       (update_of t <> None -> rc = SQLITE_DONE ->
          reports (w_heap DB w') s' [117; 112; 100; 97; 116; 101; 100; 95; 114; 111; 119; 115] (NI64 (total_changes (counters (w_db DB w')))))) /\
    (rc1 <> SQLITE_ROW -> rc = rc1 /\ w_db DB w' = db1).
Proof.
  intros DB prepare exec limit counters mu mf w infos data t s Lm St N C Gs Gu. apply status_st in St as (n & St & B).
  destruct (update_if_ok DB prepare exec limit counters mu mf Lm w infos data t s n St B N C Gs Gu) as (rc & w' & s' & rc1 & db1 & E & (A & _) & P & U & I).
  exists rc, w', s', rc1, db1. split; [exact E|]. split; [auto|]. split; [auto|]. split; [|auto]. intros R. destruct (U R) as (U1 & U2 & U3). split; [auto|]. split; auto.
Qed.
(** Without a statement to update with, that is said. *)
Theorem C54_nothing_to_update : forall DB prepare exec limit counters mu mf (w : world DB) infos data t s,
  limit < 2 ^ 31 -> is_status (w_heap DB w) s -> s <> None -> NoDup (map i_var infos) -> covers data (length infos) ->
  good_sql DB prepare limit infos data (t_select t) -> t_update t = None -> t_update_x t = None ->
  exists rc1 db1, performs DB prepare exec limit infos data (w_db DB w) (t_select t) rc1 db1 /\
    (rc1 = SQLITE_ROW -> exists w' a,
       update_or_insert DB prepare exec limit counters mu mf byval_str_mk w (Some infos) data t s = Ok (SQLITE_DONE, w', Some (Some a)) /\
       update_if_exists DB prepare exec limit counters mu mf byval_str_mk w (Some infos) data t s = Ok (SQLITE_DONE, w', Some (Some a)) /\
       w_db DB w' = db1 /\ after DB w s w' (Some (Some a)) /\
       reports (w_heap DB w') (Some (Some a)) (ascii "warning") (NStr (ascii "nothing to update " ++ t_table t))).
Proof.
  intros DB prepare exec limit counters mu mf w infos data t s Lm St Ns N C Gs U1 U2. apply status_st in St as (n & St & B).
  assert (U : update_of t = None) by (unfold update_of; rewrite U1, U2; auto).
  destruct (nothing_ok DB prepare exec limit counters mu mf Lm w infos data t s n St B N C Gs U Ns) as (rc1 & db1 & P & R).
  exists rc1, db1. split; [exact P|]. intros Er. destruct (R Er) as (w' & s' & E1 & E2 & D & A & Re & a & ->). exists w', a. auto 8.
Qed.
Example C54_nothing_example :
  match update_if_exists toy toy_prepare toy_exec 1000 toy_counts no_msg no_msg2 byval_str_mk (toy_world [[V_INT 1]] 101) (Some [ea; eb; ec]) (Some [int_data 7; no_data; no_data]) (Stmts [116] q_select q_insert false [] [] None None None) (Some None) with
  | Ok (rc, w, Some (Some s)) => rc = 101 /\ log (w_db toy w) = [] /\
      object_get (w_heap toy w) (Some s) (Some (ascii "warning")) = Ok (Some 1%nat) /\ nth_error (w_heap toy w) 1 = Some (NStr (ascii "nothing to update t"))
  | _ => False
  end.
Proof. vm_compute. auto. Qed.
Notation toy_update := (sql_update toy toy_prepare toy_exec 1000 toy_counts no_msg no_msg2 byval_str_mk).
Example C54_update_example :
  let d := Some [int_data 7; no_data; no_data] in
  match toy_update (toy_world [[V_INT 1]] 101) (Some [ea; eb; ec]) d the_stmts (Some None) with
  | Ok (rc, w, _) => rc = SQLITE_DONE /\ log (w_db toy w) = [(q_update, [V_TEXT [120; 121]; V_INT 7])]
  | _ => False
  end.
Proof. vm_compute. auto. Qed.
(** cee_sqlite3_update is meant to report that there is no row: it does not, the code
    is that of success and there is no error.  What it reports as updated rows is the
    number of all changes since the database was opened: here 10 more. *)
Theorem C54_update_refuted :
  let d := Some [int_data 7; no_data; no_data] in
  match toy_update (toy_world [] 101) (Some [ea; eb; ec]) d the_stmts (Some None) with
  | Ok (rc, w, Some (Some s)) => rc = SQLITE_DONE /\ log (w_db toy w) = [] /\ object_get (w_heap toy w) (Some s) (Some error_key) = Ok None
  | _ => False
  end /\
  match toy_update (toy_world [[V_INT 1]] 101) (Some [ea; eb; ec]) d the_stmts (Some None) with
  | Ok (rc, w, Some (Some s)) => length (log (w_db toy w)) = 1%nat /\
      object_get (w_heap toy w) (Some s) (Some (ascii "updated_rows")) = Ok (Some 1%nat) /\ nth_error (w_heap toy w) 1 = Some (NI64 11)
  | _ => False
  end.
Proof. vm_compute. auto 8. Qed.

(** * C55: statements are finalized *)
(** The full property: a statement that is not handed to the caller is finalized. *)
Definition C55_statement : Prop :=
  forall DB prepare exec limit mu mf (w : world DB) info data sql ret rc w' ret' stm,
  bind_run_sql DB prepare exec limit mu mf byval_str_mk w info data sql false ret = Ok (rc, w', ret', stm) -> w_open DB w' = w_open DB w.
(** It holds if all parameters have entries.  What is missing: the unbound parameter
    (C55_leak_refuted). *)
Theorem C55_finalized_partial :
  forall DB prepare exec limit mu mf mk_str (w : world DB) info data sql ret rc w' ret' stm, all_named DB prepare info sql ->
  bind_run_sql DB prepare exec limit mu mf mk_str w info data sql false ret = Ok (rc, w', ret', stm) -> w_open DB w' = w_open DB w.
Proof. intros. eapply run_open; eauto. Qed.
(** The same for the operations *)
Theorem C55_operations_partial :
  forall DB prepare exec limit counters mu mf mk_str (w : world DB) info data t s key rc w' s', all_named DB prepare info (t_select t) ->
  all_named DB prepare info (insert_of t) -> all_named DB prepare info (t_delete t) -> (forall u, update_of t = Some u -> all_named DB prepare info u) ->
  (exists id, sql_insert DB prepare exec limit counters mu mf mk_str w info data (insert_of t) s key = Ok (rc, w', s', id)) \/
  sql_delete DB prepare exec limit counters mu mf mk_str w info data (t_delete t) s key = Ok (rc, w', s') \/
  update_if_exists DB prepare exec limit counters mu mf mk_str w info data t s = Ok (rc, w', s') \/
  update_or_insert DB prepare exec limit counters mu mf mk_str w info data t s = Ok (rc, w', s') ->
  w_open DB w' = w_open DB w.
Proof.
  intros DB prepare exec limit counters mu mf mk_str w info data t s key rc w' s' A1 A2 A3 A4 [(id & E)|[E|[E|E]]].
  - eapply insert_open; [|exact E]; auto.
  - eapply delete_open; [|exact E]; auto.
  - eapply update_if_open; [| |exact E]; auto.
  - eapply update_or_insert_open; [| | |exact E]; auto.
Qed.
Example C55_example :
  match toy_uoi (World toy (Toy [] [] 101) 3 []) (Some [ea; eb; ec]) (Some [int_data 7; no_data; no_data]) the_stmts (Some None) with
  | Ok (rc, w, _) => rc = 101 /\ length (log (w_db toy w)) = 1%nat /\ w_open toy w = 3
  | _ => False
  end.
Proof. vm_compute. auto. Qed.
(** No entry for @c: an error, and the statement stays open. *)
Theorem C55_leak_refuted :
  match bind_run_sql toy toy_prepare toy_exec 1000 no_msg no_msg2 byval_str_mk (World toy (Toy [] [] 101) 0 []) (Some [ea; eb]) (Some [int_data 7; no_data]) q_insert false (Some None) with
  | Ok (rc, w, _, stm) => rc = SQLITE_ERROR /\ stm = None /\ w_open toy w = 1
  | _ => False
  end /\ ~ C55_statement.
Proof.
  split; [vm_compute; auto|]. intros S.
  specialize (S toy toy_prepare toy_exec 1000 no_msg no_msg2 (World toy (Toy [] [] 101) 0 []) (Some [ea; eb]) (Some [int_data 7; no_data]) q_insert (Some None)).
  destruct (bind_run_sql toy toy_prepare toy_exec 1000 no_msg no_msg2 byval_str_mk (World toy (Toy [] [] 101) 0 []) (Some [ea; eb]) (Some [int_data 7; no_data]) q_insert false (Some None)) as [(((rc, w), r), stm)|] eqn:E;
    vm_compute in E; [|discriminate].
  specialize (S rc w r stm eq_refl). injection E as _ <- _ _. vm_compute in S. discriminate.
Qed.

(** In every case.  Counting the statements that are open: one more if the statement compiles and a
    parameter has no entry (nothing is run then), and otherwise as many as before. *)
Lemma bound_named limit ty params infos data k : forall i vals bound vals' bound',
  bind_loop limit ty params infos data i vals bound = Ok (vals', bound') -> length bound = length params -> nth_error bound' k = Some true ->
  nth_error bound k = Some true \/ exists p, nth_error params k = Some p /\ named infos p.
Proof.
  induction infos as [|info infos IH]; intros i vals bound vals' bound' E L T; cbn [bind_loop] in E.
  - injection E as <- <-. auto.
  - assert (Ps : position params (i_var info) = if parameter_index params (i_var info) <=? 0 then None else Some (Z.to_nat (parameter_index params (i_var info) - 1))) by reflexivity.
    assert (Up : forall p, named infos p -> named (info :: infos) p) by (intros p (x & I & ->); exists x; split; [right; exact I|reflexivity]).
    destruct (parameter_index params (i_var info) <=? 0).
    + destruct (IH _ _ _ _ _ E L T) as [Q|(p & Ep & Q)]; eauto.
    + apply bind_ok in E as (v & _ & E). destruct (IH _ _ _ _ _ E ltac:(rewrite update_length; exact L) T) as [Q|(p & Ep & Q)]; [|eauto].
      destruct (Nat.eq_dec k (Z.to_nat (parameter_index params (i_var info) - 1))) as [->|Ne].
      * right. exists (Some (i_var info)). split; [exact (position_some _ _ _ Ps)|]. exists info. split; [left; reflexivity|reflexivity].
      * rewrite nth_error_update_neq in Q by auto. auto.
Qed.
Definition lacks_entry DB (prepare : DB -> text -> Z * list (option text)) (db : DB) (info : option (list bind_info)) (sql : text) : Prop :=
  fst (prepare db sql) = SQLITE_OK /\ exists infos p, info = Some infos /\ In p (snd (prepare db sql)) /\ ~ named infos p.
Theorem C55_exact :
  forall DB prepare exec limit mu mf mk_str (w : world DB) info data sql ret rc w' ret' stm, NoDup (snd (prepare (w_db DB w) sql)) ->
  bind_run_sql DB prepare exec limit mu mf mk_str w info data sql false ret = Ok (rc, w', ret', stm) ->
  (lacks_entry DB prepare (w_db DB w) info sql -> rc = SQLITE_ERROR /\ w_open DB w' = w_open DB w + 1 /\ w_db DB w' = w_db DB w) /\
  (~ lacks_entry DB prepare (w_db DB w) info sql -> w_open DB w' = w_open DB w).
Proof.
  intros DB prepare exec limit mu mf mk_str w info data sql ret rc w' ret' stm Nd. unfold lacks_entry, bind_run_sql.
  destruct (prepare (w_db DB w) sql) as (rc0, params) eqn:P. cbn [fst snd] in *. destruct (accept_result (w_heap DB w) ret) as (h, r).
  destruct (rc0 =? SQLITE_OK) eqn:R.
  - apply Z.eqb_eq in R. destruct info as [infos|].
    + destruct (bind_loop _ _ _ _ _ _ _ _) as [(vals, bound)|] eqn:L; cbn [bind]; [|discriminate].
      assert (Lm : length (map (fun _ : option text => false) params) = length params) by apply map_length.
      pose proof (loop_bound _ _ _ _ _ _ _ _ _ _ L Lm) as (Lb & _ & Al).
      destruct (first_unbound 0 bound) as [k|] eqn:U.
      * intros E. apply bind_ok in E as (h2 & _ & E). injection E as <- <- _ _. cbn [w_open w_db]. split; [auto|]. intros N. exfalso. apply N. split; [exact R|].
        apply first_unbound_some in U as (_ & U). rewrite Nat.sub_0_r in U.
        assert (Lk : (k < length params)%nat) by (rewrite <- Lb; apply nth_error_Some; congruence).
        destruct (nth_error params k) as [p|] eqn:Ep; [|apply nth_error_None in Ep; lia].
        exists infos, p. split; [reflexivity|]. split; [exact (nth_error_In _ _ Ep)|]. intros (i & Ii & ->).
        rewrite (Al i k Ii (position_nodup _ _ _ Nd Ep)) in U. discriminate.
      * destruct (step_once _ _ _ _ _ _) as ((code, w1), s1) eqn:Es. apply step_open in Es. cbn [w_open] in Es. intros E. injection E as _ <- _ _. split; [|intros _; lia].
        intros (_ & infos' & p & Ei & Ip & Np). injection Ei as <-. exfalso. apply Np. apply In_nth_error in Ip as (k & Ek).
        assert (Lk : (k < length bound)%nat) by (rewrite Lb; apply nth_error_Some; congruence).
        destruct (nth_error bound k) as [b|] eqn:Eb; [|apply nth_error_None in Eb; lia].
        rewrite (proj1 (first_unbound_none bound 0) U b (nth_error_In _ _ Eb)) in Eb.
        destruct (bound_named _ _ _ _ _ _ _ _ _ _ _ L Lm Eb) as [Q|(p' & Ep & Q)].
        -- exfalso. apply nth_error_In in Q. apply in_map_iff in Q as (? & Q & _). discriminate.
        -- congruence.
    + destruct (step_once _ _ _ _ _ _) as ((code, w1), s1) eqn:Es. apply step_open in Es. cbn [w_open] in Es. intros E. injection E as _ <- _ _. split; [|intros _; lia].
      intros (_ & infos & p & Ei & _). discriminate.
  - destruct (set_error _ _ _ _) as [h2|]; cbn [bind]; [|discriminate]. intros E. injection E as _ <- _ _. split; [|reflexivity].
    intros (Q & _). rewrite Q in R. discriminate.
Qed.
Example C55_exact_example :
  lacks_entry toy toy_prepare (Toy [] [] 101) (Some [ea; eb]) q_insert /\ ~ lacks_entry toy toy_prepare (Toy [] [] 101) (Some [ea; eb; ec]) q_insert /\
  match toy_run byval_str_mk (World toy (Toy [] [] 101) 5 []) (Some [ea; eb]) (Some [int_data 7; no_data]) q_insert false (Some None),
        toy_run byval_str_mk (World toy (Toy [] [] 101) 5 []) (Some [ea; eb; ec]) (Some [int_data 7; no_data; no_data]) q_insert false (Some None) with
  | Ok (rc, w, _, _), Ok (rc', w', _, _) => (rc, w_open toy w, rc', w_open toy w') = (SQLITE_ERROR, 6, SQLITE_DONE, 5)
  | _, _ => False
  end.
Proof.
  split; [|split; [|vm_compute; auto]].
  - split; [reflexivity|]. exists [ea; eb], (Some [64; 99]). split; [reflexivity|]. split; [vm_compute; auto|]. intros (i & [<-|[<-|[]]] & Q); discriminate Q.
  - intros (_ & infos & p & Ei & I & N). injection Ei as <-. apply N. vm_compute in I. destruct I as [<-|[<-|[<-|[]]]]; [exists ea|exists eb|exists ec]; cbn; auto.
Qed.

Print Assumptions C54_nothing_to_update.
Print Assumptions C44_bound_partial.
Print Assumptions C53_update_or_insert_partial.
Print Assumptions C53_select_error_refuted.
Print Assumptions C54_insert_partial.
Print Assumptions C54_delete.
Print Assumptions C54_update_if_exists.
Print Assumptions C55_finalized_partial.
Print Assumptions C55_operations_partial.
Print Assumptions C55_leak_refuted.
Print Assumptions C55_exact.
