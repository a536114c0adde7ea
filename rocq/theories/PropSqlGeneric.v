(** C62 and C63: operations on JSON objects. *)
From Coq Require Import ZArith List Bool Lia Sorting.Permutation.
From Verif Require Import Base IntSpec TsearchModel MapModel MapProofs ListModel Json JsonHeapModel JsonHeapSpec JsonHeapProofs JsonSelectModel SqlModel SqlSpec SqlProofs SqlJsonModel SqlJsonSpec SqlJsonProofs
  SqlSelectModel SqlGenericModel SqlGenericSpec SqlGenericProofs PropSql PropSqlJson.
Import ListNotations.
Open Scope Z_scope.

(** * C62: one statement machine for all operations *)

(** The full property: whatever the operation is, it is given the data of the object and
    the statements made for it; the status gets a report. *)
Definition C62_statement (mk_str : text -> outcome text) : Prop :=
  forall DB op (w : world DB) a kvs infos data t s,
  holds (w_heap DB w) (JObj kvs) a -> is_status (w_heap DB w) s -> NoDup (map i_col infos) -> Forall (fun info => i_col info <> []) infos ->
  (length infos <= length data)%nat ->
  (forall i info d, nth_error infos i = Some info -> nth_error data i = Some d -> In (i_col info) (map fst kvs) -> fresh d) ->
  (forall tp, t_update_template t = Some tp -> exists before behind, template tp before behind) ->
  exists h1 s1 data' t' order us ns ws,
    same_status (w_heap DB w) s s1 /\ is_status h1 s1 /\ only_status (w_heap DB w) h1 None /\
    Permutation order kvs /\ sorted infos order us ns ws /\
    (ws = [] -> data_from infos kvs data data') /\ composed kvs infos (Some data') t t' /\
    (ws <> [] -> exists rc w', generic_opcode mk_str DB op w (Some a) (Some infos) (Some data) t s = Ok (rc, w', Some data', s1) /\ w_db DB w' = w_db DB w) /\
    (ws = [] -> forall rc w2, op (World DB (w_db DB w) (w_open DB w) h1) (Some infos) (Some data') t' s1 = Ok (rc, w2, s1) ->
       only_status h1 (w_heap DB w2) s1 -> is_status (w_heap DB w2) s1 ->
       exists w', generic_opcode mk_str DB op w (Some a) (Some infos) (Some data) t s = Ok (rc, w', Some data', s1) /\
         w_db DB w' = w_db DB w2 /\ w_open DB w' = w_open DB w2 /\
         only_status (w_heap DB w2) (w_heap DB w') s1 /\ with_debug (w_heap DB w2) (w_heap DB w') s1 (debug_value t t' us ns)).

(** Missing: strings made from their bytes ([c_str_mk]); values that a column does not
    take (C62_error_refuted); an update template with nothing to update
    (C62_template_refuted). *)
Theorem C62_generic_partial : forall DB op (w : world DB) a kvs infos data t s,
  holds (w_heap DB w) (JObj kvs) a -> is_status (w_heap DB w) s -> NoDup (map i_col infos) -> Forall (fun info => i_col info <> []) infos ->
  (length infos <= length data)%nat ->
  (forall i info d, nth_error infos i = Some info -> nth_error data i = Some d -> In (i_col info) (map fst kvs) -> fresh d) ->
  (forall k v info, In (k, v) kvs -> In info infos -> i_col info = k -> takes info v) ->
  (forall tp, t_update_template t = Some tp -> exists before behind, template tp before behind) ->
  exists h1 s1 data' t' order us ns,
    same_status (w_heap DB w) s s1 /\ is_status h1 s1 /\ only_status (w_heap DB w) h1 None /\
    Permutation order kvs /\ sorted infos order us ns [] /\ data_from infos kvs data data' /\ composed kvs infos (Some data') t t' /\
    forall rc w2, op (World DB (w_db DB w) (w_open DB w) h1) (Some infos) (Some data') t' s1 = Ok (rc, w2, s1) ->
      only_status h1 (w_heap DB w2) s1 -> is_status (w_heap DB w2) s1 ->
      (t_update_template t <> None -> t_update_x t' <> None) ->
      exists w', generic_opcode byval_str_mk DB op w (Some a) (Some infos) (Some data) t s = Ok (rc, w', Some data', s1) /\
        w_db DB w' = w_db DB w2 /\ w_open DB w' = w_open DB w2 /\
        only_status (w_heap DB w2) (w_heap DB w') s1 /\ with_debug (w_heap DB w2) (w_heap DB w') s1 (debug_value t t' us ns).
Proof.
  intros DB op w a kvs infos data t s H St Nc Fc Ld Fr Ty Tp.
  assert (exists n, st (w_heap DB w) s n /\ Z.of_nat n < 2 ^ 32) as (n & St' & B) by (apply status_st; auto).
  destruct (generic_ok DB op w a kvs infos data t s n H St' Nc Fc Ld Fr Ty Tp) as (h1 & s1 & data' & t' & order & us & ns & Ss & X & Ns & St1 & Pm & So & Df & Co & _ & _ & Go).
  exists h1, s1, data', t', order, us, ns. split; [auto|]. split.
  { destruct s1 as [[r|]|]; cbn [is_status st] in *; auto. destruct St1 as (kas & F & L). exists kas. split; [auto|lia]. }
  split; [split; [apply extends_len; auto|intros c Lc _; apply extends_get; auto]|]. do 4 (split; [auto|]).
  intros rc w2 Eo O2 Is2 Tx. apply status_st in Is2 as (m & St2 & B2). destruct (Go rc w2 m Eo O2 St2) as (h' & Eg & O' & _ & Wd); [lia|auto|].
  exists (on_heap DB w2 h'). split; [auto|]. split; [auto|]. split; [auto|]. split; auto.
Qed.

(** An operation that records what it is given *)
Definition record (w : world (list (option (list bind_data) * stmts))) (info : option (list bind_info)) (data : option (list bind_data)) (t : stmts) (s : option (option nat)) :
  outcome (Z * world (list (option (list bind_data) * stmts)) * option (option nat)) :=
  Ok (7, World _ (w_db _ w ++ [(data, t)]) (w_open _ w) (w_heap _ w), s).
(** update T set %s where 1 *)
Definition a_template : text := [117; 112; 32; 37; 115; 32; 49].
Definition dynamic_stmts : stmts := Stmts [84] [] [] true [] [] None (Some a_template) None.
Definition two_members : heap := object_with [([97], NI64 7); ([122], NStr [120])].
Definition report_of {DB} (r : outcome (Z * world DB * option (list bind_data) * option (option nat))) (keys : list text) : list (option node) :=
  match r with
  | Ok (_, w, _, Some (Some s)) =>
    map (fun k => match (let* d := object_get (w_heap DB w) (Some s) (Some k_debug) in object_get (w_heap DB w) d (Some k))%outcome with
                  | Ok (Some x) => nth_error (w_heap DB w) x | _ => None end) keys
  | _ => []
  end.
Example C62_generic_example :
  (* { "a": 7, "z": "x" } for the columns a and b *)
  let r := generic_opcode byval_str_mk _ record (World _ [] 0 two_members) (Some 0%nat) (Some [column 97 T_INT false; column 98 T_TEXT true]) (Some [zero_data; zero_data]) dynamic_stmts (Some None) in
  (match r with
   | Ok (rc, w, d, _) => rc = 7 /\ d = Some [BindData 7 0 None 0 true false; zero_data] /\
       w_db _ w = [(d, Stmts [84] [] [] true [105; 110; 115; 101; 114; 116; 32; 105; 110; 116; 111; 32; 84; 32; 40; 97; 44; 98; 41; 32; 118; 97; 108; 117; 101; 115; 32; 40; 64; 97; 44; 64; 98; 41]
                      [] None (Some a_template) (Some [117; 112; 32; 97; 61; 64; 97; 32; 49]))]
   | _ => False end) /\
  report_of r [k_update] = [Some (NStr [117; 112; 32; 97; 61; 64; 97; 32; 49])] /\
  (match r with
   | Ok (_, w, _, Some (Some s)) =>
     match (let* d := object_get (w_heap _ w) (Some s) (Some k_debug) in let* u := object_get (w_heap _ w) d (Some k_used) in
            let* n := object_get (w_heap _ w) d (Some k_unused) in Ok (u, n))%outcome with
     | Ok (u, n) => texts (w_heap _ w) (Some u) = [NStr [97]] /\ texts (w_heap _ w) (Some n) = [NStr [122]]
     | _ => False end
   | _ => False end).
Proof. vm_compute. auto 10. Qed.

Lemma fields_one k nd : object_fields (object_with [(k, nd)]) 0 [(k, 1%nat)] /\ nth_error (object_with [(k, nd)]) 1 = Some nd.
Proof.
  destruct (set_new_ok [NObj map_mk] 0%nat [] k nd (mk_fields []) ltac:(cbn; lia)) as (h' & E & F & N & _).
  assert (Q : object_with [(k, nd)] = h') by (unfold object_with; cbn [fold_left fst snd]; unfold put_field; rewrite E; reflexivity). rewrite Q. split; auto.
Qed.

(** A value that the column does not take: the operation is run all the same, and with the
    rest of the data only by chance. *)
Theorem C62_error_refuted : ~ C62_statement byval_str_mk.
Proof.
  intros S. set (r := generic_opcode byval_str_mk _ record (World _ [] 0 (object_with [([97], NStr [120])])) (Some 0%nat) (Some [column 97 T_INT false]) (Some [zero_data]) (Stmts [] [] [] false [] [] None None None) None).
  assert (E : match r with Ok (_, w', _, _) => w_db _ w' <> [] | _ => True end) by (vm_compute; discriminate).
  destruct (S _ record (World _ [] 0 (object_with [([97], NStr [120])])) 0%nat [([97], JStr [120])] [column 97 T_INT false] [zero_data] (Stmts [] [] [] false [] [] None None None) None)
    as (h1 & s1 & data' & t' & order & us & ns & ws & _ & _ & _ & Pm & So & _ & _ & Bad & _).
  - destruct (fields_one [97] (NStr [120])) as ((m & Em & R) & N). apply holds_obj. exists m, [([97], 1%nat)].
    split; [exact Em|]. split; [exact R|]. constructor; [split; [reflexivity|apply (holds_leaf _ (JStr [120]) _ (NStr [120]) eq_refl); exact N]|constructor].
  - exact I.
  - repeat constructor. cbn. tauto.
  - repeat constructor. discriminate.
  - cbn. lia.
  - intros [|[|]] info d Ei Ed _; try discriminate. injection Ed as <-. split; reflexivity.
  - discriminate.
  - assert (W : ws <> []).
    { apply Permutation_sym, Permutation_length_1_inv in Pm. subst order. inversion So as [|k v info l us' ns' ws' I Ec T So'|k v l us' ns' ws' N So'|]; subst; [| |discriminate].
      - destruct I as [<-|[]]. inversion T; discriminate.
      - exfalso. apply N. left. reflexivity. }
    destruct (Bad W) as (rc & w' & Eq & Db). fold r in Eq. rewrite Eq in E. auto.
Qed.
(** An update template, but the object has nothing to update: the report reads a statement
    that is not there.  The operation has been run by then. *)
Theorem C62_template_refuted : forall DB op (w : world DB) a kvs infos data t s,
  holds (w_heap DB w) (JObj kvs) a -> is_status (w_heap DB w) s -> NoDup (map i_col infos) -> Forall (fun info => i_col info <> []) infos ->
  (length infos <= length data)%nat ->
  (forall i info d, nth_error infos i = Some info -> nth_error data i = Some d -> In (i_col info) (map fst kvs) -> fresh d) ->
  (forall k v info, In (k, v) kvs -> In info infos -> i_col info = k -> takes info v) ->
  (exists tp before behind, t_update_template t = Some tp /\ template tp before behind) ->
  (forall info, In info infos -> In (i_col info) (map fst kvs) -> i_no_update info = true) ->
  (forall w d t' s1, s1 <> Some None -> exists rc w2, op w (Some infos) d t' s1 = Ok (rc, w2, s1)) ->
  generic_opcode byval_str_mk DB op w (Some a) (Some infos) (Some data) t s = Bad NullDeref.
Proof.
  intros DB op w a kvs infos data t s H St Nc Fc Ld Fr Ty (tp & bf & bh & Et & T) No Hop.
  assert (exists n, st (w_heap DB w) s n /\ Z.of_nat n < 2 ^ 32) as (n & St' & B) by (apply status_st; auto).
  destruct (generic_ok DB op w a kvs infos data t s n H St' Nc Fc Ld Fr Ty) as (h1 & s1 & data' & t' & order & us & ns & Ss & X & Ns & St1 & Pm & So & Df & Co & _ & Bad & _).
  { intros tp' E. assert (tp' = tp) by congruence. subst. eauto. }
  destruct (Hop (on_heap DB w h1) (Some data') t' s1 Ns) as (rc & w2 & E). apply (Bad rc w2 E); [congruence|].
  destruct Co as (_ & _ & _ & _ & _ & _ & _ & Cu & _). rewrite Et in Cu. destruct Cu as (l & Pl & Nl & _). apply Nl. destruct l as [|info l]; [auto|exfalso].
  destruct (picked_in _ _ _ _ Pl info (or_introl eq_refl)) as (j & Ej & Ik & Nu & _). rewrite (No info) in Nu; [discriminate|eapply nth_error_In; eauto|auto].
Qed.
Example C62_template_example :
  generic_opcode byval_str_mk _ record (World _ [] 0 two_members) (Some 0%nat) (Some [column 98 T_TEXT true]) (Some [zero_data]) dynamic_stmts None = Bad NullDeref.
Proof. vm_compute. auto. Qed.
(** The statements are made with cee_str_mk, which reads its arguments twice. *)
Theorem C62_str_refuted :
  generic_opcode c_str_mk _ record (World _ [] 0 two_members) (Some 0%nat) (Some [column 97 T_INT false]) (Some [zero_data]) dynamic_stmts None = Bad BadVaList.
Proof. vm_compute. auto. Qed.
(** Entries, but no data: NULL is dereferenced when a column is found. *)
Theorem C62_data_refuted :
  generic_opcode byval_str_mk _ record (World _ [] 0 two_members) (Some 0%nat) (Some [column 97 T_INT false]) None dynamic_stmts None = Bad NullDeref.
Proof. vm_compute. auto. Qed.

(** * C63: the operations *)

(** Inserting an object: exactly one statement is run, with the columns that the object has
    or that have or need a value, and with their values.  Missing: strings made from
    their bytes; a status that is not asked for (C63_insert_refuted). *)
Definition small_status (h : heap) (s : option (option nat)) : Prop :=
  match s with
  | None => False
  | Some None => True
  | Some (Some a) => exists kas, object_fields h a kas /\ Z.of_nat (length kas) < 2 ^ 30
  end.
Theorem C63_insert_partial : forall DB prepare exec limit counters mu mf (w : world DB) a kvs infos data t s,
  limit < 2 ^ 31 -> holds (w_heap DB w) (JObj kvs) a -> small_status (w_heap DB w) s ->
  NoDup (map i_col infos) -> NoDup (map i_var infos) -> Forall (good_entry limit) infos ->
  (length infos <= length data)%nat -> Forall unused_data data ->
  (forall k v info, In (k, v) kvs -> In info infos -> i_col info = k -> takes info v) -> (forall k s, In (k, JStr s) kvs -> Z.of_nat (length s) <= limit) ->
  t_insert_dynamic t = true ->
  (forall tp, t_update_template t = Some tp -> (exists before behind, template tp before behind) /\
     exists info, In info infos /\ In (i_col info) (map fst kvs) /\ i_no_update info = false) ->
  finds_params DB prepare infos (t_table t) ->
  exists c rc w' data' s', picked (inserted kvs) 0 infos c /\
    insert_op DB prepare exec limit counters mu mf byval_str_mk w (Some a) (Some infos) (Some data) t s = Ok (rc, w', data', s') /\
    after DB w s w' s' /\
    ((exists vals, fst (prepare (w_db DB w) (insert_sql (t_table t) c)) = SQLITE_OK /\ Forall2 (column_value limit kvs) c vals /\
        ran DB exec (w_db DB w) (insert_sql (t_table t) c) vals rc (w_db DB w')) \/
     (fst (prepare (w_db DB w) (insert_sql (t_table t) c)) = rc /\ rc <> SQLITE_OK /\ w_db DB w' = w_db DB w)) /\
    (rc <> SQLITE_DONE -> has_error (w_heap DB w') s') /\
    (rc = SQLITE_DONE -> exists i, low_int (last_insert_rowid (counters (w_db DB w'))) i /\ reports (w_heap DB w') s' k_id (NI64 i)).
Proof.
  intros DB prepare exec limit counters mu mf w a kvs infos data t s Lm H St Nc Nv Ge En Ne Ty Sh Dy Tp Fp.
  assert (exists n, st (w_heap DB w) s n /\ Z.of_nat n < 2 ^ 30 /\ s <> None) as (n & St' & B & Ns).
  { destruct s as [[r|]|]; cbn [small_status] in St; [|exists 0%nat; split; [exact I|split; [lia|discriminate]]|contradiction].
    destruct St as (kas & F & L). exists (length kas). split; [exists kas; auto|]. split; [auto|discriminate]. }
  destruct (insert_op_ok DB prepare exec limit counters mu mf Lm w a kvs infos data t s n H St' B Ns Nc Nv Ge En Ne Ty Sh Dy Tp Fp)
    as (c & rc & w' & data' & s' & Pc & E & A & P & He & R).
  exists c, rc, w', data', s'. split; [auto|]. split; [exact E|]. split; [auto|]. split; [auto|]. split; [auto|].
  intros Ed. eexists. split; [apply low_int_ok|auto].
Qed.
Notation toy_insert_op := (insert_op toy toy_prepare toy_exec 1000 toy_counts no_msg no_msg2 byval_str_mk).
Definition on_two : world toy := World toy (Toy [] [] 101) 0 two_members.
Example C63_insert_example :
  (* insert into T (a,b,c) values (@a,@b,@c) with 7, its own xy, and the empty text *)
  match toy_insert_op on_two (Some 0%nat) (Some [ea; eb; ec; column 100 T_INT false]) (Some [no_data; no_data; no_data; no_data]) dynamic_stmts (Some None) with
  | Ok (rc, w, _, Some (Some s)) => rc = SQLITE_DONE /\ log (w_db toy w) = [(insert_sql [84] [ea; eb; ec], [V_INT 7; V_TEXT [120; 121]; V_TEXT []])] /\
      match object_get (w_heap toy w) (Some s) (Some k_id) with Ok (Some x) => nth_error (w_heap toy w) x = Some (NI64 1) | _ => False end
  | _ => False
  end.
Proof. vm_compute. auto. Qed.
(** The result is renamed even if there is none: without a status inserting never returns, whatever
    the object, the columns, the data and the statements are. *)
Lemma insert_without DB prepare exec limit counters mu mf mk_str (w : world DB) info data t r :
  insert_wrapper DB prepare exec limit counters mu mf mk_str w info data t None = Ok r -> snd r = None.
Proof.
  unfold insert_wrapper, sql_insert. cbn [accept_result]. intros E. apply bind_ok in E as ((((rc, w1), s1), i) & E & E').
  injection E' as <-. cbn [snd]. apply bind_ok in E as ((((rc2, w2), s2), st2) & E & E').
  assert (s2 = None).
  { clear E'. unfold bind_run_sql in E. cbn [accept_result] in E. destruct (prepare _ _) as (q, params). destruct (q =? SQLITE_OK).
    - destruct info as [infos|]; [|destruct (step_once _ _ _ _ _ _) as ((c1, c2), c3); injection E as _ _ <- _; reflexivity].
      apply bind_ok in E as ((vals & bound) & _ & E). destruct (first_unbound 0 bound).
      + apply bind_ok in E as (h & _ & E). injection E as _ _ <- _. reflexivity.
      + destruct (step_once _ _ _ _ _ _) as ((c1, c2), c3). injection E as _ _ <- _. reflexivity.
    - apply bind_ok in E as (h & _ & E). injection E as _ _ <- _. reflexivity. }
  subst s2. destruct (negb (rc2 =? SQLITE_DONE)).
  - apply bind_ok in E' as (w3 & _ & E'). injection E' as _ _ <- _. reflexivity.
  - injection E' as _ _ <- _. reflexivity.
Qed.
Theorem C63_insert_refuted : forall DB prepare exec limit counters mu mf mk_str (w : world DB) json info data t r,
  insert_op DB prepare exec limit counters mu mf mk_str w json info data t None <> Ok r.
Proof.
  intros DB prepare exec limit counters mu mf mk_str w json info data t r E. unfold insert_op in E.
  apply bind_ok in E as ((((rc, w1), d1), s1) & E & E'). assert (s1 = None); [|subst s1; discriminate]. clear E'.
  unfold generic_opcode in E. cbn [accept_result alloc] in E.
  apply bind_ok in E as (((h1, d2), infos) & _ & E). apply bind_ok in E as ((set & ins) & _ & E). apply bind_ok in E as (ux & _ & E). apply bind_ok in E as (ix & _ & E).
  apply bind_ok in E as (((rc3, w3), s3) & Eo & E). apply insert_without in Eo. cbn [snd] in Eo. subst s3.
  apply bind_ok in E as (h4 & _ & E). apply bind_ok in E as (h5 & _ & E).
  injection E as _ _ _ <-. reflexivity.
Qed.
Example C63_insert_refuted_example :
  toy_insert_op on_two (Some 0%nat) (Some [ea; eb; ec]) (Some [no_data; no_data; no_data]) dynamic_stmts None = Bad NullDeref.
Proof. vm_compute. auto. Qed.

(** Updating or inserting: the select decides; the update sets the columns that the object
    has and that may be updated. *)
Theorem C63_update_or_insert_partial : forall DB prepare exec limit counters mu mf (w : world DB) a kvs infos data t s,
  limit < 2 ^ 31 -> holds (w_heap DB w) (JObj kvs) a -> is_status (w_heap DB w) s ->
  NoDup (map i_col infos) -> NoDup (map i_var infos) -> Forall (good_entry limit) infos ->
  (length infos <= length data)%nat -> Forall unused_data data ->
  (forall k v info, In (k, v) kvs -> In info infos -> i_col info = k -> takes info v) -> (forall k s, In (k, JStr s) kvs -> Z.of_nat (length s) <= limit) ->
  updating kvs infos t -> good_params DB prepare kvs infos (t_select t) ->
  (forall u, update_stmt kvs infos t u -> good_params DB prepare kvs infos u) -> (forall i, insert_stmt kvs infos t i -> good_params DB prepare kvs infos i) ->
  exists rc w' data' s' rc1 db1 u i,
    update_or_insert_op DB prepare exec limit counters mu mf byval_str_mk w (Some a) (Some infos) (Some data) t s = Ok (rc, w', data', s') /\
    after DB w s w' s' /\ update_stmt kvs infos t u /\ insert_stmt kvs infos t i /\
    performs_with DB prepare exec limit kvs infos (w_db DB w) (t_select t) rc1 db1 /\
    (rc1 = SQLITE_ROW -> performs_with DB prepare exec limit kvs infos db1 u rc (w_db DB w')) /\
    (rc1 <> SQLITE_ROW -> performs_with DB prepare exec limit kvs infos db1 i rc (w_db DB w') /\
       (rc = SQLITE_DONE -> exists i, low_int (last_insert_rowid (counters (w_db DB w'))) i /\
          reports (w_heap DB w') s' [108; 97; 115; 116; 95; 105; 110; 115; 101; 114; 116; 95; 114; 111; 119; 105; 100] (NI64 i))) /\
    (rc <> SQLITE_DONE -> has_error (w_heap DB w') s').
Proof.
  intros DB prepare exec limit counters mu mf w a kvs infos data t s Lm H St Nc Nv Ge En Ne Ty Sh Up Gs Gu Gi. apply status_st in St as (n & St & B).
  destruct (update_or_insert_op_ok DB prepare exec limit counters mu mf Lm kvs infos data Ty Sh En Ne Nc Nv Ge w a t s n H St B Up Gs Gu Gi)
    as (rc & w' & data' & s' & rc1 & db1 & u & i & E & A & Tu & Ti & P & U & I & He).
  exists rc, w', data', s', rc1, db1, u, i. split; [exact E|]. do 5 (split; [auto|]). split; [|auto]. intros R. destruct (I R) as (I1 & I2). split; [auto|].
  intros Ed. eexists. split; [apply low_int_ok|auto].
Qed.
(** Updating what exists *)
Theorem C63_update_if_exists_partial : forall DB prepare exec limit counters mu mf (w : world DB) a kvs infos data t s,
  limit < 2 ^ 31 -> holds (w_heap DB w) (JObj kvs) a -> is_status (w_heap DB w) s ->
  NoDup (map i_col infos) -> NoDup (map i_var infos) -> Forall (good_entry limit) infos ->
  (length infos <= length data)%nat -> Forall unused_data data ->
  (forall k v info, In (k, v) kvs -> In info infos -> i_col info = k -> takes info v) -> (forall k s, In (k, JStr s) kvs -> Z.of_nat (length s) <= limit) ->
  updating kvs infos t -> good_params DB prepare kvs infos (t_select t) -> (forall u, update_stmt kvs infos t u -> good_params DB prepare kvs infos u) ->
  exists rc w' data' s' rc1 db1 u,
    update_if_exists_op DB prepare exec limit counters mu mf byval_str_mk w (Some a) (Some infos) (Some data) t s = Ok (rc, w', data', s') /\
    after DB w s w' s' /\ update_stmt kvs infos t u /\
    performs_with DB prepare exec limit kvs infos (w_db DB w) (t_select t) rc1 db1 /\
    (rc1 = SQLITE_ROW -> performs_with DB prepare exec limit kvs infos db1 u rc (w_db DB w') /\ (rc <> SQLITE_DONE -> has_error (w_heap DB w') s')) /\
    (rc1 <> SQLITE_ROW -> rc = rc1 /\ w_db DB w' = db1).
Proof.
  intros DB prepare exec limit counters mu mf w a kvs infos data t s Lm H St Nc Nv Ge En Ne Ty Sh Up Gs Gu. apply status_st in St as (n & St & B).
  exact (update_if_exists_op_ok DB prepare exec limit counters mu mf Lm kvs infos data Ty Sh En Ne Nc Nv Ge w a t s n H St B Up Gs Gu).
Qed.
(** Updating: the same, and an error is reported if the code is SQLITE_OK (not if there
    is no row to update, C54_update_refuted). *)
Theorem C63_update_partial : forall DB prepare exec limit counters mu mf (w : world DB) a kvs infos data t s,
  limit < 2 ^ 31 -> holds (w_heap DB w) (JObj kvs) a -> is_status (w_heap DB w) s ->
  NoDup (map i_col infos) -> NoDup (map i_var infos) -> Forall (good_entry limit) infos ->
  (length infos <= length data)%nat -> Forall unused_data data ->
  (forall k v info, In (k, v) kvs -> In info infos -> i_col info = k -> takes info v) -> (forall k s, In (k, JStr s) kvs -> Z.of_nat (length s) <= limit) ->
  updating kvs infos t -> good_params DB prepare kvs infos (t_select t) -> (forall u, update_stmt kvs infos t u -> good_params DB prepare kvs infos u) ->
  exists rc w' data' s' rc1 db1 u,
    update_op DB prepare exec limit counters mu mf byval_str_mk w (Some a) (Some infos) (Some data) t s = Ok (rc, w', data', s') /\
    after DB w s w' s' /\ update_stmt kvs infos t u /\
    performs_with DB prepare exec limit kvs infos (w_db DB w) (t_select t) rc1 db1 /\ (rc = SQLITE_OK -> has_error (w_heap DB w') s') /\
    (rc1 = SQLITE_ROW -> performs_with DB prepare exec limit kvs infos db1 u rc (w_db DB w') /\ (rc <> SQLITE_DONE -> has_error (w_heap DB w') s')) /\
    (rc1 <> SQLITE_ROW -> rc = rc1 /\ w_db DB w' = db1).
Proof.
  intros DB prepare exec limit counters mu mf w a kvs infos data t s Lm H St Nc Nv Ge En Ne Ty Sh Up Gs Gu. apply status_st in St as (n & St & B).
  exact (update_op_ok DB prepare exec limit counters mu mf Lm kvs infos data Ty Sh En Ne Nc Nv Ge w a t s n H St B Up Gs Gu).
Qed.
(** select @a ; up b=@b 1 *)
Definition toy_world2 (found : list (list sqlv)) : world toy := World toy (Toy [] found 101) 0 (object_with [([97], NI64 7); ([98], NStr [122])]).
Definition key_a : bind_info := BindInfo [64; 97] [97] T_INT zero_data true false false false.
Definition update_stmts : stmts := Stmts [84] q_select [] true [] [] None (Some a_template) None.
Example C63_update_example :
  let op := update_or_insert_op toy toy_prepare toy_exec 1000 toy_counts no_msg no_msg2 byval_str_mk in
  let op2 := update_if_exists_op toy toy_prepare toy_exec 1000 toy_counts no_msg no_msg2 byval_str_mk in
  let d := Some [no_data; no_data] in let i := Some [key_a; column 98 T_TEXT false] in
  let up := [([117; 112; 32; 98; 61; 64; 98; 32; 49], [V_TEXT [122]])] in
  match op (toy_world2 [[V_INT 7]]) (Some 0%nat) i d update_stmts (Some None), op (toy_world2 []) (Some 0%nat) i d update_stmts (Some None),
        op2 (toy_world2 [[V_INT 7]]) (Some 0%nat) i d update_stmts (Some None), op2 (toy_world2 []) (Some 0%nat) i d update_stmts (Some None) with
  | Ok (_, w1, _, _), Ok (_, w2, _, _), Ok (_, w3, _, _), Ok (_, w4, _, _) =>
    log (w_db toy w1) = up /\ log (w_db toy w2) = [(insert_sql [84] [key_a; column 98 T_TEXT false], [V_INT 7; V_TEXT [122]])] /\
    log (w_db toy w3) = up /\ log (w_db toy w4) = []
  | _, _, _, _ => False
  end.
Proof. vm_compute. auto. Qed.

(** Selecting with an object never returns if a result is asked for: the result is made an
    object, and then it has to be an array. *)
Theorem C63_select_refuted : forall DB prepare exec columns limit mu mf fuel (w : world DB) a kvs infos data t s,
  holds (w_heap DB w) (JObj kvs) a -> is_status (w_heap DB w) s -> s <> None ->
  NoDup (map i_col infos) -> Forall (fun info => i_col info <> []) infos -> (length infos <= length data)%nat ->
  (forall i info d, nth_error infos i = Some info -> nth_error data i = Some d -> In (i_col info) (map fst kvs) -> fresh d) ->
  (forall k v info, In (k, v) kvs -> In info infos -> i_col info = k -> takes info v) ->
  (forall tp, t_update_template t = Some tp -> exists before behind, template tp before behind) ->
  select_op DB prepare exec columns limit mu mf byval_str_mk fuel w (Some a) (Some infos) (Some data) t s = Bad Abort.
Proof.
  intros DB prepare exec columns limit mu mf fuel w a kvs infos data t s H St Ns Nc Fc Ld Fr Ty Tp.
  assert (exists n, st (w_heap DB w) s n /\ Z.of_nat n < 2 ^ 32) as (n & St' & B) by (apply status_st; auto).
  destruct (generic_ok DB (select_wrapper DB prepare exec columns limit mu mf byval_str_mk fuel) w a kvs infos data t s n H St' Nc Fc Ld Fr Ty Tp)
    as (h1 & s1 & data' & t' & order & us & ns & Ss & X & Ns1 & St1 & _ & _ & _ & _ & Bad & _).
  apply Bad. destruct s1 as [[r|]|]; [|congruence|unfold same_status in Ss; destruct s as [[y|]|]; congruence].
  destruct St1 as (kas & (m & Er & _) & _). unfold select_wrapper, sql_select, select_iter. cbn [alloc w_heap on_heap]. unfold array_at.
  assert (El : nth_error (h1 ++ [NArr (list_mk 10)]) r = Some (NObj m)) by (rewrite nth_error_app1; [auto|apply nth_error_Some; congruence]).
  unfold to_array, load. cbn [w_heap bind]. rewrite El. reflexivity.
Qed.
Example C63_select_example :
  select_op toy toy_prepare toy_exec (fun _ _ => [[97]]) 1000 no_msg no_msg2 byval_str_mk 100 (toy_world2 [[V_INT 7]]) (Some 0%nat) (Some [key_a]) (Some [no_data])
    (Stmts [84] q_select [] false [] [] None None None) (Some None) = Bad Abort.
Proof. vm_compute. auto. Qed.

Print Assumptions C62_generic_partial.
Print Assumptions C62_error_refuted.
Print Assumptions C62_template_refuted.
Print Assumptions C63_insert_partial.
Print Assumptions C63_update_or_insert_partial.
Print Assumptions C63_update_if_exists_partial.
Print Assumptions C63_update_partial.
Print Assumptions C63_insert_refuted.
Print Assumptions C63_select_refuted.
