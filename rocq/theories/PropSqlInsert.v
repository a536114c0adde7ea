(** Property C69: inserting the objects of an array as rows of a table. *)
From Coq Require Import ZArith List Bool Lia Arith Permutation.
From Verif Require Import Base ArrayLemmas TsearchModel MapModel MapProofs ListModel ListProofs Json JsonHeapModel JsonHeapSpec JsonHeapProofs JsonFrame JsonStored
  JsonArrayModel SqlModel SqlSpec SqlProofs SqlJsonModel SqlJsonSpec SqlJsonProofs SqlInsertModel SqlInsertSpec SqlInsertProofs PropJsonHeap PropSql.
Import ListNotations.
Open Scope Z_scope.
Local Arguments Z.add : simpl never.
Local Arguments Z.of_nat : simpl never.

(** * The property *)

(** The full property.  The values of the rows are integers, strings and nulls.  All
    rows are stored in order, each with a statement for its columns and with its values
    for the parameters; the values in memory are not changed; the result is 0 if and
    only if every row is stored. *)
Definition C69_statement_for (mk_str : text -> outcome text) : Prop :=
  forall DB prepare exec limit counters msg_unbound msg_failed fuel (w : world DB) table rows a,
  limit < 2 ^ 31 -> holds (w_heap DB w) (JArr (map JObj rows)) a -> (length rows < fuel)%nat ->
  Forall (flat_row limit) rows -> named_parameters DB prepare table rows ->
  exists w' rcs ret, insert_json_array DB prepare exec limit counters msg_unbound msg_failed mk_str fuel w table (Some a) = Ok (w', Some ret) /\
    rows_done DB prepare exec table (w_db DB w) rows rcs (w_db DB w') /\ (exists more, w_heap DB w' = w_heap DB w ++ more) /\
    (ret = 0 <-> Forall (fun rc => rc = SQLITE_DONE) rcs).
Definition C69_statement : Prop := C69_statement_for byval_str_mk.

(** It holds for rows with fewer than 50 columns that are not null, if the array is not
    empty, except for the result: that is 0 always.  What is missing: longer rows
    (C69_columns_refuted), empty arrays (C69_empty_refuted), and the result
    (C69_result_refuted).  Also, the names of the parameters are made by cee_str_mk
    (C12, C69_va_list_refuted). *)
Theorem C69_insert_partial : forall DB prepare exec limit counters msg_unbound msg_failed fuel (w : world DB) table rows a,
  limit < 2 ^ 31 -> holds (w_heap DB w) (JArr (map JObj rows)) a -> (length rows < fuel)%nat ->
  Forall (flat_row limit) rows -> named_parameters DB prepare table rows ->
  rows <> [] -> Forall (fun kvs => (length (bound_columns kvs) < 50)%nat) rows ->
  exists w' rcs, insert_json_array DB prepare exec limit counters msg_unbound msg_failed byval_str_mk fuel w table (Some a) = Ok (w', Some 0) /\
    rows_done DB prepare exec table (w_db DB w) rows rcs (w_db DB w') /\ (exists more, w_heap DB w' = w_heap DB w ++ more).
Proof.
  intros DB prepare exec limit counters mu mf fuel w table rows a Lm H Lf Fl Np Ne Lc.
  destruct (insert_array_ok DB prepare exec limit counters mu mf Lm table fuel w rows a H Lf) as (w' & rcs & E & D & X & _); [|auto|].
  - apply Forall_forall. intros kvs I. rewrite Forall_forall in Fl, Lc. auto.
  - exists w', rcs. split; [rewrite E; destruct rows; [congruence|auto]|]. auto.
Qed.

(** No statement is left open, if the parameters of the statements are the columns. *)
Theorem C69_closed : forall DB prepare exec limit counters msg_unbound msg_failed fuel (w : world DB) table rows a,
  limit < 2 ^ 31 -> holds (w_heap DB w) (JArr (map JObj rows)) a -> (length rows < fuel)%nat ->
  Forall (flat_row limit) rows -> named_parameters DB prepare table rows -> Forall (fun kvs => (length (bound_columns kvs) < 50)%nat) rows ->
  parameters_are_columns DB prepare table rows ->
  exists w' ret, insert_json_array DB prepare exec limit counters msg_unbound msg_failed byval_str_mk fuel w table (Some a) = Ok (w', ret) /\ w_open DB w' = w_open DB w.
Proof.
  intros DB prepare exec limit counters mu mf fuel w table rows a Lm H Lf Fl Np Lc Pc.
  destruct (insert_array_ok DB prepare exec limit counters mu mf Lm table fuel w rows a H Lf) as (w' & rcs & E & D & X & O); [|auto|].
  - apply Forall_forall. intros kvs I. rewrite Forall_forall in Fl, Lc. auto.
  - exists w'. eexists. split; [exact E|auto].
Qed.

(** * An example *)
(** A small SQLite: the database is the list of what was run on it; a parameter is an @
    and what follows, up to a comma or parenthesis; tables whose name begins with !
    do not exist. *)
Definition notes : Type := list (text * list sqlv).
Fixpoint up_to_end (t : text) : text := match t with [] => [] | c :: r => if (c =? 44) || (c =? 41) then [] else c :: up_to_end r end.
Fixpoint at_names (t : text) : list (option text) := match t with [] => [] | c :: r => if c =? 64 then Some (64 :: up_to_end r) :: at_names r else at_names r end.
Definition n_prepare (db : notes) (sql : text) : Z * list (option text) := if nth 12 sql 0 =? 33 then (1, []) else (0, at_names sql).
Definition n_exec (db : notes) (sql : text) (vals : list sqlv) : notes * list (list sqlv) * Z := (db ++ [(sql, vals)], [], 101).
Definition n_counts (db : notes) : counts := Counts (Z.of_nat (length db)) 0 0.
Notation n_insert := (insert_json_array notes n_prepare n_exec 1000 n_counts no_msg no_msg2).

(** An array in memory *)
Definition rows_in_memory (rows : list (list (text * node))) : outcome (heap * nat) :=
  let* (h, xs) := fold_left (fun o r =>
    let* (h, xs) := o in
    let (h, a) := alloc h (NObj map_mk) in
    let* h := fold_left (fun o kv => let* h := o in object_set_new byval_str_mk h (Some a) (fst kv) (snd kv)) r (Ok h) in
    Ok (h, xs ++ [a])) rows (Ok ([], [])) in
  let (h, j) := alloc h (NArr (list_mk 10)) in
  let* h := fold_left (fun o x => let* h := o in array_append h j (Some x)) xs (Ok h) in
  Ok (h, j).
Definition run_rows (mk_str : text -> outcome text) (table : text) (rows : list (list (text * node))) : outcome (notes * Z * option Z) :=
  let* (h, j) := rows_in_memory rows in
  let* (w, r) := n_insert mk_str 20 (World notes [] 0 h) table (Some j) in
  Ok (w_db notes w, w_open notes w, r).

(** [{"b": 7, "a": "xy"}, {"c": null, "d": -1}, {}] *)
Example C69_example :
  run_rows byval_str_mk [116] [[([98], NI64 7); ([97], NStr [120; 121])]; [([99], NNull); ([100], NI64 (-1))]; []] =
  Ok ([ (* insert into t ( b,a) values ( @b,@a); *)
        ([105; 110; 115; 101; 114; 116; 32; 105; 110; 116; 111; 32; 116; 32; 40; 32; 98; 44; 97; 41; 32; 118; 97; 108; 117; 101; 115; 32; 40; 32; 64; 98; 44; 64; 97; 41; 59],
         [V_INT 7; V_TEXT [120; 121]]);
        (* insert into t ( c,d) values ( null,@d); *)
        ([105; 110; 115; 101; 114; 116; 32; 105; 110; 116; 111; 32; 116; 32; 40; 32; 99; 44; 100; 41; 32; 118; 97; 108; 117; 101; 115; 32; 40; 32; 110; 117; 108; 108; 44; 64; 100; 41; 59],
         [V_INT (-1)]);
        (* insert into t () values (); *)
        ([105; 110; 115; 101; 114; 116; 32; 105; 110; 116; 111; 32; 116; 32; 40; 41; 32; 118; 97; 108; 117; 101; 115; 32; 40; 41; 59], [])], 0, Some 0).
Proof. vm_compute. reflexivity. Qed.

(** * What fails *)

(** A table that is not there: nothing is stored, and the result is 0. *)
Theorem C69_result_refuted :
  run_rows byval_str_mk [33] [[([98], NI64 7)]] = Ok ([], 0, Some 0) /\ ~ C69_statement.
Proof.
  split; [vm_compute; reflexivity|]. intros C.
  destruct (stored (size (JArr (map JObj [[([98], JI64 7)]]))) (JArr (map JObj [[([98], JI64 7)]])) []) as (e & a & Hh & _); [lia| |cbn; lia|].
  { cbn [map]. apply distinct_arr. repeat constructor; cbn; auto. }
  cbn [app] in Hh.
  destruct (C notes n_prepare n_exec 1000 n_counts no_msg no_msg2 5%nat (World notes [] 0 e) [33] [[([98], JI64 7)]] a) as (w' & rcs & ret & E & D & _ & R).
  - lia.
  - exact Hh.
  - cbn; lia.
  - constructor; [|constructor]. constructor; [|constructor]. right. left. exists 7. auto.
  - intros db kvs kvs' [<-|[]] P. apply Permutation_length_1_inv in P as ->. vm_compute. split; constructor.
  - destruct (C69_insert_partial notes n_prepare n_exec 1000 n_counts no_msg no_msg2 5%nat (World notes [] 0 e) [33] [[([98], JI64 7)]] a) as (w2 & rcs2 & E2 & _).
    + lia.
    + exact Hh.
    + cbn; lia.
    + constructor; [|constructor]. constructor; [|constructor]. right. left. exists 7. auto.
    + intros db kvs kvs' [<-|[]] P. apply Permutation_length_1_inv in P as ->. vm_compute. split; constructor.
    + discriminate.
    + repeat constructor.
    + rewrite E2 in E. injection E as _ <-. pose proof (proj1 R eq_refl) as F.
      inversion D as [|db kvs kvs' rows rc db1 rcs' db' P Rd Rs]; subst. apply Permutation_length_1_inv in P as ->. apply Forall_inv in F.
      inversion Rd as [params vals rc1 db2 Ep|rc0 params rc1 Ep X Er]; subst; vm_compute in Ep; try discriminate. injection Ep as <- <-. vm_compute in Er. discriminate.
Qed.

(** The result for an empty array was never set. *)
Theorem C69_empty_refuted : forall mk_str DB prepare exec limit counters mu mf fuel (w : world DB) table a,
  holds (w_heap DB w) (JArr []) a -> (0 < fuel)%nat ->
  insert_json_array DB prepare exec limit counters mu mf mk_str fuel w table (Some a) = Ok (w, None).
Proof.
  intros mk_str DB prepare exec limit counters mu mf fuel w table a H Lf. apply holds_arr in H as (cl & xs & E & R & F). inversion F; subst.
  unfold insert_json_array, array_iterate. rewrite (array_at_ok _ _ _ E). cbn [bind]. unfold list_iterate. destruct fuel; [lia|]. cbn [iterate_from].
  destruct R as (R1 & _). rewrite R1. reflexivity.
Qed.

(** A row with 50 columns or more that are not null: the array for them is overrun, by
    writing or by reading. *)
Lemma fold_bad {A B} (f : A -> B -> outcome A) (g : outcome A -> B -> outcome A) ps e : (forall b, g (Bad e) b = Bad e) -> fold_left g ps (Bad e) = Bad e.
Proof. intros G. induction ps as [|p ps IH]; cbn [fold_left]; [auto|]. rewrite G. auto. Qed.
Lemma collect_over limit h : forall ps vs done, Forall2 (member_ok h) vs ps -> flat_row limit vs -> (length (bound_columns done) <= 50 < length (bound_columns (done ++ vs)))%nat ->
  fold_left (fun o '(k, v) => bind o (fun '(c, ret) => if negb (ret =? 0) then Ok (c, ret) else collect byval_str_mk h c k v)) ps (Ok (collected done, 0)) = Bad OutOfBounds.
Proof.
  induction ps as [|(k, o) ps IH]; intros vs done F Fl L.
  - inversion F; subst. rewrite app_nil_r in L. lia.
  - inversion F as [|(k', v) ? vs' ? (Hk & x & Hx & Se) F']; subst. cbn [fst snd] in *. subst k' o. cbn [fold_left bind]. change (negb (0 =? 0)) with false. cbn iota.
    pose proof (Forall_inv Fl) as Fv. cbn [snd] in Fv. change ((k, v) :: vs') with ([(k, v)] ++ vs') in L. rewrite app_assoc in L.
    destruct (Nat.le_gt_cases (length (bound_columns (done ++ [(k, v)]))) 50) as [Le|Gt].
    + assert (E : collect byval_str_mk h (collected done) k (Some x) = Ok (collected (done ++ [(k, v)]), 0)).
      { pose proof (collect_all limit h [(k, Some x)] [(k, v)] done) as C. cbn [fold_left bind] in C. change (negb (0 =? 0)) with false in C. cbn iota in C. apply C; auto.
        - constructor; [split; [auto|]; exists x; auto|constructor].
        - constructor; [auto|constructor]. }
      rewrite E. apply IH with (vs := vs'); auto; [apply (Forall_inv_tail Fl)|lia].
    + rewrite bound_snoc, app_length in Gt. cbn [snd] in Gt.
      assert (E : collect byval_str_mk h (collected done) k (Some x) = Bad OutOfBounds).
      { unfold seems in Se. destruct Fv as [->|[(z & ->)|(s & -> & _)]]; cbn [is_null length] in Gt; [lia| |]; cbn [leaf_node] in Se; unfold collect, collected; cbn [c_columns c_values c_infos load]; rewrite Se;
          cbn [of_option bind]; unfold add_entry; cbn [c_infos]; rewrite map_length; change max_infos with 50%nat; destruct (Nat.ltb_spec (length (bound_columns done)) 50); auto; lia. }
      rewrite E. apply (fold_bad (fun c _ => Ok c)). intros (k0, v0). reflexivity.
Qed.
Lemma bound_perm l l' : Permutation l l' -> length (bound_columns l) = length (bound_columns l').
Proof. intros P. unfold bound_columns. induction P; cbn [filter]; try congruence; repeat match goal with |- context [if ?b then _ else _] => destruct b end; cbn [length]; congruence. Qed.

Theorem C69_columns_refuted :
  (forall DB prepare exec limit counters mu mf fuel (w : world DB) table kvs rows a,
     holds (w_heap DB w) (JArr (map JObj (kvs :: rows))) a -> (0 < fuel)%nat -> flat_row limit kvs -> (50 <= length (bound_columns kvs))%nat ->
     (forall kvs', Permutation kvs kvs' -> fst (prepare (w_db DB w) (row_sql table kvs')) = SQLITE_OK) ->
     insert_json_array DB prepare exec limit counters mu mf byval_str_mk fuel w table (Some a) = Bad OutOfBounds) /\
  ~ C69_statement.
Proof.
  assert (G : forall DB prepare exec limit counters mu mf fuel (w : world DB) table kvs rows a,
     holds (w_heap DB w) (JArr (map JObj (kvs :: rows))) a -> (0 < fuel)%nat -> flat_row limit kvs -> (50 <= length (bound_columns kvs))%nat ->
     (forall kvs', Permutation kvs kvs' -> fst (prepare (w_db DB w) (row_sql table kvs')) = SQLITE_OK) ->
     insert_json_array DB prepare exec limit counters mu mf byval_str_mk fuel w table (Some a) = Bad OutOfBounds).
  { intros DB prepare exec limit counters mu mf fuel w table kvs rows a H Lf Fl Lb Pr. apply holds_arr in H as (cl & xs & Ea & R & F). cbn [map] in F. inversion F as [|? x ? xs' Hx F']; subst.
    unfold insert_json_array, array_iterate. rewrite (array_at_ok _ _ _ Ea). cbn [bind]. unfold list_iterate. destruct fuel as [|fuel]; [lia|]. cbn [iterate_from].
    pose proof R as (R1 & _). rewrite R1. cbn [map length]. destruct (Z.ltb_spec 0 (Z.of_nat (S (length (map Some xs'))))); [|lia].
    rewrite (rep_read cl _ 0 (Some x) R); [|auto|lia]. cbn [bind].
    apply holds_obj in Hx as (m & kas & Em & Rm & Fm). unfold insert_one. rewrite (object_at_ok _ _ _ Em). cbn [bind]. unfold map_iterate.
    pose proof (visited_rep _ _ _ Rm) as P. destruct (members_perm _ kvs kas _ Fm P) as (vs & Pv & Fv).
    assert (Flv : flat_row limit vs) by (eapply Permutation_Forall; [apply Permutation_sym; exact Pv|exact Fl]).
    pose proof (bound_perm _ _ Pv) as Lv.
    destruct (Nat.le_gt_cases (length (bound_columns vs)) 50) as [Le|Gt].
    - pose proof (collect_all limit (w_heap DB w) _ vs [] Fv Flv) as C. cbn [app] in C.
      match goal with |- context [bind (fold_left ?A ?B ?D) _] => replace (fold_left A B D) with (Ok (collected vs, 0)) by (symmetry; apply C; lia) end. cbn [bind].
      unfold collected. cbn [c_columns c_values c_infos]. rewrite map_length. destruct (Nat.eqb_spec (length (bound_columns vs)) max_infos) as [_|X]; [|exfalso; change max_infos with 50%nat in X; lia].
      match goal with |- context [prepare (w_db DB w) ?q] => change q with (row_sql table vs) end. rewrite (Pr vs (Permutation_sym Pv)). reflexivity.
    - pose proof (collect_over limit (w_heap DB w) _ vs [] Fv Flv) as C. cbn [app] in C.
      match goal with |- context [bind (fold_left ?A ?B ?D) _] => replace (fold_left A B D) with (@Bad (columns * Z) OutOfBounds) by (symmetry; apply C; cbn; lia) end. reflexivity. }
  split; [exact G|]. intros C.
  set (row := map (fun i => ([Z.of_nat i], JI64 0)) (seq 1 50)).
  assert (Fl : flat_row 1000 row) by (apply Forall_forall; intros kv I; apply in_map_iff in I as (i & <- & _); right; left; exists 0; auto).
  destruct (stored (size (JArr (map JObj [row]))) (JArr (map JObj [row])) []) as (e & a & Hh & _); [lia| |vm_compute; discriminate|].
  { cbn [map]. apply distinct_arr. constructor; [|constructor]. apply distinct_obj. split.
    - unfold row. rewrite map_map. cbn [fst]. apply FinFun.Injective_map_NoDup; [|apply seq_NoDup]. intros x y E. injection E as E. lia.
    - apply Forall_forall. intros kv I. apply in_map_iff in I as (i & <- & _). exact I. }
  cbn [app] in Hh.
  set (prep := fun (db : notes) (sql : text) => (0, @nil (option text))).
  destruct (C notes prep n_exec 1000 n_counts no_msg no_msg2 5%nat (World notes [] 0 e) [33] [row] a) as (w' & rcs & ret & E & _).
  - lia.
  - exact Hh.
  - cbn; lia.
  - constructor; [auto|constructor].
  - intros db kvs kvs' _ _. split; constructor.
  - rewrite (G notes prep n_exec 1000 n_counts no_msg no_msg2 5%nat (World notes [] 0 e) [33] row [] a) in E; try discriminate; auto; vm_compute; lia.
Qed.
(** 49 columns are stored. *)
Example C69_columns_example :
  match run_rows byval_str_mk [116] [map (fun i => ([97; Z.of_nat i], NI64 (Z.of_nat i))) (seq 100 49)] with
  | Ok ([(_, vals)], 0, Some 0) => length vals = 49%nat
  | _ => False
  end /\
  run_rows byval_str_mk [116] [map (fun i => ([97; Z.of_nat i], NI64 (Z.of_nat i))) (seq 100 50)] = Bad OutOfBounds.
Proof. vm_compute. auto. Qed.

(** A value that is something else ends the program. *)
Lemma fold_members h : forall ps c ret r, 
  fold_left (fun o '(k, v) => bind o (fun '(c, ret) => if negb (ret =? 0) then Ok (c, ret) else collect byval_str_mk h c k v)) ps (Ok (c, ret)) = Ok r -> ret = 0 ->
  forall k x, In (k, Some x) ps -> nth_error h x = Some NNull \/ (exists s, nth_error h x = Some (NStr s)) \/ exists z, nth_error h x = Some (NI64 z).
Proof.
  induction ps as [|(k0, o) ps IH]; intros c ret r E -> k x I; [destruct I|]. cbn [fold_left bind] in E. change (negb (0 =? 0)) with false in E. cbn iota in E.
  destruct (collect byval_str_mk h c k0 o) as [(c1, r1)|e] eqn:Ec.
  - assert (r1 = 0 /\ (forall y, o = Some y -> nth_error h y = Some NNull \/ (exists s, nth_error h y = Some (NStr s)) \/ exists z, nth_error h y = Some (NI64 z))) as (-> & Hy).
    { unfold collect, add_entry in Ec. destruct o as [y|]; cbn [load of_option bind] in Ec; [|discriminate]. destruct (nth_error h y) as [nd|] eqn:En; cbn [of_option bind] in Ec; [|discriminate].
      destruct nd; try discriminate; try (destruct (Nat.ltb _ _); try discriminate; cbn [byval_str_mk bind] in Ec); injection Ec as _ <-; (split; [auto|]); intros y' Ey; injection Ey as <-; rewrite En; eauto. }
    destruct I as [I|I]; [injection I as -> ->; auto|]. eapply IH; eauto.
  - rewrite (fold_bad (fun c _ => Ok c)) in E; [discriminate|]. intros (k1, v1). reflexivity.
Qed.
Theorem C69_other_refuted : forall DB prepare exec limit counters mu mf fuel (w : world DB) table kvs rows a k v r,
  holds (w_heap DB w) (JArr (map JObj (kvs :: rows))) a -> In (k, v) kvs -> v <> JNull -> (forall z, v <> JI64 z) -> (forall s, v <> JStr s) ->
  insert_json_array DB prepare exec limit counters mu mf byval_str_mk fuel w table (Some a) <> Ok r.
Proof.
  intros DB prepare exec limit counters mu mf fuel w table kvs rows a k v r H I N1 N2 N3. apply holds_arr in H as (cl & xs & Ea & R & F). cbn [map] in F. inversion F as [|? x ? xs' Hx F']; subst.
  unfold insert_json_array, array_iterate. rewrite (array_at_ok _ _ _ Ea). cbn [bind]. unfold list_iterate. destruct fuel as [|fuel]; [discriminate|]. cbn [iterate_from].
  pose proof R as (R1 & _). rewrite R1. cbn [map length]. destruct (Z.ltb_spec 0 (Z.of_nat (S (length (map Some xs'))))); [|lia].
  rewrite (rep_read cl _ 0 (Some x) R); [|auto|lia]. cbn [bind].
  apply holds_obj in Hx as (m & kas & Em & Rm & Fm). unfold insert_one. rewrite (object_at_ok _ _ _ Em). cbn [bind]. unfold map_iterate.
  destruct (fold_left _ _ _) as [(c, ret)|e] eqn:Ef; cbn [bind]; [|discriminate]. exfalso.
  pose proof (visited_rep _ _ _ Rm) as P. destruct (members_perm _ kvs kas _ Fm P) as (vs & Pv & Fv).
  assert (Iv : In (k, v) vs) by (eapply Permutation_in; [apply Permutation_sym; exact Pv|auto]).
  destruct (forall2_in_l _ _ _ _ Fv Iv) as ((k', o) & Ip & (_ & y & Ho & Se)). cbn [fst snd] in *. subst o.
  pose proof (fold_members (w_heap DB w) _ _ _ _ Ef eq_refl k' y Ip) as D. unfold seems in Se.
  destruct D as [D|[(s & D)|(z & D)]]; destruct v; cbn [leaf_node] in Se; try (rewrite D in Se; injection Se as Se); try (destruct Se as [(cl' & Se)|(m' & Se)]); congruence.
Qed.
Example C69_other_example : run_rows byval_str_mk [116] [[([97], NI64 1)]; [([98], NBool true)]] = Bad Abort /\ run_rows byval_str_mk [116] [[([98], NU64 5)]] = Bad Abort.
Proof. vm_compute. auto. Qed.

(** The names are not quoted: the columns of {"a,b": null} are those of {"a": 1, "b": 2}. *)
Theorem C69_unquoted_refuted : exists r1 r2 s1 s2, run_rows byval_str_mk [116] [[([97; 44; 98], NNull)]] = Ok ([(s1, [])], 0, Some 0) /\
  run_rows byval_str_mk [116] [[([97], NI64 1); ([98], NI64 2)]] = Ok ([(s2, [V_INT 1; V_INT 2])], 0, Some 0) /\ firstn 20 s1 = firstn 20 s2 /\
  map fst r1 <> map fst r2 /\ r1 = [([97; 44; 98], NNull)] /\ r2 = [([97], NI64 1); ([98], NI64 2)].
Proof. do 4 eexists. split; [vm_compute; reflexivity|]. split; [vm_compute; reflexivity|]. split; [reflexivity|]. split; [|auto]. vm_compute. discriminate. Qed.

(** With cee_str_mk as it is: the first column that is not null. *)
Theorem C69_va_list_refuted :
  run_rows c_str_mk [116] [[([97], NI64 1)]] = Bad BadVaList /\ run_rows c_str_mk [116] [[([97], NNull)]] = Bad BadVaList /\ run_rows c_str_mk [116] [[]] = Bad BadVaList.
Proof. vm_compute. auto. Qed.

Print Assumptions C69_insert_partial.
Print Assumptions C69_closed.
Print Assumptions C69_result_refuted.
Print Assumptions C69_empty_refuted.
Print Assumptions C69_columns_refuted.
Print Assumptions C69_other_refuted.
Print Assumptions C69_unquoted_refuted.
Print Assumptions C69_va_list_refuted.
