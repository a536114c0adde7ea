(** Property C70: joining the objects of an array with a table. *)
From Coq Require Import ZArith List Bool Lia Arith.
From Verif Require Import Base ArrayLemmas TsearchModel MapModel MapProofs ListModel ListProofs Json JsonHeapModel JsonHeapSpec JsonHeapProofs JsonFrame
  SqlModel SqlSpec SqlProofs SqlSelectModel SqlSelectSpec SqlSelectProofs SqlJoinModel SqlJoinSpec SqlJoinProofs PropJsonHeap PropSql PropSqlSelect PropSqlInsert.
From Verif Require JsonSpec.
Import ListNotations.
Open Scope Z_scope.
Local Arguments Z.add : simpl never.
Local Arguments Z.of_nat : simpl never.

(** * The property *)

(** The full property.  Every object gets the rows that the statement gives for it: its
    members are the values of the parameters.  With a key the rows are a member of it,
    without one the first row is merged into it.  Nothing else in memory changes, and no
    statement is left open. *)
Definition C70_statement : Prop :=
  forall DB prepare exec columns limit (good : DB -> Prop) msg_unbound msg_failed msg_missing msg_kind fuel sql key (w : world DB) infos data a objs n,
  limit < 2 ^ 31 -> good (w_db DB w) -> statement_fits DB prepare good infos data sql -> finishes DB exec columns good infos sql n ->
  holds (w_heap DB w) (JArr (map JObj objs)) a -> NoDup (containers (w_heap DB w) (JArr (map JObj objs)) a) ->
  Forall (joinable limit infos data) objs ->
  (size (JArr (map JObj objs)) + n < fuel)%nat -> Z.of_nat (size (JArr (map JObj objs)) + n) < 2 ^ 64 ->
  exists w' infos' data' zs, array_join DB prepare exec columns limit msg_unbound msg_failed msg_missing msg_kind byval_str_mk fuel (w, infos, data) (Some a) sql key = Ok (w', infos', data') /\
    all_joined DB prepare exec columns infos sql key (w_db DB w) objs zs (w_db DB w') /\ holds (w_heap DB w') (JArr zs) a /\
    (forall c, (c < length (w_heap DB w))%nat -> ~ In c (containers (w_heap DB w) (JArr (map JObj objs)) a) -> nth_error (w_heap DB w') c = nth_error (w_heap DB w) c) /\
    w_open DB w' = w_open DB w.

(** It holds for parameters of type int, and of type text if no size and no null is set in
    their entries; without a key, neither a column nor a member may be called error.  What
    is missing: parameters of type int64 (C70_int64_refuted), entries with a size or null
    (C70_size_refuted, C70_null_refuted), and the name error (C70_error_refuted).  Also,
    names and messages are made by cee_str_mk (C12, C70_va_list_refuted). *)
Theorem C70_join_partial :
  forall DB prepare exec columns limit (good : DB -> Prop) msg_unbound msg_failed msg_missing msg_kind fuel sql key (w : world DB) infos data a objs n,
  limit < 2 ^ 31 -> good (w_db DB w) -> statement_fits DB prepare good infos data sql -> finishes DB exec columns good infos sql n ->
  holds (w_heap DB w) (JArr (map JObj objs)) a -> NoDup (containers (w_heap DB w) (JArr (map JObj objs)) a) ->
  Forall (joinable limit infos data) objs ->
  (size (JArr (map JObj objs)) + n < fuel)%nat -> Z.of_nat (size (JArr (map JObj objs)) + n) < 2 ^ 64 ->
  simple infos data -> no_error_column DB columns good sql key -> Forall (no_error_member key) objs ->
  exists w' infos' data' zs, array_join DB prepare exec columns limit msg_unbound msg_failed msg_missing msg_kind byval_str_mk fuel (w, infos, data) (Some a) sql key = Ok (w', infos', data') /\
    all_joined DB prepare exec columns infos sql key (w_db DB w) objs zs (w_db DB w') /\ holds (w_heap DB w') (JArr zs) a /\
    (forall c, (c < length (w_heap DB w))%nat -> ~ In c (containers (w_heap DB w) (JArr (map JObj objs)) a) -> nth_error (w_heap DB w') c = nth_error (w_heap DB w) c) /\
    w_open DB w' = w_open DB w.
Proof.
  intros DB prepare exec columns limit good mu mf mm mk fuel sql key w infos data a objs n Lm Gd Sf Fi H N J Lf B Si Nc Nm.
  destruct (array_join_ok DB prepare exec columns limit mu mf mm mk good Lm fuel sql key w infos data a objs [] n Gd Sf Si Fi Nc) as (w' & infos' & data' & zs & E & A & O & U & Hz);
    rewrite ?app_nil_r in *; auto.
  exists w', infos', data', zs. auto.
Qed.

(** An object that lacks a member, or has one of another kind, gets a message as its member
    error; the objects before it are joined, those after it stay as they are. *)
Theorem C70_stops :
  forall DB prepare exec columns limit (good : DB -> Prop) msg_unbound msg_failed msg_missing msg_kind fuel sql key (w : world DB) infos data a objs bad rest n,
  limit < 2 ^ 31 -> good (w_db DB w) -> statement_fits DB prepare good infos data sql -> finishes DB exec columns good infos sql n ->
  let all := objs ++ bad :: rest in
  holds (w_heap DB w) (JArr (map JObj all)) a -> NoDup (containers (w_heap DB w) (JArr (map JObj all)) a) ->
  Forall (joinable limit infos data) objs -> (exists info, replaced infos data info /\ lacks bad info) ->
  (size (JArr (map JObj all)) + n < fuel)%nat -> Z.of_nat (size (JArr (map JObj all)) + n) < 2 ^ 64 ->
  simple infos data -> no_error_column DB columns good sql key -> Forall (no_error_member key) objs ->
  exists w' infos' data' zs info msg, array_join DB prepare exec columns limit msg_unbound msg_failed msg_missing msg_kind byval_str_mk fuel (w, infos, data) (Some a) sql key = Ok (w', infos', data') /\
    all_joined DB prepare exec columns infos sql key (w_db DB w) objs zs (w_db DB w') /\
    replaced infos data info /\ complains msg_missing msg_kind bad info msg /\
    holds (w_heap DB w') (JArr (zs ++ JObj (JsonSpec.with_member bad error_key (JStr msg)) :: map JObj rest)) a /\
    (forall c, (c < length (w_heap DB w))%nat -> ~ In c (containers (w_heap DB w) (JArr (map JObj all)) a) -> nth_error (w_heap DB w') c = nth_error (w_heap DB w) c) /\
    w_open DB w' = w_open DB w.
Proof.
  intros DB prepare exec columns limit good mu mf mm mk fuel sql key w infos data a objs bad rest n Lm Gd Sf Fi all H N J Bd Lf B Si Nc Nm.
  destruct (array_join_ok DB prepare exec columns limit mu mf mm mk good Lm fuel sql key w infos data a objs (bad :: rest) n Gd Sf Si Fi Nc H N J Nm Bd Lf B) as (w' & infos' & data' & zs & E & A & O & U & info & msg & Ri & Cm & Hz).
  exists w', infos', data', zs, info, msg. auto 8.
Qed.

(** One object *)
Theorem C70_object :
  forall DB prepare exec columns limit (good : DB -> Prop) msg_unbound msg_failed msg_missing msg_kind fuel sql key (w : world DB) infos data a obj n,
  limit < 2 ^ 31 -> good (w_db DB w) -> statement_fits DB prepare good infos data sql -> finishes DB exec columns good infos sql n ->
  holds (w_heap DB w) (JObj obj) a -> NoDup (containers (w_heap DB w) (JObj obj) a) -> joinable limit infos data obj ->
  (size (JObj obj) + n < fuel)%nat -> Z.of_nat (size (JObj obj) + n) < 2 ^ 64 ->
  simple infos data -> no_error_column DB columns good sql key -> no_error_member key obj ->
  exists w' infos' data' rows z, object_join DB prepare exec columns limit msg_unbound msg_failed msg_missing msg_kind byval_str_mk fuel (w, infos, data) (Some a) sql key = Ok (w', infos', data') /\
    rows_for DB prepare exec infos sql (w_db DB w) obj rows (w_db DB w') /\ with_rows infos key obj (columns (w_db DB w') sql) rows z /\ holds (w_heap DB w') z a /\
    (forall c, (c < length (w_heap DB w))%nat -> ~ In c (containers (w_heap DB w) (JObj obj) a) -> nth_error (w_heap DB w') c = nth_error (w_heap DB w) c) /\
    w_open DB w' = w_open DB w.
Proof.
  intros DB prepare exec columns limit good mu mf mm mk fuel sql key w infos data a obj n Lm Gd Sf Fi H N J Lf B Si Nc Nm.
  destruct (join_one_ok DB prepare exec columns limit mu mf mm mk good Lm fuel sql key w infos data a 0 obj n Gd Sf Fi Nc H N (simple_sendable limit infos data obj Si J) Nm Lf B) as (w' & infos' & data' & E & _ & O & _ & rows & z & Rf & Wr & Ba).
  apply (simple_rows DB prepare exec limit infos data) in Rf; [|exact Si|exact J].
  exists w', infos', data', rows, z. split; [unfold object_join; rewrite E; reflexivity|]. split; [auto|]. split; [auto|]. destruct Ba as (_ & Hz & U & _). auto.
Qed.

(** What happens for all entries, whatever their types, sizes and nulls: every object gets
    the rows for what the entries make of its members, which is not always their values. *)
Theorem C70_sent_exact :
  forall DB prepare exec columns limit (good : DB -> Prop) msg_unbound msg_failed msg_missing msg_kind fuel sql key (w : world DB) infos data a objs n,
  limit < 2 ^ 31 -> good (w_db DB w) -> statement_fits DB prepare good infos data sql -> finishes DB exec columns good infos sql n ->
  holds (w_heap DB w) (JArr (map JObj objs)) a -> NoDup (containers (w_heap DB w) (JArr (map JObj objs)) a) ->
  Forall (sendable limit infos data) objs ->
  (size (JArr (map JObj objs)) + n < fuel)%nat -> Z.of_nat (size (JArr (map JObj objs)) + n) < 2 ^ 64 ->
  no_error_column DB columns good sql key -> Forall (no_error_member key) objs ->
  exists w' infos' data' zs, array_join DB prepare exec columns limit msg_unbound msg_failed msg_missing msg_kind byval_str_mk fuel (w, infos, data) (Some a) sql key = Ok (w', infos', data') /\
    joined_by DB columns infos sql key (rows_sent DB prepare exec infos data sql) (w_db DB w) objs zs (w_db DB w') /\ holds (w_heap DB w') (JArr zs) a /\
    (forall c, (c < length (w_heap DB w))%nat -> ~ In c (containers (w_heap DB w) (JArr (map JObj objs)) a) -> nth_error (w_heap DB w') c = nth_error (w_heap DB w) c) /\
    w_open DB w' = w_open DB w.
Proof.
  intros DB prepare exec columns limit good mu mf mm mk fuel sql key w infos data a objs n Lm Gd Sf Fi H N J Lf B Nc Nm.
  destruct (array_join_sent DB prepare exec columns limit mu mf mm mk good Lm fuel sql key w infos data a objs [] n Gd Sf Fi Nc) as (w' & infos' & data' & zs & E & A & O & U & Hz);
    rewrite ?app_nil_r in *; auto.
  exists w', infos', data', zs. auto.
Qed.

(** * Examples *)
(** A small SQLite: a table with two columns; a statement has the parameter @k, and gives
    the rows with that value in the first column. *)
Definition sqlv_eqb (a b : sqlv) : bool :=
  match a, b with
  | V_INT x, V_INT y => x =? y
  | V_TEXT s, V_TEXT t => if list_eq_dec Z.eq_dec s t then true else false
  | V_NULL, V_NULL => true
  | _, _ => false
  end.
Definition j_prepare (db : unit) (sql : text) : Z * list (option text) := (0, [Some [64; 107]]).
Definition books : list (list sqlv) := [[V_INT 7; V_TEXT [120]]; [V_INT 5; V_TEXT [121]]; [V_INT 7; V_TEXT [122]]; [V_TEXT [104]; V_INT 1]; [V_NULL; V_INT 2]].
Definition found_for (vals : list sqlv) : list (list sqlv) :=
  filter (fun r => match r, vals with x :: _, v :: _ => sqlv_eqb x v | _, _ => false end) books.
Definition j_exec (db : unit) (sql : text) (vals : list sqlv) : unit * list (list sqlv) * Z := (tt, found_for vals, 101).
(** The statement is the name of the second column. *)
Definition j_columns (db : unit) (sql : text) : list text := [[105]; sql].
Definition j_missing (col var : text) : text := col.
Definition j_kind (col : text) (n : node) : text := 33 :: col.
Notation j_join := (array_join unit j_prepare j_exec j_columns 1000 no_msg no_msg2 j_missing j_kind).
Definition the_entry (ty : sqltype) (d : bind_data) : bind_info := BindInfo [64; 107] [107] ty d false false false false.
Definition run_join (mk_str : text -> outcome text) (rows : list (list (text * node))) (info : bind_info) (data : option (list bind_data)) (sql : text) (key : option text) : outcome json :=
  let* (h, j) := rows_in_memory rows in
  let* (w, _, _) := j_join mk_str 30 (World unit tt 0 h, [info], data) (Some j) sql key in
  Ok (shown 30 (w_heap unit w) j).

(** [{"k": 7}, {"k": 8, "m": 1}, {"k": 5}]: the rows, and the first row *)
Example C70_example :
  let rows := [[([107], NI64 7)]; [([107], NI64 8); ([109], NI64 1)]; [([107], NI64 5)]] in
  run_join byval_str_mk rows (the_entry T_INT (int_data 0)) None [110] (Some [114]) =
    Ok (JArr [JObj [([107], JI64 7); ([114], JArr [JObj [([105], JI64 7); ([110], JStr [120])]; JObj [([105], JI64 7); ([110], JStr [122])]])];
              JObj [([107], JI64 8); ([109], JI64 1); ([114], JArr [])];
              JObj [([107], JI64 5); ([114], JArr [JObj [([105], JI64 5); ([110], JStr [121])]])]]) /\
  run_join byval_str_mk rows (the_entry T_INT no_data) (Some [int_data 0]) [110] None =
    Ok (JArr [JObj [([107], JI64 7); ([105], JI64 7); ([110], JStr [120])];
              JObj [([107], JI64 8); ([109], JI64 1)];
              JObj [([107], JI64 5); ([105], JI64 5); ([110], JStr [121])]]).
Proof. vm_compute. auto. Qed.
(** The second object has no member k, or a boolean. *)
Example C70_stops_example :
  let r := JArr [JObj [([105], JI64 7); ([110], JStr [120])]; JObj [([105], JI64 7); ([110], JStr [122])]] in
  run_join byval_str_mk [[([107], NI64 7)]; [([109], NI64 1)]; [([107], NI64 5)]] (the_entry T_INT (int_data 0)) None [110] (Some [114]) =
    Ok (JArr [JObj [([107], JI64 7); ([114], r)]; JObj [([109], JI64 1); (error_key, JStr [107])]; JObj [([107], JI64 5)]]) /\
  run_join byval_str_mk [[([107], NI64 7)]; [([107], NBool true)]; [([107], NI64 5)]] (the_entry T_INT (int_data 0)) None [110] (Some [114]) =
    Ok (JArr [JObj [([107], JI64 7); ([114], r)]; JObj [([107], JBool true); (error_key, JStr [33; 107])]; JObj [([107], JI64 5)]]).
Proof. vm_compute. auto. Qed.

(** * What fails *)

(** An array with one object, that has one member *)
Lemma mrep_one : mrep strcmp (CMap 1 (Node ([107], Some 1%nat) Nil Nil 1) [[107]]) (wrapped [([107], 1%nat)]).
Proof. split; [cbn; lia|]. split; [constructor; constructor|]. split; [apply Permutation.Permutation_refl|]. split; reflexivity. Qed.
Definition memory (n : node) : heap :=
  [NObj (CMap 1 (Node ([107], Some 1%nat) Nil Nil 1) [[107]]); n; NArr (CList 1 10 (Some (Some 0%nat) :: repeat None 9))].
Lemma memory_ok n : rows_in_memory [[([107], n)]] = Ok (memory n, 2%nat).
Proof. reflexivity. Qed.
Lemma memory_holds j n : leaf_node j = Some n -> holds (memory n) (JArr (map JObj [[([107], j)]])) 2.
Proof.
  intros L. apply holds_arr. exists (CList 1 10 (Some (Some 0%nat) :: repeat None 9)), [0%nat]. split; [reflexivity|]. split.
  - split; [reflexivity|]. split; [reflexivity|]. exists (repeat None 9). reflexivity.
  - constructor; [|constructor]. apply holds_obj. exists (CMap 1 (Node ([107], Some 1%nat) Nil Nil 1) [[107]]), [([107], 1%nat)]. split; [reflexivity|]. split.
    + apply mrep_one.
    + constructor; [|constructor]. split; [reflexivity|]. apply (holds_leaf _ j _ n L). reflexivity.
Qed.

Lemma shown_holds h : forall n j a, (size j <= n)%nat -> holds h j a -> shown n h a = j.
Proof.
  induction n as [|n IH]; intros j a L H; [pose proof (size_pos j); lia|]. cbn [shown]. destruct (leaf_cases j) as [(nd & Lf)|[(js & ->)|(kjs & ->)]].
  - apply (holds_leaf h j a nd Lf) in H. rewrite H. destruct j; cbn in Lf; try discriminate; injection Lf as <-; reflexivity.
  - apply holds_arr in H as (l & xs & E & R & F). rewrite E, (kids_arr h a l xs E R). f_equal. assert (Q : forall j, In j js -> (size j <= n)%nat).
    { intros j I. pose proof (size_arr_in j js I). lia. }
    clear - IH F Q. induction F as [|j x js xs Hj F IHF]; [auto|]. cbn [map]. f_equal; [apply IH; auto; apply Q; left; auto|]. apply IHF. intros j' I. apply Q. right. auto.
  - apply holds_obj in H as (m & kas & E & R & F). rewrite E, (kids_obj h a m kas E R). f_equal. assert (Q : forall kj, In kj kjs -> (size (snd kj) <= n)%nat).
    { intros kj I. pose proof (size_obj_in kj kjs I). lia. }
    assert (Ek : m_keys m = map fst kas) by (rewrite <- wrapped_fst; apply R). rewrite Ek. clear - IH F Q.
    induction F as [|(k, j) (k', x) kjs kas (Ekk & Hj) F IHF]; [auto|]. cbn [map combine fst snd] in *. subst k'. f_equal; [f_equal; apply IH; auto; apply (Q (k, j)); left; auto|].
    apply IHF. intros kj I. apply Q. right. auto.
Qed.
Definition two_names : list text := [[105]; [110]].
(** What is expected of the small SQLite *)
Lemma expected : C70_statement -> forall j n info data v d, leaf_node j = Some n -> i_var info = [64; 107] -> i_col info = [107] ->
  source info (given data 0) = Some d -> covers data 1 -> usable 1000 (i_type info) j -> (forall v', member_as (i_type info) j v' -> v' = v) ->
  run_join byval_str_mk [[([107], n)]] info data [110] (Some [114]) = Ok (JArr [JObj [([107], j); ([114], JArr (rows_value (Some [info]) two_names (found_for [v])))]]).
Proof.
  intros C j n info data v d L Vi Ci Sd Co Us Uv.
  assert (Rp : replaced [info] data info) by (exists 0%nat, d; auto).
  assert (One : forall i, replaced [info] data i -> i = info) by (intros i ([|[|k]] & d' & E & _); try discriminate E; injection E as <-; auto).
  assert (Sj : size j = 1%nat) by (destruct j; try reflexivity; discriminate L).
  assert (Szf : forall vals, (size (JArr (rows_value (Some [info]) two_names (found_for vals))) <= 20)%nat).
  { intros vals. assert (G : forall rows, Forall (fun r => exists x y, r = [x; y]) rows -> (size (JArr (rows_value (Some [info]) two_names rows)) <= 1 + 3 * length rows)%nat).
    { clear. intros rows F. unfold rows_value. cbn [size]. induction F as [|r rows (x & y & ->) F IH]; [cbn; lia|]. cbn [map length].
      assert (Sr : (size (row_value (Some [info]) two_names [x; y]) <= 3)%nat).
      { unfold row_value. cbn [two_names combine filter fst]. destruct (returned (Some [info]) [105]), (returned (Some [info]) [110]); destruct x, y; cbn; lia. }
      match goal with |- (S (list_sum (?a :: ?l)) <= _)%nat => change (list_sum (a :: l)) with (a + list_sum l)%nat end. lia. }
    pose proof (G (found_for vals)) as G'. assert (Lb : (length (found_for vals) <= 5)%nat).
    { unfold found_for. change 5%nat with (length books). clear. induction books as [|r l IH]; cbn [filter length]; [lia|]. destruct (match r with [] => false | _ => _ end); cbn [length]; lia. }
    assert (Fb : Forall (fun r => exists x y, r = [x; y]) (found_for vals)).
    { unfold found_for. apply Forall_forall. intros r I. apply filter_In in I as (I & _). cbn in I. repeat (destruct I as [<-|I]; [eauto|]). destruct I. }
    specialize (G' Fb). lia. }
  destruct (C unit j_prepare j_exec j_columns 1000 (fun _ => True) no_msg no_msg2 j_missing j_kind 30%nat [110] (Some [114]) (World unit tt 0 (memory n)) [info] data 2%nat [[([107], j)]] 20%nat)
    as (w' & infos' & data' & zs & E & A & H & _).
  - lia.
  - exact I.
  - split; [constructor; [intros []|constructor]|]. split; [exact Co|]. intros db _. split; [reflexivity|]. split; [constructor; [intros []|constructor]|].
    constructor; [|constructor]. exists info. split; [exact Rp|]. rewrite Vi. auto.
  - intros db vals _. exists tt, (found_for vals). split; [reflexivity|]. split; [exact I|]. split; [|split; [cbn; lia|apply Szf]].
    unfold found_for. apply Forall_forall. intros r I. apply filter_In in I as (I & _). cbn in I. repeat (destruct I as [<-|I]; [reflexivity|]). destruct I.
  - apply memory_holds. auto.
  - rewrite (containers_arr (memory n) 2 (CList 1 10 (Some (Some 0%nat) :: repeat None 9)) [0%nat] _ eq_refl); [|split; [reflexivity|]; split; [reflexivity|]; exists (repeat None 9); reflexivity].
    cbn [map]. rewrite conts_cons. rewrite (containers_obj (memory n) 0 (CMap 1 (Node ([107], Some 1%nat) Nil Nil 1) [[107]]) [([107], 1%nat)] _ eq_refl mrep_one).
    rewrite mconts_cons. cbn [snd]. rewrite (containers_leaf _ j _ n L). cbn. constructor; [intros [X|[]]; discriminate|]. constructor; [intros []|constructor].
  - constructor; [|constructor]. intros i Ri. apply One in Ri as ->. rewrite Ci. exists j. split; [reflexivity|auto].
  - cbn [map size list_sum fold_right snd]. rewrite Sj. cbn. lia.
  - cbn [map size list_sum fold_right snd]. rewrite Sj. cbn. lia.
  - unfold run_join. rewrite memory_ok. cbn [bind]. rewrite E. cbn [bind]. f_equal.
    inversion A as [|db obj objs rows db1 z zs' db' (vals & Ex & Fv) Wr Aj]; subst. inversion Aj; subst. cbn in Ex. injection Ex as _ <-.
    cbn [j_prepare snd] in Fv. inversion Fv as [|p v0 ps vs (i & x & Ii & _ & Lx & M) Fv']; subst. inversion Fv'; subst. destruct Ii as [<-|[]]. rewrite Ci in Lx. cbn in Lx. injection Lx as <-.
    rewrite (Uv v0 M) in *. cbn [with_rows] in Wr. change (j_columns (w_db unit w') [110]) with two_names in Wr. set (X := JArr (rows_value (Some [info]) two_names (found_for [v]))) in *.
    assert (Ew : JsonSpec.with_member [([107], j)] [114] X = [([107], j); ([114], X)]) by reflexivity. rewrite Ew in Wr. subst z. apply (shown_holds _ 30) in H; [exact H|].
    change (size (JArr [JObj [([107], j); ([114], X)]])) with (S (S (size j + (size X + 0)) + 0)). specialize (Szf [v]). fold X in Szf. lia.
Qed.

(** Parameters of type int64: only the int of the entry is set, so all objects get the rows
    for the number that was in the entry. *)
Definition stale : bind_data := BindData 0 5 None 0 true false.
Theorem C70_int64_refuted :
  run_join byval_str_mk [[([107], NI64 7)]; [([107], NI64 8)]] (the_entry T_INT64 stale) None [110] (Some [114]) =
    Ok (JArr [JObj [([107], JI64 7); ([114], JArr [JObj [([105], JI64 5); ([110], JStr [121])]])]; JObj [([107], JI64 8); ([114], JArr [JObj [([105], JI64 5); ([110], JStr [121])]])]]) /\
  ~ C70_statement.
Proof.
  split; [vm_compute; reflexivity|]. intros C.
  pose proof (expected C (JI64 7) (NI64 7) (the_entry T_INT64 stale) None (V_INT 7) stale eq_refl eq_refl eq_refl eq_refl I I) as X.
  assert (U : forall v', member_as T_INT64 (JI64 7) v' -> v' = V_INT 7) by (intros v' M; inversion M; auto). specialize (X U). vm_compute in X. discriminate.
Qed.

(** A size in the entry: the text is cut to it, or read past its end. *)
Definition sized (n : Z) : bind_data := BindData 0 0 None n true false.
Theorem C70_size_refuted :
  run_join byval_str_mk [[([107], NStr [104; 101])]] (the_entry T_TEXT (sized 1)) None [110] (Some [114]) =
    Ok (JArr [JObj [([107], JStr [104; 101]); ([114], JArr [JObj [([105], JStr [104]); ([110], JI64 1)]])]]) /\
  run_join byval_str_mk [[([107], NStr [104; 101])]] (the_entry T_TEXT (sized 9)) None [110] (Some [114]) = Bad OutOfBounds /\
  ~ C70_statement.
Proof.
  split; [vm_compute; reflexivity|]. split; [vm_compute; reflexivity|]. intros C.
  assert (U : forall v', member_as T_TEXT (JStr [104; 101]) v' -> v' = V_TEXT [104; 101]) by (intros v' M; inversion M; auto).
  assert (Us : usable 1000 T_TEXT (JStr [104; 101])) by (split; [intros [Q|[Q|[]]]; discriminate|vm_compute; discriminate]).
  pose proof (expected C (JStr [104; 101]) (NStr [104; 101]) (the_entry T_TEXT (sized 1)) None (V_TEXT [104; 101]) (sized 1) eq_refl eq_refl eq_refl eq_refl I Us U) as X.
  vm_compute in X. discriminate.
Qed.

(** Null in the entry: the parameter is null, whatever the objects have. *)
Definition nulled : bind_data := BindData 0 0 None 0 true true.
Theorem C70_null_refuted :
  run_join byval_str_mk [[([107], NI64 7)]] (the_entry T_INT nulled) None [110] (Some [114]) =
    Ok (JArr [JObj [([107], JI64 7); ([114], JArr [JObj [([105], JNull); ([110], JI64 2)]])]]) /\
  ~ C70_statement.
Proof.
  split; [vm_compute; reflexivity|]. intros C.
  assert (U : forall v', member_as T_INT (JI64 7) v' -> v' = V_INT 7) by (intros v' M; inversion M; auto).
  assert (Us : usable 1000 T_INT (JI64 7)) by (cbn; lia).
  pose proof (expected C (JI64 7) (NI64 7) (the_entry T_INT nulled) None (V_INT 7) nulled eq_refl eq_refl eq_refl eq_refl I Us U) as X.
  vm_compute in X. discriminate.
Qed.

(** These cases as C70_sent_exact has them: such objects can be sent, and what is sent is the
    number in the entry, a part of the text, the text with its NUL, null, and a number modulo 2^32. *)
Example C70_sent_example :
  (forall v, sent (the_entry T_INT64 stale) stale (JI64 7) v <-> v = V_INT 5) /\
  (forall v, sent (the_entry T_TEXT (sized 1)) (sized 1) (JStr [104; 101]) v <-> v = V_TEXT [104]) /\
  (forall v, sent (the_entry T_TEXT (sized 3)) (sized 3) (JStr [104; 101]) v <-> v = V_TEXT [104; 101; 0]) /\
  (forall v, sent (the_entry T_INT nulled) nulled (JI64 7) v <-> v = V_NULL) /\
  (forall v, sent (the_entry T_INT (int_data 0)) (int_data 0) (JI64 (2 ^ 32 + 7)) v <-> v = V_INT 7) /\
  sendable 1000 [the_entry T_TEXT (sized 1)] None [([107], JStr [104; 101])] /\
  run_join byval_str_mk [[([107], NI64 (2 ^ 32 + 7))]] (the_entry T_INT (int_data 0)) None [110] (Some [114]) =
    Ok (JArr [JObj [([107], JI64 (2 ^ 32 + 7)); ([114], JArr [JObj [([105], JI64 7); ([110], JStr [120])]; JObj [([105], JI64 7); ([110], JStr [122])]])]]).
Proof.
  assert (Part : forall (s : text) n (t rest : text), d_size (sized n) = Z.of_nat (length t) -> s = t ++ rest -> t = firstn (Z.to_nat n) s).
  { intros s n t rest E ->. cbn in E. subst n. rewrite Nat2Z.id, firstn_app, Nat.sub_diag, firstn_O, app_nil_r, firstn_all. reflexivity. }
  split; [|split; [|split; [|split; [|split; [|split]]]]].
  - intros v. split; [intros M; inversion M; subst; try discriminate; reflexivity|intros ->]. apply (sent_kept (the_entry T_INT64 stale) stale (JI64 7)); [left|]; reflexivity.
  - intros v. split; [intros [Nu _|z z' _ T _ _ _|_ T|s _ _ _ Sz|s t rest _ _ Es Ep Sz _]; try discriminate|intros ->].
    + injection Es as <-. f_equal. exact (Part _ _ _ _ Sz Ep).
    + apply (sent_part _ _ _ [104; 101] [104] [101; 0]); [left| | | | |]; reflexivity.
  - intros v. split; [intros [Nu _|z z' _ T _ _ _|_ T|s _ _ _ Sz|s t rest _ _ Es Ep Sz _]; try discriminate|intros ->].
    + injection Es as <-. f_equal. exact (Part _ _ _ _ Sz Ep).
    + apply (sent_part _ _ _ [104; 101] [104; 101; 0] []); [left| | | | |]; reflexivity.
  - intros v. split; [intros M; inversion M as [|? ? U|U|? U|? ? ? U]; subst; try reflexivity; destruct U; discriminate|intros ->]. apply sent_null; reflexivity.
  - intros v. split; [intros M; inversion M; subst; try discriminate|intros ->].
    + match goal with H : JI64 _ = JI64 _ |- _ => injection H as <- end. f_equal. match goal with H : _ mod _ = 0 |- _ => apply Z.mod_divide in H as (q & H); [|lia] end. lia.
    + apply (sent_int _ _ _ (2 ^ 32 + 7)); [left; reflexivity|reflexivity|reflexivity|lia|vm_compute; reflexivity].
  - intros [|[|j]] info d E Sd; try discriminate E. injection E as <-. cbn in Sd. injection Sd as <-. exists (JStr [104; 101]). split; [reflexivity|]. split; [exact I|].
    intros _. cbn. split; [intros [Q|[Q|[]]]; discriminate|]. vm_compute. repeat split; discriminate.
  - vm_compute. reflexivity.
Qed.

(** Without a key, a column called error, or a member, ends the join as if it had failed:
    the second object gets no row. *)
Theorem C70_error_refuted :
  run_join byval_str_mk [[([107], NI64 7)]; [([107], NI64 5)]] (the_entry T_INT (int_data 0)) None error_key None =
    Ok (JArr [JObj [([107], JI64 7); ([105], JI64 7); (error_key, JStr [120])]; JObj [([107], JI64 5)]]) /\
  run_join byval_str_mk [[([107], NI64 7); (error_key, NNull)]; [([107], NI64 5)]] (the_entry T_INT (int_data 0)) None [110] None =
    Ok (JArr [JObj [([107], JI64 7); (error_key, JNull); ([105], JI64 7); ([110], JStr [120])]; JObj [([107], JI64 5)]]).
Proof. vm_compute. auto. Qed.

(** A member of a kind that the parameter does not have is not noticed: the rows are those
    for what was in the entry. *)
Theorem C70_kind_refuted :
  run_join byval_str_mk [[([107], NStr [120])]; [([107], NI64 7)]; [([107], NStr [120])]] (the_entry T_INT (int_data 5)) None [110] (Some [114]) =
    let row i n := JObj [([105], JI64 i); ([110], JStr [n])] in
    Ok (JArr [JObj [([107], JStr [120]); ([114], JArr [row 5 121])];
              JObj [([107], JI64 7); ([114], JArr [row 7 120; row 7 122])];
              JObj [([107], JStr [120]); ([114], JArr [row 7 120; row 7 122])]]).
Proof. vm_compute. auto. Qed.

(** With cee_str_mk as it is, no rows are stored: making the name goes wrong. *)
Theorem C70_va_list_refuted : forall DB prepare exec columns limit msg_unbound msg_failed msg_missing msg_kind fuel sql k s a r,
  object_join DB prepare exec columns limit msg_unbound msg_failed msg_missing msg_kind c_str_mk fuel s (Some a) sql (Some k) <> Ok r.
Proof.
  intros DB prepare exec columns limit mu mf mm mk fuel sql k ((w, infos), data) a r E. unfold object_join, join_one in E.
  destruct (fill_items mm mk (w_heap DB w) (Some a) infos 0 infos data) as [((infos1, data1), [msg|])|]; cbn [bind] in E; [| |discriminate].
  - unfold object_set_str in E. destruct (object_at (w_heap DB w) (Some a)); cbn [bind] in E; [|discriminate]. rewrite c_str_mk_bad in E. discriminate.
  - destruct (sql_select DB prepare exec columns limit mu mf c_str_mk fuel w (Some infos1) data1 sql (Some None)) as [((rc, w1), rows)|]; cbn [bind] in E; [|discriminate].
    unfold object_set, add_field in E. destruct (object_at (w_heap DB w1) (Some a)); cbn [bind] in E; [|discriminate].
    destruct (load (w_heap DB w1) (pointee rows)); cbn [bind] in E; [|discriminate]. rewrite c_str_mk_bad in E. discriminate.
Qed.
Example C70_va_list_example : run_join c_str_mk [[([107], NI64 7)]] (the_entry T_INT (int_data 0)) None [110] (Some [114]) = Bad BadVaList.
Proof. vm_compute. reflexivity. Qed.

Print Assumptions C70_join_partial.
Print Assumptions C70_sent_exact.
Print Assumptions C70_stops.
Print Assumptions C70_object.
Print Assumptions C70_int64_refuted.
Print Assumptions C70_va_list_refuted.
