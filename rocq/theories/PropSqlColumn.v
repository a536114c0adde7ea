(** Properties C59 and C73: a row with a column called error, and any status. *)
From Coq Require Import ZArith List Bool Lia Arith.
From Verif Require Import Base IntSpec MapModel MapProofs ListModel ListProofs Json JsonHeapModel JsonHeapSpec JsonHeapProofs JsonFrame JsonMergeProofs JsonFieldProofs JsonSelectModel SqlModel SqlSpec SqlProofs
  SqlSelectModel SqlSelectSpec SqlSelectProofs SqlAsProofs PropSql PropSqlSelect PropSqlAs PropJsonHeap.
Import ListNotations.
Open Scope Z_scope.

(** The value [old] with one more [e] under the name [k]: in an object without the name it is the
    member; to an array it is added, a text becomes an array first.  Other members, and values that are
    not objects, cannot take it. *)
Definition one_more (k : text) (old e : json) : outcome json :=
  match old with
  | JObj kjs =>
    match lookup k kjs with
    | None => Ok (JObj (kjs ++ [(k, e)]))
    | Some (JArr es) => Ok (JObj (replaced k (JArr (es ++ items e)) kjs))
    | Some (JStr t) => Ok (JObj (replaced k (JArr (JStr t :: items e)) kjs))
    | Some (JObj _) => Bad NullDeref
    | Some _ => Bad Abort
    end
  | _ => Bad Abort
  end.

Lemma error_part h kjs a e : holds h (JObj kjs) a -> lookup error_key kjs = Some e ->
  exists x, error_of h (Some a) = Ok (Some x) /\ holds h e x /\ incl (containers h e x) (containers h (JObj kjs) a).
Proof.
  intros H L. pose proof H as H0. apply holds_obj in H as (m & kas & E & R & F). unfold error_of. rewrite (select_error h a m E).
  rewrite (mrep_find m kas key_error R). change key_error with error_key. pose proof (members_lookup error_key F) as M. rewrite L in M. destruct (lookup error_key kas) as [x|] eqn:Lx; [|contradiction].
  exists x. split; [reflexivity|]. split; [exact M|]. rewrite (containers_obj h a m kas kjs E R). intros c I. right. exact (lookup_incl h error_key kjs kas e x F L Lx c I).
Qed.
Lemma append_more k fuel h a old e v : holds h old a -> holds h e v -> NoDup (containers h old a) -> disjoint (containers h old a) (containers h e v) ->
  Z.of_nat (size old) < 2 ^ 64 -> (size e < fuel)%nat ->
  match one_more k old e with
  | Ok z => exists h', object_append byval_str_mk fuel h (Some a) k (Some v) = Ok h' /\ holds h' z a /\
              forall c, (c < length h)%nat -> ~ In c (containers h old a) -> nth_error h' c = nth_error h c
  | Bad r => object_append byval_str_mk fuel h (Some a) k (Some v) = Bad r
  end.
Proof.
  intros Ho He N D B Lf. destruct (leaf_cases old) as [(n & Ln)|[(js & ->)|(kjs & ->)]].
  - assert (Q : one_more k old e = Bad Abort) by (destruct old; try reflexivity; discriminate). rewrite Q.
    apply (holds_leaf h _ a n Ln) in Ho. unfold object_append, object_get, object_at, to_object, load. rewrite Ho. cbn [of_option bind].
    destruct n; try reflexivity. exfalso. eapply leaf_not_obj; eauto.
  - apply holds_arr in Ho as (l & xs & E & _). cbn [one_more]. unfold object_append, object_get, object_at, to_object, load. rewrite E. reflexivity.
  - cbn [one_more].
    assert (In_ : In a (containers h (JObj kjs) a)).
    { pose proof Ho as H0. apply holds_obj in H0 as (m & kas & E & R & F). rewrite (containers_obj h a m kas kjs E R). left. reflexivity. }
    destruct (lookup k kjs) as [x|] eqn:L.
    + pose proof (proj1 C42_kinds_refuted byval_str_mk fuel h a kjs k x v e Ho He L) as K.
      destruct x; try exact K.
      * destruct (append_to_string fuel h a kjs k _ v e Ho He N D L Lf B) as (h' & E & H' & _ & O). exists h'. split; [exact E|]. split; [exact H'|].
        intros c Lc Nc. apply O; [intros ->; auto|exact Lc].
      * destruct (append_to_array byval_str_mk fuel h a kjs k _ v e Ho He N D L Lf) as (h' & E & H' & _ & O). exists h'. split; [exact E|]. split; [exact H'|].
        intros c _ Nc. apply O. exact Nc.
    + destruct (append_absent fuel h a kjs k v e Ho He N D L B) as (h' & E & H' & _ & O). exists h'. split; [exact E|]. split; [exact H'|].
      intros c _ Nc. apply O. intros ->. auto.
Qed.

(** Whatever the status is: without one, nothing is given; an empty one gets the row; another one gets
    only the column error, as one more error, or the call fails. *)
Theorem C59_column_exact :
  forall DB prepare exec columns limit counters mu mf (w : world DB) info data t status old,
  limit < 2 ^ 31 -> can_run DB prepare limit info data (w_db DB w) (t_select t) -> is_value (w_heap DB w) status old ->
  exists vals, runs_with DB prepare limit info data (w_db DB w) (t_select t) vals /\
    forall db' row rows kjs e, exec (w_db DB w) (t_select t) vals = (db', row :: rows, SQLITE_DONE) ->
    let names := columns db' (t_select t) in
    Forall (fun r => length r = length names) (row :: rows) -> Z.of_nat (length names) <= 2 ^ 64 ->
    row_value info names row = JObj kjs -> lookup error_key kjs = Some e ->
    Z.of_nat (size old + size (JArr (rows_value info names (row :: rows)))) < 2 ^ 64 ->
    forall fuel, (size old + size (JArr (rows_value info names (row :: rows))) < fuel)%nat ->
    let run := select1_or_insert DB prepare exec columns limit counters mu mf byval_str_mk fuel w info data t status in
    match status with
    | None => exists h', run = Ok (SQLITE_DONE, World DB db' (w_open DB w) h', None) /\ quiet (w_heap DB w) h'
    | Some None => exists h' a, run = Ok (SQLITE_DONE, World DB db' (w_open DB w) h', Some (Some a)) /\ holds h' (JObj kjs) a /\ quiet (w_heap DB w) h'
    | Some (Some a) =>
      match one_more error_key old e with
      | Ok z => exists h', run = Ok (SQLITE_DONE, World DB db' (w_open DB w) h', status) /\ holds h' z a /\
                  forall c, (c < length (w_heap DB w))%nat -> ~ In c (containers (w_heap DB w) old a) -> nth_error h' c = nth_error (w_heap DB w) c
      | Bad r => run = Bad r
      end
    end.
Proof.
  intros DB prepare exec columns limit counters mu mf w info data t status old Lm Cr V.
  destruct (select1_ok DB prepare exec columns limit mu mf Lm w info data (t_select t) (Some None) JNull Cr eq_refl) as (vals & Rw & Run). exists vals. split; [exact Rw|].
  intros db' row rows kjs e Ex names Fr B Er Le Bs fuel Lf run. pose proof (size_pos old) as Sp. assert (S1 : size JNull = 1%nat) by reflexivity.
  destruct (Run db' (row :: rows) Ex Fr B ltac:(rewrite S1; fold names; lia) fuel ltac:(rewrite S1; fold names; lia)) as (h1 & s1 & E1 & _ & _ & Q). fold names in Q.
  destruct (Q eq_refl) as (Qu & x & -> & Hx & Nx). rewrite Er in Hx, Nx.
  assert (Sz : (size (JObj kjs) < size (JArr (rows_value info names (row :: rows))))%nat) by (rewrite <- Er; apply size_arr_in; left; auto).
  destruct (error_part h1 kjs x e Hx Le) as (v & Ev & He & Ie).
  unfold run, select1_or_insert. rewrite E1. cbn [bind pointee w_heap w_db w_open]. destruct status as [[a|]|].
  - rewrite Ev. cbn [bind]. destruct V as (Ho & Nd). destruct Qu as (L1 & O1).
    assert (K : leaves_kept (w_heap DB w) h1) by (intros c n Ec _; rewrite O1; [auto|apply nth_error_Some; congruence]).
    assert (Lc : forall c, In c (containers (w_heap DB w) old a) -> (c < length (w_heap DB w))%nat).
    { intros c I. destruct (container_node (w_heap DB w) (size old) old a c (le_n _) Ho I) as (nd & En & _). apply nth_error_Some. congruence. }
    destruct (frame (w_heap DB w) h1 K (size old) old a (le_n _) Ho) as (Ho1 & Ec); [intros c I; apply O1, Lc, I|].
    assert (Se : (size e < fuel)%nat).
    { assert (exists k, In (k, e) kjs) as (k & I).
      { clear - Le. induction kjs as [|(k, j) kjs IH]; cbn [lookup] in Le; [discriminate|].
        destruct (list_eq_dec Z.eq_dec error_key k); [injection Le as ->; exists k; left; reflexivity|]. destruct (IH Le) as (k' & I). exists k'. right. exact I. }
      apply size_obj_in in I. cbn [snd] in I. lia. }
    pose proof (append_more error_key fuel h1 a old e v Ho1 He) as A. rewrite Ec in A. specialize (A Nd).
    assert (D : disjoint (containers (w_heap DB w) old a) (containers h1 e v)) by (intros c I J; apply Lc in I; apply Ie, Nx in J; lia).
    specialize (A D ltac:(lia) Se). change key_error with error_key. destruct (one_more error_key old e) as [z|r].
    + destruct A as (h2 & -> & Hz & O2). cbn [bind]. exists h2. split; [reflexivity|]. split; [exact Hz|].
      intros c Lc' Nc. rewrite O2 by (auto; lia). apply O1. exact Lc'.
    + rewrite A. reflexivity.
  - rewrite Ev. cbn [bind]. exists h1, x. auto.
  - exists h1. auto.
Qed.
(** A status without an error, with a text as the error, with a number as the error, and none. *)
Example C59_column_example :
  let go h s := select1_or_insert toy toy_prepare toy_exec (fun _ _ => [[97]; error_key]) 1000 toy_counts no_msg no_msg2 byval_str_mk 30
      (World toy (Toy [] [[V_INT 1; V_TEXT [120]]] 101) 0 h) None None the_stmts s in
  let with_err v := match object_set byval_str_mk [NObj map_mk; v] (Some 0%nat) error_key (Some 1%nat) with Ok h => h | Bad _ => [] end in
  match go (with_err (NStr [98])) (Some (Some 0%nat)), go bd (Some None) with
  | Ok (rc, w, Some (Some a)), Ok (rc', w', Some (Some a')) =>
    (rc, rc') = (SQLITE_DONE, SQLITE_DONE) /\ shown 5 (w_heap toy w) a = JObj [(error_key, JArr [JStr [98]; JStr [120]])] /\
    shown 5 (w_heap toy w') a' = JObj [([97], JI64 1); (error_key, JStr [120])] /\ go (with_err (NI64 3)) (Some (Some 0%nat)) = Bad Abort /\ go [NI64 3] (Some (Some 0%nat)) = Bad Abort
  | _, _ => False
  end.
Proof. vm_compute. auto. Qed.


(** * C73 *)

(** All rows, for any status: none, one that is empty (it becomes the array), and any value. *)
Theorem C73_rows_exact :
  forall DB prepare exec columns limit mu mf (w : world DB) info data sql key status old,
  limit < 2 ^ 31 -> can_run DB prepare limit info data (w_db DB w) sql -> is_value (w_heap DB w) status old ->
  exists vals, runs_with DB prepare limit info data (w_db DB w) sql vals /\
    forall db' rows, exec (w_db DB w) sql vals = (db', rows, SQLITE_DONE) ->
    let names := columns db' sql in let js := JArr (rows_value info names rows) in
    Forall (fun r => length r = length names) rows -> Z.of_nat (length names) <= 2 ^ 64 ->
    Z.of_nat (size old + size js) < 2 ^ 64 -> forall fuel, (size old + size js < fuel)%nat ->
    let run := select_as DB prepare exec columns limit mu mf byval_str_mk fuel w info data sql status key in
    match status with
    | None => exists h', run = Ok (SQLITE_DONE, World DB db' (w_open DB w) h', None) /\ quiet (w_heap DB w) h'
    | Some None => exists h' a, run = Ok (SQLITE_DONE, World DB db' (w_open DB w) h', Some (Some a)) /\ holds h' js a /\ quiet (w_heap DB w) h'
    | Some (Some a) =>
      match one_more key old js with
      | Ok z => exists h', run = Ok (SQLITE_DONE, World DB db' (w_open DB w) h', status) /\ holds h' z a /\
                  forall c, (c < length (w_heap DB w))%nat -> ~ In c (containers (w_heap DB w) old a) -> nth_error h' c = nth_error (w_heap DB w) c
      | Bad r => run = Bad r
      end
    end.
Proof.
  intros DB prepare exec columns limit mu mf w info data sql key status old Lm Cr V.
  destruct (select_ok DB prepare exec columns limit mu mf Lm w info data sql (Some None) [] Cr eq_refl) as (vals & Rw & Run). exists vals. split; [exact Rw|].
  intros db' rows Ex names js Fr B Bs fuel Lf run. pose proof (size_pos old) as Sp. assert (S1 : size (JArr []) = 1%nat) by reflexivity.
  destruct (Run db' rows Ex Fr B ltac:(rewrite S1; fold names js; lia) fuel ltac:(rewrite S1; fold names js; lia)) as (h1 & s1 & E1 & (x & -> & Hx & Nx) & (L1 & O1')).
  assert (O1 : forall c, (c < length (w_heap DB w))%nat -> nth_error h1 c = nth_error (w_heap DB w) c) by (intros c Lc; apply O1'; auto).
  fold names in Hx, Nx. cbn [app] in Hx, Nx. fold js in Hx, Nx.
  pose proof Hx as Hx'. unfold js in Hx'. apply holds_arr in Hx' as (l & xs & En & _).
  unfold run, select_as. rewrite E1. cbn [bind pointee w_heap w_db w_open]. rewrite (no_error_arr h1 x l En). cbn [bind]. destruct status as [[a|]|].
  - destruct V as (Ho & Nd).
    assert (K : leaves_kept (w_heap DB w) h1) by (intros c n Ec _; rewrite O1; [auto|apply nth_error_Some; congruence]).
    assert (Lc : forall c, In c (containers (w_heap DB w) old a) -> (c < length (w_heap DB w))%nat).
    { intros c I. destruct (container_node (w_heap DB w) (size old) old a c (le_n _) Ho I) as (nd & Ed & _). apply nth_error_Some. congruence. }
    destruct (frame (w_heap DB w) h1 K (size old) old a (le_n _) Ho) as (Ho1 & Ec); [intros c I; apply O1, Lc, I|].
    pose proof (append_more key fuel h1 a old js x Ho1 Hx) as A. rewrite Ec in A. specialize (A Nd).
    assert (D : disjoint (containers (w_heap DB w) old a) (containers h1 js x)) by (intros c I J; apply Lc in I; apply Nx in J; lia).
    specialize (A D ltac:(lia) ltac:(lia)). destruct (one_more key old js) as [z|r].
    + destruct A as (h2 & -> & Hz & O2). cbn [bind]. exists h2. split; [reflexivity|]. split; [exact Hz|].
      intros c Lc' Nc. rewrite O2 by (auto; lia). apply O1. exact Lc'.
    + rewrite A. reflexivity.
  - exists h1, x. split; [reflexivity|]. split; [exact Hx|]. split; auto.
  - exists h1. split; [reflexivity|]. split; auto.
Qed.
(** An empty status; an object; a member that is a number; a status that is a number. *)
Example C73_exact_example :
  toy_as 40 (toy_with bd [[V_INT 1]] 101) None None q_all (Some (Some 0%nat)) [98] = Bad Abort /\
  toy_as 40 (toy_with [NI64 3] [[V_INT 1]] 101) None None q_all (Some (Some 0%nat)) [98] = Bad Abort /\
  match toy_as 40 (toy_with bd [[V_INT 1]] 101) None None q_all (Some None) [122], toy_as 40 (toy_with bd [[V_INT 1]] 101) None None q_all (Some (Some 0%nat)) [122] with
  | Ok (_, w, Some (Some a)), Ok (_, w', Some (Some a')) =>
    shown 5 (w_heap toy w) a = JArr [JObj [([97], JI64 1)]] /\ shown 5 (w_heap toy w') a' = JObj [([98], JI64 5); ([100], JI64 6); ([122], JArr [JObj [([97], JI64 1)]])]
  | _, _ => False
  end.
Proof. vm_compute. auto. Qed.

(** One row, in the cases that C73_one_partial leaves out.  Without a status nothing is given.  Without
    a row the call fails, except that an object with the name keeps its members.  A row with a column
    error becomes the status. *)
Theorem C73_one_exact :
  forall DB prepare exec columns limit mu mf (w : world DB) info data sql key status old,
  limit < 2 ^ 31 -> can_run DB prepare limit info data (w_db DB w) sql -> is_value (w_heap DB w) status old ->
  exists vals, runs_with DB prepare limit info data (w_db DB w) sql vals /\
    forall db' rows, exec (w_db DB w) sql vals = (db', rows, SQLITE_DONE) ->
    let names := columns db' sql in let js := JArr (rows_value info names rows) in
    Forall (fun r => length r = length names) rows -> Z.of_nat (length names) <= 2 ^ 64 ->
    Z.of_nat (size old + size js) < 2 ^ 64 -> forall fuel, (size old + size js < fuel)%nat ->
    let run := select1_as DB prepare exec columns limit mu mf byval_str_mk fuel w info data sql status key in
    (status = None -> exists h', run = Ok (SQLITE_DONE, World DB db' (w_open DB w) h', None) /\ quiet (w_heap DB w) h') /\
    match rows with
    | [] =>
      match status, old with
      | None, _ => True
      | Some None, _ => run = Bad NullDeref
      | Some (Some a), JObj kjs =>
        match lookup key kjs with
        | None => run = Bad NullDeref
        | Some _ => exists h', run = Ok (SQLITE_DONE, World DB db' (w_open DB w) h', status) /\ holds h' old a /\ only_value (w_heap DB w) h' status old
        end
      | Some (Some _), _ => run = Bad Abort
      end
    | row :: _ =>
      forall kjs e s, row_value info names row = JObj kjs -> lookup error_key kjs = Some e -> status = Some s ->
        exists h' a, run = Ok (SQLITE_DONE, World DB db' (w_open DB w) h', Some (Some a)) /\ holds h' (JObj kjs) a /\ quiet (w_heap DB w) h'
    end.
Proof.
  intros DB prepare exec columns limit mu mf w info data sql key status old Lm Cr V.
  destruct (select1_ok DB prepare exec columns limit mu mf Lm w info data sql (Some None) JNull Cr eq_refl) as (vals & Rw & Run). exists vals. split; [exact Rw|].
  intros db' rows Ex names js Fr B Bs fuel Lf run. pose proof (size_pos old) as Sp. assert (S1 : size JNull = 1%nat) by reflexivity.
  destruct (Run db' rows Ex Fr B ltac:(rewrite S1; fold names js; lia) fuel ltac:(rewrite S1; fold names js; lia)) as (h1 & s1 & E1 & P).
  unfold run, select1_as. rewrite E1. cbn [bind w_heap w_db w_open]. destruct rows as [|row rows].
  - destruct P as (-> & L1 & O1). cbn [pointee]. assert (N0 : error_of h1 None = Ok None) by reflexivity. rewrite N0. cbn [bind].
    destruct status as [[a|]|]; (split; [intros Q; try discriminate Q|]).
    + destruct V as (Ho & Nd).
      assert (K : leaves_kept (w_heap DB w) h1) by (intros c n Ec _; rewrite O1; [auto|apply nth_error_Some; congruence]).
      assert (Lc : forall c, In c (containers (w_heap DB w) old a) -> (c < length (w_heap DB w))%nat).
      { intros c I. destruct (container_node (w_heap DB w) (size old) old a c (le_n _) Ho I) as (nd & Ed & _). apply nth_error_Some. congruence. }
      destruct (frame (w_heap DB w) h1 K (size old) old a (le_n _) Ho) as (Ho1 & Ec); [intros c I; apply O1, Lc, I|].
      cbn [accept_result pointee].
      destruct (leaf_cases old) as [(n & Ln)|[(js' & ->)|(kjs & ->)]].
      * assert (Q : object_get h1 (Some a) (Some key) = Bad Abort).
        { apply (holds_leaf h1 _ a n Ln) in Ho1. unfold object_get, object_at, to_object, load. rewrite Ho1. cbn [of_option bind].
          destruct n; try reflexivity. exfalso. eapply leaf_not_obj; eauto. }
        rewrite Q. destruct old; try reflexivity. discriminate.
      * apply holds_arr in Ho1 as (l & xs & E & _). unfold object_get, object_at, to_object, load. rewrite E. reflexivity.
      * rewrite <- Ec in Nd. pose proof Ho1 as H0. apply holds_obj in H0 as (m & kas & E & R & F). rewrite (containers_obj h1 a m kas kjs E R) in Nd, Ec.
        inversion Nd as [|? ? N1 N2]; subst. pose proof (size_obj_len kjs) as Sl. pose proof (forall2_len F) as Fl.
        unfold object_get. rewrite (object_at_ok h1 a m E). cbn [bind]. rewrite (mrep_find m kas key R). cbn [bind].
        pose proof (members_lookup key F) as ML. destruct (lookup key kjs) as [x|] eqn:Lk, (lookup key kas) as [o|] eqn:Lo; try contradiction.
        -- destruct fuel as [|fuel]; [lia|]. cbn [merge bind]. destruct (holds_node h1 x o ML) as (nx & Enx & _).
           destruct (set_ok h1 a m kas key o nx E R ltac:(lia) Enx) as (m' & -> & R'). cbn [bind]. rewrite (put_same key o kas Lo) in R'.
           exists (store h1 a (NObj m')). split; [reflexivity|]. split.
           ++ apply holds_obj. exists m', kas. split; [eapply store_same; eauto|]. split; [exact R'|].
              apply (frame_members h1 _ kjs kas); [eapply store_leaves; eauto|exact F|]. intros c I. apply store_other. intros ->; auto.
           ++ split; [rewrite store_length; exact L1|]. intros c Lc' Nc. rewrite store_other; [apply O1; exact Lc'|].
              intros ->. apply Nc. rewrite <- Ec. left. reflexivity.
        -- cbn [bind]. unfold object_set. rewrite (object_at_ok h1 a m E). reflexivity.
    + cbn [accept_result alloc pointee]. unfold object_get, object_set.
      assert (En : nth_error (h1 ++ [NObj map_mk]) (length h1) = Some (NObj map_mk)) by apply alloc_new.
      rewrite (object_at_ok _ _ _ En). cbn [bind].
      assert (Q : map_find text nat strcmp (Some map_mk) (Some key) = Ok None) by reflexivity. rewrite Q. cbn [bind].
      rewrite (object_at_ok _ _ _ En). reflexivity.
    + exists h1. split; [reflexivity|split; auto].
    + exact I.
  - fold names in P. destruct P as (_ & _ & Q). destruct (Q eq_refl) as (Qu & x & -> & Hx & Nx). cbn [pointee]. split.
    + intros ->. assert (Er : exists r, error_of h1 (Some x) = Ok r).
      { destruct (leaf_cases (row_value info names row)) as [(n & Ln)|[(js' & Ej)|(kjs & Ej)]].
        - apply (holds_leaf h1 _ x n Ln) in Hx. exists None. apply (no_error_node h1 x n Hx). intros m ->. eapply leaf_not_obj; eauto.
        - rewrite Ej in Hx. apply holds_arr in Hx as (l & ? & En & _). exists None. apply (no_error_arr h1 x l En).
        - rewrite Ej in Hx. destruct (error_obj h1 kjs x Hx) as (r & E & _). eauto. }
      destruct Er as (r & ->). cbn [bind]. exists h1. split; [destruct r; reflexivity|exact Qu].
    + intros kjs e s Er Le ->. rewrite Er in Hx. destruct (error_part h1 kjs x e Hx Le) as (v & -> & _). cbn [bind]. exists h1, x. auto.
Qed.
Example C73_one_exact_example :
  toy_as1 40 (toy_with bd [] 101) None None q_all (Some (Some 0%nat)) [122] = Bad NullDeref /\ toy_as1 40 (toy_with [NI64 3] [] 101) None None q_all (Some (Some 0%nat)) [122] = Bad Abort /\
  match toy_as1 40 (toy_with bd [] 101) None None q_all (Some (Some 0%nat)) [98] with
  | Ok (_, w, Some (Some a)) => shown 5 (w_heap toy w) a = JObj [([98], JI64 5); ([100], JI64 6)]
  | _ => False
  end /\
  match toy_as1 40 (toy_with bd [[V_INT 1]] 101) None None q_all None [122] with Ok (rc, w, None) => rc = SQLITE_DONE /\ firstn 3 (w_heap toy w) = firstn 3 bd | _ => False end.
Proof. vm_compute. auto. Qed.

Print Assumptions C59_column_exact.
Print Assumptions C73_rows_exact.
Print Assumptions C73_one_exact.
