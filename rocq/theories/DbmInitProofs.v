(** Proofs about making and migrating databases. *)
From Coq Require Import String Ascii ZArith List Bool Lia Arith.
From Verif Require Import Base Numeral Json JsonSelectProofs DbmTextModel DbmTextSpec DbmDirModel DbmDirSpec DbmDirProofs DbmInitModel DbmInitSpec.
Import ListNotations.
Open Scope Z_scope.
Open Scope outcome_scope.

(** * Names *)
Lemma cut_short size t : (length t < size)%nat -> cut size t = t.
Proof. intros L. unfold cut. apply firstn_all2. lia. Qed.
Lemma script_name dir kind what v : (length dir + length kind <= 100)%nat -> (length (code what) <= 9)%nat -> - 2 ^ 31 <= v < 2 ^ 31 ->
  cut 128 (dir ++ bytes "/" ++ kind ++ (95 :: code what ++ [46]) ++ decimal_of v ++ bytes ".sql") = sql_file dir kind what v.
Proof.
  intros L Lw Bv. pose proof (decimal_length v Bv) as Ld. rewrite cut_short.
  - unfold sql_file. cbn [app]. rewrite <- !app_assoc. reflexivity.
  - repeat (rewrite app_length; cbn [length]). change (length (bytes "/")) with 1%nat. change (length (bytes ".sql")) with 4%nat. lia.
Qed.
Lemma before_slash_ok dp n : Forall (fun x => x <> slash) n -> before_slash (dp ++ slash :: n) = Some dp.
Proof.
  intros F. unfold before_slash. rewrite rev_app_distr. cbn [rev]. rewrite <- app_assoc. cbn [app].
  assert (E : drop_name (rev n ++ slash :: rev dp) = slash :: rev dp).
  { apply Forall_rev in F. induction F as [|x l H F IH]; cbn [app drop_name]; [reflexivity|]. destruct (Z.eqb_spec x slash); [contradiction|exact IH]. }
  rewrite E, rev_involutive. reflexivity.
Qed.
Lemma names_file dp n : n <> [] -> Forall (fun x => x <> slash) n -> names_of (dp ++ slash :: n) = names_of dp ++ [n].
Proof. intros N F. rewrite names_slash, (names_name n N F). reflexivity. Qed.
Lemma start_app cwd dp r : dp <> [] -> start cwd (dp ++ r) = start cwd dp.
Proof. intros N. destruct dp; [contradiction|reflexivity]. Qed.
Lemma last_file dp n : n <> [] -> Forall (fun x => x <> slash) n -> (last (dp ++ slash :: n) slash =? slash) = false.
Proof.
  intros N F. destruct n as [|a n] using rev_ind; [contradiction|]. apply Forall_app in F as (_ & F). apply Forall_inv in F.
  replace (dp ++ slash :: n ++ [a]) with ((dp ++ slash :: n) ++ [a]) by (rewrite <- app_assoc; reflexivity). rewrite last_last. apply Z.eqb_neq, F.
Qed.
Lemma last_file0 dp n : n <> [] -> Forall (fun x => x <> slash) n -> (last (dp ++ slash :: n) 0 =? slash) = false.
Proof.
  intros N F. destruct n as [|a n] using rev_ind; [contradiction|]. apply Forall_app in F as (_ & F). apply Forall_inv in F.
  replace (dp ++ slash :: n ++ [a]) with ((dp ++ slash :: n) ++ [a]) by (rewrite <- app_assoc; reflexivity). rewrite last_last. apply Z.eqb_neq, F.
Qed.

(** * A file in a directory *)
Definition keeps (fs fs' : fsys) : Prop := forall q k, entry fs q = Some k -> entry fs' q = Some k.
Lemma walk_keeps fs fs' ns : keeps fs fs' -> forall cur p, walk fs cur ns = Some p -> walk fs' cur ns = Some p.
Proof.
  intros K. induction ns as [|n ns IH]; intros cur p W; cbn [walk] in *; [exact W|].
  destruct (entry fs cur) as [[]|] eqn:E; try discriminate. rewrite (K _ _ E). destruct (is_name n dot); [auto|]. destruct (is_name n dotdot); [auto|].
  destruct (entry fs (cur ++ [n])) eqn:E2; [|discriminate]. rewrite (K _ _ E2). auto.
Qed.
Lemma add_keeps fs q k : keeps fs (fs ++ [(q, k)]).
Proof. intros p j E. destruct p; [exact E|]. cbn [entry] in *. rewrite find_app, E. reflexivity. Qed.
Lemma entry_file fs q p : q <> [] -> entry (fs ++ [(q, File)]) p = match entry fs p with Some x => Some x | None => if path_dec q p then Some File else None end.
Proof. intros N. destruct p as [|a p]; [reflexivity|]. apply find_app. Qed.

Section Place.
Variable cwd : list text.
Variable dp n : text.
Variable dir : list text.
Hypothesis dp_not : dp <> [].
Hypothesis n_not : n <> [].
Hypothesis n_flat : Forall (fun x => x <> slash) n.
Hypothesis n_ord : ordinary n.
Notation file_path := (dp ++ slash :: n).
Notation home := (home cwd dp dir).

Lemma home_keeps fs fs' : keeps fs fs' -> home fs -> home fs'.
Proof. intros K (W & D). split; [exact (walk_keeps _ _ _ K _ _ W)|exact (K _ _ D)]. Qed.
Lemma walk_file fs : home fs -> walk fs (start cwd file_path) (names_of file_path) = match entry fs (dir ++ [n]) with Some _ => Some (dir ++ [n]) | None => None end.
Proof.
  intros (W & D). rewrite start_app, names_file, walk_app, W by auto. cbn [walk]. rewrite D. unfold is_name, dot, dotdot. destruct n_ord as (N1 & N2).
  destruct (list_eq_dec Z.eq_dec n [46]); [contradiction|]. destruct (list_eq_dec Z.eq_dec n [46; 46]); [contradiction|]. reflexivity.
Qed.
Lemma stat_file fs : home fs -> entry fs (dir ++ [n]) <> Some Dir -> c_stat fs cwd file_path = match entry fs (dir ++ [n]) with Some _ => true | None => false end.
Proof.
  intros H Nd. unfold c_stat. destruct file_path as [|c0 t0] eqn:Q; [destruct dp; discriminate Q|]. rewrite <- Q. rewrite (walk_file fs H).
  destruct (entry fs (dir ++ [n])) as [[]|] eqn:E; [contradiction| |reflexivity]. rewrite E, last_file0 by auto. reflexivity.
Qed.
Lemma create_ok fs : home fs -> entry fs (dir ++ [n]) <> Some Dir ->
  create_file fs cwd file_path = Some (match entry fs (dir ++ [n]) with Some _ => fs | None => fs ++ [(dir ++ [n], File)] end, dir ++ [n]).
Proof.
  intros H Nd. unfold create_file, locate. rewrite (stat_file fs H Nd). destruct (entry fs (dir ++ [n])) as [[]|] eqn:E; [contradiction| |].
  - rewrite (walk_file fs H), E, E. reflexivity.
  - rewrite last_file by auto. rewrite names_file, rev_app_distr by auto. cbn [rev app]. rewrite rev_involutive, start_app by auto. destruct H as (W & D). rewrite W, D.
    unfold is_name, dot, dotdot. destruct n_ord as (N1 & N2). destruct (list_eq_dec Z.eq_dec n [46]); [contradiction|]. destruct (list_eq_dec Z.eq_dec n [46; 46]); [contradiction|].
    cbn [orb]. rewrite E. reflexivity.
Qed.
Lemma create_none fs : walk fs (start cwd dp) (names_of dp) = None -> create_file fs cwd file_path = None.
Proof.
  intros W. unfold create_file, locate.
  assert (S : c_stat fs cwd file_path = false).
  { unfold c_stat. destruct file_path as [|c0 t0] eqn:Q; [reflexivity|]. rewrite <- Q. rewrite start_app, names_file, walk_app, W by auto. reflexivity. }
  rewrite S, last_file by auto. rewrite names_file, rev_app_distr by auto. cbn [rev app]. rewrite rev_involutive, start_app, W by auto. reflexivity.
Qed.
End Place.

Lemma walk_made_back fs ns : tree fs -> Forall ordinary ns -> forall cur p, walk fs cur ns = Some p -> entry fs p = Some Dir -> made fs cur ns = Some (fs, p).
Proof.
  intros T O. induction O as [|n ns (N1 & N2) O IH]; intros cur p W E; cbn [walk made] in *; [injection W as <-; reflexivity|].
  destruct (entry fs cur) as [[]|]; try discriminate. unfold is_name, dot, dotdot in W.
  destruct (list_eq_dec Z.eq_dec n [46]); [contradiction|]. destruct (list_eq_dec Z.eq_dec n [46; 46]); [contradiction|].
  destruct (entry fs (cur ++ [n])) as [k|] eqn:E2; [|discriminate].
  assert (X : k = Dir).
  { destruct ns as [|m ns]; [cbn [walk] in W; injection W as <-; congruence|]. cbn [walk] in W. rewrite E2 in W. destruct k; [reflexivity|discriminate]. }
  subst k. apply IH; auto.
Qed.

(** * The database *)
Section Init.
Variable DB : Type.
Variable fresh : DB.
Variable run : DB -> text -> option DB.
Variable user_version : DB -> Z.
Variable script : text -> option text.
Variable cwd : list text.
Variable dp n : text.
Variable dir : list text.
Hypothesis dp_not : dp <> [].
Hypothesis n_not : n <> [].
Hypothesis n_flat : Forall (fun x => x <> slash) n.
Hypothesis n_ord : ordinary n.
Notation db_file := (dp ++ slash :: n).
Notation place := (dir ++ [n]).
Notation Dbm := (Dbm DB).
Notation dbm := (dbm DB).
Variable w0 : dbm.
Variable F0 : fsys.
Hypothesis F0_home : home cwd dp dir F0.
Hypothesis F0_free : entry F0 place <> Some Dir.

(** The database has [x] in it; nothing else has changed.  [op] connections are open. *)
Definition st (op : Z) (l : list row) (w : dbm) (x : DB) : Prop :=
  (forall q, entry (d_fs DB w) q = if path_dec q place then Some File else entry F0 q) /\ d_db DB w place = x /\
  (forall q, q <> place -> d_db DB w q = d_db DB w0 q) /\ d_log DB w = d_log DB w0 ++ l /\ d_open DB w = op.
(** Rows that are logged, if there is a connection *)
Definition logged (c : bool) (l : list row) : list row := if c then l else [].
(** It is not there yet. *)
Definition absent (op : Z) (l : list row) (w : dbm) : Prop :=
  entry F0 place = None /\ (forall q, entry (d_fs DB w) q = entry F0 q) /\
  (forall q, d_db DB w q = d_db DB w0 q) /\ d_log DB w = d_log DB w0 ++ l /\ d_open DB w = op.

Lemma st_home op l w x : st op l w x -> home cwd dp dir (d_fs DB w) /\ entry (d_fs DB w) place = Some File.
Proof.
  intros (Ef & _). split.
  - apply (home_keeps cwd dp dir F0); [|exact F0_home]. intros q k E. rewrite Ef. destruct (path_dec q place) as [->|]; [|exact E]. destruct k; [contradiction|reflexivity].
  - rewrite Ef. destruct (path_dec place place); [reflexivity|contradiction].
Qed.
Lemma absent_home op l w : absent op l w -> home cwd dp dir (d_fs DB w) /\ entry (d_fs DB w) place = None.
Proof.
  intros (En & Ef & _). split; [|rewrite Ef; exact En]. apply (home_keeps cwd dp dir F0); [|exact F0_home]. intros q k E. rewrite Ef. exact E.
Qed.
Lemma st_log op l w x c k a r : st op l w x -> st op (l ++ logged c [(k, a, r)]) (add_log DB w c k a r) x.
Proof.
  intros (A & B & C & L & O). unfold add_log. destruct c; cbn [logged]; [|rewrite app_nil_r; split; [exact A|]; split; [exact B|]; split; [exact C|]; split; [exact L|exact O]].
  split; [exact A|]. split; [exact B|]. split; [exact C|]. split; [|exact O]. cbn [d_log]. rewrite L, <- app_assoc. reflexivity.
Qed.
Lemma absent_log op l w c k a r : absent op l w -> absent op (l ++ logged c [(k, a, r)]) (add_log DB w c k a r).
Proof.
  intros (A & B & C & L & O). unfold add_log. destruct c; cbn [logged]; [|rewrite app_nil_r; split; [exact A|]; split; [exact B|]; split; [exact C|]; split; [exact L|exact O]].
  split; [exact A|]. split; [exact B|]. split; [exact C|]. split; [|exact O]. cbn [d_log]. rewrite L, <- app_assoc. reflexivity.
Qed.
Lemma open_st op l w x : st op l w x -> exists w', sqlite3_open DB fresh cwd w db_file = Some (w', place) /\ st (op + 1) l w' x.
Proof.
  intros S. destruct (st_home op l w x S) as (H & E). unfold sqlite3_open.
  rewrite (create_ok cwd dp n dir dp_not n_not n_flat n_ord _ H) by congruence. rewrite E. eexists. split; [reflexivity|].
  destruct S as (A & B & C & L & O). split; [exact A|]. split; [exact B|]. split; [exact C|]. split; [exact L|]. cbn [d_open]. lia.
Qed.
Lemma open_absent op l w : absent op l w -> exists w', sqlite3_open DB fresh cwd w db_file = Some (w', place) /\ st (op + 1) l w' fresh.
Proof.
  intros S. destruct (absent_home op l w S) as (H & E). unfold sqlite3_open.
  rewrite (create_ok cwd dp n dir dp_not n_not n_flat n_ord _ H) by congruence. rewrite E. eexists. split; [reflexivity|].
  destruct S as (A & B & C & L & O). split; [|split; [|split; [|split]]].
  - intros q. cbn [set_db d_fs]. rewrite entry_file by (destruct dir; discriminate). rewrite B.
    destruct (path_dec q place) as [->|Nq]; [rewrite A; destruct (path_dec place place); [reflexivity|contradiction]|].
    destruct (entry F0 q); [reflexivity|]. destruct (path_dec place q); [congruence|reflexivity].
  - cbn [set_db d_db]. destruct (path_dec place place); [reflexivity|contradiction].
  - intros q Nq. cbn [set_db d_db]. destruct (path_dec q place); [contradiction|]. apply C.
  - exact L.
  - cbn [set_db d_open]. lia.
Qed.
Lemma closed_st op l w x : st (op + 1) l w x -> st op l (closed DB w) x.
Proof. intros (A & B & C & L & O). split; [exact A|]. split; [exact B|]. split; [exact C|]. split; [exact L|]. cbn [closed d_open]. lia. Qed.
Lemma set_st op l w x y : st op l w x -> st op l (set_db DB w place y) y.
Proof.
  intros (A & B & C & L & O). split; [exact A|]. split; [cbn [set_db d_db]; destruct (path_dec place place); [reflexivity|contradiction]|].
  split; [|split; [exact L|exact O]]. intros q Nq. cbn [set_db d_db]. destruct (path_dec q place); [contradiction|]. apply C, Nq.
Qed.
Lemma version_st op l w x : st op l w x -> exists w', get_user_version DB fresh user_version cwd w db_file = (user_version x, w') /\ st op l w' x.
Proof.
  intros S. destruct (open_st op l w x S) as (w1 & E & S1). unfold get_user_version. rewrite E. eexists. split; [|apply closed_st, S1].
  destruct S1 as (_ & -> & _). reflexivity.
Qed.
Lemma init_st op l w x s y : st op l w x -> run x s = Some y -> exists w', init_db DB fresh run cwd w db_file (Some s) = Ok w' /\ st op l w' y.
Proof.
  intros S R. destruct (open_st op l w x S) as (w1 & E & S1). unfold init_db. rewrite E. pose proof S1 as (_ & -> & _). rewrite R.
  eexists. split; [reflexivity|]. apply closed_st, set_st with (x := x), S1.
Qed.
Lemma init_absent op l w s y : absent op l w -> run fresh s = Some y -> exists w', init_db DB fresh run cwd w db_file (Some s) = Ok w' /\ st op l w' y.
Proof.
  intros S R. destruct (open_absent op l w S) as (w1 & E & S1). unfold init_db. rewrite E. pose proof S1 as (_ & -> & _). rewrite R.
  eexists. split; [reflexivity|]. apply closed_st, set_st with (x := fresh), S1.
Qed.
Notation apply := (my_apply_script DB fresh run script cwd).
Lemma init_none op l w x : st op l w x -> exists w', init_db DB fresh run cwd w db_file None = Ok w' /\ st op l w' x.
Proof. intros S. destruct (open_st op l w x S) as (w1 & E & S1). unfold init_db. rewrite E. eexists. split; [reflexivity|]. apply closed_st, S1. Qed.
Lemma init_absent_none op l w : absent op l w -> exists w', init_db DB fresh run cwd w db_file None = Ok w' /\ st op l w' fresh.
Proof. intros S. destruct (open_absent op l w S) as (w1 & E & S1). unfold init_db. rewrite E. eexists. split; [reflexivity|]. apply closed_st, S1. Qed.
Lemma init_bad op l w x s : st op l w x -> run x s = None -> init_db DB fresh run cwd w db_file (Some s) = Bad Abort.
Proof. intros S R. destruct (open_st op l w x S) as (w1 & E & S1). unfold init_db. rewrite E. pose proof S1 as (_ & -> & _). rewrite R. reflexivity. Qed.
Lemma init_absent_bad op l w s : absent op l w -> run fresh s = None -> init_db DB fresh run cwd w db_file (Some s) = Bad Abort.
Proof. intros S R. destruct (open_absent op l w S) as (w1 & E & S1). unfold init_db. rewrite E. pose proof S1 as (_ & -> & _). rewrite R. reflexivity. Qed.
Lemma apply_st op l w x k f c y : st op l w x -> if_there DB run script x f = Some y -> exists w', apply w k db_file f c = Ok w' /\ st op (l ++ logged c [ran k db_file f]) w' y.
Proof.
  intros S A. unfold if_there in A. unfold my_apply_script. destruct (script f) as [s|].
  - apply (init_st op _ _ x); [apply st_log, S|exact A].
  - injection A as <-. apply (init_none op). apply st_log, S.
Qed.
Lemma apply_absent op l w k f c y : absent op l w -> if_there DB run script fresh f = Some y -> exists w', apply w k db_file f c = Ok w' /\ st op (l ++ logged c [ran k db_file f]) w' y.
Proof.
  intros S A. unfold if_there in A. unfold my_apply_script. destruct (script f) as [s|].
  - apply (init_absent op _ _); [apply absent_log, S|exact A].
  - injection A as <-. apply (init_absent_none op). apply absent_log, S.
Qed.
Lemma apply_bad op l w x k f c : st op l w x -> if_there DB run script x f = None -> apply w k db_file f c = Bad Abort.
Proof.
  intros S A. unfold if_there in A. unfold my_apply_script. destruct (script f) as [s|]; [|discriminate]. apply (init_bad op (l ++ logged c [(k, bytes "apply", cut 64 (f ++ bytes " to " ++ db_file))]) _ x); [apply st_log, S|exact A].
Qed.
Lemma apply_absent_bad op l w k f c : absent op l w -> if_there DB run script fresh f = None -> apply w k db_file f c = Bad Abort.
Proof.
  intros S A. unfold if_there in A. unfold my_apply_script. destruct (script f) as [s|]; [|discriminate]. apply (init_absent_bad op (l ++ logged c [(k, bytes "apply", cut 64 (f ++ bytes " to " ++ db_file))]) _); [apply absent_log, S|exact A].
Qed.
Lemma optional_bad op l w x f (k : text) c a1 r1 a2 r2 : st op l w x -> if_there DB run script x f = None ->
  (if there script f then apply (add_log DB w c k a1 r1) k db_file f c else Ok (add_log DB w c k a2 r2)) = Bad Abort.
Proof.
  intros S A. replace (there script f) with true by (unfold if_there in A; unfold there; destruct (script f); [reflexivity|discriminate]).
  apply (apply_bad op (l ++ logged c [(k, a1, r1)]) _ x); [apply st_log, S|exact A].
Qed.

(** A script that need not be there, with what is logged *)
Lemma optional_st op l w x f y (k : text) c a1 r1 a2 r2 : st op l w x -> if_there DB run script x f = Some y ->
  exists w', (if there script f then apply (add_log DB w c k a1 r1) k db_file f c else Ok (add_log DB w c k a2 r2)) = Ok w' /\
    st op (l ++ logged c (match script f with Some _ => [(k, a1, r1); ran k db_file f] | None => [(k, a2, r2)] end)) w' y.
Proof.
  intros S A. unfold if_there in A. unfold there. destruct (script f) as [s|] eqn:E.
  - destruct (apply_st op (l ++ logged c [(k, a1, r1)]) (add_log DB w c k a1 r1) x k f c y) as (w' & E' & S'); [apply st_log, S|unfold if_there; rewrite E; exact A|]. exists w'. split; [exact E'|].
    rewrite <- app_assoc in S'. destruct c; exact S'.
  - injection A as <-. eexists. split; [reflexivity|apply st_log, S].
Qed.

Hypothesis versions : forall x, - 2 ^ 31 <= user_version x < 2 ^ 31.

Lemma restore_st op l w x d s (prefix : option text) (pr : text) c y :
  pr = match prefix with Some p => p | None => kind s end ->
  st op l w x -> (length (p_data d) + length (kind s) <= 100)%nat -> (length (p_data d) + length pr <= 100)%nat ->
  andthen (if_there DB run script x (sql_file (p_data d) pr "insert" (user_version x)))
    (fun z => if customize_db s then if_there DB run script z (sql_file (p_data d) (kind s) "customize" (user_version x)) else Some z) = Some y ->
  exists w', restore DB fresh run script cwd w d s db_file prefix (user_version x) c = Ok w' /\
    st op (l ++ logged c (data_rows script (kind s) db_file (sql_file (p_data d) pr "insert" (user_version x)) " to restore data " "cannot find restoration script " ++
       (if customize_db s then data_rows script (kind s) db_file (sql_file (p_data d) (kind s) "customize" (user_version x)) " to customize data " "cannot find customization script " else []))) w' y.
Proof.
  intros Epr S L1 L2 A. unfold restore, script_file. rewrite <- Epr.
  pose proof (script_name (p_data d) pr "insert" (user_version x) L2 ltac:(cbn; lia) (versions x)) as Q. rewrite <- Q in A |- *. clear Q.
  change (95 :: code "insert" ++ [46]) with (bytes "_insert.") in A |- *.
  set (f := cut 128 _) in *. destruct (if_there DB run script x f) as [z|] eqn:E; [|discriminate]. cbn [andthen] in A.
  destruct (optional_st op l w x f z (kind s) c (bytes "restore") (cut 256 (bytes "run " ++ f ++ bytes " to restore data " ++ db_file)) (bytes "restore") (cut 256 (bytes "cannot find restoration script " ++ f)) S E) as (w1 & E1 & S1).
  rewrite E1. cbn [bind]. destruct (customize_db s); [|injection A as <-; eexists; split; [reflexivity|rewrite app_nil_r; exact S1]].
  rewrite <- (script_name (p_data d) (kind s) "customize" (user_version x) L1 ltac:(cbn; lia) (versions x)) in A |- *. change (95 :: code "customize" ++ [46]) with (bytes "_customize.") in A |- *.
  match goal with |- context [there script ?g] => set (f2 := g) in * end.
  destruct (optional_st op _ w1 z f2 y (kind s) c (bytes "restore") (cut 256 (bytes "run " ++ f2 ++ bytes " to customize data " ++ db_file)) (bytes "restore") (cut 256 (bytes "cannot find customization script " ++ f2)) S1 A) as (w2 & E2 & S2).
  exists w2. split; [exact E2|]. rewrite <- app_assoc in S2. destruct c; cbn [logged app] in *; exact S2.
Qed.
Lemma migrate_st op l w x0 x d s c y :
  st op l w x -> (length (p_schema d) + length (kind s) <= 100)%nat -> if_there DB run script x (sql_file (p_schema d) (kind s) "migrate" (user_version x0)) = Some y ->
  exists w', migrate DB fresh run user_version script cwd w d s db_file (user_version x0) c = Ok w' /\
    st op (l ++ logged c (let next := sql_file (p_schema d) (kind s) "migrate" (user_version x0) in
      match script next with
      | Some _ => ran (kind s) db_file next :: (if user_version y =? user_version x0 then [] else [(kind s, code "migrate", short 256 (code "ran " ++ next ++ code " to migrate " ++ db_file ++ code " to version " ++ decimal_of (user_version y)))])
      | None => [(kind s, code "migrate", short 256 (code "cannot find " ++ next ++ code ", no migration"))]
      end)) w' y.
Proof.
  intros S L A. unfold migrate, script_file. cbn zeta. rewrite <- (script_name (p_schema d) (kind s) "migrate" (user_version x0) L) in A |- * by (auto; cbn; lia).
  change (95 :: code "migrate" ++ [46]) with (bytes "_migrate.") in A |- *. set (f := cut 128 _) in *. unfold if_there in A. unfold there.
  destruct (script f) as [t|] eqn:E.
  - destruct (apply_st op l w x (kind s) f c y S) as (w1 & E1 & S1); [unfold if_there; rewrite E; exact A|]. rewrite E1. cbn [bind].
    destruct (version_st op _ w1 y S1) as (w2 & E2 & S2). rewrite E2. cbn zeta. destruct (user_version y =? user_version x0); eexists; (split; [reflexivity|]); [exact S2|].
    apply (st_log _ _ _ _ c (kind s) (bytes "migrate") (cut 256 (bytes "ran " ++ f ++ bytes " to migrate " ++ db_file ++ bytes " to version " ++ decimal_of (user_version y)))) in S2. rewrite <- app_assoc in S2. destruct c; exact S2.
  - injection A as <-. eexists. split; [reflexivity|apply st_log, S].
Qed.

Lemma restore_bad op l w x d s (prefix : option text) (pr : text) c :
  pr = match prefix with Some p => p | None => kind s end ->
  st op l w x -> (length (p_data d) + length (kind s) <= 100)%nat -> (length (p_data d) + length pr <= 100)%nat ->
  andthen (if_there DB run script x (sql_file (p_data d) pr "insert" (user_version x)))
    (fun z => if customize_db s then if_there DB run script z (sql_file (p_data d) (kind s) "customize" (user_version x)) else Some z) = None ->
  restore DB fresh run script cwd w d s db_file prefix (user_version x) c = Bad Abort.
Proof.
  intros Epr S L1 L2 A. unfold restore, script_file. rewrite <- Epr.
  pose proof (script_name (p_data d) pr "insert" (user_version x) L2 ltac:(cbn; lia) (versions x)) as Q. rewrite <- Q in A. clear Q.
  change (95 :: code "insert" ++ [46]) with (bytes "_insert.") in A.
  set (f := cut 128 (p_data d ++ bytes "/" ++ pr ++ _)) in *. change (if_there DB run script x (cut 128 (p_data d ++ 47 :: pr ++ bytes "_insert." ++ decimal_of (user_version x) ++ bytes ".sql"))) with (if_there DB run script x f) in A.
  destruct (if_there DB run script x f) as [z|] eqn:E; cbn [andthen] in A.
  - destruct (optional_st op l w x f z (kind s) c (bytes "restore") (cut 256 (bytes "run " ++ f ++ bytes " to restore data " ++ db_file)) (bytes "restore") (cut 256 (bytes "cannot find restoration script " ++ f)) S E) as (w1 & E1 & S1).
    rewrite E1. cbn [bind]. destruct (customize_db s); [|discriminate].
    rewrite <- (script_name (p_data d) (kind s) "customize" (user_version x) L1 ltac:(cbn; lia) (versions x)) in A. change (95 :: code "customize" ++ [46]) with (bytes "_customize.") in A.
    eapply optional_bad; [exact S1|exact A].
  - rewrite (optional_bad op l w x f (kind s) c _ _ _ _ S E). reflexivity.
Qed.
Lemma migrate_bad op l w x0 x d s c :
  st op l w x -> (length (p_schema d) + length (kind s) <= 100)%nat -> if_there DB run script x (sql_file (p_schema d) (kind s) "migrate" (user_version x0)) = None ->
  migrate DB fresh run user_version script cwd w d s db_file (user_version x0) c = Bad Abort.
Proof.
  intros S L A. unfold migrate, script_file. rewrite <- (script_name (p_schema d) (kind s) "migrate" (user_version x0) L) in A by (auto; cbn; lia).
  change (95 :: code "migrate" ++ [46]) with (bytes "_migrate.") in A. cbn zeta.
  match type of A with if_there _ _ _ _ ?g = _ => change (cut 128 (p_schema d ++ bytes "/" ++ kind s ++ bytes "_migrate." ++ decimal_of (user_version x0) ++ bytes ".sql")) with g; set (f := g) in * end.
  replace (there script f) with true by (unfold if_there in A; unfold there; destruct (script f); [reflexivity|discriminate]).
  rewrite (apply_bad op l w x (kind s) f c S A). reflexivity.
Qed.

(** What follows after the directory is there *)
Definition rest (w : dbm) (d : dirs) (s : db_info) (prefix : option text) (conn : bool) : outcome (bool * Z * dbm) :=
  (let create := script_file (p_schema d) (kind s) (bytes "_create.") (create_version s) in
  let* (is_new_db, w) :=
    if c_stat (d_fs DB w) cwd db_file then
      if recreate_db s then
        let w := add_log DB w conn (kind s) (bytes "recreate") (cut 256 (bytes "drop all tables of " ++ db_file ++ bytes " to RECREATE a fresh db")) in
        let* w := drop_all_tables DB fresh run cwd w db_file in
        let* w := apply w (kind s) db_file create conn in
        Ok (true, w)
      else Ok (false, w)
    else
      let w := add_log DB w conn (kind s) (bytes "create") (cut 256 (bytes "create a new " ++ db_file ++ bytes " with " ++ create)) in
      let* w := apply w (kind s) db_file create conn in
      Ok (true, w) in
  let (current_version, w) := get_user_version DB fresh user_version cwd w db_file in
  let w := add_log DB w conn (kind s) (bytes "open") (cut 256 (bytes "user_version " ++ decimal_of current_version)) in
  let* w := if is_new_db && restore_db s then restore DB fresh run script cwd w d s db_file prefix current_version conn else Ok w in
  let* w := migrate DB fresh run user_version script cwd w d s db_file current_version conn in
  let (v, w) := get_user_version DB fresh user_version cwd w db_file in
  Ok (is_new_db, v, close_log DB w conn)).

Lemma rest_st op l w d s (prefix : option text) (pr : text) (conn : bool) old :
  pr = match prefix with Some p => p | None => kind s end ->
  (length (p_schema d) + length (kind s) <= 100)%nat -> (length (p_data d) + length (kind s) <= 100)%nat -> (length (p_data d) + length pr <= 100)%nat ->
  - 2 ^ 31 <= create_version s < 2 ^ 31 ->
  match old with Some x => st (if conn then op + 1 else op) l w x | None => absent (if conn then op + 1 else op) l w end ->
  match wanted_by DB fresh run user_version script (fun x => run x drop_stmt) (if_there DB run script) (p_schema d) (p_data d) (kind s) pr (create_version s) (recreate_db s) (restore_db s) (customize_db s) old with
  | Some (new, y) => exists w' x, rest w d s prefix conn = Ok (new, user_version y, w') /\
    made_by DB fresh (fun x => run x drop_stmt) (if_there DB run script) (p_schema d) (kind s) (create_version s) (recreate_db s) old = Some x /\
    st op (l ++ logged conn (log_rows DB user_version script (kind s) db_file (p_schema d) (p_data d) pr (create_version s) (recreate_db s) (restore_db s) (customize_db s) old x y)) w' y
  | None => rest w d s prefix conn = Bad Abort
  end.
Proof.
  intros Epr L1 L2 L3 Bc H. unfold rest, wanted_by. cbn zeta. set (o := if conn then op + 1 else op) in *. unfold made_by, log_rows. cbn zeta.
  assert (Ec : script_file (p_schema d) (kind s) (bytes "_create.") (create_version s) = sql_file (p_schema d) (kind s) "create" (create_version s)).
  { unfold script_file. rewrite <- (script_name (p_schema d) (kind s) "create" (create_version s) L1 ltac:(cbn; lia) Bc). reflexivity. }
  rewrite Ec. set (create := sql_file (p_schema d) (kind s) "create" (create_version s)) in *.
  destruct (match old with
     | Some x => if recreate_db s then andthen (run x drop_stmt) (fun x => if_there DB run script x create) else Some x
     | None => if_there DB run script fresh create
     end) as [x0|] eqn:A.
  2:{ cbn [andthen]. assert (Base : (if c_stat (d_fs DB w) cwd db_file then
      if recreate_db s then
        let* w := drop_all_tables DB fresh run cwd (add_log DB w conn (kind s) (bytes "recreate") (cut 256 (bytes "drop all tables of " ++ db_file ++ bytes " to RECREATE a fresh db"))) db_file in
        let* w := apply w (kind s) db_file create conn in
        Ok (true, w)
      else Ok (false, w)
    else
      let* w := apply (add_log DB w conn (kind s) (bytes "create") (cut 256 (bytes "create a new " ++ db_file ++ bytes " with " ++ create))) (kind s) db_file create conn in
      Ok (true, w)) = Bad Abort); [|rewrite Base; reflexivity].
    destruct old as [x|].
    - destruct (st_home _ _ _ _ H) as (Hm & Ef). rewrite (stat_file cwd dp n dir dp_not n_not n_flat n_ord _ Hm) by congruence. rewrite Ef.
      destruct (recreate_db s); [|discriminate]. destruct (run x drop_stmt) as [x1|] eqn:R.
      + cbn [andthen] in A. edestruct (init_st o) as (w1 & E1 & S1); [eapply st_log; exact H|exact R|]. unfold drop_all_tables. rewrite E1. cbn [bind].
        rewrite (apply_bad o _ w1 x1 (kind s) create conn S1 A). reflexivity.
      + unfold drop_all_tables. erewrite init_bad; [reflexivity|eapply st_log; exact H|exact R].
    - destruct (absent_home _ _ _ H) as (Hm & Ef). rewrite (stat_file cwd dp n dir dp_not n_not n_flat n_ord _ Hm) by congruence. rewrite Ef.
      erewrite apply_absent_bad; [reflexivity|eapply absent_log; exact H|exact A]. }
  assert (Base : exists x w1,
    (if c_stat (d_fs DB w) cwd db_file then
      if recreate_db s then
        let* w := drop_all_tables DB fresh run cwd (add_log DB w conn (kind s) (bytes "recreate") (cut 256 (bytes "drop all tables of " ++ db_file ++ bytes " to RECREATE a fresh db"))) db_file in
        let* w := apply w (kind s) db_file create conn in
        Ok (true, w)
      else Ok (false, w)
    else
      let* w := apply (add_log DB w conn (kind s) (bytes "create") (cut 256 (bytes "create a new " ++ db_file ++ bytes " with " ++ create))) (kind s) db_file create conn in
      Ok (true, w)) = Ok (match old with Some _ => recreate_db s | None => true end, w1) /\ st o (l ++ logged conn (match old with None => [(kind s, code "create", short 256 (code "create a new " ++ db_file ++ code " with " ++ create)); ran (kind s) db_file create]
      | Some _ => if recreate_db s then [(kind s, code "recreate", short 256 (code "drop all tables of " ++ db_file ++ code " to RECREATE a fresh db")); ran (kind s) db_file create] else [] end)) w1 x /\
    match old with
     | Some x => if recreate_db s then andthen (run x drop_stmt) (fun x => if_there DB run script x create) else Some x
     | None => if_there DB run script fresh create
     end = Some x).
  { destruct old as [x|].
    - destruct (st_home _ _ _ _ H) as (Hm & Ef). rewrite (stat_file cwd dp n dir dp_not n_not n_flat n_ord _ Hm) by congruence. rewrite Ef.
      destruct (recreate_db s); [|exists x, w; cbn [logged]; replace (logged conn []) with (@nil row) by (destruct conn; reflexivity); rewrite app_nil_r; auto].
      destruct (run x drop_stmt) as [x1|] eqn:R; [|discriminate]. cbn [andthen] in A |- *. destruct (if_there DB run script x1 create) as [x2|] eqn:Ap; [|discriminate].
      edestruct (init_st o) as (w1 & E1 & S1); [eapply st_log; exact H|exact R|]. unfold drop_all_tables. rewrite E1. cbn [bind].
      destruct (apply_st o _ w1 x1 (kind s) create conn x2 S1 Ap) as (w2 & E2 & S2). rewrite E2. cbn [bind]. exists x2, w2. split; [auto|]. split; [|auto]. rewrite <- app_assoc in S2. destruct conn; exact S2.
    - destruct (absent_home _ _ _ H) as (Hm & Ef). rewrite (stat_file cwd dp n dir dp_not n_not n_flat n_ord _ Hm) by congruence. rewrite Ef.
      destruct (if_there DB run script fresh create) as [x2|] eqn:Ap; [|discriminate].
      edestruct (apply_absent o) as (w2 & E2 & S2); [eapply absent_log; exact H|exact Ap|]. rewrite E2. cbn [bind]. exists x2, w2. split; [auto|]. split; [|auto]. rewrite <- app_assoc in S2. destruct conn; exact S2. }
  destruct Base as (x & w1 & E1 & S1 & Ex). rewrite E1. cbn [bind]. assert (x0 = x) by congruence. subst x0. cbn [andthen]. clear E1 H A.
  match type of S1 with st _ (l ++ logged conn ?m) _ _ => set (l1 := m) in * end.
  set (nw := match old with Some _ => recreate_db s | None => true end) in *.
  destruct (version_st o _ w1 x S1) as (w2 & E2 & S2). rewrite E2. cbn [bind].
  set (before := if nw && restore_db s then restore DB fresh run script cwd (add_log DB w2 conn (kind s) (bytes "open") (cut 256 (bytes "user_version " ++ decimal_of (user_version x)))) d s db_file prefix (user_version x) conn
     else Ok (add_log DB w2 conn (kind s) (bytes "open") (cut 256 (bytes "user_version " ++ decimal_of (user_version x))))) in *.
  assert (Re : match andthen (if nw && restore_db s then if_there DB run script x (sql_file (p_data d) pr "insert" (user_version x)) else Some x) (fun x' =>
       if nw && restore_db s && customize_db s then if_there DB run script x' (sql_file (p_data d) (kind s) "customize" (user_version x)) else Some x') with
     | None => before = Bad Abort
     | Some z => exists w3, before = Ok w3 /\ st o (l ++ logged conn (l1 ++ [(kind s, code "open", short 256 (code "user_version " ++ decimal_of (user_version x)))] ++
       (if nw && restore_db s then data_rows script (kind s) db_file (sql_file (p_data d) pr "insert" (user_version x)) " to restore data " "cannot find restoration script " ++
         (if customize_db s then data_rows script (kind s) db_file (sql_file (p_data d) (kind s) "customize" (user_version x)) " to customize data " "cannot find customization script " else []) else []))) w3 z
     end).
  { unfold before. clear before. clearbody nw. destruct (nw && restore_db s) eqn:Nr; cbn [andb].
    - match goal with |- match ?a with _ => _ end => destruct a as [z2|] eqn:I2 end.
      + edestruct (restore_st o) as (w3 & E3 & S3); [exact Epr|apply st_log; exact S2|exact L2|exact L3|exact I2|].
        exists w3. split; [exact E3|]. rewrite <- !app_assoc in S3. destruct conn; [|exact S3]. cbn [logged] in *. exact S3.
      + eapply restore_bad; [exact Epr|apply st_log; exact S2|exact L2|exact L3|exact I2].
    - cbn [andthen]. eexists. split; [reflexivity|]. apply (st_log _ _ _ _ conn (kind s) (bytes "open") (cut 256 (bytes "user_version " ++ decimal_of (user_version x)))) in S2. rewrite <- app_assoc in S2. rewrite app_nil_r. destruct conn; exact S2. }
  destruct (if nw && restore_db s then if_there DB run script x (sql_file (p_data d) pr "insert" (user_version x)) else Some x) as [z1|]; cbn [andthen] in *; [|rewrite Re; reflexivity].
  destruct (if nw && restore_db s && customize_db s then if_there DB run script z1 (sql_file (p_data d) (kind s) "customize" (user_version x)) else Some z1) as [z|]; cbn [andthen] in *; [|rewrite Re; reflexivity].
  destruct Re as (w3 & E3 & S3). rewrite E3. cbn [bind].
  destruct (if_there DB run script z (sql_file (p_schema d) (kind s) "migrate" (user_version x))) as [y|] eqn:Mg; cbn [andthen].
  2:{ rewrite (migrate_bad o _ w3 x z d s conn S3 L1 Mg). reflexivity. }
  destruct (migrate_st o _ w3 x z d s conn y S3 L1 Mg) as (w4 & E4 & S4). rewrite E4. cbn [bind].
  destruct (version_st o _ w4 y S4) as (w5 & E5 & S5). rewrite E5. eexists. exists x. split; [reflexivity|]. split; [reflexivity|].
  match type of S5 with st _ ?m _ _ => match goal with |- st _ ?m' _ _ => replace m' with m end end; [|destruct conn; cbn [logged]; [rewrite <- (app_assoc l); f_equal; rewrite <- (app_assoc l1); reflexivity|rewrite !app_nil_r; reflexivity]].
  unfold close_log. unfold o in S5. destruct conn; [apply closed_st, S5|exact S5].
Qed.
End Init.

Lemma tree_file fs cur n : tree fs -> entry fs cur = Some Dir -> tree (fs ++ [(cur ++ [n], File)]).
Proof.
  intros T D p m k. rewrite !entry_file by (destruct cur; discriminate). destruct (entry fs (p ++ [m])) as [x|] eqn:E.
  - intros _. rewrite (T p m x E). reflexivity.
  - destruct (path_dec (cur ++ [n]) (p ++ [m])) as [Q|]; [|discriminate]. apply app_inj_tail in Q as (-> & ->). intros _. rewrite D. reflexivity.
Qed.

Definition log_name : text := bytes "cee_dbm_log.db".

Theorem db_init_ok (DB : Type) (fresh : DB) (run : DB -> text -> option DB) (user_version : DB -> Z) (script : text -> option text) (cwd : list text)
  (w : dbm DB) (d : dirs) (s : db_info) (db_file_ prefix : option text) (n pr : text) (dir : list text) (fs2 : fsys) :
  (forall x, - 2 ^ 31 <= user_version x < 2 ^ 31) ->
  @eq (list Z) n (match db_file_ with Some f => f | None => file s end) -> pr = match prefix with Some p => p | None => kind s end ->
  (* the names *)
  p_db d <> [] -> Forall ordinary (names_of (p_db d)) -> n <> [] -> Forall (fun x => x <> slash) n -> ordinary n -> n <> log_name ->
  (length (p_db d) + length n <= 126)%nat -> (length (p_db d) <= 112)%nat ->
  (length (p_schema d) + length (kind s) <= 100)%nat -> (length (p_data d) + length (kind s) <= 100)%nat -> (length (p_data d) + length pr <= 100)%nat ->
  - 2 ^ 31 <= create_version s < 2 ^ 31 ->
  (* the files *)
  tree (d_fs DB w) -> entry (d_fs DB w) cwd = Some Dir -> made (d_fs DB w) (start cwd (p_db d)) (names_of (p_db d)) = Some (fs2, dir) ->
  entry (d_fs DB w) (dir ++ [n]) <> Some Dir -> entry (d_fs DB w) (dir ++ [log_name]) <> Some Dir ->
  let old := match entry (d_fs DB w) (dir ++ [n]) with Some _ => Some (d_db DB w (dir ++ [n])) | None => None end in
  match wanted_by DB fresh run user_version script (fun x => run x drop_stmt) (if_there DB run script) (p_schema d) (p_data d) (kind s) pr (create_version s) (recreate_db s) (restore_db s) (customize_db s) old with
  | Some (new, y) =>
    exists w', db_init DB fresh run user_version script cwd w d s db_file_ prefix = Ok (new, user_version y, w') /\
    d_db DB w' (dir ++ [n]) = y /\ (forall q, q <> dir ++ [n] -> d_db DB w' q = d_db DB w q) /\
    (forall q, entry (d_fs DB w') q =
       if path_dec q (dir ++ [n]) then Some File
       else if path_dec q (dir ++ [log_name]) then match entry (d_fs DB w) dir with Some _ => Some File | None => None end else entry fs2 q) /\
    (exists x, made_by DB fresh (fun x => run x drop_stmt) (if_there DB run script) (p_schema d) (kind s) (create_version s) (recreate_db s) old = Some x /\
       d_log DB w' = d_log DB w ++ (if entry (d_fs DB w) dir then (kind s, bytes "open", p_db d ++ slash :: n) ::
         log_rows DB user_version script (kind s) (p_db d ++ slash :: n) (p_schema d) (p_data d) pr (create_version s) (recreate_db s) (restore_db s) (customize_db s) old x y else [])) /\ d_open DB w' = d_open DB w
  | None => db_init DB fresh run user_version script cwd w d s db_file_ prefix = Bad Abort
  end.
Proof.
  intros Bv En Epr Ndp Odp Nn Fn On Nl Ln Ll L1 L2 L3 Bc T Dc M Fr Fl old.
  assert (D0 : entry (d_fs DB w) (start cwd (p_db d)) = Some Dir) by (unfold start; destruct (absolute (p_db d)); [reflexivity|exact Dc]).
  destruct (made_ok _ _ _ _ _ T D0 M) as (T2 & E2 & K2 & W2). destruct (made_names _ _ _ _ _ Odp M) as (Ed & Deep).
  assert (Lnot : log_name <> []) by discriminate.
  assert (Lflat : Forall (fun x => x <> slash) log_name) by (repeat constructor; discriminate).
  assert (Lord : ordinary log_name) by (split; discriminate).
  unfold db_init, open_dbm_log. rewrite <- En.
  assert (Cd : cut 128 (p_db d ++ bytes "/" ++ n) = p_db d ++ slash :: n) by (change (bytes "/" ++ n) with (slash :: n); apply cut_short; rewrite app_length; cbn [length]; lia).
  assert (Cl : cut 128 (p_db d ++ bytes "/cee_dbm_log.db") = p_db d ++ slash :: log_name) by (apply cut_short; rewrite app_length; match goal with |- (_ + ?l < _)%nat => change l with 15%nat end; lia).
  assert (C2 : cut 256 (p_db d ++ slash :: n) = p_db d ++ slash :: n) by (apply cut_short; rewrite app_length; cbn [length]; lia).
  rewrite Cd, Cl, C2. pose proof (names_length (p_db d)) as Nlen.
  destruct (walk (d_fs DB w) (start cwd (p_db d)) (names_of (p_db d))) as [p|] eqn:W.
  - (* the directory is there *)
    destruct (walk_made _ _ _ _ _ _ W M) as (Q1 & Q2). subst p. subst fs2. 
    assert (Hm : home cwd (p_db d) dir (d_fs DB w)) by (split; assumption).
    rewrite (create_ok cwd (p_db d) log_name dir Ndp Lnot Lflat Lord _ Hm Fl).
    set (fs1 := match entry (d_fs DB w) (dir ++ [log_name]) with Some _ => d_fs DB w | None => d_fs DB w ++ [(dir ++ [log_name], File)] end).
    assert (K1 : keeps (d_fs DB w) fs1) by (unfold fs1; destruct (entry (d_fs DB w) (dir ++ [log_name])); [intros q k E; exact E|apply add_keeps]).
    assert (T1 : tree fs1) by (unfold fs1; destruct (entry (d_fs DB w) (dir ++ [log_name])); [exact T|apply tree_file; assumption]).
    assert (Ent : forall q, entry fs1 q = if path_dec q (dir ++ [log_name]) then Some File else entry (d_fs DB w) q).
    { intros q. unfold fs1. destruct (entry (d_fs DB w) (dir ++ [log_name])) as [[]|] eqn:El; [contradiction| |].
      - destruct (path_dec q (dir ++ [log_name])) as [->|]; [exact El|reflexivity].
      - rewrite entry_file by (destruct dir; discriminate). destruct (path_dec q (dir ++ [log_name])) as [->|Nq].
        + rewrite El. destruct (path_dec (dir ++ [log_name]) (dir ++ [log_name])); [reflexivity|contradiction].
        + destruct (entry (d_fs DB w) q); [reflexivity|]. destruct (path_dec (dir ++ [log_name]) q); [congruence|reflexivity]. }
    clearbody fs1. assert (H1 : home cwd (p_db d) dir fs1) by (apply (home_keeps _ _ _ _ _ K1 Hm)).
    assert (M1 : made fs1 (start cwd (p_db d)) (names_of (p_db d)) = Some (fs1, dir)) by (apply walk_made_back; [exact T1|exact Odp|exact (proj1 H1)|exact (proj2 H1)]).
    rewrite before_slash_ok by exact Fn. unfold mkdir_p. cbn [add_log d_fs d_db d_log d_open].
    pose proof (mkdir_p_ok cwd fs1 T1 (K1 _ _ Dc) (names_of (p_db d)) (p_db d) [] (start cwd (p_db d)) fs1 dir 200 false Ndp eq_refl eq_refl Odp M1 ltac:(lia)) as Mk.
    match goal with |- context [mkdir_p_ext 200 ?g cwd ?o false] => replace (mkdir_p_ext 200 g cwd o false) with (Ok (0, fs1, if c_stat g cwd (p_db d) then @None (list text) else None)) by (symmetry; exact Mk) end. clear Mk.
    cbn [bind]. change (0 =? 0) with true. cbn match.
    set (w1 := Dbm DB fs1 (d_db DB w) (d_log DB w ++ [(kind s, bytes "open", p_db d ++ slash :: n)]) (d_open DB w + 1)).
    assert (Npl : dir ++ [n] <> dir ++ [log_name]) by (intros Q; apply app_inj_tail in Q as (_ & Q); contradiction).
    assert (Epl : entry fs1 (dir ++ [n]) = entry (d_fs DB w) (dir ++ [n])) by (rewrite Ent; destruct (path_dec (dir ++ [n]) (dir ++ [log_name])); [contradiction|reflexivity]).
    pose proof (rest_st DB fresh run user_version script cwd (p_db d) n dir Ndp Nn Fn On w1 fs1 H1 ltac:(rewrite Epl; exact Fr) Bv (d_open DB w) [] w1 d s prefix pr true
      old Epr L1 L2 L3 Bc) as Rest.
    match type of Rest with ?P -> _ => assert (Before : P) end.
    { unfold old. destruct (entry (d_fs DB w) (dir ++ [n])) as [[]|] eqn:Ee; [contradiction| |].
      * split; [|split; [reflexivity|]; split; [reflexivity|]; split; [rewrite app_nil_r; reflexivity|reflexivity]].
        intros q. cbn [w1 d_fs]. destruct (path_dec q (dir ++ [n])) as [->|]; [exact Epl|reflexivity].
      * split; [exact Epl|]. split; [reflexivity|]. split; [reflexivity|]. split; [rewrite app_nil_r; reflexivity|reflexivity]. }
    specialize (Rest Before). match goal with |- match ?a with _ => _ end => destruct a as [[new y]|] end; [|exact Rest]. destruct Rest as (w' & x & Ew & Ex & Sw).
    exists w'. split; [exact Ew|]. destruct Sw as (S1 & S2 & S3 & S4 & S5). split; [exact S2|]. split; [exact S3|]. split; [|split; [|exact S5]].
      * intros q. rewrite S1, Ent, E2. reflexivity.
      * exists x. split; [exact Ex|]. rewrite S4, E2. cbn [w1 d_log]. rewrite <- app_assoc. reflexivity.
  - (* it is not *)
    assert (Ne : entry (d_fs DB w) dir = None).
    { destruct (entry (d_fs DB w) dir) as [k|] eqn:E; [|reflexivity]. rewrite Ed in E. rewrite (walk_names _ _ T Odp _ _ D0 E) in W. discriminate. }
    assert (Nd : forall m, entry (d_fs DB w) (dir ++ [m]) = None) by (intros m; destruct (entry (d_fs DB w) (dir ++ [m])) as [k|] eqn:E; [apply T in E; congruence|reflexivity]).
    assert (Nd2 : forall m, entry fs2 (dir ++ [m]) = None) by (intros m; rewrite Deep; [apply Nd|rewrite app_length, Ed, app_length; cbn [length]; lia]).
    rewrite (create_none cwd (p_db d) log_name Ndp Lnot Lflat _ W). rewrite before_slash_ok by exact Fn. unfold mkdir_p. cbn [add_log d_fs d_db d_log d_open].
    pose proof (mkdir_p_ok cwd _ T Dc (names_of (p_db d)) (p_db d) [] (start cwd (p_db d)) fs2 dir 200 false Ndp eq_refl eq_refl Odp M ltac:(lia)) as Mk.
    match goal with |- context [mkdir_p_ext 200 ?g cwd ?o false] => replace (mkdir_p_ext 200 g cwd o false) with (Ok (0, fs2, if c_stat g cwd (p_db d) then @None (list text) else None)) by (symmetry; exact Mk) end. clear Mk.
    cbn [bind]. change (0 =? 0) with true. cbn match. unfold old. rewrite Nd. clear old.
    set (w1 := Dbm DB fs2 (d_db DB w) (d_log DB w) (d_open DB w)).
    pose proof (rest_st DB fresh run user_version script cwd (p_db d) n dir Ndp Nn Fn On w1 fs2 (conj W2 E2) ltac:(rewrite Nd2; discriminate) Bv (d_open DB w) [] w1 d s prefix pr false
      None Epr L1 L2 L3 Bc) as Rest.
    match type of Rest with ?P -> _ => assert (Before : P) end.
    { split; [apply Nd2|]. split; [reflexivity|]. split; [reflexivity|]. split; [rewrite app_nil_r; reflexivity|reflexivity]. }
    specialize (Rest Before). match goal with |- match ?a with _ => _ end => destruct a as [[new y]|] end; [|exact Rest]. destruct Rest as (w' & x & Ew & Ex & Sw).
    exists w'. split; [exact Ew|]. destruct Sw as (S1 & S2 & S3 & S4 & S5). split; [exact S2|]. split; [exact S3|]. split; [|split; [|exact S5]].
      * intros q. rewrite S1, Ne. destruct (path_dec q (dir ++ [n])); [reflexivity|]. destruct (path_dec q (dir ++ [log_name])) as [->|]; [apply Nd2|reflexivity].
      * exists x. split; [exact Ex|]. rewrite S4, Ne. reflexivity.
Qed.
(** What is wanted is done by the code, too. *)
Lemma wanted_done (DB : Type) (fresh : DB) (run : DB -> text -> option DB) (user_version : DB -> Z) (script : text -> option text) (drop : DB -> option DB) schema data kind pr cv recreate restore customize old r :
  wanted DB fresh run user_version script drop schema data kind pr cv recreate restore customize old = Some r ->
  wanted_by DB fresh run user_version script drop (if_there DB run script) schema data kind pr cv recreate restore customize old = Some r /\
  made_by DB fresh drop (if_there DB run script) schema kind cv recreate old = when_made DB fresh run script drop schema kind cv recreate old.
Proof.
  unfold wanted, when_made. unfold wanted_by. intros H. destruct (made_by DB fresh drop (applied DB run script) schema kind cv recreate old) as [x|] eqn:E; [|discriminate].
  assert (M : made_by DB fresh drop (if_there DB run script) schema kind cv recreate old = Some x).
  { unfold made_by, applied, if_there in *. destruct old as [o|]; [destruct recreate; [|exact E]; destruct (drop o) as [z|]; [|discriminate]; cbn [andthen] in *|]; (destruct (script _); [exact E|discriminate]). }
  rewrite M. split; [exact H|reflexivity].
Qed.

(** * Saving *)
Theorem db_backup_ok (DB : Type) (fresh : DB) (user_version : DB -> Z) (shell : text -> Z) (cwd : list text)
  (w : dbm DB) (d : dirs) (s : db_info) (db_file_ prefix : option text) (n pr : text) (dir : list text) :
  @eq (list Z) n (match db_file_ with Some f => f | None => file s end) -> @eq (list Z) pr (match prefix with Some p => p | None => kind s end) ->
  Forall (fun x => x <> slash) n -> n <> [] -> ordinary n -> p_db d <> [] -> (forall x, - 2 ^ 31 <= user_version x < 2 ^ 31) ->
  home cwd (p_db d) dir (d_fs DB w) -> entry (d_fs DB w) (dir ++ [log_name]) <> Some Dir -> entry (d_fs DB w) (dir ++ [n]) <> Some Dir -> n <> log_name ->
  (length (p_db d) + length n <= 126)%nat -> (length (p_db d) <= 112)%nat ->
  let v := user_version (d_db DB w (dir ++ [n])) in
  let c := firstn 127 (code "/cxd/s/dump_insert.sh " ++ (p_db d ++ 47 :: n) ++ code " > " ++ sql_file (p_data d) pr "insert" v) in
  let name := p_db d ++ 47 :: n in
  exists w', db_backup DB fresh user_version shell cwd w d s db_file_ prefix = ((if entry (d_fs DB w) (dir ++ [n]) then true else false), w') /\
    (forall q, d_db DB w' q = d_db DB w q) /\
    d_open DB w' = d_open DB w + (if entry (d_fs DB w) (dir ++ [n]) then 0 else 1) /\
    d_log DB w' = d_log DB w ++ (kind s, code "open", name) ::
      (if entry (d_fs DB w) (dir ++ [n])
       then [(kind s, code "open", code "user_version " ++ decimal_of v); (kind s, (if shell c =? 0 then code "backup" else code "backup_failed"), c)]
       else [(kind s, code "backup_failed", name ++ code " does not exist")]).
Proof.
  intros En Epr Fn Nn On Ndp Bv Hm Fl Fr Nl L L' v c name.
  assert (Lnot : log_name <> []) by discriminate.
  assert (Lflat : Forall (fun x => x <> slash) log_name) by (repeat constructor; discriminate).
  assert (Lord : ordinary log_name) by (split; discriminate).
  unfold db_backup, open_dbm_log. rewrite <- En, <- Epr.
  assert (Cd : cut 128 (p_db d ++ bytes "/" ++ n) = name) by (unfold name; change (bytes "/" ++ n) with (slash :: n); apply cut_short; rewrite app_length; cbn [length]; lia).
  assert (Cl : cut 128 (p_db d ++ bytes "/cee_dbm_log.db") = p_db d ++ slash :: log_name) by (apply cut_short; rewrite app_length; match goal with |- (_ + ?l < _)%nat => change l with 15%nat end; lia).
  assert (C2 : cut 256 name = name) by (apply cut_short; unfold name; rewrite app_length; cbn [length]; lia).
  rewrite Cd, Cl, C2. rewrite (create_ok cwd (p_db d) log_name dir Ndp Lnot Lflat Lord _ Hm Fl).
  set (fs1 := match entry (d_fs DB w) (dir ++ [log_name]) with Some _ => d_fs DB w | None => d_fs DB w ++ [(dir ++ [log_name], File)] end).
  assert (K1 : keeps (d_fs DB w) fs1) by (unfold fs1; destruct (entry (d_fs DB w) (dir ++ [log_name])); [intros q k E; exact E|apply add_keeps]).
  assert (Npl : dir ++ [n] <> dir ++ [log_name]) by (intros Q; apply app_inj_tail in Q as (_ & Q); contradiction).
  assert (Epl : entry fs1 (dir ++ [n]) = entry (d_fs DB w) (dir ++ [n])).
  { unfold fs1. destruct (entry (d_fs DB w) (dir ++ [log_name])); [reflexivity|]. rewrite entry_file by (destruct dir; discriminate).
    destruct (entry (d_fs DB w) (dir ++ [n])); [reflexivity|]. destruct (path_dec (dir ++ [log_name]) (dir ++ [n])); [congruence|reflexivity]. }
  clearbody fs1. assert (H1 : home cwd (p_db d) dir fs1) by (apply (home_keeps _ _ _ _ _ K1 Hm)).
  cbn [add_log d_fs d_db d_log d_open]. change (c_stat fs1 cwd name) with (c_stat fs1 cwd (p_db d ++ slash :: n)). rewrite (stat_file cwd (p_db d) n dir Ndp Nn Fn On fs1 H1) by (rewrite Epl; exact Fr). rewrite Epl.
  destruct (entry (d_fs DB w) (dir ++ [n])) as [[]|] eqn:E; [contradiction| |].
  - unfold get_user_version, sqlite3_open. cbn [d_fs d_db d_log d_open]. change (create_file fs1 cwd name) with (create_file fs1 cwd (p_db d ++ slash :: n)). rewrite (create_ok cwd (p_db d) n dir Ndp Nn Fn On fs1 H1) by (rewrite Epl; discriminate).
    rewrite !Epl. cbn [d_fs d_db d_log d_open closed close_log]. fold v.
    pose proof (Bv (d_db DB w (dir ++ [n]))) as Bv'. fold v in Bv'. pose proof (decimal_length v Bv') as Ld.
    assert (Cc : cut 128 (bytes "/cxd/s/dump_insert.sh " ++ name ++ bytes " > " ++ p_data d ++ bytes "/" ++ pr ++ bytes "_insert." ++ decimal_of v ++ bytes ".sql") = c) by reflexivity.
    rewrite Cc. rewrite (cut_short 256 (bytes "user_version " ++ decimal_of v)) by (rewrite app_length; change (length (bytes "user_version ")) with 13%nat; lia).
    eexists. split; [reflexivity|]. cbn [closed d_db d_open d_log]. split; [reflexivity|]. split; [lia|]. rewrite <- !app_assoc. reflexivity.
  - rewrite (cut_short 256 (name ++ bytes " does not exist")) by (unfold name; repeat (rewrite app_length; cbn [length]); change (length (bytes " does not exist")) with 15%nat; lia).
    eexists. split; [reflexivity|]. cbn [closed d_db d_open d_log]. split; [reflexivity|]. split; [lia|]. rewrite <- !app_assoc. reflexivity.
Qed.

(** * Opening *)
Lemma open_ok (DB : Type) (cwd : list text) (w : dbm DB) (d : dirs) (n : text) (dir : list text) :
  Forall (fun x => x <> slash) n -> n <> [] -> ordinary n -> p_db d <> [] -> home cwd (p_db d) dir (d_fs DB w) -> entry (d_fs DB w) (dir ++ [n]) <> Some Dir ->
  (length (p_db d) + length n <= 126)%nat ->
  db_exist DB cwd w d n = (if entry (d_fs DB w) (dir ++ [n]) then true else false) /\
  open_db DB cwd w d n = (if entry (d_fs DB w) (dir ++ [n]) then Ok (p_db d ++ 47 :: n) else Bad Abort).
Proof.
  intros Fn Nn On Nd Hm Fr L. unfold db_exist, open_db.
  assert (Cd : cut 128 (p_db d ++ bytes "/" ++ n) = p_db d ++ slash :: n) by (change (bytes "/" ++ n) with (slash :: n); apply cut_short; rewrite app_length; cbn [length]; lia).
  rewrite Cd, (stat_file cwd (p_db d) n dir Nd Nn Fn On _ Hm Fr). destruct (entry (d_fs DB w) (dir ++ [n])); split; reflexivity.
Qed.
Lemma attach_ok (DB : Type) (cwd : list text) (exec : text -> bool) (w : dbm DB) (d : dirs) (n as_name : text) (dir : list text) :
  Forall (fun x => x <> slash) n -> n <> [] -> ordinary n -> p_db d <> [] -> home cwd (p_db d) dir (d_fs DB w) -> entry (d_fs DB w) (dir ++ [n]) <> Some Dir ->
  (length (p_db d) + length n <= 254)%nat ->
  let sql := firstn 255 (code "attach 'file:" ++ (p_db d ++ 47 :: n) ++ code "?mode=ro' as " ++ as_name ++ code ";") in
  attach_db DB cwd exec w d n as_name = if entry (d_fs DB w) (dir ++ [n]) then if exec sql then Ok sql else Bad Abort else Bad Abort.
Proof.
  intros Fn Nn On Nd Hm Fr L sql. unfold attach_db.
  assert (Cd : cut 256 (p_db d ++ bytes "/" ++ n) = p_db d ++ slash :: n) by (change (bytes "/" ++ n) with (slash :: n); apply cut_short; rewrite app_length; cbn [length]; lia).
  rewrite Cd, (stat_file cwd (p_db d) n dir Nd Nn Fn On _ Hm Fr). destruct (entry (d_fs DB w) (dir ++ [n])); [|reflexivity].
  assert (E : cut 256 (bytes "attach 'file:" ++ p_db d ++ bytes "/" ++ n ++ bytes "?mode=ro' as " ++ as_name ++ bytes ";") = sql).
  { unfold sql. rewrite <- !app_assoc. reflexivity. }
  rewrite E. reflexivity.
Qed.
