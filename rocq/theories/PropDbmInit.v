(** C77: cee_dbm_db_init makes a database from its scripts, or brings it to the next version.
    C78: saving, opening and attaching databases. *)
From Coq Require Import String Ascii ZArith List Bool Lia.
From Verif Require Import Base Numeral Json DbmTextModel DbmTextSpec DbmDirModel DbmDirSpec DbmDirProofs JsonSelectProofs DbmInitModel DbmInitSpec DbmInitProofs.
Import ListNotations.
Open Scope Z_scope.

(** The tables are dropped by deleting their entries. *)
Definition deleting : text :=
  code "PRAGMA writable_schema = 1;" ++ [10] ++ code "delete from sqlite_master where type in ('table', 'index', 'trigger');" ++ [10] ++ code "PRAGMA writable_schema = 0;" ++ [10].

Section World.
Variable DB : Type.
Variable fresh : DB.
Variable run : DB -> text -> option DB.
Variable user_version : DB -> Z.
Variable script : text -> option text.
Variable shell : text -> Z.
Variable cwd : list text.
Notation init := (db_init DB fresh run user_version script cwd).
(** A database, and what is wanted for it *)
Definition goal (w : dbm DB) (d : dirs) (s : db_info) (pr : text) (at_ : list text) : option (bool * DB) :=
  wanted DB fresh run user_version script (fun x => run x deleting) (p_schema d) (p_data d) (kind s) pr (create_version s) (recreate_db s) (restore_db s) (customize_db s)
    (match entry (d_fs DB w) at_ with Some _ => Some (d_db DB w at_) | None => None end).
Definition good (w : dbm DB) (d : dirs) (s : db_info) (n : text) (fs2 : fsys) (dir : list text) : Prop :=
  (forall x, - 2 ^ 31 <= user_version x < 2 ^ 31) /\ - 2 ^ 31 <= create_version s < 2 ^ 31 /\
  Forall ordinary (names_of (p_db d)) /\ n <> [] /\ Forall (fun x => x <> 47) n /\ ordinary n /\ n <> code "cee_dbm_log.db" /\
  tree (d_fs DB w) /\ entry (d_fs DB w) cwd = Some Dir /\ made (d_fs DB w) (start cwd (p_db d)) (names_of (p_db d)) = Some (fs2, dir) /\
  entry (d_fs DB w) (dir ++ [n]) <> Some Dir /\ entry (d_fs DB w) (dir ++ [code "cee_dbm_log.db"]) <> Some Dir.

(** C77.  The database gets what is wanted; other databases stay; each use is logged. *)
Definition C77_statement : Prop :=
  forall w d s n pr fs2 dir new y, good w d s n fs2 dir -> goal w d s pr (dir ++ [n]) = Some (new, y) ->
  exists w', init w d s (Some n) (Some pr) = Ok (new, user_version y, w') /\
    d_db DB w' (dir ++ [n]) = y /\ (forall q, q <> dir ++ [n] -> d_db DB w' q = d_db DB w q) /\
    (exists l, d_log DB w' = d_log DB w ++ (kind s, code "open", p_db d ++ 47 :: n) :: l) /\ d_open DB w' = d_open DB w.
(** What is wanted and fails is an error. *)
Definition C77_error_statement : Prop :=
  forall w d s n pr fs2 dir, good w d s n fs2 dir -> goal w d s pr (dir ++ [n]) = None -> exists e, init w d s (Some n) (Some pr) = Bad e.

(** In every case: a missing script is passed over, also the one that makes the database; a script
    that fails ends the program. *)
Theorem C77_exact : forall w d s db_file_ prefix n pr fs2 dir,
  n = match db_file_ with Some f => f | None => file s end -> pr = match prefix with Some p => p | None => kind s end ->
  good w d s n fs2 dir ->
  (* the arrays for names suffice *)
  p_db d <> [] -> (length (p_db d) + length n <= 126)%nat -> (length (p_db d) <= 112)%nat ->
  (length (p_schema d) + length (kind s) <= 100)%nat -> (length (p_data d) + length (kind s) <= 100)%nat -> (length (p_data d) + length pr <= 100)%nat ->
  let old := match entry (d_fs DB w) (dir ++ [n]) with Some _ => Some (d_db DB w (dir ++ [n])) | None => None end in
  match wanted_by DB fresh run user_version script (fun x => run x deleting) (if_there DB run script)
    (p_schema d) (p_data d) (kind s) pr (create_version s) (recreate_db s) (restore_db s) (customize_db s) old with
  | Some (new, y) =>
    exists w', init w d s db_file_ prefix = Ok (new, user_version y, w') /\
    d_db DB w' (dir ++ [n]) = y /\ (forall q, q <> dir ++ [n] -> d_db DB w' q = d_db DB w q) /\
    (forall q, entry (d_fs DB w') q =
       if path_dec q (dir ++ [n]) then Some File
       else if path_dec q (dir ++ [code "cee_dbm_log.db"]) then match entry (d_fs DB w) dir with Some _ => Some File | None => None end else entry fs2 q) /\
    (exists x, made_by DB fresh (fun x => run x deleting) (if_there DB run script) (p_schema d) (kind s) (create_version s) (recreate_db s) old = Some x /\
       d_log DB w' = d_log DB w ++
         (if entry (d_fs DB w) dir
          then (kind s, code "open", p_db d ++ 47 :: n) ::
               log_rows DB user_version script (kind s) (p_db d ++ 47 :: n) (p_schema d) (p_data d) pr (create_version s) (recreate_db s) (restore_db s) (customize_db s) old x y
          else [])) /\
    d_open DB w' = d_open DB w
  | None => init w d s db_file_ prefix = Bad Abort
  end.
Proof.
  intros w d s df px n pr fs2 dir En Epr (Bv & Bc & O & Nn & Fn & On & Nl & T & Dc & M & Fr & Fl) Nd L1 L2 L3 L4 L5.
  exact (db_init_ok DB fresh run user_version script cwd w d s df px n pr dir fs2 Bv En Epr Nd O Nn Fn On Nl L1 L2 L3 L4 L5 Bc T Dc M Fr Fl).
Qed.
(** That is what is wanted, if the script that makes the database is there. *)
Theorem C77_init_partial : forall w d s db_file_ prefix n pr fs2 dir new y,
  n = match db_file_ with Some f => f | None => file s end -> pr = match prefix with Some p => p | None => kind s end ->
  good w d s n fs2 dir -> goal w d s pr (dir ++ [n]) = Some (new, y) ->
  (* the arrays for names suffice *)
  p_db d <> [] -> (length (p_db d) + length n <= 126)%nat -> (length (p_db d) <= 112)%nat ->
  (length (p_schema d) + length (kind s) <= 100)%nat -> (length (p_data d) + length (kind s) <= 100)%nat -> (length (p_data d) + length pr <= 100)%nat ->
  exists w', init w d s db_file_ prefix = Ok (new, user_version y, w') /\
    d_db DB w' (dir ++ [n]) = y /\ (forall q, q <> dir ++ [n] -> d_db DB w' q = d_db DB w q) /\
    (* the files: the directories, the database and, if the directory was there, the log *)
    (forall q, entry (d_fs DB w') q =
       if path_dec q (dir ++ [n]) then Some File
       else if path_dec q (dir ++ [code "cee_dbm_log.db"]) then match entry (d_fs DB w) dir with Some _ => Some File | None => None end else entry fs2 q) /\
    (* only then it is logged *)
    (exists x, let old := match entry (d_fs DB w) (dir ++ [n]) with Some _ => Some (d_db DB w (dir ++ [n])) | None => None end in
       when_made DB fresh run script (fun x => run x deleting) (p_schema d) (kind s) (create_version s) (recreate_db s) old = Some x /\
       d_log DB w' = d_log DB w ++
         (if entry (d_fs DB w) dir
          then (kind s, code "open", p_db d ++ 47 :: n) ::
               log_rows DB user_version script (kind s) (p_db d ++ 47 :: n) (p_schema d) (p_data d) pr (create_version s) (recreate_db s) (restore_db s) (customize_db s) old x y
          else [])) /\
    d_open DB w' = d_open DB w.
Proof.
  intros w d s df px n pr fs2 dir new y En Epr Gd G Nd L1 L2 L3 L4 L5.
  pose proof (C77_exact w d s df px n pr fs2 dir En Epr Gd Nd L1 L2 L3 L4 L5) as H. cbn zeta in *. unfold goal in G.
  apply wanted_done in G as (G & Q). rewrite G, Q in H. exact H.
Qed.

(** C78.  A saved database is written to the script from which it is restored; nothing else changes. *)
Notation backup := (db_backup DB fresh user_version shell cwd).
Definition dump (d : dirs) (n pr : text) (v : Z) : text := code "/cxd/s/dump_insert.sh " ++ (p_db d ++ 47 :: n) ++ code " > " ++ sql_file (p_data d) pr "insert" v.
Definition C78_statement : Prop :=
  forall w d s n pr dir, Forall (fun x => x <> 47) n -> n <> [] -> ordinary n -> p_db d <> [] -> (forall x, - 2 ^ 31 <= user_version x < 2 ^ 31) ->
  home cwd (p_db d) dir (d_fs DB w) -> entry (d_fs DB w) (dir ++ [code "cee_dbm_log.db"]) <> Some Dir -> entry (d_fs DB w) (dir ++ [n]) <> Some Dir -> n <> code "cee_dbm_log.db" ->
  let v := user_version (d_db DB w (dir ++ [n])) in
  let c := dump d n pr v in
  exists w', backup w d s (Some n) (Some pr) = ((if entry (d_fs DB w) (dir ++ [n]) then shell c =? 0 else false), w') /\
    (forall q, d_db DB w' q = d_db DB w q) /\ d_open DB w' = d_open DB w.
(** For all paths of databases that fit into the arrays: the first 127 bytes of the command are run. *)
Theorem C78_backup_exact :
  forall w d s db_file_ prefix n pr dir,
  @eq (list Z) n (match db_file_ with Some f => f | None => file s end) -> @eq (list Z) pr (match prefix with Some p => p | None => kind s end) ->
  Forall (fun x => x <> 47) n -> n <> [] -> ordinary n -> p_db d <> [] -> (forall x, - 2 ^ 31 <= user_version x < 2 ^ 31) ->
  home cwd (p_db d) dir (d_fs DB w) -> entry (d_fs DB w) (dir ++ [code "cee_dbm_log.db"]) <> Some Dir -> entry (d_fs DB w) (dir ++ [n]) <> Some Dir -> n <> code "cee_dbm_log.db" ->
  (length (p_db d) + length n <= 126)%nat -> (length (p_db d) <= 112)%nat ->
  let v := user_version (d_db DB w (dir ++ [n])) in
  let c := firstn 127 (dump d n pr v) in
  let name := p_db d ++ 47 :: n in
  exists w', backup w d s db_file_ prefix = ((if entry (d_fs DB w) (dir ++ [n]) then true else false), w') /\
    (forall q, d_db DB w' q = d_db DB w q) /\
    d_open DB w' = d_open DB w + (if entry (d_fs DB w) (dir ++ [n]) then 0 else 1) /\
    d_log DB w' = d_log DB w ++ (kind s, code "open", name) ::
      (if entry (d_fs DB w) (dir ++ [n])
       then [(kind s, code "open", code "user_version " ++ decimal_of v); (kind s, (if shell c =? 0 then code "backup" else code "backup_failed"), c)]
       else [(kind s, code "backup_failed", name ++ code " does not exist")]).
Proof.
  intros w d s df px n pr dir En Epr Fn Nn On Nd Bv Hm Fl Fr Nl L L'.
  exact (db_backup_ok DB fresh user_version shell cwd w d s df px n pr dir En Epr Fn Nn On Nd Bv Hm Fl Fr Nl L L').
Qed.
(** That is the command if the names are short. *)
Theorem C78_backup_partial :
  forall w d s db_file_ prefix n pr dir,
  @eq (list Z) n (match db_file_ with Some f => f | None => file s end) -> @eq (list Z) pr (match prefix with Some p => p | None => kind s end) ->
  Forall (fun x => x <> 47) n -> n <> [] -> ordinary n -> p_db d <> [] -> (forall x, - 2 ^ 31 <= user_version x < 2 ^ 31) ->
  home cwd (p_db d) dir (d_fs DB w) -> entry (d_fs DB w) (dir ++ [code "cee_dbm_log.db"]) <> Some Dir -> entry (d_fs DB w) (dir ++ [n]) <> Some Dir -> n <> code "cee_dbm_log.db" ->
  (length (p_db d) + length n + length (p_data d) + length pr <= 70)%nat ->
  let v := user_version (d_db DB w (dir ++ [n])) in
  let c := dump d n pr v in
  let name := p_db d ++ 47 :: n in
  exists w', backup w d s db_file_ prefix = ((if entry (d_fs DB w) (dir ++ [n]) then true else false), w') /\
    (forall q, d_db DB w' q = d_db DB w q) /\
    d_open DB w' = d_open DB w + (if entry (d_fs DB w) (dir ++ [n]) then 0 else 1) /\
    d_log DB w' = d_log DB w ++ (kind s, code "open", name) ::
      (if entry (d_fs DB w) (dir ++ [n])
       then [(kind s, code "open", code "user_version " ++ decimal_of v); (kind s, (if shell c =? 0 then code "backup" else code "backup_failed"), c)]
       else [(kind s, code "backup_failed", name ++ code " does not exist")]).
Proof.
  intros w d s df px n pr dir En Epr Fn Nn On Nd Bv Hm Fl Fr Nl L v c name.
  destruct (C78_backup_exact w d s df px n pr dir En Epr Fn Nn On Nd Bv Hm Fl Fr Nl ltac:(lia) ltac:(lia)) as (w' & E & A & O & G).
  exists w'. split; [exact E|]. split; [exact A|]. split; [exact O|]. fold v in G. rewrite firstn_all2 in G; [exact G|].
  unfold dump, sql_file. pose proof (decimal_length v (Bv _)) as Ld. repeat (rewrite app_length || cbn [length]).
  change (length (code "/cxd/s/dump_insert.sh ")) with 22%nat. change (length (code " > ")) with 3%nat. change (length (code "insert")) with 6%nat. change (length (code ".sql")) with 4%nat. lia.
Qed.
(** A database is opened, and attached for reading, if it is there.  Otherwise the program ends. *)
Definition C78_open_statement : Prop :=
  forall w d n dir, Forall (fun x => x <> 47) n -> n <> [] -> ordinary n -> p_db d <> [] -> home cwd (p_db d) dir (d_fs DB w) -> entry (d_fs DB w) (dir ++ [n]) <> Some Dir ->
  open_db DB cwd w d n = (if entry (d_fs DB w) (dir ++ [n]) then Ok (p_db d ++ 47 :: n) else Bad Abort).
Theorem C78_open_partial :
  forall w d n dir, Forall (fun x => x <> 47) n -> n <> [] -> ordinary n -> p_db d <> [] -> home cwd (p_db d) dir (d_fs DB w) -> entry (d_fs DB w) (dir ++ [n]) <> Some Dir ->
  (length (p_db d) + length n <= 126)%nat ->
  db_exist DB cwd w d n = (if entry (d_fs DB w) (dir ++ [n]) then true else false) /\
  open_db DB cwd w d n = (if entry (d_fs DB w) (dir ++ [n]) then Ok (p_db d ++ 47 :: n) else Bad Abort).
Proof. exact (open_ok DB cwd). Qed.
Theorem C78_attach_exact :
  forall exec w d n as_name dir, Forall (fun x => x <> 47) n -> n <> [] -> ordinary n -> p_db d <> [] -> home cwd (p_db d) dir (d_fs DB w) -> entry (d_fs DB w) (dir ++ [n]) <> Some Dir ->
  (length (p_db d) + length n <= 254)%nat ->
  let sql := firstn 255 (code "attach 'file:" ++ (p_db d ++ 47 :: n) ++ code "?mode=ro' as " ++ as_name ++ code ";") in
  attach_db DB cwd exec w d n as_name = if entry (d_fs DB w) (dir ++ [n]) then if exec sql then Ok sql else Bad Abort else Bad Abort.
Proof. exact (attach_ok DB cwd). Qed.
Theorem C78_attach_partial :
  forall exec w d n as_name dir, Forall (fun x => x <> 47) n -> n <> [] -> ordinary n -> p_db d <> [] -> home cwd (p_db d) dir (d_fs DB w) -> entry (d_fs DB w) (dir ++ [n]) <> Some Dir ->
  (length (p_db d) + length n + length as_name <= 227)%nat ->
  let sql := code "attach 'file:" ++ (p_db d ++ 47 :: n) ++ code "?mode=ro' as " ++ as_name ++ code ";" in
  attach_db DB cwd exec w d n as_name = if entry (d_fs DB w) (dir ++ [n]) then if exec sql then Ok sql else Bad Abort else Bad Abort.
Proof.
  intros exec w d n as_name dir Fn Nn On Nd Hm Fr L sql. pose proof (C78_attach_exact exec w d n as_name dir Fn Nn On Nd Hm Fr ltac:(lia)) as E. cbn zeta in E.
  rewrite firstn_all2 in E; [exact E|]. repeat (rewrite app_length || cbn [length]).
  change (length (code "attach 'file:")) with 13%nat. change (length (code "?mode=ro' as ")) with 13%nat. change (length (code ";")) with 1%nat. lia.
Qed.
End World.

(** * A database that is the list of the scripts that have been run on it; their number is its version *)
Definition text_dec : forall a b : text, {a = b} + {a <> b} := list_eq_dec Z.eq_dec.
Definition toy : Type := list text.
Definition toy_run (x : toy) (s : text) : option toy := if text_dec s (code "bad") then None else if text_dec s deleting then Some [] else Some (x ++ [s]).
Definition toy_version (x : toy) : Z := Z.of_nat (length x) mod 100.
Fixpoint toy_script (l : list (text * text)) (f : text) : option text := match l with [] => None | (g, s) :: l => if text_dec f g then Some s else toy_script l f end.
Definition files : list (text * text) :=
  [(code "/s/users_create.1.sql", code "create"); (code "/d/users_insert.1.sql", code "insert"); (code "/d/users_customize.1.sql", code "special");
   (code "/s/users_migrate.1.sql", code "migrate"); (code "/s/users_migrate.3.sql", code "migrate 3"); (code "/s/broken_create.1.sql", code "bad")].
Definition paths : dirs := Dirs (code "/s") (code "/d") (code "/db").
Definition users : db_info := {| kind := code "users"; file := code "users.db"; recreate_db := false; restore_db := true; customize_db := true; create_version := 1; final_version := 2 |}.
Definition again : db_info := {| kind := code "users"; file := code "users.db"; recreate_db := true; restore_db := true; customize_db := false; create_version := 1; final_version := 2 |}.
Definition other : db_info := {| kind := code "other"; file := code "other.db"; recreate_db := false; restore_db := true; customize_db := true; create_version := 1; final_version := 2 |}.
Definition empty_world : dbm toy := Dbm toy [([code "db"], Dir)] (fun _ => []) [] 0.
Definition full_world : dbm toy := Dbm toy [([code "db"], Dir); ([code "db"; code "users.db"], File)] (fun _ => [code "a"; code "b"; code "c"]) [] 0.
Definition no_world : dbm toy := Dbm toy [] (fun _ => []) [] 0.
Definition toy_init := db_init toy [] toy_run toy_version (toy_script files) [].
Definition seen (r : outcome (bool * Z * dbm toy)) (at_ : list text) : option (bool * Z * toy * nat * Z) :=
  match r with Ok (b, v, w) => Some (b, v, d_db toy w at_, length (d_log toy w), d_open toy w) | Bad _ => None end.

(** A new database; one that is there; one that is made anew *)
Example C77_example :
  let at_ := [code "db"; code "users.db"] in
  seen (toy_init empty_world paths users None None) at_ = Some (true, 4, [code "create"; code "insert"; code "special"; code "migrate"], 10%nat, 0) /\
  seen (toy_init full_world paths users None None) at_ = Some (false, 4, [code "a"; code "b"; code "c"; code "migrate 3"], 4%nat, 0) /\
  seen (toy_init full_world paths again None (Some (code "none"))) at_ = Some (true, 2, [code "create"; code "migrate"], 7%nat, 0) /\
  goal toy [] toy_run toy_version (toy_script files) empty_world paths users (code "users") at_ = Some (true, [code "create"; code "insert"; code "special"; code "migrate"]) /\
  good toy toy_version [] empty_world paths users (code "users.db") (d_fs toy empty_world) [code "db"].
Proof.
  cbn zeta. split; [vm_compute; reflexivity|]. split; [vm_compute; reflexivity|]. split; [vm_compute; reflexivity|]. split; [vm_compute; reflexivity|].
  unfold good. split; [intros x; unfold toy_version; pose proof (Z.mod_pos_bound (Z.of_nat (length x)) 100 ltac:(lia)); lia|].
  split; [cbn; lia|]. split; [repeat constructor; discriminate|]. split; [discriminate|]. split; [repeat constructor; discriminate|].
  split; [split; discriminate|]. split; [discriminate|]. split; [|split; [reflexivity|split; [vm_compute; reflexivity|split; discriminate]]].
  intros p n k E. destruct p as [|a [|b p]]; [reflexivity| |].
  - exfalso. cbn [app entry empty_world d_fs find_entry] in E. destruct (path_dec [code "db"] [a; n]) as [Q|]; [discriminate Q|discriminate E].
  - exfalso. cbn [app entry empty_world d_fs find_entry] in E. destruct (path_dec [code "db"] (a :: b :: p ++ [n])) as [Q|]; [discriminate Q|discriminate E].
Qed.

(** What is logged for a new database, and for one that is there and has no data and no migration *)
Example C77_log_example :
  let log r := match r with Ok (_, _, w) => map (fun x => (snd (fst x), snd x)) (d_log toy w) | Bad _ => [] end in
  log (toy_init empty_world paths users None None) =
    [(code "open", code "/db/users.db"); (code "create", code "create a new /db/users.db with /s/users_create.1.sql"); (code "apply", code "/s/users_create.1.sql to /db/users.db");
     (code "open", code "user_version 1"); (code "restore", code "run /d/users_insert.1.sql to restore data /db/users.db"); (code "apply", code "/d/users_insert.1.sql to /db/users.db");
     (code "restore", code "run /d/users_customize.1.sql to customize data /db/users.db"); (code "apply", code "/d/users_customize.1.sql to /db/users.db");
     (code "apply", code "/s/users_migrate.1.sql to /db/users.db"); (code "migrate", code "ran /s/users_migrate.1.sql to migrate /db/users.db to version 4")] /\
  log (toy_init (Dbm toy [([code "db"], Dir); ([code "db"; code "users.db"], File)] (fun _ => [code "a"; code "b"]) [] 0) paths users None None) =
    [(code "open", code "/db/users.db"); (code "open", code "user_version 2"); (code "migrate", code "cannot find /s/users_migrate.2.sql, no migration")].
Proof. vm_compute. auto. Qed.

(** The directory is not there yet: it is made, but nothing is logged. *)
Definition no_log (r : outcome (bool * Z * dbm toy)) : bool := match r with Ok (b, v, w) => b && match d_log toy w with [] => true | _ => false end | Bad _ => false end.
Lemma no_log_ok (r : outcome (bool * Z * dbm toy)) b v w : r = Ok (b, v, w) -> no_log r = true -> d_log toy w = [].
Proof. intros -> N. cbn [no_log] in N. apply andb_true_iff in N as (_ & N). destruct (d_log toy w); [reflexivity|discriminate]. Qed.
Lemma no_log_not (r : outcome (bool * Z * dbm toy)) e : r = Bad e -> no_log r = true -> False.
Proof. intros -> N. discriminate. Qed.
Lemma no_log_users : no_log (db_init toy [] toy_run toy_version (toy_script files) [] no_world paths users (Some (code "users.db")) (Some (code "users"))) = true.
Proof. vm_compute. reflexivity. Qed.
Lemma no_log_other : no_log (db_init toy [] toy_run toy_version (toy_script files) [] no_world paths other (Some (code "other.db")) (Some (code "other"))) = true.
Proof. vm_compute. reflexivity. Qed.
Lemma toy_bound (x : toy) : - 2 ^ 31 <= toy_version x < 2 ^ 31.
Proof. unfold toy_version. pose proof (Z.mod_pos_bound (Z.of_nat (length x)) 100 ltac:(lia)). lia. Qed.
Lemma good_no s n : create_version s = 1 -> n <> [] -> Forall (fun x => x <> 47) n -> ordinary n -> n <> code "cee_dbm_log.db" ->
  good toy toy_version [] no_world paths s n [([code "db"], Dir)] [code "db"].
Proof.
  intros E Nn Fn On Nl. split; [exact toy_bound|]. split; [rewrite E; lia|]. split; [repeat constructor; discriminate|]. split; [exact Nn|]. split; [exact Fn|].
  split; [exact On|]. split; [exact Nl|]. split; [|split; [reflexivity|split; [vm_compute; reflexivity|split; discriminate]]].
  intros p m k Q. destruct p as [|a p]; [reflexivity|discriminate Q].
Qed.
Theorem C77_log_refuted :
  no_log (db_init toy [] toy_run toy_version (toy_script files) [] no_world paths users (Some (code "users.db")) (Some (code "users"))) = true /\ ~ C77_statement toy [] toy_run toy_version (toy_script files) [].
Proof.
  split; [exact no_log_users|]. intros S.
  destruct (S no_world paths users (code "users.db") (code "users") [([code "db"], Dir)] [code "db"] true [code "create"; code "insert"; code "special"; code "migrate"]) as (w' & E & _ & _ & (l & L) & _).
  - apply good_no; [reflexivity|discriminate|repeat constructor; discriminate|split; discriminate|discriminate].
  - vm_compute. reflexivity.
  - rewrite (no_log_ok _ _ _ _ E no_log_users) in L. symmetry in L. apply app_eq_nil in L as (_ & L). discriminate L.
Qed.
(** There is no script for the database: it is made empty, and counts as new. *)
Theorem C77_script_refuted :
  seen (toy_init empty_world paths other None None) [code "db"; code "other.db"] = Some (true, 0, [], 7%nat, 0) /\
  goal toy [] toy_run toy_version (toy_script files) empty_world paths other (code "other") [code "db"; code "other.db"] = None /\
  ~ C77_error_statement toy [] toy_run toy_version (toy_script files) [].
Proof.
  split; [vm_compute; reflexivity|]. split; [vm_compute; reflexivity|]. intros S.
  destruct (S no_world paths other (code "other.db") (code "other") [([code "db"], Dir)] [code "db"]) as (e & E).
  - apply good_no; [reflexivity|discriminate|repeat constructor; discriminate|split; discriminate|discriminate].
  - vm_compute. reflexivity.
  - exact (no_log_not _ _ E no_log_other).
Qed.
(** A script that makes a database, and one that fails: the program ends. *)
Definition fail_run (x : toy) (s : text) : option toy := if text_dec s (code "migrate") then None else toy_run x s.
Example C77_exact_example :
  db_init toy [] fail_run toy_version (toy_script files) [] empty_world paths users None None = Bad Abort /\
  wanted_by toy [] toy_run toy_version (toy_script files) (fun x => toy_run x deleting) (if_there toy toy_run (toy_script files))
    (p_schema paths) (p_data paths) (kind other) (code "other") (create_version other) (recreate_db other) (restore_db other) (customize_db other) None = Some (true, []) /\
  wanted_by toy [] fail_run toy_version (toy_script files) (fun x => fail_run x deleting) (if_there toy fail_run (toy_script files))
    (p_schema paths) (p_data paths) (kind users) (code "users") (create_version users) (recreate_db users) (restore_db users) (customize_db users) None = None.
Proof. vm_compute. auto. Qed.
(** The version of the database is brought one step further only, although there is a script for the next step. *)
Definition steps : list (text * text) := [(code "/s/users_migrate.3.sql", code "to 4"); (code "/s/users_migrate.4.sql", code "to 5")].
Theorem C77_steps_refuted :
  seen (db_init toy [] toy_run toy_version (toy_script steps) [] full_world paths users None None) [code "db"; code "users.db"] =
    Some (false, 4, [code "a"; code "b"; code "c"; code "to 4"], 4%nat, 0).
Proof. vm_compute. reflexivity. Qed.
(** Names that are too long are cut: another file is made.  An empty path ends the program. *)
Definition long : text := repeat 120 130.
Definition cut_db (r : outcome (bool * Z * dbm toy)) : bool :=
  match r with
  | Ok (b, v, w) => b && match entry (d_fs toy w) [code "db"; long] with None => true | _ => false end && match entry (d_fs toy w) [code "db"; repeat 120 123] with Some File => true | _ => false end
  | Bad _ => false
  end.
Theorem C77_long_refuted :
  cut_db (toy_init empty_world paths users (Some long) None) = true /\ toy_init empty_world (Dirs (code "/s") (code "/d") []) users None None = Bad Abort.
Proof. split; vm_compute; reflexivity. Qed.

(** * Saving *)
Definition fails (_ : text) : Z := 1.
Definition works (c : text) : Z := if text_dec c (code "/cxd/s/dump_insert.sh /db/users.db > /d/users_insert.3.sql") then 0 else 1.
Definition saved (r : bool * dbm toy) : bool * list (text * text * text) * Z := let (b, w) := r in (b, d_log toy w, d_open toy w).
Example C78_example :
  saved (db_backup toy [] toy_version works [] full_world paths users None None) =
    (true, [(code "users", code "open", code "/db/users.db"); (code "users", code "open", code "user_version 3");
            (code "users", code "backup", code "/cxd/s/dump_insert.sh /db/users.db > /d/users_insert.3.sql")], 0) /\
  open_db toy [] full_world paths (code "users.db") = Ok (code "/db/users.db") /\ open_db toy [] full_world paths (code "none.db") = Bad Abort /\
  attach_db toy [] (fun _ => true) full_world paths (code "users.db") (code "u") = Ok (code "attach 'file:/db/users.db?mode=ro' as u;").
Proof. vm_compute. auto. Qed.
Lemma full_home : home [] (p_db paths) [code "db"] (d_fs toy full_world).
Proof. split; vm_compute; reflexivity. Qed.
(** The command fails: the result is true.  There is no such database: the connection to the log is never closed. *)
Theorem C78_backup_refuted :
  fst (db_backup toy [] toy_version fails [] full_world paths users None None) = true /\
  saved (db_backup toy [] toy_version works [] full_world paths other None None) =
    (false, [(code "other", code "open", code "/db/other.db"); (code "other", code "backup_failed", code "/db/other.db does not exist")], 1) /\
  ~ C78_statement toy [] toy_version fails [].
Proof.
  split; [vm_compute; reflexivity|]. split; [vm_compute; reflexivity|]. intros S.
  destruct (S full_world paths users (code "users.db") (code "users") [code "db"]) as (w' & E & _).
  - repeat constructor; discriminate.
  - discriminate.
  - split; discriminate.
  - discriminate.
  - intros x. unfold toy_version. pose proof (Z.mod_pos_bound (Z.of_nat (length x)) 100 ltac:(lia)). lia.
  - exact full_home.
  - vm_compute. discriminate.
  - vm_compute. discriminate.
  - discriminate.
  - apply (f_equal fst) in E. vm_compute in E. discriminate.
Qed.
(** The command is cut to 127 bytes: data go to another file. *)
Definition far : dirs := Dirs (code "/s") (47 :: repeat 100 73) (code "/db").
Theorem C78_long_refuted :
  map (fun x => snd x) (snd (fst (saved (db_backup toy [] toy_version works [] full_world far users None None)))) =
    [code "/db/users.db"; code "user_version 3"; code "/cxd/s/dump_insert.sh /db/users.db > /" ++ repeat 100 73 ++ code "/users_insert.3."].
Proof. vm_compute. reflexivity. Qed.
(** The statement is cut to 255 bytes: the database is attached under a shorter name. *)
Example C78_exact_example :
  attach_db toy [] (fun s => Nat.eqb (length s) 255) full_world paths (code "users.db") (repeat 97 300) = Ok (code "attach 'file:/db/users.db?mode=ro' as " ++ repeat 97 217).
Proof. vm_compute. reflexivity. Qed.

Print Assumptions C77_exact.
Print Assumptions C77_init_partial.
Print Assumptions C78_backup_exact.
Print Assumptions C78_attach_exact.
Print Assumptions C78_backup_partial.
Print Assumptions C78_open_partial.
Print Assumptions C78_attach_partial.
Print Assumptions C77_log_refuted.
Print Assumptions C77_script_refuted.
Print Assumptions C78_backup_refuted.
