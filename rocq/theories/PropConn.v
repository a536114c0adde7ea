(** C89: setting up a connection to a database (sqlite3/cee-sqlite3.c). *)
From Coq Require Import String Ascii ZArith List Bool Lia.
From Verif Require Import Base Json BlockModel DbmTextSpec ConnModel ConnSpec ConnProofs.
Import ListNotations.
Open Scope string_scope.
Open Scope list_scope.
Open Scope Z_scope.

(** C89 (partial): a connection has the name and the path it is given, of which 63 and
    127 bytes are kept.  Full property: all bytes. *)
Theorem C89_init_partial : forall x name path state db,
  length (db_name x) = 64%nat -> length (db_path x) = 128%nat ->
  Forall (fun c => c <> 0) name -> Forall (fun c => c <> 0) path ->
  exists y, init x name path state db = Ok y /\ length (db_name y) = 64%nat /\ length (db_path y) = 128%nat /\
    string_in (db_name y) (firstn 63 name) /\ string_in (db_path y) (firstn 127 path) /\ c_db y = db /\ c_state y = state.
Proof. exact init_ok. Qed.

(** C89 (partial): the statement that [cee_sqlite3_attach_db] runs attaches the file in
    the directory of the database, under the name given.  Full property: without the
    conditions that there is no double quote in the path, that the name needs no
    quotes, that the statement fits into the buffer, and that the database is a file. *)
Theorem C89_attach_partial : forall dir base file name buf size,
  without 34 dir -> ~ In 47 base -> without 34 file -> plain_name name ->
  Z.of_nat (length dir + length file + length name) + 25 <= size <= Z.of_nat (length buf) ->
  exists buf' sql, attach_db (dir ++ 47 :: base) file name buf size = Ok (buf', sql) /\
    reads sql = Some (Attach (dir ++ 47 :: file) name) /\ length buf' = length buf.
Proof. exact attach_ok. Qed.

(** C89 (partial): the same for detaching, where any name without single quotes may be
    given. *)
Theorem C89_detach_partial : forall name buf size,
  without 39 name -> Z.of_nat (length name) + 20 <= size <= Z.of_nat (length buf) ->
  exists buf' sql, detach_db name buf size = Ok (buf', sql) /\ reads sql = Some (Detach name) /\ length buf' = length buf.
Proof. exact detach_ok. Qed.

(** C89 (partial): [cee_sqlite3_get_pragma_variable] gives the value that the database
    gives for the pragma, if there is one and it is an int.  Full property: errors can
    be told from values, and every value is given. *)
Theorem C89_pragma_partial : forall (value : text -> option Z) exec name v,
  plain_name name -> (length name <= 247)%nat ->
  (forall t n, reads t = Some (Pragma n) -> exec t = value n) ->
  value name = Some v -> - 2 ^ 31 <= v < 2 ^ 31 -> get_pragma exec name = Ok v.
Proof.
  intros value exec name v P L X V B. rewrite (pragma_ok value exec name P L X), V, column_int_small; auto.
Qed.

(** C89: for all names and all sizes of the buffer, as much of the statement is run as fits.  Without a
    slash in the name of the file of the database, attaching is undefined. *)
Theorem C89_statements_exact : forall dir base file name buf size,
  Forall (fun c => c <> 0) dir -> Forall (fun c => c <> 0) file -> Forall (fun c => c <> 0) name -> ~ In 47 base ->
  attach_db base file name buf size = Bad BadPointer /\
  (0 < size <= Z.of_nat (length buf) ->
   (exists buf', attach_db (dir ++ 47 :: base) file name buf size =
     Ok (buf', firstn (Z.to_nat (size - 1)) (chars "attach database """ ++ (dir ++ 47 :: file) ++ chars """ as " ++ name ++ chars ";")) /\ length buf' = length buf) /\
   (exists buf', detach_db name buf size =
     Ok (buf', firstn (Z.to_nat (size - 1)) (chars "detach database '" ++ name ++ chars "';")) /\ length buf' = length buf)).
Proof.
  intros dir base file name buf size D F N B. split; [apply attach_no_slash, B|]. intros Hs. split.
  - exact (attach_exact dir base file name buf size B D F N Hs).
  - exact (detach_exact name buf size N Hs).
Qed.
(** C89: for all names of pragmas the first 255 bytes of the statement are run; the result is the int that
    is equal to the value modulo 2^32, and 0 if there is no value. *)
Theorem C89_pragma_exact : forall exec name, Forall (fun c => c <> 0) name ->
  exists r, get_pragma exec name = Ok r /\
    match exec (firstn 255 (chars "PRAGMA " ++ name ++ chars ";")) with
    | Some v => (r - v) mod 2 ^ 32 = 0 /\ - 2 ^ 31 <= r < 2 ^ 31
    | None => r = 0
    end.
Proof. exact pragma_exact. Qed.

(** C89: a copy of an operation for [n] columns has the same statements and columns and
    its own data: [n] structures of 40 bytes, all zero, so that no value is there. *)
Theorem C89_new_op : forall D (op : db_op D) n, 0 <= n -> 80 * n <= 2 ^ 48 ->
  exists b, new_db_op op (80 * n) = Ok (DbOp _ (o_stmts _ op) (o_info _ op) b) /\
    block_size b = Ok (40 * n) /\ firstn (Z.to_nat (40 * n)) (k_data b) = repeat (Some 0) (Z.to_nat (40 * n)) /\
    40 * n <= Z.of_nat (length (k_data b)) <= k_size b - k_off b.
Proof. exact (fun D => @new_op_ok D). Qed.

Definition empty (n : nat) : list (option Z) := repeat None n.
Definition sql_of (r : outcome (list (option Z) * text)) : option text := match r with Ok (_, t) => Some t | Bad _ => None end.

Example C89_attach_example :
  sql_of (attach_db (chars "/data/main/a.db") (chars "b.db") (chars "other") (empty 45) 45) =
    Some (chars "attach database ""/data/main/b.db"" as other;") /\
  reads (chars "attach database ""/data/main/b.db"" as other;") = Some (Attach (chars "/data/main/b.db") (chars "other")) /\
  sql_of (detach_db (chars "other") (empty 45) 45) = Some (chars "detach database 'other';") /\
  reads (chars "detach database 'other';") = Some (Detach (chars "other")) /\
  reads (chars "attach database ""/data/x""y.db"" as other;") = None.
Proof. vm_compute. repeat split. Qed.
Example C89_pragma_example :
  get_pragma (fun t => match reads t with Some (Pragma n) => if list_eq_dec Z.eq_dec n (chars "user_version") then Some (-3) else None | _ => None end)
    (chars "user_version") = Ok (-3).
Proof. vm_compute. reflexivity. Qed.
Example C89_init_example : exists y,
  init (Conn (empty 64) (empty 128) 0 0) (chars "users") (chars "/db/users.db") 3 7 = Ok y /\
  firstn 6 (db_name y) = map Some (chars "users" ++ [0]) /\ firstn 13 (db_path y) = map Some (chars "/db/users.db" ++ [0]).
Proof. eexists. split; [vm_compute; reflexivity|]. split; reflexivity. Qed.
Example C89_new_op_example : exists b,
  new_db_op (DbOp unit 5 6 tt) 240 = Ok (DbOp _ 5 6 b) /\ block_size b = Ok 120 /\ firstn 120 (k_data b) = repeat (Some 0) 120.
Proof. eexists. split; [vm_compute; reflexivity|]. split; reflexivity. Qed.

(** C89 (refuted): the path of a connection is the one given. *)
Theorem C89_init_refuted :
  ~ forall x name path state db y, length (db_name x) = 64%nat -> length (db_path x) = 128%nat ->
    Forall (fun c => c <> 0) path -> init x name path state db = Ok y -> string_in (db_path y) path.
Proof.
  intros H. destruct (init (Conn (empty 64) (empty 128) 0 0) [] (repeat 97 128) 0 0) as [y|] eqn:E; [|vm_compute in E; discriminate].
  destruct (H (Conn (empty 64) (empty 128) 0 0) [] (repeat 97 128) 0%nat 0%nat y eq_refl eq_refl ltac:(apply Forall_forall; intros c Hc; apply repeat_spec in Hc; subst c; discriminate) E) as (_ & rest & X).
  apply (f_equal (fun l => nth_error l 127)) in X. rewrite nth_error_app1 in X by (rewrite map_length, repeat_length; lia).
  vm_compute in E. injection E as <-. vm_compute in X. discriminate.
Qed.

(** C89 (refuted): the database is attached under the name given, or the function
    fails.  In a buffer that is too small, the statement is cut, and the rest of it is
    run: whatever the database and the names, it is attached under any part of the name. *)
Theorem C89_attach_cut_refuted : forall dir base file n1 n2 buf,
  without 34 dir -> ~ In 47 base -> without 34 file -> n1 <> [] -> n2 <> [] -> plain_name (n1 ++ n2) ->
  Z.of_nat (length dir + length file + length n1) + 24 <= Z.of_nat (length buf) ->
  exists size buf' sql path other, 0 < size <= Z.of_nat (length buf) /\
    attach_db (dir ++ 47 :: base) file (n1 ++ n2) buf size = Ok (buf', sql) /\ reads sql = Some (Attach path other) /\ other = n1 /\ other <> n1 ++ n2.
Proof.
  intros dir base file n1 n2 buf D B F N1 N2 P L. destruct (attach_cut dir base file n1 n2 buf D B F N1 P L) as (b & sql & E & R).
  exists (Z.of_nat (length dir + length file + length n1) + 24), b, sql, (dir ++ 47 :: file), n1. split; [lia|]. split; [exact E|]. split; [exact R|]. split; [reflexivity|].
  intros X. apply N2. apply (app_inv_head n1). rewrite app_nil_r. auto.
Qed.
Example C89_attach_cut_example :
  sql_of (attach_db (chars "/d/a") (chars "b") (chars "users2") (empty 32) 32) = Some (chars "attach database ""/d/b"" as users") /\
  reads (chars "attach database ""/d/b"" as users") = Some (Attach (chars "/d/b") (chars "users")) /\
  sql_of (detach_db (chars "users2") (empty 20) 20) = Some (chars "detach database 'us") /\
  attach_db (chars "a.db") (chars "b") (chars "u") (empty 60) 60 = Bad BadPointer /\
  get_pragma (fun t => if Nat.eqb (length t) 255 then Some (2 ^ 32 + 5) else None) (repeat 97 300) = Ok 5.
Proof. vm_compute. repeat split. Qed.

(** C89 (refuted): a file can have any name.  Double quotes in it are not doubled: here
    another file is attached. *)
Theorem C89_attach_quote_refuted :
  ~ forall dir base file name buf size buf' sql s,
    ~ In 47 base -> Forall (fun c => c <> 0) file -> plain_name name -> 0 < size <= Z.of_nat (length buf) ->
    attach_db (dir ++ 47 :: base) file name buf size = Ok (buf', sql) -> Z.of_nat (length sql) + 1 < size ->
    reads sql = Some s -> s = Attach (dir ++ 47 :: file) name.
Proof.
  intros H. destruct (attach_db ([] ++ 47 :: chars "a") (chars "b""""c") (chars "u") (empty 60) 60) as [[b sql]|] eqn:E; [|vm_compute in E; discriminate].
  assert (R : reads sql = Some (Attach (chars "/b""c") (chars "u"))) by (vm_compute in E; injection E as <- <-; vm_compute; reflexivity).
  assert (L : length sql = 29%nat) by (vm_compute in E; injection E as <- <-; reflexivity).
  specialize (H [] (chars "a") (chars "b""""c") (chars "u") (empty 60) 60 b sql (Attach (chars "/b""c") (chars "u"))).
  assert (X := fun A B C D F => H A B C D E F R). clear H.
  assert (Y : Attach (chars "/b""c") (chars "u") = Attach ([] ++ 47 :: chars "b""""c") (chars "u")); [|vm_compute in Y; discriminate].
  apply X.
  - vm_compute. intuition discriminate.
  - repeat (constructor; [discriminate|]). constructor.
  - split; [discriminate|]. repeat (constructor; [reflexivity|]). constructor.
  - vm_compute. split; congruence.
  - rewrite L. vm_compute. reflexivity.
Qed.

(** C89 (refuted): a database can be attached to a database in memory.  The name of its
    file is "", in which there is no slash: it never can. *)
Theorem C89_attach_memory_refuted : forall file name buf size, attach_db [] file name buf size = Bad BadPointer.
Proof. intros. apply attach_no_slash. auto. Qed.

(** C89 (refuted): a name can be detached whatever it is.  A single quote is not doubled. *)
Theorem C89_detach_quote_refuted :
  ~ forall name, Forall (fun c => c <> 0) name -> exists b sql, detach_db name (empty 100) 100 = Ok (b, sql) /\ reads sql = Some (Detach name).
Proof.
  intros H. destruct (H (chars "o'k")) as (b & sql & E & R).
  - repeat (constructor; [discriminate|]). constructor.
  - vm_compute in E. injection E as <- <-. vm_compute in R. discriminate.
Qed.

(** C89 (refuted): the value of a pragma is given, and errors can be told from values.
    For [max_page_count], which is 4294967294, the result is -2; for a pragma that does
    not exist or an error it is 0, as for [user_version] of a new database. *)
Theorem C89_pragma_refuted :
  (exists exec, exec (chars "PRAGMA max_page_count;") = Some 4294967294 /\ get_pragma exec (chars "max_page_count") = Ok (-2)) /\
  (exists good bad : text -> option Z, good (chars "PRAGMA user_version;") = Some 0 /\ bad (chars "PRAGMA user_version;") = None /\
     get_pragma good (chars "user_version") = get_pragma bad (chars "user_version")).
Proof.
  split; [exists (fun _ => Some 4294967294); split; vm_compute; reflexivity|].
  exists (fun _ => Some 0), (fun _ => None). repeat split; vm_compute; reflexivity.
Qed.

Print Assumptions C89_init_partial.
Print Assumptions C89_attach_partial.
Print Assumptions C89_detach_partial.
Print Assumptions C89_pragma_partial.
Print Assumptions C89_new_op.
Print Assumptions C89_statements_exact.
Print Assumptions C89_pragma_exact.
Print Assumptions C89_attach_cut_refuted.
