(** The statements that set up a connection read as they should. *)
From Coq Require Import String Ascii ZArith List Bool Lia.
From Verif Require Import Base ArrayLemmas Json StrModel StrProofs BlockModel DbmTextModel DbmTextSpec DbmTextProofs ConnModel ConnSpec.
Import ListNotations.
Open Scope string_scope.
Open Scope list_scope.
Open Scope Z_scope.
Local Arguments Z.add : simpl never.
Local Arguments Z.sub : simpl never.
Local Arguments Z.mul : simpl never.
Local Arguments Z.div : simpl never.
Local Arguments Z.of_nat : simpl never.
Local Arguments Z.to_nat : simpl never.

(** * Buffers *)
Lemma printed buf n t : 0 < n <= Z.of_nat (length buf) -> Forall (fun c => c <> 0) t ->
  let s := firstn (Z.to_nat (n - 1)) t in
  exists buf', snprintf_at buf 0 n t = Ok buf' /\ string_in buf' s /\ length buf' = length buf /\
    skipn (S (length s)) buf' = skipn (S (length s)) buf.
Proof.
  intros Hn Ht s. unfold snprintf_at. destruct (Z.ltb_spec (Z.of_nat (length buf)) 0); [lia|].
  unfold snput. destruct (Z.eqb_spec n 0); [lia|]. fold s.
  assert (Ls : (length s <= Z.to_nat (n - 1))%nat) by (unfold s; rewrite firstn_length; lia).
  assert (E : buf = map Some (@nil Z) ++ firstn (S (length s)) buf ++ skipn (S (length s)) buf) by (cbn [map app]; rewrite firstn_skipn; reflexivity).
  exists (map Some (s ++ [0]) ++ skipn (S (length s)) buf). split.
  - rewrite E at 1. rewrite (put_spec (s ++ [0]) (map Some (@nil Z)) (firstn (S (length s)) buf)).
    + reflexivity.
    + rewrite firstn_length, app_length. cbn [length]. lia.
    + reflexivity.
  - split; [|split].
    + split.
      * apply Forall_forall. intros c Hc. rewrite Forall_forall in Ht. apply Ht. unfold s in Hc.
        rewrite <- (firstn_skipn (Z.to_nat (n - 1)) t). apply in_or_app. auto.
      * exists (skipn (S (length s)) buf). rewrite map_app, <- app_assoc. reflexivity.
    + rewrite app_length, map_length, app_length, skipn_length. cbn [length]. lia.
    + rewrite skipn_app, map_length, app_length. cbn [length]. replace (S (length s) - (length s + 1))%nat with 0%nat by lia.
      rewrite skipn_all2 by (rewrite map_length, app_length; cbn [length]; lia). reflexivity.
Qed.

Lemma run_text buf n t : 0 < n <= Z.of_nat (length buf) -> Forall (fun c => c <> 0) t ->
  exists buf', snprintf_at buf 0 n t = Ok buf' /\ c_string buf' = Ok (firstn (Z.to_nat (n - 1)) t) /\ length buf' = length buf.
Proof.
  intros Hn Ht. destruct (printed buf n t Hn Ht) as (b & E & S1 & L & _). exists b. split; auto. split; auto. apply c_string_in; auto.
Qed.

Lemma init_ok x name path state db : length (db_name x) = 64%nat -> length (db_path x) = 128%nat ->
  Forall (fun c => c <> 0) name -> Forall (fun c => c <> 0) path ->
  exists y, init x name path state db = Ok y /\ length (db_name y) = 64%nat /\ length (db_path y) = 128%nat /\
    string_in (db_name y) (firstn 63 name) /\ string_in (db_path y) (firstn 127 path) /\ c_db y = db /\ c_state y = state.
Proof.
  intros L1 L2 N1 N2. unfold init. rewrite L1, L2.
  destruct (printed (db_name x) 64 name ltac:(lia) N1) as (b1 & E1 & S1 & M1 & _).
  destruct (printed (db_path x) 128 path ltac:(lia) N2) as (b2 & E2 & S2 & M2 & _).
  change (Z.of_nat 64) with 64. change (Z.of_nat 128) with 128. rewrite E1. cbn [bind]. rewrite E2. cbn [bind].
  eexists. split; [reflexivity|]. cbn [db_name db_path c_db c_state]. repeat split; try congruence; auto.
  - exact (proj1 S1).
  - exact (proj2 S1).
  - exact (proj1 S2).
  - exact (proj2 S2).
Qed.

(** * Reading *)
Lemma after_app w t : after w (w ++ t) = Some t.
Proof. induction w as [|c w IH]; cbn [after app]; auto. destruct (Z.eq_dec c c); [auto|congruence]. Qed.

Lemma quoted_app q s c r : Forall (fun c => c <> q) s -> c <> q -> quoted q (s ++ q :: c :: r) = Some (s, c :: r).
Proof.
  intros H N. induction H as [|d s Hd H IH]; cbn [quoted app].
  - destruct (Z.eq_dec q q); [|congruence]. destruct (Z.eq_dec c q); [congruence|auto].
  - destruct (Z.eq_dec d q); [congruence|]. rewrite IH. auto.
Qed.

Lemma word_app n c r : Forall (fun c => name_char c = true) n -> name_char c = false -> word (n ++ c :: r) = (n, c :: r).
Proof.
  intros H N. induction H as [|d n Hd H IH]; cbn [word app].
  - rewrite N. auto.
  - rewrite Hd, IH. auto.
Qed.

Lemma strrchr_none s c : ~ In c s -> strrchr s c = None.
Proof.
  induction s as [|x s IH]; cbn [strrchr In]; intros H; auto. rewrite IH by auto.
  destruct (Z.eqb_spec x c); [exfalso; auto|auto].
Qed.
Lemma strrchr_last d b c : ~ In c b -> strrchr (d ++ c :: b) c = Some (length d).
Proof.
  intros H. induction d as [|x d IH]; cbn [strrchr app length].
  - rewrite (strrchr_none b c H), Z.eqb_refl. auto.
  - rewrite IH. auto.
Qed.

Lemma name_zero n : Forall (fun c => name_char c = true) n -> Forall (fun c => c <> 0) n.
Proof. apply Forall_impl. intros c H ->. discriminate H. Qed.
Lemma without_zero q t : without q t -> Forall (fun c => c <> 0) t.
Proof. apply Forall_impl. tauto. Qed.
Lemma without_q q t : without q t -> Forall (fun c => c <> q) t.
Proof. apply Forall_impl. tauto. Qed.

Lemma reads_attach file name : Forall (fun c => c <> 34) file -> plain_name name ->
  reads (bytes "attach database """ ++ file ++ bytes """ as " ++ name ++ bytes ";") = Some (Attach file name).
Proof.
  intros F (N & P). unfold reads, read_attach. change (chars "attach database """) with (bytes "attach database """). rewrite after_app.
  change (bytes """ as ") with (34 :: 32 :: bytes "as "). cbn [app].
  rewrite (quoted_app 34 file 32) by (auto; discriminate).
  change (32 :: bytes "as " ++ name ++ bytes ";") with (chars " as " ++ name ++ bytes ";"). rewrite after_app.
  change (bytes ";") with [59]. rewrite (word_app name 59 []) by (auto; reflexivity).
  destruct name; [congruence|reflexivity].
Qed.

Lemma reads_detach name : Forall (fun c => c <> 39) name -> reads (bytes "detach database '" ++ name ++ bytes "';") = Some (Detach name).
Proof.
  intros F. unfold reads. replace (read_attach _) with (@None stmt) by reflexivity.
  unfold read_detach. change (chars "detach database '") with (bytes "detach database '"). rewrite after_app.
  change (bytes "';") with [39; 59]. rewrite (quoted_app 39 name 59 []) by (auto; discriminate). reflexivity.
Qed.

Lemma reads_pragma name : plain_name name -> reads (bytes "PRAGMA " ++ name ++ bytes ";") = Some (Pragma name).
Proof.
  intros (N & P). unfold reads. replace (read_attach _) with (@None stmt) by reflexivity.
  replace (read_detach _) with (@None stmt) by reflexivity.
  unfold read_pragma. change (chars "PRAGMA ") with (bytes "PRAGMA "). rewrite after_app.
  change (bytes ";") with [59]. rewrite (word_app name 59 []) by (auto; reflexivity).
  destruct name; [congruence|reflexivity].
Qed.

Lemma bytes_zero : Forall (fun c => c <> 0) (bytes "attach database """) /\ Forall (fun c => c <> 0) (bytes """ as ") /\
  Forall (fun c => c <> 0) (bytes "detach database '") /\ Forall (fun c => c <> 0) (bytes "';") /\ Forall (fun c => c <> 0) (bytes ";") /\
  Forall (fun c => c <> 0) (bytes "PRAGMA ").
Proof. repeat split; repeat (constructor; [discriminate|]); constructor. Qed.

Lemma attach_ok dir base file name buf size :
  without 34 dir -> ~ In 47 base -> without 34 file -> plain_name name ->
  Z.of_nat (length dir + length file + length name) + 25 <= size <= Z.of_nat (length buf) ->
  exists buf' sql, attach_db (dir ++ 47 :: base) file name buf size = Ok (buf', sql) /\
    reads sql = Some (Attach (dir ++ 47 :: file) name) /\ length buf' = length buf.
Proof.
  intros D B F P Hs. unfold attach_db. rewrite (strrchr_last dir base 47 B). cbn [of_option bind].
  rewrite firstn_app, Nat.sub_diag, firstn_O, app_nil_r, firstn_all.
  set (t := bytes "attach database """ ++ _).
  assert (E : t = bytes "attach database """ ++ (dir ++ 47 :: file) ++ bytes """ as " ++ name ++ bytes ";").
  { unfold t. rewrite <- !app_assoc. reflexivity. }
  destruct bytes_zero as (Z1 & Z2 & Z3 & Z4 & Z5 & Z6).
  assert (NZ : Forall (fun c => c <> 0) t).
  { rewrite E. rewrite !Forall_app. repeat split; auto.
    - eapply without_zero; eauto.
    - constructor; [discriminate|]. eapply without_zero; eauto.
    - apply name_zero, P. }
  assert (L : Z.of_nat (length t) < size).
  { rewrite E. rewrite !app_length. cbn [length]. change (length (bytes "attach database """)) with 17%nat.
    change (length (bytes """ as ")) with 5%nat. change (length (bytes ";")) with 1%nat. lia. }
  destruct (run_text buf size t ltac:(lia) NZ) as (b & E1 & E2 & E3). rewrite E1. cbn [bind]. rewrite E2. cbn [bind].
  eexists _, _. split; [reflexivity|]. split; auto. rewrite firstn_all2 by lia. rewrite E. apply reads_attach; auto.
  apply Forall_app. split; [eapply without_q; eauto|]. constructor; [discriminate|]. eapply without_q; eauto.
Qed.

Lemma detach_ok name buf size : without 39 name -> Z.of_nat (length name) + 20 <= size <= Z.of_nat (length buf) ->
  exists buf' sql, detach_db name buf size = Ok (buf', sql) /\ reads sql = Some (Detach name) /\ length buf' = length buf.
Proof.
  intros N Hs. unfold detach_db. set (t := bytes "detach database '" ++ _).
  destruct bytes_zero as (Z1 & Z2 & Z3 & Z4 & Z5 & Z6).
  assert (NZ : Forall (fun c => c <> 0) t).
  { unfold t. rewrite !Forall_app. repeat split; auto. eapply without_zero; eauto. }
  assert (L : Z.of_nat (length t) < size).
  { unfold t. rewrite !app_length. change (length (bytes "detach database '")) with 17%nat. change (length (bytes "';")) with 2%nat. lia. }
  destruct (run_text buf size t ltac:(lia) NZ) as (b & E1 & E2 & E3). rewrite E1. cbn [bind]. rewrite E2. cbn [bind].
  eexists _, _. split; [reflexivity|]. split; auto. rewrite firstn_all2 by lia. apply reads_detach. eapply without_q; eauto.
Qed.

Lemma pragma_ok (value : text -> option Z) exec name : plain_name name -> (length name <= 247)%nat ->
  (forall t n, reads t = Some (Pragma n) -> exec t = value n) ->
  get_pragma exec name = Ok (match value name with Some v => column_int v | None => 0 end).
Proof.
  intros P L X. unfold get_pragma. set (t := bytes "PRAGMA " ++ _).
  destruct bytes_zero as (Z1 & Z2 & Z3 & Z4 & Z5 & Z6).
  assert (NZ : Forall (fun c => c <> 0) t).
  { unfold t. rewrite !Forall_app. repeat split; auto. apply name_zero, P. }
  assert (Lt : (length t <= 255)%nat).
  { unfold t. rewrite !app_length. change (length (bytes "PRAGMA ")) with 7%nat. change (length (bytes ";")) with 1%nat. lia. }
  destruct (run_text (repeat None 256) 256 t) as (b & E1 & E2 & E3); [rewrite repeat_length; lia|auto|].
  rewrite E1. cbn [bind]. rewrite E2. cbn [bind]. rewrite firstn_all2 by lia. rewrite (X t name); auto. apply reads_pragma; auto.
Qed.

Lemma column_int_small v : - 2 ^ 31 <= v < 2 ^ 31 -> column_int v = v.
Proof.
  intros H. unfold column_int, wrap. destruct (Z_lt_le_dec v 0).
  - replace (v mod 2 ^ 32) with (v + 2 ^ 32).
    + destruct (Z.ltb_spec (v + 2 ^ 32) (2 ^ 31)); lia.
    + apply Z.mod_unique with (-1); lia.
  - rewrite Z.mod_small by lia. destruct (Z.ltb_spec v (2 ^ 31)); lia.
Qed.

(** * Every name and every size *)
Lemma attach_exact dir base file name buf size :
  ~ In 47 base -> Forall (fun c => c <> 0) dir -> Forall (fun c => c <> 0) file -> Forall (fun c => c <> 0) name -> 0 < size <= Z.of_nat (length buf) ->
  exists buf', attach_db (dir ++ 47 :: base) file name buf size =
    Ok (buf', firstn (Z.to_nat (size - 1)) (bytes "attach database """ ++ (dir ++ 47 :: file) ++ bytes """ as " ++ name ++ bytes ";")) /\ length buf' = length buf.
Proof.
  intros B D F N Hs. unfold attach_db. rewrite (strrchr_last dir base 47 B). cbn [of_option bind].
  rewrite firstn_app, Nat.sub_diag, firstn_O, app_nil_r, firstn_all.
  set (t := bytes "attach database """ ++ (dir ++ 47 :: file) ++ bytes """ as " ++ name ++ bytes ";").
  replace (bytes "attach database """ ++ dir ++ bytes "/" ++ file ++ bytes """ as " ++ name ++ bytes ";") with t by (unfold t; rewrite <- !app_assoc; reflexivity).
  destruct bytes_zero as (Z1 & Z2 & Z3 & Z4 & Z5 & Z6).
  assert (NZ : Forall (fun c => c <> 0) t).
  { unfold t. rewrite !Forall_app. repeat split; auto. constructor; [discriminate|exact F]. }
  destruct (run_text buf size t Hs NZ) as (b & E1 & E2 & E3). rewrite E1. cbn [bind]. rewrite E2. cbn [bind]. exists b. auto.
Qed.
Lemma attach_no_slash filename file name buf size : ~ In 47 filename -> attach_db filename file name buf size = Bad BadPointer.
Proof. intros H. unfold attach_db. rewrite (strrchr_none _ _ H). reflexivity. Qed.
Lemma detach_exact name buf size : Forall (fun c => c <> 0) name -> 0 < size <= Z.of_nat (length buf) ->
  exists buf', detach_db name buf size = Ok (buf', firstn (Z.to_nat (size - 1)) (bytes "detach database '" ++ name ++ bytes "';")) /\ length buf' = length buf.
Proof.
  intros N Hs. unfold detach_db. set (t := bytes "detach database '" ++ _).
  destruct bytes_zero as (Z1 & Z2 & Z3 & Z4 & Z5 & Z6).
  assert (NZ : Forall (fun c => c <> 0) t) by (unfold t; rewrite !Forall_app; repeat split; auto).
  destruct (run_text buf size t Hs NZ) as (b & E1 & E2 & E3). rewrite E1. cbn [bind]. rewrite E2. cbn [bind]. exists b. auto.
Qed.
Lemma column_int_mod v : (column_int v - v) mod 2 ^ 32 = 0 /\ - 2 ^ 31 <= column_int v < 2 ^ 31.
Proof.
  unfold column_int, wrap. pose proof (Z.mod_pos_bound v (2 ^ 32) ltac:(lia)) as B. pose proof (Z.div_mod v (2 ^ 32) ltac:(lia)) as D.
  destruct (Z.ltb_spec (v mod 2 ^ 32) (2 ^ 31)) as [L|L]; (split; [|lia]).
  - replace (v mod 2 ^ 32 - v) with ((- (v / 2 ^ 32)) * 2 ^ 32) by lia. apply Z_mod_mult.
  - replace (v mod 2 ^ 32 - 2 ^ 32 - v) with ((- (v / 2 ^ 32) - 1) * 2 ^ 32) by lia. apply Z_mod_mult.
Qed.
Lemma pragma_exact exec name : Forall (fun c => c <> 0) name ->
  exists r, get_pragma exec name = Ok r /\
    match exec (firstn 255 (bytes "PRAGMA " ++ name ++ bytes ";")) with
    | Some v => (r - v) mod 2 ^ 32 = 0 /\ - 2 ^ 31 <= r < 2 ^ 31
    | None => r = 0
    end.
Proof.
  intros N. unfold get_pragma. set (t := bytes "PRAGMA " ++ _).
  destruct bytes_zero as (Z1 & Z2 & Z3 & Z4 & Z5 & Z6).
  assert (NZ : Forall (fun c => c <> 0) t) by (unfold t; rewrite !Forall_app; repeat split; auto).
  destruct (run_text (repeat None 256) 256 t) as (b & E1 & E2 & E3); [rewrite repeat_length; lia|auto|].
  rewrite E1. cbn [bind]. rewrite E2. cbn [bind]. change (Z.to_nat (256 - 1)) with 255%nat. eexists. split; [reflexivity|].
  destruct (exec (firstn 255 t)); [apply column_int_mod|reflexivity].
Qed.
Lemma word_all n : Forall (fun c => name_char c = true) n -> word n = (n, []).
Proof. induction 1 as [|d n Hd H IH]; cbn [word]; auto. rewrite Hd, IH. auto. Qed.
Lemma reads_attach_cut file name : Forall (fun c => c <> 34) file -> plain_name name ->
  reads (bytes "attach database """ ++ file ++ bytes """ as " ++ name) = Some (Attach file name).
Proof.
  intros F (N & P). unfold reads, read_attach. change (chars "attach database """) with (bytes "attach database """). rewrite after_app.
  change (bytes """ as ") with (34 :: 32 :: bytes "as "). cbn [app].
  rewrite (quoted_app 34 file 32) by (auto; discriminate).
  change (32 :: bytes "as " ++ name) with (chars " as " ++ name). rewrite after_app.
  rewrite (word_all name P). destruct name; [congruence|reflexivity].
Qed.
(** The statement is cut inside the name. *)
Lemma attach_cut dir base file n1 n2 buf :
  without 34 dir -> ~ In 47 base -> without 34 file -> n1 <> [] -> plain_name (n1 ++ n2) ->
  let size := Z.of_nat (length dir + length file + length n1) + 24 in
  size <= Z.of_nat (length buf) ->
  exists buf' sql, attach_db (dir ++ 47 :: base) file (n1 ++ n2) buf size = Ok (buf', sql) /\ reads sql = Some (Attach (dir ++ 47 :: file) n1).
Proof.
  intros D B F N (_ & P) size Hs.
  destruct (attach_exact dir base file (n1 ++ n2) buf size B (without_zero _ _ D) (without_zero _ _ F) (name_zero _ P)) as (b & E & _); [unfold size in *; lia|].
  eexists _, _. split; [exact E|].
  replace (bytes "attach database """ ++ (dir ++ 47 :: file) ++ bytes """ as " ++ (n1 ++ n2) ++ bytes ";") with
    ((bytes "attach database """ ++ (dir ++ 47 :: file) ++ bytes """ as " ++ n1) ++ n2 ++ bytes ";") by (rewrite <- !app_assoc; reflexivity).
  replace (Z.to_nat (size - 1)) with (length (bytes "attach database """ ++ (dir ++ 47 :: file) ++ bytes """ as " ++ n1)).
  2:{ rewrite !app_length. cbn [length]. change (length (bytes "attach database """)) with 17%nat. change (length (bytes """ as ")) with 5%nat. unfold size. lia. }
  rewrite firstn_app, Nat.sub_diag, firstn_O, app_nil_r, firstn_all. apply reads_attach_cut.
  - apply Forall_app. split; [eapply without_q; eauto|]. constructor; [discriminate|]. eapply without_q; eauto.
  - split; [exact N|]. apply Forall_app in P as (P & _). exact P.
Qed.

(** * Copies of operations *)
Lemma new_op_ok {D} (op : db_op D) n : 0 <= n -> 80 * n <= 2 ^ 48 ->
  exists b, new_db_op op (80 * n) = Ok (DbOp _ (o_stmts _ op) (o_info _ op) b) /\
    block_size b = Ok (40 * n) /\ firstn (Z.to_nat (40 * n)) (k_data b) = repeat (Some 0) (Z.to_nat (40 * n)) /\
    40 * n <= Z.of_nat (length (k_data b)) <= k_size b - k_off b.
Proof.
  intros H0 H1. unfold new_db_op, SIZE_DATA, SIZE_INFO.
  replace (wrap 64 (40 * (80 * n))) with (40 * n * 80) by (unfold wrap; rewrite Z.mod_small; lia).
  rewrite Z.div_mul by lia. unfold block_mk, block_mk_nonzero, BLOCK_HDR, BLOCK_OFF.
  replace (wrap 64 (40 * n + 80)) with (40 * n + 80) by (unfold wrap; rewrite Z.mod_small; lia).
  destruct (Z.ltb_spec (40 * n + 80) 72); [lia|]. cbn [bind k_data k_size k_off k_cap_at k_cap].
  rewrite repeat_length. destruct (Z.leb_spec (40 * n) (Z.of_nat (Z.to_nat (40 * n + 80 - 72)))); [|lia]. cbn [bind].
  eexists. split; [reflexivity|]. unfold block_size, BLOCK_OFF. cbn [k_data k_size k_off k_cap_at k_cap].
  split; [reflexivity|]. split.
  - rewrite firstn_app, repeat_length, Nat.sub_diag, firstn_O, app_nil_r. apply firstn_all2. rewrite repeat_length. lia.
  - rewrite app_length, repeat_length, skipn_length, repeat_length. lia.
Qed.
