(** Properties C74, C75: the settings of the database manager as text, and paths with $HOME. *)
From Coq Require Import String Ascii ZArith List Bool Lia.
From Verif Require Import Base Numeral Json StrModel StrProofs DbmTextModel DbmTextSpec DbmTextProofs.
Import ListNotations.
Open Scope Z_scope.

(** * C74: settings as text *)

(** Three paths, as C strings in arrays of 128 bytes *)
Definition paths (s : path_info) (a b c : text) : Prop :=
  (string_in (schema_script_path s) a /\ length (schema_script_path s) = 128%nat) /\
  (string_in (data_script_path s) b /\ length (data_script_path s) = 128%nat) /\
  (string_in (db_file_path s) c /\ length (db_file_path s) = 128%nat).
Definition path_items (a b c : text) : list (string * text) := [("schema_script_path"%string, a); ("data_script_path"%string, b); ("db_file_path"%string, c)].
Definition settings_items (s : db_info) : list (string * text) :=
  [("db_kind"%string, kind s); ("create_version"%string, decimal_of (create_version s)); ("recreate_db"%string, yes_no (recreate_db s)); ("restore_db"%string, yes_no (restore_db s))].
Definition info_items (s : db_info) : list (string * text) :=
  [("kind"%string, kind s); ("file"%string, file s); ("recreate_db"%string, yes_no (recreate_db s)); ("restore_db"%string, yes_no (restore_db s));
   ("create_version"%string, decimal_of (create_version s)); ("final_version"%string, decimal_of (final_version s))].

(** The full property, as for snprintf: what fits is in the buffer, with a NUL, and the length
    of the complete text is returned. *)
Definition C74_statement : Prop :=
  forall (buf : list (option Z)), let size := Z.of_nat (length buf) in size < 2 ^ 64 ->
  (forall s a b c, paths s a b c ->
    (exists after, path_info_snprint buf size s = Ok (after, Z.of_nat (length (ended (path_items a b c)))) /\ in_buffer buf after (ended (path_items a b c))) /\
    (exists after, path_info2str s size buf = Ok after /\ in_buffer buf after (joined (path_items a b c)))) /\
  (forall s, Z.of_nat (length (ended (settings_items s))) < 2 ^ 31 -> Z.of_nat (length (joined (info_items s))) < 2 ^ 31 ->
    (exists after, settings_snprint buf size s = Ok (after, Z.of_nat (length (ended (settings_items s)))) /\ in_buffer buf after (ended (settings_items s))) /\
    (exists after, db_info2str s size buf = Ok after /\ in_buffer buf after (joined (info_items s)))).

(** It holds for buffers in which all but the last item fit. *)
Lemma paths_short s a b c : paths s a b c -> (length a < 128 /\ length b < 128 /\ length c < 128)%nat.
Proof.
  intros (((_ & r1 & E1) & L1) & ((_ & r2 & E2) & L2) & ((_ & r3 & E3) & L3)).
  rewrite E1 in L1. rewrite E2 in L2. rewrite E3 in L3. rewrite app_length, map_length in L1, L2, L3. cbn [length] in *. lia.
Qed.
Theorem C74_paths_partial :
  forall (buf : list (option Z)) s a b c, Z.of_nat (length buf) < 2 ^ 64 -> paths s a b c ->
  (length (ended (removelast (path_items a b c))) <= length buf)%nat ->
  (exists after, path_info_snprint buf (Z.of_nat (length buf)) s = Ok (after, Z.of_nat (length (ended (path_items a b c)))) /\ in_buffer buf after (ended (path_items a b c))) /\
  (exists after, path_info2str s (Z.of_nat (length buf)) buf = Ok after /\ in_buffer buf after (joined (path_items a b c))).
Proof.
  intros buf s a b c B P Le. pose proof (paths_short s a b c P) as Sh. destruct P as ((Ha & _) & (Hb & _) & (Hc & _)).
  unfold path_info_snprint, path_info2str. rewrite (c_string_in _ _ Ha), (c_string_in _ _ Hb), (c_string_in _ _ Hc). cbn [bind].
  unfold path_items in *. cbn [removelast] in Le.
  assert (E1 : length (ended [("schema_script_path"%string, a); ("data_script_path"%string, b)]) =
    before_last [bytes "schema_script_path:" ++ a ++ bytes ", "; bytes "data_script_path:" ++ b ++ bytes ", "; bytes "db_file_path:" ++ c ++ bytes ", "]).
  { cbn [before_last ended flat_map fst snd item]. rewrite !app_length. cbn. lia. }
  assert (E2 : concat [bytes "schema_script_path:" ++ a ++ bytes ", "; bytes "data_script_path:" ++ b ++ bytes ", "; bytes "db_file_path:" ++ c ++ bytes ", "] =
    ended [("schema_script_path"%string, a); ("data_script_path"%string, b); ("db_file_path"%string, c)]).
  { unfold ended, item. cbn. rewrite <- !app_assoc. reflexivity. }
  assert (E3 : concat [bytes "schema_script_path:" ++ a ++ bytes ", "; bytes "data_script_path:" ++ b ++ bytes ", "; bytes "db_file_path:" ++ c] =
    joined [("schema_script_path"%string, a); ("data_script_path"%string, b); ("db_file_path"%string, c)]).
  { unfold joined, item. cbn. rewrite <- !app_assoc. cbn. rewrite app_nil_r. reflexivity. }
  split.
  - eexists. split; [|apply stored_in]. rewrite <- E2. apply snprint_start; auto; [|discriminate|rewrite <- E1; exact Le].
    rewrite E2. unfold ended, item. cbn [flat_map fst snd]. repeat (rewrite app_length || cbn [length]). cbn. lia.
  - eexists. split; [|apply stored_in]. rewrite <- E3. apply print_start; auto; [|discriminate|].
    + rewrite E3. unfold joined, item. cbn [flat_map fst snd]. repeat (rewrite app_length || cbn [length]). cbn. lia.
    + rewrite E1 in Le. cbn [before_last] in *. exact Le.
Qed.
Theorem C74_settings_partial :
  forall (buf : list (option Z)) s, Z.of_nat (length buf) < 2 ^ 64 ->
  Z.of_nat (length (ended (settings_items s))) < 2 ^ 31 -> Z.of_nat (length (joined (info_items s))) < 2 ^ 31 ->
  ((length (ended (removelast (settings_items s))) <= length buf)%nat ->
   exists after, settings_snprint buf (Z.of_nat (length buf)) s = Ok (after, Z.of_nat (length (ended (settings_items s)))) /\ in_buffer buf after (ended (settings_items s))) /\
  ((length (ended (removelast (info_items s))) <= length buf)%nat ->
   exists after, db_info2str s (Z.of_nat (length buf)) buf = Ok after /\ in_buffer buf after (joined (info_items s))).
Proof.
  intros buf s B B1 B2.
  assert (Yn : forall b, bool_text b = yes_no b) by (intros []; reflexivity).
  split; intros Le.
  - unfold settings_snprint. rewrite !Yn. unfold settings_items in *. set (v := decimal_of (create_version s)) in *. set (x := yes_no (recreate_db s)) in *. set (y := yes_no (restore_db s)) in *. clearbody v x y.
    match goal with |- exists _, snprint_all _ _ _ ?ts = Ok (_, Z.of_nat (length ?t)) /\ _ => assert (E2 : concat ts = t) by (unfold ended, item; cbn; rewrite <- !app_assoc; reflexivity) end.
    eexists. split; [|apply stored_in]. rewrite <- E2 in B1 |- *. apply snprint_start; auto; [lia|discriminate|].
    cbn [removelast] in Le. unfold ended, item in Le. cbn [before_last flat_map fst snd] in *. repeat (rewrite app_length in Le || cbn in Le). repeat (rewrite app_length || cbn). lia.
  - unfold db_info2str. rewrite !Yn. unfold info_items in *. set (v := decimal_of (create_version s)) in *. set (z := decimal_of (final_version s)) in *. set (x := yes_no (recreate_db s)) in *. set (y := yes_no (restore_db s)) in *. clearbody v x y z.
    match type of B2 with Z.of_nat (length ?t) < _ => match goal with |- exists _, print_all _ _ _ ?ts = _ /\ _ => assert (E2 : concat ts = t) by (unfold joined, item; cbn; rewrite <- !app_assoc; cbn; rewrite app_nil_r; reflexivity) end end.
    eexists. split; [|apply stored_in]. rewrite <- E2 in B2 |- *. apply print_start; auto; [lia|discriminate|].
    cbn [removelast] in Le. unfold ended, item in Le. cbn [before_last flat_map fst snd] in *. repeat (rewrite app_length in Le || cbn in Le). repeat (rewrite app_length || cbn). lia.
Qed.
(** A text in an array of 128 bytes *)
Definition in128 (t : text) : list (option Z) := map Some t ++ Some 0 :: repeat None (127 - length t).
Definition some_paths : path_info := PathInfo (in128 (bytes "/s")) (in128 (bytes "/data")) (in128 (bytes "")).
Definition some_info : db_info := DbInfo (bytes "users") (bytes "u.db") false true true 3 (-12).
(** The buffer: the text, and the number of bytes behind the NUL *)
Definition seen (r : outcome (list (option Z))) : outcome (text * nat) :=
  match r with Ok b => match c_string b with Ok t => Ok (t, length b - length t - 1)%nat | Bad e => Bad e end | Bad e => Bad e end.
Definition seen2 (r : outcome (list (option Z) * Z)) : outcome (text * nat * Z) :=
  match r with Ok (b, n) => match seen (Ok b) with Ok x => Ok (x, n) | Bad e => Bad e end | Bad e => Bad e end.
Example C74_example :
  seen2 (path_info_snprint (repeat None 80) 80 some_paths) = Ok (bytes "schema_script_path:/s, data_script_path:/data, db_file_path:, ", 17%nat, 62) /\
  seen2 (path_info_snprint (repeat None 50) 50 some_paths) = Ok (bytes "schema_script_path:/s, data_script_path:/data, db", 0%nat, 62) /\
  seen (path_info2str some_paths 80 (repeat None 80)) = Ok (bytes "schema_script_path:/s, data_script_path:/data, db_file_path:", 19%nat) /\
  seen2 (settings_snprint (repeat None 80) 80 some_info) = Ok (bytes "db_kind:users, create_version:3, recreate_db:false, restore_db:true, ", 10%nat, 69) /\
  seen (db_info2str some_info 128 (repeat None 128)) = Ok (bytes "kind:users, file:u.db, recreate_db:false, restore_db:true, create_version:3, final_version:-12", 33%nat).
Proof. vm_compute. repeat split. Qed.

(** In every other buffer the bytes behind its end are written to: what is left of the size is
    negative, which as an unsigned number is large. *)
Theorem C74_overrun_refuted :
  (forall (buf : list (option Z)) s a b c, Z.of_nat (length buf) < 2 ^ 64 -> paths s a b c ->
    (length buf < length (ended (removelast (path_items a b c))))%nat ->
    path_info_snprint buf (Z.of_nat (length buf)) s = Bad OutOfBounds /\ path_info2str s (Z.of_nat (length buf)) buf = Bad OutOfBounds) /\
  ~ C74_statement.
Proof.
  split.
  - intros buf s a b c B P Le. pose proof (paths_short s a b c P) as Sh. destruct P as ((Ha & _) & (Hb & _) & (Hc & _)).
    unfold path_info_snprint, path_info2str. rewrite (c_string_in _ _ Ha), (c_string_in _ _ Hb), (c_string_in _ _ Hc). cbn [bind].
    unfold path_items in *. cbn [removelast] in Le. unfold ended, item in Le. cbn [flat_map fst snd] in Le. rewrite !app_length in Le. cbn in Le.
    split.
    + apply snprint_start; auto; [|discriminate|]; cbn [before_last concat]; rewrite !app_length; cbn; lia.
    + apply print_start; auto; [|discriminate|]; cbn [before_last concat]; rewrite !app_length; cbn; lia.
  - intros S. assert (In : forall t, Forall (fun c => c <> 0) t -> string_in (in128 t) t) by (intros t N; split; [exact N|eexists; reflexivity]).
    destruct (S (repeat None 10) eq_refl) as (A & _). destruct (A some_paths (bytes "/s") (bytes "/data") (bytes "")) as ((after & E & _) & _).
    + split; [|split]; (split; [apply In; cbn; repeat constructor; discriminate|reflexivity]).
    + vm_compute in E. discriminate.
Qed.
Theorem C74_settings_overrun_refuted :
  forall (buf : list (option Z)) s, Z.of_nat (length buf) < 2 ^ 64 ->
  Z.of_nat (length (ended (settings_items s))) < 2 ^ 31 -> Z.of_nat (length (joined (info_items s))) < 2 ^ 31 ->
  ((length buf < length (ended (removelast (settings_items s))))%nat -> settings_snprint buf (Z.of_nat (length buf)) s = Bad OutOfBounds) /\
  ((length buf < length (ended (removelast (info_items s))))%nat -> db_info2str s (Z.of_nat (length buf)) buf = Bad OutOfBounds).
Proof.
  intros buf s B B1 B2.
  assert (Yn : forall b, bool_text b = yes_no b) by (intros []; reflexivity).
  split; intros Le.
  - unfold settings_snprint. rewrite !Yn. unfold settings_items in *. set (v := decimal_of (create_version s)) in *. set (x := yes_no (recreate_db s)) in *. set (y := yes_no (restore_db s)) in *. clearbody v x y.
    cbn [removelast] in Le. unfold ended, item in Le, B1. cbn [flat_map fst snd] in Le, B1. repeat (rewrite app_length in Le || cbn in Le). repeat (rewrite app_length in B1 || cbn [length app] in B1).
    apply snprint_start; auto; [|discriminate|]; cbn [before_last concat]; repeat (rewrite app_length || cbn); cbn in B1; lia.
  - unfold db_info2str. rewrite !Yn. unfold info_items in *. set (v := decimal_of (create_version s)) in *. set (z := decimal_of (final_version s)) in *. set (x := yes_no (recreate_db s)) in *. set (y := yes_no (restore_db s)) in *. clearbody v x y z.
    match type of B2 with Z.of_nat (length ?t) < _ => match goal with |- print_all _ _ _ ?ts = _ => assert (E2 : concat ts = t) by (unfold joined, item; cbn; rewrite <- !app_assoc; cbn; rewrite app_nil_r; reflexivity) end end.
    rewrite <- E2 in B2. cbn [removelast] in Le. unfold ended, item in Le. cbn [flat_map fst snd] in Le. repeat (rewrite app_length in Le || cbn in Le).
    apply print_start; auto; [lia|discriminate|]. cbn [before_last]. repeat (rewrite app_length || cbn). lia.
Qed.
Example C74_settings_overrun_example :
  settings_snprint (repeat None 20) 20 some_info = Bad OutOfBounds /\ db_info2str some_info 20 (repeat None 20) = Bad OutOfBounds.
Proof. vm_compute. auto. Qed.

(** * C75: the home directory in paths *)

(** The full property: $HOME at the start of a path is replaced by the home directory, other
    paths stay as they are.  (The paths are in arrays of 128 bytes.) *)
Definition C75_statement : Prop :=
  forall s home a b c a' b' c', paths s a b c -> Forall (fun c => c <> 0) home -> expands home a a' -> expands home b b' -> expands home c c' ->
  exists s', path_info_normalize s home = Ok s' /\ (length a' < 128 -> length b' < 128 -> length c' < 128 -> paths s' a' b' c')%nat.
(** It holds for paths that have $HOME at the start if at all, and are short afterwards. *)
Definition only_at_start (p : text) : Prop := occurs (code "$HOME") p -> exists rest, p = code "$HOME" ++ rest.
Theorem C75_home_partial :
  forall s home a b c a' b' c', paths s a b c -> Forall (fun c => c <> 0) home -> expands home a a' -> expands home b b' -> expands home c c' ->
  only_at_start a -> only_at_start b -> only_at_start c -> (length a' < 128)%nat -> (length b' < 128)%nat -> (length c' < 128)%nat ->
  exists s', path_info_normalize s home = Ok s' /\ paths s' a' b' c'.
Proof.
  intros s home a b c a' b' c' ((Ha & La) & (Hb & Lb) & (Hc & Lc)) Nh Ea Eb Ec Oa Ob Oc Na Nb Nc. unfold path_info_normalize.
  destruct (home_ok _ home a a' La Ha Nh Ea Na Oa) as (x & -> & Lx & Hx). destruct (home_ok _ home b b' Lb Hb Nh Eb Nb Ob) as (y & -> & Ly & Hy).
  destruct (home_ok _ home c c' Lc Hc Nh Ec Nc Oc) as (z & -> & Lz & Hz). cbn [bind]. eexists. split; [reflexivity|].
  split; [|split]; split; auto.
Qed.
Definition home_of (p home : text) : outcome (text * nat) := seen (replace_home_env (in128 p) home).
Example C75_example :
  home_of (bytes "$HOME/db") (bytes "/home/me") = Ok (bytes "/home/me/db", 116%nat) /\ home_of (bytes "$HOME") (bytes "/") = Ok (bytes "/", 126%nat) /\
  home_of (bytes "/var/$HOM") (bytes "/home/me") = Ok (bytes "/var/$HOM", 118%nat) /\ home_of (bytes "$HOME/$HOME") [] = Ok (bytes "/$HOME", 121%nat).
Proof. vm_compute. auto. Qed.

(** A home directory that is too long for the path: bytes behind both arrays are used. *)
Theorem C75_long_refuted :
  (forall path home rest, length path = 128%nat -> string_in path (code "$HOME" ++ rest) -> (128 <= length (home ++ rest))%nat ->
    replace_home_env path home = Bad OutOfBounds) /\
  ~ C75_statement.
Proof.
  split.
  - intros path home rest L H Lh. apply (home_long path home (code "$HOME" ++ rest) (home ++ rest)); auto. exists rest. auto.
  - intros S. assert (In : forall t, Forall (fun c => c <> 0) t -> string_in (in128 t) t) by (intros t N; split; [exact N|eexists; reflexivity]).
    set (p := bytes "$HOME/db"). set (home := repeat 97 125).
    destruct (S (PathInfo (in128 p) (in128 []) (in128 [])) home p [] [] (home ++ bytes "/db") [] []) as (s' & E & _).
    + split; [|split]; (split; [apply In; cbn; repeat constructor; discriminate|reflexivity]).
    + unfold home. cbn [repeat]. repeat (constructor; [discriminate|]). constructor.
    + left. exists (bytes "/db"). split; reflexivity.
    + right. split; [intros rest Q; discriminate|reflexivity].
    + right. split; [intros rest Q; discriminate|reflexivity].
    + vm_compute in E. discriminate.
Qed.
(** $HOME that is not at the start: the first five bytes are dropped. *)
Theorem C75_inside_refuted :
  home_of (bytes "/mnt/$HOME/db") (bytes "/home/me") = Ok (bytes "/home/me$HOME/db", 111%nat) /\ home_of (bytes "/x$HOMES") (bytes "/h") = Ok (bytes "/hMES", 122%nat).
Proof. vm_compute. auto. Qed.

(** For all paths: as soon as $HOME is anywhere in a path, its first five bytes are taken for
    it; if all three fit afterwards this is what they are, otherwise bytes behind an array are
    used. *)
Theorem C75_exact :
  forall s home a b c a' b' c', paths s a b c -> Forall (fun c => c <> 0) home -> becomes home a a' -> becomes home b b' -> becomes home c c' ->
  ((length a' < 128)%nat /\ (length b' < 128)%nat /\ (length c' < 128)%nat /\ exists s', path_info_normalize s home = Ok s' /\ paths s' a' b' c') \/
  (((128 <= length a')%nat \/ (128 <= length b')%nat \/ (128 <= length c')%nat) /\ path_info_normalize s home = Bad OutOfBounds).
Proof.
  intros s home a b c a' b' c' ((Ha & La) & (Hb & Lb) & (Hc & Lc)) Nh Ea Eb Ec. unfold path_info_normalize.
  destruct (Nat.lt_ge_cases (length a') 128) as [A|A]; [|right; rewrite (becomes_long _ home a a' La Ha Ea A); auto].
  destruct (becomes_in _ home a a' La Ha Nh Ea A) as (x & -> & Lx & Hx). cbn [bind].
  destruct (Nat.lt_ge_cases (length b') 128) as [B|B]; [|right; rewrite (becomes_long _ home b b' Lb Hb Eb B); auto].
  destruct (becomes_in _ home b b' Lb Hb Nh Eb B) as (y & -> & Ly & Hy). cbn [bind].
  destruct (Nat.lt_ge_cases (length c') 128) as [C|C]; [|right; rewrite (becomes_long _ home c c' Lc Hc Ec C); auto].
  destruct (becomes_in _ home c c' Lc Hc Nh Ec C) as (z & -> & Lz & Hz). cbn [bind].
  left. split; auto. split; auto. split; auto. eexists. split; [reflexivity|]. split; [|split]; split; auto.
Qed.
(** Every path becomes something. *)
Theorem C75_exact_total : forall home p, exists p', becomes home p p'.
Proof.
  intros home p. destruct (c_strstr p (code "$HOME")) eqn:E.
  - apply strstr_ok in E. exists (home ++ skipn 5 p). left. split; auto. exists (firstn 5 p), (skipn 5 p). rewrite firstn_skipn. split; auto. split; auto.
    rewrite firstn_length. destruct E as (a & b & ->). rewrite !app_length. replace (length (code "$HOME")) with 5%nat by reflexivity. lia.
  - exists p. right. split; auto. intros O. apply strstr_ok in O. congruence.
Qed.
Example C75_exact_example :
  becomes (bytes "/h") (bytes "/x$HOMES") (bytes "/hMES") /\ home_of (bytes "/x$HOMES") (bytes "/h") = Ok (bytes "/hMES", 122%nat) /\
  becomes (bytes "/h") (bytes "$HOM/E") (bytes "$HOM/E") /\ home_of (bytes "$HOM/E") (bytes "/h") = Ok (bytes "$HOM/E", 121%nat) /\
  home_of (bytes "/mnt/$HOME/db") (repeat 97 119) = Ok (repeat 97 119 ++ bytes "$HOME/db", 0%nat) /\ home_of (bytes "/mnt/$HOME/db") (repeat 97 120) = Bad OutOfBounds.
Proof.
  split; [left; split; [exists (bytes "/x"), (bytes "S"); reflexivity|exists (bytes "/x$HO"), (bytes "MES"); auto]|]. split; [vm_compute; reflexivity|].
  split; [right; split; [intros O; apply strstr_ok in O; vm_compute in O; discriminate|reflexivity]|]. vm_compute. auto.
Qed.

Print Assumptions C75_exact.
Print Assumptions C75_exact_total.
Print Assumptions C74_paths_partial.
Print Assumptions C74_settings_partial.
Print Assumptions C75_home_partial.
