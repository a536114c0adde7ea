(** C12-C16: str.c. *)
From Coq Require Import ZArith List Bool Lia.
From Verif Require Import Base ArrayLemmas StrModel StrProofs StrReplaceProofs.
Import ListNotations.
Open Scope Z_scope.

(** * C12: creation by format *)

(** Full claim: for every format and arguments, cee_str_mk yields the text that
    printf would print.  Proved here for formats without directives.  Missing:
    formats with directives, for which it is false (next theorems). *)
Theorem C12_mk_partial : forall f args t, has_directive f = false ->
  fmt_text f args = Some t -> nonzero t -> Z.of_nat (length t) < 2 ^ 31 ->
  exists b, str_mk (Some f) args = Ok b /\ content (c_data b) t /\ Z.of_nat (length (c_data b)) = c_mem b - 64.
Proof. exact mk_no_directive. Qed.

(** Every format with a directive reads an indeterminate va_list. *)
Theorem C12_mk_directive_fails : forall f args, has_directive f = true -> str_mk (Some f) args = Bad BadVaList.
Proof. exact mk_directive. Qed.

Theorem C12_mk_refuted : exists f args t, fmt_text f args = Some t /\ t = [120; 49; 48] /\ nonzero t /\
  str_mk (Some f) args = Bad BadVaList.
Proof.
  exists [PLit [120]; PDir], [[49; 48]], [120; 49; 48]. split; [reflexivity|]. split; [reflexivity|].
  split; [repeat constructor; discriminate|]. vm_compute. reflexivity.
Qed.

(** cee_str_mk_e prints the right text with any directives; without a format it
    makes an empty string with room for n bytes. *)
Theorem C12_mk_e_text : forall n f args t, fmt_text f args = Some t -> nonzero t -> Z.of_nat (length t) < 2 ^ 31 ->
  exists b, str_mk_e n (Some f) args = Ok b /\ content (c_data b) t /\ Z.of_nat (length (c_data b)) = c_mem b - 64.
Proof.
  intros n f args t T NT L. destruct (mk_e_fmt n f args t T NT L) as (b & E & (C & _ & _ & D & _) & _). eauto.
Qed.
Theorem C12_mk_e_room_partial : forall n args, 0 <= n < 2 ^ 62 ->
  exists b, str_mk_e n None args = Ok b /\ content (c_data b) [] /\ n <= Z.of_nat (length (c_data b)).
Proof.
  intros n args H. destruct (mk_e_null n args H) as (b & E & (C & _) & _ & _ & R). eauto.
Qed.
(** With a format the requested room is ignored. *)
Theorem C12_mk_e_room_refuted : exists n f args b, str_mk_e n (Some f) args = Ok b /\
  Z.of_nat (length (c_data b)) < n /\ n = 100 /\ f = [] /\ length (c_data b) = 64%nat.
Proof. exists 100, [], []. eexists. split; [vm_compute; reflexivity|]. repeat split. Qed.

(** For all formats: there is room for the text and at most 73 bytes, whatever was
    asked for. *)
Theorem C12_mk_e_room_all_refuted : forall n f args t, fmt_text f args = Some t -> nonzero t -> Z.of_nat (length t) < 2 ^ 31 ->
  Z.of_nat (length t) + 73 < n ->
  exists b, str_mk_e n (Some f) args = Ok b /\ Z.of_nat (length (c_data b)) < n.
Proof.
  intros n f args t T NT L G. destruct (mk_e_fmt n f args t T NT L) as (b & E & (_ & _ & _ & D & _) & _ & M). exists b. split; [exact E|]. lia.
Qed.

Example C12_example : exists b, str_mk_e 3 (Some [PLit [97; 61]; PDir; PLit [44]; PDir]) [[49; 48]; [98]] = Ok b /\
  firstn 7 (c_data b) = map Some [97; 61; 49; 48; 44; 98; 0] /\ c_mem b = 128.
Proof. eexists. split; [vm_compute; reflexivity|]. split; reflexivity. Qed.

(** * C13: growing *)

(** Full claim: any history of add/catf/replace on a string, with either resize
    method, leaves exactly the expected text and never accesses memory outside
    the block.  Proved for the malloc method (the default) with all operations,
    and for the realloc method without cee_str_add.  Missing: cee_str_add with
    the realloc method, for which it is false. *)
Theorem C13_growth_partial : forall n f args t m ops b0,
  match f with Some f => fmt_text f args = Some t | None => t = [] end -> nonzero t ->
  0 <= n < 2 ^ 60 ->
  (m = MalLoc \/ (m = RealLoc /\ existsb is_add ops = false)) ->
  Forall op_ok ops -> Z.of_nat (length t) + ops_size ops < 2 ^ 31 ->
  str_mk_e n f args = Ok b0 ->
  exists b, str_run (CStr (c_cap b0) (c_mem b0) m (c_data b0)) ops = Ok b /\
    content (c_data b) (text_run t ops) /\ Z.of_nat (length (c_data b)) = c_mem b - 64.
Proof. exact str_history. Qed.

(** Appending to a full string under the realloc method reads the freed block. *)
Theorem C13_add_realloc_refuted : exists b0 ops, str_mk_e 0 None [] = Ok b0 /\
  str_run (CStr (c_cap b0) (c_mem b0) RealLoc (c_data b0)) ops = Bad UseAfterFree /\
  ops = repeat (SAdd 97) 57.
Proof. eexists. exists (repeat (SAdd 97) 57). split; [vm_compute; reflexivity|]. split; [vm_compute; reflexivity|reflexivity]. Qed.

(** So for all full strings, and whatever is appended. *)
Theorem C13_add_realloc_all_refuted : forall b s c, str_ok b s -> c_meth b = RealLoc ->
  c_cap b <= Z.of_nat (length s) < 2 ^ 32 -> str_add b c = Bad UseAfterFree.
Proof.
  intros b s c (C & M0 & Mc & D & R) Me L. unfold str_add. rewrite (strlen_content _ _ C). cbn [bind].
  unfold wrap at 1. rewrite Z.mod_small by lia. destruct (Z.ltb_spec (Z.of_nat (length s)) (c_cap b)); [lia|].
  assert (N : c_mem b <= newsize (c_mem b) CEE_BLOCK).
  { unfold newsize, CEE_BLOCK, wrap. rewrite Z.gtb_ltb. destruct (Z.ltb_spec 64 (c_mem b)); rewrite Z.mod_small; lia. }
  unfold str_resize. rewrite Me. destruct (Z.ltb_spec (newsize (c_mem b) CEE_BLOCK) (c_mem b)); [lia|]. cbn [bind]. reflexivity.
Qed.

(** cee_str_add keeps the length in 32 bits: appending to a string of 2^32
    bytes overwrites its beginning. *)
Theorem C13_add_long_refuted : exists b s b', str_ok b s /\ c_meth b = MalLoc /\ Z.of_nat (length s) = 2 ^ 32 /\
  str_add b 98 = Ok b' /\ content (c_data b') [98].
Proof.
  remember (Z.to_nat (2 ^ 32 - 2)) as n eqn:En.
  assert (NZ : nonzero (97 :: 97 :: repeat 97 n)).
  { constructor; [discriminate|]. constructor; [discriminate|].
    apply Forall_forall. intros x Hx. apply repeat_spec in Hx. subst x. discriminate. }
  assert (LS : Z.of_nat (length (97 :: 97 :: repeat 97 n)) = 2 ^ 32).
  { cbn [length]. rewrite repeat_length. subst n. lia. }
  exists (CStr (2 ^ 32 + 1) (2 ^ 32 + 73) MalLoc (map Some (97 :: 97 :: repeat 97 n) ++ Some 0 :: repeat None 8)),
    (97 :: 97 :: repeat 97 n).
  assert (C : content (map Some (97 :: 97 :: repeat 97 n) ++ Some 0 :: repeat None 8) (97 :: 97 :: repeat 97 n)).
  { split; eauto. }
  eexists. split; [|split; [reflexivity|split; [exact LS|split]]].
  - unfold str_ok. cbn [c_data c_mem c_cap c_meth]. split; [exact C|]. split; [lia|]. split; [reflexivity|].
    split; [|lia]. rewrite app_length, map_length. cbn [length] in *. rewrite !repeat_length in *. lia.
  - unfold str_add. cbn [c_data c_cap]. rewrite (strlen_content _ _ C). cbn [bind]. rewrite LS.
    change (wrap 32 (2 ^ 32)) with 0. change (0 <? 2 ^ 32 + 1) with true. cbv iota.
    cbn [map app].
    pose proof (aset_mid [] (Some 97 :: map Some (repeat 97 n) ++ Some 0 :: repeat None 8) (Some 97) (Some 98) 0 eq_refl) as A1.
    cbn [app] in A1. rewrite A1. cbn [bind].
    pose proof (aset_mid [Some 98] (map Some (repeat 97 n) ++ Some 0 :: repeat None 8) (Some 97) (Some 0) (0 + 1) eq_refl) as A2.
    cbn [app] in A2. rewrite A2.
    cbn [bind]. reflexivity.
  - cbn [set_data c_data]. split; [repeat constructor; discriminate|]. eexists. reflexivity.
Qed.

(** So for all longer strings: all that is behind the length modulo 2^32 is lost. *)
Theorem C13_add_long_all_refuted : forall b s c, str_ok b s -> 2 ^ 32 <= Z.of_nat (length s) -> c <> 0 ->
  exists b', str_add b c = Ok b' /\ content (c_data b') (firstn (Z.to_nat (Z.of_nat (length s) mod 2 ^ 32)) s ++ [c]).
Proof.
  intros b s c (C & M0 & Mc & D & R) L Nc. unfold str_add. rewrite (strlen_content _ _ C). cbn [bind]. unfold wrap.
  set (k := Z.of_nat (length s) mod 2 ^ 32). assert (K : 0 <= k < 2 ^ 32) by (apply Z.mod_pos_bound; lia).
  assert (K2 : k + 2 <= Z.of_nat (length s)).
  { unfold k. pose proof (Z.div_mod (Z.of_nat (length s)) (2 ^ 32) ltac:(lia)) as X. fold k in X |- *.
    assert (1 <= Z.of_nat (length s) / 2 ^ 32) by (apply Z.div_le_lower_bound; lia). nia. }
  destruct (Z.ltb_spec k (c_cap b)); [|lia].
  destruct C as (NZ & rest & E). rewrite E. set (p := firstn (Z.to_nat k) s).
  assert (Lp : length p = Z.to_nat k) by (unfold p; rewrite firstn_length; lia).
  destruct (skipn (Z.to_nat k) s) as [|x [|y q]] eqn:Q.
  1, 2: exfalso; apply (f_equal (@length Z)) in Q; rewrite skipn_length in Q; cbn [length] in Q; lia.
  assert (Es : s = p ++ x :: y :: q) by (unfold p; rewrite <- Q; symmetry; apply firstn_skipn).
  assert (Np : nonzero p) by (unfold nonzero in *; rewrite Es in NZ; apply Forall_app in NZ; apply NZ).
  replace (map Some s) with (map (@Some Z) p ++ Some x :: Some y :: map Some q) by (rewrite Es at 1; rewrite map_app; reflexivity).
  rewrite <- app_assoc. cbn [app].
  rewrite (aset_mid (map Some p) (Some y :: map Some q ++ Some 0 :: rest) (Some x) (Some c) k) by (rewrite map_length, Lp; lia). cbn [bind].
  pose proof (aset_mid (map Some p ++ [Some c]) (map Some q ++ Some 0 :: rest) (Some y) (Some 0) (k + 1)) as A2. rewrite <- !app_assoc in A2. cbn [app] in A2.
  rewrite A2 by (rewrite app_length, map_length, Lp; cbn [length]; lia). cbn [bind]. eexists. split; [reflexivity|]. cbn [set_data c_data].
  split; [apply Forall_app; split; [exact Np|repeat constructor; exact Nc]|]. eexists. rewrite map_app, <- app_assoc. reflexivity.
Qed.

Example C13_example : exists b0 b, str_mk_e 0 None [] = Ok b0 /\
  str_run b0 [SAdd 97; SCatf (Some [PLit (repeat 98 60); PDir]) [[99; 100]]; SAdd 101; SAdd 0; SCatf None [];
    SReplace (Some [PLit [122]]) []; SAdd 121] = Ok b /\
  firstn 4 (c_data b) = [Some 122; Some 121; Some 0; Some 98] /\ c_mem b0 = 128 /\ c_mem b = 256.
Proof. do 2 eexists. split; [vm_compute; reflexivity|]. split; [vm_compute; reflexivity|]. repeat split. Qed.

(** * C14: trimming *)

(** Full claim: for all texts, all trailing white space is removed and nothing
    else.  Missing: non-empty texts of white space only (false). *)
Theorem C14_rtrim_partial : forall a s, content a s -> Z.of_nat (length s) < 2 ^ 31 ->
  (s = [] \/ exists c, In c s /\ ws c = false) ->
  exists a' r, str_rtrim a = Ok a' /\ content a' r /\ length a' = length a /\ rtrimmed s r.
Proof. exact rtrim_ok. Qed.
Theorem C14_rtrim_refuted : exists a a' s r, content a s /\ str_rtrim a = Ok a' /\ content a' r /\
  s = [32; 9; 10] /\ r = [32] /\ ~ rtrimmed s r.
Proof.
  exists (map Some [32; 9; 10; 0]). eexists. exists [32; 9; 10], [32].
  split. { split; [repeat constructor; discriminate|]. exists []. reflexivity. }
  split; [vm_compute; reflexivity|].
  split. { split; [repeat constructor; discriminate|]. eexists. reflexivity. }
  split; auto. split; auto. intros (bl & E & _ & G). specialize (G [] 32 eq_refl). discriminate.
Qed.

(** Full claim: for all texts, all leading white space is removed and nothing
    else.  Missing: texts with leading white space (false: one character of it
    always stays). *)
Theorem C14_ltrim_partial : forall a s, content a s -> Z.of_nat (length s) < 2 ^ 31 ->
  (forall c s', s = c :: s' -> ws c = false) ->
  exists a' r, str_ltrim a = Ok a' /\ content a' r /\ length a' = length a /\ ltrimmed s r.
Proof. exact ltrim_ok. Qed.
Theorem C14_ltrim_refuted : exists a a' s r, content a s /\ str_ltrim a = Ok a' /\ content a' r /\
  s = [32; 9; 97] /\ r = [9; 97] /\ ~ ltrimmed s r.
Proof.
  exists (map Some [32; 9; 97; 0]). eexists. exists [32; 9; 97], [9; 97].
  split. { split; [repeat constructor; discriminate|]. exists []. reflexivity. }
  split; [vm_compute; reflexivity|].
  split. { split; [repeat constructor; discriminate|]. eexists. reflexivity. }
  split; auto. split; auto. intros (bl & E & _ & G). specialize (G 9 [97] eq_refl). discriminate.
Qed.

(** Exact behaviour for all texts. *)
Theorem C14_rtrim_exact : forall a s, content a s -> Z.of_nat (length s) < 2 ^ 31 ->
  exists a' r, str_rtrim a = Ok a' /\ content a' r /\ length a' = length a /\
    match s with [] => r = [] | c :: s' => exists r', r = c :: r' /\ rtrimmed s' r' end.
Proof. exact rtrim_exact. Qed.
Theorem C14_ltrim_exact : forall a bl r, content a (bl ++ r) -> Z.of_nat (length (bl ++ r)) < 2 ^ 31 ->
  Forall (fun c => ws c = true) bl -> (forall c r', r = c :: r' -> ws c = false) ->
  exists a', str_ltrim a = Ok a' /\ length a' = length a /\ content a' (skipn (length bl - 1) bl ++ r).
Proof. exact ltrim_exact. Qed.

Example C14_example : str_rtrim (map Some [97; 32; 98; 32; 10; 0]) = Ok (map Some [97; 32; 98; 0; 0; 0]) /\
  str_ltrim (map Some [97; 32; 0; 7]) = Ok (map Some [97; 32; 0; 7]).
Proof. split; vm_compute; reflexivity. Qed.

(** * C15: replacing *)

Theorem C15_replace_at_offset : forall pre win post new,
  Z.of_nat (length (pre ++ win ++ post)) + Z.of_nat (length new) < 2 ^ 63 ->
  str_replace_at_offset (pre ++ win ++ post) (Z.of_nat (length pre)) (Z.of_nat (length win)) new
  = Ok (map Some (pre ++ new ++ post) ++ [Some 0]).
Proof. exact replace_at_offset_ok. Qed.
Example C15_offset_example :
  str_replace_at_offset [97; 98; 99; 100] 1 2 [120; 121; 122] = Ok (map Some [97; 120; 121; 122; 100; 0]).
Proof. vm_compute. reflexivity. Qed.

(** A window that is not inside the string overflows the buffer. *)
Theorem C15_replace_at_offset_refuted : exists str offset len new,
  str_replace_at_offset str offset len new = Bad OutOfBounds /\ str = [97; 98] /\ offset = 1 /\ len = 2 /\ new = [].
Proof. exists [97; 98], 1, 2, []. split; [vm_compute; reflexivity|auto]. Qed.

(** Full claim: str_replace_all yields the text with every occurrence replaced
    and stays inside its buffer.  Proved: the text is right; the exact condition
    under which the final NUL is written outside (false then).  Missing: the
    empty old text (division by zero, false too). *)
Theorem C15_replace_all_partial : forall str old new, old <> [] ->
  Z.of_nat (length str) * (Z.of_nat (length new) / Z.of_nat (length old) + 1) < 2 ^ 31 ->
  exists k t, replaced old new str k t /\
  ((k = 0%nat /\ ((length new < length old)%nat \/ str = [])) /\
     str_replace_all str old new = Bad OutOfBounds
   \/ ~ (k = 0%nat /\ ((length new < length old)%nat \/ str = [])) /\
     exists rest, str_replace_all str old new = Ok (map Some t ++ Some 0 :: rest)).
Proof. exact replace_all_exact. Qed.
Theorem C15_replace_all_refuted :
  (exists str old new, str_replace_all str old new = Bad OutOfBounds /\ str = [97; 98] /\ old = [99; 99] /\ new = [100]) /\
  (exists str old new, str_replace_all str old new = Bad DivByZero /\ str = [97] /\ old = [] /\ new = [100]).
Proof.
  split.
  - exists [97; 98], [99; 99], [100]. split; [vm_compute; reflexivity|auto].
  - exists [97], [], [100]. split; [vm_compute; reflexivity|auto].
Qed.
Example C15_example : replaced [97; 97] [98] [97; 97; 97; 99; 97; 97] 2 [98; 97; 99; 98] /\
  exists rest, str_replace_all [97; 97; 97; 99; 97; 97] [97; 97] [98] = Ok (map Some [98; 97; 99; 98] ++ Some 0 :: rest).
Proof.
  split.
  - change [97; 97; 97; 99; 97; 97] with ([97; 97] ++ [97; 99; 97; 97]). change [98; 97; 99; 98] with ([98] ++ [97; 99; 98]).
    apply rep_hit. apply rep_miss; [discriminate|]. apply rep_miss; [discriminate|].
    change [97; 97] with ([97; 97] ++ []) at 2. change [98] with ([98] ++ []) at 2. apply rep_hit. constructor.
  - eexists. vm_compute. reflexivity.
Qed.

(** * C16: replacing several texts at once *)

(** Full claim: terminates, applies the first matching pair at each position,
    stays inside the buffer.  Proved when the smaller of (shortest old text,
    longest new text) is at least 1 and divides the length of the string.
    Missing: the rest, false in general (exact condition below). *)
Theorem C16_replace_ext_partial : forall str pairs, 1 <= min_len pairs -> (min_len pairs | Z.of_nat (length str)) ->
  Z.of_nat (length str) * max_len pairs < 2 ^ 62 ->
  exists t rest, replaced_ext pairs str t /\
    str_replace_all_ext str pairs = Ok (map Some t ++ Some 0 :: rest, Z.of_nat (length t)).
Proof. exact replace_all_ext_ok. Qed.
Theorem C16_replace_ext_exact : forall str pairs, 1 <= min_len pairs ->
  Z.of_nat (length str) * max_len pairs < 2 ^ 62 ->
  exists t, replaced_ext pairs str t /\
  if Z.of_nat (length t) <=? Z.of_nat (length str) / min_len pairs * max_len pairs
  then exists rest, str_replace_all_ext str pairs = Ok (map Some t ++ Some 0 :: rest, Z.of_nat (length t))
  else str_replace_all_ext str pairs = Bad OutOfBounds.
Proof. exact replace_all_ext_exact. Qed.
(** Deleting a text (new text empty) divides by zero; a string whose length is
    not a multiple overflows. *)
Theorem C16_replace_ext_refuted :
  (exists str pairs, str_replace_all_ext str pairs = Bad DivByZero /\ str = [97; 98] /\ pairs = [([97], [])]) /\
  (exists str pairs, str_replace_all_ext str pairs = Bad OutOfBounds /\ str = [97; 98; 99] /\ pairs = [([120; 121], [122; 122])]).
Proof.
  split.
  - exists [97; 98], [([97], [])]. split; [vm_compute; reflexivity|auto].
  - exists [97; 98; 99], [([120; 121], [122; 122])]. split; [vm_compute; reflexivity|auto].
Qed.
Example C16_example : exists rest,
  str_replace_all_ext [38; 97; 60; 98] [([38], [38; 97; 109; 112]); ([60], [38; 108; 116]); ([38; 97], [])]
  = Ok (map Some [38; 97; 109; 112; 97; 38; 108; 116; 98] ++ Some 0 :: rest, 9).
Proof. eexists. vm_compute. reflexivity. Qed.

Print Assumptions C12_mk_partial.
Print Assumptions C12_mk_directive_fails.
Print Assumptions C12_mk_refuted.
Print Assumptions C12_mk_e_text.
Print Assumptions C12_mk_e_room_partial.
Print Assumptions C12_mk_e_room_refuted.
Print Assumptions C12_mk_e_room_all_refuted.
Print Assumptions C13_growth_partial.
Print Assumptions C13_add_realloc_refuted.
Print Assumptions C13_add_realloc_all_refuted.
Print Assumptions C13_add_long_refuted.
Print Assumptions C13_add_long_all_refuted.
Print Assumptions C14_rtrim_partial.
Print Assumptions C14_rtrim_refuted.
Print Assumptions C14_ltrim_partial.
Print Assumptions C14_ltrim_refuted.
Print Assumptions C14_rtrim_exact.
Print Assumptions C14_ltrim_exact.
Print Assumptions C15_replace_at_offset.
Print Assumptions C15_replace_at_offset_refuted.
Print Assumptions C15_replace_all_partial.
Print Assumptions C15_replace_all_refuted.
Print Assumptions C16_replace_ext_partial.
Print Assumptions C16_replace_ext_exact.
Print Assumptions C16_replace_ext_refuted.
