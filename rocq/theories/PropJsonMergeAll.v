(** C68: merging JSON files (cee-json/cee_json_merge.c).

    [strtod] and [fmt_g] are any functions, as in C67; [init] is what the memory from
    malloc contains and [can_write] which files can be opened for writing. *)
From Coq Require Import ZArith List Bool Lia Arith.
From Verif Require Import Base ArrayLemmas BoxedModel Utf8Proofs Json JsonSpec JsonTokModel JsonPrintModel JsonPrintSpec JsonPrintProofs JsonPrintLang PropJsonPrint
  JsonHeapModel JsonHeapSpec JsonHeapProofs JsonFrame JsonFieldProofs JsonStored JsonFileModel JsonFileProofs PropJsonFile PropJsonHeap
  JsonMergeAllModel JsonMergeAllProofs JsonMergeAllRun.
Import ListNotations.
Open Scope Z_scope.
Local Arguments Z.add : simpl never.
Local Arguments Z.of_nat : simpl never.

(** The value that the merged file is to have: all members, and the names of the
    files as the member "originals" *)
Definition combined (kz : list (text * json)) (paths : list text) : json :=
  JObj (with_member kz [111; 114; 105; 103; 105; 110; 97; 108; 115] (JArr (map JStr paths))).
Definition file_name (p : text) : Prop := Forall byte p /\ Z.of_nat (length p) < 2 ^ 32.
Definition changed_only (fs fs' : files) (path bytes : text) : Prop :=
  fs' path = Some bytes /\ forall p, p <> path -> fs' p = fs p.

(** Full statement: files with JSON objects are merged into one. *)
Definition C68_statement (mk_str : text -> outcome text) : Prop :=
  forall strtod fmt_g init can_write fs p0 rest out kv0 vs,
  has_json strtod fs p0 (JObj kv0) -> Forall2 (has_json strtod fs) rest vs -> Forall (fun v => mergeable (JObj kv0) v = true) vs ->
  Forall (everywhere (ordinary fmt_g)) (JObj kv0 :: vs) -> Forall (fun v => height v <= 127)%nat (JObj kv0 :: vs) -> Forall file_name (p0 :: rest) ->
  Z.of_nat (total_size (JObj kv0 :: vs) + length rest + 2) < 2 ^ 64 -> can_write out = true ->
  exists steps, forall fuel, (steps <= fuel)%nat -> exists kz fs',
    merge_all strtod fmt_g mk_str init can_write fuel fs (p0 :: rest) out = Ok (0, fs') /\
    folded (JObj kv0) vs (JObj kz) /\ changed_only fs fs' out (text_of fmt_g true 0 (combined kz (p0 :: rest))).
(** Proved: where a va_list is passed by value.  Files after the first that have
    something else than an object are left out. *)
Theorem C68_merge_all_partial : forall strtod fmt_g init can_write fs p0 rest out kv0 vs,
  has_json strtod fs p0 (JObj kv0) -> Forall2 (has_json strtod fs) rest vs ->
  Forall (everywhere (ordinary fmt_g)) (JObj kv0 :: vs) -> Forall (fun v => height v <= 127)%nat (JObj kv0 :: vs) -> Forall file_name (p0 :: rest) ->
  Z.of_nat (total_size (JObj kv0 :: vs) + length rest + 2) < 2 ^ 64 -> can_write out = true ->
  exists steps, forall fuel, (steps <= fuel)%nat -> exists kz fs',
    merge_all strtod fmt_g byval_str_mk init can_write fuel fs (p0 :: rest) out = Ok (0, fs') /\
    folded (JObj kv0) vs (JObj kz) /\ changed_only fs fs' out (text_of fmt_g true 0 (combined kz (p0 :: rest))).
Proof.
  intros strtod fmt_g init cw fs p0 rest out kv0 vs H0 F Or Hi Nm B W. destruct (some_bound fs (p0 :: rest)) as (N & Hn).
  set (T := total_size (JObj kv0 :: vs)) in *. exists (N + 2 * (T + length rest + 3))%nat. intros fuel L.
  assert (LT : (T < fuel)%nat) by lia.
  assert (Gs : Forall (good fmt_g) (JObj kv0 :: vs)).
  { rewrite Forall_forall in *. intros v I. split; auto. }
  assert (Sh : Forall (short fs fuel) (p0 :: rest)) by (apply Hn; lia).
  pose proof (Forall_inv Gs) as G0. assert (D0 : distinct (JObj kv0)) by (eapply ordinary_distinct; apply G0).
  assert (T0 : (size (JObj kv0) + total_size vs = T)%nat) by reflexivity.
  destruct (load_file_ok strtod fs fuel [] p0 (JObj kv0) H0 (Forall_inv Sh) D0) as (h & a & E1 & Hh & Nh & _); [lia|]. cbn [app] in *.
  destruct (merge_files_ok strtod fmt_g fs fuel T ltac:(lia) LT rest vs F (Forall_inv_tail Sh) (Forall_inv_tail Gs) h (JObj kv0) a Hh Nh G0 ltac:(lia)) as (h' & z & E2 & Fz & Hz & Nz & Gz & Lz).
  destruct (folded_object vs _ _ Fz kv0 eq_refl) as (kz & ->). pose proof (size_obj_len kz) as Lk.
  destruct (originals_ok h' kz a (p0 :: rest) (Z.of_nat (length (p0 :: rest))) Hz Nz ltac:(lia) ltac:(lia)) as (h3 & E3 & H3).
  fold (names (p0 :: rest)) in H3. pose proof (put_size originals (names (p0 :: rest)) kz) as Sz. rewrite names_size in Sz. cbn [length] in Sz.
  set (j := JObj (put originals (names (p0 :: rest)) kz)) in *.
  assert (Ec : j = combined kz (p0 :: rest)).
  { unfold j, combined, names. rewrite with_member_put; [auto|]. apply (everywhere_here _ _ (proj1 Gz)). }
  destruct (named_good fmt_g kz (p0 :: rest) Gz Nm) as (O1 & O2). fold j in O1, O2.
  exists kz, (write_file fs out (text_of fmt_g true 0 (combined kz (p0 :: rest)))). split; [|split; [auto|]].
  - unfold merge_all. rewrite E1. cbn [bind]. rewrite E2. cbn [bind]. rewrite W. cbn [alloc] in E3 |- *.
    destruct (object_set byval_str_mk _ (Some a) originals _) as [h2|]; [|discriminate]. cbn [bind] in E3 |- *. rewrite E3. cbn [bind].
    rewrite (value_at_ok h3 fuel j a H3) by lia. cbn [bind].
    rewrite save_ok; [|auto|apply fits_height; exact O2|pose proof (cost_size j); lia]. rewrite <- Ec. cbn [is_pretty].
    unfold c_write. cbn [w_room bind w_bytes app]. auto.
  - split; unfold write_file, text_eqb; [|intros p X]; destruct (list_eq_dec Z.eq_dec _ _); congruence.
Qed.
(** As the C standard has it, cee_str_mk cannot make the key: with any files. *)
Theorem C68_va_list_refuted : forall strtod fmt_g init can_write fs p0 rest out kv0 vs,
  has_json strtod fs p0 (JObj kv0) -> Forall2 (has_json strtod fs) rest vs ->
  Forall (everywhere (ordinary fmt_g)) (JObj kv0 :: vs) -> Forall (fun v => height v <= 127)%nat (JObj kv0 :: vs) ->
  Z.of_nat (total_size (JObj kv0 :: vs)) < 2 ^ 64 -> can_write out = true ->
  exists steps, forall fuel, (steps <= fuel)%nat -> merge_all strtod fmt_g c_str_mk init can_write fuel fs (p0 :: rest) out = Bad BadVaList.
Proof.
  intros strtod fmt_g init cw fs p0 rest out kv0 vs H0 F Or Hi B W. destruct (some_bound fs (p0 :: rest)) as (N & Hn).
  set (T := total_size (JObj kv0 :: vs)) in *. exists (N + 2 * (T + length rest + 3))%nat. intros fuel L.
  assert (LT : (T < fuel)%nat) by lia.
  assert (Gs : Forall (good fmt_g) (JObj kv0 :: vs)).
  { rewrite Forall_forall in *. intros v I. split; auto. }
  assert (Sh : Forall (short fs fuel) (p0 :: rest)) by (apply Hn; lia).
  pose proof (Forall_inv Gs) as G0. assert (D0 : distinct (JObj kv0)) by (eapply ordinary_distinct; apply G0).
  assert (T0 : (size (JObj kv0) + total_size vs = T)%nat) by reflexivity.
  destruct (load_file_ok strtod fs fuel [] p0 (JObj kv0) H0 (Forall_inv Sh) D0) as (h & a & E1 & Hh & Nh & _); [lia|]. cbn [app] in *.
  destruct (merge_files_ok strtod fmt_g fs fuel T ltac:(lia) LT rest vs F (Forall_inv_tail Sh) (Forall_inv_tail Gs) h (JObj kv0) a Hh Nh G0 ltac:(lia)) as (h' & z & E2 & Fz & Hz & _).
  destruct (folded_object vs _ _ Fz kv0 eq_refl) as (kz & ->). apply holds_obj in Hz as (m & kas & Ea & _).
  unfold merge_all. rewrite E1. cbn [bind]. rewrite E2. cbn [bind]. rewrite W. cbn [alloc]. unfold object_set.
  assert (E4 : forall n, nth_error (h' ++ [n]) a = Some (NObj m)) by (intros n; rewrite alloc_other; [auto|apply nth_error_Some; congruence]).
  rewrite (object_at_ok _ a m (E4 _)). cbn [bind]. unfold load at 1. rewrite alloc_new. cbn [of_option bind].
  unfold add_field. rewrite (object_at_ok _ a m (E4 _)). cbn [bind]. rewrite c_str_mk_bad. auto.
Qed.
Theorem C68_statement_refuted : ~ C68_statement c_str_mk.
Proof.
  intros H. set (fs := fun _ : text => Some [123; 125]).
  assert (J : has_json (fun _ => 0) fs [] (JObj [])).
  { exists [123; 125], 1%nat. split; [reflexivity|]. split; [|split; [lia|intros [(z & E)|(z & E)]; discriminate]].
    exists [], [123; 125], []. split; [constructor|]. split; [|split; [constructor|auto]]. apply (jv_obj0 _ _ _ 0 []). constructor. }
  assert (O : Forall (everywhere (ordinary (fun _ _ => []))) [JObj []]).
  { constructor; [|constructor]. split; [split; constructor|exact I]. }
  assert (G : Forall (fun v => height v <= 127)%nat [JObj []]) by (repeat constructor; cbn; lia).
  destruct (H (fun _ => 0) (fun _ _ => []) (fun _ => 0) (fun _ => true) fs [] [] [] [] [] J (Forall2_nil _) (Forall_nil _) O G) as (s1 & H1);
    [repeat constructor; cbn; lia|vm_compute; auto|auto|].
  destruct (C68_va_list_refuted (fun _ => 0) (fun _ _ => []) (fun _ => 0) (fun _ => true) fs [] [] [] [] [] J (Forall2_nil _) O G) as (s2 & H2); [vm_compute; auto|auto|].
  destruct (H1 (s1 + s2)%nat ltac:(lia)) as (kz & fs' & E & _). rewrite (H2 (s1 + s2)%nat ltac:(lia)) in E. discriminate.
Qed.

(** The result is 0 or 1; only the file for the result changes, and that only with 0. *)
Theorem C68_effects : forall strtod fmt_g mk_str init can_write fuel fs paths out r fs',
  merge_all strtod fmt_g mk_str init can_write fuel fs paths out = Ok (r, fs') ->
  (r = 1 /\ fs' = fs) \/ (r = 0 /\ can_write out = true /\ exists bytes, changed_only fs fs' out bytes).
Proof.
  intros strtod fmt_g mk init cw fuel fs paths out r fs' H. unfold merge_all in H. destruct paths as [|p0 rest]; [discriminate|].
  destruct (load_file strtod fuel fs [] p0) as [[(h, j0)|]|]; cbn [bind] in H; try discriminate; [|injection H as <- <-; auto].
  destruct (merge_files strtod fuel fs h j0 rest) as [[h2|]|]; cbn [bind] in H; try discriminate; [|injection H as <- <-; auto].
  destruct (cw out) eqn:W; [|injection H as <- <-; auto]. cbn [alloc] in H.
  destruct (object_set mk _ _ _ _) as [h3|]; [|discriminate]. cbn [bind] in H.
  destruct (append_names mk h3 _ _) as [h4|]; [|discriminate]. cbn [bind] in H.
  destruct (value_at fuel h4 _) as [j|]; [|discriminate]. cbn [bind] in H.
  destruct (save_fileno fmt_g fuel init j _ _) as [(b, f)|]; [|discriminate]. cbn [bind] in H. injection H as <- <-.
  right. split; [auto|]. split; [auto|]. exists (w_bytes f).
  split; unfold write_file, text_eqb; [|intros p X]; destruct (list_eq_dec Z.eq_dec _ _); congruence.
Qed.

(** A file that cannot be opened or has no JSON in it, after any number of files
    that are as they should be: nothing is written. *)
Definition no_json (strtod : text -> Z) (fs : files) (p : text) : Prop :=
  match fs p with
  | None => True
  | Some bytes => exists line, forall fuel, (length bytes < fuel)%nat -> load_from_fileno strtod fuel bytes true true = Ok (None, line)
  end.
Theorem C68_failure : forall strtod fmt_g mk_str init can_write fs ok vs bad rest out,
  Forall2 (has_json strtod fs) ok vs -> Forall (everywhere (ordinary fmt_g)) vs -> Forall (fun v => height v <= 127)%nat vs ->
  Z.of_nat (total_size vs) < 2 ^ 64 -> no_json strtod fs bad ->
  exists steps, forall fuel, (steps <= fuel)%nat ->
    merge_all strtod fmt_g mk_str init can_write fuel fs (ok ++ bad :: rest) out = Ok (1, fs).
Proof.
  intros strtod fmt_g mk init cw fs ok vs bad rest out F Or Hi B X. destruct (some_bound fs (bad :: ok)) as (N & Hn).
  exists (N + S (total_size vs))%nat. intros fuel L. assert (Sh : Forall (short fs fuel) (bad :: ok)) by (apply Hn; lia).
  assert (Lb : forall h, load_file strtod fuel fs h bad = Ok None).
  { intros h. pose proof (Forall_inv Sh) as Sb. unfold no_json, load_file in *. destruct (fs bad) as [bytes|] eqn:E; [|auto].
    destruct X as (line & X). rewrite X by (apply Sb; auto). auto. }
  assert (Gs : Forall (good fmt_g) vs).
  { rewrite Forall_forall in *. intros v I. split; auto. }
  destruct F as [|p0 v0 ok vs H0 F]; cbn [app merge_all]; [rewrite Lb; auto|].
  change (total_size (v0 :: vs)) with (size v0 + total_size vs)%nat in *. apply Forall_inv_tail in Sh. pose proof (Forall_inv Gs) as G0.
  destruct (load_file_ok strtod fs fuel [] p0 v0 H0 (Forall_inv Sh)) as (h & a & E1 & Hh & Nh & _); [eapply ordinary_distinct; apply G0|lia|].
  rewrite E1. cbn [bind app] in *.
  destruct (merge_files_ok strtod fmt_g fs fuel (size v0 + total_size vs) B ltac:(lia) ok vs F (Forall_inv_tail Sh) (Forall_inv_tail Gs) h v0 a Hh Nh G0 ltac:(lia)) as (h' & z & E2 & _).
  rewrite (merge_files_app _ _ _ _ _ _ _ _ E2). cbn [merge_files]. rewrite Lb. auto.
Qed.

(** For values without doubles: the merged file has the combined value as JSON. *)
Theorem C68_reload_partial : forall strtod fmt_g init can_write fs p0 rest out kv0 vs,
  has_json strtod fs p0 (JObj kv0) -> Forall2 (has_json strtod fs) rest vs ->
  Forall (everywhere PropJsonPrint.plain) (JObj kv0 :: vs) -> Forall (fun v => height v <= 127)%nat (JObj kv0 :: vs) -> Forall good_string (p0 :: rest) ->
  Z.of_nat (total_size (JObj kv0 :: vs) + length rest + 2) < 2 ^ 64 -> can_write out = true ->
  exists steps, forall fuel, (steps <= fuel)%nat -> exists kz fs',
    merge_all strtod fmt_g byval_str_mk init can_write fuel fs (p0 :: rest) out = Ok (0, fs') /\
    folded (JObj kv0) vs (JObj kz) /\ has_json strtod fs' out (combined kz (p0 :: rest)).
Proof.
  intros strtod fmt_g init cw fs p0 rest out kv0 vs H0 F Pl Hi Nm B W.
  assert (Or : Forall (everywhere (ordinary fmt_g)) (JObj kv0 :: vs)).
  { eapply Forall_impl; [|exact Pl]. intros v. apply everywhere_impl. apply plain_ordinary. }
  destruct (C68_merge_all_partial strtod fmt_g init cw fs p0 rest out kv0 vs H0 F Or Hi) as (steps & S0); [|auto|auto|].
  { eapply Forall_impl; [|exact Nm]. intros p G. split; [apply good_bytes; auto|apply G]. }
  exists steps. intros fuel L. destruct (S0 fuel L) as (kz & fs' & E & Fz & C1 & C2). exists kz, fs'. split; [auto|]. split; [auto|].
  assert (Pz : everywhere PropJsonPrint.plain (JObj kz)) by (eapply folded_plain; [exact Fz|exact (Forall_inv Pl)|exact (Forall_inv_tail Pl)]).
  assert (Pc : everywhere PropJsonPrint.plain (combined kz (p0 :: rest))).
  { unfold combined. rewrite with_member_put by (apply (everywhere_here _ _ Pz)). apply named_plain; auto. }
  set (dv := fun _ : Z => JNull).
  assert (Hh : (height (combined kz (p0 :: rest)) <= 127)%nat).
  { assert (Hz : (height (JObj kz) <= 127)%nat).
    { assert (Go : forall vs v z, folded v vs z -> everywhere PropJsonPrint.plain v -> Forall (everywhere PropJsonPrint.plain) vs ->
        (height v <= 127)%nat -> Forall (fun v => height v <= 127)%nat vs -> (height z <= 127)%nat).
      { clear. induction 1 as [v|v x y r z M F IH|v x r z M F IH]; intros Pv Ps Hv Hs; [auto| |].
        - apply IH; [eapply merged_plain; eauto; exact (Forall_inv Ps)|exact (Forall_inv_tail Ps)| |exact (Forall_inv_tail Hs)].
          apply (merged_height (size v) 127 v x y); auto; [| |exact (Forall_inv Hs)];
            apply (ordinary_distinct (fun _ _ => [])); eapply everywhere_impl; [apply plain_ordinary|auto|apply plain_ordinary|exact (Forall_inv Ps)].
        - apply IH; [auto|exact (Forall_inv_tail Ps)|auto|exact (Forall_inv_tail Hs)]. }
      apply (Go vs (JObj kv0) (JObj kz)); auto; [exact (Forall_inv Pl)|exact (Forall_inv_tail Pl)|exact (Forall_inv Hi)|exact (Forall_inv_tail Hi)]. }
    unfold combined. rewrite with_member_put by (apply (everywhere_here _ _ Pz)).
    apply height_obj in Hz. assert (Hn : (height (JArr (map JStr (p0 :: rest))) <= 1)%nat).
    { apply height_arr_le. rewrite Forall_map. apply Forall_forall. intros p _. cbn. lia. }
    apply height_obj_le. apply put_forall; [auto|cbn [snd] in *; lia|]. intros; cbn [snd] in *; lia. }
  destruct (denotes_ok fmt_g true rfc_string (rfc_number strtod) dv (combined kz (p0 :: rest)) 0%nat 511%nat) as (a & w & b & Et & Sa & Sb & J).
  - eapply everywhere_impl; [|exact Pc]. apply plain_denotable.
  - pose proof (depth_height (combined kz (p0 :: rest))). lia.
  - rewrite plain_same in J by auto. exists (text_of fmt_g true 0 (combined kz (p0 :: rest))), 511%nat. split; [auto|]. split; [|split; [lia|]].
    + exists a, w, b. auto.
    + intros [(q & E0)|(q & E0)]; discriminate.
Qed.

(** * What is missing *)
(** Three files: {"x":1,"l":[1]}, {"l":[2],"y":{"z":null}} and [3] *)
Definition pa : text := [97].
Definition pb : text := [98].
Definition pc : text := [99].
Definition po : text := [111].
Definition some_files : files := fun p =>
  if text_eqb p pa then Some [123; 34; 120; 34; 58; 49; 44; 34; 108; 34; 58; 91; 49; 93; 125; 10]
  else if text_eqb p pb then Some [123; 34; 108; 34; 58; 91; 50; 93; 44; 34; 121; 34; 58; 123; 34; 122; 34; 58; 110; 117; 108; 108; 125; 125; 10]
  else if text_eqb p pc then Some [91; 51; 93; 10]
  else None.
Definition all_merged (paths : list text) : outcome (Z * option text) :=
  match merge_all (fun _ => 0) (fun _ _ => []) byval_str_mk (fun _ => 7) (fun _ => true) 200 some_files paths po with
  | Ok (r, fs) => Ok (r, fs po)
  | Bad b => Bad b
  end.
(** If the first file has something else than an object, the program ends, where
    cee_json_object_set is called. *)
Theorem C68_not_an_object_refuted : forall strtod fmt_g mk_str init can_write fs p0 rest out v0 vs,
  has_json strtod fs p0 v0 -> (forall kv, v0 <> JObj kv) -> Forall2 (has_json strtod fs) rest vs ->
  Forall (everywhere (ordinary fmt_g)) (v0 :: vs) -> Forall (fun v => height v <= 127)%nat (v0 :: vs) ->
  Z.of_nat (total_size (v0 :: vs)) < 2 ^ 64 -> can_write out = true ->
  exists steps, forall fuel, (steps <= fuel)%nat -> merge_all strtod fmt_g mk_str init can_write fuel fs (p0 :: rest) out = Bad Abort.
Proof.
  intros strtod fmt_g mk init cw fs p0 rest out v0 vs H0 NO F Or Hi B W. destruct (some_bound fs (p0 :: rest)) as (N & Hn).
  exists (N + S (total_size (v0 :: vs)))%nat. intros fuel L.
  assert (Gs : Forall (good fmt_g) (v0 :: vs)).
  { rewrite Forall_forall in *. intros v I. split; auto. }
  assert (Sh : Forall (short fs fuel) (p0 :: rest)) by (apply Hn; lia). pose proof (Forall_inv Gs) as G0.
  change (total_size (v0 :: vs)) with (size v0 + total_size vs)%nat in *.
  destruct (load_file_ok strtod fs fuel [] p0 v0 H0 (Forall_inv Sh)) as (h & a & E1 & Hh & Nh & _); [eapply ordinary_distinct; apply G0|lia|]. cbn [app] in *.
  destruct (merge_files_ok strtod fmt_g fs fuel (size v0 + total_size vs) B ltac:(lia) rest vs F (Forall_inv_tail Sh) (Forall_inv_tail Gs) h v0 a Hh Nh G0 ltac:(lia)) as (h' & z & E2 & Fz & Hz & _).
  assert (Nz : forall kz, z <> JObj kz).
  { revert NO. clear - Fz. induction Fz as [v|v x y r z M F IH|v x r z M F IH]; intros NO; auto. apply IH. destruct M; [discriminate|]. exfalso. eapply NO. reflexivity. }
  unfold merge_all. rewrite E1. cbn [bind]. rewrite E2. cbn [bind]. rewrite W. cbn [alloc]. unfold object_set.
  destruct (holds_node h' z a Hz) as (n & En & _ & Arr & _). unfold object_at, to_object, load. rewrite alloc_other by (apply nth_error_Some; congruence). rewrite En. cbn [of_option bind].
  destruct n; auto. exfalso. destruct (leaf_cases z) as [(nd & Lz)|[(js & ->)|(kz & ->)]].
  - apply (holds_leaf _ z _ nd Lz) in Hz. rewrite En in Hz. injection Hz as <-. apply (leaf_not_obj z m). auto.
  - apply holds_arr in Hz as (l & xs & E & _). congruence.
  - apply (Nz kz). auto.
Qed.
(** With two files, the second an array: 0 is returned, and the merged file names
    both, although nothing of the second is in it. *)
Theorem C68_left_out_refuted : has_json (fun _ => 0) some_files pc (JArr [JI64 3]) /\
  exists fs', merge_all (fun _ => 0) (fun _ _ => []) byval_str_mk (fun _ => 7) (fun _ => true) 200 some_files [pa; pc] po = Ok (0, fs') /\
    changed_only some_files fs' po (text_of (fun _ _ => []) true 0
      (JObj [([120], JI64 1); ([108], JArr [JI64 1]); (originals, JArr [JStr pa; JStr pc])])).
Proof.
  split.
  - exists [91; 51; 93; 10], 1%nat. split; [reflexivity|]. split; [|split; [lia|intros [(z & E)|(z & E)]; discriminate]].
    exists [], [91; 51; 93], [10]. split; [constructor|]. split; [|split; [repeat constructor; unfold ws; lia|auto]].
    apply (jv_arr _ _ _ 0 [51]). apply (je_one _ _ _ 0 [] [51] []); [constructor| |constructor]. apply jv_num.
    apply (rn_int _ [] [51]); [left; auto| |unfold int64; vm_compute; split; congruence].
    split; [split; [discriminate|]|discriminate]. repeat constructor; discriminate.
  - destruct (merge_all (fun _ => 0) (fun _ _ => []) byval_str_mk (fun _ => 7) (fun _ => true) 200 some_files [pa; pc] po) as [(r, fs')|b] eqn:E; [|exfalso; vm_compute in E; discriminate].
    assert (A : all_merged [pa; pc] = Ok (0, Some (text_of (fun _ _ => []) true 0 (JObj [([120], JI64 1); ([108], JArr [JI64 1]); (originals, JArr [JStr pa; JStr pc])])))) by (vm_compute; reflexivity).
    unfold all_merged in A. rewrite E in A. injection A as -> A. exists fs'. split; [auto|]. split; [exact A|].
    apply C68_effects in E as [(X & _)|(_ & _ & bytes & _ & E)]; [discriminate|auto].
Qed.
(** So it is for all files: if none but the first has an object, the merged file has
    the members of the first and the names of all. *)
Theorem C68_left_out_all_refuted : forall strtod fmt_g init can_write fs p0 rest out kv0 vs,
  has_json strtod fs p0 (JObj kv0) -> Forall2 (has_json strtod fs) rest vs -> Forall (fun v => forall kv, v <> JObj kv) vs ->
  Forall (everywhere (ordinary fmt_g)) (JObj kv0 :: vs) -> Forall (fun v => height v <= 127)%nat (JObj kv0 :: vs) -> Forall file_name (p0 :: rest) ->
  Z.of_nat (total_size (JObj kv0 :: vs) + length rest + 2) < 2 ^ 64 -> can_write out = true ->
  exists steps, forall fuel, (steps <= fuel)%nat -> exists fs',
    merge_all strtod fmt_g byval_str_mk init can_write fuel fs (p0 :: rest) out = Ok (0, fs') /\
    changed_only fs fs' out (text_of fmt_g true 0 (combined kv0 (p0 :: rest))).
Proof.
  intros strtod fmt_g init cw fs p0 rest out kv0 vs H0 F NO Or Hi Nm B W.
  destruct (C68_merge_all_partial strtod fmt_g init cw fs p0 rest out kv0 vs H0 F Or Hi Nm B W) as (steps & G). exists steps. intros fuel L.
  destruct (G fuel L) as (kz & fs' & E & Fz & C). exists fs'. split; [exact E|].
  assert (X : forall vs v z, folded v vs z -> Forall (fun v => forall kv, v <> JObj kv) vs -> v = JObj kv0 -> z = JObj kv0).
  { clear. induction 1 as [v|v x y r z M F IH|v x r z M F IH]; intros NO Ev; [auto| |].
    - exfalso. subst v. inversion M; subst. apply (Forall_inv NO s). reflexivity.
    - apply IH; [exact (Forall_inv_tail NO)|exact Ev]. }
  pose proof (X vs _ _ Fz NO eq_refl) as Ez. injection Ez as ->. exact C.
Qed.
(** Without any file the first name is read all the same. *)
Theorem C68_no_file_refuted : forall strtod fmt_g mk_str init can_write fuel fs out,
  merge_all strtod fmt_g mk_str init can_write fuel fs [] out = Bad OutOfBounds.
Proof. reflexivity. Qed.

Example C68_example :
  all_merged [pa; pb; pc] = Ok (0, Some (text_of (fun _ _ => []) true 0
    (JObj [([120], JI64 1); ([108], JArr [JI64 1; JI64 2]); ([121], JObj [([122], JNull)]); (originals, JArr [JStr pa; JStr pb; JStr pc])]))) /\
  all_merged [pa; po; pb] = Ok (1, None) /\ all_merged [pc; pa] = Bad Abort.
Proof. vm_compute. auto. Qed.

Print Assumptions C68_merge_all_partial.
Print Assumptions C68_va_list_refuted.
Print Assumptions C68_statement_refuted.
Print Assumptions C68_effects.
Print Assumptions C68_failure.
Print Assumptions C68_reload_partial.
Print Assumptions C68_not_an_object_refuted.
Print Assumptions C68_left_out_refuted.
Print Assumptions C68_left_out_all_refuted.
Print Assumptions C68_no_file_refuted.
