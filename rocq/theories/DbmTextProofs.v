(** Proofs about the texts of the settings. *)
From Coq Require Import String Ascii ZArith List Bool Lia.
From Verif Require Import Base ArrayLemmas Numeral Json StrModel StrProofs DbmTextModel DbmTextSpec.
Import ListNotations.
Open Scope Z_scope.
Local Arguments Z.add : simpl never.
Local Arguments Z.sub : simpl never.
Local Arguments Z.of_nat : simpl never.
Local Arguments Z.to_nat : simpl never.

(** * Printing *)
Definition stored (before : list (option Z)) (t : text) : list (option Z) :=
  match before with
  | [] => []
  | _ :: _ => let s := firstn (length before - 1) t in map Some s ++ Some 0 :: skipn (length s + 1) before
  end.

(** What was written so far: nothing yet, or [p]. *)
Definition written (before buf : list (option Z)) (p : text) : Prop := (p = [] /\ buf = before) \/ buf = stored before p.

Lemma stored_length before t : length (stored before t) = length before.
Proof.
  destruct before as [|c b]; [reflexivity|]. unfold stored. set (s := firstn _ t).
  assert (L : (length s <= length b)%nat) by (unfold s; rewrite firstn_length; cbn [length]; lia).
  rewrite app_length, map_length. cbn [length]. rewrite skipn_length. cbn [length]. lia.
Qed.
Lemma written_length before buf p : written before buf p -> length buf = length before.
Proof. intros [(_ & ->)| ->]; [reflexivity|apply stored_length]. Qed.

Lemma write_more before buf p t : written before buf p -> (length p <= length before)%nat ->
  snprintf_at buf (Z.of_nat (length p)) (Z.of_nat (length before - length p)) t = Ok (stored before (p ++ t)) \/
  (before = [] /\ snprintf_at buf (Z.of_nat (length p)) (Z.of_nat (length before - length p)) t = Ok []).
Proof.
  intros W L. pose proof (written_length _ _ _ W) as Lb. unfold snprintf_at. rewrite Lb.
  destruct (Z.ltb_spec (Z.of_nat (length before)) (Z.of_nat (length p))); [lia|].
  destruct before as [|c0 b0] eqn:Eb; [right; split; [auto|]; destruct buf; [|discriminate Lb]; unfold snput; cbn [length] in *; destruct p; [|cbn [length] in L; lia]; reflexivity|].
  rewrite <- Eb in *. assert (Lp : (0 < length before)%nat) by (rewrite Eb; cbn [length]; lia). left.
  unfold snput. destruct (Nat.eq_dec (length p) (length before)) as [Q|Q].
  - replace (length before - length p)%nat with 0%nat by lia. change (Z.of_nat 0 =? 0) with true. cbn iota. f_equal.
    destruct W as [(-> & ->)| ->]; [cbn [length] in Q; lia|]. unfold stored. rewrite Eb. rewrite <- Eb.
    rewrite firstn_app. replace (length before - 1 - length p)%nat with 0%nat by lia. rewrite firstn_O, app_nil_r. reflexivity.
  - destruct (Z.eqb_spec (Z.of_nat (length before - length p)) 0) as [Z0|_]; [lia|].
    replace (Z.to_nat (Z.of_nat (length before - length p) - 1)) with (length before - 1 - length p)%nat by lia.
    set (s := firstn (length before - 1 - length p) t).
    assert (Ls : (length s <= length before - 1 - length p)%nat) by (unfold s; rewrite firstn_length; lia).
    assert (B : exists m q, buf = map Some p ++ m ++ q /\ length m = length (s ++ [0]) /\ q = skipn (length p + length s + 1) before).
    { exists (firstn (length s + 1) (skipn (length p) buf)), (skipn (length p + length s + 1) buf).
      assert (F : firstn (length p) buf = map Some p).
      { destruct W as [(-> & ->)| ->]; [reflexivity|]. unfold stored. rewrite Eb. rewrite <- Eb. rewrite (firstn_all2 p) by lia.
        rewrite firstn_app, map_length, Nat.sub_diag, firstn_O, app_nil_r. apply firstn_all2. rewrite map_length. lia. }
      split; [|split].
      - rewrite <- F. rewrite <- (firstn_skipn (length p) buf) at 1. f_equal. rewrite <- (firstn_skipn (length s + 1) (skipn (length p) buf)) at 1. f_equal.
        rewrite ArrayLemmas.skipn_skipn. f_equal. lia.
      - rewrite firstn_length, skipn_length, app_length. cbn [length]. rewrite Lb. lia.
      - destruct W as [(-> & ->)| ->]; [reflexivity|]. unfold stored. rewrite Eb. rewrite <- Eb. rewrite (firstn_all2 p) by lia.
        rewrite skipn_app, map_length. rewrite (skipn_all2 (map Some p)) by (rewrite map_length; lia). cbn [app].
        replace (length p + length s + 1 - length p)%nat with (S (length s)) by lia. cbn [skipn]. rewrite ArrayLemmas.skipn_skipn. f_equal. lia. }
    destruct B as (m & q & -> & Lm & ->). rewrite (put_spec (s ++ [0]) (map Some p) m _ _ Lm) by (rewrite map_length; reflexivity).
    f_equal. unfold stored. rewrite Eb. rewrite <- Eb. rewrite firstn_app. rewrite (firstn_all2 p) by lia. fold s.
    rewrite !map_app, <- !app_assoc. cbn [map app]. f_equal. f_equal. rewrite app_length. reflexivity.
Qed.

Lemma write_step before buf p t : written before buf p -> (length p <= length before)%nat ->
  exists buf', snprintf_at buf (Z.of_nat (length p)) (Z.of_nat (length before - length p)) t = Ok buf' /\ written before buf' (p ++ t) /\ buf' = stored before (p ++ t).
Proof.
  intros W L. destruct (write_more before buf p t W L) as [E|(E0 & E)]; [eexists; split; [exact E|]; split; [right|]; reflexivity|].
  exists []. split; [exact E|]. subst before. split; [right; reflexivity|reflexivity].
Qed.

(** All but the last text *)
Fixpoint before_last (ts : list text) : nat :=
  match ts with [] => 0 | [_] => 0 | t :: ts => (length t + before_last ts)%nat end.

Lemma snprint_all_ok before size ts : size = Z.of_nat (length before) -> size < 2 ^ 64 -> forall buf p,
  ts <> [] -> written before buf p -> (length p + before_last ts <= length before)%nat -> Z.of_nat (length p + length (concat ts)) < 2 ^ 64 ->
  snprint_all buf size (Z.of_nat (length p)) ts = Ok (stored before (p ++ concat ts), Z.of_nat (length p + length (concat ts))).
Proof.
  intros -> Bz. induction ts as [|t ts IH]; intros buf p N W Le B; [contradiction|]. cbn [snprint_all].
  replace (Z.of_nat (length before) - Z.of_nat (length p)) with (Z.of_nat (length before - length p)) by lia.
  unfold wrap at 1. rewrite Z.mod_small by lia.
  destruct (write_step before buf p t W ltac:(lia)) as (buf' & E & W' & Es). rewrite E. cbn [bind].
  cbn [concat] in *. rewrite app_length in B.
  unfold wrap. rewrite Z.mod_small by lia. replace (Z.of_nat (length p) + Z.of_nat (length t)) with (Z.of_nat (length (p ++ t))) by (rewrite app_length; lia).
  destruct ts as [|t2 ts].
  - cbn [snprint_all concat]. rewrite app_nil_r. rewrite Es, app_length. reflexivity.
  - rewrite (IH buf' (p ++ t)).
    + rewrite app_assoc, !app_length. f_equal. f_equal. f_equal. lia.
    + discriminate.
    + exact W'.
    + rewrite app_length. change (before_last (t :: t2 :: ts)) with (length t + before_last (t2 :: ts))%nat in Le. lia.
    + rewrite app_length. lia.
Qed.
Lemma snprint_all_bad before size ts : size = Z.of_nat (length before) -> size < 2 ^ 64 -> forall buf p,
  written before buf p -> (length p <= length before)%nat -> (length before < length p + before_last ts)%nat -> Z.of_nat (length p + length (concat ts)) < 2 ^ 64 ->
  snprint_all buf size (Z.of_nat (length p)) ts = Bad OutOfBounds.
Proof.
  intros -> Bz. induction ts as [|t ts IH]; intros buf p W Lp Le B; [cbn [before_last] in Le; lia|]. cbn [snprint_all].
  replace (Z.of_nat (length before) - Z.of_nat (length p)) with (Z.of_nat (length before - length p)) by lia.
  unfold wrap at 1. rewrite Z.mod_small by lia.
  destruct (write_step before buf p t W Lp) as (buf' & E & W' & Es). rewrite E. cbn [bind].
  cbn [concat] in *. rewrite app_length in B.
  unfold wrap. rewrite Z.mod_small by lia. replace (Z.of_nat (length p) + Z.of_nat (length t)) with (Z.of_nat (length (p ++ t))) by (rewrite app_length; lia).
  destruct ts as [|t2 ts]; [cbn [before_last] in Le; lia|].
  change (before_last (t :: t2 :: ts)) with (length t + before_last (t2 :: ts))%nat in Le.
  destruct (Nat.le_gt_cases (length (p ++ t)) (length before)) as [Q|Q].
  - apply IH; auto; rewrite ?app_length; lia.
  - cbn [snprint_all]. unfold snprintf_at. rewrite (written_length _ _ _ W'). destruct (Z.ltb_spec (Z.of_nat (length before)) (Z.of_nat (length (p ++ t)))); [reflexivity|lia].
Qed.

(** The two ways of counting are the same. *)
Lemma print_all_snprint size ts : forall buf next, 0 <= next -> next + Z.of_nat (length (concat ts)) < 2 ^ 64 ->
  print_all buf next (wrap 64 (size - next)) ts = let* (b, _) := snprint_all buf size next ts in Ok b.
Proof.
  induction ts as [|t ts IH]; intros buf next N B; [reflexivity|]. cbn [print_all snprint_all].
  destruct (snprintf_at _ _ _ _) as [buf'|]; [|reflexivity]. cbn [bind]. cbn [concat] in B. rewrite app_length in B.
  replace (wrap 64 (next + Z.of_nat (length t))) with (next + Z.of_nat (length t)) by (unfold wrap; rewrite Z.mod_small; lia).
  rewrite <- (IH buf' (next + Z.of_nat (length t))) by lia. f_equal.
  unfold wrap. rewrite Zminus_mod_idemp_l. f_equal. lia.
Qed.

Lemma stored_in before t : in_buffer before (stored before t) t.
Proof. destruct before; reflexivity. Qed.

(** Both, from the start *)
Lemma snprint_start before ts : Z.of_nat (length before) < 2 ^ 64 -> Z.of_nat (length (concat ts)) < 2 ^ 64 -> ts <> [] ->
  ((before_last ts <= length before)%nat -> snprint_all before (Z.of_nat (length before)) 0 ts = Ok (stored before (concat ts), Z.of_nat (length (concat ts)))) /\
  ((length before < before_last ts)%nat -> snprint_all before (Z.of_nat (length before)) 0 ts = Bad OutOfBounds).
Proof.
  intros B Bt N. split; intros L.
  - exact (snprint_all_ok before _ ts eq_refl B before [] N (or_introl (conj eq_refl eq_refl)) L Bt).
  - exact (snprint_all_bad before _ ts eq_refl B before [] (or_introl (conj eq_refl eq_refl)) ltac:(cbn [length]; lia) L Bt).
Qed.
Lemma print_start before ts : Z.of_nat (length before) < 2 ^ 64 -> Z.of_nat (length (concat ts)) < 2 ^ 64 -> ts <> [] ->
  ((before_last ts <= length before)%nat -> print_all before 0 (Z.of_nat (length before)) ts = Ok (stored before (concat ts))) /\
  ((length before < before_last ts)%nat -> print_all before 0 (Z.of_nat (length before)) ts = Bad OutOfBounds).
Proof.
  intros B Bt N. destruct (snprint_start before ts B Bt N) as (A & F).
  pose proof (print_all_snprint (Z.of_nat (length before)) ts before 0 ltac:(lia) ltac:(lia)) as E.
  replace (wrap 64 (Z.of_nat (length before) - 0)) with (Z.of_nat (length before)) in E by (unfold wrap; rewrite Z.mod_small; lia).
  rewrite E. split; intros L; [rewrite (A L)|rewrite (F L)]; reflexivity.
Qed.

(** The texts of the specification *)
Lemma c_string_in a t : string_in a t -> c_string a = Ok t.
Proof.
  intros (N & rest & ->). induction N as [|c t H N IH]; cbn [map app c_string]; [reflexivity|].
  destruct (Z.eqb_spec c 0); [contradiction|]. rewrite IH. reflexivity.
Qed.
Lemma before_last_ended l nv : before_last (map (fun nv => item nv ++ [44; 32]) (l ++ [nv])) = length (ended l).
Proof.
  induction l as [|a l IH]; [reflexivity|]. cbn [map app ended flat_map]. rewrite app_length. fold (ended l). rewrite <- IH.
  destruct (map _ (l ++ [nv])) as [|x xs] eqn:Q; [|reflexivity]. destruct l; discriminate Q.
Qed.

(** * The home directory *)
Lemma prefix_ok sub t : is_prefix sub t = true <-> exists b, t = sub ++ b.
Proof.
  revert t. induction sub as [|a sub IH]; intros t; cbn [is_prefix].
  - split; [exists t; reflexivity|reflexivity].
  - destruct t as [|b t]; [split; [discriminate|intros (b & Q); discriminate]|]. rewrite andb_true_iff, Z.eqb_eq, IH. cbn [app]. split.
    + intros (-> & r & ->). exists r. reflexivity.
    + intros (r & Q). injection Q as -> ->. split; [auto|exists r; auto].
Qed.
Lemma strstr_ok sub t : c_strstr t sub = true <-> occurs sub t.
Proof.
  induction t as [|c t IH]; cbn [c_strstr]; rewrite orb_true_iff, prefix_ok.
  - split; [intros [(b & Q)|Q]; [exists [], b; auto|discriminate]|]. intros (a & b & Q). left. destruct a; [exists b; auto|discriminate].
  - rewrite IH. split.
    + intros [(b & Q)|(a & b & ->)]; [exists [], b; auto|exists (c :: a), b; reflexivity].
    + intros (a & b & Q). destruct a as [|x a]; [left; exists b; exact Q|]. injection Q as -> ->. right. exists a, b. reflexivity.
Qed.

Lemma home_ok path home p p' : length path = 128%nat -> string_in path p -> Forall (fun c => c <> 0) home -> expands home p p' -> (length p' < 128)%nat ->
  (occurs (code "$HOME") p -> exists rest, p = code "$HOME" ++ rest) ->
  exists path', replace_home_env path home = Ok path' /\ length path' = 128%nat /\ string_in path' p'.
Proof.
  intros Lp Hp Nh Ex L Oc. unfold replace_home_env. rewrite (c_string_in _ _ Hp). cbn [bind].
  change (bytes "$HOME") with (code "$HOME"). destruct (c_strstr p (code "$HOME")) eqn:C.
  - apply strstr_ok in C. destruct (Oc C) as (rest & Er). destruct Ex as [(r & E1 & E2)|(E1 & _)]; [|destruct (E1 rest Er)].
    rewrite E1 in Er. apply app_inv_head in Er. subst r. rewrite E1. change (skipn 5 (code "$HOME" ++ rest)) with rest. rewrite <- E2.
    destruct (snput_text p' [] (repeat None 128) 0 128) as (q & Eq & Lq).
    { rewrite repeat_length. exact L. } { reflexivity. } { lia. }
    cbn [app] in Eq. change (repeat None 128 : list (option Z)) with ([] ++ repeat None 128 : list (option Z)). cbn [app]. rewrite Eq. cbn [bind].
    unfold copy_cells. rewrite app_length, map_length. cbn [length]. rewrite Lp. rewrite repeat_length in Lq.
    replace (Z.of_nat (length p') + 1 <=? Z.of_nat (length p' + S (length q))) with true by (symmetry; apply Z.leb_le; lia).
    replace (Z.of_nat (length p') + 1 <=? Z.of_nat 128) with true by (symmetry; apply Z.leb_le; lia). cbn [andb].
    replace (Z.to_nat (Z.of_nat (length p') + 1)) with (length p' + 1)%nat by lia.
    rewrite firstn_app, map_length. rewrite (firstn_all2 (map Some p')) by (rewrite map_length; lia). replace (length p' + 1 - length p')%nat with 1%nat by lia. cbn [firstn].
    eexists. split; [reflexivity|]. split.
    + rewrite !app_length, map_length, skipn_length. cbn [length]. lia.
    + split; [|rewrite <- app_assoc; cbn [app]; eexists; reflexivity]. subst p'. apply Forall_app. split; [auto|]. destruct Hp as (Np & _). rewrite E1 in Np. apply Forall_app in Np. apply Np.
  - exists path. split; [reflexivity|]. split; [auto|]. destruct Ex as [(r & E1 & _)|(_ & ->)]; [|exact Hp].
    assert (X : c_strstr p (code "$HOME") = true) by (apply strstr_ok; exists [], r; auto). congruence.
Qed.
(** A text that is too long is read and written behind the end of the arrays. *)
Lemma home_long path home p p' : length path = 128%nat -> string_in path p -> (exists rest, p = code "$HOME" ++ rest /\ p' = home ++ rest) -> (128 <= length p')%nat ->
  replace_home_env path home = Bad OutOfBounds.
Proof.
  intros Lp Hp (rest & -> & ->) L. unfold replace_home_env. rewrite (c_string_in _ _ Hp). cbn [bind]. change (bytes "$HOME") with (code "$HOME").
  replace (c_strstr (code "$HOME" ++ rest) (code "$HOME")) with true by (symmetry; apply strstr_ok; exists [], rest; auto).
  change (skipn 5 (code "$HOME" ++ rest)) with rest. set (p' := home ++ rest) in *.
  assert (E : exists buf, snput (repeat None 128) 0 128 p' = Ok buf /\ length buf = 128%nat).
  { unfold snput. change (128 =? 0) with false. cbn iota. change (Z.to_nat (128 - 1)) with 127%nat.
    pose proof (put_spec (firstn 127 p' ++ [0]) [] (repeat None 128) [] 0) as X. cbn [app length] in X. rewrite app_nil_r in X. rewrite X; [|rewrite repeat_length, app_length, firstn_length; cbn [length]; lia|reflexivity].
    eexists. split; [reflexivity|]. rewrite app_nil_r, map_length, app_length, firstn_length. cbn [length]. lia. }
  destruct E as (buf & -> & Lb). cbn [bind]. unfold copy_cells. rewrite Lb. change (Z.of_nat 128) with 128.
  replace (Z.of_nat (length p') + 1 <=? 128) with false by (symmetry; apply Z.leb_gt; lia). reflexivity.
Qed.

(** Whatever the path *)
Lemma home_becomes path home p p' : length path = 128%nat -> string_in path p -> becomes home p p' ->
  replace_home_env path home = if (length p' <? 128)%nat then Ok (if c_strstr p (code "$HOME") then map Some p' ++ Some 0 :: skipn (length p' + 1) path else path) else Bad OutOfBounds.
Proof.
  intros Lp Hp B. unfold replace_home_env. rewrite (c_string_in _ _ Hp). cbn [bind].
  assert (L127 : (length p < 128)%nat).
  { destruct Hp as (_ & r & E). rewrite E in Lp. rewrite app_length, map_length in Lp. cbn [length] in Lp. lia. }
  change (bytes "$HOME") with (code "$HOME"). destruct B as [(O & start & rest & -> & L5 & E2)|(O & ->)].
  - apply strstr_ok in O. rewrite O.
    replace (skipn 5 (start ++ rest)) with rest by (rewrite skipn_app, skipn_all2, L5 by lia; reflexivity). rewrite <- E2.
    destruct (Nat.ltb_spec (length p') 128) as [L|L].
    + destruct (snput_text p' [] (repeat None 128) 0 128) as (q & Eq & Lq).
      { rewrite repeat_length. exact L. } { reflexivity. } { lia. }
      cbn [app] in Eq. change (repeat None 128 : list (option Z)) with ([] ++ repeat None 128 : list (option Z)). cbn [app]. rewrite Eq. cbn [bind].
      unfold copy_cells. rewrite app_length, map_length. cbn [length]. rewrite Lp. rewrite repeat_length in Lq.
      replace (Z.of_nat (length p') + 1 <=? Z.of_nat (length p' + S (length q))) with true by (symmetry; apply Z.leb_le; lia).
      replace (Z.of_nat (length p') + 1 <=? Z.of_nat 128) with true by (symmetry; apply Z.leb_le; lia). cbn [andb].
      replace (Z.to_nat (Z.of_nat (length p') + 1)) with (length p' + 1)%nat by lia.
      rewrite firstn_app, map_length. rewrite (firstn_all2 (map Some p')) by (rewrite map_length; lia). replace (length p' + 1 - length p')%nat with 1%nat by lia. cbn [firstn].
      rewrite <- app_assoc. reflexivity.
    + assert (E : exists buf, snput (repeat None 128) 0 128 p' = Ok buf /\ length buf = 128%nat).
      { unfold snput. change (128 =? 0) with false. cbn iota. change (Z.to_nat (128 - 1)) with 127%nat.
        pose proof (put_spec (firstn 127 p' ++ [0]) [] (repeat None 128) [] 0) as X. cbn [app length] in X. rewrite app_nil_r in X. rewrite X; [|rewrite repeat_length, app_length, firstn_length; cbn [length]; lia|reflexivity].
        eexists. split; [reflexivity|]. rewrite app_nil_r, map_length, app_length, firstn_length. cbn [length]. lia. }
      destruct E as (buf & -> & Lb). cbn [bind]. unfold copy_cells. rewrite Lb. change (Z.of_nat 128) with 128.
      replace (Z.of_nat (length p') + 1 <=? 128) with false by (symmetry; apply Z.leb_gt; lia). reflexivity.
  - destruct (c_strstr p (code "$HOME")) eqn:C; [exfalso; apply O, strstr_ok; auto|].
    rewrite (proj2 (Nat.ltb_lt _ _) L127). reflexivity.
Qed.
Lemma becomes_in path home p p' : length path = 128%nat -> string_in path p -> Forall (fun c => c <> 0) home -> becomes home p p' -> (length p' < 128)%nat ->
  exists path', replace_home_env path home = Ok path' /\ length path' = 128%nat /\ string_in path' p'.
Proof.
  intros Lp Hp Nh B L. rewrite (home_becomes path home p p' Lp Hp B). rewrite (proj2 (Nat.ltb_lt _ _) L).
  destruct (c_strstr p (code "$HOME")) eqn:C.
  - eexists. split; [reflexivity|]. split.
    + rewrite app_length, map_length. cbn [length]. rewrite skipn_length. lia.
    + split; [|eexists; reflexivity]. destruct B as [(O & start & rest & -> & _ & ->)|(O & _)]; [|exfalso; apply O, strstr_ok; auto].
      destruct Hp as (Np & _). apply Forall_app in Np. apply Forall_app. tauto.
  - exists path. split; auto. split; auto. destruct B as [(O & _)|(_ & ->)]; auto. apply strstr_ok in O. congruence.
Qed.
Lemma becomes_long path home p p' : length path = 128%nat -> string_in path p -> becomes home p p' -> (128 <= length p')%nat -> replace_home_env path home = Bad OutOfBounds.
Proof. intros Lp Hp B L. rewrite (home_becomes path home p p' Lp Hp B). destruct (Nat.ltb_spec (length p') 128); [lia|auto]. Qed.
