(** Proofs about cee_json_select. *)
From Coq Require Import ZArith List Bool Lia.
From Verif Require Import Base TsearchModel MapModel ListModel Json JsonHeapModel JsonHeapSpec JsonHeapProofs
  Numeral NumeralProofs JsonSelectModel JsonSelectSpec.
Import ListNotations.
Open Scope Z_scope.
Local Arguments Z.add : simpl never.
Local Arguments Z.of_nat : simpl never.
Local Arguments Z.to_nat : simpl never.
Local Arguments Z.mul : simpl never.
Local Arguments Z.pow : simpl never.

(** * Tokens all of whose bytes are known *)
Definition tk (t : text) : token := map Some t.
Lemma tlen_tk t : tlen (tk t) = Z.of_nat (length t).
Proof. unfold tlen, tk. rewrite map_length. auto. Qed.
Lemma room_ok (t : token) n : tlen t + n <= 257 -> room t n = Ok tt.
Proof. intros H. unfold room, JSEL_MAX_TOKEN. destruct (Z.leb_spec (tlen t + n) (256 + 1)); [auto|lia]. Qed.

Lemma strcmp_token_ok : forall t b, strcmp_token (tk t) b = Ok (strcmp t b).
Proof.
  induction t as [|x t IH]; intros [|y b]; cbn [tk map strcmp_token strcmp]; auto. destruct (x =? y); [apply IH|]. destruct (x <? y); auto.
Qed.
Lemma find_token_ok t : forall n, find_token (tk t) n =
  Ok (match tfind _ (pcmp text nat strcmp) (t, None) n with Some (_, v) => v | None => None end).
Proof.
  induction n as [|(k, v) a0 IH0 a1 IH1 hh]; cbn [find_token tfind]; [auto|]. rewrite strcmp_token_ok. cbn [bind]. unfold pcmp. cbn [fst].
  destruct (strcmp t k =? 0); [auto|]. unfold child. destruct (strcmp t k >? 0); auto.
Qed.
Lemma find_token_map t m : find_token (tk t) (m_root m) = map_find text nat strcmp (Some m) (Some t).
Proof. rewrite find_token_ok. unfold map_find. destruct (tfind _ _ _ _) as [(k, v)|]; auto. Qed.

Lemma digit_of_ok c : 48 <= c <= 57 -> digit_of c = Some (c - 48).
Proof. intros H. unfold digit_of. destruct (Z.leb_spec 48 c), (Z.leb_spec c 57); try lia. auto. Qed.
Lemma digit_of_none c : ~ 48 <= c <= 57 -> digit_of c = None.
Proof. intros H. unfold digit_of. destruct (Z.leb_spec 48 c), (Z.leb_spec c 57); try lia; auto. Qed.
Lemma atoi_digits_ok : forall ds acc, Forall digit ds ->
  atoi_digits acc (tk ds) = Ok (fold_left (fun v c => 10 * v + (c - 48)) ds acc).
Proof.
  induction ds as [|d ds IH]; intros acc F; cbn [tk map atoi_digits fold_left]; [auto|]. rewrite digit_of_ok by exact (Forall_inv F).
  apply IH. exact (Forall_inv_tail F).
Qed.
Lemma not_space c : 48 <= c <= 57 \/ c = 45 -> isspace c = false.
Proof. intros H. unfold isspace. destruct (Z.eqb_spec c 32), (Z.leb_spec 9 c), (Z.leb_spec c 13); cbn; auto; lia. Qed.
Lemma fold_nonneg : forall ds acc, Forall digit ds -> 0 <= acc -> 0 <= fold_left (fun v c => 10 * v + (c - 48)) ds acc.
Proof.
  induction ds as [|d ds IH]; intros acc F P; cbn [fold_left]; [auto|]. apply IH; [exact (Forall_inv_tail F)|]. pose proof (Forall_inv F) as D. unfold digit in D. lia.
Qed.
Lemma digits_nonneg ds : Forall digit ds -> 0 <= digits_value ds.
Proof. intros F. unfold digits_value. apply fold_nonneg; [auto|lia]. Qed.
Lemma digits_lt ds : Forall digit ds -> digits_value ds < 10 ^ Z.of_nat (length ds).
Proof.
  induction ds as [|d ds IH]; intros F; [cbn; lia|]. unfold digits_value. cbn [fold_left length]. rewrite fold_value.
  specialize (IH (Forall_inv_tail F)). pose proof (Forall_inv F) as D. unfold digit in D. rewrite Nat2Z.inj_succ, Z.pow_succ_r by lia. nia.
Qed.

Lemma atoi_numeral ds : ds <> [] -> Forall digit ds -> digits_value ds < 2 ^ 31 -> atoi (tk ds) = Ok (digits_value ds).
Proof.
  intros N F B. unfold atoi. destruct ds as [|d ds]; [congruence|]. cbn [tk map atoi_spaces]. pose proof (Forall_inv F) as D. unfold digit in D.
  rewrite not_space by auto. destruct (Z.eqb_spec d 45) as [|_]; [lia|]. destruct (Z.eqb_spec d 43) as [|_]; [lia|]. cbn [bind].
  change (Some d :: map Some ds) with (tk (d :: ds)). rewrite (atoi_digits_ok (d :: ds) 0 F). cbn [bind]. fold (digits_value (d :: ds)).
  pose proof (digits_nonneg (d :: ds) F). destruct (Z.leb_spec (- 2 ^ 31) (digits_value (d :: ds))); [|lia].
  destruct (Z.ltb_spec (digits_value (d :: ds)) (2 ^ 31)); [auto|lia].
Qed.
Lemma atoi_decimal i : - 2 ^ 31 <= i < 2 ^ 31 -> atoi (tk (decimal_of i)) = Ok i.
Proof.
  intros B. destruct (decimal_of_ok i) as [(P & N & F & V & _)|(P & ds & E & N & F & V & _)].
  - rewrite atoi_numeral; [rewrite V; auto|auto|exact F|lia].
  - rewrite E. unfold atoi. cbn [tk map atoi_spaces]. rewrite not_space by auto. cbn [bind]. change (45 =? 45) with true. cbn iota.
    cbn [bind]. fold (tk ds). rewrite (atoi_digits_ok ds 0 F). cbn [bind]. fold (digits_value ds). rewrite V.
    destruct (Z.leb_spec (- 2 ^ 31) (- - i)); [|lia]. destruct (Z.ltb_spec (- - i) (2 ^ 31)); [|lia]. cbn [andb]. f_equal. lia.
Qed.
Lemma standard_length ds n k : standard ds n -> n < 10 ^ Z.of_nat k -> (0 < k)%nat -> (length ds <= k)%nat.
Proof.
  intros (N & F & V & Z0) B K. destruct ds as [|d ds]; [congruence|]. destruct ds as [|e ds]; [cbn [length]; lia|].
  unfold digits_value in V. cbn [fold_left] in V.
  assert (d <> 48) by (intros ->; specialize (Z0 (e :: ds) eq_refl); discriminate).
  pose proof (Forall_inv F) as D. unfold digit_char in D.
  change (fold_left (fun v c => 10 * v + (c - 48)) (e :: ds) (10 * 0 + (d - 48)) = n) in V. rewrite fold_value in V.
  pose proof (digits_nonneg (e :: ds) (Forall_inv_tail F)).
  destruct (le_lt_dec (length (d :: e :: ds)) k) as [|L]; [auto|exfalso]. cbn [length] in *.
  assert (10 ^ Z.of_nat k <= 10 ^ Z.of_nat (S (length ds))) by (apply Z.pow_le_mono_r; lia). nia.
Qed.
Lemma decimal_length i : - 2 ^ 31 <= i < 2 ^ 31 -> (length (decimal_of i) <= 11)%nat.
Proof.
  intros B. destruct (decimal_of_ok i) as [(P & St)|(P & ds & E & St)].
  - pose proof (standard_length _ _ 10 St). change (10 ^ Z.of_nat 10) with 10000000000 in *. lia.
  - rewrite E. cbn [length]. pose proof (standard_length _ _ 10 St). change (10 ^ Z.of_nat 10) with 10000000000 in *. lia.
Qed.
Lemma decimal_nonempty i : decimal_of i <> [].
Proof. destruct (decimal_of_ok i) as [(_ & N & _)|(_ & ds & E & _)]; congruence. Qed.

(** * Steps of the loop *)
Definition resume (n : nat) (h : heap) (o : nat) (p : list Z) (args : list va_arg) : outcome (option nat) :=
  bind (begin_token p) (fun b =>
  match b with
  | BBreak => Ok (Some o)
  | BNotfound => Ok None
  | BToken next p => select_loop n h o next [] p args
  end).
Definition ends (p : list Z) : Prop := exists c q, p = c :: q /\ (c = 0 \/ special c = true).

Lemma loop_start n h o p args : p <> [] -> select_loop (S n) h o JSEL_INVALID [] p args = resume n h o p args.
Proof.
  intros N. destruct p as [|c p]; [congruence|]. cbn [select_loop deref bind]. unfold tlen. cbn [length]. reflexivity.
Qed.
Lemma loop_apply n h o next t p args : t <> [] -> ends p ->
  select_loop (S n) h o next t p args =
  bind (apply_token h o next t) (fun r => match r with None => Ok None | Some o => resume n h o p args end).
Proof.
  intros N (c & q & -> & C). cbn [select_loop deref bind].
  assert (E : negb (tlen t =? 0) && ((c =? 0) || special c) = true).
  { unfold tlen. destruct t; [congruence|]. cbn [length]. destruct (Z.eqb_spec (Z.of_nat (S (length t))) 0); [lia|]. cbn [negb andb].
    destruct C as [->|C]; [auto|]. rewrite C. apply orb_true_r. }
  rewrite E. reflexivity.
Qed.
Lemma loop_char n h o next t c p args : next <> JSEL_INVALID -> (t = [] \/ (c <> 0 /\ special c = false)) -> c <> 42 -> tlen t <= 256 ->
  select_loop (S n) h o next t (c :: p) args = if tlen t =? 256 then Ok None else select_loop n h o next (t ++ [Some c]) p args.
Proof.
  intros N C NS L. cbn [select_loop deref bind].
  assert (E : negb (tlen t =? 0) && ((c =? 0) || special c) = false).
  { destruct C as [->|(Z0 & Sp)]; [reflexivity|]. rewrite Sp. destruct (Z.eqb_spec c 0); [lia|]. apply andb_false_r. }
  rewrite E. destruct (Z.eqb_spec c 42) as [|_]; [congruence|]. cbn [negb]. rewrite room_ok by lia. cbn [bind tl].
  assert (Et : tlen (t ++ [Some c]) = tlen t + 1) by (unfold tlen; rewrite app_length; cbn [length]; lia). rewrite Et.
  destruct next; [congruence| | |]; (destruct (Z.gtb_spec (tlen t + 1) JSEL_MAX_TOKEN) as [G|G]; unfold JSEL_MAX_TOKEN in G; destruct (Z.eqb_spec (tlen t) 256); try lia; auto).
Qed.
Lemma plain_not_special c : plain c -> c <> 0 /\ special c = false /\ c <> 42.
Proof.
  intros (B & N). split; [lia|]. unfold special. cbn [In] in N. destruct (Z.eqb_spec c 46), (Z.eqb_spec c 91), (Z.eqb_spec c 93), (Z.eqb_spec c 58); subst; tauto || (split; [auto|]; intros ->; tauto).
Qed.
Lemma digit_plain c : digit c -> plain c.
Proof. unfold digit, plain. intros H. split; [lia|]. cbn [In]. lia. Qed.

Lemma loop_chars h o next args p : next <> JSEL_INVALID -> forall t s n, Forall plain t -> (length s + length t <= 256)%nat ->
  select_loop (length t + n) h o next (tk s) (t ++ p) args = select_loop n h o next (tk (s ++ t)) p args.
Proof.
  intros N. induction t as [|c t IH]; intros s n F L; cbn [length Nat.add app]; [rewrite app_nil_r; auto|].
  cbn [length] in L. pose proof (plain_not_special c (Forall_inv F)) as (C0 & C1 & C2).
  rewrite loop_char; [|auto|auto|auto|rewrite tlen_tk; lia]. rewrite tlen_tk. destruct (Z.eqb_spec (Z.of_nat (length s)) 256); [lia|].
  replace (tk s ++ [Some c]) with (tk (s ++ [c])) by (unfold tk; rewrite map_app; auto).
  rewrite IH; [rewrite <- app_assoc; auto|exact (Forall_inv_tail F)|rewrite app_length; cbn [length]; lia].
Qed.

(** * Applying a token *)
Definition outcome_is (h : heap) (j : option json) (r : option nat) : Prop :=
  match j with Some v => exists b, r = Some b /\ holds h v b | None => r = None end.

Lemma load_arr h j a : holds h j a -> exists n, load h (Some a) = Ok n /\
  match j with JArr _ => exists l, n = NArr l | JObj _ => exists m, n = NObj m | _ => leaf_node j = Some n end.
Proof.
  intros H. unfold load. destruct (leaf_cases j) as [(n & L)|[(l & ->)|(l & ->)]].
  - apply (holds_leaf h j a n L) in H. exists n. rewrite H. split; [auto|]. destruct j; auto; discriminate.
  - apply holds_arr in H as (l' & xs & E & _). exists (NArr l'). rewrite E. eauto.
  - apply holds_obj in H as (m & xs & E & _). exists (NObj m). rewrite E. eauto.
Qed.
Lemma apply_key h j a t : holds h j a -> (length t <= 256)%nat ->
  exists r, apply_token h a JSEL_OBJ (tk t) = Ok r /\ outcome_is h (match j with JObj kvs => lookup t kvs | _ => None end) r.
Proof.
  intros H L. destruct (load_arr h j a H) as (n & E & D). unfold apply_token. rewrite room_ok by (rewrite tlen_tk; lia). cbn [bind]. rewrite E. cbn [bind].
  destruct (leaf_cases j) as [(n' & Lf)|[(l & ->)|(l & ->)]].
  - exists None. assert (leaf_node j = Some n) by (destruct j; auto; discriminate).
    destruct n; try (split; [auto|destruct j; try discriminate; reflexivity]). exfalso. eapply leaf_not_obj; eauto.
  - destruct D as (l' & ->). eexists. split; reflexivity.
  - destruct D as (m & ->). rewrite find_token_map. destruct (object_get_ok h l a t H) as (r & Er & Q).
    unfold object_get, object_at, to_object in Er. rewrite E in Er. cbn [bind of_option] in Er. rewrite Er. exists r. split; [auto|]. exact Q.
Qed.
Lemma apply_index h j a t i : holds h j a -> tlen t <= 256 -> atoi t = Ok i ->
  exists r, apply_token h a JSEL_ARRAY t = Ok r /\
    outcome_is h (match j with JArr l => if i <? 0 then None else nth_error l (Z.to_nat i) | _ => None end) r.
Proof.
  intros H L A. destruct (load_arr h j a H) as (n & E & D). unfold apply_token. rewrite room_ok by lia. cbn [bind]. rewrite E. cbn [bind].
  destruct (leaf_cases j) as [(n' & Lf)|[(l & ->)|(l & ->)]].
  - exists None. assert (leaf_node j = Some n) by (destruct j; auto; discriminate).
    destruct n; try (split; [auto|destruct j; try discriminate; reflexivity]). exfalso. eapply leaf_not_arr; eauto.
  - destruct D as (l' & ->). rewrite A. cbn [bind]. destruct (array_get_ok h l a i H) as (r & Er & Q). rewrite Er. exists r. split; [auto|]. exact Q.
  - destruct D as (m & ->). eexists. split; reflexivity.
Qed.
Lemma apply_kind h j a k : holds h j a ->
  exists r, apply_token h a JSEL_TYPECHECK (tk [letter k]) = Ok r /\ outcome_is h (if is_kind_strict k j then Some j else None) r.
Proof.
  intros H. destruct (load_arr h j a H) as (n & E & D). unfold apply_token. rewrite room_ok by (rewrite tlen_tk; cbn [length]; lia). cbn [bind tk map]. rewrite E. cbn [bind].
  eexists. split; [reflexivity|].
  destruct j; cbn [leaf_node] in D; try (injection D as <-); try (destruct D as (l' & ->)); destruct k; cbn; eauto.
Qed.

(** * Paths *)
Lemma ends_show steps p : ends p -> ends (show steps ++ p).
Proof. intros E. destruct steps as [|s r]; [auto|]. destruct s; cbn [show flat_map show_step app]; eexists; eexists; (split; [reflexivity|right; reflexivity]). Qed.
Lemma ends_nul : ends [0].
Proof. exists 0, []. auto. Qed.
Lemma ends_close p : ends (93 :: p).
Proof. exists 93, p. auto. Qed.
Lemma resume_close n h o p args : hd 0 p <> 93 -> p <> [] -> resume n h o (93 :: p) args = resume n h o p args.
Proof.
  intros N NE. unfold resume, begin_token. cbn [deref bind tl]. change (93 =? 93) with true. cbn iota. destruct p as [|c p]; [congruence|]. cbn [hd] in N.
  cbn [deref bind tl]. destruct (Z.eqb_spec c 93); [congruence|]. reflexivity.
Qed.
Lemma show_hd steps : hd 0 (show steps ++ [0]) <> 93 /\ show steps ++ [0] <> [].
Proof. destruct steps as [|s r]; [split; discriminate|]. destruct s; split; discriminate. Qed.

Lemma literal_names ps : Forall (fun p => match p with Lit _ => True | Star _ => False end) ps ->
  flat_map (fun p => match p with Lit t => t | Star _ => [42] end) ps = name_of ps /\
  flat_map (fun p => match p with Lit _ => [] | Star t => [AStr t] end) ps = [].
Proof.
  induction 1 as [|x ps H F (IH1 & IH2)]; [auto|]. destruct x; [|contradiction]. unfold name_of. cbn [flat_map piece_text app]. rewrite IH1, IH2. auto.
Qed.
Lemma literal_plain ps : Forall (fun p => match p with Lit _ => True | Star _ => False end) ps ->
  Forall (fun p => match p with Lit t => Forall plain t | Star t => Forall (fun c => 0 < c < 256) t end) ps -> Forall plain (name_of ps).
Proof.
  induction 1 as [|x ps H F IH]; intros P; [constructor|]. destruct x; [|contradiction]. unfold name_of. cbn [flat_map piece_text].
  apply Forall_app. split; [exact (Forall_inv P)|apply IH, (Forall_inv_tail P)].
Qed.

Lemma select_path h : forall steps fuel j a, holds h j a -> Forall step_fits steps -> Forall no_star_name steps ->
  (length (show steps ++ [0%Z]) <= fuel)%nat ->
  exists r, resume fuel h a (show steps ++ [0]) (args_of steps) = Ok r /\ outcome_is h (follow is_kind_strict j steps) r.
Proof.
  induction steps as [|s steps IH]; intros fuel j a H Fit NS Fu.
  - exists (Some a). split; [reflexivity|]. exists a. auto.
  - pose proof (Forall_inv Fit) as Fs. pose proof (Forall_inv NS) as Ns.
    (* after the token [t] of the step, with an optional bracket *)
    assert (After : forall n next t x cl, (cl = [] \/ cl = [93]) -> (length (show steps ++ [0%Z]) <= n)%nat -> t <> [] ->
      (exists r, apply_token h a next t = Ok r /\ outcome_is h x r) ->
      exists r, select_loop (S n) h a next t (cl ++ show steps ++ [0]) (args_of steps) = Ok r /\
        outcome_is h (match x with Some v => follow is_kind_strict v steps | None => None end) r).
    { intros n next t x cl Cl Ln Nt (r & Er & Q). rewrite loop_apply; [|auto|destruct Cl; subst; [apply ends_show, ends_nul|apply ends_close]].
      rewrite Er. cbn [bind]. destruct x as [v|]; cbn [outcome_is] in Q.
      - destruct Q as (b & -> & Hb). destruct (IH n v b Hb (Forall_inv_tail Fit) (Forall_inv_tail NS) Ln) as (r & Er' & Q').
        exists r. split; [|auto]. destruct Cl; subst cl; [exact Er'|]. destruct (show_hd steps). cbn [app]. rewrite resume_close; auto.
      - subst r. exists None. split; reflexivity. }
    destruct s as [ps|ds|i|k]; cbn [step_fits no_star_name] in Fs, Ns.
    + destruct Fs as (Nn & L & P). destruct (literal_names ps Ns) as (E1 & E2). pose proof (literal_plain ps Ns P) as Pl.
      cbn [show flat_map show_step] in *. fold (show steps) in *. rewrite E1 in *. cbn [args_of flat_map step_args]. rewrite E2. cbn [app]. fold (args_of steps).
      unfold resume, begin_token. cbn [app deref bind tl]. change (46 =? 93) with false. cbn iota. cbn [deref bind]. 
      change (46 =? 0) with false. change (46 =? 46) with true. cbn iota. cbn [bind tl].
      rewrite <- app_assoc in *. cbn [app length] in Fu. rewrite !app_length in Fu.
      replace fuel with (length (name_of ps) + S (fuel - length (name_of ps) - 1))%nat by (cbn [length] in *; lia).
      change (@nil (option Z)) with (tk []). rewrite loop_chars; [|discriminate|auto|cbn [length]; lia]. cbn [app follow].
      destruct (After (fuel - length (name_of ps) - 1)%nat JSEL_OBJ (tk (name_of ps)) (match j with JObj kvs => lookup (name_of ps) kvs | _ => None end) []) as (r & Er & Q);
        [auto|rewrite app_length; cbn [length] in *; lia|destruct (name_of ps); [congruence|discriminate]|apply apply_key; auto|].
      exists r. split; [exact Er|]. destruct j; exact Q.
    + destruct Fs as (Nd & Fd & L & B). cbn [show flat_map show_step] in *. fold (show steps) in *. cbn [args_of flat_map step_args app]. fold (args_of steps).
      unfold resume, begin_token. cbn [app deref bind tl]. change (91 =? 93) with false. cbn iota. cbn [deref bind].
      change (91 =? 0) with false. change (91 =? 46) with false. change (91 =? 91) with true. cbn iota. cbn [bind tl].
      rewrite <- !app_assoc in *. cbn [app length] in Fu. rewrite !app_length in Fu. cbn [length] in Fu.
      replace fuel with (length ds + S (fuel - length ds - 1))%nat by lia.
      change (@nil (option Z)) with (tk []). rewrite loop_chars; [|discriminate|eapply Forall_impl; [|exact Fd]; intros; apply digit_plain; auto|cbn [length]; lia]. cbn [app follow].
      pose proof (digits_nonneg ds Fd).
      destruct (After (fuel - length ds - 1)%nat JSEL_ARRAY (tk ds) (match j with JArr l => if digits_value ds <? 0 then None else nth_error l (Z.to_nat (digits_value ds)) | _ => None end) [93]) as (r & Er & Q);
        [auto|rewrite app_length; cbn [length]; lia|destruct ds; [congruence|discriminate]|apply apply_index; [auto|rewrite tlen_tk; lia|apply atoi_numeral; auto]|].
      exists r. split; [exact Er|]. destruct (Z.ltb_spec (digits_value ds) 0); [lia|]. destruct j; exact Q.
    + cbn [show flat_map show_step] in *. fold (show steps) in *. cbn [args_of flat_map step_args app]. fold (args_of steps).
      unfold resume, begin_token. cbn [app deref bind tl]. change (91 =? 93) with false. cbn iota. cbn [deref bind].
      change (91 =? 0) with false. change (91 =? 46) with false. change (91 =? 91) with true. cbn iota. cbn [bind tl].
      cbn [app length] in Fu. rewrite app_length in Fu. cbn [length] in Fu.
      destruct fuel as [|fuel]; [lia|]. destruct fuel as [|fuel]; [lia|].
      pose proof (decimal_length i Fs) as Ld.
      assert (E1 : forall q args, select_loop (S (S fuel)) h a JSEL_ARRAY [] (42 :: q) (AInt i :: args) = select_loop (S fuel) h a JSEL_ARRAY (tk (decimal_of i)) q args).
      { intros q args. cbn [select_loop deref bind]. change (42 =? 42) with true. unfold tlen at 1. cbn [length]. change (Z.of_nat 0 =? 0) with true. cbn [negb andb].
        cbn [star arg_int bind]. unfold tlen at 1. cbn [length]. destruct (Z.gtb_spec (Z.of_nat 0 + Z.of_nat (length (decimal_of i))) JSEL_MAX_TOKEN) as [G|_]; [unfold JSEL_MAX_TOKEN in G; lia|].
        rewrite room_ok by (unfold tlen; cbn [length]; lia). cbn [bind app tl]. reflexivity. }
      rewrite E1. cbn [follow].
      destruct (After fuel JSEL_ARRAY (tk (decimal_of i)) (match j with JArr l => if i <? 0 then None else nth_error l (Z.to_nat i) | _ => None end) [93]) as (r & Er & Q);
        [auto|rewrite app_length; cbn [length]; lia|pose proof (decimal_nonempty i); destruct (decimal_of i); [congruence|discriminate]|apply apply_index; [auto|rewrite tlen_tk; lia|apply atoi_decimal; auto]|].
      exists r. split; [exact Er|]. destruct j; exact Q.
    + cbn [show flat_map show_step] in *. fold (show steps) in *. cbn [args_of flat_map step_args app]. fold (args_of steps).
      unfold resume, begin_token. cbn [app deref bind tl]. change (58 =? 93) with false. cbn iota. cbn [deref bind].
      change (58 =? 0) with false. change (58 =? 46) with false. change (58 =? 91) with false. change (58 =? 58) with true. cbn iota. cbn [bind tl].
      cbn [app length] in Fu. rewrite app_length in Fu. cbn [length] in Fu.
      destruct fuel as [|fuel]; [lia|]. destruct fuel as [|fuel]; [lia|].
      rewrite loop_char; [|discriminate|auto|destruct k; discriminate|unfold tlen; cbn [length]; lia]. unfold tlen. cbn [length]. change (Z.of_nat 0 =? 256) with false. cbn iota.
      cbn [app follow]. change [Some (letter k)] with (tk [letter k]).
      destruct (After fuel JSEL_TYPECHECK (tk [letter k]) (if is_kind_strict k j then Some j else None) []) as (r & Er & Q);
        [auto|rewrite app_length; cbn [length]; lia|discriminate|apply apply_kind; auto|].
      exists r. split; [exact Er|]. destruct j; exact Q.
Qed.

(** * All selectors without [*] *)
Definition no_long_number (t : text) : Prop := forall a d b, t = a ++ d ++ b -> Forall digit d -> (length d < 10)%nat.
Lemma short_tail a t b : no_long_number (a ++ t ++ b) -> no_long_number t.
Proof. intros H x d y -> F. apply (H (a ++ x) d (y ++ b)); [rewrite <- !app_assoc; auto|auto]. Qed.
Lemma atoi_prefix : forall t acc, exists d b, t = d ++ b /\ Forall digit d /\
  atoi_digits acc (tk t) = Ok (fold_left (fun v c => 10 * v + (c - 48)) d acc).
Proof.
  induction t as [|c t IH]; intros acc; [exists [], []; auto|]. cbn [tk map atoi_digits].
  destruct (Z_le_dec 48 c) as [L|L]; [destruct (Z_le_dec c 57) as [U|U]|].
  - rewrite digit_of_ok by lia. destruct (IH (10 * acc + (c - 48))) as (d & b & -> & F & E). exists (c :: d), b.
    split; [auto|]. split; [constructor; [unfold digit; lia|auto]|]. exact E.
  - exists [], (c :: t). rewrite digit_of_none by lia. auto.
  - exists [], (c :: t). rewrite digit_of_none by lia. auto.
Qed.
Lemma spaces_ok : forall t, exists neg a b, atoi_spaces (tk t) = Ok (neg, tk b) /\ t = a ++ b.
Proof.
  induction t as [|c t IH]; [exists false, [], []; auto|]. cbn [tk map atoi_spaces]. destruct (isspace c).
  - destruct IH as (neg & a & b & E & ->). exists neg, (c :: a), b. split; auto.
  - destruct (c =? 45); [exists true, [c], t; auto|]. destruct (c =? 43); [exists false, [c], t; auto|]. exists false, [], (c :: t). auto.
Qed.
Lemma atoi_short t : no_long_number t -> exists i, atoi (tk t) = Ok i.
Proof.
  intros H. unfold atoi. destruct (spaces_ok t) as (neg & a & b & E & ->). rewrite E. cbn [bind].
  destruct (atoi_prefix b 0) as (d & b' & -> & F & E'). rewrite E'. cbn [bind]. fold (digits_value d).
  pose proof (H a d b' eq_refl F) as L. pose proof (digits_nonneg d F). pose proof (digits_lt d F).
  assert (10 ^ Z.of_nat (length d) <= 10 ^ 9) by (apply Z.pow_le_mono_r; lia). change (10 ^ 9) with 1000000000 in *.
  destruct (Z.leb_spec (- 2 ^ 31) (if neg then - digits_value d else digits_value d)); [|destruct neg; lia].
  destruct (Z.ltb_spec (if neg then - digits_value d else digits_value d) (2 ^ 31)); [|destruct neg; lia]. cbn [andb]. eauto.
Qed.

Lemma part_in_obj k v kvs : lookup k kvs = Some v -> part v (JObj kvs).
Proof. intros E. eapply part_obj; [apply lookup_in; eauto|apply part_here]. Qed.
Lemma part_trans u : forall v w, part v w -> part u v -> part u w.
Proof. intros v w P. induction P; intros Q; [auto|eapply part_obj; eauto|eapply part_arr; eauto]. Qed.

Lemma apply_any h j a next t : holds h j a -> (length t <= 256)%nat -> t <> [] -> no_long_number t ->
  exists r, apply_token h a next (tk t) = Ok r /\ match r with None => True | Some b => exists v, part v j /\ holds h v b end.
Proof.
  intros H L N Sh. destruct next.
  - exists None. unfold apply_token. rewrite room_ok by (rewrite tlen_tk; lia). auto.
  - destruct (apply_key h j a t H L) as (r & E & Q). exists r. split; [auto|]. destruct r as [b|]; [|auto]. unfold outcome_is in Q.
    destruct j; try discriminate. destruct (lookup t kvs) as [v|] eqn:Ev; [|discriminate]. destruct Q as (b' & Eb & Hb). injection Eb as <-.
    exists v. split; [eapply part_in_obj; eauto|auto].
  - destruct (atoi_short t Sh) as (i & Ei). destruct (apply_index h j a (tk t) i H) as (r & E & Q); [rewrite tlen_tk; lia|auto|].
    exists r. split; [auto|]. destruct r as [b|]; [|auto]. unfold outcome_is in Q. destruct j; try discriminate.
    destruct (i <? 0); [discriminate|]. destruct (nth_error l (Z.to_nat i)) as [v|] eqn:Ev; [|discriminate]. destruct Q as (b' & Eb & Hb). injection Eb as <-.
    exists v. split; [eapply part_arr; [eapply nth_error_In; eauto|apply part_here]|auto].
  - unfold apply_token. rewrite room_ok by (rewrite tlen_tk; lia). destruct t as [|c t]; [congruence|]. cbn [bind tk map].
    destruct (load_arr h j a H) as (n & E & _). rewrite E. cbn [bind]. eexists. split; [reflexivity|].
    match goal with |- match (if ?b then _ else _) with _ => _ end => destruct b end; [auto|]. exists j. split; [apply part_here|auto].
Qed.

Section Any.
Variables (h : heap) (j0 : json) (fmt : text).
Hypothesis Nul : Forall (fun c => c <> 0 /\ c <> 42) fmt.
Hypothesis Last : forall a c, fmt = a ++ [c] -> c <> 46 /\ c <> 91 /\ c <> 58.
Hypothesis Short : no_long_number fmt.

Lemma begin_any q : forall pre, fmt = pre ++ q ->
  (begin_token (q ++ [0]) = Ok BBreak) \/ (begin_token (q ++ [0]) = Ok BNotfound) \/
  exists next c pre' q', begin_token (q ++ [0]) = Ok (BToken next (q' ++ [0])) /\ next <> JSEL_INVALID /\ fmt = pre' ++ c :: q' /\ q' <> [] /\ (length q' < length q)%nat.
Proof.
  assert (G : forall q pre, fmt = pre ++ q -> hd 0 q <> 93 \/ True ->
    let o := bind (deref (q ++ [0])) (fun c => if c =? 0 then Ok BBreak
       else if c =? 46 then Ok (BToken JSEL_OBJ (tl (q ++ [0])))
       else if c =? 91 then Ok (BToken JSEL_ARRAY (tl (q ++ [0])))
       else if c =? 58 then Ok (BToken JSEL_TYPECHECK (tl (q ++ [0])))
       else Ok BNotfound) in
    o = Ok BBreak \/ o = Ok BNotfound \/
    exists next c pre' q', o = Ok (BToken next (q' ++ [0])) /\ next <> JSEL_INVALID /\ fmt = pre' ++ c :: q' /\ q' <> [] /\ (length q' < length q)%nat).
  { clear q. intros q pre E _. cbn zeta. destruct q as [|c q]; [left; reflexivity|]. cbn [app deref bind tl].
    assert (NZ : c <> 0). { rewrite E in Nul. apply Forall_app in Nul as (_ & F). apply (Forall_inv F). }
    destruct (Z.eqb_spec c 0) as [|_]; [contradiction|].
    assert (NE : (c = 46 \/ c = 91 \/ c = 58) -> q <> []).
    { intros D ->. destruct (Last pre c E) as (X & Y & W). lia. }
    destruct (Z.eqb_spec c 46) as [->|]; [right; right; exists JSEL_OBJ, 46, pre, q; cbn [length]; split; [auto|split; [discriminate|split; [auto|split; [auto|lia]]]]|].
    destruct (Z.eqb_spec c 91) as [->|]; [right; right; exists JSEL_ARRAY, 91, pre, q; cbn [length]; split; [auto|split; [discriminate|split; [auto|split; [auto|lia]]]]|].
    destruct (Z.eqb_spec c 58) as [->|]; [right; right; exists JSEL_TYPECHECK, 58, pre, q; cbn [length]; split; [auto|split; [discriminate|split; [auto|split; [auto|lia]]]]|].
    right. left. auto. }
  intros pre E. unfold begin_token. destruct q as [|c q].
  - left. reflexivity.
  - cbn [app deref bind]. destruct (Z.eqb_spec c 93) as [->|N].
    + cbn [tl]. destruct (G q (pre ++ [93])) as [X|[X|(next & c & pre' & q' & X & D)]]; [rewrite <- app_assoc; auto|auto|left; exact X|right; left; exact X|].
      right. right. exists next, c, pre', q'. destruct D as (D1 & D2 & D3 & D4). cbn [length]. split; [exact X|]. split; [auto|]. split; [auto|]. split; [auto|]. lia.
    + destruct (G (c :: q) pre E) as [X|[X|X]]; [auto|left; exact X|right; left; exact X|right; right; exact X].
Qed.

Lemma loop_any : forall fuel pre t q next j a, holds h j a -> part j j0 -> fmt = pre ++ t ++ q -> (length t <= 256)%nat ->
  (next = JSEL_INVALID -> t = []) -> (next <> JSEL_INVALID -> t = [] -> q <> []) -> (length q < fuel)%nat ->
  exists r, select_loop fuel h a next (tk t) (q ++ [0]) [] = Ok r /\ match r with None => True | Some b => exists v, part v j0 /\ holds h v b end.
Proof.
  induction fuel as [|n IH]; intros pre t q next j a H P E L I1 I2 Fu; [lia|].
  assert (Res : forall b v, holds h v b -> part v j0 -> exists r, resume n h b (q ++ [0]) [] = Ok r /\ match r with None => True | Some b => exists v, part v j0 /\ holds h v b end).
  { intros b v Hv Pv. unfold resume. destruct (begin_any q (pre ++ t)) as [X|[X|(next' & c & pre' & q' & X & NI & E' & NE & Lq)]]; [rewrite <- app_assoc; auto| | |]; rewrite X; cbn [bind].
    - exists (Some b). split; [auto|]. eauto.
    - exists None. auto.
    - apply (IH (pre' ++ [c]) [] q' next' v b Hv Pv); [rewrite <- app_assoc; auto|cbn; lia|auto|auto|lia]. }
  destruct (list_eq_dec Z.eq_dec t []) as [Et|Nt].
  - destruct next eqn:En.
    + subst t. cbn [tk map]. rewrite loop_start by (destruct q; discriminate). eapply Res; eauto.
    + all: subst t; rewrite <- En in *; destruct q as [|c q]; [exfalso; apply I2; [congruence|auto|auto]|]; cbn [app].
      assert (C : c <> 0 /\ c <> 42). { rewrite E in Nul. apply Forall_app in Nul as (_ & F). apply (Forall_inv F). }
      rewrite loop_char; [|congruence|auto|apply C|rewrite tlen_tk; cbn [length]; lia]. rewrite tlen_tk. cbn [length]. change (Z.of_nat 0 =? 256) with false. cbn iota.
      apply (IH pre [c] q next j a H P); [auto|cbn; lia|intros; congruence|intros; discriminate|cbn [length] in Fu; lia].
    + all: subst t; rewrite <- En in *; destruct q as [|c q]; [exfalso; apply I2; [congruence|auto|auto]|]; cbn [app].
      assert (C : c <> 0 /\ c <> 42). { rewrite E in Nul. apply Forall_app in Nul as (_ & F). apply (Forall_inv F). }
      rewrite loop_char; [|congruence|auto|apply C|rewrite tlen_tk; cbn [length]; lia]. rewrite tlen_tk. cbn [length]. change (Z.of_nat 0 =? 256) with false. cbn iota.
      apply (IH pre [c] q next j a H P); [auto|cbn; lia|intros; congruence|intros; discriminate|cbn [length] in Fu; lia].
    + all: subst t; rewrite <- En in *; destruct q as [|c q]; [exfalso; apply I2; [congruence|auto|auto]|]; cbn [app].
      assert (C : c <> 0 /\ c <> 42). { rewrite E in Nul. apply Forall_app in Nul as (_ & F). apply (Forall_inv F). }
      rewrite loop_char; [|congruence|auto|apply C|rewrite tlen_tk; cbn [length]; lia]. rewrite tlen_tk. cbn [length]. change (Z.of_nat 0 =? 256) with false. cbn iota.
      apply (IH pre [c] q next j a H P); [auto|cbn; lia|intros; congruence|intros; discriminate|cbn [length] in Fu; lia].
  - assert (NI : next <> JSEL_INVALID) by (intros X; auto).
    assert (D : ends (q ++ [0]) \/ exists c q', q = c :: q' /\ c <> 0 /\ c <> 42 /\ special c = false).
    { destruct q as [|c q]; [left; apply ends_nul|].
      assert (C : c <> 0 /\ c <> 42). { rewrite E in Nul. apply Forall_app in Nul as (_ & F). apply Forall_app in F as (_ & F). apply (Forall_inv F). }
      destruct (special c) eqn:Sp; [left; exists c, (q ++ [0]); auto|right; exists c, q; tauto]. }
    destruct D as [D|(c & q' & -> & C0 & C1 & Sp)].
    + rewrite loop_apply; [|destruct t; [congruence|discriminate]|auto].
      destruct (apply_any h j a next t H L Nt) as (r & Er & Q); [rewrite E in Short; eapply short_tail; eauto|]. rewrite Er. cbn [bind].
      destruct r as [b|]; [|exists None; auto]. destruct Q as (v & Pv & Hv). apply (Res b v Hv). eapply part_trans; eauto.
    + cbn [app]. rewrite loop_char; [|auto|auto|auto|rewrite tlen_tk; lia]. rewrite tlen_tk. destruct (Z.eqb_spec (Z.of_nat (length t)) 256); [exists None; auto|].
      replace (tk t ++ [Some c]) with (tk (t ++ [c])) by (unfold tk; rewrite map_app; auto).
      apply (IH pre (t ++ [c]) q' next j a H P); [rewrite E, <- !app_assoc; auto|rewrite app_length; cbn [length]; lia|intros; congruence|intros _ X; destruct t; discriminate|cbn [length] in Fu; lia].
Qed.
End Any.
