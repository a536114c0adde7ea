(** Reading values by type, and scanning integers: specification and lemmas. *)
From Coq Require Import ZArith List Bool Lia.
From Verif Require Import Base TsearchModel MapModel MapProofs ListModel ListProofs Json JsonHeapModel JsonHeapSpec JsonHeapProofs JsonFrame JsonMergeProofs JsonFieldProofs JsonSelectModel JsonAccessModel
  NumeralProofs SqlModel SqlSpec SqlProofs.
Import ListNotations.
Open Scope Z_scope.
Local Arguments Z.add : simpl never.
Local Arguments Z.mul : simpl never.
Local Arguments Z.pow : simpl never.

Lemma load_holds h j a : holds h j a -> exists n, load h (Some a) = Ok n /\
  match leaf_node j with
  | Some n' => n = n'
  | None => match j with
            | JArr js => exists l xs, n = NArr l /\ rep l (map Some xs) /\ length js = length xs
            | JObj kjs => exists m kas, n = NObj m /\ mrep strcmp m (wrapped kas) /\ length kjs = length kas
            | _ => False
            end
  end.
Proof.
  intros H. destruct (leaf_cases j) as [(n & L)|[(l & ->)|(l & ->)]].
  - apply (holds_leaf h j a n L) in H. exists n. unfold load. rewrite H, L. auto.
  - apply holds_arr in H as (l' & xs & E & R & F). exists (NArr l'). unfold load. rewrite E. split; [auto|]. cbn [leaf_node].
    exists l', xs. split; [auto|]. split; [auto|]. eapply forall2_len; eauto.
  - apply holds_obj in H as (m & kas & E & R & F). exists (NObj m). unfold load. rewrite E. split; [auto|]. cbn [leaf_node].
    exists m, kas. split; [auto|]. split; [auto|]. eapply forall2_len; eauto.
Qed.

(** A text that is one integer: white space, perhaps a sign, and digits *)
Definition blank (c : Z) : Prop := In c [9; 10; 11; 12; 13; 32].
Inductive sign : text -> Z -> Prop := no_sign : sign [] 1 | plus_sign : sign [43] 1 | minus_sign : sign [45] (-1).
Definition spelled (s : text) (z : Z) : Prop :=
  exists ws sg k ds, s = ws ++ sg ++ ds /\ Forall blank ws /\ sign sg k /\ ds <> [] /\ Forall digit_char ds /\ z = k * digits_value ds.
Definition is_i64 (z : Z) : Prop := - 2 ^ 63 <= z < 2 ^ 63.

Lemma blank_iff c : isspace c = true <-> blank c.
Proof. apply space_iff. Qed.
Lemma digit_some c d : digit_of c = Some d <-> digit_char c /\ d = c - 48.
Proof.
  unfold digit_of, digit_char. destruct (Z.leb_spec 48 c), (Z.leb_spec c 57); cbn [andb]; (split; [intros E; try discriminate; injection E as <-; lia|intros (? & ->); try lia; auto]).
Qed.
Lemma digit_none c : digit_of c = None <-> ~ digit_char c.
Proof. unfold digit_of, digit_char. destruct (Z.leb_spec 48 c), (Z.leb_spec c 57); cbn [andb]; (split; [intros E; try discriminate; lia|intros N; auto; exfalso; lia]). Qed.
Lemma scan_digits_ok ds rest : Forall digit_char ds -> (match rest with [] => True | c :: _ => ~ digit_char c end) ->
  forall acc, scan_digits acc (ds ++ rest) = (acc * 10 ^ Z.of_nat (length ds) + digits_value ds, rest).
Proof.
  intros F N. induction F as [|d ds Fd F IH]; intros acc; cbn [app scan_digits].
  - change (digits_value []) with 0. replace (acc * 10 ^ Z.of_nat (length (@nil Z)) + 0) with acc by (cbn [length]; change (Z.of_nat 0) with 0; rewrite Z.pow_0_r; lia).
    destruct rest as [|c rest]; cbn [scan_digits]; [auto|]. apply digit_none in N. rewrite N. auto.
  - rewrite (proj2 (digit_some d (d - 48)) (conj Fd eq_refl)). rewrite IH. f_equal. cbn [length]. rewrite Nat2Z.inj_succ, Z.pow_succ_r by lia.
    unfold digits_value at 2. cbn [fold_left]. rewrite fold_value. ring.
Qed.
Lemma scan_digits_split s : exists ds rest, s = ds ++ rest /\ Forall digit_char ds /\ match rest with [] => True | c :: _ => ~ digit_char c end.
Proof.
  induction s as [|c s (ds & rest & -> & F & N)]; [exists [], []; auto|].
  destruct (digit_of c) as [d|] eqn:E.
  - apply digit_some in E as (Dc & _). exists (c :: ds), rest. auto.
  - exists [], (c :: ds ++ rest). apply digit_none in E. auto.
Qed.
Lemma scan_spaces_ok ws rest : Forall blank ws -> (match rest with [] => True | c :: _ => ~ blank c end) -> scan_spaces (ws ++ rest) = rest.
Proof.
  intros F N. induction F as [|w ws Fw F IH]; cbn [app scan_spaces].
  - destruct rest as [|c rest]; cbn [scan_spaces]; [auto|]. destruct (isspace c) eqn:E; [|auto]. apply blank_iff in E. contradiction.
  - apply blank_iff in Fw. rewrite Fw. auto.
Qed.
Lemma scan_spaces_split s : exists ws rest, s = ws ++ rest /\ Forall blank ws /\ match rest with [] => True | c :: _ => ~ blank c end.
Proof.
  induction s as [|c s (ws & rest & -> & F & N)]; [exists [], []; auto|].
  destruct (isspace c) eqn:E.
  - apply blank_iff in E. exists (c :: ws), rest. auto.
  - exists [], (c :: ws ++ rest). split; [auto|]. split; [auto|]. intros B. apply blank_iff in B. congruence.
Qed.
Lemma scan_sign_split s : exists sg k rest, s = sg ++ rest /\ sign sg k /\ scan_sign s = ((k =? -1), rest) /\ (sg = [] -> match rest with c :: _ => c <> 43 /\ c <> 45 | [] => True end).
Proof.
  destruct s as [|c s]; cbn [scan_sign].
  - exists [], 1, []. split; [auto|]. split; [constructor|]. split; [reflexivity|auto].
  - destruct (Z.eqb_spec c 45) as [->|N1]; [exists [45], (-1), s; split; [auto|]; split; [constructor|]; split; [reflexivity|discriminate]|].
    destruct (Z.eqb_spec c 43) as [->|N2]; [exists [43], 1, s; split; [auto|]; split; [constructor|]; split; [reflexivity|discriminate]|].
    exists [], 1, (c :: s). split; [auto|]. split; [constructor|]. split; [reflexivity|auto].
Qed.
(** What the scanner does with any text *)
Lemma scan_cases s : exists ws sg k ds rest, s = ws ++ sg ++ ds ++ rest /\ Forall blank ws /\ sign sg k /\ Forall digit_char ds /\
  (match rest with [] => True | c :: _ => ~ digit_char c end) /\ (ds = [] -> sg = [] -> match rest with c :: _ => c <> 43 /\ c <> 45 /\ ~ blank c | [] => True end) /\
  scan_i64 s = match ds with [] => Ok None | _ => if (- 2 ^ 63 <=? k * digits_value ds) && (k * digits_value ds <? 2 ^ 63) then Ok (Some (k * digits_value ds, rest)) else Bad Overflow end.
Proof.
  destruct (scan_spaces_split s) as (ws & r1 & -> & Fw & N1). destruct (scan_sign_split r1) as (sg & k & r2 & -> & Sk & Es & Ns).
  destruct (scan_digits_split r2) as (ds & rest & -> & Fd & Nd). exists ws, sg, k, ds, rest.
  split; [auto|]. split; [auto|]. split; [auto|]. split; [auto|]. split; [auto|]. split.
  - intros -> ->. cbn [app] in *. destruct rest; [auto|]. destruct (Ns eq_refl). auto.
  - unfold scan_i64. rewrite scan_spaces_ok by auto. rewrite Es. destruct ds as [|d ds]; cbn [app].
    + destruct rest as [|c rest]; [auto|]. apply digit_none in Nd. rewrite Nd. auto.
    + pose proof (Forall_inv Fd) as Dd. cbv beta in Dd. rewrite (proj2 (digit_some d (d - 48)) (conj Dd eq_refl)).
      change (d :: ds ++ rest) with ((d :: ds) ++ rest). rewrite (scan_digits_ok (d :: ds) rest Fd Nd 0). rewrite Z.mul_0_l, Z.add_0_l.
      replace (if k =? -1 then - digits_value (d :: ds) else digits_value (d :: ds)) with (k * digits_value (d :: ds)); [auto|].
      clear - Sk. inversion Sk; [change (1 =? -1) with false|change (1 =? -1) with false|change (-1 =? -1) with true]; cbv iota; lia.
Qed.
Lemma sign_ws ws sg k ds : Forall blank ws -> sign sg k -> Forall digit_char ds -> ds <> [] -> forall ws' sg' k' ds' rest',
  ws ++ sg ++ ds = ws' ++ sg' ++ ds' ++ rest' -> Forall blank ws' -> sign sg' k' -> Forall digit_char ds' ->
  (match rest' with [] => True | c :: _ => ~ digit_char c end) ->
  (ds' = [] -> sg' = [] -> match rest' with c :: _ => c <> 43 /\ c <> 45 /\ ~ blank c | [] => True end) -> ws = ws' /\ sg = sg' /\ k = k' /\ ds = ds' /\ rest' = [].
Proof.
  intros Fw Sk Fd N ws'. revert ws Fw. induction ws' as [|w' ws' IH]; intros ws Fw sg' k' ds' rest' E Fw' Sk' Fd' Nd Nb.
  - destruct ws as [|w ws].
    + cbn [app] in E. assert (E2 : sg = sg' /\ k = k' /\ ds = ds' ++ rest').
      { destruct ds as [|d ds]; [congruence|]. pose proof (Forall_inv Fd) as Dd. unfold digit_char in Dd.
        inversion Sk; subst; inversion Sk'; subst; cbn [app] in E;
          first [split; [reflexivity|]; split; [reflexivity|]; first [exact E|injection E as E; exact E]
                |exfalso; discriminate E
                |exfalso; injection E; intros; lia
                |exfalso; destruct ds' as [|d' ds'];
                   [destruct rest' as [|c rest']; [discriminate|]; injection E as E1 E2; destruct (Nb eq_refl eq_refl) as (? & ? & _); congruence
                   |pose proof (Forall_inv Fd') as X; injection E as E1 E2; unfold digit_char in X; lia]]. }
      destruct E2 as (-> & -> & E2). split; [auto|]. split; [auto|]. split; [auto|].
      assert (R : rest' = []).
      { destruct rest' as [|c rest']; [auto|]. exfalso. apply Nd. rewrite E2 in Fd. apply Forall_app in Fd as (_ & Fd). exact (Forall_inv Fd). }
      subst rest'. rewrite app_nil_r in E2. auto.
    + exfalso. cbn [app] in E. pose proof (Forall_inv Fw) as Bw. cbv beta in Bw. unfold blank in Bw.
      inversion Sk'; subst; cbn [app] in E; try (injection E as E1 E2; subst; cbn in Bw; lia).
      destruct ds' as [|d' ds']; [|pose proof (Forall_inv Fd') as X; injection E as E1 E2; subst; unfold digit_char in X; cbn in Bw; lia].
      destruct rest' as [|c rest']; [discriminate|]. injection E as E1 E2. subst. destruct (Nb eq_refl eq_refl) as (_ & _ & X). contradiction.
  - destruct ws as [|w ws].
    + exfalso. cbn [app] in E. pose proof (Forall_inv Fw') as Bw. cbv beta in Bw. unfold blank in Bw.
      inversion Sk; subst; cbn [app] in E; try (injection E as E1 E2; subst; cbn in Bw; lia).
      destruct ds as [|d ds]; [congruence|]. pose proof (Forall_inv Fd) as X. injection E as E1 E2; subst. unfold digit_char in X. cbn in Bw. lia.
    + injection E as -> E. destruct (IH ws (Forall_inv_tail Fw) sg' k' ds' rest' E (Forall_inv_tail Fw') Sk' Fd' Nd Nb) as (-> & R). auto.
Qed.
