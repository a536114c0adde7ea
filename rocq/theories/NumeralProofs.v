(** The numeral printed for a number denotes it. *)
From Coq Require Import ZArith List Bool Lia.
From Verif Require Import Base Numeral.
Import ListNotations.
Open Scope Z_scope.

Section Spec.
(** A digit character *)
Definition digit_char (c : Z) : Prop := 48 <= c <= 57.
(** The number written by digits, from the left *)
Definition digits_value (ds : list Z) : Z := fold_left (fun v c => 10 * v + (c - 48)) ds 0.
(** [text] is the standard decimal numeral of [z]: digits without superfluous
    leading zeros, after a minus sign for negative numbers. *)
Definition standard (ds : list Z) (n : Z) : Prop :=
  ds <> [] /\ Forall digit_char ds /\ digits_value ds = n /\ (forall r, ds = 48 :: r -> r = []).
Definition numeral_of (text : list Z) (z : Z) : Prop :=
  (0 <= z /\ standard text z) \/ (z < 0 /\ exists ds, text = 45 :: ds /\ standard ds (- z)).
End Spec.

Lemma digits_value_app ds es : digits_value (ds ++ es) =
  fold_left (fun v c => 10 * v + (c - 48)) es (digits_value ds).
Proof. unfold digits_value. apply fold_left_app. Qed.

Lemma fold_value ds : forall v, fold_left (fun v c => 10 * v + (c - 48)) ds v = v * 10 ^ Z.of_nat (length ds) + digits_value ds.
Proof.
  unfold digits_value. induction ds as [|d ds IH]; intros v.
  - cbn. lia.
  - cbn [fold_left length]. rewrite (IH (10 * v + (d - 48))), (IH (10 * 0 + (d - 48))).
    rewrite Nat2Z.inj_succ, Z.pow_succ_r by lia. ring.
Qed.

Lemma udigits_ok : forall fuel n acc, 0 <= n < 2 ^ Z.of_nat (S fuel) ->
  exists ds, udigits (S fuel) n acc = ds ++ acc /\ standard ds n.
Proof.
  induction fuel as [|f IH]; intros n acc B.
  - change (2 ^ Z.of_nat 1) with 2 in B. cbn [udigits]. destruct (Z.ltb_spec n 10); [|lia].
    exists [48 + n]. split; auto. split; [discriminate|]. split; [repeat constructor; unfold digit_char; lia|].
    split; [unfold digits_value; cbn [fold_left]; lia|]. intros r E. injection E; auto.
  - rewrite Nat2Z.inj_succ, Z.pow_succ_r in B by lia.
    change (udigits (S (S f)) n acc) with (if n <? 10 then (48 + n) :: acc else udigits (S f) (n / 10) ((48 + n mod 10) :: acc)).
    destruct (Z.ltb_spec n 10) as [L|L].
    + exists [48 + n]. split; auto. split; [discriminate|]. split; [repeat constructor; unfold digit_char; lia|].
      split; [unfold digits_value; cbn [fold_left]; lia|]. intros r E. injection E; auto.
    + pose proof (Z.mod_pos_bound n 10 ltac:(lia)). pose proof (Z.div_mod n 10 ltac:(lia)).
      assert (D : 1 <= n / 10) by (apply Z.div_le_lower_bound; lia).
      destruct (IH (n / 10) ((48 + n mod 10) :: acc)) as (ds & E & N & F & V & Z0).
      { split; [lia|]. apply Z.div_lt_upper_bound; lia. }
      exists (ds ++ [48 + n mod 10]). rewrite E, <- app_assoc. split; auto. split; [destruct ds; discriminate|].
      split; [apply Forall_app; split; [auto|]; repeat constructor; unfold digit_char; lia|].
      split; [rewrite digits_value_app, V; cbn [fold_left]; lia|].
      intros r E0. destruct ds as [|d ds]; [congruence|]. injection E0 as -> E0. specialize (Z0 ds eq_refl). subst ds. unfold digits_value in V. cbn [fold_left] in V. lia.
Qed.

Lemma decimal_of_ok z : numeral_of (decimal_of z) z.
Proof.
  unfold decimal_of, numeral_of. 
  destruct (udigits_ok (Z.to_nat (Z.log2 (Z.abs z))) (Z.abs z) []) as (ds & E & ST).
  { split; [lia|]. rewrite Nat2Z.inj_succ, Z2Nat.id by apply Z.log2_nonneg.
    destruct (Z.eq_dec (Z.abs z) 0) as [->|N]; [cbn; lia|]. apply Z.log2_spec. lia. }
  rewrite E, app_nil_r. destruct (Z.ltb_spec z 0).
  - right. split; auto. exists ds. split; auto. rewrite <- Z.abs_neq by lia. auto.
  - left. split; auto. rewrite <- (Z.abs_eq z) by lia. auto.
Qed.
