(** What is left of an integer in an int. *)
From Coq Require Import ZArith Lia.
From Verif Require Import Base.
Open Scope Z_scope.

(** The int that is the same modulo 2^32: what gcc defines for the conversion. *)
Definition low_int (z i : Z) : Prop := - 2 ^ 31 <= i < 2 ^ 31 /\ exists k, z = i + k * 2 ^ 32.
Lemma low_int_ok z : low_int z (to_int32 z).
Proof.
  unfold low_int, to_int32. pose proof (Z.mod_pos_bound (z + 2 ^ 31) (2 ^ 32) eq_refl). pose proof (Z.div_mod (z + 2 ^ 31) (2 ^ 32) ltac:(discriminate)).
  split; [lia|]. exists ((z + 2 ^ 31) / 2 ^ 32). lia.
Qed.
(** There is one, and integers that are ints stay what they are. *)
Lemma low_int_one z i i' : low_int z i -> low_int z i' -> i = i'.
Proof. intros (B & k & E) (B' & k' & E'). assert (k = k') by lia. subst k'. lia. Qed.
Lemma low_int_same z i : - 2 ^ 31 <= z < 2 ^ 31 -> low_int z i -> i = z.
Proof. intros B L. apply (low_int_one z); [auto|]. split; [auto|]. exists 0. lia. Qed.
Example low_int_example : low_int 4294967301 5 /\ low_int 2147483648 (- 2147483648) /\ low_int (-7) (-7).
Proof. split; [|split]; (split; [lia|]); [exists 1|exists 1|exists 0]; reflexivity. Qed.
