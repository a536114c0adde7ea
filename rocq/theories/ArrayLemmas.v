(** Lemmas about the array vocabulary of Base.v. *)
From Coq Require Import ZArith List Bool Lia.
From Verif Require Import Base.
Import ListNotations.
Open Scope Z_scope.

Section A.
Context {A : Type}.

Lemma skipn_skipn {B} (x y : nat) (l : list B) : skipn x (skipn y l) = skipn (x + y) l.
Proof.
  revert l; induction y; intros l; simpl.
  - rewrite Nat.add_0_r; auto.
  - destruct l; [rewrite !skipn_nil; auto|]. rewrite IHy.
    replace (x + S y)%nat with (S (x + y)) by lia. reflexivity.
Qed.

Lemma update_length {B} (l : list B) n x : length (update l n x) = length l.
Proof. revert n; induction l; intros [|n]; simpl; auto. Qed.

Lemma update_app_r {B} (l1 l2 : list B) n x :
  update (l1 ++ l2) (length l1 + n) x = l1 ++ update l2 n x.
Proof. induction l1; simpl; auto. f_equal; auto. Qed.

Lemma update_mid {B} (l1 l2 : list B) y x :
  update (l1 ++ y :: l2) (length l1) x = l1 ++ x :: l2.
Proof. induction l1; simpl; auto. f_equal; auto. Qed.

Lemma update_app_l {B} (l1 l2 : list B) n x : (n < length l1)%nat ->
  update (l1 ++ l2) n x = update l1 n x ++ l2.
Proof.
  revert n; induction l1; intros [|n]; simpl; intros; try lia; auto.
  f_equal; apply IHl1; lia.
Qed.

Lemma nth_error_update_eq {B} (l : list B) n x : (n < length l)%nat ->
  nth_error (update l n x) n = Some x.
Proof. revert n; induction l; intros [|n]; simpl; intros; try lia; auto. apply IHl; lia. Qed.

Lemma nth_error_update_neq {B} (l : list B) n m x : n <> m ->
  nth_error (update l n x) m = nth_error l m.
Proof.
  revert n m; induction l; intros [|n] [|m]; simpl; intros; try congruence; auto.
Qed.

Lemma aset_mid (l1 l2 : list (option A)) y x i :
  i = Z.of_nat (length l1) -> aset (l1 ++ y :: l2) i x = Ok (l1 ++ x :: l2).
Proof.
  intros ->. unfold aset.
  rewrite app_length. simpl.
  replace (0 <=? Z.of_nat (length l1)) with true by (symmetry; apply Z.leb_le; lia).
  match goal with |- context [?a <? ?b] =>
    replace (a <? b) with true by (symmetry; apply Z.ltb_lt; lia) end.
  simpl. rewrite Nat2Z.id, update_mid; auto.
Qed.

Lemma aget_mid (l1 l2 : list (option A)) y i :
  i = Z.of_nat (length l1) -> aget (l1 ++ y :: l2) i = Ok y.
Proof.
  intros ->. unfold aget.
  replace (0 <=? Z.of_nat (length l1)) with true by (symmetry; apply Z.leb_le; lia).
  rewrite Nat2Z.id, nth_error_app2 by lia. rewrite Nat.sub_diag; auto.
Qed.

Lemma aget_nth (a : list (option A)) i : 0 <= i ->
  aget a i = of_option OutOfBounds (nth_error a (Z.to_nat i)).
Proof. intros H. unfold aget. apply Z.leb_le in H. rewrite H; auto. Qed.

Lemma aread_map_some (xs : list A) junk i x :
  0 <= i -> nth_error xs (Z.to_nat i) = Some x ->
  aread (map Some xs ++ junk) i = Ok x.
Proof.
  intros Hi H. unfold aread. rewrite aget_nth by auto.
  rewrite nth_error_app1.
  2:{ rewrite map_length. apply nth_error_Some. congruence. }
  rewrite nth_error_map, H. reflexivity.
Qed.

Lemma aset_oob (a : list (option A)) i x :
  i < 0 \/ Z.of_nat (length a) <= i -> aset a i x = Bad OutOfBounds.
Proof.
  intros H. unfold aset.
  destruct (0 <=? i) eqn:E1; simpl; auto.
  destruct (i <? Z.of_nat (length a)) eqn:E2; simpl; auto.
  apply Z.leb_le in E1. apply Z.ltb_lt in E2. lia.
Qed.

Lemma agrow_ge (a : list (option A)) n : (length a <= Z.to_nat n)%nat ->
  agrow a n = a ++ repeat None (Z.to_nat n - length a).
Proof. intros. unfold agrow. rewrite firstn_all2; auto. Qed.

Lemma agrow_length (a : list (option A)) n : (length a <= Z.to_nat n)%nat ->
  length (agrow a n) = Z.to_nat n.
Proof. intros. rewrite agrow_ge by auto. rewrite app_length, repeat_length. lia. Qed.
End A.
