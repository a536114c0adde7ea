(** C18: boxed primitives. *)
From Coq Require Import ZArith List Bool Lia.
From Verif Require Import Base Numeral NumeralProofs BoxedModel.
Import ListNotations.
Open Scope Z_scope.

(** The values of each type; a floating-point number is its bit pattern. *)
Definition value_of (t : prim) (x : Z) : Prop :=
  match t with
  | F64 | U64 => 0 <= x < 2 ^ 64
  | F32 | U32 => 0 <= x < 2 ^ 32
  | U16 => 0 <= x < 2 ^ 16
  | U8 => 0 <= x < 2 ^ 8
  | I64 => - 2 ^ 63 <= x < 2 ^ 63
  | I32 => - 2 ^ 31 <= x < 2 ^ 31
  | I16 => - 2 ^ 15 <= x < 2 ^ 15
  | I8 => - 2 ^ 7 <= x < 2 ^ 7
  end.
Definition integer_type (t : prim) : Prop := t <> F64 /\ t <> F32.

Lemma le_bytes_length n : forall v, length (le_bytes n v) = n.
Proof. induction n; intros; cbn; auto. Qed.
Lemma le_round n : forall v, le_value (le_bytes n v) = v mod 2 ^ (8 * Z.of_nat n).
Proof.
  induction n as [|n IH]; intros v.
  - cbn [le_bytes le_value]. change (8 * Z.of_nat 0) with 0. rewrite Z.pow_0_r, Z.mod_1_r. auto.
  - cbn [le_bytes le_value]. rewrite IH. rewrite Nat2Z.inj_succ.
    replace (8 * Z.succ (Z.of_nat n)) with (8 + 8 * Z.of_nat n) by lia. rewrite Z.pow_add_r by lia.
    change (2 ^ 8) with 256. rewrite Z.rem_mul_r; [auto|lia|]. apply Z.pow_pos_nonneg; lia.
Qed.

Lemma load_store t v mem : value_of t v -> load (store mem t v) t = v.
Proof.
  intros R. unfold load, store. rewrite firstn_app, le_bytes_length, Nat.sub_diag, firstn_O, app_nil_r.
  rewrite firstn_all2 by (rewrite le_bytes_length; lia). rewrite le_round.
  assert (W : forall w, 0 < w -> - 2 ^ (w - 1) <= v < 2 ^ (w - 1) ->
     (if true && (2 ^ (w - 1) <=? v mod 2 ^ w) then v mod 2 ^ w - 2 ^ w else v mod 2 ^ w) = v).
  { intros w P B. assert (E : 2 ^ w = 2 * 2 ^ (w - 1)) by (rewrite <- Z.pow_succ_r by lia; f_equal; lia).
    cbn [andb]. destruct (Z.le_gt_cases 0 v).
    - rewrite Z.mod_small by lia. destruct (Z.leb_spec (2 ^ (w - 1)) v); lia.
    - replace (v mod 2 ^ w) with (v + 2 ^ w).
      + destruct (Z.leb_spec (2 ^ (w - 1)) (v + 2 ^ w)); lia.
      + rewrite <- (Z_mod_plus_full v 1 (2 ^ w)), Z.mul_1_l. rewrite Z.mod_small; lia. }
  destruct t; cbn [is_signed andb bytes_of value_of] in *;
    try (apply Z.mod_small; exact R); apply W; try exact R; reflexivity.
Qed.

(** Unboxing as the type that was boxed gives the value back. *)
Theorem C18_round_trip : forall t x, value_of t x -> boxed_to t (boxed_from t x) = Ok x.
Proof.
  intros t x R. unfold boxed_to, boxed_from, mk_header. cbn [bx_type bx_mem].
  assert (prim_eqb t t = true) as -> by (destruct t; auto). rewrite load_store; auto.
Qed.

(** Unboxing as any other type aborts. *)
Theorem C18_other_type : forall t u x, t <> u -> boxed_to u (boxed_from t x) = Bad Abort.
Proof.
  intros t u x N. unfold boxed_to. cbn [boxed_from mk_header bx_type].
  destruct (prim_eqb t u) eqn:E; auto. destruct t, u; first [discriminate E | contradiction N; reflexivity].
Qed.

(** Printing an integer: the result is the length of its decimal numeral, and a
    buffer of [size] bytes receives as much of it as fits before the
    terminating NUL. *)
Theorem C18_print : forall g t x size, integer_type t -> value_of t x ->
  exists text, numeral_of text x /\
    boxed_snprint g size (boxed_from t x) =
      Ok (match size with O => [] | S n => firstn n text ++ [0] end, Z.of_nat (length text)).
Proof.
  intros g t x size (N1 & N2) R. exists (decimal_of x). split; [apply decimal_of_ok|].
  unfold boxed_snprint. cbn [boxed_from mk_header bx_type bx_mem]. rewrite load_store by auto.
  assert (L : Z.of_nat (length (decimal_of x)) >? 0 = true).
  { destruct (decimal_of_ok x) as [(_ & S & _)|(_ & ds & -> & _)]; [|apply Z.gtb_lt; cbn [length]; lia].
    destruct (decimal_of x); [congruence|]. apply Z.gtb_lt; cbn [length]; lia. }
  unfold snprintf. destruct t; try congruence; rewrite L; auto.
Qed.

Example C18_example :
  boxed_to I16 (boxed_from I16 (-300)) = Ok (-300) /\ boxed_from I16 (-300) = Box I16 [212; 254; 0; 0; 0; 0; 0; 0] /\
  boxed_to U16 (boxed_from I16 (-300)) = Bad Abort /\
  boxed_snprint (fun _ _ => []) 10 (boxed_from I16 (-300)) = Ok ([45; 51; 48; 48; 0], 4) /\
  boxed_snprint (fun _ _ => []) 3 (boxed_from I16 (-300)) = Ok ([45; 51; 0], 4) /\
  boxed_snprint (fun _ _ => []) 0 (boxed_from U64 0) = Ok ([], 1).
Proof. vm_compute. auto 10. Qed.

Print Assumptions C18_round_trip.
Print Assumptions C18_other_type.
Print Assumptions C18_print.
