(** Decimal numerals as the C library prints them. *)
From Coq Require Import ZArith List Lia.
Import ListNotations.
Open Scope Z_scope.

(** The digits of [n >= 0] in front of [acc], most significant first; [fuel]
    bounds the number of digits. *)
Fixpoint udigits (fuel : nat) (n : Z) (acc : list Z) : list Z :=
  match fuel with
  | O => acc
  | S f => if n <? 10 then (48 + n) :: acc else udigits f (n / 10) ((48 + n mod 10) :: acc)
  end.

(** printf "%u", "%lu", "%d", "%ld", ... (library): no fuel is needed beyond
    the number of binary digits. *)
Definition decimal_of (z : Z) : list Z :=
  let m := Z.abs z in
  let ds := udigits (S (Z.to_nat (Z.log2 m))) m [] in
  if z <? 0 then 45 :: ds else ds.
