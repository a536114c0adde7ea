(** Common vocabulary of the models: outcomes of C code. *)
From Coq Require Import ZArith List Lia Bool.
Import ListNotations.

(** Why an execution went wrong.  [Abort] is a deliberate [cee_segfault()]
    (cee-common.c: the library's own assertion failure); all others are
    undefined behaviour in C, except [OutOfFuel], which only says that a
    fuelled loop of the model was given too few steps; theorems exclude it or,
    for non-termination results, show it for every amount of fuel. *)
Inductive reason : Type :=
| NullDeref        (* dereference of NULL *)
| OutOfBounds      (* read or write outside an allocated object *)
| UseAfterFree     (* access to a freed block *)
| DoubleFree       (* free of a freed block *)
| DivByZero        (* integer division by zero *)
| Uninit           (* use of an indeterminate value *)
| BadVaList        (* va_list used after its value became indeterminate *)
| Overflow         (* signed integer out of range, also in atoi *)
| BadPointer       (* pointer to something that is not a library object *)
| Abort            (* cee_segfault() *)
| OutOfFuel.

Inductive outcome (A : Type) : Type :=
| Ok (a : A)
| Bad (r : reason).
Arguments Ok {A} a.
Arguments Bad {A} r.

Definition bind {A B} (m : outcome A) (f : A -> outcome B) : outcome B :=
  match m with Ok a => f a | Bad r => Bad r end.

Declare Scope outcome_scope.
Delimit Scope outcome_scope with outcome.
Notation "'let*' x := m 'in' k" :=
  (bind m (fun x => k))
  (at level 200, x pattern, m at level 100, k at level 200,
   right associativity) : outcome_scope.

Definition of_option {A} (r : reason) (o : option A) : outcome A :=
  match o with Some a => Ok a | None => Bad r end.

Lemma bind_ok {A B} (m : outcome A) (f : A -> outcome B) b :
  bind m f = Ok b -> exists a, m = Ok a /\ f a = Ok b.
Proof. destruct m; simpl; intros H; [eauto | discriminate]. Qed.

(** Unsigned machine arithmetic. *)
Definition wrap (bits : Z) (z : Z) : Z := Z.modulo z (2 ^ bits).

Open Scope Z_scope.
(** Conversion of an unsigned 64-bit size to a 32-bit signed [int]. *)
Definition to_int32 (z : Z) : Z := (z + 2 ^ 31) mod 2 ^ 32 - 2 ^ 31.

Lemma to_int32_id z : - 2 ^ 31 <= z < 2 ^ 31 -> to_int32 z = z.
Proof. intros H. unfold to_int32. rewrite Z.mod_small; lia. Qed.

(** * C arrays: a block of cells, [None] being an uninitialised cell. *)
Section Array.
Context {A : Type}.

(** [a[i]]: the content of the cell (possibly indeterminate). *)
Definition aget (a : list (option A)) (i : Z) : outcome (option A) :=
  if (0 <=? i) then of_option OutOfBounds (nth_error a (Z.to_nat i))
  else Bad OutOfBounds.

(** [a[i]] where the value is used: an indeterminate value is an error. *)
Definition aread (a : list (option A)) (i : Z) : outcome A :=
  bind (aget a i) (of_option Uninit).

Fixpoint update {B} (l : list B) (n : nat) (x : B) : list B :=
  match l, n with
  | [], _ => []
  | _ :: l', O => x :: l'
  | y :: l', S n' => y :: update l' n' x
  end.

(** [a[i] = x] *)
Definition aset (a : list (option A)) (i : Z) (x : option A)
  : outcome (list (option A)) :=
  if (0 <=? i) && (i <? Z.of_nat (length a))
  then Ok (update a (Z.to_nat i) x) else Bad OutOfBounds.

(** [realloc]: the prefix is kept, new cells are uninitialised. *)
Definition agrow (a : list (option A)) (n : Z) : list (option A) :=
  firstn (Z.to_nat n) a ++ repeat None (Z.to_nat n - length a).
End Array.
