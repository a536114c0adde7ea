(** A comparison function used in the concrete examples next to the property
    theorems: integers, compared as an int comparison callback would. *)
From Coq Require Import ZArith List Bool Lia.
From Verif Require Import Base TsearchModel TsearchProofs.
Open Scope Z_scope.

Definition zcmp (x y : Z) : Z := x - y.

Lemma zcmp_total : total_cmp zcmp.
Proof. split; unfold zcmp; intros; lia. Qed.

(** A coarser one: numbers with the same last digit are equal, so distinct
    pointers can compare equal. *)
Definition dcmp (x y : Z) : Z := x mod 10 - y mod 10.

Lemma dcmp_total : total_cmp dcmp.
Proof. split; unfold dcmp; intros; lia. Qed.
