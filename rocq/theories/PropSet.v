(** C03, C05, C47, C48: cee_set. *)
From Coq Require Import ZArith List Bool Lia Sorting.Permutation.
From Verif Require Import Base TsearchModel TsearchProofs SetModel SetProofs SetHistory Samples.
Import ListNotations.
Open Scope Z_scope.

(** C03, full claim: for every history all results are those of a finite set.
    Membership results are right for every history ... *)
Theorem C03_set_membership : forall E (cmp : E -> E -> Z) (eqb : E -> E -> bool),
  total_cmp cmp -> (forall x y, eqb x y = true <-> x = y) ->
  forall ops, Forall membership_op ops -> Z.of_nat (length ops) <= 2 ^ 64 ->
  exists s, model_run cmp eqb (set_mk E) ops = Ok (s, snd (ideal_run cmp [] ops)).
Proof. exact (fun E cmp eqb TC EQ ops => set_history_membership cmp eqb TC EQ ops). Qed.

(** ... and the size and emptiness results too when no element is added whose
    very pointer is in the set already.  Missing for the full claim: histories
    that do so, for which it is false (next theorem). *)
Theorem C03_set_is_finite_set_partial : forall E (cmp : E -> E -> Z) (eqb : E -> E -> bool),
  total_cmp cmp -> (forall x y, eqb x y = true <-> x = y) ->
  forall ops, no_readd cmp [] ops -> Z.of_nat (length ops) <= 2 ^ 64 ->
  exists s, model_run cmp eqb (set_mk E) ops = Ok (s, snd (ideal_run cmp [] ops)).
Proof. exact (fun E cmp eqb TC EQ ops => set_history_no_readd cmp eqb TC EQ ops). Qed.

(** Adding the same pointer twice counts it twice; after its removal the set
    claims not to be empty. *)
Theorem C03_set_size_refuted : exists (ops : list (set_op Z)) s rs,
  model_run zcmp Z.eqb (set_mk Z) ops = Ok (s, rs) /\ rs <> snd (ideal_run zcmp [] ops)
  /\ ops = [EAdd 5; EAdd 5; ESize; ERemove 5; EFind 5; ESize; EEmpty]
  /\ rs = [RUnit; RUnit; RNum 2; ROpt (Some 5); ROpt None; RNum 1; RBool false].
Proof.
  exists [EAdd 5; EAdd 5; ESize; ERemove 5; EFind 5; ESize; EEmpty].
  do 2 eexists. split; [vm_compute; reflexivity|]. split; [discriminate|]. auto.
Qed.

(** What the results are for every history: those of a finite set, except that the
    count includes the additions of a pointer that was in the set, since the set was
    last cleared. *)
Theorem C03_set_count : forall E (cmp : E -> E -> Z) (eqb : E -> E -> bool),
  total_cmp cmp -> (forall x y, eqb x y = true <-> x = y) ->
  forall ops, Z.of_nat (length ops) <= 2 ^ 64 ->
  exists s, model_run cmp eqb (set_mk E) ops = Ok (s, counted_run cmp [] 0 (fun v => existsb (eqb v)) ops).
Proof. intros E cmp eqb TC EQ ops L. destruct (set_history_counted cmp eqb TC EQ ops L) as (s & R & _). eauto. Qed.
Example C03_count_example : exists s,
  model_run zcmp Z.eqb (set_mk Z) [EAdd 5; EAdd 5; EAdd 7; ESize; EClear; EFind 5; ESize; EAdd 5; ESize] =
  Ok (s, [RUnit; RUnit; RUnit; RNum 3; RUnit; ROpt None; RNum 0; RUnit; RNum 1]).
Proof. eexists. vm_compute. reflexivity. Qed.

(** Clearing releases every element once. *)
Theorem C03_set_clear : forall E (cmp : E -> E -> Z) (eqb : E -> E -> bool),
  total_cmp cmp -> (forall x y, eqb x y = true <-> x = y) ->
  forall ops, Z.of_nat (length ops) <= 2 ^ 64 ->
  exists s rs, model_run cmp eqb (set_mk E) ops = Ok (s, rs)
    /\ Permutation (fst (set_clear E s)) (fst (ideal_run cmp [] ops)).
Proof. intros E cmp eqb TC EQ ops L. destruct (set_history_counted cmp eqb TC EQ ops L) as (s & R & P). eauto. Qed.
Example C03_clear_example : exists s rs,
  model_run zcmp Z.eqb (set_mk Z) [EAdd 3; EAdd 1; EAdd 2; ERemove 1] = Ok (s, rs)
  /\ (fst (set_clear Z s) = [2; 3] \/ fst (set_clear Z s) = [3; 2]).
Proof. do 2 eexists. split; vm_compute; auto. Qed.

Example C03_example :
  no_readd dcmp [] [EAdd 12; EAdd 22; EAdd 3; EFind 2; ESize; ERemove 2; EEmpty] /\
  exists s, model_run dcmp Z.eqb (set_mk Z) [EAdd 12; EAdd 22; EAdd 3; EFind 2; ESize; ERemove 2; EEmpty]
   = Ok (s, [RUnit; RUnit; RUnit; ROpt (Some 12); RNum 2; ROpt (Some 12); RBool false]).
Proof.
  split; [vm_compute; intuition discriminate|]. eexists. vm_compute. reflexivity.
Qed.

(** C05 for sets: values and iterate visit every element once, in one order. *)
Theorem C05_set_walk : forall E (cmp : E -> E -> Z) (eqb : E -> E -> bool),
  total_cmp cmp -> (forall x y, eqb x y = true <-> x = y) ->
  forall ops, Z.of_nat (length ops) <= 2 ^ 64 ->
  exists s rs, model_run cmp eqb (set_mk E) ops = Ok (s, rs)
    /\ Permutation (set_values E s) (fst (ideal_run cmp [] ops))
    /\ forall S (f : S -> E -> S) c,
         set_iterate E (Some s) (fun c e => Ok (f c e)) c = Ok (fold_left f (set_values E s) c).
Proof. exact (fun E cmp eqb TC EQ ops => set_walk_history cmp eqb TC EQ ops). Qed.

Example C05_set_example :
  exists s rs, model_run zcmp Z.eqb (set_mk Z) [EAdd 3; EAdd 1; EAdd 2; EAdd 4] = Ok (s, rs)
  /\ set_values Z s = [2; 1; 3; 4].
Proof. do 2 eexists. split; vm_compute; reflexivity. Qed.

(** C47: the operands are not changed (the model only reads them). *)
Theorem C47_set_clone : forall E (cmp : E -> E -> Z) (eqb : E -> E -> bool),
  total_cmp cmp -> (forall x y, eqb x y = true <-> x = y) ->
  forall ops, Z.of_nat (length ops) <= 2 ^ 64 ->
  exists s rs c, model_run cmp eqb (set_mk E) ops = Ok (s, rs) /\ set_clone E eqb cmp s = Ok c
    /\ (forall k, set_find E cmp (Some c) k = set_find E cmp (Some s) k)
    /\ set_size E (Some c) = Ok (Z.of_nat (length (fst (ideal_run cmp [] ops))))
    /\ Permutation (set_values E c) (set_values E s).
Proof. exact (fun E cmp eqb TC EQ ops => set_clone_history cmp eqb TC EQ ops). Qed.

Theorem C47_set_union : forall E (cmp : E -> E -> Z) (eqb : E -> E -> bool),
  total_cmp cmp -> (forall x y, eqb x y = true <-> x = y) ->
  forall ops1 ops2, Z.of_nat (length ops1 + length ops2) <= 2 ^ 64 ->
  exists s1 r1 s2 r2 s,
    model_run cmp eqb (set_mk E) ops1 = Ok (s1, r1) /\ model_run cmp eqb (set_mk E) ops2 = Ok (s2, r2)
    /\ set_union E eqb cmp true s1 s2 = Ok s
    /\ forall k, (exists e, set_find E cmp (Some s) k = Ok (Some e)) <->
                 (exists e, set_find E cmp (Some s1) k = Ok (Some e)) \/
                 (exists e, set_find E cmp (Some s2) k = Ok (Some e)).
Proof. exact (fun E cmp eqb TC EQ ops1 ops2 => set_union_history cmp eqb TC EQ ops1 ops2). Qed.

Example C47_example :
  exists s1 r1 s2 r2 s, model_run zcmp Z.eqb (set_mk Z) [EAdd 1; EAdd 2] = Ok (s1, r1)
   /\ model_run zcmp Z.eqb (set_mk Z) [EAdd 2; EAdd 3] = Ok (s2, r2)
   /\ set_union Z Z.eqb zcmp true s1 s2 = Ok s /\ set_values Z s = [2; 1; 3].
Proof. do 5 eexists. repeat split; vm_compute; reflexivity. Qed.

(** The size of a union counts shared pointers twice. *)
Theorem C47_union_size_refuted :
  exists s1 r1 s2 r2 s, model_run zcmp Z.eqb (set_mk Z) [EAdd 1; EAdd 2] = Ok (s1, r1)
   /\ model_run zcmp Z.eqb (set_mk Z) [EAdd 2; EAdd 3] = Ok (s2, r2)
   /\ set_union Z Z.eqb zcmp true s1 s2 = Ok s
   /\ length (set_values Z s) = 3%nat /\ set_size Z (Some s) = Ok 4.
Proof. do 5 eexists. repeat split; vm_compute; reflexivity. Qed.

(** What the union is for all histories: the elements of the first set, and those of the second that
    are equal to none of them.  The size counts a pointer once more that is in both sets. *)
Theorem C47_union_exact : forall E (cmp : E -> E -> Z) (eqb : E -> E -> bool),
  total_cmp cmp -> (forall x y, eqb x y = true <-> x = y) ->
  forall ops1 ops2, Z.of_nat (length ops1 + length ops2) <= 2 ^ 64 ->
  let xs := fst (ideal_run cmp [] ops1) in let ys := fst (ideal_run cmp [] ops2) in
  let new := filter (fun y => negb (existsb (fun x => cmp y x =? 0) xs)) ys in
  let again := filter (fun y => existsb (eqb y) xs) ys in
  exists s1 r1 s2 r2 s, model_run cmp eqb (set_mk E) ops1 = Ok (s1, r1) /\ model_run cmp eqb (set_mk E) ops2 = Ok (s2, r2) /\
    set_union E eqb cmp true s1 s2 = Ok s /\
    Permutation (set_values E s) (xs ++ new) /\ set_size E (Some s) = Ok (Z.of_nat (length (xs ++ new) + length again)).
Proof. exact (fun E cmp eqb TC EQ ops1 ops2 => set_union_exact cmp eqb TC EQ ops1 ops2). Qed.
(** Compared by the last digit: 12 of the second set is equal to 2; 3 is in both. *)
Example C47_union_example :
  exists s1 r1 s2 r2 s, model_run (fun a b => zcmp (a mod 10) (b mod 10)) Z.eqb (set_mk Z) [EAdd 2; EAdd 3] = Ok (s1, r1) /\
    model_run (fun a b => zcmp (a mod 10) (b mod 10)) Z.eqb (set_mk Z) [EAdd 12; EAdd 3; EAdd 4] = Ok (s2, r2) /\
    set_union Z Z.eqb (fun a b => zcmp (a mod 10) (b mod 10)) true s1 s2 = Ok s /\ set_values Z s = [3; 2; 4] /\ set_size Z (Some s) = Ok 4.
Proof. do 5 eexists. repeat split; vm_compute; reflexivity. Qed.

(** C48: NULL sets. *)
Theorem C48_set_null_partial : forall E S (f : S -> E -> outcome S) c,
  set_iterate E None f c = Ok c.
Proof. reflexivity. Qed.

Theorem C48_set_null_refuted : forall E (cmp : E -> E -> Z) k,
  set_size E None = Bad NullDeref /\ set_empty E None = Bad NullDeref
  /\ set_find E cmp None k = Bad NullDeref /\ set_remove E cmp None k = Bad NullDeref.
Proof. intros. repeat split. Qed.

Print Assumptions C03_set_membership.
Print Assumptions C03_set_is_finite_set_partial.
Print Assumptions C03_set_count.
Print Assumptions C03_set_clear.
Print Assumptions C03_set_size_refuted.
Print Assumptions C05_set_walk.
Print Assumptions C47_set_clone.
Print Assumptions C47_set_union.
Print Assumptions C47_union_exact.
Print Assumptions C47_union_size_refuted.
Print Assumptions C48_set_null_partial.
Print Assumptions C48_set_null_refuted.
