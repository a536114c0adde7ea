(** C06, C07, C08, C09: cee_list and cee_stack. *)
From Coq Require Import ZArith List Bool Lia.
From Verif Require Import Base ListModel ListProofs ListHistory StackModel StackProofs.
Import ListNotations.
Open Scope Z_scope.

(** C06: after any history of in-range operations no access was out of bounds
    (the model would be [Bad OutOfBounds]), all results are those of the
    sequence, and size and elements are the sequence's. *)
Theorem C06_list_is_sequence : forall A cap (ops : list (@list_op A)),
  0 <= cap -> Z.of_nat (length ops) < 2 ^ 31 -> ops_valid [] ops ->
  exists l, model_run (list_mk cap) ops = Ok (l, snd (spec_run [] ops))
            /\ shows l (fst (spec_run [] ops)).
Proof. exact (fun A cap ops => list_history_lemma cap ops). Qed.

Example C06_example :
  let ops := [OAppend 1; OAppend 2; OInsert 1 9; OInsert 3 7; ORemove 0; ORemove 5] in
  ops_valid [] ops /\
  exists l, model_run (list_mk 0) ops = Ok (l, [None; None; None; None; Some true; Some false])
            /\ l_size l = 3 /\ map (aread (l_a l)) [0; 1; 2] = [Ok 9; Ok 2; Ok 7].
Proof. cbn zeta. split; [vm_compute; intuition discriminate|]. eexists. split; [vm_compute; reflexivity|]. split; reflexivity. Qed.

(** C07: removal at a bad index. *)
Theorem C07_remove_out_of_range : forall A (l : clist A) xs i, reached l xs ->
  - 2 ^ 31 <= i < 2 ^ 31 -> i < 0 \/ Z.of_nat (length xs) <= i ->
  list_remove (Some l) i = Ok (false, Some l).
Proof. exact (fun A l xs i => remove_out_of_range l xs i). Qed.

Example C07_example : exists l, reached l [1; 2] /\ list_remove (Some l) (-1) = Ok (false, Some l).
Proof.
  exists (CList 2 2 [Some 1; Some 2]). split; [|reflexivity].
  exists 1, [OAppend 1; OAppend 2], [None; None]. vm_compute. intuition discriminate.
Qed.

(** C07: insertion at a bad index: outside the array, or leaving a gap of
    indeterminate elements and silently dropping the last one. *)
Theorem C07_insert_out_of_range_refuted :
  (exists (l : clist Z) i, reached l [] /\ - 2 ^ 31 <= i < 2 ^ 31 /\ list_insert l i 5 = Bad OutOfBounds)
  /\ (exists (l l' : clist Z) i, reached l [] /\ - 2 ^ 31 <= i < 2 ^ 31
        /\ list_insert l i 5 = Ok l' /\ ~ exists xs, shows l' xs).
Proof.
  split.
  - exists (list_mk 0), (-1). split; [|split; [lia|vm_compute; reflexivity]].
    exists 0, [], []. vm_compute. intuition discriminate.
  - exists (list_mk 2), (CList 1 2 [None; Some 5]), 1. split; [|split; [lia|split; [vm_compute; reflexivity|]]].
    + exists 2, [], []. vm_compute. intuition discriminate.
    + intros (xs & S1 & _ & _ & S4). cbn in S1. destruct xs as [|x xs]; [discriminate|].
      specialize (S4 0 x ltac:(lia) eq_refl). vm_compute in S4. discriminate.
Qed.

(** What it does for every int out of range: outside the array (grown first if it is full) the
    access is out of bounds.  Otherwise the size grows by one and the new element is behind the list;
    the new last element of the list is whatever the array had there. *)
Theorem C07_insert_exact : forall A (l : clist A) xs i e, reached l xs -> - 2 ^ 31 <= i < 2 ^ 31 ->
  let n := Z.of_nat (length xs) in let cap := list_capacity (Some l) in let room := if n =? cap then Z.max 1 (2 * cap) else cap in
  (i < 0 \/ room <= i -> list_insert l i e = Bad OutOfBounds) /\
  (n < i < room -> exists l', list_insert l i e = Ok l' /\ list_size (Some l') = n + 1 /\ list_capacity (Some l') = room /\
     (forall k x, nth_error xs k = Some x -> aread (l_a l') (Z.of_nat k) = Ok x) /\
     aget (l_a l') n = (if n =? cap then Ok None else aget (l_a l) n) /\ aread (l_a l') i = Ok e).
Proof. exact (fun A l xs i e => insert_out_of_range l xs i e). Qed.
(** Two elements in an array of two: it grows to four, and index 3 is in the array but leaves a gap at 2. *)
Example C07_insert_example : exists l, reached l [1; 2] /\
  list_insert l 3 9 = Ok (CList 3 4 [Some 1; Some 2; None; Some 9]) /\ list_insert l 4 9 = Bad OutOfBounds /\ list_insert l (-1) 9 = Bad OutOfBounds.
Proof.
  exists (CList 2 2 [Some 1; Some 2]). split; [|repeat split; reflexivity].
  exists 1, [OAppend 1; OAppend 2], [None; None]. vm_compute. intuition discriminate.
Qed.

(** C08, full claim: iteration over every list, also the empty one.  Proved for
    non-empty lists; for the empty list it is false (next theorem). *)
Theorem C08_iterate_partial : forall A (l : clist A) xs S (f : S -> A -> Z -> S * Z) s fuel,
  reached l xs -> xs <> [] -> (length xs < fuel)%nat ->
  list_iterate (fun _ => l) (fun s x i => Ok (f s x i)) fuel false s
  = Ok (fst (spec_iterate f s 0 xs 0), Some (snd (spec_iterate f s 0 xs 0))).
Proof. exact (fun A l xs S f s fuel => iterate_history l xs S f s fuel). Qed.

Example C08_iterate_example :
  list_iterate (fun _ => CList 3 4 [Some 5; Some 6; Some 7; None])
     (fun s x i => Ok (s ++ [x + i], if x =? 6 then 3 else 0)) 4 false [] = Ok ([5; 7], Some 3).
Proof. reflexivity. Qed.

(** On an empty list the result is the indeterminate value of an uninitialised
    variable ([None]), whatever the callback. *)
Theorem C08_iterate_empty_refuted : exists l : clist Z, reached l [] /\
  forall S (f : S -> Z -> Z -> outcome (S * Z)) s fuel, (0 < fuel)%nat ->
  list_iterate (fun _ => l) f fuel false s = Ok (s, None).
Proof.
  exists (list_mk 1). split.
  - exists 1, [], []. vm_compute. intuition discriminate.
  - intros. destruct fuel; [lia|reflexivity].
Qed.

(** A NULL list has no elements: its size and capacity are 0, the callback is not
    called, and the result is 0. *)
Theorem C08_null : forall A S the_list f fuel (s : S), list_iterate (A := A) the_list f fuel true s = Ok (s, Some 0) /\
  list_size (@None (clist A)) = 0 /\ list_capacity (@None (clist A)) = 0.
Proof. auto. Qed.
Example C08_null_example : list_iterate (A := Z) (fun _ => CList 1 1 [Some 5]) (fun s x i => Ok (s ++ [x], 1)) 4 true [9] = Ok ([9], Some 0).
Proof. reflexivity. Qed.

(** Merging two different lists. *)
Theorem C08_merge_partial : forall A (dest : clist A) xs src ys fuel, reached dest xs -> reached src ys ->
  (length ys < fuel)%nat ->
  exists dest', list_merge fuel dest src = Ok (dest', src) /\ shows dest' (xs ++ ys).
Proof. exact (fun A dest xs src ys fuel => merge_history dest xs src ys fuel). Qed.

Example C08_merge_example : exists d s d', reached d [1] /\ reached s [2; 3]
  /\ list_merge 3 d s = Ok (d', s) /\ map (aread (l_a d')) [0; 1; 2] = [Ok 1; Ok 2; Ok 3].
Proof.
  exists (CList 1 1 [Some 1]), (CList 2 2 [Some 2; Some 3]). eexists.
  split; [|split; [|split; [vm_compute; reflexivity|reflexivity]]].
  - exists 1, [OAppend 1], [None]. vm_compute. intuition discriminate.
  - exists 1, [OAppend 2; OAppend 3], [None; None]. vm_compute. intuition discriminate.
Qed.

(** Merging a non-empty list into itself never ends. *)
Theorem C08_merge_self_refuted : exists l : clist Z, reached l [1] /\
  forall fuel, list_merge_self fuel l = Bad OutOfFuel.
Proof.
  assert (R : reached (CList 1 1 [Some 1]) [1]).
  { exists 1, [OAppend 1], [None]. vm_compute. intuition discriminate. }
  exists (CList 1 1 [Some 1]). split; [exact R|]. intros fuel.
  apply (merge_self_history _ [1]); [exact R|discriminate].
Qed.

(** C09. *)
Theorem C09_stack_is_bounded_lifo : forall A cap ops,
  0 <= cap < 2 ^ 64 -> Forall (@sop_ok A) ops ->
  smodel_run (stack_mk cap) ops = Ok (sspec_run cap [] ops).
Proof. exact (fun A cap ops => stack_history_lemma cap ops). Qed.

Example C09_example :
  smodel_run (stack_mk 2) [SPush 1; SPush 2; SPush 3; STop 1; SPop; SPop; SPop; SEmpty]
  = Ok [RPushed 1; RPushed 1; RPushed 0; RElem (Some 1); RElem (Some 2); RElem (Some 1); RElem None; RBool true].
Proof. vm_compute. reflexivity. Qed.

Print Assumptions C06_list_is_sequence.
Print Assumptions C07_remove_out_of_range.
Print Assumptions C07_insert_exact.
Print Assumptions C07_insert_out_of_range_refuted.
Print Assumptions C08_iterate_partial.
Print Assumptions C08_iterate_empty_refuted.
Print Assumptions C08_merge_partial.
Print Assumptions C08_merge_self_refuted.
Print Assumptions C09_stack_is_bounded_lifo.
Print Assumptions C08_null.
