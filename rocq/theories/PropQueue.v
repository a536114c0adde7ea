(** C71: doubly linked lists (musl-insque.c). *)
From Coq Require Import List PeanoNat Lia.
From Verif Require Import Base QueueModel QueueSpec QueueProofs.
Import ListNotations.

(** Every sequence of operations that a caller may do runs without a bad access
    and leaves in memory exactly the lists, linear and circular, that it stands
    for. *)
Theorem C71_lists : forall m os, qallallowed (length m) [] os ->
  exists m', qrun m os = Ok m' /\ length m' = length m /\
    Forall (in_memory m') (qeffects [] os) /\ NoDup (used (qeffects [] os)).
Proof.
  intros m os A.
  assert (I : qinv m []) by (split; constructor).
  destruct (qrun_ok os m [] I A) as (m' & E & L & [ND F]).
  exists m'. split; [exact E|]. split; [exact L|]. split; [exact F | exact ND].
Qed.

(** One operation on lists that are in memory: lists without an object that it
    names, and objects that are in no list, stay as they are. *)
Theorem C71_others : forall m qs o, NoDup (used qs) -> Forall (in_memory m) qs ->
  qallowed (length m) qs o ->
  exists m', qstep m o = Ok m' /\ Forall (in_memory m') (qeffect qs o) /\
    (forall q, In q qs -> (forall x, In x (names o) -> ~ In x (elements q)) ->
       In q (qeffect qs o) /\
       forall x, In x (elements q) -> nth_error m' x = nth_error m x) /\
    (forall y, ~ In y (used qs) -> ~ In y (names o) -> nth_error m' y = nth_error m y).
Proof.
  intros m qs o ND F A.
  destruct (qstep_ok m qs o (conj ND F) A) as (m' & E & _ & [_ F'] & O & R).
  exists m'. split; [exact E|]. split; [exact F'|]. split; [exact O | exact R].
Qed.

(** Objects whose pointers were never written. *)
Definition raw (n : nat) : qmem := repeat (QNode None None) n.

(** Two lists in turn: 0, 3, 1 and, circular, 2, 5, 4; then 3 changes over. *)
Definition shuffle : list qop :=
  [QAlone 0; QAfter 0 1; QClose 2; QAfter 0 3; QAfter 2 4; QAfter 2 5;
   QRemove 3; QAfter 4 3; QRemove 2].

Example C71_example :
  qallallowed 6 [] shuffle /\
  qeffects [] shuffle = [Ring [5; 4; 3]; Line [0; 1]] /\
  qrun (raw 6) shuffle =
    Ok [QNode (Some (Some 1)) (Some None); QNode (Some None) (Some (Some 0));
        QNode (Some (Some 5)) (Some (Some 3)); QNode (Some (Some 5)) (Some (Some 4));
        QNode (Some (Some 3)) (Some (Some 5)); QNode (Some (Some 4)) (Some (Some 3))].
Proof.
  split; [|split; vm_compute; reflexivity].
  cbn -[Nat.lt]. repeat (split; try lia; try tauto); intuition lia.
Qed.

(** An object that was taken out still points into the list; taking it out a
    second time, when another stands in its place, cuts that one off. *)
Example C71_stale :
  qrun (raw 4) [QAlone 0; QAfter 0 1; QAfter 1 2; QRemove 1; QAfter 0 3; QRemove 1] =
    Ok [QNode (Some (Some 2)) (Some None); QNode (Some (Some 2)) (Some (Some 0));
        QNode (Some None) (Some (Some 0)); QNode (Some (Some 2)) (Some (Some 0))] /\
  ~ qallallowed 4 [] [QAlone 0; QAfter 0 1; QAfter 1 2; QRemove 1; QAfter 0 3; QRemove 1].
Proof. split; [vm_compute; reflexivity|]. cbn. intuition lia. Qed.

Print Assumptions C71_lists.
Print Assumptions C71_others.
