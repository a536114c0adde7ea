(** C04: the search tree of musl-tsearch.c. *)
From Coq Require Import ZArith List Bool Sorting.Permutation.
From Verif Require Import Base TsearchModel TsearchProofs TreeHistory Samples.
Import ListNotations.
Open Scope Z_scope.

(** For every comparison function that is a total preorder and every history of
    insertions and deletions, no operation goes wrong (in particular no path
    array access is out of bounds, which the model reports as [Bad
    OutOfBounds]); the tree is balanced with exact recorded heights ([avl]),
    sorted, and its depth [h] for [n] elements satisfies
    2^(20 h) <= (n+1)^29, i.e. h <= 1.45 log2 (n+1). *)
Theorem C04_tree_balanced : forall E (cmp : E -> E -> Z), total_cmp cmp ->
  forall ops, Z.of_nat (length ops) <= 2 ^ 64 ->
  exists t, tree_run cmp Nil ops = Ok t /\ avl t /\ sorted cmp (inorder t)
    /\ rheight t + 1 <= MAXH
    /\ (2 ^ 20) ^ (rheight t) <= (Z.of_nat (length (inorder t)) + 1) ^ 29.
Proof. exact (fun E cmp TC ops => tree_history cmp TC ops). Qed.

Example C04_example :
  total_cmp zcmp /\
  (exists t, tree_run zcmp Nil (map TInsert [1;2;3;4;5;6;7;8] ++ [TDelete 4; TDelete 1]) = Ok t
     /\ inorder t = [2;3;5;6;7;8] /\ rheight t = 3).
Proof. split; [exact zcmp_total|]. eexists. split; [vm_compute; reflexivity|]. split; reflexivity. Qed.

(** Any balanced tree with at most 2^64 elements leaves room in the path array,
    however it was built. *)
Theorem C04_path_buffer_sufficient : forall E (t : tree E),
  avl t -> Z.of_nat (length (inorder t)) <= 2 ^ 64 -> rheight t <= 91.
Proof. exact (fun E t => avl_height_64 t). Qed.

Example C04_buffer_example :
  let t := Node 2 (Node 1 Nil Nil 1) (Node 3 Nil Nil 1) 2 in
  avl t /\ Z.of_nat (length (inorder t)) <= 2 ^ 64.
Proof. vm_compute. intuition discriminate. Qed.

(** Walking (with a callback that acts on the pre-order and leaf visits, as
    all callbacks in the library do) and destroying a tree touch every element
    exactly once. *)
Theorem C05_tree_walk_visits_once : forall E (cmp : E -> E -> Z), total_cmp cmp ->
  forall ops t, Z.of_nat (length ops) <= 2 ^ 64 -> tree_run cmp Nil ops = Ok t ->
  Permutation (visited E t) (inorder t) /\ Permutation (tdestroy E t) (inorder t).
Proof. exact (fun E cmp TC ops t => tree_walk cmp TC ops t). Qed.

Example C05_tree_example :
  exists t, tree_run zcmp Nil (map TInsert [5;3;8;1;4]) = Ok t /\ visited Z t = [5;3;1;4;8].
Proof. eexists. split; vm_compute; reflexivity. Qed.

Print Assumptions C04_tree_balanced.
Print Assumptions C04_path_buffer_sufficient.
Print Assumptions C05_tree_walk_visits_once.
