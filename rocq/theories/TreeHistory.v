(** Histories of raw tree operations, for the statements about musl-tsearch.c. *)
From Coq Require Import ZArith List Bool Lia Sorting.Permutation.
From Verif Require Import Base TsearchModel TsearchProofs.
Import ListNotations.
Open Scope Z_scope.
Local Arguments Z.add : simpl never.
Local Arguments Z.of_nat : simpl never.

Section History.
Context {E : Type}.
Variable cmp : E -> E -> Z.

Inductive tree_op : Type := TInsert (k : E) | TDelete (k : E).

(** The tree after a history of tsearch/tdelete calls. *)
Fixpoint tree_run (t : tree E) (ops : list tree_op) : outcome (tree E) :=
  match ops with
  | [] => Ok t
  | TInsert k :: ops' => bind (tsearch E cmp k t) (fun '(t', _, _) => tree_run t' ops')
  | TDelete k :: ops' => bind (tdelete E cmp k t) (fun '(t', _) => tree_run t' ops')
  end.

Context (TC : total_cmp cmp).

Lemma tree_run_ok ops : forall t, avl t -> sorted cmp (inorder t) ->
  Z.of_nat (length (inorder t) + length ops) <= 2 ^ 64 ->
  exists t', tree_run t ops = Ok t' /\ avl t' /\ sorted cmp (inorder t')
    /\ Z.of_nat (length (inorder t')) <= Z.of_nat (length (inorder t) + length ops).
Proof.
  induction ops as [|op ops IH]; intros t A S HB; cbn [tree_run].
  - exists t. cbn [length] in *. repeat split; auto; lia.
  - cbn [length] in HB.
    assert (HM : rheight t + 1 <= MAXH).
    { change MAXH with 96. pose proof (avl_height_64 t A). lia. }
    destruct op as [k|k].
    + destruct (tsearch_spec cmp TC k t A S HM) as
        [(e & -> & _) | (t' & l & r & -> & _ & A' & I0 & I1 & S')]; cbn [bind].
      * destruct (IH t A S) as (t2 & E2 & A2 & S2 & L2); [lia|]. exists t2. repeat split; auto. cbn [length]; lia.
      * assert (L : length (inorder t') = Datatypes.S (length (inorder t))).
        { rewrite I0, I1, !app_length. cbn [length]. lia. }
        destruct (IH t' A' S') as (t2 & E2 & A2 & S2 & L2); [lia|]. exists t2. repeat split; auto. cbn [length]; lia.
    + destruct (tdelete_spec cmp TC k t A S HM) as
        [(-> & _) | (t' & l & e & r & -> & _ & A' & I0 & I1 & S')]; cbn [bind].
      * destruct (IH t A S) as (t2 & E2 & A2 & S2 & L2); [lia|]. exists t2. repeat split; auto. cbn [length]; lia.
      * assert (L : length (inorder t) = Datatypes.S (length (inorder t'))).
        { rewrite I0, I1, !app_length. cbn [length]. lia. }
        destruct (IH t' A' S') as (t2 & E2 & A2 & S2 & L2); [lia|]. exists t2. repeat split; auto. cbn [length]; lia.
Qed.

Lemma tree_history ops : Z.of_nat (length ops) <= 2 ^ 64 ->
  exists t, tree_run Nil ops = Ok t /\ avl t /\ sorted cmp (inorder t)
    /\ rheight t + 1 <= MAXH
    /\ (2 ^ 20) ^ (rheight t) <= (Z.of_nat (length (inorder t)) + 1) ^ 29.
Proof.
  intros H. destruct (tree_run_ok ops Nil) as (t & E1 & A & S & L); auto; [simpl; auto|constructor|].
  exists t. repeat split; auto.
  - change MAXH with 96. pose proof (avl_height_64 t A). cbn [inorder length] in L. lia.
  - apply avl_log; auto.
Qed.

(** Walking a tree reached by a history. *)
Lemma tree_walk ops t : Z.of_nat (length ops) <= 2 ^ 64 -> tree_run Nil ops = Ok t ->
  Permutation (visited E t) (inorder t) /\ Permutation (tdestroy E t) (inorder t).
Proof.
  intros H R. destruct (tree_history ops H) as (t' & E1 & A & _).
  rewrite R in E1. injection E1 as ->. split; [apply visited_perm; auto|apply tdestroy_perm].
Qed.
End History.
Arguments tree_op E : clear implicits.
