(** cee_stack refines bounded LIFO sequences. *)
From Coq Require Import ZArith List Bool Lia.
From Verif Require Import Base ArrayLemmas StackModel.
Import ListNotations.
Open Scope Z_scope.
Local Arguments Z.add : simpl never.
Local Arguments Z.sub : simpl never.
Local Arguments Z.of_nat : simpl never.
Local Arguments Z.to_nat : simpl never.

(** * Specification: a list whose head is the top, bounded by [cap] *)
Section Spec.
Context {A : Type}.

Inductive stack_op : Type := SPush (e : A) | SPop | STop (n : Z) | SSize | SEmpty | SFull.
Inductive stack_res : Type :=
| RPushed (ok : Z) | RElem (e : option A) | RNum (z : Z) | RBool (b : bool).

Definition sspec_step (cap : Z) (xs : list A) (op : stack_op) : list A * stack_res :=
  match op with
  | SPush e => if Z.of_nat (length xs) <? cap then (e :: xs, RPushed 1)
               else (xs, RPushed 0)
  | SPop => (tl xs, RElem (hd_error xs))
  | STop n => (xs, RElem (nth_error xs (Z.to_nat n)))
  | SSize => (xs, RNum (Z.of_nat (length xs)))
  | SEmpty => (xs, RBool (match xs with [] => true | _ => false end))
  | SFull => (xs, RBool (Z.of_nat (length xs) =? cap))
  end.

Definition smodel_step (s : cstack A) (op : stack_op) : outcome (cstack A * stack_res) :=
  match op with
  | SPush e => bind (stack_push s e) (fun '(r, s') => Ok (s', RPushed r))
  | SPop => bind (stack_pop s) (fun '(r, s') => Ok (s', RElem r))
  | STop n => bind (stack_top s n) (fun r => Ok (s, RElem r))
  | SSize => Ok (s, RNum (stack_size s))
  | SEmpty => Ok (s, RBool (stack_empty s))
  | SFull => Ok (s, RBool (stack_full s))
  end.

Fixpoint sspec_run (cap : Z) (xs : list A) (ops : list stack_op) : list stack_res :=
  match ops with
  | [] => []
  | op :: ops' => let (xs', r) := sspec_step cap xs op in r :: sspec_run cap xs' ops'
  end.

Fixpoint smodel_run (s : cstack A) (ops : list stack_op) : outcome (list stack_res) :=
  match ops with
  | [] => Ok []
  | op :: ops' =>
    bind (smodel_step s op) (fun '(s', r) =>
    bind (smodel_run s' ops') (fun rs => Ok (r :: rs)))
  end.

(** The argument of cee_stack_top is unsigned. *)
Definition sop_ok (op : stack_op) : Prop :=
  match op with STop n => 0 <= n < 2 ^ 64 | _ => True end.
End Spec.

Section Proofs.
Context {A : Type}.

Definition srep (cap : Z) (s : cstack A) (xs : list A) : Prop :=
  k_capacity s = cap /\ k_used s = Z.of_nat (length xs) /\
  k_top s = wrap 64 (Z.of_nat (length xs) - 1) /\
  Z.of_nat (length xs) <= cap /\
  Z.of_nat (length (k_a s)) = cap /\
  exists junk, k_a s = map Some (rev xs) ++ junk.

Lemma srep_mk cap : 0 <= cap < 2 ^ 64 -> srep cap (stack_mk cap) [].
Proof.
  intros H. unfold srep, stack_mk; cbn. rewrite repeat_length.
  repeat split; try lia. eexists; reflexivity.
Qed.

Lemma wrap_small z : 0 <= z < 2 ^ 64 -> wrap 64 z = z.
Proof. intros; unfold wrap; apply Z.mod_small; lia. Qed.
Lemma wrap_plus z : wrap 64 (wrap 64 z + 1) = wrap 64 (z + 1).
Proof. unfold wrap. rewrite Zplus_mod_idemp_l; auto. Qed.
Lemma wrap_minus z k : wrap 64 (wrap 64 z - k) = wrap 64 (z - k).
Proof. unfold wrap. rewrite Zminus_mod_idemp_l; auto. Qed.

Lemma sstep cap s xs op : 0 <= cap < 2 ^ 64 -> srep cap s xs -> sop_ok op ->
  exists s', smodel_step s op = Ok (s', snd (sspec_step cap xs op))
             /\ srep cap s' (fst (sspec_step cap xs op)).
Proof.
  intros HC (H1 & H2 & H3 & H4 & H5 & junk & H6) HO.
  destruct op as [e| |n| | |]; cbn [smodel_step sspec_step].
  - unfold stack_push. rewrite H1, H2.
    destruct (Z.of_nat (length xs) =? cap) eqn:F.
    + apply Z.eqb_eq in F.
      replace (Z.of_nat (length xs) <? cap) with false by (symmetry; apply Z.ltb_ge; lia).
      cbn. eexists; split; [reflexivity|]. repeat split; eauto.
    + apply Z.eqb_neq in F.
      replace (Z.of_nat (length xs) <? cap) with true by (symmetry; apply Z.ltb_lt; lia).
      rewrite H3, wrap_plus. rewrite !wrap_small by lia.
      destruct junk as [|y junk].
      { rewrite app_nil_r in H6. rewrite H6, map_length, rev_length in H5. lia. }
      rewrite H6, aset_mid by (rewrite map_length, rev_length; lia).
      cbn. eexists; split; [reflexivity|]. unfold srep; cbn [k_capacity k_used k_top k_a length].
      rewrite H6, app_length, map_length, rev_length in H5. cbn [length] in H5.
      repeat split; auto; try lia.
      * rewrite wrap_small; lia.
      * rewrite app_length, map_length, rev_length. cbn [length]. lia.
      * exists junk. simpl rev. rewrite map_app, <- app_assoc. reflexivity.
  - unfold stack_pop. rewrite H2. destruct xs as [|x xs].
    + cbn. eexists; split; [reflexivity|]. repeat split; eauto.
    + cbn [length] in *. replace (Z.of_nat (S (length xs)) =? 0) with false
        by (symmetry; apply Z.eqb_neq; lia).
      rewrite H3. rewrite wrap_minus, !wrap_small by lia.
      rewrite H6. rewrite (aread_map_some (rev (x :: xs)) junk _ x).
      2:{ lia. }
      2:{ simpl. rewrite nth_error_app2 by (rewrite rev_length; lia).
          rewrite rev_length. replace (_ - _)%nat with 0%nat by lia. reflexivity. }
      cbn [bind snd fst hd_error tl]. eexists; split; [reflexivity|].
      unfold srep; cbn [k_capacity k_used k_top k_a].
      repeat split; auto; try lia.
      * f_equal. lia.
      * rewrite <- H6; auto.
      * exists (Some x :: junk). simpl. rewrite map_app, <- app_assoc. reflexivity.
  - unfold stack_top. cbn in HO. rewrite H2.
    destruct xs as [|x0 xs0].
    + cbn. destruct (Z.to_nat n); cbn; eexists; (split; [reflexivity|]); repeat split; eauto.
    + set (xs := x0 :: xs0) in *.
      replace (Z.of_nat (length xs) =? 0) with false
        by (symmetry; apply Z.eqb_neq; unfold xs; cbn [length]; lia).
      cbn [orb]. rewrite Z.geb_leb.
      destruct (Z.of_nat (length xs) <=? n) eqn:L.
      * apply Z.leb_le in L. replace (nth_error xs (Z.to_nat n)) with (@None A)
          by (symmetry; apply nth_error_None; lia).
        cbn. eexists; split; [reflexivity|]. repeat split; eauto.
      * apply Z.leb_gt in L. rewrite H3, wrap_minus, wrap_small by lia.
        destruct (nth_error xs (Z.to_nat n)) as [x|] eqn:NX.
        2:{ apply nth_error_None in NX. lia. }
        rewrite H6, (aread_map_some (rev xs) junk _ x).
        2:{ lia. }
        2:{ replace (Z.to_nat (Z.of_nat (length xs) - 1 - n))
              with (length xs - S (Z.to_nat n))%nat by lia.
            apply nth_error_split in NX as (l1 & l2 & -> & LL).
            rewrite rev_app_distr. simpl. rewrite <- app_assoc, app_length. cbn [length app].
            rewrite nth_error_app2; rewrite rev_length; [|lia].
            replace (_ - _)%nat with 0%nat by lia. reflexivity. }
        cbn. eexists; split; [reflexivity|]. repeat split; eauto.
  - cbn. unfold stack_size. rewrite H2. eexists; split; [reflexivity|]. repeat split; eauto.
  - cbn. unfold stack_empty. rewrite H2. destruct xs; cbn; (eexists; split; [reflexivity|]); repeat split; eauto.
  - cbn. unfold stack_full. rewrite H1, H2.
    replace (Z.of_nat (length xs) >=? cap) with (Z.of_nat (length xs) =? cap).
    2:{ rewrite Z.geb_leb. destruct (Z.eqb_spec (Z.of_nat (length xs)) cap);
        destruct (Z.leb_spec cap (Z.of_nat (length xs))); lia. }
    eexists; split; [reflexivity|]. repeat split; eauto.
Qed.

Lemma srun cap ops : 0 <= cap < 2 ^ 64 -> Forall sop_ok ops -> forall s xs,
  srep cap s xs -> smodel_run s ops = Ok (sspec_run cap xs ops).
Proof.
  intros HC. induction 1 as [|op ops HO HF IH]; intros s xs R; cbn [smodel_run sspec_run]; auto.
  destruct (sstep cap s xs op HC R HO) as (s' & -> & R'). cbn [bind].
  destruct (sspec_step cap xs op) as [xs' r]. cbn [fst snd] in *.
  rewrite (IH s' xs' R'). reflexivity.
Qed.

Theorem stack_history_lemma cap ops :
  0 <= cap < 2 ^ 64 -> Forall (@sop_ok A) ops ->
  smodel_run (stack_mk cap) ops = Ok (sspec_run cap [] ops).
Proof. intros. apply srun; auto. apply srep_mk; auto. Qed.
End Proofs.
