(** Deleting step by step removes what falls. *)
From Coq Require Import ZArith List Bool Lia Permutation.
From Verif Require Import Base Json HeapModel JsonMemModel JsonMemSpec JsonMemOps JsonShareModel JsonShareSpec.
Import ListNotations.
Open Scope nat_scope.

Definition uses (g : graph) : list nat := flat_map (fun p => kids (snd p)) g.
Lemma places_occ g x : places g x = occ x (uses g).
Proof. reflexivity. Qed.
Lemma uses_app g1 g2 : uses (g1 ++ g2) = uses g1 ++ uses g2.
Proof. apply flat_map_app. Qed.
Lemma places_mid g1 a n g2 x : places (g1 ++ (a, n) :: g2) x = places (g1 ++ g2) x + occ x (kids n).
Proof. rewrite !places_occ, !uses_app. cbn [uses flat_map snd]. rewrite !occ_app. unfold uses. lia. Qed.
Lemma places_pos g x : 0 < places g x <-> exists y n, In (y, n) g /\ In x (kids n).
Proof.
  rewrite places_occ, <- occ_in. unfold uses. rewrite in_flat_map. split.
  - intros ((y & n) & I & J). eauto.
  - intros (y & n & I & J). exists (y, n). auto.
Qed.

(** [p]: the pointers still to be given back *)
Inductive dsteps : graph * list nat -> graph * list nat -> Prop :=
| ds_done g p p' : (forall y, occ y p = occ y p') -> dsteps (g, p) (g, p')
| ds_dec g x p p' s : (forall y, occ y p = occ y (x :: p')) -> 0 < places g x + occ x p' -> dsteps (g, p') s -> dsteps (g, p) s
| ds_free g1 x n g2 p p' s : (forall y, occ y p = occ y (x :: p')) -> places (g1 ++ (x, n) :: g2) x + occ x p' = 0 ->
    dsteps (g1 ++ g2, kids n ++ p') s -> dsteps (g1 ++ (x, n) :: g2, p) s.
Lemma dsteps_start g p p1 s : (forall y, occ y p = occ y p1) -> dsteps (g, p1) s -> dsteps (g, p) s.
Proof.
  intros E H. inversion H as [? ? ? F|? ? ? ? ? F|? ? ? ? ? ? ? F]; subst.
  - apply ds_done. intros y. rewrite E. auto.
  - eapply ds_dec; [|eassumption|eassumption]. intros y. rewrite E. auto.
  - eapply ds_free; [|eassumption|eassumption]. intros y. rewrite E. auto.
Qed.
Lemma dsteps_trans s1 s2 s3 : dsteps s1 s2 -> dsteps s2 s3 -> dsteps s1 s3.
Proof.
  induction 1 as [g p p' E|g x p p' s E P _ IH|g1 x n g2 p p' s E P _ IH]; intros H.
  - eapply dsteps_start; eauto.
  - eapply ds_dec; eauto.
  - eapply ds_free; eauto.
Qed.

Section Falls.
Variables (g0 : graph) (a : nat).
Hypothesis ND : NoDup (map fst g0).

Record dinv (s : graph * list nat) (D : list nat) : Prop := {
  dv_g : fst s = gone_from D g0;
  dv_a : In a D;
  dv_f : forall x, In x D -> falls g0 a x;
  dv_p : forall x, In x (snd s) -> exists y m, In (y, m) g0 /\ In x (kids m) /\ In y D;
  dv_c : forall x, In x (map fst (fst s)) -> places (fst s) x + occ x (snd s) = 0 -> places g0 x = 0
}.
Lemma gone_in D g p : In p (gone_from D g) <-> In p g /\ ~ In (fst p) D.
Proof.
  unfold gone_from. rewrite filter_In, negb_true_iff. split; intros (A & B); (split; [auto|]).
  - intros I. assert (X : existsb (Nat.eqb (fst p)) D = true) by (apply existsb_exists; exists (fst p); split; [auto|apply Nat.eqb_refl]). congruence.
  - destruct (existsb (Nat.eqb (fst p)) D) eqn:E; auto. apply existsb_exists in E as (x & I & E). apply Nat.eqb_eq in E. subst. contradiction.
Qed.
Lemma gone_ids D g : incl (map fst (gone_from D g)) (map fst g).
Proof. intros x I. apply in_map_iff in I as (p & <- & I). apply gone_in in I as (I & _). apply in_map. auto. Qed.
Lemma filter_nodup {A B} (f : A -> B) q l : NoDup (map f l) -> NoDup (map f (filter q l)).
Proof.
  induction l as [|x l IH]; cbn [map filter]; intros N; [constructor|]. inversion N as [|? ? NI N']; subst. destruct (q x); cbn [map]; auto.
  constructor; auto. intros I. apply NI. apply in_map_iff in I as (y & E & I). apply filter_In in I as (I & _). rewrite <- E. apply in_map. auto.
Qed.
Lemma gone_nodup D g : NoDup (map fst g) -> NoDup (map fst (gone_from D g)).
Proof. apply filter_nodup. Qed.
Lemma filter_one : forall g1 x (n : gnode) g2, NoDup (map fst (g1 ++ (x, n) :: g2)) -> filter (fun p => negb (fst p =? x)) (g1 ++ (x, n) :: g2) = g1 ++ g2.
Proof.
  intros g1 x n g2 N. assert (K : forall g, ~ In x (map fst g) -> filter (fun p : nat * gnode => negb (fst p =? x)) g = g).
  { induction g as [|(y & m) g IH]; cbn [map filter fst]; intros NI; auto. destruct (Nat.eqb_spec y x) as [->|]; [destruct NI; left; auto|]. cbn [negb]. rewrite IH; auto. intros I. apply NI. right. auto. }
  rewrite map_app in N. cbn [map fst] in N. apply NoDup_remove_2 in N. rewrite in_app_iff in N. rewrite filter_app. cbn [filter fst]. rewrite Nat.eqb_refl. cbn [negb]. rewrite !K by tauto. auto.
Qed.
Lemma gone_cons D x g : gone_from (x :: D) g = filter (fun p => negb (fst p =? x)) (gone_from D g).
Proof.
  unfold gone_from. induction g as [|p g IH]; [reflexivity|]. cbn [filter]. rewrite IH. cbn [existsb].
  destruct (fst p =? x) eqn:E1, (existsb (Nat.eqb (fst p)) D) eqn:E2; cbn [negb orb filter]; rewrite ?E1; cbn [negb]; auto.
Qed.

Lemma dsteps_inv s s' : dsteps s s' -> forall D, dinv s D -> exists D', dinv s' D'.
Proof.
  induction 1 as [g p p' E|g x p p' s E P _ IH|g1 x n g2 p p' s E P _ IH]; intros D [A1 A2 A3 A4 A5]; cbn [fst snd] in *.
  - exists D. constructor; cbn [fst snd]; auto.
    + intros x I. apply A4. rewrite occ_in in *. rewrite E. auto.
    + intros x I Z. apply A5; auto. rewrite E. auto.
  - apply (IH D). constructor; cbn [fst snd]; auto.
    + intros y I. apply A4. rewrite occ_in in *. rewrite E, occ_cons. lia.
    + intros y I Z. destruct (Nat.eq_dec y x) as [->|NE]; [lia|]. apply A5; auto. rewrite E, occ_cons. assert (y =? x = false) as -> by (apply Nat.eqb_neq; auto). cbn [Nat.b2n]. lia.
  - assert (NDg : NoDup (map fst (g1 ++ (x, n) :: g2))) by (rewrite A1; apply gone_nodup; auto).
    assert (IX : In (x, n) g0 /\ ~ In x D). { apply (gone_in D g0 (x, n)). rewrite <- A1. apply in_app_iff. right. left. auto. }
    apply (IH (x :: D)). constructor; cbn [fst snd].
    + rewrite gone_cons, <- A1. symmetry. apply filter_one. auto.
    + right. auto.
    + intros y [<-|I]; [|auto]. apply falls_held.
      * apply in_map_iff. exists (x, n). split; [auto|apply IX].
      * destruct (A4 x) as (y & m & B1 & B2 & B3); [rewrite occ_in, E, occ_cons, Nat.eqb_refl; cbn; lia|]. eauto.
      * intros y m I J. destruct (in_dec Nat.eq_dec y D) as [ID|ND']; [auto|]. exfalso. assert (Q : 0 < places (g1 ++ (x, n) :: g2) x); [|lia].
        apply places_pos. exists y, m. split; [|auto]. rewrite A1. apply gone_in. auto.
    + intros y I. apply in_app_iff in I as [I|I].
      * exists x, n. split; [apply IX|]. split; [auto|left; auto].
      * destruct (A4 y) as (z & m & B1 & B2 & B3); [rewrite occ_in in *; rewrite E, occ_cons; lia|]. exists z, m. split; [auto|]. split; [auto|right; auto].
    + intros y I Z. assert (NE : y <> x).
      { intros ->. rewrite map_app in NDg. cbn [map fst] in NDg. apply NoDup_remove_2 in NDg. rewrite map_app in I. auto. }
      apply A5. { rewrite map_app in *. cbn [map fst]. apply in_app_iff. apply in_app_iff in I as [I|I]; [auto|right; right; auto]. }
      rewrite places_mid, E, occ_cons. rewrite occ_app in Z. assert (y =? x = false) as -> by (apply Nat.eqb_neq; auto). cbn [Nat.b2n].
      unfold addr in *. lia.
Qed.

Theorem dsteps_falls g1 n g2 g' : g0 = g1 ++ (a, n) :: g2 -> places g0 a = 0 -> dsteps (g1 ++ g2, kids n) (g', []) ->
  forall D, (forall x, In x D <-> falls g0 a x) -> g' = gone_from D g0.
Proof.
  intros E0 PA DS D HD. destruct (dsteps_inv _ _ DS [a]) as (D' & [A1 A2 A3 A4 A5]).
  { constructor; cbn [fst snd].
    - rewrite gone_cons. symmetry. rewrite E0. assert (X : gone_from [] (g1 ++ (a, n) :: g2) = g1 ++ (a, n) :: g2).
      { unfold gone_from. cbn [existsb negb]. clear. induction (g1 ++ (a, n) :: g2) as [|p l IH]; cbn [filter]; [auto|]. rewrite IH. auto. }
      rewrite X. apply filter_one. rewrite <- E0. auto.
    - left. auto.
    - intros x [<-|[]]. constructor.
    - intros x I. exists a, n. split; [rewrite E0; apply in_app_iff; right; left; auto|]. split; [auto|left; auto].
    - intros x I Z. rewrite E0, places_mid. lia. }
  cbn [fst snd] in *. rewrite A1. unfold gone_from. apply filter_ext_in. intros (x & m) I. cbn [fst]. f_equal.
  assert (Q : In x D' <-> In x D).
  { rewrite HD. split; [auto|]. intros F.
    assert (G : forall y, falls g0 a y -> In y (map fst g0) -> In y D').
    { induction 1 as [|y IY (z & k & Z1 & Z2) FA IH]; intros _; [auto|]. destruct (in_dec Nat.eq_dec y D') as [|NI]; [auto|]. exfalso.
      assert (Y : In y (map fst g')). { rewrite A1. apply in_map_iff in IY as ((y' & k') & <- & IY). apply in_map. apply gone_in. auto. }
      assert (P0 : places g0 y = 0).
      { apply A5; auto. rewrite occ_nil. destruct (places g' y) eqn:EP; [auto|]. exfalso. assert (X : 0 < places g' y) by lia. apply places_pos in X as (w & k2 & W1 & W2).
        rewrite A1 in W1. apply gone_in in W1 as (W1 & W3). apply W3. apply (IH w k2); auto. cbn [fst]. apply in_map_iff. exists (w, k2). auto. }
      assert (0 < places g0 y) by (apply places_pos; eauto). lia. }
    apply G; auto. apply in_map_iff. exists (x, m). auto. }
  destruct (existsb (Nat.eqb x) D') eqn:E1, (existsb (Nat.eqb x) D) eqn:E2; auto; exfalso.
  - apply existsb_exists in E1 as (y & I1 & E1). apply Nat.eqb_eq in E1. subst y. apply Q in I1. assert (existsb (Nat.eqb x) D = true) by (apply existsb_exists; exists x; split; [auto|apply Nat.eqb_refl]). congruence.
  - apply existsb_exists in E2 as (y & I2 & E2). apply Nat.eqb_eq in E2. subst y. apply Q in I2. assert (existsb (Nat.eqb x) D' = true) by (apply existsb_exists; exists x; split; [auto|apply Nat.eqb_refl]). congruence.
Qed.
End Falls.
