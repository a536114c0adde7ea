(** Consequences of the set refinement in terms of histories. *)
From Coq Require Import ZArith List Bool Lia Sorting.Permutation.
From Verif Require Import Base TsearchModel TsearchProofs SetModel SetProofs.
Import ListNotations.
Open Scope Z_scope.
Local Arguments Z.add : simpl never.
Local Arguments Z.of_nat : simpl never.

Section Proofs.
Context {E : Type}.
Variable cmp : E -> E -> Z.
Variable eqb : E -> E -> bool.
Context (TC : total_cmp cmp).
Context (EQ : forall x y, eqb x y = true <-> x = y).
Local Notation run := (model_run cmp eqb (set_mk E)).
Local Notation contents ops := (fst (ideal_run cmp [] ops)).

Lemma set_history_membership ops :
  Forall membership_op ops -> Z.of_nat (length ops) <= 2 ^ 64 ->
  exists s, run ops = Ok (s, snd (ideal_run cmp [] ops)).
Proof.
  intros F HB. destruct (run_membership cmp eqb TC EQ ops F (set_mk E) [] 0 (rep_mk cmp)) as (s & x & -> & _); eauto.
Qed.

Lemma set_history_no_readd ops :
  no_readd cmp [] ops -> Z.of_nat (length ops) <= 2 ^ 64 ->
  exists s, run ops = Ok (s, snd (ideal_run cmp [] ops)).
Proof.
  intros F HB. destruct (run_no_readd cmp eqb TC EQ ops (set_mk E) [] (rep_mk cmp)) as (s & -> & _); eauto.
Qed.

Lemma set_history_counted ops : Z.of_nat (length ops) <= 2 ^ 64 ->
  exists s, run ops = Ok (s, counted_run cmp [] 0 (fun v => existsb (eqb v)) ops)
    /\ Permutation (fst (set_clear E s)) (contents ops).
Proof.
  intros HB. destruct (run_counted cmp eqb TC EQ ops (set_mk E) [] 0 (rep_mk cmp)) as (s & x & R & P); [exact HB|].
  exists s. split; [exact R|]. eapply clear_rep; eauto.
Qed.

(** Arbitrary histories keep the representation. *)
Lemma run_rep ops : forall s xs extra,
  rep cmp s xs extra -> Z.of_nat (length xs + length ops) <= 2 ^ 64 ->
  exists s' rs extra', model_run cmp eqb s ops = Ok (s', rs)
    /\ rep cmp s' (fst (ideal_run cmp xs ops)) extra'.
Proof.
  induction ops as [|op ops IH]; intros s xs extra R HB; cbn [model_run ideal_run].
  - exists s, [], extra. auto.
  - cbn [length] in HB.
    destruct (step_rep cmp eqb TC EQ s xs extra op R) as (s1 & -> & R1); [lia|]. cbn [bind].
    pose proof (step_length cmp xs op).
    destruct (IH s1 _ _ R1) as (s2 & rs & x2 & -> & R2); [lia|]. cbn [bind].
    destruct (ideal_step cmp xs op) as [xs' r]. cbn [fst] in *.
    destruct (ideal_run cmp xs' ops). cbn [fst] in *. eauto 10.
Qed.

Lemma set_history ops : Z.of_nat (length ops) <= 2 ^ 64 ->
  exists s rs extra, run ops = Ok (s, rs) /\ rep cmp s (contents ops) extra.
Proof. intros HB. eapply run_rep; eauto. apply rep_mk. Qed.

Lemma contents_length ops : forall xs : list E,
  (length (fst (ideal_run cmp xs ops)) <= length xs + length ops)%nat.
Proof.
  induction ops as [|o ops IH]; intros l; cbn [ideal_run fst length]; [lia|].
  pose proof (step_length cmp l o). destruct (ideal_step cmp l o) as [l' r]. cbn [fst] in *.
  specialize (IH l'). destruct (ideal_run cmp l' ops). cbn [fst] in *. lia.
Qed.

Lemma set_walk_history ops : Z.of_nat (length ops) <= 2 ^ 64 ->
  exists s rs, run ops = Ok (s, rs)
    /\ Permutation (set_values E s) (contents ops)
    /\ forall S (f : S -> E -> S) c,
         set_iterate E (Some s) (fun c e => Ok (f c e)) c = Ok (fold_left f (set_values E s) c).
Proof.
  intros HB. destruct (set_history ops HB) as (s & rs & x & E1 & R).
  exists s, rs. split; auto. split; [eapply values_rep; eauto|]. intros. apply iterate_values.
Qed.

Lemma set_find_rep s xs extra k : rep cmp s xs extra ->
  set_find E cmp (Some s) k = Ok (find (same cmp k) xs).
Proof. intros R. cbn. f_equal. eapply tfind_rep; eauto. Qed.

Lemma find_same_perm xs ys k : uniq cmp xs -> Permutation xs ys ->
  find (same cmp k) xs = find (same cmp k) ys.
Proof.
  intros U P. pose proof (uniq_perm cmp _ _ P U) as U'.
  destruct (find (same cmp k) ys) as [e|] eqn:F.
  - apply find_some in F as [F1 F2]. apply (find_some_uniq cmp TC); auto.
    + eapply Permutation_in; [symmetry|]; eauto.
    + unfold same in F2. apply Z.eqb_eq; auto.
  - apply find_none_all. intros e He C.
    assert (He' : In e ys) by (eapply Permutation_in; eauto).
    apply (find_none _ _ F) in He'. unfold same in He'. apply Z.eqb_neq in He'. auto.
Qed.

Lemma set_clone_history ops : Z.of_nat (length ops) <= 2 ^ 64 ->
  exists s rs c, run ops = Ok (s, rs) /\ set_clone E eqb cmp s = Ok c
    /\ (forall k, set_find E cmp (Some c) k = set_find E cmp (Some s) k)
    /\ set_size E (Some c) = Ok (Z.of_nat (length (contents ops)))
    /\ Permutation (set_values E c) (set_values E s).
Proof.
  intros HB. destruct (set_history ops HB) as (s & rs & x & E1 & R).
  pose proof (contents_length ops []) as L. cbn [length] in L.
  destruct (clone_rep cmp eqb TC EQ s _ x R) as (c & E2 & R2 & P); [lia|].
  exists s, rs, c. split; auto. split; auto. repeat split.
  - intros k. rewrite (set_find_rep s _ x k R), (set_find_rep c _ 0 k R2). f_equal.
    apply find_same_perm; auto. eapply rep_uniq; eauto.
  - destruct R2 as (_ & _ & _ & SZ). cbn. rewrite SZ, (Permutation_length P). f_equal. lia.
  - eapply values_rep; eauto.
Qed.

Lemma set_union_history ops1 ops2 : Z.of_nat (length ops1 + length ops2) <= 2 ^ 64 ->
  exists s1 r1 s2 r2 s, run ops1 = Ok (s1, r1) /\ run ops2 = Ok (s2, r2)
    /\ set_union E eqb cmp true s1 s2 = Ok s
    /\ forall k, (exists e, set_find E cmp (Some s) k = Ok (Some e)) <->
                 (exists e, set_find E cmp (Some s1) k = Ok (Some e)) \/
                 (exists e, set_find E cmp (Some s2) k = Ok (Some e)).
Proof.
  intros HB.
  destruct (set_history ops1) as (s1 & r1 & x1 & E1 & R1); [lia|].
  destruct (set_history ops2) as (s2 & r2 & x2 & E2 & R2); [lia|].
  pose proof (contents_length ops1 []) as L1. pose proof (contents_length ops2 []) as L2.
  cbn [length] in L1, L2.
  destruct (union_rep cmp eqb TC EQ s1 s2 _ _ x1 x2 R1 R2) as (s & xs & x & E3 & R3 & H1 & H2 & H3); [lia|].
  exists s1, r1, s2, r2, s. split; auto. split; auto. split; auto. intros k.
  rewrite (set_find_rep s _ x k R3), (set_find_rep s1 _ x1 k R1), (set_find_rep s2 _ x2 k R2).
  assert (FF : forall zs, (exists e, Ok (find (same cmp k) zs) = Ok (Some e)) <-> exists e, In e zs /\ cmp k e = 0).
  { intros zs. split.
    - intros (e & X). injection X as X. apply find_some in X as [X1 X2]. exists e. split; auto.
      unfold same in X2. apply Z.eqb_eq; auto.
    - intros (e & Hin & C). destruct (find (same cmp k) zs) as [e'|] eqn:F; [eauto|].
      apply (find_none _ _ F) in Hin. unfold same in Hin. apply Z.eqb_neq in Hin. tauto. }
  rewrite !FF, H1. split.
  - intros (e & [X|X] & C); [left|right]; eauto.
  - intros [(e & X & C)|(e & X & C)]; eauto.
Qed.

(** * The size of a union *)
Lemma add_all_exact vs : forall s xs extra, rep cmp s xs extra -> Z.of_nat (length xs + length vs) <= 2 ^ 64 -> uniq cmp vs ->
  exists s', add_all E eqb cmp s vs = Ok s' /\
    rep cmp s' (xs ++ filter (fun v => negb (existsb (same cmp v) xs)) vs) (extra + Z.of_nat (length (filter (fun v => existsb (eqb v) xs) vs))).
Proof.
  induction vs as [|v vs IH]; intros s xs extra R HB U; cbn [add_all filter].
  - exists s. rewrite app_nil_r. cbn [length]. split; [reflexivity|]. replace (extra + Z.of_nat 0) with extra by lia. exact R.
  - cbn [length] in HB. destruct U as [ND UU].
    assert (U0 : forall w, In w vs -> cmp v w <> 0).
    { intros w Hw C. inversion ND as [|? ? Nin _]; subst. apply Nin. rewrite (UU v w); simpl; auto. }
    destruct (add_rep cmp eqb TC EQ s xs extra v R) as (s1 & -> & R1); [lia|]. cbn [bind].
    pose proof (step_length cmp xs (EAdd v)) as SL. cbn [ideal_step fst] in *. pose proof (rep_uniq cmp TC _ _ _ R) as Ux.
    destruct (IH s1 _ _ R1) as (s2 & A2 & R2); [lia|split; [inversion ND; auto|intros x y Hx Hy; apply UU; simpl; auto]|]. exists s2. split; [exact A2|].
    assert (Sm : forall w, In w vs -> existsb (same cmp w) [v] = false).
    { intros w Hw. cbn [existsb]. unfold same. rewrite orb_false_r. apply Z.eqb_neq. intros C. apply (U0 w Hw). apply (cmp_flip_eq cmp TC). exact C. }
    assert (Eq : forall w, In w vs -> existsb (eqb w) [v] = false).
    { intros w Hw. cbn [existsb]. rewrite orb_false_r. destruct (eqb w v) eqn:X; [|reflexivity]. apply EQ in X. subst w. exfalso. apply (U0 v Hw). apply (cmp_refl cmp TC). }
    unfold next_extra in R2. rewrite existsb_same_find in R2. rewrite existsb_same_find.
    destruct (find (same cmp v) xs) as [e|] eqn:F; cbn [negb].
    + assert (X : existsb (eqb v) xs = eqb e v).
      { destruct (eqb e v) eqn:Q.
        - apply EQ in Q. subst e. apply find_some in F as [F _]. apply existsb_exists. exists v. split; [exact F|apply EQ; reflexivity].
        - destruct (existsb (eqb v) xs) eqn:Y; [|reflexivity]. apply existsb_exists in Y as (y & Hy & Q'). apply EQ in Q'. subst y.
          rewrite (find_some_uniq cmp TC xs v v Ux Hy (cmp_refl cmp TC v)) in F. injection F as <-. assert (eqb v v = true) by (apply EQ; reflexivity). congruence. }
      rewrite X. destruct (eqb e v); cbn [length]; [|exact R2]. replace (extra + Z.of_nat (S _)) with (extra + 1 + Z.of_nat (length (filter (fun v => existsb (eqb v) xs) vs))) by lia. exact R2.
    + assert (X : existsb (eqb v) xs = false).
      { destruct (existsb (eqb v) xs) eqn:Y; [|reflexivity]. apply existsb_exists in Y as (y & Hy & Q'). apply EQ in Q'. subst y.
        rewrite (find_some_uniq cmp TC xs v v Ux Hy (cmp_refl cmp TC v)) in F. discriminate. }
      rewrite X. rewrite <- app_assoc in R2. cbn [app] in R2.
      rewrite (filter_ext_in (fun w => negb (existsb (same cmp w) (xs ++ [v]))) (fun w => negb (existsb (same cmp w) xs))) in R2
        by (intros w Hw; rewrite existsb_app, (Sm w Hw), orb_false_r; reflexivity).
      rewrite (filter_ext_in (fun w => existsb (eqb w) (xs ++ [v])) (fun w => existsb (eqb w) xs)) in R2
        by (intros w Hw; rewrite existsb_app, (Eq w Hw), orb_false_r; reflexivity).
      exact R2.
Qed.
Lemma existsb_perm (f : E -> bool) xs ys : Permutation xs ys -> existsb f xs = existsb f ys.
Proof.
  intros P. apply eq_true_iff_eq. rewrite !existsb_exists. split; intros (x & H & F); exists x; (split; [|exact F]); [apply (Permutation_in x P H)|apply (Permutation_in x (Permutation_sym P) H)].
Qed.
Lemma filter_perm (f g : E -> bool) xs ys : (forall x, f x = g x) -> Permutation xs ys -> Permutation (filter f xs) (filter g ys).
Proof.
  intros Q P. induction P as [|x xs ys P IH|x y xs|xs ys zs P1 IH1 P2 IH2]; cbn [filter].
  - constructor.
  - rewrite Q. destruct (g x); [constructor|]; exact IH.
  - rewrite !Q. rewrite (filter_ext f g Q). destruct (g y), (g x); try constructor; reflexivity.
  - etransitivity; [exact IH1|]. rewrite <- (filter_ext f g Q). etransitivity; [|exact IH2]. rewrite (filter_ext f g Q). reflexivity.
Qed.
Lemma set_union_exact ops1 ops2 : Z.of_nat (length ops1 + length ops2) <= 2 ^ 64 ->
  let xs := contents ops1 in let ys := contents ops2 in
  let new := filter (fun y => negb (existsb (fun x => cmp y x =? 0) xs)) ys in
  let again := filter (fun y => existsb (eqb y) xs) ys in
  exists s1 r1 s2 r2 s, run ops1 = Ok (s1, r1) /\ run ops2 = Ok (s2, r2) /\ set_union E eqb cmp true s1 s2 = Ok s /\
    Permutation (set_values E s) (xs ++ new) /\ set_size E (Some s) = Ok (Z.of_nat (length (xs ++ new) + length again)).
Proof.
  intros HB xs ys new again.
  destruct (set_history ops1) as (s1 & r1 & x1 & E1 & R1); [lia|].
  destruct (set_history ops2) as (s2 & r2 & x2 & E2 & R2); [lia|].
  pose proof (contents_length ops1 []) as L1. pose proof (contents_length ops2 []) as L2. cbn [length] in L1, L2.
  pose proof (values_rep cmp _ _ _ R1) as P1. pose proof (values_rep cmp _ _ _ R2) as P2.
  pose proof (uniq_perm cmp _ _ (Permutation_sym P1) (rep_uniq cmp TC _ _ _ R1)) as U1.
  pose proof (uniq_perm cmp _ _ (Permutation_sym P2) (rep_uniq cmp TC _ _ _ R2)) as U2.
  pose proof (Permutation_length P1). pose proof (Permutation_length P2).
  destruct (add_all_exact (set_values E s1) (set_mk E) [] 0 (rep_mk cmp)) as (t & A1 & T1); [cbn [length]; lia|exact U1|].
  cbn [app] in T1. rewrite (filter_ext_in _ (fun _ => true)) in T1 by reflexivity.
  replace (filter (fun _ => true) (set_values E s1)) with (set_values E s1) in T1 by (clear; induction (set_values E s1) as [|a l IH]; cbn [filter]; congruence).
  replace (filter (fun v => existsb (eqb v) []) (set_values E s1)) with (@nil E) in T1 by (clear; induction (set_values E s1) as [|a l IH]; cbn [filter existsb]; auto).
  destruct (add_all_exact (set_values E s2) t _ _ T1) as (u & A2 & T2); [lia|exact U2|].
  exists s1, r1, s2, r2, u. split; [exact E1|]. split; [exact E2|]. split; [unfold set_union; rewrite A1; exact A2|].
  assert (Pn : Permutation (filter (fun v => negb (existsb (same cmp v) (set_values E s1))) (set_values E s2)) new).
  { unfold new. apply filter_perm; [|exact P2]. intros x. f_equal. apply existsb_perm. exact P1. }
  assert (Pa : Permutation (filter (fun v => existsb (eqb v) (set_values E s1)) (set_values E s2)) again).
  { unfold again. apply filter_perm; [|exact P2]. intros x. apply existsb_perm. exact P1. }
  split.
  - etransitivity; [exact (values_rep cmp _ _ _ T2)|]. apply Permutation_app; auto.
  - destruct T2 as (_ & _ & _ & SZ). cbn [set_size]. rewrite SZ, !app_length, (Permutation_length Pn), (Permutation_length Pa), (Permutation_length P1). cbn [length]. f_equal. fold xs. lia.
Qed.
End Proofs.
