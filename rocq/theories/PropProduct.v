(** C50: products give back their components. *)
From Coq Require Import ZArith List Bool Lia.
From Verif Require Import Base HeapModel HeapChainProofs HeapHistory HeapRcHistory HeapRcOps PropHeapChain PropHeapRc ProductModel.
Import ListNotations.
Open Scope nat_scope.
Open Scope outcome_scope.

(** What may be a component: under the two policies that touch the object, an
    object of the library; otherwise any pointer. *)
Definition usable (h : heap) (p : policy) (v : val) : Prop :=
  match p with NOOP => True | _ => exists a, v = VPtr a /\ live h a end.
(** The components of the product at [a] are [vs]. *)
Definition components (h : heap) (a : addr) (vs : list val) : Prop :=
  forall i v, nth_error vs i = Some v -> component h a i = Ok v.

Lemma incrs_ok : forall fs h, Forall (fun f => usable h (fst f) (snd f)) fs ->
  exists h', foldm (fun h pv => incr_indegree h (fst pv) (snd pv)) h fs = Ok h' /\
   forall y, option_map b_body (h_mem h' y) = option_map b_body (h_mem h y).
Proof.
  induction fs as [|(p, v) fs IH]; intros h F; [exists h; auto|].
  inversion F as [|? ? U F2]; subst. cbn [fst snd] in U. cbn [foldm fst snd].
  assert (ST : exists h1, incr_indegree h p v = Ok h1 /\ forall y, option_map b_body (h_mem h1 y) = option_map b_body (h_mem h y)).
  { assert (MO : forall a f, live h a -> (forall b, b_body (f b) = b_body b) -> exists h1, modify h a f = Ok h1 /\
        forall y, option_map b_body (h_mem h1 y) = option_map b_body (h_mem h y)).
    { intros a f (b & G) K. unfold modify, get. rewrite G. cbn. eexists. split; eauto. intros y. cbn.
      destruct (Nat.eqb_spec y a) as [->|]; auto. rewrite G. cbn. f_equal. auto. }
    destruct p; cbn [usable] in U; cbn [incr_indegree]; [| |eauto].
    - destruct U as (a & -> & L). cbn [target bind]. apply MO; auto. intros b. destruct (b_ret b); auto.
    - destruct U as (a & -> & L). cbn [target bind]. apply MO; auto. }
  destruct ST as (h1 & E & B1). rewrite E. cbn [bind]. destruct (IH h1) as (h' & E' & B').
  - revert F2. apply Forall_impl. intros (q, w). cbn. destruct q; auto; intros (a & -> & (b & G)); exists a; (split; [auto|]);
      specialize (B1 a); rewrite G in B1; unfold live; destruct (h_mem h1 a); eauto; discriminate.
  - exists h'. split; auto. intros y. congruence.
Qed.

Lemma prod_made n st h ps vs : reach n st h -> length ps = length vs -> Forall2 (usable h) ps vs ->
  exists h' a, mk_prod h st ps vs = Ok (h', a) /\ ~ live h a /\ components h' a vs.
Proof.
  intros R L U. apply reach_wf in R as (l & W). unfold mk_prod.
  assert (MK : exists h' a, mk_obj h st (KProd ps) vs M_IDENTITY = Ok (h', a) /\ h_mem h a = None /\
     option_map b_body (h_mem h' a) = Some (BObj (KProd ps) vs) /\ forall x, live h x -> live h' x).
  { unfold mk_obj. destruct (malloc h _) as (h1, a) eqn:E.
    destruct (malloc_wf _ _ _ _ _ _ W E) as (W1 & A & DA & Ma & OT & N & _); [reflexivity|].
    destruct (chain_wf h1 st l a W1) as (h2 & E2 & _ & BC & _); [discriminate|].
    rewrite E2. cbn [bind]. exists h2, a. split; [auto|]. split; [congruence|]. split.
    - specialize (BC a). rewrite Ma in BC. destruct (h_mem h2 a) as [b2|]; [|contradiction]. destruct BC as (_ & _ & _ & _ & BB). cbn in *.
      destruct (b_body b2); [contradiction || discriminate|]. congruence.
    - intros x (b & G). specialize (BC x). destruct (Nat.eq_dec x a) as [->|NE].
      + rewrite Ma in BC. unfold live. destruct (h_mem h2 a); [eauto|contradiction].
      + rewrite OT in BC by auto. rewrite G in BC. unfold live. destruct (h_mem h2 x); [eauto|contradiction]. }
  destruct MK as (h1 & a & E1 & D & B & LV). rewrite E1. cbn [bind].
  destruct (incrs_ok (combine ps vs) h1) as (h2 & E2 & B2).
  { clear - U LV. revert U. generalize vs. clear vs. induction ps as [|p ps IH]; intros vs U; inversion U; subst; cbn; constructor; auto.
    cbn. destruct p; cbn in *; auto; destruct H1 as (a & -> & X); eauto. }
  rewrite E2. cbn [bind]. exists h2, a. split; auto. split; [intros (b & G); congruence|].
  intros i v E. unfold component, get_obj, get. specialize (B2 a). rewrite B in B2.
  destruct (h_mem h2 a) as [b|]; [|discriminate]. cbn in B2. injection B2 as B2. cbn. rewrite B2. cbn. rewrite E. auto.
Qed.

Lemma va_args_exact vs : forall n, n <= length vs -> va_args n vs = Ok (firstn n vs).
Proof. induction vs as [|v vs IH]; intros [|n] L; cbn in *; auto; [lia|]. rewrite IH by lia. auto. Qed.

(** In every state of the heap a program can bring about, the constructors give
    a new object whose components are the arguments in order. *)
Theorem C50_components_partial : forall n st h p1 p2 p3 p4 v1 v2 v3 v4, reach n st h ->
  usable h p1 v1 -> usable h p2 v2 -> usable h p3 v3 -> usable h p4 v4 ->
  let gives r vs := exists h' a, r = Ok (h', a) /\ ~ live h a /\ components h' a vs in
  gives (tuple_mk_e h st p1 p2 v1 v2) [v1; v2] /\
  gives (triple_mk_e h st p1 p2 p3 v1 v2 v3) [v1; v2; v3] /\
  gives (quadruple_mk_e h st p1 p2 p3 p4 v1 v2 v3 v4) [v1; v2; v3; v4].
Proof.
  intros. split; [|split]; eapply prod_made; eauto.
Qed.

(** The same with the default policies *)
Theorem C50_default_partial : forall n st h v1 v2 v3, reach n st h ->
  usable h DEL_RC v1 -> usable h DEL_RC v2 -> usable h DEL_RC v3 ->
  let gives r vs := exists h' a, r = Ok (h', a) /\ ~ live h a /\ components h' a vs in
  gives (tuple_mk h st v1 v2) [v1; v2] /\ gives (triple_mk h st v1 v2 v3) [v1; v2; v3].
Proof. intros. split; eapply prod_made; eauto. Qed.

(** n-tuples: the first [k] of the arguments passed, for [k] up to 16; with more
    than 16, or with fewer arguments than announced, the call does not return. *)
Theorem C50_n_tuple_partial : forall n st h k args, reach n st h -> Forall (usable h DEL_RC) args ->
  (k <= 16 -> k <= length args -> exists h' a, n_tuple_mk h st k args = Ok (h', a) /\ ~ live h a /\ components h' a (firstn k args)) /\
  (16 < k -> n_tuple_mk h st k args = Bad Abort).
Proof.
  intros n st h k args R F. unfold n_tuple_mk, max_n_tuple. split.
  - intros L1 L2. destruct (Nat.ltb_spec 16 k); [lia|]. rewrite va_args_exact by auto. cbn [bind].
    eapply prod_made; eauto.
    + rewrite repeat_length, firstn_length. lia.
    + clear - F L2. revert args F L2. induction k as [|k IH]; intros [|x args] F L; cbn in *; try constructor; try lia.
      * inversion F; auto.
      * apply IH; [inversion F; auto|lia].
  - intros L. destruct (Nat.ltb_spec 16 k); [auto|lia].
Qed.

(** With the default policies a NULL component is counted like any other and the
    constructor crashes. *)
Theorem C50_null_refuted : exists h, reach 10 0 h /\ live h 5 /\
  tuple_mk h 0 (VPtr 5) VNull = Bad NullDeref /\ n_tuple_mk h 0 1 [VNull] = Bad NullDeref.
Proof.
  assert (X : exists h, reach 10 0 h /\ (match h_mem h 5 with Some _ => true | None => false end = true /\
    (match tuple_mk h 0 (VPtr 5) VNull with Bad NullDeref => true | _ => false end = true) /\
    (match n_tuple_mk h 0 1 [VNull] with Bad NullDeref => true | _ => false end = true))).
  { witness [HLeaf M_IDENTITY]. vm_compute. auto. }
  destruct X as (h & E & L & A & B). exists h. split; [auto|]. split; [unfold live; destruct (h_mem h 5); [eauto|discriminate]|].
  split; [destruct (tuple_mk _ _ _ _) as [|[]]; try discriminate; auto|].
  destruct (n_tuple_mk _ _ _ _) as [|[]]; try discriminate; auto.
Qed.

(** What every constructor does with the first component that is NULL or not an object of the library. *)
Definition unusable (p : policy) (v : val) (r : reason) : Prop :=
  p <> NOOP /\ (v = VNull /\ r = NullDeref \/ v = VForeign /\ r = BadPointer).
Lemma prod_fails n st h ps vs pre p v r post : reach n st h -> combine ps vs = pre ++ (p, v) :: post -> Forall (fun f => usable h (fst f) (snd f)) pre ->
  unusable p v r -> mk_prod h st ps vs = Bad r.
Proof.
  intros R E F (Np & X). apply reach_wf in R as (l & W). unfold mk_prod.
  assert (MK : exists h' a, mk_obj h st (KProd ps) vs M_IDENTITY = Ok (h', a) /\ forall x, live h x -> live h' x).
  { unfold mk_obj. destruct (malloc h _) as (h1, a) eqn:M.
    destruct (malloc_wf _ _ _ _ _ _ W M) as (W1 & A & DA & Ma & OT & N & _); [reflexivity|].
    destruct (chain_wf h1 st l a W1) as (h2 & E2 & _ & BC & _); [discriminate|].
    rewrite E2. cbn [bind]. exists h2, a. split; [auto|].
    intros x (b & G). specialize (BC x). destruct (Nat.eq_dec x a) as [->|NE].
    - rewrite Ma in BC. unfold live. destruct (h_mem h2 a); [eauto|contradiction].
    - rewrite OT in BC by auto. rewrite G in BC. unfold live. destruct (h_mem h2 x); [eauto|contradiction]. }
  destruct MK as (h1 & a & -> & LV). cbn [bind]. rewrite E. 
  assert (F1 : Forall (fun f => usable h1 (fst f) (snd f)) pre).
  { revert F. apply Forall_impl. intros (q, w). cbn. destruct q; auto; intros (b & -> & L); exists b; auto. }
  clear E F W LV. revert h1 F1. induction pre as [|(q, w) pre IH]; intros h1 F1.
  - cbn [app foldm fst snd]. destruct p; [| |congruence]; destruct X as [(-> & ->)|(-> & ->)]; reflexivity.
  - cbn [app foldm fst snd]. inversion F1 as [|? ? U F2]; subst. destruct (incrs_ok [(q, w)] h1) as (h2 & E2 & B2); [constructor; [exact U|constructor]|].
    cbn [foldm fst snd] in E2. destruct (incr_indegree h1 q w) as [h3|] eqn:I; [|discriminate]. cbn [bind] in *. injection E2 as ->. apply IH.
    revert F2. apply Forall_impl. intros (q', w'). cbn. destruct q'; auto; intros (b & -> & (bl & G)); exists b; (split; [auto|]);
      specialize (B2 b); rewrite G in B2; unfold live; destruct (h_mem h2 b); eauto; discriminate.
Qed.
Theorem C50_exact : forall n st h p1 p2 p3 p4 v1 v2 v3 v4 r, reach n st h ->
  (unusable p1 v1 r -> tuple_mk_e h st p1 p2 v1 v2 = Bad r /\ triple_mk_e h st p1 p2 p3 v1 v2 v3 = Bad r /\ quadruple_mk_e h st p1 p2 p3 p4 v1 v2 v3 v4 = Bad r) /\
  (usable h p1 v1 -> unusable p2 v2 r ->
     tuple_mk_e h st p1 p2 v1 v2 = Bad r /\ triple_mk_e h st p1 p2 p3 v1 v2 v3 = Bad r /\ quadruple_mk_e h st p1 p2 p3 p4 v1 v2 v3 v4 = Bad r) /\
  (usable h p1 v1 -> usable h p2 v2 -> unusable p3 v3 r -> triple_mk_e h st p1 p2 p3 v1 v2 v3 = Bad r /\ quadruple_mk_e h st p1 p2 p3 p4 v1 v2 v3 v4 = Bad r) /\
  (usable h p1 v1 -> usable h p2 v2 -> usable h p3 v3 -> unusable p4 v4 r -> quadruple_mk_e h st p1 p2 p3 p4 v1 v2 v3 v4 = Bad r) /\
  forall k args, k <= 16 -> (length args < k -> n_tuple_mk h st k args = Bad BadVaList) /\
    forall pre v post, k <= length args -> firstn k args = pre ++ v :: post -> Forall (usable h DEL_RC) pre -> unusable DEL_RC v r -> n_tuple_mk h st k args = Bad r.
Proof.
  intros n st h p1 p2 p3 p4 v1 v2 v3 v4 r R. split; [|split; [|split; [|split]]].
  - intros U. repeat split; (eapply (prod_fails n st h _ _ [] p1 v1); [exact R|reflexivity|constructor|exact U]).
  - intros U1 U. repeat split; (eapply (prod_fails n st h _ _ [(p1, v1)] p2 v2); [exact R|reflexivity|repeat constructor; auto|exact U]).
  - intros U1 U2 U. repeat split; (eapply (prod_fails n st h _ _ [(p1, v1); (p2, v2)] p3 v3); [exact R|reflexivity|repeat constructor; auto|exact U]).
  - intros U1 U2 U3 U. eapply (prod_fails n st h _ _ [(p1, v1); (p2, v2); (p3, v3)] p4 v4); [exact R|reflexivity|repeat constructor; auto|exact U].
  - intros k args L. unfold n_tuple_mk, max_n_tuple. destruct (Nat.ltb_spec 16 k); [lia|]. split.
    + intros Sh. assert (V : va_args k args = Bad BadVaList); [|rewrite V; reflexivity].
      clear L H R. revert args Sh. induction k as [|k IH]; intros [|x args] Sh; cbn [length] in Sh; try lia; [reflexivity|]. cbn [va_args]. rewrite IH by lia. reflexivity.
    + intros pre v post Le E F U. rewrite va_args_exact by auto. cbn [bind].
      assert (Lk : k = length pre + S (length post)) by (apply (f_equal (@length val)) in E; rewrite firstn_length, app_length in E; cbn [length] in E; lia).
      eapply (prod_fails n st h _ _ (map (pair DEL_RC) pre) DEL_RC v r (map (pair DEL_RC) post)); [exact R| | |exact U].
      * rewrite E, Lk. clear. induction pre as [|a pre IH]; cbn [length plus repeat app combine map].
        -- f_equal. induction post as [|b post IH]; cbn [length repeat combine map]; congruence.
        -- f_equal. exact IH.
      * clear - F. induction F; cbn [map]; constructor; auto.
Qed.
(** The second component of three is NULL; with the policy that does not touch it this is no problem. *)
Example C50_exact_example :
  match hstart 10 [HLeaf M_IDENTITY] with
  | Ok h => triple_mk_e h 0 DEL_RC DEL_RC DEL_RC (VPtr 5) VNull VForeign = Bad NullDeref /\
      n_tuple_mk h 0 2 [VPtr 5; VForeign] = Bad BadPointer /\ n_tuple_mk h 0 2 [VPtr 5] = Bad BadVaList /\
      exists h' a, tuple_mk_e h 0 DEL_RC NOOP (VPtr 5) VNull = Ok (h', a)
  | _ => False
  end.
Proof. vm_compute. repeat split. do 2 eexists. reflexivity. Qed.

Definition c50_prog : list hop := [HLeaf M_IDENTITY; HLeaf M_IDENTITY; HList DEL_RC].
Example C50_example :
  match hstart 10 c50_prog with
  | Ok h =>
    match n_tuple_mk h 0 3 [VPtr 6; VPtr 5; VPtr 6] with
    | Ok (h', a) => a = 8 /\ map (component h' a) [0; 1; 2] = [Ok (VPtr 6); Ok (VPtr 5); Ok (VPtr 6)] /\
        option_map b_rc (h_mem h' 6) = Some 2%Z
    | Bad _ => False
    end /\
    match triple_mk_e h 0 NOOP DEL DEL_RC VForeign (VPtr 7) (VPtr 5) with
    | Ok (h', a) => map (component h' a) [0; 1; 2; 3] = [Ok VForeign; Ok (VPtr 7); Ok (VPtr 5); Bad OutOfBounds]
    | Bad _ => False
    end /\
    n_tuple_mk h 0 17 (repeat (VPtr 5) 17) = Bad Abort
  | Bad _ => False
  end.
Proof. vm_compute. auto 10. Qed.

Print Assumptions C50_components_partial.
Print Assumptions C50_default_partial.
Print Assumptions C50_n_tuple_partial.
Print Assumptions C50_exact.
Print Assumptions C50_null_refuted.
