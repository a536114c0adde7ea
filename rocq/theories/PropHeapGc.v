(** Properties C22, C23 and C24: what a collection keeps, frees, and when it
    ends. *)
From Coq Require Import ZArith List Bool Lia Relations.
From Verif Require Import Base HeapModel HeapChainProofs HeapHistory HeapSweepProofs HeapGcProofs PropHeapChain.
Import ListNotations.
Open Scope nat_scope.
Open Scope outcome_scope.

(** * Vocabulary *)
(** every pointer kept in a block *)
Definition pointers (b : block) : list val :=
  match b_body b with BState _ r s c _ => [VPtr r; VPtr s; VPtr c] | BObj _ vs => vs end.
(** [x] is reachable from the state: it is one of its roots, stack or contexts,
    or kept in a reachable block. *)
Inductive reachable (h : heap) (st : addr) : addr -> Prop :=
| ra_state : reachable h st st
| ra_step : forall a b x, reachable h st a -> h_mem h a = Some b -> In (VPtr x) (pointers b) -> reachable h st x.

(** the same without what a closure refers to and without the list of its keys
    a map keeps *)
Definition elements (b : block) : list val :=
  match b_body b with
  | BState _ r s c _ => [VPtr r; VPtr s; VPtr c]
  | BObj KClosure _ => []
  | BObj KLeaf _ | BObj KStatic _ => []   (* strings, boxes, blocks, singletons: no pointers *)
  | BObj (KMap _ _) (_ :: entries) => entries
  | BObj _ vs => vs
  end.
Inductive held (h : heap) (st : addr) : addr -> Prop :=
| he_state : held h st st
| he_step : forall a b x, held h st a -> h_mem h a = Some b -> In (VPtr x) (elements b) -> held h st x.
Definition closure (b : block) : Prop := exists vs, b_body b = BObj KClosure vs.

(** same object, apart from its place in the chain and its mark *)
Definition unchanged (b b' : block) : Prop :=
  pointers b' = pointers b /\ elements b' = elements b /\ b_rc b' = b_rc b /\ b_ret b' = b_ret b /\
  (forall k vs, b_body b = BObj k vs -> b_body b' = BObj k vs).

Lemma same_obj_unchanged b b' : same_obj b b' -> unchanged b b'.
Proof.
  intros (A & B & C & D). unfold unchanged, pointers, elements. destruct (b_body b) as [|k vs], (b_body b') as [|k' vs']; try discriminate.
  - destruct D as (-> & -> & ->). split; [auto|]. split; [auto|]. split; [auto|]. split; [auto|discriminate].
  - injection D as -> ->. auto 10.
Qed.

Lemma elements_traced b v : In v (elements b) -> traced b = true /\ In v (mfields b).
Proof.
  unfold elements, traced, mfields, mark_fields. destruct (b_body b) as [|[] vs]; cbn; auto; try contradiction. destruct vs; auto.
Qed.
Lemma mfields_elements b v : In v (mfields b) -> traced b = true -> In v (elements b).
Proof.
  unfold elements, traced, mfields, mark_fields. destruct (b_body b) as [|[] vs]; cbn; auto; try contradiction. destruct vs; auto.
Qed.
Lemma not_closure_traced h x b : h_mem h x = Some b -> ~ static h x -> ~ closure b -> traced b = true.
Proof.
  intros G NS NC. unfold traced. destruct (b_body b) as [|[] vs] eqn:B; auto; exfalso.
  - apply NS. exists b, vs. auto.
  - apply NC. exists vs. auto.
Qed.
Lemma mreach_snoc h a x : mreach h a x -> forall b y c, h_mem h x = Some b -> In (VPtr y) (mfields b) -> h_mem h y = Some c -> traced c = true ->
  mreach h a y.
Proof.
  induction 1 as [a b0 G T|a b0 z x G T I M IH]; intros b y c GX IY GY TY.
  - rewrite G in GX. injection GX as <-. eapply mr_step; [exact G|exact T|exact IY|eapply mr_here; eauto].
  - eapply mr_step; [exact G|exact T|exact I|eapply IH; eauto].
Qed.
Lemma held_mreach h st : (exists b, h_mem h st = Some b /\ traced b = true) ->
  forall x b, held h st x -> h_mem h x = Some b -> traced b = true -> mreach h st x.
Proof.
  intros (sb & SG & ST) x b H. revert b. induction H as [|a b x H IH G I]; intros bx GX TX.
  - eapply mr_here; eauto.
  - apply elements_traced in I as (T & I). eapply mreach_snoc; eauto.
Qed.
Lemma mreach_held h st x : mreach h st x -> held h st x /\ exists b, h_mem h x = Some b /\ traced b = true.
Proof.
  assert (X : forall a x, mreach h a x -> held h st a -> held h st x /\ exists b, h_mem h x = Some b /\ traced b = true).
  { clear. induction 1 as [a b G T|a b y x G T I M IH]; intros H; [eauto|]. apply IH. eapply he_step; eauto. apply mfields_elements; auto. }
  intros M. apply (X st x M). constructor.
Qed.
Lemma state_traced h st t : shp h st = Some (SState t) -> exists b, h_mem h st = Some b /\ traced b = true.
Proof.
  unfold shp. destruct (h_mem h st) as [b|]; [|discriminate]. cbn. unfold shape_of, traced. destruct (b_body b) as [|[] ?] eqn:B; try discriminate.
  intros _. exists b. rewrite B. auto.
Qed.

(** * C22 *)
(** In every history, a collection that ends keeps, unchanged, every block held
    by the state, except closures.
    Missing for the full property
      [reachable h st x -> h_mem h x = Some b -> exists b', h_mem h' x = Some b' /\ unchanged b b']:
    closures, what they refer to, and the key lists of maps (C22_closure_refuted,
    C22_map_keys_refuted). *)
Theorem C22_partial : forall n st h fuel h', reach n st h -> gc fuel h st = Ok h' ->
  forall x b, held h st x -> h_mem h x = Some b -> ~ closure b -> exists b', h_mem h' x = Some b' /\ unchanged b b'.
Proof.
  intros n st h fuel h' R H x b HL G NC. apply reach_wf in R as (l & W).
  destruct (gc_keeps _ _ _ _ _ W H x b G) as (b' & G' & S).
  - destruct (shp h x) as [[| |]|] eqn:SX; auto; left; (eapply held_mreach; [eapply state_traced, (wc_state _ _ _ W)|eauto|eauto|]);
      (eapply not_closure_traced; eauto; rewrite static_shp, SX; discriminate).
  - exists b'. split; auto. apply same_obj_unchanged. auto.
Qed.

(** what stays is held afterwards too, so any number of collections keeps it *)
Theorem C22_again_partial : forall n st h fuel h', reach n st h -> gc fuel h st = Ok h' ->
  forall x, held h st x -> (forall b, h_mem h x = Some b -> ~ closure b) -> held h' st x.
Proof.
  intros n st h fuel h' R H x HL. induction HL as [|a b x HL IH G I]; intros NC; [constructor|].
  assert (NA : ~ closure b).
  { intros (vs & B). unfold elements in I. rewrite B in I. contradiction. }
  destruct (C22_partial _ _ _ _ _ R H a b HL G NA) as (b' & G' & U).
  eapply he_step; [apply IH; intros b0 G0; congruence|exact G'|].
  destruct U as (_ & E & _). rewrite E. exact I.
Qed.

(** A closure that is a root, and its environment, are freed. *)
Definition prog_closure : list hop := [HEnv NOOP NOOP VNull VNull; HClosure (VPtr 5); HRoot (VPtr 6) 0].
Theorem C22_closure_refuted : exists h h' fuel, reach 10 0 h /\ gc fuel h 0 = Ok h' /\
  (forall x, x = 5 \/ x = 6 -> reachable h 0 x /\ live h x /\ ~ live h' x).
Proof.
  destruct (hstart 10 prog_closure) as [h|] eqn:E; [|vm_compute in E; discriminate].
  destruct (gc 20 h 0) as [h'|] eqn:F; [|exfalso; vm_compute in E; injection E as <-; vm_compute in F; discriminate].
  exists h, h', 20. split; [eapply hstart_reach; eauto|]. split; [auto|].
  vm_compute in E. injection E as <-. vm_compute in F. injection F as <-.
  assert (R6 : reachable (heap_of (hstart 10 prog_closure)) 0 6).
  { eapply ra_step with (a := 1); [eapply ra_step with (a := 0); [constructor|vm_compute; reflexivity|vm_compute; auto]|vm_compute; reflexivity|vm_compute; auto]. }
  assert (R5 : reachable (heap_of (hstart 10 prog_closure)) 0 5).
  { eapply ra_step; [exact R6|vm_compute; reflexivity|vm_compute; auto]. }
  intros x [-> | ->]; (split; [first [exact R5|exact R6]|]); (split; [eexists; reflexivity|]); intros (b & B); discriminate.
Qed.

(** The first collection frees the key list of the contexts, which are in use;
    adding a context then writes to freed memory. *)
Theorem C22_map_keys_refuted : exists h h' fuel keq, reach 10 0 h /\ gc fuel h 0 = Ok h' /\
  reachable h 0 3 /\ live h 3 /\ ~ live h' 3 /\ hstep 0 h' (HContext keq fuel (VPtr 5) (VPtr 5) 0) = Bad UseAfterFree.
Proof.
  destruct (hstart 10 [HLeaf M_IDENTITY; HRoot (VPtr 5) 0]) as [h|] eqn:E; [|vm_compute in E; discriminate].
  destruct (gc 20 h 0) as [h'|] eqn:F; [|exfalso; vm_compute in E; injection E as <-; vm_compute in F; discriminate].
  exists h, h', 20, val_eqb. split; [eapply hstart_reach; eauto|]. split; [auto|].
  vm_compute in E. injection E as <-. vm_compute in F. injection F as <-. split; [|split; [|split]].
  - eapply ra_step with (a := 4); [eapply ra_step with (a := 0); [constructor|vm_compute; reflexivity|vm_compute; auto]|vm_compute; reflexivity|vm_compute; auto].
  - eexists. reflexivity.
  - intros (b & B). discriminate.
  - vm_compute. reflexivity.
Qed.

(** * C23 *)
(** [parity h st m]: the mark of the next collection; it starts at 1 and each
    collection toggles it. *)
Definition parity (h : heap) (st : addr) (m : Z) : Prop :=
  exists b t r s c, h_mem h st = Some b /\ b_body b = BState t r s c m.
Lemma parity_next h st m : parity h st m <-> next_mark h st = Some m.
Proof.
  unfold parity, next_mark. split.
  - intros (b & t & r & s & c & -> & ->). auto.
  - destruct (h_mem h st) as [b|]; [|discriminate]. destruct (b_body b) eqn:B; [|discriminate]. intros [= ->]. eauto 10.
Qed.

Lemma mreach_spec h st x : (exists b, h_mem h st = Some b /\ traced b = true) ->
  mreach h st x <-> held h st x /\ exists b, h_mem h x = Some b /\ ~ static h x /\ ~ closure b.
Proof.
  intros S. split.
  - intros M. apply mreach_held in M as (H & b & G & T). split; auto. exists b. split; auto. unfold traced in T. split.
    + intros (b' & vs & G' & B). rewrite G in G'. injection G' as <-. rewrite B in T. discriminate.
    + intros (vs & B). rewrite B in T. discriminate.
  - intros (H & b & G & NS & NC). eapply held_mreach; eauto. eapply not_closure_traced; eauto.
Qed.

(** When resizing is restricted to the newest block, every odd-numbered
    collection leaves exactly the static blocks and those held by the state
    (minus closures).
    Missing for the full property, which has no restriction on the parity:
    C23_refuted; and on resizing: C21_gc_after_resize_refuted. *)
Theorem C23_partial : forall n st h fuel h', reach_newest n st h -> parity h st 1 -> gc fuel h st = Ok h' ->
  forall x, live h' x <-> static h x \/ held h st x /\ exists b, h_mem h x = Some b /\ ~ closure b.
Proof.
  intros n st h fuel h' R P H x. destruct (reach_newest_wf _ _ _ R) as (l & W). destruct (reach_newest_marks _ _ _ R) as (nm & I & _).
  destruct (gc_exact _ _ _ _ _ W H) as (m & l' & NM & W' & LV & _ & MK & _). apply parity_next in P.
  assert (m = 1%Z) by congruence. subst m.
  assert (N1 : nm = 1%Z).
  { apply parity_next in P as (b & t & r & s & c & G & B). destruct (mi_state _ _ _ I b G) as (t' & r' & s' & c' & B'). congruence. }
  subst nm. rewrite live_some, LV, <- static_shp, mreach_spec by (eapply state_traced, (wc_state _ _ _ W)). split.
  - intros (L & [S|[(Q & b & G & NS & NC)|M]]); [auto|right; eauto|].
    exfalso. unfold has_mark in M. destruct (h_mem h x) as [b|] eqn:G; [|discriminate]. injection M as M.
    destruct (mi_marks _ _ _ I x b G) as [X|(X & _)]; congruence.
  - intros [S|(Q & b & G & NC)].
    + split; [|auto]. destruct S as (b & vs & -> & _). discriminate.
    + split; [congruence|]. destruct (shp h x) as [[| |]|] eqn:SX; try (left; apply static_shp; exact SX);
        right; left; (split; [auto|]); exists b; (split; [auto|]); (split; [rewrite static_shp, SX; discriminate|auto]).
Qed.

(** Two collections in a row always do. *)
Theorem C23_twice_partial : forall n st h f1 f2 h1 h2, reach_newest n st h -> gc f1 h st = Ok h1 -> gc f2 h1 st = Ok h2 ->
  forall x, live h2 x <-> static h x \/ held h st x /\ exists b, h_mem h x = Some b /\ ~ closure b.
Proof.
  intros n st h f1 f2 h1 h2 R H1 H2 x. destruct (reach_newest_wf _ _ _ R) as (l & W). pose proof (wf_weaken _ _ _ W) as Wf.
  destruct (reach_newest_marks _ _ _ R) as (nm & I & NMV).
  destruct (gc_exact _ _ _ _ _ W H1) as (m & l' & NM & W' & LV & NM' & MK & SB).
  destruct (gc_exact _ _ _ _ _ W' H2) as (m2 & l2 & NM2 & W2 & LV2 & _ & _ & _).
  assert (E2 : m2 = if (m =? 0)%Z then 1%Z else 0%Z) by congruence.
  assert (ST := state_traced _ _ _ (wc_state _ _ _ W)). assert (ST' := state_traced _ _ _ (wc_state _ _ _ W')).
  assert (STA : forall y, shp h1 y = Some SStatic <-> shp h y = Some SStatic).
  { intros y. split.
    - intros S. destruct (MK y) as [(X & _)|(_ & X & _)]; [|contradiction|auto]. unfold shp in S. destruct (h_mem h1 y); [discriminate|discriminate].
    - intros S. unfold shp in S. destruct (h_mem h y) as [b|] eqn:G; [|discriminate].
      destruct (gc_keeps _ _ _ _ _ Wf H1 y b G) as (b' & G' & _ & _ & _ & S'); [right; unfold shp; rewrite G; auto|].
      unfold shp. rewrite G'. cbn in *. injection S as S. unfold shape_of in *. destruct (b_body b) as [|k vs]; [discriminate|]. rewrite S'. congruence. }
  assert (FWD : forall y, mreach h st y -> mreach h1 st y).
  { assert (X : forall a y, mreach h a y -> mreach h st a -> mreach h1 a y).
    { assert (K : forall a b, h_mem h a = Some b -> mreach h st a -> exists b', h_mem h1 a = Some b' /\ traced b' = traced b /\ mfields b' = mfields b).
      { intros a b G M. destruct (gc_keeps _ _ _ _ _ Wf H1 a b G) as (b' & G' & _ & _ & _ & S); [auto|]. exists b'. split; [auto|].
        unfold traced, mfields. destruct (b_body b) as [|k vs], (b_body b') as [|k' vs']; try discriminate;
          [destruct S as (-> & -> & ->); auto|injection S as -> ->; auto]. }
      induction 1 as [a b G T|a b z y G T J M IH]; intros RA; destruct (K a b G RA) as (b' & G' & T' & F').
      - eapply mr_here; [eassumption|congruence].
      - eapply mr_step; [exact G'|congruence|rewrite F'; exact J|]. apply IH.
        assert (Z : exists c, h_mem h z = Some c /\ traced c = true) by (inversion M; eauto). destruct Z as (c & GZ & TZ).
        eapply mreach_snoc; eauto. }
    intros y M. apply X; auto. destruct ST as (b & G & T). eapply mr_here; eauto. }
  assert (BACK : forall y, mreach h1 st y -> mreach h st y).
  { assert (K : forall a b', h_mem h1 a = Some b' -> exists b, h_mem h a = Some b /\ traced b' = traced b /\ mfields b' = mfields b).
    { intros a b' G'. destruct (SB a b' G') as (b & G & _ & _ & _ & S). exists b. split; [auto|].
      unfold traced, mfields. destruct (b_body b) as [|k vs], (b_body b') as [|k' vs']; try discriminate;
        [destruct S as (-> & -> & ->); auto|injection S as -> ->; auto]. }
    enough (X : forall a y, mreach h1 a y -> mreach h a y) by auto.
    intros a0 y M. induction M as [a b' G' T'|a b' z y G' T' J M IH]; destruct (K a b' G') as (b & G & T & F).
    - eapply mr_here; [eassumption|congruence].
    - eapply mr_step; [exact G|congruence|rewrite <- F; exact J|auto]. }
  rewrite live_some, LV2, LV, STA.
  assert (MS : mreach h1 st x <-> mreach h st x) by (split; auto). rewrite MS.
  assert (SX : shp h x = Some SStatic <-> static h x) by (symmetry; apply static_shp).
  assert (NMK : has_mark m2 x h1 -> shp h x = Some SStatic).
  { intros X. destruct (MK x) as [(_ & Y)|(_ & Y & _)]; [|exfalso|auto].
    - unfold has_mark in X. destruct (h_mem h1 x); [discriminate|discriminate].
    - unfold has_mark in X, Y. rewrite X in Y. injection Y as Y. subst m2. destruct (m =? 0)%Z eqn:Q; [apply Z.eqb_eq in Q; lia|apply Z.eqb_neq in Q; lia]. }
  rewrite mreach_spec by auto. rewrite SX in *. split.
  - intros ((L & _) & [S|[(Q & b & G & NS & NC)|M]]); [auto|right; eauto|auto].
  - intros [S|(Q & b & G & NC)].
    + assert (h_mem h x <> None) by (destruct S as (b & vs & -> & _); discriminate). tauto.
    + assert (h_mem h x <> None) by congruence. destruct (shp h x) as [[| |]|] eqn:SH.
      2:{ assert (static h x) by (apply static_shp; auto). tauto. }
      all: assert (Z : held h st x /\ exists b, h_mem h x = Some b /\ ~ static h x /\ ~ closure b)
        by (split; [auto|]; exists b; split; [auto|]; split; [rewrite static_shp, SH; discriminate|auto]); tauto.
Qed.

(** What an even-numbered collection leaves: besides that, exactly the blocks that were made since the
    collection before it, whether anything refers to them or not.  (No block is resized between the
    two; resizing copies the mark.) *)
Definition plain (o : hop) : Prop := match o with HResize _ | HGc _ => False | _ => True end.
Definition aged (N : nat) (h1 h : heap) : Prop :=
  N <= h_next h /\ forall x b, h_mem h x = Some b -> (N <= x -> b_mark b = 0%Z) /\ (x < N -> b_mark b = 1%Z /\ ~ static h1 x \/ b_mark b = 0%Z /\ static h1 x).
Lemma prim_aged N h1 h h' : prim false h h' -> aged N h1 h -> aged N h1 h'.
Proof.
  destruct 1 as [h x b b' G (K1 & _)|h x h' F|h b IO M|h x b D G IO|h x b h2 D G IO F]; intros (L & A); try discriminate.
  - split; [exact L|]. intros y c. cbn. destruct (Nat.eqb_spec y x) as [->|]; [|eauto]. intros [= <-]. rewrite K1. eauto.
  - unfold free in F. destruct (h_mem h x); [|discriminate]. injection F as <-. split; [exact L|]. intros y c. cbn. destruct (y =? x); [discriminate|eauto].
  - split; [cbn; lia|]. intros y c. cbn. destruct (Nat.eqb_spec y (h_next h)) as [->|]; [|eauto]. intros [= <-]. split; [auto|lia].
Qed.
Lemma prims_aged N h1 h h' : prims false h h' -> aged N h1 h -> aged N h1 h'.
Proof. induction 1; auto. intros I. apply IHprims. eapply prim_aged; eauto. Qed.
Theorem C23_between_partial : forall n st h f1 h1 os h2 f2 h3, reach_newest n st h -> parity h st 1 -> gc f1 h st = Ok h1 ->
  Forall plain os -> hrun st h1 os = Ok h2 -> gc f2 h2 st = Ok h3 ->
  forall x, live h3 x <-> static h2 x \/ held h2 st x /\ (exists b, h_mem h2 x = Some b /\ ~ closure b) \/ live h2 x /\ (h_next h1 <= x \/ static h1 x).
Proof.
  intros n st h f1 h1 os h2 f2 h3 R P H1 Fo Ho H2 x.
  assert (A1 : reach_newest n st h1 /\ aged (h_next h1) h1 h1 /\ marks_inv h1 st 0).
  { destruct (reach_newest_wf _ _ _ R) as (l & W). destruct (gc_exact _ _ _ _ _ W H1) as (m & l' & NM & W' & LV & NM' & MK & _). apply parity_next in P.
    assert (m = 1%Z) by congruence. subst m. cbn in NM'.
    assert (LS : h_mem h1 st <> None) by (apply (shp_live _ _ _ (wc_state _ _ _ W'))).
    assert (R1 : reach_newest n st h1) by (eapply (reachn_step n st h (HGc f1)); [exact R|exact I|exact H1|exact LS]).
    split; [exact R1|]. split.
    - split; [auto|]. intros y b G. assert (y < h_next h1) by (apply (wc_fresh _ _ _ W'); congruence). split; [lia|]. intros _.
      destruct (MK y) as [(Ns & X)|(X & _)]; [congruence| |].
      + left. unfold has_mark in X. rewrite G in X. injection X as X. split; [congruence|]. rewrite static_shp. auto.
      + right. split; [|apply static_shp; exact X]. destruct (reach_newest_marks _ _ _ R1) as (nm & I & _). apply (mi_static _ _ _ I y b G). unfold shp in X. rewrite G in X. injection X as X. exact X.
    - destruct (reach_newest_marks _ _ _ R1) as (nm & I & _). replace 0%Z with nm; [exact I|].
      apply parity_next in NM' as (b & t & r & s & c & G & B). destruct (mi_state _ _ _ I b G) as (t' & r' & s' & c' & B'). congruence. }
  destruct A1 as (R1 & A1 & I1). clear R P H1.
  assert (A2 : reach_newest n st h2 /\ aged (h_next h1) h1 h2 /\ marks_inv h2 st 0).
  { enough (Gen : forall N h0 h, aged N h0 h -> marks_inv h st 0 -> reach_newest n st h -> hrun st h os = Ok h2 -> reach_newest n st h2 /\ aged N h0 h2 /\ marks_inv h2 st 0) by eauto.
    clear Ho A1 I1 R1 h1. intros N h0. induction Fo as [|o os Po Fo IH]; intros h1 A1 I1 R1 Ho; cbn [hrun] in Ho.
    - injection Ho as <-. auto.
    - apply bind_ok in Ho as (h' & S1 & Ho). destruct (h_mem h' st) as [b|] eqn:G; [|discriminate].
      destruct (reach_newest_wf _ _ _ R1) as (l & W).
      assert (Nr : resizes o -> false = true) by (destruct o; cbn in *; tauto).
      assert (Pr : prims false h1 h') by (pose proof (hstep_prims false _ _ _ _ _ (wf_weaken _ _ _ W) Nr S1) as X; destruct o; cbn in Po; try contradiction; exact X).
      apply (IH h').
      + eapply prims_aged; eauto.
      + eapply prims_marks; eauto.
      + apply (reachn_step n st h1 o); [exact R1|destruct o; cbn in Po |- *; first [exact I|contradiction]|exact S1|congruence].
      + exact Ho. }
  destruct A2 as (R2 & (_ & A2) & I2). destruct (reach_newest_wf _ _ _ R2) as (l & W).
  destruct (gc_exact _ _ _ _ _ W H2) as (m & l' & NM & _ & LV & _). 
  assert (m = 0%Z).
  { apply parity_next in NM as (b & t & r & s & c & G & B). destruct (mi_state _ _ _ I2 b G) as (t' & r' & s' & c' & B'). congruence. }
  subst m. rewrite live_some, LV, <- static_shp, mreach_spec by (eapply state_traced, (wc_state _ _ _ W)). split.
  - intros (L & [S|[(Q & b & G & NS & NC)|M]]); [auto|right; left; eauto|].
    unfold has_mark in M. destruct (h_mem h2 x) as [b|] eqn:G; [|discriminate]. injection M as M. right. right. split; [exists b; auto|].
    destruct (A2 x b G) as (Y & O). destruct (Nat.le_gt_cases (h_next h1) x); [auto|]. destruct O as [(O & _)|(_ & O)]; [auto|congruence|auto].
  - intros [S|[(Q & b & G & NC)|((b & G) & O)]].
    + split; [|auto]. destruct S as (b & vs & -> & _). discriminate.
    + split; [congruence|]. destruct (shp h2 x) as [[| |]|] eqn:SX; try (left; apply static_shp; exact SX);
        right; left; (split; [auto|]); exists b; (split; [auto|]); (split; [rewrite static_shp, SX; discriminate|auto]).
    + split; [congruence|]. right. right. unfold has_mark. rewrite G. enough (X : b_mark b = 0%Z) by (cbn; congruence). destruct O as [O|O].
      * apply (A2 x b G). auto.
      * destruct (A2 x b G) as (Y & Y'). destruct (Nat.le_gt_cases (h_next h1) x); [auto|]. destruct Y' as [(_ & Z)|(Z & _)]; [auto|contradiction|auto].
Qed.
(** String 5 goes in the first collection (and the key list of the contexts, 3); the string and the
    list made afterwards stay in the second, and go in the third. *)
Definition prog_young : list hop := [HLeaf M_MALLOC; HList DEL_RC; HAppend 7 (VPtr 6)].
Example C23_between_example : Forall plain prog_young /\
  match hstart 10 [HLeaf M_MALLOC] with
  | Ok h => match gc 20 h 0 with
    | Ok h1 => match hrun 0 h1 prog_young with
      | Ok h2 => match gc 20 h2 0 with
        | Ok h3 => match gc 20 h3 0 with
          | Ok h4 => h_next h1 = 6 /\ (h_freed h1, h_freed h2, h_freed h3) = ([3; 5], [3; 5], [3; 5]) /\ h_freed h4 = [3; 5; 6; 7]
          | Bad _ => False end
        | Bad _ => False end
      | Bad _ => False end
    | Bad _ => False end
  | Bad _ => False end.
Proof. split; [repeat constructor|]. vm_compute. auto. Qed.
(** After one collection, a new string that nothing refers to survives the next. *)
Theorem C23_refuted : exists h h' fuel, reach 10 0 h /\ gc fuel h 0 = Ok h' /\
  live h' 5 /\ ~ static h 5 /\ ~ reachable h 0 5.
Proof.
  destruct (hstart 10 [HGc 20; HLeaf M_IDENTITY]) as [h|] eqn:E; [|vm_compute in E; discriminate].
  destruct (gc 20 h 0) as [h'|] eqn:F; [|exfalso; vm_compute in E; injection E as <-; vm_compute in F; discriminate].
  exists h, h', 20. split; [eapply hstart_reach; eauto|]. split; [auto|].
  vm_compute in E. injection E as <-. vm_compute in F. injection F as <-. split; [eexists; reflexivity|]. split.
  - intros (b & vs & G & B). vm_compute in G. injection G as <-. discriminate.
  - assert (X : forall x, reachable (heap_of (hstart 10 [HGc 20; HLeaf M_IDENTITY])) 0 x -> x < 5).
    { induction 1 as [|a b x R IH G I]; [lia|].
      do 5 (destruct a as [|a]; [vm_compute in G; try discriminate; injection G as <-; vm_compute in I;
        repeat (destruct I as [I|I]; [injection I as <-; lia|]); contradiction|]). lia. }
    intros R. apply X in R. lia.
Qed.

(** * C24 *)
(** [edge h a y]: marking follows the pointer [y] kept in [a]. *)
Definition edge (h : heap) (a y : addr) : Prop := exists b, h_mem h a = Some b /\ In (VPtr y) (elements b).
(** Without cycles among what the state holds, if it all is library objects
    still alive, a collection ends, whatever the sharing.
    Missing for the full property: cycles (C24_refuted), and resizing of older
    blocks (C21_gc_loops_refuted). *)
Theorem C24_partial : forall n st h, reach_newest n st h ->
  (forall x, held h st x -> exists b, h_mem h x = Some b /\ ~ In VForeign (elements b)) ->
  (forall x, held h st x -> ~ clos_trans _ (edge h) x x) ->
  exists fuel0, forall fuel, fuel0 <= fuel -> exists h', gc fuel h st = Ok h'.
Proof.
  intros n st h R LV NC. destruct (reach_newest_wf _ _ _ R) as (l & W). destruct (reach_newest_marks _ _ _ R) as (nm & I & _).
  assert (EM : forall a y, edge h a y <-> mstep h y a).
  { intros a y. unfold edge, mstep. split; intros (b & G & X); exists b.
    - apply elements_traced in X. tauto.
    - split; [auto|]. apply mfields_elements; tauto. }
  assert (HR : forall x, clos_refl_trans _ (edge h) st x -> held h st x).
  { intros x X. apply clos_rt_rtn1 in X. induction X as [|y z (b & G & J) _ IH]; [constructor|]. eapply he_step; eauto. }
  eapply gc_ok; [exact W| | |].
  - pose proof (wc_state _ _ _ W) as S. unfold shp in S. destruct (h_mem h st) as [b|] eqn:G; [|discriminate].
    destruct (mi_state _ _ _ I b G) as (t & r & s & c & B). unfold next_mark. rewrite G, B. reflexivity.
  - assert (A : Acc (fun y x => edge h x y) st).
    { apply (acyclic_acc (edge h) (h_next h)).
      - intros a y (b & G & _). apply (wc_fresh _ _ _ W). congruence.
      - intros x X. apply NC. auto. }
    clear - A EM. induction A as [a _ IH]. constructor. intros y S. apply IH. apply EM. auto.
  - intros x X. destruct (LV x) as (b & G & F).
    + apply HR. apply clos_rt1n_rt in X. clear - X EM. induction X; [apply rt_step, EM; auto|apply rt_refl|eapply rt_trans; eauto].
    + exists b. split; auto. intros T J. apply F. apply mfields_elements; auto.
Qed.

(** A list that contains itself and is a root: no amount of steps is enough. *)
Definition diverges (m : Z) (h : heap) (a : addr) : Prop := forall fuel h1, em h h1 -> trace_mark fuel m h1 a = Bad OutOfFuel.
Lemma self_loop m h a p b : h_mem h a = Some b -> b_body b = BObj (KList p) [VPtr a] -> diverges m h a.
Proof.
  intros G B. intros fuel. induction fuel as [|f IH]; intros h1 E; [auto|]. destruct (em_get _ _ _ _ E G) as (b1 & G1 & _ & _ & EB).
  cbn [trace_mark]. unfold get at 1. rewrite G1. cbn [bind]. rewrite EB, B.
  destruct (modify_live h1 a (set_mark m)) as (h2 & E2 & _); [congruence|]. rewrite E2. cbn [bind foldm mark_val mark_fields].
  rewrite IH; [auto|]. eapply em_trans; [exact E|eapply modify_em; eauto].
Qed.
Lemma diverges_parent m h a b x r : h_mem h a = Some b -> traced b = true -> mfields b = VPtr x :: r -> diverges m h x -> diverges m h a.
Proof.
  intros G T F D fuel h1 E. destruct fuel as [|f]; [auto|]. destruct (em_get _ _ _ _ E G) as (b1 & G1 & T1 & F1 & _).
  destruct (modify_live h1 a (set_mark m)) as (h2 & E2 & _); [congruence|].
  assert (X : foldm (mark_val (trace_mark f m)) h2 (mfields b1) = Bad OutOfFuel).
  { rewrite F1, F. cbn [foldm mark_val]. rewrite D; [auto|]. eapply em_trans; [exact E|eapply modify_em; eauto]. }
  cbn [trace_mark]. unfold get at 1. rewrite G1. cbn [bind]. rewrite E2. cbn [bind]. rewrite T in T1. unfold traced, mfields in *.
  destruct (b_body b1) as [|[] ?]; try discriminate; exact X.
Qed.
Theorem C24_refuted : exists h, reach 10 0 h /\ (forall x, held h 0 x -> live h x) /\ forall fuel, gc fuel h 0 = Bad OutOfFuel.
Proof.
  destruct (hstart 10 [HList DEL_RC; HAppend 5 (VPtr 5); HRoot (VPtr 5) 0]) as [h|] eqn:E; [|vm_compute in E; discriminate].
  exists h. split; [eapply hstart_reach; eauto|]. vm_compute in E. injection E as <-. split.
  - assert (X : forall x, held (heap_of (hstart 10 [HList DEL_RC; HAppend 5 (VPtr 5); HRoot (VPtr 5) 0])) 0 x -> x < 6).
    { induction 1 as [|a b x R IH G I]; [lia|].
      do 6 (destruct a as [|a]; [vm_compute in G; try discriminate; injection G as <-; vm_compute in I;
        repeat (destruct I as [I|I]; [injection I as <-; lia|]); contradiction|]). lia. }
    intros x R. apply X in R. do 6 (destruct x as [|x]; [eexists; reflexivity|]). lia.
  - intros fuel.
    assert (D : diverges 1 (heap_of (hstart 10 [HList DEL_RC; HAppend 5 (VPtr 5); HRoot (VPtr 5) 0])) 0).
    { eapply diverges_parent; [vm_compute; reflexivity|reflexivity|reflexivity|].
      eapply diverges_parent; [vm_compute; reflexivity|reflexivity|reflexivity|].
      eapply self_loop; [vm_compute; reflexivity|reflexivity]. }
    specialize (D fuel _ (em_refl _)). vm_compute hstart in D. cbn [heap_of] in D. unfold gc, get. cbn [bind h_mem b_body]. rewrite D. reflexivity.
Qed.

(** A rooted list of two strings, one of them shared with a tuple it contains,
    and an unreferenced string: the collection ends and frees that string and
    the key list of the contexts. *)
Definition prog_gc : list hop :=
  [HLeaf M_MALLOC; HLeaf M_MALLOC; HProd [DEL_RC; DEL_RC] [VPtr 5; VPtr 6]; HList DEL_RC; HAppend 8 (VPtr 7); HAppend 8 (VPtr 5);
   HLeaf M_MALLOC; HRoot (VPtr 8) 0].
Example C22_C23_C24_example :
  match hstart 10 prog_gc with
  | Ok h => match gc 20 h 0 with
            | Ok h' => h_freed h' = [3; 9] /\ option_map b_body (h_mem h' 8) = Some (BObj (KList DEL_RC) [VPtr 7; VPtr 5])
            | Bad _ => False
            end
  | Bad _ => False
  end.
Proof. vm_compute. auto. Qed.

Print Assumptions C22_partial.
Print Assumptions C22_again_partial.
Print Assumptions C22_closure_refuted.
Print Assumptions C22_map_keys_refuted.
Print Assumptions C23_partial.
Print Assumptions C23_twice_partial.
Print Assumptions C23_between_partial.
Print Assumptions C23_refuted.
Print Assumptions C24_partial.
Print Assumptions C24_refuted.
