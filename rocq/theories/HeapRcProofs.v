(** Deleting objects by reference counts and ownership. *)
From Coq Require Import ZArith List Bool Lia.
From Verif Require Import Base HeapModel HeapChainProofs HeapHistory.
Import ListNotations.
Open Scope nat_scope.
Open Scope outcome_scope.

(** * Sums *)
Fixpoint sumn (n : nat) (f : nat -> nat) : nat := match n with 0 => 0 | S m => f m + sumn m f end.
Lemma sumn_ext n f g : (forall x, x < n -> f x = g x) -> sumn n f = sumn n g.
Proof. induction n as [|n IH]; intros E; cbn; auto. rewrite E, IH by auto. auto. Qed.
Lemma sumn_upd n f g a : a < n -> (forall x, x <> a -> f x = g x) -> sumn n f + g a = sumn n g + f a.
Proof.
  induction n as [|n IH]; intros L E; [lia|]. cbn. destruct (Nat.eq_dec a n) as [->|NE].
  - rewrite (sumn_ext n f g); [lia|]. intros x X. apply E. lia.
  - rewrite (E n) by auto. specialize (IH ltac:(lia) E). lia.
Qed.
Lemma sumn_zero n f : sumn n f = 0 <-> forall x, x < n -> f x = 0.
Proof.
  induction n as [|n IH]; cbn; [split; intros; lia|]. split.
  - intros E x X. destruct (Nat.eq_dec x n) as [->|]; [lia|]. apply IH; lia.
  - intros E. rewrite (E n) by lia. apply IH. intros. apply E. lia.
Qed.
Lemma sumn_pos n f : 0 < sumn n f -> exists x, x < n /\ 0 < f x.
Proof.
  induction n as [|n IH]; cbn; [lia|]. intros L. destruct (f n) eqn:E.
  - destruct IH as (x & X & P); [lia|]. exists x. split; [lia|auto].
  - exists n. lia.
Qed.
Lemma sumn_le_at n f a : a < n -> f a <= sumn n f.
Proof. induction n as [|n IH]; cbn; intros L; [lia|]. destruct (Nat.eq_dec a n) as [->|]; [lia|]. specialize (IH ltac:(lia)). lia. Qed.
Lemma sumn_mono n f g : (forall x, x < n -> f x <= g x) -> sumn n f <= sumn n g.
Proof. induction n as [|n IH]; cbn; intros E; auto. pose proof (E n ltac:(lia)). specialize (IH ltac:(auto)). lia. Qed.

(** * References *)
Definition peq (p q : policy) : bool :=
  match p, q with DEL_RC, DEL_RC | DEL, DEL | NOOP, NOOP => true | _, _ => false end.
Lemma peq_spec p q : reflect (p = q) (peq p q).
Proof. destruct p, q; constructor; congruence. Qed.
Definition hit (p : policy) (y : addr) (f : policy * val) : bool :=
  match f with (q, VPtr z) => peq p q && (z =? y) | _ => false end.
Definition hits (p : policy) (y : addr) (fs : list (policy * val)) : nat := length (filter (hit p y) fs).
Lemma hits_cons p y f fs : hits p y (f :: fs) = (if hit p y f then 1 else 0) + hits p y fs.
Proof. unfold hits. cbn. destruct (hit p y f); auto. Qed.
Lemma hits_app p y fs gs : hits p y (fs ++ gs) = hits p y fs + hits p y gs.
Proof. unfold hits. rewrite filter_app, app_length. auto. Qed.
Lemma hits_in p y fs : 0 < hits p y fs <-> In (p, VPtr y) fs.
Proof.
  induction fs as [|(q, v) fs IH]; [cbn; split; [lia|tauto]|]. rewrite hits_cons. cbn [hit In]. destruct v as [|z|].
  - rewrite IH. split; [auto|]. intros [X|X]; [discriminate|auto].
  - destruct (peq_spec p q) as [->|NE]; cbn [andb].
    + destruct (Nat.eqb_spec z y) as [->|NZ]; [split; [auto|lia]|]. rewrite IH. split; [auto|]. intros [[= X]|X]; [contradiction|auto].
    + rewrite IH. split; [auto|]. intros [[= X]|X]; [congruence|auto].
  - rewrite IH. split; [auto|]. intros [X|X]; [discriminate|auto].
Qed.

(** the fields an object deletes with it *)
Definition bfields (b : block) : list (policy * val) :=
  match b_body b with BState _ _ _ _ _ => [] | BObj k vs => del_fields k vs end.
(** [ov]: the fields still to be done, for objects that are being deleted *)
Definition ovmap : Type := addr -> option (list (policy * val)).
Definition eflds (h : heap) (ov : ovmap) (x : addr) : list (policy * val) :=
  match h_mem h x with
  | None => []
  | Some b => match ov x with Some fs => fs | None => bfields b end
  end.
Definition refs (p : policy) (h : heap) (ov : ovmap) (y : addr) : nat := sumn (h_next h) (fun x => hits p y (eflds h ov x)).
Definition upd (ov : ovmap) (a : addr) (v : option (list (policy * val))) : ovmap := fun x => if x =? a then v else ov x.
Lemma upd_eq ov a v : upd ov a v a = v. Proof. unfold upd. rewrite Nat.eqb_refl. auto. Qed.
Lemma upd_neq ov a v x : x <> a -> upd ov a v x = ov x. Proof. intros N. unfold upd. apply Nat.eqb_neq in N. rewrite N. auto. Qed.

Section Prot.
Variable st : addr.
(** objects that belong to the state *)
Variable P : addr -> Prop.

Record RI (h : heap) (ov : ovmap) : Prop := {
  ri_chain : exists l, wf_chain false h st l;
  ri_cnt : forall y b, h_mem h y = Some b -> b_rc b = Z.of_nat (refs DEL_RC h ov y);
  ri_ret : forall y b, h_mem h y = Some b -> b_ret b = true -> ov y = None -> refs DEL h ov y = 1;
  ri_static : forall y b, h_mem h y = Some b -> shape_of b = SStatic -> b_ret b = false;
  ri_own : forall y, refs DEL h ov y <= 1 /\ (0 < refs DEL h ov y -> refs DEL_RC h ov y = 0);
  ri_tgt : forall x p v, In (p, v) (eflds h ov x) -> p <> NOOP ->
    match v with VNull => True | VForeign => False | VPtr y => h_mem h y <> None /\ ~ P y end;
  ri_ov : forall x fs, ov x = Some fs -> h_mem h x <> None /\ refs DEL_RC h ov x = 0 /\ refs DEL h ov x = 0;
  ri_set : forall x b p vs, h_mem h x = Some b -> b_body b = BObj (KSet p) vs -> vs <> [] -> P x;
  ri_st : P st
}.

Lemma ri_fresh h ov x : RI h ov -> h_mem h x <> None -> x < h_next h.
Proof. intros R L. destruct (ri_chain _ _ R) as (l & W). apply (wc_fresh _ _ _ W). auto. Qed.

Lemma refs_ext p h h' ov ov' y : h_next h' = h_next h -> (forall x, eflds h' ov' x = eflds h ov x) -> refs p h' ov' y = refs p h ov y.
Proof. intros N E. unfold refs. rewrite N. apply sumn_ext. intros x _. rewrite E. auto. Qed.
Lemma refs_upd p h h' ov ov' y a : h_next h' = h_next h -> a < h_next h -> (forall x, x <> a -> eflds h' ov' x = eflds h ov x) ->
  refs p h' ov' y + hits p y (eflds h ov a) = refs p h ov y + hits p y (eflds h' ov' a).
Proof.
  intros N L E. unfold refs. rewrite N. apply (sumn_upd (h_next h) (fun x => hits p y (eflds h' ov' x)) (fun x => hits p y (eflds h ov x))); auto.
  intros x X. cbn. rewrite E; auto.
Qed.
Lemma refs_in p h ov x y : x < h_next h -> In (p, VPtr y) (eflds h ov x) -> 0 < refs p h ov y.
Proof.
  intros L I. apply hits_in in I. pose proof (sumn_le_at (h_next h) (fun x => hits p y (eflds h ov x)) x L). unfold refs. cbn in *. lia.
Qed.
Lemma refs_find p h ov y : 0 < refs p h ov y -> exists x, x < h_next h /\ In (p, VPtr y) (eflds h ov x).
Proof. intros X. apply sumn_pos in X as (x & L & X). exists x. split; auto. apply hits_in. auto. Qed.
Lemma eflds_live h ov x f : In f (eflds h ov x) -> h_mem h x <> None.
Proof. unfold eflds. destruct (h_mem h x); [congruence|contradiction]. Qed.

(** same objects, up to chain, count *)
Definition same_but_rc (b b' : block) : Prop :=
  b_ret b' = b_ret b /\ b_mark b' = b_mark b /\ b_meth b' = b_meth b /\
  match b_body b, b_body b' with
  | BState _ r s c m, BState _ r' s' c' m' => r = r' /\ s = s' /\ c = c' /\ m = m'
  | v, v' => v = v'
  end.
Lemma same_but_rc_refl b : same_but_rc b b.
Proof. unfold same_but_rc. destruct (b_body b); auto 10. Qed.
Lemma same_but_rc_trans a b c : same_but_rc a b -> same_but_rc b c -> same_but_rc a c.
Proof.
  unfold same_but_rc. intros (A2 & A3 & A4 & A5) (B2 & B3 & B4 & B5).
  split; [congruence|]. split; [congruence|]. split; [congruence|].
  destruct (b_body a), (b_body b), (b_body c); try congruence; intuition congruence.
Qed.
Lemma same_chain_rc b b' : same_but_chain b b' -> same_but_rc b b'.
Proof. intros (A & B & C & D & E). split; auto. Qed.
Lemma same_rc_fields b b' : same_but_rc b b' -> bfields b' = bfields b.
Proof. intros (_ & _ & _ & E). unfold bfields. destruct (b_body b), (b_body b'); try discriminate; auto. injection E as -> ->. auto. Qed.
Lemma same_rc_static b b' : same_but_rc b b' -> (shape_of b' = SStatic <-> shape_of b = SStatic).
Proof using. clear P st.
  intros (_ & _ & _ & E). unfold shape_of. destruct (b_body b), (b_body b'); try discriminate; auto; [split; discriminate|injection E as -> ->; tauto].
Qed.

(** what a deletion does to other objects *)
Definition orphan (h : heap) (ov : ovmap) (x : addr) : Prop := refs DEL_RC h ov x = 0 /\ refs DEL h ov x = 0.
Definition closedT (h : heap) (ov : ovmap) (T : addr -> Prop) : Prop :=
  forall x p y, T x -> In (p, VPtr y) (eflds h ov x) -> p <> NOOP -> T y.
Record rel (T : addr -> Prop) (h : heap) (ov : ovmap) (h' : heap) (ov' : ovmap) : Prop := {
  re_next : h_next h' = h_next h;
  re_keep : forall x b', h_mem h' x = Some b' -> exists b, h_mem h x = Some b /\ same_but_rc b b';
  re_shrink : forall x f, In f (eflds h' ov' x) -> In f (eflds h ov x);
  re_orphan : forall x b, h_mem h' x = Some b -> shape_of b <> SStatic -> orphan h' ov' x -> orphan h ov x;
  re_same : forall x b, ~ T x -> h_mem h x = Some b -> exists b', h_mem h' x = Some b' /\ same_but_chain b b'
}.
Lemma rel_trans T h1 o1 h2 o2 h3 o3 : rel T h1 o1 h2 o2 -> rel T h2 o2 h3 o3 -> rel T h1 o1 h3 o3.
Proof.
  intros A B. constructor.
  - rewrite (re_next _ _ _ _ _ B). apply (re_next _ _ _ _ _ A).
  - intros x b' G. destruct (re_keep _ _ _ _ _ B x b' G) as (b & G2 & S2). destruct (re_keep _ _ _ _ _ A x b G2) as (b0 & G1 & S1).
    exists b0. split; auto. eapply same_but_rc_trans; eauto.
  - intros x f I. apply (re_shrink _ _ _ _ _ A), (re_shrink _ _ _ _ _ B). auto.
  - intros x b G NS O. destruct (re_keep _ _ _ _ _ B x b G) as (b2 & G2 & S2).
    apply (re_orphan _ _ _ _ _ A x b2 G2); [rewrite <- (same_rc_static _ _ S2); auto|].
    apply (re_orphan _ _ _ _ _ B x b G NS O).
  - intros x b NT G. destruct (re_same _ _ _ _ _ A x b NT G) as (b2 & G2 & S2). destruct (re_same _ _ _ _ _ B x b2 NT G2) as (b3 & G3 & S3).
    exists b3. split; auto. eapply same_but_chain_trans; eauto.
Qed.
Lemma closed_shrink T h ov h' ov' : rel T h ov h' ov' -> closedT h ov T -> closedT h' ov' T.
Proof. intros R C x p y TX I NP. eapply C; eauto. apply (re_shrink _ _ _ _ _ R). auto. Qed.

(** number of objects not being deleted *)
Definition idle (h : heap) (ov : ovmap) : nat :=
  sumn (h_next h) (fun x => match h_mem h x, ov x with Some _, None => 1 | _, _ => 0 end).
Lemma idle_upd h ov a fs : h_mem h a <> None -> a < h_next h -> ov a = None -> S (idle h (upd ov a (Some fs))) = idle h ov.
Proof.
  intros L LT N. unfold idle.
  pose proof (sumn_upd (h_next h) (fun x => match h_mem h x, upd ov a (Some fs) x with Some _, None => 1 | _, _ => 0 end)
    (fun x => match h_mem h x, ov x with Some _, None => 1 | _, _ => 0 end) a LT) as X. cbn beta in X.
  rewrite upd_eq, N in X. destruct (h_mem h a); [|congruence]. rewrite Nat.add_comm in X. cbn [Nat.add] in X.
  rewrite X; [lia|]. intros x NE. rewrite upd_neq; auto.
Qed.
Lemma idle_le h ov h' ov' : h_next h' = h_next h -> (forall x, h_mem h x = None -> h_mem h' x = None) ->
  (forall x, ov' x = None -> ov x = None) -> idle h' ov' <= idle h ov.
Proof.
  intros N M O. unfold idle. rewrite N. apply sumn_mono. intros x _. specialize (M x). specialize (O x).
  destruct (h_mem h' x); [|lia]. destruct (h_mem h x); [|specialize (M eq_refl); discriminate]. destruct (ov' x); [lia|]. rewrite O; auto.
Qed.

(** heaps alike up to chains *)
Lemma eflds_chain h h' ov x : heap_but_chain h h' -> eflds h' ov x = eflds h ov x.
Proof.
  intros B. specialize (B x). unfold eflds. destruct (h_mem h x), (h_mem h' x); try tauto. destruct (ov x); auto.
  apply same_rc_fields, same_chain_rc. auto.
Qed.

Lemma eflds_upd_neq h ov a fs x : x <> a -> eflds h (upd ov a fs) x = eflds h ov x.
Proof. intros N. unfold eflds. rewrite upd_neq; auto. Qed.
Lemma eflds_upd_eq h ov a fs : h_mem h a <> None -> eflds h (upd ov a (Some fs)) a = fs.
Proof. intros N. unfold eflds. rewrite upd_eq. destruct (h_mem h a); congruence. Qed.


(** one more field dealt with *)
Lemma upd_step h ov a f fs p y : h_mem h a <> None -> a < h_next h ->
  refs p h (upd ov a (Some (f :: fs))) y = (if hit p y f then 1 else 0) + refs p h (upd ov a (Some fs)) y.
Proof.
  intros L LT. pose proof (refs_upd p h h (upd ov a (Some fs)) (upd ov a (Some (f :: fs))) y a eq_refl LT) as X.
  rewrite !eflds_upd_eq, hits_cons in X by auto.
  assert (Y : forall x, x <> a -> eflds h (upd ov a (Some (f :: fs))) x = eflds h (upd ov a (Some fs)) x).
  { intros x NE. rewrite !eflds_upd_neq; auto. }
  specialize (X Y). lia.
Qed.
Lemma eflds_step h ov a f fs x g : In g (eflds h (upd ov a (Some fs)) x) -> In g (eflds h (upd ov a (Some (f :: fs))) x).
Proof.
  unfold eflds. destruct (h_mem h x); auto. unfold upd. destruct (x =? a); auto. intros I. right. auto.
Qed.

Lemma RI_skip h ov a f fs : RI h (upd ov a (Some (f :: fs))) -> (forall y, hit DEL_RC y f = false /\ hit DEL y f = false) ->
  RI h (upd ov a (Some fs)).
Proof.
  intros R F. assert (L : h_mem h a <> None) by (apply (ri_ov _ _ R a (f :: fs)); apply upd_eq). pose proof (ri_fresh _ _ _ R L) as LT.
  assert (E1 : forall y, refs DEL_RC h (upd ov a (Some fs)) y = refs DEL_RC h (upd ov a (Some (f :: fs))) y).
  { intros y. rewrite upd_step by auto. destruct (F y) as (-> & _). auto. }
  assert (E2 : forall y, refs DEL h (upd ov a (Some fs)) y = refs DEL h (upd ov a (Some (f :: fs))) y).
  { intros y. rewrite (upd_step _ _ _ f) by auto. destruct (F y) as (_ & ->). auto. }
  destruct R as [R1 R2 R3 R4 R5 R6 R7 R8 R9]. constructor; auto.
  - intros y b G. rewrite E1. eauto.
  - intros y b G RT O. rewrite E2. eapply R3; eauto. destruct (Nat.eq_dec y a) as [->|NE]; [rewrite upd_eq in O; discriminate|].
    rewrite upd_neq in * by auto. auto.
  - intros y. rewrite E1, E2. auto.
  - intros x p v I. apply R6 with (x := x). apply eflds_step. auto.
  - intros x gs O. rewrite E1, E2. destruct (Nat.eq_dec x a) as [->|NE].
    + apply (R7 a (f :: fs)). apply upd_eq.
    + apply (R7 x gs). rewrite upd_neq in * by auto. auto.
Qed.

Lemma refs_rc_only p h h' ov y : h_next h' = h_next h ->
  (forall x, match h_mem h x, h_mem h' x with Some b, Some b' => same_but_rc b b' | None, None => True | _, _ => False end) ->
  refs p h' ov y = refs p h ov y /\ forall x, eflds h' ov x = eflds h ov x.
Proof.
  intros N E. assert (EF : forall x, eflds h' ov x = eflds h ov x).
  { intros x. specialize (E x). unfold eflds. destruct (h_mem h x), (h_mem h' x); try tauto. destruct (ov x); auto. apply same_rc_fields. auto. }
  split; auto. apply refs_ext; auto.
Qed.

(** a counted field: the target's count goes down *)
Lemma RI_rc h ov a y by' fs h1 : RI h (upd ov a (Some ((DEL_RC, VPtr y) :: fs))) -> h_mem h y = Some by' ->
  modify h y (fun b => if (b_rc b =? 0)%Z then b else set_rc (b_rc b - 1) b) = Ok h1 ->
  RI h1 (upd ov a (Some fs)) /\ exists b1, h_mem h1 y = Some b1 /\ same_but_rc by' b1 /\ b_rc b1 = (b_rc by' - 1)%Z /\ y <> a /\
  (forall x, x <> y -> h_mem h1 x = h_mem h x) /\ h_next h1 = h_next h /\ b_ret by' = false /\ ov y = None.
Proof.
  intros R GY M.
  assert (Q : quiet (fun b => if (b_rc b =? 0)%Z then b else set_rc (b_rc b - 1) b)).
  { intros b. destruct (b_rc b =? 0)%Z; auto. }
  pose proof (modify_skel h y _ h1 Q M) as SK. apply modify_eff in M as ((N & FR & E) & _).
  assert (L : h_mem h a <> None) by (apply (ri_ov _ _ R a ((DEL_RC, VPtr y) :: fs)); apply upd_eq). pose proof (ri_fresh _ _ _ R L) as LT.
  assert (EA : eflds h (upd ov a (Some ((DEL_RC, VPtr y) :: fs))) a = (DEL_RC, VPtr y) :: fs) by (apply eflds_upd_eq; auto).
  assert (POS : 0 < refs DEL_RC h (upd ov a (Some ((DEL_RC, VPtr y) :: fs))) y).
  { apply (refs_in _ _ _ a); auto. rewrite EA. left. auto. }
  assert (NA : y <> a).
  { intros ->. destruct (ri_ov _ _ R a _ (upd_eq _ _ _)) as (_ & Z & _). lia. }
  assert (NO : ov y = None).
  { destruct (ov y) as [gs|] eqn:O; auto. exfalso. destruct (ri_ov _ _ R y gs) as (_ & Z & _); [rewrite upd_neq by auto; auto|]. lia. }
  assert (RC := ri_cnt _ _ R y by' GY).
  assert (NZ : (b_rc by' =? 0)%Z = false) by (apply Z.eqb_neq; lia).
  assert (GY1 : h_mem h1 y = Some (set_rc (b_rc by' - 1) by')).
  { rewrite E, Nat.eqb_refl, GY. cbn. rewrite NZ. auto. }
  assert (OT : forall x, x <> y -> h_mem h1 x = h_mem h x).
  { intros x NE. rewrite E. apply Nat.eqb_neq in NE. rewrite NE. auto. }
  assert (SB : same_but_rc by' (set_rc (b_rc by' - 1) by')) by (unfold same_but_rc; cbn; destruct (b_body by'); auto 10).
  assert (EQ : forall x, match h_mem h x, h_mem h1 x with Some b, Some b' => same_but_rc b b' | None, None => True | _, _ => False end).
  { intros x. destruct (Nat.eq_dec x y) as [->|NE]; [rewrite GY, GY1; auto|rewrite OT by auto; destruct (h_mem h x); auto; apply same_but_rc_refl]. }
  assert (RF : forall p z, refs p h1 (upd ov a (Some fs)) z = refs p h (upd ov a (Some fs)) z) by (intros; apply refs_rc_only; auto).
  assert (EF : forall x, eflds h1 (upd ov a (Some fs)) x = eflds h (upd ov a (Some fs)) x) by (apply (refs_rc_only NOOP _ _ _ 0 N EQ)).
  assert (E1 : forall z, refs DEL_RC h (upd ov a (Some ((DEL_RC, VPtr y) :: fs))) z = (if y =? z then 1 else 0) + refs DEL_RC h (upd ov a (Some fs)) z).
  { intros z. rewrite upd_step by auto. reflexivity. }
  assert (E2 : forall z, refs DEL h (upd ov a (Some ((DEL_RC, VPtr y) :: fs))) z = refs DEL h (upd ov a (Some fs)) z).
  { intros z. rewrite upd_step by auto. reflexivity. }
  assert (RT : b_ret by' = false).
  { destruct (b_ret by') eqn:RT; auto. exfalso. pose proof (ri_ret _ _ R y by' GY RT) as X. rewrite upd_neq in X by auto. specialize (X NO).
    destruct (ri_own _ _ R y) as (_ & Y). rewrite Y in POS; lia. }
  split.
  2:{ exists (set_rc (b_rc by' - 1) by'). split; [auto|]. split; [auto|]. split; [reflexivity|]. auto 10. }
  destruct R as [R1 R2 R3 R4 R5 R6 R7 R8 R9]. constructor; auto.
  - destruct R1 as (l & W). exists l. eapply same_skel_wf; eauto.
  - intros z b G. rewrite RF. destruct (Nat.eq_dec z y) as [->|NE].
    + rewrite GY1 in G. injection G as <-. cbn. rewrite RC. specialize (E1 y). rewrite Nat.eqb_refl in E1. lia.
    + rewrite OT in G by auto. rewrite (R2 z b G), E1. destruct (Nat.eqb_spec y z); [congruence|auto].
  - intros z b G RTZ O. rewrite RF, <- E2. destruct (Nat.eq_dec z y) as [->|NE].
    + rewrite GY1 in G. injection G as <-. cbn in RTZ. congruence.
    + rewrite OT in G by auto. eapply R3; eauto. destruct (Nat.eq_dec z a) as [->|NE']; [rewrite upd_eq in O; discriminate|].
      rewrite upd_neq in * by auto. auto.
  - intros z b G SS. destruct (Nat.eq_dec z y) as [->|NE].
    + rewrite GY1 in G. injection G as <-. cbn. auto.
    + rewrite OT in G by auto. eauto.
  - intros z. rewrite !RF, <- E2. specialize (R5 z). rewrite E1 in R5. lia.
  - intros x p v I NP. rewrite EF in I. apply (eflds_step _ _ _ (DEL_RC, VPtr y)) in I. specialize (R6 x p v I NP).
    destruct v as [|z|]; auto. destruct R6 as (A & B). split; auto. destruct (Nat.eq_dec z y) as [->|NE]; [congruence|rewrite OT; auto].
  - intros x gs O. rewrite !RF. assert (X : exists gs', upd ov a (Some ((DEL_RC, VPtr y) :: fs)) x = Some gs').
    { destruct (Nat.eq_dec x a) as [->|NE]; [rewrite upd_eq; eauto|rewrite upd_neq in * by auto; eauto]. }
    destruct X as (gs' & X). destruct (R7 x gs' X) as (A & B & C). rewrite E1 in B. rewrite E2 in C. split; [|lia].
    destruct (Nat.eq_dec x y) as [->|NE]; [congruence|rewrite OT; auto].
  - intros x b p vs G B NV. destruct (Nat.eq_dec x y) as [->|NE].
    + rewrite GY1 in G. injection G as <-. cbn in B. eapply R8; eauto.
    + rewrite OT in G by auto. eapply R8; eauto.
Qed.

(** an object about to be deleted *)
Lemma RI_start h ov y b : RI h ov -> h_mem h y = Some b -> ov y = None -> orphan h ov y -> RI h (upd ov y (Some (bfields b))).
Proof.
  intros R G N (O1 & O2). assert (EF : forall x, eflds h (upd ov y (Some (bfields b))) x = eflds h ov x).
  { intros x. destruct (Nat.eq_dec x y) as [->|NE]; [rewrite eflds_upd_eq by congruence; unfold eflds; rewrite G, N; auto|apply eflds_upd_neq; auto]. }
  assert (RF : forall p z, refs p h (upd ov y (Some (bfields b))) z = refs p h ov z) by (intros; apply refs_ext; auto).
  destruct R as [R1 R2 R3 R4 R5 R6 R7 R8 R9]. constructor; auto.
  - intros z c GZ. rewrite RF. eauto.
  - intros z c GZ RT O. rewrite RF. eapply R3; eauto. destruct (Nat.eq_dec z y) as [->|NE]; [auto|rewrite upd_neq in O by auto; auto].
  - intros z. rewrite !RF. auto.
  - intros x p v I. rewrite EF in I. apply (R6 x p v I).
  - intros x gs O. rewrite !RF. destruct (Nat.eq_dec x y) as [->|NE]; [split; [congruence|auto]|]. rewrite upd_neq in O by auto. eauto.
Qed.
(** an owned field: its target is about to be deleted *)
Lemma RI_del h ov a y by' fs : RI h (upd ov a (Some ((DEL, VPtr y) :: fs))) -> h_mem h y = Some by' ->
  RI h (upd (upd ov a (Some fs)) y (Some (bfields by'))) /\ y <> a /\ ov y = None.
Proof.
  intros R GY. assert (L : h_mem h a <> None) by (apply (ri_ov _ _ R a ((DEL, VPtr y) :: fs)); apply upd_eq). pose proof (ri_fresh _ _ _ R L) as LT.
  assert (EA : eflds h (upd ov a (Some ((DEL, VPtr y) :: fs))) a = (DEL, VPtr y) :: fs) by (apply eflds_upd_eq; auto).
  assert (POS : 0 < refs DEL h (upd ov a (Some ((DEL, VPtr y) :: fs))) y).
  { apply (refs_in _ _ _ a); auto. rewrite EA. left. auto. }
  assert (NA : y <> a).
  { intros ->. destruct (ri_ov _ _ R a _ (upd_eq _ _ _)) as (_ & _ & Z). lia. }
  assert (NO : ov y = None).
  { destruct (ov y) as [gs|] eqn:O; auto. exfalso. destruct (ri_ov _ _ R y gs) as (_ & _ & Z); [rewrite upd_neq by auto; auto|]. lia. }
  split; [|auto].
  assert (E1 : forall z, refs DEL_RC h (upd ov a (Some ((DEL, VPtr y) :: fs))) z = refs DEL_RC h (upd ov a (Some fs)) z).
  { intros z. rewrite upd_step by auto. reflexivity. }
  assert (E2 : forall z, refs DEL h (upd ov a (Some ((DEL, VPtr y) :: fs))) z = (if y =? z then 1 else 0) + refs DEL h (upd ov a (Some fs)) z).
  { intros z. rewrite upd_step by auto. reflexivity. }
  set (ov1 := upd ov a (Some fs)) in *.
  assert (N1 : ov1 y = None) by (unfold ov1; rewrite upd_neq; auto).
  assert (EF : forall x, eflds h (upd ov1 y (Some (bfields by'))) x = eflds h ov1 x).
  { intros x. destruct (Nat.eq_dec x y) as [->|NE]; [rewrite eflds_upd_eq by congruence; unfold eflds; rewrite GY, N1; auto|apply eflds_upd_neq; auto]. }
  assert (RF : forall p z, refs p h (upd ov1 y (Some (bfields by'))) z = refs p h ov1 z) by (intros; apply refs_ext; auto).
  destruct (ri_own _ _ R y) as (OW1 & OW2). specialize (OW2 POS).
  destruct R as [R1 R2 R3 R4 R5 R6 R7 R8 R9]. constructor; auto.
  - intros z c GZ. rewrite RF, <- E1. eauto.
  - intros z c GZ RT O. rewrite RF. destruct (Nat.eq_dec z y) as [->|NE]; [rewrite upd_eq in O; discriminate|]. rewrite upd_neq in O by auto.
    assert (z <> a) by (intros ->; unfold ov1 in O; rewrite upd_eq in O; discriminate).
    assert (X : upd ov a (Some ((DEL, VPtr y) :: fs)) z = None) by (rewrite upd_neq by auto; unfold ov1 in O; rewrite upd_neq in O; auto).
    specialize (R3 z c GZ RT X). rewrite E2 in R3. destruct (Nat.eqb_spec y z); [congruence|lia].
  - intros z. rewrite !RF. specialize (R5 z). rewrite E1, E2 in R5. lia.
  - intros x p v I. rewrite EF in I. apply (eflds_step _ _ _ (DEL, VPtr y)) in I. apply (R6 x p v I).
  - intros x gs O. rewrite !RF. destruct (Nat.eq_dec x y) as [->|NE].
    + split; [congruence|]. rewrite <- E1. specialize (E2 y). rewrite Nat.eqb_refl in E2. lia.
    + rewrite upd_neq in O by auto. assert (X : exists gs', upd ov a (Some ((DEL, VPtr y) :: fs)) x = Some gs').
      { unfold ov1 in O. destruct (Nat.eq_dec x a) as [->|NE']; [rewrite upd_eq; eauto|rewrite upd_neq in * by auto; eauto]. }
      destruct X as (gs' & X). destruct (R7 x gs' X) as (A & B & C). rewrite E1 in B. rewrite E2 in C. split; [auto|lia].
Qed.

Lemma RI_static_end h ov y b : RI h (upd ov y (Some (bfields b))) -> h_mem h y = Some b -> ov y = None -> shape_of b = SStatic ->
  RI h ov /\ forall T, rel T h (upd ov y (Some (bfields b))) h ov.
Proof.
  intros R G N SS. assert (EF : forall x, eflds h (upd ov y (Some (bfields b))) x = eflds h ov x).
  { intros x. destruct (Nat.eq_dec x y) as [->|NE]; [rewrite eflds_upd_eq by congruence; unfold eflds; rewrite G, N; auto|apply eflds_upd_neq; auto]. }
  assert (RF : forall p z, refs p h (upd ov y (Some (bfields b))) z = refs p h ov z) by (intros; apply refs_ext; auto).
  split.
  - destruct R as [R1 R2 R3 R4 R5 R6 R7 R8 R9]. constructor; auto.
    + intros z c GZ. rewrite <- RF. eauto.
    + intros z c GZ RT O. rewrite <- RF. eapply R3; eauto. destruct (Nat.eq_dec z y) as [->|NE]; [|rewrite upd_neq by auto; auto].
      exfalso. rewrite G in GZ. injection GZ as <-. rewrite (R4 y b G SS) in RT. discriminate.
    + intros z. rewrite <- !RF. auto.
    + intros x p v I. rewrite <- EF in I. apply (R6 x p v I).
    + intros x gs O. rewrite <- !RF. destruct (Nat.eq_dec x y) as [->|NE]; [congruence|]. apply (R7 x gs). rewrite upd_neq by auto. auto.
  - intros T. constructor; auto.
    + intros x b' GX. exists b'. split; [auto|apply same_but_rc_refl].
    + intros x f I. rewrite EF. auto.
    + intros x c GX NS (O1 & O2). split; rewrite RF; auto.
    + intros x c NT GX. exists c. split; [auto|apply same_but_chain_refl].
Qed.

Lemma RI_free h ov a b h1 h2 l : RI h (upd ov a (Some [])) -> h_mem h a = Some b -> ov a = None -> wf_chain false h2 st l ->
  heap_but_chain h h1 -> h_mem h2 a = None -> (forall x, x <> a -> h_mem h2 x = h_mem h1 x) -> h_next h2 = h_next h ->
  RI h2 ov /\ forall T : addr -> Prop, T a -> rel T h (upd ov a (Some [])) h2 ov.
Proof.
  intros R G N W HB D OT NX.
  assert (SAME : forall x b', h_mem h2 x = Some b' -> exists b0, h_mem h x = Some b0 /\ same_but_chain b0 b' /\ x <> a).
  { intros x b' GX. assert (NE : x <> a) by congruence. rewrite OT in GX by auto. pose proof (HB x) as B. rewrite GX in B.
    destruct (h_mem h x) as [b0|]; [|contradiction]. eauto. }
  assert (BACK : forall x b0, x <> a -> h_mem h x = Some b0 -> exists b', h_mem h2 x = Some b' /\ same_but_chain b0 b').
  { intros x b0 NE GX. pose proof (HB x) as B. rewrite GX in B. rewrite OT by auto. destruct (h_mem h1 x) as [b'|]; [|contradiction]. eauto. }
  assert (EF : forall x, eflds h2 ov x = eflds h (upd ov a (Some [])) x).
  { intros x. destruct (Nat.eq_dec x a) as [->|NE]; [unfold eflds; rewrite D, G, upd_eq; auto|].
    rewrite eflds_upd_neq by auto. unfold eflds. rewrite OT by auto. apply (eflds_chain h h1 ov x HB). }
  assert (RF : forall p z, refs p h2 ov z = refs p h (upd ov a (Some [])) z) by (intros; apply refs_ext; auto).
  split.
  - destruct R as [R1 R2 R3 R4 R5 R6 R7 R8 R9]. constructor; eauto.
    + intros z c GZ. destruct (SAME z c GZ) as (b0 & G0 & (S1 & _) & NE). rewrite RF, S1. eauto.
    + intros z c GZ RT O. destruct (SAME z c GZ) as (b0 & G0 & (_ & S2 & _) & NE). rewrite RF. apply (R3 z b0); [auto|congruence|rewrite upd_neq; auto].
    + intros z c GZ SS. destruct (SAME z c GZ) as (b0 & G0 & S & NE). assert (S' := S). destruct S' as (_ & -> & _). apply (R4 z b0); auto.
      apply (same_rc_static _ _ (same_chain_rc _ _ S)). auto.
    + intros z. rewrite !RF. auto.
    + intros x p v I NP. rewrite EF in I. specialize (R6 x p v I NP). destruct v as [|y|]; auto. destruct R6 as (A & B). split; auto.
      destruct (Nat.eq_dec y a) as [->|NE].
      * exfalso. assert (L : h_mem h x <> None) by (eapply eflds_live; eauto).
        destruct (R7 a [] (upd_eq _ _ _)) as (_ & Z1 & Z2). destruct R1 as (l0 & W0). pose proof (wc_fresh _ _ _ W0 x L) as LT.
        destruct p; [|  |congruence]; [pose proof (refs_in _ _ _ _ _ LT I); lia|pose proof (refs_in _ _ _ _ _ LT I); lia].
      * destruct (h_mem h y) as [b0|] eqn:G0; [|congruence]. destruct (BACK y b0 NE G0) as (b' & -> & _). discriminate.
    + intros x gs O. rewrite !RF. assert (NE : x <> a) by congruence. destruct (R7 x gs) as (A & B & C); [rewrite upd_neq; auto|].
      split; auto. destruct (h_mem h x) as [b0|] eqn:G0; [|congruence]. destruct (BACK x b0 NE G0) as (b' & -> & _). discriminate.
    + intros x c p vs GX B NV. destruct (SAME x c GX) as (b0 & G0 & (_ & _ & _ & _ & S) & NE). rewrite B in S.
      destruct (b_body b0) as [|k0 vs0] eqn:B0; [discriminate|]. injection S as -> ->. eapply R8; eauto.
  - intros T TA. constructor; auto.
    + intros x b' GX. destruct (SAME x b' GX) as (b0 & G0 & S & _). exists b0. split; [auto|apply same_chain_rc; auto].
    + intros x f I. rewrite <- EF. auto.
    + intros x c GX NS (O1 & O2). split; rewrite <- RF; auto.
    + intros x c NT GX. apply BACK; auto. intros ->. auto.
Qed.

Lemma rel_skip T h ov a f fs : h_mem h a <> None -> a < h_next h -> (forall y, hit DEL_RC y f = false /\ hit DEL y f = false) ->
  rel T h (upd ov a (Some (f :: fs))) h (upd ov a (Some fs)).
Proof.
  intros L LT F. constructor; auto.
  - intros x b' GX. exists b'. split; [auto|apply same_but_rc_refl].
  - intros x g I. apply eflds_step. auto.
  - intros x c GX NS (O1 & O2). split; rewrite (upd_step _ _ _ f) by auto; destruct (F x) as (E1 & E2); [rewrite E1|rewrite E2]; lia.
  - intros x c NT GX. exists c. split; [auto|apply same_but_chain_refl].
Qed.

Lemma trace_del_rc : forall fuel h ov a b T, RI h (upd ov a (Some (bfields b))) -> h_mem h a = Some b -> ov a = None ->
  idle h ov <= fuel -> closedT h (upd ov a (Some (bfields b))) T -> T a -> ~ P a ->
  exists h', trace_del fuel h a = Ok h' /\ RI h' ov /\ rel T h (upd ov a (Some (bfields b))) h' ov /\
    (shape_of b <> SStatic -> h_mem h' a = None).
Proof.
  induction fuel as [|f IH]; intros h ov a b T R G N ID CT TA NP.
  { exfalso. assert (L : h_mem h a <> None) by congruence. pose proof (idle_upd h ov a [] L (ri_fresh _ _ _ R L) N). lia. }
  assert (FO : forall fs h, RI h (upd ov a (Some fs)) -> h_mem h a <> None -> S (idle h (upd ov a (Some []))) <= S f ->
    closedT h (upd ov a (Some fs)) T ->
    exists h', foldm (del_e (trace_del f)) h fs = Ok h' /\ RI h' (upd ov a (Some [])) /\ rel T h (upd ov a (Some fs)) h' (upd ov a (Some []))).
  { clear h b R G ID CT. induction fs as [|(p, v) fs IHf]; intros h R L ID CT.
    - exists h. split; [auto|]. split; [auto|]. constructor; auto.
      + intros x b' GX. exists b'. split; [auto|apply same_but_rc_refl].
      + intros x c NT GX. exists c. split; [auto|apply same_but_chain_refl].
    - pose proof (ri_fresh _ _ _ R L) as LT.
      assert (EA : eflds h (upd ov a (Some ((p, v) :: fs))) a = (p, v) :: fs) by (apply eflds_upd_eq; auto).
      assert (SKIP : (forall y, hit DEL_RC y (p, v) = false /\ hit DEL y (p, v) = false) -> del_e (trace_del f) h (p, v) = Ok h ->
        exists h', foldm (del_e (trace_del f)) h ((p, v) :: fs) = Ok h' /\ RI h' (upd ov a (Some [])) /\
          rel T h (upd ov a (Some ((p, v) :: fs))) h' (upd ov a (Some []))).
      { intros F E. pose proof (RI_skip _ _ _ _ _ R F) as R1. pose proof (rel_skip T h ov a (p, v) fs L LT F) as RL.
        destruct (IHf h R1 L ID (closed_shrink _ _ _ _ _ RL CT)) as (h' & E' & R' & RL'). exists h'.
        cbn [foldm]. rewrite E. cbn [bind]. split; [auto|]. split; [auto|]. eapply rel_trans; eauto. }
      assert (I0 : In (p, v) (eflds h (upd ov a (Some ((p, v) :: fs))) a)) by (rewrite EA; left; auto).
      (* the part after the field's own deletion *)
      assert (NEXT : forall h2, del_e (trace_del f) h (p, v) = Ok h2 -> RI h2 (upd ov a (Some fs)) ->
        rel T h (upd ov a (Some ((p, v) :: fs))) h2 (upd ov a (Some fs)) ->
        exists h', foldm (del_e (trace_del f)) h ((p, v) :: fs) = Ok h' /\ RI h' (upd ov a (Some [])) /\
          rel T h (upd ov a (Some ((p, v) :: fs))) h' (upd ov a (Some []))).
      { intros h2 E R2 RL. assert (L2 : h_mem h2 a <> None) by (apply (ri_ov _ _ R2 a fs); apply upd_eq).
        destruct (IHf h2 R2 L2) as (h' & E' & R' & RL').
        - etransitivity; [|exact ID]. apply le_n_S. apply idle_le; [apply (re_next _ _ _ _ _ RL)| |auto].
          intros x X. destruct (h_mem h2 x) eqn:GX; auto. destruct (re_keep _ _ _ _ _ RL x b GX) as (b0 & X0 & _). congruence.
        - eapply closed_shrink; eauto.
        - exists h'. cbn [foldm]. rewrite E. cbn [bind]. split; [auto|]. split; [auto|]. eapply rel_trans; eauto. }
      assert (NPOL : p <> NOOP -> v = VNull \/ exists y by', v = VPtr y /\ h_mem h y = Some by' /\ ~ P y /\ T y).
      { intros NP'. pose proof (ri_tgt _ _ R a p v I0 NP') as X. destruct v as [|y|]; [auto| |contradiction].
        destruct X as (X & Y). destruct (h_mem h y) as [by'|] eqn:GY; [|congruence]. right. exists y, by'. split; [auto|]. split; [auto|]. split; [auto|].
        eapply CT; eauto. }
      destruct p.
      + destruct NPOL as [->|(y & by' & -> & GY & NPY & TY)]; [discriminate|apply SKIP; [auto|reflexivity]|]. clear SKIP.
        destruct (modify_live h y (fun b => if (b_rc b =? 0)%Z then b else set_rc (b_rc b - 1) b)) as (h1 & M & _); [congruence|].
        destruct (RI_rc _ _ _ _ _ _ _ R GY M) as (R1 & b1 & G1 & SB & RC1 & NA & OT & NX & RT & NO).
        assert (RT1 : b_ret b1 = false) by (destruct SB as (-> & _); auto).
        assert (L1 : h_mem h1 a <> None) by (rewrite OT by auto; auto).
        assert (EQ : forall x, match h_mem h x, h_mem h1 x with Some b, Some b' => same_but_rc b b' | None, None => True | _, _ => False end).
        { intros x. destruct (Nat.eq_dec x y) as [->|NE]; [rewrite GY, G1; auto|rewrite OT by auto; destruct (h_mem h x); auto; apply same_but_rc_refl]. }
        assert (RF : forall p z, refs p h1 (upd ov a (Some fs)) z = refs p h (upd ov a (Some fs)) z) by (intros; apply refs_rc_only; auto).
        assert (EF : forall x, eflds h1 (upd ov a (Some fs)) x = eflds h (upd ov a (Some fs)) x) by (apply (refs_rc_only NOOP _ _ _ 0 NX EQ)).
        assert (RL1 : (0 < refs DEL_RC h1 (upd ov a (Some fs)) y) -> rel T h (upd ov a (Some ((DEL_RC, VPtr y) :: fs))) h1 (upd ov a (Some fs))).
        { intros POS. constructor; auto.
          - intros x b' GX. specialize (EQ x). rewrite GX in EQ. destruct (h_mem h x) as [b0|]; [|contradiction]. eauto.
          - intros x g I. apply eflds_step. rewrite <- EF. auto.
          - intros x c GX NS (O1 & O2). rewrite RF in O1, O2. split; rewrite (upd_step _ _ _ (DEL_RC, VPtr y)) by auto; cbn [hit peq andb]; [|lia].
            destruct (Nat.eqb_spec y x) as [->|]; [|lia]. rewrite RF in POS. lia.
          - intros x c NT GX. assert (x <> y) by congruence. rewrite OT by auto. exists c. split; [auto|apply same_but_chain_refl]. }
        assert (CNT := ri_cnt _ _ R1 y b1 G1).
        destruct (Z.eqb_spec (b_rc b1) 0) as [Z0|Z0].
        * (* last reference *)
          assert (O1 : orphan h1 (upd ov a (Some fs)) y).
          { split; [lia|]. destruct (ri_own _ _ R y) as (_ & OW). rewrite RF.
            assert (X : 0 < refs DEL_RC h (upd ov a (Some ((DEL_RC, VPtr y) :: fs))) y) by (apply (refs_in _ _ _ a); auto).
            rewrite (upd_step _ _ _ _ _ DEL) in OW by auto. cbn [hit peq andb Nat.add] in OW. destruct (refs DEL h (upd ov a (Some fs)) y); [auto|].
            exfalso. specialize (OW ltac:(lia)). lia. }
          assert (N1 : upd ov a (Some fs) y = None) by (rewrite upd_neq; auto).
          assert (CT1 : closedT h1 (upd (upd ov a (Some fs)) y (Some (bfields b1))) T).
          { intros x q z TX I NQ. assert (I' : In (q, VPtr z) (eflds h1 (upd ov a (Some fs)) x)).
            { destruct (Nat.eq_dec x y) as [->|NE]; [rewrite eflds_upd_eq in I by congruence; unfold eflds; rewrite G1, N1; auto|rewrite eflds_upd_neq in I; auto]. }
            rewrite EF in I'. apply (eflds_step _ _ _ (DEL_RC, VPtr y)) in I'. eapply CT; eauto. }
          destruct (IH h1 (upd ov a (Some fs)) y b1 T (RI_start _ _ _ _ R1 G1 N1 O1) G1 N1) as (h2 & E2 & R2 & RL2 & DEAD); auto.
          { assert (X : idle h1 (upd ov a (Some fs)) <= idle h (upd ov a (Some []))).
            { apply idle_le; auto.
              - intros x X. destruct (Nat.eq_dec x y) as [->|NE]; [congruence|rewrite OT; auto].
              - intros x X. destruct (Nat.eq_dec x a) as [->|NE]; [rewrite upd_eq in X; discriminate|rewrite upd_neq in *; auto]. }
            lia. }
          apply (NEXT h2); auto.
          { cbn [del_e]. rewrite M. cbn [bind]. unfold get. rewrite G1. cbn [bind]. rewrite RT1. apply Z.eqb_eq in Z0. rewrite Z0. auto. }
          assert (EFS : forall x, eflds h1 (upd (upd ov a (Some fs)) y (Some (bfields b1))) x = eflds h1 (upd ov a (Some fs)) x).
          { intros x. destruct (Nat.eq_dec x y) as [->|NE]; [rewrite eflds_upd_eq by congruence; unfold eflds; rewrite G1, N1; auto|rewrite eflds_upd_neq; auto]. }
          constructor.
          -- rewrite (re_next _ _ _ _ _ RL2). auto.
          -- intros x b' GX. destruct (re_keep _ _ _ _ _ RL2 x b' GX) as (b0 & G0 & S0). specialize (EQ x). rewrite G0 in EQ.
             destruct (h_mem h x) as [b00|]; [|contradiction]. exists b00. split; [auto|]. eapply same_but_rc_trans; eauto.
          -- intros x g I. apply (re_shrink _ _ _ _ _ RL2) in I. rewrite EFS, EF in I. apply eflds_step. auto.
          -- intros x c GX NS O. destruct (re_orphan _ _ _ _ _ RL2 x c GX NS O) as (O1' & O2').
             assert (NY : x <> y).
             { intros ->. destruct (re_keep _ _ _ _ _ RL2 y c GX) as (b0 & G0 & S0). rewrite G1 in G0. injection G0 as <-.
               rewrite DEAD in GX; [discriminate|]. intros Z. apply NS. apply (same_rc_static _ _ S0). auto. }
             rewrite (refs_ext _ h1 h1 _ _ x eq_refl EFS), RF in O1'. rewrite (refs_ext _ h1 h1 _ _ x eq_refl EFS), RF in O2'.
             split; rewrite (upd_step _ _ _ (DEL_RC, VPtr y)) by auto; cbn [hit peq andb]; [|lia].
             destruct (Nat.eqb_spec y x); [congruence|lia].
          -- intros x c NT GX. assert (x <> y) by congruence. destruct (re_same _ _ _ _ _ RL2 x c NT) as (b' & GX' & S'); [rewrite OT; auto|]. eauto.
        * apply (NEXT h1); auto.
          { cbn [del_e]. rewrite M. cbn [bind]. unfold get. rewrite G1. cbn [bind]. rewrite RT1. apply Z.eqb_neq in Z0. rewrite Z0. auto. }
          apply RL1. lia.
      + destruct NPOL as [->|(y & by' & -> & GY & NPY & TY)]; [discriminate|apply SKIP; [auto|reflexivity]|]. clear SKIP.
        destruct (RI_del _ _ _ _ _ _ R GY) as (R1 & NA & NO).
        assert (N1 : upd ov a (Some fs) y = None) by (rewrite upd_neq; auto).
        assert (EFS : forall x, eflds h (upd (upd ov a (Some fs)) y (Some (bfields by'))) x = eflds h (upd ov a (Some fs)) x).
        { intros x. destruct (Nat.eq_dec x y) as [->|NE]; [rewrite eflds_upd_eq by congruence; unfold eflds; rewrite GY, N1; auto|rewrite eflds_upd_neq; auto]. }
        destruct (IH h (upd ov a (Some fs)) y by' T R1 GY N1) as (h2 & E2 & R2 & RL2 & DEAD); auto.
        { assert (X : idle h (upd ov a (Some fs)) <= idle h (upd ov a (Some []))).
          { apply idle_le; auto. intros x X. destruct (Nat.eq_dec x a) as [->|NE]; [rewrite upd_eq in X; discriminate|rewrite upd_neq in *; auto]. }
          lia. }
        { intros x q z TX I NQ. rewrite EFS in I. apply (eflds_step _ _ _ (DEL, VPtr y)) in I. eapply CT; eauto. }
        apply (NEXT h2); auto. constructor.
        * apply (re_next _ _ _ _ _ RL2).
        * intros x b' GX. apply (re_keep _ _ _ _ _ RL2 x b' GX).
        * intros x g I. apply (re_shrink _ _ _ _ _ RL2) in I. rewrite EFS in I. apply eflds_step. auto.
        * intros x c GX NS O. destruct (re_orphan _ _ _ _ _ RL2 x c GX NS O) as (O1' & O2').
          assert (NY : x <> y).
          { intros ->. destruct (re_keep _ _ _ _ _ RL2 y c GX) as (b0 & G0 & S0). rewrite GY in G0. injection G0 as <-.
            rewrite DEAD in GX; [discriminate|]. intros Z. apply NS. apply (same_rc_static _ _ S0). auto. }
          rewrite (refs_ext _ h h _ _ x eq_refl EFS) in O1'. rewrite (refs_ext _ h h _ _ x eq_refl EFS) in O2'.
          split; rewrite (upd_step _ _ _ (DEL, VPtr y)) by auto; cbn [hit peq andb]; [lia|].
          destruct (Nat.eqb_spec y x); [congruence|lia].
        * apply (re_same _ _ _ _ _ RL2).
      + apply SKIP; [intros y; destruct v; auto|reflexivity]. }
  assert (L : h_mem h a <> None) by congruence. pose proof (ri_fresh _ _ _ R L) as LT.
  destruct (ri_chain _ _ R) as (l & W).
  assert (OBJ : shape_of b <> SStatic -> (exists t, shape_of b = SState t) \/ In a l).
  { intros NS. destruct (wc_all _ _ _ W a L) as [->|[I|I]]; [left|auto|]; exfalso; [apply NP, (ri_st _ _ R)|].
    unfold shp in I. rewrite G in I. cbn in I. congruence. }
  assert (MAIN : shape_of b <> SStatic -> In a l ->
    exists h', (let* h0 := foldm (del_e (trace_del f)) h (bfields b) in let* h1 := de_chain h0 a in free h1 a) = Ok h' /\
      RI h' ov /\ rel T h (upd ov a (Some (bfields b))) h' ov /\ h_mem h' a = None).
  { intros NS I. destruct (FO (bfields b) h R L) as (h1 & E1 & R1 & RL1); auto.
    { pose proof (idle_upd h ov a [] L LT N). lia. }
    rewrite E1. cbn [bind]. assert (L1 : h_mem h1 a <> None) by (apply (ri_ov _ _ R1 a []); apply upd_eq).
    destruct (h_mem h1 a) as [b1|] eqn:G1; [|congruence]. destruct (re_keep _ _ _ _ _ RL1 a b1 G1) as (b' & G' & S'). rewrite G in G'. injection G' as <-.
    destruct (ri_chain _ _ R1) as (l1 & W1).
    assert (I1 : In a l1).
    { destruct (wc_all _ _ _ W1 a) as [->|[J|J]]; [congruence|exfalso; apply NP, (ri_st _ _ R)|auto|].
      exfalso. unfold shp in J. rewrite G1 in J. cbn in J. apply NS. apply (same_rc_static _ _ S'). congruence. }
    apply in_split in I1 as (u & w & ->). destruct (unlink_wf _ _ _ _ _ W1) as (h2 & h3 & D1 & D2 & W3 & HB & DD & OT & NX & _).
    rewrite D1. cbn [bind]. rewrite D2. exists h3. split; [auto|].
    destruct (RI_free h1 ov a b1 h2 h3 _ R1 G1 N W3 HB DD OT NX) as (R3 & RL3). split; [auto|]. split; [|auto].
    eapply rel_trans; [exact RL1|apply RL3; auto]. }
  assert (ST : shape_of b = SStatic -> exists h', Ok h = Ok h' /\ RI h' ov /\ rel T h (upd ov a (Some (bfields b))) h' ov /\
    (shape_of b <> SStatic -> h_mem h' a = None)).
  { intros SS. destruct (RI_static_end _ _ _ _ R G N SS) as (R1 & RL1). exists h. split; [auto|]. split; [auto|]. split; [auto|contradiction]. }
  assert (NSET : forall p v vs, b_body b <> BObj (KSet p) (v :: vs)).
  { intros p v vs B. apply NP. eapply (ri_set _ _ R); eauto. discriminate. }
  assert (NSTATE : forall t, shape_of b <> SState t).
  { intros t SS. apply NP. destruct (wc_all _ _ _ W a L) as [->|[J|J]]; [apply (ri_st _ _ R)| |].
    - destruct (wc_obj _ _ _ W a J) as (Z & _). unfold shp in Z. rewrite G in Z. cbn in Z. congruence.
    - unfold shp in J. rewrite G in J. cbn in J. congruence. }
  cbn [trace_del]. unfold get. rewrite G. cbn [bind].
  assert (MAIN' : shape_of b <> SStatic -> exists h', (let* h0 := foldm (del_e (trace_del f)) h (bfields b) in let* h1 := de_chain h0 a in free h1 a) = Ok h' /\
      RI h' ov /\ rel T h (upd ov a (Some (bfields b))) h' ov /\ (shape_of b <> SStatic -> h_mem h' a = None)).
  { intros NS. destruct (OBJ NS) as [(t & X)|I]; [exfalso; apply (NSTATE t X)|]. destruct (MAIN NS I) as (h' & A & B & C & D). eauto 10. }
  unfold shape_of, bfields in *. destruct (b_body b) as [t r s c m|[] vs]; try (apply MAIN'; discriminate).
  - exfalso. apply (NSTATE t). auto.
  - apply ST. auto.
  - destruct vs as [|v vs]; [apply MAIN'; discriminate|]. exfalso. eapply NSET; eauto.
Qed.
End Prot.
