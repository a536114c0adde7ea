(** The invariant of counted and owned objects, kept by the library operations. *)
From Coq Require Import ZArith List Bool Lia.
From Verif Require Import Base HeapModel HeapChainProofs HeapHistory HeapSweepProofs HeapRcProofs HeapRcHistory HeapRcOps.
Import ListNotations.
Open Scope nat_scope.
Open Scope outcome_scope.
Local Arguments Z.add : simpl never.
Local Arguments Z.sub : simpl never.
Local Arguments Z.of_nat : simpl never.

(** * Deletion with more fuel *)
Lemma foldm_fuel {A} (f g : heap -> A -> outcome heap) : (forall h x h', f h x = Ok h' -> g h x = Ok h') ->
  forall l h h', foldm f h l = Ok h' -> foldm g h l = Ok h'.
Proof.
  intros E. induction l as [|x l IH]; intros h h'; cbn; auto. intros H. apply bind_ok in H as (h1 & H1 & H).
  rewrite (E _ _ _ H1). cbn. auto.
Qed.
Lemma del_e_fuel tr tr' : (forall h a h', tr h a = Ok h' -> tr' h a = Ok h') -> forall h f h', del_e tr h f = Ok h' -> del_e tr' h f = Ok h'.
Proof.
  intros E h ([], []) h'; cbn; auto. intros H. apply bind_ok in H as (h1 & -> & H). cbn. apply bind_ok in H as (b & -> & H). cbn.
  destruct (b_ret b); auto. destruct (b_rc b =? 0)%Z; auto.
Qed.
Lemma del_state_fuel : forall f f' h a h', del_state f h a = Ok h' -> f <= f' -> del_state f' h a = Ok h'.
Proof.
  induction f as [|f IH]; intros f' h a h' H L; [discriminate|]. destruct f' as [|f']; [lia|]. cbn in *.
  apply bind_ok in H as (t & -> & H). cbn. destruct (t =? a); auto. apply bind_ok in H as (h1 & -> & H). cbn. apply IH; auto. lia.
Qed.
Lemma trace_del_fuel : forall f f' h a h', trace_del f h a = Ok h' -> f <= f' -> trace_del f' h a = Ok h'.
Proof.
  induction f as [|f IH]; intros f' h a h' H L; [discriminate|]. destruct f' as [|f']; [lia|]. cbn [trace_del] in *.
  apply bind_ok in H as (b & -> & H). cbn [bind].
  assert (E : forall h a h', trace_del f h a = Ok h' -> trace_del f' h a = Ok h') by (intros; apply IH; auto; lia).
  assert (X : forall fs, (let* h0 := foldm (del_e (trace_del f)) h fs in let* h1 := de_chain h0 a in free h1 a) = Ok h' ->
     (let* h0 := foldm (del_e (trace_del f')) h fs in let* h1 := de_chain h0 a in free h1 a) = Ok h').
  { intros fs Y. apply bind_ok in Y as (h1 & Y & Z). rewrite (foldm_fuel _ _ (del_e_fuel _ _ E) _ _ _ Y). cbn. auto. }
  destruct (b_body b) as [? ? ? ? ?|k vs]; [eapply del_state_fuel; eauto; lia|].
  destruct k; auto; destruct vs; auto.
Qed.

Section Inv.
Variables st r s c : addr.
Definition prot (x : addr) : Prop := x = st \/ x = r \/ x = s \/ x = c.
Notation RI := (RI st prot).
Notation delta := (delta st prot).
Notation okfs := (okfs prot).

Definition islist (h : heap) (a : addr) : Prop := exists b vs, h_mem h a = Some b /\ b_body b = BObj (KList DEL_RC) vs.
Definition entry (h : heap) (pk pv : policy) (t : val) : Prop :=
  exists ta b k v, t = VPtr ta /\ h_mem h ta = Some b /\ b_body b = BObj (KProd [pk; pv]) [k; v] /\ b_ret b = false.
Definition mapok (h : heap) (x : addr) : Prop := forall b pk pv vs, h_mem h x = Some b -> b_body b = BObj (KMap pk pv) vs ->
  pk <> DEL /\ exists kl ts, vs = VPtr kl :: ts /\ islist h kl /\ Forall (entry h pk pv) ts.
Record SI (h : heap) : Prop := {
  si_st : exists b t m, h_mem h st = Some b /\ b_body b = BState t r s c m;
  si_r : exists b vs, h_mem h r = Some b /\ b_body b = BObj (KSet NOOP) vs;
  si_live : forall x, prot x -> h_mem h x <> None
}.
Record Inv (h : heap) : Prop := { iv_ri : RI h none; iv_map : forall x, mapok h x; iv_si : SI h }.

Definition step_ok (v v' : body) : Prop :=
  match v with
  | BState _ r s c _ => exists t m, v' = BState t r s c m
  | BObj k vs => exists vs', v' = BObj k vs' /\
    match k with KProd _ => length vs' = length vs | KMap _ _ => vs' = vs | _ => True end
  end.
Lemma step_ok_refl v : step_ok v v.
Proof. destruct v as [|k vs]; cbn; [eauto|]. exists vs. split; auto. destruct k; auto. Qed.
Lemma step_ok_trans u v w : step_ok u v -> step_ok v w -> step_ok u w.
Proof.
  destruct u as [|k vs]; cbn.
  - intros (t & m & ->) (t' & m' & ->). eauto.
  - intros (vs' & -> & A) (vs2 & -> & B). exists vs2. split; auto. destruct k; auto; congruence.
Qed.
(** [X] may be an object that is exempt *)
Definition kp (X : option addr) (h h' : heap) : Prop :=
  forall x b b', X <> Some x -> h_mem h x = Some b -> h_mem h' x = Some b' -> step_ok (b_body b) (b_body b').
Lemma kp_bodies X h h' : same_bodies h h' -> kp X h h'.
Proof. intros E x b b' _ G G'. specialize (E x). rewrite G, G' in E. cbn in E. injection E as ->. apply step_ok_refl. Qed.
Lemma kp_rc X h h' : (forall x b b', h_mem h x = Some b -> h_mem h' x = Some b' -> same_but_rc b b') -> kp X h h'.
Proof.
  intros E x b b' _ G G'. destruct (E x b b' G G') as (_ & _ & _ & B). destruct (b_body b) as [t1 r1 s1 c1 m1|k vs], (b_body b') as [t2 r2 s2 c2 m2|k2 vs2]; try discriminate.
  - destruct B as (-> & -> & -> & ->). cbn. eauto.
  - injection B as -> ->. apply step_ok_refl.
Qed.
Lemma kp_trans X h1 h2 h3 : kp X h1 h2 -> kp X h2 h3 -> (forall x, h_mem h1 x <> None -> h_mem h3 x <> None -> h_mem h2 x <> None) -> kp X h1 h3.
Proof.
  intros A B L x b b' NX G G'. destruct (h_mem h2 x) as [b2|] eqn:G2; [|exfalso; apply (L x); congruence].
  eapply step_ok_trans; [eapply A; eauto|eapply B; eauto].
Qed.
Lemma kp_weak X h h' : kp None h h' -> kp X h h'.
Proof. intros K x b b' N. apply K. discriminate. Qed.

(** owned objects are not retained later *)
Definition keeps_ret (h h' : heap) : Prop :=
  forall y, h_mem h y <> None -> h_mem h' y <> None -> retof h y = false -> 0 < rf DEL h y -> retof h' y = false.
(** what holds of an exempt object *)
Definition exempt (h h' : heap) (x : addr) : Prop :=
  h_mem h' x = None \/
  (rf DEL h' x = 0 /\ exists b ps vs, h_mem h' x = Some b /\ b_body b = BObj (KProd ps) vs) \/
  (mapok h' x /\ exists b pk pv vs, h_mem h x = Some b /\ b_body b = BObj (KMap pk pv) vs).
Lemma MI_pres X h h' : RI h none -> RI h' none -> (forall x, mapok h x) -> kp X h h' -> keeps_ret h h' ->
  (forall x, X = Some x -> exempt h h' x) ->
  (forall x b', h_mem h x = None -> h_mem h' x = Some b' -> mapok h' x) -> forall x, mapok h' x.
Proof.
  intros R0 R M K KR XX NEW x.
  assert (KX : forall y b b', h_mem h y = Some b -> h_mem h' y = Some b' ->
     step_ok (b_body b) (b_body b') \/ (rf DEL h' y = 0 /\ exists ps vs, b_body b' = BObj (KProd ps) vs) \/
     mapok h' y /\ exists pk pv vs, b_body b = BObj (KMap pk pv) vs).
  { intros y b b' G G'. assert (D : X = Some y \/ X <> Some y).
    { destruct X as [x0|]; [destruct (Nat.eq_dec x0 y); [left; congruence|right; congruence]|right; discriminate]. }
    destruct D as [D|D]; [|left; eapply K; eauto]. destruct (XX y D) as [E|[(E & b0 & ps & vs & G0 & B0)|(E & b0 & pk & pv & vs & G0 & B0)]]; [congruence| |].
    - right; left. split; auto. rewrite G' in G0. injection G0 as <-. eauto.
    - right; right. split; auto. rewrite G in G0. injection G0 as <-. eauto. }
  intros b' pk pv vs G' B'.
  destruct (h_mem h x) as [b|] eqn:G; [|eapply NEW; eauto].
  destruct (KX x b b' G G') as [S|[(_ & ? & ? & E)|(MO & _)]]; [|congruence|apply (MO b' pk pv vs G' B')].
  assert (B : b_body b = BObj (KMap pk pv) vs).
  { rewrite B' in S. destruct (b_body b) as [|k ws]; cbn in S; [destruct S as (? & ? & S); discriminate|]. destruct S as (vs' & E & Y). injection E as <- <-. congruence. }
  destruct (M x b pk pv vs G B) as (NP & kl & ts & -> & (bk & ks & Gk & Bk) & FE).
  assert (FI : forall v, In v (VPtr kl :: ts) -> In (DEL, v) (eflds h' none x)).
  { intros v I. unfold eflds, none. rewrite G'. cbn [none]. unfold bfields. rewrite B'. cbn [del_fields]. apply in_map. auto. }
  assert (LX : x < h_next h') by (apply (ri_fresh _ _ _ _ _ R); congruence).
  assert (RP : forall y, In (VPtr y) (VPtr kl :: ts) -> 0 < rf DEL h' y).
  { intros y I. apply (refs_in DEL h' none x y LX). apply FI. auto. }
  split; [auto|]. exists kl, ts. split; [auto|]. split.
  - destruct (ri_tgt _ _ _ _ R x DEL (VPtr kl)) as (L & _); [apply FI; left; auto|discriminate|].
    pose proof (RP kl (or_introl eq_refl)) as RK.
    destruct (h_mem h' kl) as [bk'|] eqn:Gk'; [|congruence]. destruct (KX kl bk bk' Gk Gk') as [Sk|[(E & _)|(_ & ? & ? & ? & E)]]; [|lia|congruence].
    rewrite Bk in Sk. destruct Sk as (ks' & E & _). exists bk', ks'. auto.
  - rewrite Forall_forall in *. intros t I. destruct (FE t I) as (ta & bt & k & v & -> & Gt & Bt & Rt).
    destruct (ri_tgt _ _ _ _ R x DEL (VPtr ta)) as (L & _); [apply FI; right; auto|discriminate|].
    pose proof (RP ta (or_intror I)) as RK.
    destruct (h_mem h' ta) as [bt'|] eqn:Gt'; [|congruence]. destruct (KX ta bt bt' Gt Gt') as [Sk|[(E & _)|(_ & ? & ? & ? & E)]]; [|lia|congruence].
    rewrite Bt in Sk. destruct Sk as (ws & E & LE). destruct ws as [|k' [|v' [|? ?]]]; try discriminate.
    exists ta, bt', k', v'. split; [auto|]. split; [auto|]. split; [auto|].
    assert (Q : retof h' ta = false). { apply KR; [congruence|congruence|unfold retof; rewrite Gt; auto|].
      apply (refs_in DEL h none x ta); [apply (ri_fresh _ _ _ _ _ R0); congruence|]. unfold eflds, none. rewrite G. unfold bfields. rewrite B. cbn [del_fields]. apply in_map. right. auto. }
    unfold retof in Q. rewrite Gt' in Q. auto.
Qed.
Lemma keeps_ret_add h h' fs D C F N : delta h h' D C F N -> okfs h fs ->
  (forall y r, F y r = true -> r = true \/ 0 < hits DEL y fs) -> keeps_ret h h'.
Proof.
  intros A OK FT y L L' R Q. rewrite (d_ret _ _ _ _ _ _ _ _ A y L'), R. destruct (F y false) eqn:E; auto.
  destruct (FT y false E) as [?|HI]; [discriminate|]. apply hits_in in HI. destruct (OK _ _ HI) as (_ & _ & _ & Z & _); [discriminate|]. lia.
Qed.
Lemma keeps_ret_rem h h' D C F N : delta h h' D C F N -> (forall y, F y false = false) -> keeps_ret h h'.
Proof. intros A FT y L L' R Q. rewrite (d_ret _ _ _ _ _ _ _ _ A y L'), R. auto. Qed.
Lemma SI_pres X h h' : SI h -> kp X h h' -> X <> Some st -> X <> Some r -> (forall x, prot x -> h_mem h' x <> None) -> SI h'.
Proof.
  intros [(b & t & m & G & B) (br & vs & Gr & Br) L] K X1 X2 L'. constructor; auto.
  - destruct (h_mem h' st) as [b'|] eqn:G'; [|exfalso; apply (L' st); [left; auto|auto]]. pose proof (K st b b' X1 G G') as S.
    rewrite B in S. cbn in S. destruct S as (t' & m' & S). exists b', t', m'. auto.
  - destruct (h_mem h' r) as [b'|] eqn:G'; [|exfalso; apply (L' r); [right; left; auto|auto]]. pose proof (K r br b' X2 Gr G') as S.
    rewrite Br in S. cbn in S. destruct S as (vs' & S & _). exists b', vs'. auto.
Qed.

(** ** Operations that leave every object where it is *)
Lemma Inv_skel h h' : Inv h -> RI h' none -> kp None h h' -> keeps_ret h h' -> same_skel h h' -> Inv h'.
Proof.
  intros [R M S] R' K KR SK. constructor; auto.
  - apply (MI_pres None h h'); auto; [discriminate|]. intros x b' D G. apply (skel_live _ _ x SK) in D. congruence.
  - eapply SI_pres; eauto; try discriminate. intros x PX D. apply (si_live _ S x PX). apply (skel_live _ _ x SK). auto.
Qed.
(** ** Operations that make new objects *)
Lemma Inv_new h h' : Inv h -> RI h' none -> kp None h h' -> keeps_ret h h' -> (forall x, h_mem h x <> None -> h_mem h' x <> None) ->
  (forall x b', h_mem h x = None -> h_mem h' x = Some b' -> mapok h' x) -> Inv h'.
Proof.
  intros [R M S] R' K KR L N. constructor; auto.
  - apply (MI_pres None h h'); auto. discriminate.
  - eapply SI_pres; eauto; try discriminate. intros x PX. apply L. apply (si_live _ S x PX).
Qed.
(** ** Deletion *)
Lemma RI_deletion h a b fuel h' : RI h none -> h_mem h a = Some b -> rf DEL_RC h a = 0 -> rf DEL h a = 0 -> ~ prot a ->
  trace_del fuel h a = Ok h' -> RI h' none /\ (forall T : addr -> Prop, (forall x, T x -> ~ prot x) -> closedT h none T -> T a -> rel T h none h' none) /\
    (shape_of b <> SStatic -> h_mem h' a = None).
Proof.
  intros R G O1 O2 NP H. pose proof (RI_start st prot h none a b R G eq_refl (conj O1 O2)) as RS.
  set (F := max fuel (idle h none)). apply trace_del_fuel with (f' := F) in H; [|unfold F; lia].
  assert (EF : forall x, eflds h (upd none a (Some (bfields b))) x = eflds h none x).
  { intros x. destruct (Nat.eq_dec x a) as [->|NE]; [rewrite eflds_upd_eq by congruence; unfold eflds; rewrite G; auto|apply eflds_upd_neq; auto]. }
  assert (RF : forall p z, refs p h (upd none a (Some (bfields b))) z = refs p h none z) by (intros; apply refs_ext; auto).
  assert (X : forall T : addr -> Prop, closedT h none T -> T a -> RI h' none /\ rel T h none h' none /\ (shape_of b <> SStatic -> h_mem h' a = None)).
  { intros T CT TA. destruct (trace_del_rc st prot F h none a b T RS G eq_refl) as (h2 & E & R2 & RL & FR); auto.
    - unfold F. lia.
    - intros x p y TX I. rewrite EF in I. apply (CT x p y TX I).
    - rewrite E in H. injection H as ->. split; [auto|]. split; [|auto].
      destruct RL as [A1 A2 A3 A4 A5]. constructor; auto.
      + intros x f I. rewrite <- EF. apply (A3 x f I).
      + intros x b0 G0 NS O. destruct (A4 x b0 G0 NS O) as (Q1 & Q2). rewrite RF in Q1, Q2. split; auto. }
  destruct (X (fun _ => True)) as (Y1 & _ & Y2); [red; auto|auto|]. split; [auto|]. split; [|auto].
  intros T _ CT TA. apply X; auto.
Qed.
Lemma Inv_del h a b fuel h' : Inv h -> h_mem h a = Some b -> rf DEL_RC h a = 0 -> rf DEL h a = 0 -> ~ prot a ->
  trace_del fuel h a = Ok h' -> Inv h'.
Proof.
  intros [R M S] G O1 O2 NP H. destruct (RI_deletion _ _ _ _ _ R G O1 O2 NP H) as (R' & RL & FR).
  destruct (RL (fun x => ~ prot x)) as [A1 A2 A3 A4 A5]; [auto| |auto|].
  { intros x p y _ I NN. apply (ri_tgt _ _ _ _ R x p (VPtr y) I NN). }
  assert (KR : keeps_ret h h').
  { intros y L1 L2 E _. unfold retof in *. destruct (h_mem h' y) as [b2|] eqn:G2; [|auto]. destruct (A2 y b2 G2) as (b0 & G0 & (Y & _)).
    rewrite G0 in E. congruence. }
  assert (K : kp None h h').
  { apply kp_rc. intros x b1 b2 G1 G2. destruct (A2 x b2 G2) as (b0 & G0 & Y). congruence. }
  constructor; auto.
  - apply (MI_pres None h h'); auto; [discriminate|]. intros x b' D G'. destruct (A2 x b' G') as (b0 & G0 & _). congruence.
  - eapply SI_pres; eauto; try discriminate. intros x PX.
    pose proof (si_live _ S x PX) as LX. destruct (h_mem h x) as [b0|] eqn:G0; [|congruence].
    destruct (A5 x b0) as (b1 & -> & _); [tauto|auto|discriminate].
Qed.
End Inv.
