(** Every permitted operation keeps the invariant of counted and owned objects. *)
From Coq Require Import ZArith List Bool Lia.
From Verif Require Import Base HeapModel HeapChainProofs HeapHistory HeapSweepProofs HeapRcProofs HeapRcHistory HeapRcOps HeapRcInv.
Import ListNotations.
Open Scope nat_scope.
Open Scope outcome_scope.
Local Arguments Z.add : simpl never.
Local Arguments Z.sub : simpl never.
Local Arguments Z.of_nat : simpl never.

Section Steps.
Variables st r s c : addr.
Notation prot := (prot st r s c).
Notation RI := (RI st prot).
Notation delta := (delta st prot).
Notation okfs := (okfs prot).
Notation Inv := (Inv st r s c).

Lemma addF_or fs : forall y b, addF fs y b = true -> b = true \/ 0 < hits DEL y fs.
Proof. intros y b. unfold addF. rewrite orb_true_iff, Nat.ltb_lt. auto. Qed.
Lemma remF_and fs : forall y b, remF fs y b = true -> b = true /\ hits DEL y fs = 0.
Proof. intros y b. unfold remF. rewrite andb_true_iff, negb_true_iff, Nat.ltb_ge. intros (A & B). split; [auto|lia]. Qed.
Lemma okfs_nil h : okfs h []. Proof. intros p v []. Qed.
Lemma kp_put h a k vs vs' h' : get_obj h a = Ok (k, vs) -> put_vals h a k vs' = Ok h' ->
  match k with KProd _ => length vs' = length vs | KMap _ _ => vs' = vs | _ => True end -> kp None h h'.
Proof.
  intros G H KK. destruct (put_facts _ _ _ _ _ _ G H) as (b & Gb & Bb & _ & OT & Ga).
  intros x b1 b2 _ G1 G2. destruct (Nat.eq_dec x a) as [->|NE].
  - rewrite Ga in G2. injection G2 as <-. rewrite Gb in G1. injection G1 as <-. rewrite Bb. cbn. eauto.
  - rewrite OT in G2 by auto. rewrite G1 in G2. injection G2 as <-. apply step_ok_refl.
Qed.
Lemma kp_skel X h1 h2 h3 : kp X h1 h2 -> kp X h2 h3 -> same_skel h1 h2 -> kp X h1 h3.
Proof. intros A B SK. eapply kp_trans; eauto. intros x L _ D. apply L. apply (skel_live _ _ _ SK). auto. Qed.

(** * Lists and stacks *)
Lemma inv_in h a k vs us e ws p h1 h' : Inv h -> get_obj h a = Ok (k, vs) ->
  (forall zs, del_fields k zs = map (pair p) zs) -> match k with KList _ | KStack _ _ => True | _ => False end -> vs = us ++ ws ->
  put_vals h a k (us ++ e :: ws) = Ok h1 -> incr_indegree h1 p e = Ok h' -> okfs h [(p, e)] -> Inv h'.
Proof.
  intros IV G DF KK EV HP HI OK. pose proof (iv_ri _ _ _ _ _ IV) as R.
  destruct (delta_put_in st prot h a k vs us e ws p h1 h' R G DF) as (D & SK); auto. { intros q ->. contradiction. }
  eapply Inv_skel; [exact IV| | | |exact SK].
  - eapply RI_add; [exact R|exact OK|exact D|apply addF_or].
  - eapply kp_skel; [eapply kp_put; eauto; destruct k; tauto|apply kp_bodies|eapply put_vals_skel; eauto].
    intros y. pose proof HI as HI'. destruct (put_facts _ _ _ _ _ _ G HP) as (b & Gb & Bb & SK1 & OT & Ga).
    destruct p; cbn in HI.
    + apply bind_ok in HI as (z & _ & HI). apply modify_eff in HI as ((_ & _ & E) & _). rewrite E. destruct (y =? z); auto. destruct (h_mem h1 y); auto. cbn. destruct (b_ret b0); auto.
    + apply bind_ok in HI as (z & _ & HI). apply modify_eff in HI as ((_ & _ & E) & _). rewrite E. destruct (y =? z); auto. destruct (h_mem h1 y); auto.
    + injection HI as <-. auto.
  - eapply keeps_ret_add; [exact D|exact OK|apply addF_or].
Qed.
Lemma decr_bodies h p v h' : decr_indegree h p v = Ok h' -> same_bodies h h'.
Proof.
  intros HI y. destruct p; cbn in HI.
  - apply bind_ok in HI as (z & _ & HI). apply modify_eff in HI as ((_ & _ & E) & _). rewrite E. destruct (y =? z); auto. destruct (h_mem h y); auto. cbn.
    destruct (b_ret b); auto. destruct (b_rc b =? 0)%Z; auto.
  - apply bind_ok in HI as (z & _ & HI). apply bind_ok in HI as (b & _ & HI). destruct (b_ret b); [|discriminate].
    apply modify_eff in HI as ((_ & _ & E) & _). rewrite E. destruct (y =? z); auto. destruct (h_mem h y); auto.
  - injection HI as <-. auto.
Qed.
Lemma inv_out h a k vs us e ws p h1 h' : Inv h -> get_obj h a = Ok (k, vs) ->
  (forall zs, del_fields k zs = map (pair p) zs) -> match k with KList _ | KStack _ _ => True | _ => False end -> vs = us ++ e :: ws ->
  put_vals h a k (us ++ ws) = Ok h1 -> decr_indegree h1 p e = Ok h' -> Inv h'.
Proof.
  intros IV G DF KK EV HP HI. pose proof (iv_ri _ _ _ _ _ IV) as R.
  destruct (delta_put_out st prot h a k vs us e ws p h1 h' R G DF) as (D & SK); auto. { intros q ->. contradiction. }
  eapply Inv_skel; [exact IV| | | |exact SK].
  - eapply RI_rem; [exact R|exact D|intros q v []|apply remF_and].
  - eapply kp_skel; [eapply kp_put; eauto; destruct k; tauto|apply kp_bodies; eapply decr_bodies; eauto|eapply put_vals_skel; eauto].
  - eapply keeps_ret_rem; [exact D|intros; reflexivity].
Qed.
Lemma inv_append h l e h' : Inv h -> (forall p vs, get_obj h l = Ok (KList p, vs) -> okfs h [(p, e)]) -> list_append h l e = Ok h' -> Inv h'.
Proof.
  intros IV OK H. unfold list_append in H. apply bind_ok in H as ((k, vs) & G & H). destruct k; try discriminate.
  apply bind_ok in H as (h1 & H1 & H). eapply (inv_in h l (KList p) vs vs e []); [exact IV|exact G|reflexivity|exact I|symmetry; apply app_nil_r|exact H1|exact H|eauto].
Qed.
Lemma inv_insert h l i e h' : Inv h -> (forall p vs, get_obj h l = Ok (KList p, vs) -> okfs h [(p, e)]) -> list_insert h l i e = Ok h' -> Inv h'.
Proof.
  intros IV OK H. unfold list_insert in H. apply bind_ok in H as ((k, vs) & G & H). destruct k; try discriminate.
  destruct (i <=? length vs); [|discriminate].
  apply bind_ok in H as (h1 & H1 & H). eapply (inv_in h l (KList p) vs (firstn i vs) e (skipn i vs)); [exact IV|exact G|reflexivity|exact I|symmetry; apply firstn_skipn|exact H1|exact H|eauto].
Qed.
Lemma inv_remove h l i h' : Inv h -> list_remove h l i = Ok h' -> Inv h'.
Proof.
  intros IV H. unfold list_remove in H. apply bind_ok in H as ((k, vs) & G & H). destruct k; try discriminate.
  destruct (nth_error vs i) as [e|] eqn:E; [|injection H as <-; auto].
  apply bind_ok in H as (h1 & H1 & H). eapply (inv_out h l (KList p) vs (firstn i vs) e (skipn (S i) vs)); [exact IV|exact G|reflexivity|exact I| |exact H1|exact H].
  apply nth_error_split in E as (l1 & l2 & -> & <-). rewrite firstn_app, firstn_all, Nat.sub_diag, app_nil_r.
  rewrite skipn_app, skipn_all2 by lia. replace (S (length l1) - length l1) with 1 by lia. auto.
Qed.
Lemma inv_push h l e h' : Inv h -> (forall p n vs, get_obj h l = Ok (KStack p n, vs) -> okfs h [(p, e)]) -> stack_push h l e = Ok h' -> Inv h'.
Proof.
  intros IV OK H. unfold stack_push in H. apply bind_ok in H as ((k, vs) & G & H). destruct k; try discriminate.
  destruct (_ =? _)%Z; [injection H as <-; auto|].
  apply bind_ok in H as (h1 & H1 & H). eapply (inv_in h l (KStack p cap) vs vs e []); [exact IV|exact G|reflexivity|exact I|symmetry; apply app_nil_r|exact H1|exact H|eauto].
Qed.
Lemma inv_pop h l h' e : Inv h -> stack_pop h l = Ok (h', e) -> Inv h'.
Proof.
  intros IV H. unfold stack_pop in H. apply bind_ok in H as ((k, vs) & G & H). destruct k; try discriminate.
  destruct (rev vs) as [|x rv] eqn:E; [injection H as <- <-; auto|].
  apply bind_ok in H as (h1 & H1 & H). apply bind_ok in H as (h2 & H2 & H). injection H as <- <-.
  eapply (inv_out h l (KStack p cap) vs (rev rv) x []); [exact IV|exact G|reflexivity|exact I|rewrite <- (rev_involutive vs), E; auto|rewrite app_nil_r; exact H1|exact H2].
Qed.

(** * New objects *)
Lemma new_kp h h' a : (forall x, x <> a -> match h_mem h x, h_mem h' x with Some b, Some b' => same_but_chain b b' | None, None => True | _, _ => False end) ->
  h_mem h a = None -> kp None h h' /\ (forall x, h_mem h x <> None -> h_mem h' x <> None) /\
  (forall x, x <> a -> h_mem h x = None -> h_mem h' x = None).
Proof.
  intros E D. split; [|split].
  - apply kp_rc. intros x b b' G G'. assert (NE : x <> a) by congruence. specialize (E x NE). rewrite G, G' in E. apply same_chain_rc. auto.
  - intros x L. assert (NE : x <> a) by congruence. specialize (E x NE). destruct (h_mem h x), (h_mem h' x); congruence || tauto.
  - intros x NE G. specialize (E x NE). rewrite G in E. destruct (h_mem h' x); tauto.
Qed.
Lemma chain_of h : RI h none -> exists l, wf_chain false h st l. Proof. apply ri_chain. Qed.

(** without counting *)
Lemma ri_mk_quiet h k vs m h' a : RI h none -> mk_obj h st k vs m = Ok (h', a) -> k <> KStatic -> (forall p, k = KSet p -> vs = []) ->
  okfs h (del_fields k vs) -> (forall y, hits DEL_RC y (del_fields k vs) = 0) -> RI h' none.
Proof.
  intros R H NS KS OK NR. destruct (delta_mk st prot h k vs m h' a (chain_of _ R) H NS KS) as (D & _).
  eapply RI_add; [exact R|exact OK| |].
  - eapply delta_ext; [exact D|reflexivity| |reflexivity|apply incl_refl]. intros y. unfold addD. rewrite NR. reflexivity.
  - auto.
Qed.
Lemma inv_mk_quiet h k vs m h' a : Inv h -> mk_obj h st k vs m = Ok (h', a) -> k <> KStatic -> (forall p, k = KSet p -> vs = []) ->
  match k with KMap _ _ => False | _ => True end ->
  okfs h (del_fields k vs) -> (forall y, hits DEL_RC y (del_fields k vs) = 0) -> Inv h'.
Proof.
  intros IV H NS KS NM OK NR. pose proof (iv_ri _ _ _ _ _ IV) as R.
  pose proof (ri_mk_quiet _ _ _ _ _ _ R H NS KS OK NR) as R'.
  destruct (delta_mk st prot h k vs m h' a (chain_of _ R) H NS KS) as (D & EA & DA & NX & (b & Ga & Ba & _) & OX).
  destruct (new_kp _ _ _ OX DA) as (K & L & NW).
  eapply Inv_new; [exact IV|exact R'|exact K| |exact L|].
  - eapply keeps_ret_rem; [exact D|auto].
  - intros x b' Dx Gx. destruct (Nat.eq_dec x a) as [->|NE]; [|rewrite NW in Gx by auto; discriminate].
    intros b1 pk pv ws G1 B1. rewrite Ga in G1. injection G1 as <-. rewrite Ba in B1. injection B1 as -> ->. contradiction.
Qed.
Lemma noop_quiet h fs : (forall p v, In (p, v) fs -> p = NOOP) -> okfs h fs /\ forall p y, p <> NOOP -> hits p y fs = 0.
Proof.
  intros N. split; [intros p v I NP; exfalso; eauto|]. intros p y NP. destruct (hits p y fs) eqn:E; auto.
  exfalso. assert (I : In (p, VPtr y) fs) by (apply hits_in; lia). eauto.
Qed.
(** with counting *)
Lemma inv_mk_count h k vs m h1 a h' : Inv h -> mk_obj h st k vs m = Ok (h1, a) -> (exists ps, k = KProd ps) ->
  foldm (fun h pv => incr_indegree h (fst pv) (snd pv)) h1 (del_fields k vs) = Ok h' -> okfs h (del_fields k vs) ->
  Inv h' /\ a = h_next h /\ h_mem h a = None /\
  (exists b, h_mem h' a = Some b /\ b_body b = BObj k vs /\ b_ret b = false) /\
  delta h h' (addD (del_fields k vs)) (addD (del_fields k vs) DEL_RC) (addF (del_fields k vs)) (del_fields k vs) /\
  kp None h h' /\ (forall x b k1 vs1, h_mem h x = Some b -> b_body b = BObj k1 vs1 -> exists b', h_mem h' x = Some b' /\ b_body b' = BObj k1 vs1).
Proof.
  intros IV H (ps & EK) HF OK. pose proof (iv_ri _ _ _ _ _ IV) as R. set (fs := del_fields k vs) in *.
  assert (NS : k <> KStatic) by congruence. assert (KS : forall p, k = KSet p -> vs = []) by congruence.
  destruct (delta_mk st prot h k vs m h1 a (chain_of _ R) H NS KS) as (D & EA & DA & NX & (b & Ga & Ba & RA & TA) & OX). fold fs in D.
  destruct (new_kp _ _ _ OX DA) as (K & L & NW).
  assert (PRE : forall y, In (DEL_RC, VPtr y) fs -> retof h1 y = false /\ (0 <= rcof h1 y)%Z /\
     (rcof h1 y + Z.of_nat (hits DEL_RC y fs) < 65536)%Z /\ hits DEL y fs = 0).
  { intros y I. destruct (okfs_incr st prot h fs R OK y I) as (Q1 & Q2 & Q3 & Q4). destruct (OK _ _ I) as (LY & _); [discriminate|].
    apply L in LY. rewrite (d_ret _ _ _ _ _ _ _ _ D y LY), (d_rc _ _ _ _ _ _ _ _ D y LY). split; [auto|]. split; [lia|]. split; [lia|auto]. }
  destruct (delta_incrs st prot _ _ _ HF PRE) as (D2 & N2 & B2 & L2).
  assert (SK2 : same_skel h1 h'). { eapply foldm_skel; [|exact HF]. intros ? (?, ?) ?. apply incr_skel. }
  assert (DD : delta h h' (addD fs) (addD fs DEL_RC) (addF fs) fs).
  { eapply delta_ext; [eapply delta_trans; [exact D|exact D2|auto]| | | |].
    - intros p y NPP. cbn beta. lia.
    - intros y. cbn beta. lia.
    - intros; reflexivity.
    - rewrite app_nil_r. apply incl_refl. }
  pose proof (RI_add st prot _ _ _ _ R OK DD (addF_or _)) as R'.
  assert (K' : kp None h h').
  { eapply kp_trans; [exact K|apply kp_bodies; exact B2|]. intros x Lx _. auto. }
  assert (L' : forall x, h_mem h x <> None -> h_mem h' x <> None) by (apply (d_live _ _ _ _ _ _ _ _ DD)).
  assert (GA : exists b', h_mem h' a = Some b' /\ b_body b' = BObj k vs).
  { specialize (B2 a). rewrite Ga in B2. destruct (h_mem h' a) as [b'|]; [|discriminate]. cbn in B2. injection B2 as B2. exists b'. split; [auto|congruence]. }
  destruct GA as (b' & Ga' & Ba').
  split; [|split; [auto|split; [auto|split; [|split; [auto|split; [auto|]]]]]].
  - eapply Inv_new; [exact IV|exact R'|exact K'| |exact L'|].
    + eapply keeps_ret_add; [exact DD|exact OK|apply addF_or].
    + intros x bx Dx Gx. destruct (Nat.eq_dec x a) as [->|NE].
      * intros b1 pk pv ws G1 B1. congruence.
      * exfalso. assert (h_mem h1 x = None) by auto. apply (skel_live _ _ _ SK2) in H0. congruence.
  - exists b'. split; [auto|]. split; [auto|].
    assert (LA : h_mem h' a <> None) by congruence. pose proof (d_ret _ _ _ _ _ _ _ _ DD a LA) as Y. unfold retof in Y. rewrite Ga', DA in Y.
    rewrite Y. unfold addF. cbn [orb]. apply Nat.ltb_ge. destruct (hits DEL a fs) eqn:E; auto.
    exfalso. assert (I : In (DEL, VPtr a) fs) by (apply hits_in; lia). destruct (OK _ _ I) as (LY & _); [discriminate|]. congruence.
  - intros x b1 k1 vs1 G1 B1. assert (NE : x <> a) by congruence. specialize (OX x NE). specialize (B2 x). rewrite G1 in OX.
    destruct (h_mem h1 x) as [b2|]; [|contradiction]. destruct OX as (_ & _ & _ & _ & BB). rewrite B1 in BB.
    destruct (h_mem h' x) as [b3|]; [|discriminate]. cbn in B2. injection B2 as B2. exists b3. split; [auto|]. congruence.
Qed.

Lemma inv_prod h ps vs h' a : Inv h -> mk_prod h st ps vs = Ok (h', a) -> okfs h (combine ps vs) -> Inv h'.
Proof.
  intros IV H OK. unfold mk_prod in H. apply bind_ok in H as ((h1, a1) & H1 & H). apply bind_ok in H as (h2 & H2 & H). injection H as <- <-.
  destruct (inv_mk_count h (KProd ps) vs _ h1 a1 h2 IV H1 (ex_intro _ ps eq_refl) H2 OK) as (X & _). auto.
Qed.
Lemma inv_tagged h p v h' a : Inv h -> mk_tagged h st p v = Ok (h', a) -> okfs h [(p, v)] -> Inv h'.
Proof.
  intros IV H OK. unfold mk_tagged in H. apply bind_ok in H as ((h1, a1) & H1 & H).
  destruct v as [|y|].
  - injection H as <- <-. eapply inv_mk_quiet; [exact IV|exact H1|discriminate|discriminate|exact I|exact OK|].
    intros y. unfold hits; cbn. destruct p; auto.
  - apply bind_ok in H as (h2 & H2 & H). injection H as <- <-.
    destruct (inv_mk_count h (KProd [p]) [VPtr y] _ h1 a1 h2 IV H1 (ex_intro _ [p] eq_refl)) as (X & _); auto.
    cbn [del_fields combine foldm fst snd]. rewrite H2. auto.
  - apply bind_ok in H as (h2 & H2 & H). injection H as <- <-.
    destruct (inv_mk_count h (KProd [p]) [VForeign] _ h1 a1 h2 IV H1 (ex_intro _ [p] eq_refl)) as (X & _); auto.
    cbn [del_fields combine foldm fst snd]. rewrite H2. auto.
Qed.

(** a map: a list of keys, owned *)
Lemma ri_mk_map h pk pv h' a : RI h none -> ~ prot (h_next h) -> mk_map h st pk pv = Ok (h', a) ->
  RI h' none /\ a = S (h_next h) /\ h_next h' = S (S (h_next h)) /\ h_mem h (h_next h) = None /\ h_mem h (S (h_next h)) = None /\
  (exists b, h_mem h' (h_next h) = Some b /\ b_body b = BObj (KList DEL_RC) []) /\
  (exists b, h_mem h' a = Some b /\ b_body b = BObj (KMap pk pv) [VPtr (h_next h)]) /\
  (forall x, x <> h_next h -> x <> a -> match h_mem h x, h_mem h' x with Some b, Some b' => same_but_chain b b' | None, None => True | _, _ => False end).
Proof.
  intros R NP H. unfold mk_map in H. apply bind_ok in H as ((h1, kl) & H1 & H). unfold mk_list in H1.
  destruct (noop_quiet h (del_fields (KList DEL_RC) [])) as (OK & HQ); [intros p v []|].
  assert (NS1 : KList DEL_RC <> KStatic) by discriminate. assert (KS1 : forall p, KList DEL_RC = KSet p -> @nil val = []) by discriminate.
  pose proof (ri_mk_quiet _ _ _ _ _ _ R H1 NS1 KS1 OK (fun y => HQ DEL_RC y ltac:(discriminate))) as R1.
  destruct (delta_mk st prot h _ _ _ h1 kl (chain_of _ R) H1 NS1 KS1) as (D1 & EA & DA & NX & (b1 & G1 & B1 & RA & TA) & OX1).
  assert (NS2 : KMap pk pv <> KStatic) by discriminate. assert (KS2 : forall p, KMap pk pv = KSet p -> [VPtr kl] = []) by discriminate.
  destruct (delta_mk st prot h1 _ _ _ h' a (chain_of _ R1) H NS2 KS2) as (D2 & EA2 & DA2 & NX2 & (b2 & G2 & B2 & _ & _) & OX2).
  assert (Z : forall p, rf p h1 kl = 0 \/ p = NOOP).
  { intros p. destruct p; auto; left.
    - pose proof (d_refs _ _ _ _ _ _ _ _ D1 DEL_RC kl ltac:(discriminate)) as Y. rewrite (dead_refs st prot h kl DEL_RC R DA) in Y by discriminate. unfold addD in Y. rewrite HQ in Y by discriminate. lia.
    - pose proof (d_refs _ _ _ _ _ _ _ _ D1 DEL kl ltac:(discriminate)) as Y. rewrite (dead_refs st prot h kl DEL R DA) in Y by discriminate. unfold addD in Y. rewrite HQ in Y by discriminate. lia. }
  assert (OK2 : okfs h1 (del_fields (KMap pk pv) [VPtr kl])).
  { intros p v [E|[]] _. injection E as <- <-. split; [congruence|]. split; [rewrite EA; auto|].
    destruct (Z DEL_RC) as [Z1|]; [|discriminate]. destruct (Z DEL) as [Z2|]; [|discriminate].
    split; [auto|]. split; [auto|]. unfold hits; cbn. rewrite Nat.eqb_refl. split; [auto|]. split; [auto|].
    unfold shp. rewrite G1. cbn. unfold shape_of. rewrite B1. discriminate. }
  assert (R2 : RI h' none).
  { eapply ri_mk_quiet; [exact R1|exact H|auto|auto|exact OK2|]. intros y. unfold hits; cbn. auto. }
  assert (NA : kl <> a) by congruence.
  split; [auto|]. split; [congruence|]. split; [congruence|]. split; [congruence|]. split.
  { assert (NE : S (h_next h) <> kl) by (rewrite EA; lia). specialize (OX1 _ NE). destruct (h_mem h (S (h_next h))) as [bb|] eqn:GG; auto. exfalso.
    assert (S (h_next h) < h_next h) by (apply (ri_fresh _ _ _ _ _ R); congruence). lia. }
  rewrite <- EA. split.
  - pose proof (OX2 kl NA) as X. rewrite G1 in X. destruct (h_mem h' kl) as [b3|]; [|contradiction]. exists b3. split; auto.
    destruct X as (_ & _ & _ & _ & BB). rewrite B1 in BB. destruct (b_body b3); congruence.
  - split; [exists b2; split; auto|]. intros x N1 N2. specialize (OX1 x N1). specialize (OX2 x N2).
    destruct (h_mem h x), (h_mem h1 x), (h_mem h' x); try tauto. eapply same_but_chain_trans; eauto.
Qed.
Lemma prot_old h : Inv h -> ~ prot (h_next h).
Proof.
  intros IV PX. pose proof (si_live _ _ _ _ _ (iv_si _ _ _ _ _ IV) _ PX) as L. pose proof (ri_fresh _ _ _ _ _ (iv_ri _ _ _ _ _ IV) L). lia.
Qed.
Lemma inv_map h pk pv h' a : Inv h -> pk <> DEL -> mk_map h st pk pv = Ok (h', a) -> Inv h'.
Proof.
  intros IV NP H. pose proof (iv_ri _ _ _ _ _ IV) as R.
  destruct (ri_mk_map h pk pv h' a R (prot_old h IV) H) as (R' & EA & NX & D1 & D2 & (b1 & G1 & B1) & (b2 & G2 & B2) & OX).
  assert (LX : forall x b, h_mem h x = Some b -> exists b', h_mem h' x = Some b' /\ same_but_chain b b').
  { intros x b G. assert (N1 : x <> h_next h) by congruence. assert (N2 : x <> a) by congruence. specialize (OX x N1 N2). rewrite G in OX.
    destruct (h_mem h' x); [eauto|contradiction]. }
  eapply Inv_new; [exact IV|exact R'| | | |].
  - apply kp_rc. intros x b b' G G'. destruct (LX x b G) as (b0 & G0 & S). rewrite G' in G0. injection G0 as <-. apply same_chain_rc. auto.
  - intros y L L' RR _. unfold retof in *. destruct (h_mem h y) as [b|] eqn:G; [|congruence]. destruct (LX y b G) as (b' & -> & (_ & RB & _)). congruence.
  - intros x L. destruct (h_mem h x) as [b|] eqn:G; [|congruence]. destruct (LX x b G) as (b' & -> & _). discriminate.
  - intros x b' Dx Gx. destruct (Nat.eq_dec x (h_next h)) as [->|N1].
    { intros b3 pk3 pv3 ws G3 B3. congruence. }
    destruct (Nat.eq_dec x a) as [->|N2].
    { intros b3 pk3 pv3 ws G3 B3. rewrite G2 in G3. injection G3 as <-. rewrite B2 in B3. injection B3 as <- <- <-. split; [auto|].
      exists (h_next h), []. split; [auto|]. split; [exists b1, []; auto|constructor]. }
    specialize (OX x N1 N2). rewrite Dx, Gx in OX. contradiction.
Qed.

(** static memory *)
Lemma inv_static h : Inv h -> Inv (fst (mk_static h)).
Proof.
  intros IV. pose proof (iv_ri _ _ _ _ _ IV) as R. set (h' := fst (mk_static h)). set (a := h_next h).
  assert (DA : h_mem h a = None).
  { destruct (h_mem h a) eqn:E; auto. assert (a < h_next h) by (apply (ri_fresh _ _ _ _ _ R); congruence). unfold a in *. lia. }
  assert (OT : forall x, x <> a -> h_mem h' x = h_mem h x).
  { intros x NE. cbn. unfold a in NE. destruct (Nat.eqb_spec x (h_next h)); [contradiction|auto]. }
  assert (GA : h_mem h' a = Some (zero_block (BObj KStatic []) M_IDENTITY)) by (cbn; unfold a; rewrite Nat.eqb_refl; auto).
  assert (NX : h_next h' = S (h_next h)) by reflexivity.
  assert (D : delta h h' (addD []) (addD [] DEL_RC) (fun _ b => b) []).
  { constructor.
    - intros l W. exists l. apply mk_static_wf. auto.
    - intros y L. rewrite OT; auto. congruence.
    - intros p y NPP. unfold rf, refs. rewrite NX. cbn [sumn]. assert (EA : eflds h' none (h_next h) = []) by (change (h_next h) with a; unfold eflds; rewrite GA; auto).
      rewrite EA, hits_nil. rewrite (sumn_ext (h_next h) _ (fun x => hits p y (eflds h none x))); [unfold addD; rewrite hits_nil; lia|].
      intros x Lx. unfold eflds. rewrite OT; auto. unfold a. lia.
    - intros y L. unfold rcof, addD. cbn [hits filter length]. destruct (Nat.eq_dec y a) as [->|NE]; [rewrite GA, DA; auto|rewrite OT by auto]. cbn. lia.
    - intros y L. unfold retof. destruct (Nat.eq_dec y a) as [->|NE]; [rewrite GA, DA; auto|rewrite OT by auto; auto].
    - intros y S. destruct (Nat.eq_dec y a) as [->|NE]; [auto|]. left. unfold shp in *. rewrite OT in S by auto. auto.
    - intros x f I. left. exists x. unfold fl, eflds in *. destruct (Nat.eq_dec x a) as [->|NE]; [rewrite GA in I; contradiction|rewrite OT in I by auto; auto].
    - intros x b p vs G B NV. destruct (Nat.eq_dec x a) as [->|NE]; [rewrite GA in G; injection G as <-; discriminate|rewrite OT in G by auto; eauto]. }
  eapply Inv_new; [exact IV| | | | |].
  - eapply RI_add; [exact R|apply okfs_nil|exact D|auto].
  - intros x b b' _ G G'. assert (NE : x <> a) by congruence. rewrite OT in G' by auto. rewrite G in G'. injection G' as <-. apply step_ok_refl.
  - eapply keeps_ret_rem; [exact D|auto].
  - apply (d_live _ _ _ _ _ _ _ _ D).
  - intros x b' Dx Gx b1 pk pv vs G1 B1. destruct (Nat.eq_dec x a) as [->|NE]; [rewrite GA in G1; injection G1 as <-; discriminate|].
    rewrite OT in Gx by auto. congruence.
Qed.
(** the resize method *)
Lemma inv_meth h a f h' : Inv h -> (forall b, exists m, f b = set_meth m b) -> modify h a f = Ok h' -> Inv h'.
Proof.
  intros IV FM H. pose proof (iv_ri _ _ _ _ _ IV) as R.
  assert (SK : same_skel h h'). { eapply modify_skel; [|exact H]. intros b. destruct (FM b) as (m & ->). repeat split. }
  apply modify_eff in H as ((_ & _ & E) & L).
  assert (SB : same_bodies h h').
  { intros y. rewrite E. destruct (y =? a); auto. destruct (h_mem h y); auto. cbn. destruct (FM b) as (m & ->). auto. }
  assert (D : delta h h' (addD []) (addD [] DEL_RC) (fun _ b => b) []).
  { eapply delta_ext; [apply (delta_cnt st prot h h' (fun _ => 0%Z) (fun _ b => b)); [exact SK|apply SK|]|reflexivity|reflexivity|reflexivity|apply incl_refl].
    intros y. rewrite E. destruct (y =? a); [|destruct (h_mem h y); auto; split; [auto|split; [lia|auto]]].
    destruct (h_mem h y); [|exact I]. cbn. destruct (FM b) as (m & ->). cbn. split; [auto|split; [lia|auto]]. }
  eapply Inv_skel; [exact IV| |apply kp_bodies; exact SB|eapply keeps_ret_rem; [exact D|auto]|exact SK].
  eapply RI_add; [exact R|apply okfs_nil|exact D|auto].
Qed.
(** the roots *)
Lemma inv_roots h vs vs' h' : Inv h -> get_obj h r = Ok (KSet NOOP, vs) -> put_vals h r (KSet NOOP) vs' = Ok h' -> Inv h'.
Proof.
  intros IV G HP. pose proof (iv_ri _ _ _ _ _ IV) as R. destruct (put_facts _ _ _ _ _ _ G HP) as (b & Gb & Bb & SK & OT & Ga).
  assert (LT : r < h_next h) by (apply (ri_fresh _ _ _ _ _ R); congruence).
  assert (D : delta h h' (addD []) (addD [] DEL_RC) (fun _ b => b) []).
  { eapply delta_ext; [eapply (delta_put st prot h r b (KSet NOOP) vs' h' Gb SK LT OT Ga)| |reflexivity|reflexivity|apply incl_refl].
    - intros p _. left. right. left. auto.
    - intros p y NPP. cbn beta. unfold bfields. rewrite Bb. cbn. unfold addD. cbn. lia. }
  eapply Inv_skel; [exact IV| |eapply kp_put; [exact G|exact HP|exact I]|eapply keeps_ret_rem; [exact D|auto]|exact SK].
  eapply RI_add; [exact R|apply okfs_nil|exact D|auto].
Qed.
Lemma roots_body h : Inv h -> forall k vs, get_obj h r = Ok (k, vs) -> k = KSet NOOP.
Proof.
  intros IV k vs G. apply get_obj_inv in G as (b & G & B). destruct (si_r _ _ _ _ _ (iv_si _ _ _ _ _ IV)) as (b' & vs' & G' & B'). congruence.
Qed.
Lemma inv_root h v pos h' : Inv h -> add_gc_root h st v pos = Ok h' -> Inv h'.
Proof.
  intros IV H. unfold add_gc_root in H. apply bind_ok in H as (b & G & H). apply get_ok in G.
  destruct (si_st _ _ _ _ _ (iv_si _ _ _ _ _ IV)) as (b' & t & m & G' & B'). rewrite G in G'. injection G' as <-. rewrite B' in H.
  unfold set_add in H. apply bind_ok in H as ((k, vs) & GR & H). pose proof (roots_body h IV k vs GR) as EK. subst k.
  destruct (find (val_eqb v) vs) as [w|]; [destruct (val_eqb w v); cbn in H; injection H as <-; auto|].
  apply bind_ok in H as (h1 & H1 & H). cbn in H. injection H as <-. eapply inv_roots; eauto.
Qed.
Lemma inv_unroot h v h' : Inv h -> remove_gc_root h st v = Ok h' -> Inv h'.
Proof.
  intros IV H. unfold remove_gc_root in H. apply bind_ok in H as (b & G & H). apply get_ok in G.
  destruct (si_st _ _ _ _ _ (iv_si _ _ _ _ _ IV)) as (b' & t & m & G' & B'). rewrite G in G'. injection G' as <-. rewrite B' in H.
  unfold set_remove in H. apply bind_ok in H as ((k, vs) & GR & H). pose proof (roots_body h IV k vs GR) as EK. subst k. eapply inv_roots; eauto.
Qed.
End Steps.
