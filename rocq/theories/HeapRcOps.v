(** The library operations keep reference counts and ownership exact. *)
From Coq Require Import ZArith List Bool Lia.
From Verif Require Import Base HeapModel HeapChainProofs HeapHistory HeapSweepProofs HeapRcProofs HeapRcHistory.
Import ListNotations.
Open Scope nat_scope.
Open Scope outcome_scope.
Local Arguments Z.add : simpl never.
Local Arguments Z.sub : simpl never.
Local Arguments Z.of_nat : simpl never.

Section Ops.
Variable st : addr.
Variable P : addr -> Prop.
Notation delta := (delta st P).
Notation RI := (RI st P).
Notation okfs := (okfs P).

Lemma incr_live h p v h' : incr_indegree h p v = Ok h' -> forall y, h_mem h' y = None ->
  hits DEL_RC y [(p, v)] = 0 /\ hits DEL y [(p, v)] = 0.
Proof.
  intros H y D. pose proof (incr_skel _ _ _ _ H) as SK. apply (skel_live _ _ _ SK) in D.
  unfold hits. destruct p; cbn in H; [| |cbn; destruct v; auto].
  - apply bind_ok in H as (a & T & H). destruct v as [|z|]; try discriminate. cbn in T. injection T as ->. apply modify_eff in H as (_ & L).
    cbn. destruct (Nat.eqb_spec a y); [subst; contradiction|auto].
  - apply bind_ok in H as (a & T & H). destruct v as [|z|]; try discriminate. cbn in T. injection T as ->. apply modify_eff in H as (_ & L).
    cbn. destruct (Nat.eqb_spec a y); [subst; contradiction|auto].
Qed.
Lemma decr_live h p v h' : decr_indegree h p v = Ok h' -> forall y, h_mem h' y = None ->
  hits DEL_RC y [(p, v)] = 0 /\ hits DEL y [(p, v)] = 0.
Proof.
  intros H y D. pose proof (decr_skel _ _ _ _ H) as SK. apply (skel_live _ _ _ SK) in D.
  unfold hits. destruct p; cbn in H; [| |cbn; destruct v; auto].
  - apply bind_ok in H as (a & T & H). destruct v as [|z|]; try discriminate. cbn in T. injection T as ->. apply modify_eff in H as (_ & L).
    cbn. destruct (Nat.eqb_spec a y); [subst; contradiction|auto].
  - apply bind_ok in H as (a & T & H). destruct v as [|z|]; try discriminate. cbn in T. injection T as ->.
    apply bind_ok in H as (b & _ & H). destruct (b_ret b); [|discriminate]. apply modify_eff in H as (_ & L).
    cbn. destruct (Nat.eqb_spec a y); [subst; contradiction|auto].
Qed.
Definition same_bodies (h h' : heap) : Prop := forall y, option_map b_body (h_mem h' y) = option_map b_body (h_mem h y).
Lemma hits_nil p y : hits p y [] = 0. Proof. reflexivity. Qed.
Lemma delta_refl h : delta h h (fun _ _ => 0%Z) (fun _ => 0%Z) (fun _ r => r) [].
Proof.
  apply delta_cnt; [apply same_skel_refl|auto|]. intros y. destruct (h_mem h y); auto. split; [auto|]. split; [lia|auto].
Qed.

Lemma delta_incrs : forall fs h h', foldm (fun h pv => incr_indegree h (fst pv) (snd pv)) h fs = Ok h' ->
  (forall y, In (DEL_RC, VPtr y) fs -> retof h y = false /\ (0 <= rcof h y)%Z /\
     (rcof h y + Z.of_nat (hits DEL_RC y fs) < 65536)%Z /\ hits DEL y fs = 0) ->
  delta h h' (fun _ _ => 0%Z) (addD fs DEL_RC) (addF fs) [] /\ h_next h' = h_next h /\ same_bodies h h' /\
  (forall y, h_mem h' y = None -> hits DEL_RC y fs = 0 /\ hits DEL y fs = 0).
Proof.
  induction fs as [|(p, v) fs IH]; intros h h' H Q; cbn [foldm] in H.
  - injection H as <-. split; [eapply delta_ext; [apply delta_refl|auto|intros; unfold addD; cbn; lia|intros y r; unfold addF; cbn; destruct r; auto|apply incl_refl]|].
    split; [auto|]. split; [red; auto|]. intros. split; reflexivity.
  - apply bind_ok in H as (h1 & H1 & H). cbn [fst snd] in H1.
    assert (C1 : forall z gs, hits DEL_RC z ((p, v) :: gs) = hits DEL_RC z [(p, v)] + hits DEL_RC z gs).
    { intros. rewrite !hits_cons, hits_nil. lia. }
    assert (C2 : forall z gs, hits DEL z ((p, v) :: gs) = hits DEL z [(p, v)] + hits DEL z gs).
    { intros. rewrite !hits_cons, hits_nil. lia. }
    assert (X1 : p = DEL_RC -> forall y, v = VPtr y -> retof h y = false /\ (0 <= rcof h y < 65535)%Z).
    { intros -> y ->. destruct (Q y (or_introl eq_refl)) as (Q1 & Q2 & Q3 & _). split; [auto|].
      assert (0 < hits DEL_RC y [(DEL_RC, VPtr y)]) by (apply hits_in; left; auto). rewrite C1 in Q3. lia. }
    destruct (delta_incr st P _ _ _ _ H1 X1) as (D1 & N1 & B1). pose proof (incr_live _ _ _ _ H1) as L1.
    destruct (IH h1 h' H) as (D2 & N2 & B2 & L2).
    { intros y I. destruct (Q y (or_intror I)) as (Q1 & Q2 & Q3 & Q4). rewrite C1 in Q3. rewrite C2 in Q4.
      destruct (h_mem h1 y) eqn:G.
      - assert (LV : h_mem h1 y <> None) by congruence. rewrite (d_ret _ _ _ _ _ _ _ _ D1 y LV), (d_rc _ _ _ _ _ _ _ _ D1 y LV).
        unfold addF, addD. rewrite Q1. split; [|lia]. cbn [orb]. apply Nat.ltb_ge. lia.
      - assert (G0 : h_mem h y = None) by (apply (skel_live _ _ _ (incr_skel _ _ _ _ H1)); auto).
        unfold retof, rcof in *. rewrite G. rewrite G0 in *. split; [auto|]. lia. }
    split.
    + eapply delta_ext; [eapply delta_trans; [exact D1|exact D2|]| | | |].
      * intros y DY. destruct (L1 y DY) as (E1 & E2). unfold addD, addF. rewrite E1, E2. auto.
      * intros; cbn. lia.
      * intros y. unfold addD. cbn beta. rewrite C1. lia.
      * intros y r0. unfold addF. cbn beta. rewrite C2. apply eq_true_iff_eq. rewrite !orb_true_iff, !Nat.ltb_lt. intuition lia.
      * apply incl_refl.
    + split; [congruence|]. split; [intros y; rewrite B2; auto|].
      intros y DY. rewrite C1, C2. destruct (L2 y DY) as (-> & ->).
      assert (DY1 : h_mem h1 y = None). { destruct (h_mem h1 y) eqn:G; auto. exfalso. apply (d_live _ _ _ _ _ _ _ _ D2 y); congruence. }
      destruct (L1 y DY1). lia.
Qed.

Lemma delta_decrs : forall fs h h', foldm (fun h pv => decr_indegree h (fst pv) (snd pv)) h fs = Ok h' ->
  (forall y, In (DEL_RC, VPtr y) fs -> retof h y = false /\ (Z.of_nat (hits DEL_RC y fs) <= rcof h y)%Z) ->
  delta h h' (fun _ _ => 0%Z) (fun y => - addD fs DEL_RC y)%Z (remF fs) [] /\ same_skel h h' /\ same_bodies h h'.
Proof.
  induction fs as [|(p, v) fs IH]; intros h h' H Q; cbn [foldm] in H.
  - injection H as <-. split; [eapply delta_ext; [apply delta_refl|auto|intros; unfold addD; cbn; lia|intros y r; unfold remF; cbn; destruct r; auto|apply incl_refl]|].
    split; [apply same_skel_refl|red; auto].
  - apply bind_ok in H as (h1 & H1 & H). cbn [fst snd] in H1.
    assert (C1 : forall z gs, hits DEL_RC z ((p, v) :: gs) = hits DEL_RC z [(p, v)] + hits DEL_RC z gs).
    { intros. rewrite !hits_cons, hits_nil. lia. }
    assert (C2 : forall z gs, hits DEL z ((p, v) :: gs) = hits DEL z [(p, v)] + hits DEL z gs).
    { intros. rewrite !hits_cons, hits_nil. lia. }
    assert (X1 : p = DEL_RC -> forall y, v = VPtr y -> retof h y = false /\ (0 < rcof h y)%Z).
    { intros -> y ->. destruct (Q y (or_introl eq_refl)) as (Q1 & Q2). split; [auto|].
      assert (0 < hits DEL_RC y [(DEL_RC, VPtr y)]) by (apply hits_in; left; auto). rewrite C1 in Q2. lia. }
    destruct (delta_decr st P _ _ _ _ H1 X1) as (D1 & N1 & B1). pose proof (decr_live _ _ _ _ H1) as L1.
    pose proof (decr_skel _ _ _ _ H1) as SK1.
    destruct (IH h1 h' H) as (D2 & SK2 & B2).
    { intros y I. destruct (Q y (or_intror I)) as (Q1 & Q2). rewrite C1 in Q2.
      destruct (h_mem h1 y) eqn:G.
      - assert (LV : h_mem h1 y <> None) by congruence. rewrite (d_ret _ _ _ _ _ _ _ _ D1 y LV), (d_rc _ _ _ _ _ _ _ _ D1 y LV).
        unfold remF, addD. rewrite Q1. split; [auto|lia].
      - assert (G0 : h_mem h y = None) by (apply (skel_live _ _ _ SK1); auto).
        unfold retof, rcof in *. rewrite G. rewrite G0 in *. split; [auto|]. lia. }
    split; [|split; [eapply same_skel_trans; eauto|intros y; rewrite B2; auto]].
    eapply delta_ext; [eapply delta_trans; [exact D1|exact D2|]| | | |].
    + intros y DY. destruct (L1 y DY) as (E1 & E2). unfold addD, remF. rewrite E1. auto.
    + intros; cbn. lia.
    + intros y. unfold addD. cbn beta. rewrite C1. lia.
    + intros y r0. unfold remF. cbn beta. rewrite C2. apply eq_true_iff_eq. rewrite !andb_true_iff, !negb_true_iff, !Nat.ltb_ge. intuition lia.
    + apply incl_refl.
Qed.

(** * New objects *)
Lemma delta_mk h k vs m h' a : (exists l, wf_chain false h st l) -> mk_obj h st k vs m = Ok (h', a) -> k <> KStatic -> (forall p, k = KSet p -> vs = []) ->
  delta h h' (addD (del_fields k vs)) (fun _ => 0%Z) (fun _ r => r) (del_fields k vs) /\
  a = h_next h /\ h_mem h a = None /\ h_next h' = S (h_next h) /\
  (exists b, h_mem h' a = Some b /\ b_body b = BObj k vs /\ b_rc b = 0%Z /\ b_ret b = false) /\
  (forall x, x <> a -> match h_mem h x, h_mem h' x with Some b, Some b' => same_but_chain b b' | None, None => True | _, _ => False end).
Proof.
  intros (l & W) H NS KS. pose proof (mk_obj_wf _ _ _ _ _ _ _ _ W NS H) as (W' & EA & NX). pose proof H as H0.
  unfold mk_obj in H. destruct (malloc h (zero_block (BObj k vs) m)) as (h1, a1) eqn:E.
  apply bind_ok in H as (h2 & H2 & H). injection H as <- <-.
  destruct (malloc_wf _ _ _ _ _ _ W E) as (W1 & _ & Da & Ma & OT & N1 & _).
  { unfold shape_of. cbn. destruct k; congruence. }
  assert (EN : nxt h1 a1 = Some None) by (unfold nxt; rewrite Ma; auto).
  destruct (chain_wf _ _ _ _ W1 (fun _ => EN)) as (h3 & E3 & W3 & HB & _). rewrite E3 in H2. injection H2 as <-.
  pose proof (HB a1) as HA. rewrite Ma in HA. destruct (h_mem h3 a1) as [ba|] eqn:Ga; [|contradiction].
  assert (BA : b_body ba = BObj k vs /\ b_rc ba = 0%Z /\ b_ret ba = false).
  { destruct HA as (R1 & R2 & _ & _ & BB). cbn in *. split; [congruence|]. split; auto. }
  destruct BA as (BA & RA & TA).
  assert (OX : forall x, x <> a1 -> match h_mem h x, h_mem h3 x with Some b, Some b' => same_but_chain b b' | None, None => True | _, _ => False end).
  { intros x NE. pose proof (HB x) as X. rewrite OT in X by auto. auto. }
  assert (FX : forall x, x <> a1 -> fl h3 x = fl h x).
  { intros x NE. specialize (OX x NE). unfold fl, eflds. destruct (h_mem h x), (h_mem h3 x); try tauto. cbn. apply same_rc_fields, same_chain_rc. auto. }
  assert (FA : fl h3 a1 = del_fields k vs) by (rewrite (fl_some _ _ _ Ga); unfold bfields; rewrite BA; auto).
  split; [|split; [auto|split; [auto|split; [auto|split; [eauto|auto]]]]].
  constructor.
  - intros l1 Wl. eexists. eapply (mk_obj_wf _ _ _ _ _ _ _ _ Wl NS H0).
  - intros y LY. destruct (Nat.eq_dec y a1) as [->|NE]; [congruence|]. specialize (OX y NE). destruct (h_mem h y), (h_mem h3 y); try tauto; congruence.
  - intros p y NPP. unfold rf, refs. rewrite NX. cbn [sumn]. rewrite (sumn_ext (h_next h) _ (fun x => hits p y (eflds h none x))).
    2: { intros x LX. change (eflds h3 none x) with (fl h3 x). rewrite FX by lia. auto. }
    rewrite <- EA. change (eflds h3 none a1) with (fl h3 a1). rewrite FA. unfold addD. lia.
  - intros y LY. unfold rcof. destruct (Nat.eq_dec y a1) as [->|NE]; [rewrite Ga, Da, RA; lia|]. specialize (OX y NE).
    destruct (h_mem h y), (h_mem h3 y); try tauto; try congruence. destruct OX as (R1 & _). lia.
  - intros y LY. unfold retof. destruct (Nat.eq_dec y a1) as [->|NE]; [rewrite Ga, Da, TA; auto|]. specialize (OX y NE).
    destruct (h_mem h y), (h_mem h3 y); try tauto; try congruence. destruct OX as (_ & R1 & _). auto.
  - intros y S. destruct (Nat.eq_dec y a1) as [->|NE]; [auto|]. specialize (OX y NE). left. unfold shp in *.
    destruct (h_mem h y), (h_mem h3 y); try tauto; try discriminate. cbn in *. injection S as S. f_equal.
    apply (same_rc_static b b0); [apply same_chain_rc; auto|auto].
  - intros x f I. destruct (Nat.eq_dec x a1) as [->|NE]; [rewrite FA in I; auto|rewrite FX in I by auto; eauto].
  - intros x b p ws G B NV. destruct (Nat.eq_dec x a1) as [->|NE].
    + rewrite Ga in G. injection G as <-. rewrite BA in B. injection B as -> ->. exfalso. apply NV. eapply KS; eauto.
    + specialize (OX x NE). rewrite G in OX. destruct (h_mem h x) as [b0|]; [|contradiction]. right. exists b0. split; auto.
      destruct OX as (_ & _ & _ & _ & BB). rewrite B in BB. destruct (b_body b0); try discriminate. auto.
Qed.

(** * One field more or less in a list or stack *)
Lemma put_facts h a k vs vs' h' : get_obj h a = Ok (k, vs) -> put_vals h a k vs' = Ok h' ->
  exists b, h_mem h a = Some b /\ b_body b = BObj k vs /\ same_skel h h' /\ (forall x, x <> a -> h_mem h' x = h_mem h x) /\
    h_mem h' a = Some (set_body (BObj k vs') b).
Proof.
  intros G H. pose proof (put_vals_skel _ _ _ _ _ _ G H) as SK. apply get_obj_inv in G as (b & G & B).
  unfold put_vals in H. rewrite (modify_ok _ _ _ _ G) in H. injection H as <-. exists b. split; [auto|]. split; [auto|]. split; [auto|].
  cbn. split; [intros x NE; apply Nat.eqb_neq in NE; rewrite NE; auto|rewrite Nat.eqb_refl; auto].
Qed.

Lemma okfs_incr h fs : RI h none -> okfs h fs -> forall y, In (DEL_RC, VPtr y) fs ->
  retof h y = false /\ (0 <= rcof h y)%Z /\ (rcof h y + Z.of_nat (hits DEL_RC y fs) < 65536)%Z /\ hits DEL y fs = 0.
Proof.
  intros R OK y I. destruct (OK _ _ I) as (L & _ & Q1 & Q2 & Q3); [discriminate|].
  destruct (h_mem h y) as [b|] eqn:G; [|congruence]. unfold retof, rcof. rewrite G.
  pose proof (ri_cnt _ _ _ _ R y b G) as CN. change (refs DEL_RC h none y) with (rf DEL_RC h y) in CN.
  split; [|split; [lia|split; [lia|auto]]].
  destruct (b_ret b) eqn:RB; auto. pose proof (ri_ret _ _ _ _ R y b G RB eq_refl) as X. unfold rf in Q1. lia.
Qed.
Lemma held_decr h x p v : RI h none -> In (p, v) (fl h x) -> p = DEL_RC -> forall y, v = VPtr y -> retof h y = false /\ (0 < rcof h y)%Z.
Proof.
  intros R I -> y ->. assert (LX : x < h_next h). { apply (ri_fresh _ _ _ _ _ R). eapply eflds_live. exact I. }
  pose proof (refs_in DEL_RC h none x y LX I) as X. destruct (ri_tgt _ _ _ _ R x _ _ I) as (L & _); [discriminate|].
  destruct (h_mem h y) as [b|] eqn:G; [|congruence]. unfold retof, rcof. rewrite G. rewrite (ri_cnt _ _ _ _ R y b G). split; [|lia].
  destruct (b_ret b) eqn:RB; auto. pose proof (ri_ret _ _ _ _ R y b G RB eq_refl) as Y. destruct (ri_own _ _ _ _ R y) as (_ & O). lia.
Qed.

Lemma hits_mid p y (q : policy) (e : val) us ws : hits p y (map (pair q) (us ++ e :: ws)) = hits p y (map (pair q) (us ++ ws)) + hits p y [(q, e)].
Proof. rewrite !map_app, !hits_app. cbn [map]. rewrite !hits_cons, hits_nil. lia. Qed.

(** a value put in *)
Lemma delta_put_in h a k vs us e ws p h1 h' : RI h none -> get_obj h a = Ok (k, vs) ->
  (forall zs, del_fields k zs = map (pair p) zs) -> (forall q, k <> KSet q) -> vs = us ++ ws ->
  put_vals h a k (us ++ e :: ws) = Ok h1 -> incr_indegree h1 p e = Ok h' -> okfs h [(p, e)] ->
  delta h h' (addD [(p, e)]) (addD [(p, e)] DEL_RC) (addF [(p, e)]) [(p, e)] /\ same_skel h h'.
Proof.
  intros R G DF KS -> HP HI OK. destruct (put_facts _ _ _ _ _ _ G HP) as (b & Gb & Bb & SK & OT & Ga).
  assert (LT : a < h_next h) by (apply (ri_fresh _ _ _ _ _ R); congruence).
  pose proof (delta_put st P h a b k (us ++ e :: ws) h1 Gb SK LT OT Ga) as D1.
  assert (KS' : forall q, k = KSet q -> P a \/ us ++ e :: ws = []) by (intros q E; destruct (KS q E)). specialize (D1 KS').
  assert (Q : p = DEL_RC -> forall y, e = VPtr y -> retof h1 y = false /\ (0 <= rcof h1 y < 65535)%Z).
  { intros -> y ->. destruct (okfs_incr h _ R OK y (or_introl eq_refl)) as (Q1 & Q2 & Q3 & _).
    destruct (OK DEL_RC (VPtr y) (or_introl eq_refl)) as (LY & _); [discriminate|].
    assert (LY1 : h_mem h1 y <> None) by (intros X; apply LY; apply (skel_live _ _ _ SK); auto).
    rewrite (d_ret _ _ _ _ _ _ _ _ D1 y LY1), (d_rc _ _ _ _ _ _ _ _ D1 y LY1).
    assert (0 < hits DEL_RC y [(DEL_RC, VPtr y)]) by (apply hits_in; left; auto). split; [auto|lia]. }
  destruct (delta_incr st P _ _ _ _ HI Q) as (D2 & _ & _). pose proof (incr_live _ _ _ _ HI) as LV.
  split; [|eapply same_skel_trans; [exact SK|eapply incr_skel; eauto]].
  eapply delta_narrow; [eapply delta_ext; [eapply delta_trans; [exact D1|exact D2|auto]| | | |]|].
  - intros q y NPP. cbn beta. unfold bfields. rewrite Bb, !DF, hits_mid. unfold addD. lia.
  - intros y. cbn beta. lia.
  - intros y q. reflexivity.
  - rewrite app_nil_r. apply incl_refl.
  - intros f. rewrite DF, in_map_iff. intros (v & <- & I). apply in_app_or in I as [I|[<-|I]]; [left|right; left; auto|left];
      (exists a; rewrite (fl_some _ _ _ Gb); unfold bfields; rewrite Bb, DF; apply in_map; apply in_or_app; auto).
Qed.
(** a value taken out *)
Lemma delta_put_out h a k vs us e ws p h1 h' : RI h none -> get_obj h a = Ok (k, vs) ->
  (forall zs, del_fields k zs = map (pair p) zs) -> (forall q, k <> KSet q) -> vs = us ++ e :: ws ->
  put_vals h a k (us ++ ws) = Ok h1 -> decr_indegree h1 p e = Ok h' ->
  delta h h' (fun q y => - addD [(p, e)] q y)%Z (fun y => - addD [(p, e)] DEL_RC y)%Z (remF [(p, e)]) [] /\ same_skel h h'.
Proof.
  intros R G DF KS -> HP HI. destruct (put_facts _ _ _ _ _ _ G HP) as (b & Gb & Bb & SK & OT & Ga).
  assert (LT : a < h_next h) by (apply (ri_fresh _ _ _ _ _ R); congruence).
  pose proof (delta_put st P h a b k (us ++ ws) h1 Gb SK LT OT Ga) as D1.
  assert (KS' : forall q, k = KSet q -> P a \/ us ++ ws = []) by (intros q E; destruct (KS q E)). specialize (D1 KS').
  assert (Q : p = DEL_RC -> forall y, e = VPtr y -> retof h1 y = false /\ (0 < rcof h1 y)%Z).
  { intros EP y EY. assert (I : In (p, e) (fl h a)).
    { rewrite (fl_some _ _ _ Gb). unfold bfields. rewrite Bb, DF. apply in_map. apply in_or_app. right. left. auto. }
    destruct (held_decr h a p e R I EP y EY) as (Q1 & Q2).
    assert (LY : h_mem h y <> None). { intros X. unfold rcof in Q2. rewrite X in Q2. lia. }
    assert (LY1 : h_mem h1 y <> None) by (intros X; apply LY; apply (skel_live _ _ _ SK); auto).
    rewrite (d_ret _ _ _ _ _ _ _ _ D1 y LY1), (d_rc _ _ _ _ _ _ _ _ D1 y LY1). split; [auto|lia]. }
  destruct (delta_decr st P _ _ _ _ HI Q) as (D2 & _ & _). pose proof (decr_live _ _ _ _ HI) as LV.
  split; [|eapply same_skel_trans; [exact SK|eapply decr_skel; eauto]].
  eapply delta_narrow; [eapply delta_ext; [eapply delta_trans; [exact D1|exact D2|auto]| | | |]|].
  - intros q y NPP. cbn beta. unfold bfields. rewrite Bb, !DF, hits_mid. unfold addD. lia.
  - intros y. cbn beta. lia.
  - intros y q. reflexivity.
  - rewrite app_nil_r. apply incl_refl.
  - intros f. rewrite DF, in_map_iff. intros (v & <- & I). left. exists a. rewrite (fl_some _ _ _ Gb). unfold bfields. rewrite Bb, DF.
    apply in_map. apply in_app_or in I. apply in_or_app. cbn. tauto.
Qed.
End Ops.
