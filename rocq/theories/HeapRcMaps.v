(** Adding to and removing from maps keeps the invariant of counted and owned objects. *)
From Coq Require Import ZArith List Bool Lia.
From Verif Require Import Base HeapModel HeapChainProofs HeapHistory HeapSweepProofs HeapRcProofs HeapRcHistory HeapRcOps HeapRcInv HeapRcSteps.
Import ListNotations.
Open Scope nat_scope.
Open Scope outcome_scope.
Local Arguments Z.add : simpl never.
Local Arguments Z.sub : simpl never.
Local Arguments Z.of_nat : simpl never.

Lemma find_entry_some keq h key : forall ts t, find_entry keq h key ts = Ok (Some t) ->
  In t ts /\ exists k0, tuple_get h t 0 = Ok k0 /\ keq key k0 = true.
Proof.
  induction ts as [|x ts IH]; intros t H; cbn in H; [discriminate|]. apply bind_ok in H as (k0 & T & H).
  destruct (keq key k0) eqn:E.
  - injection H as <-. split; [left; auto|eauto].
  - destruct (IH t H) as (I & X). split; [right; auto|auto].
Qed.
Lemma update_policy_facts h t i p h' b ps vs : update_policy h t i p = Ok h' -> h_mem h t = Some b -> b_body b = BObj (KProd ps) vs ->
  same_skel h h' /\ (forall x, x <> t -> h_mem h' x = h_mem h x) /\ h_mem h' t = Some (set_body (BObj (KProd (update ps i p)) vs) b).
Proof.
  intros H G B. pose proof (update_policy_skel _ _ _ _ _ H) as SK. split; [auto|].
  unfold update_policy, get_obj, get in H. rewrite G in H. cbn [bind] in H. rewrite B in H. cbn [bind] in H. rewrite (modify_ok _ _ _ _ G) in H. injection H as <-.
  cbn. split; [intros x NE; apply Nat.eqb_neq in NE; rewrite NE; auto|rewrite Nat.eqb_refl; auto].
Qed.
Lemma get_obj_of h a b k vs : h_mem h a = Some b -> b_body b = BObj k vs -> get_obj h a = Ok (k, vs).
Proof. intros G B. unfold get_obj, get. rewrite G. cbn. rewrite B. auto. Qed.

Section Maps.
Variables st r s c : addr.
Notation prot := (prot st r s c).
Notation RI := (RI st prot).
Notation delta := (delta st prot).
Notation okfs := (okfs prot).
Notation Inv := (Inv st r s c).

Lemma okfs_sub h fs gs : okfs h fs -> (exists us, fs = gs ++ us) -> okfs h gs.
Proof.
  intros OK (us & ->) p v I NP. specialize (OK p v (in_or_app _ _ _ (or_introl I)) NP). destruct v as [|y|]; auto.
  destruct OK as (A & B & C). split; [auto|]. split; [auto|]. destruct p; auto.
  - destruct C as (C1 & C2 & C3). rewrite hits_app in C2, C3. split; [auto|]. split; lia.
  - destruct C as (C1 & C2 & C3 & C4 & C5). rewrite hits_app in C3, C4. split; [auto|]. split; [auto|]. split; [lia|]. split; [|auto].
    assert (0 < hits DEL y gs) by (apply hits_in; auto). lia.
Qed.

(** one object may be exempt *)
Lemma Inv_skel_ex X h h' : Inv h -> RI h' none -> kp X h h' -> keeps_ret h h' -> same_skel h h' ->
  (forall x, X = Some x -> exempt h h' x) -> X <> Some st -> X <> Some r -> Inv h'.
Proof.
  intros [R M S] R' K KR SK EX X1 X2. constructor; auto.
  - apply (MI_pres st r s c X h h'); auto. intros x b' D G. apply (skel_live _ _ x SK) in D. congruence.
  - eapply SI_pres; [exact S|exact K|auto|auto|]. intros x PX D. apply (si_live _ _ _ _ _ S x PX). apply (skel_live _ _ x SK). auto.
Qed.

(** a policy in a tuple nobody owns any more is switched off *)
Lemma delta_policy_off h t i h' b ps vs : RI h none -> update_policy h t i NOOP = Ok h' -> h_mem h t = Some b -> b_body b = BObj (KProd ps) vs ->
  delta h h' (fun p y => Z.of_nat (hits p y (combine (update ps i NOOP) vs)) - Z.of_nat (hits p y (combine ps vs)))%Z (fun _ => 0%Z) (fun _ r => r)
    (combine (update ps i NOOP) vs).
Proof.
  intros R H G B. destruct (update_policy_facts _ _ _ _ _ _ _ _ H G B) as (SK & OT & GT).
  assert (LT : t < h_next h) by (apply (ri_fresh _ _ _ _ _ R); congruence).
  eapply delta_ext; [eapply (delta_put st prot h t b (KProd (update ps i NOOP)) vs h' G SK LT OT GT)| |reflexivity|reflexivity|apply incl_refl].
  - discriminate.
  - intros p y NPP. cbn beta. unfold bfields. rewrite B. reflexivity.
Qed.

Lemma map_add_unfold keq fuel h m k v pos : k <> VNull -> map_add keq fuel h m k v pos =
  (let* b := get h m in match b_body b with
    | BObj (KMap pk pv) (keys :: _) =>
      let* (h, t) := mk_prod h (b_state b) [pk; pv] [k; v] in
      let* (_, vs) := get_obj h m in
      let* e := find_entry keq h k (tl vs) in
      match e with
      | Some t1 =>
        let* t1a := target t1 in
        let* (k1, vs1) := get_obj h t1a in
        let* old := of_option OutOfBounds (nth_error vs1 1) in
        let* h :=
          if val_eqb v old then Ok h
          else
            let* h := put_vals h t1a k1 (update vs1 1 v) in
            decr_indegree h pv old in
        let* h := update_policy h t 1 NOOP in
        let* h := cee_del fuel h (VPtr t) in
        Ok (h, old)
      | None =>
        let* h := put_vals h m (KMap pk pv) (keys :: firstn pos (tl vs) ++ VPtr t :: skipn pos (tl vs)) in
        let* ka := target keys in
        let* h := list_append h ka k in
        Ok (h, VNull)
      end
    | _ => Bad BadPointer
    end).
Proof. intros N. destruct k; [congruence|reflexivity|reflexivity]. Qed.

Definition map_perm (keq : val -> val -> bool) (h : heap) (m : addr) (k v : val) : Prop :=
  k <> VNull -> forall pk pv vs, get_obj h m = Ok (KMap pk pv, vs) ->
    okfs h [(pk, k); (pv, v); (DEL_RC, k)] /\
    (pv = DEL_RC -> forall ta k0 ps, In (VPtr ta) (tl vs) -> get_obj h ta = Ok (KProd ps, [k0; v]) -> keq k k0 = false).

Lemma obj_state h m b k vs : RI h none -> h_mem h m = Some b -> b_body b = BObj k vs -> k <> KStatic -> b_state b = st.
Proof.
  intros R G B NS. destruct (ri_chain _ _ _ _ R) as (l & W). pose proof (obj_in _ _ _ _ _ _ W (get_obj_of _ _ _ _ _ G B) NS) as I.
  destruct (wc_obj _ _ _ W m I) as (_ & ST). unfold stt in ST. rewrite G in ST. cbn in ST. congruence.
Qed.
Lemma val_eqb_eq v w : val_eqb v w = true -> v = w.
Proof. destruct v, w; cbn; try discriminate; auto. intros E. apply Nat.eqb_eq in E. congruence. Qed.
Lemma put_at h a b k vs k' vs' h' : h_mem h a = Some b -> b_body b = BObj k vs -> put_vals h a k' vs' = Ok h' ->
  (forall x, x <> a -> h_mem h' x = h_mem h x) /\ h_mem h' a = Some (set_body (BObj k' vs') b).
Proof.
  intros G B H. unfold put_vals in H. rewrite (modify_ok _ _ _ _ G) in H. injection H as <-.
  cbn. split; [intros x NE; apply Nat.eqb_neq in NE; rewrite NE; auto|rewrite Nat.eqb_refl; auto].
Qed.

Lemma inv_map_add keq fuel h m k v pos h' res : Inv h -> map_perm keq h m k v -> map_add keq fuel h m k v pos = Ok (h', res) -> Inv h'.
Proof.
  intros IV PM H. pose proof (iv_ri _ _ _ _ _ IV) as R.
  assert (NK : k = VNull \/ k <> VNull) by (destruct k; [left|right|right]; congruence).
  destruct NK as [->|NK]; [injection H as <- <-; auto|]. rewrite map_add_unfold in H by auto.
  apply bind_ok in H as (b & G & H). apply get_ok in G. destruct (b_body b) as [|[| | |?|? ?|?|? ?|?|?|pk pv] vs] eqn:B; try discriminate. destruct vs as [|keys ts]; try discriminate.
  apply bind_ok in H as ((h1, t) & H1 & H).
  assert (ES : b_state b = st) by (eapply obj_state; [exact R|exact G|exact B|discriminate]). rewrite ES in H1. clear ES.
  destruct (PM NK pk pv (keys :: ts) (get_obj_of _ _ _ _ _ G B)) as (OK3 & VNEW). cbn [tl] in VNEW.
  assert (OK2 : okfs h [(pk, k); (pv, v)]) by (eapply okfs_sub; [exact OK3|exists [(DEL_RC, k)]; auto]).
  unfold mk_prod in H1. apply bind_ok in H1 as ((h0, t0) & H0 & H1). apply bind_ok in H1 as (h2 & H2 & H1). injection H1 as <- <-. rename h2 into h1.
  destruct (inv_mk_count st r s c h (KProd [pk; pv]) [k; v] _ h0 t0 h1 IV H0 (ex_intro _ _ eq_refl) H2 OK2) as (IV1 & ET & DT & (bt & Gt & Bt & Rt) & D1 & K1 & OB).
  rename t0 into t. cbn [del_fields combine] in D1. pose proof (iv_ri _ _ _ _ _ IV1) as R1.
  destruct (OB m b _ _ G B) as (bm & Gm & Bm).
  assert (NPt : ~ prot t) by (rewrite ET; apply prot_old; auto).
  assert (RZ : forall p, p <> NOOP -> rf p h1 t = 0).
  { intros p NP. pose proof (d_refs _ _ _ _ _ _ _ _ D1 p t NP) as X. rewrite (dead_refs st prot h t p R DT NP) in X. unfold addD in X.
    destruct (hits p t [(pk, k); (pv, v)]) eqn:E; [lia|]. exfalso. assert (I : In (p, VPtr t) [(pk, k); (pv, v)]) by (apply hits_in; lia).
    destruct (OK2 _ _ I NP) as (L & _). congruence. }
  rewrite (get_obj_of _ _ _ _ _ Gm Bm) in H. cbn [bind tl] in H.
  destruct (iv_map _ _ _ _ _ IV1 m bm pk pv _ Gm Bm) as (NPK & kl & ts' & EKS & LK & FE). injection EKS as -> <-.
  apply bind_ok in H as (e & FN & H). destruct e as [t1|].
  - (* the key is there *)
    destruct (find_entry_some _ _ _ _ _ FN) as (I1 & k0' & TG & KQ).
    rewrite Forall_forall in FE. destruct (FE t1 I1) as (t1a & b1 & k0 & old & -> & G1 & B1 & RB1). cbn [target bind] in H.
    rewrite (get_obj_of _ _ _ _ _ G1 B1) in H. cbn [bind nth_error of_option] in H.
    unfold tuple_get in TG. cbn [target bind] in TG. rewrite (get_obj_of _ _ _ _ _ G1 B1) in TG. cbn in TG. injection TG as <-.
    assert (NE1 : t1a <> t).
    { intros ->. assert (X : 0 < rf DEL h1 t); [|rewrite RZ in X by discriminate; lia].
      apply (refs_in DEL h1 none m t); [apply (ri_fresh _ _ _ _ _ R1); congruence|]. unfold eflds, none. rewrite Gm. unfold bfields. rewrite Bm. cbn [del_fields]. apply in_map. right. auto. }
    assert (FT1 : forall q w, In (q, w) [(pk, k0); (pv, old)] -> In (q, w) (fl h1 t1a)).
    { intros q w I. rewrite (fl_some _ _ _ G1). unfold bfields. rewrite B1. exact I. }
    assert (FT : forall q w, In (q, w) [(pk, k); (pv, v)] -> In (q, w) (fl h1 t)).
    { intros q w I. rewrite (fl_some _ _ _ Gt). unfold bfields. rewrite Bt. exact I. }
    apply bind_ok in H as (h3 & H3 & H). apply bind_ok in H as (h4 & H4 & H). apply bind_ok in H as (h5 & H5 & H). injection H as <- <-.
    (* from h1 to h4 *)
    assert (X : exists F, delta h1 h3 (fun p y => addD [(pv, v)] p y - addD [(pv, old)] p y)%Z (fun y => - addD [(pv, old)] DEL_RC y)%Z F [] /\
        (forall y b, F y b = true -> b = true /\ hits DEL y [(pv, old)] = 0) /\
        same_skel h1 h3 /\ kp None h1 h3 /\ exists bt3, h_mem h3 t = Some bt3 /\ b_body bt3 = BObj (KProd [pk; pv]) [k; v] \/ False).
    { destruct (val_eqb v old) eqn:EV.
      - injection H3 as <-. apply val_eqb_eq in EV. subst old.
        assert (EP : pv = NOOP).
        { destruct pv; auto; exfalso.
          - assert (LT1 : h_mem h t1a <> None).
            { intros X. assert (0 < rf DEL h1 t1a).
              { apply (refs_in DEL h1 none m t1a); [apply (ri_fresh _ _ _ _ _ R1); congruence|]. unfold eflds, none. rewrite Gm. unfold bfields. rewrite Bm. cbn [del_fields]. apply in_map. right. auto. }
              pose proof (d_refs _ _ _ _ _ _ _ _ D1 DEL t1a ltac:(discriminate)) as Y. rewrite (dead_refs st prot h t1a DEL R X) in Y by discriminate. unfold addD in Y.
              assert (I : In (DEL, VPtr t1a) [(pk, k); (DEL_RC, v)]) by (apply hits_in; lia). destruct (OK2 _ _ I) as (L & _); [discriminate|]. congruence. }
            destruct (h_mem h t1a) as [bo|] eqn:Go; [|congruence].
            assert (Bo : b_body bo = BObj (KProd [pk; DEL_RC]) [k0; v]).
            { destruct (iv_map _ _ _ _ _ IV m b pk DEL_RC _ G B) as (_ & kl0 & ts0 & E0 & _ & FE0). injection E0 as <- <-. rewrite Forall_forall in FE0.
              destruct (FE0 (VPtr t1a) I1) as (z & bz & kz & vz & EZ & Gz & Bz & _). injection EZ as <-. rewrite Go in Gz. injection Gz as <-.
              destruct (OB t1a bo _ _ Go Bz) as (b' & G' & B'). rewrite G1 in G'. injection G' as <-. congruence. }
            rewrite (VNEW eq_refl t1a k0 [pk; DEL_RC] I1 (get_obj_of _ _ _ _ _ Go Bo)) in KQ. discriminate.
          - destruct v as [|y|].
            + cbn [foldm fst snd] in H2. apply bind_ok in H2 as (? & _ & H2). apply bind_ok in H2 as (? & H2 & _). discriminate.
            + destruct (OK2 DEL (VPtr y)) as (LY & _ & _ & Q2 & _ & Q4 & _); [right; left; auto|discriminate|].
              assert (Q5 : 2 <= rf DEL h1 y).
              { assert (LL : hits DEL y (fl h1 t1a) + hits DEL y (fl h1 t) <= rf DEL h1 y).
                { unfold rf, refs. assert (a1 : t1a < h_next h1) by (apply (ri_fresh _ _ _ _ _ R1); congruence). assert (a2 : t < h_next h1) by (apply (ri_fresh _ _ _ _ _ R1); congruence).
                  unfold fl. clear -a1 a2 NE1. generalize dependent (h_next h1). intros n. set (f := fun x => hits DEL y (eflds h1 none x)). change (t1a < n -> t < n -> f t1a + f t <= sumn n f).
                  induction n as [|n IH]; intros A B; [lia|]. cbn.
                  destruct (Nat.eq_dec t1a n) as [->|]; [pose proof (sumn_le_at n f t ltac:(lia)); lia|]. destruct (Nat.eq_dec t n) as [->|]; [pose proof (sumn_le_at n f t1a ltac:(lia)); lia|].
                  specialize (IH ltac:(lia) ltac:(lia)). lia. }
                assert (0 < hits DEL y (fl h1 t1a)) by (apply hits_in; apply FT1; right; left; auto).
                assert (0 < hits DEL y (fl h1 t)) by (apply hits_in; apply FT; right; left; auto). lia. }
              destruct (ri_own _ _ _ _ R1 y) as (O & _). change (refs DEL h1 none y) with (rf DEL h1 y) in O. lia.
            + apply (OK2 DEL VForeign); [right; left; auto|discriminate]. }
        subst pv. exists (fun _ b => b). split.
        { eapply delta_ext; [apply delta_refl| | |reflexivity|apply incl_refl].
          - intros p y NPP. cbn beta. lia.
          - intros y. unfold addD, hits; cbn. destruct v; reflexivity. }
        split; [intros y q Q; split; [auto|unfold hits; cbn; destruct v; auto]|].
        split; [apply same_skel_refl|]. split; [apply kp_bodies; red; auto|]. exists bt. left. auto.
      - apply bind_ok in H3 as (h2 & H3 & H3'). cbn [update] in H3.
        pose proof (get_obj_of _ _ _ _ _ G1 B1) as GO1.
        destruct (put_facts _ _ _ _ _ _ GO1 H3) as (b1' & G1' & B1' & SK3 & OT3 & GA3). rewrite G1 in G1'. injection G1' as <-.
        assert (LT1 : t1a < h_next h1) by (apply (ri_fresh _ _ _ _ _ R1); congruence).
        pose proof (delta_put st prot h1 t1a b1 (KProd [pk; pv]) [k0; v] h2 G1 SK3 LT1 OT3 GA3) as DP.
        assert (KS : forall p, KProd [pk; pv] = KSet p -> prot t1a \/ [k0; v] = []) by discriminate. specialize (DP KS).
        assert (Q : pv = DEL_RC -> forall y, old = VPtr y -> retof h2 y = false /\ (0 < rcof h2 y)%Z).
        { intros EP y EO. destruct (held_decr st prot h1 t1a pv old R1) with (y := y) as (Q1 & Q2); auto. { apply FT1. right. left. auto. }
          assert (LY : h_mem h1 y <> None). { intros X. unfold rcof in Q2. rewrite X in Q2. lia. }
          assert (LY1 : h_mem h2 y <> None) by (intros X; apply LY; apply (skel_live _ _ _ SK3); auto).
          rewrite (d_ret _ _ _ _ _ _ _ _ DP y LY1), (d_rc _ _ _ _ _ _ _ _ DP y LY1). split; [auto|lia]. }
        destruct (delta_decr st prot _ _ _ _ H3' Q) as (DQ & _ & BQ).
        exists (remF [(pv, old)]). split.
        { eapply delta_narrow; [eapply delta_ext; [eapply delta_trans; [exact DP|exact DQ|auto]| | |reflexivity|apply incl_refl]|].
          - intros p y NPP. cbn beta. unfold bfields. rewrite B1. cbn [del_fields combine]. unfold addD. rewrite !hits_cons, !hits_nil. lia.
          - intros y. cbn beta. lia.
          - intros f. rewrite app_nil_r. cbn [del_fields combine]. intros [<-|[<-|[]]]; left; [exists t1a; apply FT1; left; auto|exists t; apply FT; right; left; auto]. }
        split; [apply remF_and|]. split; [eapply same_skel_trans; [exact SK3|eapply decr_skel; eauto]|].
        split; [eapply kp_skel; [eapply kp_put; [exact GO1|exact H3|reflexivity]|apply kp_bodies; eapply decr_bodies; eauto|exact SK3]|].
        specialize (BQ t). rewrite OT3 in BQ by auto. rewrite Gt in BQ. destruct (h_mem h3 t) as [bt3|]; [|discriminate]. exists bt3. left. split; [auto|]. cbn in BQ. congruence. }
    destruct X as (F & D3 & FF & SK3 & K3 & bt3 & [(Gt3 & Bt3)|[]]).
    assert (NX3 : h_next h3 = h_next h1) by apply SK3.
    destruct (update_policy_facts _ _ _ _ _ _ _ _ H4 Gt3 Bt3) as (SK4 & OT4 & GT4). cbn [update] in GT4.
    assert (LT3 : t < h_next h3) by (rewrite NX3; apply (ri_fresh _ _ _ _ _ R1); congruence).
    pose proof (delta_put st prot h3 t bt3 (KProd [pk; NOOP]) [k; v] h4 Gt3 SK4 LT3 OT4 GT4) as D4.
    assert (KS : forall p, KProd [pk; NOOP] = KSet p -> prot t \/ [k; v] = []) by discriminate. specialize (D4 KS).
    assert (SK14 : same_skel h1 h4) by (eapply same_skel_trans; eauto).
    assert (D14 : delta h1 h4 (fun p y => - addD [(pv, old)] p y)%Z (fun y => - addD [(pv, old)] DEL_RC y)%Z F [(NOOP, v)]).
    { eapply delta_narrow; [eapply delta_ext; [eapply delta_trans; [exact D3|exact D4|]| | |reflexivity|apply incl_refl]|].
      - intros y DY. split.
        + destruct (hits DEL_RC y [(pv, old)]) eqn:E; [unfold addD; rewrite E; auto|]. exfalso.
          assert (I : In (DEL_RC, VPtr y) [(pv, old)]) by (apply hits_in; lia). destruct I as [I|[]]. injection I as EP EO.
          assert (FO : In (pv, VPtr y) (fl h1 t1a)) by (apply FT1; right; left; congruence).
          destruct (ri_tgt _ _ _ _ R1 t1a pv (VPtr y) FO) as (L & _); [congruence|].
          apply L. apply (skel_live _ _ _ SK3). auto.
        + destruct (F y false) eqn:E; auto. destruct (FF y false E). discriminate.
      - intros p y NPP. cbn beta. unfold bfields. rewrite Bt3. cbn [del_fields combine]. unfold addD. rewrite !hits_cons, !hits_nil.
        assert (E : hit p y (NOOP, v) = false) by (unfold hit; destruct p, v; cbn; auto; congruence). rewrite E. lia.
      - intros y. cbn beta. lia.
      - intros f. cbn [app del_fields combine]. intros [<-|[<-|[]]]; [left; exists t; apply FT; left; auto|right; left; auto]. }
    assert (R4 : RI h4 none).
    { eapply RI_rem; [exact R1|exact D14|intros p w [E|[]]; congruence|exact FF]. }
    assert (RZ4 : forall p, p <> NOOP -> rf p h4 t = 0).
    { intros p NP. pose proof (d_refs _ _ _ _ _ _ _ _ D14 p t NP) as X. rewrite (RZ p NP) in X. unfold addD in X. lia. }
    assert (IV4 : Inv h4).
    { eapply (Inv_skel_ex (Some t)); [exact IV1|exact R4| | |exact SK14| | |].
      - intros x bx bx' NX G3 G3'. assert (NE : x <> t) by congruence. rewrite OT4 in G3' by auto. eapply K3; eauto. discriminate.
      - eapply keeps_ret_rem; [exact D14|]. intros y. destruct (F y false) eqn:E; auto. destruct (FF y false E). discriminate.
      - intros x E. injection E as <-. right. left. split; [apply RZ4; discriminate|]. eexists _, _, _. split; [exact GT4|reflexivity].
      - intros E. injection E as E. apply NPt. left. auto.
      - intros E. injection E as E. apply NPt. right. left. auto. }
    unfold cee_del in H5. cbn [del_e] in H5.
    eapply Inv_del; [exact IV4|exact GT4|apply RZ4; discriminate|apply RZ4; discriminate|exact NPt|exact H5].
  - (* a new key *)
    apply bind_ok in H as (h2' & H3 & H). cbn [target bind] in H. apply bind_ok in H as (h4 & H4 & H). injection H as <- <-. rename h2' into h3.
    pose proof (get_obj_of _ _ _ _ _ Gm Bm) as GOm.
    destruct (put_facts _ _ _ _ _ _ GOm H3) as (bm' & Gm' & Bm' & SK3 & OT3 & GA3). rewrite Gm in Gm'. injection Gm' as <-. clear Bm'.
    assert (LTm : m < h_next h1) by (apply (ri_fresh _ _ _ _ _ R1); congruence).
    pose proof (delta_put st prot h1 m bm (KMap pk pv) (VPtr kl :: firstn pos ts ++ VPtr t :: skipn pos ts) h3 Gm SK3 LTm OT3 GA3) as D3.
    assert (KS : forall p, KMap pk pv = KSet p -> prot m \/ VPtr kl :: firstn pos ts ++ VPtr t :: skipn pos ts = []) by discriminate. specialize (D3 KS).
    assert (D3' : delta h1 h3 (addD [(DEL, VPtr t)]) (addD [(DEL, VPtr t)] DEL_RC) (fun _ b => b) [(DEL, VPtr t)]).
    { eapply delta_narrow; [eapply delta_ext; [exact D3| | |reflexivity|apply incl_refl]|].
      - intros p y NPP. cbn beta. unfold bfields. rewrite Bm. cbn [del_fields]. cbn [map]. rewrite !hits_cons, hits_mid.
        rewrite <- (firstn_skipn pos ts) at 3. unfold addD. lia.
      - intros y. reflexivity.
      - intros f. cbn [del_fields]. rewrite in_map_iff. intros (w & <- & I).
        assert (OLD : In w (VPtr kl :: ts) -> exists z, In (DEL, w) (fl h1 z)).
        { intros I'. exists m. rewrite (fl_some _ _ _ Gm). unfold bfields. rewrite Bm. cbn [del_fields]. apply in_map. auto. }
        destruct I as [<-|I]; [left; apply OLD; left; auto|]. apply in_app_or in I as [I|[<-|I]]; [left; apply OLD; right|right; left; auto|left; apply OLD; right].
        + rewrite <- (firstn_skipn pos ts). apply in_or_app. auto.
        + rewrite <- (firstn_skipn pos ts). apply in_or_app. auto. }
    assert (OKt : okfs h1 [(DEL, VPtr t)]).
    { intros p w [E|[]] _. injection E as <- <-. split; [congruence|]. split; [auto|]. split; [apply RZ; discriminate|]. split; [apply RZ; discriminate|].
      unfold hits; cbn. rewrite Nat.eqb_refl. split; [auto|]. split; [auto|]. unfold shp. rewrite Gt. cbn. unfold shape_of. rewrite Bt. discriminate. }
    assert (R3 : RI h3 none) by (eapply RI_add; [exact R1|exact OKt|exact D3'|auto]).
    assert (OTH : forall x, h_mem h1 x <> None -> x <> m -> h_mem h3 x = h_mem h1 x) by auto.
    assert (IV3 : Inv h3).
    { eapply (Inv_skel_ex (Some m)); [exact IV1|exact R3| | |exact SK3| | |].
      - intros x bx bx' NX G5 G5'. assert (NE : x <> m) by congruence. rewrite OT3 in G5' by auto. rewrite G5 in G5'. injection G5' as <-. apply step_ok_refl.
      - eapply keeps_ret_rem; [exact D3'|auto].
      - intros x E. injection E as <-. right. right. split.
        + intros b5 pk5 pv5 vs5 G5 B5. rewrite GA3 in G5. injection G5 as <-. cbn in B5. injection B5 as <- <- <-. split; [auto|].
          exists kl, (firstn pos ts ++ VPtr t :: skipn pos ts). split; [auto|]. split.
          * destruct LK as (bk & ks & Gk & Bk). exists bk, ks. split; [|auto]. rewrite OT3; [auto|]. intros ->. congruence.
          * assert (EN : forall w, entry h1 pk pv w -> entry h3 pk pv w).
            { intros w (wa & wb & w1 & w2 & -> & Gw & Bw & Rw). exists wa, wb, w1, w2. split; [auto|]. split; [|auto]. rewrite OT3; [auto|]. intros ->. congruence. }
            rewrite Forall_forall in *. intros w I. apply EN. apply in_app_or in I as [I|[<-|I]].
            -- apply FE. rewrite <- (firstn_skipn pos ts). apply in_or_app. auto.
            -- exists t, bt, k, v. auto.
            -- apply FE. rewrite <- (firstn_skipn pos ts). apply in_or_app. auto.
        + exists bm, pk, pv. eauto.
      - intros E. injection E as E. destruct (si_st _ _ _ _ _ (iv_si _ _ _ _ _ IV1)) as (b5 & ? & ? & G5 & B5). congruence.
      - intros E. injection E as E. destruct (si_r _ _ _ _ _ (iv_si _ _ _ _ _ IV1)) as (b5 & ? & G5 & B5). congruence. }
    eapply inv_append; [exact IV3| |exact H4].
    intros p ws GK. assert (EP : p = DEL_RC).
    { apply get_obj_inv in GK as (b5 & G5 & B5). destruct LK as (bk & ks & Gk & Bk). rewrite OT3 in G5; [congruence|]. intros ->. congruence. }
    subst p. intros p w [E|[]] _. injection E as <- <-.
    destruct k as [|y|]; [congruence| |apply (OK3 DEL_RC VForeign); [right; right; left; auto|discriminate]].
    destruct (OK3 DEL_RC (VPtr y)) as (LY & NPy & Q1 & Q2 & Q3); [right; right; left; auto|discriminate|].
    assert (NEt : y <> t) by congruence.
    split; [apply (d_live _ _ _ _ _ _ _ _ D3'), (d_live _ _ _ _ _ _ _ _ D1); auto|]. split; [auto|].
    pose proof (d_refs _ _ _ _ _ _ _ _ D3' DEL y ltac:(discriminate)) as X1. pose proof (d_refs _ _ _ _ _ _ _ _ D3' DEL_RC y ltac:(discriminate)) as X2.
    pose proof (d_refs _ _ _ _ _ _ _ _ D1 DEL y ltac:(discriminate)) as X3. pose proof (d_refs _ _ _ _ _ _ _ _ D1 DEL_RC y ltac:(discriminate)) as X4.
    unfold addD in *. rewrite !hits_cons in *. rewrite !hits_nil in *.
    assert (Y1 : hit DEL y (DEL, VPtr t) = false) by (cbn; apply Nat.eqb_neq; auto). rewrite Y1 in *.
    assert (Y2 : hit DEL_RC y (DEL, VPtr t) = false) by reflexivity. rewrite Y2 in *.
    assert (Y3 : hit DEL y (DEL_RC, VPtr y) = false) by reflexivity. rewrite Y3 in *.
    split; [lia|]. split; [lia|]. lia.
Qed.

Lemma map_remove_unfold keq fuel h m k : k <> VNull -> map_remove keq fuel h m k =
  (let* b := get h m in
    match b_body b with
    | BObj (KMap pk pv) (keys :: ts) =>
      let* e := find_entry keq h k ts in
      match e with
      | None => Ok (h, VNull)
      | Some t =>
        let* h := put_vals h m (KMap pk pv) (keys :: filter (fun x => negb (val_eqb x t)) ts) in
        let* old_key := tuple_get h t 0 in
        let* old := tuple_get h t 1 in
        let* h := decr_indegree h pk old_key in
        let* h := decr_indegree h pv old in
        let* ta := target t in
        let* h := update_policy h ta 0 NOOP in
        let* h := update_policy h ta 1 NOOP in
        let* h := cee_del fuel h t in
        let* ka := target keys in
        let* h := key_delete keq h ka k in
        Ok (h, old)
      end
    | _ => Bad BadPointer
    end).
Proof. intros N. destruct k; [congruence|reflexivity|reflexivity]. Qed.
Lemma key_delete_remove keq h keys k h' : key_delete keq h keys k = Ok h' -> exists i, list_remove h keys i = Ok h'.
Proof.
  unfold key_delete. intros H. apply bind_ok in H as ((k1, vs) & _ & H). revert H. generalize 0.
  induction vs as [|x vs IH]; intros i H; [discriminate|]. destruct (keq k x); [eauto|]. eapply IH; eauto.
Qed.
Lemma hits_split p y q (f : val -> bool) ts : hits p y (map (pair q) ts) = hits p y (map (pair q) (filter f ts)) + hits p y (map (pair q) (filter (fun x => negb (f x)) ts)).
Proof.
  induction ts as [|x ts IH]; auto. cbn [map filter]. rewrite hits_cons, IH. destruct (f x); cbn [negb map]; rewrite hits_cons; lia.
Qed.

Lemma inv_map_remove keq fuel h m k h' res : Inv h -> map_remove keq fuel h m k = Ok (h', res) -> Inv h'.
Proof.
  intros IV H. pose proof (iv_ri _ _ _ _ _ IV) as R.
  assert (NK : k = VNull \/ k <> VNull) by (destruct k; [left|right|right]; congruence).
  destruct NK as [->|NK]; [injection H as <- <-; auto|]. rewrite map_remove_unfold in H by auto.
  apply bind_ok in H as (b & G & H). apply get_ok in G. destruct (b_body b) as [|[| | |?|? ?|?|? ?|?|?|pk pv] vs] eqn:B; try discriminate. destruct vs as [|keys ts]; try discriminate.
  apply bind_ok in H as (e & FN & H). destruct e as [t1|]; [|injection H as <- <-; auto].
  destruct (find_entry_some _ _ _ _ _ FN) as (I1 & _). clear FN.
  destruct (iv_map _ _ _ _ _ IV m b pk pv _ G B) as (NPK & kl & ts' & EKS & LK & FE). injection EKS as -> <-.
  pose proof FE as FE0. rewrite Forall_forall in FE0. destruct (FE0 t1 I1) as (ta & bt & k0 & old & -> & Gt & Bt & Rt). clear FE0.
  apply bind_ok in H as (h1 & H1 & H).
  pose proof (get_obj_of _ _ _ _ _ G B) as GOm.
  destruct (put_facts _ _ _ _ _ _ GOm H1) as (b' & G' & B' & SK1 & OT1 & GA1). rewrite G in G'. injection G' as <-. clear B'.
  set (ts1 := filter (fun x => negb (val_eqb x (VPtr ta))) ts) in *.
  set (gs := map (pair DEL) (filter (fun x => val_eqb x (VPtr ta)) ts)).
  assert (LTm : m < h_next h) by (apply (ri_fresh _ _ _ _ _ R); congruence).
  assert (FM : fl h m = map (pair DEL) (VPtr kl :: ts)) by (rewrite (fl_some _ _ _ G); unfold bfields; rewrite B; auto).
  assert (NPt : ~ prot ta).
  { destruct (ri_tgt _ _ _ _ R m DEL (VPtr ta)) as (_ & X); [change (In (DEL, VPtr ta) (fl h m)); rewrite FM; apply in_map; right; auto|discriminate|auto]. }
  assert (GS : forall y, 0 < hits DEL y gs -> y = ta).
  { intros y HI. apply hits_in in HI. unfold gs in HI. apply in_map_iff in HI as (w & E & I). injection E as ->. apply filter_In in I as (_ & E). apply val_eqb_eq in E. congruence. }
  assert (D1 : delta h h1 (fun p y => - addD gs p y)%Z (fun y => - addD gs DEL_RC y)%Z (remF gs) []).
  { pose proof (delta_put st prot h m b (KMap pk pv) (VPtr kl :: ts1) h1 G SK1 LTm OT1 GA1) as D.
    assert (KS : forall p, KMap pk pv = KSet p -> prot m \/ VPtr kl :: ts1 = []) by discriminate. specialize (D KS).
    assert (X : forall y, addD gs DEL_RC y = 0%Z).
    { intros y. unfold addD. destruct (hits DEL_RC y gs) eqn:E; auto. exfalso. assert (I : In (DEL_RC, VPtr y) gs) by (apply hits_in; lia).
      unfold gs in I. apply in_map_iff in I as (w & E' & _). discriminate. }
    destruct D as [A1 A2 A3 A4 A5 A6 A7 A8]. constructor; auto.
    - intros p y NP. rewrite A3 by auto. unfold bfields. rewrite B. cbn [del_fields map]. rewrite !hits_cons. unfold ts1, addD, gs.
      rewrite (hits_split p y DEL (fun x => val_eqb x (VPtr ta)) ts). lia.
    - intros y L. rewrite A4 by auto. rewrite X. lia.
    - intros y L. rewrite A5 by auto. unfold remF. destruct (Nat.ltb_spec 0 (hits DEL y gs)) as [HI|HI]; [|destruct (retof h y); auto].
      rewrite (GS y HI). unfold retof. rewrite Gt, Rt. auto.
    - intros x f I. destruct (A7 x f I) as [Z|Z]; [auto|]. left. exists m. rewrite FM. cbn [del_fields] in Z. apply in_map_iff in Z as (w & <- & I'). apply in_map.
      destruct I' as [<-|I']; [left; auto|]. right. unfold ts1 in I'. apply filter_In in I'. tauto. }
  assert (R1 : RI h1 none) by (eapply RI_rem; [exact R|exact D1|intros p v []|apply remF_and]).
  assert (RZ : forall p, p <> NOOP -> rf p h1 ta = 0).
  { assert (HG : 0 < hits DEL ta gs).
    { apply hits_in. unfold gs. apply in_map. apply filter_In. split; [auto|]. cbn. apply Nat.eqb_refl. }
    destruct (ri_own _ _ _ _ R ta) as (O1 & O2). change (refs DEL h none ta) with (rf DEL h ta) in *. change (refs DEL_RC h none ta) with (rf DEL_RC h ta) in *.
    pose proof (d_refs _ _ _ _ _ _ _ _ D1 DEL ta ltac:(discriminate)) as X1. pose proof (d_refs _ _ _ _ _ _ _ _ D1 DEL_RC ta ltac:(discriminate)) as X2. unfold addD in *.
    intros p NP. destruct p; try congruence; lia. }
  assert (IV1 : Inv h1).
  { eapply (Inv_skel_ex (Some m)); [exact IV|exact R1| | |exact SK1| | |].
    - intros x bx bx' NX G5 G5'. assert (NE : x <> m) by congruence. rewrite OT1 in G5' by auto. rewrite G5 in G5'. injection G5' as <-. apply step_ok_refl.
    - eapply keeps_ret_rem; [exact D1|auto].
    - intros x E. injection E as <-. right. right. split; [|exists b, pk, pv; eauto].
      intros b5 pk5 pv5 vs5 G5 B5. rewrite GA1 in G5. injection G5 as <-. cbn in B5. injection B5 as <- <- <-. split; [auto|].
      exists kl, ts1. split; [auto|]. split.
      + destruct LK as (bk & ks & Gk & Bk). exists bk, ks. split; [|auto]. rewrite OT1; [auto|]. intros ->. congruence.
      + rewrite Forall_forall in *. intros w I. unfold ts1 in I. apply filter_In in I as (I & _). destruct (FE w I) as (wa & wb & w1 & w2 & -> & Gw & Bw & Rw).
        exists wa, wb, w1, w2. split; [auto|]. split; [|auto]. rewrite OT1; [auto|]. intros ->. congruence.
    - intros E. injection E as E. destruct (si_st _ _ _ _ _ (iv_si _ _ _ _ _ IV)) as (b5 & ? & ? & G5 & B5). congruence.
    - intros E. injection E as E. destruct (si_r _ _ _ _ _ (iv_si _ _ _ _ _ IV)) as (b5 & ? & G5 & B5). congruence. }
  assert (NEm : ta <> m) by congruence. assert (Gt1 : h_mem h1 ta = Some bt) by (rewrite OT1; auto).
  unfold tuple_get in H. cbn [target bind] in H. rewrite (get_obj_of _ _ _ _ _ Gt1 Bt) in H. cbn [bind nth_error of_option] in H.
  apply bind_ok in H as (h2 & H2 & H). apply bind_ok in H as (h3 & H3 & H). apply bind_ok in H as (h4 & H4 & H). apply bind_ok in H as (h5 & H5 & H).
  apply bind_ok in H as (h6 & H6 & H). apply bind_ok in H as (h7 & H7 & H). injection H as <- <-.
  set (fs := [(pk, k0); (pv, old)]).
  assert (FT : fl h1 ta = fs) by (rewrite (fl_some _ _ _ Gt1); unfold bfields; rewrite Bt; auto).
  assert (HF : foldm (fun h pv => decr_indegree h (fst pv) (snd pv)) h1 fs = Ok h3) by (cbn [fs foldm fst snd]; rewrite H2; cbn [bind]; rewrite H3; auto).
  assert (LTa : ta < h_next h1) by (apply (ri_fresh _ _ _ _ _ R1); congruence).
  destruct (delta_decrs st prot fs h1 h3 HF) as (D3 & SK3 & SB3).
  { intros y I. rewrite <- FT in I. destruct (held_decr st prot h1 ta DEL_RC (VPtr y) R1 I eq_refl y eq_refl) as (Q1 & Q2). split; [auto|].
    unfold rcof in *. destruct (h_mem h1 y) as [by'|] eqn:GY; [|lia]. rewrite (ri_cnt _ _ _ _ R1 y by' GY).
    pose proof (sumn_le_at (h_next h1) (fun x => hits DEL_RC y (eflds h1 none x)) ta LTa) as LE. cbn beta in LE. change (eflds h1 none ta) with (fl h1 ta) in LE. rewrite FT in LE. unfold refs. lia. }
  pose proof (SB3 ta) as Bt3. rewrite Gt1 in Bt3. destruct (h_mem h3 ta) as [bt3|] eqn:Gt3; [|discriminate]. cbn in Bt3. injection Bt3 as Bt3. rewrite Bt in Bt3.
  destruct (update_policy_facts _ _ _ _ _ _ _ _ H4 Gt3 Bt3) as (SK4 & OT4 & GT4). cbn [update] in GT4.
  assert (LT3 : ta < h_next h3). { replace (h_next h3) with (h_next h1); auto. symmetry. apply SK3. }
  pose proof (delta_put st prot h3 ta bt3 (KProd [NOOP; pv]) [k0; old] h4 Gt3 SK4 LT3 OT4 GT4 ltac:(discriminate)) as D4.
  destruct (update_policy_facts _ _ _ _ _ _ _ _ H5 GT4 eq_refl) as (SK5 & OT5 & GT5). cbn [update] in GT5.
  assert (LT4 : ta < h_next h4). { replace (h_next h4) with (h_next h3); auto. symmetry. apply SK4. }
  pose proof (delta_put st prot h4 ta _ (KProd [NOOP; NOOP]) [k0; old] h5 GT4 SK5 LT4 OT5 GT5 ltac:(discriminate)) as D5.
  assert (SK15 : same_skel h1 h5) by (eapply same_skel_trans; [exact SK3|eapply same_skel_trans; eauto]).
  assert (D15 : delta h1 h5 (fun p y => - addD fs p y)%Z (fun y => - addD fs DEL_RC y)%Z (remF fs) [(NOOP, k0); (NOOP, old)]).
  { eapply delta_narrow; [eapply delta_ext; [eapply delta_trans; [exact D3|eapply delta_trans; [exact D4|exact D5|auto]|]| | |reflexivity|apply incl_refl]|].
    - intros y DY. split; [|auto]. destruct (hits DEL_RC y fs) eqn:E; [unfold addD; rewrite E; auto|]. exfalso.
      assert (I : In (DEL_RC, VPtr y) (fl h1 ta)) by (rewrite FT; apply hits_in; lia).
      destruct (ri_tgt _ _ _ _ R1 ta _ _ I) as (L & _); [discriminate|]. apply L. apply (skel_live _ _ _ SK3). auto.
    - intros p y NPP. cbn beta. unfold bfields. rewrite Bt3. cbn [b_body set_body del_fields combine]. unfold addD, fs. rewrite !hits_cons, !hits_nil.
      assert (E : forall v, hit p y (NOOP, v) = false) by (intros v; unfold hit; destruct p, v; cbn; auto; congruence). rewrite !E. lia.
    - intros y. cbn beta. lia.
    - intros f. cbn [app del_fields combine]. intros [<-|[<-|[<-|[<-|[]]]]]; cbn [In]; auto.
      left. exists ta. rewrite FT. right. left. auto. }
  assert (R5 : RI h5 none).
  { eapply RI_rem; [exact R1|exact D15|intros p w [E|[E|[]]]; congruence|apply remF_and]. }
  assert (RZ5 : forall p, p <> NOOP -> rf p h5 ta = 0).
  { intros p NP. pose proof (d_refs _ _ _ _ _ _ _ _ D15 p ta NP) as X. rewrite (RZ p NP) in X. unfold addD in X. lia. }
  assert (IV5 : Inv h5).
  { eapply (Inv_skel_ex (Some ta)); [exact IV1|exact R5| | |exact SK15| | |].
    - intros x bx bx' NX G3 G3'. assert (NE : x <> ta) by congruence. rewrite OT5, OT4 in G3' by auto.
      specialize (SB3 x). rewrite G3, G3' in SB3. cbn in SB3. injection SB3 as ->. apply step_ok_refl.
    - eapply keeps_ret_rem; [exact D15|auto].
    - intros x E. injection E as <-. right. left. split; [apply RZ5; discriminate|]. eexists _, _, _. split; [exact GT5|reflexivity].
    - intros E. injection E as E. apply NPt. left. auto.
    - intros E. injection E as E. apply NPt. right. left. auto. }
  unfold cee_del in H6. cbn [del_e] in H6.
  assert (IV6 : Inv h6) by (eapply Inv_del; [exact IV5|exact GT5|apply RZ5; discriminate|apply RZ5; discriminate|exact NPt|exact H6]).
  apply key_delete_remove in H7 as (i & H7). eapply inv_remove; eauto.
Qed.
End Maps.
