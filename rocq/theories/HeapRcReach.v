(** A new state satisfies the invariant of counted and owned objects. *)
From Coq Require Import ZArith List Bool Lia.
From Verif Require Import Base HeapModel HeapChainProofs HeapHistory HeapSweepProofs HeapRcProofs HeapRcHistory HeapRcOps HeapRcInv HeapRcSteps HeapRcMaps.
Import ListNotations.
Open Scope nat_scope.
Open Scope outcome_scope.
Local Arguments Z.add : simpl never.
Local Arguments Z.of_nat : simpl never.

Lemma ri_first b0 (P : addr -> Prop) : b_body b0 = BState 0 0 0 0 1 -> b_next b0 = None -> b_prev b0 = None -> b_rc b0 = 0%Z -> b_ret b0 = false -> P 0 ->
  RI 0 P (Heap (fun x => if x =? 0 then Some b0 else None) 1 []) none.
Proof.
  intros B N PV RC RT P0. set (h := Heap _ _ _).
  assert (EF : forall x, eflds h none x = []).
  { intros x. unfold eflds, h. cbn [h_mem]. destruct (x =? 0); auto. cbn. unfold bfields. rewrite B. auto. }
  assert (RF : forall p y, refs p h none y = 0).
  { intros p y. unfold refs. apply sumn_zero. intros x _. rewrite EF. auto. }
  constructor.
  - exists []. constructor.
    + unfold shp. cbn. unfold shape_of. rewrite B. auto.
    + exact I.
    + constructor; [tauto|constructor].
    + intros a [].
    + intros a. unfold h. cbn [h_mem]. destruct (Nat.eqb_spec a 0); [auto|intros X; exfalso; apply X; reflexivity].
    + intros a. unfold h. cbn [h_mem h_next]. destruct (Nat.eqb_spec a 0); [lia|congruence].
    + constructor.
    + intros a. unfold h. cbn [h_mem h_next h_freed]. split; [intros []|]. destruct (Nat.eqb_spec a 0); intros (? & ?); [discriminate|lia].
    + intros _. unfold nxt. cbn. rewrite N. auto.
  - intros y b G. rewrite RF. unfold h in G. cbn in G. destruct (y =? 0); [injection G as <-; auto|discriminate].
  - intros y b G R. unfold h in G. cbn in G. destruct (y =? 0); [injection G as <-; congruence|discriminate].
  - intros y b G R. unfold h in G. cbn in G. destruct (y =? 0); [injection G as <-; auto|discriminate].
  - intros y. rewrite !RF. lia.
  - intros x p v I. rewrite EF in I. contradiction.
  - discriminate.
  - intros x b p vs G BB. unfold h in G. cbn in G. destruct (x =? 0); [injection G as <-; congruence|discriminate].
  - auto.
Qed.

Lemma inv_state_mk n h st : state_mk empty_heap n = Ok (h, st) -> st = 0 /\ Inv 0 1 2 4 h.
Proof.
  unfold state_mk. set (b0 := zero_block (BState _ _ _ _ _) _). destruct (malloc empty_heap b0) as (h0, s0) eqn:E0. intros H.
  unfold malloc in E0. cbn in E0. injection E0 as <- <-.
  pose proof (ri_first b0 (prot 0 1 2 4) eq_refl eq_refl eq_refl eq_refl eq_refl (or_introl eq_refl)) as R0.
  set (h0 := Heap (fun x => if x =? 0 then Some b0 else None) 1 []) in *.
  assert (G0 : h_mem h0 0 = Some b0) by reflexivity. assert (N0 : h_next h0 = 1) by reflexivity.
  assert (D0 : forall x, x <> 0 -> h_mem h0 x = None). { intros x NE. unfold h0. cbn. apply Nat.eqb_neq in NE. rewrite NE. auto. }
  clearbody h0. change (malloc _ _) with (h0, 0) in H || idtac.
  apply bind_ok in H as ((h1, a1) & H1 & H). apply bind_ok in H as ((h2, a2) & H2 & H). apply bind_ok in H as ((h3, a3) & H3 & H).
  unfold mk_set in H1. unfold mk_stack in H2.
  assert (Q : forall hh k, del_fields k [] = [] -> okfs (prot 0 1 2 4) hh (del_fields k []) /\ (forall y, hits DEL_RC y (del_fields k []) = 0)).
  { intros hh k ->. split; [apply okfs_nil|reflexivity]. }
  destruct (Q h0 (KSet NOOP) eq_refl) as (OK1 & HQ1). destruct (Q h1 (KStack DEL_RC n) eq_refl) as (OK2 & HQ2).
  assert (R1 : RI 0 (prot 0 1 2 4) h1 none) by (eapply ri_mk_quiet; [exact R0|exact H1|discriminate|auto|exact OK1|exact HQ1]).
  destruct (delta_mk 0 (prot 0 1 2 4) h0 _ _ _ h1 a1 (chain_of _ _ _ _ _ R0) H1 ltac:(discriminate) ltac:(auto)) as (_ & EA1 & DA1 & NX1 & (b1 & G1 & B1 & _) & OX1).
  assert (R2 : RI 0 (prot 0 1 2 4) h2 none) by (eapply ri_mk_quiet; [exact R1|exact H2|discriminate|discriminate|exact OK2|exact HQ2]).
  destruct (delta_mk 0 (prot 0 1 2 4) h1 _ _ _ h2 a2 (chain_of _ _ _ _ _ R1) H2 ltac:(discriminate) ltac:(discriminate)) as (_ & EA2 & DA2 & NX2 & (b2 & G2 & B2 & _) & OX2).
  rewrite N0 in *. subst a1. rewrite NX1 in *. subst a2.
  destruct (ri_mk_map 0 1 2 4 h2 DEL_RC DEL_RC h3 a3 R2) as (R3 & EA3 & NX3 & D3a & D3b & (bk & Gk & Bk) & (bm & Gm & Bm) & OX3); [|exact H3|].
  { rewrite NX2. unfold prot. lia. }
  rewrite NX2 in *. subst a3.
  assert (S0 : forall x, x <> 0 -> x <> 1 -> x <> 2 -> x <> 3 -> x <> 4 -> h_mem h3 x = None).
  { intros x X0 X1 X2 X3 X4. specialize (OX1 x X1). specialize (OX2 x X2). specialize (OX3 x X3 X4). rewrite (D0 x X0) in OX1.
    destruct (h_mem h1 x); [contradiction|]. destruct (h_mem h2 x); [contradiction|]. destruct (h_mem h3 x); [contradiction|auto]. }
  assert (S1 : exists b, h_mem h3 1 = Some b /\ b_body b = BObj (KSet NOOP) []).
  { pose proof (OX2 1 ltac:(lia)) as X. pose proof (OX3 1 ltac:(lia) ltac:(lia)) as Y. rewrite G1 in X.
    destruct (h_mem h2 1) as [c2|]; [|contradiction]. destruct X as (_ & _ & _ & _ & X). rewrite B1 in X.
    destruct (h_mem h3 1) as [c3|]; [|contradiction]. destruct Y as (_ & _ & _ & _ & Y). exists c3. split; [auto|].
    destruct (b_body c2); [discriminate|]. injection X as <- <-. destruct (b_body c3); congruence. }
  assert (S2 : exists b, h_mem h3 2 = Some b /\ b_body b = BObj (KStack DEL_RC n) []).
  { pose proof (OX3 2 ltac:(lia) ltac:(lia)) as Y. rewrite G2 in Y. destruct (h_mem h3 2) as [c3|]; [|contradiction].
    destruct Y as (_ & _ & _ & _ & Y). rewrite B2 in Y. exists c3. split; [auto|]. destruct (b_body c3); congruence. }
  apply bind_ok in H as (b & G & H). apply get_ok in G. destruct (b_body b) as [t ? ? ? mk|] eqn:B; [|discriminate]. injection H as <- <-.
  split; [auto|]. set (h4 := set_mem h3 0 _).
  assert (G4 : h_mem h4 0 = Some (set_body (BState t 1 2 4 mk) b)) by reflexivity.
  assert (OT4 : forall x, x <> 0 -> h_mem h4 x = h_mem h3 x). { intros x NE. unfold h4, set_mem. cbn. apply Nat.eqb_neq in NE. rewrite NE. auto. }
  assert (SK4 : same_skel h3 h4). { eapply set_mem_skel; eauto. unfold shape_of. cbn. rewrite B. auto. }
  assert (NX4 : h_next h4 = h_next h3) by reflexivity.
  assert (R4 : RI 0 (prot 0 1 2 4) h4 none).
  { eapply RI_add; [exact R3|apply okfs_nil| |].
    - eapply delta_ext; [apply (delta_cnt 0 (prot 0 1 2 4) h3 h4 (fun _ => 0%Z) (fun _ b => b) SK4 NX4)|reflexivity|reflexivity|reflexivity|apply incl_refl].
      intros y. destruct (Nat.eq_dec y 0) as [->|NE].
      + rewrite G, G4. split; [right; exists t; reflexivity|]. split; [cbn; lia|auto].
      + rewrite OT4 by auto. destruct (h_mem h3 y); auto. split; [auto|split; [lia|auto]].
    - auto. }
  clearbody h4. constructor; [exact R4| |].
  - intros x bx pk pv vs Gx Bx. destruct (Nat.eq_dec x 0) as [->|X0]; [rewrite G4 in Gx; injection Gx as <-; discriminate|]. rewrite OT4 in Gx by auto.
    destruct (Nat.eq_dec x 1) as [->|X1]; [destruct S1 as (? & ? & ?); congruence|].
    destruct (Nat.eq_dec x 2) as [->|X2]; [destruct S2 as (? & ? & ?); congruence|].
    destruct (Nat.eq_dec x 3) as [->|X3]; [congruence|].
    destruct (Nat.eq_dec x 4) as [->|X4]; [|rewrite S0 in Gx by auto; discriminate].
    rewrite Gm in Gx. injection Gx as <-. rewrite Bm in Bx. injection Bx as <- <- <-. split; [discriminate|].
    exists 3, []. split; [auto|]. split; [|constructor]. exists bk, []. rewrite OT4 by auto. auto.
  - constructor.
    + eexists _, t, mk. split; [exact G4|reflexivity].
    + destruct S1 as (b5 & G5 & B5). exists b5, []. rewrite OT4 by auto. auto.
    + intros x [ -> | [ -> | [ -> | -> ] ] ]; [congruence| | |]; rewrite OT4 by auto; [destruct S1 as (? & E & _); rewrite E|destruct S2 as (? & E & _); rewrite E|rewrite Gm]; discriminate.
Qed.
