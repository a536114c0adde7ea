(** Properties C25, C26, C27 and C49: reference counts, the no-operation
    policy, ownership, and deletion of containers. *)
From Coq Require Import ZArith List Bool Lia Relations.
From Verif Require Import Base HeapModel HeapChainProofs HeapHistory HeapSweepProofs HeapRcProofs HeapRcHistory HeapRcOps HeapRcInv HeapRcSteps HeapRcMaps HeapRcReach HeapGcProofs PropHeapChain.
Import ListNotations.
Open Scope nat_scope.
Open Scope outcome_scope.
Local Arguments Z.add : simpl never.
Local Arguments Z.sub : simpl never.
Local Arguments Z.of_nat : simpl never.

(** * Vocabulary *)
(** The pointers in an object, each with the policy it is held under.  A map
    owns its list of keys and its key/value pairs; the pairs are tuples, which
    hold key and value under the policies of the map. *)
Definition holds (b : block) : list (policy * val) :=
  match b_body b with
  | BObj (KList p) vs | BObj (KStack p _) vs | BObj (KDict p) vs => map (fun v => (p, v)) vs
  | BObj (KProd ps) vs => combine ps vs
  | BObj (KEnv p1 p2) vs => combine [p1; p2] vs
  | BObj (KMap _ _) vs => map (fun v => (DEL, v)) vs
  | _ => []
  end.
Definition fields (h : heap) (x : addr) : list (policy * val) :=
  match h_mem h x with Some b => holds b | None => [] end.
Definition pv_dec : forall x y : policy * val, {x = y} + {x <> y}.
Proof. repeat decide equality. Defined.
(** How many times [y] is held under policy [p], in all objects together *)
Definition holders (p : policy) (h : heap) (y : addr) : nat :=
  count_occ pv_dec (flat_map (fields h) (seq 0 (h_next h))) (p, VPtr y).
(** [x] holds [y], to be deleted with [x] or counted *)
Definition holder (h : heap) (x y : addr) : Prop := In (DEL_RC, VPtr y) (fields h x) \/ In (DEL, VPtr y) (fields h x).
(** The state and the three objects it keeps for itself *)
Definition own (st : addr) (h : heap) (x : addr) : Prop :=
  x = st \/ exists b t r s c m, h_mem h st = Some b /\ b_body b = BState t r s c m /\ (x = r \/ x = s \/ x = c).

(** The pointers [fs] may be put into a container: counted pointers are to
    objects nobody owns, with fewer than 65536 holders afterwards; an owned
    pointer is to an object nobody else holds. *)
Definition may_hold (st : addr) (h : heap) (fs : list (policy * val)) : Prop :=
  forall p v, In (p, v) fs ->
    match p, v with
    | NOOP, _ | _, VNull => True
    | _, VForeign => False
    | DEL_RC, VPtr y => live h y /\ ~ own st h y /\ holders DEL h y + count_occ pv_dec fs (DEL, v) = 0 /\
        (Z.of_nat (holders DEL_RC h y + count_occ pv_dec fs (DEL_RC, v)) < 65536)%Z
    | DEL, VPtr y => live h y /\ ~ own st h y /\ ~ static h y /\ holders DEL_RC h y + count_occ pv_dec fs (DEL_RC, v) = 0 /\
        holders DEL h y + count_occ pv_dec fs (DEL, v) = 1
    end.
(** For maps: the key goes into the pair and into the list of keys; the map may
    not own its keys; and a counted value is not added again under its key. *)
Definition may_add (st : addr) (keq : val -> val -> bool) (h : heap) (m : addr) (k v : val) : Prop :=
  forall b pk pv vs, h_mem h m = Some b -> b_body b = BObj (KMap pk pv) vs ->
    may_hold st h [(pk, k); (pv, v); (DEL_RC, k)] /\
    (pv = DEL_RC -> forall ta bt ps k0, In (VPtr ta) vs -> h_mem h ta = Some bt -> b_body bt = BObj (KProd ps) [k0; v] -> keq k k0 = false).

(** Lawful use of the library, where counts and owners are concerned *)
Definition lawful (st : addr) (h : heap) (o : hop) : Prop :=
  match o with
  | HLeaf _ | HList _ | HStack _ _ | HSet _ | HClosure _ | HStatic | HUseRealloc _ | HUseMalloc _ => True
  | HRoot _ _ | HUnroot _ | HRemove _ _ | HPop _ | HMapRemove _ _ _ _ | HUncontext _ _ _ => True
  | HMap pk _ => pk <> DEL
  | HProd ps vs => may_hold st h (combine ps vs)
  | HTagged p v => may_hold st h [(p, v)]
  | HEnv p1 p2 o v => may_hold st h [(p1, o); (p2, v)] /\ p1 <> DEL_RC /\ p2 <> DEL_RC
  | HAppend a e | HInsert a _ e | HPush a e =>
    forall b p vs, h_mem h a = Some b -> (b_body b = BObj (KList p) vs \/ exists n, b_body b = BObj (KStack p n) vs) -> may_hold st h [(p, e)]
  | HMapAdd keq _ m k v _ => may_add st keq h m k v
  | HContext keq _ k v _ => forall b t r s c m, h_mem h st = Some b -> b_body b = BState t r s c m -> may_add st keq h c k v
  | HDelE _ p v => p = NOOP \/ v = VNull \/ (exists y, v = VPtr y /\ live h y /\ ~ own st h y /\ forall x, ~ holder h x y)
  | HResize _ | HSetAdd _ _ _ _ | HSetRemove _ _ _ | HSetClear _ _ | HDict _ | HDictAdd _ _ _ | HIncr _ _ | HDecr _ _ | HGc _ => False
  end.
Inductive counted (n : Z) (st : addr) : heap -> Prop :=
| counted_mk : forall h, state_mk empty_heap n = Ok (h, st) -> counted n st h
| counted_step : forall h o h', counted n st h -> lawful st h o -> hstep st h o = Ok h' -> counted n st h'.

(** * Link to the invariant *)
Lemma holds_bfields b : holds b = bfields b.
Proof. unfold holds, bfields, del_fields. destruct (b_body b) as [|[]]; auto. Qed.
Lemma fields_fl h x : fields h x = fl h x.
Proof. unfold fields, fl, eflds, none. destruct (h_mem h x); [apply holds_bfields|auto]. Qed.
Lemma count_hits p y fs : count_occ pv_dec fs (p, VPtr y) = hits p y fs.
Proof.
  induction fs as [|(q, v) fs IH]; auto. rewrite hits_cons. cbn [count_occ]. destruct (pv_dec (q, v) (p, VPtr y)) as [E|NE].
  - injection E as -> ->. cbn [hit]. destruct (peq_spec p p); [|congruence]. rewrite Nat.eqb_refl. cbn. lia.
  - rewrite IH. cbn [hit]. destruct v as [|z|]; auto. destruct (peq_spec p q) as [->|]; auto. destruct (Nat.eqb_spec z y) as [->|]; [congruence|auto].
Qed.
Lemma sumn_seq n f : sumn n f = list_sum (map f (seq 0 n)).
Proof.
  induction n as [|n IH]; auto. rewrite seq_S, map_app, list_sum_app. cbn [sumn map list_sum Nat.add fold_right]. rewrite IH. cbn. lia.
Qed.
Lemma holders_rf p h y : holders p h y = rf p h y.
Proof.
  unfold holders, rf, refs. rewrite sumn_seq. generalize (seq 0 (h_next h)). intros l. induction l as [|x l IH]; auto.
  cbn [flat_map map list_sum fold_right]. rewrite count_occ_app, IH, count_hits, fields_fl. reflexivity.
Qed.

Lemma own_prot st r s c h x : Inv st r s c h -> own st h x <-> prot st r s c x.
Proof.
  intros IV. destruct (si_st _ _ _ _ _ (iv_si _ _ _ _ _ IV)) as (b & t & m & G & B). unfold own, prot. split.
  - intros [->|(b' & t' & r' & s' & c' & m' & G' & B' & X)]; [auto|]. rewrite G in G'. injection G' as <-. rewrite B in B'. injection B' as <- <- <- <- <-. tauto.
  - intros [->|X]; [auto|]. right. exists b, t, r, s, c, m. auto.
Qed.
Lemma may_okfs st r s c h fs : Inv st r s c h -> may_hold st h fs -> okfs (prot st r s c) h fs.
Proof.
  intros IV MH p v I NP. specialize (MH p v I). destruct v as [|y|]; [auto| |destruct p; [contradiction|contradiction|congruence]].
  destruct p; [| |congruence].
  - destruct MH as (L & O & A & B). rewrite !holders_rf, !count_hits in *. rewrite (own_prot _ _ _ _ _ _ IV) in O. apply live_some in L. split; [auto|]. split; [auto|]. split; [lia|split; [lia|auto]].
  - destruct MH as (L & O & S & A & B). rewrite !holders_rf, !count_hits in *. rewrite (own_prot _ _ _ _ _ _ IV) in O. apply live_some in L. rewrite static_shp in S.
    split; [auto|]. split; [auto|]. apply hits_in in I. split; [lia|]. split; [lia|]. split; [lia|]. split; [lia|auto].
Qed.
Lemma may_map_perm st r s c h keq m k v : Inv st r s c h -> may_add st keq h m k v -> map_perm st r s c keq h m k v.
Proof.
  intros IV MA _ pk pv vs G. apply get_obj_inv in G as (b & G & B). destruct (MA b pk pv vs G B) as (A1 & A2). split; [eapply may_okfs; eauto|].
  intros E ta k0 ps I GT. apply get_obj_inv in GT as (bt & GT & BT). eapply A2; eauto. destruct vs; [contradiction|]. right. auto.
Qed.
Lemma unheld_rf st r s c h y : Inv st r s c h -> (forall x, ~ holder h x y) <-> rf DEL_RC h y = 0 /\ rf DEL h y = 0.
Proof.
  intros IV. split.
  - intros NH. assert (A : forall p, p <> NOOP -> rf p h y = 0).
    { intros p NP. apply sumn_zero. intros x _. destruct (hits p y (eflds h none x)) eqn:E; [auto|exfalso]. apply (NH x). unfold holder. rewrite fields_fl. unfold fl.
      destruct p; [left|right|congruence]; apply hits_in; lia. }
    split; apply A; discriminate.
  - intros (A & B) x HX. unfold holder in HX. rewrite fields_fl in HX. unfold rf, refs in *.
    assert (L : x < h_next h). { destruct (h_mem h x) eqn:G; [apply (ri_fresh _ _ _ _ _ (iv_ri _ _ _ _ _ IV)); congruence|]. rewrite fl_none in HX by auto. destruct HX as [[]|[]]. }
    rewrite sumn_zero in A, B. specialize (A x L). specialize (B x L). destruct HX as [HX|HX]; apply hits_in in HX; unfold fl in HX; lia.
Qed.

Lemma fst_m_ok (m : outcome (heap * addr)) h' : fst_m m = Ok h' -> exists a, m = Ok (h', a).
Proof. destruct m as [(?, a)|]; [|discriminate]. intros [= ->]. eauto. Qed.
Lemma fst_m_ok_v (m : outcome (heap * val)) h' : fst_m m = Ok h' -> exists a, m = Ok (h', a).
Proof. destruct m as [(?, a)|]; [|discriminate]. intros [= ->]. eauto. Qed.

Lemma inv_del_ref st r s c h y fuel h' : Inv st r s c h -> live h y -> ~ own st h y -> (forall x, ~ holder h x y) ->
  del_e (trace_del fuel) h (DEL_RC, VPtr y) = Ok h' -> Inv st r s c h'.
Proof.
  intros IV L O NH H. rewrite (own_prot _ _ _ _ _ _ IV) in O. apply (unheld_rf _ _ _ _ _ _ IV) in NH as (Z1 & Z2).
  pose proof (iv_ri _ _ _ _ _ IV) as R. destruct L as (b & G). pose proof (ri_cnt _ _ _ _ R y b G) as RC. fold (rf DEL_RC h y) in RC. rewrite Z1 in RC.
  cbn [del_e] in H. apply bind_ok in H as (h1 & H1 & H). apply bind_ok in H as (b1 & G1 & H). apply get_ok in G1.
  pose proof H1 as MS. apply modify_skel in MS; [|quiet]. apply modify_eff in H1 as ((NX & _ & E) & _).
  assert (SM : forall x, h_mem h1 x = h_mem h x).
  { intros x. rewrite E. destruct (Nat.eqb_spec x y) as [->|]; [|auto]. rewrite G. cbn. rewrite RC. reflexivity. }
  assert (RT : b_ret b = false). { destruct (b_ret b) eqn:RT; [|auto]. pose proof (ri_ret _ _ _ _ R y b G RT eq_refl) as X. fold (rf DEL h y) in X. lia. }
  rewrite SM, G in G1. injection G1 as <-. rewrite RT, RC in H. cbn [Z.of_nat Z.eqb] in H.
  assert (BD : same_bodies h h1) by (intros x; rewrite SM; auto).
  assert (D : delta st (prot st r s c) h h1 (addD []) (addD [] DEL_RC) (fun _ b => b) []).
  { eapply delta_ext; [apply (delta_cnt st (prot st r s c) h h1 (fun _ => 0%Z) (fun _ b => b) MS NX)|reflexivity|reflexivity|reflexivity|apply incl_refl].
    intros x. rewrite SM. destruct (h_mem h x); auto. split; [auto|]. split; [lia|auto]. }
  assert (IV1 : Inv st r s c h1).
  { apply (Inv_skel st r s c h); auto.
    - eapply RI_add; [exact R|apply okfs_nil|exact D|auto].
    - apply kp_bodies. auto.
    - eapply keeps_ret_rem; eauto. }
  assert (RF : forall p, rf p h1 y = rf p h y).
  { intros p. unfold rf, refs. rewrite NX. apply sumn_ext. intros x _. unfold eflds. rewrite SM. auto. }
  eapply (Inv_del st r s c h1 y b); [exact IV1|rewrite SM; auto|rewrite RF; auto|rewrite RF; auto|auto|exact H].
Qed.
Lemma quiet_env st r s c h fs : Inv st r s c h -> (forall p v, In (p, v) fs -> p <> DEL_RC) -> forall y, hits DEL_RC y fs = 0.
Proof. intros _ N y. destruct (hits DEL_RC y fs) eqn:E; auto. assert (I : In (DEL_RC, VPtr y) fs) by (apply hits_in; lia). exfalso. eapply N; eauto. Qed.

Lemma counted_inv n st h : counted n st h -> exists r s c, Inv st r s c h.
Proof.
  induction 1 as [h H|h o h' _ (r & s & c & IV) LW H].
  - exists 1, 2, 4. destruct (inv_state_mk n h st H) as (-> & X). auto.
  - exists r, s, c. pose proof IV as [R M S].
    assert (MQ : forall k m a h2, mk_obj h st k [] m = Ok (h2, a) -> k <> KStatic -> del_fields k [] = [] -> match k with KMap _ _ => False | _ => True end -> Inv st r s c h2).
    { intros k m a h2 HM NS DF NM. eapply inv_mk_quiet; [exact IV|exact HM|auto|auto|auto|rewrite DF; apply okfs_nil|rewrite DF; reflexivity]. }
    destruct o; cbn [lawful hstep] in *; try contradiction;
      try (apply fst_m_ok in H as (a0 & H)); try (apply fst_m_ok_v in H as (a0 & H)).
    + eapply MQ; [exact H|discriminate|auto|exact I].
    + eapply MQ; [exact H|discriminate|auto|exact I].
    + eapply MQ; [exact H|discriminate|auto|exact I].
    + eapply MQ; [exact H|discriminate|auto|exact I].
    + eapply inv_map; eauto.
    + eapply inv_prod; [exact IV|exact H|]. eapply may_okfs; eauto.
    + eapply inv_tagged; [exact IV|exact H|]. eapply may_okfs; eauto.
    + destruct LW as (MH & N1 & N2). unfold mk_env in H. eapply inv_mk_quiet; [exact IV|exact H|discriminate|discriminate|exact I|eapply may_okfs; eauto|].
      eapply quiet_env; [exact IV|]. intros p v [[= <- <-]|[[= <- <-]|[]]]; auto.
    + unfold mk_closure in H. eapply inv_mk_quiet; [exact IV|exact H|discriminate|discriminate|exact I|apply okfs_nil|reflexivity].
    + injection H as <-. apply inv_static. auto.
    + eapply inv_meth; [exact IV| |exact H]. intros [? ? ? ? ? ? ? []]; eexists; reflexivity.
    + eapply inv_meth; [exact IV| |exact H]. intros [? ? ? ? ? ? ? []]; eexists; reflexivity.
    + eapply inv_append; [exact IV| |exact H]. intros p vs G. apply get_obj_inv in G as (b & G & B). eapply may_okfs; [exact IV|]. eapply LW; eauto.
    + eapply inv_insert; [exact IV| |exact H]. intros p vs G. apply get_obj_inv in G as (b & G & B). eapply may_okfs; [exact IV|]. eapply LW; eauto.
    + eapply inv_remove; eauto.
    + eapply inv_push; [exact IV| |exact H]. intros p nn vs G. apply get_obj_inv in G as (b & G & B). eapply may_okfs; [exact IV|]. eapply LW; eauto.
    + eapply inv_pop; eauto.
    + eapply inv_map_add; [exact IV| |exact H]. apply may_map_perm; auto.
    + eapply inv_map_remove; eauto.
    + destruct p; [| |injection H as <-; auto].
      * destruct LW as [X|[->|(y & -> & L & O & NH)]]; [discriminate|injection H as <-; auto|]. eapply inv_del_ref; eauto.
      * destruct LW as [X|[->|(y & -> & L & O & NH)]]; [discriminate|injection H as <-; auto|]. cbn [del_e] in H.
        rewrite (own_prot _ _ _ _ _ _ IV) in O. apply (unheld_rf _ _ _ _ _ _ IV) in NH as (Z1 & Z2). destruct L as (b & G). eapply Inv_del; eauto.
    + eapply inv_root; eauto.
    + eapply inv_unroot; eauto.
    + destruct (si_st _ _ _ _ _ S) as (b & t & m & G & B). unfold add_context, get in H. rewrite G in H. cbn [bind] in H. rewrite B in H.
      apply bind_ok in H as ((h2, v2) & H2 & H). injection H as <-. eapply inv_map_add; [exact IV| |exact H2]. apply may_map_perm; eauto.
    + destruct (si_st _ _ _ _ _ S) as (b & t & m & G & B). unfold remove_context, get in H. rewrite G in H. cbn [bind] in H. rewrite B in H.
      apply bind_ok in H as ((h2, v2) & H2 & H). injection H as <-. eapply inv_map_remove; eauto.
Qed.

(** * C25 *)
(** The count in the header of every object is the number of times it is held
    under the counting policy. *)
Definition counts_exact (h : heap) : Prop := forall x b, h_mem h x = Some b -> b_rc b = Z.of_nat (holders DEL_RC h x).
(** No object holds a freed object. *)
Definition none_dangling (h : heap) : Prop := forall x y, holder h x y -> live h y.

Lemma inv_exact st r s c h : Inv st r s c h -> counts_exact h /\ none_dangling h.
Proof.
  intros IV. pose proof (iv_ri _ _ _ _ _ IV) as R. split.
  - intros x b G. rewrite holders_rf. apply (ri_cnt _ _ _ _ R x b G).
  - intros x y HX. unfold holder in HX. rewrite fields_fl in HX. apply live_some. destruct HX as [I|I]; apply (ri_tgt _ _ _ _ R x _ (VPtr y) I); discriminate.
Qed.

(** FULL STATEMENT (C25): for every object graph without cycles and every
    history, in_degree = number of counting holders, and deletion frees exactly
    the objects whose last holder goes.  Proved here: the same for every graph,
    cyclic or not, brought about by lawful calls ([lawful]).  MISSING: sets with
    elements, dictionaries, environments that count, and maps to which the same
    value is added twice - for these the statement is false, see
    [C25_*_refuted] - and resized objects and explicit count changes. *)
Theorem C25_counts_partial : forall n st h, counted n st h -> counts_exact h /\ none_dangling h.
Proof. intros n st h X. apply counted_inv in X as (r & s & c & IV). eapply inv_exact; eauto. Qed.

(** What [y] leads to *)
Inductive leads (h : heap) (y : addr) : addr -> Prop :=
| leads_self : leads h y y
| leads_step : forall x z, leads h y x -> holder h x z -> leads h y z.
(** Same pointers, same policies; only the count, the neighbours in the
    allocation chain and the tail of the state may differ. *)
Definition same_contents (b b' : block) : Prop :=
  match b_body b, b_body b' with
  | BState _ r s c m, BState _ r' s' c' m' => r = r' /\ s = s' /\ c = c' /\ m = m'
  | BObj k vs, BObj k' vs' => k = k' /\ vs = vs'
  | _, _ => False
  end.

(** Deleting an object nobody holds succeeds, and what is freed is that object
    and the objects all of whose holders are freed; everything else stays as it
    is, with exact counts, and nothing points to freed memory.  Objects that
    the deleted one does not lead to are not touched at all. *)
Theorem C25_delete_partial : forall n st h y, counted n st h -> live h y -> ~ own st h y -> ~ static h y -> (forall x, ~ holder h x y) ->
  exists h', (forall fuel, h_next h <= fuel -> cee_del fuel h (VPtr y) = Ok h') /\
    (forall x, live h x -> ~ static h x ->
       (~ live h' x <-> x = y \/ ((exists z, holder h z x) /\ forall z, holder h z x -> ~ live h' z))) /\
    (forall x b', h_mem h' x = Some b' -> exists b, h_mem h x = Some b /\ same_contents b b') /\
    counts_exact h' /\ none_dangling h' /\
    (forall x b, h_mem h x = Some b -> ~ leads h y x -> exists b', h_mem h' x = Some b' /\ same_contents b b' /\ b_rc b' = b_rc b /\ b_ret b' = b_ret b).
Proof.
  intros n st h y X L O NS NH. apply counted_inv in X as (r & s & c & IV). pose proof (iv_ri _ _ _ _ _ IV) as R.
  rewrite (own_prot _ _ _ _ _ _ IV) in O. pose proof NH as NH0. apply (unheld_rf _ _ _ _ _ _ IV) in NH as (Z1 & Z2). destruct L as (b & G).
  assert (LD : closedT h none (leads h y)).
  { intros x p z TX I NP. eapply leads_step; [exact TX|]. unfold holder. rewrite fields_fl. unfold fl. destruct p; [auto|auto|congruence]. }
  assert (EF : forall x, eflds h (upd none y (Some (bfields b))) x = eflds h none x).
  { intros x. destruct (Nat.eq_dec x y) as [->|NE]; [rewrite eflds_upd_eq by congruence; unfold eflds; rewrite G; auto|apply eflds_upd_neq; auto]. }
  assert (ID : idle h none <= h_next h).
  { unfold idle. generalize (h_next h). intros k. induction k as [|k IH]; [cbn; lia|]. unfold none in *. cbn [sumn]. destruct (h_mem h k); lia. }
  destruct (trace_del_rc st (prot st r s c) (h_next h) h none y b (leads h y)) as (h' & E & _); auto.
  { apply RI_start; auto. split; auto. }
  { intros x p z TX I. rewrite EF in I. apply (LD x p z TX I). }
  { constructor. }
  destruct (RI_deletion st r s c h y b _ h' R G Z1 Z2 O E) as (R' & RL & FR).
  pose proof (Inv_del st r s c h y b _ h' IV G Z1 Z2 O E) as IV'.
  assert (NST : ~ prot st r s c y) by auto.
  assert (LNP : forall x, leads h y x -> ~ prot st r s c x).
  { intros x LX. destruct LX as [|x z LX HZ]; [auto|]. unfold holder in HZ. rewrite fields_fl in HZ. destruct HZ as [I|I]; apply (ri_tgt _ _ _ _ R x _ (VPtr z) I); discriminate. }
  destruct (RL (leads h y) LNP LD (leads_self h y)) as [A1 A2 A3 A4 A5].
  destruct (inv_exact _ _ _ _ _ IV') as (CE & ND).
  assert (SC : forall b1 b2, same_but_rc b1 b2 -> same_contents b1 b2).
  { intros b1 b2 (_ & _ & _ & BB). unfold same_contents. destruct (b_body b1), (b_body b2); try discriminate; try (injection BB as -> ->); auto. }
  assert (KF : forall x b' f, h_mem h' x = Some b' -> In f (fields h x) -> In f (fields h' x)).
  { intros x b' f G' I. destruct (A2 x b' G') as (b0 & G0 & S0). unfold fields in *. rewrite G' in *. rewrite G0 in I. rewrite holds_bfields in *.
    destruct S0 as (_ & _ & _ & BB). unfold bfields in *. destruct (b_body b0), (b_body b'); try discriminate; try contradiction. injection BB as -> ->. auto. }
  exists h'. split; [|split; [|split; [|split; [auto|split; [auto|]]]]].
  - intros fuel F. cbn [cee_del del_e]. eapply trace_del_fuel; eauto.
  - intros x LX SX. split.
    + intros DX. destruct (Nat.eq_dec x y) as [->|NE]; [auto|]. right. split.
      * destruct (unheld_rf _ _ _ _ _ x IV) as (_ & U). destruct (Nat.eq_dec (rf DEL_RC h x) 0) as [Q1|Q1]; [destruct (Nat.eq_dec (rf DEL h x) 0) as [Q2|Q2]|].
        -- exfalso. apply DX. destruct LX as (bx & GX). destruct (A5 x bx) as (b' & G' & _); [|auto|exists b'; auto].
           intros LE. destruct LE as [|x z LE HZ]; [congruence|]. apply (U (conj Q1 Q2) _ HZ).
        -- unfold rf, refs in Q2. assert (Q : 0 < sumn (h_next h) (fun x0 => hits DEL x (eflds h none x0))) by lia. apply sumn_pos in Q as (z & _ & Q). apply hits_in in Q.
           exists z. right. rewrite fields_fl. auto.
        -- unfold rf, refs in Q1. assert (Q : 0 < sumn (h_next h) (fun x0 => hits DEL_RC x (eflds h none x0))) by lia. apply sumn_pos in Q as (z & _ & Q). apply hits_in in Q.
           exists z. left. rewrite fields_fl. auto.
      * intros z HZ (bz & GZ). apply DX. apply (ND z). destruct HZ as [I|I]; [left|right]; eapply KF; eauto.
    + intros [->|((z0 & HZ0) & HZ)] LX'.
      * destruct LX' as (b' & G'). rewrite FR in G'; [discriminate|]. intros S. apply NS. apply static_shp. unfold shp. rewrite G. cbn. rewrite S. auto.
      * destruct LX' as (b' & G'). assert (OR : orphan h' none x).
        { apply (unheld_rf _ _ _ _ _ x IV'). intros z HZ'. unfold holder in HZ'. rewrite fields_fl in HZ'. apply (HZ z).
          - unfold holder. rewrite fields_fl. destruct HZ' as [I|I]; [left|right]; apply (A3 z _ I).
          - apply live_some. intros D. rewrite fl_none in HZ' by auto. destruct HZ' as [[]|[]]. }
        apply (A4 x b' G') in OR.
        -- destruct (unheld_rf _ _ _ _ _ x IV) as (_ & U). apply (U OR z0 HZ0).
        -- intros S. apply SX. apply static_shp. destruct (A2 x b' G') as (b0 & G0 & S0). unfold shp. rewrite G0. cbn.
           destruct S0 as (_ & _ & _ & BB). unfold shape_of in *. destruct (b_body b0) as [|k0 vs0], (b_body b') as [|k1 vs1]; try discriminate. injection BB as -> ->. rewrite S. auto.
  - intros x b' G'. destruct (A2 x b' G') as (b0 & G0 & S0). exists b0. split; auto.
  - intros x b0 G0 NL. destruct (A5 x b0 NL G0) as (b' & G' & SB). exists b'. split; [auto|]. split; [apply SC, same_chain_rc; auto|]. destruct SB as (S1 & S2 & _). auto.
Qed.

(** Static memory is never freed. *)
Definition stay (h h' : heap) : Prop := forall x, shp h' x = Some SStatic <-> shp h x = Some SStatic.
Lemma stay_refl h : stay h h. Proof. intros x. tauto. Qed.
Lemma stay_trans h1 h2 h3 : stay h1 h2 -> stay h2 h3 -> stay h1 h3.
Proof. intros A B x. rewrite (B x). apply A. Qed.
Lemma stay_modify h a f h' : (forall b, shape_of (f b) = shape_of b) -> modify h a f = Ok h' -> stay h h'.
Proof.
  intros F H x. unfold modify in H. apply bind_ok in H as (b & G & H). apply get_ok in G. injection H as <-. unfold shp in *. cbn. destruct (Nat.eqb_spec x a) as [->|]; [|tauto].
  rewrite G. cbn. rewrite F. tauto.
Qed.
Lemma stay_tail h st t h' : set_tail h st t = Ok h' -> stay h h'.
Proof.
  unfold set_tail. intros H x. apply bind_ok in H as (b & G & H). apply get_ok in G. destruct (b_body b) eqn:B; [|discriminate]. injection H as <-. unfold shp in *. cbn.
  destruct (Nat.eqb_spec x st) as [->|]; [|tauto]. rewrite G. cbn. unfold shape_of. cbn. rewrite B. split; discriminate.
Qed.
Lemma stay_de_chain h a h' : de_chain h a = Ok h' -> stay h h'.
Proof.
  unfold de_chain. intros H. apply bind_ok in H as (b & _ & H). apply bind_ok in H as (t & _ & H). destruct (t =? a).
  - apply bind_ok in H as (p & _ & H). apply bind_ok in H as (h1 & H1 & H). eapply stay_trans; [eapply stay_modify; [|exact H1]; reflexivity|eapply stay_tail; eauto].
  - apply bind_ok in H as (p & _ & H). apply bind_ok in H as (h1 & H1 & H). destruct (b_next b); [|injection H as <-; eapply stay_modify; [|exact H1]; reflexivity].
    eapply stay_trans; eapply stay_modify; eauto; reflexivity.
Qed.
Lemma stay_free h a h' : shp h a <> Some SStatic -> free h a = Ok h' -> stay h h'.
Proof.
  unfold free. intros N H x. destruct (h_mem h a); [|discriminate]. injection H as <-. unfold shp in *. cbn. destruct (Nat.eqb_spec x a) as [->|]; [|tauto].
  cbn. split; [discriminate|contradiction].
Qed.
Lemma foldm_stay {A} (f : heap -> A -> outcome heap) : (forall h x h', f h x = Ok h' -> stay h h') -> forall l h h', foldm f h l = Ok h' -> stay h h'.
Proof.
  intros F. induction l as [|x l IH]; intros h h'; cbn; [intros [= <-]; apply stay_refl|]. intros H. apply bind_ok in H as (h1 & H1 & H). eapply stay_trans; eauto.
Qed.
Lemma stay_unlink h a h' : shp h a <> Some SStatic -> (let* h := de_chain h a in free h a) = Ok h' -> stay h h'.
Proof.
  intros N H. apply bind_ok in H as (h1 & H1 & H). pose proof (stay_de_chain _ _ _ H1) as S. eapply stay_trans; [exact S|]. eapply stay_free; [|exact H]. rewrite (S a). auto.
Qed.
Lemma obj_nonstatic h a b k vs : h_mem h a = Some b -> b_body b = BObj k vs -> k <> KStatic -> shp h a <> Some SStatic.
Proof. intros G B N. unfold shp. rewrite G. cbn. unfold shape_of. rewrite B. destruct k; congruence. Qed.
Lemma stay_nofollow h a h' : del_nofollow h a = Ok h' -> stay h h'.
Proof.
  unfold del_nofollow. intros H. apply bind_ok in H as (b & G & H). apply get_ok in G. destruct (b_body b) as [|k vs] eqn:B.
  - eapply stay_free; [|exact H]. unfold shp. rewrite G. cbn. unfold shape_of. rewrite B. discriminate.
  - destruct k; try (eapply stay_unlink; [eapply obj_nonstatic; eauto; discriminate|exact H]). injection H as <-. apply stay_refl.
Qed.
Lemma stay_state : forall f h a h', del_state f h a = Ok h' -> stay h h'.
Proof.
  induction f as [|f IH]; intros h a h' H; [discriminate|]. cbn in H. apply bind_ok in H as (t & G & H). destruct (t =? a) eqn:E.
  - eapply stay_free; [|exact H]. unfold get_tail in G. apply bind_ok in G as (b & G & B). apply get_ok in G. unfold shp. rewrite G. cbn. unfold shape_of. destruct (b_body b); discriminate.
  - apply bind_ok in H as (h1 & H1 & H). eapply stay_trans; [eapply stay_nofollow; eauto|eauto].
Qed.
Lemma stay_del : forall f h a h', trace_del f h a = Ok h' -> stay h h'.
Proof.
  induction f as [|f IH]; intros h a h' H; [discriminate|].
  assert (DE : forall h x h', del_e (trace_del f) h x = Ok h' -> stay h h').
  { clear H. intros h1 ([], []) h2; cbn [del_e]; intros H; try discriminate; try (injection H as <-; apply stay_refl); [|eauto].
    apply bind_ok in H as (h3 & H3 & H). apply bind_ok in H as (b & G & H). apply stay_modify in H3; [|intros b1; destruct (b_rc b1 =? 0)%Z; auto].
    destruct (b_ret b); [injection H as <-; auto|]. destruct (b_rc b =? 0)%Z; [eapply stay_trans; eauto|injection H as <-; auto]. }
  cbn [trace_del] in H. apply bind_ok in H as (b & G & H). apply get_ok in G. destruct (b_body b) as [|k vs] eqn:B; [eapply stay_state; eauto|].
  assert (X : (k = KStatic /\ h' = h) \/ (k <> KStatic /\ (let* h := foldm (del_e (trace_del f)) h (del_fields k vs) in let* h := de_chain h a in free h a) = Ok h')).
  { destruct k; try (right; split; [discriminate|]; exact H).
    - left. split; congruence.
    - right. split; [discriminate|]. destruct vs; [exact H|discriminate]. }
  destruct X as [(_ & ->)|(NK & X)]; [apply stay_refl|]. apply bind_ok in X as (h1 & H1 & X).
  pose proof (foldm_stay _ DE _ _ _ H1) as S1. eapply stay_trans; [exact S1|]. eapply stay_unlink; [|exact X]. rewrite (S1 a). eapply obj_nonstatic; eauto.
Qed.

(** Without cycles: the deleted object falls, and so does every object all of
    whose holders fall. *)
Inductive falls (h : heap) (y : addr) : addr -> Prop :=
| falls_self : falls h y y
| falls_last : forall x z, holder h z x -> (forall z, holder h z x -> falls h y z) -> falls h y x.

Theorem C25_acyclic_partial : forall n st h y, counted n st h -> (forall x, ~ clos_trans _ (holder h) x x) ->
  live h y -> ~ own st h y -> ~ static h y -> (forall x, ~ holder h x y) ->
  exists h', (forall fuel, h_next h <= fuel -> cee_del fuel h (VPtr y) = Ok h') /\
    (forall x, live h' x <-> live h x /\ (static h x \/ ~ falls h y x)) /\ counts_exact h'.
Proof.
  intros n st h y X AC L O NS NH. destruct (C25_delete_partial n st h y X L O NS NH) as (h' & E & IFF & KEEP & CE & ND & _).
  apply counted_inv in X as (r & s & c & IV). pose proof (iv_ri _ _ _ _ _ IV) as R.
  assert (HL : forall z x, holder h z x -> live h z /\ ~ static h z /\ live h x).
  { intros z x HZ. split; [|split].
    - apply live_some. intros D. unfold holder, fields in HZ. rewrite D in HZ. destruct HZ as [[]|[]].
    - intros (b & vs & G & B). unfold holder, fields, holds in HZ. rewrite G, B in HZ. destruct HZ as [[]|[]].
    - eapply inv_exact; eauto. }
  assert (WF : forall x, Acc (holder h) x).
  { intros x. apply (acyclic_acc (fun a b => holder h b a) (h_next h)).
    - intros a b HB. apply (ri_fresh _ _ _ _ _ R). apply live_some. apply (HL b a HB).
    - intros z _ CY. apply (AC z). clear - CY. assert (T : forall a b, clos_trans addr (fun a b => holder h b a) a b -> clos_trans addr (holder h) b a).
      { induction 1; [apply t_step; auto|eapply t_trans; eauto]. } auto. }
  assert (D : forall x, live h x -> ~ static h x -> (~ live h' x <-> falls h y x)).
  { intros x. induction (WF x) as [x _ IH]. intros LX SX. rewrite IFF by auto. split.
    - intros [->|((z & HZ) & AL)]; [constructor|]. apply falls_last with z; auto. intros z1 HZ1. destruct (HL _ _ HZ1) as (L1 & S1 & _). apply (IH z1 HZ1 L1 S1). auto.
    - intros F. destruct F as [|x z HZ F]; [auto|]. right. split; [eauto|]. intros z1 HZ1. destruct (HL _ _ HZ1) as (L1 & S1 & _). apply (IH z1 HZ1 L1 S1). auto. }
  exists h'. split; [auto|]. split; [|auto]. intros x.
  assert (DEC : static h x \/ ~ static h x). { rewrite static_shp. destruct (shp h x) as [[]|]; [right|left|right|right]; congruence || auto. }
  split.
  - intros LX'. pose proof LX' as (b' & G'). destruct (KEEP x b' G') as (b & G & _). assert (LX : live h x) by (exists b; auto). split; [auto|].
    destruct DEC as [S|S]; [auto|]. right. intros F. apply (D x LX S) in F. contradiction.
  - assert (SL : static h x -> live h' x).
    { rewrite static_shp. intros S. pose proof (E (h_next h) (le_n _)) as D1. cbn [cee_del del_e] in D1. apply stay_del in D1. apply D1 in S. apply live_some. intros G'. unfold shp in S. rewrite G' in S. discriminate. }
    intros (LX & [S|F]); [auto|]. destruct DEC as [S|S]; [auto|]. apply live_some. intros G'. apply F, (D x LX S). intros (b & G2). congruence.
Qed.

(** Two lists share a string; a tuple of the first list holds another string
    and owns a third.  Deleting the first list frees the list, the tuple and the
    two strings held by it alone, and leaves the shared one with count 1. *)
Definition prog_rc : list hop :=
  [HLeaf M_MALLOC; HLeaf M_MALLOC; HLeaf M_MALLOC; HProd [DEL_RC; DEL] [VPtr 6; VPtr 7]; HList DEL_RC; HList DEL_RC;
   HAppend 9 (VPtr 5); HAppend 10 (VPtr 5); HAppend 9 (VPtr 8)].
(** a test of lawfulness for concrete programs *)
Definition liveb (h : heap) (y : addr) : bool := match h_mem h y with Some _ => true | None => false end.
Definition staticb (h : heap) (y : addr) : bool := match h_mem h y with Some b => match b_body b with BObj KStatic _ => true | _ => false end | None => false end.
Definition ownb (st : addr) (h : heap) (x : addr) : bool :=
  (x =? st) || match h_mem h st with Some b => match b_body b with BState _ r s c _ => (x =? r) || (x =? s) || (x =? c) | _ => false end | None => false end.
Definition may_holdb (st : addr) (h : heap) (fs : list (policy * val)) : bool :=
  forallb (fun pv => match fst pv, snd pv with
    | NOOP, _ | _, VNull => true
    | _, VForeign => false
    | DEL_RC, VPtr y => liveb h y && negb (ownb st h y) && (holders DEL h y + count_occ pv_dec fs (DEL, VPtr y) =? 0) &&
        (Z.of_nat (holders DEL_RC h y + count_occ pv_dec fs (DEL_RC, VPtr y)) <? 65536)%Z
    | DEL, VPtr y => liveb h y && negb (ownb st h y) && negb (staticb h y) && (holders DEL_RC h y + count_occ pv_dec fs (DEL_RC, VPtr y) =? 0) &&
        (holders DEL h y + count_occ pv_dec fs (DEL, VPtr y) =? 1)
    end) fs.
Definition lawfulb (st : addr) (h : heap) (o : hop) : bool :=
  match o with
  | HLeaf _ | HList _ | HStack _ _ | HSet _ | HClosure _ | HStatic | HUseRealloc _ | HUseMalloc _ => true
  | HRoot _ _ | HUnroot _ | HRemove _ _ | HPop _ | HMapRemove _ _ _ _ | HUncontext _ _ _ => true
  | HMap pk _ => match pk with DEL => false | _ => true end
  | HProd ps vs => may_holdb st h (combine ps vs)
  | HTagged p v => may_holdb st h [(p, v)]
  | HAppend a e | HInsert a _ e | HPush a e =>
    match h_mem h a with
    | Some b => match b_body b with BObj (KList p) _ | BObj (KStack p _) _ => may_holdb st h [(p, e)] | _ => true end
    | None => true
    end
  | HMapAdd keq _ m k v _ =>
    match h_mem h m with
    | Some b => match b_body b with
      | BObj (KMap pk pv) vs => may_holdb st h [(pk, k); (pv, v); (DEL_RC, k)] &&
        forallb (fun t => match t with
          | VPtr ta => match h_mem h ta with
            | Some bt => match b_body bt with BObj (KProd _) [k0; w] => negb (val_eqb w v) || negb (keq k k0) | _ => true end
            | None => true end
          | _ => true end) vs
      | _ => true end
    | None => true
    end
  | _ => false
  end.
Lemma liveb_ok h y : liveb h y = true -> live h y.
Proof. unfold liveb, live. destruct (h_mem h y); [eauto|discriminate]. Qed.
Lemma staticb_ok h y : staticb h y = false -> ~ static h y.
Proof. unfold staticb. intros E (b & vs & G & B). rewrite G, B in E. discriminate. Qed.
Lemma ownb_ok st h x : ownb st h x = false -> ~ own st h x.
Proof.
  unfold ownb. intros E. apply orb_false_iff in E as (E1 & E2). apply Nat.eqb_neq in E1. intros [->|(b & t & r & s & c & m & G & B & X)]; [auto|]. rewrite G, B in E2.
  rewrite !orb_false_iff, !Nat.eqb_neq in E2. intuition.
Qed.
Lemma may_holdb_ok st h fs : may_holdb st h fs = true -> may_hold st h fs.
Proof.
  intros E p v I. unfold may_holdb in E. rewrite forallb_forall in E. specialize (E (p, v) I). cbn [fst snd] in E.
  destruct p, v as [|y|]; auto; try discriminate; rewrite !andb_true_iff, ?negb_true_iff, ?Nat.eqb_eq, ?Z.ltb_lt in E.
  - destruct E as (((A & B) & C) & D). split; [apply liveb_ok; auto|]. split; [apply ownb_ok; auto|auto].
  - destruct E as ((((A & B) & S) & C) & D). split; [apply liveb_ok; auto|]. split; [apply ownb_ok; auto|]. split; [apply staticb_ok; auto|auto].
Qed.
Lemma val_eqb_refl v : val_eqb v v = true.
Proof. destruct v; cbn; auto. apply Nat.eqb_refl. Qed.
Lemma lawfulb_ok st h o : lawfulb st h o = true -> lawful st h o.
Proof.
  assert (CT : forall a e, match h_mem h a with
    | Some b => match b_body b with BObj (KList p) _ | BObj (KStack p _) _ => may_holdb st h [(p, e)] | _ => true end
    | None => true end = true -> forall b p vs, h_mem h a = Some b -> (b_body b = BObj (KList p) vs \/ exists n, b_body b = BObj (KStack p n) vs) -> may_hold st h [(p, e)]).
  { intros a e E b p vs G B. rewrite G in E. destruct B as [B|(n & B)]; rewrite B in E; apply may_holdb_ok; auto. }
  destruct o; cbn [lawfulb lawful]; intros E; auto; try discriminate; try (apply may_holdb_ok; auto; fail); try (apply CT; auto; fail).
  - destruct pk; discriminate.
  - intros b pk pv vs G B. rewrite G, B in E. apply andb_true_iff in E as (E1 & E2). split; [apply may_holdb_ok; auto|]. intros _ ta bt ps k0 I GT BT.
    rewrite forallb_forall in E2. specialize (E2 _ I). cbn in E2. rewrite GT, BT, val_eqb_refl in E2. cbn in E2. apply negb_true_iff. auto.
Qed.
Fixpoint lawful_run (st : addr) (h : heap) (os : list hop) : option heap :=
  match os with
  | [] => Some h
  | o :: os' => if lawfulb st h o then match hstep st h o with Ok h' => lawful_run st h' os' | Bad _ => None end else None
  end.
Definition lawful_start (n : Z) (os : list hop) : option heap :=
  match state_mk empty_heap n with Ok (h, st) => lawful_run st h os | Bad _ => None end.
Lemma lawful_run_counted n st : forall os h h', counted n st h -> lawful_run st h os = Some h' -> counted n st h'.
Proof.
  induction os as [|o os IH]; cbn; intros h h' C H; [injection H as <-; auto|]. destruct (lawfulb st h o) eqn:L; [|discriminate].
  destruct (hstep st h o) as [h1|] eqn:H1; [|discriminate]. apply (IH h1 h'); [|exact H]. apply (counted_step n st h o h1); [exact C|apply lawfulb_ok; exact L|exact H1].
Qed.
Lemma lawful_start_counted n os h : lawful_start n os = Some h -> counted n 0 h.
Proof.
  unfold lawful_start. destruct (state_mk empty_heap n) as [(h0, st)|] eqn:E; [|discriminate]. intros H.
  assert (st = 0) by (apply inv_state_mk in E; apply E). subst st. eapply lawful_run_counted; [apply counted_mk; exact E|exact H].
Qed.
Definition opt_heap (o : option heap) : heap := match o with Some h => h | None => empty_heap end.
Lemma counted_by n os : match lawful_start n os with Some _ => true | None => false end = true -> counted n 0 (opt_heap (lawful_start n os)).
Proof. destruct (lawful_start n os) eqn:E; [|discriminate]. intros _. eapply lawful_start_counted; eauto. Qed.

Example C25_example : exists h, counted 10 0 h /\ h = opt_heap (lawful_start 10 prog_rc) /\
  map (fun x => option_map b_rc (h_mem h x)) [5; 6; 7; 8] = [Some 2; Some 1; Some 0; Some 1]%Z /\
  match cee_del 20 h (VPtr 9) with
  | Ok h' => h_freed h' = [6; 7; 8; 9] /\ option_map b_rc (h_mem h' 5) = Some 1%Z
  | Bad _ => False
  end.
Proof.
  exists (opt_heap (lawful_start 10 prog_rc)). split; [apply counted_by; vm_compute; reflexivity|]. split; [auto|]. vm_compute. auto.
Qed.

(** ** Where the counts are wrong *)
Lemma append_many n : forall k h b l vs, reach n 0 h -> h_mem h 0 <> None -> h_mem h 5 = Some b -> b_ret b = false -> h_mem h 6 = Some l -> b_body l = BObj (KList DEL_RC) vs ->
  exists h' b' l', reach n 0 h' /\ h_mem h' 0 <> None /\ h_mem h' 5 = Some b' /\ b_ret b' = false /\ (b_rc b' mod 65536 = (b_rc b + Z.of_nat k) mod 65536)%Z /\
    (0 < k -> (0 <= b_rc b' < 65536)%Z) /\
    h_mem h' 6 = Some l' /\ b_body l' = BObj (KList DEL_RC) (repeat (VPtr 5) k ++ vs).
Proof.
  induction k as [|k IH]; intros h b l vs R L0 G5 RT G6 B6.
  - exists h, b, l. split; [auto|]. split; [auto|]. split; [auto|]. split; [auto|]. split; [f_equal; lia|]. split; [lia|]. auto.
  - destruct (IH h b l vs R L0 G5 RT G6 B6) as (h1 & b1 & l1 & R1 & L1 & G1 & RT1 & C1 & _ & G1' & B1).
    assert (ST : exists h2, hstep 0 h1 (HInsert 6 0 (VPtr 5)) = Ok h2 /\
      h_mem h2 5 = Some (set_rc (wrap 16 (b_rc b1 + 1)) b1) /\ h_mem h2 6 = Some (set_body (BObj (KList DEL_RC) (VPtr 5 :: repeat (VPtr 5) k ++ vs)) l1) /\ h_mem h2 0 = h_mem h1 0).
    { eexists. cbn [hstep]. unfold list_insert, get_obj, get. rewrite G1'. cbn [bind]. rewrite B1. cbn [bind Nat.leb firstn skipn app].
      unfold put_vals. rewrite (modify_ok _ _ _ _ G1'). cbn [bind incr_indegree target]. unfold modify, get at 1. cbn [h_mem set_mem Nat.eqb]. rewrite G1. cbn [bind]. rewrite RT1.
      split; [reflexivity|]. cbn [h_mem set_mem Nat.eqb]. auto. }
    destruct ST as (h2 & E & G2 & G2' & L2). exists h2, (set_rc (wrap 16 (b_rc b1 + 1)) b1), (set_body (BObj (KList DEL_RC) (VPtr 5 :: repeat (VPtr 5) k ++ vs)) l1).
    split; [eapply reach_step; [exact R1|exact E|congruence]|]. split; [congruence|]. split; [auto|]. split; [auto|]. cbn [b_rc set_rc].
    assert (W : wrap 16 (b_rc b1 + 1) = ((b_rc b1 + 1) mod 65536)%Z) by reflexivity. rewrite W. split; [|split; [|auto]].
    + rewrite Z.mod_mod by lia. rewrite <- Zplus_mod_idemp_l, C1, Zplus_mod_idemp_l. f_equal. lia.
    + intros _. apply Z.mod_pos_bound. lia.
Qed.
(** 65536 holders: the 16-bit count is 0 again. *)
Theorem C25_overflow_refuted : exists h b l, reach 10 0 h /\ h_mem h 5 = Some b /\ b_rc b = 0%Z /\ h_mem h 6 = Some l /\
  b_body l = BObj (KList DEL_RC) (repeat (VPtr 5) (Z.to_nat 65536)).
Proof.
  destruct (hstart 10 [HLeaf M_MALLOC; HList DEL_RC]) as [h|] eqn:E; [|vm_compute in E; discriminate].
  pose proof (hstart_reach _ _ _ E) as R.
  assert (X : match hstart 10 [HLeaf M_MALLOC; HList DEL_RC] with
    | Ok h => match h_mem h 0, h_mem h 5, h_mem h 6 with
              | Some _, Some b, Some l => b_ret b = false /\ b_rc b = 0%Z /\ b_body l = BObj (KList DEL_RC) []
              | _, _, _ => False end
    | Bad _ => False end) by (vm_compute; auto).
  rewrite E in X. destruct (h_mem h 0) as [b0|] eqn:G0; [|contradiction]. destruct (h_mem h 5) as [b|] eqn:G5; [|contradiction]. destruct (h_mem h 6) as [l|] eqn:G6; [|contradiction].
  destruct X as (RT & RC & B). destruct (append_many 10 (Z.to_nat 65536) h b l [] R) as (h' & b' & l' & R' & _ & G' & _ & C' & BD & GL & BL); auto; [congruence|].
  exists h', b', l'. split; [auto|]. split; [auto|]. split; [|split; [auto|rewrite app_nil_r in BL; auto]].
  rewrite Z2Nat.id, RC in C' by lia. assert (Q : 0 < Z.to_nat 65536). { apply Nat2Z.inj_lt. rewrite Z2Nat.id by lia. reflexivity. } specialize (BD Q).
  rewrite (Z.mod_small (b_rc b')) in C' by lia. rewrite C'. reflexivity.
Qed.
(** An environment deletes its variables under the counting policy without ever
    having counted them: deleting one of two environments that share them frees
    them, and deleting the other one reads freed memory. *)
Theorem C25_env_refuted : exists h h', reach 10 0 h /\
  holders DEL_RC h 6 = 2 /\ option_map b_rc (h_mem h 6) = Some 0%Z /\
  cee_del 20 h (VPtr 7) = Ok h' /\ In 6 (h_freed h') /\ cee_del 20 h' (VPtr 8) = Bad UseAfterFree.
Proof.
  destruct (hstart 10 [HMap NOOP NOOP; HEnv DEL_RC DEL_RC VNull (VPtr 6); HEnv DEL_RC DEL_RC VNull (VPtr 6)]) as [h|] eqn:E; [|vm_compute in E; discriminate].
  exists h. pose proof (hstart_reach _ _ _ E) as R.
  assert (X : match hstart 10 [HMap NOOP NOOP; HEnv DEL_RC DEL_RC VNull (VPtr 6); HEnv DEL_RC DEL_RC VNull (VPtr 6)] with
    | Ok h => holders DEL_RC h 6 = 2 /\ option_map b_rc (h_mem h 6) = Some 0%Z /\
      match cee_del 20 h (VPtr 7) with Ok h' => existsb (Nat.eqb 6) (h_freed h') = true /\ cee_del 20 h' (VPtr 8) = Bad UseAfterFree | Bad _ => False end
    | Bad _ => False end) by (vm_compute; auto).
  rewrite E in X. destruct X as (X1 & X2 & X). destruct (cee_del 20 h (VPtr 7)) as [h'|]; [|contradiction]. exists h'. destruct X as (X3 & X4).
  split; [auto|]. split; [auto|]. split; [auto|]. split; [auto|]. split; [|auto]. apply existsb_exists in X3 as (y & I & EQ). apply Nat.eqb_eq in EQ. subst. auto.
Qed.
(** Adding the same value again under the same key counts it once more, though
    it is held once; after the map is deleted it is held by nobody and stays. *)
Theorem C25_map_readd_refuted : exists h h', reach 10 0 h /\
  holders DEL_RC h 6 = 1 /\ option_map b_rc (h_mem h 6) = Some 2%Z /\
  cee_del 20 h (VPtr 8) = Ok h' /\ holders DEL_RC h' 6 = 0 /\ live h' 6.
Proof.
  pose (prog := [HLeaf M_MALLOC; HLeaf M_MALLOC; HMap DEL_RC DEL_RC; HMapAdd val_eqb 20 8 (VPtr 5) (VPtr 6) 0; HMapAdd val_eqb 20 8 (VPtr 5) (VPtr 6) 0]).
  destruct (hstart 10 prog) as [h|] eqn:E; [|vm_compute in E; discriminate].
  exists h. pose proof (hstart_reach _ _ _ E) as R.
  assert (X : match hstart 10 prog with
    | Ok h => holders DEL_RC h 6 = 1 /\ option_map b_rc (h_mem h 6) = Some 2%Z /\
      match cee_del 20 h (VPtr 8) with Ok h' => holders DEL_RC h' 6 = 0 /\ liveb h' 6 = true | Bad _ => False end
    | Bad _ => False end) by (vm_compute; auto).
  rewrite E in X. destruct X as (X1 & X2 & X). destruct (cee_del 20 h (VPtr 8)) as [h'|]; [|contradiction]. exists h'. destruct X as (X3 & X4).
  split; [auto|]. split; [auto|]. split; [auto|]. split; [auto|]. split; [auto|]. apply liveb_ok. auto.
Qed.
(** A set counts an element again when it is added again, and does not uncount
    it when it is removed: the string is in no set and has count 2. *)
Theorem C25_set_refuted : exists h, reach 10 0 h /\
  option_map b_body (h_mem h 6) = Some (BObj (KSet DEL_RC) []) /\ option_map b_rc (h_mem h 5) = Some 2%Z.
Proof.
  pose (prog := [HLeaf M_MALLOC; HSet DEL_RC; HSetAdd val_eqb 6 (VPtr 5) 0; HSetAdd val_eqb 6 (VPtr 5) 0; HSetRemove val_eqb 6 (VPtr 5)]).
  destruct (hstart 10 prog) as [h|] eqn:E; [|vm_compute in E; discriminate].
  exists h. pose proof (hstart_reach _ _ _ E) as R. split; [auto|].
  assert (X : match hstart 10 prog with
    | Ok h => option_map b_body (h_mem h 6) = Some (BObj (KSet DEL_RC) []) /\ option_map b_rc (h_mem h 5) = Some 2%Z
    | Bad _ => False end) by (vm_compute; auto).
  rewrite E in X. auto.
Qed.

(** * C26 *)
(** Nothing but [a] changes, and nothing is freed. *)
Definition only (a : addr) (h h' : heap) : Prop := h_freed h' = h_freed h /\ h_next h' = h_next h /\ forall x, x <> a -> h_mem h' x = h_mem h x.
(** The kinds of containers with elements, all under the no-operation policy *)
Definition noop_kind (k : kind) : Prop :=
  match k with
  | KList p | KStack p _ | KSet p | KDict p => p = NOOP
  | KProd ps => Forall (fun p => p = NOOP) ps
  | KEnv p1 p2 => p1 = NOOP /\ p2 = NOOP
  | _ => False
  end.
Definition is_at (h : heap) (a : addr) (k : kind) (vs : list val) : Prop := exists b, h_mem h a = Some b /\ b_body b = BObj k vs.

Lemma put_only h a k vs vs' h' : get_obj h a = Ok (k, vs) -> put_vals h a k vs' = Ok h' -> only a h h' /\ is_at h' a k vs'.
Proof.
  intros G H. destruct (put_facts _ _ _ _ _ _ G H) as (b & Gb & Bb & SK & OT & Ga). split; [split; [apply SK|split; [apply SK|auto]]|]. eexists. split; [exact Ga|reflexivity].
Qed.
Lemma at_get h a k vs : is_at h a k vs -> get_obj h a = Ok (k, vs).
Proof. intros (b & G & B). eapply get_obj_of; eauto. Qed.
Lemma put_ok h a k vs k' vs' : get_obj h a = Ok (k, vs) -> exists h', put_vals h a k' vs' = Ok h'.
Proof. intros G. apply get_obj_inv in G as (b & G & B). unfold put_vals. rewrite (modify_ok _ _ _ _ G). eauto. Qed.

(** In every heap, for every element - NULL, library object or foreign memory -
    the element operations of lists, stacks and sets with the no-operation
    policy succeed and change the container only. *)
Theorem C26_operations : forall h a,
  (forall vs e, is_at h a (KList NOOP) vs -> exists h', list_append h a e = Ok h' /\ only a h h' /\ is_at h' a (KList NOOP) (vs ++ [e])) /\
  (forall vs i e, is_at h a (KList NOOP) vs -> i <= length vs ->
     exists h', list_insert h a i e = Ok h' /\ only a h h' /\ is_at h' a (KList NOOP) (firstn i vs ++ e :: skipn i vs)) /\
  (forall vs i, is_at h a (KList NOOP) vs -> i < length vs ->
     exists h', list_remove h a i = Ok h' /\ only a h h' /\ is_at h' a (KList NOOP) (firstn i vs ++ skipn (S i) vs)) /\
  (forall c vs e, is_at h a (KStack NOOP c) vs -> Z.of_nat (length vs) <> c ->
     exists h', stack_push h a e = Ok h' /\ only a h h' /\ is_at h' a (KStack NOOP c) (vs ++ [e])) /\
  (forall c vs e, is_at h a (KStack NOOP c) (vs ++ [e]) ->
     exists h', stack_pop h a = Ok (h', e) /\ only a h h' /\ is_at h' a (KStack NOOP c) vs) /\
  (forall keq vs e pos, is_at h a (KSet NOOP) vs -> exists h', set_add keq h a e pos = Ok h' /\ only a h h') /\
  (forall keq vs e, is_at h a (KSet NOOP) vs -> exists h', set_remove keq h a e = Ok h' /\ only a h h').
Proof.
  intros h a. split; [|split; [|split; [|split; [|split; [|split]]]]].
  - intros vs e A. apply at_get in A. unfold list_append. rewrite A. cbn [bind]. destruct (put_ok h a _ _ (KList NOOP) (vs ++ [e]) A) as (h' & E). rewrite E. cbn. exists h'. split; [auto|]. eapply put_only; eauto.
  - intros vs i e A L. apply at_get in A. unfold list_insert. rewrite A. cbn [bind]. apply Nat.leb_le in L. rewrite L.
    destruct (put_ok h a _ _ (KList NOOP) (firstn i vs ++ e :: skipn i vs) A) as (h' & E). rewrite E. cbn. exists h'. split; [auto|]. eapply put_only; eauto.
  - intros vs i A L. apply at_get in A. unfold list_remove. rewrite A. cbn [bind]. destruct (nth_error vs i) eqn:N; [|apply nth_error_None in N; lia].
    destruct (put_ok h a _ _ (KList NOOP) (firstn i vs ++ skipn (S i) vs) A) as (h' & E). rewrite E. cbn. exists h'. split; [auto|]. eapply put_only; eauto.
  - intros c vs e A NE. apply at_get in A. unfold stack_push. rewrite A. cbn [bind]. apply Z.eqb_neq in NE. rewrite NE.
    destruct (put_ok h a _ _ (KStack NOOP c) (vs ++ [e]) A) as (h' & E). rewrite E. cbn. exists h'. split; [auto|]. eapply put_only; eauto.
  - intros c vs e A. apply at_get in A. unfold stack_pop. rewrite A. cbn [bind]. rewrite rev_unit.
    destruct (put_ok h a _ _ (KStack NOOP c) (rev (rev vs)) A) as (h' & E). rewrite E. cbn. exists h'. rewrite rev_involutive in E. split; [auto|]. eapply put_only; eauto.
  - intros keq vs e pos A. apply at_get in A. unfold set_add. rewrite A. cbn [bind]. destruct (find (keq e) vs) as [w|].
    + exists h. split; [destruct (val_eqb w e); auto|]. split; auto.
    + destruct (put_ok h a _ _ (KSet NOOP) (firstn pos vs ++ e :: skipn pos vs) A) as (h' & E). rewrite E. cbn. exists h'. split; [auto|]. eapply put_only; eauto.
  - intros keq vs e A. apply at_get in A. unfold set_remove. rewrite A. cbn [bind].
    destruct (put_ok h a _ _ (KSet NOOP) (filter (fun w => negb (keq e w)) vs) A) as (h' & E). exists h'. split; [auto|]. eapply put_only; eauto.
Qed.

(** Everything about an object except its place in the allocation chain *)
Definition same_object (b b' : block) : Prop :=
  same_contents b b' /\ b_rc b' = b_rc b /\ b_ret b' = b_ret b /\ b_mark b' = b_mark b /\ b_meth b' = b_meth b.
Lemma chain_same_object b b' : same_but_chain b b' -> same_object b b'.
Proof.
  intros S. pose proof S as (S1 & S2 & S3 & S4 & S5). split; [|auto]. unfold same_contents. destruct (b_body b), (b_body b'); try discriminate; auto. injection S5 as -> ->. auto.
Qed.
Lemma noop_fold : forall fs f h, Forall (fun pv : policy * val => fst pv = NOOP) fs -> foldm (del_e (trace_del f)) h fs = Ok h.
Proof. induction fs as [|(p, v) fs IH]; intros f h F; auto. inversion F; subst. cbn in *. subst. cbn. auto. Qed.
Lemma noop_incr : forall fs h, Forall (fun pv : policy * val => fst pv = NOOP) fs -> foldm (fun h pv => incr_indegree h (fst pv) (snd pv)) h fs = Ok h.
Proof. induction fs as [|(p, v) fs IH]; intros h F; auto. inversion F; subst. cbn in *. subst. cbn. auto. Qed.
Lemma combine_noop : forall ps vs, Forall (fun p => p = NOOP) ps -> Forall (fun pv : policy * val => fst pv = NOOP) (combine ps vs).
Proof. induction ps as [|p ps IH]; intros [|v vs] F; cbn; auto. inversion F; subst. constructor; auto. Qed.
Lemma map_noop vs : Forall (fun pv : policy * val => fst pv = NOOP) (map (pair NOOP) vs).
Proof. induction vs; cbn; auto. Qed.

(** After any history, deleting such a container - a list, stack, product,
    environment or dictionary, or an empty set - frees the container and nothing
    else, whatever its elements are. *)
Theorem C26_delete_partial : forall n st h a k vs, reach n st h -> is_at h a k vs -> noop_kind k -> (forall p, k = KSet p -> vs = []) ->
  exists h', (forall fuel, 0 < fuel -> cee_del fuel h (VPtr a) = Ok h') /\ h_freed h' = h_freed h ++ [a] /\ ~ live h' a /\
    forall x, x <> a -> match h_mem h x, h_mem h' x with Some b, Some b' => same_object b b' | None, None => True | _, _ => False end.
Proof.
  intros n st h a k vs R (b & G & B) NK SE. apply reach_wf in R as (l & W).
  assert (I : In a l). { eapply obj_in; [exact W|eapply get_obj_of; eauto|]. destruct k; try discriminate. contradiction. }
  apply in_split in I as (l1 & l2 & ->). destruct (unlink_wf _ _ _ _ _ W) as (h1 & h' & E1 & E2 & _ & BC & D & OT & _ & FR).
  exists h'. split; [|split; [auto|split]].
  - intros [|f] F; [lia|]. cbn [cee_del del_e trace_del]. unfold get. rewrite G. cbn [bind]. rewrite B.
    assert (Y : foldm (del_e (trace_del f)) h (del_fields k vs) = Ok h).
    { apply noop_fold. destruct k; cbn [noop_kind] in NK; try contradiction; subst; cbn [del_fields]; try apply map_noop; try constructor.
      - apply combine_noop; auto.
      - destruct NK as (-> & ->). apply combine_noop. auto. }
    destruct k; cbn [noop_kind] in NK; try contradiction; try solve [rewrite Y; cbn [bind]; rewrite E1; cbn [bind]; auto].
    specialize (SE p eq_refl). subst vs. cbn [del_fields map foldm bind]. rewrite E1. auto.
  - intros (b' & G'). congruence.
  - intros x NE. rewrite OT by auto. specialize (BC x). destruct (h_mem h x), (h_mem h1 x); auto. apply chain_same_object. auto.
Qed.

(** Making a product, tagged value or environment with the no-operation policy
    leaves every object as it is. *)
Theorem C26_make : forall n st h ps vs p1 p2 v w, reach n st h -> Forall (fun p => p = NOOP) ps -> p1 = NOOP -> p2 = NOOP ->
  let unchanged h' := forall x b, h_mem h x = Some b -> exists b', h_mem h' x = Some b' /\ same_object b b' in
  (exists h' a, mk_prod h st ps vs = Ok (h', a) /\ is_at h' a (KProd ps) vs /\ unchanged h') /\
  (exists h' a, mk_tagged h st p1 v = Ok (h', a) /\ is_at h' a (KProd [p1]) [v] /\ unchanged h') /\
  (exists h' a, mk_env h st p1 p2 v w = Ok (h', a) /\ is_at h' a (KEnv p1 p2) [v; w] /\ unchanged h').
Proof.
  intros n st h ps vs p1 p2 v w R F -> -> unchanged. apply reach_wf in R as (l & W).
  assert (MK : forall k us m, k <> KStatic -> exists h' a, mk_obj h st k us m = Ok (h', a) /\ is_at h' a k us /\ unchanged h').
  { intros k us m NS. unfold mk_obj. destruct (malloc h _) as (h1, a) eqn:E. destruct (malloc_wf _ _ _ _ _ _ W E) as (W1 & A & DA & Ma & OT & N & _).
    { unfold shape_of. cbn. destruct k; congruence. }
    destruct (chain_wf h1 st l a W1) as (h2 & E2 & _ & BC & _); [discriminate|]. rewrite E2. cbn [bind]. exists h2, a. split; [auto|]. split.
    - specialize (BC a). rewrite Ma in BC. destruct (h_mem h2 a) as [b2|] eqn:G2; [|contradiction]. exists b2. split; auto. destruct BC as (_ & _ & _ & _ & BB). cbn in BB.
      destruct (b_body b2); [contradiction || discriminate|]. congruence.
    - intros x b G. specialize (BC x). rewrite OT in BC by congruence. rewrite G in BC. destruct (h_mem h2 x) as [b2|]; [|contradiction]. exists b2. split; auto. apply chain_same_object. auto. }
  split; [|split].
  - unfold mk_prod. destruct (MK (KProd ps) vs M_IDENTITY) as (h' & a & E & A & U); [discriminate|]. rewrite E. cbn [bind]. rewrite noop_incr by (apply combine_noop; auto). cbn. eauto.
  - unfold mk_tagged. destruct (MK (KProd [NOOP]) [v] M_IDENTITY) as (h' & a & E & A & U); [discriminate|]. rewrite E. cbn [bind incr_indegree]. exists h', a. destruct v; auto.
  - unfold mk_env. apply MK. discriminate.
Qed.

(** ** Where the no-operation policy is not followed *)
Lemma reach_of n prog (Q : heap -> Prop) : (match hstart n prog with Ok h => Q h | Bad _ => False end) -> exists h, reach n 0 h /\ Q h.
Proof. destruct (hstart n prog) as [h|] eqn:E; [|contradiction]. intros H. exists h. split; [eapply hstart_reach; eauto|auto]. Qed.
Lemma ok_of (o : outcome heap) (Q : heap -> Prop) : (match o with Ok h => Q h | Bad _ => False end) -> exists h', o = Ok h' /\ Q h'.
Proof. destruct o as [h|]; [|contradiction]. eauto. Qed.
Ltac witness prog := apply (reach_of 10 prog); cbv beta.

(** The keys of a map with no-operation policies are counted, because they are
    also in the list of keys, and freed with the map. *)
Theorem C26_map_keys_refuted : exists h, reach 10 0 h /\ is_at h 7 (KMap NOOP NOOP) [VPtr 6; VPtr 8] /\ option_map b_rc (h_mem h 5) = Some 1%Z /\
  exists h', cee_del 20 h (VPtr 7) = Ok h' /\ In 5 (h_freed h').
Proof.
  assert (X : exists h, reach 10 0 h /\ (option_map b_body (h_mem h 7) = Some (BObj (KMap NOOP NOOP) [VPtr 6; VPtr 8]) /\ option_map b_rc (h_mem h 5) = Some 1%Z /\
    match cee_del 20 h (VPtr 7) with Ok h' => In 5 (h_freed h') | Bad _ => False end)).
  { witness [HLeaf M_MALLOC; HMap NOOP NOOP; HMapAdd val_eqb 20 7 (VPtr 5) VForeign 0]. vm_compute. auto 10. }
  destruct X as (h & R & B & C & D). exists h. split; [auto|]. split; [|split; [auto|apply ok_of; auto]].
  unfold is_at. destruct (h_mem h 7) as [b|]; [|discriminate]. exists b. split; [auto|]. injection B. auto.
Qed.
(** A foreign pointer as a key of such a map is dereferenced. *)
Theorem C26_map_foreign_key_refuted : exists h, reach 10 0 h /\ is_at h 6 (KMap NOOP NOOP) [VPtr 5] /\
  forall fuel v pos, map_add val_eqb fuel h 6 VForeign v pos = Bad BadPointer.
Proof.
  assert (X : exists h, reach 10 0 h /\ h = heap_of (hstart 10 [HMap NOOP NOOP])).
  { witness [HMap NOOP NOOP]. vm_compute. reflexivity. }
  destruct X as (h & R & E). exists h. split; [auto|]. split; [subst h; eexists; split; [vm_compute; reflexivity|reflexivity]|].
  intros fuel v pos. subst h. vm_compute. reflexivity.
Qed.
(** A dictionary with the no-operation policy counts its keys and values. *)
Theorem C26_dict_refuted : exists h, reach 10 0 h /\ is_at h 9 (KDict NOOP) [VPtr 7; VPtr 8] /\ option_map b_rc (h_mem h 5) = Some 1%Z /\ option_map b_rc (h_mem h 6) = Some 1%Z.
Proof.
  assert (X : exists h, reach 10 0 h /\ (option_map b_body (h_mem h 9) = Some (BObj (KDict NOOP) [VPtr 7; VPtr 8]) /\ option_map b_rc (h_mem h 5) = Some 1%Z /\ option_map b_rc (h_mem h 6) = Some 1%Z)).
  { witness [HLeaf M_MALLOC; HLeaf M_MALLOC; HDict NOOP; HDictAdd 9 (VPtr 5) (VPtr 6)]. vm_compute. auto. }
  destruct X as (h & R & B & C & D). exists h. split; [auto|]. split; [|auto].
  unfold is_at. destruct (h_mem h 9) as [b|]; [|discriminate]. exists b. split; [auto|]. injection B. auto.
Qed.
(** The collector follows no-operation elements, foreign ones too. *)
Theorem C26_gc_refuted : exists h, reach 10 0 h /\ is_at h 5 (KList NOOP) [VForeign] /\ gc 20 h 0 = Bad BadPointer.
Proof.
  assert (X : exists h, reach 10 0 h /\ (option_map b_body (h_mem h 5) = Some (BObj (KList NOOP) [VForeign]) /\ gc 20 h 0 = Bad BadPointer)).
  { witness [HList NOOP; HAppend 5 VForeign; HRoot (VPtr 5) 0]. vm_compute. auto. }
  destruct X as (h & R & B & C). exists h. split; [auto|]. split; [|auto].
  unfold is_at. destruct (h_mem h 5) as [b|]; [|discriminate]. exists b. split; [auto|]. injection B. auto.
Qed.
Example C26_example : exists h, reach 10 0 h /\ (is_at h 6 (KList NOOP) [VPtr 5; VForeign; VNull; VPtr 5] /\ option_map b_rc (h_mem h 5) = Some 0%Z /\
  exists h', cee_del 20 h (VPtr 6) = Ok h' /\ h_freed h' = [6]).
Proof.
  assert (X : exists h, reach 10 0 h /\ (option_map b_body (h_mem h 6) = Some (BObj (KList NOOP) [VPtr 5; VForeign; VNull; VPtr 5]) /\ option_map b_rc (h_mem h 5) = Some 0%Z /\
    match cee_del 20 h (VPtr 6) with Ok h' => h_freed h' = [6] | Bad _ => False end)).
  { witness [HLeaf M_MALLOC; HList NOOP; HAppend 6 (VPtr 5); HAppend 6 VForeign; HAppend 6 VNull; HAppend 6 (VPtr 5)]. vm_compute. auto. }
  destruct X as (h & R & B & C & D). exists h. split; [auto|]. split; [|split; [auto|apply ok_of; auto]].
  unfold is_at. destruct (h_mem h 6) as [b|]; [|discriminate]. exists b. split; [auto|]. injection B. auto.
Qed.

(** * C27 *)
(** Calls that deal with counted references only: to containers with the
    counting policy, or directly. *)
Definition counting_call (h : heap) (y : addr) (o : hop) : Prop :=
  match o with
  | HAppend a _ | HInsert a _ _ | HRemove a _ | HPush a _ | HPop a =>
    exists b vs, h_mem h a = Some b /\ (b_body b = BObj (KList DEL_RC) vs \/ exists n, b_body b = BObj (KStack DEL_RC n) vs)
  | HIncr p _ | HDecr p _ => p = DEL_RC
  | HDelE _ p v => p = DEL_RC /\ v = VPtr y
  | _ => False
  end.
Inductive counting_calls (st y : addr) : heap -> heap -> Prop :=
| cc_nil : forall h, counting_calls st y h h
| cc_step : forall h o h1 h2, counting_call h y o -> hstep st h o = Ok h1 -> counting_calls st y h1 h2 -> counting_calls st y h h2.
Definition retained (h : heap) (y : addr) : Prop := exists b, h_mem h y = Some b /\ b_ret b = true.
Definition still (b b' : block) : Prop := b_ret b' = b_ret b.
Lemma modify_retained h a f h' y : (forall b, b_ret b = true -> b_ret (f b) = true) -> retained h y -> modify h a f = Ok h' -> retained h' y.
Proof.
  intros F (b & G & T) H. unfold modify in H. apply bind_ok in H as (b1 & G1 & H). apply get_ok in G1. injection H as <-. unfold retained. cbn. destruct (Nat.eqb_spec y a) as [->|]; [|eauto].
  rewrite G in G1. injection G1 as <-. eexists. split; [reflexivity|auto].
Qed.
Lemma incr_retained h v h' y : retained h y -> incr_indegree h DEL_RC v = Ok h' -> retained h' y.
Proof. cbn. intros R H. apply bind_ok in H as (a & _ & H). eapply modify_retained; [|exact R|exact H]. intros b T. cbn beta. rewrite T. auto. Qed.
Lemma decr_retained h v h' y : retained h y -> decr_indegree h DEL_RC v = Ok h' -> retained h' y.
Proof. cbn. intros R H. apply bind_ok in H as (a & _ & H). eapply modify_retained; [|exact R|exact H]. intros b T. cbn beta. rewrite T. auto. Qed.
Lemma put_retained h a k vs h' y : retained h y -> put_vals h a k vs = Ok h' -> retained h' y.
Proof. unfold put_vals. intros R H. eapply modify_retained; [|exact R|exact H]. auto. Qed.

(** A retained object outlives any number of counted additions, removals and
    counted deletions. *)
Theorem C27_retained : forall st y h h', counting_calls st y h h' -> retained h y -> retained h' y.
Proof.
  intros st y h h' H. induction H as [|h o h1 h2 CC H _ IH]; [auto|]. intros R. apply IH. clear IH.
  assert (KD : forall a, (exists b vs, h_mem h a = Some b /\ (b_body b = BObj (KList DEL_RC) vs \/ exists n, b_body b = BObj (KStack DEL_RC n) vs)) ->
    forall k vs, get_obj h a = Ok (k, vs) -> (forall p, k = KList p -> p = DEL_RC) /\ (forall p n, k = KStack p n -> p = DEL_RC)).
  { intros a (b & vs & G & B) k vs' GO. apply get_obj_inv in GO as (b' & G' & B'). rewrite G in G'. injection G' as <-. split; intros; destruct B as [B|(n' & B)]; congruence. }
  destruct o; cbn [counting_call] in CC; try contradiction; cbn [hstep] in H.
  - unfold list_append in H. apply bind_ok in H as ((k, vs) & G & H). destruct (KD l CC k vs G) as (K1 & K2). destruct k; try discriminate. rewrite (K1 p eq_refl) in H.
    apply bind_ok in H as (h3 & H3 & H). eapply incr_retained; [eapply put_retained; eauto|exact H].
  - unfold list_insert in H. apply bind_ok in H as ((k, vs) & G & H). destruct (KD l CC k vs G) as (K1 & K2). destruct k; try discriminate. rewrite (K1 p eq_refl) in H.
    destruct (i <=? length vs); [|discriminate]. apply bind_ok in H as (h3 & H3 & H). eapply incr_retained; [eapply put_retained; eauto|exact H].
  - unfold list_remove in H. apply bind_ok in H as ((k, vs) & G & H). destruct (KD l CC k vs G) as (K1 & K2). destruct k; try discriminate. rewrite (K1 p eq_refl) in H.
    destruct (nth_error vs i); [|injection H as <-; auto]. apply bind_ok in H as (h3 & H3 & H). eapply decr_retained; [eapply put_retained; eauto|exact H].
  - unfold stack_push in H. apply bind_ok in H as ((k, vs) & G & H). destruct (KD s CC k vs G) as (K1 & K2). destruct k; try discriminate. rewrite (K2 p cap eq_refl) in H.
    destruct (_ =? _)%Z; [injection H as <-; auto|]. apply bind_ok in H as (h3 & H3 & H). eapply incr_retained; [eapply put_retained; eauto|exact H].
  - apply fst_m_ok_v in H as (v & H). unfold stack_pop in H. apply bind_ok in H as ((k, vs) & G & H). destruct (KD s CC k vs G) as (K1 & K2). destruct k; try discriminate. rewrite (K2 p cap eq_refl) in H.
    destruct (rev vs); [injection H as <- <-; auto|]. apply bind_ok in H as (h3 & H3 & H). apply bind_ok in H as (h4 & H4 & H). injection H as <- <-. eapply decr_retained; [eapply put_retained; eauto|exact H4].
  - subst p. eapply incr_retained; eauto.
  - subst p. eapply decr_retained; eauto.
  - destruct CC as (-> & ->). cbn [del_e] in H. apply bind_ok in H as (h3 & H3 & H). apply modify_retained with (y := y) in H3; [|intros b T; destruct (b_rc b =? 0)%Z; auto|auto].
    apply bind_ok in H as (b & G & H). apply get_ok in G. destruct H3 as (b3 & G3 & T3). rewrite G in G3. injection G3 as <-. rewrite T3 in H. injection H as <-. exists b. auto.
Qed.
(** Deleting a counting list or stack of retained objects, after any history,
    frees the container alone. *)
Lemma retained_fold : forall vs f h, Forall (fun v => exists y, v = VPtr y /\ retained h y) vs ->
  exists h', foldm (del_e (trace_del f)) h (map (pair DEL_RC) vs) = Ok h' /\ same_skel h h' /\ same_bodies h h' /\ forall x, retof h' x = retof h x.
Proof.
  induction vs as [|v vs IH]; intros f h F.
  - exists h. split; [auto|]. split; [apply same_skel_refl|]. split; [intros x; auto|auto].
  - inversion F as [|? ? (y & -> & R) F']; subst. cbn [map foldm del_e]. pose proof R as (b & G & T).
    rewrite (modify_ok _ _ _ _ G). cbn [bind]. set (h1 := set_mem h y _). unfold get. assert (G1 : h_mem h1 y = Some (if (b_rc b =? 0)%Z then b else set_rc (b_rc b - 1) b)) by (cbn; rewrite Nat.eqb_refl; auto).
    rewrite G1. cbn [bind]. assert (T1 : b_ret (if (b_rc b =? 0)%Z then b else set_rc (b_rc b - 1) b) = true) by (destruct (b_rc b =? 0)%Z; auto). rewrite T1.
    assert (SK : same_skel h h1). { eapply (modify_skel h y (fun b => if (b_rc b =? 0)%Z then b else set_rc (b_rc b - 1) b)); [|unfold modify, get; rewrite G; reflexivity]. quiet. }
    assert (RT : forall x, retof h1 x = retof h x). { intros x. unfold retof. cbn. destruct (Nat.eqb_spec x y) as [->|]; [rewrite G, T1, T; auto|auto]. }
    assert (BD : same_bodies h h1). { intros x. cbn. destruct (Nat.eqb_spec x y) as [->|]; [rewrite G; destruct (b_rc b =? 0)%Z; auto|auto]. }
    destruct (IH f h1) as (h' & E & SK' & BD' & RT').
    { eapply Forall_impl; [|exact F']. intros v (z & -> & (bz & Gz & Tz)). exists z. split; [auto|]. assert (L : h_mem h1 z <> None) by (intros D; apply (skel_live _ _ z SK) in D; congruence).
      specialize (RT z). unfold retof in RT. rewrite Gz in RT. destruct (h_mem h1 z) as [b1|] eqn:Gz1; [|congruence]. exists b1. split; congruence. }
    cbn [bind]. exists h'. split; [exact E|]. split; [eapply same_skel_trans; eauto|]. split; [intros x; rewrite BD'; auto|intros x; rewrite RT'; auto].
Qed.
Theorem C27_delete_holder : forall n st h a k vs, reach n st h -> is_at h a k vs -> k = KList DEL_RC \/ (exists c, k = KStack DEL_RC c) ->
  Forall (fun v => exists y, v = VPtr y /\ retained h y) vs ->
  exists h', (forall fuel, 0 < fuel -> cee_del fuel h (VPtr a) = Ok h') /\ h_freed h' = h_freed h ++ [a] /\
    forall x b, x <> a -> h_mem h x = Some b -> exists b', h_mem h' x = Some b' /\ same_contents b b' /\ b_ret b' = b_ret b.
Proof.
  intros n st h a k vs R (b & G & B) KK F. apply reach_wf in R as (l & W).
  assert (I : In a l). { eapply obj_in; [exact W|eapply get_obj_of; eauto|]. destruct KK as [->|(c & ->)]; discriminate. }
  assert (DT : forall f f', foldm (del_e (trace_del f)) h (map (pair DEL_RC) vs) = foldm (del_e (trace_del f')) h (map (pair DEL_RC) vs)).
  { intros f f'. clear - F. revert h F. induction vs as [|v vs IH]; intros h F; [auto|]. inversion F as [|? ? (y & -> & R) F']; subst. cbn [map foldm del_e]. pose proof R as (b & G & T).
    rewrite (modify_ok _ _ _ _ G). cbn [bind]. set (h1 := set_mem h y _). unfold get. assert (G1 : h_mem h1 y = Some (if (b_rc b =? 0)%Z then b else set_rc (b_rc b - 1) b)) by (cbn; rewrite Nat.eqb_refl; auto).
    rewrite G1. cbn [bind]. assert (T1 : b_ret (if (b_rc b =? 0)%Z then b else set_rc (b_rc b - 1) b) = true) by (destruct (b_rc b =? 0)%Z; auto). rewrite T1. cbn [bind]. apply IH.
    eapply Forall_impl; [|exact F']. intros v (z & -> & (bz & Gz & Tz)). exists z. split; [auto|]. unfold retained, h1. cbn. destruct (Nat.eqb_spec z y) as [->|]; [|eauto]. eexists. split; [reflexivity|auto]. }
  destruct (retained_fold vs 0 h F) as (h1 & E & SK & BD & RT).
  pose proof (same_skel_wf _ _ _ _ SK W) as W1. apply in_split in I as (l1 & l2 & ->). destruct (unlink_wf _ _ _ _ _ W1) as (h2 & h' & E1 & E2 & _ & BC & D & OT & _ & FR).
  exists h'. split; [|split; [|]].
  - intros [|f] FU; [lia|]. cbn [cee_del del_e trace_del]. unfold get. rewrite G. cbn [bind]. rewrite B. destruct KK as [->|(c & ->)]; cbn [del_fields]; rewrite (DT f 0), E; cbn [bind]; rewrite E1; auto.
  - rewrite FR. destruct SK as (_ & -> & _). auto.
  - intros x bx NE GX. rewrite OT by auto. specialize (BC x). specialize (BD x). specialize (RT x). rewrite GX in BD. unfold retof in RT. rewrite GX in RT.
    destruct (h_mem h1 x) as [b1|]; [|discriminate]. cbn in BD. destruct (h_mem h2 x) as [b2|]; [|contradiction]. exists b2. split; [auto|].
    pose proof (chain_same_object _ _ BC) as (SC & _ & RR & _). split; [|congruence]. unfold same_contents in *. injection BD as BD. rewrite <- BD. auto.
Qed.
(** An owned object has one holder, its owner, in lawful histories; it is freed
    exactly when the owner is. *)
Lemma owner_unique n st h z x : counted n st h -> In (DEL, VPtr x) (fields h z) -> (forall z', holder h z' x -> z' = z) /\ live h x.
Proof.
  intros C I. apply counted_inv in C as (r & s & c & IV). pose proof (iv_ri _ _ _ _ _ IV) as R.
  assert (HD : forall z p, p <> NOOP -> In (p, VPtr x) (fields h z) -> 0 < rf p h x /\ z < h_next h).
  { intros z0 p NP I0. rewrite fields_fl in I0. assert (L : z0 < h_next h).
    { destruct (h_mem h z0) eqn:G; [apply (ri_fresh _ _ _ _ _ R); congruence|]. rewrite fl_none in I0 by auto. contradiction. }
    split; [|auto]. apply hits_in in I0. pose proof (sumn_le_at (h_next h) (fun x0 => hits p x (eflds h none x0)) z0 L). unfold rf, refs, fl in *. cbn in *. lia. }
  destruct (HD z DEL) as (P1 & L1); [discriminate|auto|]. pose proof (ri_own _ _ _ _ R x) as (O1 & O2). fold (rf DEL h x) in O1, O2. fold (rf DEL_RC h x) in O2.
  split; [|apply (inv_exact _ _ _ _ _ IV) with z; right; auto].
  intros z' [I'|I'].
  - destruct (HD z' DEL_RC) as (P2 & _); [discriminate|auto|]. lia.
  - destruct (HD z' DEL) as (_ & L2); [discriminate|auto|]. destruct (Nat.eq_dec z' z) as [|NE]; [auto|exfalso].
    rewrite fields_fl in I, I'. apply hits_in in I, I'. unfold rf, refs, fl in *.
    pose proof (sumn_upd (h_next h) (fun x0 => hits DEL x (eflds h none x0)) (fun x0 => if x0 =? z then 0 else hits DEL x (eflds h none x0)) z L1) as U. cbn beta in U.
    rewrite Nat.eqb_refl in U. assert (U' := U ltac:(intros w NW; apply Nat.eqb_neq in NW; rewrite NW; auto)). clear U.
    pose proof (sumn_le_at (h_next h) (fun x0 => if x0 =? z then 0 else hits DEL x (eflds h none x0)) z' L2) as Q. cbn beta in Q. apply Nat.eqb_neq in NE. rewrite NE in Q. lia.
Qed.
Theorem C27_owner_partial : forall n st h y, counted n st h -> live h y -> ~ own st h y -> ~ static h y -> (forall x, ~ holder h x y) ->
  exists h', (forall fuel, h_next h <= fuel -> cee_del fuel h (VPtr y) = Ok h') /\
    forall z x, In (DEL, VPtr x) (fields h z) -> ~ static h x -> (live h' x <-> live h' z).
Proof.
  intros n st h y C L O NS NH. destruct (C25_delete_partial n st h y C L O NS NH) as (h' & E & IFF & _). exists h'. split; [auto|].
  intros z x I SX. destruct (owner_unique n st h z x C I) as (U & LX).
  assert (X : ~ live h' x <-> ~ live h' z).
  { rewrite (IFF x LX SX). split.
    - intros [->|(_ & A)]; [exfalso; apply (NH z); right; auto|]. apply A. right. auto.
    - intros D. right. split; [exists z; right; auto|]. intros z' HZ. rewrite (U z' HZ). auto. }
  assert (DC : forall w, live h' w \/ ~ live h' w). { intros w. rewrite live_some. destruct (h_mem h' w); [left; congruence|right; intros Q; apply Q; auto]. }
  destruct (DC x), (DC z); tauto.
Qed.

(** ** Mixing counted and owned references *)
(** Counted first, owned later: the count stays, but deleting the owner frees
    the object although a counting list still holds it; deleting that list reads
    freed memory. *)
Theorem C27_count_then_own_refuted : exists h, reach 10 0 h /\ holders DEL_RC h 5 = 1 /\ option_map b_rc (h_mem h 5) = Some 1%Z /\
  exists h', cee_del 20 h (VPtr 7) = Ok h' /\ In 5 (h_freed h') /\ cee_del 20 h' (VPtr 6) = Bad UseAfterFree.
Proof.
  assert (X : exists h, reach 10 0 h /\ (holders DEL_RC h 5 = 1 /\ option_map b_rc (h_mem h 5) = Some 1%Z /\
    match cee_del 20 h (VPtr 7) with Ok h' => In 5 (h_freed h') /\ cee_del 20 h' (VPtr 6) = Bad UseAfterFree | Bad _ => False end)).
  { witness [HLeaf M_MALLOC; HList DEL_RC; HList DEL; HAppend 6 (VPtr 5); HAppend 7 (VPtr 5)]. vm_compute. auto 10. }
  destruct X as (h & R & B & C & D). exists h. split; [auto|]. split; [auto|]. split; [auto|]. apply (ok_of _ (fun h' => In 5 (h_freed h') /\ _)). auto.
Qed.
(** Owned first, counted later, then released: the two counting lists were not
    counted; deleting one frees the object the other still holds. *)
Theorem C27_release_refuted : exists h, reach 10 0 h /\ holders DEL_RC h 5 = 2 /\ holders DEL h 5 = 0 /\ option_map b_rc (h_mem h 5) = Some 0%Z /\
  exists h', cee_del 20 h (VPtr 7) = Ok h' /\ In 5 (h_freed h') /\ cee_del 20 h' (VPtr 8) = Bad UseAfterFree.
Proof.
  assert (X : exists h, reach 10 0 h /\ (holders DEL_RC h 5 = 2 /\ holders DEL h 5 = 0 /\ option_map b_rc (h_mem h 5) = Some 0%Z /\
    match cee_del 20 h (VPtr 7) with Ok h' => In 5 (h_freed h') /\ cee_del 20 h' (VPtr 8) = Bad UseAfterFree | Bad _ => False end)).
  { witness [HLeaf M_MALLOC; HList DEL; HList DEL_RC; HList DEL_RC; HAppend 6 (VPtr 5); HAppend 7 (VPtr 5); HAppend 8 (VPtr 5); HRemove 6 0]. vm_compute. auto 10. }
  destruct X as (h & R & B & C & D & E). exists h. split; [auto|]. split; [auto|]. split; [auto|]. split; [auto|]. apply (ok_of _ (fun h' => In 5 (h_freed h') /\ _)). auto.
Qed.
(** Two owners: deleting the second one frees the object again. *)
Theorem C27_two_owners_refuted : exists h, reach 10 0 h /\ holders DEL h 5 = 2 /\
  exists h', cee_del 20 h (VPtr 6) = Ok h' /\ In 5 (h_freed h') /\ cee_del 20 h' (VPtr 7) = Bad UseAfterFree.
Proof.
  assert (X : exists h, reach 10 0 h /\ (holders DEL h 5 = 2 /\
    match cee_del 20 h (VPtr 6) with Ok h' => In 5 (h_freed h') /\ cee_del 20 h' (VPtr 7) = Bad UseAfterFree | Bad _ => False end)).
  { witness [HLeaf M_MALLOC; HList DEL; HList DEL; HAppend 6 (VPtr 5); HAppend 7 (VPtr 5)]. vm_compute. auto 10. }
  destruct X as (h & R & B & C). exists h. split; [auto|]. split; [auto|]. apply (ok_of _ (fun h' => In 5 (h_freed h') /\ _)). auto.
Qed.
(** A retained string survives two counted additions, a removal and a counted
    deletion, and dies with its owner. *)
Example C27_example : exists h, reach 10 0 h /\ liveb h 5 = true /\ option_map b_ret (h_mem h 5) = Some true /\
  exists h', cee_del 20 h (VPtr 6) = Ok h' /\ h_freed h' = [7; 5; 6].
Proof.
  assert (X : exists h, reach 10 0 h /\ (liveb h 5 = true /\ option_map b_ret (h_mem h 5) = Some true /\
    match cee_del 20 h (VPtr 6) with Ok h' => h_freed h' = [7; 5; 6] | Bad _ => False end)).
  { witness [HLeaf M_MALLOC; HList DEL; HList DEL_RC; HAppend 6 (VPtr 5); HAppend 7 (VPtr 5); HAppend 7 (VPtr 5); HRemove 7 0; HDelE 20 DEL_RC (VPtr 5); HDelE 20 DEL (VPtr 7)]. vm_compute. auto 10. }
  destruct X as (h & R & B & C & D). exists h. split; [auto|]. split; [auto|]. split; [auto|]. apply (ok_of _ (fun h' => h_freed h' = _)). auto.
Qed.

(** * C49 *)
(** FULL STATEMENT: cee_del of any container frees the container and, according
    to its policies, its elements, and nothing else.  Proved for containers made
    and filled by lawful calls (lists, stacks, products, tagged values,
    environments that do not count, maps, empty sets): the container goes; an
    owned element goes; a counted element goes if its other holders go too, in
    particular when it has no other holder; an object that the container does
    not lead to - no-operation elements among them - is not touched.  Lists,
    stacks, products, environments and dictionaries with the no-operation policy
    are covered by [C26_delete_partial] after every history.  MISSING: sets with
    elements, refuted below; dictionaries with other policies. *)
Theorem C49_partial : forall n st h y, counted n st h -> live h y -> ~ own st h y -> ~ static h y -> (forall x, ~ holder h x y) ->
  exists h', (forall fuel, h_next h <= fuel -> cee_del fuel h (VPtr y) = Ok h') /\
    ~ live h' y /\
    (forall x, In (DEL, VPtr x) (fields h y) -> ~ static h x -> ~ live h' x) /\
    (forall x, In (DEL_RC, VPtr x) (fields h y) -> ~ static h x -> (~ live h' x <-> forall z, holder h z x -> ~ live h' z)) /\
    (forall x, In (DEL_RC, VPtr x) (fields h y) -> ~ static h x -> (forall z, holder h z x -> z = y) -> ~ live h' x) /\
    (forall x b, h_mem h x = Some b -> ~ leads h y x -> exists b', h_mem h' x = Some b' /\ same_contents b b' /\ b_rc b' = b_rc b /\ b_ret b' = b_ret b).
Proof.
  intros n st h y C L O NS NH. destruct (C25_delete_partial n st h y C L O NS NH) as (h' & E & IFF & _ & _ & _ & UN). exists h'. split; [auto|].
  assert (DY : ~ live h' y) by (apply (IFF y L NS); auto). split; [auto|].
  assert (RC : forall x, In (DEL_RC, VPtr x) (fields h y) -> ~ static h x -> (~ live h' x <-> forall z, holder h z x -> ~ live h' z)).
  { intros x I SX. assert (LX : live h x). { destruct (C25_counts_partial n st h C) as (_ & ND). apply (ND y). left. auto. }
    rewrite (IFF x LX SX). split.
    - intros [->|(_ & A)]; [exfalso; apply (NH y); left; auto|auto].
    - intros A. right. split; [exists y; left; auto|auto]. }
  split; [|split; [auto|split; [|auto]]].
  - intros x I SX. destruct (owner_unique n st h y x C I) as (U & LX). apply (IFF x LX SX). right. split; [exists y; right; auto|]. intros z HZ. rewrite (U z HZ). auto.
  - intros x I SX U. apply (RC x I SX). intros z HZ. rewrite (U z HZ). auto.
Qed.
(** Deleting a set that has an element crashes: the walk over the tree hands a
    NULL context to the function that reads the policy from it. *)
Theorem C49_set_crash : forall n st h a p v vs fuel, reach n st h -> is_at h a (KSet p) (v :: vs) -> 0 < fuel -> cee_del fuel h (VPtr a) = Bad NullDeref.
Proof. intros n st h a p v vs [|f] _ (b & G & B) F; [lia|]. cbn [cee_del del_e trace_del]. unfold get. rewrite G. cbn [bind]. rewrite B. auto. Qed.
Theorem C49_set_refuted : exists h, reach 10 0 h /\ option_map b_body (h_mem h 6) = Some (BObj (KSet NOOP) [VPtr 5]) /\ cee_del 20 h (VPtr 6) = Bad NullDeref.
Proof. witness [HLeaf M_MALLOC; HSet NOOP; HSetAdd val_eqb 6 (VPtr 5) 0]. vm_compute. auto. Qed.
(** A dictionary with the no-operation policy never frees its two lists, which
    nobody else knows. *)
Theorem C49_dict_refuted : exists h, reach 10 0 h /\ option_map b_body (h_mem h 7) = Some (BObj (KDict NOOP) [VPtr 5; VPtr 6]) /\
  exists h', cee_del 20 h (VPtr 7) = Ok h' /\ h_freed h' = [7] /\ liveb h' 5 = true /\ map (fun p => holders p h' 5) [DEL_RC; DEL; NOOP] = [0; 0; 0].
Proof.
  assert (X : exists h, reach 10 0 h /\ (option_map b_body (h_mem h 7) = Some (BObj (KDict NOOP) [VPtr 5; VPtr 6]) /\
    match cee_del 20 h (VPtr 7) with Ok h' => h_freed h' = [7] /\ liveb h' 5 = true /\ map (fun p => holders p h' 5) [DEL_RC; DEL; NOOP] = [0; 0; 0] | Bad _ => False end)).
  { witness [HDict NOOP]. vm_compute. auto 10. }
  destruct X as (h & R & B & C). exists h. split; [auto|]. split; [auto|]. apply (ok_of _ (fun h' => h_freed h' = [7] /\ _)). auto.
Qed.
Example C49_example : exists h, counted 10 0 h /\ h = opt_heap (lawful_start 10
    [HLeaf M_MALLOC; HLeaf M_MALLOC; HLeaf M_MALLOC; HMap DEL_RC DEL_RC; HMapAdd val_eqb 20 9 (VPtr 5) (VPtr 6) 0; HList NOOP; HAppend 11 (VPtr 9); HStack DEL 4; HPush 12 (VPtr 7)]) /\
  match cee_del 30 h (VPtr 9) with Ok h' => h_freed h' = [8; 5; 6; 10; 9] | Bad _ => False end /\
  match cee_del 30 h (VPtr 11) with Ok h' => h_freed h' = [11] | Bad _ => False end /\
  match cee_del 30 h (VPtr 12) with Ok h' => h_freed h' = [7; 12] | Bad _ => False end.
Proof.
  eexists. split; [|split; [reflexivity|vm_compute; auto]]. apply counted_by. vm_compute. reflexivity.
Qed.

Print Assumptions C25_counts_partial.
Print Assumptions C25_delete_partial.
Print Assumptions C25_acyclic_partial.
Print Assumptions C25_overflow_refuted.
Print Assumptions C25_env_refuted.
Print Assumptions C25_map_readd_refuted.
Print Assumptions C25_set_refuted.
Print Assumptions C26_operations.
Print Assumptions C26_delete_partial.
Print Assumptions C26_make.
Print Assumptions C26_map_keys_refuted.
Print Assumptions C26_map_foreign_key_refuted.
Print Assumptions C26_dict_refuted.
Print Assumptions C26_gc_refuted.
Print Assumptions C27_retained.
Print Assumptions C27_delete_holder.
Print Assumptions C27_owner_partial.
Print Assumptions C27_count_then_own_refuted.
Print Assumptions C27_release_refuted.
Print Assumptions C27_two_owners_refuted.
Print Assumptions C49_partial.
Print Assumptions C49_set_crash.
Print Assumptions C49_set_refuted.
Print Assumptions C49_dict_refuted.
