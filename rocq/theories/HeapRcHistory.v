(** Reference counts and ownership over histories. *)
From Coq Require Import ZArith List Bool Lia.
From Verif Require Import Base HeapModel HeapChainProofs HeapHistory HeapSweepProofs HeapRcProofs.
Import ListNotations.
Open Scope nat_scope.
Open Scope outcome_scope.
Local Arguments Z.add : simpl never.
Local Arguments Z.sub : simpl never.
Local Arguments Z.of_nat : simpl never.

Definition none : ovmap := fun _ => None.
Definition fl (h : heap) (x : addr) : list (policy * val) := eflds h none x.
Definition rf (p : policy) (h : heap) (y : addr) : nat := refs p h none y.
Definition rcof (h : heap) (y : addr) : Z := match h_mem h y with Some b => b_rc b | None => 0%Z end.
Definition retof (h : heap) (y : addr) : bool := match h_mem h y with Some b => b_ret b | None => false end.
Lemma fl_some h x b : h_mem h x = Some b -> fl h x = bfields b.
Proof. intros G. unfold fl, eflds. rewrite G. auto. Qed.
Lemma fl_none h x : h_mem h x = None -> fl h x = [].
Proof. intros G. unfold fl, eflds. rewrite G. auto. Qed.

Section Prot.
Variable st : addr.
Variable P : addr -> Prop.

Definition okfs (h : heap) (fs : list (policy * val)) : Prop :=
  forall p v, In (p, v) fs -> p <> NOOP ->
    match v with
    | VNull => True
    | VForeign => False
    | VPtr y => h_mem h y <> None /\ ~ P y /\
      match p with
      | DEL_RC => rf DEL h y = 0 /\ hits DEL y fs = 0 /\ (Z.of_nat (rf DEL_RC h y + hits DEL_RC y fs) < 65536)%Z
      | DEL => rf DEL_RC h y = 0 /\ rf DEL h y = 0 /\ hits DEL_RC y fs = 0 /\ hits DEL y fs = 1 /\ shp h y <> Some SStatic
      | NOOP => True
      end
    end.

Record delta (h h' : heap) (D : policy -> addr -> Z) (C : addr -> Z) (F : addr -> bool -> bool) (N : list (policy * val)) : Prop := {
  d_wf : forall l, wf_chain false h st l -> exists l', wf_chain false h' st l';
  d_live : forall y, h_mem h y <> None -> h_mem h' y <> None;
  d_refs : forall p y, p <> NOOP -> Z.of_nat (rf p h' y) = (Z.of_nat (rf p h y) + D p y)%Z;
  d_rc : forall y, h_mem h' y <> None -> rcof h' y = (rcof h y + C y)%Z;
  d_ret : forall y, h_mem h' y <> None -> retof h' y = F y (retof h y);
  d_static : forall y, shp h' y = Some SStatic -> shp h y = Some SStatic \/ h_mem h y = None;
  d_fl : forall x f, In f (fl h' x) -> (exists z, In f (fl h z)) \/ In f N;
  d_set : forall x b p vs, h_mem h' x = Some b -> b_body b = BObj (KSet p) vs -> vs <> [] ->
    P x \/ exists b0, h_mem h x = Some b0 /\ b_body b0 = BObj (KSet p) vs
}.

Lemma delta_ext h h' D C F N D' C' F' N' : delta h h' D C F N -> (forall p y, p <> NOOP -> D' p y = D p y) -> (forall y, C' y = C y) ->
  (forall y r, F' y r = F y r) -> incl N N' -> delta h h' D' C' F' N'.
Proof.
  intros [A1 A2 A3 A4 A5 A6 A7 A8] ED EC EF EN. constructor; auto.
  - intros p y NPP. rewrite ED; auto.
  - intros y L. rewrite EC. auto.
  - intros y L. rewrite EF. auto.
  - intros x f I. destruct (A7 x f I); auto.
Qed.
Lemma delta_trans h1 h2 h3 D D' C C' F F' N N' : delta h1 h2 D C F N -> delta h2 h3 D' C' F' N' ->
  (forall y, h_mem h2 y = None -> C y = 0%Z /\ F y false = false) ->
  delta h1 h3 (fun p y => D p y + D' p y)%Z (fun y => C y + C' y)%Z (fun y r => F' y (F y r)) (N ++ N').
Proof.
  intros A B NEW.
  assert (X : forall y, rcof h2 y = (rcof h1 y + C y)%Z /\ retof h2 y = F y (retof h1 y)).
  { intros y. destruct (h_mem h2 y) eqn:G; [split; [apply (d_rc _ _ _ _ _ _ A)|apply (d_ret _ _ _ _ _ _ A)]; congruence|].
    assert (G1 : h_mem h1 y = None). { destruct (h_mem h1 y) eqn:G1; auto. exfalso. apply (d_live _ _ _ _ _ _ A y); congruence. }
    destruct (NEW y G) as (E1 & E2). unfold rcof, retof. rewrite G, G1, E1, E2. auto. }
  constructor.
  - intros l W. destruct (d_wf _ _ _ _ _ _ A l W) as (l' & W'). apply (d_wf _ _ _ _ _ _ B l' W').
  - intros y L. apply (d_live _ _ _ _ _ _ B), (d_live _ _ _ _ _ _ A). auto.
  - intros p y NPP. rewrite (d_refs _ _ _ _ _ _ B), (d_refs _ _ _ _ _ _ A) by auto. lia.
  - intros y L. rewrite (d_rc _ _ _ _ _ _ B) by auto. destruct (X y) as (-> & _). lia.
  - intros y L. rewrite (d_ret _ _ _ _ _ _ B) by auto. destruct (X y) as (_ & ->). auto.
  - intros y S. destruct (d_static _ _ _ _ _ _ B y S) as [S2|S2]; [apply (d_static _ _ _ _ _ _ A); auto|].
    right. destruct (h_mem h1 y) eqn:G; auto. exfalso. apply (d_live _ _ _ _ _ _ A y); congruence.
  - intros x f I. rewrite in_app_iff. destruct (d_fl _ _ _ _ _ _ B x f I) as [(z & I2)|I2]; [|auto]. destruct (d_fl _ _ _ _ _ _ A z f I2); auto.
  - intros x b p vs G BB NV. destruct (d_set _ _ _ _ _ _ B x b p vs G BB NV) as [Q|(b0 & G0 & B0)]; [auto|].
    apply (d_set _ _ _ _ _ _ A x b0 p vs G0 B0 NV).
Qed.

Lemma delta_narrow h h' D C F N N' : delta h h' D C F N -> (forall f, In f N -> (exists z, In f (fl h z)) \/ In f N') -> delta h h' D C F N'.
Proof.
  intros [A1 A2 A3 A4 A5 A6 A7 A8] S. constructor; auto. intros x f I. destruct (A7 x f I); auto.
Qed.
Lemma dead_refs h y p : RI st P h none -> h_mem h y = None -> p <> NOOP -> rf p h y = 0.
Proof.
  intros R D NP. destruct (rf p h y) eqn:E; auto. exfalso. destruct (refs_find p h none y) as (x & _ & I); [unfold rf in E; lia|].
  pose proof (ri_tgt _ _ _ _ R x p _ I NP) as (X & _). auto.
Qed.

Lemma RI_delta h h' D C F N : RI st P h none -> delta h h' D C F N ->
  (forall y, h_mem h' y <> None -> C y = D DEL_RC y) ->
  (forall y, h_mem h' y <> None -> F y (retof h y) = true -> rf DEL h' y = 1) ->
  (forall y, shp h' y = Some SStatic -> F y false = false) ->
  (forall y, rf DEL h' y <= 1 /\ (0 < rf DEL h' y -> rf DEL_RC h' y = 0)) ->
  (forall p v, In (p, v) N -> p <> NOOP -> match v with VNull => True | VForeign => False | VPtr y => h_mem h' y <> None /\ ~ P y end) ->
  RI st P h' none.
Proof.
  intros R A CD RT SS OW TG. constructor.
  - destruct (ri_chain _ _ _ _ R) as (l & W). apply (d_wf _ _ _ _ _ _ A l W).
  - intros y b G. assert (L : h_mem h' y <> None) by congruence.
    pose proof (d_rc _ _ _ _ _ _ A y L) as X. unfold rcof at 1 in X. rewrite G in X. rewrite X, CD by auto.
    change (refs DEL_RC h' none y) with (rf DEL_RC h' y). rewrite (d_refs _ _ _ _ _ _ A) by discriminate. f_equal. unfold rcof.
    destruct (h_mem h y) as [b0|] eqn:G0; [apply (ri_cnt _ _ _ _ R y b0 G0)|]. rewrite dead_refs; auto. discriminate.
  - intros y b G RB _. apply RT; [congruence|]. rewrite <- (d_ret _ _ _ _ _ _ A) by congruence. unfold retof. rewrite G. auto.
  - intros y b G S. assert (S' : shp h' y = Some SStatic) by (unfold shp; rewrite G; cbn; congruence).
    assert (L : h_mem h' y <> None) by congruence. pose proof (d_ret _ _ _ _ _ _ A y L) as X. unfold retof at 1 in X. rewrite G in X.
    rewrite X. destruct (d_static _ _ _ _ _ _ A y S') as [S0|S0].
    + unfold shp in S0. unfold retof. destruct (h_mem h y) as [b0|] eqn:G0; [|discriminate]. injection S0 as S0.
      rewrite (ri_static _ _ _ _ R y b0 G0 S0). apply SS. auto.
    + unfold retof. rewrite S0. apply SS. auto.
  - auto.
  - intros x p v I NP. destruct (d_fl _ _ _ _ _ _ A x (p, v) I) as [(z & I0)|I0]; [|apply TG with (p := p); auto].
    pose proof (ri_tgt _ _ _ _ R z p v I0 NP) as X. destruct v as [|y|]; auto. destruct X as (X & Y). split; auto. apply (d_live _ _ _ _ _ _ A). auto.
  - intros x fs X. discriminate.
  - intros x b p vs G B NV. destruct (d_set _ _ _ _ _ _ A x b p vs G B NV) as [Q|(b0 & G0 & B0)]; [auto|]. apply (ri_set _ _ _ _ R x b0 p vs G0 B0 NV).
  - apply (ri_st _ _ _ _ R).
Qed.

(** fields added *)
Definition addD (fs : list (policy * val)) : policy -> addr -> Z := fun p y => Z.of_nat (hits p y fs).
Lemma RI_add h h' fs F : RI st P h none -> okfs h fs -> delta h h' (addD fs) (addD fs DEL_RC) F fs ->
  (forall y r, F y r = true -> r = true \/ 0 < hits DEL y fs) -> RI st P h' none.
Proof.
  intros R OK A FT. eapply RI_delta; [exact R|exact A|auto| | | |].
  - intros y L X. destruct (FT y _ X) as [RT|HI].
    + unfold retof in RT. destruct (h_mem h y) as [b|] eqn:G; [|discriminate].
      pose proof (ri_ret _ _ _ _ R y b G RT eq_refl) as Y. change (refs DEL h none y) with (rf DEL h y) in Y.
      pose proof (d_refs _ _ _ _ _ _ A DEL y ltac:(discriminate)) as Z. unfold addD in Z. destruct (hits DEL y fs) eqn:HE; [lia|].
      exfalso. assert (I : In (DEL, VPtr y) fs) by (apply hits_in; lia). destruct (OK _ _ I) as (_ & _ & _ & Q & _); [discriminate|]. lia.
    + apply hits_in in HI. destruct (OK _ _ HI) as (_ & _ & _ & Q & _ & HE & _); [discriminate|].
      pose proof (d_refs _ _ _ _ _ _ A DEL y ltac:(discriminate)) as Z. unfold addD in Z. lia.
  - intros y S. destruct (F y false) eqn:E; auto. exfalso. destruct (FT y false E) as [?|HI]; [discriminate|]. apply hits_in in HI.
    destruct (OK _ _ HI) as (L & _ & _ & _ & _ & _ & NS); [discriminate|]. destruct (d_static _ _ _ _ _ _ A y S); contradiction.
  - intros y. pose proof (d_refs _ _ _ _ _ _ A DEL y ltac:(discriminate)) as Z. pose proof (d_refs _ _ _ _ _ _ A DEL_RC y ltac:(discriminate)) as Z'. unfold addD in *.
    destruct (ri_own _ _ _ _ R y) as (O1 & O2). change (refs DEL h none y) with (rf DEL h y) in *. change (refs DEL_RC h none y) with (rf DEL_RC h y) in *.
    destruct (hits DEL y fs) eqn:HE.
    + split; [lia|]. intros X. assert (X0 : 0 < rf DEL h y) by lia. specialize (O2 X0). destruct (hits DEL_RC y fs) eqn:HR; [lia|].
      exfalso. assert (I : In (DEL_RC, VPtr y) fs) by (apply hits_in; lia). destruct (OK _ _ I) as (_ & _ & Q & _); [discriminate|]. lia.
    + assert (I : In (DEL, VPtr y) fs) by (apply hits_in; lia). destruct (OK _ _ I) as (_ & _ & Q1 & Q2 & Q3 & Q4 & _); [discriminate|]. lia.
  - intros p v I NP. specialize (OK p v I NP). destruct v as [|y|]; auto. destruct OK as (X & Y & _). split; auto. apply (d_live _ _ _ _ _ _ A). auto.
Qed.
(** fields removed *)
Lemma RI_rem h h' fs F N : RI st P h none -> delta h h' (fun p y => - addD fs p y)%Z (fun y => - addD fs DEL_RC y)%Z F N ->
  (forall p v, In (p, v) N -> p = NOOP) ->
  (forall y r, F y r = true -> r = true /\ hits DEL y fs = 0) -> RI st P h' none.
Proof.
  intros R A NN FT. eapply RI_delta; [exact R|exact A|auto| | | |].
  - intros y L X. destruct (FT y _ X) as (RT & HE). unfold retof in RT. destruct (h_mem h y) as [b|] eqn:G; [|discriminate].
    pose proof (ri_ret _ _ _ _ R y b G RT eq_refl) as Y. change (refs DEL h none y) with (rf DEL h y) in Y.
    pose proof (d_refs _ _ _ _ _ _ A DEL y ltac:(discriminate)) as Z. unfold addD in Z. lia.
  - intros y S. destruct (F y false) eqn:E; auto. destruct (FT y false E). discriminate.
  - intros y. pose proof (d_refs _ _ _ _ _ _ A DEL y ltac:(discriminate)) as Z. pose proof (d_refs _ _ _ _ _ _ A DEL_RC y ltac:(discriminate)) as Z'. unfold addD in *.
    destruct (ri_own _ _ _ _ R y) as (O1 & O2). change (refs DEL h none y) with (rf DEL h y) in *. change (refs DEL_RC h none y) with (rf DEL_RC h y) in *. lia.
  - intros p v I NP. exfalso. eauto.
Qed.

(** * Primitive changes *)
Lemma skel_delta_wf h h' : same_skel h h' -> forall l, wf_chain false h st l -> exists l', wf_chain false h' st l'.
Proof. intros S l W. exists l. eapply same_skel_wf; eauto. Qed.
Lemma skel_live h h' y : same_skel h h' -> (h_mem h' y = None <-> h_mem h y = None).
Proof using. clear P st. intros (_ & _ & S). destruct (S y) as (_ & _ & X & _). rewrite <- !shp_none, X. tauto. Qed.
Lemma skel_static h h' y : same_skel h h' -> shp h' y = shp h y.
Proof. intros (_ & _ & S). apply S. Qed.

(** [a]'s body is replaced *)
Lemma delta_put h a b k vs h' : h_mem h a = Some b -> same_skel h h' -> a < h_next h ->
  (forall x, x <> a -> h_mem h' x = h_mem h x) -> h_mem h' a = Some (set_body (BObj k vs) b) ->
  (forall p, k = KSet p -> P a \/ vs = []) ->
  delta h h' (fun p y => Z.of_nat (hits p y (del_fields k vs)) - Z.of_nat (hits p y (bfields b)))%Z (fun _ => 0%Z) (fun _ r => r)
    (del_fields k vs).
Proof.
  intros G SK LT OT G' KS. pose proof SK as (NX & _).
  assert (EF : forall x, x <> a -> fl h' x = fl h x) by (intros x NE; unfold fl, eflds; rewrite OT; auto).
  assert (EA : fl h' a = del_fields k vs) by (rewrite (fl_some _ _ _ G'); auto).
  constructor.
  - apply skel_delta_wf. auto.
  - intros y L X. apply L. apply (skel_live _ _ _ SK). auto.
  - intros p y NPP. pose proof (refs_upd p h h' none none y a NX LT EF) as X. change (eflds h none a) with (fl h a) in X. change (eflds h' none a) with (fl h' a) in X.
    rewrite EA, (fl_some _ _ _ G) in X. unfold rf. lia.
  - intros y L. unfold rcof. destruct (Nat.eq_dec y a) as [->|NE]; [rewrite G, G'; cbn|rewrite OT by auto]; lia.
  - intros y L. unfold retof. destruct (Nat.eq_dec y a) as [->|NE]; [rewrite G, G'; auto|rewrite OT by auto; auto].
  - intros y S. left. rewrite <- (skel_static _ _ _ SK). auto.
  - intros x f I. destruct (Nat.eq_dec x a) as [->|NE]; [rewrite EA in I; auto|rewrite EF in I by auto; eauto].
  - intros x b0 p vs0 G0 B0 NV. destruct (Nat.eq_dec x a) as [->|NE].
    + rewrite G' in G0. injection G0 as <-. cbn in B0. injection B0 as -> ->. destruct (KS p eq_refl); [auto|congruence].
    + rewrite OT in G0 by auto. right. eauto.
Qed.

(** counts and flags *)
Lemma delta_cnt h h' C F : same_skel h h' -> h_next h' = h_next h ->
  (forall y, match h_mem h y, h_mem h' y with
     | Some b, Some b' => (b_body b' = b_body b \/ exists t, shape_of b' = SState t) /\ b_rc b' = (b_rc b + C y)%Z /\ b_ret b' = F y (b_ret b)
     | None, None => True | _, _ => False end) ->
  delta h h' (fun _ _ => 0%Z) C F [].
Proof.
  intros SK NX E. assert (EF : forall x, eflds h' none x = eflds h none x).
  { intros x. specialize (E x). pose proof (skel_static _ _ x SK) as SS. unfold shp in SS. unfold eflds. destruct (h_mem h x), (h_mem h' x); try tauto.
    cbn. unfold bfields. destruct E as ([->|(t & ES)] & _); auto. unfold shape_of in *. cbn in SS.
    destruct (b_body b0) as [|[] ?], (b_body b) as [|[] ?]; try discriminate; auto. }
  constructor.
  - apply skel_delta_wf. auto.
  - intros y L X. apply L. apply (skel_live _ _ _ SK). auto.
  - intros p y NPP. unfold rf. rewrite (refs_ext p h h' none none y NX EF). lia.
  - intros y L. specialize (E y). unfold rcof. destruct (h_mem h y), (h_mem h' y); try tauto; congruence.
  - intros y L. specialize (E y). unfold retof. destruct (h_mem h y), (h_mem h' y); try tauto; congruence.
  - intros y S. left. rewrite <- (skel_static _ _ _ SK). auto.
  - intros x f I. unfold fl in *. rewrite EF in I. eauto.
  - intros x b p vs G B NV. right. specialize (E x). rewrite G in E. destruct (h_mem h x) as [b0|]; [|contradiction].
    exists b0. destruct E as ([E|(t & E)] & _); [rewrite <- E; auto|]. unfold shape_of in E. rewrite B in E. discriminate.
Qed.

Definition addF (fs : list (policy * val)) : addr -> bool -> bool := fun y r => r || (0 <? hits DEL y fs).
(** [cee_incr_indegree] *)
Lemma delta_incr h p v h' : incr_indegree h p v = Ok h' ->
  (p = DEL_RC -> forall y, v = VPtr y -> retof h y = false /\ (0 <= rcof h y < 65535)%Z) ->
  delta h h' (fun _ _ => 0%Z) (addD [(p, v)] DEL_RC) (addF [(p, v)]) [] /\ h_next h' = h_next h /\
  (forall y, option_map b_body (h_mem h' y) = option_map b_body (h_mem h y)).
Proof.
  intros H Q. pose proof (incr_skel _ _ _ _ H) as SK. pose proof SK as (NX & _).
  assert (X : forall y, match h_mem h y, h_mem h' y with
     | Some b, Some b' => b_body b' = b_body b /\ b_rc b' = (b_rc b + addD [(p, v)] DEL_RC y)%Z /\ b_ret b' = addF [(p, v)] y (b_ret b)
     | None, None => True | _, _ => False end).
  { unfold addD, addF. destruct p; cbn [incr_indegree] in H.
    - apply bind_ok in H as (a & T & H). destruct v as [|z|]; try discriminate. cbn in T. injection T as ->.
      destruct (Q eq_refl a eq_refl) as (R1 & R2). apply modify_eff in H as ((_ & _ & E) & L). intros y. rewrite E. unfold hits; cbn [filter hit peq andb].
      destruct (Nat.eqb_spec y a) as [->|NE].
      + rewrite Nat.eqb_refl. unfold retof, rcof in *. destruct (h_mem h a) as [b|]; [|congruence]. cbn. rewrite R1. cbn.
        split; [auto|]. split; [|auto]. unfold wrap. rewrite Z.mod_small by (change (2 ^ 16)%Z with 65536%Z; lia). lia.
      + assert (a =? y = false) as -> by (apply Nat.eqb_neq; auto). destruct (h_mem h y); auto. cbn. split; [auto|]. split; [lia|]. destruct (b_ret b); auto.
    - apply bind_ok in H as (a & T & H). destruct v as [|z|]; try discriminate. cbn in T. injection T as ->.
      apply modify_eff in H as ((_ & _ & E) & L). intros y. rewrite E. unfold hits; cbn [filter hit peq andb].
      destruct (Nat.eqb_spec y a) as [->|NE].
      + rewrite Nat.eqb_refl. destruct (h_mem h a) as [b|]; [|congruence]. cbn. split; [auto|]. split; [lia|]. destruct (b_ret b); auto.
      + assert (a =? y = false) as -> by (apply Nat.eqb_neq; auto). destruct (h_mem h y); auto. cbn. split; [auto|]. split; [lia|]. destruct (b_ret b); auto.
    - injection H as <-. intros y. destruct (h_mem h y); auto. unfold hits; destruct v; cbn; split; auto; split; try lia; destruct (b_ret b); auto. }
  split; [apply delta_cnt; auto; intros y; specialize (X y); destruct (h_mem h y), (h_mem h' y); tauto|]. split; [auto|]. intros y. specialize (X y). destruct (h_mem h y), (h_mem h' y); try tauto. cbn. destruct X as (-> & _). auto.
Qed.
(** [cee_decr_indegree] *)
Definition remF (fs : list (policy * val)) : addr -> bool -> bool := fun y r => r && negb (0 <? hits DEL y fs).
Lemma delta_decr h p v h' : decr_indegree h p v = Ok h' ->
  (p = DEL_RC -> forall y, v = VPtr y -> retof h y = false /\ (0 < rcof h y)%Z) ->
  delta h h' (fun _ _ => 0%Z) (fun y => - addD [(p, v)] DEL_RC y)%Z (remF [(p, v)]) [] /\ h_next h' = h_next h /\
  (forall y, option_map b_body (h_mem h' y) = option_map b_body (h_mem h y)).
Proof.
  intros H Q. pose proof (decr_skel _ _ _ _ H) as SK. pose proof SK as (NX & _).
  assert (X : forall y, match h_mem h y, h_mem h' y with
     | Some b, Some b' => b_body b' = b_body b /\ b_rc b' = (b_rc b + - addD [(p, v)] DEL_RC y)%Z /\ b_ret b' = remF [(p, v)] y (b_ret b)
     | None, None => True | _, _ => False end).
  { unfold addD, remF. destruct p; cbn [decr_indegree] in H.
    - apply bind_ok in H as (a & T & H). destruct v as [|z|]; try discriminate. cbn in T. injection T as ->.
      destruct (Q eq_refl a eq_refl) as (R1 & R2). apply modify_eff in H as ((_ & _ & E) & L). intros y. rewrite E. unfold hits; cbn [filter hit peq andb].
      destruct (Nat.eqb_spec y a) as [->|NE].
      + rewrite Nat.eqb_refl. unfold retof, rcof in *. destruct (h_mem h a) as [b|]; [|congruence]. cbn. rewrite R1.
        destruct (Z.eqb_spec (b_rc b) 0); [lia|]. cbn. split; [auto|]. split; [lia|auto].
      + assert (a =? y = false) as -> by (apply Nat.eqb_neq; auto). destruct (h_mem h y); auto. cbn. split; [auto|]. split; [lia|]. destruct (b_ret b); auto.
    - apply bind_ok in H as (a & T & H). destruct v as [|z|]; try discriminate. cbn in T. injection T as ->.
      apply bind_ok in H as (b0 & _ & H). destruct (b_ret b0); [|discriminate].
      apply modify_eff in H as ((_ & _ & E) & L). intros y. rewrite E. unfold hits; cbn [filter hit peq andb].
      destruct (Nat.eqb_spec y a) as [->|NE].
      + rewrite Nat.eqb_refl. destruct (h_mem h a) as [b|]; [|congruence]. cbn. split; [auto|]. split; [lia|]. destruct (b_ret b); auto.
      + assert (a =? y = false) as -> by (apply Nat.eqb_neq; auto). destruct (h_mem h y); auto. cbn. split; [auto|]. split; [lia|]. destruct (b_ret b); auto.
    - injection H as <-. intros y. destruct (h_mem h y); auto. unfold hits; destruct v; cbn; split; auto; split; try lia; destruct (b_ret b); auto. }
  split; [apply delta_cnt; auto; intros y; specialize (X y); destruct (h_mem h y), (h_mem h' y); tauto|]. split; [auto|]. intros y. specialize (X y). destruct (h_mem h y), (h_mem h' y); try tauto. cbn. destruct X as (-> & _). auto.
Qed.
End Prot.
