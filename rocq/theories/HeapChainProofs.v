(** The allocation chain: invariant and its preservation by every heap
    operation. *)
From Coq Require Import ZArith List Bool Lia.
From Verif Require Import Base HeapModel.
Import ListNotations.
Open Scope nat_scope.
Open Scope outcome_scope.

(** * The invariant *)
Definition nxt (h : heap) (x : addr) : option (option addr) := option_map b_next (h_mem h x).
Definition prv (h : heap) (x : addr) : option (option addr) := option_map b_prev (h_mem h x).

(** [l] is doubly linked behind [p] *)
Fixpoint links (h : heap) (p : addr) (l : list addr) : Prop :=
  match l with
  | [] => True
  | a :: l' => nxt h p = Some (Some a) /\ prv h a = Some (Some p) /\ links h a l'
  end.

Inductive shape : Type := SState (tail : addr) | SStatic | SObj.
Definition shape_of (b : block) : shape :=
  match b_body b with
  | BState t _ _ _ _ => SState t
  | BObj KStatic _ => SStatic
  | BObj _ _ => SObj
  end.
Definition shp (h : heap) (x : addr) : option shape := option_map shape_of (h_mem h x).
Definition stt (h : heap) (x : addr) : option addr := option_map b_state (h_mem h x).

Section Strict.
(** With [strict] set, the chain also ends: the tail has no [trace_next]. *)
Context {strict : bool}.

(** [l]: the blocks of state [st], oldest first. *)
Record wf_chain (h : heap) (st : addr) (l : list addr) : Prop := WF {
  wc_state : shp h st = Some (SState (last l st));
  wc_links : links h st l;
  wc_nodup : NoDup (st :: l);
  wc_obj : forall a, In a l -> shp h a = Some SObj /\ stt h a = Some st;
  wc_all : forall a, h_mem h a <> None -> a = st \/ In a l \/ shp h a = Some SStatic;
  wc_fresh : forall a, h_mem h a <> None -> a < h_next h;
  wc_log : NoDup (h_freed h);
  wc_freed : forall a, In a (h_freed h) <-> a < h_next h /\ h_mem h a = None;
  wc_end : strict = true -> nxt h (last l st) = Some None
}.

(** Nothing relevant to the chain differs. *)
Definition same_skel (h h' : heap) : Prop :=
  h_next h' = h_next h /\ h_freed h' = h_freed h /\
  forall a, nxt h' a = nxt h a /\ prv h' a = prv h a /\ shp h' a = shp h a /\ stt h' a = stt h a.

Lemma same_skel_refl h : same_skel h h.
Proof. split; auto. Qed.
Lemma same_skel_trans h1 h2 h3 : same_skel h1 h2 -> same_skel h2 h3 -> same_skel h1 h3.
Proof.
  intros (A & B & C) (A' & B' & C'). split; [congruence|]. split; [congruence|].
  intros a. destruct (C a) as (C1 & C2 & C3 & C4). destruct (C' a) as (D1 & D2 & D3 & D4).
  split; [congruence|]. split; [congruence|]. split; congruence.
Qed.
Lemma shp_none h a : shp h a = None <-> h_mem h a = None.
Proof. unfold shp. destruct (h_mem h a); cbn; split; congruence. Qed.
Lemma links_ext h h' : (forall a, nxt h' a = nxt h a) -> (forall a, prv h' a = prv h a) ->
  forall l p, links h p l -> links h' p l.
Proof. intros N P. induction l as [|a l IH]; intros p; cbn [links]; auto. rewrite N, P. intuition. Qed.

Lemma same_skel_wf h h' st l : same_skel h h' -> wf_chain h st l -> wf_chain h' st l.
Proof.
  intros (A & B & C) W. assert (NN : forall a, h_mem h' a = None <-> h_mem h a = None).
  { intros a. rewrite <- !shp_none. destruct (C a) as (_ & _ & -> & _). tauto. }
  destruct W. constructor; auto.
  - destruct (C st) as (_ & _ & -> & _). auto.
  - eapply links_ext; [| |exact wc_links0]; intros a; apply C.
  - intros a I. destruct (C a) as (_ & _ & -> & ->). auto.
  - intros a. destruct (C a) as (_ & _ & -> & _). rewrite NN. auto.
  - intros a. rewrite NN, A. auto.
  - rewrite B. auto.
  - intros a. rewrite A, B, NN. auto.
  - intros X. destruct (C (last l st)) as (-> & _). auto.
Qed.

(** * Lookup in updated heaps *)
Lemma get_ok h a b : get h a = Ok b <-> h_mem h a = Some b.
Proof. unfold get. destruct (h_mem h a); split; congruence. Qed.
Lemma modify_inv h a f h' : modify h a f = Ok h' ->
  exists b, h_mem h a = Some b /\ h' = set_mem h a (Some (f b)).
Proof.
  unfold modify. intros H. apply bind_ok in H as (b & G & E). apply get_ok in G. injection E as <-. eauto.
Qed.
Lemma modify_ok h a f b : h_mem h a = Some b -> modify h a f = Ok (set_mem h a (Some (f b))).
Proof. intros H. unfold modify, get. rewrite H. auto. Qed.
Lemma mem_set_eq h a b : h_mem (set_mem h a b) a = b.
Proof. cbn. rewrite Nat.eqb_refl. auto. Qed.
Lemma mem_set_neq h a b x : x <> a -> h_mem (set_mem h a b) x = h_mem h x.
Proof. intros N. cbn. apply Nat.eqb_neq in N. rewrite N. auto. Qed.

(** A block changed without touching chain fields *)
Definition quiet (f : block -> block) : Prop :=
  forall b, b_next (f b) = b_next b /\ b_prev (f b) = b_prev b /\ b_state (f b) = b_state b /\ shape_of (f b) = shape_of b.
Lemma set_mem_skel h a b b' : h_mem h a = Some b -> b_next b' = b_next b -> b_prev b' = b_prev b ->
  b_state b' = b_state b -> shape_of b' = shape_of b -> same_skel h (set_mem h a (Some b')).
Proof.
  intros H N P S SH. split; auto. split; auto. intros x. unfold nxt, prv, shp, stt.
  destruct (Nat.eq_dec x a) as [->|NE]; [rewrite mem_set_eq, H|rewrite mem_set_neq by auto; auto].
  cbn. rewrite N, P, S, SH. auto.
Qed.
Lemma modify_skel h a f h' : quiet f -> modify h a f = Ok h' -> same_skel h h'.
Proof.
  intros Q H. apply modify_inv in H as (b & G & ->). destruct (Q b) as (N & P & S & SH). eapply set_mem_skel; eauto.
Qed.

(** * Chaining a new block *)
Lemma last_cons {A} (x : A) l p : last (x :: l) p = last l x.
Proof.
  revert x p. induction l as [|y l IH]; intros x p; [reflexivity|].
  change (last (y :: l) p = last (y :: l) x). rewrite (IH y p), (IH y x). reflexivity.
Qed.
Lemma last_in {A} (l : list A) p : In (last l p) (p :: l).
Proof.
  revert p. induction l as [|x l IH]; intros p; [left; auto|]. rewrite last_cons. right. apply IH.
Qed.
Lemma last_snoc {A} (l : list A) x p : last (l ++ [x]) p = x.
Proof. revert p. induction l as [|y l IH]; intros p; auto. rewrite <- app_comm_cons, last_cons. auto. Qed.

Lemma links_app h l1 : forall p a l2, links h p (l1 ++ a :: l2) <->
  links h p l1 /\ nxt h (last l1 p) = Some (Some a) /\ prv h a = Some (Some (last l1 p)) /\ links h a l2.
Proof.
  induction l1 as [|x l1 IH]; intros p a l2.
  - cbn. tauto.
  - rewrite <- app_comm_cons, last_cons. cbn [links]. rewrite IH. tauto.
Qed.

Lemma last_app_cons {A} (l1 l2 : list A) x p : last (l1 ++ x :: l2) p = last l2 x.
Proof. revert p. induction l1 as [|y l1 IH]; intros p; [apply last_cons|]. rewrite <- app_comm_cons, last_cons. auto. Qed.

(** [links] only looks at [next] of all but the last block and at [prev] of all
    but the first. *)
Lemma links_frame h h' : forall l p,
  (forall x, In x (p :: l) -> x <> last l p -> nxt h' x = nxt h x) -> (forall x, In x l -> prv h' x = prv h x) ->
  NoDup (p :: l) -> links h p l -> links h' p l.
Proof.
  induction l as [|a l IH]; intros p N P ND; cbn [links]; auto.
  rewrite last_cons in N. inversion ND as [|? ? NI ND']; subst.
  assert (p <> last l a). { intros ->. apply NI. apply last_in. }
  intros (A & B & C). rewrite N, P by (cbn; auto). split; auto. split; auto. apply IH; auto.
  - intros x I NE. apply N; auto. right. auto.
  - intros x I. apply P. right. auto.
Qed.

Lemma get_tail_ok h st t : shp h st = Some (SState t) -> get_tail h st = Ok t.
Proof.
  unfold shp, get_tail, get. destruct (h_mem h st) as [b|]; cbn; [|discriminate]. unfold shape_of.
  destruct (b_body b) as [? ? ? ? ?|[] ?]; intros [= ->]; auto.
Qed.
Lemma get_tail_inv h st t : get_tail h st = Ok t -> shp h st = Some (SState t).
Proof.
  unfold shp, get_tail, get. destruct (h_mem h st) as [b|]; cbn; [|discriminate]. unfold shape_of.
  destruct (b_body b); cbn; congruence.
Qed.
Lemma set_tail_ok h st t0 t : shp h st = Some (SState t0) ->
  exists h', set_tail h st t = Ok h' /\ h_next h' = h_next h /\ h_freed h' = h_freed h /\
    (forall x, nxt h' x = nxt h x) /\ (forall x, prv h' x = prv h x) /\ (forall x, stt h' x = stt h x) /\
    (forall x, shp h' x = if x =? st then Some (SState t) else shp h x) /\
    (forall x, x <> st -> h_mem h' x = h_mem h x) /\ (h_mem h' st <> None).
Proof.
  unfold set_tail, get. intros H. unfold shp in H. destruct (h_mem h st) as [b|] eqn:G; [|discriminate].
  cbn in H. unfold shape_of in H. destruct (b_body b) as [t1 r s c m|[] ?] eqn:B; try discriminate. cbn [bind].
  rewrite B. eexists. split; [reflexivity|]. split; [auto|]. split; [auto|].
  unfold nxt, prv, stt, shp.
  assert (X : forall x, h_mem (set_mem h st (Some (set_body (BState t r s c m) b))) x =
    if x =? st then Some (set_body (BState t r s c m) b) else h_mem h x) by reflexivity.
  split; [|split; [|split; [|split; [|split]]]]; intros x; rewrite ?X.
  - destruct (Nat.eqb_spec x st) as [->|]; auto. rewrite G. auto.
  - destruct (Nat.eqb_spec x st) as [->|]; auto. rewrite G. auto.
  - destruct (Nat.eqb_spec x st) as [->|]; auto. rewrite G. auto.
  - destruct (Nat.eqb_spec x st) as [->|]; auto.
  - intros NE. destruct (Nat.eqb_spec x st) as [->|]; auto. congruence.
  - rewrite mem_set_eq in x. discriminate.
Qed.

(** Pointwise effect of the primitive writes *)
Definition eff (h h' : heap) (a : addr) (f : block -> block) : Prop :=
  h_next h' = h_next h /\ h_freed h' = h_freed h /\
  forall x, h_mem h' x = if x =? a then option_map f (h_mem h x) else h_mem h x.
Lemma modify_eff h a f h' : modify h a f = Ok h' -> eff h h' a f /\ h_mem h a <> None.
Proof.
  intros H. apply modify_inv in H as (b & G & ->). split; [|congruence]. split; auto. split; auto. intros x. cbn.
  destruct (Nat.eqb_spec x a) as [->|]; auto. rewrite G. auto.
Qed.
Lemma eff_live h h' a f x : eff h h' a f -> (h_mem h' x = None <-> h_mem h x = None).
Proof.
  intros (_ & _ & E). rewrite E. destruct (x =? a); [|tauto]. destruct (h_mem h x); cbn; split; congruence.
Qed.
Section Eff.
Context {A : Type} (g : block -> A).
Lemma eff_other h h' a f x : eff h h' a f -> (forall b, g (f b) = g b) -> option_map g (h_mem h' x) = option_map g (h_mem h x).
Proof.
  intros (_ & _ & E) Q. rewrite E. destruct (x =? a); auto. destruct (h_mem h x); cbn; auto. rewrite Q. auto.
Qed.
Lemma eff_neq h h' a f x : eff h h' a f -> x <> a -> option_map g (h_mem h' x) = option_map g (h_mem h x).
Proof. intros (_ & _ & E) N. rewrite E. apply Nat.eqb_neq in N. rewrite N. auto. Qed.
Lemma eff_eq h h' a f v : eff h h' a f -> h_mem h a <> None -> (forall b, g (f b) = v) -> option_map g (h_mem h' a) = Some v.
Proof. intros (_ & _ & E) N Q. rewrite E, Nat.eqb_refl. destruct (h_mem h a); [|congruence]. cbn. rewrite Q. auto. Qed.
End Eff.

Lemma modify_live h a f : h_mem h a <> None -> exists h', modify h a f = Ok h' /\ eff h h' a f.
Proof.
  intros N. destruct (h_mem h a) as [b|] eqn:G; [|congruence]. exists (set_mem h a (Some (f b))).
  rewrite (modify_ok _ _ _ _ G). split; auto. apply (modify_eff h a f). apply modify_ok; auto.
Qed.

Lemma shp_live h a s : shp h a = Some s -> h_mem h a <> None.
Proof. unfold shp. destruct (h_mem h a); [congruence|discriminate]. Qed.
Lemma wf_live h st l a : wf_chain h st l -> In a (st :: l) -> h_mem h a <> None.
Proof.
  intros W [<-|I]; [apply (shp_live _ _ _ (wc_state _ _ _ W))|]. destruct (wc_obj _ _ _ W a I) as (S & _). eapply shp_live; eauto.
Qed.

(** The state of affairs with a block [a] that is live but not chained. *)
Record wf_chain_but (h : heap) (st : addr) (l : list addr) (a : addr) : Prop := WFB {
  wb_state : shp h st = Some (SState (last l st));
  wb_links : links h st l;
  wb_nodup : NoDup (a :: st :: l);
  wb_obj : forall x, In x l -> shp h x = Some SObj /\ stt h x = Some st;
  wb_a : shp h a = Some SObj;
  wb_all : forall x, h_mem h x <> None -> x = a \/ x = st \/ In x l \/ shp h x = Some SStatic;
  wb_fresh : forall x, h_mem h x <> None -> x < h_next h;
  wb_log : NoDup (h_freed h);
  wb_freed : forall x, In x (h_freed h) <-> x < h_next h /\ h_mem h x = None;
  wb_end : strict = true -> nxt h (last l st) = Some None
}.

(** Blocks differ at most in their chain fields. *)
Definition same_but_chain (b b' : block) : Prop :=
  b_rc b' = b_rc b /\ b_ret b' = b_ret b /\ b_mark b' = b_mark b /\ b_meth b' = b_meth b /\
  match b_body b, b_body b' with
  | BState _ r s c m, BState _ r' s' c' m' => r = r' /\ s = s' /\ c = c' /\ m = m'
  | v, v' => v = v'
  end.
Definition heap_but_chain (h h' : heap) : Prop :=
  forall x, match h_mem h x, h_mem h' x with
            | Some b, Some b' => same_but_chain b b'
            | None, None => True
            | _, _ => False
            end.
Lemma same_but_chain_refl b : same_but_chain b b.
Proof. unfold same_but_chain. destruct (b_body b); intuition. Qed.
Lemma same_but_chain_trans a b c : same_but_chain a b -> same_but_chain b c -> same_but_chain a c.
Proof.
  unfold same_but_chain. intros (A1 & A2 & A3 & A4 & A5) (B1 & B2 & B3 & B4 & B5).
  split; [congruence|]. split; [congruence|]. split; [congruence|]. split; [congruence|].
  destruct (b_body a), (b_body b), (b_body c); try congruence; intuition congruence.
Qed.
Lemma heap_but_chain_refl h : heap_but_chain h h.
Proof. intros x. destruct (h_mem h x); auto. apply same_but_chain_refl. Qed.
Lemma heap_but_chain_trans h1 h2 h3 : heap_but_chain h1 h2 -> heap_but_chain h2 h3 -> heap_but_chain h1 h3.
Proof.
  intros A B x. specialize (A x). specialize (B x).
  destruct (h_mem h1 x), (h_mem h2 x), (h_mem h3 x); try tauto. eapply same_but_chain_trans; eauto.
Qed.
Lemma eff_but_chain h h' a f : eff h h' a f -> (forall b, same_but_chain b (f b)) -> heap_but_chain h h'.
Proof.
  intros (_ & _ & E) Q x. rewrite E. destruct (x =? a); destruct (h_mem h x); cbn; auto. apply same_but_chain_refl.
Qed.
Lemma set_tail_but_chain h st t h' : set_tail h st t = Ok h' -> heap_but_chain h h'.
Proof.
  unfold set_tail, get. destruct (h_mem h st) as [b|] eqn:G; cbn [bind]; [|discriminate].
  destruct (b_body b) as [t1 r s c m|? ?] eqn:B; [|discriminate]. intros [= <-] x. cbn.
  destruct (Nat.eqb_spec x st) as [->|]; [rewrite G|destruct (h_mem h x); auto; apply same_but_chain_refl].
  unfold same_but_chain. cbn. rewrite B. intuition.
Qed.
Lemma quiet_prev v b : same_but_chain b (set_prev v b).
Proof. unfold same_but_chain. cbn. destruct (b_body b); intuition. Qed.
Lemma quiet_next v b : same_but_chain b (set_next v b).
Proof. unfold same_but_chain. cbn. destruct (b_body b); intuition. Qed.
Lemma quiet_state v b : same_but_chain b (set_state v b).
Proof. unfold same_but_chain. cbn. destruct (b_body b); intuition. Qed.

Lemma chain_wf h st l a : wf_chain_but h st l a -> (strict = true -> nxt h a = Some None) ->
  exists h', chain h a st = Ok h' /\ wf_chain h' st (l ++ [a]) /\ heap_but_chain h h' /\
    h_next h' = h_next h /\ h_freed h' = h_freed h /\ nxt h' a = nxt h a.
Proof.
  intros W EN. destruct W. unfold chain.
  assert (La : h_mem h a <> None) by (eapply shp_live; eauto).
  inversion wb_nodup0 as [|? ? NIa NDl]; subst.
  assert (Nast : a <> st) by (intros ->; apply NIa; left; auto).
  destruct (modify_live h a (set_state st) La) as (h1 & -> & E1). cbn [bind].
  assert (S1 : forall x, shp h1 x = shp h x) by (intros x; apply (eff_other shape_of _ _ _ _ _ E1); reflexivity).
  assert (N1 : forall x, nxt h1 x = nxt h x) by (intros x; apply (eff_other b_next _ _ _ _ _ E1); reflexivity).
  assert (P1 : forall x, prv h1 x = prv h x) by (intros x; apply (eff_other b_prev _ _ _ _ _ E1); reflexivity).
  assert (T1 : stt h1 a = Some st) by (apply (eff_eq b_state _ _ _ _ _ E1 La); reflexivity).
  assert (T1' : forall x, x <> a -> stt h1 x = stt h x) by (intros x; apply (eff_neq b_state _ _ _ _ _ E1)).
  rewrite (get_tail_ok h1 st (last l st)) by (rewrite S1; auto). cbn [bind].
  set (t := last l st) in *.
  assert (It : In t (st :: l)) by apply last_in.
  assert (Nat : t <> a) by (intros ->; auto).
  assert (Lt : h_mem h t <> None).
  { destruct It as [<-|It]; [eapply shp_live; eauto|]. destruct (wb_obj0 t It) as (X & _). eapply shp_live; eauto. }
  assert (La1 : h_mem h1 a <> None) by (rewrite (eff_live _ _ _ _ _ E1); auto).
  destruct (modify_live h1 a (set_prev (Some t)) La1) as (h2 & -> & E2). cbn [bind].
  assert (Lt2 : h_mem h2 t <> None) by (rewrite (eff_live _ _ _ _ _ E2), (eff_live _ _ _ _ _ E1); auto).
  destruct (modify_live h2 t (set_next (Some a)) Lt2) as (h3 & -> & E3). cbn [bind].
  assert (S3 : forall x, shp h3 x = shp h x).
  { intros x. rewrite <- S1. etransitivity; [apply (eff_other shape_of _ _ _ _ _ E3); reflexivity|apply (eff_other shape_of _ _ _ _ _ E2); reflexivity]. }
  assert (T3 : forall x, stt h3 x = stt h1 x).
  { intros x. etransitivity; [apply (eff_other b_state _ _ _ _ _ E3); reflexivity|apply (eff_other b_state _ _ _ _ _ E2); reflexivity]. }
  assert (P3a : prv h3 a = Some (Some t)).
  { etransitivity; [apply (eff_other b_prev _ _ _ _ _ E3); reflexivity|apply (eff_eq b_prev _ _ _ _ _ E2 La1); reflexivity]. }
  assert (P3 : forall x, x <> a -> prv h3 x = prv h x).
  { intros x NE. rewrite <- P1. etransitivity; [apply (eff_other b_prev _ _ _ _ _ E3); reflexivity|apply (eff_neq b_prev _ _ _ _ _ E2 NE)]. }
  assert (N3t : nxt h3 t = Some (Some a)) by (apply (eff_eq b_next _ _ _ _ _ E3 Lt2); reflexivity).
  assert (N3 : forall x, x <> t -> nxt h3 x = nxt h x).
  { intros x NE. rewrite <- N1. etransitivity; [apply (eff_neq b_next _ _ _ _ _ E3 NE)|apply (eff_other b_next _ _ _ _ _ E2); reflexivity]. }
  assert (L3 : forall x, h_mem h3 x = None <-> h_mem h x = None).
  { intros x. rewrite (eff_live _ _ _ _ _ E3), (eff_live _ _ _ _ _ E2), (eff_live _ _ _ _ _ E1). tauto. }
  destruct (set_tail_ok h3 st t a) as (h4 & E4 & NX & FR & N4 & P4 & T4 & S4 & M4 & L4); [rewrite S3; auto|].
  assert (LL : forall x, h_mem h4 x = None <-> h_mem h x = None).
  { intros x. rewrite <- L3. destruct (Nat.eq_dec x st) as [->|NE]; [|rewrite M4 by auto; tauto].
    split; [congruence|]. intros X. apply L3 in X. exfalso. apply (shp_live h st (SState t)); auto. }
  assert (HN : h_next h4 = h_next h) by (destruct E1 as (? & _), E2 as (? & _), E3 as (? & _); congruence).
  assert (HF : h_freed h4 = h_freed h) by (destruct E1 as (_ & ? & _), E2 as (_ & ? & _), E3 as (_ & ? & _); congruence).
  exists h4. split; [exact E4|]. split; [|split; [|split; [auto|split; [auto|]]]].
  - constructor.
    + rewrite S4, Nat.eqb_refl, last_snoc. auto.
    + rewrite links_app. cbn [links]. fold t. rewrite N4, P4, N3t, P3a. split; [|auto].
      apply (links_frame h); auto.
      * intros x I NE. rewrite N4. apply N3. auto.
      * intros x I. rewrite P4. apply P3. intros ->. apply NIa. right. auto.
    + constructor.
      * intros I. apply in_app_or in I as [I|[->|[]]]; [|congruence]. inversion NDl; auto.
      * inversion NDl; subst. apply NoDup_rev in H2. rewrite <- (rev_involutive (l ++ [a])). apply NoDup_rev.
        rewrite rev_app_distr. cbn [rev app]. constructor; auto. rewrite <- in_rev. intros I. apply NIa. right. auto.
    + intros x I. rewrite S4, T4, T3. destruct (Nat.eqb_spec x st) as [->|NE].
      * apply in_app_or in I as [I|[<-|[]]]; [inversion NDl; contradiction|congruence].
      * rewrite S3. apply in_app_or in I as [I|[<-|[]]].
        -- destruct (Nat.eq_dec x a) as [->|]; auto. rewrite T1' by auto. apply wb_obj0. auto.
        -- auto.
    + intros x. rewrite LL. intros X. destruct (wb_all0 x X) as [->|[->|[I|I]]]; auto.
      * right. left. apply in_or_app. right. left. auto.
      * right. left. apply in_or_app. auto.
      * destruct (Nat.eq_dec x st) as [->|NE]; auto. right. right. rewrite S4. apply Nat.eqb_neq in NE. rewrite NE, S3. auto.
    + intros x. rewrite LL, HN. auto.
    + rewrite HF. auto.
    + intros x. rewrite HF, HN, LL. auto.
    + intros X. rewrite last_snoc, N4, N3 by auto. auto.
  - eapply heap_but_chain_trans; [|eapply set_tail_but_chain; eauto].
    eapply heap_but_chain_trans; [|eapply eff_but_chain; [exact E3|apply quiet_next]].
    eapply heap_but_chain_trans; [|eapply eff_but_chain; [exact E2|apply quiet_prev]].
    eapply eff_but_chain; [exact E1|apply quiet_state].
  - rewrite N4, N3 by auto. auto.
Qed.

(** * Unchaining, freeing, allocating *)
Lemma NoDup_mid {A} (l1 l2 : list A) a : NoDup (l1 ++ a :: l2) -> NoDup (l1 ++ l2) /\ ~ In a (l1 ++ l2).
Proof. intros H. split; [eapply NoDup_remove_1; eauto|eapply NoDup_remove_2; eauto]. Qed.

Lemma in_app_nodup {A} (l1 l2 : list A) x : NoDup (l1 ++ l2) -> In x l1 -> In x l2 -> False.
Proof.
  induction l1 as [|y l1 IH]; cbn; [tauto|]. intros ND. inversion ND; subst. intros [->|I] I2; auto.
  apply H1, in_or_app. auto.
Qed.

Lemma de_chain_wf h st l1 a l2 : wf_chain h st (l1 ++ a :: l2) ->
  exists h', de_chain h a = Ok h' /\ wf_chain_but h' st (l1 ++ l2) a /\ heap_but_chain h h' /\
    h_next h' = h_next h /\ h_freed h' = h_freed h /\ nxt h' a = nxt h a.
Proof.
  intros W. pose proof (wf_live _ _ _ a W) as La. destruct W.
  assert (Ia : In a (l1 ++ a :: l2)) by (apply in_or_app; right; left; auto).
  specialize (La (or_intror Ia)).
  inversion wc_nodup0 as [|? ? NIst NDl]; subst.
  destruct (NoDup_mid _ _ _ NDl) as (ND' & NIa).
  assert (Nast : a <> st) by (intros ->; contradiction).
  destruct (wc_obj0 a Ia) as (Sa & Ta).
  rewrite links_app in wc_links0. destruct wc_links0 as (K1 & Kn & Kp & K2).
  set (p := last l1 st) in *.
  assert (Ip : In p (st :: l1)) by apply last_in.
  assert (Npa : p <> a). { intros E. rewrite E in Ip. destruct Ip as [Ip|Ip]; [congruence|]. apply NIa, in_or_app. auto. }
  assert (Lp : h_mem h p <> None) by (unfold nxt in Kn; destruct (h_mem h p); [congruence|discriminate]).
  assert (NIst' : ~ In st (l1 ++ l2)). { intros I. apply NIst. apply in_app_or in I. apply in_or_app. cbn. tauto. }
  assert (PN2 : ~ In p l2).
  { intros I. destruct Ip as [<-|Ip]; [apply NIst', in_or_app; auto|]. eapply in_app_nodup; eauto. }
  assert (NDst1 : NoDup (st :: l1)).
  { constructor; [intros I; apply NIst', in_or_app; auto|]. clear - ND'. induction l1; [constructor|].
    inversion ND'; subst. constructor; auto. intros I; apply H1, in_or_app; auto. }
  assert (NDal2 : NoDup (a :: l2)).
  { clear - NDl. induction l1; auto. inversion NDl; auto. }
  unfold de_chain, get. destruct (h_mem h a) as [b|] eqn:Ga; [|congruence]. cbn [bind].
  assert (Eb : b_state b = st) by (unfold stt in Ta; rewrite Ga in Ta; cbn in Ta; congruence).
  assert (Ep : b_prev b = Some p) by (unfold prv in Kp; rewrite Ga in Kp; cbn in Kp; congruence).
  rewrite Eb, (get_tail_ok _ _ _ wc_state0), Ep. cbn [bind of_option].
  destruct l2 as [|n l3].
  - (* the tail *)
    rewrite last_snoc, Nat.eqb_refl. rewrite app_nil_r in *.
    destruct (modify_live h p (set_next None) Lp) as (h1 & -> & E1). cbn [bind].
    assert (S1 : forall x, shp h1 x = shp h x) by (intros x; apply (eff_other shape_of _ _ _ _ _ E1); reflexivity).
    assert (P1 : forall x, prv h1 x = prv h x) by (intros x; apply (eff_other b_prev _ _ _ _ _ E1); reflexivity).
    assert (T1 : forall x, stt h1 x = stt h x) by (intros x; apply (eff_other b_state _ _ _ _ _ E1); reflexivity).
    assert (N1 : forall x, x <> p -> nxt h1 x = nxt h x) by (intros x; apply (eff_neq b_next _ _ _ _ _ E1)).
    assert (N1p : nxt h1 p = Some None) by (apply (eff_eq b_next _ _ _ _ _ E1 Lp); reflexivity).
    destruct (set_tail_ok h1 st (last (l1 ++ [a]) st) p) as (h2 & E2 & NX & FR & N2 & P2 & T2 & S2 & M2 & L2);
      [rewrite S1; auto|].
    assert (LL : forall x, h_mem h2 x = None <-> h_mem h x = None).
    { intros x. rewrite <- (eff_live _ _ _ _ x E1). destruct (Nat.eq_dec x st) as [->|NE]; [|rewrite M2 by auto; tauto].
      split; [congruence|]. intros X. rewrite <- shp_none, S1 in X. congruence. }
    destruct E1 as (E1a & E1b & E1c).
    exists h2. split; [exact E2|]. split; [|split; [|split; [congruence|split; [congruence|]]]].
    + constructor.
      * rewrite S2, Nat.eqb_refl. auto.
      * apply (links_frame h); auto.
        -- intros x _ NE. rewrite N2. apply N1. auto.
        -- intros x _. rewrite P2. auto.
      * constructor; auto. intros [|]; auto.
      * intros x I. rewrite S2, T2, S1, T1. destruct (Nat.eqb_spec x st) as [->|]; [contradiction|].
        apply wc_obj0, in_or_app; auto.
      * rewrite S2, S1. apply Nat.eqb_neq in Nast. rewrite Nast. auto.
      * intros x. rewrite LL. intros X. destruct (wc_all0 x X) as [|[I|I]]; auto.
        -- apply in_app_or in I as [I|[I|[]]]; auto.
        -- rewrite S2, S1. destruct (Nat.eqb_spec x st); auto.
      * intros x. rewrite LL, NX, E1a. auto.
      * rewrite FR, E1b. auto.
      * intros x. rewrite LL, FR, NX, E1a, E1b. auto.
      * intros _. rewrite N2. auto.
    + eapply heap_but_chain_trans; [|eapply set_tail_but_chain; eauto].
      eapply (eff_but_chain _ _ p (set_next None)); [split; eauto|apply quiet_next].
    + rewrite N2. apply N1. auto.
  - (* in the middle *)
    cbn [links] in K2. destruct K2 as (Kn2 & Kp2 & K3).
    assert (Nna : n <> a) by (intros ->; inversion NDal2; apply H1; left; auto).
    assert (Ln : h_mem h n <> None) by (unfold prv in Kp2; destruct (h_mem h n); [congruence|discriminate]).
    assert (Npn : p <> n) by (intros E; apply PN2; rewrite E; left; auto).
    assert (NT : (last (l1 ++ a :: n :: l3) st =? a) = false).
    { apply Nat.eqb_neq. rewrite last_app_cons, last_cons. intros E. pose proof (last_in l3 n) as I. rewrite E in I.
      inversion NDal2; auto. }
    rewrite NT. destruct (modify_live h p (set_next (b_next b)) Lp) as (h1 & -> & E1). cbn [bind].
    assert (Enb : b_next b = Some n) by (unfold nxt in Kn2; rewrite Ga in Kn2; cbn in Kn2; congruence).
    rewrite Enb in *.
    assert (Ln1 : h_mem h1 n <> None) by (rewrite (eff_live _ _ _ _ _ E1); auto).
    destruct (modify_live h1 n (set_prev (Some p)) Ln1) as (h2 & -> & E2).
    assert (S2 : forall x, shp h2 x = shp h x).
    { intros x. etransitivity; [apply (eff_other shape_of _ _ _ _ _ E2)|apply (eff_other shape_of _ _ _ _ _ E1)]; reflexivity. }
    assert (T2 : forall x, stt h2 x = stt h x).
    { intros x. etransitivity; [apply (eff_other b_state _ _ _ _ _ E2)|apply (eff_other b_state _ _ _ _ _ E1)]; reflexivity. }
    assert (N2 : forall x, x <> p -> nxt h2 x = nxt h x).
    { intros x NE. etransitivity; [apply (eff_other b_next _ _ _ _ _ E2); reflexivity|apply (eff_neq b_next _ _ _ _ _ E1 NE)]. }
    assert (N2p : nxt h2 p = Some (Some n)).
    { etransitivity; [apply (eff_other b_next _ _ _ _ _ E2); reflexivity|apply (eff_eq b_next _ _ _ _ _ E1 Lp); reflexivity]. }
    assert (P2 : forall x, x <> n -> prv h2 x = prv h x).
    { intros x NE. etransitivity; [apply (eff_neq b_prev _ _ _ _ _ E2 NE)|apply (eff_other b_prev _ _ _ _ _ E1); reflexivity]. }
    assert (P2n : prv h2 n = Some (Some p)) by (apply (eff_eq b_prev _ _ _ _ _ E2 Ln1); reflexivity).
    assert (LL : forall x, h_mem h2 x = None <-> h_mem h x = None).
    { intros x. rewrite (eff_live _ _ _ _ _ E2), (eff_live _ _ _ _ _ E1). tauto. }
    assert (NIn : ~ In n (st :: l1)).
    { intros [E|I]; [subst n; apply NIst', in_or_app; right; left; auto|]. eapply in_app_nodup; [exact ND'|eauto|left; auto]. }
    assert (HB : heap_but_chain h h2).
    { eapply heap_but_chain_trans; [|eapply eff_but_chain; [exact E2|apply quiet_prev]].
      eapply eff_but_chain; [exact E1|apply quiet_next]. }
    destruct E1 as (E1a & E1b & _), E2 as (E2a & E2b & _).
    exists h2. split; [auto|]. split; [|split; [auto|split; [congruence|split; [congruence|]]]].
    + constructor.
      * rewrite S2, wc_state0, !last_app_cons, last_cons. auto.
      * rewrite links_app. split; [|split; [auto|split; [auto|]]].
        -- apply (links_frame h); auto. intros x I. apply P2. intros ->. apply NIn. right. auto.
        -- apply (links_frame h); [| |inversion NDal2; auto|auto].
           ++ intros x I _. apply N2. intros ->. apply PN2. auto.
           ++ intros x I. apply P2. intros ->. inversion NDal2; subst. inversion H2; auto.
      * constructor; [|constructor; auto]. intros [|]; auto.
      * intros x I. rewrite S2, T2. apply wc_obj0. apply in_app_or in I. apply in_or_app. cbn in *. tauto.
      * rewrite S2. auto.
      * intros x. rewrite LL. intros X. rewrite S2. destruct (wc_all0 x X) as [|[I|I]]; auto.
        apply in_app_or in I as [I|[I|I]]; auto; right; right; left; apply in_or_app; auto.
      * intros x. rewrite LL, E2a, E1a. auto.
      * rewrite E2b, E1b. auto.
      * intros x. rewrite LL, E2a, E1a, E2b, E1b. auto.
      * intros X. specialize (wc_end0 X). rewrite last_app_cons, last_cons in wc_end0. rewrite last_app_cons, N2; auto.
        intros E'. apply PN2. rewrite <- E'. apply last_in.
    + apply N2. auto.
Qed.

Lemma free_wf h st l a : wf_chain_but h st l a ->
  exists h', free h a = Ok h' /\ wf_chain h' st l /\ h_next h' = h_next h /\ h_freed h' = h_freed h ++ [a] /\
    h_mem h' a = None /\ (forall x, x <> a -> h_mem h' x = h_mem h x).
Proof.
  intros W. destruct W. pose proof (shp_live _ _ _ wb_a0) as La. unfold free.
  destruct (h_mem h a) as [b|] eqn:Ga; [|congruence]. clear La.
  set (h' := Heap _ _ _). assert (M : forall x, x <> a -> h_mem h' x = h_mem h x).
  { intros x NE. cbn. apply Nat.eqb_neq in NE. rewrite NE. auto. }
  assert (Ma : h_mem h' a = None) by (cbn; rewrite Nat.eqb_refl; auto).
  inversion wb_nodup0 as [|? ? NI ND]; subst.
  exists h'. split; [auto|]. split; [|split; [auto|split; auto]]. constructor.
  - unfold shp. rewrite M; auto. intros ->. apply NI. left. auto.
  - apply (links_frame h); auto.
    + intros x I _. unfold nxt. rewrite M; auto. congruence.
    + intros x I. unfold prv. rewrite M; auto. intros ->. apply NI. right. auto.
  - auto.
  - intros x I. unfold shp, stt. rewrite M; [apply wb_obj0; auto|]. intros ->. apply NI. right. auto.
  - intros x X. destruct (Nat.eq_dec x a) as [->|NE]; [congruence|]. rewrite M in X by auto.
    unfold shp. rewrite M by auto. destruct (wb_all0 x X) as [|]; [congruence|auto].
  - intros x X. destruct (Nat.eq_dec x a) as [->|NE]; [congruence|]. rewrite M in X by auto. apply wb_fresh0 in X. auto.
  - cbn. rewrite <- (rev_involutive (_ ++ _)). apply NoDup_rev. rewrite rev_app_distr. cbn. constructor; [|apply NoDup_rev; auto].
    rewrite <- in_rev. intros I. apply wb_freed0 in I as (_ & I). congruence.
  - intros x. cbn. rewrite in_app_iff, wb_freed0. destruct (Nat.eqb_spec x a) as [->|NE].
    + split; [|cbn; auto]. intros _. split; auto. apply wb_fresh0. congruence.
    + split; [intros [X|[X|[]]]; [auto|congruence]|auto].
  - intros X. unfold nxt. rewrite M; [apply wb_end0; auto|]. intros E. apply NI. rewrite <- E. apply last_in.
Qed.

Lemma malloc_wf h st l b h' a : wf_chain h st l -> malloc h b = (h', a) -> shape_of b = SObj ->
  wf_chain_but h' st l a /\ a = h_next h /\ h_mem h a = None /\ h_mem h' a = Some b /\
  (forall x, x <> a -> h_mem h' x = h_mem h x) /\ h_next h' = S (h_next h) /\ h_freed h' = h_freed h.
Proof.
  intros W H SB. unfold malloc in H. injection H as H Ea. subst a.
  assert (Ga : h_mem h (h_next h) = None).
  { destruct (h_mem h (h_next h)) eqn:E; auto. exfalso.
    apply (Nat.lt_irrefl (h_next h)). apply (wc_fresh _ _ _ W). congruence. }
  assert (M : forall x, x <> h_next h -> h_mem h' x = h_mem h x).
  { intros x NE. rewrite <- H. cbn. apply Nat.eqb_neq in NE. rewrite NE. auto. }
  assert (Ma : h_mem h' (h_next h) = Some b) by (rewrite <- H; cbn; rewrite Nat.eqb_refl; auto).
  assert (HN : h_next h' = S (h_next h)) by (rewrite <- H; auto).
  assert (HF : h_freed h' = h_freed h) by (rewrite <- H; auto).
  split; [|auto 10]. pose proof (wf_live _ _ _ (h_next h) W) as NI. destruct W.
  assert (NI' : ~ In (h_next h) (st :: l)) by (intros I; apply NI in I; auto). constructor.
  - unfold shp. rewrite M; [exact wc_state0|]. intros E. apply NI'. left. auto.
  - apply (links_frame h); auto.
    + intros x I _. unfold nxt. rewrite M; auto. congruence.
    + intros x I. unfold prv. rewrite M; auto. intros ->. apply NI'. right. auto.
  - constructor; auto.
  - intros x I. unfold shp, stt. rewrite M; [exact (wc_obj0 x I)|]. intros ->. apply NI'. right. auto.
  - unfold shp. rewrite Ma. cbn. rewrite SB. auto.
  - intros x X. destruct (Nat.eq_dec x (h_next h)) as [->|NE]; auto. right. rewrite M in X by auto.
    unfold shp. rewrite M by auto. exact (wc_all0 x X).
  - intros x X. rewrite HN. destruct (Nat.eq_dec x (h_next h)) as [->|NE]; [lia|]. rewrite M in X by auto.
    apply wc_fresh0 in X. lia.
  - rewrite HF. auto.
  - intros x. rewrite HF, HN, wc_freed0. destruct (Nat.eq_dec x (h_next h)) as [->|NE].
    + rewrite Ma. split; [lia|]. intros (_ & X). discriminate.
    + rewrite M by auto. split; intros (X & Y); split; auto; lia.
  - intros X. unfold nxt. rewrite M; [apply wc_end0; auto|]. intros E. apply NI'. rewrite <- E. apply last_in.
Qed.

(** * Deleting the state *)
Lemma last_split {A} (l : list A) p : l = [] \/ exists l1, l = l1 ++ [last l p].
Proof.
  revert p. induction l as [|x l IH]; intros p; auto. right. rewrite last_cons. destruct (IH x) as [->|(l1 & E)].
  - exists []. auto.
  - exists (x :: l1). cbn. f_equal. auto.
Qed.

Lemma heap_but_chain_live h h' x : heap_but_chain h h' -> (h_mem h' x = None <-> h_mem h x = None).
Proof. intros H. specialize (H x). destruct (h_mem h x), (h_mem h' x); try tauto; split; congruence. Qed.

(** what deleting one chained block does *)
Lemma unlink_wf h st l1 a l2 : wf_chain h st (l1 ++ a :: l2) ->
  exists h1 h', de_chain h a = Ok h1 /\ free h1 a = Ok h' /\ wf_chain h' st (l1 ++ l2) /\
    heap_but_chain h h1 /\ h_mem h' a = None /\ (forall x, x <> a -> h_mem h' x = h_mem h1 x) /\
    h_next h' = h_next h /\ h_freed h' = h_freed h ++ [a].
Proof.
  intros W. destruct (de_chain_wf _ _ _ _ _ W) as (h1 & E1 & W1 & B & N1 & F1 & _).
  destruct (free_wf _ _ _ _ W1) as (h' & E2 & W2 & N2 & F2 & D & M).
  exists h1, h'. split; [auto|]. split; [auto|]. split; [auto|]. split; [auto|]. split; [auto|]. split; [auto|].
  split; congruence.
Qed.

Lemma shape_obj_nofollow h a : shp h a = Some SObj -> del_nofollow h a = (let* h := de_chain h a in free h a).
Proof.
  unfold shp, del_nofollow, get. destruct (h_mem h a) as [b|]; [|discriminate]. cbn. unfold shape_of.
  destruct (b_body b) as [? ? ? ? ?|[] ?]; cbn; congruence.
Qed.

Lemma del_state_ok st : forall l h fuel, wf_chain h st l -> length l < fuel ->
  exists h', del_state fuel h st = Ok h' /\ h_freed h' = h_freed h ++ rev l ++ [st] /\
    h_next h' = h_next h /\ (forall x, h_mem h' x = None <-> h_mem h x = None \/ In x (st :: l)).
Proof.
  induction l as [|a l IH] using rev_ind; intros h fuel W L.
  - destruct fuel as [|f]; [cbn in L; lia|]. cbn [del_state]. rewrite (get_tail_ok _ _ _ (wc_state _ _ _ W)). cbn [last bind].
    rewrite Nat.eqb_refl. pose proof (wf_live _ _ _ st W (or_introl eq_refl)) as La. unfold free.
    destruct (h_mem h st) eqn:G; [|congruence]. eexists. split; [reflexivity|]. cbn. split; [auto|]. split; [auto|].
    intros x. destruct (Nat.eqb_spec x st) as [->|]; intuition congruence.
  - rewrite app_length in L. cbn in L. destruct fuel as [|f]; [lia|]. cbn [del_state].
    rewrite (get_tail_ok _ _ _ (wc_state _ _ _ W)), last_snoc. cbn [bind].
    assert (Ia : In a (l ++ [a])) by (apply in_or_app; right; left; auto).
    destruct (Nat.eqb_spec a st) as [->|NE].
    { pose proof (wc_nodup _ _ _ W) as ND. inversion ND; contradiction. }
    destruct (wc_obj _ _ _ W a Ia) as (Sa & _). rewrite (shape_obj_nofollow _ _ Sa).
    destruct (unlink_wf _ _ _ _ _ W) as (h1 & h2 & E1 & E2 & W2 & B & D & M & N & F).
    rewrite E1. cbn [bind]. rewrite E2. cbn [bind]. rewrite app_nil_r in W2.
    destruct (IH h2 f W2) as (h' & E & F' & N' & LV); [lia|].
    exists h'. split; auto. split; [|split; [congruence|]].
    + rewrite F', F, rev_app_distr. cbn. rewrite <- app_assoc. auto.
    + intros x. rewrite LV. destruct (Nat.eq_dec x a) as [->|NA].
      * rewrite D. cbn. rewrite in_app_iff. cbn. tauto.
      * rewrite M by auto. rewrite (heap_but_chain_live _ _ _ B). cbn. rewrite in_app_iff. cbn. intuition congruence.
Qed.

Lemma del_state_inv st : forall fuel l h h', wf_chain h st l -> del_state fuel h st = Ok h' -> length l < fuel.
Proof.
  induction fuel as [|f IH]; intros l h h' W; [discriminate|]. cbn [del_state].
  rewrite (get_tail_ok _ _ _ (wc_state _ _ _ W)). cbn [bind].
  destruct l as [|x l _] using rev_ind; [cbn; lia|]. rewrite last_snoc.
  assert (Ia : In x (l ++ [x])) by (apply in_or_app; right; left; auto).
  destruct (Nat.eqb_spec x st) as [->|NE].
  { pose proof (wc_nodup _ _ _ W) as ND. inversion ND; contradiction. }
  destruct (wc_obj _ _ _ W x Ia) as (Sa & _). rewrite (shape_obj_nofollow _ _ Sa).
  destruct (unlink_wf _ _ _ _ _ W) as (h1 & h2 & E1 & E2 & W2 & _).
  rewrite E1. cbn [bind]. rewrite E2. cbn [bind]. rewrite app_nil_r in W2. intros H. specialize (IH _ _ _ W2 H).
  rewrite app_length. cbn. lia.
Qed.

(** * Deletion never revives a block *)
Definition mono (h h' : heap) : Prop := forall x, h_mem h x = None -> h_mem h' x = None.
Lemma mono_refl h : mono h h. Proof. red; auto. Qed.
Lemma mono_trans h1 h2 h3 : mono h1 h2 -> mono h2 h3 -> mono h1 h3. Proof. unfold mono; auto. Qed.
Lemma modify_mono h a f h' : modify h a f = Ok h' -> mono h h'.
Proof. intros H. apply modify_eff in H as (E & _). intros x X. rewrite (eff_live _ _ _ _ _ E). auto. Qed.
Lemma set_tail_mono h st t h' : set_tail h st t = Ok h' -> mono h h'.
Proof. intros H x X. apply set_tail_but_chain in H. rewrite (heap_but_chain_live _ _ _ H). auto. Qed.
Lemma free_mono h a h' : free h a = Ok h' -> mono h h'.
Proof.
  unfold free. destruct (h_mem h a) eqn:G; [|discriminate]. intros [= <-] x X. cbn. destruct (x =? a); auto.
Qed.
Lemma de_chain_mono h a h' : de_chain h a = Ok h' -> mono h h'.
Proof.
  unfold de_chain. intros H. apply bind_ok in H as (b & _ & H). apply bind_ok in H as (t & _ & H).
  destruct (t =? a).
  - apply bind_ok in H as (p & _ & H). apply bind_ok in H as (h1 & H1 & H).
    eapply mono_trans; [eapply modify_mono|eapply set_tail_mono]; eauto.
  - apply bind_ok in H as (p & _ & H). apply bind_ok in H as (h1 & H1 & H). apply modify_mono in H1.
    destruct (b_next b).
    + eapply mono_trans; [|eapply modify_mono]; eauto.
    + injection H as <-. auto.
Qed.
Lemma del_nofollow_mono h a h' : del_nofollow h a = Ok h' -> mono h h'.
Proof.
  unfold del_nofollow. intros H. apply bind_ok in H as (b & _ & H).
  assert (X : (let* h1 := de_chain h a in free h1 a) = Ok h' -> mono h h').
  { intros X. apply bind_ok in X as (h1 & X1 & X2). eapply mono_trans; [eapply de_chain_mono|eapply free_mono]; eauto. }
  destruct (b_body b) as [? ? ? ? ?|[] ?]; auto; [eapply free_mono; eauto|injection H as <-; apply mono_refl].
Qed.
Lemma del_state_mono : forall fuel h st h', del_state fuel h st = Ok h' -> mono h h'.
Proof.
  induction fuel as [|f IH]; intros h st h'; [discriminate|]. cbn [del_state]. intros H. apply bind_ok in H as (t & _ & H).
  destruct (t =? st); [eapply free_mono; eauto|]. apply bind_ok in H as (h1 & H1 & H).
  eapply mono_trans; [eapply del_nofollow_mono|eapply IH]; eauto.
Qed.
Lemma foldm_mono {A} (f : heap -> A -> outcome heap) : (forall h x h', f h x = Ok h' -> mono h h') ->
  forall l h h', foldm f h l = Ok h' -> mono h h'.
Proof.
  intros F. induction l as [|x l IH]; intros h h'; cbn.
  - intros [= <-]. apply mono_refl.
  - intros H. apply bind_ok in H as (h1 & H1 & H). eapply mono_trans; eauto.
Qed.
Lemma del_e_mono tr : (forall h x h', tr h x = Ok h' -> mono h h') -> forall h f h', del_e tr h f = Ok h' -> mono h h'.
Proof.
  intros T h (p, v) h'. destruct p, v; cbn [del_e]; try discriminate; try (intros [= <-]; apply mono_refl).
  - intros H. apply bind_ok in H as (h1 & H1 & H). apply modify_mono in H1. apply bind_ok in H as (b & _ & H).
    destruct (b_ret b); [injection H as <-; auto|]. destruct (b_rc b =? 0)%Z; [|injection H as <-; auto].
    eapply mono_trans; eauto.
  - apply T.
Qed.
Lemma trace_del_mono : forall fuel h a h', trace_del fuel h a = Ok h' -> mono h h'.
Proof.
  induction fuel as [|f IH]; intros h a h'; [discriminate|]. cbn [trace_del]. intros H. apply bind_ok in H as (b & _ & H).
  assert (X : forall fs, (let* h0 := foldm (del_e (trace_del f)) h fs in let* h1 := de_chain h0 a in free h1 a) = Ok h' -> mono h h').
  { intros fs X. apply bind_ok in X as (h1 & X1 & X). apply bind_ok in X as (h2 & X2 & X).
    apply (foldm_mono _ (del_e_mono _ IH)) in X1. apply de_chain_mono in X2. apply free_mono in X.
    eapply mono_trans; eauto. eapply mono_trans; eauto. }
  destruct (b_body b) as [? ? ? ? ?|k vs]; [eapply del_state_mono; eauto|].
  destruct k; try (eapply X; eauto; fail); [injection H as <-; apply mono_refl|]. destruct vs; [eapply X; eauto|discriminate].
Qed.

(** * Deletion keeps the chain well formed, or deletes the whole state *)
Definition del_post (st : addr) (l : list addr) (h' : heap) : Prop :=
  (exists l', wf_chain h' st l' /\ incl l' l /\ forall x, In x l -> ~ In x l' -> h_mem h' x = None) \/
  (forall x, In x (st :: l) -> h_mem h' x = None).

Lemma del_post_here st l h : wf_chain h st l -> del_post st l h.
Proof. intros W. left. exists l. split; auto. split; [red; auto|]. tauto. Qed.
Lemma del_post_step st l h1 h2 : del_post st l h1 ->
  mono h1 h2 -> (forall l1, wf_chain h1 st l1 -> del_post st l1 h2) -> del_post st l h2.
Proof.
  intros [(l1 & W & I & D)|A] M S.
  - destruct (S l1 W) as [(l2 & W2 & I2 & D2)|A2].
    + left. exists l2. split; auto. split; [eapply incl_tran; eauto|]. intros x X N.
      destruct (in_dec Nat.eq_dec x l1); auto.
    + right. intros x [<-|X]; [apply A2; left; auto|]. destruct (in_dec Nat.eq_dec x l1); [apply A2; right; auto|]. auto.
  - right. intros x X. auto.
Qed.
Lemma foldm_post {A} (f : heap -> A -> outcome heap) st :
  (forall h x h', f h x = Ok h' -> mono h h') ->
  (forall h l x h', wf_chain h st l -> f h x = Ok h' -> del_post st l h') ->
  forall xs h l h', del_post st l h -> foldm f h xs = Ok h' -> del_post st l h'.
Proof.
  intros FM FP. induction xs as [|x xs IH]; intros h l h' P; cbn.
  - intros [= <-]. auto.
  - intros H. apply bind_ok in H as (h1 & H1 & H). eapply IH; [|exact H]. eapply del_post_step; eauto.
Qed.
Lemma quiet_rc v b : b_next (set_rc v b) = b_next b /\ b_prev (set_rc v b) = b_prev b /\
  b_state (set_rc v b) = b_state b /\ shape_of (set_rc v b) = shape_of b.
Proof. repeat split. Qed.
Lemma del_e_post tr st :
  (forall h x h', tr h x = Ok h' -> mono h h') ->
  (forall h l x h', wf_chain h st l -> tr h x = Ok h' -> del_post st l h') ->
  forall h l f h', wf_chain h st l -> del_e tr h f = Ok h' -> del_post st l h'.
Proof.
  intros TM TP h l (p, v) h' W. destruct p, v; cbn [del_e]; try discriminate; try (intros [= <-]; apply del_post_here; auto).
  - intros H. apply bind_ok in H as (h1 & H1 & H). apply bind_ok in H as (b & _ & H).
    assert (W1 : wf_chain h1 st l).
    { eapply same_skel_wf; [|exact W]. eapply modify_skel; [|exact H1]. intros b'. destruct (b_rc b' =? 0)%Z; [auto|apply quiet_rc]. }
    destruct (b_ret b); [injection H as <-; apply del_post_here; auto|].
    destruct (b_rc b =? 0)%Z; [eauto|injection H as <-; apply del_post_here; auto].
  - eauto.
Qed.

Lemma del_post_unlink h st l a h1 h' : del_post st l h -> In a l -> de_chain h a = Ok h1 -> free h1 a = Ok h' ->
  exists l', wf_chain h' st l' /\ incl l' l /\ ~ In a l' /\ forall x, In x l -> ~ In x l' -> h_mem h' x = None.
Proof.
  intros P Ia E F.
  assert (LA : h_mem h a <> None).
  { unfold de_chain, get in E. destruct (h_mem h a); [congruence|discriminate]. }
  destruct P as [(l1 & W & I & D)|A]; [|exfalso; apply LA, A; right; auto].
  destruct (in_dec Nat.eq_dec a l1) as [I1|N1]; [|exfalso; auto].
  apply in_split in I1 as (u & v & ->). destruct (unlink_wf _ _ _ _ _ W) as (h1' & h2 & E1 & E2 & W2 & B & DA & M & _).
  rewrite E in E1. injection E1 as <-. rewrite F in E2. injection E2 as <-.
  exists (u ++ v). split; auto. pose proof (wc_nodup _ _ _ W) as ND. inversion ND as [|? ? _ ND']; subst.
  destruct (NoDup_mid _ _ _ ND') as (_ & NI).
  split; [|split; auto].
  - intros x X. apply I. apply in_app_or in X. apply in_or_app. cbn. tauto.
  - intros x X NX. destruct (Nat.eq_dec x a) as [->|NE]; auto. rewrite M by auto.
    rewrite (heap_but_chain_live _ _ _ B). apply D; auto. intros Y. apply NX. apply in_app_or in Y. apply in_or_app. cbn in Y.
    intuition congruence.
Qed.

Lemma trace_del_post st : forall fuel h l a h', wf_chain h st l -> trace_del fuel h a = Ok h' -> del_post st l h'.
Proof.
  induction fuel as [|f IH]; intros h l a h' W; [discriminate|]. cbn [trace_del]. intros H. apply bind_ok in H as (b & G & H).
  apply get_ok in G.
  destruct (wc_all _ _ _ W a) as [->|[I|SS]]; [congruence| | |].
  - pose proof (wc_state _ _ _ W) as S. unfold shp in S. rewrite G in S. cbn in S. unfold shape_of in S.
    destruct (b_body b) as [? ? ? ? ?|[] ?] eqn:B; try discriminate. right.
    destruct (del_state_ok st l h f W) as (h2 & E2 & _ & _ & X); [eapply del_state_inv; eauto|].
    rewrite H in E2. injection E2 as <-. intros x Y. apply X. auto.
  - assert (X : forall fs, (let* h0 := foldm (del_e (trace_del f)) h fs in let* h1 := de_chain h0 a in free h1 a) = Ok h' -> del_post st l h').
    { intros fs X. apply bind_ok in X as (h1 & X1 & X). apply bind_ok in X as (h2 & X2 & X).
      apply (foldm_post _ st (del_e_mono _ (trace_del_mono f)) (del_e_post _ st (trace_del_mono f) IH) _ _ l) in X1; [|apply del_post_here; auto].
      destruct (del_post_unlink _ _ _ _ _ _ X1 I X2 X) as (l' & W' & I' & _ & D'). left. eauto. }
    destruct (wc_obj _ _ _ W a I) as (S & _). unfold shp in S. rewrite G in S. cbn in S. unfold shape_of in S.
    destruct (b_body b) as [? ? ? ? ?|[] vs] eqn:B; try discriminate; try (eapply X; eauto; fail).
    destruct vs; [eapply X; eauto|discriminate].
  - unfold shp in SS. rewrite G in SS. cbn in SS. unfold shape_of in SS.
    destruct (b_body b) as [? ? ? ? ?|[] vs] eqn:B; try discriminate. injection H as <-. apply del_post_here; auto.
Qed.

(** deleting an object *)
Lemma trace_del_obj st fuel h l a h' : wf_chain h st l -> In a l -> trace_del fuel h a = Ok h' ->
  exists l', wf_chain h' st l' /\ incl l' l /\ ~ In a l' /\ forall x, In x l -> ~ In x l' -> h_mem h' x = None.
Proof.
  destruct fuel as [|f]; intros W I; [discriminate|]. cbn [trace_del]. intros H. apply bind_ok in H as (b & G & H).
  apply get_ok in G.
  assert (X : forall fs, (let* h0 := foldm (del_e (trace_del f)) h fs in let* h1 := de_chain h0 a in free h1 a) = Ok h' ->
    exists l', wf_chain h' st l' /\ incl l' l /\ ~ In a l' /\ forall x, In x l -> ~ In x l' -> h_mem h' x = None).
  { intros fs X. apply bind_ok in X as (h1 & X1 & X). apply bind_ok in X as (h2 & X2 & X).
    apply (foldm_post _ st (del_e_mono _ (trace_del_mono f)) (del_e_post _ st (trace_del_mono f) (trace_del_post st f)) _ _ l) in X1;
      [|apply del_post_here; auto].
    apply (del_post_unlink _ _ _ _ _ _ X1 I X2 X). }
  destruct (wc_obj _ _ _ W a I) as (S & _). unfold shp in S. rewrite G in S. cbn in S. unfold shape_of in S.
  destruct (b_body b) as [? ? ? ? ?|[] vs] eqn:B; try discriminate; try (eapply X; eauto; fail).
  destruct vs; [eapply X; eauto|discriminate].
Qed.

End Strict.
Arguments wf_chain strict : clear implicits.
Arguments wf_chain_but strict : clear implicits.
Arguments del_post strict : clear implicits.
