(** The heap operations used for JSON values, seen through [look]. *)
From Coq Require Import ZArith List Bool Lia Permutation.
From Verif Require Import Base Json HeapModel HeapChainProofs HeapHistory JsonMemModel JsonMemSpec.
Import ListNotations.
Open Scope nat_scope.
Open Scope outcome_scope.
Local Arguments Z.add : simpl never.
Local Arguments Z.sub : simpl never.
Local Arguments Z.eqb : simpl never.
Local Arguments core : simpl never.

(** An ordinary object as [look] shows it *)
Definition cell (k : kind) (vs : list val) (n : Z) (r : bool) (m : Z) (me : rmeth) : block :=
  Block (BObj k vs) n r m 0 None None me.

Lemma core_obj b k vs : b_body b = BObj k vs -> k <> KStatic ->
  core b = cell k vs (b_rc b) (b_ret b) (b_mark b) (b_meth b).
Proof. unfold core. intros -> N. destruct k; try congruence; reflexivity. Qed.
Lemma core_chain b b' : same_but_chain b b' -> core b' = core b.
Proof.
  intros (A & B & C & D & E). unfold core. destruct (b_body b) as [t r s c m|k vs], (b_body b') as [t' r' s' c' m'|k' vs']; try discriminate.
  - destruct E as (-> & -> & -> & ->). congruence.
  - injection E as <- <-. destruct k; congruence.
Qed.
Lemma look_chain h h' x : heap_but_chain h h' -> look h' x = look h x.
Proof.
  intros H. specialize (H x). unfold look. destruct (h_mem h x), (h_mem h' x); try contradiction; auto.
  cbn. f_equal. apply core_chain. auto.
Qed.
Lemma look_none h x : look h x = None <-> h_mem h x = None.
Proof. unfold look. destruct (h_mem h x); cbn; split; congruence. Qed.
(** What [obj] says is seen by [look]. *)
Lemma obj_look h x k vs n : k <> KStatic -> (obj h x k vs n <-> exists m me, look h x = Some (cell k vs n false m me)).
Proof.
  intros N. split.
  - intros (b & G & B & R & T). exists (b_mark b), (b_meth b). unfold look. rewrite G. cbn. rewrite (core_obj b k vs B N), R, T. auto.
  - intros (m & me & E). unfold look in E. destruct (h_mem h x) as [b|] eqn:G; [|discriminate]. cbn in E. injection E as E.
    exists b. split; [auto|]. unfold core, cell in E. destruct (b_body b) as [|k' vs'] eqn:B; [discriminate|].
    destruct k'; injection E; intros; subst; try congruence; auto.
Qed.
Lemma obj_static h x n : obj h x KStatic [] n -> look h x = Some (cell KStatic [] 0 false 0 M_IDENTITY).
Proof. intros (b & G & B & R & T). unfold look. rewrite G. cbn. unfold core. rewrite B, T. reflexivity. Qed.
Lemma static_obj h x : look h x = Some (cell KStatic [] 0 false 0 M_IDENTITY) -> exists n, obj h x KStatic [] n.
Proof.
  unfold look. destruct (h_mem h x) as [b|] eqn:G; [|discriminate]. cbn. intros [= E]. exists (b_rc b), b. split; [auto|].
  unfold core, cell in E. destruct (b_body b) as [|k vs] eqn:B; [discriminate|]. destruct k; try discriminate. injection E as -> ->. auto.
Qed.
Lemma obj_ext h h' x k vs n : k <> KStatic -> look h' x = look h x -> obj h x k vs n -> obj h' x k vs n.
Proof. intros N E. rewrite !obj_look by auto. rewrite E. auto. Qed.
Lemma obj_live h x k vs n : obj h x k vs n -> h_mem h x <> None.
Proof. intros (b & G & _). congruence. Qed.
Lemma static_ext h h' ss : (forall x, look h' x = look h x) -> static_ok h ss -> static_ok h' ss.
Proof. intros E S a I. destruct (S a I) as (n & O). apply obj_static in O. apply static_obj. rewrite E. auto. Qed.

Section View.
Variable st : addr.
Definition W (h : heap) : Prop := exists l, wf_chain false h st l.

Lemma W_fresh h : W h -> look h (h_next h) = None.
Proof.
  intros (l & Wl). apply look_none. destruct (h_mem h (h_next h)) eqn:E; auto. exfalso.
  apply (Nat.lt_irrefl (h_next h)). apply (wc_fresh _ _ _ Wl). congruence.
Qed.
Lemma W_below h x : W h -> look h x <> None -> x < h_next h.
Proof. intros (l & Wl) L. apply (wc_fresh _ _ _ Wl). rewrite <- look_none. auto. Qed.

(** Creating an object *)
Lemma mk_view h k vs m : W h -> k <> KStatic -> exists h', mk_obj h st k vs m = Ok (h', h_next h) /\ W h' /\
  h_next h' = S (h_next h) /\ look h' (h_next h) = Some (cell k vs 0 false 0 m) /\ (forall x, x <> h_next h -> look h' x = look h x).
Proof.
  intros (l & Wl) NS. unfold mk_obj. destruct (malloc h (zero_block (BObj k vs) m)) as (h1, a) eqn:E.
  destruct (malloc_wf _ _ _ _ _ _ Wl E) as (W1 & A & _ & Ma & Mo & N & _).
  { unfold shape_of. cbn. destruct k; congruence. }
  assert (EN : nxt h1 a = Some None) by (unfold nxt; rewrite Ma; auto).
  destruct (chain_wf _ _ _ _ W1 (fun _ => EN)) as (h2 & -> & W2 & B & N2 & _). cbn [bind]. subst a.
  exists h2. split; [auto|]. split; [eexists; eauto|]. split; [congruence|]. split.
  - rewrite (look_chain _ _ _ B). unfold look. rewrite Ma. cbn. rewrite (core_obj _ k vs); auto.
  - intros x NE. rewrite (look_chain _ _ _ B). unfold look. rewrite Mo by auto. auto.
Qed.

(** Changing an object *)
Lemma modify_view h a f : W h -> h_mem h a <> None -> quiet f -> exists h', modify h a f = Ok h' /\ W h' /\ h_next h' = h_next h /\
  (forall b, h_mem h a = Some b -> look h' a = Some (core (f b))) /\ (forall x, x <> a -> look h' x = look h x).
Proof.
  intros (l & Wl) L Q. destruct (modify_live h a f L) as (h' & E & EF). pose proof (modify_skel _ _ _ _ Q E) as SK. exists h'. split; [auto|].
  split; [exists l; eapply same_skel_wf; eauto|]. split; [apply SK|]. destruct EF as (_ & _ & EF). unfold look. split.
  - intros b G. rewrite EF, Nat.eqb_refl, G. auto.
  - intros x NE. rewrite EF. apply Nat.eqb_neq in NE. rewrite NE. auto.
Qed.

Lemma quiet_setrc g : quiet (fun b => set_rc (g b) b).
Proof. intros b. cbn. auto. Qed.

(** Counting *)
Lemma incr_view h a k vs n : W h -> obj h a k vs n -> k <> KStatic -> exists h', incr_indegree h DEL_RC (VPtr a) = Ok h' /\ W h' /\ h_next h' = h_next h /\
  obj h' a k vs (wrap 16 (n + 1)) /\ (forall x, x <> a -> look h' x = look h x).
Proof.
  intros Wh O NS. pose proof O as (b & G & B & R & T). cbn [incr_indegree target bind].
  destruct (modify_view h a (fun b => if b_ret b then b else set_rc (wrap 16 (b_rc b + 1)) b) Wh) as (h' & E & W' & N & L & X).
  - congruence.
  - intros b'. destruct (b_ret b'); cbn; auto.
  - exists h'. split; [auto|]. split; [auto|]. split; [auto|]. split; [|auto]. apply obj_look; auto. rewrite (L b G), T.
    exists (b_mark b), (b_meth b). rewrite (core_obj _ k vs); auto. cbn. congruence.
Qed.
Lemma incr_static h a n : W h -> obj h a KStatic [] n -> exists h', incr_indegree h DEL_RC (VPtr a) = Ok h' /\ W h' /\ h_next h' = h_next h /\
  (forall x, look h' x = look h x).
Proof.
  intros Wh O. pose proof O as (b & G & B & R & T). cbn [incr_indegree target bind].
  destruct (modify_view h a (fun b => if b_ret b then b else set_rc (wrap 16 (b_rc b + 1)) b) Wh) as (h' & E & W' & N & L & X).
  - congruence.
  - intros b'. destruct (b_ret b'); cbn; auto.
  - exists h'. split; [auto|]. split; [auto|]. split; [auto|]. intros x. destruct (Nat.eq_dec x a) as [->|NE]; [|auto].
    rewrite (L b G), T. unfold look. rewrite G. cbn. unfold core. cbn. rewrite B. auto.
Qed.
Lemma decr_view h a k vs n : W h -> obj h a k vs n -> k <> KStatic -> exists h', decr_indegree h DEL_RC (VPtr a) = Ok h' /\ W h' /\ h_next h' = h_next h /\
  obj h' a k vs (if (n =? 0)%Z then n else n - 1)%Z /\ (forall x, x <> a -> look h' x = look h x).
Proof.
  intros Wh O NS. pose proof O as (b & G & B & R & T). cbn [decr_indegree target bind].
  destruct (modify_view h a (fun b => if b_ret b then b else if (b_rc b =? 0)%Z then b else set_rc (b_rc b - 1)%Z b) Wh) as (h' & E & W' & N & L & X).
  - congruence.
  - intros b'. destruct (b_ret b'); cbn; auto. destruct (b_rc b' =? 0)%Z; cbn; auto.
  - exists h'. split; [auto|]. split; [auto|]. split; [auto|]. split; [|auto]. apply obj_look; auto. rewrite (L b G), T, R.
    exists (b_mark b), (b_meth b). destruct (n =? 0)%Z; rewrite (core_obj _ k vs); auto; cbn; congruence.
Qed.
Lemma decr_static h a n : W h -> obj h a KStatic [] n -> exists h', decr_indegree h DEL_RC (VPtr a) = Ok h' /\ W h' /\ h_next h' = h_next h /\
  (forall x, look h' x = look h x).
Proof.
  intros Wh O. pose proof O as (b & G & B & R & T). cbn [decr_indegree target bind].
  destruct (modify_view h a (fun b => if b_ret b then b else if (b_rc b =? 0)%Z then b else set_rc (b_rc b - 1)%Z b) Wh) as (h' & E & W' & N & L & X).
  - congruence.
  - intros b'. destruct (b_ret b'); cbn; auto. destruct (b_rc b' =? 0)%Z; cbn; auto.
  - exists h'. split; [auto|]. split; [auto|]. split; [auto|]. intros x. destruct (Nat.eq_dec x a) as [->|NE]; [|auto].
    rewrite (L b G), T. unfold look. rewrite G. cbn. unfold core. destruct (b_rc b =? 0)%Z; cbn; rewrite B; auto.
Qed.

(** Filling *)
Lemma get_obj_of h a k vs n : obj h a k vs n -> get_obj h a = Ok (k, vs).
Proof. intros (b & G & B & _). unfold get_obj, get. rewrite G. cbn. rewrite B. auto. Qed.
Lemma put_view h a k vs n k' vs' : W h -> obj h a k vs n -> k <> KStatic -> k' <> KStatic -> exists h', put_vals h a k' vs' = Ok h' /\ W h' /\ h_next h' = h_next h /\
  obj h' a k' vs' n /\ (forall x, x <> a -> look h' x = look h x).
Proof.
  intros (l & Wl) O NS NS'. pose proof O as (b & G & B & R & T). unfold put_vals. rewrite (modify_ok _ _ _ _ G).
  assert (SK : same_skel h (set_mem h a (Some (set_body (BObj k' vs') b)))).
  { apply (set_mem_skel h a b); auto. unfold shape_of. cbn. rewrite B. destruct k, k'; congruence. }
  exists (set_mem h a (Some (set_body (BObj k' vs') b))). split; [auto|]. split; [exists l; eapply same_skel_wf; eauto|]. split; [auto|]. split.
  - exists (set_body (BObj k' vs') b). split; [apply mem_set_eq|auto].
  - intros x NE. unfold look. rewrite mem_set_neq; auto.
Qed.
Lemma policy_view h a ps vs n i p : W h -> obj h a (KProd ps) vs n -> exists h', update_policy h a i p = Ok h' /\ W h' /\ h_next h' = h_next h /\
  obj h' a (KProd (update ps i p)) vs n /\ (forall x, x <> a -> look h' x = look h x).
Proof.
  intros Wh O. unfold update_policy. rewrite (get_obj_of _ _ _ _ _ O). cbn [bind]. apply (put_view h a (KProd ps) vs n (KProd (update ps i p)) vs); auto; discriminate.
Qed.

(** Unlinking and freeing *)
Lemma unlink_view h a : W h -> (exists k vs n, obj h a k vs n /\ k <> KStatic) -> exists h', (let* h := de_chain h a in free h a) = Ok h' /\ W h' /\ h_next h' = h_next h /\
  look h' a = None /\ (forall x, x <> a -> look h' x = look h x).
Proof.
  intros (l & Wl) (k & vs & n & O & NS). assert (I : In a l). { eapply obj_in; [exact Wl|eapply get_obj_of; eauto|auto]. }
  apply in_split in I as (l1 & l2 & ->). destruct (unlink_wf _ _ _ _ _ Wl) as (h1 & h' & E1 & E2 & W' & B & D & M & N & _).
  exists h'. rewrite E1. cbn [bind]. split; [auto|]. split; [eexists; eauto|]. split; [auto|]. split; [apply look_none; auto|].
  intros x NE. unfold look. rewrite (M x NE). apply (look_chain _ _ _ B).
Qed.

(** Writing the header of a static block again *)
Lemma singleton_view h a n : W h -> obj h a KStatic [] n -> exists h', singleton_init h a = Ok h' /\ W h' /\ h_next h' = h_next h /\ (forall x, look h' x = look h x).
Proof.
  intros (l & Wl) O. pose proof O as (b & G & B & R & T). unfold singleton_init. rewrite (modify_ok _ _ _ _ G). set (z := zero_block _ _).
  assert (SA : shp h a = Some SStatic). { unfold shp. rewrite G. cbn. unfold shape_of. rewrite B. auto. }
  assert (SH : forall x, shp (set_mem h a (Some z)) x = shp h x).
  { intros x. unfold shp. destruct (Nat.eq_dec x a) as [->|NE]; [rewrite mem_set_eq; fold (shp h a); rewrite SA; auto|rewrite mem_set_neq; auto]. }
  assert (NA : ~ In a (st :: l)).
  { intros [<-|I]; [rewrite (wc_state _ _ _ Wl) in SA; discriminate|]. destruct (wc_obj _ _ _ Wl a I) as (X & _). congruence. }
  assert (MO : forall x, x <> a -> h_mem (set_mem h a (Some z)) x = h_mem h x) by (intros; apply mem_set_neq; auto).
  assert (ML : forall x, h_mem (set_mem h a (Some z)) x = None <-> h_mem h x = None) by (intros x; rewrite <- !shp_none, SH; tauto).
  exists (set_mem h a (Some z)). split; [auto|]. split; [|split; [auto|]].
  - exists l. destruct Wl. constructor; auto.
    + rewrite SH. auto.
    + apply (links_frame h); auto.
      * intros x I _. unfold nxt. rewrite MO; auto. congruence.
      * intros x I. unfold prv. rewrite MO; auto. intros ->. apply NA. right. auto.
    + intros x I. rewrite SH. unfold stt. rewrite MO; [apply wc_obj; auto|]. intros ->. apply NA. right. auto.
    + intros x X. rewrite SH. rewrite ML in X. auto.
    + intros x X. rewrite ML in X. auto.
    + intros x. rewrite ML. auto.
    + discriminate.
  - intros x. destruct (Nat.eq_dec x a) as [->|NE]; [|unfold look; rewrite MO; auto]. unfold look. rewrite mem_set_eq, G. cbn. unfold core. rewrite B, T. auto.
Qed.
End View.
