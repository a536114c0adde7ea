(** The heap operations that the printer uses, seen through [look]. *)
From Coq Require Import ZArith List Bool Lia Permutation.
From Verif Require Import Base Json HeapModel HeapChainProofs HeapHistory JsonMemModel JsonMemSpec JsonMemView JsonMemDel JsonMemOps.
Import ListNotations.
Open Scope nat_scope.
Open Scope outcome_scope.
Local Arguments Z.add : simpl never.
Local Arguments Z.sub : simpl never.
Local Arguments Z.eqb : simpl never.
Local Arguments Z.of_nat : simpl never.
Local Arguments core : simpl never.

(** An object, whatever its counts *)
Definition kept (h : heap) (x : addr) (k : kind) (vs : list val) : Prop :=
  k <> KStatic /\ exists n r m me, look h x = Some (cell k vs n r m me).
Lemma kept_obj h x k vs n : obj h x k vs n -> k <> KStatic -> kept h x k vs.
Proof. intros O N. split; [auto|]. apply obj_look in O as (m & me & E); auto. eauto. Qed.
Lemma kept_mem h x k vs : kept h x k vs -> exists b, h_mem h x = Some b /\ b_body b = BObj k vs.
Proof.
  intros (N & n & r & m & me & E). unfold look in E. destruct (h_mem h x) as [b|]; [|discriminate]. exists b. split; [auto|]. cbn in E. injection E as E.
  unfold core, cell in E. destruct (b_body b) as [|k' vs']; [discriminate|]. destruct k'; injection E; intros; subst; congruence.
Qed.
Lemma kept_get h x k vs : kept h x k vs -> get_obj h x = Ok (k, vs).
Proof. intros H. destruct (kept_mem _ _ _ _ H) as (b & G & B). unfold get_obj, get. rewrite G. cbn. rewrite B. auto. Qed.
Lemma kept_ext h h' x k vs : look h' x = look h x -> kept h x k vs -> kept h' x k vs.
Proof. intros E (N & n & r & m & me & H). split; [auto|]. rewrite E. eauto. Qed.
Lemma kept_live h x k vs : kept h x k vs -> look h x <> None.
Proof. intros (_ & n & r & m & me & E). congruence. Qed.

(** [n] more count on the object *)
Definition bump (n : nat) (o : option block) : option block := option_map (fun b => set_rc (b_rc b + Z.of_nat n) b) o.
Lemma bump_0 o : bump 0 o = o.
Proof. destruct o as [[]|]; auto. unfold bump, set_rc. cbn. rewrite Z.add_0_r. auto. Qed.
Lemma bump_cell n k vs r rt m me : bump n (Some (cell k vs r rt m me)) = Some (cell k vs (r + Z.of_nat n) rt m me).
Proof. reflexivity. Qed.
Lemma bump_none n o : bump n o = None <-> o = None.
Proof. destruct o; cbn; split; congruence. Qed.
Lemma bump_kept h h' x k vs n : look h' x = bump n (look h x) -> kept h x k vs -> kept h' x k vs.
Proof. intros E (N & r & rt & m & me & H). split; [auto|]. rewrite E, H, bump_cell. eauto. Qed.

Section View.
Variable st : addr.
Notation W := (W st).

Lemma kept_put h a k vs vs' : W h -> kept h a k vs -> exists h', put_vals h a k vs' = Ok h' /\ W h' /\ h_next h' = h_next h /\
  kept h' a k vs' /\ (forall x, x <> a -> look h' x = look h x).
Proof.
  intros (l & Wl) K. pose proof K as (NS & _). destruct (kept_mem _ _ _ _ K) as (b & G & B). unfold put_vals. rewrite (modify_ok _ _ _ _ G).
  assert (SK : same_skel h (set_mem h a (Some (set_body (BObj k vs') b)))).
  { apply (set_mem_skel h a b); auto. unfold shape_of. cbn. rewrite B. destruct k; congruence. }
  exists (set_mem h a (Some (set_body (BObj k vs') b))). split; [auto|]. split; [exists l; eapply same_skel_wf; eauto|]. split; [auto|]. split.
  - split; [auto|]. unfold look. rewrite mem_set_eq. cbn [option_map]. rewrite (core_obj _ k vs'); auto. eauto.
  - intros x NE. unfold look. rewrite mem_set_neq; auto.
Qed.
Lemma kept_unlink h a k vs : W h -> kept h a k vs -> exists h', (let* h := de_chain h a in free h a) = Ok h' /\ gone st h h' [a].
Proof.
  intros (l & Wl) K. assert (I : In a l). { eapply obj_in; [exact Wl|eapply kept_get; eauto|apply K]. }
  apply in_split in I as (l1 & l2 & ->). destruct (unlink_wf _ _ _ _ _ Wl) as (h1 & h' & E1 & E2 & W' & B & D & M & N & _).
  exists h'. rewrite E1. cbn [bind]. split; [auto|]. split; [eexists; eauto|]. split; [auto|]. split; [intros x [<-|[]]; apply look_none; auto|].
  intros x NI. assert (NE : x <> a) by (intros ->; apply NI; left; auto). unfold look. rewrite (M x NE). apply (look_chain _ _ _ B).
Qed.
Lemma kept_trace f h a k vs : kept h a k vs -> (forall p, k <> KSet p) ->
  trace_del (S f) h a = (let* h := foldm (del_e (trace_del f)) h (del_fields k vs) in let* h := de_chain h a in free h a).
Proof.
  intros K NSet. destruct (kept_mem _ _ _ _ K) as (b & G & B). destruct K as (NS & _). cbn [trace_del]. unfold get. rewrite G. cbn [bind]. rewrite B.
  destruct k; try congruence; auto; exfalso; eapply NSet; reflexivity.
Qed.
Lemma kept_leaf f h a : W h -> kept h a KLeaf [] -> 0 < f -> exists h', trace_del f h a = Ok h' /\ gone st h h' [a].
Proof.
  intros Wh K F. destruct f as [|f]; [lia|]. rewrite (kept_trace f h a KLeaf []) by (auto; discriminate). cbn [del_fields foldm bind]. eapply kept_unlink; eauto.
Qed.
Lemma kept_state h a k vs : W h -> kept h a k vs -> exists b, get h a = Ok b /\ b_body b = BObj k vs /\ b_state b = st.
Proof.
  intros (l & Wl) K. destruct (kept_mem _ _ _ _ K) as (b & G & B). exists b. unfold get. rewrite G. split; [auto|]. split; [auto|].
  assert (I : In a l). { eapply obj_in; [exact Wl|eapply kept_get; eauto|apply K]. }
  destruct (wc_obj _ _ _ Wl a I) as (_ & S). unfold stt in S. rewrite G in S. injection S as ->. auto.
Qed.
Lemma kept_mk h k vs m : W h -> k <> KStatic -> exists h', mk_obj h st k vs m = Ok (h', h_next h) /\ W h' /\ h_next h' = S (h_next h) /\
  kept h' (h_next h) k vs /\ (forall x, x <> h_next h -> look h' x = look h x).
Proof.
  intros Wh NS. destruct (mk_obj_view st h k vs m Wh NS) as (h' & E & W' & N & O & X). exists h'. split; [auto|]. split; [auto|]. split; [auto|]. split; [|auto].
  eapply kept_obj; eauto.
Qed.
(** A tuple that owns its first component and does not care for the second *)
Lemma kept_tuple h p k vs j : W h -> kept h p k vs -> exists h', mk_prod h st [DEL; NOOP] [VPtr p; j] = Ok (h', h_next h) /\ W h' /\ h_next h' = S (h_next h) /\
  kept h' (h_next h) (KProd [DEL; NOOP]) [VPtr p; j] /\ kept h' p k vs /\ (forall x, x <> h_next h -> x <> p -> look h' x = look h x).
Proof.
  intros Wh K. destruct (kept_mk h (KProd [DEL; NOOP]) [VPtr p; j] M_IDENTITY Wh) as (h1 & E1 & W1 & N1 & K1 & X1); [discriminate|].
  unfold mk_prod. rewrite E1. cbn [bind combine foldm fst snd incr_indegree target].
  assert (NE : p <> h_next h). { assert (p < h_next h); [|lia]. apply (W_below st); auto. eapply kept_live; eauto. }
  assert (K' : kept h1 p k vs) by (eapply kept_ext; [apply X1; auto|auto]). destruct (kept_mem _ _ _ _ K') as (b & G & B).
  destruct (modify_view st h1 p (set_ret true) W1) as (h2 & E2 & W2 & N2 & L2 & X2); [congruence|intros b'; cbn; auto|].
  rewrite E2. cbn [bind]. exists h2. split; [auto|]. split; [auto|]. split; [congruence|]. split; [eapply kept_ext; [apply X2; auto|auto]|]. split.
  - split; [apply K|]. rewrite (L2 b G). rewrite (core_obj _ k vs); [eauto|auto|apply K].
  - intros x A C. rewrite X2, X1; auto.
Qed.

(** Counting, exactly *)
Lemma incr_cell h a k vs n m me : W h -> k <> KStatic -> look h a = Some (cell k vs n false m me) -> exists h', incr_indegree h DEL_RC (VPtr a) = Ok h' /\ W h' /\ h_next h' = h_next h /\
  look h' a = Some (cell k vs (wrap 16 (n + 1)) false m me) /\ (forall x, x <> a -> look h' x = look h x).
Proof.
  intros Wh NS L. assert (K : kept h a k vs) by (split; eauto). destruct (kept_mem _ _ _ _ K) as (b & G & B). cbn [incr_indegree target bind].
  assert (E : core b = cell k vs n false m me) by (unfold look in L; rewrite G in L; cbn in L; congruence). rewrite (core_obj b k vs B NS) in E. injection E as E1 E2 E3 E4.
  destruct (modify_view st h a (fun b => if b_ret b then b else set_rc (wrap 16 (b_rc b + 1)) b) Wh) as (h' & E & W' & N & X1 & X2).
  - congruence.
  - intros b'. destruct (b_ret b'); cbn; auto.
  - exists h'. split; [auto|]. split; [auto|]. split; [auto|]. split; [|auto]. rewrite (X1 b G), E2. rewrite (core_obj _ k vs); auto. cbn [set_rc b_rc b_ret b_mark b_meth]. congruence.
Qed.
Lemma del_ref_cell h a k vs n m me tr : W h -> k <> KStatic -> look h a = Some (cell k vs n false m me) -> n <> 0%Z -> n <> 1%Z -> exists h', del_e tr h (DEL_RC, VPtr a) = Ok h' /\ W h' /\ h_next h' = h_next h /\
  look h' a = Some (cell k vs (n - 1) false m me) /\ (forall x, x <> a -> look h' x = look h x).
Proof.
  intros Wh NS L N0 N1. assert (K : kept h a k vs) by (split; eauto). destruct (kept_mem _ _ _ _ K) as (b & G & B). cbn [del_e].
  assert (E : core b = cell k vs n false m me) by (unfold look in L; rewrite G in L; cbn in L; congruence). rewrite (core_obj b k vs B NS) in E. injection E as E1 E2 E3 E4.
  rewrite (modify_ok _ _ _ _ G). cbn [bind].
  destruct (modify_view st h a (fun b => if (b_rc b =? 0)%Z then b else set_rc (b_rc b - 1)%Z b) Wh) as (h' & E & W' & N & X1 & X2).
  - congruence.
  - intros b'. destruct (b_rc b' =? 0)%Z; cbn; auto.
  - rewrite (modify_ok _ _ _ _ G) in E. injection E as E. rewrite E. assert (Q : (b_rc b =? 0)%Z = false) by (apply Z.eqb_neq; congruence).
    assert (G' : h_mem h' a = Some (set_rc (b_rc b - 1) b)) by (rewrite <- E, mem_set_eq, Q; auto). unfold get. rewrite G'. cbn [bind set_rc b_ret b_rc]. rewrite E2.
    replace (b_rc b - 1 =? 0)%Z with false by (symmetry; apply Z.eqb_neq; lia). exists h'. split; [auto|]. split; [auto|]. split; [auto|]. split; [|auto].
    rewrite (X1 b G), Q. rewrite (core_obj _ k vs); auto. cbn [set_rc b_rc b_ret b_mark b_meth]. congruence.
Qed.

(** A list that counts on keys: [g] is what the keys were at first, [m x] how
    many more count on [x] now *)
Definition key_at (g : addr -> option block) (n : nat) (x : addr) : Prop :=
  exists mk me, g x = Some (cell KLeaf [] 2 false mk me) /\ n < 1000.
Lemma append_keys g ks : forall h q vs m, W h -> kept h q (KList DEL_RC) vs -> ~ In q ks -> (forall x, In x ks -> look h x = bump (m x) (g x)) ->
  (forall x, In x ks -> key_at g (m x + occ x ks) x) ->
  exists h', foldm (fun h k => list_append h q k) h (map VPtr ks) = Ok h' /\ W h' /\ h_next h' = h_next h /\ kept h' q (KList DEL_RC) (vs ++ map VPtr ks) /\
    (forall x, In x ks -> look h' x = bump (m x + occ x ks) (g x)) /\ (forall x, x <> q -> ~ In x ks -> look h' x = look h x).
Proof.
  induction ks as [|a r IH]; intros h q vs m Wh K NI B HK; cbn [map foldm].
  - exists h. rewrite app_nil_r. split; [auto|]. split; [auto|]. split; [auto|]. split; [auto|]. split; [intros x []|auto].
  - unfold list_append. rewrite (kept_get _ _ _ _ K). cbn [bind].
    destruct (kept_put h q (KList DEL_RC) vs (vs ++ [VPtr a]) Wh K) as (h1 & -> & W1 & N1 & K1 & X1). cbn [bind].
    assert (NE : a <> q) by (intros ->; apply NI; left; auto).
    destruct (HK a) as (mk & me & G & LT); [left; auto|]. rewrite occ_cons, Nat.eqb_refl in LT. cbn [Nat.b2n] in LT.
    assert (L1 : look h1 a = Some (cell KLeaf [] (2 + Z.of_nat (m a)) false mk me)) by (rewrite X1, B, G, bump_cell by (auto; left; auto); auto).
    destruct (incr_cell h1 a KLeaf [] _ _ _ W1 ltac:(discriminate) L1) as (h2 & -> & W2 & N2 & L2 & X2). cbn [bind].
    assert (WR : wrap 16 (2 + Z.of_nat (m a) + 1) = (2 + Z.of_nat (m a) + 1)%Z) by (apply Z.mod_small; lia). rewrite WR in L2.
    assert (M : forall x, x <> q -> In x (a :: r) -> look h2 x = bump (m x + Nat.b2n (x =? a)) (g x)).
    { intros x NQ IX. destruct (Nat.eqb_spec x a) as [->|NA]; cbn [Nat.b2n].
      - rewrite L2, G, bump_cell. do 2 f_equal. lia.
      - rewrite X2, X1, B, Nat.add_0_r by auto. auto. }
    destruct (IH h2 q (vs ++ [VPtr a]) (fun x => m x + Nat.b2n (x =? a))) as (h' & E & W' & N' & K' & X' & Y'); auto.
    + eapply kept_ext; [apply X2; auto|auto].
    + intros X. apply NI. right. auto.
    + intros x IX. apply M; [intros ->; apply NI; right; auto|right; auto].
    + intros x IX. destruct (HK x) as (mk' & me' & G' & LT'); [right; auto|]. exists mk', me'. split; [auto|]. rewrite occ_cons in LT'. lia.
    + exists h'. split; [auto|]. split; [auto|]. split; [congruence|]. split; [rewrite <- app_assoc in K'; auto|]. split.
      * intros x IX. rewrite occ_cons. destruct (in_dec Nat.eq_dec x r) as [IR|NR]; [rewrite X' by auto; f_equal; lia|].
        rewrite Y' by (auto; intros ->; apply NI; auto). rewrite M by (auto; intros ->; apply NI; auto). f_equal.
        assert (occ x r = 0); [|lia]. destruct (occ x r) eqn:EO; auto. destruct NR. apply occ_in. lia.
      * intros x NQ IX. assert (NA : x <> a) by (intros ->; apply IX; left; auto). rewrite Y', X2, X1; auto. intros X. apply IX. right. auto.
Qed.
(** Deleting it *)
Lemma uncount_keys g tr ks : forall h m, W h -> (forall x, In x ks -> look h x = bump (m x + occ x ks) (g x)) -> (forall x, In x ks -> key_at g (m x + occ x ks) x) ->
  exists h', foldm (del_e tr) h (map (pair DEL_RC) (map VPtr ks)) = Ok h' /\ W h' /\ h_next h' = h_next h /\
    (forall x, In x ks -> look h' x = bump (m x) (g x)) /\ (forall x, ~ In x ks -> look h' x = look h x).
Proof.
  induction ks as [|a r IH]; intros h m Wh B HK; cbn [map foldm].
  - exists h. split; [auto|]. split; [auto|]. split; [auto|]. split; [intros x []|auto].
  - destruct (HK a) as (mk & me & G & LT); [left; auto|].
    assert (L : look h a = Some (cell KLeaf [] (2 + Z.of_nat (m a + occ a (a :: r))) false mk me)) by (rewrite B, G, bump_cell by (left; auto); auto).
    rewrite occ_cons, Nat.eqb_refl in L, LT. cbn [Nat.b2n] in L, LT.
    destruct (del_ref_cell h a KLeaf [] _ _ _ tr Wh ltac:(discriminate) L) as (h1 & -> & W1 & N1 & L1 & X1); [lia|lia|]. cbn [bind].
    assert (M : forall x, In x (a :: r) -> look h1 x = bump (m x + occ x r) (g x)).
    { intros x IX. destruct (Nat.eq_dec x a) as [->|NA].
      - rewrite L1, G, bump_cell. do 2 f_equal. lia.
      - rewrite X1, B by auto. f_equal. rewrite occ_cons. destruct (Nat.eqb_spec x a); [congruence|auto]. }
    destruct (IH h1 m W1) as (h' & E & W' & N' & X' & Y').
    + intros x IX. apply M. right. auto.
    + intros x IX. destruct (HK x) as (mk' & me' & G' & LT'); [right; auto|]. exists mk', me'. split; [auto|]. rewrite occ_cons in LT'. lia.
    + exists h'. split; [auto|]. split; [auto|]. split; [congruence|]. split.
      * intros x IX. destruct (in_dec Nat.eq_dec x r) as [IR|NR]; [auto|]. rewrite Y', M by auto. f_equal.
        assert (occ x r = 0); [|lia]. destruct (occ x r) eqn:EO; auto. destruct NR. apply occ_in. lia.
      * intros x NI. rewrite Y', X1; auto; intros X; apply NI; [left|right]; auto.
Qed.
End View.
