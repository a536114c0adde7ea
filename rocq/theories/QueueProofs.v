(** Proofs about musl-insque.c. *)
From Coq Require Import List PeanoNat Lia Permutation.
From Verif Require Import Base ArrayLemmas QueueModel QueueSpec.
Import ListNotations.
Open Scope outcome_scope.

(** * A recursive view of lists in memory *)
Definition after (l : list nat) (a : link) : link :=
  match l with [] => a | x :: _ => Some x end.
Fixpoint before (b : link) (l : list nat) : link :=
  match l with [] => b | x :: l => before (Some x) l end.

Fixpoint linked (m : qmem) (b : link) (l : list nat) (a : link) : Prop :=
  match l with
  | [] => True
  | x :: l => points m x (after l a) b /\ linked m (Some x) l a
  end.

Lemma linked_nth m l : forall b a, linked m b l a <->
  (forall i x, nth_error l i = Some x ->
     points m x (match nth_error l (S i) with Some y => Some y | None => a end)
                (match i with O => b | S j => nth_error l j end)).
Proof.
  induction l as [|y l IH]; intros b a; cbn [linked].
  - split; [|auto]. intros _ i x H. destruct i; discriminate.
  - rewrite IH. split.
    + intros [P Q] i x H. destruct i as [|i].
      * injection H as <-. cbn [nth_error]. destruct l; exact P.
      * cbn [nth_error] in *. destruct i as [|i]; exact (Q _ _ H).
    + intros H. split.
      * specialize (H 0 y eq_refl). cbn [nth_error] in H. destruct l; exact H.
      * intros i x Hx. specialize (H (S i) x Hx).
        cbn [nth_error] in H |- *. destruct i; exact H.
Qed.

Lemma line_linked m l : line m l <-> linked m None l None.
Proof.
  rewrite linked_nth. unfold line. split; intros H i x Hx; specialize (H i x Hx);
    destruct (nth_error l (S i)); exact H.
Qed.

Lemma before_last l : forall b x, before b (l ++ [x]) = Some x.
Proof. induction l as [|y l IH]; intros b x; cbn; [reflexivity | apply IH]. Qed.

Lemma before_nth l b : l <> [] -> before b l = nth_error l (length l - 1).
Proof.
  intros N. destruct (exists_last N) as (l' & x & ->).
  rewrite before_last, app_length. cbn [length].
  rewrite nth_error_app2 by lia.
  replace (length l' + 1 - 1 - length l') with 0 by lia. reflexivity.
Qed.

Lemma after_nth l a : l <> [] -> after l a = nth_error l 0.
Proof. destruct l; [easy | reflexivity]. Qed.

Lemma ring_linked m l : ring m l <-> linked m (before None l) l (after l None).
Proof.
  rewrite linked_nth. unfold ring.
  assert (E : forall i x, nth_error l i = Some x ->
    nth_error l ((i + 1) mod length l)
      = (match nth_error l (S i) with Some y => Some y | None => after l None end) /\
    nth_error l ((i + length l - 1) mod length l)
      = (match i with O => before None l | S j => nth_error l j end)).
  { intros i x H.
    assert (L : i < length l) by (apply nth_error_Some; rewrite H; discriminate).
    assert (N : l <> []) by (intros ->; cbn in L; lia).
    split.
    - destruct (Nat.eq_dec (S i) (length l)) as [Q|Q].
      + replace (i + 1) with (length l) by lia.
        rewrite Nat.mod_same by lia.
        replace (nth_error l (S i)) with (@None nat)
          by (symmetry; apply nth_error_None; lia).
        symmetry. apply after_nth. exact N.
      + rewrite Nat.mod_small by lia. replace (i + 1) with (S i) by lia.
        destruct (nth_error l (S i)) eqn:Z; [reflexivity|].
        apply nth_error_None in Z. lia.
    - destruct i as [|j].
      + rewrite Nat.mod_small by lia. symmetry. apply before_nth. exact N.
      + replace (S j + length l - 1) with (j + 1 * length l) by lia.
        rewrite Nat.mod_add by lia. rewrite Nat.mod_small by lia. reflexivity. }
  split; intros H i x Hx; specialize (H i x Hx); destruct (E i x Hx) as [A B];
    [rewrite A, B in H | rewrite A, B]; exact H.
Qed.

Lemma linked_app m l1 l2 : forall b a, linked m b (l1 ++ l2) a <->
  linked m b l1 (after l2 a) /\ linked m (before b l1) l2 a.
Proof.
  induction l1 as [|x l1 IH]; intros b a; cbn [app linked before].
  - intuition.
  - rewrite IH.
    assert (E : after (l1 ++ l2) a = after l1 (after l2 a)) by (destruct l1; reflexivity).
    rewrite E. intuition.
Qed.

Lemma before_app l1 l2 : forall b, before b (l1 ++ l2) = before (before b l1) l2.
Proof. induction l1 as [|x l1 IH]; intros b; cbn; [reflexivity | apply IH]. Qed.

Lemma before_any l b b' : l <> [] -> before b l = before b' l.
Proof. destruct l; [easy | reflexivity]. Qed.

Lemma ring_rotate m l1 l2 : ring m (l1 ++ l2) -> ring m (l2 ++ l1).
Proof.
  rewrite !ring_linked.
  destruct l1 as [|x l1]; [rewrite app_nil_r; auto|].
  destruct l2 as [|y l2]; [rewrite app_nil_r; auto|].
  rewrite !linked_app, !before_app.
  rewrite (before_any (x :: l1) (before None (y :: l2)) None) by discriminate.
  rewrite (before_any (y :: l2) (before None (x :: l1)) None) by discriminate.
  cbn [after app]. tauto.
Qed.

Lemma linked_frame m m' l : (forall x, In x l -> nth_error m' x = nth_error m x) ->
  forall b a, linked m b l a -> linked m' b l a.
Proof.
  induction l as [|x l IH]; intros F b a H; cbn [linked] in *; [auto|].
  destruct H as [P Q]. split.
  - unfold points in *. rewrite F by (left; reflexivity). exact P.
  - apply IH; [|exact Q]. intros y Hy. apply F. right. exact Hy.
Qed.

Lemma in_memory_frame m m' q : (forall x, In x (elements q) -> nth_error m' x = nth_error m x) ->
  in_memory m q -> in_memory m' q.
Proof.
  intros F H. destruct q as [l|l]; cbn [in_memory elements] in *.
  - apply line_linked. apply (linked_frame m); [exact F | apply line_linked; exact H].
  - apply ring_linked. apply (linked_frame m); [exact F | apply ring_linked; exact H].
Qed.

(** * Single steps *)
Lemma points_lt m x a b : points m x a b -> x < length m.
Proof. intros H. apply nth_error_Some. rewrite H. discriminate. Qed.

Lemma set_next_ok m x v n : nth_error m x = Some n ->
  set_next m x v = Ok (update m x (QNode (Some v) (q_prev n))).
Proof. intros H. unfold set_next, node_at. rewrite H. reflexivity. Qed.
Lemma set_prev_ok m x v n : nth_error m x = Some n ->
  set_prev m x v = Ok (update m x (QNode (q_next n) (Some v))).
Proof. intros H. unfold set_prev, node_at. rewrite H. reflexivity. Qed.
Lemma get_next_ok m x n v : nth_error m x = Some n -> q_next n = Some v ->
  get_next m x = Ok v.
Proof. intros H G. unfold get_next, node_at. rewrite H. cbn. rewrite G. reflexivity. Qed.
Lemma get_prev_ok m x n v : nth_error m x = Some n -> q_prev n = Some v ->
  get_prev m x = Ok v.
Proof. intros H G. unfold get_prev, node_at. rewrite H. cbn. rewrite G. reflexivity. Qed.

Lemma look_new (m : qmem) x n : x < length m -> nth_error (update m x n) x = Some n.
Proof. apply nth_error_update_eq. Qed.
Lemma look_old (m : qmem) x y n : x <> y -> nth_error (update m x n) y = nth_error m y.
Proof. apply nth_error_update_neq. Qed.

(** The memory after putting [e] behind [p]. *)
Lemma insque_after m e p nx pv : e < length m -> e <> p -> points m p nx pv ->
  nx <> Some e ->
  (forall x, nx = Some x -> exists n, nth_error m x = Some n) ->
  exists m', insque m e (Some p) = Ok m' /\ length m' = length m /\
    nth_error m' e = Some (QNode (Some nx) (Some (Some p))) /\
    (nx <> Some p -> points m' p (Some e) pv) /\
    (nx = Some p -> points m' p (Some e) (Some e)) /\
    (forall x n, nx = Some x -> x <> p -> nth_error m x = Some n ->
       nth_error m' x = Some (QNode (q_next n) (Some (Some e)))) /\
    (forall y, y <> e -> y <> p -> nx <> Some y -> nth_error m' y = nth_error m y).
Proof.
  intros Le Nep Pp Ne Nx. pose proof (points_lt _ _ _ _ Pp) as Lp.
  destruct (nth_error m e) as [ne|] eqn:He; [|apply nth_error_None in He; lia].
  unfold insque.
  rewrite (get_next_ok m p _ nx Pp eq_refl). cbn [bind].
  rewrite (set_next_ok m e nx ne He). cbn [bind].
  rewrite (set_prev_ok _ e (Some p) _ (look_new m e _ Le)). cbn [bind q_next].
  set (m1 := update (update m e _) e _).
  assert (L1 : length m1 = length m) by (unfold m1; rewrite !update_length; reflexivity).
  assert (E1 : nth_error m1 e = Some (QNode (Some nx) (Some (Some p)))).
  { unfold m1. apply look_new. rewrite update_length. exact Le. }
  assert (P1 : points m1 p nx pv).
  { unfold points, m1. rewrite !look_old by auto. exact Pp. }
  assert (O1 : forall y, y <> e -> nth_error m1 y = nth_error m y).
  { intros y Hy. unfold m1. rewrite !look_old by auto. reflexivity. }
  clearbody m1.
  rewrite (set_next_ok m1 p (Some e) _ P1). cbn [bind q_prev].
  set (m2 := update m1 p _).
  assert (L2 : length m2 = length m) by (unfold m2; rewrite update_length; exact L1).
  assert (E2 : nth_error m2 e = Some (QNode (Some nx) (Some (Some p)))).
  { unfold m2. rewrite look_old by auto. exact E1. }
  assert (P2 : points m2 p (Some e) pv).
  { unfold points, m2. apply look_new. lia. }
  assert (O2 : forall y, y <> e -> y <> p -> nth_error m2 y = nth_error m y).
  { intros y Hy Hp. unfold m2. rewrite look_old by auto. apply O1. exact Hy. }
  clearbody m2.
  rewrite (get_next_ok m2 e _ nx E2 eq_refl). cbn [bind].
  destruct nx as [x|].
  - assert (Nxe : x <> e) by (intros ->; apply Ne; reflexivity).
    destruct (Nx x eq_refl) as [n Hn].
    destruct (Nat.eq_dec x p) as [->|Nxp].
    + rewrite (set_prev_ok m2 p (Some e) _ P2). cbn [q_next].
      eexists. split; [reflexivity|]. split; [rewrite update_length; exact L2|].
      split; [rewrite look_old by auto; exact E2|].
      split; [intros Q; elim Q; reflexivity|].
      split; [intros _; apply look_new; lia|].
      split; [intros y k Hy Ny _; injection Hy as <-; elim Ny; reflexivity|].
      intros y Ye Yp _. rewrite look_old by auto. apply O2; assumption.
    + assert (Hx : nth_error m2 x = Some n) by (rewrite O2 by auto; exact Hn).
      rewrite (set_prev_ok m2 x (Some e) _ Hx).
      assert (Lx : x < length m2) by (apply nth_error_Some; rewrite Hx; discriminate).
      eexists. split; [reflexivity|]. split; [rewrite update_length; exact L2|].
      split; [rewrite look_old by auto; exact E2|].
      split; [intros _; unfold points; rewrite look_old by auto; exact P2|].
      split; [intros Q; injection Q as <-; elim Nxp; reflexivity|].
      split.
      { intros y k Hy Ny Hk. injection Hy as <-. rewrite Hn in Hk. injection Hk as <-.
        apply look_new. exact Lx. }
      intros y Ye Yp Yx. rewrite look_old by (intros ->; apply Yx; reflexivity).
      apply O2; assumption.
  - exists m2. split; [reflexivity|]. split; [exact L2|]. split; [exact E2|].
    split; [intros _; exact P2|]. split; [discriminate|]. split; [discriminate|].
    intros y Ye Yp _. apply O2; assumption.
Qed.

(** Putting [e] behind [p] inside a piece of a list. *)
Lemma insert_linked m b l1 p l2 a e :
  NoDup (l1 ++ p :: l2) -> ~ In e (l1 ++ p :: l2) -> e < length m ->
  linked m b (l1 ++ p :: l2) a -> (l2 <> [] \/ a = None) ->
  exists m', insque m e (Some p) = Ok m' /\ length m' = length m /\
    linked m' b (l1 ++ p :: e :: l2) a /\
    (forall y, y <> e -> ~ In y (l1 ++ p :: l2) -> nth_error m' y = nth_error m y).
Proof.
  intros ND NE Le L A.
  apply linked_app in L. destruct L as [L1 L2]. cbn [linked] in L2.
  destruct L2 as [Pp L2].
  assert (Nep : e <> p).
  { intros ->. apply NE. apply in_or_app. right. left. reflexivity. }
  pose proof (NoDup_remove_2 _ _ _ ND) as Np.
  pose proof (NoDup_remove_1 _ _ _ ND) as ND'.
  assert (X : after l2 a <> Some e /\ after l2 a <> Some p /\
    (forall x, after l2 a = Some x -> exists n, nth_error m x = Some n)).
  { destruct l2 as [|x l2]; cbn [after].
    - destruct A as [A| ->]; [elim A; reflexivity|].
      split; [discriminate|]. split; [discriminate|]. intros y Hy; discriminate Hy.
    - split; [intros Q; injection Q as ->; apply NE; apply in_or_app; right; right; left; reflexivity|].
      split; [intros Q; injection Q as ->; apply Np; apply in_or_app; right; left; reflexivity|].
      intros y Hy. injection Hy as <-. cbn [linked] in L2. destruct L2 as [Px _].
      eexists. exact Px. }
  destruct X as (X1 & X2 & X3).
  destruct (insque_after m e p _ _ Le Nep Pp X1 X3)
    as (m' & R & Len & E' & P' & _ & N' & F').
  exists m'. split; [exact R|]. split; [exact Len|]. split.
  - apply linked_app. split.
    + cbn [after]. apply (linked_frame m); [|exact L1].
      intros x Hx. apply F'.
      * intros ->. apply NE. apply in_or_app. left. exact Hx.
      * intros ->. apply Np. apply in_or_app. left. exact Hx.
      * intros Q. destruct l2 as [|y l2].
        { destruct A as [A| ->]; [elim A; reflexivity | discriminate Q]. }
        cbn [after] in Q. injection Q as ->. cbn [app] in ND'.
        apply (NoDup_remove_2 l1 l2 x ND'). apply in_or_app. left. exact Hx.
    + cbn [linked after]. split; [exact (P' X2)|]. split; [exact E'|].
      destruct l2 as [|x l2]; [exact I|]. cbn [linked after] in *.
      destruct L2 as [Px L2]. split.
      * assert (Q : x <> p) by congruence. exact (N' x _ eq_refl Q Px).
      * apply (linked_frame m); [|exact L2]. intros y Hy. apply F'.
        { intros ->. apply NE. apply in_or_app. right. right. right. exact Hy. }
        { intros ->. apply Np. apply in_or_app. right. right. exact Hy. }
        { intros Q. injection Q as ->. apply (NoDup_remove_2 l1 l2 y ND').
          apply in_or_app. right. exact Hy. }
  - intros y Ye Yl. apply F'; [exact Ye| |].
    + intros ->. apply Yl. apply in_or_app. right. left. reflexivity.
    + intros Q. apply Yl. apply in_or_app. right. right.
      destruct l2 as [|x l2].
      { destruct A as [A| ->]; [elim A; reflexivity | discriminate Q]. }
      injection Q as ->. left. reflexivity.
Qed.

Lemma nodup_swap {A} (l1 l2 : list A) : NoDup (l1 ++ l2) -> NoDup (l2 ++ l1).
Proof. apply Permutation_NoDup. apply Permutation_app_comm. Qed.

Lemma insert_ring m l1 p l2 e :
  NoDup (l1 ++ p :: l2) -> ~ In e (l1 ++ p :: l2) -> e < length m ->
  ring m (l1 ++ p :: l2) ->
  exists m', insque m e (Some p) = Ok m' /\ length m' = length m /\
    ring m' (l1 ++ p :: e :: l2) /\
    (forall y, y <> e -> ~ In y (l1 ++ p :: l2) -> nth_error m' y = nth_error m y).
Proof.
  intros ND NE Le R. apply ring_rotate in R. apply nodup_swap in ND.
  assert (NE' : ~ In e ((p :: l2) ++ l1)).
  { intros Q. apply NE. apply in_app_or in Q. apply in_or_app. tauto. }
  assert (K : exists m', insque m e (Some p) = Ok m' /\ length m' = length m /\
    ring m' ((p :: e :: l2) ++ l1) /\
    (forall y, y <> e -> ~ In y ((p :: l2) ++ l1) -> nth_error m' y = nth_error m y)).
  { cbn [app] in *. set (l := l2 ++ l1) in *. clearbody l. clear NE l1 l2.
    destruct l as [|x l].
    - apply ring_linked in R. cbn [before after linked] in R. destruct R as [P _].
      destruct (insque_after m e p (Some p) (Some p) Le) as
        (m' & C & Len & E' & _ & P' & _ & F').
      + intros ->. apply NE'. left. reflexivity.
      + exact P.
      + intros Q. injection Q as ->. apply NE'. left. reflexivity.
      + intros x Hx. injection Hx as <-. eexists. exact P.
      + exists m'. split; [exact C|]. split; [exact Len|]. split.
        * apply ring_linked. cbn [before after linked].
          split; [exact (P' eq_refl)|]. split; [exact E' | exact I].
        * intros y Ye Yl. apply F'; [exact Ye| |].
          { intros ->. apply Yl. left. reflexivity. }
          { intros Q. injection Q as ->. apply Yl. left. reflexivity. }
    - apply ring_linked in R. cbn [before after] in R.
      destruct (insert_linked m _ [] p (x :: l) _ e ND NE' Le R) as
        (m' & C & Len & L' & F'); [left; discriminate|].
      exists m'. split; [exact C|]. split; [exact Len|]. split; [|exact F'].
      apply ring_linked. exact L'. }
  destruct K as (m' & C & Len & R' & F').
  exists m'. split; [exact C|]. split; [exact Len|]. split.
  - apply (ring_rotate m' (p :: e :: l2) l1). exact R'.
  - intros y Ye Yl. apply F'; [exact Ye|]. intros Q. apply Yl.
    apply in_app_or in Q. apply in_or_app. tauto.
Qed.

(** The memory after taking [e] out. *)
Lemma remque_at m e nx pv : points m e nx pv ->
  nx <> Some e -> pv <> Some e ->
  (forall x, nx = Some x -> exists n, nth_error m x = Some n) ->
  (forall x, pv = Some x -> exists n, nth_error m x = Some n) ->
  exists m', remque m e = Ok m' /\ length m' = length m /\
    nth_error m' e = nth_error m e /\
    (forall x n, nth_error m x = Some n -> nth_error m' x =
       Some (QNode (if (match pv with Some y => x =? y | None => false end) then Some nx else q_next n)
                   (if (match nx with Some y => x =? y | None => false end) then Some pv else q_prev n))).
Proof.
  intros P N1 N2 X1 X2. pose proof (points_lt _ _ _ _ P) as Le. unfold remque.
  rewrite (get_next_ok m e _ nx P eq_refl). cbn [bind].
  assert (K : exists m1,
    (match nx with
     | None => Ok m
     | Some x => let* p := get_prev m e in set_prev m x p
     end) = Ok m1 /\ length m1 = length m /\ points m1 e nx pv /\
    (forall x n, nth_error m x = Some n -> nth_error m1 x =
       Some (QNode (q_next n)
         (if (match nx with Some y => x =? y | None => false end) then Some pv else q_prev n)))).
  { destruct nx as [x|].
    - destruct (X1 x eq_refl) as [n Hn].
      rewrite (get_prev_ok m e _ pv P eq_refl). cbn [bind].
      rewrite (set_prev_ok m x pv n Hn).
      assert (Nx : x <> e) by (intros ->; apply N1; reflexivity).
      assert (Lx : x < length m) by (apply nth_error_Some; rewrite Hn; discriminate).
      eexists. split; [reflexivity|]. split; [apply update_length|].
      split; [unfold points; rewrite look_old by auto; exact P|].
      intros y k Hk. destruct (Nat.eqb_spec y x) as [->|Ny].
      + rewrite look_new by exact Lx. rewrite Hn in Hk. injection Hk as <-. reflexivity.
      + rewrite look_old by auto. rewrite Hk. destruct k; reflexivity.
    - exists m. split; [reflexivity|]. split; [reflexivity|]. split; [exact P|].
      intros y k Hk. rewrite Hk. destruct k; reflexivity. }
  destruct K as (m1 & -> & L1 & P1 & F1). cbn [bind].
  rewrite (get_prev_ok m1 e _ pv P1 eq_refl). cbn [bind].
  assert (K : exists m2,
    (match pv with
     | None => Ok m1
     | Some x => let* n := get_next m1 e in set_next m1 x n
     end) = Ok m2 /\ length m2 = length m /\ points m2 e nx pv /\
    (forall x n, nth_error m1 x = Some n -> nth_error m2 x =
       Some (QNode
         (if (match pv with Some y => x =? y | None => false end) then Some nx else q_next n)
         (q_prev n)))).
  { destruct pv as [x|].
    - destruct (X2 x eq_refl) as [n0 Hn0]. pose proof (F1 x n0 Hn0) as Hn.
      rewrite (get_next_ok m1 e _ nx P1 eq_refl). cbn [bind].
      rewrite (set_next_ok m1 x nx _ Hn).
      assert (Nx : x <> e) by (intros ->; apply N2; reflexivity).
      assert (Lx : x < length m1) by (apply nth_error_Some; rewrite Hn; discriminate).
      eexists. split; [reflexivity|]. split; [rewrite update_length; exact L1|].
      split; [unfold points; rewrite look_old by auto; exact P1|].
      intros y k Hk. destruct (Nat.eqb_spec y x) as [->|Ny].
      + rewrite look_new by exact Lx. rewrite Hn in Hk. injection Hk as <-. reflexivity.
      + rewrite look_old by auto. rewrite Hk. destruct k; reflexivity.
    - exists m1. split; [reflexivity|]. split; [exact L1|]. split; [exact P1|].
      intros y k Hk. rewrite Hk. destruct k; reflexivity. }
  destruct K as (m2 & -> & L2 & P2 & F2).
  exists m2. split; [reflexivity|]. split; [exact L2|].
  split; [rewrite P, P2; reflexivity|].
  intros x n Hx. rewrite (F2 x _ (F1 x n Hx)). cbn [q_next q_prev]. reflexivity.
Qed.

Lemma before_some l : forall x, exists y, before (Some x) l = Some y /\ In y (x :: l).
Proof.
  induction l as [|z l IH]; intros x; cbn [before].
  - exists x. split; [reflexivity | left; reflexivity].
  - destruct (IH z) as (y & E & I). exists y. split; [exact E|]. right. exact I.
Qed.

Lemma before_in l b y : l <> [] -> before b l = Some y -> In y l.
Proof.
  destruct l as [|x l]; [easy|]. intros _ H. cbn [before] in H.
  destruct (before_some l x) as (z & E & I). rewrite E in H. injection H as <-. exact I.
Qed.

(** A piece of a list whose first object gets another object before it or whose
    last one gets another behind it. *)
Lemma linked_first m m' x l b b' a : linked m b (x :: l) a -> NoDup (x :: l) ->
  (forall y, In y l -> nth_error m' y = nth_error m y) ->
  (forall n, nth_error m x = Some n ->
     nth_error m' x = Some (QNode (q_next n) (Some b'))) ->
  linked m' b' (x :: l) a.
Proof.
  cbn [linked]. intros [P L] ND F X. split.
  - exact (X _ P).
  - apply (linked_frame m); [exact F | exact L].
Qed.

Lemma linked_last m m' x l b a a' : linked m b (l ++ [x]) a ->
  (forall y, In y l -> nth_error m' y = nth_error m y) ->
  (forall n, nth_error m x = Some n ->
     nth_error m' x = Some (QNode (Some a') (q_prev n))) ->
  linked m' b (l ++ [x]) a'.
Proof.
  rewrite !linked_app. intros [L [P _]] F X. cbn [after] in *. split.
  - apply (linked_frame m); [exact F | exact L].
  - split; [|exact I]. exact (X _ P).
Qed.

Lemma linked_mem m l x : forall b a, linked m b l a -> In x l ->
  exists n, nth_error m x = Some n.
Proof.
  induction l as [|y l IH]; intros b a L I; [destruct I|].
  cbn [linked] in L. destruct L as [P L]. destruct I as [<-|I].
  - eexists. exact P.
  - exact (IH _ _ L I).
Qed.

Lemma eqb_no x y : x <> y -> (x =? y) = false.
Proof. apply Nat.eqb_neq. Qed.

Ltac mem := first [assumption | repeat rewrite in_app_iff; cbn [In]; tauto].

Lemma remove_linked m l1 e l2 :
  NoDup (l1 ++ e :: l2) -> linked m None (l1 ++ e :: l2) None ->
  exists m', remque m e = Ok m' /\ length m' = length m /\
    linked m' None (l1 ++ l2) None /\ nth_error m' e = nth_error m e /\
    (forall y n, ~ In y (l1 ++ l2) -> nth_error m y = Some n -> nth_error m' y = Some n).
Proof.
  intros ND L. pose proof L as L0. apply linked_app in L. destruct L as [L1 L2].
  cbn [linked after] in *. destruct L2 as [P L2].
  pose proof (NoDup_remove_2 _ _ _ ND) as Ne.
  pose proof (NoDup_remove_1 _ _ _ ND) as ND'.
  assert (M : forall x, In x (l1 ++ l2) -> exists n, nth_error m x = Some n).
  { intros x Hx. apply (linked_mem m (l1 ++ e :: l2) x _ _ L0).
    apply in_app_or in Hx. apply in_or_app. cbn [In]. tauto. }
  assert (A : forall x, after l2 None = Some x -> In x l2).
  { intros x Q. destruct l2; [discriminate|]. injection Q as ->. left. reflexivity. }
  assert (B : forall x, before None l1 = Some x -> In x l1).
  { intros x Q. destruct l1 as [|y l1]; [discriminate|].
    apply (before_in _ None); [discriminate | exact Q]. }
  destruct (remque_at m e _ _ P) as (m' & R & Len & E & F).
  { intros Q. apply Ne. apply in_or_app. right. exact (A _ Q). }
  { intros Q. apply Ne. apply in_or_app. left. exact (B _ Q). }
  { intros x Q. apply M. apply in_or_app. right. exact (A _ Q). }
  { intros x Q. apply M. apply in_or_app. left. exact (B _ Q). }
  exists m'. split; [exact R|]. split; [exact Len|]. split; [|split; [exact E|]].
  - (* which fields changed *)
    assert (G : forall x, In x (l1 ++ l2) -> before None l1 <> Some x ->
                after l2 None <> Some x -> nth_error m' x = nth_error m x).
    { intros x Hx N1 N2. destruct (M x Hx) as [n Hn]. rewrite (F x n Hn), Hn.
      destruct (before None l1) as [y|]; [rewrite (eqb_no x y) by congruence|];
      (destruct (after l2 None) as [z|]; [rewrite (eqb_no x z) by congruence|]);
      destruct n; reflexivity. }
    apply linked_app. split.
    + destruct l1 as [|u l1]; [exact I|].
      assert (NZ : u :: l1 <> []) by discriminate.
      destruct (exists_last NZ) as (k & x & Ek). rewrite Ek in *. clear Ek NZ u l1.
      rewrite before_last in *.
      apply (linked_last m m' x k _ (Some e)); [exact L1| |].
      * intros y Hy. apply G; [mem| |].
        { intros Q. injection Q as <-. rewrite <- app_assoc in ND'. cbn [app] in ND'.
          apply (NoDup_remove_2 _ _ _ ND'). mem. }
        { intros Q. pose proof (A _ Q) as Hy2. 
          apply in_split in Hy2. destruct Hy2 as (q1 & q2 & ->).
          rewrite app_assoc in ND'. apply (NoDup_remove_2 _ _ _ ND'). mem. }
      * intros n Hn. rewrite (F x n Hn). rewrite Nat.eqb_refl.
        destruct (after l2 None) as [z|] eqn:Ez; [|reflexivity].
        rewrite (eqb_no x z); [reflexivity|]. intros ->. pose proof (A z eq_refl) as Hz.
        rewrite <- app_assoc in ND'. cbn [app] in ND'.
        apply (NoDup_remove_2 _ _ _ ND'). mem.
    + destruct l2 as [|x l2]; [exact I|].
      apply (linked_first m m' x l2 (Some e)); [exact L2| | |].
      * clear - ND'. induction l1 as [|y l1 IH]; [exact ND'|]. apply IH.
        inversion ND'; assumption.
      * intros y Hy. apply G; [mem| |].
        { intros Q. pose proof (B _ Q) as Hy2. 
          apply in_split in Hy2. destruct Hy2 as (q1 & q2 & ->).
          rewrite <- app_assoc in ND'. cbn [app] in ND'.
          apply (NoDup_remove_2 _ _ _ ND'). mem. }
        { intros Q. injection Q as ->. apply (NoDup_remove_2 _ _ _ ND'). mem. }
      * intros n Hn. rewrite (F x n Hn). cbn [after]. rewrite Nat.eqb_refl.
        destruct (before None l1) as [z|] eqn:Ez; [|reflexivity].
        rewrite (eqb_no x z); [reflexivity|]. intros ->. pose proof (B z eq_refl) as Hz.
        apply (NoDup_remove_2 _ _ _ ND'). mem.
  - intros y n Hy Hn. rewrite (F y n Hn).
    destruct (before None l1) as [z|] eqn:Ez.
    + rewrite (eqb_no y z) by (intros ->; apply Hy; apply in_or_app; left; apply B; reflexivity).
      destruct (after l2 None) as [z2|] eqn:Ez2.
      * rewrite (eqb_no y z2) by (intros ->; apply Hy; apply in_or_app; right; apply A; reflexivity).
        destruct n; reflexivity.
      * destruct n; reflexivity.
    + destruct (after l2 None) as [z2|] eqn:Ez2.
      * rewrite (eqb_no y z2) by (intros ->; apply Hy; apply in_or_app; right; apply A; reflexivity).
        destruct n; reflexivity.
      * destruct n; reflexivity.
Qed.

Lemma remove_ring_first m e l :
  NoDup (e :: l) -> ring m (e :: l) ->
  exists m', remque m e = Ok m' /\ length m' = length m /\ ring m' l /\
    (forall y n, ~ In y l -> nth_error m y = Some n -> nth_error m' y = Some n).
Proof.
  intros ND R. apply ring_linked in R. cbn [before after] in R.
  inversion ND as [|? ? Ne ND']; subst. clear ND.
  cbn [linked] in R. destruct R as [P L].
  destruct l as [|x l].
  - cbn [before after] in *. unfold remque.
    pose proof (points_lt _ _ _ _ P) as Le.
    rewrite (get_next_ok m e _ _ P eq_refl). cbn [bind].
    rewrite (get_prev_ok m e _ _ P eq_refl). cbn [bind].
    rewrite (set_prev_ok m e _ _ P). cbn [bind q_next].
    set (m1 := update m e _).
    assert (P1 : points m1 e (Some e) (Some e)) by (apply look_new; exact Le).
    rewrite (get_prev_ok m1 e _ _ P1 eq_refl). cbn [bind].
    rewrite (get_next_ok m1 e _ _ P1 eq_refl). cbn [bind].
    rewrite (set_next_ok m1 e _ _ P1). cbn [q_prev].
    eexists. split; [reflexivity|]. unfold m1. split; [rewrite !update_length; reflexivity|].
    split; [intros i a Hi; destruct i; discriminate|].
    intros y n _ Hn. destruct (Nat.eq_dec y e) as [->|N].
    + rewrite look_new by (rewrite update_length; exact Le). unfold points in P.
      rewrite <- Hn, P. reflexivity.
    + rewrite !look_old by auto. exact Hn.
  - cbn [after before] in *.
    destruct (before_some l x) as (y & By & Iy). rewrite By in P.
    assert (M : forall z, In z (x :: l) -> exists n, nth_error m z = Some n).
    { intros z Hz. exact (linked_mem m (x :: l) z _ _ L Hz). }
    destruct (remque_at m e _ _ P) as (m' & C & Len & _ & F).
    { intros Q. injection Q as ->. apply Ne. left. reflexivity. }
    { intros Q. injection Q as ->. apply Ne. exact Iy. }
    { intros z Q. injection Q as <-. apply M. left. reflexivity. }
    { intros z Q. injection Q as <-. apply M. exact Iy. }
    exists m'. split; [exact C|]. split; [exact Len|]. split.
    + apply ring_linked. cbn [before after]. rewrite By.
      destruct l as [|u l].
      * injection By as <-. cbn [linked after] in *. destruct L as [Px _].
        split; [|exact I]. unfold points in *. rewrite (F x _ Px).
        rewrite Nat.eqb_refl. reflexivity.
      * assert (NZ : u :: l <> []) by discriminate.
        destruct (exists_last NZ) as (k & w & Ek). rewrite Ek in *. clear Ek NZ u l.
        rewrite before_last in By. injection By as ->.
        inversion ND' as [|? ? Nx ND2]; subst.
        assert (Nxy : x <> y) by (intros ->; apply Nx; mem).
        cbn [linked] in L |- *. destruct L as [Px L].
        apply linked_app in L. destruct L as [Lk [Py _]]. cbn [after] in Lk.
        split.
        { unfold points in *. rewrite (F x _ Px). rewrite (eqb_no x y Nxy), Nat.eqb_refl.
          cbn [q_next]. destruct k; reflexivity. }
        apply linked_app. split.
        { apply (linked_frame m); [|exact Lk]. intros z Hz.
          destruct (M z) as [n Hn]; [right; mem|].
          rewrite (F z n Hn), Hn.
          rewrite (eqb_no z y), (eqb_no z x); [destruct n; reflexivity| |].
          - intros ->. apply Nx. mem.
          - intros ->. apply (NoDup_remove_2 _ _ _ ND2). mem. }
        { cbn [linked after]. split; [|exact I]. unfold points in *.
          rewrite (F y _ Py). rewrite Nat.eqb_refl, (eqb_no y x) by auto. reflexivity. }
    + intros z n Hz Hn. rewrite (F z n Hn).
      rewrite (eqb_no z y), (eqb_no z x); [destruct n; reflexivity| |].
      * intros ->. apply Hz. left. reflexivity.
      * intros ->. apply Hz. exact Iy.
Qed.

Lemma remove_ring m l1 e l2 :
  NoDup (l1 ++ e :: l2) -> ring m (l1 ++ e :: l2) ->
  exists m', remque m e = Ok m' /\ length m' = length m /\ ring m' (l1 ++ l2) /\
    (forall y n, ~ In y (l1 ++ l2) -> nth_error m y = Some n -> nth_error m' y = Some n).
Proof.
  intros ND R. apply ring_rotate in R. apply nodup_swap in ND. cbn [app] in *.
  destruct (remove_ring_first m e (l2 ++ l1) ND R) as (m' & C & Len & R' & F).
  exists m'. split; [exact C|]. split; [exact Len|].
  split; [apply ring_rotate; exact R'|].
  intros y n Hy. apply F. rewrite in_app_iff in *. tauto.
Qed.

(** * The operations on the lists of a program *)
Lemma behind_none p e l : ~ In p l -> behind p e l = l.
Proof.
  induction l as [|x l IH]; intros N; [reflexivity|]. unfold behind in *. cbn [flat_map].
  rewrite (eqb_no x p) by (intros ->; apply N; left; reflexivity).
  rewrite IH by (intros Q; apply N; right; exact Q). reflexivity.
Qed.

Lemma behind_some p e l1 l2 : ~ In p (l1 ++ l2) ->
  behind p e (l1 ++ p :: l2) = l1 ++ p :: e :: l2.
Proof.
  intros N. unfold behind. rewrite flat_map_app. cbn [flat_map].
  fold (behind p e l1). fold (behind p e l2). rewrite Nat.eqb_refl.
  rewrite !behind_none by (intros Q; apply N; mem). reflexivity.
Qed.

Lemma without_none e l : ~ In e l -> without e l = l.
Proof.
  induction l as [|x l IH]; intros N; [reflexivity|]. unfold without in *. cbn [filter].
  rewrite (eqb_no x e) by (intros ->; apply N; left; reflexivity). cbn [negb].
  rewrite IH by (intros Q; apply N; right; exact Q). reflexivity.
Qed.

Lemma without_some e l1 l2 : ~ In e (l1 ++ l2) ->
  without e (l1 ++ e :: l2) = l1 ++ l2.
Proof.
  intros N. unfold without. rewrite filter_app. cbn [filter].
  fold (without e l1). fold (without e l2). rewrite Nat.eqb_refl. cbn [negb].
  rewrite !without_none by (intros Q; apply N; mem). reflexivity.
Qed.

Lemma on_elements_id f q : f (elements q) = elements q -> on_elements f q = q.
Proof. destruct q; cbn; intros ->; reflexivity. Qed.

Lemma elements_on f q : elements (on_elements f q) = f (elements q).
Proof. destruct q; reflexivity. Qed.

Lemma used_app q1 q2 : used (q1 ++ q2) = used q1 ++ used q2.
Proof. apply flat_map_app. Qed.

Lemma used_in x q qs : In q qs -> In x (elements q) -> In x (used qs).
Proof. intros A B. apply in_flat_map. exists q. split; assumption. Qed.

Lemma map_on_id f qs : (forall q, In q qs -> f (elements q) = elements q) ->
  map (on_elements f) qs = qs.
Proof.
  induction qs as [|q qs IH]; intros H; [reflexivity|]. cbn [map].
  rewrite (on_elements_id f q (H q (or_introl eq_refl))), IH; [reflexivity|].
  intros k Hk. apply H. right. exact Hk.
Qed.

(** The list that an object is in. *)
Lemma find_list x qs : NoDup (used qs) -> In x (used qs) ->
  exists q1 q q2 l1 l2, qs = q1 ++ q :: q2 /\ elements q = l1 ++ x :: l2 /\
    ~ In x (l1 ++ l2) /\ ~ In x (used q1) /\ ~ In x (used q2).
Proof.
  intros ND Hx. apply in_flat_map in Hx. destruct Hx as (q & Hq & Hx).
  apply in_split in Hq. destruct Hq as (q1 & q2 & ->).
  apply in_split in Hx. destruct Hx as (l1 & l2 & E).
  exists q1, q, q2, l1, l2. split; [reflexivity|]. split; [exact E|].
  rewrite used_app in ND. cbn [used flat_map] in ND. fold (used q2) in ND. rewrite E in ND.
  rewrite <- app_assoc in ND. cbn [app] in ND. rewrite app_assoc in ND.
  apply NoDup_remove_2 in ND. rewrite !in_app_iff in ND. rewrite in_app_iff. tauto.
Qed.

Lemma nodup_mid (a b c : list nat) : NoDup (a ++ b ++ c) -> NoDup b.
Proof.
  induction a as [|x a IH]; intros H.
  - induction b as [|y b IHb]; [constructor|]. cbn [app] in H.
    inversion H; subst. constructor; [intros Q; apply H2; mem | apply IHb; assumption].
  - apply IH. cbn [app] in H. inversion H; assumption.
Qed.

Lemma split_inv qs1 q qs2 m : qinv m (qs1 ++ q :: qs2) ->
  NoDup (elements q) /\ in_memory m q /\
  (forall x, In x (elements q) -> ~ In x (used qs1) /\ ~ In x (used qs2)).
Proof.
  intros [ND F]. rewrite used_app in ND. cbn [used flat_map] in ND. fold (used qs2) in ND.
  split; [exact (nodup_mid _ _ _ ND)|]. split.
  - apply Forall_app in F. destruct F as [_ F]. exact (Forall_inv F).
  - intros x Hx. apply in_split in Hx. destruct Hx as (l1 & l2 & E). rewrite E in ND.
    rewrite <- app_assoc in ND. cbn [app] in ND. rewrite app_assoc in ND.
    apply NoDup_remove_2 in ND. rewrite !in_app_iff in ND. tauto.
Qed.

(** Replacing one of the lists. *)
Lemma replace_list m m' qs1 q q' qs2 :
  qinv m (qs1 ++ q :: qs2) -> in_memory m' q' ->
  NoDup (used (qs1 ++ q' :: qs2)) ->
  (forall x, In x (used qs1) \/ In x (used qs2) -> nth_error m' x = nth_error m x) ->
  qinv m' (qs1 ++ q' :: qs2).
Proof.
  intros [ND F] Q ND' Fr. split; [exact ND'|].
  apply Forall_app in F. destruct F as [F1 F2]. apply Forall_app. split.
  - apply Forall_forall. intros k Hk. apply (in_memory_frame m).
    + intros x Hx. apply Fr. left. exact (used_in x k qs1 Hk Hx).
    + rewrite Forall_forall in F1. exact (F1 k Hk).
  - constructor; [exact Q|]. apply Forall_forall. intros k Hk. apply (in_memory_frame m).
    + intros x Hx. apply Fr. right. exact (used_in x k qs2 Hk Hx).
    + apply Forall_inv_tail in F2. rewrite Forall_forall in F2. exact (F2 k Hk).
Qed.

Lemma insert_queue m q p e l1 l2 : elements q = l1 ++ p :: l2 ->
  NoDup (elements q) -> ~ In e (elements q) -> e < length m -> in_memory m q ->
  exists m', insque m e (Some p) = Ok m' /\ length m' = length m /\
    in_memory m' (on_elements (behind p e) q) /\
    (forall y, y <> e -> ~ In y (elements q) -> nth_error m' y = nth_error m y).
Proof.
  intros E ND NE Le Q.
  destruct q as [l|l]; cbn [elements in_memory on_elements] in *; subst l;
    rewrite (behind_some p e l1 l2 (NoDup_remove_2 _ _ _ ND)).
  - apply line_linked in Q.
    destruct (insert_linked m None l1 p l2 None e ND NE Le Q (or_intror eq_refl))
      as (m' & C & Len & L' & F).
    exists m'. split; [exact C|]. split; [exact Len|]. split; [|exact F].
    apply line_linked. exact L'.
  - exact (insert_ring m l1 p l2 e ND NE Le Q).
Qed.

Lemma remove_queue m q e l1 l2 : elements q = l1 ++ e :: l2 ->
  NoDup (elements q) -> in_memory m q ->
  exists m', remque m e = Ok m' /\ length m' = length m /\
    in_memory m' (on_elements (without e) q) /\
    (forall y n, ~ In y (l1 ++ l2) -> nth_error m y = Some n -> nth_error m' y = Some n).
Proof.
  intros E ND Q.
  destruct q as [l|l]; cbn [elements in_memory on_elements] in *; subst l;
    rewrite (without_some e l1 l2 (NoDup_remove_2 _ _ _ ND)).
  - apply line_linked in Q.
    destruct (remove_linked m l1 e l2 ND Q) as (m' & C & Len & L' & _ & F).
    exists m'. split; [exact C|]. split; [exact Len|]. split; [|exact F].
    apply line_linked. exact L'.
  - exact (remove_ring m l1 e l2 ND Q).
Qed.

Lemma in_memory_lt m q x : in_memory m q -> In x (elements q) ->
  exists n, nth_error m x = Some n.
Proof.
  destruct q as [l|l]; cbn [in_memory elements]; intros Q.
  - apply line_linked in Q. exact (linked_mem m l x _ _ Q).
  - apply ring_linked in Q. exact (linked_mem m l x _ _ Q).
Qed.

(** One operation: the lists are as they should be, and objects of lists that
    the operation does not name are as they were. *)
Lemma qstep_ok m qs o : qinv m qs -> qallowed (length m) qs o ->
  exists m', qstep m o = Ok m' /\ length m' = length m /\ qinv m' (qeffect qs o) /\
    (forall q, In q qs -> (forall x, In x (names o) -> ~ In x (elements q)) ->
       In q (qeffect qs o) /\ forall x, In x (elements q) -> nth_error m' x = nth_error m x) /\
    (forall y, ~ In y (used qs) -> ~ In y (names o) -> nth_error m' y = nth_error m y).
Proof.
  intros I A. destruct o as [e|p e|e|e]; cbn [qstep qeffect qallowed names] in *.
  - (* a list of its own *)
    destruct A as [Le NE]. unfold insque.
    destruct (nth_error m e) as [n|] eqn:He; [|apply nth_error_None in He; lia].
    rewrite (set_prev_ok m e None n He). cbn [bind].
    rewrite (set_next_ok _ e None _ (look_new m e _ Le)). cbn [q_prev].
    set (m' := update (update m e _) e _).
    assert (O : forall y, y <> e -> nth_error m' y = nth_error m y).
    { intros y Hy. unfold m'. rewrite !look_old by auto. reflexivity. }
    assert (E : points m' e None None).
    { unfold m', points. apply look_new. rewrite update_length. exact Le. }
    exists m'. split; [reflexivity|]. split; [unfold m'; rewrite !update_length; reflexivity|].
    clearbody m'. split; [|split].
    + destruct I as [ND F]. split.
      * cbn [used flat_map elements app]. fold (used qs). constructor; assumption.
      * constructor.
        { cbn [in_memory]. apply line_linked. cbn [linked after]. split; [exact E | exact I]. }
        apply Forall_forall. intros q Hq. apply (in_memory_frame m).
        { intros x Hx. apply O. intros ->. apply NE. exact (used_in e q qs Hq Hx). }
        rewrite Forall_forall in F. exact (F q Hq).
    + intros q Hq Hn. split; [right; exact Hq|]. intros x Hx. apply O. intros ->.
      exact (Hn e (or_introl eq_refl) Hx).
    + intros y _ Hy. apply O. intros ->. apply Hy. left. reflexivity.
  - (* behind another *)
    destruct A as (Le & NE & Hp). pose proof I as [ND F].
    destruct (find_list p qs ND Hp) as (q1 & q & q2 & l1 & l2 & -> & E & _ & N1 & N2).
    destruct (split_inv q1 q q2 m I) as (NDq & Mq & Dq).
    assert (NEq : ~ In e (elements q)).
    { intros Q. apply NE. apply (used_in e q); [mem | exact Q]. }
    destruct (insert_queue m q p e l1 l2 E NDq NEq Le Mq) as (m' & C & Len & M' & Fr).
    assert (B1 : map (on_elements (behind p e)) q1 = q1).
    { apply map_on_id. intros k Hk. apply behind_none. intros Q. apply N1.
      exact (used_in p k q1 Hk Q). }
    assert (B2 : map (on_elements (behind p e)) q2 = q2).
    { apply map_on_id. intros k Hk. apply behind_none. intros Q. apply N2.
      exact (used_in p k q2 Hk Q). }
    exists m'. split; [exact C|]. split; [exact Len|].
    rewrite map_app. cbn [map]. rewrite B1, B2.
    assert (Fr2 : forall x, In x (used q1) \/ In x (used q2) -> nth_error m' x = nth_error m x).
    { intros x Hx. apply Fr.
      - intros ->. apply NE. rewrite used_app. cbn [used flat_map]. fold (used q2). mem.
      - intros Q. specialize (Dq x Q). tauto. }
    split; [|split].
    + apply (replace_list m m' q1 q); [exact I | exact M' | | exact Fr2].
      rewrite used_app in ND, NE |- *. cbn [used flat_map] in ND, NE |- *.
      fold (used q2) in ND, NE |- *. rewrite elements_on.
      rewrite E in *. rewrite behind_some by (exact (NoDup_remove_2 _ _ _ NDq)).
      apply (Permutation_NoDup (l := e :: used q1 ++ (l1 ++ p :: l2) ++ used q2)).
      * rewrite <- !app_assoc. cbn [app]. rewrite !app_assoc.
        replace ((used q1 ++ l1) ++ p :: e :: l2 ++ used q2)
          with (((used q1 ++ l1) ++ [p]) ++ e :: l2 ++ used q2)
          by (rewrite <- app_assoc; reflexivity).
        replace ((used q1 ++ l1) ++ p :: l2 ++ used q2)
          with (((used q1 ++ l1) ++ [p]) ++ l2 ++ used q2)
          by (rewrite <- app_assoc; reflexivity).
        apply Permutation_middle.
      * constructor; assumption.
    + intros k Hk Hn.
      assert (Hk' : In k q1 \/ In k q2).
      { apply in_app_or in Hk. destruct Hk as [Hk|[<-|Hk]]; [tauto| |tauto].
        elim (Hn p (or_introl eq_refl)). rewrite E. mem. }
      split; [mem|]. intros x Hx. apply Fr2.
      destruct Hk' as [Hk'|Hk']; [left|right]; exact (used_in x k _ Hk' Hx).
    + intros y Hy Hn. apply Fr.
      * intros ->. apply Hn. right. left. reflexivity.
      * intros Q. apply Hy. apply (used_in y q); [mem | exact Q].
  - (* out *)
    pose proof I as [ND F].
    destruct (find_list e qs ND A) as (q1 & q & q2 & l1 & l2 & -> & E & _ & N1 & N2).
    destruct (split_inv q1 q q2 m I) as (NDq & Mq & Dq).
    destruct (remove_queue m q e l1 l2 E NDq Mq) as (m' & C & Len & M' & Fr).
    assert (B1 : map (on_elements (without e)) q1 = q1).
    { apply map_on_id. intros k Hk. apply without_none. intros Q. apply N1.
      exact (used_in e k q1 Hk Q). }
    assert (B2 : map (on_elements (without e)) q2 = q2).
    { apply map_on_id. intros k Hk. apply without_none. intros Q. apply N2.
      exact (used_in e k q2 Hk Q). }
    exists m'. split; [exact C|]. split; [exact Len|].
    rewrite map_app. cbn [map]. rewrite B1, B2.
    assert (Fr1 : forall x, ~ In x (l1 ++ l2) -> nth_error m' x = nth_error m x).
    { intros x Hx. destruct (nth_error m x) as [n|] eqn:Hn; [exact (Fr x n Hx Hn)|].
      apply nth_error_None in Hn. apply nth_error_None. lia. }
    assert (Fr2 : forall x, In x (used q1) \/ In x (used q2) -> nth_error m' x = nth_error m x).
    { intros x Hx. apply Fr1. intros Q. assert (Qe : In x (elements q)).
      { rewrite E. rewrite in_app_iff in *. cbn [In]. tauto. }
      specialize (Dq x Qe). tauto. }
    split; [|split].
    + apply (replace_list m m' q1 q); [exact I | exact M' | | exact Fr2].
      rewrite used_app in ND |- *. cbn [used flat_map] in ND |- *.
      fold (used q2) in ND |- *. rewrite elements_on.
      rewrite E in *. rewrite without_some by (exact (NoDup_remove_2 _ _ _ NDq)).
      rewrite <- !app_assoc in *. cbn [app] in ND. rewrite app_assoc in *.
      exact (NoDup_remove_1 _ _ _ ND).
    + intros k Hk Hn.
      assert (Hk' : In k q1 \/ In k q2).
      { apply in_app_or in Hk. destruct Hk as [Hk|[<-|Hk]]; [tauto| |tauto].
        elim (Hn e (or_introl eq_refl)). rewrite E. mem. }
      split; [mem|]. intros x Hx. apply Fr2.
      destruct Hk' as [Hk'|Hk']; [left|right]; exact (used_in x k _ Hk' Hx).
    + intros y Hy Hn. apply Fr1. intros Q. apply Hy. apply (used_in y q); [mem|].
      rewrite E. rewrite in_app_iff in *. cbn [In]. tauto.
  - (* a ring of one *)
    destruct A as [Le NE].
    destruct (nth_error m e) as [n|] eqn:He; [|apply nth_error_None in He; lia].
    rewrite (set_next_ok m e (Some e) n He). cbn [bind].
    rewrite (set_prev_ok _ e (Some e) _ (look_new m e _ Le)). cbn [q_next].
    set (m' := update (update m e _) e _).
    assert (O : forall y, y <> e -> nth_error m' y = nth_error m y).
    { intros y Hy. unfold m'. rewrite !look_old by auto. reflexivity. }
    assert (E : points m' e (Some e) (Some e)).
    { unfold m', points. apply look_new. rewrite update_length. exact Le. }
    exists m'. split; [reflexivity|]. split; [unfold m'; rewrite !update_length; reflexivity|].
    clearbody m'. split; [|split].
    + destruct I as [ND F]. split.
      * cbn [used flat_map elements app]. fold (used qs). constructor; assumption.
      * constructor.
        { cbn [in_memory]. apply ring_linked. cbn [linked after before]. split; [exact E | exact I]. }
        apply Forall_forall. intros q Hq. apply (in_memory_frame m).
        { intros x Hx. apply O. intros ->. apply NE. exact (used_in e q qs Hq Hx). }
        rewrite Forall_forall in F. exact (F q Hq).
    + intros q Hq Hn. split; [right; exact Hq|]. intros x Hx. apply O. intros ->.
      exact (Hn e (or_introl eq_refl) Hx).
    + intros y _ Hy. apply O. intros ->. apply Hy. left. reflexivity.
Qed.

Lemma qrun_ok os : forall m qs, qinv m qs -> qallallowed (length m) qs os ->
  exists m', qrun m os = Ok m' /\ length m' = length m /\ qinv m' (qeffects qs os).
Proof.
  induction os as [|o os IH]; intros m qs I A.
  - exists m. split; [reflexivity|]. split; [reflexivity | exact I].
  - destruct A as [A As]. destruct (qstep_ok m qs o I A) as (m1 & E1 & L1 & I1 & _ & _).
    rewrite <- L1 in As. destruct (IH m1 _ I1 As) as (m2 & E2 & L2 & I2).
    exists m2. cbn [qrun qeffects]. rewrite E1. cbn [bind].
    split; [exact E2|]. split; [congruence | exact I2].
Qed.
