(** Invariants of the tree of musl-tsearch.c. *)
From Coq Require Import ZArith List Bool Lia Sorting.Sorted Sorting.Permutation.
From Verif Require Import Base TsearchModel.
Import ListNotations.
Open Scope Z_scope.
Local Arguments Z.add : simpl never.
Local Arguments Z.sub : simpl never.
Local Arguments Z.mul : simpl never.
Local Arguments Z.max : simpl never.
Local Arguments Z.of_nat : simpl never.

(** * Specification vocabulary *)

Section Spec.
Context {E : Type}.
Implicit Types t : tree E.

(** In-order contents. *)
Fixpoint inorder t : list E :=
  match t with
  | Nil => []
  | Node k a0 a1 _ => inorder a0 ++ k :: inorder a1
  end.

(** The true height, independent of the recorded one. *)
Fixpoint rheight t : Z :=
  match t with
  | Nil => 0
  | Node _ a0 a1 _ => 1 + Z.max (rheight a0) (rheight a1)
  end.

(** Every recorded height is the true height and siblings differ in height by
    at most one. *)
Fixpoint avl t : Prop :=
  match t with
  | Nil => True
  | Node _ a0 a1 h =>
    avl a0 /\ avl a1 /\ h = 1 + Z.max (rheight a0) (rheight a1)
    /\ -1 <= rheight a0 - rheight a1 <= 1
  end.

(** A C comparison function of a total order up to equivalence. *)
Record total_cmp (cmp : E -> E -> Z) : Prop := {
  cmp_anti : forall x y, Z.sgn (cmp y x) = - Z.sgn (cmp x y);
  cmp_trans : forall x y z, cmp x y <= 0 -> cmp y z <= 0 -> cmp x z <= 0
}.

Definition sorted (cmp : E -> E -> Z) (l : list E) : Prop :=
  StronglySorted (fun x y => cmp x y < 0) l.

End Spec.

(** * Heights *)
Section Proofs.
Context {E : Type}.
Implicit Types t : tree E.

Lemma rheight_nonneg t : 0 <= rheight t.
Proof. induction t; cbn [rheight]; lia. Qed.

Lemma avl_height t : avl t -> height t = rheight t.
Proof. destruct t; simpl; intuition. Qed.

Lemma rheight_pos_node k (a0 a1 : tree E) h : 1 <= rheight (Node k a0 a1 h).
Proof. cbn [rheight]. pose proof (rheight_nonneg a0). pose proof (rheight_nonneg a1). lia. Qed.

(** ** Contexts *)
Fixpoint ctxl (path : list (frame E)) : list E :=
  match path with
  | [] => []
  | f :: p =>
    ctxl p ++ (if f_dir _ f then inorder (f_other _ f) ++ [f_key _ f] else [])
  end.
Fixpoint ctxr (path : list (frame E)) : list E :=
  match path with
  | [] => []
  | f :: p =>
    (if f_dir _ f then [] else f_key _ f :: inorder (f_other _ f)) ++ ctxr p
  end.

Lemma fill_inorder f t :
  inorder (fill E f t) =
  (if f_dir _ f then inorder (f_other _ f) ++ [f_key _ f] else [])
  ++ inorder t ++ (if f_dir _ f then [] else f_key _ f :: inorder (f_other _ f)).
Proof.
  destruct f as [[] k o h]; unfold fill; simpl; rewrite ?app_nil_r, <- ?app_assoc; auto.
Qed.

Lemma plug_inorder path : forall t,
  inorder (plug E path t) = ctxl path ++ inorder t ++ ctxr path.
Proof.
  induction path as [|f p IH]; intros t; cbn [plug ctxl ctxr].
  - rewrite app_nil_r; auto.
  - rewrite IH, fill_inorder, <- ?app_assoc; auto.
Qed.

Lemma ctxl_app p q : ctxl (p ++ q) = ctxl q ++ ctxl p.
Proof.
  induction p; simpl; rewrite ?app_nil_r; auto. rewrite IHp, app_assoc; auto.
Qed.
Lemma ctxr_app p q : ctxr (p ++ q) = ctxr p ++ ctxr q.
Proof. induction p; simpl; auto. rewrite IHp, app_assoc; auto. Qed.
Lemma plug_app p q t : plug E (p ++ q) t = plug E q (plug E p t).
Proof. revert t; induction p; simpl; auto. Qed.

(** ** Rotation and balancing keep the in-order contents *)
Lemma rot_inorder k (a0 a1 : tree E) hx dir t d :
  rot E k a0 a1 hx dir = Ok (t, d) -> inorder t = inorder a0 ++ k :: inorder a1.
Proof.
  unfold rot. destruct dir; simpl.
  - destruct a1 as [|yk y0 y1 hy]; [discriminate|].
    destruct (_ >? _).
    + destruct y0 as [|zk z0 z1 hz]; [discriminate|].
      intros [= <- <-]. simpl. rewrite <- ?app_assoc; simpl. rewrite <- ?app_assoc; auto.
    + intros [= <- <-]. simpl. rewrite <- ?app_assoc; auto.
  - destruct a0 as [|yk y0 y1 hy]; [discriminate|].
    destruct (_ >? _).
    + destruct y1 as [|zk z0 z1 hz]; [discriminate|].
      intros [= <- <-]. simpl. rewrite <- ?app_assoc; simpl. rewrite <- ?app_assoc; auto.
    + intros [= <- <-]. simpl. rewrite <- ?app_assoc; auto.
Qed.

Lemma balance_inorder t t' d : balance E t = Ok (t', d) -> inorder t' = inorder t.
Proof.
  destruct t as [|k a0 a1 h]; simpl; [discriminate|].
  destruct (_ <? 3).
  - intros [= <- <-]; auto.
  - apply rot_inorder.
Qed.

Lemma rebalance_inorder path : forall t t',
  rebalance E path t = Ok t' -> inorder t' = ctxl path ++ inorder t ++ ctxr path.
Proof.
  induction path as [|f p IH]; intros t t'; cbn [rebalance ctxl ctxr].
  - intros [= <-]. rewrite app_nil_r; auto.
  - destruct (balance E (fill E f t)) as [[t1 d]|] eqn:B; cbn [bind]; [|discriminate].
    apply balance_inorder in B.
    destruct (d =? 0); intros H.
    + injection H as <-. rewrite plug_inorder, B, fill_inorder, <- ?app_assoc; auto.
    + apply IH in H. rewrite H, B, fill_inorder, <- ?app_assoc; auto.
Qed.

(** ** Balancing restores the AVL property *)
Lemma wrap_test x : -3 <= x <= 3 -> (wrap 32 (x + 1) <? 3) = ((-1 <=? x) && (x <=? 1)).
Proof.
  intros H. unfold wrap.
  assert (C : x = -3 \/ x = -2 \/ x = -1 \/ x = 0 \/ x = 1 \/ x = 2 \/ x = 3) by lia.
  destruct C as [->|[->|[->|[->|[->|[->| ->]]]]]]; reflexivity.
Qed.

Lemma balance_avl k (a0 a1 : tree E) old :
  avl a0 -> avl a1 -> -2 <= rheight a0 - rheight a1 <= 2 ->
  exists t d, balance E (Node k a0 a1 old) = Ok (t, d) /\ avl t
    /\ d = rheight t - old
    /\ Z.max (rheight a0) (rheight a1) <= rheight t
       <= Z.max (rheight a0) (rheight a1) + 1
    /\ (-1 <= rheight a0 - rheight a1 <= 1 ->
        rheight t = Z.max (rheight a0) (rheight a1) + 1).
Proof.
  intros H0 H1 HB. unfold balance.
  rewrite (avl_height a0), (avl_height a1) by auto.
  rewrite wrap_test by lia.
  destruct ((-1 <=? rheight a0 - rheight a1) && (rheight a0 - rheight a1 <=? 1)) eqn:T.
  - apply andb_prop in T as [T1 T2]. apply Z.leb_le in T1, T2.
    do 2 eexists; split; [reflexivity|].
    assert (HH : (if rheight a0 <? rheight a1 then rheight a1 + 1 else rheight a0 + 1)
                 = 1 + Z.max (rheight a0) (rheight a1)).
    { destruct (rheight a0 <? rheight a1) eqn:L; [apply Z.ltb_lt in L|apply Z.ltb_ge in L]; lia. }
    rewrite HH. simpl. repeat split; auto; lia.
  - assert (C : rheight a0 - rheight a1 = -2 \/ rheight a0 - rheight a1 = 2).
    { apply andb_false_iff in T as [T|T]; apply Z.leb_gt in T; lia. }
    clear T. destruct C as [C|C].
    + (* right side deeper *)
      replace (rheight a0 <? rheight a1) with true by (symmetry; apply Z.ltb_lt; lia).
      unfold rot; cbn [child negb].
      destruct a1 as [|yk y0 y1 hy].
      { pose proof (rheight_nonneg a0). cbn [rheight] in C. lia. }
      cbn [avl rheight] in H1, C, HB |- *. destruct H1 as (A0 & A1 & -> & Hb).
      pose proof (rheight_nonneg a0). pose proof (rheight_nonneg y0). pose proof (rheight_nonneg y1).
      rewrite (avl_height y0), (avl_height y1) by auto.
      destruct (rheight y0 >? rheight y1) eqn:G; rewrite Z.gtb_ltb in G.
      * apply Z.ltb_lt in G. destruct y0 as [|zk z0 z1 hz]; [cbn [rheight] in G; lia|].
        cbn [avl rheight] in A0, G, C, HB, Hb |- *. destruct A0 as (B0 & B1 & -> & Hb').
        do 2 eexists; split; [reflexivity|]. cbn [mknode avl rheight child].
        repeat split; auto; lia.
      * apply Z.ltb_ge in G.
        do 2 eexists; split; [reflexivity|]. cbn [mknode avl rheight child].
        repeat split; auto; lia.
    + replace (rheight a0 <? rheight a1) with false by (symmetry; apply Z.ltb_ge; lia).
      unfold rot; cbn [child negb].
      destruct a0 as [|yk y0 y1 hy].
      { pose proof (rheight_nonneg a1). cbn [rheight] in C. lia. }
      cbn [avl rheight] in H0, C, HB |- *. destruct H0 as (A0 & A1 & -> & Hb).
      pose proof (rheight_nonneg a1). pose proof (rheight_nonneg y0). pose proof (rheight_nonneg y1).
      rewrite (avl_height y0), (avl_height y1) by auto.
      destruct (rheight y1 >? rheight y0) eqn:G; rewrite Z.gtb_ltb in G.
      * apply Z.ltb_lt in G. destruct y1 as [|zk z0 z1 hz]; [cbn [rheight] in G; lia|].
        cbn [avl rheight] in A1, G, C, HB, Hb |- *. destruct A1 as (B0 & B1 & -> & Hb').
        do 2 eexists; split; [reflexivity|]. cbn [mknode avl rheight child].
        repeat split; auto; lia.
      * apply Z.ltb_ge in G.
        do 2 eexists; split; [reflexivity|]. cbn [mknode avl rheight child].
        repeat split; auto; lia.
Qed.

(** A context in which any AVL tree of height [H] fits. *)
Fixpoint path_ok (path : list (frame E)) (H : Z) : Prop :=
  match path with
  | [] => True
  | f :: p =>
    avl (f_other _ f) /\ -1 <= rheight (f_other _ f) - H <= 1
    /\ f_h _ f = 1 + Z.max H (rheight (f_other _ f)) /\ path_ok p (f_h _ f)
  end.

Lemma fill_avl f t : avl t -> path_ok [f] (rheight t) ->
  avl (fill E f t) /\ rheight (fill E f t) = f_h _ f.
Proof.
  destruct f as [d k o h]; cbn. intros At (Ao & Hb & -> & _).
  destruct d; cbn; repeat split; auto; lia.
Qed.

Lemma plug_avl path : forall t, avl t -> path_ok path (rheight t) -> avl (plug E path t).
Proof.
  induction path as [|f p IH]; cbn [plug]; auto.
  intros t At (Ao & Hb & Hh & Hp).
  destruct (fill_avl f t At) as [Af Hf]. { cbn. auto. }
  apply IH; auto. rewrite Hf; auto.
Qed.

Lemma rebalance_avl path : forall t H,
  avl t -> -1 <= rheight t - H <= 1 -> path_ok path H ->
  exists t', rebalance E path t = Ok t' /\ avl t'.
Proof.
  induction path as [|f p IH]; intros t H At Ht Hp; cbn [rebalance].
  - eauto.
  - destruct Hp as (Ao & Hb & Hh & Hp).
    assert (BL : exists t' d, balance E (fill E f t) = Ok (t', d) /\ avl t'
              /\ d = rheight t' - f_h _ f
              /\ -1 <= rheight t' - f_h _ f <= 1).
    { destruct f as [dir k o h]; cbn in *. unfold fill; cbn.
      destruct dir; cbn [mknode].
      - destruct (balance_avl k o t h Ao At) as (t' & d & B & A & D & R1 & R2); [lia|].
        exists t', d. repeat split; auto; lia.
      - destruct (balance_avl k t o h At Ao) as (t' & d & B & A & D & R1 & R2); [lia|].
        exists t', d. repeat split; auto; lia. }
    destruct BL as (t' & d & -> & At' & Hd & Hr). cbn [bind].
    destruct (d =? 0) eqn:D.
    + apply Z.eqb_eq in D. eexists; split; [reflexivity|].
      apply plug_avl; auto. replace (rheight t') with (f_h E f) by lia. auto.
    + apply (IH t' (f_h _ f)); auto.
Qed.

(** ** Descending *)
Section Cmp.
Variable cmp : E -> E -> Z.

Definition sought_tree (s : sought E) : tree E :=
  match s with NotThere _ => Nil | There _ k a0 a1 h => Node k a0 a1 h end.

Lemma descend_plug cap key : forall n used path s path' used',
  descend E cmp cap key n used path = Ok (s, path', used') ->
  plug E path' (sought_tree s) = plug E path n.
Proof.
  induction n as [|k a0 IH0 a1 IH1 h]; intros used path s path' used'; cbn [descend].
  - intros [= <- <- <-]; auto.
  - destruct (cmp key k =? 0).
    + intros [= <- <- <-]; auto.
    + unfold push. destruct (used <? cap); cbn [bind]; [|discriminate].
      destruct (cmp key k >? 0); cbn [child negb]; intros H;
        [apply IH1 in H|apply IH0 in H]; rewrite H; cbn [plug]; auto.
Qed.

Lemma descend_ok cap key : forall n used path,
  used + rheight n <= cap ->
  exists s path' used', descend E cmp cap key n used path = Ok (s, path', used')
    /\ used <= used' <= used + rheight n
    /\ match s with There _ _ a0 _ _ => used' + 1 + rheight a0 <= used + rheight n | NotThere _ => True end.
Proof.
  induction n as [|k a0 IH0 a1 IH1 h]; intros used path Hc; cbn [descend].
  - do 3 eexists; split; [reflexivity|]. simpl. lia.
  - pose proof (rheight_nonneg a0). pose proof (rheight_nonneg a1).
    destruct (cmp key k =? 0).
    + do 3 eexists; split; [reflexivity|]. cbn [rheight] in *. lia.
    + cbn [rheight] in Hc. unfold push.
      replace (used <? cap) with true by (symmetry; apply Z.ltb_lt; lia).
      cbn [bind].
      destruct (cmp key k >? 0); cbn [child negb rheight].
      * edestruct (IH1 (used + 1)) as (s & p & u & -> & Hu & Hs); [lia|].
        do 3 eexists; split; [reflexivity|]. split; [lia|]. destruct s; auto; lia.
      * edestruct (IH0 (used + 1)) as (s & p & u & -> & Hu & Hs); [lia|].
        do 3 eexists; split; [reflexivity|]. split; [lia|]. destruct s; auto; lia.
Qed.

Lemma descend_path_ok cap key : forall n used path s path' used',
  descend E cmp cap key n used path = Ok (s, path', used') ->
  avl n -> path_ok path (rheight n) ->
  avl (sought_tree s) /\ path_ok path' (rheight (sought_tree s)).
Proof.
  induction n as [|k a0 IH0 a1 IH1 h]; intros used path s path' used'; cbn [descend].
  - intros [= <- <- <-]; auto.
  - destruct (cmp key k =? 0).
    + intros [= <- <- <-]; auto.
    + unfold push. destruct (used <? cap); cbn [bind]; [|discriminate].
      cbn [avl rheight]. intros HD (A0 & A1 & Hh & Hb) Hp.
      destruct (cmp key k >? 0); cbn [child negb] in HD.
      * apply IH1 in HD; auto. cbn. repeat split; auto; try lia.
        rewrite Hh; auto.
      * apply IH0 in HD; auto. cbn. repeat split; auto; try lia.
        rewrite Hh; auto.
Qed.

Context (TC : total_cmp cmp).

Lemma cmp_refl x : cmp x x = 0.
Proof. pose proof (cmp_anti _ TC x x). lia. Qed.
Lemma cmp_flip_lt x y : cmp x y < 0 <-> cmp y x > 0.
Proof. pose proof (cmp_anti _ TC x y). lia. Qed.
Lemma cmp_flip_eq x y : cmp x y = 0 <-> cmp y x = 0.
Proof. pose proof (cmp_anti _ TC x y). lia. Qed.
Lemma cmp_lt_trans x y z : cmp x y < 0 -> cmp y z < 0 -> cmp x z < 0.
Proof.
  intros H1 H2. assert (cmp x z <= 0) by (apply (cmp_trans _ TC x y z); lia).
  destruct (Z.eq_dec (cmp x z) 0) as [e|]; [|lia].
  assert (cmp z y <= 0). { apply (cmp_trans _ TC z x y); [|lia]. apply cmp_flip_eq in e. lia. }
  apply cmp_flip_lt in H2. lia.
Qed.
Lemma cmp_eq_lt x y z : cmp x y = 0 -> cmp y z < 0 -> cmp x z < 0.
Proof.
  intros H1 H2. assert (cmp x z <= 0) by (apply (cmp_trans _ TC x y z); lia).
  destruct (Z.eq_dec (cmp x z) 0) as [e|]; [|lia].
  assert (cmp z y <= 0). { apply (cmp_trans _ TC z x y); [|lia]. apply cmp_flip_eq in e. lia. }
  apply cmp_flip_lt in H2. lia.
Qed.
Lemma cmp_lt_eq x y z : cmp x y < 0 -> cmp y z = 0 -> cmp x z < 0.
Proof.
  intros H1 H2. apply cmp_flip_lt. apply cmp_flip_lt in H1. apply cmp_flip_eq in H2.
  apply Z.lt_gt. apply Z.gt_lt in H1.
  destruct (Z.lt_trichotomy (cmp z x) 0) as [L|[e|G]]; [| |lia].
  - assert (cmp y x < 0) by (eapply cmp_eq_lt; [apply cmp_flip_eq; eauto|auto]). lia.
  - assert (cmp y x <= 0). { apply (cmp_trans _ TC y z x); [|lia]. apply cmp_flip_eq in H2. lia. } lia.
Qed.
Lemma cmp_eq_trans x y z : cmp x y = 0 -> cmp y z = 0 -> cmp x z = 0.
Proof.
  intros H1 H2.
  assert (cmp x z <= 0) by (apply (cmp_trans _ TC x y z); lia).
  assert (cmp z x <= 0).
  { apply cmp_flip_eq in H1, H2. apply (cmp_trans _ TC z y x); lia. }
  pose proof (cmp_anti _ TC x z). lia.
Qed.

Lemma sorted_app l1 l2 : sorted cmp (l1 ++ l2) <->
  sorted cmp l1 /\ sorted cmp l2 /\ (forall x y, In x l1 -> In y l2 -> cmp x y < 0).
Proof.
  unfold sorted. induction l1 as [|a l1 IH]; simpl.
  - split; [intros; repeat split; auto; [constructor|tauto] | tauto].
  - split.
    + intros H. inversion H; subst. apply IH in H2 as (S1 & S2 & S3).
      rewrite Forall_app in H3. destruct H3 as [F1 F2].
      repeat split; auto; [constructor; auto|].
      intros x y [<-|Hx] Hy; auto. rewrite Forall_forall in F2; auto.
    + intros (S1 & S2 & S3). inversion S1; subst. constructor.
      * apply IH; repeat split; auto.
      * rewrite Forall_app; split; auto. rewrite Forall_forall. auto.
Qed.
Lemma sorted_cons a l : sorted cmp (a :: l) <->
  sorted cmp l /\ (forall y, In y l -> cmp a y < 0).
Proof.
  unfold sorted. split.
  - intros H; inversion H; subst. rewrite Forall_forall in H3; auto.
  - intros [H1 H2]; constructor; auto. rewrite Forall_forall; auto.
Qed.
Lemma sorted_nil : sorted cmp [].
Proof. constructor. Qed.

(** Position of the sought key. *)
Lemma descend_sorted cap key : forall n used path s path' used',
  descend E cmp cap key n used path = Ok (s, path', used') ->
  sorted cmp (inorder n) ->
  (forall x, In x (ctxl path) -> cmp x key < 0) ->
  (forall x, In x (ctxr path) -> cmp key x < 0) ->
  match s with
  | There _ k _ _ _ => cmp key k = 0
  | NotThere _ => (forall x, In x (ctxl path') -> cmp x key < 0) /\
                  (forall x, In x (ctxr path') -> cmp key x < 0)
  end.
Proof.
  induction n as [|k a0 IH0 a1 IH1 h]; intros used path s path' used'; cbn [descend].
  - intros [= <- <- <-]; auto.
  - destruct (cmp key k =? 0) eqn:C0.
    + intros [= <- <- <-]; intros. apply Z.eqb_eq; auto.
    + apply Z.eqb_neq in C0.
      unfold push. destruct (used <? cap); cbn [bind]; [|discriminate].
      cbn [inorder]. rewrite sorted_app, sorted_cons.
      intros HD (S0 & (S1 & S1') & S2) HL HR.
      destruct (cmp key k >? 0) eqn:G; rewrite Z.gtb_ltb in G; cbn [child negb] in HD.
      * apply Z.ltb_lt in G.
        apply IH1 in HD; auto; cbn [ctxl ctxr f_dir f_other f_key].
        -- intros x. rewrite !in_app_iff. intros [?|[?|[<-|[]]]]; auto.
           ++ apply cmp_lt_trans with k; [apply S2; simpl; auto|]. apply cmp_flip_lt; lia.
           ++ apply cmp_flip_lt; lia.
      * apply Z.ltb_ge in G.
        apply IH0 in HD; auto; cbn [ctxl ctxr f_dir f_other f_key].
        -- intros x; rewrite app_nil_r; auto.
        -- intros x [<-|H]; [lia|]. apply in_app_iff in H as [?|?]; auto.
           apply cmp_lt_trans with k; [lia|auto].
Qed.

(** ** tfind *)
Lemma tfind_spec key n : sorted cmp (inorder n) ->
  match tfind E cmp key n with
  | Some e => In e (inorder n) /\ cmp key e = 0
  | None => forall e, In e (inorder n) -> cmp key e <> 0
  end.
Proof.
  induction n as [|k a0 IH0 a1 IH1 h]; cbn [tfind inorder]; [simpl; tauto|].
  rewrite sorted_app, sorted_cons. intros (S0 & (S1 & S1') & S2).
  destruct (cmp key k =? 0) eqn:C0.
  - apply Z.eqb_eq in C0. split; auto. apply in_elt.
  - apply Z.eqb_neq in C0. destruct (cmp key k >? 0) eqn:G; rewrite Z.gtb_ltb in G; cbn [child].
    + apply Z.ltb_lt in G. specialize (IH1 S1). destruct (tfind E cmp key a1).
      * destruct IH1; split; auto. apply in_app_iff; simpl; auto.
      * intros e. rewrite in_app_iff. simpl. intros [?|[<-|?]]; auto.
        assert (cmp e k < 0) by (apply S2; simpl; auto).
        assert (cmp e key < 0). { apply cmp_lt_trans with k; auto. apply cmp_flip_lt; lia. }
        apply cmp_flip_lt in H1; lia.
    + apply Z.ltb_ge in G. specialize (IH0 S0). destruct (tfind E cmp key a0).
      * destruct IH0; split; auto. apply in_app_iff; simpl; auto.
      * intros e. rewrite in_app_iff. simpl. intros [?|[<-|?]]; auto.
        assert (cmp key e < 0) by (apply cmp_lt_trans with k; auto; lia). lia.
Qed.

(** An element comparing equal to [key] is unique in a sorted list. *)
Lemma sorted_eq_unique key l e1 e2 : sorted cmp l ->
  In e1 l -> In e2 l -> cmp key e1 = 0 -> cmp key e2 = 0 -> e1 = e2.
Proof.
  intros S H1 H2 C1 C2. apply in_split in H1 as (l1 & l2 & ->).
  rewrite sorted_app, sorted_cons in S. destruct S as (_ & (_ & Sr) & Sl).
  assert (C : cmp e1 e2 = 0) by (apply cmp_eq_trans with key; auto; apply cmp_flip_eq; auto).
  rewrite in_app_iff in H2. destruct H2 as [H|[H|H]]; auto.
  - apply (Sl _ e1) in H; [|simpl; auto]. apply cmp_flip_lt in H; lia.
  - apply Sr in H. lia.
Qed.

(** ** tsearch *)
Theorem tsearch_spec key root :
  avl root -> sorted cmp (inorder root) -> rheight root + 1 <= MAXH ->
  (exists e, tsearch E cmp key root = Ok (root, e, false)
             /\ In e (inorder root) /\ cmp key e = 0)
  \/
  (exists root' l r, tsearch E cmp key root = Ok (root', key, true)
     /\ (forall e, In e (inorder root) -> cmp key e <> 0)
     /\ avl root' /\ inorder root = l ++ r /\ inorder root' = l ++ key :: r
     /\ sorted cmp (inorder root')).
Proof.
  intros A S HM. unfold tsearch.
  destruct (descend_ok MAXH key root 1 []) as (s & path & used & D & Hu & _); [lia|].
  rewrite D; cbn [bind].
  pose proof (descend_plug _ _ _ _ _ _ _ _ D) as P. cbn [plug] in P.
  pose proof (descend_path_ok _ _ _ _ _ _ _ _ D A I) as [As Ps].
  pose proof (descend_sorted _ _ _ _ _ _ _ _ D S) as Q.
  destruct s as [|k a0 a1 h]; cbn [sought_tree] in *.
  - destruct Q as [QL QR]; try (simpl; tauto).
    destruct (rebalance_avl path (Node key Nil Nil 1) 0) as (t' & RB & At).
    { simpl; repeat split; auto; lia. } { simpl; lia. } { exact Ps. }
    rewrite RB; cbn [bind]. right.
    exists t', (ctxl path), (ctxr path).
    pose proof (rebalance_inorder _ _ _ RB) as RI. cbn [inorder app] in RI.
    assert (IN : inorder root = ctxl path ++ ctxr path).
    { rewrite <- P, plug_inorder; auto. }
    rewrite IN in S. rewrite sorted_app in S. destruct S as (SL & SR & SLR).
    repeat split; auto.
    + intros e He. rewrite IN, in_app_iff in He. destruct He as [He|He].
      * apply QL in He. apply cmp_flip_lt in He. lia.
      * apply QR in He. lia.
    + rewrite RI. apply sorted_app. repeat split; auto.
      * apply sorted_cons; auto.
      * intros x y Hx [<-|Hy]; auto.
  - left. exists k. repeat split.
    + rewrite <- P, plug_inorder. cbn [inorder]. rewrite !in_app_iff. simpl; auto.
    + apply Q; simpl; tauto.
Qed.

(** ** Deletion *)
Lemma predecessor_ok cap : forall n used path,
  n <> Nil -> used + rheight n <= cap + 1 ->
  exists k ch path', predecessor E cap n used path = Ok (k, ch, path' ++ path)
    /\ inorder n = ctxl path' ++ inorder ch ++ [k] /\ ctxr path' = []
    /\ (avl n -> path_ok path (rheight n) ->
        avl ch /\ exists H, path_ok (path' ++ path) H /\ -1 <= rheight ch - H <= 1).
Proof.
  induction n as [|k a0 IH0 a1 IH1 h]; intros used path Hn Hc; [congruence|].
  cbn [predecessor]. pose proof (rheight_nonneg a0). pose proof (rheight_nonneg a1).
  destruct a1 as [|k1 b0 b1 h1].
  - exists k, a0, []. cbn [rheight] in *. split; [auto|]. split; [auto|]. split; [auto|].
    + intros (A0 & A1 & Hh & Hb). cbn [rheight] in *. intros Hp. split; auto.
      exists (1 + Z.max (rheight a0) 0). simpl; split; auto; lia.
  - set (a1 := Node k1 b0 b1 h1) in *.
    cbn [rheight] in Hc.
    unfold push. replace (used <? cap) with true.
    2:{ symmetry. apply Z.ltb_lt. unfold a1 in *.
        pose proof (rheight_pos_node k1 b0 b1 h1). lia. }
    cbn [bind].
    destruct (IH1 (used + 1) (Frame true k a0 h :: path)) as (k' & ch & p' & -> & IN & CR & IA).
    { discriminate. } { lia. }
    exists k', ch, (p' ++ [Frame true k a0 h]). split; [|split; [|split]].
    + rewrite <- app_assoc; auto.
    + cbn [inorder]. rewrite IN, ctxl_app. cbn [ctxl f_dir f_other f_key app].
      rewrite <- ?app_assoc; auto.
    + rewrite ctxr_app, CR; auto.
    + intros (A0 & A1 & Hh & Hb) Hp. rewrite <- app_assoc. cbn [app].
      apply IA; auto. cbn [path_ok f_other f_h]. cbn [rheight] in Hp. rewrite <- Hh in Hp.
      repeat split; auto; lia.
Qed.

(** The path above does not depend on what it is put on. *)
Lemma predecessor_path cap : forall n used path k ch p,
  predecessor E cap n used [] = Ok (k, ch, p) ->
  predecessor E cap n used path = Ok (k, ch, p ++ path).
Proof.
  assert (G : forall n used path k ch p q, predecessor E cap n used path = Ok (k, ch, p) ->
    exists p', p = p' ++ path /\ predecessor E cap n used q = Ok (k, ch, p' ++ q)).
  { induction n as [|k a0 IH0 a1 IH1 h]; intros used path k' ch p q; cbn [predecessor]; [discriminate|].
    destruct a1 as [|k1 b0 b1 h1].
    - intros [= <- <- <-]. exists []; auto.
    - set (a1 := Node k1 b0 b1 h1) in *. unfold push.
      destruct (used <? cap); cbn [bind]; [|discriminate].
      intros H. apply (IH1 _ _ _ _ _ (Frame true k a0 h :: q)) in H as (p' & -> & H).
      exists (p' ++ [Frame true k a0 h]). rewrite <- !app_assoc; auto. }
  intros n used path k ch p H. apply (G _ _ _ _ _ _ path) in H as (p' & -> & H).
  rewrite app_nil_r in *; auto.
Qed.

Lemma path_ok_key d k k' (o : tree E) h p H :
  path_ok (Frame d k o h :: p) H <-> path_ok (Frame d k' o h :: p) H.
Proof. reflexivity. Qed.

Lemma path_ok_mid p : forall d k k' (o : tree E) h q H,
  path_ok (p ++ Frame d k o h :: q) H <-> path_ok (p ++ Frame d k' o h :: q) H.
Proof.
  induction p as [|f p IH]; intros; cbn [app]; [apply path_ok_key|].
  cbn [path_ok]. rewrite IH. reflexivity.
Qed.

Theorem tdelete_spec key root :
  avl root -> sorted cmp (inorder root) -> rheight root + 1 <= MAXH ->
  (tdelete E cmp key root = Ok (root, false)
   /\ forall e, In e (inorder root) -> cmp key e <> 0)
  \/
  (exists root' l e r, tdelete E cmp key root = Ok (root', true)
     /\ cmp key e = 0 /\ avl root'
     /\ inorder root = l ++ e :: r /\ inorder root' = l ++ r
     /\ sorted cmp (inorder root')).
Proof.
  intros A S HM. unfold tdelete.
  destruct (descend_ok (MAXH + 1) key root 2 []) as (s & path & used & D & Hu & Hs); [lia|].
  rewrite D; cbn [bind].
  pose proof (descend_plug _ _ _ _ _ _ _ _ D) as P. cbn [plug] in P.
  pose proof (descend_path_ok _ _ _ _ _ _ _ _ D A I) as [As Ps].
  pose proof (descend_sorted _ _ _ _ _ _ _ _ D S) as Q.
  destruct s as [|k a0 a1 h]; cbn [sought_tree] in *.
  - left. split; auto. destruct Q as [QL QR]; try (simpl; tauto).
    intros e He. rewrite <- P, plug_inorder in He. cbn [inorder app] in He.
    rewrite in_app_iff in He. destruct He as [He|He].
    + apply QL in He. apply cmp_flip_lt in He. lia.
    + apply QR in He. lia.
  - right. assert (C : cmp key k = 0) by (apply Q; simpl; tauto). clear Q.
    assert (IN : inorder root = (ctxl path ++ inorder a0) ++ k :: (inorder a1 ++ ctxr path)).
    { rewrite <- P, plug_inorder. cbn [inorder]. rewrite <- !app_assoc; auto. }
    assert (SS : sorted cmp ((ctxl path ++ inorder a0) ++ (inorder a1 ++ ctxr path))).
    { rewrite IN, sorted_app, sorted_cons in S. apply sorted_app.
      destruct S as (? & (? & ?) & S3). repeat split; auto.
      intros; apply S3; simpl; auto. }
    assert (DONE : forall t, avl t ->
              inorder t = (ctxl path ++ inorder a0) ++ (inorder a1 ++ ctxr path) ->
      exists root' l e r, Ok (t, true) = Ok (root', true)
         /\ cmp key e = 0 /\ avl root'
         /\ inorder root = l ++ e :: r /\ inorder root' = l ++ r
         /\ sorted cmp (inorder root')).
    { intros t At It. exists t, (ctxl path ++ inorder a0), k, (inorder a1 ++ ctxr path).
      repeat split; auto. rewrite It; auto. }
    destruct As as (A0 & A1 & Hh & Hb).
    destruct a0 as [|k0 b0 b1 h0].
    + destruct (rebalance_avl path a1 (rheight (Node k Nil a1 h))) as (t' & RB & At); auto.
      { cbn [rheight] in *. pose proof (rheight_nonneg a1). lia. }
      rewrite RB; cbn [bind]. apply DONE; auto.
      rewrite (rebalance_inorder _ _ _ RB). cbn [inorder]. rewrite app_nil_r; auto.
    + set (a0 := Node k0 b0 b1 h0) in *.
      assert (N0 : a0 <> Nil) by discriminate.
      assert (R0 : 1 <= rheight a0) by apply rheight_pos_node.
      unfold push. replace (used <? MAXH + 1) with true.
      2:{ symmetry; apply Z.ltb_lt. lia. }
      cbn [bind].
      destruct (predecessor_ok (MAXH + 1) a0 (used + 1) [] N0) as (pk & ch & p1 & PR & PI & PC & _); [lia|].
      rewrite app_nil_r in PR. rewrite PR; cbn [bind].
      pose proof (predecessor_path _ _ _ (Frame false k a1 h :: path) _ _ _ PR) as PR2.
      destruct (predecessor_ok (MAXH + 1) a0 (used + 1) (Frame false k a1 h :: path) N0)
        as (pk2 & ch2 & p2 & PR3 & _ & _ & PA); [lia|].
      rewrite PR2 in PR3. injection PR3 as <- <- EQ. apply app_inv_tail in EQ. subst p2.
      destruct PA as (Ach & H & PH & RH); auto.
      { cbn [path_ok f_other f_h]. cbn [rheight] in Ps. rewrite <- Hh in Ps.
        repeat split; auto; lia. }
      apply (path_ok_mid p1 false k pk a1 h path) in PH.
      destruct (rebalance_avl (p1 ++ Frame false pk a1 h :: path) ch H Ach RH PH) as (t' & RB & At).
      rewrite RB; cbn [bind]. apply DONE; auto.
      rewrite (rebalance_inorder _ _ _ RB). rewrite ctxl_app, ctxr_app, PC.
      cbn [ctxl ctxr f_dir f_key f_other app]. rewrite app_nil_r.
      fold (inorder a0). rewrite PI. rewrite <- ?app_assoc. simpl. auto.
Qed.

End Cmp.

(** ** Walking *)
Fixpoint pre t : list E :=
  match t with
  | Nil => []
  | Node k a0 a1 _ => k :: pre a0 ++ pre a1
  end.

Lemma pre_perm t : Permutation (pre t) (inorder t).
Proof.
  induction t as [|k a0 IH0 a1 IH1 h]; simpl; auto.
  rewrite IH0, IH1. apply Permutation_middle.
Qed.

Definition act : E * visit * Z -> list E :=
  fun '(k, v, _) => match v with preorder | leaf => [k] | _ => [] end.

Lemma walk_pre t : avl t -> forall d, flat_map act (walk E t d) = pre t.
Proof.
  induction t as [|k a0 IH0 a1 IH1 h]; intros A d; cbn [walk]; auto.
  destruct A as (A0 & A1 & Hh & Hb).
  pose proof (rheight_nonneg a0). pose proof (rheight_nonneg a1).
  destruct (h =? 1) eqn:E1.
  - apply Z.eqb_eq in E1.
    destruct a0; [|pose proof (rheight_pos_node key a0_1 a0_2 h0); lia].
    destruct a1; [|pose proof (rheight_pos_node key a1_1 a1_2 h0); simpl in *; lia].
    reflexivity.
  - simpl. rewrite flat_map_app. simpl. rewrite flat_map_app. simpl.
    rewrite IH0, IH1 by auto. rewrite app_nil_r; auto.
Qed.

Lemma visited_pre t : avl t -> visited E t = pre t.
Proof. intros A. apply (walk_pre t A 0). Qed.

Lemma visited_perm t : avl t -> Permutation (visited E t) (inorder t).
Proof. intros. rewrite visited_pre by auto. apply pre_perm. Qed.

Lemma tdestroy_perm t : Permutation (tdestroy E t) (inorder t).
Proof.
  induction t as [|k a0 IH0 a1 IH1 h]; simpl; auto.
  rewrite IH0, IH1. rewrite app_assoc. rewrite Permutation_app_comm. simpl.
  apply Permutation_middle.
Qed.

(** ** The Fibonacci bound *)
Fixpoint fib (n : nat) : Z :=
  match n with
  | O => 0
  | S m => match m with O => 1 | S k => fib m + fib k end
  end.

Lemma fib_SS n : fib (S (S n)) = fib (S n) + fib n.
Proof. reflexivity. Qed.

Lemma fib_nonneg n : 0 <= fib n /\ 0 <= fib (S n).
Proof. induction n; [simpl; lia|]. rewrite fib_SS. lia. Qed.

Lemma fib_mono n m : (n <= m)%nat -> fib n <= fib m.
Proof.
  induction 1 as [|m H IH]; [lia|]. destruct m; [destruct n; simpl in *; lia|].
  rewrite fib_SS. pose proof (fib_nonneg m). lia.
Qed.

Lemma avl_fib t : avl t ->
  fib (Z.to_nat (rheight t) + 2) <= Z.of_nat (length (inorder t)) + 1.
Proof.
  induction t as [|k a0 IH0 a1 IH1 h]; intros A; [simpl; lia|].
  destruct A as (A0 & A1 & Hh & Hb). specialize (IH0 A0). specialize (IH1 A1).
  cbn [inorder rheight]. rewrite app_length. cbn [length].
  pose proof (rheight_nonneg a0). pose proof (rheight_nonneg a1).
  set (m := Z.max (rheight a0) (rheight a1)).
  assert (HM : Z.to_nat (1 + m) = S (Z.to_nat m)) by lia. rewrite HM.
  replace (S (Z.to_nat m) + 2)%nat with (S (S (Z.to_nat m + 1))) by lia.
  rewrite fib_SS.
  replace (S (Z.to_nat m + 1)) with (Z.to_nat m + 2)%nat by lia.
  assert (L : fib (Z.to_nat m + 1) <= fib (Z.to_nat (Z.min (rheight a0) (rheight a1)) + 2)).
  { apply fib_mono. lia. }
  destruct (Z.max_spec (rheight a0) (rheight a1)) as [[Hlt E1]|[Hlt E1]];
  destruct (Z.min_spec (rheight a0) (rheight a1)) as [[Hlt' E2]|[Hlt' E2]];
  rewrite E2 in L; subst m; rewrite E1 in *; try lia.
  all: assert (EQ : rheight a0 = rheight a1) by lia; rewrite EQ in *; lia.
Qed.

Fixpoint fibpair (k : nat) (a b : Z) : Z :=
  match k with O => a | S k' => fibpair k' b (b + a) end.

Lemma fibpair_fib k : forall n, fibpair k (fib n) (fib (S n)) = fib (k + n).
Proof.
  induction k as [|k IH]; intros n; cbn [fibpair]; auto.
  rewrite <- fib_SS, IH. f_equal; lia.
Qed.

Lemma fib_94 : fib 94 = 19740274219868223167.
Proof.
  pose proof (fibpair_fib 94 0) as H. rewrite Nat.add_0_r in H. rewrite <- H.
  vm_compute. reflexivity.
Qed.

(** A tree with fewer than 2^64 elements is at most 91 high. *)
Lemma avl_height_64 t : avl t -> Z.of_nat (length (inorder t)) <= 2 ^ 64 ->
  rheight t <= 91.
Proof.
  intros A HS. pose proof (avl_fib t A) as F.
  destruct (Z.le_gt_cases (rheight t) 91) as [|G]; auto. exfalso.
  assert (M : fib 94 <= fib (Z.to_nat (rheight t) + 2)) by (apply fib_mono; lia).
  rewrite fib_94 in M. lia.
Qed.

(** The logarithmic bound: 20 h <= 29 log2 (n+1), i.e. h <= 1.45 log2 (n+1). *)
Lemma fib_growth h : 1613 ^ Z.of_nat h <= fib (h + 2) * 1000 ^ Z.of_nat h
  /\ 1613 ^ Z.of_nat (S h) <= fib (S h + 2) * 1000 ^ Z.of_nat (S h).
Proof.
  induction h as [|h [IH1 IH2]].
  - vm_compute. intuition discriminate.
  - split; auto.
    rewrite !Nat2Z.inj_succ in *. rewrite !Z.pow_succ_r in * by lia.
    change (S (S h) + 2)%nat with (S (S (h + 2))). rewrite fib_SS.
    change (S h + 2)%nat with (S (h + 2)) in IH2.
    pose proof (fib_nonneg (h + 2)). 
    assert (0 < 1000 ^ Z.of_nat h) by (apply Z.pow_pos_nonneg; lia).
    assert (0 < 1613 ^ Z.of_nat h) by (apply Z.pow_pos_nonneg; lia).
    set (a := fib (h + 2)) in *. set (b := fib (S (h + 2))) in *.
    set (p := 1000 ^ Z.of_nat h) in *. set (q := 1613 ^ Z.of_nat h) in *.
    (* 1613*(1613*q) <= (b+a)*(1000*(1000*p)) *)
    nia.
Qed.

Lemma avl_log t : avl t ->
  (2 ^ 20) ^ (rheight t) <= (Z.of_nat (length (inorder t)) + 1) ^ 29.
Proof.
  intros A. pose proof (avl_fib t A) as F. pose proof (rheight_nonneg t) as N.
  destruct (fib_growth (Z.to_nat (rheight t))) as [G _]. rewrite Z2Nat.id in G by auto.
  set (h := rheight t) in *. set (n1 := Z.of_nat (length (inorder t)) + 1) in *.
  set (f := fib (Z.to_nat h + 2)) in *.
  assert (P : 0 < 1000 ^ h) by (apply Z.pow_pos_nonneg; lia).
  assert (Q : 0 < 1613 ^ h) by (apply Z.pow_pos_nonneg; lia).
  assert (G2 : 1613 ^ h <= n1 * 1000 ^ h) by nia.
  assert (G3 : (1613 ^ h) ^ 29 <= (n1 * 1000 ^ h) ^ 29) by (apply Z.pow_le_mono_l; lia).
  rewrite Z.pow_mul_l in G3. rewrite <- !Z.pow_mul_r in G3 by lia.
  rewrite (Z.mul_comm h 29) in G3. rewrite !Z.pow_mul_r in G3 by lia.
  assert (K : (2 ^ 20 * 1000 ^ 29) ^ h <= (1613 ^ 29) ^ h).
  { apply Z.pow_le_mono_l. split; [lia|]. vm_compute. intros X; discriminate X. }
  rewrite Z.pow_mul_l in K.
  assert (0 < (1000 ^ 29) ^ h) by (apply Z.pow_pos_nonneg; lia).
  nia.
Qed.

End Proofs.
