(** Marking and collecting. *)
From Coq Require Import ZArith List Bool Lia Relations.
From Verif Require Import Base HeapModel HeapChainProofs HeapHistory HeapSweepProofs.
Import ListNotations.
Open Scope nat_scope.
Open Scope outcome_scope.

(** * The graph the marking follows *)
Definition traced (b : block) : bool :=
  match b_body b with BObj KStatic _ | BObj KClosure _ => false | _ => true end.
Definition mfields (b : block) : list val :=
  match b_body b with
  | BState _ r s c _ => [VPtr r; VPtr s; VPtr c]
  | BObj k vs => mark_fields k vs
  end.
Inductive mreach (h : heap) : addr -> addr -> Prop :=
| mr_here : forall a b, h_mem h a = Some b -> traced b = true -> mreach h a a
| mr_step : forall a b y x, h_mem h a = Some b -> traced b = true -> In (VPtr y) (mfields b) -> mreach h y x -> mreach h a x.

(** equal up to marks *)
Definition em (h h' : heap) : Prop :=
  forall x, option_map (set_mark 0) (h_mem h' x) = option_map (set_mark 0) (h_mem h x).
Lemma em_refl h : em h h. Proof. red; auto. Qed.
Lemma em_trans h1 h2 h3 : em h1 h2 -> em h2 h3 -> em h1 h3.
Proof. intros A B x. rewrite B. apply A. Qed.
Lemma em_sym h h' : em h h' -> em h' h. Proof. intros A x. auto. Qed.
Lemma em_get h h' a b : em h h' -> h_mem h a = Some b ->
  exists b', h_mem h' a = Some b' /\ traced b' = traced b /\ mfields b' = mfields b /\ b_body b' = b_body b.
Proof.
  intros E G. specialize (E a). rewrite G in E. destruct (h_mem h' a) as [b'|]; [|discriminate]. cbn in E. injection E as E _ _ _ _ _ _.
  exists b'. unfold traced, mfields. rewrite E. auto.
Qed.
Lemma em_mreach h h' : em h h' -> forall a x, mreach h a x -> mreach h' a x.
Proof.
  intros E a x M. induction M as [a b G T|a b y x G T I M IH]; destruct (em_get _ _ _ _ E G) as (b' & G' & T' & F' & _).
  - apply (mr_here h' a b'); congruence.
  - apply (mr_step h' a b' y x); congruence.
Qed.
Lemma modify_em m h a h' : modify h a (set_mark m) = Ok h' -> em h h'.
Proof.
  intros H. apply modify_eff in H as ((_ & _ & E) & _). intros x. rewrite E. destruct (x =? a); auto. destruct (h_mem h x); auto.
Qed.

(** the effect of marking: [R] is what gets marked *)
Definition marks (m : Z) (h h' : heap) (R : addr -> Prop) : Prop :=
  em h h' /\ (forall x, has_mark m x h' <-> has_mark m x h \/ R x) /\
  (forall x, mark_of h' x = mark_of h x \/ mark_of h' x = Some m).
Lemma marks_refl m h : marks m h h (fun _ => False).
Proof. split; [apply em_refl|]. split; [tauto|auto]. Qed.
Lemma marks_trans m h1 h2 h3 R S : marks m h1 h2 R -> marks m h2 h3 S -> marks m h1 h3 (fun x => R x \/ S x).
Proof.
  intros (A1 & A2 & A3) (B1 & B2 & B3). split; [eapply em_trans; eauto|]. split.
  - intros x. rewrite B2, A2. tauto.
  - intros x. destruct (B3 x) as [->|]; auto.
Qed.
Lemma marks_ext m h h' R S : (forall x, R x <-> S x) -> marks m h h' R -> marks m h h' S.
Proof. intros E (A1 & A2 & A3). split; auto. split; auto. intros x. rewrite <- E. auto. Qed.

Lemma trace_mark_marks m : forall fuel h a h', trace_mark fuel m h a = Ok h' -> marks m h h' (mreach h a).
Proof.
  induction fuel as [|f IH]; intros h a h'; [discriminate|]. cbn [trace_mark]. intros H. apply bind_ok in H as (b & G & H). apply get_ok in G.
  assert (FO : forall vs h1 h2, em h h1 -> foldm (mark_val (trace_mark f m)) h1 vs = Ok h2 ->
    marks m h1 h2 (fun x => exists y, In (VPtr y) vs /\ mreach h y x)).
  { induction vs as [|v vs IHv]; intros h1 h2 E; cbn [foldm].
    - intros [= <-]. eapply marks_ext; [|apply marks_refl]. intros x. split; [tauto|]. intros (y & [] & _).
    - intros X. apply bind_ok in X as (h3 & X1 & X). destruct v as [|y|]; cbn [mark_val] in X1; [| |discriminate].
      + injection X1 as <-. eapply marks_ext; [|apply IHv; eauto]. intros x. split; intros (y & I & M); exists y; split; auto.
        * right; auto.
        * destruct I; [discriminate|auto].
      + apply IH in X1. eapply marks_ext; [|eapply marks_trans; [exact X1|apply IHv; [|exact X]]].
        * intros x. split.
          -- intros [M|(z & I & M)]; [exists y; split; [left; auto|]; eapply em_mreach; [apply em_sym; exact E|auto]|].
             exists z. split; [right; auto|auto].
          -- intros (z & [[= <-]|I] & M); [left; eapply em_mreach; eauto|right; eauto].
        * eapply em_trans; [exact E|]. apply X1. }
  assert (X : (let* h1 := modify h a (set_mark m) in foldm (mark_val (trace_mark f m)) h1 (mfields b)) = Ok h' -> traced b = true ->
    marks m h h' (mreach h a)).
  { intros X T. apply bind_ok in X as (h1 & X1 & X).
    eapply marks_ext with (R := fun x => x = a \/ exists y, In (VPtr y) (mfields b) /\ mreach h y x).
    - intros x. split.
      + intros [->|(y & I & M)]; [eapply mr_here; eauto|eapply mr_step; eauto].
      + intros M. inversion M; subst; auto. right. rewrite G in H0. injection H0 as <-. eauto.
    - eapply marks_trans; [|apply FO; [eapply modify_em; eauto|exact X]].
      split; [eapply modify_em; eauto|]. apply modify_eff in X1 as ((_ & _ & E) & _). unfold has_mark, mark_of. split; intros x; rewrite E.
      + destruct (Nat.eqb_spec x a) as [->|]; [rewrite G; cbn; tauto|tauto].
      + destruct (Nat.eqb_spec x a) as [->|]; [rewrite G; cbn; tauto|tauto]. }
  assert (NT : traced b = false -> h' = h -> marks m h h' (mreach h a)).
  { intros T ->. eapply marks_ext; [|apply marks_refl]. intros x. split; [tauto|]. intros M. inversion M; subst; congruence. }
  unfold traced, mfields in *. destruct (b_body b) as [? ? ? ? ?|[] vs]; try (apply X; [exact H|reflexivity]);
    apply NT; congruence.
Qed.

(** * The sweep keeps everything marked, whatever the chain *)
Lemma sweep_keeps st m : forall fuel h head h' l, wf_chain false h st l -> has_mark m st h -> sweep fuel m h head = Ok h' ->
  forall x b, h_mem h x = Some b -> b_mark b = m \/ shp h x = Some SStatic -> exists b', h_mem h' x = Some b' /\ same_but_chain b b'.
Proof.
  induction fuel as [|f IH]; intros h head h' l W M; [discriminate|]. cbn [sweep].
  destruct head as [a|]; [|intros [= <-] x b G _; exists b; split; [auto|apply same_but_chain_refl]].
  intros H. apply bind_ok in H as (b & G & H). apply get_ok in G.
  apply bind_ok in H as (h1 & H1 & H). destruct (b_mark b =? m)%Z eqn:EM.
  - injection H1 as <-. eapply IH; eauto.
  - destruct (wc_all _ _ _ W a) as [->|[I|SS]]; [congruence| | |].
    + unfold has_mark in M. rewrite G in M. cbn in M. apply Z.eqb_neq in EM. congruence.
    + destruct (wc_obj _ _ _ W a I) as (SO & _). rewrite (shape_obj_nofollow _ _ SO) in H1.
      apply in_split in I as (u & v & ->). destruct (unlink_wf _ _ _ _ _ W) as (h2 & h3 & E1 & E2 & W2 & B & D & MM & _).
      rewrite E1 in H1. cbn [bind] in H1. rewrite E2 in H1. injection H1 as <-.
      assert (NE : st <> a).
      { intros <-. pose proof (wc_nodup _ _ _ W) as ND. inversion ND; subst. apply H2. apply in_or_app. right. left. auto. }
      assert (M3 : has_mark m st h3).
      { unfold has_mark. rewrite MM by auto. pose proof (B st) as Bs. unfold has_mark in M.
        destruct (h_mem h st), (h_mem h2 st); try contradiction; try discriminate. cbn in *. destruct Bs as (_ & _ & Bs & _). congruence. }
      intros x bx GX K.
      assert (NX : x <> a). { intros ->. rewrite G in GX. injection GX as <-. apply Z.eqb_neq in EM. destruct K as [K|K]; congruence. }
      pose proof (B x) as Bx. rewrite GX in Bx. destruct (h_mem h2 x) as [b2|] eqn:G2; [|contradiction].
      destruct (IH h3 (b_next b) h' (u ++ v) W2 M3 H x b2) as (b' & G' & S').
      * rewrite MM by auto. auto.
      * destruct K as [K|K]; [left; destruct Bx as (_ & _ & -> & _); auto|right].
        unfold shp in *. rewrite MM, G2 by auto. rewrite GX in K. cbn in *. unfold shape_of in *.
        destruct Bx as (_ & _ & _ & _ & Bx). destruct (b_body bx) as [|k vs], (b_body b2) as [|k2 vs2]; try discriminate.
        injection Bx as <- <-. auto.
      * exists b'. split; auto. eapply same_but_chain_trans; eauto.
    + unfold del_nofollow, get in H1. rewrite G in H1. cbn in H1. unfold shp in SS. rewrite G in SS. cbn in SS. unfold shape_of in SS.
      destruct (b_body b) as [? ? ? ? ?|[] ?]; try discriminate. injection H1 as <-. eapply IH; eauto.
Qed.

(** same object *)
Definition same_obj (b b' : block) : Prop :=
  b_rc b' = b_rc b /\ b_ret b' = b_ret b /\ b_meth b' = b_meth b /\
  match b_body b, b_body b' with
  | BState _ r s c _, BState _ r' s' c' _ => r' = r /\ s' = s /\ c' = c
  | v, v' => v' = v
  end.

Definition next_mark (h : heap) (st : addr) : option Z :=
  match h_mem h st with Some b => match b_body b with BState _ _ _ _ m => Some m | _ => None end | None => None end.

(** the last step of a collection changes only the state's next mark *)
Lemma gc_parts fuel h st h' : gc fuel h st = Ok h' ->
  exists m h1 h2, next_mark h st = Some m /\ trace_mark fuel m h st = Ok h1 /\ sweep fuel m h1 (Some st) = Ok h2 /\
    (forall x, x <> st -> h_mem h' x = h_mem h2 x) /\
    exists b t r s c m2, h_mem h2 st = Some b /\ b_body b = BState t r s c m2 /\
      h_mem h' st = Some (set_body (BState t r s c (if (m2 =? 0)%Z then 1%Z else 0%Z)) b) /\
    h_next h' = h_next h2 /\ h_freed h' = h_freed h2.
Proof.
  unfold gc. intros H. apply bind_ok in H as (b & G & H). apply get_ok in G. destruct (b_body b) as [t r s c m|] eqn:B; [|discriminate].
  apply bind_ok in H as (h1 & H1 & H). apply bind_ok in H as (h2 & H2 & H). apply bind_ok in H as (b2 & G2 & H). apply get_ok in G2.
  destruct (b_body b2) as [t2 r2 s2 c2 m2|] eqn:B2; [|discriminate]. injection H as <-.
  exists m, h1, h2. split; [unfold next_mark; rewrite G, B; auto|]. split; [auto|]. split; [auto|]. split.
  - intros x NE. apply mem_set_neq. auto.
  - exists b2, t2, r2, s2, c2, m2. rewrite mem_set_eq. auto 10.
Qed.

Lemma em_same_obj h h1 x b b1 : em h h1 -> h_mem h x = Some b -> h_mem h1 x = Some b1 -> same_obj b b1.
Proof.
  intros E G G1. specialize (E x). rewrite G, G1 in E. cbn in E. injection E as E1 E2 E3 E4 E5 E6 E7.
  unfold same_obj. rewrite E1. destruct (b_body b); auto 10.
Qed.
Lemma same_obj_chain b b1 b2 : same_obj b b1 -> same_but_chain b1 b2 -> same_obj b b2.
Proof.
  unfold same_obj, same_but_chain. intros (A1 & A2 & A3 & A4) (B1 & B2 & B3 & B4 & B5).
  split; [congruence|]. split; [congruence|]. split; [congruence|].
  destruct (b_body b) as [|k vs], (b_body b1) as [|k1 vs1], (b_body b2) as [|k2 vs2]; try congruence. intuition congruence.
Qed.

(** What marking reaches stays, unchanged. *)
Lemma gc_keeps st fuel h h' l : wf_chain false h st l -> gc fuel h st = Ok h' ->
  forall x b, h_mem h x = Some b -> mreach h st x \/ shp h x = Some SStatic -> exists b', h_mem h' x = Some b' /\ same_obj b b'.
Proof.
  intros W H x b G R. destruct (gc_parts _ _ _ _ H) as (m & h1 & h2 & NM & T & SW & OT & b2 & t & r & s & c & m2 & G2 & B2 & GS & _).
  pose proof (trace_mark_marks _ _ _ _ _ T) as (E & MK & _).
  pose proof (same_skel_wf _ _ _ _ (trace_mark_skel _ _ _ _ _ T) W) as W1.
  pose proof (trace_mark_state _ _ _ _ _ _ (wc_state _ _ _ W) T) as MS.
  destruct (em_get _ _ _ _ E G) as (b1 & G1 & _ & _ & EB).
  destruct (sweep_keeps st m _ _ _ _ _ W1 MS SW x b1 G1) as (b3 & G3 & S3).
  { destruct R as [R|R].
    - left. assert (X : has_mark m x h1) by (apply MK; auto). unfold has_mark in X. rewrite G1 in X. cbn in X. congruence.
    - right. unfold shp in *. rewrite G in R. rewrite G1. cbn in *. unfold shape_of in *. rewrite EB. auto. }
  pose proof (same_obj_chain _ _ _ (em_same_obj _ _ _ _ _ E G G1) S3) as SO.
  destruct (Nat.eq_dec x st) as [->|NE].
  - rewrite GS. rewrite G3 in G2. injection G2 as ->. eexists. split; [reflexivity|].
    unfold same_obj in *. cbn. rewrite B2 in SO. destruct SO as (S1 & S2 & S4 & S5).
    split; [auto|]. split; [auto|]. split; [auto|]. destruct (b_body b); [auto|discriminate].
  - rewrite OT by auto. eauto.
Qed.

Lemma static_but_chain b b' : same_but_chain b b' -> (shape_of b' = SStatic <-> shape_of b = SStatic).
Proof.
  intros (_ & _ & _ & _ & S). unfold shape_of. destruct (b_body b) as [|k vs], (b_body b') as [|k' vs']; try discriminate.
  - split; discriminate.
  - injection S as <- <-. tauto.
Qed.

(** Over a chain that ends, the result is exact. *)
Lemma gc_exact st fuel h h' l : wf_chain true h st l -> gc fuel h st = Ok h' ->
  exists m l', next_mark h st = Some m /\ wf_chain true h' st l' /\
    (forall x, h_mem h' x <> None <-> h_mem h x <> None /\ (shp h x = Some SStatic \/ mreach h st x \/ has_mark m x h)) /\
    next_mark h' st = Some (if (m =? 0)%Z then 1%Z else 0%Z) /\
    (forall x, h_mem h' x <> None -> shp h' x <> Some SStatic /\ has_mark m x h' \/
      shp h' x = Some SStatic /\ shp h x = Some SStatic /\ mark_of h' x = mark_of h x) /\
    (forall x b', h_mem h' x = Some b' -> exists b, h_mem h x = Some b /\ same_obj b b').
Proof.
  intros W H. destruct (gc_parts _ _ _ _ H) as (m & h1 & h2 & NM & T & SW & OT & b2 & t & r & s & c & m2 & G2 & B2 & GS & HN & HF).
  pose proof (trace_mark_marks _ _ _ _ _ T) as (E & MK & MK2).
  pose proof (same_skel_wf _ _ _ _ (trace_mark_skel _ _ _ _ _ T) W) as W1.
  pose proof (trace_mark_state _ _ _ _ _ _ (wc_state _ _ _ W) T) as MS.
  assert (FU : S (length l) < S (S (length l))) by lia.
  destruct (sweep_spec st m h1 l _ W1 MS FU) as (h2' & SW' & W2 & _ & _ & SV & LV).
  assert (EQ : h2' = h2).
  { assert (MON : forall f g m h hd h', f <= g -> sweep f m h hd = Ok h' -> sweep g m h hd = Ok h').
    { clear. induction f as [|f IH]; intros g m h hd h' L; [discriminate|]. destruct g; [lia|]. cbn [sweep]. destruct hd; auto.
      intros H. apply bind_ok in H as (b & -> & H). cbn [bind]. apply bind_ok in H as (h1 & -> & H). cbn [bind]. apply IH; auto. lia. }
    destruct (Nat.le_ge_cases fuel (S (S (length l)))) as [L|L].
    - rewrite (MON _ _ _ _ _ _ L SW) in SW'. congruence.
    - rewrite (MON _ _ _ _ _ _ L SW') in SW. congruence. }
  subst h2'.
  assert (SK : same_skel h2 h').
  { unfold gc in H. apply bind_ok in H as (b & G & H). destruct (b_body b); [|discriminate].
    split; [auto|]. split; [auto|]. intros x. destruct (Nat.eq_dec x st) as [->|NE].
    - unfold nxt, prv, shp, stt. rewrite GS, G2. cbn. unfold shape_of. rewrite B2. auto.
    - unfold nxt, prv, shp, stt. rewrite OT by auto. auto. }
  assert (LL : forall x, h_mem h' x = None <-> h_mem h2 x = None).
  { intros x. destruct (Nat.eq_dec x st) as [->|NE]; [rewrite GS, G2; split; discriminate|rewrite OT by auto; tauto]. }
  assert (L1 : forall x, h_mem h1 x = None <-> h_mem h x = None).
  { intros x. specialize (E x). destruct (h_mem h1 x), (h_mem h x); cbn in E; split; congruence. }
  assert (S1 : forall x, shp h1 x = shp h x) by (intros x; apply (trace_mark_skel _ _ _ _ _ T)).
  assert (IM : forall x, is_marked m h1 x = true <-> has_mark m x h1).
  { intros x. unfold is_marked, mark_of, has_mark. destruct (option_map b_mark (h_mem h1 x)); [|split; discriminate].
    rewrite Z.eqb_eq. split; congruence. }
  exists m, (filter (is_marked m h1) l). split; [auto|]. split; [eapply same_skel_wf; eauto|]. split; [|split; [|split]].
  - intros x. rewrite LL, LV, L1. split.
    + intros X. split; [intros Y; apply X; auto|]. destruct (h_mem h x) eqn:GX; [|exfalso; auto].
      destruct (is_marked m h1 x) eqn:MX.
      * apply IM, MK in MX. tauto.
      * destruct (wc_all _ _ _ W x) as [->|[I|I]]; [congruence| | |auto].
        -- exfalso. apply not_true_iff_false in MX. apply MX, IM. auto.
        -- exfalso. apply X. auto.
    + intros (L & R) [X|(X & Y)]; [auto|]. destruct R as [R|R].
      * destruct (wc_obj _ _ _ W x X) as (Z & _). congruence.
      * assert (Z : has_mark m x h1) by (apply MK; tauto). apply IM in Z. congruence.
  - assert (m2 = m).
    { destruct (SV st b2 G2) as (b1 & G1 & S). unfold next_mark in NM. destruct (h_mem h st) as [b|] eqn:G; [|discriminate].
      destruct (em_get _ _ _ _ E G) as (b1' & G1' & _ & _ & EB). rewrite G1 in G1'. injection G1' as <-. rewrite <- EB in NM.
      destruct S as (_ & _ & _ & _ & S). rewrite B2 in S. destruct (b_body b1); [|discriminate]. destruct S as (_ & _ & _ & ->). congruence. }
    subst m2. unfold next_mark. rewrite GS. reflexivity.
  - intros x. assert (MH : mark_of h' x = mark_of h2 x).
    { unfold mark_of. destruct (Nat.eq_dec x st) as [->|NE]; [rewrite GS, G2; auto|rewrite OT by auto; auto]. }
    assert (SH : shp h' x = shp h2 x) by (apply SK). unfold has_mark. fold (mark_of h' x). rewrite MH, SH, LL. intros X.
    assert (M21 : mark_of h2 x = mark_of h1 x).
    { unfold mark_of. destruct (h_mem h2 x) as [bx|] eqn:GX; [|congruence]. destruct (SV x bx GX) as (b1 & -> & S). cbn.
      destruct S as (_ & _ & -> & _). auto. }
    rewrite M21. rewrite LV in X.
    assert (S21 : shp h2 x = Some SStatic <-> shp h1 x = Some SStatic).
    { unfold shp. destruct (h_mem h2 x) as [bx|] eqn:GX; [|exfalso; apply X, LV; auto].
      destruct (SV x bx GX) as (b1 & -> & S). cbn. pose proof (static_but_chain _ _ S) as Q. split; intros Y; f_equal; injection Y as Y; tauto. }
    rewrite S21, S1. destruct (shp h x) as [sx|] eqn:SX.
    2:{ exfalso. apply X. left. apply L1. apply shp_none. auto. }
    assert (D : sx = SStatic \/ sx <> SStatic) by (destruct sx; [right|left|right]; congruence).
    destruct D as [->|D].
    + right. split; auto. split; auto. destruct (MK2 x) as [Y|Y]; auto.
      assert (Z : has_mark m x h1) by exact Y. apply MK in Z as [Z|Z]; [unfold has_mark in Z; fold (mark_of h x) in Z; congruence|].
      exfalso. clear - Z SX. induction Z; auto. unfold shp in SX. rewrite H in SX. cbn in SX. unfold shape_of in SX.
      unfold traced in H0. destruct (b_body b) as [|[] ?]; discriminate.
    + left. split; [congruence|]. destruct (is_marked m h1 x) eqn:MX; [apply IM in MX; exact MX|].
      destruct (h_mem h1 x) as [b1|] eqn:G1; [|exfalso; auto].
      destruct (wc_all _ _ _ W1 x) as [->|[I|I]]; [congruence|exact MS|exfalso; auto|]. rewrite S1, SX in I. congruence.
  - assert (X : forall x b', h_mem h2 x = Some b' -> exists b, h_mem h x = Some b /\ same_obj b b').
    { intros x b' G'. destruct (SV x b' G') as (b1 & G1 & S). destruct (em_get _ _ _ _ (em_sym _ _ E) G1) as (b & G & _).
      exists b. split; auto. eapply same_obj_chain; [|exact S]. eapply em_same_obj; eauto. }
    intros x b' G'. destruct (Nat.eq_dec x st) as [->|NE]; [|rewrite OT in G' by auto; auto].
    rewrite GS in G'. injection G' as <-. destruct (X st b2 G2) as (b & G & S1' & S2' & S3' & S4'). exists b. split; [auto|].
    unfold same_obj. cbn. split; [auto|]. split; [auto|]. split; [auto|]. rewrite B2 in S4'. destruct (b_body b); [auto|discriminate].
Qed.

(** * Termination on graphs without cycles *)
Definition mstep (h : heap) (y a : addr) : Prop :=
  exists b, h_mem h a = Some b /\ traced b = true /\ In (VPtr y) (mfields b).
(** every pointer met is NULL or a live object *)
Definition mclosed (h : heap) (a : addr) : Prop :=
  forall x, clos_refl_trans_1n _ (fun u v => mstep h v u) a x ->
    exists b, h_mem h x = Some b /\ (traced b = true -> ~ In VForeign (mfields b)).

Lemma em_step h h' y a : em h h' -> mstep h y a -> mstep h' y a.
Proof. intros E (b & G & T & I). destruct (em_get _ _ _ _ E G) as (b' & G' & T' & F' & _). exists b'. rewrite T', F'. auto. Qed.

Lemma trace_mark_ok m h : forall a, Acc (mstep h) a -> mclosed h a ->
  exists f0, forall f h1, f0 <= f -> em h h1 -> exists h2, trace_mark f m h1 a = Ok h2.
Proof.
  intros a A. induction A as [a _ IH]. intros C.
  destruct (C a) as (b & G & NF); [constructor|].
  assert (FO : traced b = true -> forall vs, incl vs (mfields b) -> exists f0, forall f h1, f0 <= f -> em h h1 ->
    exists h2, foldm (mark_val (trace_mark f m)) h1 vs = Ok h2).
  { intros T. induction vs as [|v vs IHv]; intros IN.
    - exists 0. intros f h1 _ _. exists h1. auto.
    - destruct IHv as (f1 & F1); [intros x X; apply IN; right; auto|].
      assert (Iv : In v (mfields b)) by (apply IN; left; auto).
      destruct v as [|y|].
      + exists f1. intros f h1 L E. cbn. auto.
      + assert (MS : mstep h y a) by (exists b; auto).
        destruct (IH y MS) as (f2 & F2).
        { intros x X. apply C. econstructor; [exact MS|exact X]. }
        exists (max f1 f2). intros f h1 L E. cbn [foldm mark_val].
        destruct (F2 f h1) as (h2 & E2); [lia|auto|]. rewrite E2. cbn [bind]. apply F1; [lia|].
        eapply em_trans; [exact E|]. apply (trace_mark_marks _ _ _ _ _ E2).
      + exfalso. apply (NF T). auto. }
  assert (X : traced b = true -> (forall f h1, trace_mark (S f) m h1 a = (let* b1 := get h1 a in trace_mark (S f) m h1 a)) ->
    exists f0, forall f h1, f0 <= f -> em h h1 ->
    exists h2, (let* h3 := modify h1 a (set_mark m) in foldm (mark_val (trace_mark f m)) h3 (mfields b)) = Ok h2).
  { intros T _. destruct (FO T (mfields b)) as (f0 & F0); [red; auto|]. exists f0. intros f h1 L E.
    destruct (em_get _ _ _ _ E G) as (b1 & G1 & _).
    destruct (modify_live h1 a (set_mark m)) as (h3 & E3 & _); [congruence|]. rewrite E3. cbn [bind]. apply F0; auto.
    eapply em_trans; [exact E|]. eapply modify_em; eauto. }
  destruct (traced b) eqn:T.
  - destruct X as (f0 & F0); auto.
    { intros f h1. destruct (get h1 a) eqn:GG; cbn [bind]; auto. cbn [trace_mark]. rewrite GG. auto. }
    exists (S f0). intros f h1 L E. destruct f as [|f]; [lia|]. destruct (F0 f h1) as (h2 & E2); [lia|auto|]. exists h2.
    destruct (em_get _ _ _ _ E G) as (b1 & G1 & _ & _ & EB). cbn [trace_mark]. unfold get. rewrite G1. cbn [bind]. rewrite EB.
    unfold traced, mfields in *. destruct (b_body b) as [|[] vs]; try discriminate; exact E2.
  - exists 1. intros f h1 L E. destruct f as [|f]; [lia|]. exists h1.
    destruct (em_get _ _ _ _ E G) as (b1 & G1 & _ & _ & EB). cbn [trace_mark]. unfold get. rewrite G1. cbn [bind]. rewrite EB.
    unfold traced in T. destruct (b_body b) as [|[] vs]; try discriminate; auto.
Qed.

Lemma gc_ok st h l m : wf_chain true h st l -> next_mark h st = Some m -> Acc (mstep h) st -> mclosed h st ->
  exists f0, forall f, f0 <= f -> exists h', gc f h st = Ok h'.
Proof.
  intros W NM A C. destruct (trace_mark_ok m h st A C) as (f0 & F0). exists (max f0 (S (S (S (length l))))).
  intros f L. destruct (F0 f h) as (h1 & T); [lia|apply em_refl|]. unfold gc, get. unfold next_mark in NM.
  destruct (h_mem h st) as [b|] eqn:G; [|discriminate]. cbn [bind]. destruct (b_body b) as [t r s c m'|] eqn:B; [|discriminate].
  injection NM as ->. rewrite T. cbn [bind].
  pose proof (same_skel_wf _ _ _ _ (trace_mark_skel _ _ _ _ _ T) W) as W1.
  pose proof (trace_mark_state _ _ _ _ _ _ (wc_state _ _ _ W) T) as MS.
  destruct (sweep_spec st m h1 l f W1 MS) as (h2 & SW & W2 & _); [lia|]. rewrite SW. cbn [bind].
  pose proof (wc_state _ _ _ W2) as S. unfold shp in S. destruct (h_mem h2 st) as [b2|] eqn:G2; [|discriminate]. cbn [bind].
  cbn in S. unfold shape_of in S. destruct (b_body b2) as [|[] ?]; try discriminate. eauto.
Qed.

(** * A finite graph without cycles is well founded *)
Section Acyclic.
Variable R : addr -> addr -> Prop.   (* R a y: an edge from a to y *)
Variable N : nat.
Hypothesis R_dom : forall a y, R a y -> a < N.
Variable st : addr.
Hypothesis no_cycle : forall x, clos_refl_trans _ R st x -> ~ clos_trans _ R x x.
Lemma acyclic_acc_aux : forall k a vis, N < k + length vis -> NoDup vis -> (forall v, In v vis -> v < N /\ clos_trans _ R v a) ->
  clos_refl_trans _ R st a -> Acc (fun y x => R x y) a.
Proof.
  induction k as [|k IH]; intros a vis L ND V RT.
  - exfalso. assert (length vis <= length (seq 0 N)).
    { apply NoDup_incl_length; auto. intros v I. apply in_seq. destruct (V v I). lia. }
    rewrite seq_length in H. cbn in L. lia.
  - constructor. intros y S. apply (IH y (a :: vis)).
    + cbn. lia.
    + constructor; auto. intros I. destruct (V a I) as (_ & C). apply (no_cycle a RT C).
    + intros v [<-|I].
      * split; [eapply R_dom; eauto|constructor; auto].
      * destruct (V v I) as (B & C). split; auto. eapply t_trans; [exact C|constructor; auto].
    + eapply rt_trans; [exact RT|constructor; auto].
Qed.
Lemma acyclic_acc : Acc (fun y x => R x y) st.
Proof. apply (acyclic_acc_aux (S N) st []); [cbn; lia|constructor|intros v []|constructor 2]. Qed.
End Acyclic.

(** * Marks over histories *)
(** The state keeps [next_mark]; every block keeps its mark, new ones have mark 0
    or that of the block they are a copy of. *)
Definition keepsb (b b' : block) : Prop :=
  b_mark b' = b_mark b /\
  match b_body b with
  | BState _ r s c m => exists t, b_body b' = BState t r s c m
  | BObj k _ => exists k' vs, b_body b' = BObj k' vs /\ (k' = KStatic -> k = KStatic)
  end.
Definition is_obj (b : block) : Prop := exists k vs, b_body b = BObj k vs.
Section Prims.
(** whether blocks are resized *)
Variable moving : bool.
Inductive prim : heap -> heap -> Prop :=
| p_set : forall h a b b', h_mem h a = Some b -> keepsb b b' -> prim h (set_mem h a (Some b'))
| p_free : forall h a h', free h a = Ok h' -> prim h h'
| p_new : forall h b, is_obj b -> b_mark b = 0%Z -> prim h (fst (malloc h b))
| p_copy : forall h a b, moving = true -> h_mem h a = Some b -> is_obj b -> prim h (fst (malloc h b))
| p_move : forall h a b h1, moving = true -> h_mem h a = Some b -> is_obj b -> free h a = Ok h1 -> prim h (fst (malloc h1 b)).
Inductive prims : heap -> heap -> Prop :=
| ps_refl : forall h, prims h h
| ps_step : forall h1 h2 h3, prim h1 h2 -> prims h2 h3 -> prims h1 h3.
Lemma prims_one h h' : prim h h' -> prims h h'.
Proof. intros P. econstructor; [exact P|constructor]. Qed.
Lemma prims_trans h1 h2 h3 : prims h1 h2 -> prims h2 h3 -> prims h1 h3.
Proof. induction 1; auto. intros X. econstructor; eauto. Qed.

Lemma modify_prims h a f h' : (forall b, keepsb b (f b)) -> modify h a f = Ok h' -> prims h h'.
Proof. intros K H. apply modify_inv in H as (b & G & ->). apply prims_one. econstructor; eauto. Qed.
Lemma keepsb_same b f : b_mark (f b) = b_mark b -> b_body (f b) = b_body b -> keepsb b (f b).
Proof. intros M B. split; auto. rewrite B. destruct (b_body b); eauto 10. Qed.
Ltac kb := let b := fresh in intros b; repeat (match goal with |- context [if ?c then _ else _] => destruct c end); apply (keepsb_same b); reflexivity.
Lemma keepsb_refl b : keepsb b b.
Proof. split; auto. destruct (b_body b); eauto 10. Qed.
Lemma keepsb_set_rc v b : keepsb b (set_rc v b). Proof. apply (keepsb_same b (set_rc v)); auto. Qed.
Lemma keepsb_set_ret v b : keepsb b (set_ret v b). Proof. apply (keepsb_same b (set_ret v)); auto. Qed.
Lemma keepsb_set_prev v b : keepsb b (set_prev v b). Proof. apply (keepsb_same b (set_prev v)); auto. Qed.
Lemma keepsb_set_next v b : keepsb b (set_next v b). Proof. apply (keepsb_same b (set_next v)); auto. Qed.
Lemma keepsb_set_state v b : keepsb b (set_state v b). Proof. apply (keepsb_same b (set_state v)); auto. Qed.
Lemma keepsb_set_meth v b : keepsb b (set_meth v b). Proof. apply (keepsb_same b (set_meth v)); auto. Qed.
#[local] Hint Resolve keepsb_refl keepsb_set_rc keepsb_set_ret keepsb_set_prev keepsb_set_next keepsb_set_state keepsb_set_meth : keeps.

Lemma set_tail_prims h st t h' : set_tail h st t = Ok h' -> prims h h'.
Proof.
  unfold set_tail. intros H. apply bind_ok in H as (b & G & H). apply get_ok in G. destruct (b_body b) eqn:B; [|discriminate].
  injection H as <-. apply prims_one. econstructor; [exact G|]. split; auto. rewrite B. cbn. eauto.
Qed.
Lemma chain_prims h a st h' : chain h a st = Ok h' -> prims h h'.
Proof.
  unfold chain. intros H. apply bind_ok in H as (h1 & H1 & H). apply bind_ok in H as (t & _ & H).
  apply bind_ok in H as (h2 & H2 & H). apply bind_ok in H as (h3 & H3 & H).
  apply modify_prims in H1; [|auto with keeps]. apply modify_prims in H2; [|auto with keeps]. apply modify_prims in H3; [|auto with keeps].
  apply set_tail_prims in H. eauto using prims_trans.
Qed.
Lemma de_chain_prims h a h' : de_chain h a = Ok h' -> prims h h'.
Proof.
  unfold de_chain. intros H. apply bind_ok in H as (b & _ & H). apply bind_ok in H as (t & _ & H).
  destruct (t =? a); apply bind_ok in H as (p & _ & H); apply bind_ok in H as (h1 & H1 & H);
    (apply modify_prims in H1; [|auto with keeps]).
  - apply set_tail_prims in H. eauto using prims_trans.
  - destruct (b_next b); [|injection H as <-; auto]. apply modify_prims in H; [|auto with keeps]. eauto using prims_trans.
Qed.
Lemma free_prims h a h' : free h a = Ok h' -> prims h h'.
Proof. intros H. apply prims_one. econstructor; eauto. Qed.
Lemma del_nofollow_prims h a h' : del_nofollow h a = Ok h' -> prims h h'.
Proof.
  unfold del_nofollow. intros H. apply bind_ok in H as (b & _ & H).
  assert (X : (let* h1 := de_chain h a in free h1 a) = Ok h' -> prims h h').
  { intros X. apply bind_ok in X as (h1 & X1 & X2). apply de_chain_prims in X1. apply free_prims in X2. eauto using prims_trans. }
  destruct (b_body b) as [? ? ? ? ?|[] ?]; auto; [eapply free_prims; eauto|injection H as <-; constructor].
Qed.
Lemma del_state_prims : forall fuel h st h', del_state fuel h st = Ok h' -> prims h h'.
Proof.
  induction fuel as [|f IH]; intros h st h'; [discriminate|]. cbn [del_state]. intros H. apply bind_ok in H as (t & _ & H).
  destruct (t =? st); [eapply free_prims; eauto|]. apply bind_ok in H as (h1 & H1 & H).
  eapply prims_trans; [eapply del_nofollow_prims|eapply IH]; eauto.
Qed.
Lemma foldm_prims {A} (f : heap -> A -> outcome heap) : (forall h x h', f h x = Ok h' -> prims h h') ->
  forall l h h', foldm f h l = Ok h' -> prims h h'.
Proof.
  intros F. induction l as [|x l IH]; intros h h'; cbn.
  - intros [= <-]. constructor.
  - intros H. apply bind_ok in H as (h1 & H1 & H). eapply prims_trans; eauto.
Qed.
Lemma del_e_prims tr : (forall h x h', tr h x = Ok h' -> prims h h') -> forall h f h', del_e tr h f = Ok h' -> prims h h'.
Proof.
  intros T h (p, v) h'. destruct p, v; cbn [del_e]; try discriminate; try (intros [= <-]; constructor).
  - intros H. apply bind_ok in H as (h1 & H1 & H).
    apply modify_prims in H1; [|intros b; destruct (b_rc b =? 0)%Z; auto with keeps]. apply bind_ok in H as (b & _ & H).
    destruct (b_ret b); [injection H as <-; auto|]. destruct (b_rc b =? 0)%Z; [|injection H as <-; auto].
    eapply prims_trans; eauto.
  - apply T.
Qed.
Lemma trace_del_prims : forall fuel h a h', trace_del fuel h a = Ok h' -> prims h h'.
Proof.
  induction fuel as [|f IH]; intros h a h'; [discriminate|]. cbn [trace_del]. intros H. apply bind_ok in H as (b & _ & H).
  assert (X : forall fs, (let* h0 := foldm (del_e (trace_del f)) h fs in let* h1 := de_chain h0 a in free h1 a) = Ok h' -> prims h h').
  { intros fs X. apply bind_ok in X as (h1 & X1 & X). apply bind_ok in X as (h2 & X2 & X).
    apply (foldm_prims _ (del_e_prims _ IH)) in X1. apply de_chain_prims in X2. apply free_prims in X.
    eauto using prims_trans. }
  destruct (b_body b) as [? ? ? ? ?|k vs]; [eapply del_state_prims; eauto|].
  destruct k; try (eapply X; eauto; fail); [injection H as <-; constructor|]. destruct vs; [eapply X; eauto|discriminate].
Qed.
Lemma incr_prims h p v h' : incr_indegree h p v = Ok h' -> prims h h'.
Proof.
  destruct p; cbn [incr_indegree decr_indegree]; intros H.
  - apply bind_ok in H as (a & _ & H). eapply modify_prims; [|exact H]. intros b. cbn beta. destruct (b_ret b); auto with keeps.
  - apply bind_ok in H as (a & _ & H). eapply modify_prims; [|exact H]. auto with keeps.
  - injection H as <-. constructor.
Qed.
Lemma decr_prims h p v h' : decr_indegree h p v = Ok h' -> prims h h'.
Proof.
  destruct p; cbn [incr_indegree decr_indegree]; intros H.
  - apply bind_ok in H as (a & _ & H). eapply modify_prims; [|exact H]. intros b. cbn beta. destruct (b_ret b); auto with keeps.
    destruct (b_rc b =? 0)%Z; auto with keeps.
  - apply bind_ok in H as (a & _ & H). apply bind_ok in H as (b & _ & H). destruct (b_ret b); [|discriminate].
    eapply modify_prims; [|exact H]. auto with keeps.
  - injection H as <-. constructor.
Qed.
Lemma set_obj_prims h a k vs k' vs' b : h_mem h a = Some b -> b_body b = BObj k vs -> (k' = KStatic -> k = KStatic) -> prims h (set_mem h a (Some (set_body (BObj k' vs') b))).
Proof. intros G B K. apply prims_one. econstructor; [exact G|]. split; auto. rewrite B. cbn. eauto. Qed.
Lemma put_vals_prims h a k vs k' vs' h' : get_obj h a = Ok (k, vs) -> (k' = KStatic -> k = KStatic) -> put_vals h a k' vs' = Ok h' -> prims h h'.
Proof.
  intros G K H. apply get_obj_inv in G as (b & G & B). unfold put_vals in H. rewrite (modify_ok _ _ _ _ G) in H. injection H as <-.
  eapply set_obj_prims; eauto.
Qed.
Lemma update_policy_prims h t i p h' : update_policy h t i p = Ok h' -> prims h h'.
Proof.
  unfold update_policy. intros H. apply bind_ok in H as ((k, vs) & G & H). apply get_obj_inv in G as (b & G & B).
  destruct k; try discriminate. rewrite (modify_ok _ _ _ _ G) in H. injection H as <-. eapply set_obj_prims; eauto. discriminate.
Qed.
Lemma list_append_prims h l e h' : list_append h l e = Ok h' -> prims h h'.
Proof.
  unfold list_append. intros H. apply bind_ok in H as ((k, vs) & G & H). destruct k; try discriminate.
  apply bind_ok in H as (h1 & H1 & H). eapply prims_trans; [eapply put_vals_prims|eapply incr_prims]; eauto.
Qed.
Lemma list_insert_prims h l i e h' : list_insert h l i e = Ok h' -> prims h h'.
Proof.
  unfold list_insert. intros H. apply bind_ok in H as ((k, vs) & G & H). destruct k; try discriminate.
  destruct (i <=? length vs); [|discriminate].
  apply bind_ok in H as (h1 & H1 & H). eapply prims_trans; [eapply put_vals_prims|eapply incr_prims]; eauto.
Qed.
Lemma list_remove_prims h l i h' : list_remove h l i = Ok h' -> prims h h'.
Proof.
  unfold list_remove. intros H. apply bind_ok in H as ((k, vs) & G & H). destruct k; try discriminate.
  destruct (nth_error vs i); [|injection H as <-; constructor].
  apply bind_ok in H as (h1 & H1 & H). eapply prims_trans; [eapply put_vals_prims|eapply decr_prims]; eauto.
Qed.
Lemma stack_push_prims h s e h' : stack_push h s e = Ok h' -> prims h h'.
Proof.
  unfold stack_push. intros H. apply bind_ok in H as ((k, vs) & G & H). destruct k; try discriminate.
  destruct (_ =? _)%Z; [injection H as <-; constructor|].
  apply bind_ok in H as (h1 & H1 & H). eapply prims_trans; [eapply put_vals_prims|eapply incr_prims]; eauto.
Qed.
Lemma stack_pop_prims h s h' e : stack_pop h s = Ok (h', e) -> prims h h'.
Proof.
  unfold stack_pop. intros H. apply bind_ok in H as ((k, vs) & G & H). destruct k; try discriminate.
  destruct (rev vs); [injection H as <- <-; constructor|].
  apply bind_ok in H as (h1 & H1 & H). apply bind_ok in H as (h2 & H2 & H). injection H as <- <-.
  eapply prims_trans; [eapply put_vals_prims|eapply decr_prims]; eauto.
Qed.
Lemma set_add_prims keq h s v pos h' : set_add keq h s v pos = Ok h' -> prims h h'.
Proof.
  unfold set_add. intros H. apply bind_ok in H as ((k, vs) & G & H). destruct k; try discriminate.
  destruct (find (keq v) vs).
  - destruct (val_eqb v0 v); [eapply incr_prims; eauto|injection H as <-; constructor].
  - apply bind_ok in H as (h1 & H1 & H). eapply prims_trans; [eapply put_vals_prims|eapply incr_prims]; eauto.
Qed.
Lemma set_remove_prims keq h s v h' : set_remove keq h s v = Ok h' -> prims h h'.
Proof.
  unfold set_remove. intros H. apply bind_ok in H as ((k, vs) & G & H). destruct k; try discriminate.
  eapply put_vals_prims; eauto.
Qed.
Lemma key_delete_prims keq h keys key h' : key_delete keq h keys key = Ok h' -> prims h h'.
Proof.
  unfold key_delete. intros H. apply bind_ok in H as ((k, vs) & G & H). revert H. generalize 0.
  generalize vs at 1. clear. intros l. induction l as [|x l IH]; intros i; [discriminate|].
  destruct (keq key x); [apply list_remove_prims|apply IH].
Qed.
Lemma dict_add_prims h d k v h' : dict_add h d k v = Ok h' -> prims h h'.
Proof.
  unfold dict_add. intros H. apply bind_ok in H as ((kk, vs) & G & H).
  destruct kk; try discriminate. destruct vs as [|? [|? [|]]]; try discriminate.
  apply bind_ok in H as (ka & _ & H). apply bind_ok in H as (h1 & H1 & H). apply bind_ok in H as (xa & _ & H).
  eapply prims_trans; eapply list_append_prims; eauto.
Qed.
Lemma mk_obj_prims h st k vs m h' a : mk_obj h st k vs m = Ok (h', a) -> prims h h'.
Proof.
  unfold mk_obj. set (b0 := zero_block _ _). destruct (malloc h b0) as (h1, a1) eqn:E. intros H. apply bind_ok in H as (h2 & H2 & H).
  injection H as <- <-. eapply prims_trans; [|eapply chain_prims; eauto].
  replace h1 with (fst (malloc h b0)) by (rewrite E; auto). apply prims_one, p_new; [exists k, vs; auto|auto].
Qed.
Lemma mk_prod_prims h st ps vs h' a : mk_prod h st ps vs = Ok (h', a) -> prims h h'.
Proof.
  unfold mk_prod. intros H. apply bind_ok in H as ((h1, a1) & H1 & H). apply bind_ok in H as (h2 & H2 & H). injection H as <- <-.
  eapply prims_trans; [eapply mk_obj_prims; eauto|]. eapply foldm_prims; [|exact H2]. intros ? (?, ?) ?. apply incr_prims.
Qed.
Lemma mk_map_prims h st pk pv h' a : mk_map h st pk pv = Ok (h', a) -> prims h h'.
Proof.
  unfold mk_map, mk_list. intros H. apply bind_ok in H as ((h1, a1) & H1 & H).
  eapply prims_trans; eapply mk_obj_prims; eauto.
Qed.
Lemma mk_dict_prims h st p h' a : mk_dict h st p = Ok (h', a) -> prims h h'.
Proof.
  unfold mk_dict, mk_list. intros H. apply bind_ok in H as ((h1, a1) & H1 & H). apply bind_ok in H as ((h2, a2) & H2 & H).
  apply mk_obj_prims in H1. apply mk_obj_prims in H2. apply mk_obj_prims in H. eauto using prims_trans.
Qed.
Lemma map_add_prims keq fuel h m k v pos h' r : map_add keq fuel h m k v pos = Ok (h', r) -> prims h h'.
Proof.
  intros H. destruct k as [|ka|]; [injection H as <- <-; constructor| |].
  all: unfold map_add in H.
  all: apply bind_ok in H as (b & G & H); destruct (b_body b) as [|[] [|keys ts]] eqn:B; try discriminate.
  all: apply bind_ok in H as ((h1, t) & H1 & H); apply mk_prod_prims in H1.
  all: apply bind_ok in H as ((km, vs) & GM & H); apply bind_ok in H as (e & FE & H); destruct e as [t1|].
  1, 3: apply bind_ok in H as (t1a & _ & H); apply bind_ok in H as ((k1, vs1) & G1 & H); apply bind_ok in H as (old & _ & H);
    apply bind_ok in H as (h2 & H2 & H); apply bind_ok in H as (h3 & H3 & H); apply bind_ok in H as (h4 & H4 & H); injection H as <- <-;
    (eapply prims_trans; [exact H1|]); (eapply prims_trans with (h2 := h2));
    [destruct (val_eqb v old); [injection H2 as <-; constructor|];
      apply bind_ok in H2 as (h5 & H5 & H2); eapply prims_trans; [eapply put_vals_prims|eapply decr_prims]; eauto
    |eapply prims_trans; [eapply update_policy_prims; eauto|eapply trace_del_prims; exact H4]].
  all: apply bind_ok in H as (h2 & H2 & H); apply bind_ok in H as (kka & _ & H); apply bind_ok in H as (h3 & H3 & H); injection H as <- <-;
    (eapply prims_trans; [exact H1|]); (eapply prims_trans; [eapply put_vals_prims; [exact GM| |exact H2]; discriminate|eapply list_append_prims; eauto]).
Qed.
Lemma map_remove_prims keq fuel h m k h' r : map_remove keq fuel h m k = Ok (h', r) -> prims h h'.
Proof.
  intros H. destruct k as [|ka|]; [injection H as <- <-; constructor| |].
  all: unfold map_remove in H.
  all: apply bind_ok in H as (b & G & H); apply get_ok in G; destruct (b_body b) as [|[] [|keys ts]] eqn:B; try discriminate.
  all: apply bind_ok in H as (e & FE & H); destruct e as [t|]; [|injection H as <- <-; constructor].
  all: apply bind_ok in H as (h1 & H1 & H); apply bind_ok in H as (ok & G1 & H); apply bind_ok in H as (ov & G2 & H).
  all: apply bind_ok in H as (h2 & H2 & H); apply bind_ok in H as (h3 & H3 & H); apply bind_ok in H as (ta & T & H).
  all: apply bind_ok in H as (h4 & H4 & H); apply bind_ok in H as (h5 & H5 & H); apply bind_ok in H as (h6 & H6 & H).
  all: apply bind_ok in H as (kka & T2 & H); apply bind_ok in H as (h7 & H7 & H); injection H as <- <-.
  all: (eapply prims_trans; [eapply put_vals_prims; [| |exact H1]; [unfold get_obj, get; rewrite G; cbn; rewrite B; reflexivity|discriminate]|]).
  all: (eapply prims_trans; [eapply decr_prims; eauto|]); (eapply prims_trans; [eapply decr_prims; eauto|]).
  all: (eapply prims_trans; [eapply update_policy_prims; eauto|]); (eapply prims_trans; [eapply update_policy_prims; eauto|]).
  all: eapply prims_trans; [eapply (del_e_prims _ (trace_del_prims fuel)); exact H6|eapply key_delete_prims; eauto].
Qed.
(** an object stays one *)
Lemma prim_obj a h h' : prim h h' -> a < h_next h -> (forall b, h_mem h a = Some b -> is_obj b) ->
  a < h_next h' /\ (forall b, h_mem h' a = Some b -> is_obj b).
Proof.
  assert (FR : forall h x h1, free h x = Ok h1 -> a < h_next h -> (forall b, h_mem h a = Some b -> is_obj b) ->
    a < h_next h1 /\ (forall b, h_mem h1 a = Some b -> is_obj b)).
  { intros h0 x h1. unfold free. destruct (h_mem h0 x); [|discriminate]. intros [= <-] L O. cbn. split; auto. intros b' X.
    destruct (a =? x); [discriminate|auto]. }
  assert (MA : forall h b, a < h_next h -> (forall b, h_mem h a = Some b -> is_obj b) ->
    a < h_next (fst (malloc h b)) /\ (forall b', h_mem (fst (malloc h b)) a = Some b' -> is_obj b')).
  { intros h0 b L O. cbn. split; [lia|]. intros b'. destruct (Nat.eqb_spec a (h_next h0)); [lia|auto]. }
  destruct 1 as [h x b b' G (_ & K)|h x h' F|h b IO M|h x b _ G IO|h x b h1 _ G IO F]; intros L O; eauto.
  - cbn. split; auto. intros c. destruct (Nat.eqb_spec a x) as [->|]; auto. intros [= <-]. destruct (O b G) as (k & vs & B).
    rewrite B in K. destruct K as (k' & vs' & K & _). red. eauto.
  - destruct (FR _ _ _ F L O). auto.
Qed.
Lemma prims_obj a h h' : prims h h' -> a < h_next h -> (forall b, h_mem h a = Some b -> is_obj b) ->
  a < h_next h' /\ (forall b, h_mem h' a = Some b -> is_obj b).
Proof. induction 1; auto. intros L O. destruct (prim_obj a _ _ H L O). auto. Qed.

Lemma resize_prims h a h' a' k vs : moving = true -> get_obj h a = Ok (k, vs) -> a < h_next h -> resize h a = Ok (h', a') -> prims h h'.
Proof.
  intros Mv GO L H. apply get_obj_inv in GO as (b & G & B). unfold resize, get in H. rewrite G in H. cbn [bind] in H. destruct (b_meth b).
  - injection H as <- <-. constructor.
  - destruct (malloc h b) as (h1, a1) eqn:E. apply bind_ok in H as (h2 & H2 & H). injection H as <- <-.
    eapply prims_trans; [|eapply chain_prims; eauto]. replace h1 with (fst (malloc h b)) by (rewrite E; auto).
    apply prims_one. eapply p_copy; eauto. red; eauto.
  - apply bind_ok in H as (h1 & H1 & H). apply de_chain_prims in H1.
    destruct (h_mem h1 a) as [b1|] eqn:G1; [|discriminate]. cbn [bind] in H. apply bind_ok in H as (h2 & H2 & H).
    destruct (malloc h2 b1) as (h3, a3) eqn:E. apply bind_ok in H as (h4 & H4 & H). injection H as <- <-.
    eapply prims_trans; [exact H1|]. eapply prims_trans; [|eapply chain_prims; eauto].
    replace h3 with (fst (malloc h2 b1)) by (rewrite E; auto). apply prims_one. eapply p_move; eauto.
    destruct (prims_obj a _ _ H1 L) as (_ & O); [|auto]. intros b' X. rewrite G in X. injection X as <-. red; eauto.
Qed.

Definition resizes (o : hop) : Prop := match o with HResize _ => True | _ => False end.
Lemma hstep_prims st h o h' l : wf_chain false h st l -> (resizes o -> moving = true) -> hstep st h o = Ok h' ->
  match o with HGc fuel => gc fuel h st = Ok h' | _ => prims h h' end.
Proof.
  intros W Mv H. destruct o; cbn [hstep] in H;
    try (apply fst_m_ok in H as (r & H)); eauto using mk_obj_prims, mk_map_prims, mk_dict_prims, mk_prod_prims, list_append_prims,
      list_insert_prims, list_remove_prims, stack_push_prims, stack_pop_prims, set_add_prims, set_remove_prims, map_add_prims,
      map_remove_prims, dict_add_prims, incr_prims, decr_prims.
  - unfold mk_tagged in H. apply bind_ok in H as ((h1, a1) & H1 & H). apply mk_obj_prims in H1.
    destruct v; [injection H as <- <-; auto| |]; apply bind_ok in H as (h2 & H2 & H); injection H as <- <-; apply incr_prims in H2; eauto using prims_trans.
  - injection H as <-. apply prims_one, p_new; [red; cbn; eauto|auto].
  - apply bind_ok in H as ((k, vs) & G & H). destruct k; try discriminate. apply fst_m_ok in H as (r & H).
    eapply resize_prims; eauto; [apply Mv; exact I|]. apply get_obj_inv in G as (b & G & _). apply (wc_fresh _ _ _ W). congruence.
  - eapply modify_prims; [|exact H]. intros b. cbn beta. destruct (b_meth b); auto with keeps.
  - eapply modify_prims; [|exact H]. intros b. cbn beta. destruct (b_meth b); auto with keeps.
  - unfold set_clear in H. apply bind_ok in H as ((k, vs) & G & H). destruct k; try discriminate.
    apply bind_ok in H as (h1 & H1 & H). apply (foldm_prims _ (del_e_prims _ (trace_del_prims fuel))) in H1.
    eapply prims_trans; [exact H1|]. unfold put_vals in H. assert (X := H). apply modify_inv in X as (b & GB & ->).
    apply get_obj_inv in G as (b0 & G0 & B0). 
    destruct (prims_obj s _ _ H1) as (_ & O).
    + apply (wc_fresh _ _ _ W). congruence.
    + intros b' Y. rewrite G0 in Y. injection Y as <-. red; eauto.
    + destruct (O b GB) as (k1 & vs1 & B1). eapply set_obj_prims; eauto. discriminate.
  - eapply (del_e_prims _ (trace_del_prims fuel)); eauto.
  - unfold add_gc_root in H. apply bind_ok in H as (b & _ & H). destruct (b_body b); [|discriminate]. eapply set_add_prims; eauto.
  - unfold remove_gc_root in H. apply bind_ok in H as (b & _ & H). destruct (b_body b); [|discriminate]. eapply set_remove_prims; eauto.
  - unfold add_context in H. apply bind_ok in H as (b & _ & H). destruct (b_body b); [|discriminate].
    apply bind_ok in H as ((h1, r) & H1 & H). injection H as <-. eapply map_add_prims; eauto.
  - unfold remove_context in H. apply bind_ok in H as (b & _ & H). destruct (b_body b); [|discriminate].
    apply bind_ok in H as ((h1, r) & H1 & H). injection H as <-. eapply map_remove_prims; eauto.
Qed.

End Prims.

(** Blocks have mark 0 when the next collection uses mark 1, and mark 0 or 1 otherwise. *)
Definition mark_ok (nm : Z) (k : Z) : Prop := k = 0%Z \/ nm = 0%Z /\ k = 1%Z.
Record marks_inv (h : heap) (st : addr) (nm : Z) : Prop := MI {
  mi_lt : st < h_next h;
  mi_state : forall b, h_mem h st = Some b -> exists t r s c, b_body b = BState t r s c nm;
  mi_marks : forall x b, h_mem h x = Some b -> mark_ok nm (b_mark b);
  mi_static : forall x b, h_mem h x = Some b -> shape_of b = SStatic -> b_mark b = 0%Z
}.
Lemma prim_marks mv st nm h h' : prim mv h h' -> marks_inv h st nm -> marks_inv h' st nm.
Proof.
  assert (FR : forall h x h1, free h x = Ok h1 -> marks_inv h st nm -> marks_inv h1 st nm).
  { intros h0 x h1. unfold free. destruct (h_mem h0 x); [|discriminate]. intros [= <-] [L S M Z]. constructor; cbn; auto.
    - intros b'. destruct (st =? x); [discriminate|auto].
    - intros y b'. destruct (y =? x); [discriminate|eauto].
    - intros y b'. destruct (y =? x); [discriminate|eauto]. }
  assert (MA : forall h b, is_obj b -> mark_ok nm (b_mark b) -> (shape_of b = SStatic -> b_mark b = 0%Z) ->
    marks_inv h st nm -> marks_inv (fst (malloc h b)) st nm).
  { intros h0 b _ K KS [L S M Z]. constructor; cbn; auto.
    - intros b'. destruct (Nat.eqb_spec st (h_next h0)); [lia|auto].
    - intros y b'. destruct (y =? h_next h0); [intros [= <-]; auto|eauto].
    - intros y b'. destruct (y =? h_next h0); [intros [= <-]; auto|eauto]. }
  destruct 1 as [h x b b' G (K1 & K2)|h x h' F|h b IO M|h x b _ G IO|h x b h1 _ G IO F]; intros I; eauto.
  - destruct I as [L S M Z]. constructor; cbn; auto.
    + intros c. destruct (Nat.eqb_spec st x) as [<-|]; [|auto]. intros [= <-]. destruct (S b G) as (t & r & s & cc & B). rewrite B in K2.
      destruct K2 as (t' & K2). eauto 10.
    + intros y c. destruct (Nat.eqb_spec y x) as [->|]; [|eauto]. intros [= <-]. rewrite K1. eauto.
    + intros y c. destruct (Nat.eqb_spec y x) as [->|]; [|eauto]. intros [= <-]. rewrite K1. intros SH. apply (Z x b G).
      unfold shape_of in *. destruct (b_body b) as [|k vs].
      * destruct K2 as (t' & K2). rewrite K2 in SH. discriminate.
      * destruct K2 as (k' & vs' & K2 & KS). rewrite K2 in SH. destruct k'; try discriminate. rewrite KS by auto. auto.
  - apply MA; auto. left. auto.
  - apply MA; auto; [apply (mi_marks _ _ _ I x b G)|apply (mi_static _ _ _ I x b G)].
  - apply MA; [auto| | |eapply FR; eauto]; [apply (mi_marks _ _ _ I x b G)|apply (mi_static _ _ _ I x b G)].
Qed.
Lemma prims_marks mv st nm h h' : prims mv h h' -> marks_inv h st nm -> marks_inv h' st nm.
Proof. induction 1; auto. intros I. apply IHprims. eapply prim_marks; eauto. Qed.

Lemma prims_next mv h h' : prims mv h h' -> h_next h <= h_next h'.
Proof.
  induction 1 as [|h1 h2 h3 P _ IH]; auto. etransitivity; [|exact IH]. destruct P; cbn; auto.
  - unfold free in H. destruct (h_mem h a); [|discriminate]. injection H as <-. auto.
  - match goal with F : free _ _ = Ok _ |- _ => unfold free in F; destruct (h_mem h a); [|discriminate]; injection F as <- end. cbn. lia.
Qed.

Definition state_rest (h : heap) (st : addr) (n : Z) : outcome (heap * addr) :=
  let* (h, roots) := mk_set h st NOOP in
  let* (h, stack) := mk_stack h st DEL_RC n in
  let* (h, ctx) := mk_map h st DEL_RC DEL_RC in
  let* b := get h st in
  match b_body b with
  | BState t _ _ _ m => Ok (set_mem h st (Some (set_body (BState t roots stack ctx m) b)), st)
  | BObj _ _ => Bad BadPointer
  end.
Lemma state_rest_marks n h0 s0 h st : marks_inv h0 s0 1 -> state_rest h0 s0 n = Ok (h, st) -> st = s0 /\ marks_inv h s0 1.
Proof.
  intros I0 H. unfold state_rest in H.
  apply bind_ok in H as ((h1, a1) & H1 & H). apply bind_ok in H as ((h2, a2) & H2 & H). apply bind_ok in H as ((h3, a3) & H3 & H).
  apply (mk_obj_prims true) in H1. apply (mk_obj_prims true) in H2. apply (mk_map_prims true) in H3.
  pose proof (prims_marks _ _ _ _ _ (prims_trans _ _ _ _ (prims_trans _ _ _ _ H1 H2) H3) I0) as I3.
  apply bind_ok in H as (b & G & H). apply get_ok in G. destruct (b_body b) eqn:B; [|discriminate]. injection H as <- <-.
  destruct I3 as [L S M Z]. destruct (S b G) as (t & r & s & c & B'). rewrite B in B'. injection B' as -> -> -> -> ->.
  split; [auto|]. constructor; cbn; auto.
  - intros b'. rewrite Nat.eqb_refl. intros [= <-]. cbn. eauto.
  - intros x b'. destruct (Nat.eqb_spec x s0) as [->|]; [|eauto]. intros [= <-]. cbn. eauto.
  - intros x b'. destruct (Nat.eqb_spec x s0) as [->|]; [|eauto]. intros [= <-]. discriminate.
Qed.
Lemma state_mk_marks_gen n h h' st : (forall x, h_mem h x = None) -> state_mk h n = Ok (h', st) -> marks_inv h' st 1.
Proof.
  intros N H. unfold state_mk in H. destruct (malloc h (zero_block (BState (h_next h) 0 0 0 1) M_IDENTITY)) as (h0, s0) eqn:E.
  assert (I0 : marks_inv h0 s0 1).
  { unfold malloc in E. injection E as <- <-. constructor; cbn; auto.
    - intros b. rewrite Nat.eqb_refl. intros [= <-]. cbn. eauto.
    - intros x b. destruct (x =? h_next h); [|rewrite N; discriminate]. intros [= <-]. left. auto.
    - intros x b. destruct (x =? h_next h); [|rewrite N; discriminate]. intros [= <-]. auto. }
  destruct (state_rest_marks n h0 s0 h' st I0 H) as (-> & I). exact I.
Qed.
Lemma state_mk_marks n h st : state_mk empty_heap n = Ok (h, st) -> marks_inv h st 1.
Proof. apply state_mk_marks_gen. auto. Qed.

Lemma wf_weaken h st l : wf_chain true h st l -> wf_chain false h st l.
Proof. intros W. destruct W; constructor; auto; discriminate. Qed.

Lemma reach_newest_marks n st h : reach_newest n st h -> exists nm, marks_inv h st nm /\ (nm = 0%Z \/ nm = 1%Z).
Proof.
  induction 1 as [h H|h o h' R (nm & I & NM) RO S L].
  - exists 1%Z. split; auto. eapply state_mk_marks; eauto.
  - destruct (reach_newest_wf _ _ _ R) as (l & W). pose proof (wf_weaken _ _ _ W) as Wf.
    pose proof (hstep_prims true _ _ _ _ _ Wf (fun _ => eq_refl) S) as P. assert (X : prims true h h' \/ exists fuel, gc fuel h st = Ok h') by (destruct o; eauto).
    destruct X as [X|(fuel & X)]; [exists nm; split; auto; eapply prims_marks; eauto|].
    destruct (gc_exact _ _ _ _ _ W X) as (m & l' & NXT & W' & LV & NXT' & MK & _).
    assert (m = nm).
    { unfold next_mark in NXT. destruct (h_mem h st) eqn:G; [|discriminate]. destruct (mi_state _ _ _ I b G) as (t & r & s & c & B).
      rewrite B in NXT. congruence. }
    subst m. exists (if (nm =? 0)%Z then 1%Z else 0%Z). split; [|destruct (nm =? 0)%Z; auto].
    constructor.
    + apply (wc_fresh _ _ _ W'). pose proof (wc_state _ _ _ W') as SS. apply shp_live in SS. auto.
    + intros b G. unfold next_mark in NXT'. rewrite G in NXT'. destruct (b_body b); [|discriminate]. injection NXT' as ->. eauto 10.
    + intros x b G. destruct (MK x) as [(Y & Z)|(Y & SH & Z)]; [congruence| |].
      * unfold has_mark in Z. rewrite G in Z. injection Z as ->. destruct NM; subst nm; cbn; red; auto.
      * unfold mark_of in Z. rewrite G in Z. unfold shp in SH. destruct (h_mem h x) as [b0|] eqn:G0; [|discriminate].
        cbn in *. injection Z as ->. injection SH as SH. left. apply (mi_static _ _ _ I x b0 G0 SH).
    + intros x b G S0. destruct (MK x) as [(Y & Z)|(Y & SH & Z)]; [congruence| |].
      * exfalso. apply Y. unfold shp. rewrite G. cbn. congruence.
      * unfold mark_of in Z. rewrite G in Z. unfold shp in SH. destruct (h_mem h x) as [b0|] eqn:G0; [|discriminate].
        cbn in *. injection Z as ->. injection SH as SH. apply (mi_static _ _ _ I x b0 G0 SH).
Qed.
