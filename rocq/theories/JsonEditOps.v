(** Each operation of JsonEditModel: the objects before and after *)
From Coq Require Import ZArith List Bool Lia Permutation.
From Verif Require Import Base Json HeapModel HeapChainProofs HeapHistory JsonMemModel JsonMemSpec JsonMemView JsonMemDel JsonMemOps JsonMemAdd JsonMemRun
  JsonEditModel JsonEditSpec JsonEditView.
From Verif Require JsonParseProofs.
Import ListNotations.
Open Scope nat_scope.
Open Scope outcome_scope.
Local Arguments Z.add : simpl never.
Local Arguments Z.sub : simpl never.
Local Arguments Z.eqb : simpl never.
Local Arguments core : simpl never.

Section Turns.
Variables (st : addr) (ss : statics).
Notation W := (W st).
(** The objects [Old] are turned into [New], nothing else is touched. *)
Record turns (h : heap) (c : contents) (h' : heap) (c' : contents) (Old New : list addr) : Prop := Turns {
  t_W : W h';
  t_next : h_next h <= h_next h';
  t_same : forall x, ~ In x Old -> x < h_next h -> look h' x = look h x /\ c' x = c x;
  t_live : forall x, In x Old \/ h_next h <= x -> (look h' x <> None <-> In x New);
  t_from : forall x, In x New -> In x Old \/ h_next h <= x;
  t_one : forall x, occ x New <= 1
}.
Lemma turns_eqv h c h' c' O N O' N' : (forall x, occ x O' = occ x O) -> (forall x, occ x N' = occ x N) -> turns h c h' c' O N -> turns h c h' c' O' N'.
Proof.
  intros EO EN [A B C D E F]. assert (IO : forall x, In x O' <-> In x O) by (intros; rewrite !occ_in, EO; tauto). assert (IN : forall x, In x N' <-> In x N) by (intros; rewrite !occ_in, EN; tauto).
  constructor; auto; intros x; rewrite ?IO, ?IN, ?EN; auto.
Qed.
(** among other objects *)
Lemma turns_frame h c h' c' O N X : turns h c h' c' O N -> (forall x, occ x (O ++ X) <= 1) -> (forall x, In x X -> x < h_next h /\ look h x <> None) ->
  turns h c h' c' (O ++ X) (N ++ X).
Proof.
  intros [A B C D E F] ONE LX. assert (DJ : forall x, In x X -> ~ In x O). { intros x I J. specialize (ONE x). rewrite occ_app in ONE. rewrite occ_in in *. lia. }
  constructor; auto.
  - intros x I LT. apply C; auto. intros J. apply I. apply in_app_iff. auto.
  - intros x I. rewrite in_app_iff in *. destruct (in_dec Nat.eq_dec x X) as [IX|NX].
    + destruct (LX x IX) as (LT & LV). destruct (C x) as (-> & _); auto. tauto.
    + rewrite D; tauto.
  - intros x I. rewrite in_app_iff in *. destruct I as [I|I]; [|auto]. destruct (E x I); auto.
  - intros x. rewrite occ_app. destruct (occ x X) eqn:OX; [rewrite <- (F x); lia|]. assert (IX : In x X) by (rewrite occ_in; lia). specialize (ONE x). rewrite occ_app in ONE.
    destruct (occ x N) eqn:ON; [lia|]. exfalso. assert (IN : In x N) by (rewrite occ_in; lia). destruct (E x IN) as [Y|Y]; [apply (DJ x IX Y)|]. apply LX in IX. lia.
Qed.
Lemma turns_trans h c h1 c1 h2 c2 O M N : turns h c h1 c1 O M -> turns h1 c1 h2 c2 M N -> turns h c h2 c2 O N.
Proof.
  intros [A1 B1 C1 D1 E1 F1] [A2 B2 C2 D2 E2 F2]. constructor; auto.
  - lia.
  - intros x NO LT. destruct (C1 x NO LT) as (<- & <-). apply C2; [|lia]. intros I. destruct (E1 x I); [auto|lia].
  - intros x I. destruct (in_dec Nat.eq_dec x M) as [IM|NM]; [apply D2; auto|]. destruct (Nat.lt_ge_cases x (h_next h1)) as [LT|GE]; [|apply D2; auto].
    destruct (C2 x NM LT) as (-> & _). rewrite (D1 x I). split; [tauto|]. intros X. destruct (E2 x X); [auto|lia].
  - intros x I. destruct (E2 x I) as [X|X]; [auto|]. right. lia.
Qed.
Lemma turns_static h c h' c' O N : W h -> static_ok h ss -> turns h c h' c' O N -> (forall x, In x O -> thing h x) -> static_ok h' ss.
Proof.
  intros Wh SO T TH a I. destruct (SO a I) as (n & A). apply static_obj. destruct (t_same _ _ _ _ _ _ T a) as (-> & _); [| |eapply obj_static; eauto].
  - intros X. apply (static_thing h ss a a SO I); auto.
  - apply (W_below st); auto. rewrite look_none. eapply obj_live; eauto.
Qed.
Lemma turns_laid h c h' c' O N n L : W h -> turns h c h' c' O N -> laid h c ss n L -> (forall x, In x (blocks L) -> ~ In x O) -> laid h' c' ss n L.
Proof. intros Wh T H D. eapply laid_ext; [|exact H]. intros x X. apply T; [auto|]. eapply laid_lt; eauto. Qed.
Lemma turns_obj h c h' c' O N x k vs n : W h -> turns h c h' c' O N -> obj h x k vs n -> k <> KStatic -> ~ In x O -> obj h' x k vs n /\ c' x = c x.
Proof.
  intros Wh T Ob NS NI. destruct (t_same _ _ _ _ _ _ T x NI) as (E & C); [apply (thing_lt st); auto; eapply thing_obj; eauto|]. split; [eapply obj_ext; eauto|auto].
Qed.
Lemma inv_turns h0 c0 h c h' c' R R' O N X : inv st h0 c0 h c R -> turns h c h' c' O N -> (forall x, occ x R = occ x O + occ x X) -> (forall x, occ x R' = occ x N + occ x X) -> inv st h0 c0 h' c' R'.
Proof.
  intros I T ER ER'. assert (IR : forall x, In x R <-> In x O \/ In x X) by (intros x; rewrite !occ_in, ER; lia). assert (IR' : forall x, In x R' <-> In x N \/ In x X) by (intros x; rewrite !occ_in, ER'; lia).
  assert (NX := i_next _ _ _ _ _ _ I). assert (LT : forall x, In x R -> x < h_next h) by (intros x Y; eapply inv_lt; eauto). assert (GE := i_new _ _ _ _ _ _ I).
  assert (DJ : forall x, In x X -> ~ In x O). { intros x A B. assert (Q := i_one _ _ _ _ _ _ I x). rewrite ER in Q. rewrite occ_in in *. lia. }
  assert (TN := t_next _ _ _ _ _ _ T). constructor.
  - apply T.
  - lia.
  - intros x L. assert (NO : ~ In x O). { intros Y. specialize (GE x). rewrite IR in GE. specialize (GE (or_introl Y)). lia. }
    destruct (t_same _ _ _ _ _ _ T x NO) as (-> & ->); [lia|]. apply (i_old _ _ _ _ _ _ I). auto.
  - intros x L. rewrite IR'. destruct (in_dec Nat.eq_dec x O) as [IO|NO].
    + rewrite (t_live _ _ _ _ _ _ T x (or_introl IO)). split; [auto|]. intros [Y|Y]; [auto|]. destruct (DJ x Y IO).
    + destruct (Nat.lt_ge_cases x (h_next h)) as [L1|L1].
      * destruct (t_same _ _ _ _ _ _ T x NO L1) as (-> & _). rewrite (i_live _ _ _ _ _ _ I x L), IR. split; [tauto|]. intros [Y|Y]; [|auto]. apply (t_from _ _ _ _ _ _ T) in Y as [Y|Y]; [tauto|lia].
      * rewrite (t_live _ _ _ _ _ _ T x (or_intror L1)). split; [auto|]. intros [Y|Y]; [auto|]. specialize (LT x). rewrite IR in LT. specialize (LT (or_intror Y)). lia.
  - intros x Y. rewrite IR' in Y. destruct Y as [Y|Y]; [|apply GE; rewrite IR; auto]. apply (t_from _ _ _ _ _ _ T) in Y as [Y|Y]; [apply GE; rewrite IR; auto|lia].
  - intros x. rewrite ER'. assert (Q1 := i_one _ _ _ _ _ _ I x). rewrite ER in Q1. assert (Q2 := t_one _ _ _ _ _ _ T x).
    destruct (occ x X) eqn:OX; [lia|]. destruct (occ x N) eqn:ON; [lia|]. exfalso. assert (A : In x X) by (rewrite occ_in; lia). assert (B : In x N) by (rewrite occ_in; lia).
    apply (t_from _ _ _ _ _ _ T) in B as [B|B]; [apply (DJ x A B)|]. specialize (LT x). rewrite IR in LT. specialize (LT (or_intror A)). lia.
Qed.

(** From a description of the changes *)
Lemma turns_mk h c h' c' O N : W h -> W h' -> h_next h <= h_next h' -> (forall x, ~ In x O -> x < h_next h -> look h' x = look h x /\ c' x = c x) ->
  (forall x, In x O -> ~ In x N -> look h' x = None) -> (forall x, In x N -> look h' x <> None) -> (forall x, h_next h <= x -> ~ In x N -> look h' x = None) ->
  (forall x, In x N -> In x O \/ h_next h <= x) -> NoDup N -> turns h c h' c' O N.
Proof.
  intros Wh W' NX S D L F FR ND. constructor; auto; [|apply nodup_occ; auto]. intros x I. destruct (in_dec Nat.eq_dec x N) as [Y|Y]; [split; auto|].
  split; [|intros Z; contradiction]. intros Z. exfalso. apply Z. destruct I; auto.
Qed.
Lemma beyond h x : W h -> h_next h <= x -> look h x = None.
Proof. intros Wh L. destruct (look h x) eqn:E; auto. exfalso. assert (x < h_next h); [|lia]. apply (W_below st); auto. congruence. Qed.
Lemma turns_gone h c h' O N xs : W h -> gone st h h' xs -> (forall x, In x O -> look h x <> None) -> NoDup O -> (forall x, occ x O = occ x N + occ x xs) -> turns h c h' c O N.
Proof.
  intros Wh (W' & NX & GD & GK) LO ND E. assert (ONE := proj1 (nodup_occ _) ND).
  assert (IO : forall x, In x O <-> In x N \/ In x xs) by (intros x; rewrite !occ_in, E; lia).
  apply turns_mk; auto.
  - lia.
  - intros x NI _. split; [|auto]. apply GK. intros Y. apply NI. rewrite IO. auto.
  - intros x I NI. apply GD. rewrite IO in I. tauto.
  - intros x I. rewrite GK; [apply LO; rewrite IO; auto|]. intros J. specialize (ONE x). rewrite E in ONE. rewrite occ_in in *. lia.
  - intros x L NI. apply beyond; [auto|lia].
  - intros x I. left. rewrite IO. auto.
  - apply nodup_occ. intros x. specialize (ONE x). rewrite E in ONE. lia.
Qed.

Variables (place : heap -> addr -> nat) (deep : nat) (mk_str : text -> outcome text).
Hypothesis MK : forall s, mk_str s = Ok s.
Hypothesis DP : 2 <= deep.

(** * Creating *)
Lemma string_turns h c s : W h -> exists h' c', string_mk st mk_str h c s = Ok (h', c', VPtr (h_next h)) /\ turns h c h' c' [] [h_next h] /\ obj h' (h_next h) KLeaf [] 0 /\ c' (h_next h) = JStr s.
Proof.
  intros Wh. unfold string_mk. rewrite MK. cbn [bind]. destruct (mk_obj_view st h KLeaf [] M_MALLOC Wh) as (h' & -> & W' & N & O & X); [discriminate|]. cbn [bind].
  exists h', (set_at c (h_next h) (JStr s)). split; [auto|]. split; [|split; [auto|apply set_at_eq]]. apply turns_mk; auto.
  - lia.
  - intros x _ L. split; [apply X; lia|apply set_at_neq; lia].
  - intros x [].
  - intros x [<-|[]]. rewrite look_none. eapply obj_live; eauto.
  - intros x L NI. rewrite X; [apply beyond; auto|]. intros ->. apply NI. left. auto.
  - intros x [<-|[]]. auto.
  - constructor; [intros []|constructor].
Qed.
Definition made (h : heap) (c : contents) (x : json) (r : outcome (heap * contents * val)) : Prop :=
  exists h' c' L, r = Ok (h', c', ptr ss L) /\ turns h c h' c' [] (blocks L) /\ laid h' c' ss 0 L /\ json_of L = x.
Lemma made_intro h c x r h' c' L : W h -> r = Ok (h', c', ptr ss L) -> W h' -> h_next h <= h_next h' -> laid h' c' ss 0 L -> json_of L = x -> NoDup (blocks L) ->
  (forall y, In y (blocks L) -> h_next h <= y) -> (forall y, ~ In y (blocks L) -> look h' y = look h y /\ c' y = c y) -> made h c x r.
Proof.
  intros Wh E W' NX H J ND AB X. exists h', c', L. split; [auto|]. split; [|auto]. apply turns_mk; auto.
  - intros y _ LT. apply X. intros Y. apply AB in Y. lia.
  - intros y [].
  - intros y I. apply thing_live. pose proof (laid_things _ _ _ _ _ H) as TH. rewrite Forall_forall in TH. auto.
  - intros y L1 NI. destruct (X y NI) as (-> & _). apply beyond; auto.
Qed.
Lemma new_turns h c x : W h -> static_ok h ss -> simple x -> made h c x (new_value st ss mk_str h c x).
Proof.
  intros Wh SO SI. destruct x as [ | |b|d|z|z|s|s|z|l|kvs]; try contradiction; cbn [new_value].
  - destruct (const_view st ss h c (s_null ss) JNull Wh SO) as (h' & L & -> & E & W' & H & J & ND & N & F & X & B); [cbn; auto|left; auto|auto|]. cbn [bind]. rewrite <- E. eapply made_intro; eauto.
  - destruct b.
    + destruct (const_view st ss h c (s_true ss) (JBool true) Wh SO) as (h' & L & -> & E & W' & H & J & ND & N & F & X & B); [cbn; auto|right; auto|auto|]. cbn [bind]. rewrite <- E. eapply made_intro; eauto.
    + destruct (const_view st ss h c (s_false ss) (JBool false) Wh SO) as (h' & L & -> & E & W' & H & J & ND & N & F & X & B); [cbn; auto|right; auto|auto|]. cbn [bind]. rewrite <- E. eapply made_intro; eauto.
  - destruct (boxed_view st ss h c (JDouble d) Wh I) as (h' & c' & L & -> & W' & H & J & ND & N & F & X). eapply made_intro; eauto.
  - destruct (boxed_view st ss h c (JI64 z) Wh I) as (h' & c' & L & -> & W' & H & J & ND & N & F & X). eapply made_intro; eauto.
  - destruct (boxed_view st ss h c (JU64 z) Wh I) as (h' & c' & L & -> & W' & H & J & ND & N & F & X). eapply made_intro; eauto.
  - destruct (string_turns h c s Wh) as (h1 & c1 & -> & T1 & O1 & C1). cbn [bind]. unfold str_mk.
    assert (W1 := t_W _ _ _ _ _ _ T1). destruct (tag_view st h1 (h_next h) _ _ W1 O1) as (h2 & -> & W2 & N2 & O2 & O3 & X2); [discriminate|]. cbn [bind].
    assert (LT : h_next h < h_next h1) by (apply (thing_lt st); auto; eapply thing_obj; eauto; discriminate).
    exists h2, c1, (LBox (h_next h1) (h_next h) (JStr s)). split; [auto|]. split; [|split; [cbn [laid]; cbn; auto|auto]]. cbn [blocks].
    eapply turns_trans; [exact T1|]. apply turns_mk; auto.
    + lia.
    + intros x NI L. cbn in NI. split; [|auto]. apply X2; lia.
    + intros x [<-|[]] NI. destruct NI. cbn. auto.
    + intros x [<-|[<-|[]]]; rewrite look_none; eapply obj_live; eauto.
    + intros x L NI. cbn in NI. rewrite X2; [apply beyond; auto| |]; intros ->; tauto.
    + intros x [<-|[<-|[]]]; cbn; auto.
    + constructor; [intros [E|[]]; lia|]. constructor; [intros []|constructor].
  - destruct (boxed_view st ss h c (JBlob z) Wh I) as (h' & c' & L & -> & W' & H & J & ND & N & F & X). eapply made_intro; eauto.
  - destruct l; [|contradiction]. destruct (array_view st ss h c Wh) as (h' & L & -> & W' & H & -> & N & X). cbn [bind]. eapply made_intro; [auto|reflexivity|auto|lia|exact H|auto| | |].
    + cbn. constructor; [intros [E|[]]; lia|]. constructor; [intros []|constructor].
    + cbn. intros y [<-|[<-|[]]]; lia.
    + auto.
  - destruct kvs; [|contradiction]. destruct (object_view st ss h c Wh) as (h' & L & -> & W' & H & -> & N & X). cbn [bind]. eapply made_intro; [auto|reflexivity|auto|lia|exact H|auto| | |].
    + cbn. constructor; [intros [E|[E|[]]]; lia|]. constructor; [intros [E|[]]; lia|]. constructor; [intros []|constructor].
    + cbn. intros y [<-|[<-|[<-|[]]]]; lia.
    + auto.
Qed.

(** * Changing *)
(** The value [F] (which [n] others count on) has become [y], the values [Vs] are
    in it, [ds] have been taken out, [k] strings are left over. *)
Definition acts (h : heap) (c : contents) (h' : heap) (c' : contents) (n : Z) (F : layout) (Vs : list layout) (y : json) (ds : list layout) (k : nat) : Prop :=
  exists F' ls, turns h c h' c' (blocks F ++ flat_map blocks Vs) (blocks F' ++ flat_map blocks ds ++ ls) /\ laid h' c' ss n F' /\ ptr ss F' = ptr ss F /\ json_of F' = y /\
    Forall (laid h' c' ss 0) ds /\ Forall (fun x => obj h' x KLeaf [] 0) ls /\ length ls = k.
Lemma ptr_some h c n L : laid h c ss n L -> exists a, ptr ss L = VPtr a.
Proof. destruct L; intros H; [|cbn; eauto..]. destruct H as [->|[->| ->]]; cbn; eauto. Qed.
Lemma keep_ptr h c n L : laid h c ss n L -> keep (ptr ss L) = [ptr ss L].
Proof. intros H. destruct (ptr_some _ _ _ _ H) as (a & ->). auto. Qed.
Lemma laid_live h c n L x : laid h c ss n L -> In x (blocks L) -> look h x <> None.
Proof. intros H I. apply thing_live. pose proof (laid_things _ _ _ _ _ H) as T. rewrite Forall_forall in T. auto. Qed.
Lemma laid_thing h c n L x : laid h c ss n L -> In x (blocks L) -> thing h x.
Proof. intros H I. pose proof (laid_things _ _ _ _ _ H) as T. rewrite Forall_forall in T. auto. Qed.

(** cee_map_add with a new string [k]; [y] is the object afterwards *)
Lemma add_acts h c n a m ks es k key V out y : W h -> static_ok h ss -> laid h c ss n (LObj a m ks es) -> obj h k KLeaf [] 0 -> c k = JStr key -> laid h c ss 0 V ->
  NoDup (blocks (LObj a m ks es) ++ k :: blocks V) -> set_field key (json_of V) out (JObj (ents es)) y ->
  exists h' F' ds, add_to_object place deep h c (VPtr m) (VPtr k) (ptr ss V) = Ok h' /\ turns h c h' c (blocks (LObj a m ks es) ++ k :: blocks V) (blocks F' ++ flat_map blocks ds) /\
    laid h' c ss n F' /\ ptr ss F' = VPtr a /\ json_of F' = y /\ Forall (laid h' c ss 0) ds /\ map json_of ds = out /\
    (forall e, In e es -> e_name e = key -> ds = [e_val e]) /\ (~ In key (map e_name es) -> ds = []).
Proof.
  intros Wh SO H K CK HV ND SF. destruct (add_view_full st ss place deep h c a m ks es k key V n Wh SO DP H K CK HV ND) as (h' & x & ds & E & W' & N & XA & FT & LX & HL & HD & X & CASES).
  exists h', (plug x V), ds. split; [auto|]. assert (HP : laid h' c ss n (plug x V)) by (apply plug_laid; auto). pose proof H as HO. apply laid_obj in HO as (_ & _ & _ & HN & _).
  assert (OLD : forall y, In y (blocks (LObj a m ks es) ++ k :: blocks V) -> y < h_next h).
  { intros y0 Y. apply in_app_iff in Y as [Y|[<-|Y]]; [exact (laid_lt st ss _ _ _ _ _ Wh H Y)| |exact (laid_lt st ss _ _ _ _ _ Wh HV Y)]. apply (thing_lt st); [auto|]. eapply thing_obj; [exact K|discriminate]. }
  assert (ONE := proj1 (nodup_occ _) ND).
  assert (LIVE : forall y, In y (blocks (plug x V) ++ flat_map blocks ds) -> look h' y <> None).
  { intros y0 Y. apply in_app_iff in Y as [Y|Y]; [eapply laid_live; eauto|]. apply in_flat_map in Y as (d & I & Y). rewrite Forall_forall in HD. eapply laid_live; [apply HD; eauto|auto]. }
  assert (OUT : forall z, ~ In z (blocks (LObj a m ks es) ++ k :: blocks V) -> z < h_next h -> look h' z = look h z /\ c z = c z).
  { intros z NZ L. split; [|auto]. apply X. intros [Z|Z]; [lia|]. apply NZ. apply in_app_iff. cbn in *. rewrite in_app_iff in Z. tauto. }
  assert (FAR : forall z, h_next h < z -> look h' z = None).
  { intros z L. rewrite X; [apply beyond; auto; lia|]. intros [Z|Z]; [lia|]. assert (z < h_next h); [|lia]. apply OLD. apply in_app_iff. cbn in *. rewrite in_app_iff in Z. tauto. }
  assert (PP : ptr ss (plug x V) = VPtr a) by (destruct x; cbn in *; congruence).
  destruct CASES as [(NI & -> & OB & EX)|(I & LK & LN & OB & es1 & e & es2 & -> & EN & -> & EX)].
  - split; [|split; [auto|split; [auto|split; [|split; [auto|split; [|split]]]]]].
    + cbn [flat_map]. rewrite app_nil_r in *.
      assert (OC : forall z, occ z (blocks (plug x V)) = occ z (blocks (LObj a m ks es) ++ k :: blocks V) + occ z [h_next h]).
      { intros z. rewrite plug_blocks, OB. rewrite occ_app, (occ_cons z k (blocks V)). occs. lia. }
      apply turns_mk; auto.
      * lia.
      * intros z Z NZ. exfalso. apply NZ. rewrite occ_in in *. rewrite OC. lia.
      * intros z L NZ. apply FAR. assert (z <> h_next h); [|lia]. intros ->. apply NZ. rewrite occ_in, OC. occs. rewrite Nat.eqb_refl. cbn. lia.
      * intros z Z. rewrite occ_in, OC in Z. destruct (occ z [h_next h]) eqn:Q; [left; rewrite occ_in; lia|]. right. assert (I : In z [h_next h]) by (rewrite occ_in; lia). destruct I as [<-|[]]. auto.
      * apply nodup_occ. intros z. rewrite OC. specialize (ONE z). destruct (occ z [h_next h]) eqn:Q; [lia|]. assert (I : In z [h_next h]) by (rewrite occ_in; lia). destruct I as [<-|[]].
        destruct (occ (h_next h) (blocks (LObj a m ks es) ++ k :: blocks V)) eqn:Q2; [rewrite <- Q; occs; rewrite Nat.eqb_refl; cbn; lia|]. exfalso. assert (LL : h_next h < h_next h); [|lia]. apply OLD. rewrite occ_in. lia.
    + rewrite EX. cbn [plug]. rewrite json_obj, ents_app. inversion SF as [kvs NK ->|kvs1 w kvs2 Eo Ek]; subst; [reflexivity|].
      exfalso. apply NI. rewrite <- ents_names, <- Ek, map_app. apply in_app_iff. right. left. auto.
    + inversion SF as [kvs NK ->|kvs1 w kvs2 Eo Ek]; subst; [auto|]. exfalso. apply NI. rewrite <- ents_names, <- Ek, map_app. apply in_app_iff. right. left. auto.
    + intros e I EN. exfalso. apply NI. rewrite <- EN. apply in_map. auto.
    + auto.
  - assert (SP : exists kvs1 w kvs2, y = JObj (kvs1 ++ (key, json_of V) :: kvs2) /\ out = [w] /\ kvs1 = ents es1 /\ w = json_of (e_val e) /\ kvs2 = ents es2).
    { inversion SF as [kvs NK ->|kvs1 w kvs2 Eo Ek]; subst; [exfalso; apply NK; rewrite ents_names; auto|]. exists kvs1, w, kvs2. split; [auto|]. split; [auto|].
      symmetry in Ek. apply ents_split in Ek as (es1' & e' & es2' & Ee & <- & En & <- & <-). destruct (split_uniq _ _ _ _ _ _ HN Ee) as (-> & -> & ->); auto. }
    destruct SP as (kvs1 & w & kvs2 & -> & -> & -> & -> & ->).
    split; [|split; [auto|split; [auto|split; [|split; [auto|split; [auto|split]]]]]].
    + assert (OC : forall z, occ z (blocks (LObj a m ks (es1 ++ e :: es2)) ++ k :: blocks V) = occ z (blocks (plug x V) ++ flat_map blocks [e_val e]) + occ z [k]).
      { intros z. rewrite !occ_app, plug_blocks, <- OB, (occ_cons z k (blocks V)). occs. lia. }
      apply turns_mk; auto.
      * lia.
      * intros z Z NZ. rewrite occ_in, OC in Z. rewrite occ_in in NZ. assert (Ik : In z [k]) by (rewrite occ_in; lia). destruct Ik as [<-|[]]. auto.
      * intros z L NZ. destruct (Nat.eq_dec z (h_next h)) as [->|NE]; [auto|]. apply FAR. lia.
      * intros z Z. left. rewrite occ_in in *. rewrite OC. lia.
      * apply nodup_occ. intros z. specialize (ONE z). rewrite OC in ONE. lia.
    + rewrite EX. cbn [plug]. rewrite json_obj, ents_app. reflexivity.
    + intros e' I' EN'. rewrite (name_uniq (es1 ++ e :: es2) e' e); auto; [apply in_app_iff; right; left; auto|congruence].
    + intros NI. contradiction.
Qed.

(** cee_json_object_set *)
Lemma set_acts h c n F V key out y : W h -> static_ok h ss -> laid h c ss n F -> laid h c ss 0 V -> NoDup (blocks F ++ blocks V) -> set_field key (json_of V) out (json_of F) y ->
  exists old h' c' ds, object_get h c (ptr ss F) key = Ok old /\ object_set st place deep mk_str h c (ptr ss F) key (ptr ss V) = Ok (h', c') /\
    acts h c h' c' n F [V] y ds 0 /\ map json_of ds = out /\ keep old = map (ptr ss) ds.
Proof.
  intros Wh SO H HV ND SF. assert (EO : exists kvs, json_of F = JObj kvs) by (inversion SF; eauto). destruct EO as (kvs & EO).
  destruct (laid_is_obj _ _ _ _ _ _ H EO) as (a & m & ks & es & -> & EE). rewrite json_obj in SF.
  destruct (string_turns h c key Wh) as (h1 & c1 & E1 & T1 & K1 & C1). assert (W1 := t_W _ _ _ _ _ _ T1).
  assert (H1 : laid h1 c1 ss n (LObj a m ks es)) by (apply (turns_laid _ _ _ _ _ _ _ _ Wh T1 H); intros x _ []).
  assert (HV1 : laid h1 c1 ss 0 V) by (apply (turns_laid _ _ _ _ _ _ _ _ Wh T1 HV); intros x _ []).
  assert (SO1 : static_ok h1 ss) by (eapply turns_static; [exact Wh|exact SO|exact T1|intros x []]).
  assert (ONE := proj1 (nodup_occ _) ND).
  assert (ND1 : NoDup (blocks (LObj a m ks es) ++ h_next h :: blocks V)).
  { apply nodup_occ. intros x. specialize (ONE x). rewrite occ_app in *. rewrite occ_cons. destruct (Nat.eqb_spec x (h_next h)) as [->|NE]; [|cbn [Nat.b2n]; lia].
    assert (A1 : ~ In (h_next h) (blocks (LObj a m ks es))) by (intros I; apply (laid_lt st ss _ _ _ _ _ Wh H) in I; lia).
    assert (A2 : ~ In (h_next h) (blocks V)) by (intros I; apply (laid_lt st ss _ _ _ _ _ Wh HV) in I; lia).
    rewrite occ_in in A1, A2. cbn [Nat.b2n]. lia. }
  destruct (add_acts h1 c1 n a m ks es (h_next h) key V out y W1 SO1 H1 K1 C1 HV1 ND1 SF) as (h2 & F' & ds & E2 & T2 & HF & PF & JF & HD & JD & DI & DO).
  destruct (object_get_laid ss _ _ _ _ _ _ _ key H) as (GN & GI).
  assert (G : exists old, object_get h c (VPtr a) key = Ok old /\ keep old = map (ptr ss) ds).
  { destruct (in_dec (list_eq_dec Z.eq_dec) key (map e_name es)) as [I|NI].
    - apply in_map_iff in I as (e & EN & I). exists (ptr ss (e_val e)). split; [auto|]. rewrite (DI e I EN). cbn [map]. apply laid_obj in H as (_ & _ & _ & _ & H). rewrite Forall_forall in H.
      destruct (H e I) as (_ & _ & _ & HE). eapply keep_ptr. exact HE.
    - exists VNull. split; [auto|]. rewrite (DO NI). auto. }
  destruct G as (old & G1 & G2). exists old, h2, c1, ds. split; [exact G1|]. split; [|split; [|auto]].
  - unfold object_set. cbn [ptr]. rewrite (to_object_laid ss _ _ _ _ _ _ _ H). cbn [bind not_null]. rewrite E1. cbn [bind]. rewrite E2. reflexivity.
  - exists F', []. split; [|auto 10]. cbn [flat_map]. rewrite !app_nil_r. eapply turns_trans.
    + apply (turns_frame _ _ _ _ _ _ (blocks (LObj a m ks es) ++ blocks V)) in T1; [exact T1| |].
      * cbn [app]. auto.
      * intros x I. apply in_app_iff in I as [I|I]; (split; [eapply laid_lt; [exact Wh| |exact I]|eapply laid_live; [|exact I]]); eassumption.
    + eapply turns_eqv; [|intros; reflexivity|exact T2]. intros x. occs. lia.
Qed.

(** cee_list_insert, cee_list_append *)
Lemma put_acts h c n a l es1 es2 V : W h -> static_ok h ss -> laid h c ss n (LArr a l (es1 ++ es2)) -> laid h c ss 0 V -> NoDup (blocks (LArr a l (es1 ++ es2)) ++ blocks V) ->
  exists h', list_insert h l (length es1) (ptr ss V) = Ok h' /\ (es2 = [] -> list_append h l (ptr ss V) = Ok h') /\ acts h c h' c n (LArr a l (es1 ++ es2)) [V] (JArr (map json_of es1 ++ json_of V :: map json_of es2)) [] 0.
Proof.
  intros Wh SO H HV ND. pose proof H as H0. apply laid_arr in H0 as (H1 & H2 & H3). rewrite map_app in H2. assert (ONE := proj1 (nodup_occ _) ND).
  set (vs' := map (ptr ss) es1 ++ ptr ss V :: map (ptr ss) es2).
  destruct (put_view st h l _ _ _ (KList DEL_RC) vs' Wh H2) as (h1 & E1 & W1 & N1 & O1 & X1); [discriminate..|].
  assert (NLV : ~ In l (blocks V)). { intros I. specialize (ONE l). rewrite occ_app, blocks_arr in ONE. rewrite occ_in in I. occs. rewrite Nat.eqb_refl in ONE. cbn in ONE. lia. }
  destruct (incr_laid st ss h1 c V W1) as (h2 & E2 & W2 & N2 & HV2 & X2).
  { eapply static_keep; [exact SO|eapply thing_obj; [exact H2|discriminate]|exact X1]. }
  { eapply laid_ext; [|exact HV]. intros x X. split; auto. apply X1. intros ->. auto. }
  { apply nodup_occ. intros x. specialize (ONE x). rewrite occ_app in ONE. lia. }
  exists h2. split; [|split].
  - unfold list_insert. rewrite (get_obj_of _ _ _ _ _ H2). cbn [bind]. rewrite app_length, !map_length. destruct (Nat.leb_spec (length es1) (length es1 + length es2)) as [_|B]; [|lia].
    rewrite firstn_app, skipn_app, map_length, Nat.sub_diag. replace (length es1) with (length (map (ptr ss) es1)) by apply map_length. rewrite firstn_all, skipn_all. cbn [firstn skipn app]. rewrite app_nil_r.
    unfold vs' in E1. rewrite E1. cbn [bind]. exact E2.
  - intros ->. unfold list_append. rewrite (get_obj_of _ _ _ _ _ H2). cbn [bind map]. rewrite app_nil_r. unfold vs' in E1. cbn [map] in E1. rewrite E1. cbn [bind]. exact E2.
  - assert (KEEP : forall y, In y (blocks (LArr a l (es1 ++ es2))) -> y <> l -> look h2 y = look h y).
    { intros y Y NE. rewrite X2; [apply X1; auto|]. intros Z. specialize (ONE y). rewrite occ_app in ONE. rewrite occ_in in *. lia. }
    assert (LF : forall e, In e (es1 ++ es2) -> forall y, In y (blocks e) -> In y (blocks (LArr a l (es1 ++ es2))) /\ y <> l).
    { intros e I y Y. assert (Q : In y (flat_map blocks (es1 ++ es2))) by (apply in_flat_map; eauto). split; [rewrite blocks_arr; right; right; auto|]. intros ->.
      specialize (ONE l). rewrite occ_app, blocks_arr, !occ_cons, Nat.eqb_refl in ONE. rewrite occ_in in Q. cbn [Nat.b2n] in ONE. lia. }
    assert (NAL : a <> l). { intros ->. specialize (ONE l). rewrite occ_app, blocks_arr, !occ_cons, Nat.eqb_refl in ONE. cbn [Nat.b2n] in ONE. lia. }
    assert (HF : laid h2 c ss n (LArr a l (es1 ++ V :: es2))).
    { apply laid_arr. split; [eapply obj_ext; [discriminate|apply KEEP; [left; auto|auto]|exact H1]|]. split; [eapply obj_ext; [discriminate|apply X2; auto|]; rewrite map_app; exact O1|].
      rewrite Forall_app in *. destruct H3 as (H3 & H4). split; [|constructor; [exact HV2|]].
      - rewrite Forall_forall in *. intros e I. eapply laid_ext; [|apply H3; auto]. intros y Y. split; [|auto]. destruct (LF e (in_or_app _ _ _ (or_introl I)) y Y). apply KEEP; auto.
      - rewrite Forall_forall in *. intros e I. eapply laid_ext; [|apply H4; auto]. intros y Y. split; [|auto]. destruct (LF e (in_or_app _ _ _ (or_intror I)) y Y). apply KEEP; auto. }
    assert (OC : forall z, occ z (blocks (LArr a l (es1 ++ V :: es2))) = occ z (blocks (LArr a l (es1 ++ es2)) ++ blocks V)).
    { intros z. rewrite occ_app, !blocks_arr. occs. lia. }
    exists (LArr a l (es1 ++ V :: es2)), []. cbn [flat_map app]. rewrite !app_nil_r. split; [|split; [auto|split; [auto|split; [|auto]]]].
    + apply turns_mk; auto.
      * lia.
      * intros z NZ _. split; [|auto]. rewrite X2, X1; [auto| |]; intros Z; apply NZ; apply in_app_iff; [left; subst; rewrite blocks_arr; right; left; auto|auto].
      * intros z Z NZ. exfalso. apply NZ. rewrite occ_in in *. rewrite OC. auto.
      * intros z Z. eapply laid_live; eauto.
      * intros z L _. apply beyond; auto. lia.
      * intros z Z. left. rewrite occ_in in *. rewrite <- OC. auto.
      * apply nodup_occ. intros z. rewrite OC. auto.
    + cbn [json_of]. rewrite map_app. auto.
Qed.

(** cee_list_remove *)
Lemma take_acts h c n a l es1 e es2 : W h -> static_ok h ss -> laid h c ss n (LArr a l (es1 ++ e :: es2)) -> NoDup (blocks (LArr a l (es1 ++ e :: es2))) ->
  exists h', list_remove h l (length es1) = Ok h' /\ acts h c h' c n (LArr a l (es1 ++ e :: es2)) [] (JArr (map json_of es1 ++ map json_of es2)) [e] 0.
Proof.
  intros Wh SO H ND. pose proof H as H0. apply laid_arr in H0 as (H1 & H2 & H3). rewrite map_app in H2. cbn [map] in H2. assert (ONE := proj1 (nodup_occ _) ND).
  set (vs' := map (ptr ss) es1 ++ map (ptr ss) es2). apply Forall_app in H3 as (H3 & H4). apply Forall_cons_iff in H4 as (He & H4).
  destruct (put_view st h l _ _ _ (KList DEL_RC) vs' Wh H2) as (h1 & E1 & W1 & N1 & O1 & X1); [discriminate..|].
  assert (OB : forall z, occ z (blocks (LArr a l (es1 ++ e :: es2))) = occ z [a; l] + occ z (flat_map blocks es1) + occ z (blocks e) + occ z (flat_map blocks es2)).
  { intros z. rewrite blocks_arr. occs. lia. }
  assert (NLV : ~ In l (blocks e)). { intros I. specialize (ONE l). rewrite OB in ONE. rewrite occ_in in I. occs. rewrite Nat.eqb_refl in ONE. cbn in ONE. lia. }
  destruct (decr_laid st ss h1 c e W1) as (h2 & E2 & W2 & N2 & HV2 & X2).
  { eapply static_keep; [exact SO|eapply thing_obj; [exact H2|discriminate]|exact X1]. }
  { eapply laid_ext; [|exact He]. intros x X. split; auto. apply X1. intros ->. auto. }
  { apply nodup_occ. intros x. specialize (ONE x). rewrite OB in ONE. lia. }
  exists h2. split.
  - unfold list_remove. rewrite (get_obj_of _ _ _ _ _ H2). cbn [bind]. replace (length es1) with (length (map (ptr ss) es1)) by apply map_length.
    rewrite nth_error_app2, Nat.sub_diag by lia. cbn [nth_error]. rewrite firstn_app, firstn_all, Nat.sub_diag. cbn [firstn]. rewrite app_nil_r.
    rewrite skipn_app, skipn_all2 by lia. replace (S (length (map (ptr ss) es1)) - length (map (ptr ss) es1)) with 1 by lia. cbn [skipn app].
    unfold vs' in E1. rewrite E1. cbn [bind]. exact E2.
  - assert (KEEP : forall y, 0 < occ y [a] + occ y (flat_map blocks es1) + occ y (flat_map blocks es2) -> look h2 y = look h y).
    { intros y Y. specialize (ONE y). rewrite OB in ONE. rewrite (occ_cons y a [l]) in ONE. rewrite X2; [apply X1|].
      - intros ->. occs. rewrite Nat.eqb_refl in ONE. cbn [Nat.b2n] in ONE. lia.
      - intros Z. rewrite occ_in in Z. occs. lia. }
    assert (HF : laid h2 c ss n (LArr a l (es1 ++ es2))).
    { apply laid_arr. split; [eapply obj_ext; [discriminate|apply KEEP; occs; rewrite Nat.eqb_refl; cbn; lia|exact H1]|]. split; [eapply obj_ext; [discriminate|apply X2; auto|]; rewrite map_app; exact O1|].
      apply Forall_app. split; rewrite Forall_forall in *; intros x I.
      - eapply laid_ext; [|apply H3; auto]. intros y Y. split; [|auto]. apply KEEP. assert (Q : In y (flat_map blocks es1)) by (apply in_flat_map; eauto). rewrite occ_in in Q. lia.
      - eapply laid_ext; [|apply H4; auto]. intros y Y. split; [|auto]. apply KEEP. assert (Q : In y (flat_map blocks es2)) by (apply in_flat_map; eauto). rewrite occ_in in Q. lia. }
    assert (OC : forall z, occ z (blocks (LArr a l (es1 ++ e :: es2))) = occ z (blocks (LArr a l (es1 ++ es2)) ++ blocks e)).
    { intros z. rewrite OB, occ_app, !blocks_arr. occs. lia. }
    exists (LArr a l (es1 ++ es2)), []. cbn [flat_map]. rewrite !app_nil_r. split; [|split; [auto|split; [auto|split; [|auto]]]].
    + apply turns_mk; auto.
      * lia.
      * intros z NZ _. split; [|auto]. rewrite X2, X1; [auto| |]; intros Z; apply NZ.
        -- subst. rewrite blocks_arr. right. left. auto.
        -- rewrite occ_in in *. rewrite OB. lia.
      * intros z Z NZ. exfalso. apply NZ. rewrite occ_in in *. rewrite <- OC. auto.
      * intros z Z. apply in_app_iff in Z as [Z|Z]; [exact (laid_live _ _ _ _ _ HF Z)|exact (laid_live _ _ _ _ _ HV2 Z)].
      * intros z L _. apply beyond; auto. lia.
      * intros z Z. left. rewrite occ_in in *. rewrite OC. auto.
      * apply nodup_occ. intros z. rewrite <- OC. auto.
    + cbn [json_of]. rewrite map_app. auto.
Qed.

(** cee_map_remove *)
Lemma perm_filter {A} (f : A -> bool) l l' : Permutation l l' -> Permutation (filter f l) (filter f l').
Proof.
  induction 1 as [|x l l' P IH|x y l|l l1 l2 P1 IH1 P2 IH2]; cbn [filter]; auto.
  - destruct (f x); auto.
  - destruct (f x), (f y); auto using perm_swap.
  - eapply perm_trans; eauto.
Qed.
Lemma filter_pairs t (es : list (text * addr * addr * layout)) : ~ In t (map e_pair es) -> filter (fun x => negb (val_eqb x (VPtr t))) (map (fun e => VPtr (e_pair e)) es) = map (fun e => VPtr (e_pair e)) es.
Proof.
  induction es as [|e r IH]; intros NI; cbn [map filter] in *; [auto|]. cbn [val_eqb]. destruct (Nat.eqb_spec (e_pair e) t) as [E|NE]; [destruct NI; left; auto|]. cbn [negb]. rewrite IH; auto.
  intros I. apply NI. right. auto.
Qed.
Lemma delete_at (keq : val -> val -> bool) key name h ks (es1 : list (text * addr * addr * layout)) e es2 i : ~ In name (map e_name es1) -> e_name e = name -> Forall (fun e => keq key (VPtr (e_key e)) = text_eqb name (e_name e)) (es1 ++ e :: es2) ->
  (fix go i l := match l with [] => Bad Abort | x :: l' => if keq key x then list_remove h ks i else go (S i) l' end) i (map (fun e => VPtr (e_key e)) (es1 ++ e :: es2)) = list_remove h ks (i + length es1).
Proof.
  revert i. induction es1 as [|d r IH]; intros i NI EN HK; cbn [map app length] in *; apply Forall_cons_iff in HK as (K & HK); rewrite K.
  - rewrite EN. assert (E : text_eqb name name = true) by (apply JsonParseProofs.text_eqb_iff; auto). rewrite E. f_equal. lia.
  - destruct (text_eqb name (e_name d)) eqn:E; [apply JsonParseProofs.text_eqb_iff in E; destruct NI; left; auto|]. rewrite IH; auto; [f_equal; lia|]. intros I. apply NI. right. auto.
Qed.
Lemma remove_view h c n a m ks es1 e es2 keq key : W h -> static_ok h ss -> laid h c ss n (LObj a m ks (es1 ++ e :: es2)) -> NoDup (blocks (LObj a m ks (es1 ++ e :: es2))) -> key <> VNull ->
  Forall (fun e' => keq key (VPtr (e_key e')) = text_eqb (e_name e) (e_name e')) (es1 ++ e :: es2) ->
  exists h', map_remove keq deep h m key = Ok (h', ptr ss (e_val e)) /\ W h' /\ h_next h' = h_next h /\ laid h' c ss n (LObj a m ks (es1 ++ es2)) /\ laid h' c ss 0 (e_val e) /\
    obj h' (e_key e) KLeaf [] 0 /\ look h' (e_pair e) = None /\ (forall x, ~ In x (m :: ks :: eblocks e) -> look h' x = look h x).
Proof.
  intros Wh SO H ND KN HK. pose proof H as H0. apply laid_obj in H0 as (H1 & _ & H3 & HN & H4).
  assert (INe : In e (es1 ++ e :: es2)) by (apply in_app_iff; right; left; auto).
  destruct (find_laid ss _ _ _ _ _ _ _ keq key _ H HK) as (ts & es' & H2 & PM & -> & _ & FE). specialize (FE e INe eq_refl).
  assert (ONE := proj1 (nodup_occ _) ND). rewrite blocks_obj in ONE. 
  assert (OB : forall z, Nat.b2n (z =? a) + (Nat.b2n (z =? m) + (Nat.b2n (z =? ks) + (occ z (flat_map eblocks es1) + (Nat.b2n (z =? e_key e) + (Nat.b2n (z =? e_pair e) + occ z (blocks (e_val e)) + occ z (flat_map eblocks es2)))))) <= 1).
  { intros z. specialize (ONE z). rewrite !occ_cons, occ_flat_app in ONE. cbn [flat_map] in ONE. unfold eblocks at 2 in ONE. cbn [app] in ONE. rewrite !occ_cons, occ_app in ONE. lia. }
  apply Forall_app in H4 as (H4 & H5). apply Forall_cons_iff in H5 as ((K & CK & T & HV) & H5).
  assert (Dm : m <> e_key e /\ m <> e_pair e /\ m <> ks /\ ~ In m (blocks (e_val e))).
  { specialize (OB m). rewrite Nat.eqb_refl in OB. cbn [Nat.b2n] in OB. repeat split; intros Q; [rewrite Q, Nat.eqb_refl in OB; cbn [Nat.b2n] in OB; lia..|]. rewrite occ_in in Q. lia. }
  assert (Dk : e_key e <> e_pair e /\ e_key e <> ks /\ ~ In (e_key e) (blocks (e_val e))).
  { specialize (OB (e_key e)). rewrite Nat.eqb_refl in OB. cbn [Nat.b2n] in OB. repeat split; intros Q; [rewrite Q, Nat.eqb_refl in OB; cbn [Nat.b2n] in OB; lia..|]. rewrite occ_in in Q. lia. }
  assert (Dt : e_pair e <> ks /\ ~ In (e_pair e) (blocks (e_val e))).
  { specialize (OB (e_pair e)). rewrite Nat.eqb_refl in OB. cbn [Nat.b2n] in OB. repeat split; intros Q; [rewrite Q, Nat.eqb_refl in OB; cbn [Nat.b2n] in OB; lia..|]. rewrite occ_in in Q. lia. }
  assert (Ds : ~ In ks (blocks (e_val e))).
  { specialize (OB ks). rewrite Nat.eqb_refl in OB. cbn [Nat.b2n] in OB. intros Q. rewrite occ_in in Q. lia. }
  destruct Dm as (Dm1 & Dm2 & Dm3 & Dm4). destruct Dk as (Dk1 & Dk2 & Dk3). destruct Dt as (Dt1 & Dt2).
  set (ts' := filter (fun x => negb (val_eqb x (VPtr (e_pair e)))) (map (fun e => VPtr (e_pair e)) es')).
  destruct (put_view st h m _ _ _ (KMap DEL_RC DEL_RC) (VPtr ks :: ts') Wh H2) as (h1 & E1 & W1 & N1 & O1 & X1); [discriminate..|].
  assert (T1 : obj h1 (e_pair e) (KProd [DEL_RC; DEL_RC]) [VPtr (e_key e); ptr ss (e_val e)] 0) by (eapply obj_ext; [discriminate|apply X1; auto|exact T]).
  assert (K1 : obj h1 (e_key e) KLeaf [] 2) by (eapply obj_ext; [discriminate|apply X1; auto|exact K]).
  destruct (decr_view st h1 _ _ _ _ W1 K1) as (h2 & E2 & W2 & N2 & O2 & X2); [discriminate|]. change (if (2 =? 0)%Z then 2%Z else (2 - 1)%Z) with 1%Z in O2.
  assert (SO2 : static_ok h2 ss).
  { eapply static_keep; [eapply static_keep; [exact SO|eapply thing_obj; [exact H2|discriminate]|exact X1]|eapply thing_obj; [exact K1|discriminate]|exact X2]. }
  assert (HV2 : laid h2 c ss 1 (e_val e)).
  { eapply laid_ext; [|exact HV]. intros x X. split; auto. rewrite X2, X1; auto; intros ->; auto. }
  assert (NDV : NoDup (blocks (e_val e))) by (apply nodup_occ; intros z; specialize (OB z); lia).
  destruct (decr_laid st ss h2 c (e_val e) W2 SO2 HV2 NDV) as (h3 & E3 & W3 & N3 & HV3 & X3).
  assert (T3 : obj h3 (e_pair e) (KProd [DEL_RC; DEL_RC]) [VPtr (e_key e); ptr ss (e_val e)] 0) by (eapply obj_ext; [discriminate|rewrite X3, X2 by auto; reflexivity|exact T1]).
  destruct (policy_view st h3 _ _ _ _ 0 NOOP W3 T3) as (h4 & E4 & W4 & N4 & T4 & X4). cbn [update] in T4.
  destruct (policy_view st h4 _ _ _ _ 1 NOOP W4 T4) as (h5 & E5 & W5 & N5 & T5 & X5). cbn [update] in T5.
  destruct (finish_view st h5 (e_pair e) W5) as (h6 & E6 & W6 & N6 & G6 & X6); [eapply thing_obj; [exact T5|discriminate]|].
  assert (E6' : cee_del deep h5 (VPtr (e_pair e)) = Ok h6).
  { destruct deep as [|f]; [lia|]. unfold cee_del. cbn [del_e]. rewrite (trace_step f h5 _ _ _ _ T5) by discriminate. exact E6. }
  assert (X06 : forall x, x <> m -> x <> e_key e -> x <> e_pair e -> ~ In x (blocks (e_val e)) -> look h6 x = look h x).
  { intros x A B C D. rewrite X6 by (intros [Q|[]]; auto). rewrite X5, X4, X3, X2, X1 by auto. reflexivity. }
  assert (S6 : obj h6 ks (KList DEL_RC) (map (fun e => VPtr (e_key e)) (es1 ++ e :: es2)) 0) by (eapply obj_ext; [discriminate|apply X06; auto|exact H3]).
  assert (K6 : obj h6 (e_key e) KLeaf [] 1). { eapply obj_ext; [discriminate| |exact O2]. rewrite X6 by (intros [Q|[]]; auto). rewrite X5, X4, X3 by auto. reflexivity. }
  destruct (put_view st h6 ks _ _ _ (KList DEL_RC) (map (fun e => VPtr (e_key e)) (es1 ++ es2)) W6 S6) as (h7 & E7 & W7 & N7 & S7 & X7); [discriminate..|].
  assert (K7 : obj h7 (e_key e) KLeaf [] 1) by (eapply obj_ext; [discriminate|apply X7; auto|exact K6]).
  destruct (decr_view st h7 _ _ _ _ W7 K7) as (h8 & E8 & W8 & N8 & O8 & X8); [discriminate|]. change (if (1 =? 0)%Z then 1%Z else (1 - 1)%Z) with 0%Z in O8.
  assert (ED : key_delete keq h6 ks key = Ok h8).
  { unfold key_delete. rewrite (get_obj_of _ _ _ _ _ S6). cbn [bind]. rewrite (delete_at keq key (e_name e)); auto.
    - cbn [Nat.add]. unfold list_remove. rewrite (get_obj_of _ _ _ _ _ S6). cbn [bind]. rewrite map_app. cbn [map]. replace (length es1) with (length (map (fun e => VPtr (e_key e)) es1)) by apply map_length.
      rewrite nth_error_app2, Nat.sub_diag by lia. cbn [nth_error]. rewrite firstn_app, firstn_all, Nat.sub_diag. cbn [firstn]. rewrite app_nil_r.
      rewrite skipn_app, skipn_all2 by lia. replace (S (length (map (fun e => VPtr (e_key e)) es1)) - length (map (fun e => VPtr (e_key e)) es1)) with 1 by lia. cbn [skipn app].
      rewrite map_app in E7. rewrite E7. cbn [bind]. exact E8.
    - rewrite map_app in HN. cbn [map] in HN. apply NoDup_remove_2 in HN. intros I. apply HN. apply in_app_iff. auto. }
  exists h8. split; [|split; [auto|split; [congruence|split; [|split; [|split; [auto|split]]]]]].
  - unfold map_remove. destruct H2 as (b & GB & BB & _). unfold get. rewrite GB. cbn [of_option bind]. rewrite BB. unfold bind at 1. rewrite FE. cbn [bind]. fold ts'. rewrite E1. cbn [bind].
    unfold tuple_get. cbn [target bind]. rewrite (get_obj_of _ _ _ _ _ T1). cbn [bind of_option nth_error]. rewrite E2. cbn [bind]. rewrite E3. cbn [bind]. rewrite E4. cbn [bind]. rewrite E5. cbn [bind]. rewrite E6'. cbn [bind].
    rewrite ED. destruct key; [congruence|reflexivity..].
  - assert (X08 : forall x, 0 < Nat.b2n (x =? a) + (occ x (flat_map eblocks es1) + occ x (flat_map eblocks es2)) -> look h8 x = look h x).
    { intros x P. specialize (OB x). rewrite X8, X7, X06; [auto|intros Q..].
      - rewrite <- Q, Nat.eqb_refl in OB. cbn [Nat.b2n] in OB. lia.
      - rewrite <- Q, Nat.eqb_refl in OB. cbn [Nat.b2n] in OB. lia.
      - rewrite <- Q, Nat.eqb_refl in OB. cbn [Nat.b2n] in OB. lia.
      - rewrite occ_in in Q. lia.
      - rewrite <- Q, Nat.eqb_refl in OB. cbn [Nat.b2n] in OB. lia.
      - rewrite <- Q, Nat.eqb_refl in OB. cbn [Nat.b2n] in OB. lia. }
    assert (EN : forall es', Forall (laid_entry c ss h 2) es' -> (forall x, occ x (flat_map eblocks es') <= occ x (flat_map eblocks es1) + occ x (flat_map eblocks es2)) -> Forall (laid_entry c ss h8 2) es').
    { intros l HL LE. rewrite Forall_forall in *. intros e' I. eapply entry_ext; [|apply HL; auto]. intros x X. split; [|auto]. apply X08. specialize (LE x).
      assert (Q : In x (flat_map eblocks l)) by (apply in_flat_map; eauto). rewrite occ_in in Q. lia. }
    apply laid_obj. split; [eapply obj_ext; [discriminate|apply X08; rewrite Nat.eqb_refl; cbn [Nat.b2n]; lia|exact H1]|]. split; [|split; [|split]].
    + exists ts'. split.
      * eapply obj_ext; [discriminate| |exact O1]. rewrite X8, X7 by auto. rewrite X6 by (intros [Q|[]]; auto). rewrite X5, X4, X3, X2 by auto. reflexivity.
      * unfold ts'. eapply perm_trans; [apply perm_filter; apply Permutation_map; exact PM|]. rewrite map_app, filter_app. cbn [map filter val_eqb]. rewrite Nat.eqb_refl. cbn [negb].
        assert (Q : forall l x, In x (map e_pair l) -> In x (flat_map eblocks l)).
        { intros l x I. apply in_map_iff in I as (e' & <- & I). apply in_flat_map. exists e'. split; [auto|]. right. left. auto. }
        specialize (OB (e_pair e)). rewrite Nat.eqb_refl in OB. cbn [Nat.b2n] in OB. rewrite !filter_pairs; [rewrite map_app; auto| |]; intros I; apply Q in I; rewrite occ_in in I; lia.
    + eapply obj_ext; [discriminate|apply X8; auto|exact S7].
    + rewrite map_app in *. cbn [map] in HN. apply NoDup_remove_1 in HN. exact HN.
    + apply Forall_app. split; apply EN; auto; intros x; lia.
  - eapply laid_ext; [|exact HV3]. intros x X. split; auto. rewrite X8, X7 by (intros ->; auto). rewrite X6 by (intros [Q|[]]; subst; auto). rewrite X5, X4 by (intros ->; auto). reflexivity.
  - rewrite X8, X7 by auto. apply G6. left. auto.
  - intros x NI. unfold eblocks in NI. cbn [In] in NI. rewrite X8, X7 by (intros ->; tauto). apply X06; intuition congruence.
Qed.

Lemma turns_refl h c O : W h -> NoDup O -> (forall x, In x O -> look h x <> None) -> turns h c h c O O.
Proof. intros Wh ND L. apply turns_mk; auto. - intros x I NI. contradiction. - intros x LE _. apply beyond; auto. Qed.
Lemma turns_then h c h1 c1 h2 c2 O M O2 N2 X N : turns h c h1 c1 O M -> turns h1 c1 h2 c2 O2 N2 -> (forall x, occ x M = occ x O2 + occ x X) -> (forall x, occ x N = occ x N2 + occ x X) -> turns h c h2 c2 O N.
Proof.
  intros T1 T2 EM EN. eapply turns_trans; [exact T1|]. assert (T : turns h1 c1 h2 c2 (O2 ++ X) (N2 ++ X)).
  { apply turns_frame; auto.
    - intros x. rewrite occ_app, <- EM. apply (t_one _ _ _ _ _ _ T1).
    - intros x I. assert (IM : In x M) by (rewrite occ_in in *; rewrite EM; lia). assert (LV : look h1 x <> None) by (apply (t_live _ _ _ _ _ _ T1); auto; eapply t_from; eauto).
      split; [|auto]. apply (W_below st); [apply T1|auto]. }
  eapply turns_eqv; [| |exact T]; intros x; rewrite occ_app; auto.
Qed.
Lemma string_gone h c k s : W h -> obj h k KLeaf [] s -> exists h', cee_del deep h (VPtr k) = Ok h' /\ turns h c h' c [k] [].
Proof.
  intros Wh O. destruct (del_leaf st deep h k s Wh O) as (h' & E & G); [lia|]. exists h'. split; [exact E|]. eapply turns_gone; [auto|exact G| | |].
  - intros x [<-|[]]. rewrite look_none. eapply obj_live; eauto.
  - constructor; [intros []|constructor].
  - intros x. rewrite occ_nil. auto.
Qed.
Lemma remove_turns h c n a m ks es1 e es2 keq key : W h -> static_ok h ss -> laid h c ss n (LObj a m ks (es1 ++ e :: es2)) -> NoDup (blocks (LObj a m ks (es1 ++ e :: es2))) -> key <> VNull ->
  Forall (fun e' => keq key (VPtr (e_key e')) = text_eqb (e_name e) (e_name e')) (es1 ++ e :: es2) ->
  exists h', map_remove keq deep h m key = Ok (h', ptr ss (e_val e)) /\ laid h' c ss n (LObj a m ks (es1 ++ es2)) /\ laid h' c ss 0 (e_val e) /\ obj h' (e_key e) KLeaf [] 0 /\
    turns h c h' c (blocks (LObj a m ks (es1 ++ e :: es2))) (blocks (LObj a m ks (es1 ++ es2)) ++ blocks (e_val e) ++ [e_key e]).
Proof.
  intros Wh SO H ND KN HK. destruct (remove_view h c n a m ks es1 e es2 keq key Wh SO H ND KN HK) as (h' & E & W' & N & HF & HV & OK & TG & X).
  exists h'. split; [exact E|]. split; [exact HF|]. split; [exact HV|]. split; [exact OK|]. assert (ONE := proj1 (nodup_occ _) ND).
  assert (OC : forall z, occ z (blocks (LObj a m ks (es1 ++ e :: es2))) = occ z (blocks (LObj a m ks (es1 ++ es2)) ++ blocks (e_val e) ++ [e_key e]) + occ z [e_pair e]).
  { intros z. rewrite !blocks_obj. occs. unfold eblocks at 2. occs. lia. }
  apply turns_mk; auto.
  - lia.
  - intros x NI _. split; [|auto]. apply X. intros I. apply NI. rewrite blocks_obj. destruct I as [<-|[<-|I]]; [right; left; auto|right; right; left; auto|]. right. right. right. apply in_flat_map. exists e. split; [apply in_app_iff; right; left; auto|auto].
  - intros x I NI. rewrite occ_in, OC in I. rewrite occ_in in NI. assert (J : In x [e_pair e]) by (rewrite occ_in; lia). destruct J as [<-|[]]. exact TG.
  - intros x I. apply in_app_iff in I as [I|I]; [exact (laid_live _ _ _ _ _ HF I)|]. apply in_app_iff in I as [I|[<-|[]]]; [exact (laid_live _ _ _ _ _ HV I)|]. rewrite look_none. eapply obj_live; eauto.
  - intros x L _. apply beyond; auto. lia.
  - intros x I. left. rewrite occ_in in *. rewrite OC. lia.
  - apply nodup_occ. intros z. specialize (ONE z). rewrite OC in ONE. lia.
Qed.
Lemma remove_none h c n a m ks es keq key name : laid h c ss n (LObj a m ks es) -> key <> VNull -> Forall (fun e => keq key (VPtr (e_key e)) = text_eqb name (e_name e)) es -> ~ In name (map e_name es) ->
  map_remove keq deep h m key = Ok (h, VNull).
Proof.
  intros H KN HK NI. destruct (find_laid ss _ _ _ _ _ _ _ keq key _ H HK) as (ts & es' & (b & GB & BB & _) & _ & -> & FN & _).
  unfold map_remove, get. rewrite GB. cbn [of_option bind]. rewrite BB, (FN NI). cbn [bind]. destruct key; [congruence|reflexivity..].
Qed.
Lemma acts_none h c n F : W h -> laid h c ss n F -> NoDup (blocks F) -> acts h c h c n F [] (json_of F) [] 0.
Proof.
  intros Wh H ND. exists F, []. cbn [flat_map app]. rewrite !app_nil_r. split; [|auto 10]. apply turns_refl; auto. intros x I. eapply laid_live; eauto.
Qed.

(** cee_json_object_remove *)
Lemma remove_acts h c n F key out y : W h -> static_ok h ss -> laid h c ss n F -> NoDup (blocks F) -> take_field key out (json_of F) y ->
  exists old h' ds, object_get h c (ptr ss F) key = Ok old /\ object_remove deep h c (ptr ss F) key = Ok h' /\ acts h c h' c n F [] y ds (length out) /\ map json_of ds = out /\ keep old = map (ptr ss) ds.
Proof.
  intros Wh SO H ND TF. assert (EO : exists kvs, json_of F = JObj kvs) by (inversion TF; eauto). destruct EO as (kvs & EO).
  destruct (laid_is_obj _ _ _ _ _ _ H EO) as (a & m & ks & es & -> & EE). pose proof H as HO. apply laid_obj in HO as (_ & _ & _ & HN & HE).
  destruct (object_get_laid ss _ _ _ _ _ _ _ key H) as (GN & GI). assert (HK := named_keys ss _ _ _ _ _ _ _ key H). rewrite json_obj in TF. unfold object_remove. cbn [ptr]. rewrite (to_object_laid ss _ _ _ _ _ _ _ H). cbn [bind not_null target].
  inversion TF as [kvs1 w kvs2 -> Ek Ey|kvs' NI -> Ek Ey]; subst.
  - symmetry in Ek. apply ents_split in Ek as (es1 & e & es2 & -> & <- & <- & <- & <-). 
    destruct (remove_turns h c n a m ks es1 e es2 (named c (e_name e)) VForeign Wh SO H ND) as (h' & E & HF & HV & OK & T); [discriminate|exact HK|].
    exists (ptr ss (e_val e)), h', [e_val e]. split; [apply GI; auto; apply in_app_iff; right; left; auto|]. rewrite E. cbn [bind]. split; [auto|]. split; [|split; [auto|]].
    + exists (LObj a m ks (es1 ++ es2)), [e_key e]. split; [|split; [auto|split; [auto|split; [rewrite json_obj, ents_app; auto|split; [auto|auto]]]]]. cbn [flat_map]. rewrite !app_nil_r. exact T.
    + cbn [map]. eapply keep_ptr; exact HV.
  - rewrite ents_names in NI. exists VNull, h, []. split; [auto|]. rewrite (remove_none _ _ _ _ _ _ _ _ _ key H) by (auto; discriminate). cbn [bind]. split; [auto|]. split; [|auto]. cbn [length].
    rewrite <- json_obj with (a := a) (m := m) (ks := ks). apply acts_none; auto.
Qed.

(** cee_json_array_append, cee_json_array_insert, cee_json_array_remove *)
Lemma append_acts h c n F V y : W h -> static_ok h ss -> laid h c ss n F -> laid h c ss 0 V -> NoDup (blocks F ++ blocks V) -> put_element true 0 (json_of V) (json_of F) y ->
  exists h', array_append h (ptr ss F) (ptr ss V) = Ok h' /\ acts h c h' c n F [V] y [] 0.
Proof.
  intros Wh SO H HV ND PE. inversion PE as [l1 l2 E2 E Ey]. subst. symmetry in E. destruct (laid_is_arr _ _ _ _ _ _ H E) as (a & l & es & -> & EE).
  rewrite app_nil_r in EE. subst l1. rewrite <- (app_nil_r es) in H, ND. destruct (put_acts h c n a l es [] V Wh SO H HV ND) as (h' & _ & EA & AC). rewrite app_nil_r in *.
  exists h'. split; [|exact AC]. unfold array_append. cbn [ptr]. rewrite (to_array_laid ss _ _ _ _ _ _ H). cbn [bind not_null]. unfold add_to_array. cbn [target bind]. auto.
Qed.
Lemma insert_acts h c n F V k y : W h -> static_ok h ss -> laid h c ss n F -> laid h c ss 0 V -> NoDup (blocks F ++ blocks V) -> put_element false k (json_of V) (json_of F) y ->
  exists h', array_insert h (ptr ss F) k (ptr ss V) = Ok h' /\ acts h c h' c n F [V] y [] 0.
Proof.
  intros Wh SO H HV ND PE. inversion PE as [l1 l2 E2 E Ey]. subst. symmetry in E. destruct (laid_is_arr _ _ _ _ _ _ H E) as (a & l & es & -> & EE).
  apply map_eq_app in EE as (es1 & es2 & -> & <- & <-). destruct (put_acts h c n a l es1 es2 V Wh SO H HV ND) as (h' & EA & _ & AC). rewrite map_length.
  exists h'. split; [|exact AC]. unfold array_insert. cbn [ptr]. rewrite (to_array_laid ss _ _ _ _ _ _ H). cbn [bind not_null target]. auto.
Qed.
Lemma remove_at_acts h c n F k out y : W h -> static_ok h ss -> laid h c ss n F -> NoDup (blocks F) -> take_element k out (json_of F) y ->
  exists old h' ds, array_get h (ptr ss F) k = Ok old /\ array_remove h (ptr ss F) k = Ok h' /\ acts h c h' c n F [] y ds 0 /\ map json_of ds = out /\ keep old = map (ptr ss) ds.
Proof.
  intros Wh SO H ND TE. assert (EO : exists l, json_of F = JArr l) by (inversion TE; eauto). destruct EO as (js & EO).
  destruct (laid_is_arr _ _ _ _ _ _ H EO) as (a & l & es & -> & EE). rewrite EO in TE. unfold array_remove. cbn [ptr]. rewrite (to_array_laid ss _ _ _ _ _ _ H), (array_get_laid ss _ _ _ _ _ _ k H). cbn [bind not_null target].
  pose proof H as HO. apply laid_arr in HO as (_ & HL & HE).
  inversion TE as [l1 w l2 EK -> Ek Ey|l' LE -> Ek Ey]; subst.
  - symmetry in Ek. apply map_eq_app in Ek as (es1 & es2' & -> & <- & E2). apply map_eq_cons in E2 as (e & es2 & -> & <- & <-). rewrite map_length.
    destruct (take_acts h c n a l es1 e es2 Wh SO H ND) as (h' & E & AC). eexists _, h', [e]. split; [reflexivity|]. split; [auto|]. split; [auto|]. split; [auto|].
    rewrite map_app, app_nth2 by (rewrite map_length; lia). rewrite map_length, Nat.sub_diag. cbn [map nth]. apply Forall_app in HE as (_ & HE). apply Forall_cons_iff in HE as (HE & _). eapply keep_ptr; exact HE.
  - rewrite map_length in LE. eexists _, h, []. split; [reflexivity|]. rewrite nth_overflow by (rewrite map_length; auto). split; [|split; [|auto]].
    + unfold list_remove. rewrite (get_obj_of _ _ _ _ _ HL). cbn [bind]. assert (Q : nth_error (map (ptr ss) es) k = None) by (apply nth_error_None; rewrite map_length; auto). rewrite Q. auto.
    + change (JArr (map json_of es)) with (json_of (LArr a l es)). apply acts_none; auto.
Qed.

(** cee_json_object_rename *)
Lemma rename_acts h c n F old new out y : W h -> static_ok h ss -> laid h c ss n F -> NoDup (blocks F) -> rename_field old new out (json_of F) y ->
  exists over h' c' t ds, object_get h c (ptr ss F) new = Ok over /\ object_rename st place deep mk_str h c (ptr ss F) old new = Ok (h', c', t) /\ acts h c h' c' n F [] y ds 1 /\ map json_of ds = out /\
    (if t && negb (text_eqb old new) then keep over else []) = map (ptr ss) ds.
Proof.
  intros Wh SO H ND RF. assert (EO : exists kvs, json_of F = JObj kvs) by (inversion RF; eauto). destruct EO as (kvs & EO).
  destruct (laid_is_obj _ _ _ _ _ _ H EO) as (a & m & ks & es & -> & EE). pose proof H as HO. apply laid_obj in HO as (_ & _ & _ & HN & HE).
  destruct (object_get_laid ss _ _ _ _ _ _ _ new H) as (GN & GI). rewrite json_obj in RF. unfold object_rename. cbn [ptr]. rewrite (to_object_laid ss _ _ _ _ _ _ _ H). cbn [bind target].
  destruct (string_turns h c old Wh) as (h1 & c1 & E1 & T1 & K1 & C1). assert (W1 := t_W _ _ _ _ _ _ T1).
  destruct (string_turns h1 c1 new W1) as (h2 & c2 & E2 & T2 & K2 & C2). assert (W2 := t_W _ _ _ _ _ _ T2). rewrite E1. cbn [bind]. rewrite E2. cbn [bind]. clear E1 E2.
  set (k1 := h_next h) in *. set (k2 := h_next h1) in *.
  assert (H1 : laid h1 c1 ss n (LObj a m ks es)) by (apply (turns_laid _ _ _ _ _ _ _ _ Wh T1 H); intros x _ []).
  assert (H2 : laid h2 c2 ss n (LObj a m ks es)) by (apply (turns_laid _ _ _ _ _ _ _ _ W1 T2 H1); intros x _ []).
  assert (SO1 : static_ok h1 ss) by (eapply turns_static; [exact Wh|exact SO|exact T1|intros x []]).
  assert (SO2 : static_ok h2 ss) by (eapply turns_static; [exact W1|exact SO1|exact T2|intros x []]).
  destruct (turns_obj _ _ _ _ _ _ _ _ _ _ W1 T2 K1) as (K1' & C1'); [discriminate|intros []|]. rewrite C1 in C1'. clear K1 C1.
  assert (T0 : turns h c h c (blocks (LObj a m ks es)) (blocks (LObj a m ks es))) by (apply turns_refl; auto; intros x I; eapply laid_live; eauto).
  assert (T01 : turns h c h1 c1 (blocks (LObj a m ks es)) (k1 :: blocks (LObj a m ks es))) by (eapply turns_then with (X := blocks (LObj a m ks es)); [exact T0|exact T1| |]; intros x; occs; lia).
  assert (T02 : turns h c h2 c2 (blocks (LObj a m ks es)) (k2 :: k1 :: blocks (LObj a m ks es))) by (eapply turns_then with (X := k1 :: blocks (LObj a m ks es)); [exact T01|exact T2| |]; intros x; occs; lia).
  clear T0 T01 T1 T2. 
  assert (HK : Forall (fun e => same_text c2 (VPtr k1) (VPtr (e_key e)) = text_eqb old (e_name e)) es).
  { apply laid_obj in H2 as (_ & _ & _ & _ & HE2). rewrite Forall_forall in *. intros e I. destruct (HE2 e I) as (_ & C & _). cbn [same_text]. rewrite C1', C. auto. }
  assert (ONE2 := t_one _ _ _ _ _ _ T02).
  inversion RF as [kvs1 v kvs2 y' SF Ek Ey|kvs' NI -> Ek Ey]; subst.
  - symmetry in Ek. apply ents_split in Ek as (es1 & e & es2 & -> & <- & <- & <- & <-).
    destruct (remove_turns h2 c2 n a m ks es1 e es2 (same_text c2) (VPtr k1) W2 SO2 H2 ND) as (h3 & E3 & HF3 & HV3 & OK3 & T3); [discriminate|exact HK|]. rewrite E3. cbn [bind].
    assert (T03 : turns h c h3 c2 (blocks (LObj a m ks (es1 ++ e :: es2))) (blocks (LObj a m ks (es1 ++ es2)) ++ k2 :: blocks (e_val e) ++ [e_key e; k1])).
    { eapply turns_then with (X := [k2; k1]); [exact T02|exact T3| |]; intros x; occs; lia. }
    assert (W3 := t_W _ _ _ _ _ _ T3).
    assert (NK : forall k, k = k1 \/ k = k2 -> ~ In k (blocks (LObj a m ks (es1 ++ e :: es2)))).
    { intros k KK I. specialize (ONE2 k). rewrite !occ_cons in ONE2. rewrite occ_in in I. destruct KK as [-> | ->]; rewrite Nat.eqb_refl in ONE2; cbn [Nat.b2n] in ONE2; lia. }
    destruct (turns_obj _ _ _ _ _ _ _ _ _ _ W2 T3 K1') as (K13 & _); [discriminate|apply NK; auto|]. destruct (turns_obj _ _ _ _ _ _ _ _ _ _ W2 T3 K2) as (K23 & _); [discriminate|apply NK; auto|].
    assert (SO3 : static_ok h3 ss) by (eapply turns_static; [exact W2|exact SO2|exact T3|intros x I; eapply laid_thing; eauto]).
    assert (ONE3 := t_one _ _ _ _ _ _ T03).
    destruct (add_acts h3 c2 n a m ks (es1 ++ es2) k2 new (e_val e) out y W3 SO3 HF3 K23 C2 HV3) as (h4 & F' & ds & E4 & T4 & HF & PF & JF & HD & JD & DI & DO).
    { apply nodup_occ. intros x. specialize (ONE3 x). occs. lia. }
    { rewrite ents_app. exact SF. }
    assert (T04 : turns h c h4 c2 (blocks (LObj a m ks (es1 ++ e :: es2))) ((blocks F' ++ flat_map blocks ds) ++ [e_key e; k1])).
    { eapply turns_then with (X := [e_key e; k1]); [exact T03|exact T4| |]; intros x; occs; lia. }
    assert (W4 := t_W _ _ _ _ _ _ T4).
    assert (N4 : forall k, k = k1 \/ k = e_key e -> ~ In k (blocks (LObj a m ks (es1 ++ es2)) ++ k2 :: blocks (e_val e))).
    { intros k KK I. specialize (ONE3 k). rewrite occ_in in I. occs. destruct KK as [-> | ->]; rewrite Nat.eqb_refl in ONE3; cbn [Nat.b2n] in ONE3; lia. }
    destruct (turns_obj _ _ _ _ _ _ _ _ _ _ W3 T4 K13) as (K14 & _); [discriminate|apply N4; auto|]. destruct (turns_obj _ _ _ _ _ _ _ _ _ _ W3 T4 OK3) as (OK4 & _); [discriminate|apply N4; auto|].
    destruct (string_gone h4 c2 k1 0 W4 K14) as (h5 & E5 & T5).
    assert (T05 : turns h c h5 c2 (blocks (LObj a m ks (es1 ++ e :: es2))) (blocks F' ++ flat_map blocks ds ++ [e_key e])).
    { eapply turns_then with (X := (blocks F' ++ flat_map blocks ds) ++ [e_key e]); [exact T04|exact T5| |]; intros x; occs; lia. }
    assert (ONE4 := t_one _ _ _ _ _ _ T04).
    assert (N5 : forall x, In x ((blocks F' ++ flat_map blocks ds) ++ [e_key e]) -> ~ In x [k1]). { intros x I J. specialize (ONE4 x). rewrite occ_in in *. occs. lia. }
    destruct (ptr_some _ _ _ _ HV3) as (pv & PV). rewrite PV in *.
    assert (G : exists over, object_get h c (VPtr a) new = Ok over /\ (if negb (text_eqb (e_name e) new) then keep over else []) = map (ptr ss) ds).
    { destruct (text_eqb (e_name e) new) eqn:EN; cbn [negb].
      - apply JsonParseProofs.text_eqb_iff in EN. exists (ptr ss (e_val e)). split; [apply GI; auto; apply in_app_iff; right; left; auto|]. rewrite DO; [auto|]. rewrite <- EN. rewrite map_app in *. cbn [map] in HN. apply NoDup_remove_2 in HN. exact HN.
      - assert (NE : e_name e <> new) by (intros Q; apply JsonParseProofs.text_eqb_iff in Q; congruence).
        destruct (in_dec (list_eq_dec Z.eq_dec) new (map e_name (es1 ++ e :: es2))) as [I|NI].
        + apply in_map_iff in I as (e' & EN' & I). exists (ptr ss (e_val e')). split; [auto|]. rewrite (DI e'); [|apply in_app_iff in I as [I|[<-|I]]; [apply in_app_iff; auto|congruence|apply in_app_iff; auto]|auto].
          rewrite Forall_forall in HE. destruct (HE e' I) as (_ & _ & _ & HEV). cbn [map]. eapply keep_ptr; exact HEV.
        + exists VNull. split; [auto|]. rewrite DO; [auto|]. intros I. apply NI. rewrite map_app in *. apply in_app_iff in I. apply in_app_iff. cbn. tauto. }
    destruct G as (over & G1 & G2). exists over, h5, c2, true, ds. split; [exact G1|]. rewrite E4. cbn [bind]. rewrite E5. cbn [bind andb]. split; [auto|]. split; [|auto].
    exists F', [e_key e]. cbn [flat_map]. rewrite app_nil_r. split; [exact T05|]. split; [|split; [auto|split; [auto|split; [|split; [|auto]]]]].
    + apply (turns_laid _ _ _ _ _ _ _ _ W4 T5 HF). intros x I. apply N5. apply in_app_iff. left. apply in_app_iff. auto.
    + rewrite Forall_forall in *. intros d I. apply (turns_laid _ _ _ _ _ _ _ _ W4 T5 (HD d I)). intros x J. apply N5. apply in_app_iff. left. apply in_app_iff. right. apply in_flat_map. eauto.
    + constructor; [|constructor]. apply (turns_obj _ _ _ _ _ _ _ _ _ _ W4 T5 OK4); [discriminate|]. apply N5. apply in_app_iff. right. left. auto.
  - rewrite ents_names in NI. rewrite (remove_none _ _ _ _ _ _ _ _ _ old H2) by (auto; discriminate). cbn [bind].
    destruct (string_gone h2 c2 k1 0 W2 K1') as (h3 & E3 & T3). rewrite E3. cbn [bind].
    assert (G : exists over, object_get h c (VPtr a) new = Ok over).
    { destruct (in_dec (list_eq_dec Z.eq_dec) new (map e_name es)) as [I|NI']; [apply in_map_iff in I as (e' & EN' & I)|]; eauto. }
    destruct G as (over & G). exists over, h3, c2, false, []. split; [exact G|]. split; [auto|]. split; [|auto].
    assert (N5 : forall x, In x (k2 :: blocks (LObj a m ks es)) -> ~ In x [k1]). { intros x I J. specialize (ONE2 x). rewrite occ_in in *. occs. lia. }
    exists (LObj a m ks es), [k2]. cbn [flat_map app]. rewrite app_nil_r. split; [|split; [|split; [auto|split; [apply json_obj|split; [auto|split; [|auto]]]]]].
    + eapply turns_then with (X := k2 :: blocks (LObj a m ks es)); [exact T02|exact T3| |]; intros x; occs; lia.
    + apply (turns_laid _ _ _ _ _ _ _ _ W2 T3 H2). intros x I. apply N5. right. auto.
    + constructor; [|constructor]. apply (turns_obj _ _ _ _ _ _ _ _ _ _ W2 T3 K2); [discriminate|]. apply N5. left. auto.
Qed.
End Turns.
