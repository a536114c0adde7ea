(** What the operations of the parser do to the values in memory. *)
From Coq Require Import ZArith List Bool Lia Permutation.
From Verif Require Import Base Json JsonTokModel JsonParseModel HeapModel HeapChainProofs HeapHistory JsonMemModel JsonMemSpec JsonMemView JsonMemDel.
From Verif Require JsonParseProofs.
Import ListNotations.
Open Scope nat_scope.
Open Scope outcome_scope.
Local Arguments Z.add : simpl never.
Local Arguments Z.sub : simpl never.
Local Arguments Z.eqb : simpl never.
Local Arguments core : simpl never.

(** * Counting occurrences *)
Definition occ (x : addr) (l : list addr) : nat := count_occ Nat.eq_dec l x.
Lemma occ_nil x : occ x [] = 0. Proof. reflexivity. Qed.
Lemma occ_cons x y l : occ x (y :: l) = Nat.b2n (x =? y) + occ x l.
Proof. unfold occ. cbn. destruct (Nat.eq_dec y x) as [->|N]; [rewrite Nat.eqb_refl; auto|]. destruct (Nat.eqb_spec x y); [congruence|auto]. Qed.
Lemma occ_app x l1 l2 : occ x (l1 ++ l2) = occ x l1 + occ x l2.
Proof. apply count_occ_app. Qed.
Lemma occ_in x l : In x l <-> 0 < occ x l.
Proof. apply count_occ_In. Qed.
Lemma nodup_occ l : NoDup l <-> forall x, occ x l <= 1.
Proof. apply NoDup_count_occ. Qed.
Lemma occ_flat_app {A} (f : A -> list addr) x l1 l2 : occ x (flat_map f (l1 ++ l2)) = occ x (flat_map f l1) + occ x (flat_map f l2).
Proof. rewrite flat_map_app. apply occ_app. Qed.
Ltac occs := repeat (rewrite ?occ_flat_app, ?occ_app, ?occ_cons, ?occ_nil in *; cbn [flat_map app] in *).

(** * Containers with a place for the value being read *)
Inductive ctx : Type :=
| XArr (a l : addr) (es : list layout)
| XObj (a m ks : addr) (es1 : list (text * addr * addr * layout)) (name : text) (k t : addr) (es2 : list (text * addr * addr * layout)).
Definition xaddr (x : ctx) : addr := match x with XArr a _ _ | XObj a _ _ _ _ _ _ _ => a end.
Definition xblocks (x : ctx) : list addr :=
  match x with
  | XArr a l es => a :: l :: flat_map blocks es
  | XObj a m ks es1 _ k t es2 => a :: m :: ks :: flat_map eblocks es1 ++ k :: t :: flat_map eblocks es2
  end.
Definition plug (x : ctx) (L : layout) : layout :=
  match x with
  | XArr a l es => LArr a l (es ++ [L])
  | XObj a m ks es1 name k t es2 => LObj a m ks (es1 ++ (name, k, t, L) :: es2)
  end.
Section Ctx.
Variables (h : heap) (c : contents) (ss : statics) (n : Z) (p : val).
Definition lx (x : ctx) : Prop :=
  match x with
  | XArr a l es =>
    obj h a (KProd [DEL_RC]) [VPtr l] n /\ obj h l (KList DEL_RC) (map (ptr ss) es ++ [p]) 1 /\ Forall (laid h c ss 1) es
  | XObj a m ks es1 name k t es2 =>
    obj h a (KProd [DEL_RC]) [VPtr m] n /\
    (exists ts, obj h m (KMap DEL_RC DEL_RC) (VPtr ks :: ts) 1 /\
       Permutation ts (map (fun e => VPtr (e_pair e)) es1 ++ VPtr t :: map (fun e => VPtr (e_pair e)) es2)) /\
    obj h ks (KList DEL_RC) (map (fun e => VPtr (e_key e)) es1 ++ VPtr k :: map (fun e => VPtr (e_key e)) es2) 0 /\
    NoDup (map e_name es1 ++ name :: map e_name es2) /\
    Forall (laid_entry c ss h 2) es1 /\ Forall (laid_entry c ss h 2) es2 /\
    obj h k KLeaf [] 2 /\ c k = JStr name /\ obj h t (KProd [DEL_RC; DEL_RC]) [VPtr k; p] 0
  end.
End Ctx.

Lemma plug_laid h c ss n x L : lx h c ss n (ptr ss L) x -> laid h c ss 1 L -> laid h c ss n (plug x L).
Proof.
  intros X H. destruct x as [a l es|a m ks es1 name k t es2]; cbn [plug lx] in *.
  - destruct X as (A & B & C). apply laid_arr. split; [auto|]. split; [rewrite map_app; auto|]. apply Forall_app. auto.
  - destruct X as (A & (ts & B & BP) & C & N & D1 & D2 & K & CK & T). apply laid_obj. split; [auto|].
    split; [exists ts; split; [auto|rewrite map_app; auto]|]. split; [rewrite map_app; auto|]. split; [rewrite map_app; auto|].
    apply Forall_app. split; [auto|]. constructor; [|auto]. split; [auto|]. split; [auto|]. auto.
Qed.
Lemma plug_blocks x L y : occ y (blocks (plug x L)) = occ y (xblocks x) + occ y (blocks L).
Proof.
  destruct x as [a l es|a m ks es1 name k t es2]; cbn [plug xblocks]; rewrite ?blocks_arr, ?blocks_obj; occs; [lia|]. change (eblocks (name, k, t, L)) with (k :: t :: blocks L). occs. lia.
Qed.
Lemma entry_ext c c' ss h h' n e : (forall x, In x (eblocks e) -> look h' x = look h x /\ c' x = c x) -> laid_entry c ss h n e -> laid_entry c' ss h' n e.
Proof.
  intros E (A & B & C & D). destruct (E (e_key e)) as (K1 & K2); [left; auto|]. destruct (E (e_pair e)) as (P1 & _); [right; left; auto|].
  split; [eapply obj_ext; [discriminate|exact K1|auto]|]. split; [congruence|]. split; [eapply obj_ext; [discriminate|exact P1|auto]|].
  eapply laid_ext; [|exact D]. intros x X. apply E. right. right. auto.
Qed.
Lemma lx_ext h h' c c' ss n p x : (forall y, In y (xblocks x) -> look h' y = look h y /\ c' y = c y) -> lx h c ss n p x -> lx h' c' ss n p x.
Proof.
  intros E. destruct x as [a l es|a m ks es1 name k t es2]; cbn [lx xblocks] in *.
  - intros (A & B & C). split; [eapply obj_ext; [discriminate|apply E; left; auto|auto]|]. split; [eapply obj_ext; [discriminate|apply E; right; left; auto|auto]|].
    rewrite Forall_forall in *. intros e I. eapply laid_ext; [|apply C; auto]. intros y Y. apply E. right. right. apply in_flat_map. eauto.
  - intros (A & (ts & B & BP) & C & N & D1 & D2 & K & CK & T).
    assert (EK : forall y, In y [k; t] -> look h' y = look h y /\ c' y = c y).
    { intros y Y. apply E. right. right. right. apply in_app_iff. right. destruct Y as [<-|[<-|[]]]; cbn; auto. }
    split; [eapply obj_ext; [discriminate|apply E; left; auto|auto]|].
    split; [exists ts; split; [eapply obj_ext; [discriminate|apply E; right; left; auto|auto]|auto]|].
    split; [eapply obj_ext; [discriminate|apply E; right; right; left; auto|auto]|]. split; [auto|].
    split; [|split; [|split; [eapply obj_ext; [discriminate|apply EK; cbn; auto|auto]|split; [|eapply obj_ext; [discriminate|apply EK; cbn; auto|auto]]]]].
    + rewrite Forall_forall in *. intros e I. eapply entry_ext; [|apply D1; auto]. intros y Y. apply E. right. right. right. apply in_app_iff. left. apply in_flat_map. eauto.
    + rewrite Forall_forall in *. intros e I. eapply entry_ext; [|apply D2; auto]. intros y Y. apply E. right. right. right. apply in_app_iff. right. right. right. apply in_flat_map. eauto.
    + rewrite <- CK. apply EK. cbn. auto.
Qed.
Lemma static_away h h' ss T : static_ok h ss -> (forall x, ~ In x T -> look h' x = look h x) -> (forall x, In x T -> thing h x \/ look h x = None) -> static_ok h' ss.
Proof.
  intros S E H a I. destruct (S a I) as (n & O). apply static_obj. rewrite E; [eapply obj_static; eauto|].
  intros X. destruct (H a X) as [Y|Y]; [apply (static_thing h ss a a); auto|]. apply look_none in Y. eapply obj_live; eauto.
Qed.

Section Ops.
Variables (st : addr) (ss : statics).
Notation W := (W st).

Lemma obj_state h a k vs n : W h -> obj h a k vs n -> k <> KStatic -> exists b, h_mem h a = Some b /\ b_body b = BObj k vs /\ b_state b = st.
Proof.
  intros (l & Wl) O NS. pose proof O as (b & G & B & _). exists b. split; [auto|]. split; [auto|].
  assert (I : In a l). { eapply obj_in; [exact Wl|eapply get_obj_of; eauto|auto]. }
  destruct (wc_obj _ _ _ Wl a I) as (_ & S). unfold stt in S. rewrite G in S. injection S as ->. auto.
Qed.
Lemma thing_lt h x : W h -> thing h x -> x < h_next h.
Proof. intros Wh T. eapply W_below; eauto. apply thing_live. auto. Qed.
Lemma laid_lt h c n L x : W h -> laid h c ss n L -> In x (blocks L) -> x < h_next h.
Proof. intros Wh H I. apply laid_things in H. rewrite Forall_forall in H. apply thing_lt; auto. Qed.

(** * Creating *)
Lemma mk_obj_view h k vs m : W h -> k <> KStatic -> exists h', mk_obj h st k vs m = Ok (h', h_next h) /\ W h' /\ h_next h' = S (h_next h) /\
  obj h' (h_next h) k vs 0 /\ (forall x, x <> h_next h -> look h' x = look h x).
Proof.
  intros Wh NS. destruct (mk_view st h k vs m Wh NS) as (h' & E & W' & N & L & X). exists h'. split; [auto|]. split; [auto|]. split; [auto|]. split; [|auto].
  apply obj_look; auto. eauto.
Qed.
(** A tag on an object that nobody counted on *)
Lemma tag_view h b k vs : W h -> obj h b k vs 0 -> k <> KStatic -> exists h', mk_tagged h st DEL_RC (VPtr b) = Ok (h', h_next h) /\ W h' /\ h_next h' = S (h_next h) /\
  obj h' (h_next h) (KProd [DEL_RC]) [VPtr b] 0 /\ obj h' b k vs 1 /\ (forall x, x <> h_next h -> x <> b -> look h' x = look h x).
Proof.
  intros Wh O NS. unfold mk_tagged. destruct (mk_obj_view h (KProd [DEL_RC]) [VPtr b] M_IDENTITY Wh) as (h1 & -> & W1 & N1 & O1 & X1); [discriminate|]. cbn [bind].
  assert (NE : b <> h_next h). { intros ->. apply (Nat.lt_irrefl (h_next h)). apply thing_lt; auto. eapply thing_obj; eauto. }
  assert (Ob : obj h1 b k vs 0) by (eapply obj_ext; [auto|apply X1; auto|auto]).
  destruct (incr_view st h1 b k vs 0%Z W1 Ob NS) as (h2 & -> & W2 & N2 & O2 & X2). cbn [bind]. exists h2. split; [auto|]. split; [auto|]. split; [congruence|].
  split; [eapply obj_ext; [discriminate|apply X2; auto|auto]|]. split; [exact O2|]. intros x A B. rewrite X2, X1; auto.
Qed.
Lemma array_view h c : W h -> exists h' L, array_mk st h = Ok (h', ptr ss L) /\ W h' /\ laid h' c ss 0 L /\ L = LArr (S (h_next h)) (h_next h) [] /\
  h_next h' = S (S (h_next h)) /\ (forall x, ~ In x (blocks L) -> look h' x = look h x).
Proof.
  intros Wh. unfold array_mk, mk_list. destruct (mk_obj_view h (KList DEL_RC) [] M_MALLOC Wh) as (h1 & -> & W1 & N1 & O1 & X1); [discriminate|]. cbn [bind].
  destruct (tag_view h1 (h_next h) _ _ W1 O1) as (h2 & -> & W2 & N2 & O2 & O3 & X2); [discriminate|]. cbn [bind].
  exists h2, (LArr (S (h_next h)) (h_next h) []). rewrite N1 in *. split; [auto|]. split; [auto|]. split; [apply laid_arr; split; [auto|]; split; [exact O3|constructor]|].
  split; [auto|]. split; [auto|]. intros x I. cbn in I. rewrite X2, X1; auto.
Qed.
Lemma object_view h c : W h -> exists h' L, object_mk st h = Ok (h', ptr ss L) /\ W h' /\ laid h' c ss 0 L /\ L = LObj (S (S (h_next h))) (S (h_next h)) (h_next h) [] /\
  h_next h' = S (S (S (h_next h))) /\ (forall x, ~ In x (blocks L) -> look h' x = look h x).
Proof.
  intros Wh. unfold object_mk, mk_map, mk_list. destruct (mk_obj_view h (KList DEL_RC) [] M_MALLOC Wh) as (h1 & -> & W1 & N1 & O1 & X1); [discriminate|]. cbn [bind].
  destruct (mk_obj_view h1 (KMap DEL_RC DEL_RC) [VPtr (h_next h)] M_IDENTITY W1) as (h2 & -> & W2 & N2 & O2 & X2); [discriminate|]. cbn [bind].
  destruct (tag_view h2 (h_next h1) _ _ W2 O2) as (h3 & -> & W3 & N3 & O3 & O4 & X3); [discriminate|]. cbn [bind]. rewrite N2 in *. rewrite N1 in *.
  exists h3, (LObj (S (S (h_next h))) (S (h_next h)) (h_next h) []). split; [auto|]. split; [auto|]. split; [|split; [auto|split; [auto|]]].
  - apply laid_obj. split; [auto|]. split; [exists []; split; [exact O4|constructor]|]. split; [|split; [constructor|constructor]].
    eapply obj_ext; [discriminate| |eapply obj_ext; [discriminate| |exact O1]]; [apply X3; lia|apply X2; lia].
  - intros x I. cbn in I. rewrite X3, X2, X1; [auto|intros ->; tauto..].
Qed.

(** * Values of one token *)
Definition pending (h : heap) (c : contents) (t : token) (str : val) (pend : list addr) : Prop :=
  match t with
  | TStr s => exists b, str = VPtr b /\ pend = [b] /\ obj h b KLeaf [] 0 /\ c b = JStr s
  | _ => str = VNull /\ pend = []
  end.
Lemma set_at_eq {A} (f : addr -> A) a x : set_at f a x a = x.
Proof. unfold set_at. rewrite Nat.eqb_refl. auto. Qed.
Lemma set_at_neq {A} (f : addr -> A) a x y : y <> a -> set_at f a x y = f y.
Proof. unfold set_at. intros N. apply Nat.eqb_neq in N. rewrite N. auto. Qed.
Lemma token_view h c t : W h -> exists h' c' str pend, token_str st h c t = Ok (h', c', str) /\ W h' /\ pending h' c' t str pend /\ h_next h <= h_next h' /\
  (forall x, In x pend -> x = h_next h) /\ (forall x, ~ In x pend -> look h' x = look h x /\ c' x = c x) /\ NoDup pend.
Proof.
  intros Wh. destruct t; try (exists h, c, VNull, []; split; [reflexivity|]; split; [auto|]; split; [split; auto|]; split; [auto|]; split; [intros x []|split; [auto|constructor]]; fail).
  cbn [token_str]. destruct (mk_obj_view h KLeaf [] M_MALLOC Wh) as (h1 & -> & W1 & N1 & O1 & X1); [discriminate|]. cbn [bind].
  exists h1, (set_at c (h_next h) (JStr s)), (VPtr (h_next h)), [h_next h]. split; [auto|]. split; [auto|]. split; [|split; [lia|split; [|split]]].
  - exists (h_next h). split; [auto|]. split; [auto|]. split; [auto|]. apply set_at_eq.
  - intros x [<-|[]]. auto.
  - intros x I. cbn in I. split; [apply X1; auto|apply set_at_neq; auto].
  - constructor; [intros []|constructor].
Qed.

Lemma boxed_view h c x : W h -> is_boxed x -> exists h' c' L, boxed_mk st h c x = Ok (h', c', ptr ss L) /\ W h' /\ laid h' c' ss 0 L /\ json_of L = x /\ NoDup (blocks L) /\ h_next h <= h_next h' /\
  (forall y, In y (blocks L) -> h_next h <= y) /\ (forall y, ~ In y (blocks L) -> look h' y = look h y /\ c' y = c y).
Proof.
  intros Wh B. unfold boxed_mk. destruct (mk_obj_view h KLeaf [] M_IDENTITY Wh) as (h1 & -> & W1 & N1 & O1 & X1); [discriminate|]. cbn [bind].
  destruct (tag_view h1 (h_next h) _ _ W1 O1) as (h2 & -> & W2 & N2 & O2 & O3 & X2); [discriminate|]. cbn [bind]. rewrite N1 in *.
  exists h2, (set_at c (h_next h) x), (LBox (S (h_next h)) (h_next h) x). split; [auto|]. split; [auto|]. split; [|split; [auto|split; [|split; [lia|split]]]].
  - cbn [laid]. split; [auto|]. split; [auto|]. split; [apply set_at_eq|auto].
  - cbn [blocks]. constructor; [intros [E|[]]; lia|]. constructor; [intros []|constructor].
  - intros y [<-|[<-|[]]]; lia.
  - intros y I. cbn in I. split; [rewrite X2, X1; auto|apply set_at_neq; auto].
Qed.
Lemma const_view h c a x : W h -> static_ok h ss -> In a [s_true ss; s_false ss; s_null ss] -> is_const x -> ptr ss (LConst x) = VPtr a ->
  exists h' L, singleton_init h a = Ok h' /\ ptr ss L = VPtr a /\ W h' /\ laid h' c ss 0 L /\ json_of L = x /\ NoDup (blocks L) /\ h_next h <= h_next h' /\
    (forall y, In y (blocks L) -> h_next h <= y) /\ (forall y, ~ In y (blocks L) -> look h' y = look h y) /\ blocks L = [].
Proof.
  intros Wh S I C P. destruct (S a I) as (n & O). destruct (singleton_view st h a n Wh O) as (h' & E & W' & N & X).
  exists h', (LConst x). split; [auto|]. split; [auto|]. split; [auto|]. split; [exact C|]. split; [auto|]. split; [constructor|]. split; [lia|]. split; [intros y []|]. split; auto.
Qed.
Lemma scalar_view h c t str pend v : W h -> static_ok h ss -> pending h c t str pend -> scalar t = Some v ->
  exists h' c' L, scalar_mk st ss h c str t = Ok (Some (h', c', ptr ss L)) /\ W h' /\ laid h' c' ss 0 L /\ json_of L = v /\ NoDup (blocks L) /\ h_next h <= h_next h' /\
    (forall y, In y (blocks L) -> h_next h <= y \/ In y pend) /\ (forall y, In y pend -> In y (blocks L)) /\ (forall y, ~ In y (blocks L) -> look h' y = look h y /\ c' y = c y).
Proof.
  intros Wh SO P V. destruct t; try discriminate; injection V as <-; cbn [scalar_mk pending] in *.
  - destruct P as (b & -> & -> & O & C). unfold str_mk.
    destruct (tag_view h b _ _ Wh O) as (h2 & -> & W2 & N2 & O2 & O3 & X2); [discriminate|]. cbn [bind].
    assert (LT : b < h_next h) by (apply thing_lt; auto; eapply thing_obj; eauto; discriminate).
    exists h2, c, (LBox (h_next h) b (JStr s)). split; [auto|]. split; [auto|]. split; [cbn [laid]; cbn; auto|]. split; [auto|]. split; [|split; [lia|split; [|split]]].
    + cbn [blocks]. constructor; [intros [E|[]]; lia|]. constructor; [intros []|constructor].
    + cbn. intros y [<-|[<-|[]]]; auto.
    + cbn. tauto.
    + intros y I. cbn in I. split; [apply X2; auto|auto].
  - destruct P as (-> & ->). destruct (boxed_view h c (JI64 z) Wh I) as (h' & c' & L & -> & W' & H & J & ND & N & F & X). cbn [bind].
    exists h', c', L. split; [auto|]. split; [auto|]. split; [auto|]. split; [auto|]. split; [auto|]. split; [auto|]. split; [auto|]. split; [intros y []|auto].
  - destruct P as (-> & ->). destruct (boxed_view h c (JDouble bits) Wh I) as (h' & c' & L & -> & W' & H & J & ND & N & F & X). cbn [bind].
    exists h', c', L. split; [auto|]. split; [auto|]. split; [auto|]. split; [auto|]. split; [auto|]. split; [auto|]. split; [auto|]. split; [intros y []|auto].
  - destruct P as (-> & ->). destruct (const_view h c (s_true ss) (JBool true) Wh SO) as (h' & L & -> & <- & W' & H & J & ND & N & F & X & B); [cbn; auto|right; auto|auto|]. cbn [bind].
    exists h', c, L. split; [auto|]. split; [auto|]. split; [auto|]. split; [auto|]. split; [auto|]. split; [auto|]. split; [auto|]. split; [intros y []|auto].
  - destruct P as (-> & ->). destruct (const_view h c (s_false ss) (JBool false) Wh SO) as (h' & L & -> & <- & W' & H & J & ND & N & F & X & B); [cbn; auto|right; auto|auto|]. cbn [bind].
    exists h', c, L. split; [auto|]. split; [auto|]. split; [auto|]. split; [auto|]. split; [auto|]. split; [auto|]. split; [auto|]. split; [intros y []|auto].
  - destruct P as (-> & ->). destruct (const_view h c (s_null ss) JNull Wh SO) as (h' & L & -> & <- & W' & H & J & ND & N & F & X & B); [cbn; auto|left; auto|auto|]. cbn [bind].
    exists h', c, L. split; [auto|]. split; [auto|]. split; [auto|]. split; [auto|]. split; [auto|]. split; [auto|]. split; [auto|]. split; [intros y []|auto].
Qed.
Lemma scalar_none h c t str : scalar t = None -> scalar_mk st ss h c str t = Ok None /\ (forall pend, pending h c t str pend -> pend = []).
Proof. destruct t; try discriminate; intros _; (split; [reflexivity|intros pend (_ & ->); auto]). Qed.

(** * Counting on a value *)
Lemma addr_in L : boxed L -> In (addr_of L) (blocks L).
Proof. destruct L; intros B; [destruct B|left; auto..]. Qed.
Lemma incr_laid h c L : W h -> static_ok h ss -> laid h c ss 0 L -> NoDup (blocks L) -> exists h', incr_indegree h DEL_RC (ptr ss L) = Ok h' /\ W h' /\ h_next h' = h_next h /\
  laid h' c ss 1 L /\ (forall x, ~ In x (blocks L) -> look h' x = look h x).
Proof.
  intros Wh SO H ND. assert (BX : boxed L \/ exists x, L = LConst x) by (destruct L; eauto; left; exact I). destruct BX as [B|(x & ->)].
  - rewrite ptr_boxed by auto. destruct (laid_root _ _ _ _ _ B H) as (k & vs & O & NS). destruct (incr_view st h _ _ _ _ Wh O NS) as (h' & E & W' & N & O' & X).
    exists h'. split; [auto|]. split; [auto|]. split; [auto|]. split; [eapply laid_recount; eauto|]. intros x I. apply X. intros ->. apply I. apply addr_in. auto.
  - assert (I : exists a, In a [s_true ss; s_false ss; s_null ss] /\ ptr ss (LConst x) = VPtr a).
    { destruct H as [->|[->| ->]]; cbn [ptr]; eexists; (split; [|reflexivity]); cbn; auto. }
    destruct I as (a & I & ->). destruct (SO a I) as (n & O). destruct (incr_static st h a n Wh O) as (h' & E & W' & N & X).
    exists h'. split; [auto|]. split; [auto|]. split; [auto|]. split; [exact H|auto].
Qed.
Lemma decr_laid h c L : W h -> static_ok h ss -> laid h c ss 1 L -> NoDup (blocks L) -> exists h', decr_indegree h DEL_RC (ptr ss L) = Ok h' /\ W h' /\ h_next h' = h_next h /\
  laid h' c ss 0 L /\ (forall x, ~ In x (blocks L) -> look h' x = look h x).
Proof.
  intros Wh SO H ND. assert (BX : boxed L \/ exists x, L = LConst x) by (destruct L; eauto; left; exact I). destruct BX as [B|(x & ->)].
  - rewrite ptr_boxed by auto. destruct (laid_root _ _ _ _ _ B H) as (k & vs & O & NS). destruct (decr_view st h _ _ _ _ Wh O NS) as (h' & E & W' & N & O' & X).
    exists h'. split; [auto|]. split; [auto|]. split; [auto|]. split; [eapply laid_recount; eauto|]. intros x I. apply X. intros ->. apply I. apply addr_in. auto.
  - assert (I : exists a, In a [s_true ss; s_false ss; s_null ss] /\ ptr ss (LConst x) = VPtr a).
    { destruct H as [->|[->| ->]]; cbn [ptr]; eexists; (split; [|reflexivity]); cbn; auto. }
    destruct I as (a & I & ->). destruct (SO a I) as (n & O). destruct (decr_static st h a n Wh O) as (h' & E & W' & N & X).
    exists h'. split; [auto|]. split; [auto|]. split; [auto|]. split; [exact H|auto].
Qed.

(** cee_list_append *)
Lemma append_view h c l vs L : W h -> static_ok h ss -> obj h l (KList DEL_RC) vs 1 -> laid h c ss 0 L -> NoDup (l :: blocks L) ->
  exists h', add_to_array h (VPtr l) (ptr ss L) = Ok h' /\ W h' /\ h_next h' = h_next h /\ obj h' l (KList DEL_RC) (vs ++ [ptr ss L]) 1 /\ laid h' c ss 1 L /\
    (forall x, ~ In x (l :: blocks L) -> look h' x = look h x).
Proof.
  intros Wh SO O H ND. inversion ND as [|? ? NI ND']; subst. unfold add_to_array. cbn [target bind]. unfold list_append. rewrite (get_obj_of _ _ _ _ _ O). cbn [bind].
  destruct (put_view st h l _ _ _ (KList DEL_RC) (vs ++ [ptr ss L]) Wh O) as (h1 & -> & W1 & N1 & O1 & X1); [discriminate..|]. cbn [bind].
  destruct (incr_laid h1 c L W1) as (h2 & -> & W2 & N2 & H2 & X2); auto.
  - eapply static_keep; [exact SO|eapply thing_obj; [exact O|discriminate]|exact X1].
  - eapply laid_ext; [|exact H]. intros x X. split; auto. apply X1. intros ->. auto.
  - exists h2. split; [auto|]. split; [auto|]. split; [congruence|]. split; [eapply obj_ext; [discriminate|apply X2; auto|auto]|]. split; [auto|].
    intros x X. cbn in X. rewrite X2, X1; auto.
Qed.

(** The tuple of key and value made by cee_map_add *)
Lemma pair_view h c k L : W h -> static_ok h ss -> obj h k KLeaf [] 0 -> laid h c ss 0 L -> NoDup (k :: blocks L) ->
  exists h', mk_prod h st [DEL_RC; DEL_RC] [VPtr k; ptr ss L] = Ok (h', h_next h) /\ W h' /\ h_next h' = S (h_next h) /\
    obj h' (h_next h) (KProd [DEL_RC; DEL_RC]) [VPtr k; ptr ss L] 0 /\ obj h' k KLeaf [] 1 /\ laid h' c ss 1 L /\
    (forall x, ~ In x (h_next h :: k :: blocks L) -> look h' x = look h x).
Proof.
  intros Wh SO O H ND. inversion ND as [|? ? NI ND']; subst. unfold mk_prod.
  destruct (mk_obj_view h (KProd [DEL_RC; DEL_RC]) [VPtr k; ptr ss L] M_IDENTITY Wh) as (h1 & -> & W1 & N1 & O1 & X1); [discriminate|]. cbn [bind combine foldm fst snd].
  assert (LTk : k < h_next h) by (apply thing_lt; auto; eapply thing_obj; eauto; discriminate).
  assert (LTL : forall x, In x (blocks L) -> x < h_next h) by (intros; eapply laid_lt; eauto).
  assert (Ok1 : obj h1 k KLeaf [] 0) by (eapply obj_ext; [discriminate|apply X1; lia|auto]).
  destruct (incr_view st h1 k _ _ _ W1 Ok1) as (h2 & -> & W2 & N2 & O2 & X2); [discriminate|]. cbn [bind].
  destruct (incr_laid h2 c L W2) as (h3 & -> & W3 & N3 & H3 & X3); auto.
  - apply (static_away h h2 ss [h_next h; k]); [exact SO|intros x X; rewrite X2, X1; [auto|intros ->; apply X; left; auto|intros ->; apply X; right; left; auto]|].
    intros x [<-|[<-|[]]]; [right; apply (W_fresh st); auto|left; eapply thing_obj; eauto; discriminate].
  - eapply laid_ext; [|exact H]. intros x X. split; auto. specialize (LTL x X). rewrite X2, X1; auto; [lia|]. intros ->. auto.
  - cbn [bind]. exists h3. split; [auto|]. split; [auto|]. split; [congruence|].
    assert (NL : ~ In (h_next h) (blocks L)) by (intros X; specialize (LTL _ X); lia).
    split; [eapply obj_ext; [discriminate|apply X3; auto|eapply obj_ext; [discriminate|apply X2; lia|auto]]|].
    split; [eapply obj_ext; [discriminate|apply X3; auto|exact O2]|]. split; [auto|]. intros x X. cbn in X. rewrite X3, X2, X1; auto.
Qed.
Lemma find_view h c k name es : c k = JStr name ->
  Forall (fun e => (exists v, obj h (e_pair e) (KProd [DEL_RC; DEL_RC]) [VPtr (e_key e); v] 0) /\ c (e_key e) = JStr (e_name e)) es ->
  (~ In name (map e_name es) /\ find_entry (same_text c) h (VPtr k) (map (fun e => VPtr (e_pair e)) es) = Ok None) \/
  (exists e, In e es /\ e_name e = name /\ find_entry (same_text c) h (VPtr k) (map (fun e => VPtr (e_pair e)) es) = Ok (Some (VPtr (e_pair e)))).
Proof.
  intros C. induction 1 as [|e r ((v & O) & CK) _ IH]; cbn [map find_entry]; [left; split; auto|].
  assert (T : tuple_get h (VPtr (e_pair e)) 0 = Ok (VPtr (e_key e))). { unfold tuple_get. cbn [target bind]. rewrite (get_obj_of _ _ _ _ _ O). reflexivity. }
  rewrite T. cbn [bind]. replace (same_text c (VPtr k) (VPtr (e_key e))) with (text_eqb name (e_name e)) by (cbn; rewrite C, CK; auto).
  destruct (text_eqb name (e_name e)) eqn:E.
  - apply JsonParseProofs.text_eqb_iff in E. right. exists e. split; [left; auto|]. auto.
  - destruct IH as [(NI & ->)|(e' & I & N & ->)].
    + left. split; [|auto]. intros [X|X]; [|auto]. rewrite <- X, JsonParseProofs.text_eqb_refl in E. discriminate.
    + right. exists e'. split; [right; auto|]. auto.
Qed.
End Ops.
