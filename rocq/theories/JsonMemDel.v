(** Deleting a JSON value frees exactly its objects. *)
From Coq Require Import ZArith List Bool Lia Permutation.
From Verif Require Import Base Json HeapModel HeapChainProofs HeapHistory JsonMemModel JsonMemSpec JsonMemView.
Import ListNotations.
Open Scope nat_scope.
Open Scope outcome_scope.
Local Arguments Z.add : simpl never.
Local Arguments Z.sub : simpl never.
Local Arguments Z.eqb : simpl never.
Local Arguments core : simpl never.

(** * Layouts *)
Section Ind.
Variable P : layout -> Prop.
Hypothesis HC : forall x, P (LConst x).
Hypothesis HB : forall a b x, P (LBox a b x).
Hypothesis HA : forall a l es, Forall P es -> P (LArr a l es).
Hypothesis HO : forall a m ks es, Forall (fun e => P (e_val e)) es -> P (LObj a m ks es).
Fixpoint layout_ind' (L : layout) : P L :=
  match L with
  | LConst x => HC x
  | LBox a b x => HB a b x
  | LArr a l es => HA a l es ((fix go es := match es return Forall P es with
      | [] => Forall_nil _ | e :: r => Forall_cons _ (layout_ind' e) (go r) end) es)
  | LObj a m ks es => HO a m ks es ((fix go es := match es return Forall (fun e => P (e_val e)) es with
      | [] => Forall_nil _ | e :: r => Forall_cons _ (layout_ind' (snd e)) (go r) end) es)
  end.
End Ind.

Definition eblocks (e : text * addr * addr * layout) : list addr := e_key e :: e_pair e :: blocks (e_val e).
Section Laid.
Variables (c : contents) (ss : statics).
(** An entry of a map, with [n] counts on its key *)
Definition laid_entry (h : heap) (n : Z) (e : text * addr * addr * layout) : Prop :=
  obj h (e_key e) KLeaf [] n /\ c (e_key e) = JStr (e_name e) /\
  obj h (e_pair e) (KProd [DEL_RC; DEL_RC]) [VPtr (e_key e); ptr ss (e_val e)] 0 /\ laid h c ss 1 (e_val e).
Lemma laid_arr h n a l es : laid h c ss n (LArr a l es) <->
  obj h a (KProd [DEL_RC]) [VPtr l] n /\ obj h l (KList DEL_RC) (map (ptr ss) es) 1 /\ Forall (laid h c ss 1) es.
Proof.
  cbn [laid]. enough (H : forall es : list layout, (fix all (es : list layout) : Prop := match es with [] => True | e :: r => laid h c ss 1 e /\ all r end) es <-> Forall (laid h c ss 1) es).
  { rewrite H. tauto. }
  clear. induction es as [|e r IH]; [split; auto; constructor|]. rewrite Forall_cons_iff, IH. tauto.
Qed.
Lemma laid_obj h n a m ks es : laid h c ss n (LObj a m ks es) <->
  obj h a (KProd [DEL_RC]) [VPtr m] n /\
  (exists ts, obj h m (KMap DEL_RC DEL_RC) (VPtr ks :: ts) 1 /\ Permutation ts (map (fun e => VPtr (e_pair e)) es)) /\
  obj h ks (KList DEL_RC) (map (fun e => VPtr (e_key e)) es) 0 /\ NoDup (map e_name es) /\ Forall (laid_entry h 2) es.
Proof.
  cbn [laid]. set (all := fix all (es : list (text * addr * addr * layout)) : Prop := _).
  enough (H : forall es, all es <-> Forall (laid_entry h 2) es). { rewrite H. tauto. }
  clear. induction es as [|(((n & k) & t) & L) r IH]; [split; auto; constructor|]. rewrite Forall_cons_iff, <- IH. unfold laid_entry, e_key, e_pair, e_val, e_name. cbn. tauto.
Qed.
End Laid.
Lemma blocks_arr a l es : blocks (LArr a l es) = a :: l :: flat_map blocks es.
Proof. reflexivity. Qed.
Lemma blocks_obj a m ks es : blocks (LObj a m ks es) = a :: m :: ks :: flat_map eblocks es.
Proof. reflexivity. Qed.

(** Only the objects of a value matter to it. *)
Lemma laid_ext c c' ss : forall L h h' n, (forall x, In x (blocks L) -> look h' x = look h x /\ c' x = c x) -> laid h c ss n L -> laid h' c' ss n L.
Proof.
  induction L as [x|a b x|a l es IH|a m ks es IH] using layout_ind'; intros h h' n E.
  - auto.
  - cbn [laid]. intros (A & B & C & D). destruct (E a) as (Ea & _); [left; auto|]. destruct (E b) as (Eb & Cb); [right; left; auto|].
    split; [eapply obj_ext; [discriminate|exact Ea|auto]|]. split; [eapply obj_ext; [discriminate|exact Eb|auto]|]. split; [congruence|auto].
  - rewrite !laid_arr. rewrite blocks_arr in E. intros (A & B & C). split; [eapply obj_ext; [discriminate|apply E; left; auto|auto]|].
    split; [eapply obj_ext; [discriminate|apply E; right; left; auto|auto]|]. rewrite Forall_forall in *. intros e I. apply (IH e I h); [|auto].
    intros x X. apply E. right. right. apply in_flat_map. eauto.
  - rewrite !laid_obj. rewrite blocks_obj in E. intros (A & (ts & B & BP) & C & ND & D). split; [eapply obj_ext; [discriminate|apply E; left; auto|auto]|].
    split; [exists ts; split; [eapply obj_ext; [discriminate|apply E; right; left; auto|auto]|auto]|].
    split; [eapply obj_ext; [discriminate|apply E; right; right; left; auto|auto]|]. split; [auto|]. rewrite Forall_forall in *. intros e I.
    assert (EE : forall x, In x (eblocks e) -> look h' x = look h x /\ c' x = c x). { intros x X. apply E. right. right. right. apply in_flat_map. eauto. }
    destruct (D e I) as (D1 & D2 & D3 & D4). unfold laid_entry.
    destruct (EE (e_key e)) as (K1 & K2); [left; auto|]. destruct (EE (e_pair e)) as (P1 & _); [right; left; auto|].
    split; [eapply obj_ext; [discriminate|exact K1|auto]|]. split; [congruence|]. split; [eapply obj_ext; [discriminate|exact P1|auto]|].
    apply (IH e I h); [|auto]. intros x X. apply EE. right. right. auto.
Qed.
(** The objects of a value are there, and none of them is static. *)
Definition thing (h : heap) (x : addr) : Prop := exists k vs n, obj h x k vs n /\ k <> KStatic.
Lemma thing_obj h x k vs n : obj h x k vs n -> k <> KStatic -> thing h x.
Proof. unfold thing. eauto. Qed.
Lemma thing_ext h h' x : look h' x = look h x -> thing h x -> thing h' x.
Proof. intros E (k & vs & n & O & N). exists k, vs, n. split; [eapply obj_ext; eauto|auto]. Qed.
Lemma thing_live h x : thing h x -> look h x <> None.
Proof. intros (k & vs & n & O & _) E. apply look_none in E. eapply obj_live; eauto. Qed.
Lemma laid_things c ss : forall L h n, laid h c ss n L -> Forall (thing h) (blocks L).
Proof.
  induction L as [x|a b x|a l es IH|a m ks es IH] using layout_ind'; intros h n.
  - constructor.
  - cbn [laid blocks]. intros (A & B & _). repeat constructor; eapply thing_obj; eauto; discriminate.
  - rewrite laid_arr, blocks_arr. intros (A & B & C). constructor; [eapply thing_obj; eauto; discriminate|]. constructor; [eapply thing_obj; eauto; discriminate|].
    rewrite Forall_forall in *. intros x X. apply in_flat_map in X as (e & I & X). specialize (IH e I h 1%Z (C e I)). rewrite Forall_forall in IH. auto.
  - rewrite laid_obj, blocks_obj. intros (A & (ts & B & _) & C & _ & D). constructor; [eapply thing_obj; eauto; discriminate|]. constructor; [eapply thing_obj; eauto; discriminate|].
    constructor; [eapply thing_obj; eauto; discriminate|]. rewrite Forall_forall in *. intros x X. apply in_flat_map in X as (e & I & X).
    destruct (D e I) as (D1 & _ & D3 & D4). destruct X as [<-|[<-|X]]; [eapply thing_obj; eauto; discriminate|eapply thing_obj; eauto; discriminate|].
    specialize (IH e I h 1%Z D4). rewrite Forall_forall in IH. auto.
Qed.
Lemma static_thing h ss a x : static_ok h ss -> In a [s_true ss; s_false ss; s_null ss] -> thing h x -> x <> a.
Proof.
  intros S I (k & vs & n & O & N) ->. destruct (S a I) as (n' & O'). apply get_obj_of in O, O'. rewrite O in O'. injection O' as -> _. congruence.
Qed.

Lemma static_keep h h1 ss a : static_ok h ss -> thing h a -> (forall x, x <> a -> look h1 x = look h x) -> static_ok h1 ss.
Proof.
  intros S T E x I. destruct (S x I) as (n & O). apply static_obj. rewrite E; [eapply obj_static; eauto|]. intros ->. apply (static_thing h ss a a); auto.
Qed.

(** * Deleting *)
Section Del.
Variables (st : addr) (c : contents) (ss : statics).
Notation W := (W st).

(** Exactly [xs] has disappeared. *)
Definition gone (h h' : heap) (xs : list addr) : Prop :=
  W h' /\ h_next h' = h_next h /\ (forall x, In x xs -> look h' x = None) /\ (forall x, ~ In x xs -> look h' x = look h x).
Lemma gone_nil h : W h -> gone h h [].
Proof. intros. split; [auto|]. split; [auto|]. split; [intros x []|auto]. Qed.
Lemma gone_trans h1 h2 h3 xs ys : gone h1 h2 xs -> gone h2 h3 ys -> gone h1 h3 (xs ++ ys).
Proof.
  intros (W2 & N2 & D2 & E2) (W3 & N3 & D3 & E3). split; [auto|]. split; [congruence|]. split.
  - intros x I. destruct (in_dec Nat.eq_dec x ys) as [Iy|Iy]; [auto|]. rewrite E3 by auto. apply D2. apply in_app_iff in I. tauto.
  - intros x I. rewrite in_app_iff in I. rewrite E3, E2 by tauto. auto.
Qed.
Lemma gone_perm h h' xs ys : (forall x, In x xs <-> In x ys) -> gone h h' xs -> gone h h' ys.
Proof.
  intros P (A & B & C & D). split; [auto|]. split; [auto|]. split; [intros x I; apply C; apply P; auto|]. intros x I. apply D. rewrite P. auto.
Qed.
Lemma gone_static h h' xs : static_ok h ss -> Forall (thing h) xs -> gone h h' xs -> static_ok h' ss.
Proof.
  intros S T (_ & _ & _ & E) a I. destruct (S a I) as (n & O). apply static_obj. rewrite E; [eapply obj_static; eauto|].
  intros X. rewrite Forall_forall in T. apply (static_thing h ss a a); auto.
Qed.
Lemma gone_laid h h' xs n L : gone h h' xs -> (forall x, In x xs -> In x (blocks L) -> False) -> laid h c ss n L -> laid h' c ss n L.
Proof. intros (_ & _ & _ & E) D. apply laid_ext. intros x X. split; auto. apply E. intros I. eapply D; eauto. Qed.

Fixpoint levels (L : layout) : nat :=
  match L with
  | LConst _ => 1 | LBox _ _ _ => 2
  | LArr _ _ es => 3 + list_max (map levels es)
  | LObj _ _ _ es => 5 + list_max (map (fun e => levels (snd e)) es)
  end.
Lemma list_max_ge l n : In n l -> n <= list_max l.
Proof.
  induction l as [|x l IH]; [intros []|]. change (list_max (x :: l)) with (Nat.max x (list_max l)). intros [<-|I]; [lia|]. apply IH in I. lia.
Qed.

Definition addr_of (L : layout) : addr := match L with LConst _ => 0 | LBox a _ _ | LArr a _ _ | LObj a _ _ _ => a end.
Definition boxed (L : layout) : Prop := match L with LConst _ => False | _ => True end.
Lemma ptr_boxed L : boxed L -> ptr ss L = VPtr (addr_of L).
Proof. destruct L; auto. intros []. Qed.
Lemma laid_root L h n : boxed L -> laid h c ss n L -> exists k vs, obj h (addr_of L) k vs n /\ k <> KStatic.
Proof. destruct L; intros B H; [destruct B|destruct H as (H & _)..]; eexists _, _; (split; [exact H|discriminate]). Qed.
Lemma laid_recount L h h' n n' k vs : boxed L -> NoDup (blocks L) -> laid h c ss n L -> obj h (addr_of L) k vs n -> obj h' (addr_of L) k vs n' ->
  (forall x, x <> addr_of L -> look h' x = look h x) -> laid h' c ss n' L.
Proof.
  intros B ND H O O' E. assert (EX : forall a r x, blocks L = a :: r -> a = addr_of L -> In x r -> look h' x = look h x).
  { intros a r x EB EA I. apply E. intros ->. rewrite EB in ND. inversion ND; subst. auto. }
  assert (OO : forall k' vs', obj h (addr_of L) k' vs' n -> obj h' (addr_of L) k' vs' n').
  { intros k' vs' X. apply get_obj_of in O. apply get_obj_of in X. rewrite O in X. injection X as <- <-. auto. }
  destruct L as [x|a b x|a l es|a m ks es]; [destruct B| | |].
  - destruct H as (H1 & H2 & H3 & H4). split; [apply OO; auto|]. split; [|auto]. eapply obj_ext; [discriminate| |exact H2]. eapply EX; [reflexivity|reflexivity|left; auto].
  - rewrite laid_arr in *. destruct H as (H1 & H2 & H3). split; [apply OO; auto|]. split.
    + eapply obj_ext; [discriminate| |exact H2]. eapply EX; [reflexivity|reflexivity|left; auto].
    + rewrite Forall_forall in *. intros e I. eapply laid_ext; [|apply H3; auto]. intros x X. split; auto. eapply EX; [reflexivity|reflexivity|]. right. apply in_flat_map. eauto.
  - rewrite laid_obj in *. destruct H as (H1 & (ts & H2 & HP) & H3 & HN & H4). split; [apply OO; auto|]. split; [exists ts; split; auto|].
    { eapply obj_ext; [discriminate| |exact H2]. eapply EX; [reflexivity|reflexivity|left; auto]. }
    split; [eapply obj_ext; [discriminate| |exact H3]; eapply EX; [reflexivity|reflexivity|right; left; auto]|]. split; [auto|].
    rewrite Forall_forall in *. intros e I. destruct (H4 e I) as (K1 & K2 & K3 & K4).
    assert (EE : forall x, In x (eblocks e) -> look h' x = look h x). { intros x X. eapply EX; [reflexivity|reflexivity|]. right. right. apply in_flat_map. exists e. auto. }
    split; [eapply obj_ext; [discriminate| |exact K1]; apply EE; left; auto|]. split; [auto|].
    split; [eapply obj_ext; [discriminate| |exact K3]; apply EE; right; left; auto|]. eapply laid_ext; [|exact K4]. intros x X. split; auto. apply EE. right. right. auto.
Qed.

(** cee_del_ref of an object: the count goes down by one *)
Definition lessened (n : Z) : Z := if (n =? 0)%Z then n else (n - 1)%Z.
Lemma del_ref_view h a k vs n tr : W h -> obj h a k vs n -> k <> KStatic -> exists h1, W h1 /\ h_next h1 = h_next h /\ obj h1 a k vs (lessened n) /\
  (forall x, x <> a -> look h1 x = look h x) /\
  del_e tr h (DEL_RC, VPtr a) = if (lessened n =? 0)%Z then tr h1 a else Ok h1.
Proof.
  intros Wh O NS. pose proof O as (b & G & B & R & T).
  destruct (modify_view st h a (fun b => if (b_rc b =? 0)%Z then b else set_rc (b_rc b - 1)%Z b) Wh) as (h1 & E & W1 & N & L & X).
  - congruence.
  - intros b'. destruct (b_rc b' =? 0)%Z; cbn; auto.
  - assert (O1 : obj h1 a k vs (lessened n)).
    { apply obj_look; auto. rewrite (L b G), R. exists (b_mark b), (b_meth b). unfold lessened. destruct (n =? 0)%Z; rewrite (core_obj _ k vs); auto; cbn; congruence. }
    exists h1. split; [auto|]. split; [auto|]. split; [auto|]. split; [auto|]. cbn [del_e]. rewrite E. cbn [bind].
    destruct O1 as (b1 & G1 & _ & R1 & T1). unfold get. rewrite G1. cbn [bind]. rewrite T1, R1. auto.
Qed.
Lemma del_ref_static h a n tr : W h -> obj h a KStatic [] n -> (forall h1, tr h1 a = Ok h1 \/ (forall m, ~ obj h1 a KStatic [] m)) ->
  exists h1, W h1 /\ h_next h1 = h_next h /\ (forall x, look h1 x = look h x) /\ del_e tr h (DEL_RC, VPtr a) = Ok h1.
Proof.
  intros Wh O TR. pose proof O as (b & G & B & R & T).
  destruct (modify_view st h a (fun b => if (b_rc b =? 0)%Z then b else set_rc (b_rc b - 1)%Z b) Wh) as (h1 & E & W1 & N & L & X).
  - congruence.
  - intros b'. destruct (b_rc b' =? 0)%Z; cbn; auto.
  - assert (LK : forall x, look h1 x = look h x).
    { intros x. destruct (Nat.eq_dec x a) as [->|NE]; [|auto]. rewrite (L b G). unfold look. rewrite G. cbn [option_map]. f_equal. unfold core.
      destruct (b_rc b =? 0)%Z; cbn; rewrite B; auto. }
    assert (O1 : exists m, obj h1 a KStatic [] m). { apply static_obj. rewrite LK. eapply obj_static; eauto. }
    exists h1. split; [auto|]. split; [auto|]. split; [auto|]. cbn [del_e]. rewrite E. cbn [bind].
    destruct O1 as (m & O1). pose proof O1 as (b1 & G1 & _ & _ & T1). unfold get. rewrite G1. cbn [bind]. rewrite T1.
    destruct (b_rc b1 =? 0)%Z; auto. destruct (TR h1) as [->|NO]; auto. destruct (NO m); auto.
Qed.

(** CEE_TRACE_DEL_FOLLOW of an object that is not a state, static or a set *)
Lemma trace_step f h a k vs n : obj h a k vs n -> k <> KStatic -> (forall p, k <> KSet p) ->
  trace_del (S f) h a = (let* h := foldm (del_e (trace_del f)) h (del_fields k vs) in let* h := de_chain h a in free h a).
Proof.
  intros (b & G & B & _) NS NSet. cbn [trace_del]. unfold get. rewrite G. cbn [bind]. rewrite B. destruct k; try congruence; auto; exfalso; eapply NSet; reflexivity.
Qed.
(** the last two steps *)
Lemma finish_view h a : W h -> thing h a -> exists h', (let* h := de_chain h a in free h a) = Ok h' /\ gone h h' [a].
Proof.
  intros Wh T. destruct (unlink_view st h a Wh T) as (h' & E & W' & N & D & X). exists h'. split; [auto|]. split; [auto|]. split; [auto|].
  split; [intros x [<-|[]]; auto|]. intros x I. apply X. intros ->. apply I. left. auto.
Qed.
Lemma del_leaf f h a n : W h -> obj h a KLeaf [] n -> 0 < f -> exists h', trace_del f h a = Ok h' /\ gone h h' [a].
Proof.
  intros Wh O F. destruct f as [|f]; [lia|]. rewrite (trace_step f h a KLeaf [] n) by (auto; discriminate). cbn [del_fields foldm bind].
  apply finish_view; auto. eapply thing_obj; eauto. discriminate.
Qed.

Definition deletable (L : layout) : Prop := boxed L -> forall h f n, W h -> static_ok h ss -> laid h c ss n L -> NoDup (blocks L) -> levels L <= f ->
  exists h', trace_del f h (addr_of L) = Ok h' /\ gone h h' (blocks L).
(** an element, which its container counts on *)
Lemma del_child L : deletable L -> forall h f, W h -> static_ok h ss -> laid h c ss 1 L -> NoDup (blocks L) -> levels L <= f ->
  exists h', del_e (trace_del f) h (DEL_RC, ptr ss L) = Ok h' /\ gone h h' (blocks L).
Proof.
  intros D h f Wh S H ND F.
  assert (STAT : forall a, In a [s_true ss; s_false ss; s_null ss] -> 0 < f -> exists h', del_e (trace_del f) h (DEL_RC, VPtr a) = Ok h' /\ gone h h' []).
  { intros a I F0. destruct (S a I) as (m & O). destruct (del_ref_static h a m (trace_del f) Wh O) as (h1 & W1 & N1 & L1 & E).
    - intros h1. destruct f as [|f]; [lia|]. cbn [trace_del]. unfold get. destruct (h_mem h1 a) as [b|] eqn:G.
      + cbn [bind]. destruct (b_body b) as [|k vs] eqn:B; [right; intros ? (b' & G' & B' & _); congruence|].
        destruct k; try (right; intros ? (b' & G' & B' & _); congruence). left. auto.
      + right. intros ? (b' & G' & _). congruence.
    - exists h1. split; [auto|]. split; [auto|]. split; [auto|]. split; [intros x []|auto]. }
  assert (BOX : boxed L -> exists h', del_e (trace_del f) h (DEL_RC, ptr ss L) = Ok h' /\ gone h h' (blocks L)).
  { intros B. rewrite ptr_boxed by auto. destruct (laid_root _ _ _ B H) as (k & vs & O & NS).
    destruct (del_ref_view h (addr_of L) k vs 1%Z (trace_del f) Wh O NS) as (h1 & W1 & N1 & O1 & E1 & ->).
    change (lessened 1) with 0%Z in *. change (0 =? 0)%Z with true. cbv iota.
    assert (H1 : laid h1 c ss 0 L) by (eapply laid_recount; eauto).
    destruct (D B h1 f 0%Z W1) as (h' & E & GN); auto. { eapply static_keep; eauto. eapply thing_obj; eauto. }
    exists h'. split; [auto|]. destruct GN as (A1 & A2 & A3 & A4). split; [auto|]. split; [congruence|]. split; [auto|].
    intros x NI. rewrite A4 by auto. apply E1. intros ->. apply NI. destruct L; [destruct B|left; auto..]. }
  destruct L as [x|a b x|a l es|a m ks es]; [|apply BOX; exact I..].
  cbn [levels] in F. destruct H as [->|[->| ->]]; cbn [ptr blocks]; apply STAT; try lia; cbn; auto.
Qed.
Lemma NoDup_app_l {A} (l1 l2 : list A) : NoDup (l1 ++ l2) -> NoDup l1 /\ NoDup l2 /\ (forall x, In x l1 -> In x l2 -> False).
Proof.
  induction l1 as [|a l IH]; cbn [app]; intros H; [repeat split; auto; try constructor; intros x []|]. inversion H as [|? ? NI N]; subst. rewrite in_app_iff in NI.
  destruct (IH N) as (A1 & A2 & A3). split; [constructor; tauto|]. split; [auto|]. intros x [<-|I] J; [tauto|eauto].
Qed.

(** the elements of a list *)
Lemma del_list es : Forall deletable es -> forall h f, W h -> static_ok h ss -> Forall (laid h c ss 1) es -> NoDup (flat_map blocks es) ->
  list_max (map levels es) <= f ->
  exists h', foldm (del_e (trace_del f)) h (map (pair DEL_RC) (map (ptr ss) es)) = Ok h' /\ gone h h' (flat_map blocks es).
Proof.
  induction 1 as [|L r D _ IH]; intros h f Wh S H ND F; cbn [map foldm flat_map] in *; [exists h; split; [auto|apply gone_nil; auto]|].
  inversion H as [|? ? H1 H2]; subst. change (Nat.max (levels L) (list_max (map levels r)) <= f) in F. apply NoDup_app_l in ND as (N1 & N2 & DJ).
  destruct (del_child L D h f Wh S H1 N1) as (h1 & E1 & G1); [lia|]. rewrite E1. cbn [bind].
  destruct (IH h1 f) as (h2 & E2 & G2); [apply G1| | |auto|lia|].
  - eapply gone_static; [exact S|eapply laid_things; exact H1|exact G1].
  - rewrite Forall_forall in *. intros e I. eapply gone_laid; eauto. intros x X Y. apply (DJ x X). apply in_flat_map. eauto.
  - exists h2. split; [auto|]. eapply gone_trans; eauto.
Qed.

(** the list of keys: the pairs still count on them *)
Lemma del_keys f es : forall h, W h -> NoDup (map e_key es) -> Forall (fun e => obj h (e_key e) KLeaf [] 2) es ->
  exists h', foldm (del_e (trace_del f)) h (map (pair DEL_RC) (map (fun e => VPtr (e_key e)) es)) = Ok h' /\ W h' /\ h_next h' = h_next h /\
    Forall (fun e => obj h' (e_key e) KLeaf [] 1) es /\ (forall x, ~ In x (map e_key es) -> look h' x = look h x).
Proof.
  induction es as [|e r IH]; intros h Wh ND H; cbn [map foldm] in *; [exists h; auto|].
  inversion ND as [|? ? NI N']; subst. inversion H as [|? ? H1 H2]; subst.
  destruct (del_ref_view h (e_key e) KLeaf [] 2%Z (trace_del f) Wh H1) as (h1 & W1 & N1 & O1 & E1 & ->); [discriminate|]. change (lessened 2) with 1%Z in *. change (1 =? 0)%Z with false. cbv iota. cbn [bind].
  destruct (IH h1 W1 N') as (h2 & E2 & W2 & N2 & O2 & L2).
  - rewrite Forall_forall in *. intros e' I. eapply obj_ext; [discriminate| |apply H2; auto]. apply E1. intros E. apply NI. rewrite <- E. apply in_map. auto.
  - exists h2. split; [auto|]. split; [auto|]. split; [congruence|]. split.
    + constructor; auto. eapply obj_ext; [discriminate|apply L2; auto|auto].
    + intros x I. cbn [In] in I. rewrite L2, E1 by (intros X; apply I; auto). auto.
Qed.

(** a pair *)
Lemma del_pair e : deletable (e_val e) -> forall h f, W h -> static_ok h ss -> laid_entry c ss h 1 e -> NoDup (eblocks e) -> 2 + levels (e_val e) <= f ->
  exists h', del_e (trace_del f) h (DEL, VPtr (e_pair e)) = Ok h' /\ gone h h' (eblocks e).
Proof.
  intros D h f Wh S (K1 & K2 & P & V) ND F. destruct f as [|f]; [lia|]. cbn [del_e]. rewrite (trace_step f h (e_pair e) _ _ _ P) by discriminate.
  cbn [del_fields combine foldm]. unfold eblocks in ND. inversion ND as [|? ? NK ND1]; subst. inversion ND1 as [|? ? NP ND2]; subst.
  destruct (del_ref_view h (e_key e) KLeaf [] 1%Z (trace_del f) Wh K1) as (h1 & W1 & N1 & O1 & E1 & ->); [discriminate|].
  change (lessened 1) with 0%Z in *. change (0 =? 0)%Z with true. cbv iota.
  destruct (del_leaf f h1 (e_key e) 0 W1 O1) as (h2 & -> & G2); [lia|]. cbn [bind].
  assert (G12 : gone h h2 [e_key e]). { destruct G2 as (A1 & A2 & A3 & A4). split; [auto|]. split; [congruence|]. split; [auto|]. intros x X. rewrite A4 by auto. apply E1. intros ->. apply X. left. auto. }
  assert (S2 : static_ok h2 ss). { eapply gone_static; [exact S| |exact G12]. constructor; [eapply thing_obj; eauto; discriminate|constructor]. }
  destruct (del_child (e_val e) D h2 f) as (h3 & E3 & G3); [apply G12|auto| |auto|lia|].
  { eapply gone_laid; eauto. intros x [<-|[]] X. apply NK. right. auto. }
  rewrite E3. cbn [bind]. destruct (finish_view h3 (e_pair e)) as (h4 & E4 & G4); [apply G3| |].
  { eapply thing_ext; [|eapply thing_obj; [exact P|discriminate]]. destruct G3 as (_ & _ & _ & X3), G12 as (_ & _ & _ & X2).
    rewrite X3 by auto. apply X2. intros [E|[]]. apply NK. left. auto. }
  exists h4. split; [auto|]. eapply gone_perm; [|eapply gone_trans; [eapply gone_trans; [exact G12|exact G3]|exact G4]].
  intros x. unfold eblocks. cbn. rewrite in_app_iff. cbn. tauto.
Qed.
Lemma del_pairs es : Forall (fun e => deletable (e_val e)) es -> forall h f, W h -> static_ok h ss -> Forall (laid_entry c ss h 1) es -> NoDup (flat_map eblocks es) ->
  2 + list_max (map (fun e => levels (e_val e)) es) <= f ->
  exists h', foldm (del_e (trace_del f)) h (map (pair DEL) (map (fun e => VPtr (e_pair e)) es)) = Ok h' /\ gone h h' (flat_map eblocks es).
Proof.
  induction 1 as [|e r D _ IH]; intros h f Wh S H ND F; cbn [map foldm flat_map] in *; [exists h; split; [auto|apply gone_nil; auto]|].
  inversion H as [|? ? H1 H2]; subst. change (2 + Nat.max (levels (e_val e)) (list_max (map (fun e => levels (e_val e)) r)) <= f) in F. apply NoDup_app_l in ND as (N1 & N2 & DJ).
  destruct (del_pair e D h f Wh S H1 N1) as (h1 & E1 & G1); [lia|]. rewrite E1. cbn [bind].
  destruct (IH h1 f) as (h2 & E2 & G2); [apply G1| | |auto|lia|].
  - eapply gone_static; [exact S| |exact G1]. destruct H1 as (K1 & _ & K3 & K4). constructor; [eapply thing_obj; eauto; discriminate|]. constructor; [eapply thing_obj; eauto; discriminate|]. eapply laid_things; eauto.
  - rewrite Forall_forall in *. intros e' I. destruct (H2 e' I) as (K1 & K2 & K3 & K4). destruct G1 as (_ & _ & _ & G1).
    assert (X : forall x, In x (eblocks e') -> look h1 x = look h x). { intros x X. apply G1. intros Y. apply (DJ x Y). apply in_flat_map. eauto. }
    split; [eapply obj_ext; [discriminate|apply X; left; auto|auto]|]. split; [auto|]. split; [eapply obj_ext; [discriminate|apply X; right; left; auto|auto]|].
    eapply laid_ext; [|exact K4]. intros x Y. split; auto. apply X. right. right. auto.
  - exists h2. split; [auto|]. eapply gone_trans; eauto.
Qed.
Lemma perm_map_inv {A B} (g : A -> B) : forall l (ts : list B), Permutation ts (map g l) -> exists l', Permutation l' l /\ ts = map g l'.
Proof. intros l ts P. apply Permutation_map_inv in P as (l' & -> & P). exists l'. split; [apply Permutation_sym|]; auto. Qed.

Theorem deletable_all : forall L, deletable L.
Proof.
  induction L as [x|a b x|a l es IH|a m ks es IH] using layout_ind'; intros B h f n Wh SO H ND F.
  - destruct B.
  - cbn [levels addr_of blocks] in *. destruct H as (H1 & H2 & H3 & _). destruct f as [|f]; [lia|]. rewrite (trace_step f h a _ _ _ H1) by discriminate. cbn [del_fields combine foldm].
    destruct (del_ref_view h b KLeaf [] 1%Z (trace_del f) Wh H2) as (h1 & W1 & N1 & O1 & E1 & ->); [discriminate|]. change (lessened 1) with 0%Z in *. change (0 =? 0)%Z with true. cbv iota.
    destruct (del_leaf f h1 b 0 W1 O1) as (h2 & -> & G2); [lia|]. cbn [bind]. inversion ND as [|? ? NA _]; subst.
    assert (NE : b <> a) by (intros ->; apply NA; left; auto).
    assert (G12 : gone h h2 [b]). { destruct G2 as (A1 & A2 & A3 & A4). split; [auto|]. split; [congruence|]. split; [auto|]. intros x X. rewrite A4 by auto. apply E1. intros ->. apply X. left. auto. }
    destruct (finish_view h2 a) as (h3 & E3 & G3); [apply G12| |].
    { eapply thing_ext; [|eapply thing_obj; [exact H1|discriminate]]. apply G12. intros [E|[]]. auto. }
    exists h3. split; [auto|]. eapply gone_perm; [|eapply gone_trans; eauto]. cbn. tauto.
  - cbn [levels addr_of] in *. rewrite blocks_arr in *. apply laid_arr in H as (H1 & H2 & H3). inversion ND as [|? ? NA ND1]; subst. inversion ND1 as [|? ? NL ND2]; subst.
    destruct f as [|[|f]]; [lia..|]. rewrite (trace_step (S f) h a _ _ _ H1) by discriminate. cbn [del_fields combine foldm].
    destruct (del_ref_view h l _ _ 1%Z (trace_del (S f)) Wh H2) as (h1 & W1 & N1 & O1 & E1 & ->); [discriminate|]. change (lessened 1) with 0%Z in *. change (0 =? 0)%Z with true. cbv iota.
    rewrite (trace_step f h1 l _ _ _ O1) by discriminate. cbn [del_fields].
    destruct (del_list es IH h1 f W1) as (h2 & -> & G2).
    + eapply static_keep; [exact SO| |exact E1]. eapply thing_obj; eauto. discriminate.
    + rewrite Forall_forall in *. intros e I. eapply laid_ext; [|apply H3; auto]. intros x X. split; auto. apply E1. intros ->. apply NL. apply in_flat_map. eauto.
    + auto.
    + lia.
    + cbn [bind]. destruct (finish_view h2 l) as (h3 & E3 & G3); [apply G2| |].
      { eapply thing_ext; [|eapply thing_obj; [exact O1|discriminate]]. apply G2. auto. }
      rewrite E3. cbn [bind]. destruct (finish_view h3 a) as (h4 & E4 & G4); [apply G3| |].
      { eapply thing_ext; [|eapply thing_obj; [exact H1|discriminate]]. destruct G2 as (_ & _ & _ & X2), G3 as (_ & _ & _ & X3).
        rewrite X3, X2, E1; auto; intros X; apply NA; [left; auto|right; auto|]. destruct X as [<-|[]]. left. auto. }
      exists h4. split; [auto|]. pose proof (gone_trans _ _ _ _ _ (gone_trans _ _ _ _ _ G2 G3) G4) as (A1 & A2 & A3 & A4).
      split; [auto|]. split; [congruence|]. split.
      * intros x X. apply A3. rewrite !in_app_iff. destruct X as [<-|[<-|X]]; cbn; auto.
      * intros x X. rewrite A4; [apply E1; intros ->; apply X; right; left; auto|]. rewrite !in_app_iff. cbn in *. tauto.
  - cbn [levels addr_of] in *. rewrite blocks_obj in *. apply laid_obj in H as (H1 & (ts & H2 & HP) & H3 & _ & H4).
    inversion ND as [|? ? NA ND1]; subst. inversion ND1 as [|? ? NM ND2]; subst. inversion ND2 as [|? ? NK ND3]; subst.
    destruct f as [|[|[|f]]]; [lia..|]. rewrite (trace_step (S (S f)) h a _ _ _ H1) by discriminate. cbn [del_fields combine foldm].
    destruct (del_ref_view h m _ _ 1%Z (trace_del (S (S f))) Wh H2) as (h1 & W1 & N1 & O1 & E1 & ->); [discriminate|]. change (lessened 1) with 0%Z in *. change (0 =? 0)%Z with true. cbv iota.
    rewrite (trace_step (S f) h1 m _ _ _ O1) by discriminate. cbn [del_fields map foldm del_e].
    assert (O1k : obj h1 ks (KList DEL_RC) (map (fun e => VPtr (e_key e)) es) 0).
    { eapply obj_ext; [discriminate| |exact H3]. apply E1. intros <-. apply NM. left. auto. }
    assert (EB : forall e, In e es -> forall x, In x (eblocks e) -> In x (flat_map eblocks es)). { intros e I x X. apply in_flat_map. eauto. }
    assert (LE : Forall (laid_entry c ss h1 2) es).
    { rewrite Forall_forall in *. intros e I. destruct (H4 e I) as (K1 & K2 & K3 & K4).
      assert (X : forall x, In x (eblocks e) -> look h1 x = look h x). { intros x X. apply E1. intros ->. apply NM. right. eauto. }
      split; [eapply obj_ext; [discriminate|apply X; left; auto|auto]|]. split; [auto|]. split; [eapply obj_ext; [discriminate|apply X; right; left; auto|auto]|].
      eapply laid_ext; [|exact K4]. intros x Y. split; auto. apply X. right. right. auto. }
    assert (S1 : static_ok h1 ss). { eapply static_keep; [exact SO| |exact E1]. eapply thing_obj; eauto. discriminate. }
    clear H4 SO. rewrite (trace_step f h1 ks _ _ _ O1k) by discriminate. cbn [del_fields].
    assert (NDK : NoDup (map e_key es) /\ (forall e, In e es -> forall x, In x (map e_key es) -> In x (e_pair e :: blocks (e_val e)) -> False)).
    { clear - ND3. induction es as [|e r IH]; cbn [map flat_map] in *; [split; [constructor|intros e []]|]. apply NoDup_app_l in ND3 as (N1 & N2 & DJ). destruct (IH N2) as (A & A').
      assert (KI : forall x, In x (map e_key r) -> In x (flat_map eblocks r)). { intros x X. apply in_map_iff in X as (e' & <- & X). apply in_flat_map. exists e'. split; [auto|left; auto]. }
      inversion N1 as [|? ? NI _]; subst. split.
      - constructor; auto. intros X. apply (DJ (e_key e)); [left; auto|auto].
      - intros e' [<-|I] x [<-|X] Y; [auto|apply (DJ x); [right; auto|auto]| |eapply A'; eauto].
        apply (DJ (e_key e)); [left; auto|]. apply in_flat_map. exists e'. split; [auto|right; auto]. }
    destruct NDK as (NDK & DJK).
    destruct (del_keys f es h1 W1 NDK) as (h2 & E2 & W2 & N2 & O2 & L2).
    { rewrite Forall_forall in *. intros e I. apply LE. auto. }
    rewrite E2. cbn [bind].
    assert (NKM : forall x, In x [a; m; ks] -> ~ In x (map e_key es)).
    { intros x X Y. apply in_map_iff in Y as (e & <- & Y). assert (Z : In (e_key e) (flat_map eblocks es)) by (eapply EB; eauto; left; auto).
      destruct X as [E|[E|[E|[]]]]; rewrite <- E in Z; [apply NA; right; right; auto|apply NM; right; auto|auto]. }
    destruct (finish_view h2 ks) as (h3 & E3 & G3); [auto| |].
    { eapply thing_ext; [|eapply thing_obj; [exact O1k|discriminate]]. apply L2. apply NKM. cbn. auto. }
    rewrite E3. cbn [bind].
    assert (X3 : forall x, ~ In x (map e_key es) -> x <> ks -> look h3 x = look h1 x).
    { intros x X Y. destruct G3 as (_ & _ & _ & G3). rewrite G3 by (intros [Z|[]]; auto). apply L2. auto. }
    assert (LE3 : Forall (laid_entry c ss h3 1) es).
    { rewrite Forall_forall in *. intros e I. destruct (LE e I) as (K1 & K2 & K3 & K4).
      assert (X : forall x, In x (e_pair e :: blocks (e_val e)) -> look h3 x = look h1 x).
      { intros x X. apply X3; [intros Y; eapply DJK; eauto|]. intros ->. apply NK. eapply EB; eauto. right. auto. }
      split; [|split; [auto|split; [eapply obj_ext; [discriminate|apply X; left; auto|auto]|eapply laid_ext; [|exact K4]; intros x Y; split; auto; apply X; right; auto]]].
      eapply obj_ext; [discriminate| |apply O2; auto]. apply G3. intros [Y|[]]. apply (NKM ks); [cbn; auto|]. rewrite Y. apply in_map. auto. }
    assert (TE : Forall (thing h1) (map e_key es)).
    { rewrite Forall_forall in *. intros x X. apply in_map_iff in X as (e & <- & X). destruct (LE e X) as (K1 & _). eapply thing_obj; eauto. discriminate. }
    assert (S3 : static_ok h3 ss).
    { intros x I. destruct (S1 x I) as (q & O). apply static_obj. rewrite X3; [eapply obj_static; eauto| |].
      - intros X. rewrite Forall_forall in TE. apply (static_thing h1 ss x x); auto.
      - intros ->. apply (static_thing h1 ss ks ks); auto. eapply thing_obj; [exact O1k|discriminate]. }
    destruct (perm_map_inv _ _ _ HP) as (es' & PM & ->).
    destruct (del_pairs es') with (h := h3) (f := S f) as (h4 & E4 & G4).
    + eapply Permutation_Forall; [apply Permutation_sym; exact PM|exact IH].
    + apply G3.
    + auto.
    + eapply Permutation_Forall; [apply Permutation_sym; exact PM|exact LE3].
    + eapply Permutation_NoDup; [|exact ND3]. apply Permutation_flat_map. apply Permutation_sym. auto.
    + assert (list_max (map (fun e => levels (e_val e)) es') = list_max (map (fun e => levels (e_val e)) es)) as ->.
      { apply Nat.le_antisymm; (apply list_max_le; rewrite Forall_forall; intros x X; apply in_map_iff in X as (e & <- & X); apply list_max_ge; apply (in_map (fun e => levels (e_val e)))).
        - eapply Permutation_in; eauto.
        - eapply Permutation_in; [apply Permutation_sym|]; eauto. }
      change (map (fun e : text * addr * addr * layout => levels (e_val e)) es) with (map (fun e : text * addr * addr * layout => levels (snd e)) es). lia.
    + rewrite E4. cbn [bind].
      assert (FB : forall x, In x (flat_map eblocks es') <-> In x (flat_map eblocks es)).
      { intros x. split; apply Permutation_in; apply Permutation_flat_map; [auto|apply Permutation_sym; auto]. }
      pose proof (gone_perm _ _ _ _ FB G4) as G4'. clear G4. rename G4' into G4.
      destruct (finish_view h4 m) as (h5 & E5 & G5); [apply G4| |].
      { eapply thing_ext; [|eapply thing_obj; [exact O1|discriminate]]. destruct G4 as (_ & _ & _ & G4). rewrite G4, X3; [auto|apply NKM; cbn; auto| |].
        - intros ->. apply NM. left. auto.
        - intros X. apply NM. right. auto. }
      rewrite E5. cbn [bind].
      destruct (finish_view h5 a) as (h6 & E6 & G6); [apply G5| |].
      { eapply thing_ext; [|eapply thing_obj; [exact H1|discriminate]]. destruct G4 as (_ & _ & _ & G4), G5 as (_ & _ & _ & G5).
        rewrite G5, G4, X3, E1; [auto| |apply NKM; cbn; auto| | |]; intros X; apply NA.
        - left. auto.
        - right. left. auto.
        - right. right. auto.
        - destruct X as [X|[]]. left. auto. }
      exists h6. split; [auto|]. pose proof (gone_trans _ _ _ _ _ (gone_trans _ _ _ _ _ (gone_trans _ _ _ _ _ G3 G4) G5) G6) as (A1 & A2 & A3 & A4).
      split; [auto|]. split; [congruence|]. split.
      * intros x X. apply A3. rewrite !in_app_iff. cbn in *. tauto.
      * intros x X. rewrite A4; [|rewrite !in_app_iff; cbn in *; tauto]. rewrite L2; [apply E1; intros ->; apply X; right; left; auto|].
        intros Y. apply X. apply in_map_iff in Y as (e & <- & Y). right. right. right. eapply EB; eauto. left. auto.
Qed.

(** The whole value *)
Theorem del_stored h f L n : W h -> static_ok h ss -> laid h c ss n L -> NoDup (blocks L) -> levels L <= f ->
  exists h', cee_del f h (ptr ss L) = Ok h' /\ gone h h' (blocks L).
Proof.
  intros Wh SO H ND F. destruct L as [x|a b x|a l es|a m ks es]; [|refine (deletable_all _ _ h f n Wh SO H ND F); exact I..].
  exists h. split; [|apply gone_nil; auto]. cbn [levels] in F. destruct f as [|f]; [lia|].
  assert (ST : forall a, In a [s_true ss; s_false ss; s_null ss] -> cee_del (S f) h (VPtr a) = Ok h).
  { intros a I. destruct (SO a I) as (q & b & G & B & _). unfold cee_del. cbn [del_e trace_del]. unfold get. rewrite G. cbn [bind]. rewrite B. auto. }
  destruct H as [->|[->| ->]]; cbn [ptr]; apply ST; cbn; auto.
Qed.
End Del.
