(** cee_map_add on the object of a JSON value *)
From Coq Require Import ZArith List Bool Lia Permutation.
From Verif Require Import Base Json JsonTokModel JsonParseModel HeapModel HeapChainProofs HeapHistory JsonMemModel JsonMemSpec JsonMemView JsonMemDel JsonMemOps.
From Verif Require JsonParseProofs.
Import ListNotations.
Open Scope nat_scope.
Open Scope outcome_scope.
Local Arguments Z.add : simpl never.
Local Arguments Z.sub : simpl never.
Local Arguments Z.eqb : simpl never.
Local Arguments core : simpl never.

Definition ents (es : list (text * addr * addr * layout)) : list (text * json) := map (fun e => (e_name e, json_of (e_val e))) es.
Lemma put_new : forall es name v, ~ In name (map e_name es) -> obj_put (ents es) name v = ents es ++ [(name, v)].
Proof.
  induction es as [|e r IH]; intros name v NI; cbn [ents map obj_put app]; [auto|]. cbn [map] in NI.
  destruct (text_eqb name (e_name e)) eqn:E; [apply JsonParseProofs.text_eqb_iff in E; subst; destruct NI; left; auto|].
  f_equal. apply IH. intros X. apply NI. right. auto.
Qed.
Lemma put_old : forall es1 e es2 v, ~ In (e_name e) (map e_name es1) -> obj_put (ents (es1 ++ e :: es2)) (e_name e) v = ents es1 ++ (e_name e, v) :: ents es2.
Proof.
  induction es1 as [|e1 r IH]; intros e es2 v NI; cbn [ents map obj_put app].
  - rewrite JsonParseProofs.text_eqb_refl. auto.
  - cbn [map] in NI. destruct (text_eqb (e_name e) (e_name e1)) eqn:E; [apply JsonParseProofs.text_eqb_iff in E; destruct NI; left; auto|].
    f_equal. apply IH. intros X. apply NI. right. auto.
Qed.

Section Add.
Variables (st : addr) (ss : statics).
Notation W := (W st).

(** Removing the tuple that was not needed *)
Lemma drop_view h t k v deep : W h -> obj h t (KProd [DEL_RC; DEL_RC]) [VPtr k; v] 0 -> obj h k KLeaf [] 1 -> 2 <= deep -> t <> k ->
  exists h1 h2, update_policy h t 1 NOOP = Ok h1 /\ cee_del deep h1 (VPtr t) = Ok h2 /\ gone st h h2 [t; k].
Proof.
  intros Wh O K D NE. destruct deep as [|[|deep]]; [lia..|].
  destruct (policy_view st h t _ _ _ 1 NOOP Wh O) as (h1 & E1 & W1 & N1 & O1 & X1). exists h1.
  unfold cee_del. cbn [del_e]. rewrite (trace_step (S deep) h1 t _ _ _ O1) by discriminate. cbn [update del_fields combine foldm].
  assert (K1 : obj h1 k KLeaf [] 1) by (eapply obj_ext; [discriminate|apply X1; auto|auto]).
  destruct (del_ref_view st h1 k KLeaf [] 1%Z (trace_del (S deep)) W1 K1) as (h2 & W2 & N2 & O2 & X2 & ->); [discriminate|].
  change (lessened 1) with 0%Z in *. change (0 =? 0)%Z with true. cbv iota.
  destruct (del_leaf st (S deep) h2 k 0 W2 O2) as (h3 & -> & G3); [lia|]. cbn [bind del_e].
  destruct (finish_view st h3 t) as (h4 & E4 & G4); [apply G3| |].
  { eapply thing_ext; [|eapply thing_obj; [exact O1|discriminate]]. destruct G3 as (_ & _ & _ & G3). rewrite G3; [apply X2; auto|]. intros [E|[]]. auto. }
  exists h4. split; [auto|]. split; [auto|]. pose proof (gone_trans _ _ _ _ _ _ G3 G4) as (A1 & A2 & A3 & A4). split; [auto|]. split; [congruence|]. split.
  - intros x I. apply A3. cbn in *. tauto.
  - intros x I. cbn in *. rewrite A4, X2, X1; try tauto; intros ->; tauto.
Qed.

(** Replacing the value of an entry *)
Lemma ptr_same L Lo h c n n' : static_ok h ss -> laid h c ss n L -> laid h c ss n' Lo -> (forall x, In x (blocks L) -> In x (blocks Lo) -> False) -> ptr ss L = ptr ss Lo -> ~ boxed Lo.
Proof.
  intros SO H Ho DJ E BO. rewrite (ptr_boxed ss Lo BO) in E. pose proof (addr_in Lo BO) as IO.
  pose proof (laid_things _ _ _ _ _ Ho) as TO. rewrite Forall_forall in TO.
  assert (BX : boxed L \/ exists x, L = LConst x) by (destruct L; eauto; left; exact I). destruct BX as [B|(x & ->)].
  - rewrite ptr_boxed in E by auto. injection E as E. apply (DJ (addr_of L)); [apply addr_in; auto|rewrite E; auto].
  - assert (I : exists a, In a [s_true ss; s_false ss; s_null ss] /\ ptr ss (LConst x) = VPtr a).
    { destruct H as [->|[->| ->]]; cbn [ptr]; eexists; (split; [|reflexivity]); cbn; auto. }
    destruct I as (a & I & E'). rewrite E' in E. injection E as ->. apply (static_thing h ss (addr_of Lo) (addr_of Lo)); auto.
Qed.
Lemma swap_view h c t k L Lo : W h -> static_ok h ss -> obj h t (KProd [DEL_RC; DEL_RC]) [VPtr k; ptr ss Lo] 0 -> laid h c ss 1 L -> laid h c ss 1 Lo ->
  NoDup (blocks Lo) -> ~ In t (blocks Lo) -> (forall x, In x (blocks L) -> In x (blocks Lo) -> False) ->
  exists h', (if val_eqb (ptr ss L) (ptr ss Lo) then Ok h
              else let* h := put_vals h t (KProd [DEL_RC; DEL_RC]) [VPtr k; ptr ss L] in decr_indegree h DEL_RC (ptr ss Lo)) = Ok h' /\
    W h' /\ h_next h' = h_next h /\ obj h' t (KProd [DEL_RC; DEL_RC]) [VPtr k; ptr ss L] 0 /\ laid h' c ss 0 Lo /\
    (forall x, ~ In x (t :: blocks Lo) -> look h' x = look h x).
Proof.
  intros Wh SO O H Ho ND NI DJ. destruct (val_eqb (ptr ss L) (ptr ss Lo)) eqn:E.
  - assert (E' : ptr ss L = ptr ss Lo).
    { destruct (ptr ss L), (ptr ss Lo); cbn in E; try discriminate; auto. apply Nat.eqb_eq in E. congruence. }
    exists h. split; [auto|]. split; [auto|]. split; [auto|]. split; [congruence|]. split; [|auto].
    pose proof (ptr_same L Lo h c 1%Z 1%Z SO H Ho DJ E') as NB. destruct Lo; [exact Ho|destruct NB; exact I..].
  - destruct (put_view st h t _ _ _ (KProd [DEL_RC; DEL_RC]) [VPtr k; ptr ss L] Wh O) as (h1 & -> & W1 & N1 & O1 & X1); [discriminate..|]. cbn [bind].
    destruct (decr_laid st ss h1 c Lo W1) as (h2 & -> & W2 & N2 & H2 & X2); auto.
    + eapply static_keep; [exact SO|eapply thing_obj; [exact O|discriminate]|exact X1].
    + eapply laid_ext; [|exact Ho]. intros x X. split; auto. apply X1. intros ->. auto.
    + exists h2. split; [auto|]. split; [auto|]. split; [congruence|]. split; [eapply obj_ext; [discriminate|apply X2; auto|auto]|]. split; [auto|].
      intros x X. cbn in X. rewrite X2, X1; auto.
Qed.

Variables (place : heap -> addr -> nat) (deep : nat).
Definition fits (x : ctx) (name : text) (es : list (text * addr * addr * layout)) : Prop :=
  match x with
  | XArr _ _ _ => False
  | XObj _ _ _ es1 n _ _ es2 => n = name /\ forall v, obj_put (ents es) name v = ents es1 ++ (name, v) :: ents es2
  end.
Lemma add_view_full h c a m ks es k name L n : W h -> static_ok h ss -> 2 <= deep -> laid h c ss n (LObj a m ks es) -> obj h k KLeaf [] 0 -> c k = JStr name ->
  laid h c ss 0 L -> NoDup (blocks (LObj a m ks es) ++ k :: blocks L) ->
  exists h' x ds, add_to_object place deep h c (VPtr m) (VPtr k) (ptr ss L) = Ok h' /\ W h' /\ h_next h' = S (h_next h) /\ xaddr x = a /\ fits x name es /\
    lx h' c ss n (ptr ss L) x /\ laid h' c ss 1 L /\ Forall (laid h' c ss 0) ds /\
    (forall y, ~ In y (h_next h :: k :: blocks (LObj a m ks es) ++ blocks L) -> look h' y = look h y) /\
    ((~ In name (map e_name es) /\ ds = [] /\ (forall y, occ y (xblocks x) = occ y (blocks (LObj a m ks es)) + occ y [k; h_next h]) /\ x = XObj a m ks es name k (h_next h) []) \/
     (In name (map e_name es) /\ look h' k = None /\ look h' (h_next h) = None /\ (forall y, occ y (xblocks x) + occ y (flat_map blocks ds) = occ y (blocks (LObj a m ks es))) /\
      exists es1 e es2, es = es1 ++ e :: es2 /\ e_name e = name /\ ds = [e_val e] /\ x = XObj a m ks es1 name (e_key e) (e_pair e) es2)).
Proof.
  intros Wh SO DP H K CK HL ND. pose proof H as HH. apply NoDup_app_l in ND as (ND1 & ND2 & DJ). inversion ND2 as [|? ? NK ND3]; subst.
  assert (LTk : k < h_next h) by (apply (thing_lt st); auto; eapply thing_obj; eauto; discriminate).
  assert (LTB : forall y, In y (blocks (LObj a m ks es)) -> y < h_next h) by (intros y Y; exact (laid_lt st ss h c n _ y Wh H Y)).
  assert (LTL : forall y, In y (blocks L) -> y < h_next h) by (intros y Y; exact (laid_lt st ss h c 0%Z _ y Wh HL Y)).
  apply laid_obj in H as (H1 & (ts & H2 & HP) & H3 & HN & H4).
  unfold add_to_object. cbn [target bind]. unfold map_add.
  destruct (obj_state st h m _ _ _ Wh H2) as (b & G & B & S); [discriminate|]. unfold get at 1. rewrite G. cbn [bind]. rewrite B, S. clear b G B S.
  destruct (pair_view st ss h c k L Wh SO K HL ND2) as (h1 & -> & W1 & N1 & T1 & K1 & L1 & X1). cbn [bind].
  assert (XB : forall y, In y (blocks (LObj a m ks es)) -> look h1 y = look h y).
  { intros y Y. apply X1. intros [E|[E|E]]; [specialize (LTB y Y); lia|apply (DJ y Y); left; auto|apply (DJ y Y); right; auto]. }
  assert (HH1 : laid h1 c ss n (LObj a m ks es)) by (eapply laid_ext; [|exact HH]; intros y Y; split; auto).
  apply laid_obj in HH1 as (A1 & _ & A3 & _ & A4).
  assert (A2 : obj h1 m (KMap DEL_RC DEL_RC) (VPtr ks :: ts) 1). { eapply obj_ext; [discriminate| |exact H2]. apply XB. right. left. auto. }
  clear HH H1 H2 H3 H4. rewrite (get_obj_of _ _ _ _ _ A2). cbn [bind tl].
  assert (SO1 : static_ok h1 ss).
  { apply (static_away h h1 ss (h_next h :: k :: blocks L)); auto. intros x [<-|[<-|X]]; [right; apply (W_fresh st); auto|left; eapply thing_obj; eauto; discriminate|].
    left. apply laid_things in HL. rewrite Forall_forall in HL. auto. }
  destruct (perm_map_inv _ _ _ HP) as (es' & PM & ->).
  destruct (find_view h1 c k name es' CK) as [(NI & ->)|(e & IE & EN & ->)].
  { rewrite Forall_forall in *. intros e I. destruct (A4 e) as (B1 & B2 & B3 & B4); [eapply Permutation_in; eauto|]. split; [eauto|auto]. }
  - (* a new name *)
    assert (NI' : ~ In name (map e_name es)). { intros X. apply NI. eapply Permutation_in; [|exact X]. apply Permutation_map. apply Permutation_sym. auto. }
    cbn [bind]. set (pos := place h m). set (ts := map _ es').
    destruct (put_view st h1 m _ _ _ (KMap DEL_RC DEL_RC) (VPtr ks :: firstn pos ts ++ VPtr (h_next h) :: skipn pos ts) W1 A2) as (h2 & -> & W2 & N2 & O2 & X2); [discriminate..|].
    cbn [bind target]. rewrite blocks_obj in *. inversion ND1 as [|? ? NA ND1']; subst. inversion ND1' as [|? ? NM ND1'']; subst. inversion ND1'' as [|? ? NKs ND4]; subst.
    assert (MKS : m <> ks) by (intros ->; apply NM; left; auto).
    assert (O3 : obj h2 ks (KList DEL_RC) (map (fun e => VPtr (e_key e)) es) 0) by (eapply obj_ext; [discriminate|apply X2; auto|exact A3]).
    unfold list_append. rewrite (get_obj_of _ _ _ _ _ O3). cbn [bind].
    destruct (put_view st h2 ks _ _ _ (KList DEL_RC) (map (fun e => VPtr (e_key e)) es ++ [VPtr k]) W2 O3) as (h3 & -> & W3 & N3 & O4 & X3); [discriminate..|]. cbn [bind].
    assert (KM : k <> m /\ k <> ks). { split; intros ->; [apply (DJ m)|apply (DJ ks)]; cbn; auto. }
    assert (K3 : obj h3 k KLeaf [] 1). { eapply obj_ext; [discriminate|apply X3; apply KM|]. eapply obj_ext; [discriminate|apply X2; apply KM|auto]. }
    destruct (incr_view st h3 k _ _ _ W3 K3) as (h4 & -> & W4 & N4 & O5 & X4); [discriminate|]. cbn [bind].
    assert (X14 : forall y, ~ In y [m; ks; k] -> look h4 y = look h1 y). { intros y Y. cbn in Y. rewrite X4, X3, X2; auto; intros ->; tauto. }
    exists h4, (XObj a m ks es name k (h_next h) []), []. split; [auto|]. split; [auto|]. split; [congruence|]. split; [auto|].
    split; [split; [auto|intros v; apply put_new; auto]|].
    assert (AN : ~ In a [m; ks; k]). { intros [E|[E|[E|[]]]]; [apply NA; left; auto|apply NA; right; left; auto|apply (DJ a); [left; auto|left; auto]]. }
    assert (FN : ~ In (h_next h) [m; ks; k]).
    { intros [E|[E|[E|[]]]]; [specialize (LTB m); rewrite E in LTB; cbn in LTB; lia|specialize (LTB ks); rewrite E in LTB; cbn in LTB; lia|lia]. }
    assert (EX : Forall (laid_entry c ss h4 2) es).
    { rewrite Forall_forall in *. intros e I. eapply entry_ext; [|apply A4; auto]. intros y Y. split; auto. apply X14.
      assert (IY : In y (flat_map eblocks es)) by (apply in_flat_map; eauto).
      intros [E|[E|[E|[]]]]; subst y; [apply NM; right; auto|auto|apply (DJ k); [right; right; right; auto|left; auto]]. }
    split; [|split; [|split; [constructor|split; [|left; split; [auto|split; [auto|]]]]]].
    + cbn [lx]. split; [eapply obj_ext; [discriminate|apply X14; auto|auto]|].
      split. { exists (firstn pos ts ++ VPtr (h_next h) :: skipn pos ts). split.
        - eapply obj_ext; [discriminate| |exact O2]. rewrite X4 by (intros E; apply (proj1 KM); auto). apply X3. auto.
        - rewrite <- Permutation_middle. rewrite firstn_skipn. cbn [map]. apply (Permutation_trans (l' := VPtr (h_next h) :: map (fun e => VPtr (e_pair e)) es)); [constructor; unfold ts; auto|].
          apply Permutation_cons_append. }
      split; [eapply obj_ext; [discriminate|apply X4; intros E; apply (proj2 KM); auto|exact O4]|].
      split. { cbn [map]. apply (Permutation_NoDup (l := name :: map e_name es)); [apply Permutation_cons_append|]. constructor; auto. }
      split; [auto|]. split; [constructor|]. split; [exact O5|]. split; [auto|]. eapply obj_ext; [discriminate|apply X14; auto|auto].
    + eapply laid_ext; [|exact L1]. intros y Y. split; auto. apply X14. intros [E|[E|[E|[]]]]; subst y; [apply (DJ m)|apply (DJ ks)|apply NK; auto]; cbn; auto.
    + intros y Y. cbn [In] in Y. rewrite in_app_iff in Y. rewrite X14, X1; auto; cbn in *; tauto.
    + split; [|reflexivity]. intros y. cbn [xblocks]. occs. lia.
  - (* a name that was there *)
    assert (IE' : In e es) by (eapply Permutation_in; eauto). apply in_split in IE' as (es1 & es2 & ->). clear IE.
    cbn [bind target]. apply Forall_app in A4 as (A4 & A5). inversion A5 as [|? ? (E1 & E2 & E3 & E4) A6]; subst. clear A5.
    rewrite (get_obj_of _ _ _ _ _ E3). cbn [bind nth_error of_option update].
    set (Lo := e_val e) in *. set (t := e_pair e) in *. set (ko := e_key e) in *.
    assert (EB : forall y, occ y (blocks (LObj a m ks (es1 ++ e :: es2))) = occ y [a; m; ks] + occ y (flat_map eblocks es1) + occ y (flat_map eblocks es2) + occ y [ko; t] + occ y (blocks Lo)).
    { intros y. rewrite blocks_obj. occs. unfold eblocks at 2. occs. fold t ko Lo. lia. }
    pose proof ND1 as OC. rewrite nodup_occ in OC.
    assert (NTL : ~ In t (blocks Lo)). { intros X. rewrite occ_in in X. specialize (OC t). rewrite EB in OC. occs. rewrite Nat.eqb_refl in OC. cbn [Nat.b2n] in OC. lia. }
    assert (NDo : NoDup (blocks Lo)). { rewrite nodup_occ. intros y. specialize (OC y). rewrite EB in OC. lia. }
    assert (INo : forall y, In y (t :: blocks Lo) -> In y (blocks (LObj a m ks (es1 ++ e :: es2)))).
    { intros y Y. rewrite occ_in, EB. rewrite occ_in in Y. occs. lia. }
    destruct (swap_view h1 c t ko L Lo W1 SO1 E3 L1 E4 NDo NTL) as (h2 & -> & W2 & N2 & O2 & D2 & X2).
    { intros x X Y. apply (DJ x); [apply INo; right; auto|right; auto]. }
    cbn [bind].
    assert (TF : forall y, In y [h_next h; k] -> ~ In y (t :: blocks Lo)).
    { intros y [<-|[<-|[]]] Y; apply INo in Y; [specialize (LTB _ Y); lia|apply (DJ k Y); left; auto]. }
    destruct (drop_view h2 (h_next h) k (ptr ss L) deep W2) as (h3 & h4 & -> & E5 & G4).
    + eapply obj_ext; [discriminate|apply X2; apply TF; cbn; auto|auto].
    + eapply obj_ext; [discriminate|apply X2; apply TF; cbn; auto|auto].
    + auto.
    + lia.
    + cbn [bind]. rewrite E5. cbn [bind]. destruct G4 as (W4 & N4 & D4 & X4).
      exists h4, (XObj a m ks es1 (e_name e) ko t es2), [Lo]. split; [auto|]. split; [auto|]. split; [congruence|]. split; [auto|].
      rewrite map_app in HN. cbn [map] in HN. pose proof HN as HN0. apply NoDup_app_l in HN0 as (_ & _ & HN0).
      split; [split; [auto|intros v; apply put_old; intros X; apply (HN0 _ X); left; auto]|].
      assert (FR : forall y, In y (blocks (LObj a m ks (es1 ++ e :: es2))) -> ~ In y [h_next h; k]).
      { intros y Y [E|[E|[]]]; subst y; [specialize (LTB _ Y); lia|apply (DJ k Y); left; auto]. }
      assert (KEEP : forall y, 0 < occ y [a; m; ks] + occ y (flat_map eblocks es1) + occ y (flat_map eblocks es2) + occ y [ko] -> look h4 y = look h1 y).
      { intros y Y. assert (IY : In y (blocks (LObj a m ks (es1 ++ e :: es2)))) by (rewrite occ_in, EB; occs; lia).
        rewrite X4 by (apply FR; auto). apply X2. intros Z. rewrite occ_in in Z. specialize (OC y). rewrite EB in OC. occs. lia. }
      assert (KA : forall y, In y [a; m; ks; ko] -> look h4 y = look h1 y). { intros y Y. apply KEEP. rewrite occ_in in Y. occs. lia. }
      split; [|split; [|split; [constructor; [|constructor]|split; [|right; split; [rewrite map_app; apply in_app_iff; right; left; auto|split; [apply D4; cbn; auto|split; [apply D4; cbn; auto|]]]]]]].
      * cbn [lx]. split; [eapply obj_ext; [discriminate|apply KA; cbn; auto|auto]|].
        split. { exists (map (fun e => VPtr (e_pair e)) es'). split; [eapply obj_ext; [discriminate|apply KA; cbn; auto|auto]|]. rewrite HP, map_app. auto. }
        split. { eapply obj_ext; [discriminate|apply KA; cbn; auto|]. rewrite map_app in A3. exact A3. }
        split; [auto|]. split. { rewrite Forall_forall in *. intros e' I. eapply entry_ext; [|apply A4; auto]. intros y Y. split; auto. apply KEEP.
          assert (Z : In y (flat_map eblocks es1)) by (apply in_flat_map; eauto). rewrite occ_in in Z. lia. }
        split. { rewrite Forall_forall in *. intros e' I. eapply entry_ext; [|apply A6; auto]. intros y Y. split; auto. apply KEEP.
          assert (Z : In y (flat_map eblocks es2)) by (apply in_flat_map; eauto). rewrite occ_in in Z. lia. }
        split; [eapply obj_ext; [discriminate|apply KA; cbn; auto|auto]|]. split; [auto|].
        eapply obj_ext; [discriminate| |exact O2]. apply X4. apply FR. apply INo. left. auto.
      * eapply laid_ext; [|exact L1]. intros y Y. split; auto. rewrite X4, X2; auto.
        -- intros Z. apply INo in Z. apply (DJ y Z). right. auto.
        -- intros [E|[E|[]]]; subst y; [specialize (LTL _ Y); lia|auto].
      * eapply laid_ext; [|exact D2]. intros y Y. split; auto. apply X4. apply FR. apply INo. right. auto.
      * intros y Y. cbn [In] in Y. rewrite in_app_iff in Y. rewrite X4, X2, X1; [auto| | |]; cbn [In]; try tauto.
        intros Z. apply INo in Z. tauto.
      * split; [|exists es1, e, es2; auto]. intros y. rewrite EB. cbn [xblocks]. occs. lia.
Qed.
Lemma add_view h c a m ks es k name L n : W h -> static_ok h ss -> 2 <= deep -> laid h c ss n (LObj a m ks es) -> obj h k KLeaf [] 0 -> c k = JStr name ->
  laid h c ss 0 L -> NoDup (blocks (LObj a m ks es) ++ k :: blocks L) ->
  exists h' x ds, add_to_object place deep h c (VPtr m) (VPtr k) (ptr ss L) = Ok h' /\ W h' /\ h_next h' = S (h_next h) /\ xaddr x = a /\ fits x name es /\
    lx h' c ss n (ptr ss L) x /\ laid h' c ss 1 L /\ Forall (laid h' c ss 0) ds /\
    (forall y, ~ In y (h_next h :: k :: blocks (LObj a m ks es) ++ blocks L) -> look h' y = look h y) /\
    ((~ In name (map e_name es) /\ ds = [] /\ forall y, occ y (xblocks x) = occ y (blocks (LObj a m ks es)) + occ y [k; h_next h]) \/
     (In name (map e_name es) /\ look h' k = None /\ look h' (h_next h) = None /\ forall y, occ y (xblocks x) + occ y (flat_map blocks ds) = occ y (blocks (LObj a m ks es)))).
Proof.
  intros Wh SO DP H K CK HL ND. destruct (add_view_full h c a m ks es k name L n Wh SO DP H K CK HL ND) as (h' & x & ds & E & A1 & A2 & A3 & A4 & A5 & A6 & A7 & A8 & CASES).
  exists h', x, ds. split; [exact E|]. split; [exact A1|]. split; [exact A2|]. split; [exact A3|]. split; [exact A4|]. split; [exact A5|]. split; [exact A6|]. split; [exact A7|]. split; [exact A8|].
  destruct CASES as [(B1 & B2 & B3 & _)|(B1 & B2 & B3 & B4 & _)]; auto.
Qed.
End Add.
