(** What the operations of JsonEditModel do to the values in memory *)
From Coq Require Import ZArith List Bool Lia Permutation.
From Verif Require Import Base Json HeapModel HeapChainProofs HeapHistory JsonMemModel JsonMemSpec JsonMemView JsonMemDel JsonMemOps JsonMemAdd JsonMemRun
  JsonEditModel JsonEditSpec.
From Verif Require JsonParseProofs.
Import ListNotations.
Open Scope nat_scope.
Open Scope outcome_scope.
Local Arguments Z.add : simpl never.
Local Arguments Z.sub : simpl never.
Local Arguments Z.eqb : simpl never.
Local Arguments core : simpl never.

(** * Parts of a value *)
(** [focus L p F G R]: the part of [L] at [p] is [F]; [G F'] is [L] with [F'] in
    its place; [R] are the other objects of [L]. *)
Inductive focus : layout -> list step -> layout -> (layout -> layout) -> list addr -> Prop :=
| fo_here L : focus L [] L (fun x => x) []
| fo_index a l es1 e es2 p F G R : focus e p F G R ->
    focus (LArr a l (es1 ++ e :: es2)) (AtIndex (length es1) :: p) F (fun x => LArr a l (es1 ++ G x :: es2))
      (a :: l :: flat_map blocks es1 ++ R ++ flat_map blocks es2)
| fo_name a m ks es1 e es2 p F G R : focus (e_val e) p F G R ->
    focus (LObj a m ks (es1 ++ e :: es2)) (AtName (e_name e) :: p) F (fun x => LObj a m ks (es1 ++ (e_name e, e_key e, e_pair e, G x) :: es2))
      (a :: m :: ks :: flat_map eblocks es1 ++ e_key e :: e_pair e :: R ++ flat_map eblocks es2).

Lemma entry_eta (e : text * addr * addr * layout) : (e_name e, e_key e, e_pair e, e_val e) = e.
Proof. destruct e as (((n & k) & t) & L). reflexivity. Qed.
Lemma focus_self L p F G R : focus L p F G R -> G F = L.
Proof.
  induction 1 as [L|a l es1 e es2 p F G R _ IH|a m ks es1 e es2 p F G R _ IH]; [auto|rewrite IH; auto|]. rewrite IH, entry_eta. auto.
Qed.
Lemma focus_blocks L p F G R : focus L p F G R -> forall F' y, occ y (blocks (G F')) = occ y R + occ y (blocks F').
Proof.
  induction 1 as [L|a l es1 e es2 p F G R _ IH|a m ks es1 e es2 p F G R _ IH]; intros F' y.
  - rewrite occ_nil. lia.
  - rewrite blocks_arr. occs. rewrite IH. lia.
  - rewrite blocks_obj. occs. change (eblocks (e_name e, e_key e, e_pair e, G F')) with (e_key e :: e_pair e :: blocks (G F')). occs. rewrite IH. lia.
Qed.
Lemma focus_ptr L p F G R ss F' : focus L p F G R -> ptr ss F' = ptr ss F -> ptr ss (G F') = ptr ss L.
Proof. destruct 1; intros E; auto. Qed.
Lemma focus_laid h c ss L p F G R : focus L p F G R -> forall n, laid h c ss n L ->
  exists n', laid h c ss n' F /\ forall h' c' F', laid h' c' ss n' F' -> ptr ss F' = ptr ss F ->
    (forall x, In x R -> look h' x = look h x /\ c' x = c x) -> laid h' c' ss n (G F').
Proof.
  induction 1 as [L|a l es1 e es2 p F G R FO IH|a m ks es1 e es2 p F G R FO IH]; intros n H.
  - exists n. split; [auto|]. auto.
  - apply laid_arr in H as (H1 & H2 & H3). apply Forall_app in H3 as (H3 & H4). apply Forall_cons_iff in H4 as (H4 & H5).
    destruct (IH 1%Z H4) as (n' & HF & REST). exists n'. split; [auto|]. intros h' c' F' HF' EP U.
    apply laid_arr. split; [eapply obj_ext; [discriminate|apply U; left; auto|auto]|].
    split. { eapply obj_ext; [discriminate|apply U; right; left; auto|]. rewrite map_app in *. cbn [map] in *. rewrite (focus_ptr _ _ _ _ _ ss F' FO EP). auto. }
    apply Forall_app. split; [|constructor].
    + rewrite Forall_forall in *. intros x I. eapply laid_ext; [|apply H3; auto]. intros y Y. apply U. right. right. apply in_app_iff. left. apply in_flat_map. eauto.
    + apply REST; auto. intros x X. apply U. right. right. apply in_app_iff. right. apply in_app_iff. auto.
    + rewrite Forall_forall in *. intros x I. eapply laid_ext; [|apply H5; auto]. intros y Y. apply U. right. right. apply in_app_iff. right. apply in_app_iff. right. apply in_flat_map. eauto.
  - apply laid_obj in H as (H1 & (ts & H2 & HP) & H3 & HN & H4). apply Forall_app in H4 as (H4 & H5). apply Forall_cons_iff in H5 as ((E1 & E2 & E3 & E4) & H6).
    destruct (IH 1%Z E4) as (n' & HF & REST). exists n'. split; [auto|]. intros h' c' F' HF' EP U.
    assert (UK : forall x, In x [e_key e; e_pair e] -> look h' x = look h x /\ c' x = c x).
    { intros x X. apply U. right. right. right. apply in_app_iff. right. destruct X as [<-|[<-|[]]]; cbn; auto. }
    apply laid_obj. split; [eapply obj_ext; [discriminate|apply U; left; auto|auto]|].
    split. { exists ts. split; [eapply obj_ext; [discriminate|apply U; right; left; auto|auto]|]. rewrite map_app in *. exact HP. }
    split. { eapply obj_ext; [discriminate|apply U; right; right; left; auto|]. rewrite map_app in *. exact H3. }
    split. { rewrite map_app in *. exact HN. }
    apply Forall_app. split; [|constructor].
    + rewrite Forall_forall in *. intros x I. eapply entry_ext; [|apply H4; auto]. intros y Y. apply U. right. right. right. apply in_app_iff. left. apply in_flat_map. eauto.
    + split; [eapply obj_ext; [discriminate|apply UK; left; auto|auto]|]. split; [change (c' (e_key e) = JStr (e_name e)); destruct (UK (e_key e)) as (_ & ->); [left; auto|auto]|].
      split.
      * change (obj h' (e_pair e) (KProd [DEL_RC; DEL_RC]) [VPtr (e_key e); ptr ss (G F')] 0). rewrite (focus_ptr _ _ _ _ _ ss F' FO EP). eapply obj_ext; [discriminate|apply UK; right; left; auto|auto].
      * unfold e_val. cbn [snd]. apply REST; auto. intros x X. apply U. right. right. right. apply in_app_iff. right. right. right. apply in_app_iff. auto.
    + rewrite Forall_forall in *. intros x I. eapply entry_ext; [|apply H6; auto]. intros y Y. apply U. right. right. right. apply in_app_iff. right. right. right. apply in_app_iff. right. apply in_flat_map. eauto.
Qed.

(** Which kind of layout a value has *)
Lemma laid_is_arr h c ss n L l : laid h c ss n L -> json_of L = JArr l -> exists a b es, L = LArr a b es /\ map json_of es = l.
Proof.
  destruct L as [x|a b x|a b es|a m ks es]; cbn [laid json_of]; intros H E; try discriminate.
  - destruct H as [->|[->| ->]]; discriminate.
  - destruct H as (_ & _ & _ & B). subst. contradiction.
  - injection E as <-. eauto.
Qed.
Lemma laid_is_obj h c ss n L kvs : laid h c ss n L -> json_of L = JObj kvs -> exists a m ks es, L = LObj a m ks es /\ ents es = kvs.
Proof.
  destruct L as [x|a b x|a b es|a m ks es]; cbn [laid json_of]; intros H E; try discriminate.
  - destruct H as [->|[->| ->]]; discriminate.
  - destruct H as (_ & _ & _ & B). subst. contradiction.
  - injection E as <-. exists a, m, ks, es. auto.
Qed.
Lemma ents_split es kvs1 k x kvs2 : ents es = kvs1 ++ (k, x) :: kvs2 -> exists es1 e es2, es = es1 ++ e :: es2 /\ ents es1 = kvs1 /\ e_name e = k /\ json_of (e_val e) = x /\ ents es2 = kvs2.
Proof.
  unfold ents. intros E. apply map_eq_app in E as (es1 & es' & -> & E1 & E2). apply map_eq_cons in E2 as (e & es2 & -> & E2 & E3). injection E2 as E4 E5. exists es1, e, es2. auto.
Qed.
Lemma ents_app es1 es2 : ents (es1 ++ es2) = ents es1 ++ ents es2.
Proof. apply map_app. Qed.
Lemma ents_names es : map fst (ents es) = map e_name es.
Proof. unfold ents. rewrite map_map. auto. Qed.
Lemma json_obj a m ks es : json_of (LObj a m ks es) = JObj (ents es).
Proof. reflexivity. Qed.

Lemma changed_focus (P : json -> json -> Prop) h c ss p x y : changed P p x y -> forall n L, laid h c ss n L -> json_of L = x ->
  exists F G R y', focus L p F G R /\ P (json_of F) y' /\ forall F', json_of F' = y' -> json_of (G F') = y.
Proof.
  induction 1 as [x y X|l1 x l2 y p _ IH|kvs1 k x kvs2 y p _ IH]; intros n L H J.
  - exists L, (fun x => x), [], y. split; [constructor|]. subst. auto.
  - destruct (laid_is_arr _ _ _ _ _ _ H J) as (a & b & es & -> & E). apply map_eq_app in E as (es1 & es' & -> & E1 & E2). apply map_eq_cons in E2 as (e & es2 & -> & E2 & E3).
    apply laid_arr in H as (_ & _ & H). apply Forall_app in H as (_ & H). apply Forall_cons_iff in H as (H & _).
    destruct (IH _ _ H E2) as (F & G & R & y' & FO & PY & JG). subst l1. rewrite map_length. eexists F, _, _, y'. split; [constructor; exact FO|]. split; [auto|].
    intros F' EF. cbn [json_of]. rewrite map_app. cbn [map]. rewrite (JG F' EF), E3. auto.
  - destruct (laid_is_obj _ _ _ _ _ _ H J) as (a & m & ks & es & -> & E). apply ents_split in E as (es1 & e & es2 & -> & E1 & <- & E2 & E3).
    apply laid_obj in H as (_ & _ & _ & _ & H). apply Forall_app in H as (_ & H). apply Forall_cons_iff in H as ((_ & _ & _ & H) & _).
    destruct (IH _ _ H E2) as (F & G & R & y' & FO & PY & JG). eexists F, _, _, y'. split; [apply fo_name; exact FO|]. split; [auto|].
    intros F' EF. rewrite json_obj, ents_app. cbn [ents map]. fold (ents es2). unfold e_name at 1, e_val at 1. cbn [fst snd]. rewrite (JG F' EF), E1, E3. auto.
Qed.

(** * Reading *)
Section Read.
Variable ss : statics.
Lemma to_object_laid h c n a m ks es : laid h c ss n (LObj a m ks es) -> to_object h (VPtr a) = Ok (VPtr m).
Proof.
  intros H. apply laid_obj in H as (H1 & (ts & H2 & _) & _). unfold to_object, tuple_get. cbn [target bind]. rewrite (get_obj_of _ _ _ _ _ H1). cbn [bind nth_error of_option target].
  rewrite (get_obj_of _ _ _ _ _ H2). reflexivity.
Qed.
Lemma to_array_laid h c n a l es : laid h c ss n (LArr a l es) -> to_array h (VPtr a) = Ok (VPtr l).
Proof.
  intros H. apply laid_arr in H as (H1 & H2 & _). unfold to_array, tuple_get. cbn [target bind]. rewrite (get_obj_of _ _ _ _ _ H1). cbn [bind nth_error of_option target].
  rewrite (get_obj_of _ _ _ _ _ H2). reflexivity.
Qed.
Lemma find_keq h keq key name es : Forall (fun e => keq key (VPtr (e_key e)) = text_eqb name (e_name e)) es ->
  Forall (fun e => exists v, obj h (e_pair e) (KProd [DEL_RC; DEL_RC]) [VPtr (e_key e); v] 0) es ->
  (~ In name (map e_name es) /\ find_entry keq h key (map (fun e => VPtr (e_pair e)) es) = Ok None) \/
  (exists e, In e es /\ e_name e = name /\ find_entry keq h key (map (fun e => VPtr (e_pair e)) es) = Ok (Some (VPtr (e_pair e)))).
Proof.
  induction es as [|e r IH]; intros HK HT; cbn [map find_entry]; [left; split; auto|].
  apply Forall_cons_iff in HK as (K & HK). apply Forall_cons_iff in HT as ((v & O) & HT).
  assert (T : tuple_get h (VPtr (e_pair e)) 0 = Ok (VPtr (e_key e))). { unfold tuple_get. cbn [target bind]. rewrite (get_obj_of _ _ _ _ _ O). reflexivity. }
  rewrite T. cbn [bind]. rewrite K. destruct (text_eqb name (e_name e)) eqn:E.
  - apply JsonParseProofs.text_eqb_iff in E. right. exists e. split; [left; auto|]. auto.
  - destruct (IH HK HT) as [(NI & ->)|(e' & I & N & ->)].
    + left. split; [|auto]. intros [X|X]; [|auto]. rewrite <- X, JsonParseProofs.text_eqb_refl in E. discriminate.
    + right. exists e'. split; [right; auto|]. auto.
Qed.
Lemma name_uniq (es : list (text * addr * addr * layout)) e e' : NoDup (map e_name es) -> In e es -> In e' es -> e_name e = e_name e' -> e = e'.
Proof.
  induction es as [|x r IH]; cbn [map]; intros ND I I' E; [destruct I|]. inversion ND as [|? ? NI ND']; subst.
  destruct I as [->|I], I' as [->|I']; auto.
  - destruct NI. rewrite E. apply in_map. auto.
  - destruct NI. rewrite <- E. apply in_map. auto.
Qed.
Lemma split_uniq (es1 : list (text * addr * addr * layout)) : forall e es2 es1' e' es2', NoDup (map e_name (es1 ++ e :: es2)) -> es1 ++ e :: es2 = es1' ++ e' :: es2' -> e_name e = e_name e' ->
  es1 = es1' /\ e = e' /\ es2 = es2'.
Proof.
  induction es1 as [|x r IH]; intros e es2 [|x' r'] e' es2' ND E N; cbn [app map] in *.
  - injection E as -> ->. auto.
  - injection E as -> ->. exfalso. inversion ND as [|? ? NI _]; subst. apply NI. rewrite N, map_app. apply in_app_iff. right. left. auto.
  - injection E as -> <-. exfalso. inversion ND as [|? ? NI _]; subst. apply NI. rewrite <- N, map_app. apply in_app_iff. right. left. auto.
  - injection E as -> E. inversion ND as [|? ? _ ND']; subst. destruct (IH _ _ _ _ _ ND' E N) as (-> & -> & ->). auto.
Qed.
Lemma find_laid h c n a m ks es keq key name : laid h c ss n (LObj a m ks es) -> Forall (fun e => keq key (VPtr (e_key e)) = text_eqb name (e_name e)) es ->
  exists ts es', obj h m (KMap DEL_RC DEL_RC) (VPtr ks :: ts) 1 /\ Permutation es' es /\ ts = map (fun e => VPtr (e_pair e)) es' /\
    (~ In name (map e_name es) -> find_entry keq h key ts = Ok None) /\ (forall e, In e es -> e_name e = name -> find_entry keq h key ts = Ok (Some (VPtr (e_pair e)))).
Proof.
  intros H HK. apply laid_obj in H as (_ & (ts & H2 & HP) & _ & HN & H4). destruct (perm_map_inv _ _ _ HP) as (es' & PM & ->). exists (map (fun e => VPtr (e_pair e)) es'), es'.
  split; [auto|]. split; [auto|]. split; [auto|].
  assert (HK' : Forall (fun e => keq key (VPtr (e_key e)) = text_eqb name (e_name e)) es') by (eapply Permutation_Forall; [apply Permutation_sym; exact PM|exact HK]).
  assert (HT : Forall (fun e => exists v, obj h (e_pair e) (KProd [DEL_RC; DEL_RC]) [VPtr (e_key e); v] 0) es').
  { eapply Permutation_Forall; [apply Permutation_sym; exact PM|]. rewrite Forall_forall in *. intros e I. destruct (H4 e I) as (_ & _ & O & _). eauto. }
  destruct (find_keq h keq key name es' HK' HT) as [(NI & E)|(e & I & N & E)]; split.
  - auto.
  - intros e I N. exfalso. apply NI. rewrite <- N. apply in_map. eapply Permutation_in; [apply Permutation_sym; exact PM|auto].
  - intros NI. exfalso. apply NI. rewrite <- N. apply in_map. eapply Permutation_in; [exact PM|auto].
  - intros e' I' N'. rewrite E. rewrite (name_uniq es e e'); [auto|auto|eapply Permutation_in; [exact PM|auto]|auto|congruence].
Qed.
Lemma named_keys h c n a m ks es key : laid h c ss n (LObj a m ks es) -> Forall (fun e => named c key VForeign (VPtr (e_key e)) = text_eqb key (e_name e)) es.
Proof.
  intros H. apply laid_obj in H as (_ & _ & _ & _ & H). rewrite Forall_forall in *. intros e I. destruct (H e I) as (_ & C & _). cbn [named]. rewrite C. auto.
Qed.
Lemma object_get_laid h c n a m ks es key : laid h c ss n (LObj a m ks es) ->
  (~ In key (map e_name es) -> object_get h c (VPtr a) key = Ok VNull) /\ (forall e, In e es -> e_name e = key -> object_get h c (VPtr a) key = Ok (ptr ss (e_val e))).
Proof.
  intros H. unfold object_get. rewrite (to_object_laid _ _ _ _ _ _ _ H). cbn [bind not_null target].
  destruct (find_laid _ _ _ _ _ _ _ _ VForeign key H (named_keys _ _ _ _ _ _ _ _ H)) as (ts & es' & O & _ & _ & A & B). rewrite (get_obj_of _ _ _ _ _ O). cbn [bind tl].
  split; [intros NI; rewrite (A NI); auto|]. intros e I N. rewrite (B e I N). cbn [bind].
  apply laid_obj in H as (_ & _ & _ & _ & H). rewrite Forall_forall in H. destruct (H e I) as (_ & _ & T & _). unfold tuple_get. cbn [target bind]. rewrite (get_obj_of _ _ _ _ _ T). reflexivity.
Qed.
Lemma array_get_laid h c n a l es i : laid h c ss n (LArr a l es) -> array_get h (VPtr a) i = Ok (nth i (map (ptr ss) es) VNull).
Proof.
  intros H. unfold array_get. rewrite (to_array_laid _ _ _ _ _ _ H). cbn [bind not_null target]. apply laid_arr in H as (_ & H & _). rewrite (get_obj_of _ _ _ _ _ H). reflexivity.
Qed.
Lemma walk_laid h c L p F G R : focus L p F G R -> forall n, laid h c ss n L -> walk h c (ptr ss L) p = Ok (ptr ss F).
Proof.
  induction 1 as [L|a l es1 e es2 p F G R FO IH|a m ks es1 e es2 p F G R FO IH]; intros n H; cbn [walk].
  - auto.
  - cbn [ptr]. rewrite (array_get_laid _ _ _ _ _ _ _ H). cbn [bind]. rewrite map_app. cbn [map]. rewrite app_nth2; rewrite map_length; [|lia]. rewrite Nat.sub_diag. cbn [nth].
    apply laid_arr in H as (_ & _ & H). apply Forall_app in H as (_ & H). apply Forall_cons_iff in H as (H & _). eapply IH. exact H.
  - cbn [ptr]. destruct (object_get_laid _ _ _ _ _ _ _ (e_name e) H) as (_ & X). rewrite (X e); [|apply in_app_iff; right; left; auto|auto]. cbn [bind].
    apply laid_obj in H as (_ & _ & _ & _ & H). apply Forall_app in H as (_ & H). apply Forall_cons_iff in H as ((_ & _ & _ & H) & _). eapply IH. exact H.
Qed.
End Read.
