(** The printer on the heap does what the printer on values does, and leaves the
    heap as it was. *)
From Coq Require Import ZArith List Bool Lia Permutation.
From Verif Require Import Base BoxedModel Json JsonTokModel HeapModel HeapChainProofs HeapHistory JsonMemModel JsonMemSpec JsonMemView JsonMemDel JsonMemOps
  JsonPrintModel JsonPrintSpec JsonPrintMemModel JsonPrintMemView.
From Verif Require JsonParseProofs JsonEditView JsonEditOps JsonPrintProofs.
Import ListNotations.
Open Scope nat_scope.
Open Scope outcome_scope.
Local Arguments Z.add : simpl never.
Local Arguments Z.sub : simpl never.
Local Arguments Z.eqb : simpl never.
Local Arguments Z.leb : simpl never.
Local Arguments Z.of_nat : simpl never.
Local Arguments core : simpl never.

Section Sim.
Variable fmt_g : prim -> Z -> text.
Variables (st : addr) (ss : statics) (deep : nat).
Variables (h0 : heap) (c : contents).
Notation W := (W st).
Hypothesis W0 : W h0.
Hypothesis S0 : static_ok h0 ss.
Hypothesis SD : NoDup [s_true ss; s_false ss; s_null ss].
Hypothesis DP : 2 <= deep.

(** * The objects of the printer *)
(** [T] are the objects of the printer; on the others nothing has changed but that
    [hk] are counted once more. *)
Definition temps : Type := addr -> option (kind * list val).
Record ci (h : heap) (T : temps) (hk : list addr) : Prop := Ci {
  ci_W : W h;
  ci_temp : forall x k vs, T x = Some (k, vs) -> kept h x k vs /\ h_next h0 <= x;
  ci_rest : forall x, T x = None -> look h x = bump (occ x hk) (look h0 x);
  ci_next : h_next h0 <= h_next h
}.
Lemma ci_none h T hk x : ci h T hk -> x < h_next h0 -> T x = None.
Proof. intros C L. destruct (T x) as [(k & vs)|] eqn:E; auto. apply (ci_temp _ _ _ C) in E as (_ & E). lia. Qed.
Lemma ci_fresh h T hk x : ci h T hk -> h_next h <= x -> T x = None.
Proof.
  intros C L. destruct (T x) as [(k & vs)|] eqn:E; auto. apply (ci_temp _ _ _ C) in E as (E & _). apply kept_live in E. apply (W_below st) in E; [lia|apply C].
Qed.
Lemma ci_sees h T hk x k vs : ci h T hk -> kept h0 x k vs -> kept h x k vs.
Proof.
  intros C K. assert (L : x < h_next h0) by (apply (W_below st); auto; eapply kept_live; eauto).
  eapply bump_kept; [apply (ci_rest _ _ _ C); eapply ci_none; eauto|auto].
Qed.
Lemma ci_static h T hk a : ci h T hk -> In a [s_true ss; s_false ss; s_null ss] -> get_obj h a = Ok (KStatic, []).
Proof.
  intros C I. destruct (S0 a I) as (n & O). apply obj_static in O.
  assert (L : a < h_next h0) by (apply (W_below st); auto; congruence).
  assert (E := ci_rest _ _ _ C a (ci_none _ _ _ _ C L)). rewrite O, bump_cell in E. unfold get_obj, get, look in *. destruct (h_mem h a) as [b|]; [|discriminate].
  cbn in E. injection E as E. unfold core, cell in E. cbn. destruct (b_body b) as [|k vs]; [discriminate|]. destruct k; injection E; intros; subst; auto; discriminate.
Qed.
Lemma ci_start : ci h0 (fun _ => None) [].
Proof. constructor; auto; [discriminate|]. intros x _. rewrite occ_nil, bump_0. auto. Qed.
Lemma ci_new h T hk k vs m : ci h T hk -> k <> KStatic -> exists h', mk_obj h st k vs m = Ok (h', h_next h) /\ h_next h' = S (h_next h) /\ ci h' (set_at T (h_next h) (Some (k, vs))) hk.
Proof.
  intros C NS. assert (N := ci_next _ _ _ C). destruct (kept_mk st h k vs m (ci_W _ _ _ C) NS) as (h' & E & W' & N' & K & X). exists h'. split; [auto|]. split; [auto|]. constructor; auto.
  - intros x k' vs' H. unfold set_at in H. destruct (Nat.eqb_spec x (h_next h)) as [->|NE]; [injection H as <- <-; auto|].
    apply (ci_temp _ _ _ C) in H as (H & L). split; [|auto]. eapply kept_ext; [apply X; auto|auto].
  - intros x H. unfold set_at in H. destruct (Nat.eqb_spec x (h_next h)) as [EQ|NE]; [discriminate|]. rewrite X by auto. apply C. auto.
  - lia.
Qed.
Lemma ci_put h T hk x k vs vs' : ci h T hk -> T x = Some (k, vs) -> exists h', put_vals h x k vs' = Ok h' /\ h_next h' = h_next h /\ ci h' (set_at T x (Some (k, vs'))) hk.
Proof.
  intros C E. destruct (ci_temp _ _ _ C _ _ _ E) as (K & L). destruct (kept_put st h x k vs vs' (ci_W _ _ _ C) K) as (h' & E' & W' & N' & K' & X). exists h'. split; [auto|]. split; [auto|]. constructor; auto.
  - intros y k1 vs1 H. unfold set_at in H. destruct (Nat.eqb_spec y x) as [->|NE]; [injection H as <- <-; auto|].
    apply (ci_temp _ _ _ C) in H as (H & L'). split; [|auto]. eapply kept_ext; [apply X; auto|auto].
  - intros y H. unfold set_at in H. destruct (Nat.eqb_spec y x) as [EQ|NE]; [discriminate|]. rewrite X by auto. apply C. auto.
  - rewrite N'. apply C.
Qed.
Lemma ci_tuple h T hk p k vs j : ci h T hk -> T p = Some (k, vs) -> exists h', mk_prod h st [DEL; NOOP] [VPtr p; j] = Ok (h', h_next h) /\ h_next h' = S (h_next h) /\
  ci h' (set_at T (h_next h) (Some (KProd [DEL; NOOP], [VPtr p; j]))) hk.
Proof.
  intros C E. assert (N := ci_next _ _ _ C). destruct (ci_temp _ _ _ C _ _ _ E) as (K & L). destruct (kept_tuple st h p k vs j (ci_W _ _ _ C) K) as (h' & E' & W' & N' & K' & KP & X).
  exists h'. split; [auto|]. split; [auto|]. constructor; auto.
  - intros y k1 vs1 H. unfold set_at in H. destruct (Nat.eqb_spec y (h_next h)) as [->|NE]; [injection H as <- <-; auto|].
    destruct (Nat.eq_dec y p) as [->|NP]; [rewrite E in H; injection H as <- <-; auto|]. apply (ci_temp _ _ _ C) in H as (H & L'). split; [|auto]. eapply kept_ext; [apply X; auto|auto].
  - intros y H. unfold set_at in H. destruct (Nat.eqb_spec y (h_next h)) as [EQ|NE]; [discriminate|]. rewrite X by (auto; congruence). apply C. auto.
  - lia.
Qed.
Lemma ci_unlink h T hk x k vs : ci h T hk -> T x = Some (k, vs) -> exists h', (let* h := de_chain h x in free h x) = Ok h' /\ h_next h' = h_next h /\ ci h' (set_at T x None) hk.
Proof.
  intros C E. destruct (ci_temp _ _ _ C _ _ _ E) as (K & L). destruct (kept_unlink st h x k vs (ci_W _ _ _ C) K) as (h' & E' & W' & N' & G1 & G2). exists h'. split; [auto|]. split; [auto|]. constructor; auto.
  - intros y k1 vs1 H. unfold set_at in H. destruct (Nat.eqb_spec y x) as [EQ|NE]; [discriminate|].
    apply (ci_temp _ _ _ C) in H as (H & L'). split; [|auto]. eapply kept_ext; [apply G2; intros [->|[]]; congruence|auto].
  - intros y H. unfold set_at in H. destruct (Nat.eqb_spec y x) as [EQ|NE].
    + rewrite EQ. rewrite G1 by (left; auto). symmetry. apply bump_none. destruct (look h0 x) eqn:Q; auto. assert (x < h_next h0); [|lia]. apply (W_below st); auto. congruence.
    + rewrite G2 by (intros [->|[]]; congruence). apply C. auto.
  - rewrite N'. apply C.
Qed.
Definition keys_in (hk ks : list addr) : Prop := forall x, In x ks -> key_at (look h0) (occ x hk + occ x ks) x.
Lemma key_old ks hk x : keys_in hk ks -> In x ks -> x < h_next h0.
Proof. intros H I. destruct (H x I) as (mk & me & E & _). apply (W_below st); auto. congruence. Qed.
Lemma ci_append h T hk q vs ks : ci h T hk -> T q = Some (KList DEL_RC, vs) -> keys_in hk ks ->
  exists h', foldm (fun h k => list_append h q k) h (map VPtr ks) = Ok h' /\ h_next h' = h_next h /\ ci h' (set_at T q (Some (KList DEL_RC, vs ++ map VPtr ks))) (ks ++ hk).
Proof.
  intros C E HK. destruct (ci_temp _ _ _ C _ _ _ E) as (K & L).
  assert (TN : forall x, In x ks -> T x = None) by (intros x I; eapply ci_none; [exact C|]; eapply key_old; eauto).
  destruct (append_keys st (look h0) ks h q vs (fun x => occ x hk) (ci_W _ _ _ C) K) as (h' & E' & W' & N' & K' & X & Y); auto.
  - intros I. rewrite TN in E; [discriminate|auto].
  - intros x I. apply (ci_rest _ _ _ C). auto.
  - exists h'. split; [auto|]. split; [auto|]. constructor; auto.
    + intros y k1 vs1 H. unfold set_at in H. destruct (Nat.eqb_spec y q) as [->|NE]; [injection H as <- <-; auto|].
      destruct (in_dec Nat.eq_dec y ks) as [I|NI]; [rewrite TN in H by auto; discriminate|].
      apply (ci_temp _ _ _ C) in H as (H & L'). split; [|auto]. eapply kept_ext; [apply Y; auto|auto].
    + intros y H. unfold set_at in H. destruct (Nat.eqb_spec y q) as [EQ|NE]; [discriminate|]. rewrite occ_app.
      destruct (in_dec Nat.eq_dec y ks) as [I|NI]; [rewrite X by auto; f_equal; lia|]. rewrite Y by auto. rewrite (ci_rest _ _ _ C) by auto. f_equal.
      assert (occ y ks = 0); [|lia]. destruct (occ y ks) eqn:EO; auto. destruct NI. apply occ_in. lia.
    + rewrite N'. apply C.
Qed.
Lemma ci_uncount h T hk ks tr : ci h T (ks ++ hk) -> keys_in hk ks ->
  exists h', foldm (del_e tr) h (map (pair DEL_RC) (map VPtr ks)) = Ok h' /\ h_next h' = h_next h /\ ci h' T hk.
Proof.
  intros C HK. assert (TN : forall x, In x ks -> T x = None) by (intros x I; eapply ci_none; [exact C|]; eapply key_old; eauto).
  destruct (uncount_keys st (look h0) tr ks h (fun x => occ x hk) (ci_W _ _ _ C)) as (h' & E' & W' & N' & X & Y); auto.
  - intros x I. rewrite (ci_rest _ _ _ C) by auto. rewrite occ_app. f_equal. lia.
  - exists h'. split; [auto|]. split; [auto|]. constructor; auto.
    + intros y k1 vs1 H. destruct (in_dec Nat.eq_dec y ks) as [I|NI]; [rewrite TN in H by auto; discriminate|].
      apply (ci_temp _ _ _ C) in H as (H & L'). split; [|auto]. eapply kept_ext; [apply Y; auto|auto].
    + intros y H. destruct (in_dec Nat.eq_dec y ks) as [I|NI]; [auto|]. rewrite Y by auto. rewrite (ci_rest _ _ _ C) by auto. rewrite occ_app. f_equal.
      assert (occ y ks = 0); [|lia]. destruct (occ y ks) eqn:EO; auto. destruct NI. apply occ_in. lia.
    + rewrite N'. apply C.
Qed.

(** * Reading values *)
Definition sight (L : layout) : seen :=
  match L with LConst x | LBox _ _ x => SScalar x | LArr _ l _ => SArray l | LObj _ m _ _ => SObject m end.
Lemma view_laid h T hk n L : ci h T hk -> laid h0 c ss n L -> view_of h c ss (ptr ss L) = Ok (sight L).
Proof.
  intros C H. assert (S1 : s_true ss <> s_false ss /\ s_true ss <> s_null ss /\ s_false ss <> s_null ss).
  { inversion SD as [|? ? A B]; subst. inversion B as [|? ? A' _]; subst. cbn in A, A'. intuition congruence. }
  destruct S1 as (D1 & D2 & D3). unfold view_of. destruct L as [x|a b x|a l es|a m ks es].
  - destruct H as [->|[->| ->]]; cbn [ptr target bind sight]; (erewrite ci_static by (first [exact C|cbn; auto])); cbn [bind].
    + rewrite Nat.eqb_refl. auto.
    + apply Nat.eqb_neq in D2. rewrite D2, Nat.eqb_refl. auto.
    + apply Nat.eqb_neq in D3. rewrite D3. apply Nat.neq_sym, Nat.eqb_neq in D1. rewrite D1, Nat.eqb_refl. auto.
  - destruct H as (A & B & E & _). cbn [ptr target bind]. rewrite (kept_get _ _ _ _ (ci_sees _ _ _ _ _ _ C (kept_obj _ _ _ _ _ A ltac:(discriminate)))). cbn [bind nth_error of_option target].
    rewrite (kept_get _ _ _ _ (ci_sees _ _ _ _ _ _ C (kept_obj _ _ _ _ _ B ltac:(discriminate)))). cbn [bind sight]. rewrite E. auto.
  - apply laid_arr in H as (A & B & _). cbn [ptr target bind]. rewrite (kept_get _ _ _ _ (ci_sees _ _ _ _ _ _ C (kept_obj _ _ _ _ _ A ltac:(discriminate)))). cbn [bind nth_error of_option target].
    rewrite (kept_get _ _ _ _ (ci_sees _ _ _ _ _ _ C (kept_obj _ _ _ _ _ B ltac:(discriminate)))). reflexivity.
  - apply laid_obj in H as (A & (ts & B & _) & _). cbn [ptr target bind]. rewrite (kept_get _ _ _ _ (ci_sees _ _ _ _ _ _ C (kept_obj _ _ _ _ _ A ltac:(discriminate)))). cbn [bind nth_error of_option target].
    rewrite (kept_get _ _ _ _ (ci_sees _ _ _ _ _ _ C (kept_obj _ _ _ _ _ B ltac:(discriminate)))). reflexivity.
Qed.
Lemma ptr_pointer n L : laid h0 c ss n L -> exists a, ptr ss L = VPtr a.
Proof. destruct L; cbn [ptr]; eauto. intros [->|[->| ->]]; eauto. Qed.

(** * The stack *)
Record frame : Type := Frame { f_tup : addr; f_cnt : addr; f_keys : list addr; f_lay : layout }.
Definition own (fr : frame) : list addr := f_tup fr :: f_cnt fr :: f_keys fr.
Definition keys_of (L : layout) : list addr := match L with LObj _ _ _ es => map e_key es | _ => [] end.
Definition held (frs : list frame) : list addr := flat_map (fun fr => keys_of (f_lay fr)) frs.
Definition list_of (T : temps) (L : layout) (qs : list addr) (n : counter) : Prop :=
  match L with
  | LArr _ l _ => qs = [] /\ k_array n = VPtr l
  | LObj _ m _ es => exists q, qs = [q] /\ k_array n = VPtr q /\ k_object n = VPtr m /\ T q = Some (KList DEL_RC, map VPtr (map e_key es))
  | _ => qs = []
  end.
Record frame_ok (T : temps) (kn : addr -> counter) (fr : frame) (e : entry) : Prop := FrameOk {
  fo_tup : T (f_tup fr) = Some (KProd [DEL; NOOP], [VPtr (f_cnt fr); ptr ss (f_lay fr)]);
  fo_cnt : T (f_cnt fr) = Some (KLeaf, []);
  fo_next : k_next (kn (f_cnt fr)) = e_next e;
  fo_tabs : k_tabs (kn (f_cnt fr)) = e_tabs e;
  fo_more : k_more (kn (f_cnt fr)) = e_more e;
  fo_json : json_of (f_lay fr) = e_json e;
  fo_laid : exists n, laid h0 c ss n (f_lay fr);
  fo_list : list_of T (f_lay fr) (f_keys fr) (kn (f_cnt fr))
}.
Record pi (h : heap) (T : temps) (kn : addr -> counter) (sp : addr) (frs : list frame) (stk : list entry) : Prop := Pi {
  pi_ci : ci h T (held frs);
  pi_sp : T sp = Some (KStack NOOP 500, map VPtr (rev (map f_tup frs)));
  pi_frs : Forall2 (frame_ok T kn) frs stk;
  pi_one : NoDup (sp :: flat_map own frs);
  pi_dom : forall x, T x <> None -> In x (sp :: flat_map own frs);
  pi_len : length frs <= 500
}.
Lemma frame_ext T T' kn kn' fr e : (forall x, In x (own fr) -> T' x = T x) -> kn' (f_cnt fr) = kn (f_cnt fr) -> frame_ok T kn fr e -> frame_ok T' kn' fr e.
Proof.
  intros ET EK [A B C D E F G H]. constructor; try rewrite EK; auto.
  - rewrite ET; [auto|left; auto].
  - rewrite ET; [auto|right; left; auto].
  - unfold list_of in *. destruct (f_lay fr) as [x|a b x|a l es|a m ks es]; auto. destruct H as (q & H1 & H2 & H3 & H4). exists q. repeat split; auto.
    rewrite ET; [auto|]. right. right. rewrite H1. left. auto.
Qed.
Lemma frames_ext T T' kn kn' frs stk : (forall x, In x (flat_map own frs) -> T' x = T x /\ kn' x = kn x) -> Forall2 (frame_ok T kn) frs stk -> Forall2 (frame_ok T' kn') frs stk.
Proof.
  intros E F. induction F as [|fr e frs stk H F IH]; constructor.
  - eapply frame_ext; [| |exact H].
    + intros x I. apply E. cbn [flat_map]. apply in_app_iff. auto.
    + apply E. cbn [flat_map]. apply in_app_iff. left. right. left. auto.
  - apply IH. intros x I. apply E. cbn [flat_map]. apply in_app_iff. auto.
Qed.
(** no key is counted twice for one object *)
Lemma keys_nodup n L : laid h0 c ss n L -> NoDup (keys_of L) /\ forall x, In x (keys_of L) -> exists mk me, look h0 x = Some (cell KLeaf [] 2 false mk me).
Proof.
  destruct L as [x|a b x|a l es|a m ks es]; intros H; cbn [keys_of]; try (split; [constructor|intros ? []]; fail).
  apply laid_obj in H as (_ & _ & _ & ND & H). split.
  - rewrite Forall_forall in H. assert (E : map (fun x => match c x with JStr s => s | _ => [] end) (map e_key es) = map e_name es).
    { rewrite map_map. apply map_ext_in. intros e I. destruct (H e I) as (_ & -> & _). auto. }
    rewrite <- E in ND. eapply NoDup_map_inv; eauto.
  - intros x I. apply in_map_iff in I as (e & <- & I). rewrite Forall_forall in H. destruct (H e I) as (O & _). apply obj_look in O as (mk & me & O); [|discriminate]. eauto.
Qed.
Lemma held_bound T kn frs stk x : Forall2 (frame_ok T kn) frs stk -> occ x (held frs) <= length frs.
Proof.
  induction 1 as [|fr e frs stk F _ IH]; cbn [held flat_map]; [rewrite occ_nil; lia|]. fold (held frs). rewrite occ_app. cbn [length].
  destruct (fo_laid _ _ _ _ F) as (n & H). apply keys_nodup in H as (H & _). apply (proj1 (nodup_occ _)) with (x := x) in H. lia.
Qed.
Lemma keys_room T kn frs stk n L : Forall2 (frame_ok T kn) frs stk -> length frs <= 500 -> laid h0 c ss n L -> keys_in (held frs) (keys_of L).
Proof.
  intros F B H x I. destruct (keys_nodup _ _ H) as (ND & K). destruct (K x I) as (mk & me & E). exists mk, me. split; [auto|].
  apply (proj1 (nodup_occ _)) with (x := x) in ND. assert (Q := held_bound _ _ _ _ x F). lia.
Qed.

Lemma at_eq {A} (f : addr -> A) x y : set_at f x y x = y.
Proof. apply set_at_eq. Qed.
Lemma at_neq {A} (f : addr -> A) x y z : z <> x -> set_at f x y z = f z.
Proof. apply set_at_neq. Qed.

Lemma own_some T kn frs stk x : Forall2 (frame_ok T kn) frs stk -> In x (flat_map own frs) -> T x <> None.
Proof.
  intros F I. induction F as [|fr e frs stk FO F IH]; [destruct I|]. cbn [flat_map] in I. apply in_app_iff in I as [I|I]; [|auto].
  destruct I as [<-|[<-|I]]; [rewrite (fo_tup _ _ _ _ FO); discriminate|rewrite (fo_cnt _ _ _ _ FO); discriminate|].
  pose proof (fo_list _ _ _ _ FO) as LO. unfold list_of in LO. destruct (f_lay fr); try (rewrite LO in I; destruct I); [destruct LO as (LO & _); rewrite LO in I; destruct I|].
  destruct LO as (q & LO & _ & _ & E). rewrite LO in I. destruct I as [<-|[]]. congruence.
Qed.

(** ** Pushing *)
Lemma keys_made h T hk a m k es n : ci h T hk -> laid h0 c ss n (LObj a m k es) -> keys_in hk (map e_key es) ->
  exists h', ordered_keys h m = Ok (h', h_next h) /\ h_next h' = S (h_next h) /\ ci h' (set_at T (h_next h) (Some (KList DEL_RC, map VPtr (map e_key es)))) (map e_key es ++ hk).
Proof.
  intros C H HK. apply laid_obj in H as (_ & (ts & B & _) & D & _). unfold ordered_keys.
  destruct (kept_state st h m _ _ (ci_W _ _ _ C) (ci_sees _ _ _ _ _ _ C (kept_obj _ _ _ _ _ B ltac:(discriminate)))) as (b & G1 & G2 & G3). rewrite G1. cbn [bind]. rewrite G2, G3. cbn [bind target].
  rewrite (kept_get _ _ _ _ (ci_sees _ _ _ _ _ _ C (kept_obj _ _ _ _ _ D ltac:(discriminate)))). cbn [bind]. unfold mk_list.
  destruct (ci_new h T hk (KList DEL_RC) [] M_MALLOC C) as (h1 & -> & N1 & C1); [discriminate|]. cbn [bind].
  rewrite <- (map_map e_key VPtr). destruct (ci_append h1 _ hk (h_next h) [] (map e_key es) C1) as (h2 & -> & N2 & C2); [apply at_eq|auto|]. cbn [bind app] in *.
  exists h2. split; [auto|]. split; [congruence|]. destruct C2 as [A1 A2 A3 A4]. constructor; auto.
  - intros x k' vs' E. apply A2. unfold set_at in *. destruct (x =? h_next h); auto.
  - intros x E. apply A3. unfold set_at in *. destruct (x =? h_next h); auto.
Qed.

Lemma push_ok h T kn sp frs stk n L tabs more : pi h T kn sp frs stk -> length frs < 500 -> laid h0 c ss n L ->
  exists h' T' kn' fr, mpush st ss h c kn sp tabs more (ptr ss L) = Ok (h', kn') /\ pi h' T' kn' sp (fr :: frs) (mk_entry tabs more (json_of L) :: stk).
Proof.
  intros [C SP F ND DM LN] LT H. unfold mpush. set (p := h_next h).
  destruct (ci_new h T _ KLeaf [] M_MALLOC C) as (h1 & -> & N1 & C1); [discriminate|]. cbn [bind]. fold p in C1, N1 |- *.
  destruct (ptr_pointer _ _ H) as (a0 & EP). rewrite (view_laid _ _ _ _ _ C1 H), EP. cbn [bind].
  assert (R := keys_room _ _ _ _ _ _ F LN H).
  (* the list of the keys *)
  assert (KEYS : exists h2 T2 qs cn, match sight L with
      | SObject m => let* (h, l) := ordered_keys h1 m in Ok (h, Counter 0 (VPtr l) (VPtr m) (to_char tabs) more)
      | SArray l => Ok (h1, Counter 0 (VPtr l) VNull (to_char tabs) more)
      | SScalar _ => Ok (h1, Counter 0 VNull VNull (to_char tabs) more) end = Ok (h2, cn) /\
      ci h2 T2 (keys_of L ++ held frs) /\ list_of T2 L qs cn /\ k_next cn = 0 /\ k_tabs cn = to_char tabs /\ k_more cn = more /\
      T2 p = Some (KLeaf, []) /\ (forall x, x <> p -> ~ In x qs -> T2 x = T x) /\ (forall x, In x qs -> p < x /\ x < h_next h2 /\ T2 x <> None) /\ NoDup qs /\ p < h_next h2).
  { destruct L as [x|a b x|a l es|a m ks es]; cbn [sight keys_of app list_of].
    - exists h1, (set_at T p (Some (KLeaf, []))), []. eexists. split; [reflexivity|]. split; [exact C1|]. split; [auto|]. do 3 (split; [reflexivity|]). split; [apply at_eq|].
      split; [intros x0 NE _; apply at_neq; auto|]. split; [intros ? []|]. split; [constructor|lia].
    - exists h1, (set_at T p (Some (KLeaf, []))), []. eexists. split; [reflexivity|]. split; [exact C1|]. split; [auto|]. do 3 (split; [reflexivity|]). split; [apply at_eq|].
      split; [intros x0 NE _; apply at_neq; auto|]. split; [intros ? []|]. split; [constructor|lia].
    - exists h1, (set_at T p (Some (KLeaf, []))), []. eexists. split; [reflexivity|]. split; [exact C1|]. split; [auto|]. do 3 (split; [reflexivity|]). split; [apply at_eq|].
      split; [intros x0 NE _; apply at_neq; auto|]. split; [intros ? []|]. split; [constructor|lia].
    - cbn [keys_of] in R. destruct (keys_made h1 _ _ a m ks es n C1 H R) as (h2 & -> & N2 & C2). cbn [bind].
      exists h2, (set_at (set_at T p (Some (KLeaf, []))) (h_next h1) (Some (KList DEL_RC, map VPtr (map e_key es)))), [h_next h1]. eexists. split; [reflexivity|]. split; [exact C2|].
      split; [exists (h_next h1); split; [auto|]; split; [auto|]; split; [auto|]; apply at_eq|]. do 3 (split; [reflexivity|]).
      split; [rewrite at_neq by lia; apply at_eq|]. split; [intros x0 NE NI; rewrite !at_neq; auto; intros ->; apply NI; left; auto|].
      split; [intros x0 [<-|[]]; rewrite at_eq; split; [lia|]; split; [lia|discriminate]|]. split; [constructor; [intros []|constructor]|lia]. }
  destruct KEYS as (h2 & T2 & qs & cn & KE & C2 & LO & KN & KT & KM & TP & TO & TQ & NQ & PN). rewrite KE. cbn [bind]. clear KE.
  set (t := h_next h2). destruct (ci_tuple h2 T2 _ p KLeaf [] (VPtr a0) C2 TP) as (h3 & -> & N3 & C3). cbn [bind]. fold t in C3, N3 |- *.
  assert (OLD : forall x, In x (sp :: flat_map own frs) -> T x <> None).
  { intros x [<-|I]; [congruence|]. eapply own_some; eauto. }
  assert (LOW : forall x, In x (sp :: flat_map own frs) -> x < p).
  { intros x I. apply OLD in I. destruct (Nat.lt_ge_cases x p) as [X|X]; auto. exfalso. apply I. eapply ci_fresh; [exact C|exact X]. }
  assert (SPL : sp < p) by (apply LOW; left; auto).
  assert (SPQ : ~ In sp qs) by (intros X; apply TQ in X; lia).
  assert (SP3 : set_at T2 t (Some (KProd [DEL; NOOP], [VPtr p; VPtr a0])) sp = Some (KStack NOOP 500, map VPtr (rev (map f_tup frs)))) by (rewrite at_neq by (unfold t; lia); rewrite TO by (auto; lia); auto).
  unfold stack_push. rewrite (kept_get _ _ _ _ (proj1 (ci_temp _ _ _ C3 _ _ _ SP3))). cbn [bind].
  rewrite map_length, rev_length, map_length. replace (Z.of_nat (length frs) =? 500)%Z with false by (symmetry; apply Z.eqb_neq; lia).
  destruct (ci_put h3 _ _ sp _ _ (map VPtr (rev (map f_tup frs)) ++ [VPtr t]) C3 SP3) as (h4 & -> & N4 & C4). cbn [bind incr_indegree].
  eexists h4, _, _, (Frame t p qs L). split; [reflexivity|].
  assert (TT : forall x, x <> sp -> x <> t -> x <> p -> ~ In x qs -> set_at (set_at T2 t (Some (KProd [DEL; NOOP], [VPtr p; VPtr a0]))) sp (Some (KStack NOOP 500, map VPtr (rev (map f_tup frs)) ++ [VPtr t])) x = T x).
  { intros x A1 A2 A3 A4. rewrite !at_neq by auto. auto. }
  constructor.
  - exact C4.
  - rewrite at_eq. cbn [map f_tup rev]. rewrite map_app. auto.
  - constructor.
    + constructor; cbn [f_tup f_cnt f_lay f_keys]; rewrite ?at_eq; auto.
      * rewrite at_neq by (unfold t; lia). rewrite at_eq. rewrite EP. auto.
      * rewrite !at_neq by (unfold t; lia). auto.
      * eauto.
      * unfold list_of in *. destruct L as [x|a b x|a l es|a m ks es]; auto. destruct LO as (q & -> & A1 & A2 & A3). exists q. split; [auto|]. split; [auto|]. split; [auto|].
        destruct (TQ q) as (Q1 & Q2 & _); [left; auto|]. rewrite !at_neq by (unfold t; lia). auto.
    + eapply frames_ext; [|exact F]. intros x I. assert (LX : x < p) by (apply LOW; right; auto). split; [|apply at_neq; lia].
      apply TT; [|unfold t; lia|lia|intros X; apply TQ in X; lia]. intros ->. inversion ND; auto.
  - cbn [flat_map own f_tup f_cnt f_keys app]. apply nodup_occ. intros x. rewrite !occ_cons, occ_app. apply (proj1 (nodup_occ _)) with (x := x) in ND. rewrite occ_cons in ND.
    apply (proj1 (nodup_occ _)) with (x := x) in NQ.
    assert (A1 : occ x qs = 0 \/ (p < x /\ x < t)). { destruct (occ x qs) eqn:EO; auto. right. destruct (TQ x) as (Q1 & Q2 & _); [apply occ_in; lia|auto]. }
    assert (A2 : occ x (flat_map own frs) = 0 \/ x < p). { destruct (occ x (flat_map own frs)) eqn:EO; auto. right. apply LOW. right. apply occ_in. lia. }
    destruct (Nat.eqb_spec x sp), (Nat.eqb_spec x t), (Nat.eqb_spec x p); cbn [Nat.b2n] in *; unfold t in *; lia.
  - intros x NX. cbn [flat_map own f_tup f_cnt f_keys app]. destruct (Nat.eq_dec x sp) as [->|A1]; [left; auto|]. destruct (Nat.eq_dec x t) as [->|A2]; [right; left; auto|].
    destruct (Nat.eq_dec x p) as [->|A3]; [right; right; left; auto|]. destruct (in_dec Nat.eq_dec x qs) as [A4|A4]; [right; right; right; apply in_app_iff; auto|].
    rewrite TT in NX by auto. apply DM in NX as [NX|NX]; [congruence|]. right. right. right. apply in_app_iff. auto.
  - cbn [length]. lia.
Qed.

(** ** Popping *)
Lemma deep_two : exists d, deep = S (S d).
Proof. destruct deep as [|[|d]]; [lia|lia|eauto]. Qed.
Lemma keys_del h T hk q ks : ci h T (ks ++ hk) -> T q = Some (KList DEL_RC, map VPtr ks) -> keys_in hk ks ->
  exists h', cee_del deep h (VPtr q) = Ok h' /\ ci h' (set_at T q None) hk.
Proof.
  intros C E HK. unfold cee_del, del_e. destruct deep_two as (d & DD). rewrite DD.
  rewrite (kept_trace (S d) h q _ _ (proj1 (ci_temp _ _ _ C _ _ _ E))) by discriminate. cbn [del_fields].
  destruct (ci_uncount h T hk ks (trace_del (S d)) C HK) as (h1 & -> & _ & C1). cbn [bind]. destruct (ci_unlink h1 T hk q _ _ C1 E) as (h2 & E2 & _ & C2). exists h2. auto.
Qed.
Lemma top_del h T hk sp vs t p j : ci h T hk -> T sp = Some (KStack NOOP 500, vs ++ [VPtr t]) -> T t = Some (KProd [DEL; NOOP], [VPtr p; j]) -> T p = Some (KLeaf, []) ->
  exists h', del_top deep h sp = Ok h' /\ ci h' (set_at (set_at (set_at T sp (Some (KStack NOOP 500, vs))) p None) t None) hk.
Proof.
  intros C ES ET EP. unfold del_top, stack_pop. rewrite (kept_get _ _ _ _ (proj1 (ci_temp _ _ _ C _ _ _ ES))). cbn [bind]. rewrite rev_app_distr. cbn [rev app]. rewrite rev_involutive.
  assert (N1 : t <> sp) by congruence. assert (N2 : p <> sp) by congruence. assert (N3 : t <> p) by congruence.
  destruct (ci_put h T hk sp _ _ vs C ES) as (h1 & -> & _ & C1). cbn [bind decr_indegree].
  assert (ET1 : set_at T sp (Some (KStack NOOP 500%Z, vs)) t = Some (KProd [DEL; NOOP], [VPtr p; j])) by (rewrite at_neq; auto).
  assert (EP1 : set_at T sp (Some (KStack NOOP 500%Z, vs)) p = Some (KLeaf, [])) by (rewrite at_neq; auto).
  unfold cee_del. cbn [del_e]. destruct deep_two as (d & DD). rewrite DD. rewrite (kept_trace (S d) h1 t _ _ (proj1 (ci_temp _ _ _ C1 _ _ _ ET1))) by discriminate. cbn [del_fields combine foldm del_e].
  rewrite (kept_trace d h1 p _ _ (proj1 (ci_temp _ _ _ C1 _ _ _ EP1))) by discriminate. cbn [del_fields combine foldm bind].
  destruct (ci_unlink h1 _ hk p _ _ C1 EP1) as (h2 & E2 & _ & C2). rewrite E2. cbn [bind].
  destruct (ci_unlink h2 _ hk t (KProd [DEL; NOOP]) [VPtr p; j] C2) as (h3 & E3 & _ & C3); [rewrite at_neq; auto|]. exists h3. auto.
Qed.
Definition del_keys (L : layout) (n : counter) (h : heap) : outcome heap := match L with LObj _ _ _ _ => cee_del deep h (k_array n) | _ => Ok h end.
Lemma pop_ok h T kn sp fr frs e stk : pi h T kn sp (fr :: frs) (e :: stk) ->
  exists h' T', (let* h := del_keys (f_lay fr) (kn (f_cnt fr)) h in del_top deep h sp) = Ok h' /\ pi h' T' kn sp frs stk.
Proof.
  intros [C SP F ND DM LN]. inversion F as [|? ? ? ? FO F']; subst. cbn [held flat_map] in C. fold (held frs) in C. cbn [length] in LN.
  cbn [map rev] in SP. rewrite map_app in SP. cbn [map] in SP.
  assert (NF : NoDup (sp :: flat_map own frs) /\ forall x, In x (own fr) -> x <> sp /\ ~ In x (flat_map own frs)).
  { cbn [flat_map] in ND. apply NoDup_cons_iff in ND as (NI & ND'). split.
    - constructor; [intros X; apply NI; apply in_app_iff; auto|]. apply nodup_occ. intros x. apply (proj1 (nodup_occ _)) with (x := x) in ND'. rewrite occ_app in ND'. lia.
    - intros x I. split; [intros ->; apply NI; apply in_app_iff; auto|]. intros J. apply (proj1 (nodup_occ _)) with (x := x) in ND'. rewrite occ_app in ND'. apply occ_in in I, J. lia. }
  destruct NF as (ND' & NO).
  assert (KD : exists h1 T1, del_keys (f_lay fr) (kn (f_cnt fr)) h = Ok h1 /\ ci h1 T1 (held frs) /\ (forall x, In x (f_keys fr) -> T1 x = None) /\ (forall x, ~ In x (f_keys fr) -> T1 x = T x)).
  { assert (LO := fo_list _ _ _ _ FO). destruct (fo_laid _ _ _ _ FO) as (n & LD). assert (R : keys_in (held frs) (keys_of (f_lay fr))) by (apply (keys_room T kn frs stk n); [auto|lia|auto]).
    unfold list_of, del_keys in *. destruct (f_lay fr) as [x|a b x|a l es|a m ks es]; cbn [keys_of app] in *.
    - exists h, T. rewrite LO. split; [auto|]. split; [auto|]. split; [intros x0 []|auto].
    - exists h, T. rewrite LO. split; [auto|]. split; [auto|]. split; [intros x0 []|auto].
    - destruct LO as (LO & _). exists h, T. rewrite LO. split; [auto|]. split; [auto|]. split; [intros x0 []|auto].
    - destruct LO as (q & EQ & EA & _ & TQ). destruct (keys_del h T _ q _ C TQ R) as (h1 & E1 & C1). exists h1, (set_at T q None). rewrite EA, EQ. split; [auto|]. split; [auto|]. split.
      + intros x [<-|[]]. apply at_eq.
      + intros x NX. apply at_neq. intros ->. apply NX. left. auto. }
  destruct KD as (h1 & T1 & -> & C1 & K1 & K2). cbn [bind].
  assert (OW : NoDup (own fr)). { cbn [flat_map] in ND. apply NoDup_cons_iff in ND as (_ & NX). apply nodup_occ. intros x. apply (proj1 (nodup_occ _)) with (x := x) in NX. rewrite occ_app in NX. lia. }
  unfold own in OW. inversion OW as [|? ? O1 OW']; subst. inversion OW' as [|? ? O2 _]; subst.
  assert (A1 : ~ In sp (f_keys fr)) by (intros X; destruct (NO sp) as (NN & _); [right; right; auto|congruence]).
  assert (A2 : ~ In (f_tup fr) (f_keys fr)) by (intros X; apply O1; right; auto).
  destruct (top_del h1 T1 (held frs) sp (map VPtr (rev (map f_tup frs))) (f_tup fr) (f_cnt fr) (ptr ss (f_lay fr)) C1) as (h2 & -> & C2).
  - rewrite K2; auto.
  - rewrite K2; auto. apply FO.
  - rewrite K2; auto. apply FO.
  - assert (B1 : f_tup fr <> sp) by (apply NO; left; auto). assert (B2 : f_cnt fr <> sp) by (apply NO; right; left; auto).
    eexists h2, _. split; [reflexivity|]. constructor.
    + exact C2.
    + rewrite !at_neq by auto. apply at_eq.
    + eapply frames_ext; [|exact F']. intros x I. split; [|auto].
      assert (X1 : x <> f_tup fr) by (intros ->; destruct (NO (f_tup fr)) as (_ & NN); [left; auto|auto]).
      assert (X2 : x <> f_cnt fr) by (intros ->; destruct (NO (f_cnt fr)) as (_ & NN); [right; left; auto|auto]).
      assert (X3 : x <> sp) by (intros ->; inversion ND'; auto).
      rewrite !at_neq by auto. apply K2. intros X. destruct (NO x) as (_ & NN); [right; right; auto|auto].
    + auto.
    + intros x NX. destruct (Nat.eq_dec x sp) as [->|D1]; [left; auto|]. destruct (Nat.eq_dec x (f_tup fr)) as [->|D2]; [rewrite at_eq in NX; congruence|].
      rewrite at_neq in NX by auto. destruct (Nat.eq_dec x (f_cnt fr)) as [->|D3]; [rewrite at_eq in NX; congruence|]. rewrite !at_neq in NX by auto.
      destruct (in_dec Nat.eq_dec x (f_keys fr)) as [I|I]; [rewrite K1 in NX by auto; congruence|]. rewrite K2 in NX by auto.
      apply DM in NX as [NX|NX]; [congruence|]. cbn [flat_map own] in NX. destruct NX as [NX|[NX|NX]]; [congruence|congruence|]. apply in_app_iff in NX as [NX|NX]; [contradiction|]. right. auto.
    + lia.
Qed.

(** ** The next element *)
Lemma next_ok h T kn sp fr frs i tabs more j stk : pi h T kn sp (fr :: frs) (Entry i tabs more j :: stk) ->
  let n := kn (f_cnt fr) in
  pi h T (set_at kn (f_cnt fr) (Counter (k_next n + 1) (k_array n) (k_object n) (k_tabs n) (k_more n))) sp (fr :: frs) (Entry (i + 1) tabs more j :: stk).
Proof.
  intros [C SP F ND DM LN] n. constructor; auto. inversion F as [|? ? ? ? FO F']; subst. constructor.
  - destruct FO as [A1 A2 A3 A4 A5 A6 A7 A8]. cbn [e_next e_tabs e_more e_json] in *. constructor; auto; rewrite ?at_eq; cbn [k_next k_tabs k_more e_next e_tabs e_more]; auto.
  - eapply frames_ext; [|exact F']. intros x I. split; [auto|]. apply at_neq. intros ->. cbn [flat_map] in ND. apply NoDup_cons_iff in ND as (_ & ND').
    apply (proj1 (nodup_occ _)) with (x := f_cnt fr) in ND'. rewrite occ_app in ND'. apply occ_in in I. assert (J : In (f_cnt fr) (own fr)) by (right; left; auto). apply occ_in in J. lia.
Qed.

(** ** Reading the members of an object *)
Lemma find_ext keq h h' key ts : (forall t, In t ts -> tuple_get h' t 0 = tuple_get h t 0) -> find_entry keq h' key ts = find_entry keq h key ts.
Proof.
  induction ts as [|t ts IH]; intros E; cbn [find_entry]; [auto|]. rewrite E by (left; auto). destruct (tuple_get h t 0); cbn [bind]; [|auto]. destruct (keq key a); [auto|]. apply IH. intros. apply E. right. auto.
Qed.
Lemma member h T hk n a m ks es i e : ci h T hk -> laid h0 c ss n (LObj a m ks es) -> nth_error es i = Some e ->
  map_find h c m (VPtr (e_key e)) = Ok (ptr ss (e_val e)) /\ key_text h c (VPtr (e_key e)) = Ok (e_name e) /\ laid h0 c ss 1 (e_val e) /\
  obj_find (map (fun e => (fst (fst (fst e)), json_of (snd e))) es) (e_name e) = Some (json_of (e_val e)).
Proof.
  intros C H NE. assert (I : In e es) by (eapply nth_error_In; eauto). pose proof H as H'. apply laid_obj in H' as (_ & _ & _ & ND & FA). rewrite Forall_forall in FA.
  destruct (FA e I) as (OK & CK & OP & LE). split; [|split; [|split; [auto|]]].
  - destruct (JsonEditView.find_laid ss h0 c n a m ks es (same_text c) (VPtr (e_key e)) (e_name e) H) as (ts & es' & OM & PM & ET & _ & FD).
    { apply Forall_forall. intros e' I'. cbn [same_text]. rewrite CK. destruct (FA e' I') as (_ & -> & _). auto. }
    unfold map_find. rewrite (kept_get _ _ _ _ (ci_sees _ _ _ _ _ _ C (kept_obj _ _ _ _ _ OM ltac:(discriminate)))). cbn [bind tl].
    assert (TG : forall e', In e' es -> tuple_get h (VPtr (e_pair e')) 0 = tuple_get h0 (VPtr (e_pair e')) 0 /\ tuple_get h (VPtr (e_pair e')) 1 = Ok (ptr ss (e_val e'))).
    { intros e' I'. destruct (FA e' I') as (_ & _ & OP' & _). assert (K := kept_obj _ _ _ _ _ OP' ltac:(discriminate)). unfold tuple_get. cbn [target bind].
      rewrite (kept_get _ _ _ _ K), (kept_get _ _ _ _ (ci_sees _ _ _ _ _ _ C K)). auto. }
    rewrite (find_ext _ h0 h).
    + rewrite (FD e I eq_refl). cbn [bind]. apply TG. auto.
    + intros t It. subst ts. apply in_map_iff in It as (e' & <- & I'). apply TG. eapply Permutation_in; eauto.
  - unfold key_text. cbn [target bind]. destruct (kept_mem _ _ _ _ (ci_sees _ _ _ _ _ _ C (kept_obj _ _ _ _ _ OK ltac:(discriminate)))) as (b & G & _). unfold get. rewrite G. cbn [bind]. rewrite CK. auto.
  - apply nth_error_split in NE as (l1 & l2 & -> & _). rewrite map_app. cbn [map]. apply JsonPrintProofs.obj_find_at. rewrite map_map. cbn [fst]. rewrite map_app in ND. cbn [map] in ND.
    apply NoDup_remove_2 in ND. intros X. apply ND. apply in_app_iff. auto.
Qed.
Lemma element n a l es i e : laid h0 c ss n (LArr a l es) -> nth_error es i = Some e -> laid h0 c ss 1 e.
Proof. intros H NE. apply laid_arr in H as (_ & _ & H). rewrite Forall_forall in H. apply H. eapply nth_error_In; eauto. Qed.

(** * One iteration *)
Definition scalar (j : json) : Prop := match j with JArr _ | JObj _ => False | _ => True end.
Lemma step_scalar f o e below : scalar (e_json e) -> step fmt_g f o e below = (let* o := pad o (e_tabs e) f in let* o := print_scalar fmt_g o (e_json e) in let* o := comma_if o f e in Ok (o, below)).
Proof. unfold step. destruct (e_json e); cbn [scalar]; intros []; auto. Qed.
Lemma step_ok f h T kn sp fr frs e stk o : pi h T kn sp (fr :: frs) (e :: stk) -> length (fr :: frs) < 500 ->
  match step fmt_g f o e stk with
  | Bad r => mstep fmt_g st ss deep f c sp h kn o = Bad r
  | Ok (o', stk') => exists h' T' kn' frs', mstep fmt_g st ss deep f c sp h kn o = Ok (h', kn', o') /\ pi h' T' kn' sp frs' stk'
  end.
Proof.
  intros P LT. pose proof P as [C SP F ND DM LN]. inversion F as [|? ? ? ? FO F']; subst. destruct FO as [A1 A2 A3 A4 A5 A6 (n & LD) A8].
  unfold mstep, stack_top. rewrite (kept_get _ _ _ _ (proj1 (ci_temp _ _ _ C _ _ _ SP))). cbn [bind map rev]. rewrite map_app. cbn [map]. rewrite last_last.
  unfold tuple_get. cbn [target bind]. rewrite (kept_get _ _ _ _ (proj1 (ci_temp _ _ _ C _ _ _ A1))). cbn [bind nth_error of_option target].
  destruct (kept_mem _ _ _ _ (proj1 (ci_temp _ _ _ C _ _ _ A2))) as (pb & PB & _). assert (GB : get h (f_cnt fr) = Ok pb) by (unfold get; rewrite PB; auto). rewrite GB. cbn [bind]. rewrite (view_laid _ _ _ _ _ C LD). cbn [bind].
  destruct e as [i tabs more j]. cbn [e_next e_tabs e_more e_json] in *. subst.
  assert (NX := next_ok _ _ _ _ _ _ _ _ _ _ _ P). cbv zeta in NX.
  destruct (pop_ok _ _ _ _ _ _ _ _ P) as (hp & Tp & EP & PP).
  set (nn := kn (f_cnt fr)) in *.
  destruct (f_lay fr) as [x|a b x|a l es|a m ks es] eqn:EL; cbn [sight].
  - rewrite step_scalar by (cbn [e_json json_of]; destruct LD as [->|[->| ->]]; exact I). cbn [e_tabs e_more e_json json_of comma_if].
    assert (BS : blob_string st h x = Ok h) by (destruct LD as [->|[->| ->]]; auto). rewrite BS. cbn [bind]. unfold comma_if. cbn [e_more e_tabs].
    destruct (pad o (k_tabs nn) f) as [o1|]; cbn [bind]; [|auto]. destruct (print_scalar fmt_g o1 x) as [o2|]; cbn [bind]; [|auto].
    destruct (if k_more nn then delimiter o2 f (k_tabs nn) 44 else Ok o2) as [o3|]; cbn [bind]; [|auto]. cbn [del_keys bind] in EP. rewrite EP. cbn [bind]. do 4 eexists; (split; [reflexivity|eassumption]).
  - destruct LD as (_ & _ & _ & IB). rewrite step_scalar by (cbn [e_json json_of]; destruct x; cbn in *; tauto). cbn [e_tabs e_more e_json json_of comma_if].
    assert (BS : blob_string st h x = Ok h \/ exists z, x = JBlob z) by (destruct x; cbn in IB; try tauto; eauto).
    destruct BS as [BS|(z & ->)].
    2: { cbn [blob_string]. destruct (ci_new _ _ _ KLeaf [] M_MALLOC C) as (hb & -> & _); [discriminate|]. cbn [bind].
         destruct (pad o (k_tabs nn) f) as [o1|]; cbn [bind]; [|auto].
         assert (PB' : print_scalar fmt_g o1 (JBlob z) = Bad BadVaList) by reflexivity. rewrite PB'. cbn [bind]. auto. }
    rewrite BS. cbn [bind]. unfold comma_if. cbn [e_more e_tabs].
    destruct (pad o (k_tabs nn) f) as [o1|]; cbn [bind]; [|auto]. destruct (print_scalar fmt_g o1 x) as [o2|]; cbn [bind]; [|auto].
    destruct (if k_more nn then delimiter o2 f (k_tabs nn) 44 else Ok o2) as [o3|]; cbn [bind]; [|auto]. cbn [del_keys bind] in EP. rewrite EP. cbn [bind]. do 4 eexists; (split; [reflexivity|eassumption]).
  - unfold step. cbn [e_json json_of e_next e_tabs e_more]. destruct (if k_next nn =? 0 then delimiter o f (k_tabs nn) 91 else Ok o) as [o1|]; cbn [bind]; [|auto].
    destruct A8 as (_ & A8). rewrite A8. cbn [target bind]. pose proof LD as LD'. apply laid_arr in LD' as (_ & OL & _).
    rewrite (kept_get _ _ _ _ (ci_sees _ _ _ _ _ _ C (kept_obj _ _ _ _ _ OL ltac:(discriminate)))). cbn [bind]. rewrite !map_length. rewrite !nth_error_map. destruct (nth_error es (k_next nn)) as [e|] eqn:NE; cbn [option_map].
    + rewrite <- A8. destruct (push_ok _ _ _ _ _ _ 1 e (k_tabs nn + 1) ((1 <? length es) && (k_next nn + 1 <? length es)) NX) as (h' & T' & kn' & fr' & EQ & PI'); [auto|eapply element; eauto|].
      rewrite EQ. cbn [bind]. do 4 eexists; (split; [reflexivity|eassumption]).
    + destruct (delimiter o1 f (k_tabs nn) 93) as [o2|]; cbn [bind]; [|auto]. unfold comma_if. cbn [e_more e_tabs].
      destruct (if k_more nn then delimiter o2 f (k_tabs nn) 44 else Ok o2) as [o3|]; cbn [bind]; [|auto]. cbn [del_keys bind] in EP. rewrite EP. cbn [bind]. do 4 eexists; (split; [reflexivity|eassumption]).
  - unfold step. cbn [e_json json_of e_next e_tabs e_more]. destruct (if k_next nn =? 0 then delimiter o f (k_tabs nn) 123 else Ok o) as [o1|]; cbn [bind]; [|auto].
    destruct A8 as (q & _ & A8 & A9 & A10). rewrite A8, A9. cbn [target bind]. rewrite (kept_get _ _ _ _ (proj1 (ci_temp _ _ _ C _ _ _ A10))). cbn [bind]. rewrite !map_length, !nth_error_map.
    destruct (nth_error es (k_next nn)) as [e|] eqn:NE; cbn [option_map].
    + destruct (member _ _ _ _ _ _ _ _ _ _ C LD NE) as (E1 & E2 & E3 & E4). rewrite E1, E2. cbn [bind]. change (fst (fst (fst e))) with (e_name e). rewrite E4. cbn [bind of_option].
      destruct (pad o1 (k_tabs nn) f) as [o2|]; cbn [bind]; [|auto]. destruct (str_append o2 (c_string_n (e_name e))) as [o3|]; cbn [bind]; [|auto].
      destruct (delimiter o3 f (k_tabs nn) 58) as [o4|]; cbn [bind]; [|auto]. rewrite <- A8, <- A9.
      destruct (push_ok _ _ _ _ _ _ 1 (e_val e) (k_tabs nn + 1) ((1 <? length es) && (k_next nn + 1 <? length es)) NX) as (h' & T' & kn' & fr' & EQ & PI'); [auto|auto|].
      rewrite EQ. cbn [bind]. do 4 eexists; (split; [reflexivity|eassumption]).
    + destruct (delimiter o1 f (k_tabs nn) 125) as [o2|]; cbn [bind]; [|auto]. unfold comma_if. cbn [e_more e_tabs].
      destruct (if k_more nn then delimiter o2 f (k_tabs nn) 44 else Ok o2) as [o3|]; cbn [bind]; [|auto]. cbn [del_keys] in EP. rewrite <- A8.
      destruct (cee_del deep h (k_array nn)) as [h1|]; cbn [bind] in *; [|discriminate]. rewrite EP. cbn [bind]. do 4 eexists; (split; [reflexivity|eassumption]).
Qed.

(** * The loop *)
(** The stack never gets full. *)
Fixpoint bounded (stk : list entry) : Prop :=
  match stk with
  | [] => True
  | e :: below => length below + height (e_json e) + 1 <= 499 /\ bounded below
  end.
Lemma height_arr x l : In x l -> S (height x) <= height (JArr l).
Proof. intros I. cbn [height]. apply (proj1 (Forall_forall _ _) (proj1 (list_max_le _ _) (le_n _))). apply (in_map (fun x => S (height x))). auto. Qed.
Lemma height_obj k x kvs : In (k, x) kvs -> S (height x) <= height (JObj kvs).
Proof. intros I. cbn [height]. apply (proj1 (Forall_forall _ _) (proj1 (list_max_le _ _) (le_n _))). apply (in_map (fun kv : text * json => S (height (snd kv))) _ (k, x)). auto. Qed.
Lemma obj_find_in kvs k x : obj_find kvs k = Some x -> exists k', In (k', x) kvs.
Proof.
  induction kvs as [|(k', y) r IH]; cbn [obj_find]; [discriminate|]. destruct (text_eqb k k'); [intros X; injection X as ->; exists k'; left; auto|].
  intros X. destruct (IH X) as (k2 & J). exists k2. right. auto.
Qed.
Lemma bounded_step f o e below o' stk : bounded (e :: below) -> step fmt_g f o e below = Ok (o', stk) -> bounded stk.
Proof.
  intros (B & BB) E. assert (NX : forall x i, S (height x) <= height (e_json e) -> forall t m, bounded (mk_entry t m x :: Entry i (e_tabs e) (e_more e) (e_json e) :: below)).
  { intros x i HX t m. cbn [bounded length mk_entry e_json]. split; [lia|]. split; [lia|auto]. }
  unfold step in E. destruct (e_json e) as [| | | | | | | | |l|kvs] eqn:EJ;
    try (destruct (pad _ _ _); cbn [bind] in E; [|discriminate]; destruct (print_scalar _ _ _); cbn [bind] in E; [|discriminate]; destruct (comma_if _ _ _); cbn [bind] in E; [|discriminate]; injection E as _ <-; exact BB).
  - destruct (if e_next e =? 0 then _ else _); cbn [bind] in E; [|discriminate]. destruct (nth_error l (e_next e)) as [x|] eqn:N.
    + injection E as _ <-. apply NX. apply height_arr. eapply nth_error_In; eauto.
    + destruct (delimiter _ _ _ _); cbn [bind] in E; [|discriminate]. destruct (comma_if _ _ _); cbn [bind] in E; [|discriminate]. injection E as _ <-. exact BB.
  - destruct (if e_next e =? 0 then _ else _); cbn [bind] in E; [|discriminate]. destruct (nth_error kvs (e_next e)) as [(k, x0)|] eqn:N.
    + destruct (obj_find kvs k) as [x|] eqn:OF; cbn [of_option bind] in E; [|discriminate]. destruct (pad _ _ _); cbn [bind] in E; [|discriminate].
      destruct (str_append _ _); cbn [bind] in E; [|discriminate]. destruct (delimiter _ _ _ _); cbn [bind] in E; [|discriminate]. injection E as _ <-.
      apply NX. destruct (obj_find_in _ _ _ OF) as (k' & J). eapply height_obj; eauto.
    + destruct (delimiter _ _ _ _); cbn [bind] in E; [|discriminate]. destruct (comma_if _ _ _); cbn [bind] in E; [|discriminate]. injection E as _ <-. exact BB.
Qed.

(** what is on the stack at the end *)
Fixpoint rest (f : fmt) (fuel : nat) (o : output) (stk : list entry) : list entry :=
  match stk with
  | [] => []
  | e :: below =>
    if length stk =? 500 then stk
    else match fuel with
         | O => stk
         | S n => match step fmt_g f o e below with Ok (o, stk) => rest f n o stk | Bad _ => stk end
         end
  end.
Lemma forall2_length {A B} (R : A -> B -> Prop) l m : Forall2 R l m -> length l = length m.
Proof. induction 1; cbn [length]; auto. Qed.
Lemma run_ok f fuel : forall h T kn sp frs stk o, pi h T kn sp frs stk ->
  match run fmt_g fuel f o stk with
  | Bad r => mrun fmt_g st ss deep fuel f c sp h kn o = Bad r
  | Ok o' => exists h' T' kn' frs', mrun fmt_g st ss deep fuel f c sp h kn o = Ok (h', o') /\ pi h' T' kn' sp frs' (rest f fuel o stk) /\ (bounded stk -> frs' = [])
  end.
Proof.
  induction fuel as [|fuel IH]; intros h T kn sp frs stk o P; pose proof P as [C SP F ND DM LN]; assert (GS := kept_get _ _ _ _ (proj1 (ci_temp _ _ _ C _ _ _ SP)));
    destruct F as [|fr e frs stk FO F]; cbn [run mrun rest]; rewrite GS; cbn [bind]; rewrite map_length, rev_length, map_length; cbn [length]; rewrite ?Nat.eqb_refl; try (change (S (length frs) =? 0) with false); cbn [orb].
  - exists h, T, kn, []. auto.
  - assert (EL : length stk = length frs) by (symmetry; eapply forall2_length; eauto). unfold stack_capacity. rewrite EL. destruct (Nat.eqb_spec (S (length frs)) 500) as [Q|Q].
    + replace (500 <=? Z.of_nat (S (length frs)))%Z with true by (symmetry; apply Z.leb_le; lia). exists h, T, kn, (fr :: frs). split; [auto|]. split; [auto|].
      cbn [bounded]. intros (B & _). lia.
    + cbn [length] in LN. replace (500 <=? Z.of_nat (S (length frs)))%Z with false by (symmetry; apply Z.leb_gt; lia). auto.
  - exists h, T, kn, []. auto.
  - assert (EL : length stk = length frs) by (symmetry; eapply forall2_length; eauto). unfold stack_capacity. rewrite EL. destruct (Nat.eqb_spec (S (length frs)) 500) as [Q|Q].
    + replace (500 <=? Z.of_nat (S (length frs)))%Z with true by (symmetry; apply Z.leb_le; lia). exists h, T, kn, (fr :: frs). split; [auto|]. split; [auto|].
      cbn [bounded]. intros (B & _). lia.
    + cbn [length] in LN. replace (500 <=? Z.of_nat (S (length frs)))%Z with false by (symmetry; apply Z.leb_gt; lia).
      assert (ST := step_ok f h T kn sp fr frs e stk o P). cbn [length] in ST. specialize (ST ltac:(lia)).
      destruct (step fmt_g f o e stk) as [(o1, stk1)|r] eqn:ES; cbn [bind]; [|rewrite ST; auto].
      destruct ST as (h1 & T1 & kn1 & frs1 & -> & P1). cbn [bind]. specialize (IH h1 T1 kn1 sp frs1 stk1 o1 P1).
      destruct (run fmt_g fuel f o1 stk1) as [o2|r]; [|auto]. destruct IH as (h2 & T2 & kn2 & frs2 & E2 & P2 & B2). exists h2, T2, kn2, frs2. split; [auto|]. split; [auto|].
      intros B. apply B2. eapply bounded_step; eauto.
Qed.

(** * cee_json_snprint *)
Lemma foldm_noop tr vs : forall h, foldm (del_e tr) h (map (pair NOOP) vs) = Ok h.
Proof. induction vs as [|v vs IH]; intros h; cbn [map foldm del_e bind]; auto. Qed.
Lemma snprint_mem fuel f buf n L : laid h0 c ss n L ->
  match snprint fmt_g fuel f buf (json_of L) with
  | Bad r => msnprint fmt_g st ss deep fuel f h0 c buf (ptr ss L) = Bad r
  | Ok x => exists h', msnprint fmt_g st ss deep fuel f h0 c buf (ptr ss L) = Ok (h', x) /\ W h' /\ h_next h0 <= h_next h' /\
      (height (json_of L) <= 498 -> forall y, look h' y = look h0 y) /\
      (exists xs, 2 * length (rest f fuel (Output 0 buf) [mk_entry 0 false (json_of L)]) <= length xs /\ NoDup xs /\ Forall (fun y => look h0 y = None /\ look h' y <> None) xs)
  end.
Proof.
  intros H. unfold snprint, msnprint, mk_stack.
  destruct (ci_new h0 _ [] (KStack NOOP 500) [] M_IDENTITY ci_start) as (h1 & E1 & N1 & C1); [discriminate|]. rewrite E1. cbn [bind]. clear E1.
  set (sp := h_next h0) in *.
  assert (P1 : pi h1 (set_at (fun _ => None) sp (Some (KStack NOOP 500%Z, []))) (fun _ => Counter 0 VNull VNull 0 false) sp [] []).
  { constructor; cbn [map rev flat_map held length]; auto.
    - apply at_eq.
    - constructor; [intros []|constructor].
    - intros x NX. left. destruct (Nat.eq_dec sp x); auto. rewrite at_neq in NX by auto. congruence.
    - lia. }
  destruct (push_ok _ _ _ _ _ _ n L 0 false P1) as (h2 & T2 & kn2 & fr & E2 & P2); [cbn; lia|auto|]. rewrite E2. cbn [bind].
  assert (R := run_ok f fuel h2 T2 kn2 sp [fr] [mk_entry 0 false (json_of L)] (Output 0 buf) P2).
  destruct (run fmt_g fuel f (Output 0 buf) [mk_entry 0 false (json_of L)]) as [o|r]; cbn [bind]; [|rewrite R; auto].
  destruct R as (h3 & T3 & kn3 & frs3 & E3 & P3 & B3). rewrite E3. cbn [bind].
  unfold cee_del. cbn [del_e]. destruct deep_two as (d & DD). rewrite DD. destruct P3 as [C3 SP3 F3 ND3 DM3 LN3].
  rewrite (kept_trace (S d) h3 sp _ _ (proj1 (ci_temp _ _ _ C3 _ _ _ SP3))) by discriminate. cbn [del_fields]. rewrite foldm_noop. cbn [bind].
  destruct (ci_unlink h3 T3 _ sp _ _ C3 SP3) as (h4 & E4 & N4 & C4). rewrite E4. cbn [bind].
  destruct (write_at (o_buf o) (o_off o) [0%Z]) as [b|r]; cbn [bind]; [|auto]. exists h4. split; [auto|]. split; [apply C4|]. split; [apply C4|]. split.
  2:{ exists (flat_map own frs3). rewrite <- (forall2_length _ _ _ F3). apply NoDup_cons_iff in ND3 as (NSP & ND3). split; [|split; [auto|]].
      - clear. induction frs3 as [|fr frs IH]; cbn [flat_map length]; [auto|]. rewrite app_length. cbn [own length]. lia.
      - apply Forall_forall. intros y I. assert (TY : T3 y <> None) by (apply (own_some T3 kn3 frs3 _ y F3 I)). destruct (T3 y) as [(k, vs)|] eqn:EY; [|congruence].
        assert (E5 : set_at T3 sp None y = Some (k, vs)) by (rewrite at_neq; [auto|intros ->; auto]). destruct (ci_temp _ _ _ C4 _ _ _ E5) as (K5 & L5). split; [|eapply kept_live; eauto].
        destruct (look h0 y) eqn:Q; auto. assert (y < h_next h0); [|lia]. apply (W_below st); auto. congruence. }
  intros HB y. rewrite B3 in * by (cbn [bounded length mk_entry e_json]; lia). cbn [held flat_map] in *. rewrite (ci_rest _ _ _ C4).
  - rewrite occ_nil. apply bump_0.
  - destruct (Nat.eq_dec y sp) as [->|NE]; [apply at_eq|]. rewrite at_neq by auto. destruct (T3 y) eqn:EY; auto. exfalso. destruct (DM3 y) as [X|[]]; congruence.
Qed.
End Sim.

(** * cee_json_asprint *)
Lemma laid_same h h' c ss n L : (forall x, look h' x = look h x) -> laid h c ss n L -> laid h' c ss n L.
Proof. intros E H. eapply laid_ext; [|exact H]. intros x _. auto. Qed.
Lemma asprint_mem fmt_g st ss deep h c fuel f init n L : W st h -> static_ok h ss -> NoDup [s_true ss; s_false ss; s_null ss] -> 2 <= deep -> laid h c ss n L -> height (json_of L) <= 498 ->
  match asprint fmt_g fuel f init (json_of L) with
  | Bad r => masprint fmt_g st ss deep fuel f init h c (ptr ss L) = Bad r
  | Ok x => exists h' b, masprint fmt_g st ss deep fuel f init h c (ptr ss L) = Ok (h', VPtr b, x) /\ W st h' /\ h_next h <= b /\ h_next h <= h_next h' /\
      obj h' b KLeaf [] 0 /\ (forall y, y <> b -> look h' y = look h y)
  end.
Proof.
  intros Wh S0 SD DP H HB. unfold asprint, masprint. assert (A := snprint_mem fmt_g st ss deep h c Wh S0 SD DP fuel f None n L H).
  destruct (snprint fmt_g fuel f None (json_of L)) as [(k, b0)|r]; cbn [bind]; [|rewrite A; auto]. destruct A as (h1 & -> & W1 & N1 & X1 & _). cbn [bind fst]. specialize (X1 HB).
  destruct (mk_obj_view st h1 KLeaf [] M_MALLOC W1) as (h2 & E2 & W2 & N2 & O2 & X2); [discriminate|]. rewrite E2. cbn [bind].
  assert (FR : look h1 (h_next h1) = None). { destruct (look h1 (h_next h1)) eqn:Q; auto. assert (h_next h1 < h_next h1); [|lia]. apply (W_below st); auto. congruence. }
  assert (H2 : laid h2 c ss n L). { eapply laid_ext; [|exact H]. intros x I. split; [|auto]. rewrite X2; [auto|]. intros ->. assert (Q := JsonEditOps.laid_live ss _ _ _ _ _ H I). rewrite <- X1 in Q. congruence. }
  assert (S2 : static_ok h2 ss). { intros a I. destruct (S0 a I) as (m & O). apply static_obj. apply obj_static in O. rewrite X2; [rewrite X1; auto|]. intros ->. rewrite <- X1 in O. congruence. }
  set (buf := Some (map init (seq 0 (Z.to_nat k + 1)))). assert (B := snprint_mem fmt_g st ss deep h2 c W2 S2 SD DP fuel f buf n L H2).
  destruct (snprint fmt_g fuel f buf (json_of L)) as [(k', [t|])|r]; cbn [bind of_option].
  - destruct B as (h3 & -> & W3 & N3 & X3 & _). cbn [bind fst snd of_option]. exists h3, (h_next h1). split; [auto|]. split; [auto|]. split; [lia|]. split; [lia|]. specialize (X3 HB). split.
    + eapply obj_ext; [discriminate|apply X3|exact O2].
    + intros y NE. rewrite X3, X2, X1; auto.
  - destruct B as (h3 & -> & _). auto.
  - rewrite B. auto.
Qed.
