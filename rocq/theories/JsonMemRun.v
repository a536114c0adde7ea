(** The parser on the heap does what the parser on values does. *)
From Coq Require Import ZArith List Bool Lia Permutation.
From Verif Require Import Base Json JsonTokModel JsonParseModel HeapModel HeapChainProofs HeapHistory JsonMemModel JsonMemSpec JsonMemView JsonMemDel JsonMemOps JsonMemAdd.
From Verif Require JsonParseProofs.
Import ListNotations.
Open Scope nat_scope.
Open Scope outcome_scope.
Local Arguments Z.add : simpl never.
Local Arguments Z.sub : simpl never.
Local Arguments Z.eqb : simpl never.
Local Arguments Z.of_nat : simpl never.
Local Arguments core : simpl never.

Section Run.
Variable strtod : text -> Z.
Variables (st : addr) (ss : statics) (place : heap -> addr -> nat) (deep : nat).
(** the heap before *)
Variables (h0 : heap) (c0 : contents).
Notation W := (W st).
Hypothesis W0 : W h0.
Hypothesis S0 : static_ok h0 ss.
Hypothesis DP : 2 <= deep.
(** whether nothing has been replaced so far *)
Variable cl : bool.

(** Nothing old has changed, and [R] are the new objects. *)
Record inv (h : heap) (c : contents) (R : list addr) : Prop := Inv {
  i_W : W h;
  i_next : h_next h0 <= h_next h;
  i_old : forall x, x < h_next h0 -> look h x = look h0 x /\ c x = c0 x;
  i_live : forall x, h_next h0 <= x -> (look h x <> None <-> In x R);
  i_new : forall x, In x R -> h_next h0 <= x;
  i_one : forall x, occ x R <= 1
}.
Lemma inv_static h c R : inv h c R -> static_ok h ss.
Proof.
  intros I a IA. destruct (S0 a IA) as (n & O). apply static_obj. destruct (i_old _ _ _ I a) as (-> & _); [|eapply obj_static; eauto].
  apply (W_below st); auto. rewrite look_none. eapply obj_live; eauto.
Qed.
Lemma inv_lt h c R x : inv h c R -> In x R -> x < h_next h.
Proof. intros I IX. apply (W_below st); [apply I|]. apply (i_live _ _ _ I); auto. apply (i_new _ _ _ I). auto. Qed.
Lemma inv_same h c R R' : (forall x, occ x R' = occ x R) -> inv h c R -> inv h c R'.
Proof.
  intros E I. assert (EI : forall x, In x R' <-> In x R) by (intros; rewrite !occ_in, E; tauto).
  destruct I as [A B C D F G]. constructor; auto; intros x; [rewrite EI; auto|rewrite EI; auto|rewrite E; auto].
Qed.
Lemma inv_move h c R h' c' R' T : inv h c R -> W h' -> h_next h <= h_next h' -> (forall x, ~ In x T -> look h' x = look h x /\ c' x = c x) ->
  (forall x, In x T -> In x R \/ h_next h <= x) -> (forall x, occ x R' <= 1) -> (forall x, In x T -> (look h' x <> None <-> In x R')) ->
  (forall x, ~ In x T -> (In x R <-> In x R')) -> inv h' c' R'.
Proof.
  intros I W' N E TR ONE TL TN. assert (NN := i_next _ _ _ I). constructor; auto.
  - lia.
  - intros x X. assert (NT : ~ In x T). { intros Y. apply TR in Y as [Y|Y]; [apply (i_new _ _ _ I) in Y; lia|lia]. }
    destruct (E x NT) as (-> & ->). apply (i_old _ _ _ I). auto.
  - intros x X. destruct (in_dec Nat.eq_dec x T) as [Y|Y]; [auto|]. destruct (E x Y) as (-> & _). rewrite <- TN by auto. apply (i_live _ _ _ I). auto.
  - intros x X. destruct (in_dec Nat.eq_dec x T) as [Y|Y]; [apply TR in Y as [Y|Y]; [apply (i_new _ _ _ I); auto|lia]|].
    apply (i_new _ _ _ I). apply TN; auto.
Qed.
(** nothing disappears: [R] and [N] are there afterwards *)
Lemma inv_grow h c R h' c' T N : inv h c R -> W h' -> h_next h <= h_next h' -> (forall x, ~ In x T -> look h' x = look h x /\ c' x = c x) ->
  (forall x, In x T -> In x R \/ In x N) -> (forall x, In x N -> In x T) -> (forall x, In x N -> h_next h <= x) -> NoDup N ->
  (forall x, In x T -> thing h' x) -> inv h' c' (R ++ N).
Proof.
  intros I W' NX E TR NT NF ND TH. eapply inv_move; [exact I|auto|auto|exact E| | | |].
  - intros x X. destruct (TR x X); auto.
  - intros x. rewrite occ_app. assert (A := i_one _ _ _ I x). assert (B := proj1 (nodup_occ N) ND x).
    destruct (occ x R) eqn:OR; [lia|]. destruct (occ x N) eqn:ON; [lia|]. exfalso.
    assert (IR : In x R) by (rewrite occ_in; lia). assert (IN : In x N) by (rewrite occ_in; lia). apply NF in IN. apply (inv_lt _ _ _ _ I) in IR. lia.
  - intros x X. split; [intros _; apply in_app_iff; auto|]. intros _. apply thing_live. auto.
  - intros x X. rewrite in_app_iff. split; [auto|]. intros [Y|Y]; [auto|]. destruct X. auto.
Qed.

(** * The values being built *)
Definition cnt (xs : list ctx) : Z := match xs with [] => 0 | _ => 1 end.
Definition back (xs : list ctx) : pstate :=
  match xs with [] => DONE | XArr _ _ _ :: _ => ACOMMA | XObj _ _ _ _ _ _ _ _ :: _ => OCOMMA end.
Definition holds (h : heap) (ret : addr -> pstate) (t : addr) (f : frame) (p : val) (xs : list ctx) : Prop :=
  obj h t (KProd [NOOP; NOOP]) [VForeign; p] 0 /\ ret t = f_ret f /\ f_ret f = back xs.
Definition waits (f : frame) (x : ctx) (fk : option text) : Prop :=
  match x with
  | XArr _ _ es => fk = None /\ f_val f = Some (JArr (map json_of es))
  | XObj _ _ _ es1 name _ _ es2 => fk = Some name /\ exists kvs, f_val f = Some (JObj kvs) /\ forall v, obj_put kvs name v = ents es1 ++ (name, v) :: ents es2
  end.
Fixpoint spine (h : heap) (c : contents) (ret : addr -> pstate) (fs : list frame) (xs : list ctx) (ts : list addr) (p : val) (fk : option text) : Prop :=
  match fs, xs, ts with
  | [], [], [] => True
  | f :: fs, x :: xs, t :: ts =>
    holds h ret t f (VPtr (xaddr x)) xs /\ lx h c ss (cnt xs) p x /\ waits f x fk /\ spine h c ret fs xs ts (VPtr (xaddr x)) (f_key f)
  | _, _, _ => False
  end.
Lemma spine_ext h c ret h' c' ret' : forall fs xs ts p fk, (forall y, In y (ts ++ flat_map xblocks xs) -> look h' y = look h y /\ c' y = c y) ->
  (forall y, In y ts -> ret' y = ret y) -> spine h c ret fs xs ts p fk -> spine h' c' ret' fs xs ts p fk.
Proof.
  induction fs as [|f fs IH]; intros [|x xs] [|t ts] p fk E ER; cbn [spine]; try tauto. cbn [app flat_map] in E.
  intros ((A & B & C) & X & Wt & S). split; [|split; [|split; [auto|]]].
  - split; [eapply obj_ext; [discriminate|apply E; left; auto|auto]|]. split; [rewrite ER; [auto|left; auto]|auto].
  - eapply lx_ext; [|exact X]. intros y Y. apply E. right. apply in_app_iff. right. apply in_app_iff. auto.
  - eapply IH; [| |exact S].
    + intros y Y. apply E. right. rewrite in_app_iff in *. rewrite in_app_iff. tauto.
    + intros y Y. apply ER. right. auto.
Qed.

Definition inside (s : pstate) (L : layout) : Prop :=
  match s with
  | AVALUE | ACOMMA => exists a l es, L = LArr a l es
  | OKEY | OCOLON | OVALUE | OCOMMA => exists a m ks es, L = LObj a m ks es
  | _ => False
  end.
Definition keyed (h : heap) (c : contents) (s : pstate) (mk : option text) (qk : val) (kb : list addr) : Prop :=
  match s with
  | OCOLON | OVALUE => exists k name, qk = VPtr k /\ mk = Some name /\ kb = [k] /\ obj h k KLeaf [] 0 /\ c k = JStr name
  | _ => kb = []
  end.
Definition stk (h : heap) (sp : addr) (ts : list addr) : Prop := obj h sp (KStack NOOP 512) (map VPtr (rev ts)) 0.
(** A value [L] on top of open containers *)
Definition half (h : heap) (c : contents) (ret : addr -> pstate) (sp : addr) (fs : list frame) (fk : option text) (L : layout)
    (xs : list ctx) (ts : list addr) (ds : list layout) (R : list addr) : Prop :=
  stk h sp ts /\ spine h c ret fs xs ts (ptr ss L) fk /\ laid h c ss (cnt xs) L /\ Forall (laid h c ss 0) ds /\
  forall y, occ y R = occ y [sp] + occ y ts + occ y (blocks L) + occ y (flat_map xblocks xs) + occ y (flat_map blocks ds).
Inductive good (h : heap) (c : contents) (ret : addr -> pstate) (sp : addr) : pstate -> option text -> val -> list frame -> list addr -> Prop :=
| g_start t mk qk R : stk h sp [t] -> holds h ret t (Frame DONE None None) VNull [] -> (forall y, occ y R = occ y [sp; t]) ->
    good h c ret sp VALUE mk qk [Frame DONE None None] R
| g_open s mk qk top fs R t ts xs L kb ds :
    stk h sp (t :: ts) -> holds h ret t top (ptr ss L) xs -> spine h c ret fs xs ts (ptr ss L) (f_key top) -> f_val top = Some (json_of L) ->
    laid h c ss (cnt xs) L -> inside s L -> keyed h c s mk qk kb -> Forall (laid h c ss 0) ds -> (cl = true -> ds = []) ->
    (forall y, occ y R = occ y [sp] + occ y (t :: ts) + occ y (blocks L) + occ y (flat_map xblocks xs) + occ y kb + occ y (flat_map blocks ds)) ->
    good h c ret sp s mk qk (top :: fs) R.

Lemma stk_ext h h' sp ts : look h' sp = look h sp -> stk h sp ts -> stk h' sp ts.
Proof. intros E. apply obj_ext; [discriminate|auto]. Qed.
Lemma keyed_ext h c h' c' s mk qk kb : (forall y, In y kb -> look h' y = look h y /\ c' y = c y) -> keyed h c s mk qk kb -> keyed h' c' s mk qk kb.
Proof.
  intros E. destruct s; auto; intros (k & name & -> & -> & -> & O & C); exists k, name; (split; [auto|]; split; [auto|]; split; [auto|]; split;
    [eapply obj_ext; [discriminate|apply E; left; auto|auto]|rewrite <- C; apply E; left; auto]).
Qed.
Lemma all_ext h c h' c' n ds : (forall y, In y (flat_map blocks ds) -> look h' y = look h y /\ c' y = c y) -> Forall (laid h c ss n) ds -> Forall (laid h' c' ss n) ds.
Proof. intros E. rewrite !Forall_forall. intros H L I. eapply laid_ext; [|apply H; auto]. intros y Y. apply E. apply in_flat_map. eauto. Qed.
Lemma half_ext h c ret h' c' ret' sp fs fk L xs ts ds R : (forall y, In y R -> look h' y = look h y /\ c' y = c y) -> (forall y, In y R -> ret' y = ret y) ->
  half h c ret sp fs fk L xs ts ds R -> half h' c' ret' sp fs fk L xs ts ds R.
Proof.
  intros E ER (A & B & C & D & O).
  assert (I : forall y, 0 < occ y [sp] + occ y ts + occ y (blocks L) + occ y (flat_map xblocks xs) + occ y (flat_map blocks ds) -> In y R) by (intros; rewrite occ_in, O; auto).
  split; [eapply stk_ext; [|exact A]; apply E; apply I; occs; rewrite Nat.eqb_refl; cbn; lia|]. split; [|split; [|split; [|auto]]].
  - eapply spine_ext; [| |exact B]; intros y Y; [apply E|apply ER]; apply I; rewrite occ_in in Y; occs; lia.
  - eapply laid_ext; [|exact C]. intros y Y. apply E. apply I. rewrite occ_in in Y. lia.
  - eapply all_ext; [|exact D]. intros y Y. apply E. apply I. rewrite occ_in in Y. lia.
Qed.
Lemma good_ext h c ret h' c' ret' sp s mk qk fs R : (forall y, In y R -> look h' y = look h y /\ c' y = c y) -> (forall y, In y R -> ret' y = ret y) ->
  good h c ret sp s mk qk fs R -> good h' c' ret' sp s mk qk fs R.
Proof.
  intros E ER G. destruct G as [t mk qk R A (B1 & B2 & B3) O|s mk qk top fs R t ts xs L kb ds A (B1 & B2 & B3) S V H I K D CL O].
  - assert (IT : In t R /\ In sp R). { rewrite !occ_in, !O. occs. rewrite !Nat.eqb_refl. cbn [Nat.b2n]. lia. }
    econstructor; [eapply stk_ext; [apply E; apply IT|exact A]|split; [eapply obj_ext; [discriminate|apply E; apply IT|exact B1]|split; [rewrite ER; [auto|apply IT]|auto]]|exact O].
  - assert (IR : forall y, 0 < occ y [sp] + occ y (t :: ts) + occ y (blocks L) + occ y (flat_map xblocks xs) + occ y kb + occ y (flat_map blocks ds) -> In y R) by (intros; rewrite occ_in, O; auto).
    assert (IT : In t R /\ In sp R). { split; apply IR; occs; rewrite !Nat.eqb_refl; cbn [Nat.b2n]; lia. }
    eapply (g_open h' c' ret' sp s mk qk top fs R t ts xs L kb ds).
    + eapply stk_ext; [apply E; apply IT|exact A].
    + split; [eapply obj_ext; [discriminate|apply E; apply IT|exact B1]|split; [rewrite ER; [auto|apply IT]|auto]].
    + eapply spine_ext; [| |exact S]; intros y Y; [apply E|apply ER]; apply IR; rewrite occ_in in Y; occs; lia.
    + auto.
    + eapply laid_ext; [|exact H]. intros y Y. apply E. apply IR. rewrite occ_in in Y. lia.
    + auto.
    + eapply keyed_ext; [|exact K]. intros y Y. apply E. apply IR. rewrite occ_in in Y. lia.
    + eapply all_ext; [|exact D]. intros y Y. apply E. apply IR. rewrite occ_in in Y. lia.
    + auto.
    + auto.
Qed.
Lemma good_same h c ret sp s mk qk fs R R' : (forall y, occ y R' = occ y R) -> good h c ret sp s mk qk fs R -> good h c ret sp s mk qk fs R'.
Proof. intros E G. destruct G; [eapply g_start|eapply g_open]; eauto; intros y; rewrite E; auto. Qed.
Lemma good_stack h c ret sp s mk qk fs R : good h c ret sp s mk qk fs R -> In sp R /\ exists ts, stk h sp ts /\ length ts = length fs.
Proof.
  intros G. destruct G as [t mk qk R A B O|s mk qk top fs R t ts xs L kb ds A B S V H I K D CL O].
  - split; [rewrite occ_in, O; occs; rewrite Nat.eqb_refl; cbn [Nat.b2n]; lia|]. exists [t]. auto.
  - split; [rewrite occ_in, O; occs; rewrite Nat.eqb_refl; cbn [Nat.b2n]; lia|]. exists (t :: ts). split; [auto|]. cbn [length]. f_equal. clear - S.
    revert xs ts S. generalize (ptr ss L), (f_key top). induction fs as [|f fs IH]; intros p fk [|x xs] [|t ts] S; cbn [spine] in S; try tauto; auto.
    cbn [length]. f_equal. destruct S as (_ & _ & _ & S). eapply IH. exact S.
Qed.

(** * The whole state *)
Definition resid (h : heap) (v : val) (rb : list addr) : Prop :=
  (v = VNull /\ rb = []) \/ exists t vs, v = VPtr t /\ rb = [t] /\ obj h t (KProd [NOOP; NOOP]) vs 0 /\ length vs <= 2.
Definition sim (sp : addr) (q : mem) (m : machine) : Prop :=
  q_state q = m_state m /\ q_tok q = m_tok m /\
  exists R, inv (q_heap q) (q_cont q) R /\ In sp R /\ (exists ts, stk (q_heap q) sp ts /\ length ts = length (m_stack m)) /\
  match m_state m with
  | ERROR => True
  | DONE => m_stack m = [] /\ exists t L ds, q_result q = VPtr t /\ m_result m = Some (json_of L) /\
      obj (q_heap q) t (KProd [NOOP; NOOP]) [VForeign; ptr ss L] 0 /\ laid (q_heap q) (q_cont q) ss 0 L /\ Forall (laid (q_heap q) (q_cont q) ss 0) ds /\ (cl = true -> ds = []) /\
      forall y, occ y R = occ y [sp; t] + occ y (blocks L) + occ y (flat_map blocks ds)
  | s => exists Rg rb, (forall y, occ y R = occ y Rg + occ y rb) /\
      good (q_heap q) (q_cont q) (q_ret q) sp s (m_key m) (q_key q) (m_stack m) Rg /\ resid (q_heap q) (q_result q) rb
  end.
Lemma sim_error sp q m R : q_state q = ERROR -> m_state m = ERROR -> q_tok q = m_tok m -> inv (q_heap q) (q_cont q) R -> In sp R ->
  (exists ts, stk (q_heap q) sp ts /\ length ts = length (m_stack m)) -> sim sp q m.
Proof. intros A B C D E F. split; [congruence|]. split; [auto|]. exists R. split; [auto|]. split; [auto|]. split; [auto|]. rewrite B. exact I. Qed.
Lemma good_state h c ret sp s mk qk fs R : good h c ret sp s mk qk fs R -> s <> ERROR /\ s <> DONE.
Proof. intros G. destruct G as [|s mk qk top fs R t ts xs L kb ds A B S V H I K D CL O]; [split; discriminate|]. split; intros ->; exact I. Qed.
Lemma sim_good sp q m R rb : q_state q = m_state m -> q_tok q = m_tok m -> inv (q_heap q) (q_cont q) (R ++ rb) ->
  good (q_heap q) (q_cont q) (q_ret q) sp (m_state m) (m_key m) (q_key q) (m_stack m) R -> resid (q_heap q) (q_result q) rb -> sim sp q m.
Proof.
  intros A B I G RS. destruct (good_stack _ _ _ _ _ _ _ _ _ G) as (IS & T). split; [auto|]. split; [auto|]. exists (R ++ rb). split; [auto|]. split; [apply in_app_iff; auto|]. split; [auto|].
  destruct (good_state _ _ _ _ _ _ _ _ _ G) as (N1 & N2).
  assert (X : exists Rg rb0, (forall y, occ y (R ++ rb) = occ y Rg + occ y rb0) /\
      good (q_heap q) (q_cont q) (q_ret q) sp (m_state m) (m_key m) (q_key q) (m_stack m) Rg /\ resid (q_heap q) (q_result q) rb0).
  { exists R, rb. split; [intros; apply occ_app|auto]. }
  destruct (m_state m); auto; congruence.
Qed.

(** A finished value goes into the container that waits for it. *)
Lemma half_close h c ret sp f fs fk L xs ts ds R mk qk : half h c ret sp (f :: fs) fk L xs ts ds R -> (cl = true -> ds = []) ->
  good h c ret sp (back xs) mk qk (JsonParseProofs.put_value fk (f :: fs) (json_of L)) R /\
  (forall m tok top, f_val top = Some (json_of L) -> f_key top = fk -> f_ret top = back xs ->
     pop m tok top (f :: fs) = Ok (Machine (back xs) (JsonParseProofs.put_value fk (f :: fs) (json_of L)) (m_key m) tok (Some (json_of L)))).
Proof.
  intros (A & S & H & D & O) CL. destruct xs as [|x xs], ts as [|t ts]; cbn [spine] in S; try tauto. destruct S as ((T1 & T2 & T3) & X & Wt & S).
  pose proof (plug_laid _ _ _ _ _ _ X H) as HP. cbn [cnt] in H.
  assert (PA : ptr ss (plug x L) = VPtr (xaddr x)) by (destruct x; auto).
  destruct x as [a l es|a m ks es1 name k t' es2]; cbn [waits] in Wt.
  - destruct Wt as (-> & V). destruct f as [fr fkey fv]. cbn [f_val f_ret f_key] in *. subst fv. cbn [JsonParseProofs.put_value back]. split.
    + eapply (g_open h c ret sp ACOMMA mk qk _ fs R t ts xs (plug (XArr a l es) L) [] ds); auto.
      * split; [auto|]. split; [auto|auto].
      * cbn [plug f_val json_of]. rewrite map_app. auto.
      * cbn. eauto.
      * reflexivity.
      * intros y. rewrite O, plug_blocks. occs. lia.
    + intros m tok top E1 E2 E3. unfold pop. rewrite E1, E2, E3. reflexivity.
  - destruct Wt as (-> & kvs & V & P). destruct f as [fr fkey fv]. cbn [f_val f_ret f_key] in *. subst fv. cbn [JsonParseProofs.put_value back]. split.
    + eapply (g_open h c ret sp OCOMMA mk qk _ fs R t ts xs (plug (XObj a m ks es1 name k t' es2) L) [] ds); auto.
      * split; [auto|]. split; [auto|auto].
      * cbn [plug f_val json_of]. rewrite P, map_app. auto.
      * cbn. eauto.
      * reflexivity.
      * intros y. rewrite O, plug_blocks. occs. lia.
    + intros m0 tok top E1 E2 E3. unfold pop. rewrite E1, E2, E3. reflexivity.
Qed.

Lemma last_rev (t : addr) ts : last (map VPtr (rev (t :: ts))) VNull = VPtr t.
Proof. cbn [rev]. rewrite map_app. cbn [map]. apply last_last. Qed.
Lemma top_view h sp t ts : stk h sp (t :: ts) -> stack_top h sp = Ok (VPtr t).
Proof. intros A. unfold stack_top. rewrite (get_obj_of _ _ _ _ _ A). cbn [bind]. f_equal. apply last_rev. Qed.
Lemma pop_view h sp t ts : W h -> stk h sp (t :: ts) -> exists h', stack_pop h sp = Ok (h', VPtr t) /\ W h' /\ h_next h' = h_next h /\ stk h' sp ts /\ (forall x, x <> sp -> look h' x = look h x).
Proof.
  intros Wh A. unfold stack_pop. rewrite (get_obj_of _ _ _ _ _ A). cbn [bind]. rewrite <- map_rev, rev_involutive. cbn [map].
  destruct (put_view st h sp _ _ _ (KStack NOOP 512) (rev (map VPtr ts)) Wh A) as (h1 & -> & W1 & N1 & O1 & X1); [discriminate..|]. cbn [bind decr_indegree].
  exists h1. split; [auto|]. split; [auto|]. split; [auto|]. split; [unfold stk; rewrite map_rev; exact O1|auto].
Qed.

(** A new container is opened. *)
Lemma half_push h c ret sp fs fk L xs ts ds R mk qk s : inv h c R -> half h c ret sp fs fk L xs ts ds R -> (cl = true -> ds = []) -> length fs < 512 -> inside s L -> s <> OCOLON -> s <> OVALUE ->
  exists h' ret' R', push_frame st h ret sp (back xs) (ptr ss L) = Ok (h', ret') /\ inv h' c R' /\
    good h' c ret' sp s mk qk (Frame (back xs) fk (Some (json_of L)) :: fs) R'.
Proof.
  intros I HF CL LN IN NS1 NS2. pose proof HF as (A & S & H & D & O). unfold push_frame, mk_prod.
  destruct (mk_obj_view st h (KProd [NOOP; NOOP]) [VForeign; ptr ss L] M_IDENTITY (i_W _ _ _ I)) as (h1 & -> & W1 & N1 & O1 & X1); [discriminate|].
  cbn [bind combine foldm incr_indegree fst snd]. set (t := h_next h) in *.
  assert (LS : sp < h_next h). { apply (inv_lt _ _ _ _ I). rewrite occ_in, O. occs. rewrite Nat.eqb_refl. cbn [Nat.b2n]. lia. }
  assert (A1 : stk h1 sp ts) by (eapply stk_ext; [apply X1; unfold t; lia|auto]).
  unfold stack_push. rewrite (get_obj_of _ _ _ _ _ A1). cbn [bind].
  assert (LT : length ts = length fs).
  { clear - S. revert xs ts fk S. generalize (ptr ss L). induction fs as [|f fs IH]; intros p [|x xs] [|t ts] fk S; cbn [spine] in S; try tauto; auto.
    cbn [length]. f_equal. destruct S as (_ & _ & _ & S). eapply IH. exact S. }
  rewrite map_length, rev_length. destruct (Z.eqb_spec (Z.of_nat (length ts)) 512); [lia|].
  destruct (put_view st h1 sp _ _ _ (KStack NOOP 512) (map VPtr (rev ts) ++ [VPtr t]) W1 A1) as (h2 & -> & W2 & N2 & O2 & X2); [discriminate..|]. cbn [bind incr_indegree].
  exists h2, (set_at ret t (back xs)), (R ++ [t]). split; [auto|]. split.
  - apply (inv_grow h c R h2 c [sp; t] [t]); auto.
    + lia.
    + intros x X. cbn in X. split; [|auto]. rewrite X2, X1; auto.
    + cbn. intros x [<-|[<-|[]]]; auto. left. rewrite occ_in, O. occs. rewrite Nat.eqb_refl. cbn [Nat.b2n]. lia.
    + cbn. tauto.
    + cbn. intros x [<-|[]]. unfold t. auto.
    + constructor; [intros []|constructor].
    + cbn. intros x [<-|[<-|[]]]; [eapply thing_obj; [exact O2|discriminate]|]. eapply thing_ext; [apply X2; unfold t; lia|]. eapply thing_obj; [exact O1|discriminate].
  - assert (KEEP : forall y, In y R -> y <> sp -> look h2 y = look h y). { intros y Y NE. apply (inv_lt _ _ _ _ I) in Y. rewrite X2, X1; auto. unfold t. lia. }
    assert (ONE := i_one _ _ _ I).
    assert (IR : forall y, 0 < occ y ts + occ y (blocks L) + occ y (flat_map xblocks xs) + occ y (flat_map blocks ds) -> In y R /\ y <> sp).
    { intros y Y. split; [rewrite occ_in, O; lia|]. intros ->. specialize (ONE sp). rewrite O in ONE. occs. rewrite Nat.eqb_refl in ONE. cbn [Nat.b2n] in ONE. lia. }
    assert (TR : ~ In t R). { intros Y. apply (inv_lt _ _ _ _ I) in Y. unfold t in Y. lia. }
    eapply (g_open h2 c (set_at ret t (back xs)) sp s mk qk _ fs (R ++ [t]) t ts xs L [] ds).
    + unfold stk. cbn [rev]. rewrite map_app. exact O2.
    + split; [eapply obj_ext; [discriminate|apply X2; unfold t; lia|exact O1]|]. split; [apply set_at_eq|auto].
    + eapply spine_ext; [| |exact S]; intros y Y.
      * split; [|auto]. assert (Z : In y R /\ y <> sp) by (apply IR; rewrite occ_in in Y; occs; lia). apply KEEP; apply Z.
      * apply set_at_neq. intros ->. apply TR. apply IR. rewrite occ_in in Y. lia.
    + auto.
    + eapply laid_ext; [|exact H]. intros y Y. split; [|auto]. assert (Z : In y R /\ y <> sp) by (apply IR; rewrite occ_in in Y; lia). apply KEEP; apply Z.
    + auto.
    + destruct s; auto; congruence.
    + eapply all_ext; [|exact D]. intros y Y. split; [|auto]. assert (Z : In y R /\ y <> sp) by (apply IR; rewrite occ_in in Y; lia). apply KEEP; apply Z.
    + auto.
    + intros y. occs. rewrite O. occs. lia.
Qed.

(** Leaving the top frame *)
Lemma leave_sim h c ret sp t ts top fs xs L ds R m tok qk : inv h c R -> stk h sp (t :: ts) -> holds h ret t top (ptr ss L) xs ->
  spine h c ret fs xs ts (ptr ss L) (f_key top) -> f_val top = Some (json_of L) -> laid h c ss (cnt xs) L -> Forall (laid h c ss 0) ds -> (cl = true -> ds = []) ->
  (forall y, occ y R = occ y [sp] + occ y (t :: ts) + occ y (blocks L) + occ y (flat_map xblocks xs) + occ y (flat_map blocks ds)) ->
  exists h' m', stack_pop h sp = Ok (h', VPtr t) /\ pop m tok top fs = Ok m' /\ sim sp (Mem h' c ret (ret t) qk (VPtr t) tok) m'.
Proof.
  intros I A (T1 & T2 & T3) S V H D CL O. destruct (pop_view h sp t ts (i_W _ _ _ I) A) as (h' & E & W' & N & A' & X).
  assert (ONE := i_one _ _ _ I).
  assert (NSP : forall y, 0 < occ y (t :: ts) + occ y (blocks L) + occ y (flat_map xblocks xs) + occ y (flat_map blocks ds) -> y <> sp).
  { intros y Y ->. specialize (ONE sp). rewrite O in ONE. occs. rewrite Nat.eqb_refl in ONE. cbn [Nat.b2n] in ONE. lia. }
  assert (SPR : In sp R). { rewrite occ_in, O. occs. rewrite Nat.eqb_refl. cbn [Nat.b2n]. lia. }
  assert (I' : inv h' c R).
  { eapply inv_move with (T := [sp]); [exact I|auto|lia| | |auto| |].
    - intros x Y. split; [apply X; intros ->; apply Y; left; auto|auto].
    - intros x [<-|[]]. auto.
    - intros x [<-|[]]. split; [auto|]. intros _. apply thing_live. eapply thing_obj; [exact A'|discriminate].
    - tauto. }
  assert (NT : t <> sp). { apply NSP. occs. rewrite Nat.eqb_refl. cbn [Nat.b2n]. lia. }
  assert (T1' : obj h' t (KProd [NOOP; NOOP]) [VForeign; ptr ss L] 0) by (eapply obj_ext; [discriminate|apply X; auto|auto]).
  assert (H' : laid h' c ss (cnt xs) L). { eapply laid_ext; [|exact H]. intros y Y. split; [|auto]. apply X. apply NSP. rewrite occ_in in Y. lia. }
  assert (D' : Forall (laid h' c ss 0) ds). { eapply all_ext; [|exact D]. intros y Y. split; [|auto]. apply X. apply NSP. rewrite occ_in in Y. lia. }
  assert (S' : spine h' c ret fs xs ts (ptr ss L) (f_key top)).
  { eapply spine_ext; [| |exact S]; [|auto]. intros y Y. split; [|auto]. apply X. apply NSP. rewrite occ_in in Y. occs. lia. }
  exists h'. destruct fs as [|f fs].
  - destruct xs as [|x xs], ts as [|t' ts]; cbn [spine] in S; try tauto. eexists. split; [auto|]. split; [unfold pop; rewrite V; reflexivity|].
    split; [cbn [q_state m_state]; congruence|]. split; [auto|]. exists R. split; [auto|]. split; [auto|]. split; [exists []; auto|]. cbn [m_state q_heap q_cont q_result m_stack m_result].
    rewrite T3. cbn [back]. split; [auto|]. exists t, L, ds. split; [auto|]. split; [auto|]. split; [auto|]. split; [exact H'|]. split; [auto|]. split; [auto|]. intros y. rewrite O. occs. lia.
  - set (Rm := sp :: ts ++ blocks L ++ flat_map xblocks xs ++ flat_map blocks ds).
    assert (HF : half h' c ret sp (f :: fs) (f_key top) L xs ts ds Rm).
    { split; [auto|]. split; [auto|]. split; [auto|]. split; [auto|]. intros y. unfold Rm. occs. lia. }
    destruct (half_close _ _ _ _ _ _ _ _ _ _ _ _ (m_key m) qk HF CL) as (G & P). eexists. split; [auto|]. split; [apply P; auto|].
    eapply (sim_good sp _ _ Rm [t]); cbn [q_state m_state q_tok m_tok q_heap q_cont q_ret q_key m_key m_stack q_result]; auto.
    + congruence.
    + eapply inv_same; [|exact I']. intros y. rewrite O. unfold Rm. occs. lia.
    + right. exists t, [VForeign; ptr ss L]. auto.
Qed.

(** New values *)
Lemma fresh_any h c Rg pend h' c' L : inv h c (Rg ++ pend) -> W h' -> laid h' c' ss 0 L -> NoDup (blocks L) -> h_next h <= h_next h' ->
  (forall y, In y (blocks L) -> h_next h <= y \/ In y pend) -> (forall y, In y pend -> In y (blocks L)) -> (forall y, ~ In y (blocks L) -> look h' y = look h y /\ c' y = c y) ->
  inv h' c' (Rg ++ blocks L) /\ (forall y, In y Rg -> look h' y = look h y /\ c' y = c y).
Proof.
  intros I W' H ND N F P X. assert (ONE := i_one _ _ _ I).
  assert (DJ : forall y, In y Rg -> ~ In y (blocks L)).
  { intros y Y Z. destruct (F y Z) as [Q|Q]; [assert (In y (Rg ++ pend)) by (apply in_app_iff; auto); pose proof (inv_lt _ _ _ _ I H0); lia|].
    specialize (ONE y). rewrite occ_app in ONE. rewrite occ_in in Y, Q. lia. }
  split; [|intros y Y; apply X; auto]. eapply inv_move with (T := blocks L); [exact I|auto|auto|exact X| | | |].
  - intros x Y. destruct (F x Y); [auto|]. left. apply in_app_iff. auto.
  - intros x. rewrite occ_app. specialize (ONE x). rewrite occ_app in ONE. assert (B := proj1 (nodup_occ _) ND x).
    destruct (occ x Rg) eqn:E1; [lia|]. destruct (occ x (blocks L)) eqn:E2; [lia|]. exfalso. apply (DJ x); rewrite occ_in; lia.
  - intros x Y. split; [intros _; apply in_app_iff; auto|]. intros _. apply thing_live. apply laid_things in H. rewrite Forall_forall in H. auto.
  - intros x Y. rewrite !in_app_iff. split; [intros [Z|Z]; [auto|destruct Y; auto]|intros [Z|Z]; [auto|tauto]].
Qed.
Lemma fresh_scalar h c Rg t str pend v : inv h c (Rg ++ pend) -> pending h c t str pend -> scalar t = Some v ->
  exists h' c' L, scalar_mk st ss h c str t = Ok (Some (h', c', ptr ss L)) /\ laid h' c' ss 0 L /\ json_of L = v /\ inv h' c' (Rg ++ blocks L) /\ (forall y, In y Rg -> look h' y = look h y /\ c' y = c y).
Proof.
  intros I P V. destruct (scalar_view st ss h c t str pend v (i_W _ _ _ I) (inv_static _ _ _ I) P V) as (h' & c' & L & E & W' & H & J & ND & N & F & PB & X).
  exists h', c', L. split; [auto|]. split; [auto|]. split; [auto|]. eapply fresh_any; eauto.
Qed.
Lemma fresh_array h c Rg : inv h c Rg -> exists h' L, array_mk st h = Ok (h', ptr ss L) /\ laid h' c ss 0 L /\ json_of L = JArr [] /\ inside AVALUE L /\ inv h' c (Rg ++ blocks L) /\ (forall y, In y Rg -> look h' y = look h y /\ c y = c y).
Proof.
  intros I. destruct (array_view st ss h c (i_W _ _ _ I)) as (h' & L & E & W' & H & EL & N & X). exists h', L. split; [auto|]. split; [auto|]. split; [rewrite EL; auto|]. split; [rewrite EL; cbn; eauto|].
  eapply (fresh_any h c Rg []); auto.
  - rewrite app_nil_r. auto.
  - rewrite EL. cbn [blocks flat_map]. constructor; [intros [Q|[]]; lia|]. constructor; [intros []|constructor].
  - lia.
  - rewrite EL. cbn. intros y [<-|[<-|[]]]; lia.
  - intros y [].
Qed.
Lemma fresh_object h c Rg : inv h c Rg -> exists h' L, object_mk st h = Ok (h', ptr ss L) /\ laid h' c ss 0 L /\ json_of L = JObj [] /\ inside OKEY L /\ inv h' c (Rg ++ blocks L) /\ (forall y, In y Rg -> look h' y = look h y /\ c y = c y).
Proof.
  intros I. destruct (object_view st ss h c (i_W _ _ _ I)) as (h' & L & E & W' & H & EL & N & X). exists h', L. split; [auto|]. split; [auto|]. split; [rewrite EL; auto|]. split; [rewrite EL; cbn; eauto|].
  eapply (fresh_any h c Rg []); auto.
  - rewrite app_nil_r. auto.
  - rewrite EL. cbn [blocks flat_map]. repeat (constructor; [cbn; intros Q; repeat (destruct Q as [Q|Q]; [lia|]); exact Q|]). constructor.
  - lia.
  - rewrite EL. cbn. intros y [<-|[<-|[<-|[]]]]; lia.
  - intros y [].
Qed.

(** Putting a new value into the container on top *)
Lemma attach_array h c ret sp top fs t ts xs a l es L ds R : inv h c R -> stk h sp (t :: ts) -> holds h ret t top (VPtr a) xs ->
  spine h c ret fs xs ts (VPtr a) (f_key top) -> f_val top = Some (json_of (LArr a l es)) -> laid h c ss (cnt xs) (LArr a l es) -> Forall (laid h c ss 0) ds ->
  laid h c ss 0 L ->
  (forall y, occ y R = occ y [sp] + occ y (t :: ts) + occ y (blocks (LArr a l es)) + occ y (flat_map xblocks xs) + occ y (flat_map blocks ds) + occ y (blocks L)) ->
  exists h' xs', add_to_array h (VPtr l) (ptr ss L) = Ok h' /\ inv h' c R /\ half h' c ret sp (top :: fs) None L xs' (t :: ts) ds R /\ back xs' = ACOMMA.
Proof.
  intros I A (T1 & T2 & T3) S V H D HL O. assert (ONE := i_one _ _ _ I). pose proof H as HA. apply laid_arr in HA as (H1 & H2 & H3).
  assert (ND : NoDup (l :: blocks L)). { rewrite nodup_occ. intros y. specialize (ONE y). rewrite O in ONE. rewrite blocks_arr in ONE. occs. lia. }
  destruct (append_view st ss h c l _ L (i_W _ _ _ I) (inv_static _ _ _ I) H2 HL ND) as (h' & E & W' & N & O2 & HL' & X).
  assert (KEEP : forall y, 0 < occ y [sp] + occ y (t :: ts) + occ y (a :: flat_map blocks es) + occ y (flat_map xblocks xs) + occ y (flat_map blocks ds) -> look h' y = look h y /\ c y = c y).
  { intros y Y. split; [|auto]. apply X. intros Z. rewrite occ_in in Z. specialize (ONE y). rewrite O in ONE. rewrite blocks_arr in ONE. occs. lia. }
  exists h', (XArr a l es :: xs). split; [auto|]. split; [|split; [|auto]].
  - eapply inv_move with (T := l :: blocks L); [exact I|auto|lia| | |auto| |].
    + intros x Y. split; [apply X; auto|auto].
    + intros x Y. left. rewrite occ_in, O, blocks_arr. rewrite occ_in in Y. occs. lia.
    + intros x Y. split; [intros _; rewrite occ_in, O, blocks_arr; rewrite occ_in in Y; occs; lia|]. intros _. apply thing_live. destruct Y as [<-|Y]; [eapply thing_obj; [exact O2|discriminate]|].
      apply laid_things in HL'. rewrite Forall_forall in HL'. auto.
    + tauto.
  - split; [eapply stk_ext; [apply KEEP; occs; rewrite Nat.eqb_refl; cbn [Nat.b2n]; lia|auto]|]. split; [|split; [exact HL'|split]].
    + cbn [spine]. split; [|split; [|split]].
      * split; [eapply obj_ext; [discriminate|apply KEEP; occs; rewrite Nat.eqb_refl; cbn [Nat.b2n]; lia|exact T1]|auto].
      * cbn [lx]. split; [eapply obj_ext; [discriminate|apply KEEP; occs; rewrite Nat.eqb_refl; cbn [Nat.b2n]; lia|auto]|]. split; [auto|].
        eapply all_ext; [|exact H3]. intros y Y. apply KEEP. rewrite occ_in in Y. occs. lia.
      * cbn [waits]. auto.
      * eapply spine_ext; [| |exact S]; [|auto]. intros y Y. apply KEEP. rewrite occ_in in Y. occs. lia.
    + eapply all_ext; [|exact D]. intros y Y. apply KEEP. rewrite occ_in in Y. lia.
    + intros y. rewrite O, blocks_arr. cbn [flat_map xblocks]. occs. lia.
Qed.
Lemma attach_object h c ret sp top fs t ts xs a m ks es k name L ds R : inv h c R -> stk h sp (t :: ts) -> holds h ret t top (VPtr a) xs ->
  spine h c ret fs xs ts (VPtr a) (f_key top) -> f_val top = Some (json_of (LObj a m ks es)) -> laid h c ss (cnt xs) (LObj a m ks es) -> Forall (laid h c ss 0) ds ->
  obj h k KLeaf [] 0 -> c k = JStr name -> laid h c ss 0 L ->
  (forall y, occ y R = occ y [sp] + occ y (t :: ts) + occ y (blocks (LObj a m ks es)) + occ y (flat_map xblocks xs) + occ y [k] + occ y (flat_map blocks ds) + occ y (blocks L)) ->
  exists h' xs' ds' R', add_to_object place deep h c (VPtr m) (VPtr k) (ptr ss L) = Ok h' /\ inv h' c R' /\ half h' c ret sp (top :: fs) (Some name) L xs' (t :: ts) ds' R' /\ back xs' = OCOMMA /\
    (~ In name (map e_name es) -> ds' = ds).
Proof.
  intros I A (T1 & T2 & T3) S V H D K CK HL O. assert (ONE := i_one _ _ _ I).
  assert (ND : NoDup (blocks (LObj a m ks es) ++ k :: blocks L)). { rewrite nodup_occ. intros y. specialize (ONE y). rewrite O in ONE. occs. lia. }
  destruct (add_view st ss place deep h c a m ks es k name L (cnt xs) (i_W _ _ _ I) (inv_static _ _ _ I) DP H K CK HL ND)
    as (h' & x & dn & E & W' & N & XA & FT & LX & HL' & DN & X & CASES).
  set (old := blocks (LObj a m ks es)) in *.
  assert (RI : forall y, In y R -> y < h_next h) by (intros; eapply inv_lt; eauto).
  assert (KEEP : forall y, 0 < occ y [sp] + occ y (t :: ts) + occ y (flat_map xblocks xs) + occ y (flat_map blocks ds) -> look h' y = look h y /\ c y = c y).
  { intros y Y. split; [|auto]. assert (IR : In y R) by (rewrite occ_in, O; lia). apply RI in IR. apply X. intros [Z|Z]; [lia|]. cbn [In] in Z.
    change (In y (k :: old ++ blocks L)) in Z. rewrite occ_in in Z. specialize (ONE y). rewrite O in ONE. occs. lia. }
  set (R' := sp :: t :: ts ++ blocks L ++ xblocks x ++ flat_map xblocks xs ++ flat_map blocks (dn ++ ds)).
  exists h', (x :: xs), (dn ++ ds), R'. split; [auto|].
  assert (WT : waits top x (Some name)).
  { destruct x as [|a' m' ks' es1 n' k' t' es2]; [destruct FT|]. cbn [fits] in FT. destruct FT as (-> & P). split; [auto|]. exists (ents es). split; [exact V|exact P]. }
  split; [|split; [|split; [destruct x; [destruct FT|reflexivity]|]]].
  - assert (OR : forall y, occ y R' = occ y [sp] + occ y (t :: ts) + occ y (flat_map xblocks xs) + occ y (flat_map blocks ds) + occ y (blocks L) + (occ y (xblocks x) + occ y (flat_map blocks dn))).
    { intros y. unfold R'. occs. lia. }
    assert (TH : forall y, 0 < occ y (blocks L) + (occ y (xblocks x) + occ y (flat_map blocks dn)) -> thing h' y).
    { intros y Y. destruct (occ y (blocks L)) eqn:E1.
      - destruct (occ y (flat_map blocks dn)) eqn:E2.
        + assert (P := plug_laid _ _ _ _ _ _ LX HL'). apply laid_things in P. rewrite Forall_forall in P. apply P. rewrite occ_in, plug_blocks. lia.
        + assert (IN : In y (flat_map blocks dn)) by (rewrite occ_in; lia). apply in_flat_map in IN as (D0 & I1 & I2). rewrite Forall_forall in DN. specialize (DN D0 I1).
          apply laid_things in DN. rewrite Forall_forall in DN. auto.
      - assert (P := HL'). apply laid_things in P. rewrite Forall_forall in P. apply P. rewrite occ_in. lia. }
    eapply inv_move with (T := h_next h :: k :: old ++ blocks L); [exact I|auto|lia| | | | |].
    + intros y Y. split; [apply X; auto|auto].
    + intros y [<-|Y]; [right; auto|]. left. change (In y (k :: old ++ blocks L)) in Y. rewrite occ_in in Y. rewrite occ_in, O. occs. lia.
    + intros y. specialize (ONE y). rewrite O in ONE. rewrite OR. destruct CASES as [(_ & -> & OX)|(_ & _ & _ & OX)].
      * cbn [flat_map]. rewrite OX. occs. destruct (Nat.eqb_spec y (h_next h)) as [->|NE]; cbn [Nat.b2n]; [|lia].
        destruct (occ (h_next h) R) eqn:Z; [rewrite O in Z; occs; lia|]. assert (In (h_next h) R) by (rewrite occ_in; lia). apply RI in H0. lia.
      * rewrite OX. occs. lia.
    + intros y Y. destruct CASES as [(_ & -> & OX)|(_ & DK & DF & OX)].
      * assert (IY : In y R'). { rewrite occ_in, OR, OX. rewrite occ_in in Y. cbn [flat_map]. occs. lia. }
        split; [auto|]. intros _. apply thing_live. apply TH. rewrite OX. rewrite occ_in in Y. occs. lia.
      * destruct (Nat.eq_dec y (h_next h)) as [->|NE1].
        { rewrite DF. split; [congruence|]. intros Z. rewrite occ_in, OR, OX in Z. destruct (occ (h_next h) R) eqn:Q; [rewrite O in Q; occs; lia|].
          assert (In (h_next h) R) by (rewrite occ_in; lia). apply RI in H0. lia. }
        destruct (Nat.eq_dec y k) as [->|NE2].
        { rewrite DK. split; [congruence|]. intros Z. rewrite occ_in, OR, OX in Z. specialize (ONE k). rewrite O in ONE. occs. rewrite Nat.eqb_refl in ONE. cbn [Nat.b2n] in ONE. lia. }
        assert (IY : 0 < occ y (blocks L) + occ y old). { rewrite occ_in in Y. occs. destruct (Nat.eqb_spec y (h_next h)); [congruence|]. destruct (Nat.eqb_spec y k); [congruence|]. cbn [Nat.b2n] in Y. lia. }
        split; [intros _; rewrite occ_in, OR, OX; lia|]. intros _. apply thing_live. apply TH. rewrite OX. auto.
    + intros y Y. assert (NY : occ y (h_next h :: k :: old ++ blocks L) = 0). { rewrite occ_in in Y. lia. } occs.
      rewrite !occ_in, OR, O. destruct CASES as [(_ & -> & OX)|(_ & _ & _ & OX)]; [cbn [flat_map]|]; rewrite OX; occs; lia.
  - split; [eapply stk_ext; [apply KEEP; occs; rewrite Nat.eqb_refl; cbn [Nat.b2n]; lia|auto]|]. split; [|split; [exact HL'|split]].
    + cbn [spine]. rewrite XA. split; [|split; [|split]].
      * split; [eapply obj_ext; [discriminate|apply KEEP; occs; rewrite Nat.eqb_refl; cbn [Nat.b2n]; lia|exact T1]|auto].
      * auto.
      * auto.
      * eapply spine_ext; [| |exact S]; [|auto]. intros y Y. apply KEEP. rewrite occ_in in Y. occs. lia.
    + apply Forall_app. split; [auto|]. eapply all_ext; [|exact D]. intros y Y. apply KEEP. rewrite occ_in in Y. lia.
    + intros y. unfold R'. cbn [flat_map]. occs. lia.
  - intros NI. destruct CASES as [(_ & -> & _)|(Y & _)]; [auto|tauto].
Qed.

(** * One token *)
(** The name that is about to get a value is not there yet. *)
Definition new_name (m : machine) : Prop :=
  match m_state m, m_stack m, m_key m with
  | OVALUE, Frame _ _ (Some (JObj kvs)) :: _, Some name => ~ In name (map fst kvs)
  | _, _, _ => True
  end.
Lemma ents_names es : map fst (ents es) = map e_name es.
Proof. unfold ents. rewrite map_map. auto. Qed.
Lemma err_sim sp h c ret qk tok R m : inv h c R -> In sp R -> (exists ts, stk h sp ts /\ length ts = length (m_stack m)) ->
  sim sp (Mem h c ret ERROR qk VNull tok) (Machine ERROR (m_stack m) (m_key m) tok None).
Proof. intros I IS T. eapply sim_error; cbn; eauto. Qed.
Lemma put_top h c ret sp t top fs' p v R : inv h c R -> stk h sp [t] -> holds h ret t top p [] -> In t R -> sp <> t ->
  exists h', put_vals h t (KProd [NOOP; NOOP]) [VForeign; v] = Ok h' /\ inv h' c R /\ stk h' sp [t] /\ (forall w, holds h' ret t (Frame DONE None w) v []) /\ (forall x, x <> t -> look h' x = look h x) /\ (fs' = fs' :> list frame).
Proof.
  intros I A (T1 & T2 & T3) IT NE. destruct (put_view st h t _ _ _ (KProd [NOOP; NOOP]) [VForeign; v] (i_W _ _ _ I) T1) as (h' & E & W' & N & O & X); [discriminate..|].
  exists h'. split; [auto|]. split; [|split; [eapply stk_ext; [apply X; auto|auto]|split; [|auto]]].
  - eapply inv_move with (T := [t]); [exact I|auto|lia| | |apply I| |].
    + intros x Y. split; [apply X; intros ->; apply Y; left; auto|auto].
    + intros x [<-|[]]. auto.
    + intros x [<-|[]]. split; [auto|]. intros _. apply thing_live. eapply thing_obj; [exact O|discriminate].
    + tauto.
  - intros w. split; [auto|]. cbn in *. split; [congruence|auto].
Qed.
Lemma punct_scalar t x : is_punct t x = true -> t = TPunct x.
Proof. destruct t; try discriminate. cbn. intros E. apply Z.eqb_eq in E. congruence. Qed.
Lemma to_object_view h c n a m ks es : laid h c ss n (LObj a m ks es) -> to_object h (VPtr a) = Ok (VPtr m).
Proof.
  intros H. apply laid_obj in H as (H1 & (ts & H2 & _) & _). unfold to_object, tuple_get. cbn [target bind]. rewrite (get_obj_of _ _ _ _ _ H1). cbn [bind of_option nth_error target].
  rewrite (get_obj_of _ _ _ _ _ H2). reflexivity.
Qed.
Lemma to_array_view h c n a l es : laid h c ss n (LArr a l es) -> to_array h (VPtr a) = Ok (VPtr l).
Proof.
  intros H. apply laid_arr in H as (H1 & H2 & _). unfold to_array, tuple_get. cbn [target bind]. rewrite (get_obj_of _ _ _ _ _ H1). cbn [bind of_option nth_error target].
  rewrite (get_obj_of _ _ _ _ _ H2). reflexivity.
Qed.

Lemma start_sim sp h c ret str q t tok pend Rg tk0 res m' mk tp : q_state q = VALUE -> q_ret q = ret ->
  stk h sp [tp] -> holds h ret tp (Frame DONE None None) VNull [] -> (forall y, occ y Rg = occ y [sp; tp]) ->
  inv h c (Rg ++ pend) -> pending h c t str pend ->
  transition (Machine VALUE [Frame DONE None None] mk tk0 res) t tok = Ok m' ->
  exists q', mtransition st ss place deep sp h c str q t tok = Ok q' /\ sim sp q' m'.
Proof.
  intros QS QR A T O I P E. assert (ONE := i_one _ _ _ I).
  assert (NE : sp <> tp). { intros ->. specialize (ONE tp). rewrite occ_app, O in ONE. occs. rewrite !Nat.eqb_refl in ONE. cbn [Nat.b2n] in ONE. lia. }
  assert (IS : In sp Rg /\ In tp Rg). { rewrite !occ_in, !O. occs. rewrite !Nat.eqb_refl. cbn [Nat.b2n]. lia. } destruct IS as (IS & IT).
  unfold mtransition. rewrite (top_view _ _ _ _ A). cbn [bind]. pose proof T as (T1 & T2 & T3). unfold tuple_get at 1. cbn [target bind]. rewrite (get_obj_of _ _ _ _ _ T1). cbn [bind of_option nth_error].
  rewrite QS, QR. unfold transition in E. cbn [m_stack m_state m_key f_ret f_key] in E.
  destruct (is_punct t 91) eqn:P1.
  { injection E as <-. apply punct_scalar in P1. subst t. destruct P as (-> & ->). rewrite app_nil_r in I.
    destruct (fresh_array h c Rg I) as (h1 & L & -> & H & J & IN & I1 & X1). cbn [bind].
    assert (A1 : stk h1 sp [tp]) by (eapply stk_ext; [apply X1; auto|auto]).
    assert (T1' : holds h1 ret tp (Frame DONE None None) VNull []). { split; [eapply obj_ext; [discriminate|apply X1; auto|exact T1]|auto]. }
    assert (NIT : forall y, In y (blocks L) -> y <> tp). { intros y Y ->. assert (Q := i_one _ _ _ I1 tp). rewrite occ_app in Q. rewrite occ_in in Y, IT. lia. }
    destruct (put_top h1 c ret sp tp _ [] VNull (ptr ss L) _ I1 A1 T1') as (h2 & -> & I2 & A2 & T2' & X2 & _); [apply in_app_iff; auto|auto|]. cbn [bind].
    eexists. split; [reflexivity|]. eapply (sim_good sp _ _ (Rg ++ blocks L) []); cbn [q_state m_state q_tok m_tok q_heap q_cont q_ret q_key m_key m_stack q_result]; auto.
    - rewrite app_nil_r. auto.
    - eapply (g_open h2 c ret sp AVALUE mk (q_key q) _ [] _ tp [] [] L [] []); auto.
      + cbn. auto.
      + cbn [f_val]. congruence.
      + eapply laid_ext; [|exact H]. intros y Y. split; [|auto]. apply X2. auto.
      + reflexivity.
      + intros y. rewrite occ_app, O. cbn [flat_map]. occs. lia.
    - left. auto. }
  destruct (is_punct t 123) eqn:P2.
  { injection E as <-. apply punct_scalar in P2. subst t. destruct P as (-> & ->). rewrite app_nil_r in I.
    destruct (fresh_object h c Rg I) as (h1 & L & -> & H & J & IN & I1 & X1). cbn [bind].
    assert (A1 : stk h1 sp [tp]) by (eapply stk_ext; [apply X1; auto|auto]).
    assert (T1' : holds h1 ret tp (Frame DONE None None) VNull []). { split; [eapply obj_ext; [discriminate|apply X1; auto|exact T1]|auto]. }
    assert (NIT : forall y, In y (blocks L) -> y <> tp). { intros y Y ->. assert (Q := i_one _ _ _ I1 tp). rewrite occ_app in Q. rewrite occ_in in Y, IT. lia. }
    destruct (put_top h1 c ret sp tp _ [] VNull (ptr ss L) _ I1 A1 T1') as (h2 & -> & I2 & A2 & T2' & X2 & _); [apply in_app_iff; auto|auto|]. cbn [bind].
    eexists. split; [reflexivity|]. eapply (sim_good sp _ _ (Rg ++ blocks L) []); cbn [q_state m_state q_tok m_tok q_heap q_cont q_ret q_key m_key m_stack q_result]; auto.
    - rewrite app_nil_r. auto.
    - eapply (g_open h2 c ret sp OKEY mk (q_key q) _ [] _ tp [] [] L [] []); auto.
      + cbn. auto.
      + cbn [f_val]. congruence.
      + eapply laid_ext; [|exact H]. intros y Y. split; [|auto]. apply X2. auto.
      + reflexivity.
      + intros y. rewrite occ_app, O. cbn [flat_map]. occs. lia.
    - left. auto. }
  destruct (scalar t) as [v|] eqn:SC.
  - destruct (fresh_scalar h c Rg t str pend v I P SC) as (h1 & c1 & L & -> & H & J & I1 & X1). cbn [bind].
    assert (A1 : stk h1 sp [tp]) by (eapply stk_ext; [apply X1; auto|auto]).
    assert (T1' : holds h1 ret tp (Frame DONE None None) VNull []). { split; [eapply obj_ext; [discriminate|apply X1; auto|exact T1]|auto]. }
    assert (NIT : forall y, In y (blocks L) -> y <> tp). { intros y Y ->. assert (Q := i_one _ _ _ I1 tp). rewrite occ_app in Q. rewrite occ_in in Y, IT. lia. }
    destruct (put_top h1 c1 ret sp tp _ [] VNull (ptr ss L) _ I1 A1 T1') as (h2 & -> & I2 & A2 & T2' & X2 & _); [apply in_app_iff; auto|auto|]. cbn [bind].
    destruct (leave_sim h2 c1 ret sp tp [] (Frame DONE None (Some v)) [] [] L [] (Rg ++ blocks L) (Machine VALUE [Frame DONE None None] mk tk0 res) tok (q_key q) I2 A2) as (h3 & m2 & -> & E2 & SIM); auto.
    + cbn. auto.
    + cbn [f_val]. congruence.
    + eapply laid_ext; [|exact H]. intros y Y. split; [|auto]. apply X2. auto.
    + intros y. rewrite occ_app, O. cbn [flat_map]. occs. lia.
    + cbn [bind]. eexists. split; [reflexivity|]. rewrite E2 in E. injection E as <-. exact SIM.
  - destruct (scalar_none st ss h c t str SC) as (-> & _). cbn [bind]. injection E as <-. eexists. split; [reflexivity|].
    apply (err_sim sp h c ret (q_key q) tok (Rg ++ pend) (Machine VALUE [Frame DONE None None] mk tk0 res)); [auto|apply in_app_iff; auto|]. exists [tp]. auto.
Qed.

(** A value begins inside a container: what both parsers do once it has been put there *)
Lemma value_sim h c ret sp fs fk L xs ts ds R m tok qk : inv h c R -> half h c ret sp fs fk L xs ts ds R -> (cl = true -> ds = []) -> fs <> [] ->
  sim sp (Mem h c ret (back xs) qk VNull tok) (Machine (back xs) (JsonParseProofs.put_value fk fs (json_of L)) (m_key m) tok None).
Proof.
  intros I HF CL NN. destruct fs as [|f fs]; [congruence|]. destruct (half_close _ _ _ _ _ _ _ _ _ _ _ _ (m_key m) qk HF CL) as (G & _).
  eapply (sim_good sp _ _ R []); cbn [q_state m_state q_tok m_tok q_heap q_cont q_ret q_key m_key m_stack q_result]; auto.
  - rewrite app_nil_r. auto.
  - left. auto.
Qed.
Lemma push_sim h c ret sp fs fk L xs ts ds R m tok qk s v : inv h c R -> half h c ret sp fs fk L xs ts ds R -> (cl = true -> ds = []) -> length fs < 512 -> inside s L -> s <> OCOLON -> s <> OVALUE ->
  json_of L = v -> exists h' ret', push_frame st h ret sp (back xs) (ptr ss L) = Ok (h', ret') /\
    sim sp (Mem h' c ret' s qk VNull tok) (Machine s (Frame (back xs) fk (Some v) :: fs) (m_key m) tok None).
Proof.
  intros I HF CL LN IN N1 N2 <-. destruct (half_push _ _ _ _ _ _ _ _ _ _ _ (m_key m) qk s I HF CL LN IN N1 N2) as (h' & ret' & R' & E & I' & G).
  exists h', ret'. split; [auto|]. eapply (sim_good sp _ _ R' []); cbn [q_state m_state q_tok m_tok q_heap q_cont q_ret q_key m_key m_stack q_result]; auto.
  - rewrite app_nil_r. auto.
  - left. auto.
Qed.

Lemma trans_sim sp h c str m q t tok pend Rg m' : q_state q = m_state m ->
  good h c (q_ret q) sp (m_state m) (m_key m) (q_key q) (m_stack m) Rg -> inv h c (Rg ++ pend) -> pending h c t str pend ->
  length (m_stack m) < 512 -> (cl = true -> new_name m) -> transition m t tok = Ok m' ->
  exists q', mtransition st ss place deep sp h c str q t tok = Ok q' /\ sim sp q' m'.
Proof.
  intros QS G I P LN NN E. destruct (good_stack _ _ _ _ _ _ _ _ _ G) as (IS & TS).
  assert (ERR : sim sp (Mem h c (q_ret q) ERROR (q_key q) VNull tok) (Machine ERROR (m_stack m) (m_key m) tok None)).
  { eapply err_sim; [exact I|apply in_app_iff; auto|exact TS]. }
  destruct m as [s fs mk tk0 res]. cbn [m_state m_key m_stack] in *. remember (q_key q) as qk eqn:QK. remember (q_ret q) as ret eqn:QR.
  destruct G as [tp mk qk Rg A T O|s mk qk top fs Rg tp ts xs L kb ds A T S V H IN K D CL O].
  { exact (start_sim sp h c ret str q t tok pend Rg tk0 res m' mk tp QS (eq_sym QR) A T O I P E). }
  unfold mtransition. rewrite (top_view _ _ _ _ A). cbn [bind]. pose proof T as (T1 & T2 & T3). unfold tuple_get at 1. cbn [target bind]. rewrite (get_obj_of _ _ _ _ _ T1). cbn [bind of_option nth_error].
  rewrite QS, <- QR, <- QK. unfold transition in E. cbn [m_stack m_state m_key] in E.
  (* leaving *)
  assert (LEAVE : kb = [] -> pend = [] -> pop (Machine s (top :: fs) mk tk0 res) tok top fs = Ok m' ->
    exists q', (let* (h2, r) := stack_pop h sp in Ok (Mem h2 c ret (ret tp) qk r tok)) = Ok q' /\ sim sp q' m').
  { intros -> -> E'. rewrite app_nil_r in I. destruct (leave_sim h c ret sp tp ts top fs xs L ds Rg (Machine s (top :: fs) mk tk0 res) tok qk I A T S V H D CL) as (h3 & m2 & -> & E2 & SIM).
    - intros y. rewrite O. occs. lia.
    - cbn [bind]. rewrite E2 in E'. injection E' as <-. eauto. }
  (* going on in the same container *)
  assert (GOTO : forall s', pend = [] -> inside s' L -> keyed h c s' mk qk kb -> sim sp (Mem h c ret s' qk VNull tok) (Machine s' (top :: fs) mk tok None)).
  { intros s' -> IN' K'. eapply (sim_good sp _ _ Rg []); cbn [q_state m_state q_tok m_tok q_heap q_cont q_ret q_key m_key m_stack q_result]; auto; [|left; auto].
    eapply g_open; eauto. }
  assert (PP : forall x, t = TPunct x -> pend = []) by (intros x ->; apply P).
  (* a new value inside a container *)
  assert (ONE := i_one _ _ _ I).
  destruct s; cbn [inside] in IN; try contradiction.
  - (* key *)
    cbn [keyed] in K. subst kb. destruct (is_punct t 125) eqn:P1; [apply LEAVE; auto; eapply PP; apply punct_scalar; eauto|].
    destruct t; try (injection E as <-; eexists; split; [reflexivity|exact ERR]). injection E as <-. eexists. split; [reflexivity|].
    destruct P as (b & -> & -> & Ob & Cb). eapply (sim_good sp _ _ (Rg ++ [b]) []); cbn [q_state m_state q_tok m_tok q_heap q_cont q_ret q_key m_key m_stack q_result]; auto; [rewrite app_nil_r; auto| |left; auto].
    eapply (g_open h c ret sp OCOLON (Some s) (VPtr b) top fs _ tp ts xs L [b] ds); auto; [cbn; eauto 8|]. intros y. rewrite occ_app, O. occs. lia.
  - (* colon *)
    destruct (is_punct t 58) eqn:P1; injection E as <-; eexists; (split; [reflexivity|]); [|exact ERR].
    apply punct_scalar in P1. apply GOTO; [eapply PP; eauto|exact IN|exact K].
  - (* value of a member *)
    destruct IN as (a & mp & ks & es & ->). destruct K as (k & name & EQK & EMK & EKB & Ok0 & Ck). rewrite EQK in *. subst mk kb.
    cbn [ptr] in *. rewrite (to_object_view _ _ _ _ _ _ _ H). cbn [bind].
    assert (NN' : cl = true -> ~ In name (map e_name es)).
    { intros C. specialize (NN C). unfold new_name in NN. cbn [m_state m_stack m_key] in NN. destruct top as [tr tk tv]. cbn [f_val] in V. rewrite V in NN. cbn [json_of] in NN.
      change (~ In name (map fst (ents es))) in NN. rewrite ents_names in NN. exact NN. }
    (* the value is in h1 *)
    assert (ATT : forall h1 c1 L2, laid h1 c1 ss 0 L2 -> inv h1 c1 (Rg ++ blocks L2) -> (forall y, In y Rg -> look h1 y = look h y /\ c1 y = c y) ->
      exists h2 xs' ds' R', add_to_object place deep h1 c1 (VPtr mp) (VPtr k) (ptr ss L2) = Ok h2 /\ inv h2 c1 R' /\ half h2 c1 ret sp (top :: fs) (Some name) L2 xs' (tp :: ts) ds' R' /\ back xs' = OCOMMA /\ (cl = true -> ds' = [])).
    { intros h1 c1 L2 H2 I2 X2.
      assert (IR : forall y, 0 < occ y [sp] + occ y (tp :: ts) + occ y (blocks (LObj a mp ks es)) + occ y (flat_map xblocks xs) + occ y [k] + occ y (flat_map blocks ds) -> In y Rg) by (intros; rewrite occ_in, O; auto).
      assert (SELF : forall y l, 0 < occ y (y :: l)) by (intros; rewrite occ_cons, Nat.eqb_refl; cbn; lia).
      destruct (attach_object h1 c1 ret sp top fs tp ts xs a mp ks es k name L2 ds (Rg ++ blocks L2)) as (h2 & xs' & ds' & R' & E2 & I3 & HF & BK & CL'); auto.
      - eapply stk_ext; [|exact A]. apply X2. apply IR. specialize (SELF sp []). lia.
      - split; [|auto]. eapply obj_ext; [discriminate| |exact T1]. apply X2. apply IR. specialize (SELF tp ts). lia.
      - eapply spine_ext; [| |exact S]; [|auto]. intros y Y. apply X2. apply IR. rewrite occ_in in Y. occs. lia.
      - eapply laid_ext; [|exact H]. intros y Y. apply X2. apply IR. rewrite occ_in in Y. lia.
      - eapply all_ext; [|exact D]. intros y Y. apply X2. apply IR. rewrite occ_in in Y. lia.
      - eapply obj_ext; [discriminate| |exact Ok0]. apply X2. apply IR. specialize (SELF k []). lia.
      - destruct (X2 k) as (_ & ->); [apply IR; specialize (SELF k []); lia|auto].
      - intros y. rewrite occ_app, O. lia.
      - exists h2, xs', ds', R'. split; [auto|]. split; [auto|]. split; [auto|]. split; [auto|]. intros C. rewrite CL' by auto. auto. }
    destruct (scalar t) as [v|] eqn:SC.
    + destruct (fresh_scalar h c Rg t str pend v I P SC) as (h1 & c1 & L2 & -> & H2 & J & I1 & X1). cbn [bind].
      destruct (ATT h1 c1 L2 H2 I1 X1) as (h2 & xs' & ds' & R' & -> & I2 & HF & BK & CL'). cbn [bind]. eexists. split; [reflexivity|].
      pose proof (value_sim _ _ _ _ _ _ _ _ _ _ _ (Machine OVALUE (top :: fs) (Some name) tk0 res) tok (VPtr k) I2 HF CL') as SIM. rewrite BK, J in SIM.
      destruct top as [tr tkey tv]. cbn [f_val] in V. subst tv. cbn [JsonParseProofs.put_value json_of f_val f_ret f_key add_member bind] in *.
      injection E as <-. apply SIM. discriminate.
    + destruct (scalar_none st ss h c t str SC) as (-> & PN). cbn [bind]. specialize (PN pend P). subst pend. rewrite app_nil_r in I.
      destruct (is_punct t 91) eqn:P1; [|destruct (is_punct t 123) eqn:P2].
      * destruct (fresh_array h c Rg I) as (h1 & L2 & -> & H2 & J & IN & I1 & X1). cbn [bind].
        destruct (ATT h1 c L2 H2 I1 X1) as (h2 & xs' & ds' & R' & -> & I2 & HF & BK & CL'). cbn [bind].
        destruct (push_sim _ _ _ _ _ _ _ _ _ _ _ (Machine OVALUE (top :: fs) (Some name) tk0 res) tok (VPtr k) AVALUE (JArr []) I2 HF CL' LN IN) as (h3 & ret3 & E3 & SIM); [discriminate..|auto|].
        rewrite BK in *. rewrite E3. cbn [bind]. injection E as <-. eexists. split; [reflexivity|]. exact SIM.
      * destruct (fresh_object h c Rg I) as (h1 & L2 & -> & H2 & J & IN & I1 & X1). cbn [bind].
        destruct (ATT h1 c L2 H2 I1 X1) as (h2 & xs' & ds' & R' & -> & I2 & HF & BK & CL'). cbn [bind].
        destruct (push_sim _ _ _ _ _ _ _ _ _ _ _ (Machine OVALUE (top :: fs) (Some name) tk0 res) tok (VPtr k) OKEY (JObj []) I2 HF CL' LN IN) as (h3 & ret3 & E3 & SIM); [discriminate..|auto|].
        rewrite BK in *. rewrite E3. cbn [bind]. injection E as <-. eexists. split; [reflexivity|]. exact SIM.
      * injection E as <-. eexists. split; [reflexivity|exact ERR].
  - (* comma or end of an object *)
    cbn [keyed] in K. subst kb. destruct (is_punct t 44) eqn:P1.
    + injection E as <-. eexists. split; [reflexivity|]. apply punct_scalar in P1. apply GOTO; [eapply PP; eauto|exact IN|reflexivity].
    + destruct (is_punct t 125) eqn:P2; [apply LEAVE; auto; eapply PP; apply punct_scalar; eauto|]. injection E as <-. eexists. split; [reflexivity|exact ERR].
  - (* element *)
    cbn [keyed] in K. subst kb. destruct (is_punct t 93) eqn:P0; [apply LEAVE; auto; eapply PP; apply punct_scalar; eauto|].
    destruct IN as (a & l & es & ->). cbn [ptr] in *. rewrite (to_array_view _ _ _ _ _ _ H). cbn [bind].
    assert (ATT : forall h1 c1 L2, laid h1 c1 ss 0 L2 -> inv h1 c1 (Rg ++ blocks L2) -> (forall y, In y Rg -> look h1 y = look h y /\ c1 y = c y) ->
      exists h2 xs', add_to_array h1 (VPtr l) (ptr ss L2) = Ok h2 /\ inv h2 c1 (Rg ++ blocks L2) /\ half h2 c1 ret sp (top :: fs) None L2 xs' (tp :: ts) ds (Rg ++ blocks L2) /\ back xs' = ACOMMA).
    { intros h1 c1 L2 H2 I2 X2.
      assert (IR : forall y, 0 < occ y [sp] + occ y (tp :: ts) + occ y (blocks (LArr a l es)) + occ y (flat_map xblocks xs) + occ y (flat_map blocks ds) -> In y Rg) by (intros; rewrite occ_in, O; occs; lia).
      assert (SELF : forall y l, 0 < occ y (y :: l)) by (intros; rewrite occ_cons, Nat.eqb_refl; cbn; lia).
      eapply (attach_array h1 c1 ret sp top fs tp ts xs a l es L2 ds); auto.
      - eapply stk_ext; [|exact A]. apply X2. apply IR. specialize (SELF sp []). lia.
      - split; [|auto]. eapply obj_ext; [discriminate| |exact T1]. apply X2. apply IR. specialize (SELF tp ts). lia.
      - eapply spine_ext; [| |exact S]; [|auto]. intros y Y. apply X2. apply IR. rewrite occ_in in Y. occs. lia.
      - eapply laid_ext; [|exact H]. intros y Y. apply X2. apply IR. rewrite occ_in in Y. lia.
      - eapply all_ext; [|exact D]. intros y Y. apply X2. apply IR. rewrite occ_in in Y. lia.
      - intros y. rewrite occ_app, O. occs. lia. }
    destruct (scalar t) as [v|] eqn:SC.
    + destruct (fresh_scalar h c Rg t str pend v I P SC) as (h1 & c1 & L2 & -> & H2 & J & I1 & X1). cbn [bind].
      destruct (ATT h1 c1 L2 H2 I1 X1) as (h2 & xs' & -> & I2 & HF & BK). cbn [bind]. eexists. split; [reflexivity|].
      pose proof (value_sim _ _ _ _ _ _ _ _ _ _ _ (Machine AVALUE (top :: fs) mk tk0 res) tok qk I2 HF CL) as SIM. rewrite BK, J in SIM.
      destruct top as [tr tkey tv]. cbn [f_val] in V. subst tv. cbn [JsonParseProofs.put_value json_of f_val f_ret f_key add_element bind] in *.
      injection E as <-. apply SIM. discriminate.
    + destruct (scalar_none st ss h c t str SC) as (-> & PN). cbn [bind]. specialize (PN pend P). subst pend. rewrite app_nil_r in I.
      destruct (is_punct t 91) eqn:P1; [|destruct (is_punct t 123) eqn:P2].
      * destruct (fresh_array h c Rg I) as (h1 & L2 & -> & H2 & J & IN & I1 & X1). cbn [bind].
        destruct (ATT h1 c L2 H2 I1 X1) as (h2 & xs' & -> & I2 & HF & BK). cbn [bind].
        destruct (push_sim _ _ _ _ _ _ _ _ _ _ _ (Machine AVALUE (top :: fs) mk tk0 res) tok qk AVALUE (JArr []) I2 HF CL LN IN) as (h3 & ret3 & E3 & SIM); [discriminate..|auto|].
        rewrite BK in *. rewrite E3. cbn [bind]. injection E as <-. eexists. split; [reflexivity|]. exact SIM.
      * destruct (fresh_object h c Rg I) as (h1 & L2 & -> & H2 & J & IN & I1 & X1). cbn [bind].
        destruct (ATT h1 c L2 H2 I1 X1) as (h2 & xs' & -> & I2 & HF & BK). cbn [bind].
        destruct (push_sim _ _ _ _ _ _ _ _ _ _ _ (Machine AVALUE (top :: fs) mk tk0 res) tok qk OKEY (JObj []) I2 HF CL LN IN) as (h3 & ret3 & E3 & SIM); [discriminate..|auto|].
        rewrite BK in *. rewrite E3. cbn [bind]. injection E as <-. eexists. split; [reflexivity|]. exact SIM.
      * injection E as <-. eexists. split; [reflexivity|exact ERR].
  - (* comma or end of an array *)
    cbn [keyed] in K. subst kb. destruct (is_punct t 93) eqn:P2; [apply LEAVE; auto; eapply PP; apply punct_scalar; eauto|].
    destruct (is_punct t 44) eqn:P1.
    + injection E as <-. eexists. split; [reflexivity|]. apply punct_scalar in P1. apply GOTO; [eapply PP; eauto|exact IN|reflexivity].
    + injection E as <-. eexists. split; [reflexivity|exact ERR].
Qed.

(** * The whole run *)
Lemma del_gone h a k vs n : W h -> obj h a k vs n -> k <> KStatic -> (forall p, k <> KSet p) -> (forall f h, foldm (del_e f) h (del_fields k vs) = Ok h) ->
  exists h', cee_del deep h (VPtr a) = Ok h' /\ gone st h h' [a].
Proof.
  intros Wh O K1 K2 F. destruct deep as [|d]; [lia|]. unfold cee_del, del_e. change (exists h', trace_del (S d) h a = Ok h' /\ gone st h h' [a]).
  rewrite (trace_step d h a k vs n) by auto. rewrite F. cbn [bind]. apply finish_view; auto. eapply thing_obj; eauto.
Qed.
Lemma noop_prod vs : length vs <= 2 -> forall f h, foldm (del_e f) h (del_fields (KProd [NOOP; NOOP]) vs) = Ok h.
Proof. intros L f h. destruct vs as [|x [|y [|z vs]]]; cbn in L; [reflexivity..|lia]. Qed.
Lemma noop_stack n vs : forall f h, foldm (del_e f) h (del_fields (KStack NOOP n) vs) = Ok h.
Proof. intros f h. cbn [del_fields]. revert h. induction vs as [|x vs IH]; intros h; [reflexivity|]. cbn. apply IH. Qed.
Lemma inv_gone h c R h' xs R' : inv h c R -> gone st h h' xs -> (forall x, occ x R = occ x R' + occ x xs) -> inv h' c R'.
Proof.
  intros I (W' & N & D & X) O. assert (ONE := i_one _ _ _ I). eapply inv_move with (T := xs); [exact I|auto|lia| | | | |].
  - intros x Y. split; auto.
  - intros x Y. left. rewrite occ_in in *. rewrite O. lia.
  - intros x. specialize (ONE x). rewrite O in ONE. lia.
  - intros x Y. rewrite (D x Y). split; [congruence|]. intros Z. exfalso. specialize (ONE x). rewrite O in ONE. rewrite occ_in in *. lia.
  - intros x Y. rewrite !occ_in, O. rewrite occ_in in Y. split; lia.
Qed.
Lemma clear_view h c ret sp s mk qk fs Rg rb v R : inv h c R -> (forall y, occ y R = occ y Rg + occ y rb) -> good h c ret sp s mk qk fs Rg -> resid h v rb ->
  exists h', cee_del deep h v = Ok h' /\ inv h' c Rg /\ good h' c ret sp s mk qk fs Rg.
Proof.
  intros I O G [(-> & ->)|(t & vs & -> & -> & T & LN)].
  - exists h. split; [reflexivity|]. split; [|auto]. eapply inv_same; [|exact I]. intros y. rewrite O. occs. lia.
  - destruct (del_gone h t _ _ _ (i_W _ _ _ I) T) as (h' & E & GN); [discriminate|discriminate|apply noop_prod; auto|]. exists h'. split; [auto|].
    split; [eapply inv_gone; [exact I|exact GN|exact O]|]. eapply good_ext; [| |exact G]; [|auto]. intros y Y. split; [|auto]. apply GN. intros [<-|[]].
    assert (Q := i_one _ _ _ I t). rewrite O in Q. rewrite occ_in in Y. occs. rewrite Nat.eqb_refl in Q. cbn [Nat.b2n] in Q. lia.
Qed.
Lemma mrunning_ok sp q m : sim sp q m -> length (m_stack m) <= 512 -> mrunning sp q = Ok (running m).
Proof.
  intros (A & _ & R & _ & _ & (ts & S & L) & _) LE. unfold mrunning, running. rewrite (get_obj_of _ _ _ _ _ S). cbn [bind]. rewrite map_length, rev_length, L, A. f_equal.
  destruct (m_stack m) as [|f fs]; [reflexivity|]. set (n := length (f :: fs)) in *. assert (NZ : n <> 0) by (unfold n; discriminate).
  change max_depth with 512. destruct (Nat.eqb_spec n 0); [congruence|]. cbn [negb andb]. f_equal. f_equal.
  destruct (Nat.eqb_spec n 512) as [->|]; [reflexivity|]. apply Z.leb_gt. lia.
Qed.
Lemma stack_small m t tok m' : transition m t tok = Ok m' -> running m = true -> length (m_stack m) <= 512 -> length (m_stack m') <= 512.
Proof.
  intros E R L. assert (LT : length (m_stack m) < 512). { unfold running in R. destruct (m_stack m) eqn:ES; [discriminate|]. rewrite <- ES in *. apply andb_true_iff in R as (R & _).
    destruct (Nat.eqb_spec (length (m_stack m)) max_depth) as [|NE]; [discriminate|]. unfold max_depth in NE. lia. }
  clear R L. destruct m as [s0 fs0 k0 tk0 r0]. cbn [m_stack] in LT. unfold transition, pop in E. cbn [m_stack m_state m_key] in E.
  repeat (match goal with
  | H : context [match ?x with _ => _ end] |- _ => destruct x eqn:?
  | H : context [if ?x then _ else _] |- _ => destruct x eqn:?
  | H : bind ?x _ = Ok _ |- _ => destruct x eqn:?; cbn [bind] in H
  end; try discriminate); injection E as <-; subst; cbn [m_stack length] in *; lia.
Qed.
Lemma step_sim sp q m m' : sim sp q m -> running m = true -> length (m_stack m) <= 512 -> (cl = true -> new_name m) -> step strtod m = Ok m' ->
  exists q', mstep strtod st ss place deep sp q = Ok q' /\ sim sp q' m'.
Proof.
  intros (A & B & R & I & IS & TS & X) RN LE NN E.
  assert (LT : length (m_stack m) < 512 /\ m_state m <> ERROR /\ m_state m <> DONE).
  { unfold running in RN. destruct (m_stack m) eqn:ES; [discriminate|]. rewrite <- ES in *. apply andb_true_iff in RN as (RN & RS).
    destruct (Nat.eqb_spec (length (m_stack m)) max_depth) as [|NE]; [discriminate|]. unfold max_depth in NE. split; [lia|]. destruct (m_state m); split; congruence. }
  destruct LT as (LT & N1 & N2).
  assert (Y : exists Rg rb, (forall y, occ y R = occ y Rg + occ y rb) /\
      good (q_heap q) (q_cont q) (q_ret q) sp (m_state m) (m_key m) (q_key q) (m_stack m) Rg /\ resid (q_heap q) (q_result q) rb) by (destruct (m_state m); auto; congruence).
  clear X. destruct Y as (Rg & rb & O & G & RS). destruct (clear_view _ _ _ _ _ _ _ _ _ _ _ _ I O G RS) as (h1 & E1 & I1 & G1).
  unfold mstep. rewrite E1. cbn [bind]. rewrite B. unfold step in E. destruct (next_token strtod (m_tok m)) as [(t, tok)|] eqn:NT; [|discriminate]. cbn [bind] in *.
  destruct (token_view st h1 (q_cont q) t (i_W _ _ _ I1)) as (h2 & c2 & str & pend & -> & W2 & P & N & PF & K & ND). cbn [bind].
  eapply (trans_sim sp h2 c2 str m q t tok pend Rg m'); auto.
  - eapply good_ext; [| |exact G1]; [|auto]. intros y Y. apply K. intros Z. apply PF in Z. apply (inv_lt _ _ _ _ I1) in Y. lia.
  - apply (inv_grow h1 (q_cont q) Rg h2 c2 pend pend); auto.
    + intros x Y. apply PF in Y. lia.
    + intros x Y. destruct t; cbn [pending] in P; try (destruct P as (_ & ->); destruct Y). destruct P as (b & _ & -> & Ob & _). destruct Y as [<-|[]]. eapply thing_obj; [exact Ob|discriminate].
Qed.
Fixpoint new_names (fuel : nat) (m : machine) : Prop :=
  match fuel with
  | O => True
  | S f => running m = true -> new_name m /\ forall m', step strtod m = Ok m' -> new_names f m'
  end.
Lemma run_sim fuel : forall sp q m m', sim sp q m -> length (m_stack m) <= 512 -> (cl = true -> new_names fuel m) -> run strtod fuel m = Ok m' ->
  exists q', mrun strtod st ss place deep fuel sp q = Ok q' /\ sim sp q' m' /\ running m' = false.
Proof.
  induction fuel as [|f IH]; intros sp q m m' SM LE NN E; cbn [run mrun] in *; rewrite (mrunning_ok _ _ _ SM LE); cbn [bind]; destruct (running m) eqn:RN; try discriminate.
  - injection E as <-. eauto.
  - destruct (step strtod m) as [m1|] eqn:ES; [|discriminate]. cbn [bind] in E.
    destruct (step_sim sp q m m1 SM RN LE) as (q1 & -> & SM1); [intros C; apply (NN C); auto|auto|]. cbn [bind]. apply (IH sp q1 m1 m' SM1); auto.
    + unfold step in ES. destruct (next_token strtod (m_tok m)) as [(t, tok)|]; [|discriminate]. cbn [bind] in ES. eapply stack_small; eauto.
    + intros C. apply (NN C); auto.
  - injection E as <-. eauto.
Qed.
Definition start (buf : text) (len : Z) : machine := Machine VALUE [Frame DONE None None] None (Tok 0 buf len) None.
Lemma start_view buf len : exists h1 sp h2 ret, mk_stack h0 st NOOP 512 = Ok (h1, sp) /\ push_frame st h1 (fun _ => DONE) sp DONE VNull = Ok (h2, ret) /\
  sim sp (Mem h2 c0 ret VALUE VNull VNull (Tok 0 buf len)) (start buf len).
Proof.
  unfold mk_stack. destruct (mk_obj_view st h0 (KStack NOOP 512) [] M_IDENTITY W0) as (h1 & -> & W1 & N1 & O1 & X1); [discriminate|].
  exists h1, (h_next h0). set (sp := h_next h0) in *. unfold push_frame, mk_prod.
  destruct (mk_obj_view st h1 (KProd [NOOP; NOOP]) [VForeign; VNull] M_IDENTITY W1) as (h2 & -> & W2 & N2 & O2 & X2); [discriminate|].
  cbn [bind combine foldm incr_indegree fst snd]. set (t := h_next h1) in *. assert (NE : sp <> t) by (unfold t; lia).
  assert (O1' : obj h2 sp (KStack NOOP 512) [] 0) by (eapply obj_ext; [discriminate|apply X2; auto|exact O1]).
  unfold stack_push. rewrite (get_obj_of _ _ _ _ _ O1'). cbn [bind length]. change (Z.of_nat 0 =? 512)%Z with false.
  destruct (put_view st h2 sp _ _ _ (KStack NOOP 512) ([] ++ [VPtr t]) W2 O1') as (h3 & -> & W3 & N3 & O3 & X3); [discriminate..|]. cbn [bind incr_indegree].
  eexists h3, _. split; [reflexivity|]. split; [reflexivity|].
  assert (O2' : obj h3 t (KProd [NOOP; NOOP]) [VForeign; VNull] 0) by (eapply obj_ext; [discriminate|apply X3; auto|exact O2]).
  assert (I0 : inv h0 c0 []).
  { constructor; auto.
    - intros x X. split; [|intros []]. intros NL. exfalso. apply NL. destruct (look h0 x) eqn:LX; auto. exfalso. assert (x < h_next h0); [|lia]. apply (W_below st); auto. congruence.
    - intros x []. }
  eapply (sim_good sp _ _ [sp; t] []); cbn [q_state m_state q_tok m_tok q_heap q_cont q_ret q_key m_key m_stack q_result start]; auto; [| |left; auto].
  - rewrite app_nil_r. apply (inv_grow h0 c0 [] h3 c0 [sp; t] [sp; t]); auto; try lia.
    + intros x X. cbn in X. split; [|auto]. rewrite X3, X2, X1; auto.
    + cbn. intros x [<-|[<-|[]]]; unfold sp, t in *; lia.
    + constructor; [cbn; intros [Y|[]]; congruence|constructor; [intros []|constructor]].
    + intros x [<-|[<-|[]]]; [eapply thing_obj; [exact O3|discriminate]|eapply thing_obj; [exact O2'|discriminate]].
  - eapply (g_start _ _ _ _ t); auto. split; [auto|]. split; [apply set_at_eq|auto].
Qed.

(** What is left of a parse: nothing old has changed, and the new objects are [R]. *)
Lemma finish_sim sp q m (force : bool) r : sim sp q m -> running m = false ->
  match m_state m with
  | DONE =>
    let* r := of_option NullDeref (m_result m) in
    if force then let* (c, tok) := next_token strtod (m_tok m) in match c with TEof => Ok (POk r) | _ => Ok (PErr (t_line tok)) end
    else Ok (POk r)
  | _ => Ok (PErr (t_line (m_tok m)))
  end = Ok r ->
  exists h c v R, mfinish strtod st deep sp q force = Ok (h, c, v) /\ inv h c R /\
    match r, v with
    | POk j, inl p => exists L ds, p = ptr ss L /\ json_of L = j /\ laid h c ss 0 L /\ Forall (laid h c ss 0) ds /\ (cl = true -> ds = []) /\
        forall y, occ y R = occ y (blocks L) + occ y (flat_map blocks ds)
    | PErr line, inr line' => line' = line
    | _, _ => False
    end.
Proof.
  intros (A & B & R & I & IS & (ts & S & LS) & X) RN E. unfold mfinish. rewrite A, B.
  destruct (del_gone (q_heap q) sp _ _ _ (i_W _ _ _ I) S) as (h1 & -> & G1); [discriminate|discriminate|apply noop_stack|]. cbn [bind].
  assert (ONE := i_one _ _ _ I).
  set (R1 := remove Nat.eq_dec sp R).
  assert (O1 : forall x, occ x R = occ x R1 + occ x [sp]).
  { intros x. unfold R1. clear - ONE IS. occs. destruct (Nat.eqb_spec x sp) as [->|NE]; cbn [Nat.b2n].
    - rewrite occ_in in IS. specialize (ONE sp). destruct (occ sp (remove Nat.eq_dec sp R)) eqn:Q; [lia|]. exfalso. apply (remove_In Nat.eq_dec R sp). rewrite occ_in. lia.
    - clear ONE IS. induction R as [|y R IH]; [auto|]. cbn [remove]. destruct (Nat.eq_dec sp y) as [<-|]; rewrite ?occ_cons, IH; [|lia]. destruct (Nat.eqb_spec x sp); [congruence|]. cbn. lia. }
  pose proof (inv_gone _ _ _ _ _ R1 I G1 O1) as I1.
  destruct (m_state m) eqn:MS; try (injection E as <-; eexists h1, (q_cont q), _, R1; split; [reflexivity|]; split; [auto|reflexivity]).
  destruct X as (SK & t & L & ds & QR & MR & T & H & D & CL & O). rewrite MR in E. cbn [of_option bind] in E. rewrite QR.
  assert (NSP : forall y, 0 < occ y [t] + occ y (blocks L) + occ y (flat_map blocks ds) -> y <> sp).
  { intros y Y ->. specialize (ONE sp). rewrite O in ONE. occs. rewrite Nat.eqb_refl in ONE. cbn [Nat.b2n] in ONE. lia. }
  assert (K1 : forall y, y <> sp -> look h1 y = look (q_heap q) y). { intros y Y. apply G1. intros [<-|[]]. congruence. }
  assert (T1 : obj h1 t (KProd [NOOP; NOOP]) [VForeign; ptr ss L] 0). { eapply obj_ext; [discriminate|apply K1; apply NSP; occs; rewrite Nat.eqb_refl; cbn; lia|exact T]. }
  assert (H1 : laid h1 (q_cont q) ss 0 L). { eapply laid_ext; [|exact H]. intros y Y. split; [|auto]. apply K1. apply NSP. rewrite occ_in in Y. lia. }
  assert (D1 : Forall (laid h1 (q_cont q) ss 0) ds). { eapply all_ext; [|exact D]. intros y Y. split; [|auto]. apply K1. apply NSP. rewrite occ_in in Y. lia. }
  assert (O2 : forall y, occ y R1 = occ y [t] + occ y (blocks L) + occ y (flat_map blocks ds)). { intros y. specialize (O1 y). rewrite O in O1. occs. lia. }
  assert (FIN : exists h2, cee_del deep h1 (VPtr t) = Ok h2 /\ inv h2 (q_cont q) (blocks L ++ flat_map blocks ds) /\ laid h2 (q_cont q) ss 0 L /\ Forall (laid h2 (q_cont q) ss 0) ds).
  { destruct (del_gone h1 t _ _ _ (i_W _ _ _ I1) T1) as (h2 & E2 & G2); [discriminate|discriminate|apply noop_prod; auto|]. exists h2. split; [auto|].
    split; [eapply inv_gone; [exact I1|exact G2|intros y; rewrite O2; occs; lia]|].
    assert (NT : forall y, 0 < occ y (blocks L) + occ y (flat_map blocks ds) -> ~ In y [t]).
    { intros y Y [<-|[]]. assert (Q := i_one _ _ _ I1 t). rewrite O2 in Q. occs. rewrite Nat.eqb_refl in Q. cbn [Nat.b2n] in Q. lia. }
    split; [eapply laid_ext; [|exact H1]|eapply all_ext; [|exact D1]]; intros y Y; (split; [|auto]); apply G2; apply NT; rewrite occ_in in Y; lia. }
  destruct FIN as (h2 & E2 & I2 & H2 & D2).
  assert (TG : tuple_get h1 (VPtr t) 1 = Ok (ptr ss L)). { unfold tuple_get. cbn [target bind]. rewrite (get_obj_of _ _ _ _ _ T1). reflexivity. }
  destruct force.
  - destruct (next_token strtod (m_tok m)) as [(t', tok)|] eqn:NT; [|discriminate]. cbn [bind] in *.
    destruct (token_view st h1 (q_cont q) t' (i_W _ _ _ I1)) as (h3 & c3 & str & pend & E3 & W3 & P & N & PF & K & ND). rewrite E3. cbn [bind].
    assert (I3 : inv h3 c3 (R1 ++ pend)).
    { apply (inv_grow h1 (q_cont q) R1 h3 c3 pend pend); auto.
      - intros x Y. apply PF in Y. lia.
      - intros x Y. destruct t'; cbn [pending] in P; try (destruct P as (_ & ->); destruct Y). destruct P as (b & _ & -> & Ob & _). destruct Y as [<-|[]]. eapply thing_obj; [exact Ob|discriminate]. }
    destruct t'; try (injection E as <-; eexists h3, c3, _, (R1 ++ pend); split; [reflexivity|]; split; [exact I3|reflexivity]).
    injection E as <-. cbn [token_str] in E3. injection E3 as <- <- <-. rewrite TG. cbn [bind]. rewrite E2. cbn [bind].
    eexists h2, (q_cont q), _, _. split; [reflexivity|]. split; [exact I2|]. exists L, ds. split; [auto|]. split; [auto|]. split; [auto|]. split; [auto|]. split; [auto|]. intros y. apply occ_app.
  - injection E as <-. cbn [bind]. rewrite TG. cbn [bind]. rewrite E2. cbn [bind].
    eexists h2, (q_cont q), _, _. split; [reflexivity|]. split; [exact I2|]. exists L, ds. split; [auto|]. split; [auto|]. split; [auto|]. split; [auto|]. split; [auto|]. intros y. apply occ_app.
Qed.
Lemma mparsex_sim fuel buf len force r : parsex strtod fuel buf len force = Ok r -> (cl = true -> new_names fuel (start buf len)) ->
  exists h c v R, mparsex strtod st ss place deep fuel h0 c0 buf len force = Ok (h, c, v) /\ inv h c R /\
    match r, v with
    | POk j, inl p => exists L ds, p = ptr ss L /\ json_of L = j /\ laid h c ss 0 L /\ Forall (laid h c ss 0) ds /\ (cl = true -> ds = []) /\
        forall y, occ y R = occ y (blocks L) + occ y (flat_map blocks ds)
    | PErr line, inr line' => line' = line
    | _, _ => False
    end.
Proof.
  intros E NN. unfold parsex in E. fold (start buf len) in E. destruct (run strtod fuel (start buf len)) as [m|] eqn:ER; [|discriminate]. cbn [bind] in E.
  destruct (start_view buf len) as (h1 & sp & h2 & ret & E1 & E2 & SM). unfold mparsex. rewrite E1. cbn [bind]. rewrite E2. cbn [bind].
  destruct (run_sim fuel sp _ _ m SM) as (q & -> & SM' & RN); [cbn; lia|exact NN|exact ER|]. cbn [bind]. exact (finish_sim sp q m force r SM' RN E).
Qed.
End Run.
