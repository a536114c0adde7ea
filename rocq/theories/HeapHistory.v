(** Histories of heap operations and preservation of the allocation chain. *)
From Coq Require Import ZArith List Bool Lia.
From Verif Require Import Base HeapModel HeapChainProofs.
Import ListNotations.
Open Scope nat_scope.
Open Scope outcome_scope.

(** * Client operations under one state
    One constructor per library function of the model.  The arguments are
    arbitrary: a call that the library cannot survive has no [Ok] result. *)
Inductive hop : Type :=
| HLeaf (m : rmeth)                         (* strings, boxes, blocks *)
| HList (p : policy) | HStack (p : policy) (n : Z) | HSet (p : policy)
| HMap (pk pv : policy) | HDict (p : policy)
| HProd (ps : list policy) (vs : list val)  (* tuple, triple, quadruple, n-tuple *)
| HTagged (p : policy) (v : val)
| HEnv (p1 p2 : policy) (outer vars : val) | HClosure (env : val)
| HStatic                                   (* a singleton in static memory *)
| HResize (a : addr) | HUseRealloc (a : addr) | HUseMalloc (a : addr)
| HAppend (l : addr) (e : val) | HInsert (l : addr) (i : nat) (e : val) | HRemove (l : addr) (i : nat)
| HPush (s : addr) (e : val) | HPop (s : addr)
| HSetAdd (keq : val -> val -> bool) (s : addr) (e : val) (pos : nat)
| HSetRemove (keq : val -> val -> bool) (s : addr) (e : val)
| HSetClear (fuel : nat) (s : addr)
| HMapAdd (keq : val -> val -> bool) (fuel : nat) (m : addr) (k v : val) (pos : nat)
| HMapRemove (keq : val -> val -> bool) (fuel : nat) (m : addr) (k : val)
| HDictAdd (d : addr) (k v : val)
| HIncr (p : policy) (v : val) | HDecr (p : policy) (v : val)   (* cee_incr_indegree, cee_decr_indegree *)
| HDelE (fuel : nat) (p : policy) (v : val)                      (* cee_del_e: cee_del, cee_del_ref *)
| HRoot (v : val) (pos : nat) | HUnroot (v : val)
| HContext (keq : val -> val -> bool) (fuel : nat) (k v : val) (pos : nat)
| HUncontext (keq : val -> val -> bool) (fuel : nat) (k : val)
| HGc (fuel : nat).

Definition fst_m {A B} (x : outcome (A * B)) : outcome A := let* (a, _) := x in Ok a.

Definition hstep (st : addr) (h : heap) (o : hop) : outcome heap :=
  match o with
  | HLeaf m => fst_m (mk_obj h st KLeaf [] m)
  | HList p => fst_m (mk_list h st p)
  | HStack p n => fst_m (mk_stack h st p n)
  | HSet p => fst_m (mk_set h st p)
  | HMap pk pv => fst_m (mk_map h st pk pv)
  | HDict p => fst_m (mk_dict h st p)
  | HProd ps vs => fst_m (mk_prod h st ps vs)
  | HTagged p v => fst_m (mk_tagged h st p v)
  | HEnv p1 p2 o v => fst_m (mk_env h st p1 p2 o v)
  | HClosure e => fst_m (mk_closure h st e)
  | HStatic => Ok (fst (mk_static h))
  | HResize a =>
    let* (k, _) := get_obj h a in
    match k with KLeaf => fst_m (resize h a) | _ => Bad BadPointer end
  | HUseRealloc a => use_realloc h a
  | HUseMalloc a => use_malloc h a
  | HAppend l e => list_append h l e
  | HInsert l i e => list_insert h l i e
  | HRemove l i => list_remove h l i
  | HPush s e => stack_push h s e
  | HPop s => fst_m (stack_pop h s)
  | HSetAdd keq s e pos => set_add keq h s e pos
  | HSetRemove keq s e => set_remove keq h s e
  | HSetClear fuel s => set_clear fuel h s
  | HMapAdd keq fuel m k v pos => fst_m (map_add keq fuel h m k v pos)
  | HMapRemove keq fuel m k => fst_m (map_remove keq fuel h m k)
  | HDictAdd d k v => dict_add h d k v
  | HIncr p v => incr_indegree h p v
  | HDecr p v => decr_indegree h p v
  | HDelE fuel p v => del_e (trace_del fuel) h (p, v)
  | HRoot v pos => add_gc_root h st v pos
  | HUnroot v => remove_gc_root h st v
  | HContext keq fuel k v pos => add_context keq fuel h st k v pos
  | HUncontext keq fuel k => remove_context keq fuel h st k
  | HGc fuel => gc fuel h st
  end.

(** The heaps a program can bring about between making a state and deleting it. *)
Inductive reach (n : Z) (st : addr) : heap -> Prop :=
| reach_mk : forall h, state_mk empty_heap n = Ok (h, st) -> reach n st h
| reach_step : forall h o h', reach n st h -> hstep st h o = Ok h' -> h_mem h' st <> None -> reach n st h'.

(** * Operations that leave the chain alone *)
Ltac quiet := let b := fresh in intros b; repeat (match goal with |- context [if ?c then _ else _] => destruct c end); repeat split.

Lemma incr_skel h p v h' : incr_indegree h p v = Ok h' -> same_skel h h'.
Proof.
  destruct p; cbn; intros H.
  - apply bind_ok in H as (a & _ & H). eapply modify_skel; [|exact H]. quiet.
  - apply bind_ok in H as (a & _ & H). eapply modify_skel; [|exact H]. quiet.
  - injection H as <-. apply same_skel_refl.
Qed.
Lemma decr_skel h p v h' : decr_indegree h p v = Ok h' -> same_skel h h'.
Proof.
  destruct p; cbn; intros H.
  - apply bind_ok in H as (a & _ & H). eapply modify_skel; [|exact H]. quiet.
  - apply bind_ok in H as (a & _ & H). apply bind_ok in H as (b & _ & H). destruct (b_ret b); [|discriminate].
    eapply modify_skel; [|exact H]. quiet.
  - injection H as <-. apply same_skel_refl.
Qed.
Lemma get_obj_inv h a k vs : get_obj h a = Ok (k, vs) -> exists b, h_mem h a = Some b /\ b_body b = BObj k vs.
Proof.
  unfold get_obj. intros H. apply bind_ok in H as (b & G & H). apply get_ok in G.
  destruct (b_body b) eqn:B; [discriminate|]. injection H as -> ->. eauto.
Qed.
Lemma put_vals_skel h a k vs vs' h' : get_obj h a = Ok (k, vs) -> put_vals h a k vs' = Ok h' -> same_skel h h'.
Proof.
  intros G H. apply get_obj_inv in G as (b & G & B). unfold put_vals in H. rewrite (modify_ok _ _ _ _ G) in H. injection H as <-.
  eapply set_mem_skel; eauto. unfold shape_of. cbn. rewrite B. auto.
Qed.
Lemma update_policy_skel h t i p h' : update_policy h t i p = Ok h' -> same_skel h h'.
Proof.
  unfold update_policy. intros H. apply bind_ok in H as ((k, vs) & G & H). apply get_obj_inv in G as (b & G & B).
  destruct k; try discriminate. rewrite (modify_ok _ _ _ _ G) in H. injection H as <-.
  eapply set_mem_skel; eauto. unfold shape_of. cbn. rewrite B. auto.
Qed.
Lemma list_append_skel h l e h' : list_append h l e = Ok h' -> same_skel h h'.
Proof.
  unfold list_append. intros H. apply bind_ok in H as ((k, vs) & G & H). destruct k; try discriminate.
  apply bind_ok in H as (h1 & H1 & H). eapply same_skel_trans; [eapply put_vals_skel|eapply incr_skel]; eauto.
Qed.
Lemma list_insert_skel h l i e h' : list_insert h l i e = Ok h' -> same_skel h h'.
Proof.
  unfold list_insert. intros H. apply bind_ok in H as ((k, vs) & G & H). destruct k; try discriminate.
  destruct (i <=? length vs); [|discriminate].
  apply bind_ok in H as (h1 & H1 & H). eapply same_skel_trans; [eapply put_vals_skel|eapply incr_skel]; eauto.
Qed.
Lemma list_remove_skel h l i h' : list_remove h l i = Ok h' -> same_skel h h'.
Proof.
  unfold list_remove. intros H. apply bind_ok in H as ((k, vs) & G & H). destruct k; try discriminate.
  destruct (nth_error vs i); [|injection H as <-; apply same_skel_refl].
  apply bind_ok in H as (h1 & H1 & H). eapply same_skel_trans; [eapply put_vals_skel|eapply decr_skel]; eauto.
Qed.
Lemma stack_push_skel h s e h' : stack_push h s e = Ok h' -> same_skel h h'.
Proof.
  unfold stack_push. intros H. apply bind_ok in H as ((k, vs) & G & H). destruct k; try discriminate.
  destruct (_ =? _)%Z; [injection H as <-; apply same_skel_refl|].
  apply bind_ok in H as (h1 & H1 & H). eapply same_skel_trans; [eapply put_vals_skel|eapply incr_skel]; eauto.
Qed.
Lemma stack_pop_skel h s h' e : stack_pop h s = Ok (h', e) -> same_skel h h'.
Proof.
  unfold stack_pop. intros H. apply bind_ok in H as ((k, vs) & G & H). destruct k; try discriminate.
  destruct (rev vs); [injection H as <- <-; apply same_skel_refl|].
  apply bind_ok in H as (h1 & H1 & H). apply bind_ok in H as (h2 & H2 & H). injection H as <- <-.
  eapply same_skel_trans; [eapply put_vals_skel|eapply decr_skel]; eauto.
Qed.
Lemma set_add_skel keq h s v pos h' : set_add keq h s v pos = Ok h' -> same_skel h h'.
Proof.
  unfold set_add. intros H. apply bind_ok in H as ((k, vs) & G & H). destruct k; try discriminate.
  destruct (find (keq v) vs).
  - destruct (val_eqb v0 v); [eapply incr_skel; eauto|injection H as <-; apply same_skel_refl].
  - apply bind_ok in H as (h1 & H1 & H). eapply same_skel_trans; [eapply put_vals_skel|eapply incr_skel]; eauto.
Qed.
Lemma set_remove_skel keq h s v h' : set_remove keq h s v = Ok h' -> same_skel h h'.
Proof.
  unfold set_remove. intros H. apply bind_ok in H as ((k, vs) & G & H). destruct k; try discriminate.
  eapply put_vals_skel; eauto.
Qed.
Lemma key_delete_skel keq h keys key h' : key_delete keq h keys key = Ok h' -> same_skel h h'.
Proof.
  unfold key_delete. intros H. apply bind_ok in H as ((k, vs) & G & H). revert H. generalize 0.
  generalize vs at 1. clear. intros l. induction l as [|x l IH]; intros i; [discriminate|].
  destruct (keq key x); [apply list_remove_skel|apply IH].
Qed.
Lemma dict_add_skel h d k v h' : dict_add h d k v = Ok h' -> same_skel h h'.
Proof.
  unfold dict_add. intros H. apply bind_ok in H as ((kk, vs) & G & H).
  destruct kk; try discriminate. destruct vs as [|? [|? [|]]]; try discriminate.
  apply bind_ok in H as (ka & _ & H). apply bind_ok in H as (h1 & H1 & H). apply bind_ok in H as (xa & _ & H).
  eapply same_skel_trans; eapply list_append_skel; eauto.
Qed.
Lemma foldm_skel {A} (f : heap -> A -> outcome heap) : (forall h x h', f h x = Ok h' -> same_skel h h') ->
  forall l h h', foldm f h l = Ok h' -> same_skel h h'.
Proof.
  intros F. induction l as [|x l IH]; intros h h'; cbn.
  - intros [= <-]. apply same_skel_refl.
  - intros H. apply bind_ok in H as (h1 & H1 & H). eapply same_skel_trans; eauto.
Qed.
Lemma mark_val_skel tr : (forall h x h', tr h x = Ok h' -> same_skel h h') ->
  forall h v h', mark_val tr h v = Ok h' -> same_skel h h'.
Proof. intros T h v h'. destruct v; cbn; [|apply T|discriminate]. intros [= <-]. apply same_skel_refl. Qed.
Lemma trace_mark_skel m : forall fuel h a h', trace_mark fuel m h a = Ok h' -> same_skel h h'.
Proof.
  induction fuel as [|f IH]; intros h a h'; [discriminate|]. cbn [trace_mark]. intros H. apply bind_ok in H as (b & G & H).
  assert (X : forall vs, (let* h1 := modify h a (set_mark m) in foldm (mark_val (trace_mark f m)) h1 vs) = Ok h' -> same_skel h h').
  { intros vs X. apply bind_ok in X as (h1 & X1 & X). eapply same_skel_trans.
    - eapply modify_skel; [|exact X1]. quiet.
    - eapply foldm_skel; [|exact X]. apply mark_val_skel, IH. }
  destruct (b_body b) as [? ? ? ? ?|[] vs]; try (eapply X; eauto; fail); injection H as <-; apply same_skel_refl.
Qed.

(** the mark of a block once marked stays *)
Definition has_mark (m : Z) (a : addr) (h : heap) : Prop := option_map b_mark (h_mem h a) = Some m.
Lemma foldm_pres {A} (P : heap -> Prop) (f : heap -> A -> outcome heap) :
  (forall h x h', P h -> f h x = Ok h' -> P h') -> forall l h h', P h -> foldm f h l = Ok h' -> P h'.
Proof.
  intros F. induction l as [|x l IH]; intros h h' Ph; cbn.
  - intros [= <-]. auto.
  - intros H. apply bind_ok in H as (h1 & H1 & H). eauto.
Qed.
Lemma modify_mark m h a h' x : modify h a (set_mark m) = Ok h' -> (x = a \/ has_mark m x h) -> has_mark m x h'.
Proof.
  intros H. apply modify_eff in H as ((_ & _ & E) & L). unfold has_mark. rewrite E.
  destruct (Nat.eqb_spec x a) as [->|NE].
  - destruct (h_mem h a); cbn; congruence.
  - intuition congruence.
Qed.
Lemma trace_mark_pres m x : forall fuel h a h', has_mark m x h -> trace_mark fuel m h a = Ok h' -> has_mark m x h'.
Proof.
  induction fuel as [|f IH]; intros h a h' P; [discriminate|]. cbn [trace_mark]. intros H. apply bind_ok in H as (b & G & H).
  assert (X : forall vs, (let* h1 := modify h a (set_mark m) in foldm (mark_val (trace_mark f m)) h1 vs) = Ok h' -> has_mark m x h').
  { intros vs X. apply bind_ok in X as (h1 & X1 & X). eapply (foldm_pres (has_mark m x)); [| |exact X].
    - intros h2 v h3 P2. destruct v; cbn; [|eauto|discriminate]. intros [= <-]; auto.
    - eapply modify_mark; eauto. }
  destruct (b_body b) as [? ? ? ? ?|[] vs]; try (eapply X; eauto; fail); injection H as <-; auto.
Qed.
Lemma trace_mark_state m st fuel h h' t : shp h st = Some (SState t) -> trace_mark fuel m h st = Ok h' -> has_mark m st h'.
Proof.
  destruct fuel as [|f]; [discriminate|]. cbn [trace_mark]. unfold get, shp. destruct (h_mem h st) as [b|]; [|discriminate].
  cbn. unfold shape_of. destruct (b_body b) as [? ? ? ? ?|[] vs]; try discriminate. intros _ X.
  apply bind_ok in X as (h1 & X1 & X). eapply (foldm_pres (has_mark m st) (mark_val (trace_mark f m)) _ [VPtr roots; VPtr stack; VPtr contexts]); [| exact X].
  - eapply modify_mark; eauto.
  Unshelve. intros h2 v h3 P2. destruct v; cbn; [|apply trace_mark_pres; auto|discriminate]. intros [= <-]; auto.
Qed.

(** * Operations that change the chain *)
Section Strict.
Context {strict : bool}.

Lemma fst_m_ok {A B} (x : outcome (A * B)) a : fst_m x = Ok a -> exists b, x = Ok (a, b).
Proof. unfold fst_m. intros H. apply bind_ok in H as ((a', b) & -> & H). injection H as <-. eauto. Qed.

Lemma sweep_wf st m : forall fuel h head h' l, wf_chain strict h st l -> has_mark m st h -> sweep fuel m h head = Ok h' ->
  exists l', wf_chain strict h' st l' /\ incl l' l.
Proof.
  induction fuel as [|f IH]; intros h head h' l W M; [discriminate|]. cbn [sweep].
  destruct head as [a|]; [|intros [= <-]; exists l; split; [auto|red; auto]].
  intros H. apply bind_ok in H as (b & G & H). apply get_ok in G.
  apply bind_ok in H as (h1 & H1 & H). destruct (b_mark b =? m)%Z eqn:EM.
  - injection H1 as <-. eauto.
  - destruct (wc_all _ _ _ W a) as [->|[I|SS]]; [congruence| | |].
    + unfold has_mark in M. rewrite G in M. cbn in M. apply Z.eqb_neq in EM. congruence.
    + destruct (wc_obj _ _ _ W a I) as (SO & _). rewrite (shape_obj_nofollow _ _ SO) in H1.
      apply in_split in I as (u & v & ->). destruct (unlink_wf _ _ _ _ _ W) as (h2 & h3 & E1 & E2 & W2 & B & D & MM & _).
      rewrite E1 in H1. cbn [bind] in H1. rewrite E2 in H1. injection H1 as <-.
      destruct (IH h3 (b_next b) h' (u ++ v) W2) as (l' & W' & I'); auto.
      * assert (NE : st <> a).
        { intros <-. pose proof (wc_nodup _ _ _ W) as ND. inversion ND; subst. apply H2. apply in_or_app. right. left. auto. }
        unfold has_mark. rewrite MM by auto. specialize (B st). unfold has_mark in M.
        destruct (h_mem h st), (h_mem h2 st); try contradiction; try discriminate. cbn in *. destruct B as (_ & _ & B & _). congruence.
      * exists l'. split; auto. intros x X. apply I' in X. apply in_app_or in X. apply in_or_app. cbn. tauto.
    + unfold del_nofollow, get in H1. rewrite G in H1. cbn in H1. unfold shp in SS. rewrite G in SS. cbn in SS. unfold shape_of in SS.
      destruct (b_body b) as [? ? ? ? ?|[] ?]; try discriminate. injection H1 as <-. eauto.
Qed.
Lemma gc_wf st fuel h h' l : wf_chain strict h st l -> gc fuel h st = Ok h' -> exists l', wf_chain strict h' st l' /\ incl l' l.
Proof.
  unfold gc. intros W H. apply bind_ok in H as (b & G & H). destruct (b_body b) as [t r s c m|] eqn:B; [|discriminate].
  apply bind_ok in H as (h1 & H1 & H). apply bind_ok in H as (h2 & H2 & H).
  pose proof (same_skel_wf _ _ _ _ (trace_mark_skel _ _ _ _ _ H1) W) as W1.
  pose proof (trace_mark_state _ _ _ _ _ _ (wc_state _ _ _ W) H1) as M.
  destruct (sweep_wf _ _ _ _ _ _ _ W1 M H2) as (l' & W2 & I). exists l'. split; auto.
  apply bind_ok in H as (b2 & G2 & H). apply get_ok in G2. destruct (b_body b2) eqn:B2; [|discriminate]. injection H as <-.
  eapply same_skel_wf; [|exact W2]. eapply set_mem_skel; eauto. unfold shape_of. cbn. rewrite B2. auto.
Qed.

Lemma mk_obj_wf h st l k vs m h' a : wf_chain strict h st l -> k <> KStatic -> mk_obj h st k vs m = Ok (h', a) ->
  wf_chain strict h' st (l ++ [a]) /\ a = h_next h /\ h_next h' = S (h_next h).
Proof.
  unfold mk_obj. intros W NS H. destruct (malloc h _) as (h1, a1) eqn:E.
  apply bind_ok in H as (h2 & H2 & H). injection H as <- <-.
  destruct (malloc_wf _ _ _ _ _ _ W E) as (W1 & A & _ & Ma & _ & N & _).
  { unfold shape_of. cbn. destruct k; congruence. }
  assert (EN : nxt h1 a1 = Some None) by (unfold nxt; rewrite Ma; auto).
  destruct (chain_wf _ _ _ _ W1 (fun _ => EN)) as (h3 & E3 & W3 & _ & N3 & _). rewrite E3 in H2. injection H2 as <-.
  split; auto. split; auto. congruence.
Qed.
Lemma mk_prod_wf h st l ps vs h' a : wf_chain strict h st l -> mk_prod h st ps vs = Ok (h', a) ->
  wf_chain strict h' st (l ++ [a]).
Proof.
  unfold mk_prod. intros W H. apply bind_ok in H as ((h1, a1) & H1 & H). apply bind_ok in H as (h2 & H2 & H). injection H as <- <-.
  apply mk_obj_wf with (l := l) in H1 as (W1 & _); [|auto|discriminate].
  eapply same_skel_wf; [|exact W1]. eapply foldm_skel; [|exact H2]. intros ? (?, ?) ?. apply incr_skel.
Qed.
Lemma mk_map_wf h st l pk pv h' a : wf_chain strict h st l -> mk_map h st pk pv = Ok (h', a) -> exists l', wf_chain strict h' st l'.
Proof.
  unfold mk_map, mk_list. intros W H. apply bind_ok in H as ((h1, a1) & H1 & H).
  apply mk_obj_wf with (l := l) in H1 as (W1 & _); [|auto|discriminate].
  eapply mk_obj_wf in H as (W2 & _); [|exact W1|discriminate]. eauto.
Qed.
Lemma mk_dict_wf h st l p h' a : wf_chain strict h st l -> mk_dict h st p = Ok (h', a) -> exists l', wf_chain strict h' st l'.
Proof.
  unfold mk_dict, mk_list. intros W H. apply bind_ok in H as ((h1, a1) & H1 & H). apply bind_ok in H as ((h2, a2) & H2 & H).
  apply mk_obj_wf with (l := l) in H1 as (W1 & _); [|auto|discriminate].
  eapply mk_obj_wf in H2 as (W2 & _); [|exact W1|discriminate].
  eapply mk_obj_wf in H as (W3 & _); [|exact W2|discriminate]. eauto.
Qed.
Lemma mk_static_wf h st l : wf_chain strict h st l -> wf_chain strict (fst (mk_static h)) st l.
Proof.
  intros W. unfold mk_static, malloc. cbn [fst]. set (h' := Heap _ _ _).
  assert (Ga : h_mem h (h_next h) = None).
  { destruct (h_mem h (h_next h)) eqn:E; auto. exfalso.
    apply (Nat.lt_irrefl (h_next h)). apply (wc_fresh _ _ _ W). congruence. }
  assert (M : forall x, x <> h_next h -> h_mem h' x = h_mem h x).
  { intros x NE. cbn. apply Nat.eqb_neq in NE. rewrite NE. auto. }
  assert (NI : ~ In (h_next h) (st :: l)). { intros I. apply (wf_live _ _ _ _ W) in I. auto. }
  assert (Ma : shp h' (h_next h) = Some SStatic) by (unfold shp, h'; cbn; rewrite Nat.eqb_refl; auto).
  destruct W as [wc_state0 wc_links0 wc_nodup0 wc_obj0 wc_all0 wc_fresh0 wc_log0 wc_freed0 wc_end0]. constructor; auto.
  - unfold shp. rewrite M; [exact wc_state0|]. intros E. apply NI. left. auto.
  - apply (links_frame h); auto.
    + intros x I _. unfold nxt. rewrite M; auto. congruence.
    + intros x I. unfold prv. rewrite M; auto. intros ->. apply NI. right. auto.
  - intros x I. unfold shp, stt. rewrite M; [exact (wc_obj0 x I)|]. intros ->. apply NI. right. auto.
  - intros x X. destruct (Nat.eq_dec x (h_next h)) as [->|NE]; [auto|]. unfold shp. rewrite M in * by auto. exact (wc_all0 x X).
  - intros x X. cbn. destruct (Nat.eq_dec x (h_next h)) as [->|NE]; [lia|]. rewrite M in X by auto. apply wc_fresh0 in X. lia.
  - intros x. change (In x (h_freed h) <-> x < S (h_next h) /\ h_mem h' x = None). rewrite wc_freed0. destruct (Nat.eq_dec x (h_next h)) as [->|NE].
    + rewrite <- (shp_none h'). rewrite Ma. split; [lia|]. intros (_ & X). discriminate.
    + rewrite M by auto. split; intros (X & Y); split; auto; lia.
  - intros X. unfold nxt. rewrite M; [apply wc_end0; auto|]. intros E. apply NI. rewrite <- E. apply last_in.
Qed.

Lemma resize_wf h st l a h' a' : wf_chain strict h st l -> In a l -> (strict = true -> nxt h a = Some None \/ option_map b_meth (h_mem h a) = Some M_IDENTITY) ->
  resize h a = Ok (h', a') -> exists l', wf_chain strict h' st l'.
Proof.
  intros W I EN H. unfold resize in H. apply bind_ok in H as (b & G & H). apply get_ok in G.
  destruct (wc_obj _ _ _ W a I) as (SO & ST).
  assert (SB : shape_of b = SObj) by (unfold shp in SO; rewrite G in SO; cbn in SO; congruence).
  assert (EB : b_state b = st) by (unfold stt in ST; rewrite G in ST; cbn in ST; congruence).
  assert (EN' : b_meth b <> M_IDENTITY -> strict = true -> b_next b = None).
  { intros NI X. destruct (EN X) as [Y|Y]; unfold nxt in Y; rewrite G in Y; cbn in Y; congruence. }
  destruct (b_meth b).
  - injection H as <- <-. eauto.
  - destruct (malloc h b) as (h1, a1) eqn:E. apply bind_ok in H as (h2 & H2 & H). injection H as <- <-.
    destruct (malloc_wf _ _ _ _ _ _ W E SB) as (W1 & _ & _ & Ma & _).
    destruct (chain_wf _ _ _ _ W1) as (h3 & E3 & W3 & _);
      [intros X; unfold nxt; rewrite Ma; cbn; rewrite EN'; auto; discriminate|]. rewrite EB, E3 in H2. injection H2 as <-. eauto.
  - apply in_split in I as (u & v & ->). apply bind_ok in H as (h1 & H1 & H).
    destruct (de_chain_wf _ _ _ _ _ W) as (h1' & E1 & W1 & B1 & _ & _ & NA). rewrite E1 in H1. injection H1 as <-.
    apply bind_ok in H as (b1 & G1 & H). apply get_ok in G1. apply bind_ok in H as (h2 & H2 & H).
    destruct (free_wf _ _ _ _ W1) as (h2' & E2 & W2 & _). rewrite E2 in H2. injection H2 as <-.
    destruct (malloc h2' b1) as (h3, a1) eqn:E. apply bind_ok in H as (h4 & H4 & H). injection H as <- <-.
    assert (SB1 : shape_of b1 = SObj).
    { pose proof (wb_a _ _ _ _ W1) as X. unfold shp in X. rewrite G1 in X. cbn in X. congruence. }
    destruct (malloc_wf _ _ _ _ _ _ W2 E SB1) as (W3 & _ & _ & Ma & _).
    assert (EN1 : b_next b1 = b_next b) by (unfold nxt in NA; rewrite G, G1 in NA; cbn in NA; congruence).
    assert (EB1 : b_state b1 = st).
    { assert (X : stt h1' a = stt h a).
      { clear - E1. unfold de_chain in E1. apply bind_ok in E1 as (b & _ & H). apply bind_ok in H as (t & _ & H).
        assert (Q : forall h p v h1, modify h p (set_next v) = Ok h1 -> stt h1 a = stt h a).
        { intros. apply modify_eff in H0 as (X & _). apply (eff_other b_state _ _ _ _ _ X). auto. }
        assert (R : forall h p v h1, modify h p (set_prev v) = Ok h1 -> stt h1 a = stt h a).
        { intros. apply modify_eff in H0 as (X & _). apply (eff_other b_state _ _ _ _ _ X). auto. }
        destruct (t =? a); apply bind_ok in H as (p & _ & H); apply bind_ok in H as (h2 & H2 & H); apply Q in H2; rewrite <- H2.
        - unfold set_tail in H. apply bind_ok in H as (b2 & G2 & H). apply get_ok in G2. destruct (b_body b2); [|discriminate].
          injection H as <-. unfold stt. destruct (Nat.eq_dec a (b_state b)) as [E|E].
          + rewrite <- E. rewrite <- E in G2. rewrite mem_set_eq, G2. auto.
          + rewrite mem_set_neq by auto. auto.
        - destruct (b_next b); [eauto|]. injection H as <-. auto. }
      unfold stt in X. rewrite G1, G in X. cbn in X. congruence. }
    destruct (chain_wf _ _ _ _ W3) as (h5 & E5 & W5 & _);
      [intros X; unfold nxt; rewrite Ma; cbn; rewrite EN1, EN'; auto; discriminate|]. rewrite EB1, E5 in H4. injection H4 as <-. eauto.
Qed.

Lemma obj_in h st l a k vs : wf_chain strict h st l -> get_obj h a = Ok (k, vs) -> k <> KStatic -> In a l.
Proof.
  intros W G NS. apply get_obj_inv in G as (b & G & B).
  destruct (wc_all _ _ _ W a) as [->|[I|SS]]; [congruence| |auto|].
  - pose proof (wc_state _ _ _ W) as S. unfold shp in S. rewrite G in S. cbn in S. unfold shape_of in S. rewrite B in S.
    destruct k; discriminate.
  - unfold shp in SS. rewrite G in SS. cbn in SS. unfold shape_of in SS. rewrite B in SS. destruct k; congruence.
Qed.

Lemma map_add_wf keq fuel h st l m k v pos h' r : wf_chain strict h st l ->
  map_add keq fuel h m k v pos = Ok (h', r) -> exists l', wf_chain strict h' st l'.
Proof.
  intros W H. assert (H' : k = VNull \/ k <> VNull) by (destruct k; [left|right|right]; congruence).
  destruct H' as [->|NK]; [injection H as <- <-; eauto|].
  unfold map_add in H. assert (H1 : (let* b := get h m in match b_body b with
    | BObj (KMap pk pv) (keys :: _) =>
      let* (h, t) := mk_prod h (b_state b) [pk; pv] [k; v] in
      let* (_, vs) := get_obj h m in
      let* e := find_entry keq h k (tl vs) in
      match e with
      | Some t1 =>
        let* t1a := target t1 in
        let* (k1, vs1) := get_obj h t1a in
        let* old := of_option OutOfBounds (nth_error vs1 1) in
        let* h :=
          if val_eqb v old then Ok h
          else
            let* h := put_vals h t1a k1 (update vs1 1 v) in
            decr_indegree h pv old in
        let* h := update_policy h t 1 NOOP in
        let* h := cee_del fuel h (VPtr t) in
        Ok (h, old)
      | None =>
        let* h := put_vals h m (KMap pk pv) (keys :: firstn pos (tl vs) ++ VPtr t :: skipn pos (tl vs)) in
        let* ka := target keys in
        let* h := list_append h ka k in
        Ok (h, VNull)
      end
    | _ => Bad BadPointer
    end) = Ok (h', r)) by (destruct k; [congruence|exact H|exact H]). clear H. rename H1 into H.
  apply bind_ok in H as (b & G & H). apply get_ok in G. destruct (b_body b) as [|[] [|keys ts]] eqn:B; try discriminate.
  assert (IM : In m l).
  { eapply (obj_in h); eauto; [unfold get_obj, get; rewrite G; cbn; rewrite B; reflexivity|discriminate]. }
  destruct (wc_obj _ _ _ W m IM) as (_ & ST). assert (EB : b_state b = st) by (unfold stt in ST; rewrite G in ST; cbn in ST; congruence).
  rewrite EB in H. apply bind_ok in H as ((h1, t) & H1 & H). apply mk_prod_wf with (l := l) in H1; auto.
  apply bind_ok in H as ((km, vs) & GM & H). apply bind_ok in H as (e & FE & H). destruct e as [t1|].
  - apply bind_ok in H as (t1a & _ & H). apply bind_ok in H as ((k1, vs1) & G1 & H). apply bind_ok in H as (old & _ & H).
    apply bind_ok in H as (h2 & H2 & H). apply bind_ok in H as (h3 & H3 & H). apply bind_ok in H as (h4 & H4 & H). injection H as <- <-.
    assert (W2 : wf_chain strict h2 st (l ++ [t])).
    { eapply same_skel_wf; [|exact H1]. destruct (val_eqb v old); [injection H2 as <-; apply same_skel_refl|].
      apply bind_ok in H2 as (h5 & H5 & H2). eapply same_skel_trans; [eapply put_vals_skel|eapply decr_skel]; eauto. }
    assert (W3 : wf_chain strict h3 st (l ++ [t])) by (eapply same_skel_wf; [eapply update_policy_skel; eauto|auto]).
    cbn in H4. assert (IT : In t (l ++ [t])) by (apply in_or_app; right; left; auto).
    destruct (trace_del_obj _ _ _ _ _ _ W3 IT H4) as (l' & W' & _). eauto.
  - apply bind_ok in H as (h2 & H2 & H). apply bind_ok in H as (ka & _ & H). apply bind_ok in H as (h3 & H3 & H). injection H as <- <-.
    exists (l ++ [t]). eapply same_skel_wf; [|exact H1]. eapply same_skel_trans; [|eapply list_append_skel; eauto].
    clear - H2 GM G B H1 W IM. apply get_obj_inv in GM as (bm & GM & BM).
    unfold put_vals in H2. rewrite (modify_ok _ _ _ _ GM) in H2. injection H2 as <-.
    eapply set_mem_skel; eauto.
    assert (S : shp h1 m = Some SObj). { apply (wc_obj _ _ _ H1). apply in_or_app; auto. }
    unfold shp in S. rewrite GM in S. cbn in S. injection S as ->. reflexivity.
Qed.

Lemma map_remove_wf keq fuel h st l m k h' r : wf_chain strict h st l ->
  map_remove keq fuel h m k = Ok (h', r) -> exists l', wf_chain strict h' st l'.
Proof.
  intros W H. assert (H' : k = VNull \/ k <> VNull) by (destruct k; [left|right|right]; congruence).
  destruct H' as [->|NK]; [injection H as <- <-; eauto|].
  unfold map_remove in H. destruct k as [|ka|]; [congruence| |].
  all: apply bind_ok in H as (b & G & H); apply get_ok in G; destruct (b_body b) as [|[] [|keys ts]] eqn:B; try discriminate.
  all: apply bind_ok in H as (e & FE & H); destruct e as [t|]; [|injection H as <- <-; eauto].
  all: apply bind_ok in H as (h1 & H1 & H); apply bind_ok in H as (ok & G1 & H); apply bind_ok in H as (ov & G2 & H).
  all: apply bind_ok in H as (h2 & H2 & H); apply bind_ok in H as (h3 & H3 & H); apply bind_ok in H as (ta & T & H).
  all: apply bind_ok in H as (h4 & H4 & H); apply bind_ok in H as (h5 & H5 & H); apply bind_ok in H as (h6 & H6 & H).
  all: apply bind_ok in H as (kka & T2 & H); apply bind_ok in H as (h7 & H7 & H); injection H as <- <-.
  all: assert (W5 : wf_chain strict h5 st l) by
    (eapply same_skel_wf; [|exact W]; eapply same_skel_trans;
     [eapply put_vals_skel; [|exact H1]; unfold get_obj, get; rewrite G; cbn; rewrite B; reflexivity|];
     eapply same_skel_trans; [eapply decr_skel; eauto|]; eapply same_skel_trans; [eapply decr_skel; eauto|];
     eapply same_skel_trans; eapply update_policy_skel; eauto).
  all: destruct t as [|t|]; try discriminate; cbn in T; injection T as <-; cbn in H6.
  all: assert (IT : In t l) by
    (assert (X := H5); unfold update_policy in X; apply bind_ok in X as ((kt, vt) & GT & X); 
     assert (W4 : wf_chain strict h4 st l) by (eapply same_skel_wf; [|exact W]; eapply same_skel_trans;
       [eapply put_vals_skel; [|exact H1]; unfold get_obj, get; rewrite G; cbn; rewrite B; reflexivity|];
       eapply same_skel_trans; [eapply decr_skel; eauto|]; eapply same_skel_trans; [eapply decr_skel; eauto|];
       eapply update_policy_skel; eauto);
     eapply (obj_in h4); eauto; destruct kt; discriminate).
  all: destruct (trace_del_obj _ _ _ _ _ _ W5 IT H6) as (l' & W' & _); exists l'.
  all: eapply same_skel_wf; [|exact W']; eapply key_delete_skel; eauto.
Qed.

Lemma del_post_live st l h : del_post strict st l h -> h_mem h st <> None -> exists l', wf_chain strict h st l'.
Proof. intros [(l' & W & _)|A] L; [eauto|]. exfalso. apply L, A. left. auto. Qed.

(** Resizing a block that is not the newest one leaves a stale [trace_next]. *)
Definition resize_ok (h : heap) (o : hop) : Prop :=
  match o with
  | HResize a => nxt h a = Some None \/ option_map b_meth (h_mem h a) = Some M_IDENTITY
  | _ => True
  end.

Lemma hstep_wf st h o h' l : wf_chain strict h st l -> (strict = true -> resize_ok h o) -> hstep st h o = Ok h' -> h_mem h' st <> None -> exists l', wf_chain strict h' st l'.
Proof.
  assert (Q : forall h', wf_chain strict h st l -> same_skel h h' -> exists l', wf_chain strict h' st l').
  { intros h1 W S. exists l. eapply same_skel_wf; eauto. }
  assert (MK : forall k vs m h1, wf_chain strict h st l -> k <> KStatic -> fst_m (mk_obj h st k vs m) = Ok h1 -> exists l', wf_chain strict h1 st l').
  { intros k vs m h1 W NK H. apply fst_m_ok in H as (a & H). apply mk_obj_wf with (l := l) in H as (X & _); eauto. }
  intros W RO H L. destruct o; cbn [hstep] in H.
  - eapply MK; eauto; discriminate.
  - eapply MK; eauto; discriminate.
  - eapply MK; eauto; discriminate.
  - eapply MK; eauto; discriminate.
  - apply fst_m_ok in H as (a & H). eapply mk_map_wf; eauto.
  - apply fst_m_ok in H as (a & H). eapply mk_dict_wf; eauto.
  - apply fst_m_ok in H as (a & H). apply mk_prod_wf with (l := l) in H; eauto.
  - apply fst_m_ok in H as (a & H). unfold mk_tagged in H. apply bind_ok in H as ((h1, a1) & H1 & H).
    apply mk_obj_wf with (l := l) in H1 as (W1 & _); [|auto|discriminate].
    destruct v; [injection H as <- <-; eauto| |]; apply bind_ok in H as (h2 & H2 & H); injection H as <- <-;
      exists (l ++ [a1]); eapply same_skel_wf; eauto; eapply incr_skel; eauto.
  - eapply MK; eauto; discriminate.
  - eapply MK; eauto; discriminate.
  - injection H as <-. exists l. apply mk_static_wf; auto.
  - apply bind_ok in H as ((k, vs) & G & H). destruct k; try discriminate. apply fst_m_ok in H as (a' & H).
    eapply resize_wf; [exact W| |exact RO|exact H]. eapply obj_in; eauto; discriminate.
  - eapply Q; auto. eapply modify_skel; [|exact H]. intros b. destruct (b_meth b); repeat split.
  - eapply Q; auto. eapply modify_skel; [|exact H]. intros b. destruct (b_meth b); repeat split.
  - eapply Q; auto. eapply list_append_skel; eauto.
  - eapply Q; auto. eapply list_insert_skel; eauto.
  - eapply Q; auto. eapply list_remove_skel; eauto.
  - eapply Q; auto. eapply stack_push_skel; eauto.
  - apply fst_m_ok in H as (e & H). eapply Q; auto. eapply stack_pop_skel; eauto.
  - eapply Q; auto. eapply set_add_skel; eauto.
  - eapply Q; auto. eapply set_remove_skel; eauto.
  - unfold set_clear in H. apply bind_ok in H as ((k, vs) & G & H). destruct k; try discriminate.
    apply bind_ok in H as (h1 & H1 & H).
    pose proof (foldm_post _ st (del_e_mono _ (trace_del_mono fuel)) (del_e_post _ st (trace_del_mono fuel) (trace_del_post st fuel)) _ _ l _ (del_post_here _ _ _ W) H1) as P.
    assert (IS : In s l) by (eapply obj_in; eauto; discriminate).
    destruct P as [(l' & W' & I' & D')|A].
    + exists l'. unfold put_vals in H. assert (X := H). apply modify_inv in X as (b & G1 & ->). eapply same_skel_wf; [|exact W'].
      eapply set_mem_skel; eauto.
      assert (In s l'). { destruct (in_dec Nat.eq_dec s l'); auto. rewrite D' in G1 by auto. discriminate. }
      destruct (wc_obj _ _ _ W' s H0) as (S & _). unfold shp in S. rewrite G1 in S. cbn in S. injection S as ->. auto.
    + exfalso. unfold put_vals in H. apply modify_inv in H as (b & G1 & _). rewrite A in G1 by (right; auto). discriminate.
  - apply fst_m_ok in H as (e & H). eapply map_add_wf; eauto.
  - apply fst_m_ok in H as (e & H). eapply map_remove_wf; eauto.
  - eapply Q; auto. eapply dict_add_skel; eauto.
  - eapply Q; auto. eapply incr_skel; eauto.
  - eapply Q; auto. eapply decr_skel; eauto.
  - eapply del_post_live; [|exact L]. eapply (del_e_post _ st (trace_del_mono fuel) (trace_del_post st fuel)); eauto.
  - unfold add_gc_root in H. apply bind_ok in H as (b & _ & H). destruct (b_body b); [|discriminate]. eapply Q; auto. eapply set_add_skel; eauto.
  - unfold remove_gc_root in H. apply bind_ok in H as (b & _ & H). destruct (b_body b); [|discriminate]. eapply Q; auto. eapply set_remove_skel; eauto.
  - unfold add_context in H. apply bind_ok in H as (b & _ & H). destruct (b_body b); [|discriminate].
    apply bind_ok in H as ((h1, r) & H1 & H). injection H as <-. eapply map_add_wf; eauto.
  - unfold remove_context in H. apply bind_ok in H as (b & _ & H). destruct (b_body b); [|discriminate].
    apply bind_ok in H as ((h1, r) & H1 & H). injection H as <-. eapply map_remove_wf; eauto.
  - destruct (gc_wf _ _ _ _ _ W H) as (l' & W' & _). eauto.
Qed.

Lemma state_mk_wf n h st : state_mk empty_heap n = Ok (h, st) -> exists l, wf_chain strict h st l.
Proof.
  unfold state_mk. set (b0 := zero_block (BState _ _ _ _ _) _). destruct (malloc empty_heap b0) as (h0, s0) eqn:E0. intros H.
  unfold malloc in E0. cbn in E0. injection E0 as <- <-.
  assert (W0 : wf_chain strict (Heap (fun x => if x =? 0 then Some b0 else None) 1 []) 0 []).
  { constructor; cbn; auto.
    - constructor; auto. constructor.
    - tauto.
    - intros a. destruct (Nat.eqb_spec a 0); [auto|]; intros X; try (exfalso; apply X; reflexivity); auto.
    - intros a. destruct (Nat.eqb_spec a 0); [lia|congruence].
    - constructor.
    - intros a. split; [tauto|]. destruct (Nat.eqb_spec a 0); intros (? & ?); [discriminate|lia]. }
  apply bind_ok in H as ((h1, a1) & H1 & H). apply bind_ok in H as ((h2, a2) & H2 & H). apply bind_ok in H as ((h3, a3) & H3 & H).
  eapply mk_obj_wf in H1 as (W1 & _); [|exact W0|discriminate].
  eapply mk_obj_wf in H2 as (W2 & _); [|exact W1|discriminate].
  eapply mk_map_wf in H3 as (l & W3); [|exact W2].
  apply bind_ok in H as (b & G & H). apply get_ok in G. destruct (b_body b) eqn:B; [|discriminate]. injection H as <- <-.
  exists l. eapply same_skel_wf; [|exact W3]. eapply set_mem_skel; eauto. unfold shape_of. cbn. rewrite B. auto.
Qed.

End Strict.

Theorem reach_wf n st h : reach n st h -> exists l, wf_chain false h st l.
Proof.
  induction 1 as [h H|h o h' H (l & W) S L].
  - eapply state_mk_wf; eauto.
  - eapply hstep_wf; eauto. discriminate.
Qed.

(** Histories in which only the newest block, or blocks that do not move, are resized *)
Inductive reach_newest (n : Z) (st : addr) : heap -> Prop :=
| reachn_mk : forall h, state_mk empty_heap n = Ok (h, st) -> reach_newest n st h
| reachn_step : forall h o h', reach_newest n st h -> resize_ok h o -> hstep st h o = Ok h' -> h_mem h' st <> None ->
    reach_newest n st h'.
Theorem reach_newest_wf n st h : reach_newest n st h -> exists l, wf_chain true h st l.
Proof.
  induction 1 as [h H|h o h' H (l & W) R S L].
  - eapply state_mk_wf; eauto.
  - eapply hstep_wf; eauto.
Qed.

(** Running a list of operations while the state stays allocated *)
Fixpoint hrun (st : addr) (h : heap) (os : list hop) : outcome heap :=
  match os with
  | [] => Ok h
  | o :: os' =>
    let* h' := hstep st h o in
    match h_mem h' st with None => Bad UseAfterFree | Some _ => hrun st h' os' end
  end.
Lemma hrun_reach n st : forall os h h', reach n st h -> hrun st h os = Ok h' -> reach n st h'.
Proof.
  induction os as [|o os IH]; intros h h' R; cbn [hrun].
  - intros [= <-]. auto.
  - intros H. apply bind_ok in H as (h1 & H1 & H). destruct (h_mem h1 st) eqn:G; [|discriminate].
    eapply IH; [|exact H]. eapply reach_step; eauto. congruence.
Qed.
(** the heap right after making a state, and after a list of operations *)
Definition hstart (n : Z) (os : list hop) : outcome heap :=
  let* (h, st) := state_mk empty_heap n in hrun st h os.
Lemma hstart_reach n os h : hstart n os = Ok h -> reach n 0 h.
Proof.
  unfold hstart. intros H. apply bind_ok in H as ((h0, st) & H0 & H).
  assert (st = 0). { unfold state_mk in H0. cbn in H0. congruence. }
  subst st. eapply hrun_reach; [|exact H]. constructor. auto.
Qed.
