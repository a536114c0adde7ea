(** Properties C20 and C21: deleting a state, and the allocation chain. *)
From Coq Require Import ZArith List Bool Lia.
From Verif Require Import Base HeapModel HeapChainProofs HeapHistory HeapSweepProofs.
Import ListNotations.
Open Scope nat_scope.
Open Scope outcome_scope.

(** * Vocabulary *)
Definition live (h : heap) (a : addr) : Prop := exists b, h_mem h a = Some b.
(** Singletons live in static memory, not in allocated blocks. *)
Definition static (h : heap) (a : addr) : Prop := exists b vs, h_mem h a = Some b /\ b_body b = BObj KStatic vs.

Lemma static_shp h a : static h a <-> shp h a = Some SStatic.
Proof.
  unfold static, shp. split.
  - intros (b & vs & -> & B). cbn. unfold shape_of. rewrite B. auto.
  - destruct (h_mem h a) as [b|]; [|discriminate]. cbn. unfold shape_of. destruct (b_body b) as [|[] vs] eqn:B; try discriminate. eauto.
Qed.
Lemma live_some h a : live h a <-> h_mem h a <> None.
Proof. unfold live. destruct (h_mem h a); split; intros X; eauto; try congruence. destruct X; discriminate. Qed.

Lemma wf_members {s h st l} : wf_chain s h st l -> forall a, In a (st :: l) <-> live h a /\ ~ static h a.
Proof.
  intros W a. rewrite live_some, static_shp. split.
  - intros I. split; [eapply wf_live; eauto|]. destruct I as [<-|I].
    + rewrite (wc_state _ _ _ W). discriminate.
    + destruct (wc_obj _ _ _ W a I) as (-> & _). discriminate.
  - intros (L & N). destruct (wc_all _ _ _ W a L) as [->|[I|I]]; [left; auto|right; auto|contradiction].
Qed.

(** * C20 *)
(** [reach n st h]: [h] comes about by any sequence of library calls after
    making the state [st], the state itself not having been deleted. Then
    deleting it succeeds; it frees, once each, exactly the blocks that were
    still allocated; and over the whole run no block is freed twice and none but
    static ones stay. *)
Theorem C20_state_delete : forall n st h, reach n st h ->
  exists fuel0, forall fuel, fuel0 <= fuel -> exists h' freed,
    cee_del fuel h (VPtr st) = Ok h' /\
    h_freed h' = h_freed h ++ freed /\
    (forall a, In a freed <-> live h a /\ ~ static h a) /\
    NoDup (h_freed h') /\
    (forall a, a < h_next h -> In a (h_freed h') \/ static h a) /\
    (forall a, live h' a <-> static h a).
Proof.
  intros n st h R. apply reach_wf in R as (l & W). exists (S (S (length l))). intros fuel F.
  destruct fuel as [|f]; [lia|]. destruct (del_state_ok st l h f W) as (h' & E & FR & N & LV); [lia|].
  assert (MB := wf_members W).
  assert (MB' : forall a, In a (rev l ++ [st]) <-> live h a /\ ~ static h a).
  { intros a. rewrite <- MB, in_app_iff, <- in_rev. cbn. tauto. }
  exists h', (rev l ++ [st]). split; [|split; [auto|split; [exact MB'|split; [|split]]]].
  - cbn [cee_del del_e trace_del]. pose proof (wc_state _ _ _ W) as S. unfold shp in S. unfold get.
    destruct (h_mem h st) as [b|] eqn:G; [|discriminate]. cbn in *. unfold shape_of in S.
    destruct (b_body b) as [|[] ?]; try discriminate. exact E.
  - rewrite FR. pose proof (wc_log _ _ _ W) as ND. pose proof (wc_freed _ _ _ W) as FD.
    assert (ND2 : NoDup (rev l ++ [st])).
    { change (rev l ++ [st]) with (rev (st :: l)). apply NoDup_rev. apply (wc_nodup _ _ _ W). }
    assert (DJ : forall a, In a (h_freed h) -> In a (rev l ++ [st]) -> False).
    { intros a A B. apply FD in A as (_ & A). apply MB' in B as (B & _). apply live_some in B. auto. }
    clear - ND ND2 DJ. induction (h_freed h) as [|x fr IH]; auto. inversion ND; subst. cbn. constructor.
    + rewrite in_app_iff. intros [X|X]; [auto|]. apply (DJ x); [left; auto|auto].
    + apply IH; auto. intros a A B. apply (DJ a); [right; auto|auto].
  - intros a A. rewrite FR, in_app_iff, MB'. destruct (h_mem h a) as [b|] eqn:G.
    + destruct (shape_of b) eqn:SB.
      * left. right. split; [eexists; eauto|]. rewrite static_shp. unfold shp. rewrite G. cbn. rewrite SB. discriminate.
      * right. rewrite static_shp. unfold shp. rewrite G. cbn. rewrite SB. auto.
      * left. right. split; [eexists; eauto|]. rewrite static_shp. unfold shp. rewrite G. cbn. rewrite SB. discriminate.
    + left. left. apply (wc_freed _ _ _ W). auto.
  - intros a. rewrite live_some, LV, MB. split.
    + intros X. rewrite static_shp. destruct (h_mem h a) as [b|] eqn:G; [|exfalso; auto].
      destruct (shp h a) as [[| |]|] eqn:SA; auto; exfalso; apply X; right; (split; [eexists; eauto|]);
        rewrite static_shp, SA; discriminate.
    + intros S [X|(_ & X)]; [|auto]. destruct S as (b & vs & S & _). congruence.
Qed.

(** the operations of a small program: strings, a list holding one of them
    twice, a reallocated string, a deletion in the middle, a collection *)
Definition prog1 : list hop :=
  [HLeaf M_MALLOC; HLeaf M_MALLOC; HList DEL_RC; HAppend 7 (VPtr 5); HAppend 7 (VPtr 5);
   HUseRealloc 6; HResize 6; HStatic; HLeaf M_IDENTITY; HDelE 5 DEL (VPtr 10); HRoot (VPtr 7) 0].
Example C20_example :
  match hstart 10 prog1 with
  | Ok h => match cee_del 20 h (VPtr 0) with
            | Ok h' => h_freed h = [6; 10] /\ h_freed h' = [6; 10; 8; 7; 5; 4; 3; 2; 1; 0] /\ h_next h = 11
            | Bad _ => False
            end
  | Bad _ => False
  end.
Proof. vm_compute. auto. Qed.

(** * C21 *)
(** The live blocks of state [st] are [st :: l]; successive ones point at each
    other; the state knows the last one. *)
Definition chained (h : heap) (st : addr) (l : list addr) : Prop :=
  NoDup (st :: l) /\
  (forall a, In a (st :: l) <-> live h a /\ ~ static h a) /\
  (forall l1 x y l2, st :: l = l1 ++ x :: y :: l2 ->
     exists bx bY, h_mem h x = Some bx /\ h_mem h y = Some bY /\ b_next bx = Some y /\ b_prev bY = Some x) /\
  (exists b r s c m, h_mem h st = Some b /\ b_body b = BState (last l st) r s c m) /\
  (forall a, In a l -> exists b, h_mem h a = Some b /\ b_state b = st).
(** the list ends where the tail is *)
Definition ends (h : heap) (st : addr) (l : list addr) : Prop :=
  exists b, h_mem h (last l st) = Some b /\ b_next b = None.

Lemma links_nth h : forall l p, links h p l -> forall l1 x y l2, p :: l = l1 ++ x :: y :: l2 ->
  nxt h x = Some (Some y) /\ prv h y = Some (Some x).
Proof.
  induction l as [|a l IH]; intros p K l1 x y l2 E.
  - destruct l1 as [|? [|]]; discriminate.
  - cbn [links] in K. destruct K as (K1 & K2 & K3). destruct l1 as [|z l1].
    + injection E as -> -> ->. auto.
    + injection E as -> E. eapply IH; eauto.
Qed.
Lemma wf_chained {s h st l} : wf_chain s h st l -> chained h st l.
Proof.
  intros W. split; [apply (wc_nodup _ _ _ W)|]. split; [apply (wf_members W)|]. split; [|split].
  - intros l1 x y l2 E. destruct (links_nth _ _ _ (wc_links _ _ _ W) _ _ _ _ E) as (N & P). unfold nxt, prv in *.
    destruct (h_mem h x) as [bx|] eqn:GX; [|discriminate]. destruct (h_mem h y) as [bY|] eqn:GY; [|discriminate].
    cbn in *. exists bx, bY. split; auto. split; auto. split; congruence.
  - pose proof (wc_state _ _ _ W) as S. unfold shp in S. destruct (h_mem h st) as [b|] eqn:G; [|discriminate]. cbn in S. unfold shape_of in S.
    destruct (b_body b) as [t r s0 c m|[] ?] eqn:B; try discriminate. injection S as ->. exists b. eauto 10.
  - intros a I. destruct (wc_obj _ _ _ W a I) as (_ & S). unfold stt in S. destruct (h_mem h a) as [b|] eqn:G; [|discriminate].
    cbn in S. exists b. split; congruence.
Qed.

(** For all histories: the chain is right from the state to the tail.
    Missing for the full property: that the tail ends the chain ([ends]), which
    C21_end_refuted shows false once a block that is not the newest is resized. *)
Theorem C21_chain_partial : forall n st h, reach n st h -> exists l, chained h st l.
Proof. intros n st h R. apply reach_wf in R as (l & W). exists l. apply (wf_chained W). Qed.

(** With the end, for all histories in which only the newest block (or a block
    that stays in place) is resized. *)
Theorem C21_chain_end_partial : forall n st h, reach_newest n st h -> exists l, chained h st l /\ ends h st l.
Proof.
  intros n st h R. apply reach_newest_wf in R as (l & W). exists l. split; [apply (wf_chained W)|].
  pose proof (wc_end _ _ _ W eq_refl) as X. unfold nxt in X. unfold ends. destruct (h_mem h (last l st)) as [b|]; [|discriminate].
  cbn in X. exists b. split; congruence.
Qed.

(** On such heaps the sweep visits the chain to its end: given a marked state it
    terminates and frees exactly the blocks without the mark. *)
Definition marked_with (m : Z) (h : heap) (a : addr) : Prop := exists b, h_mem h a = Some b /\ b_mark b = m.
Theorem C21_sweep_partial : forall n st h m, reach_newest n st h -> marked_with m h st ->
  exists fuel0, forall fuel, fuel0 <= fuel -> exists h' freed,
    sweep fuel m h (Some st) = Ok h' /\ h_freed h' = h_freed h ++ freed /\ NoDup freed /\
    (forall a, In a freed <-> live h a /\ ~ static h a /\ ~ marked_with m h a) /\
    (forall a, live h' a <-> live h a /\ (static h a \/ marked_with m h a)).
Proof.
  intros n st h m R (b & G & M). apply reach_newest_wf in R as (l & W). exists (S (S (length l))). intros fuel F.
  destruct (sweep_spec st m h l fuel W) as (h' & E & W' & FR & N & S & LV); [unfold has_mark; rewrite G; cbn; congruence|lia|].
  assert (IM : forall a, is_marked m h a = true <-> marked_with m h a).
  { intros a. unfold is_marked, mark_of, marked_with. destruct (h_mem h a) as [c|]; cbn.
    - rewrite Z.eqb_eq. split; [eauto|]. intros (c' & [= <-] & X). auto.
    - split; [discriminate|]. intros (c' & X & _). discriminate. }
  assert (MB := wf_members W).
  assert (ML : forall a, In a l -> live h a /\ ~ static h a) by (intros a I; apply MB; right; auto).
  exists h', (filter (fun a => negb (is_marked m h a)) l). split; auto. split; auto.
  split; [apply NoDup_filter; pose proof (wc_nodup _ _ _ W) as ND; inversion ND; auto|]. split.
  - intros a. rewrite filter_In, negb_true_iff, <- not_true_iff_false, IM. split.
    + intros (I & X). destruct (ML a I). auto.
    + intros (L & NS & X). split; auto. assert (I : In a (st :: l)) by (apply MB; auto). destruct I as [<-|I]; auto.
      exfalso. apply X. exists b. auto.
  - intros a. rewrite !live_some, LV. split.
    + intros X. split; [intros Y; apply X; auto|]. destruct (h_mem h a) as [c|] eqn:GA; [|exfalso; auto].
      destruct (is_marked m h a) eqn:MA; [right; apply IM; auto|]. left.
      rewrite static_shp. destruct (wc_all _ _ _ W a) as [->|[I|I]]; [congruence| | |auto].
      * exfalso. rewrite <- not_true_iff_false, IM in MA. apply MA. exists b. auto.
      * exfalso. apply X. auto.
    + intros (L & X) [Y|(Y & Z)]; [auto|]. destruct X as [X|X]; [destruct (ML a Y); contradiction|]. apply IM in X. congruence.
Qed.

(** Two strings, the older one resized: the tail points back at the other. *)
Definition prog2 : list hop := [HLeaf M_MALLOC; HLeaf M_MALLOC; HResize 5].
Theorem C21_end_refuted : exists h a b, reach 10 0 h /\
  get_tail h 0 = Ok a /\ option_map b_next (h_mem h a) = Some (Some b) /\ option_map b_next (h_mem h b) = Some (Some a).
Proof.
  destruct (hstart 10 prog2) as [h|] eqn:E; [|vm_compute in E; discriminate]. exists h, 7, 6.
  split; [eapply hstart_reach; eauto|]. vm_compute in E. injection E as <-. vm_compute. auto.
Qed.
(** The same with realloc. *)
Theorem C21_end_realloc_refuted : exists h a b, reach 10 0 h /\
  get_tail h 0 = Ok a /\ option_map b_next (h_mem h a) = Some (Some b) /\ option_map b_next (h_mem h b) = Some (Some a).
Proof.
  destruct (hstart 10 [HLeaf M_MALLOC; HLeaf M_MALLOC; HUseRealloc 5; HResize 5]) as [h|] eqn:E; [|vm_compute in E; discriminate]. exists h, 7, 6.
  split; [eapply hstart_reach; eauto|]. vm_compute in E. injection E as <-. vm_compute. auto.
Qed.
(** Collecting then touches a freed block. *)
Theorem C21_gc_after_resize_refuted : exists h fuel, reach 10 0 h /\ gc fuel h 0 = Bad UseAfterFree.
Proof.
  destruct (hstart 10 prog2) as [h|] eqn:E; [|vm_compute in E; discriminate]. exists h, 20.
  split; [eapply hstart_reach; eauto|]. vm_compute in E. injection E as <-. vm_compute. auto.
Qed.
(** If both strings are roots, it never ends. *)
Lemma sweep_loop m h a b ba bb : h_mem h a = Some ba -> h_mem h b = Some bb -> b_mark ba = m -> b_mark bb = m ->
  b_next ba = Some b -> b_next bb = Some a ->
  forall fuel, sweep fuel m h (Some a) = Bad OutOfFuel /\ sweep fuel m h (Some b) = Bad OutOfFuel.
Proof.
  intros GA GB MA MB NA NB. induction fuel as [|f (IA & IB)]; [auto|]. cbn [sweep]. unfold get. rewrite GA, GB. cbn [bind].
  rewrite MA, MB, Z.eqb_refl, NA, NB. auto.
Qed.
Definition heap_of (x : outcome heap) : heap := match x with Ok h => h | Bad _ => empty_heap end.
Definition loop_heap : heap := heap_of (hstart 10 (prog2 ++ [HRoot (VPtr 6) 0; HRoot (VPtr 7) 0])).
Definition loop_marked : heap := heap_of (trace_mark 3 1 loop_heap 0).
Theorem C21_gc_loops_refuted : exists h, reach 10 0 h /\ forall fuel, gc fuel h 0 = Bad OutOfFuel.
Proof.
  exists loop_heap. split; [apply hstart_reach with (os := prog2 ++ [HRoot (VPtr 6) 0; HRoot (VPtr 7) 0]); vm_compute; reflexivity|].
  intros fuel. destruct (Nat.le_gt_cases 6 fuel) as [L|L].
  2:{ do 6 (destruct fuel as [|fuel]; [vm_compute; reflexivity|]). lia. }
  assert (B0 : exists b t r s c, get loop_heap 0 = Ok b /\ b_body b = BState t r s c 1).
  { vm_compute. eexists. eexists. eexists. eexists. eexists. split; reflexivity. }
  destruct B0 as (b & t & r & s & c & G & B). unfold gc. rewrite G. cbn [bind]. rewrite B.
  rewrite (trace_mark_mon 1 3 fuel loop_heap 0 loop_marked) by (try lia; vm_compute; reflexivity). cbn [bind].
  assert (X : sweep fuel 1 loop_marked (@Some addr 0) = Bad OutOfFuel); [|rewrite X; reflexivity].
  replace fuel with (6 + (fuel - 6)) by lia.
  destruct (sweep_steps 6 1 loop_marked (@Some addr 0)) as [(h2, hd)|] eqn:E; [|vm_compute in E; discriminate].
  assert (Y : hd = Some 6) by (vm_compute in E; congruence). subst hd.
  etransitivity; [apply (sweep_steps_ok 1 6 (fuel - 6) _ _ _ _ E)|].
  assert (LP : exists ba bb, h_mem h2 6 = Some ba /\ h_mem h2 7 = Some bb /\ b_mark ba = 1%Z /\ b_mark bb = 1%Z /\
                             b_next ba = Some 7 /\ b_next bb = Some 6).
  { vm_compute in E. injection E as <-. cbn. eexists. eexists. auto 10. }
  destruct LP as (ba & bb & GA & GB & MA & MB & NA & NB).
  apply (sweep_loop 1 h2 6 7 ba bb GA GB MA MB NA NB).
Qed.

(** a history within reach of C21_chain_end_partial and C21_sweep_partial *)
Example C21_example :
  match hstart 10 [HLeaf M_MALLOC; HLeaf M_MALLOC; HResize 6; HDelE 5 DEL (VPtr 5); HList NOOP] with
  | Ok h => (let* t := get_tail h 0 in Ok (t, option_map b_next (h_mem h t), option_map b_prev (h_mem h t),
               option_map b_next (h_mem h 4), option_map b_next (h_mem h 6), option_map b_next (h_mem h 7)))
            = Ok (8, Some None, Some (Some 7), Some (Some 6), Some (Some 7), Some (Some 8))
  | Bad _ => False
  end.
Proof. vm_compute. auto. Qed.

Print Assumptions C20_state_delete.
Print Assumptions C21_chain_partial.
Print Assumptions C21_chain_end_partial.
Print Assumptions C21_sweep_partial.
Print Assumptions C21_end_refuted.
Print Assumptions C21_end_realloc_refuted.
Print Assumptions C21_gc_after_resize_refuted.
Print Assumptions C21_gc_loops_refuted.
