(** Whole programs of JsonShareModel *)
From Coq Require Import ZArith List Bool Lia Permutation.
From Verif Require Import Base Json HeapModel HeapChainProofs HeapHistory JsonMemModel JsonMemSpec JsonMemView JsonMemDel JsonMemOps JsonMemAdd JsonMemRun
  JsonEditModel JsonEditSpec JsonEditView JsonEditOps JsonShareModel JsonShareSpec JsonShareGraph JsonShareDel JsonShareOps.
Import ListNotations.
Open Scope nat_scope.
Open Scope outcome_scope.
Local Arguments Z.add : simpl never.
Local Arguments Z.sub : simpl never.
Local Arguments Z.eqb : simpl never.
Local Arguments Z.of_nat : simpl never.
Local Arguments core : simpl never.

Section History.
Variables (st : addr) (ss : statics) (place : heap -> addr -> nat) (deep : nat) (mk_str : text -> outcome text).
Hypothesis MK : forall s, mk_str s = Ok s.
Hypothesis DP : 2 <= deep.
Variables (h0 : heap) (c0 : contents).
Notation W := (W st).
Hypothesis W0 : W h0.
Hypothesis S0 : static_ok h0 ss.
Notation hold := (hold st ss h0 c0).
Notation sstep := (sstep st ss place deep mk_str).

Record state (at_ : nat -> addr) (h : heap) (c : contents) (vs : list ref) (g : lgraph) (nx : nat) (lost : list addr) : Prop := State {
  s_hold : hold at_ h c g (places (er g)) lost [];
  s_closed : closed g [];
  s_dom : forall i, In i (map fst g) -> i < nx;
  s_reg : forall i, In (RAt i) vs -> i < nx
}.

Lemma er_split g : forall g1 a n g2, er g = g1 ++ (a, n) :: g2 -> exists l1 n' l2, g = l1 ++ (a, n') :: l2 /\ er l1 = g1 /\ erase n' = n /\ er l2 = g2.
Proof.
  induction g as [|(i & m) r IH]; intros g1 a n g2 E; cbn [er map fst snd] in E; [destruct g1; discriminate|]. destruct g1 as [|p g1]; cbn [app] in E; injection E as E1 E2.
  - subst. exists [], m, r. auto.
  - apply IH in E2 as (l1 & n' & l2 & -> & A & B & C). exists ((i, m) :: l1), n', l2. subst. auto.
Qed.
Lemma er_in g i n : In (i, n) (er g) -> exists n', In (i, n') g /\ erase n' = n.
Proof. intros I. apply in_map_iff in I as ((j & m) & E & I). cbn [fst snd] in E. injection E as <- <-. eauto. Qed.
Lemma pairs_split es : forall kvs1 key w kvs2, pairs_of es = kvs1 ++ (key, w) :: kvs2 -> exists es1 e es2, es = es1 ++ e :: es2 /\ pairs_of es1 = kvs1 /\ n_name e = key /\ n_val e = w /\ pairs_of es2 = kvs2.
Proof.
  induction es as [|e r IH]; intros kvs1 key w kvs2 E; cbn [pairs_of map] in E; [destruct kvs1; discriminate|]. destruct kvs1 as [|p kvs1]; cbn [app] in E.
  - injection E as E1 E2 E3. exists [], e, r. auto.
  - injection E as E1 E2. apply IH in E2 as (es1 & e' & es2 & -> & A & B & C & D). exists (e :: es1), e', es2. subst. auto.
Qed.
Lemma pairs_names es : map fst (pairs_of es) = map n_name es.
Proof. unfold pairs_of. rewrite map_map. auto. Qed.
Lemma pairs_app es1 es2 : pairs_of (es1 ++ es2) = pairs_of es1 ++ pairs_of es2.
Proof. apply map_app. Qed.
Lemma closed_mid l1 a n n' l2 put : closed (l1 ++ (a, n) :: l2) [] -> Forall (known (er (l1 ++ (a, n) :: l2))) put ->
  (forall j, In j (kids (erase n')) -> In j (kids (erase n)) \/ In j (ids put)) -> closed (l1 ++ (a, n') :: l2) [].
Proof.
  intros CL KP KI j J. rewrite app_nil_r in J. assert (D : forall m, map fst (l1 ++ (a, m) :: l2) = map fst l1 ++ a :: map fst l2) by (intros m; rewrite map_app; auto).
  rewrite D, <- (D n). rewrite er_mid, uses_app in J. cbn [uses flat_map snd] in J. rewrite !in_app_iff in J. unfold closed in CL.
  assert (CL' : forall x, In x (uses (er l1)) \/ In x (kids (erase n)) \/ In x (uses (er l2)) -> In x (map fst (l1 ++ (a, n) :: l2))).
  { intros x X. apply CL. rewrite app_nil_r, er_mid, uses_app. cbn [uses flat_map snd]. rewrite !in_app_iff. unfold uses in *. auto. }
  destruct J as [J|[J|J]]; [apply CL'; auto| |apply CL'; auto]. apply KI in J as [J|J]; [apply CL'; auto|].
  apply in_flat_map in J as (r & R & J). destruct r as [| |i]; try contradiction. destruct J as [<-|[]]. rewrite Forall_forall in KP. specialize (KP _ R). cbn [known] in KP. rewrite er_ids in KP. auto.
Qed.
Lemma closed_known l1 a n l2 r : closed (l1 ++ (a, n) :: l2) [] -> In r (held (erase n)) -> known (er (l1 ++ (a, n) :: l2)) r.
Proof.
  intros CL I. destruct r as [| |i]; cbn [known]; auto. rewrite er_ids. apply CL. rewrite app_nil_r. apply in_flat_map. exists (a, erase n). split; [|eapply ids_in; eauto].
  rewrite er_mid. apply in_app_iff. right. left. auto.
Qed.
Lemma held_pos l1 a n l2 i : In (RAt i) (held (erase n)) -> 0 < places (er (l1 ++ (a, n) :: l2)) i.
Proof. intros I. apply places_pos. exists a, (erase n). split; [rewrite er_mid; apply in_app_iff; right; left; auto|]. eapply ids_in; eauto. Qed.
Lemma places_change l1 a n n' l2 x : places (er (l1 ++ (a, n') :: l2)) x + occ x (kids (erase n)) = places (er (l1 ++ (a, n) :: l2)) x + occ x (kids (erase n')).
Proof. rewrite !er_mid, !places_mid. lia. Qed.

(** one operation *)
Lemma change_step at_ h c vs l1 a n l2 nx lost o i n' put k : state at_ h c vs (l1 ++ (a, n) :: l2) nx lost -> nth_error vs i = Some (RAt a) ->
  change vs (er (l1 ++ (a, n) :: l2)) o i a (erase n) n' put k -> Forall (known (er (l1 ++ (a, n) :: l2))) put ->
  (forall x, In x (ids put) -> (Z.of_nat (places (er l1 ++ (a, n') :: er l2) x) < 65536)%Z) ->
  exists h' c' m lost', sstep (h, c, map (pointer ss at_) vs) o = Ok (h', c', map (pointer ss at_) vs) /\ erase m = n' /\
    hold at_ h' c' (l1 ++ (a, m) :: l2) (places (er (l1 ++ (a, m) :: l2))) lost' [] /\ (forall j, In j (kids n') -> In j (kids (erase n)) \/ In j (ids put)) /\ length lost' = length lost + k.
Proof.
  intros [H CL _ _] NI CH KP B. assert (REG : forall v r, nth_error vs v = Some r -> nth_error (map (pointer ss at_) vs) v = Some (pointer ss at_ r)) by (intros; apply map_nth_error; auto).
  assert (RI := REG _ _ NI). cbn [pointer] in RI.
  assert (BS : forall r m, put = [r] -> erase m = n' -> (forall j, r = RAt j -> places (er (l1 ++ (a, m) :: l2)) j = S (places (er (l1 ++ (a, n) :: l2)) j)) ->
    forall j, r = RAt j -> (Z.of_nat (S (places (er (l1 ++ (a, n) :: l2)) j)) < 65536)%Z).
  { intros r m EP EM EQ j ->. rewrite <- EQ by auto. rewrite er_mid, EM. apply B. rewrite EP. left. auto. }
  remember (erase n) as gn eqn:EN. inversion CH; subst o i a0 gn n' put k; cbn [JsonShareModel.sstep]; rewrite RI; cbn [of_option bind].
  - (* set, new name *)
    destruct n as [| |m ks ts es]; try discriminate. cbn [erase] in H5. injection H5 as ->. rewrite (REG _ _ H0). cbn [of_option bind]. rewrite pairs_names in H1. apply Forall_cons_iff in KP as (KR & _).
    set (n2 := fun ts' k t => PObj m ks ts' (es ++ [Ent key k t r])).
    assert (PC : forall ts' k t x, places (er (l1 ++ (a, n2 ts' k t) :: l2)) x = bump (places (er (l1 ++ (a, PObj m ks ts es) :: l2))) r x).
    { intros. assert (Q := places_change l1 a (PObj m ks ts es) (n2 ts' k t) l2 x). unfold n2 in Q |- *. cbn [erase] in Q. unfold kids in Q. cbn [held] in Q. rewrite !pairs_vals, map_app, ids_app, occ_app in Q. cbn [map n_val] in Q. unfold bump. lia. }
    destruct (set_new_ok st ss place deep mk_str MK DP h0 c0 W0 S0 at_ h c l1 a m ks ts es l2 _ lost key r H KR) as (h' & c' & ts' & k & t & E & H').
    { apply (BS r (n2 [] 0 0)); [auto|unfold n2; cbn [erase]; rewrite pairs_app; auto|]. intros j ->. rewrite PC. unfold bump. rewrite ids_one, occ_self. lia. }
    { auto. }
    exists h', c', (n2 ts' k t), lost. rewrite E. cbn [bind]. split; [auto|]. split; [unfold n2; cbn [erase]; rewrite pairs_app; auto|]. split; [eapply hold_cnt; [|exact H']; intros x _; apply PC|]. split; [|lia].
    intros j J. unfold kids in J |- *. cbn [held erase] in J |- *. rewrite map_app, ids_app, in_app_iff in J. exact J.
  - (* set, old name *)
    destruct n as [| |m ks ts es]; try discriminate. cbn [erase] in H5. injection H5 as EP. symmetry in EP. apply pairs_split in EP as (es1 & e & es2 & -> & <- & <- & <- & <-). rewrite (REG _ _ H0). cbn [of_option bind].
    apply Forall_cons_iff in KP as (KR & _).
    set (n2 := PObj m ks ts (es1 ++ Ent (n_name e) (n_key e) (n_pair e) r :: es2)).
    assert (EN2 : erase n2 = GObj (pairs_of es1 ++ (n_name e, r) :: pairs_of es2)) by (unfold n2; cbn [erase]; rewrite pairs_app; auto).
    assert (HE : In (n_val e) (held (erase (PObj m ks ts (es1 ++ e :: es2))))) by (cbn [held erase]; rewrite pairs_vals; apply in_map; apply in_app_iff; right; left; auto).
    assert (PC0 : forall x, places (er (l1 ++ (a, n2) :: l2)) x + occ x (ids [n_val e]) = places (er (l1 ++ (a, PObj m ks ts (es1 ++ e :: es2)) :: l2)) x + occ x (ids [r])).
    { intros x. assert (Q := places_change l1 a (PObj m ks ts (es1 ++ e :: es2)) n2 l2 x). unfold n2 in Q |- *. cbn [erase] in Q. unfold kids in Q. cbn [held] in Q. rewrite !pairs_vals, !map_app in Q. cbn [map n_val] in Q.
      rewrite !ids_app, (ids_cons (n_val e)), (ids_cons r), !occ_app in Q. lia. }
    destruct (set_old_ok st ss place deep mk_str MK DP h0 c0 W0 S0 at_ h c l1 a m ks ts es1 e es2 l2 _ lost r H KR) as (h' & c' & E & H').
    { apply closed_known; auto. }
    { apply (BS r n2); [auto|auto|]. intros j ->. specialize (PC0 j). rewrite (ids_one j), occ_self in PC0.
      assert (occ j (ids [n_val e]) = 0); [|lia]. destruct (n_val e) as [| |j'] eqn:EV; [apply occ_nil..|]. rewrite ids_one. apply occ_ne. intros ->. apply (H1 j'); auto. }
    { intros j EJ. apply held_pos. rewrite <- EJ. auto. }
    { intros j EJ EQ. eapply H1; eauto. }
    exists h', c', n2, lost. rewrite E. cbn [bind]. split; [auto|]. split; [auto|]. split; [|split; [|lia]].
    + eapply hold_cnt; [|exact H']. intros x _. specialize (PC0 x). unfold drop, bump. lia.
    + intros j J. unfold kids in J |- *. cbn [held erase] in J |- *. rewrite map_app in J. cbn [map snd] in J. rewrite !pairs_vals, ids_app, (ids_cons r), !in_app_iff in J.
      rewrite map_app. cbn [map snd]. rewrite !pairs_vals, ids_app, (ids_cons (n_val e)), !in_app_iff. tauto.
  - (* append *)
    destruct n as [|l rs0|]; try discriminate. cbn [erase] in H4. injection H4 as ->. rewrite (REG _ _ H0). cbn [of_option bind]. apply Forall_cons_iff in KP as (KR & _).
    assert (PC : forall x, places (er (l1 ++ (a, PArr l (rs0 ++ [r])) :: l2)) x = places (er (l1 ++ (a, PArr l rs0) :: l2)) x + occ x (ids [r])).
    { intros x. assert (Q := places_change l1 a (PArr l rs0) (PArr l (rs0 ++ [r])) l2 x). cbn [erase] in Q. unfold kids in Q. cbn [held] in Q. rewrite ids_app, occ_app in Q. lia. }
    destruct (append_ok st ss place deep DP h0 c0 W0 S0 at_ h c l1 a l rs0 l2 _ lost r H KR) as (h' & E & H').
    { intros j J. rewrite <- PC. rewrite er_mid. apply B. auto. }
    exists h', c, (PArr l (rs0 ++ [r])), lost. rewrite E. cbn [bind]. split; [auto|]. split; [auto|]. split; [eapply hold_cnt; [|exact H']; intros x _; apply PC|]. split; [|lia].
    intros j J. unfold kids in J |- *. cbn [held erase] in J |- *. rewrite ids_app, in_app_iff in J. exact J.
  - (* insert *)
    destruct n as [|l rs0|]; try discriminate. cbn [erase] in H4. injection H4 as <-. rewrite (REG _ _ H0). cbn [of_option bind]. apply Forall_cons_iff in KP as (KR & _).
    assert (PC : forall x, places (er (l1 ++ (a, PArr l (rs1 ++ r :: rs2)) :: l2)) x = bump (places (er (l1 ++ (a, PArr l (rs1 ++ rs2)) :: l2))) r x).
    { intros x. assert (Q := places_change l1 a (PArr l (rs1 ++ rs2)) (PArr l (rs1 ++ r :: rs2)) l2 x). cbn [erase] in Q. unfold kids in Q. cbn [held] in Q. rewrite !ids_app, (ids_cons r), !occ_app in Q. unfold bump. lia. }
    destruct (insert_ok st ss place deep DP h0 c0 W0 S0 at_ h c l1 a l rs1 rs2 l2 _ lost r H KR) as (h' & E & H').
    { apply (BS r (PArr l (rs1 ++ r :: rs2))); auto. intros j ->. rewrite PC. unfold bump. rewrite ids_one, occ_self. lia. }
    exists h', c, (PArr l (rs1 ++ r :: rs2)), lost. rewrite E. cbn [bind]. split; [auto|]. split; [auto|]. split; [eapply hold_cnt; [|exact H']; intros x _; apply PC|]. split; [|lia].
    intros j J. unfold kids in J |- *. cbn [held erase] in J |- *. rewrite ids_app, (ids_cons r), !in_app_iff in J. rewrite ids_app, in_app_iff. tauto.
  - (* concat *)
    destruct n as [|l rs0|]; try discriminate. cbn [erase] in H6. injection H6 as ->. rewrite (REG _ _ H0). cbn [of_option bind pointer].
    apply er_in in H2 as (n' & IB & EB). destruct n' as [|l' rs'0|]; try discriminate. cbn [erase] in EB. injection EB as ->.
    assert (PC : forall x, places (er (l1 ++ (a, PArr l (rs0 ++ rs')) :: l2)) x = places (er (l1 ++ (a, PArr l rs0) :: l2)) x + occ x (ids rs')).
    { intros x. assert (Q := places_change l1 a (PArr l rs0) (PArr l (rs0 ++ rs')) l2 x). cbn [erase] in Q. unfold kids in Q. cbn [held] in Q. rewrite ids_app, occ_app in Q. lia. }
    destruct (concat_ok st ss place deep DP h0 c0 W0 S0 at_ h c l1 a l rs0 l2 _ lost b l' rs' H KP IB H1) as (h' & E & H').
    { intros j J. rewrite <- PC. rewrite er_mid. apply B. auto. }
    exists h', c, (PArr l (rs0 ++ rs')), lost. rewrite E. cbn [bind]. split; [auto|]. split; [auto|]. split; [eapply hold_cnt; [|exact H']; intros x _; apply PC|]. split; [|lia].
    intros j J. unfold kids in J |- *. cbn [held erase] in J |- *. rewrite ids_app, in_app_iff in J. exact J.
  - (* remove from an array *)
    destruct n as [|l rs0|]; try discriminate. cbn [erase] in H3. injection H3 as <-.
    assert (HE : In w (held (erase (PArr l (rs1 ++ w :: rs2))))) by (cbn [held erase]; apply in_app_iff; right; left; auto).
    assert (PC : forall x, places (er (l1 ++ (a, PArr l (rs1 ++ rs2)) :: l2)) x = drop (places (er (l1 ++ (a, PArr l (rs1 ++ w :: rs2)) :: l2))) w x).
    { intros x. assert (Q := places_change l1 a (PArr l (rs1 ++ w :: rs2)) (PArr l (rs1 ++ rs2)) l2 x). cbn [erase] in Q. unfold kids in Q. cbn [held] in Q. rewrite !ids_app, (ids_cons w), !occ_app in Q. unfold drop. lia. }
    destruct (remove_at_ok st ss place deep DP h0 c0 W0 S0 at_ h c l1 a l rs1 w rs2 l2 _ lost H) as (h' & E & H').
    { apply closed_known; auto. }
    { intros j EJ. apply held_pos. rewrite <- EJ. auto. }
    exists h', c, (PArr l (rs1 ++ rs2)), lost. rewrite E. cbn [bind]. split; [auto|]. split; [auto|]. split; [eapply hold_cnt; [|exact H']; intros x _; apply PC|]. split; [|lia].
    intros j J. unfold kids in J |- *. cbn [held erase] in J |- *. rewrite ids_app, in_app_iff in J. rewrite ids_app, (ids_cons w), !in_app_iff. tauto.
  - (* remove from an object *)
    destruct n as [| |m ks ts es]; try discriminate. cbn [erase] in H3. injection H3 as EP. symmetry in EP. apply pairs_split in EP as (es1 & e & es2 & -> & <- & <- & <- & <-).
    assert (HE : In (n_val e) (held (erase (PObj m ks ts (es1 ++ e :: es2))))) by (cbn [held erase]; rewrite pairs_vals; apply in_map; apply in_app_iff; right; left; auto).
    destruct (remove_ok st ss place deep DP h0 c0 W0 S0 at_ h c l1 a m ks ts es1 e es2 l2 _ lost H) as (h' & ts' & E & H').
    { apply closed_known; auto. }
    { intros j EJ. apply held_pos. rewrite <- EJ. auto. }
    exists h', c, (PObj m ks ts' (es1 ++ es2)), (lost ++ [n_key e]). rewrite E. cbn [bind]. split; [auto|]. split; [cbn [erase]; rewrite pairs_app; auto|]. split; [|split].
    + eapply hold_cnt; [|exact H']. intros x _. assert (Q := places_change l1 a (PObj m ks ts (es1 ++ e :: es2)) (PObj m ks ts' (es1 ++ es2)) l2 x). cbn [erase] in Q. unfold kids in Q. cbn [held] in Q.
      rewrite !pairs_vals, !map_app in Q. cbn [map] in Q. rewrite !ids_app, (ids_cons (n_val e)), !occ_app in Q. unfold drop. lia.
    + intros j J. unfold kids in J |- *. cbn [held erase] in J |- *. rewrite map_app, !pairs_vals, ids_app, in_app_iff in J.
      rewrite map_app. cbn [map snd]. rewrite !pairs_vals, ids_app, (ids_cons (n_val e)), !in_app_iff. tauto.
    + rewrite app_length. auto.
Qed.

Lemma step_ok o vs lg nx s' k at_ h c lost : share_of deep o (vs, er lg, nx) s' k -> state at_ h c vs lg nx lost ->
  exists h' c' at' vs' lg' nx' lost', s' = (vs', er lg', nx') /\ sstep (h, c, map (pointer ss at_) vs) o = Ok (h', c', map (pointer ss at') vs') /\
    state at' h' c' vs' lg' nx' lost' /\ length lost' = length lost + k.
Proof.
  intros SH ST. pose proof ST as [H CL DM RG].
  assert (REG : forall v r, nth_error vs v = Some r -> nth_error (map (pointer ss at_) vs) v = Some (pointer ss at_ r)) by (intros; apply map_nth_error; auto).
  assert (RG1 : forall r, (forall i, r = RAt i -> i < nx) -> forall i, In (RAt i) (vs ++ [r]) -> i < nx).
  { intros r R i I. apply in_app_iff in I as [I|[I|[]]]; auto. }
  remember (vs, er lg, nx) as s eqn:ES. destruct SH; injection ES as -> EG ->; cbn [JsonShareModel.sstep].
  - destruct (const_ok st ss place deep mk_str MK DP h0 c0 W0 S0 at_ h c lg lost JNull H I) as (h' & c' & r & E & H' & ER). subst r. rewrite E. cbn [bind].
    exists h', c', at_, (vs ++ [RNull]), lg, nx, lost. subst g. split; [auto|]. split; [rewrite map_app; auto|]. split; [|lia]. constructor; auto. apply RG1. discriminate.
  - destruct (const_ok st ss place deep mk_str MK DP h0 c0 W0 S0 at_ h c lg lost (JBool b) H I) as (h' & c' & r & E & H' & ER). subst r. rewrite E. cbn [bind].
    exists h', c', at_, (vs ++ [RBool b]), lg, nx, lost. subst g. split; [auto|]. split; [rewrite map_app; auto|]. split; [|lia]. constructor; auto. apply RG1. discriminate.
  - destruct (new_ok st ss place deep mk_str MK DP h0 c0 W0 S0 at_ h c lg lost x n nx H CL DM H0) as (h' & c' & at' & n' & E & EA & EN & H'). rewrite E. cbn [bind].
    exists h', c', at', (vs ++ [RAt nx]), (lg ++ [(nx, n')]), (S nx), lost. subst g n. split; [rewrite er_app; auto|]. split.
    { rewrite map_app. cbn [map pointer]. f_equal. f_equal. f_equal. apply map_ext_in. intros r R. symmetry. apply pt_at. intros i ->. apply EA. apply RG in R. lia. }
    split; [|lia]. constructor; auto.
    + intros j J. rewrite app_nil_r, er_app, uses_app in J. rewrite map_app. apply in_app_iff. left. apply CL. rewrite app_nil_r. cbn [er map fst snd] in J. cbn [uses flat_map snd] in J. rewrite !in_app_iff in J.
      destruct J as [J|[J|[]]]; [auto|]. destruct H0; contradiction.
    + intros i I. rewrite map_app in I. apply in_app_iff in I as [I|[<-|[]]]; [apply DM in I; lia|cbn [fst]; lia].
    + intros i I. apply in_app_iff in I as [I|[I|[]]]; [apply RG in I; lia|]. injection I as ->. lia.
  - subst g. apply er_in in H1 as (n' & IN & EN). destruct n' as [|l rs0|]; try discriminate. injection EN as ->. rewrite (REG _ _ H0). cbn [of_option bind pointer walk].
    rewrite (index_ok st ss h0 c0 at_ h c lg _ lost [] a l rs k r H IN H2). cbn [bind walk]. exists h, c, at_, (vs ++ [r]), lg, nx, lost. split; [auto|]. split; [rewrite map_app; auto|]. split; [|lia]. constructor; auto.
    apply RG1. intros i' ->. apply DM. apply CL. rewrite app_nil_r. apply in_flat_map. exists (a, GArr rs). split; [apply in_map_iff; exists (a, PArr l rs); auto|].
    cbn [snd]. unfold kids. cbn [held]. eapply ids_in; [eapply nth_error_In; exact H2|auto].
  - subst g. apply er_in in H1 as (n' & IN & EN). destruct n' as [| |m ks ts es]; try discriminate. injection EN as <-. rewrite (REG _ _ H0). cbn [of_option bind pointer walk].
    apply in_map_iff in H2 as (e & EE & IE). injection EE as <- <-.
    rewrite (get_ok st ss h0 c0 at_ h c lg _ lost [] a m ks ts es e H IN IE). cbn [bind walk]. exists h, c, at_, (vs ++ [n_val e]), lg, nx, lost. split; [auto|]. split; [rewrite map_app; auto|]. split; [|lia]. constructor; auto.
    apply RG1. intros i' EI. apply DM. apply CL. rewrite app_nil_r. apply in_flat_map. exists (a, GObj (pairs_of es)). split; [apply in_map_iff; exists (a, PObj m ks ts es); auto|].
    cbn [snd]. unfold kids. cbn [held]. rewrite pairs_vals. eapply ids_in; [|exact EI]. apply in_map. auto.
  - symmetry in EG. apply er_split in EG as (l1 & n0 & l2 & -> & <- & <- & <-). rewrite <- er_mid in *.
    destruct (change_step at_ h c vs l1 a n0 l2 nx lost o i n' put k ST H0) as (h' & c' & m & lost' & E & EM & H' & KI & LL); [exact H1|exact H2|exact H3|].
    exists h', c', at_, vs, (l1 ++ (a, m) :: l2), nx, lost'. split; [rewrite er_mid, EM; auto|]. split; [exact E|]. split; [|auto]. constructor; auto.
    + eapply closed_mid; [exact CL|exact H2|]. rewrite EM. exact KI.
    + intros j J. apply DM. rewrite map_app in *. exact J.
  - subst g. rewrite er_ids in H1. apply in_map_iff in H1 as ((a' & n) & <- & IN). cbn [fst] in *. apply in_split in IN as (l1 & l2 & ->). rewrite (REG _ _ H0). cbn [of_option bind pointer].
    destruct (delete_ok st ss place deep DP h0 c0 W0 S0 at_ h c l1 a' n l2 lost deep H CL H2) as (h' & g' & E & H' & CL' & EG).
    { unfold er in H4. rewrite map_length in H4. exact H4. }
    rewrite E. cbn [bind]. exists h', c, at_, vs, g', nx, lost. rewrite (EG D H3). split; [auto|]. split; [auto|]. split; [|lia]. constructor; auto.
    intros j J. apply DM. rewrite <- er_ids. rewrite <- er_ids, (EG D H3) in J. apply in_map_iff in J as (p & <- & J). apply in_map. apply filter_In in J. apply J.
  - subst g. rewrite (REG _ _ H0). cbn [of_option bind]. rewrite (delete_const_ok ss deep DP at_ h r deep); [|eapply hold_static; [exact W0|exact S0|exact H]|auto|lia]. cbn [bind].
    exists h, c, at_, vs, lg, nx, lost. split; [auto|]. split; [auto|]. split; [auto|lia].
Qed.
Lemma run_ok ops : forall vs lg nx s' k at_ h c lost, shares_of deep ops (vs, er lg, nx) s' k -> state at_ h c vs lg nx lost ->
  exists h' c' at' vs' lg' nx' lost', s' = (vs', er lg', nx') /\ splay st ss place deep mk_str ops (h, c, map (pointer ss at_) vs) = Ok (h', c', map (pointer ss at') vs') /\
    state at' h' c' vs' lg' nx' lost' /\ length lost' = length lost + k.
Proof.
  induction ops as [|o ops IH]; intros vs lg nx s' k at_ h c lost SH ST; inversion SH; subst; cbn [splay].
  - exists h, c, at_, vs, lg, nx, lost. split; [auto|]. split; [auto|]. split; [auto|lia].
  - destruct (step_ok _ _ _ _ _ _ _ _ _ _ H1 ST) as (h1 & c1 & at1 & vs1 & lg1 & nx1 & lost1 & -> & E1 & ST1 & L1). rewrite E1. cbn [bind].
    destruct (IH _ _ _ _ _ _ _ _ _ H5 ST1) as (h2 & c2 & at2 & vs2 & lg2 & nx2 & lost2 & -> & E2 & ST2 & L2). exists h2, c2, at2, vs2, lg2, nx2, lost2.
    split; [auto|]. split; [auto|]. split; [auto|lia].
Qed.
Lemma start_ok at_ : state at_ h0 c0 [] [] 0 [].
Proof.
  constructor; [constructor|..].
  - cbn [gblocks flat_map app]. constructor; auto.
    + intros x X. split; [|intros []]. intros LV. destruct LV. apply (beyond st); auto.
    + intros x [].
  - constructor; try (intros i n []); constructor.
  - constructor.
  - intros j [].
  - intros i [].
  - intros i [].
Qed.
End History.
