(** Each operation of JsonShareModel: the objects before and after *)
From Coq Require Import ZArith List Bool Lia Permutation.
From Verif Require Import Base Json HeapModel HeapChainProofs HeapHistory JsonMemModel JsonMemSpec JsonMemView JsonMemDel JsonMemOps JsonMemAdd JsonMemRun
  JsonEditModel JsonEditSpec JsonEditView JsonEditOps JsonShareModel JsonShareSpec JsonShareGraph JsonShareDel.
From Verif Require JsonParseProofs.
Import ListNotations.
Open Scope nat_scope.
Open Scope outcome_scope.
Local Arguments Z.add : simpl never.
Local Arguments Z.sub : simpl never.
Local Arguments Z.eqb : simpl never.
Local Arguments Z.of_nat : simpl never.
Local Arguments core : simpl never.

Definition bump (cnt : nat -> nat) (r : ref) (j : nat) : nat := cnt j + occ j (ids [r]).
Definition drop (cnt : nat -> nat) (r : ref) (j : nat) : nat := cnt j - occ j (ids [r]).

Section Ops.
Variables (st : addr) (ss : statics) (place : heap -> addr -> nat) (deep : nat) (mk_str : text -> outcome text).
Hypothesis MK : forall s, mk_str s = Ok s.
Hypothesis DP : 2 <= deep.
Variables (h0 : heap) (c0 : contents).
Notation W := (W st).
Hypothesis W0 : W h0.
Hypothesis S0 : static_ok h0 ss.

Section At.
Variable at_ : nat -> addr.
Notation pt := (pointer ss at_).
Notation gblocks := (gblocks at_).
Notation inner := (inner ss at_).
Notation good := (good ss at_).
Notation inv := (inv st h0 c0).

Definition tagl (g : lgraph) : list addr := map (fun p => at_ (fst p)) g.
Definition tags (h : heap) (g : lgraph) (cnt : nat -> nat) : Prop :=
  forall i n, In (i, n) g -> obj h (at_ i) (KProd [DEL_RC]) [VPtr (top n)] (Z.of_nat (cnt i)).
(** The graph [g] is in memory; [lost] are strings nobody needs, [E] other objects *)
Record hold (h : heap) (c : contents) (g : lgraph) (cnt : nat -> nat) (lost E : list addr) : Prop := Hold {
  o_inv : inv h c (gblocks g ++ lost ++ E);
  o_good : good h c g cnt;
  o_lost : Forall (fun k => obj h k KLeaf [] 0) lost
}.
Lemma hold_cnt h c g cnt cnt' lost E : (forall i, In i (map fst g) -> cnt' i = cnt i) -> hold h c g cnt lost E -> hold h c g cnt' lost E.
Proof. intros EC [A B C]. constructor; auto. eapply good_ext; [auto|exact EC|exact B]. Qed.
Lemma tagl_in g x : In x (tagl g) -> In x (gblocks g).
Proof. intros I. apply in_map_iff in I as ((i & n) & <- & I). eapply gblocks_in; [exact I|left; auto]. Qed.
Lemma tag_in g i n : In (i, n) g -> In (at_ i) (tagl g).
Proof. intros I. apply in_map_iff. exists (i, n). auto. Qed.
Lemma at_inj h c g cnt i j : good h c g cnt -> In i (map fst g) -> In j (map fst g) -> at_ i = at_ j -> i = j.
Proof.
  intros G I J E. destruct (Nat.eq_dec i j) as [|NE]; [auto|]. exfalso. apply in_map_iff in I as ((i' & n) & <- & I). apply in_map_iff in J as ((j' & m) & <- & J). cbn [fst] in *.
  assert (ND := g_nd _ _ _ _ _ _ G). apply in_split in I as (g1 & g2 & ->). rewrite nodup_occ in ND. specialize (ND (at_ i')). rewrite gblocks_mid, occ_cons, Nat.eqb_refl in ND. cbn [Nat.b2n] in ND.
  assert (K : In (at_ i') (gblocks (g1 ++ g2))); [|rewrite occ_in in K; lia]. rewrite E. apply (gblocks_in at_ _ j' m); [|left; auto].
  rewrite in_app_iff in *. cbn [In] in J. destruct J as [J|[J|J]]; auto. injection J as -> _. congruence.
Qed.
Lemma hold_occ h c g1 i n g2 cnt lost E : hold h c (g1 ++ (i, n) :: g2) cnt lost E ->
  forall z, occ z (gblocks (g1 ++ g2)) + (Nat.b2n (z =? at_ i) + occ z (iblocks n)) + occ z lost + occ z E <= 1.
Proof. intros H z. assert (Q := i_one _ _ _ _ _ _ (o_inv _ _ _ _ _ _ H) z). rewrite !occ_app, gblocks_mid, occ_cons in Q. lia. Qed.
Lemma tagl_occ g1 i n g2 x : In x (tagl (g1 ++ (i, n) :: g2)) -> 0 < occ x (gblocks (g1 ++ g2)) + Nat.b2n (x =? at_ i).
Proof.
  intros I. apply in_map_iff in I as ((j & m) & <- & I). cbn [fst]. apply in_app_iff in I as [I|[I|I]].
  - assert (K : In (at_ j) (gblocks (g1 ++ g2))) by (apply (gblocks_in at_ _ j m); [apply in_app_iff; auto|left; auto]). rewrite occ_in in K. lia.
  - injection I as -> ->. rewrite Nat.eqb_refl. cbn. lia.
  - assert (K : In (at_ j) (gblocks (g1 ++ g2))) by (apply (gblocks_in at_ _ j m); [apply in_app_iff; auto|left; auto]). rewrite occ_in in K. lia.
Qed.
Lemma apart h c g1 i n g2 cnt lost E x : hold h c (g1 ++ (i, n) :: g2) cnt lost E -> In x (iblocks n ++ lost ++ E) -> ~ In x (tagl (g1 ++ (i, n) :: g2)).
Proof.
  intros H I J. apply tagl_occ in J. assert (Q := hold_occ _ _ _ _ _ _ _ _ _ H x). rewrite occ_in, !occ_app in I. lia.
Qed.
Lemma tags_ext h h' g cnt : (forall x, In x (tagl g) -> look h' x = look h x) -> tags h g cnt -> tags h' g cnt.
Proof. intros E T i n I. eapply obj_ext; [discriminate|apply E; eapply tag_in; exact I|auto]. Qed.
Lemma tags_mid h g1 i n n' g2 cnt : top n' = top n -> tags h (g1 ++ (i, n) :: g2) cnt -> tags h (g1 ++ (i, n') :: g2) cnt.
Proof.
  intros E T j m I. apply in_app_iff in I as [I|[I|I]]; [apply T; apply in_app_iff; auto| |apply T; apply in_app_iff; right; right; auto].
  injection I as -> ->. rewrite E. apply T. apply in_app_iff. right. left. auto.
Qed.
Lemma known_in g r i : known (er g) r -> r = RAt i -> exists n, In (i, n) g.
Proof. intros K ->. cbn [known] in K. rewrite er_ids in K. apply in_map_iff in K as ((j & n) & <- & K). eauto. Qed.
Lemma occ_ne j i : j <> i -> occ j [i] = 0.
Proof. intros NE. rewrite occ_cons, occ_nil. apply Nat.eqb_neq in NE. rewrite NE. auto. Qed.
Lemma occ_self i : occ i [i] = 1.
Proof. rewrite occ_cons, Nat.eqb_refl, occ_nil. auto. Qed.

(** counting on a value, or no more *)
Lemma tags_inc h g cnt r : W h -> static_ok h ss -> tags h g cnt -> (forall i j, In i (map fst g) -> In j (map fst g) -> at_ i = at_ j -> i = j) ->
  known (er g) r -> (forall i, r = RAt i -> (Z.of_nat (S (cnt i)) < 65536)%Z) ->
  exists h', incr_indegree h DEL_RC (pt r) = Ok h' /\ W h' /\ h_next h' = h_next h /\ tags h' g (bump cnt r) /\ (forall x, ~ In x (tagl g) -> look h' x = look h x).
Proof.
  intros Wh SO T INJ K B. destruct (ref_cases r) as [(i & ->)|NR].
  - destruct (known_in g _ i K eq_refl) as (n & I). cbn [pointer]. destruct (incr_view st h (at_ i) _ _ _ Wh (T i n I)) as (h' & E & W' & N & O & X); [discriminate|].
    exists h'. split; [auto|]. split; [auto|]. split; [auto|]. split.
    + intros j m J. unfold bump. rewrite ids_one. destruct (Nat.eq_dec j i) as [->|NE].
      * rewrite occ_self. assert (EM : obj h (at_ i) (KProd [DEL_RC]) [VPtr (top m)] (Z.of_nat (cnt i))) by auto. apply get_obj_of in EM. pose proof (T i n I) as EM'. apply get_obj_of in EM'.
        rewrite EM in EM'. injection EM' as EM'. rewrite EM'. replace (Z.of_nat (cnt i + 1)) with (wrap 16 (Z.of_nat (cnt i) + 1)); [exact O|]. specialize (B i eq_refl). unfold wrap. rewrite Z.mod_small; [lia|].
        change (2 ^ 16)%Z with 65536%Z. lia.
      * rewrite occ_ne, Nat.add_0_r by auto. eapply obj_ext; [discriminate|apply X|auto]. intros E'. apply NE. apply INJ; auto; apply in_map_iff; [exists (j, m)|exists (i, n)]; auto.
    + intros x NI. apply X. intros ->. apply NI. eapply tag_in. exact I.
  - destruct (static_ref ss at_ r NR) as (a & -> & IA & EI). destruct (SO a IA) as (z & O). destruct (incr_static st h a z Wh O) as (h' & E & W' & N & X).
    exists h'. split; [auto|]. split; [auto|]. split; [auto|]. split; [|auto]. unfold bump. rewrite EI. intros j m J. rewrite occ_nil, Nat.add_0_r. refine (tags_ext h h' g cnt _ T j m J). auto.
Qed.
Lemma tags_dec h g cnt r : W h -> static_ok h ss -> tags h g cnt -> (forall i j, In i (map fst g) -> In j (map fst g) -> at_ i = at_ j -> i = j) ->
  known (er g) r -> (forall i, r = RAt i -> 0 < cnt i) ->
  exists h', decr_indegree h DEL_RC (pt r) = Ok h' /\ W h' /\ h_next h' = h_next h /\ tags h' g (drop cnt r) /\ (forall x, ~ In x (tagl g) -> look h' x = look h x).
Proof.
  intros Wh SO T INJ K B. destruct (ref_cases r) as [(i & ->)|NR].
  - destruct (known_in g _ i K eq_refl) as (n & I). cbn [pointer]. destruct (decr_view st h (at_ i) _ _ _ Wh (T i n I)) as (h' & E & W' & N & O & X); [discriminate|].
    exists h'. split; [auto|]. split; [auto|]. split; [auto|]. split.
    + intros j m J. unfold drop. rewrite ids_one. destruct (Nat.eq_dec j i) as [->|NE].
      * rewrite occ_self. assert (EM : obj h (at_ i) (KProd [DEL_RC]) [VPtr (top m)] (Z.of_nat (cnt i))) by auto. apply get_obj_of in EM. pose proof (T i n I) as EM'. apply get_obj_of in EM'.
        rewrite EM in EM'. injection EM' as EM'. rewrite EM'. specialize (B i eq_refl). replace (Z.of_nat (cnt i - 1)) with (if (Z.of_nat (cnt i) =? 0)%Z then Z.of_nat (cnt i) else (Z.of_nat (cnt i) - 1)%Z); [exact O|].
        destruct (Z.eqb_spec (Z.of_nat (cnt i)) 0); lia.
      * rewrite occ_ne, Nat.sub_0_r by auto. eapply obj_ext; [discriminate|apply X|auto]. intros E'. apply NE. apply INJ; auto; apply in_map_iff; [exists (j, m)|exists (i, n)]; auto.
    + intros x NI. apply X. intros ->. apply NI. eapply tag_in. exact I.
  - destruct (static_ref ss at_ r NR) as (a & -> & IA & EI). destruct (SO a IA) as (z & O). destruct (decr_static st h a z Wh O) as (h' & E & W' & N & X).
    exists h'. split; [auto|]. split; [auto|]. split; [auto|]. split; [|auto]. unfold drop. rewrite EI. intros j m J. rewrite occ_nil, Nat.sub_0_r. refine (tags_ext h h' g cnt _ T j m J). auto.
Qed.

(** The content of one value and the counts change. *)
Lemma hold_step h c g1 i n g2 cnt lost E h' n' cnt' new E' del :
  hold h c (g1 ++ (i, n) :: g2) cnt lost E -> W h' -> h_next h' = h_next h ->
  (forall x, ~ In x (iblocks n ++ E ++ tagl (g1 ++ (i, n) :: g2)) -> look h' x = look h x) ->
  tags h' (g1 ++ (i, n) :: g2) cnt' -> inner h' c n' -> top n' = top n -> Forall (fun k => obj h' k KLeaf [] 0) new -> Forall (fun x => look h' x <> None) E' ->
  (forall x, occ x (iblocks n' ++ new ++ E' ++ del) = occ x (iblocks n ++ E)) -> (forall x, In x del -> look h' x = None) ->
  hold h' c (g1 ++ (i, n') :: g2) cnt' (lost ++ new) E'.
Proof.
  intros H W' NX X T IN TOP NEW LE OC DEL. assert (OB := hold_occ _ _ _ _ _ _ _ _ _ H). pose proof H as [IV G LO].
  assert (OC' : forall x, occ x (iblocks n') + occ x new + occ x E' + occ x del = occ x (iblocks n) + occ x E) by (intros x; specialize (OC x); rewrite !occ_app in OC; lia).
  assert (TL : forall x, In x (tagl (g1 ++ (i, n) :: g2)) -> look h' x <> None).
  { intros x I. apply in_map_iff in I as ((j & m) & <- & I). rewrite look_none. eapply obj_live. apply (T j m I). }
  assert (LV : forall x, 0 < occ x (iblocks n') + occ x new + occ x E' -> look h' x <> None).
  { intros x P. destruct (occ x (iblocks n')) eqn:E1; [destruct (occ x new) eqn:E2|].
    - rewrite Forall_forall in LE. apply LE. apply occ_in. lia.
    - rewrite Forall_forall in NEW. rewrite look_none. eapply obj_live. apply NEW. apply occ_in. lia.
    - apply inner_things in IN. rewrite Forall_forall in IN. apply thing_live. apply IN. apply occ_in. lia. }
  constructor.
  - eapply (inv_move st deep h0 c0 DP) with (T := iblocks n ++ E ++ tagl (g1 ++ (i, n) :: g2)); [exact IV|exact W'|lia|auto|..].
    + intros x I. left. rewrite !in_app_iff in I. rewrite !in_app_iff, (occ_in x (gblocks _)), gblocks_mid. destruct I as [I|[I|I]]; [|auto|].
      * left. rewrite occ_cons. rewrite occ_in in I. lia.
      * left. apply tagl_occ in I. rewrite occ_cons. lia.
    + intros x. rewrite !occ_app, gblocks_mid, occ_cons. specialize (OB x). specialize (OC' x). lia.
    + intros x I. rewrite occ_in, !occ_app, gblocks_mid, occ_cons. specialize (OB x). specialize (OC' x). rewrite !in_app_iff in I. destruct I as [I|[I|I]].
      * rewrite occ_in in I. destruct (occ x del) eqn:ED; [split; intros _; [lia|apply LV; lia]|]. assert (ID : In x del) by (apply occ_in; lia). apply DEL in ID. split; [congruence|lia].
      * rewrite occ_in in I. destruct (occ x del) eqn:ED; [split; intros _; [lia|apply LV; lia]|]. assert (ID : In x del) by (apply occ_in; lia). apply DEL in ID. split; [congruence|lia].
      * split; intros _; [|auto]. apply tagl_occ in I. lia.
    + intros x I. rewrite !in_app_iff in I. rewrite !(occ_in x (_ ++ _)), !occ_app, !gblocks_mid, !occ_cons. specialize (OC' x).
      assert (occ x (iblocks n) = 0) by (destruct (occ x (iblocks n)) eqn:Q; auto; exfalso; apply I; left; apply occ_in; lia).
      assert (occ x E = 0) by (destruct (occ x E) eqn:Q; auto; exfalso; apply I; right; left; apply occ_in; lia). lia.
  - assert (NI := g_ids _ _ _ _ _ _ G). rewrite map_app in NI. cbn [map fst] in NI. apply NoDup_remove_2 in NI. rewrite <- map_app in NI.
    apply good_mid; auto.
    + constructor.
      * intros j m I. eapply inner_ext; [|apply (g_in _ _ _ _ _ _ G j m)].
        -- intros x J. split; [|auto]. apply X. rewrite !in_app_iff. assert (K : In x (gblocks (g1 ++ g2))) by (eapply gblocks_in; [exact I|right; auto]). rewrite occ_in in K. specialize (OB x).
           intros [Q|[Q|Q]]; [rewrite occ_in in Q; lia..|]. apply in_map_iff in Q as ((j2 & m2) & E2 & Q). cbn [fst] in E2. subst x.
           assert (ND := proj1 (nodup_occ _) (g_nd _ _ _ _ _ _ G)). specialize (ND (at_ j2)). rewrite gblocks_mid, occ_cons in ND.
           apply in_split in I as (l1 & l2 & EI). rewrite EI, gblocks_mid, occ_cons in *. rewrite occ_in in J.
           apply in_app_iff in Q as [Q|[Q|Q]]; [|injection Q as -> ->; rewrite Nat.eqb_refl in *; cbn [Nat.b2n] in *; lia|].
           ++ destruct (Nat.eq_dec j2 j) as [->|NE]; [rewrite Nat.eqb_refl in *; cbn [Nat.b2n] in *; lia|].
              assert (Q2 : In (j2, m2) (l1 ++ (j, m) :: l2)) by (rewrite <- EI; apply in_app_iff; auto).
              assert (Q3 : In (at_ j2) (gblocks (l1 ++ l2))); [|rewrite occ_in in Q3; lia]. apply (gblocks_in at_ _ j2 m2); [|left; auto].
              rewrite in_app_iff in *. cbn [In] in Q2. destruct Q2 as [|[Q2|]]; auto. congruence.
           ++ destruct (Nat.eq_dec j2 j) as [->|NE]; [rewrite Nat.eqb_refl in *; cbn [Nat.b2n] in *; lia|].
              assert (Q2 : In (j2, m2) (l1 ++ (j, m) :: l2)) by (rewrite <- EI; apply in_app_iff; auto).
              assert (Q3 : In (at_ j2) (gblocks (l1 ++ l2))); [|rewrite occ_in in Q3; lia]. apply (gblocks_in at_ _ j2 m2); [|left; auto].
              rewrite in_app_iff in *. cbn [In] in Q2. destruct Q2 as [|[Q2|]]; auto. congruence.
        -- rewrite in_app_iff in *. cbn [In]. tauto.
      * intros j m I. apply T. rewrite in_app_iff in *. cbn [In]. tauto.
      * assert (NI2 := g_ids _ _ _ _ _ _ G). rewrite map_app in *. cbn [map fst] in NI2. apply NoDup_remove_1 in NI2. auto.
      * apply nodup_occ. intros x. specialize (OB x). lia.
    + rewrite TOP. apply T. apply in_app_iff. right. left. auto.
    + apply nodup_occ. intros x. rewrite gblocks_mid, occ_cons. specialize (OB x). specialize (OC' x). lia.
  - apply Forall_app. split; [|auto]. rewrite Forall_forall in *. intros k K. eapply obj_ext; [discriminate|apply X|apply LO; auto].
    specialize (OB k). rewrite !in_app_iff. rewrite occ_in in K. intros [Q|[Q|Q]]; [rewrite occ_in in Q; lia..|]. apply tagl_occ in Q. lia.
Qed.
Lemma hold_static h c g cnt lost E : hold h c g cnt lost E -> static_ok h ss.
Proof. intros H. eapply inv_static; [exact W0|exact S0|apply H]. Qed.
Lemma hold_static2 h c g1 i n g2 cnt lost E h' : hold h c (g1 ++ (i, n) :: g2) cnt lost E -> Forall (thing h) E ->
  (forall x, ~ In x (iblocks n ++ E ++ tagl (g1 ++ (i, n) :: g2)) -> look h' x = look h x) -> static_ok h' ss.
Proof.
  intros H TE X. eapply static_away; [eapply hold_static; exact H|exact X|]. intros x I. left. pose proof (good_things _ _ _ _ _ _ (o_good _ _ _ _ _ _ H)) as TH. rewrite Forall_forall in *.
  rewrite !in_app_iff in I. destruct I as [I|[I|I]]; [|auto|apply TH; apply tagl_in; auto]. apply TH. eapply gblocks_in; [apply in_app_iff; right; left; reflexivity|right; auto].
Qed.
Lemma hold_inj h c g cnt lost E i j : hold h c g cnt lost E -> In i (map fst g) -> In j (map fst g) -> at_ i = at_ j -> i = j.
Proof. intros H. eapply at_inj. apply H. Qed.
Lemma hold_alloc h c g cnt lost E h' c' : hold h c g cnt lost E -> W h' -> h_next h' = S (h_next h) -> thing h' (h_next h) -> (forall x, x <> h_next h -> look h' x = look h x /\ c' x = c x) ->
  hold h' c' g cnt lost (h_next h :: E).
Proof.
  intros [A B C] W' N TH X. assert (LT : forall x, In x (gblocks g ++ lost ++ E) -> x <> h_next h). { intros x I ->. apply (inv_lt _ _ _ _ _ _ _ A) in I. lia. }
  constructor.
  - apply (inv_same st place h0 c0 h' c' ((gblocks g ++ lost ++ E) ++ [h_next h])); [intros x; rewrite !occ_app, !occ_cons, occ_nil; lia|].
    eapply (inv_grow st deep h0 c0 DP) with (T := [h_next h]); [exact A|exact W'|lia| | | | | |].
    + intros x NI. apply X. intros ->. apply NI. left. auto.
    + auto.
    + auto.
    + intros x [<-|[]]. auto.
    + constructor; [intros []|constructor].
    + intros x [<-|[]]. auto.
  - eapply good_ext; [|auto|exact B]. intros x I. apply X. apply LT. apply in_app_iff. auto.
  - rewrite Forall_forall in *. intros k K. eapply obj_ext; [discriminate|apply X|apply C; auto]. apply LT. rewrite !in_app_iff. auto.
Qed.

(** * Reading *)
Lemma hold_array h c g cnt lost E i l rs : hold h c g cnt lost E -> In (i, PArr l rs) g -> to_array h (VPtr (at_ i)) = Ok (VPtr l) /\ obj h l (KList DEL_RC) (map pt rs) 1.
Proof.
  intros H I. pose proof (g_tag _ _ _ _ _ _ (o_good _ _ _ _ _ _ H) _ _ I) as T. pose proof (g_in _ _ _ _ _ _ (o_good _ _ _ _ _ _ H) _ _ I) as O. cbn [JsonShareDel.inner top] in *.
  split; [|exact O]. unfold to_array, tuple_get. cbn [target bind]. rewrite (get_obj_of _ _ _ _ _ T). cbn [bind nth_error of_option target]. rewrite (get_obj_of _ _ _ _ _ O). reflexivity.
Qed.
Lemma hold_object h c g cnt lost E i m ks ts es : hold h c g cnt lost E -> In (i, PObj m ks ts es) g -> to_object h (VPtr (at_ i)) = Ok (VPtr m) /\ inner h c (PObj m ks ts es).
Proof.
  intros H I. pose proof (g_tag _ _ _ _ _ _ (o_good _ _ _ _ _ _ H) _ _ I) as T. pose proof (g_in _ _ _ _ _ _ (o_good _ _ _ _ _ _ H) _ _ I) as O. cbn [top] in *.
  split; [|exact O]. destruct O as (O & _). unfold to_object, tuple_get. cbn [target bind]. rewrite (get_obj_of _ _ _ _ _ T). cbn [bind nth_error of_option target]. rewrite (get_obj_of _ _ _ _ _ O). reflexivity.
Qed.

(** * Arrays *)
Lemma arr_inc h c g1 i l rs g2 cnt lost rs' r : hold h c (g1 ++ (i, PArr l rs) :: g2) cnt lost [] -> known (er (g1 ++ (i, PArr l rs) :: g2)) r ->
  (forall j, r = RAt j -> (Z.of_nat (S (cnt j)) < 65536)%Z) ->
  exists h', (let* h := put_vals h l (KList DEL_RC) (map pt rs') in incr_indegree h DEL_RC (pt r)) = Ok h' /\ hold h' c (g1 ++ (i, PArr l rs') :: g2) (bump cnt r) lost [].
Proof.
  intros H K B. assert (Wh := i_W _ _ _ _ _ _ (o_inv _ _ _ _ _ _ H)). destruct (hold_array _ _ _ _ _ _ i l rs H) as (_ & O); [apply in_app_iff; right; left; auto|].
  destruct (put_view st h l _ _ _ (KList DEL_RC) (map pt rs') Wh O) as (h1 & E1 & W1 & N1 & O1 & X1); [discriminate..|]. rewrite E1. cbn [bind].
  assert (NT : ~ In l (tagl (g1 ++ (i, PArr l rs) :: g2))) by (eapply apart; [exact H|left; auto]).
  assert (SO1 : static_ok h1 ss). { eapply hold_static2; [exact H|constructor|]. intros x I. apply X1. intros ->. apply I. left. auto. }
  assert (T1 : tags h1 (g1 ++ (i, PArr l rs) :: g2) cnt). { eapply tags_ext; [|exact (g_tag _ _ _ _ _ _ (o_good _ _ _ _ _ _ H))]. intros x I. apply X1. intros ->. auto. }
  destruct (tags_inc h1 _ cnt r W1 SO1 T1 (fun a b => hold_inj _ _ _ _ _ _ a b H) K B) as (h2 & E2 & W2 & N2 & T2 & X2).
  exists h2. split; [auto|]. rewrite <- (app_nil_r lost). apply (hold_step h c g1 i (PArr l rs) g2 cnt lost [] h2 (PArr l rs') (bump cnt r) [] [] []); auto; try congruence.
  - intros x I. cbn [iblocks app In] in I. rewrite X2, X1; [auto|intros ->; tauto|tauto].
  - cbn [JsonShareDel.inner]. eapply obj_ext; [discriminate|apply X2; auto|exact O1].
  - intros x [].
Qed.
Lemma arr_dec h c g1 i l rs g2 cnt lost rs' r : hold h c (g1 ++ (i, PArr l rs) :: g2) cnt lost [] -> known (er (g1 ++ (i, PArr l rs) :: g2)) r ->
  (forall j, r = RAt j -> 0 < cnt j) ->
  exists h', (let* h := put_vals h l (KList DEL_RC) (map pt rs') in decr_indegree h DEL_RC (pt r)) = Ok h' /\ hold h' c (g1 ++ (i, PArr l rs') :: g2) (drop cnt r) lost [].
Proof.
  intros H K B. assert (Wh := i_W _ _ _ _ _ _ (o_inv _ _ _ _ _ _ H)). destruct (hold_array _ _ _ _ _ _ i l rs H) as (_ & O); [apply in_app_iff; right; left; auto|].
  destruct (put_view st h l _ _ _ (KList DEL_RC) (map pt rs') Wh O) as (h1 & E1 & W1 & N1 & O1 & X1); [discriminate..|]. rewrite E1. cbn [bind].
  assert (NT : ~ In l (tagl (g1 ++ (i, PArr l rs) :: g2))) by (eapply apart; [exact H|left; auto]).
  assert (SO1 : static_ok h1 ss). { eapply hold_static2; [exact H|constructor|]. intros x I. apply X1. intros ->. apply I. left. auto. }
  assert (T1 : tags h1 (g1 ++ (i, PArr l rs) :: g2) cnt). { eapply tags_ext; [|exact (g_tag _ _ _ _ _ _ (o_good _ _ _ _ _ _ H))]. intros x I. apply X1. intros ->. auto. }
  destruct (tags_dec h1 _ cnt r W1 SO1 T1 (fun a b => hold_inj _ _ _ _ _ _ a b H) K B) as (h2 & E2 & W2 & N2 & T2 & X2).
  exists h2. split; [auto|]. rewrite <- (app_nil_r lost). apply (hold_step h c g1 i (PArr l rs) g2 cnt lost [] h2 (PArr l rs') (drop cnt r) [] [] []); auto; try congruence.
  - intros x I. cbn [iblocks app In] in I. rewrite X2, X1; [auto|intros ->; tauto|tauto].
  - cbn [JsonShareDel.inner]. eapply obj_ext; [discriminate|apply X2; auto|exact O1].
  - intros x [].
Qed.
Lemma known_mid g1 i n n' g2 r : known (er (g1 ++ (i, n) :: g2)) r -> known (er (g1 ++ (i, n') :: g2)) r.
Proof. destruct r; auto. cbn [known]. rewrite !er_ids, !map_app. auto. Qed.
Lemma append_many i l g1 g2 c lost : forall rs' rs h cnt, hold h c (g1 ++ (i, PArr l rs) :: g2) cnt lost [] -> Forall (known (er (g1 ++ (i, PArr l rs) :: g2))) rs' ->
  (forall j, In j (ids rs') -> (Z.of_nat (cnt j + occ j (ids rs')) < 65536)%Z) ->
  exists h', foldm (fun h e => list_append h l e) h (map pt rs') = Ok h' /\ hold h' c (g1 ++ (i, PArr l (rs ++ rs')) :: g2) (fun j => cnt j + occ j (ids rs')) lost [].
Proof.
  induction rs' as [|r rs' IH]; intros rs h cnt H K B; cbn [map foldm].
  - exists h. split; [auto|]. rewrite app_nil_r. eapply hold_cnt; [|exact H]. intros j _. cbn [ids flat_map]. rewrite occ_nil. lia.
  - apply Forall_cons_iff in K as (K & KS).
    destruct (hold_array _ _ _ _ _ _ i l rs H) as (_ & O); [apply in_app_iff; right; left; auto|]. unfold list_append at 1. rewrite (get_obj_of _ _ _ _ _ O). cbn [bind].
    change (map pt rs ++ [pt r]) with (map pt rs ++ map pt [r]). rewrite <- map_app.
    destruct (arr_inc h c g1 i l rs g2 cnt lost (rs ++ [r]) r H K) as (h1 & E1 & H1).
    { intros j ->. specialize (B j). rewrite ids_cons, ids_one, occ_app, occ_self in B. cbn [app In] in B. assert (Q := B (or_introl eq_refl)). lia. }
    rewrite E1. cbn [bind]. destruct (IH (rs ++ [r]) h1 (bump cnt r) H1) as (h2 & E2 & H2).
    + rewrite Forall_forall in *. intros x X. eapply known_mid. apply KS. auto.
    + intros j J. specialize (B j). rewrite ids_cons, in_app_iff, occ_app in B. unfold bump. specialize (B (or_intror J)). lia.
    + exists h2. split; [auto|]. rewrite <- app_assoc in H2. eapply hold_cnt; [|exact H2]. intros j _. unfold bump. rewrite (ids_cons r rs'), occ_app. lia.
Qed.
Lemma append_ok h c g1 i l rs g2 cnt lost r : hold h c (g1 ++ (i, PArr l rs) :: g2) cnt lost [] -> known (er (g1 ++ (i, PArr l rs) :: g2)) r ->
  (forall j, In j (ids [r]) -> (Z.of_nat (cnt j + occ j (ids [r])) < 65536)%Z) ->
  exists h', array_append h (VPtr (at_ i)) (pt r) = Ok h' /\ hold h' c (g1 ++ (i, PArr l (rs ++ [r])) :: g2) (fun j => cnt j + occ j (ids [r])) lost [].
Proof.
  intros H K B. destruct (append_many i l g1 g2 c lost [r] rs h cnt H) as (h' & E & H'); [constructor; [auto|constructor]|exact B|]. exists h'. split; [|auto].
  destruct (hold_array _ _ _ _ _ _ i l rs H) as (TA & _); [apply in_app_iff; right; left; auto|]. unfold array_append. rewrite TA. cbn [bind not_null]. unfold add_to_array. cbn [target bind].
  cbn [map foldm] in E. destruct (list_append h l (pt r)); [exact E|discriminate].
Qed.
Lemma concat_ok h c g1 i l rs g2 cnt lost b l' rs' : hold h c (g1 ++ (i, PArr l rs) :: g2) cnt lost [] -> Forall (known (er (g1 ++ (i, PArr l rs) :: g2))) rs' ->
  In (b, PArr l' rs') (g1 ++ (i, PArr l rs) :: g2) -> b <> i -> (forall j, In j (ids rs') -> (Z.of_nat (cnt j + occ j (ids rs')) < 65536)%Z) ->
  exists h', array_concat h (VPtr (at_ i)) (VPtr (at_ b)) = Ok h' /\ hold h' c (g1 ++ (i, PArr l (rs ++ rs')) :: g2) (fun j => cnt j + occ j (ids rs')) lost [].
Proof.
  intros H K IB NE B. destruct (append_many i l g1 g2 c lost rs' rs h cnt H K B) as (h' & E & H'). exists h'. split; [|auto].
  destruct (hold_array _ _ _ _ _ _ i l rs H) as (TA & _); [apply in_app_iff; right; left; auto|]. destruct (hold_array _ _ _ _ _ _ b l' rs' H IB) as (TB & OB).
  unfold array_concat. rewrite TA, TB. cbn [bind not_null target]. rewrite (get_obj_of _ _ _ _ _ OB). cbn [bind].
  assert (LL : l <> l').
  { intros <-. assert (Q := hold_occ _ _ _ _ _ _ _ _ _ H l). cbn [iblocks] in Q. rewrite occ_self in Q. assert (IB' : In (b, PArr l rs') (g1 ++ g2)).
    { rewrite in_app_iff in *. cbn [In] in IB. destruct IB as [|[IB|]]; auto. congruence. }
    assert (Q2 : In l (gblocks (g1 ++ g2))) by (eapply gblocks_in; [exact IB'|right; left; auto]). rewrite occ_in in Q2. lia. }
  apply Nat.eqb_neq in LL. rewrite LL. exact E.
Qed.
Lemma insert_ok h c g1 i l rs1 rs2 g2 cnt lost r : hold h c (g1 ++ (i, PArr l (rs1 ++ rs2)) :: g2) cnt lost [] -> known (er (g1 ++ (i, PArr l (rs1 ++ rs2)) :: g2)) r ->
  (forall j, r = RAt j -> (Z.of_nat (S (cnt j)) < 65536)%Z) ->
  exists h', array_insert h (VPtr (at_ i)) (length rs1) (pt r) = Ok h' /\ hold h' c (g1 ++ (i, PArr l (rs1 ++ r :: rs2)) :: g2) (bump cnt r) lost [].
Proof.
  intros H K B. destruct (arr_inc h c g1 i l (rs1 ++ rs2) g2 cnt lost (rs1 ++ r :: rs2) r H K B) as (h' & E & H'). exists h'. split; [|auto].
  destruct (hold_array _ _ _ _ _ _ i l (rs1 ++ rs2) H) as (TA & O); [apply in_app_iff; right; left; auto|]. unfold array_insert. rewrite TA. cbn [bind not_null target].
  unfold list_insert. rewrite (get_obj_of _ _ _ _ _ O). cbn [bind]. rewrite map_length, app_length. assert (LE : length rs1 <=? length rs1 + length rs2 = true) by (apply Nat.leb_le; lia). rewrite LE.
  rewrite map_app. replace (length rs1) with (length (map pt rs1)) by apply map_length. rewrite firstn_app, firstn_all, Nat.sub_diag, skipn_app, skipn_all, Nat.sub_diag. cbn [firstn skipn app]. rewrite app_nil_r.
  rewrite map_app in E. cbn [map] in E. exact E.
Qed.
Lemma remove_at_ok h c g1 i l rs1 w rs2 g2 cnt lost : hold h c (g1 ++ (i, PArr l (rs1 ++ w :: rs2)) :: g2) cnt lost [] -> known (er (g1 ++ (i, PArr l (rs1 ++ w :: rs2)) :: g2)) w ->
  (forall j, w = RAt j -> 0 < cnt j) ->
  exists h', array_remove h (VPtr (at_ i)) (length rs1) = Ok h' /\ hold h' c (g1 ++ (i, PArr l (rs1 ++ rs2)) :: g2) (drop cnt w) lost [].
Proof.
  intros H K B. destruct (arr_dec h c g1 i l (rs1 ++ w :: rs2) g2 cnt lost (rs1 ++ rs2) w H K B) as (h' & E & H'). exists h'. split; [|auto].
  destruct (hold_array _ _ _ _ _ _ i l (rs1 ++ w :: rs2) H) as (TA & O); [apply in_app_iff; right; left; auto|]. unfold array_remove. rewrite TA. cbn [bind not_null target].
  unfold list_remove. rewrite (get_obj_of _ _ _ _ _ O). cbn [bind]. rewrite map_app. cbn [map]. replace (length rs1) with (length (map pt rs1)) by apply map_length.
  rewrite nth_error_app2, Nat.sub_diag by lia. cbn [nth_error]. rewrite firstn_app, firstn_all, Nat.sub_diag. cbn [firstn]. rewrite app_nil_r.
  rewrite skipn_app, skipn_all2 by lia. replace (S (length (map pt rs1)) - length (map pt rs1)) with 1 by lia. cbn [skipn app]. rewrite map_app in E. exact E.
Qed.

(** * Objects *)
Lemma set_start h c g1 i n g2 cnt lost key r : hold h c (g1 ++ (i, n) :: g2) cnt lost [] -> known (er (g1 ++ (i, n) :: g2)) r -> (forall j, r = RAt j -> (Z.of_nat (S (cnt j)) < 65536)%Z) ->
  exists h1 c1 h2 h4 k t, string_mk st mk_str h c key = Ok (h1, c1, VPtr k) /\ mk_prod h1 st [DEL_RC; DEL_RC] [VPtr k; pt r] = Ok (h4, t) /\ W h1 /\ (forall x, In x (iblocks n) -> look h1 x = look h x) /\
    hold h2 c1 (g1 ++ (i, n) :: g2) cnt lost [t; k] /\ W h4 /\ h_next h4 = h_next h2 /\ (forall x, ~ In x (k :: tagl (g1 ++ (i, n) :: g2)) -> look h4 x = look h2 x) /\
    tags h4 (g1 ++ (i, n) :: g2) (bump cnt r) /\ obj h4 t (KProd [DEL_RC; DEL_RC]) [VPtr k; pt r] 0 /\ obj h4 k KLeaf [] 1 /\ c1 k = JStr key /\ Forall (thing h2) [t; k].
Proof.
  intros H K B. assert (Wh := i_W _ _ _ _ _ _ (o_inv _ _ _ _ _ _ H)).
  unfold string_mk. rewrite MK. cbn [bind]. destruct (mk_obj_view st h KLeaf [] M_MALLOC Wh) as (h1 & -> & W1 & N1 & O1 & X1); [discriminate|]. cbn [bind].
  set (k := h_next h) in *. set (c1 := set_at c k (JStr key)).
  assert (H1 : hold h1 c1 (g1 ++ (i, n) :: g2) cnt lost [k]).
  { apply (hold_alloc h c); auto. - eapply thing_obj; [exact O1|discriminate]. - intros x NE. split; [auto|]. unfold c1. rewrite set_at_neq; auto. }
  unfold mk_prod. destruct (mk_obj_view st h1 (KProd [DEL_RC; DEL_RC]) [VPtr k; pt r] M_IDENTITY W1) as (h2 & E2 & W2 & N2 & O2 & X2); [discriminate|].
  set (t := h_next h1) in *. assert (TK : t <> k) by (unfold t, k in *; lia).
  assert (H2 : hold h2 c1 (g1 ++ (i, n) :: g2) cnt lost [t; k]).
  { apply (hold_alloc h1 c1); auto. eapply thing_obj; [exact O2|discriminate]. }
  assert (K2 : obj h2 k KLeaf [] 0) by (eapply obj_ext; [discriminate|apply X2; auto|exact O1]).
  destruct (incr_view st h2 k _ _ _ W2 K2) as (h3 & E3 & W3 & N3 & O3 & X3); [discriminate|].
  assert (TT : Forall (thing h2) [t; k]). { constructor; [eapply thing_obj; [exact O2|discriminate]|]. constructor; [eapply thing_obj; [exact K2|discriminate]|constructor]. }
  assert (SO3 : static_ok h3 ss). { eapply hold_static2; [exact H2|exact TT|]. intros x I. apply X3. intros ->. apply I. rewrite !in_app_iff. cbn [In]. tauto. }
  assert (NK : ~ In k (tagl (g1 ++ (i, n) :: g2))) by (eapply apart; [exact H2|rewrite !in_app_iff; cbn [In]; tauto]).
  assert (NT : ~ In t (tagl (g1 ++ (i, n) :: g2))) by (eapply apart; [exact H2|rewrite !in_app_iff; cbn [In]; tauto]).
  assert (T3 : tags h3 (g1 ++ (i, n) :: g2) cnt). { eapply tags_ext; [|exact (g_tag _ _ _ _ _ _ (o_good _ _ _ _ _ _ H2))]. intros x I. apply X3. intros ->. auto. }
  destruct (tags_inc h3 _ cnt r W3 SO3 T3 (fun a b => hold_inj _ _ _ _ _ _ a b H2) K B) as (h4 & E4 & W4 & N4 & T4 & X4).
  exists h1, c1, h2, h4, k, t. split; [auto|]. split. { rewrite E2. cbn [bind combine foldm fst snd]. rewrite E3. cbn [bind]. rewrite E4. reflexivity. }
  split; [auto|]. split. { intros x I. apply X1. assert (Q := hold_occ _ _ _ _ _ _ _ _ _ H1 x). intros ->. rewrite occ_self in Q. rewrite occ_in in I. lia. }
  split; [auto|]. split; [auto|]. split; [congruence|].
  split. { intros x I. cbn [In] in I. rewrite X4, X3; [auto|intros ->; tauto|tauto]. }
  split; [auto|]. split; [eapply obj_ext; [discriminate|rewrite X4, X3; auto|exact O2]|]. split; [eapply obj_ext; [discriminate|apply X4; auto|exact O3]|].
  split; [unfold c1; apply set_at_eq|auto].
Qed.
Lemma lay_pairs es : map (fun e => VPtr (e_pair e)) (map lay es) = map VPtr (map n_pair es).
Proof. rewrite !map_map. reflexivity. Qed.
Lemma lay_keys es : map (fun e => VPtr (e_key e)) (map lay es) = map (fun e => VPtr (n_key e)) es.
Proof. rewrite !map_map. reflexivity. Qed.
Lemma lay_names es : map e_name (map lay es) = map n_name es.
Proof. rewrite !map_map. reflexivity. Qed.
Lemma flat_mid es1 e es2 x : occ x (flat_map nblocks (es1 ++ e :: es2)) = occ x (flat_map nblocks (es1 ++ es2)) + occ x (nblocks e).
Proof. rewrite !flat_map_app. cbn [flat_map]. rewrite !occ_app. lia. Qed.
Lemma ent_in es e x : In e es -> In x (nblocks e) -> In x (flat_map nblocks es).
Proof. intros I J. apply in_flat_map. eauto. Qed.
(** the same address *)
Lemma ptr_eq h c g cnt lost E r w : hold h c g cnt lost E -> known (er g) r -> known (er g) w -> pt r = pt w -> (exists i, r = RAt i /\ w = RAt i) \/ (ids [r] = [] /\ ids [w] = []).
Proof.
  intros H KR KW EQ. assert (SO := hold_static _ _ _ _ _ _ H). assert (TH := good_things _ _ _ _ _ _ (o_good _ _ _ _ _ _ H)). rewrite Forall_forall in TH.
  assert (NS : forall i r', known (er g) (RAt i) -> (forall j, r' <> RAt j) -> VPtr (at_ i) = pt r' -> False).
  { intros i r' KI NR E'. destruct (static_ref ss at_ r' NR) as (a & E2 & IA & _). rewrite E2 in E'. injection E' as E'. destruct (known_in g _ i KI eq_refl) as (n & I).
    apply (static_thing h ss a (at_ i) SO IA); [apply TH|exact E']. eapply gblocks_in; [exact I|left; auto]. }
  destruct (ref_cases r) as [(i & ->)|NR]; destruct (ref_cases w) as [(j & ->)|NW].
  - left. exists i. split; [auto|]. f_equal. cbn [pointer] in EQ. injection EQ as EQ. cbn [known] in *. rewrite er_ids in *. symmetry. eapply hold_inj; eauto.
  - destruct (NS i w KR NW). exact EQ.
  - destruct (NS j r KW NR). cbn [pointer] in *. congruence.
  - right. destruct (static_ref ss at_ r NR) as (? & _ & _ & A). destruct (static_ref ss at_ w NW) as (? & _ & _ & A'). auto.
Qed.
Lemma set_new_ok h c g1 i m ks ts es g2 cnt lost key r : hold h c (g1 ++ (i, PObj m ks ts es) :: g2) cnt lost [] -> known (er (g1 ++ (i, PObj m ks ts es) :: g2)) r ->
  (forall j, r = RAt j -> (Z.of_nat (S (cnt j)) < 65536)%Z) -> ~ In key (map n_name es) ->
  exists h' c' ts' k t, object_set st place deep mk_str h c (VPtr (at_ i)) key (pt r) = Ok (h', c') /\
    hold h' c' (g1 ++ (i, PObj m ks ts' (es ++ [Ent key k t r])) :: g2) (bump cnt r) lost [].
Proof.
  intros H K B NIN. set (g := g1 ++ (i, PObj m ks ts es) :: g2) in *.
  destruct (hold_object _ _ _ _ _ _ i m ks ts es H) as (TO & IN); [apply in_app_iff; right; left; auto|]. destruct IN as (M & PM & _).
  unfold object_set. rewrite TO. cbn [bind not_null].
  destruct (set_start h c g1 i _ g2 cnt lost key r H K B) as (h1 & c1 & h2 & h4 & k & t & -> & E4 & W1 & X01 & H2 & W4 & N4 & X4 & T4 & P4 & K4 & CK & TT). fold g in H2, X4, T4.
  cbn [bind]. unfold add_to_object. cbn [target bind]. unfold map_add.
  assert (M1 : obj h1 m (KMap DEL_RC DEL_RC) (VPtr ks :: map VPtr ts) 1) by (eapply obj_ext; [discriminate|apply X01; left; auto|exact M]).
  destruct (obj_state st h1 m _ _ _ W1 M1) as (b & G & BB & S); [discriminate|]. unfold get at 1. rewrite G. cbn [bind of_option]. rewrite BB, S. clear b G BB S. rewrite E4. cbn [bind].
  destruct (hold_object _ _ _ _ _ _ i m ks ts es H2) as (_ & (M2 & _ & S2 & NM & F2)); [apply in_app_iff; right; left; auto|].
  assert (OB : forall z, occ z (gblocks (g1 ++ g2)) + (Nat.b2n (z =? at_ i) + (Nat.b2n (z =? m) + (Nat.b2n (z =? ks) + occ z (flat_map nblocks es)))) + occ z lost + (Nat.b2n (z =? t) + Nat.b2n (z =? k)) <= 1).
  { intros z. assert (Q := hold_occ _ _ _ _ _ _ _ _ _ H2 z). cbn [iblocks] in Q. rewrite !occ_cons, occ_nil in Q. lia. }
  assert (AP : forall x, In x (m :: ks :: flat_map nblocks es ++ [t; k]) -> ~ In x (tagl g)).
  { intros x I. eapply apart; [exact H2|]. cbn [iblocks app In]. cbn [In] in I. rewrite !in_app_iff in *. tauto. }
  assert (KMS : k <> m /\ k <> ks /\ k <> t /\ m <> ks /\ m <> t /\ ks <> t).
  { assert (Q1 := OB k). assert (Q2 := OB m). assert (Q3 := OB ks). rewrite Nat.eqb_refl in Q1, Q2, Q3. cbn [Nat.b2n] in Q1, Q2, Q3.
    repeat split; intros Q; subst; rewrite ?Nat.eqb_refl in *; cbn [Nat.b2n] in *; lia. }
  destruct KMS as (KM & KS & KT & MS & MT & ST).
  assert (M4 : obj h4 m (KMap DEL_RC DEL_RC) (VPtr ks :: map VPtr ts) 1). { eapply obj_ext; [discriminate|apply X4; intros [Q|Q]; [auto|]|exact M2]. apply (AP m) in Q; [auto|left; auto]. }
  rewrite (get_obj_of _ _ _ _ _ M4). cbn [bind tl].
  assert (EX : forall e, In e es -> entry_ok ss at_ c1 h4 2 e).
  { intros e I. rewrite Forall_forall in F2. eapply entry_ok_ext; [|apply F2; auto]. intros x J. split; [|auto]. assert (J' := ent_in _ _ _ I J). apply X4. intros [<-|Q].
    - specialize (OB k). rewrite Nat.eqb_refl in OB. cbn [Nat.b2n] in OB. rewrite occ_in in J'. lia.
    - apply AP in Q; [auto|]. right. right. apply in_app_iff. auto. }
  destruct (perm_map_inv _ _ _ PM) as (es' & PE & ->). rewrite <- lay_pairs.
  destruct (find_view h4 c1 k key (map lay es') CK) as [(_ & ->)|(e & IE & EN & _)].
  { rewrite Forall_forall. intros e I. apply in_map_iff in I as (e0 & <- & I). destruct (EX e0) as (_ & A & C); [eapply Permutation_in; eauto|]. split; [eexists; exact C|exact A]. }
  2:{ apply in_map_iff in IE as (e0 & <- & IE). destruct NIN. rewrite <- EN. apply in_map_iff. exists e0. split; [auto|]. eapply Permutation_in; eauto. }
  cbn [bind]. rewrite lay_pairs. set (pos := place h1 m). set (ts := map n_pair es').
  rewrite firstn_map, skipn_map. change (VPtr t :: map VPtr (skipn pos ts)) with (map VPtr (t :: skipn pos ts)). rewrite <- map_app.
  destruct (put_view st h4 m _ _ _ (KMap DEL_RC DEL_RC) (VPtr ks :: map VPtr (firstn pos ts ++ t :: skipn pos ts)) W4 M4) as (h5 & -> & W5 & N5 & O5 & X5); [discriminate..|]. cbn [bind target].
  assert (S5 : obj h5 ks (KList DEL_RC) (map (fun e => VPtr (n_key e)) es) 0).
  { eapply obj_ext; [discriminate| |exact S2]. rewrite X5 by auto. apply X4. intros [Q|Q]; [auto|]. apply AP in Q; [auto|right; left; auto]. }
  unfold list_append. rewrite (get_obj_of _ _ _ _ _ S5). cbn [bind].
  destruct (put_view st h5 ks _ _ _ (KList DEL_RC) (map (fun e => VPtr (n_key e)) es ++ [VPtr k]) W5 S5) as (h6 & -> & W6 & N6 & O6 & X6); [discriminate..|]. cbn [bind].
  assert (K6 : obj h6 k KLeaf [] 1). { eapply obj_ext; [discriminate| |exact K4]. rewrite X6, X5; auto. }
  destruct (incr_view st h6 k _ _ _ W6 K6) as (h7 & -> & W7 & N7 & O7 & X7); [discriminate|]. cbn [bind].
  change (wrap 16 (1 + 1)) with 2%Z in O7.
  assert (X47 : forall x, ~ In x [m; ks; k] -> look h7 x = look h4 x). { intros x Y. cbn [In] in Y. rewrite X7, X6, X5; auto; intros ->; tauto. }
  exists h7, c1, (firstn pos ts ++ t :: skipn pos ts), k, t. split; [auto|]. rewrite <- (app_nil_r lost).
  apply (hold_step h2 c1 g1 i (PObj m ks ts es) g2 cnt lost [t; k] h7 _ (bump cnt r) [] [] []); auto; try congruence.
  - intros x I. cbn [iblocks app In] in I. rewrite !in_app_iff in I. cbn [In] in I. rewrite X47, X4; [auto|cbn [In]; fold g in I; tauto|cbn [In]; tauto].
  - fold g. eapply tags_ext; [|exact T4]. intros x I. apply X47. intros Q. apply AP in I; [auto|]. cbn [In] in *. rewrite in_app_iff. cbn [In]. tauto.
  - cbn [JsonShareDel.inner]. split; [eapply obj_ext; [discriminate| |exact O5]; rewrite X7, X6; auto|]. split.
    { rewrite <- Permutation_middle, firstn_skipn, map_app. cbn [map n_pair]. eapply perm_trans; [constructor; exact PM|]. apply Permutation_cons_append. }
    split; [eapply obj_ext; [discriminate|apply X7; auto|]; rewrite map_app; exact O6|].
    split; [rewrite map_app; cbn [map n_name]; eapply Permutation_NoDup; [apply Permutation_cons_append|constructor; auto]|].
    apply Forall_app. split.
    + rewrite Forall_forall. intros e I. eapply entry_ok_ext; [|apply EX; auto]. intros x J. split; [|auto]. assert (J' := ent_in _ _ _ I J). apply X47. specialize (OB x). rewrite occ_in in J'.
      cbn [In]. intros [<-|[<-|[<-|[]]]]; rewrite Nat.eqb_refl in OB; cbn [Nat.b2n] in OB; lia.
    + constructor; [|constructor]. split; [exact O7|]. split; [exact CK|]. cbn [n_pair n_key n_val]. eapply obj_ext; [discriminate|apply X47|exact P4]. cbn [In]. intros [Q|[Q|[Q|[]]]]; congruence.
  - intros x. cbn [iblocks]. rewrite flat_map_app. cbn [flat_map nblocks n_key n_pair app]. repeat rewrite ?occ_app, ?occ_cons, ?occ_nil. lia.
  - intros x [].
Qed.
Lemma set_old_ok h c g1 i m ks ts es1 e es2 g2 cnt lost r : hold h c (g1 ++ (i, PObj m ks ts (es1 ++ e :: es2)) :: g2) cnt lost [] ->
  known (er (g1 ++ (i, PObj m ks ts (es1 ++ e :: es2)) :: g2)) r -> known (er (g1 ++ (i, PObj m ks ts (es1 ++ e :: es2)) :: g2)) (n_val e) ->
  (forall j, r = RAt j -> (Z.of_nat (S (cnt j)) < 65536)%Z) -> (forall j, n_val e = RAt j -> 0 < cnt j) -> (forall j, r = RAt j -> n_val e <> r) ->
  exists h' c', object_set st place deep mk_str h c (VPtr (at_ i)) (n_name e) (pt r) = Ok (h', c') /\
    hold h' c' (g1 ++ (i, PObj m ks ts (es1 ++ Ent (n_name e) (n_key e) (n_pair e) r :: es2)) :: g2) (drop (bump cnt r) (n_val e)) lost [].
Proof.
  intros H K KW B BW NEQ. set (es := es1 ++ e :: es2) in *. set (g := g1 ++ (i, PObj m ks ts es) :: g2) in *. set (w := n_val e) in *.
  destruct (hold_object _ _ _ _ _ _ i m ks ts es H) as (TO & IN); [apply in_app_iff; right; left; auto|]. destruct IN as (M & PM & _).
  unfold object_set. rewrite TO. cbn [bind not_null].
  destruct (set_start h c g1 i _ g2 cnt lost (n_name e) r H K B) as (h1 & c1 & h2 & h4 & k & t & -> & E4 & W1 & X01 & H2 & W4 & N4 & X4 & T4 & P4 & K4 & CK & TT). fold g in H2, X4, T4.
  cbn [bind]. unfold add_to_object. cbn [target bind]. unfold map_add.
  assert (M1 : obj h1 m (KMap DEL_RC DEL_RC) (VPtr ks :: map VPtr ts) 1) by (eapply obj_ext; [discriminate|apply X01; left; auto|exact M]).
  destruct (obj_state st h1 m _ _ _ W1 M1) as (b & G & BB & S); [discriminate|]. unfold get at 1. rewrite G. cbn [bind of_option]. rewrite BB, S. clear b G BB S. rewrite E4. cbn [bind].
  destruct (hold_object _ _ _ _ _ _ i m ks ts es H2) as (_ & (M2 & _ & S2 & NM & F2)); [apply in_app_iff; right; left; auto|].
  assert (OB : forall z, occ z (gblocks (g1 ++ g2)) + (Nat.b2n (z =? at_ i) + (Nat.b2n (z =? m) + (Nat.b2n (z =? ks) + (occ z (flat_map nblocks (es1 ++ es2)) + (Nat.b2n (z =? n_key e) + Nat.b2n (z =? n_pair e)))))) + occ z lost + (Nat.b2n (z =? t) + Nat.b2n (z =? k)) <= 1).
  { intros z. assert (Q := hold_occ _ _ _ _ _ _ _ _ _ H2 z). cbn [iblocks] in Q. unfold es in Q. rewrite !occ_cons, flat_mid in Q. unfold nblocks at 2 in Q. rewrite !occ_cons, !occ_nil in Q. lia. }
  assert (AP : forall x, In x (m :: ks :: flat_map nblocks es ++ [t; k]) -> ~ In x (tagl g)).
  { intros x I. eapply apart; [exact H2|]. cbn [iblocks app In]. cbn [In] in I. rewrite !in_app_iff in *. tauto. }
  assert (IE : In e es) by (apply in_app_iff; right; left; auto).
  assert (APk : ~ In (n_key e) (tagl g)) by (apply AP; right; right; apply in_app_iff; left; eapply ent_in; [exact IE|left; auto]).
  assert (APp : ~ In (n_pair e) (tagl g)) by (apply AP; right; right; apply in_app_iff; left; eapply ent_in; [exact IE|right; left; auto]).
  assert (APt : ~ In t (tagl g)) by (apply AP; right; right; apply in_app_iff; right; left; auto).
  assert (APx : ~ In k (tagl g)) by (apply AP; right; right; apply in_app_iff; right; right; left; auto).
  assert (DF : k <> m /\ k <> ks /\ k <> t /\ k <> n_key e /\ k <> n_pair e /\ n_pair e <> m /\ n_pair e <> ks /\ n_pair e <> t /\ n_pair e <> n_key e /\ t <> m /\ t <> ks /\ t <> n_key e).
  { assert (Q1 := OB k). assert (Q2 := OB (n_pair e)). assert (Q3 := OB t). rewrite Nat.eqb_refl in Q1, Q2, Q3. cbn [Nat.b2n] in Q1, Q2, Q3.
    repeat split; intros Q; rewrite Q, ?Nat.eqb_refl in *; cbn [Nat.b2n] in *; lia. }
  destruct DF as (D1 & D2 & D3 & D4 & D5 & D6 & D7 & D8 & D9 & D10 & D11 & D12).
  assert (M4 : obj h4 m (KMap DEL_RC DEL_RC) (VPtr ks :: map VPtr ts) 1). { eapply obj_ext; [discriminate|apply X4; intros [Q|Q]; [auto|]|exact M2]. apply (AP m) in Q; [auto|left; auto]. }
  rewrite (get_obj_of _ _ _ _ _ M4). cbn [bind tl].
  assert (EX : forall e, In e es -> entry_ok ss at_ c1 h4 2 e).
  { intros e' I. rewrite Forall_forall in F2. eapply entry_ok_ext; [|apply F2; auto]. intros x J. split; [|auto]. assert (J' := ent_in _ _ _ I J). apply X4. intros [<-|Q].
    - specialize (OB k). unfold es in J'. rewrite occ_in, flat_mid in J'. unfold nblocks at 2 in J'. rewrite !occ_cons, occ_nil in J'. rewrite Nat.eqb_refl in OB. cbn [Nat.b2n] in OB. lia.
    - apply AP in Q; [auto|]. right. right. apply in_app_iff. auto. }
  destruct (perm_map_inv _ _ _ PM) as (es' & PE & ET). replace (map VPtr ts) with (map (fun e => VPtr (e_pair e)) (map lay es')) by (rewrite ET; apply lay_pairs).
  destruct (find_view h4 c1 k (n_name e) (map lay es') CK) as [(NI & _)|(e' & IE' & EN & ->)].
  { rewrite Forall_forall. intros e' I. apply in_map_iff in I as (e0 & <- & I). destruct (EX e0) as (_ & A & C); [eapply Permutation_in; eauto|]. split; [eexists; exact C|exact A]. }
  { destruct NI. rewrite lay_names. apply in_map. eapply Permutation_in; [apply Permutation_sym; exact PE|auto]. }
  apply in_map_iff in IE' as (e0 & <- & IE'). change (e_name (lay e0)) with (n_name e0) in EN. change (e_pair (lay e0)) with (n_pair e0).
  assert (e0 = e). { assert (I0 : In e0 es) by (eapply Permutation_in; eauto). clear -NM I0 EN IE. unfold es in *. rewrite map_app in NM. cbn [map] in NM. apply NoDup_remove_2 in NM. rewrite <- map_app in NM.
    rewrite in_app_iff in I0. cbn [In] in I0. destruct I0 as [I0|[I0|I0]]; [|auto|]; destruct NM; rewrite <- EN; apply in_map; apply in_app_iff; auto. }
  subst e0. clear EN IE'. cbn [bind target]. destruct (EX e IE) as (KE & CE & PE4). rewrite (get_obj_of _ _ _ _ _ PE4). cbn [bind nth_error of_option update]. fold w in PE4 |- *.
  assert (STEP : exists h6, (if val_eqb (pt r) (pt w) then Ok h4 else let* h := put_vals h4 (n_pair e) (KProd [DEL_RC; DEL_RC]) [VPtr (n_key e); pt r] in decr_indegree h DEL_RC (pt w)) = Ok h6 /\
    W h6 /\ h_next h6 = h_next h4 /\ obj h6 (n_pair e) (KProd [DEL_RC; DEL_RC]) [VPtr (n_key e); pt r] 0 /\ tags h6 g (drop (bump cnt r) w) /\ (forall x, ~ In x (n_pair e :: tagl g) -> look h6 x = look h4 x)).
  { destruct (val_eqb (pt r) (pt w)) eqn:EV.
    - assert (EV' : pt r = pt w). { destruct (pt r), (pt w); cbn in EV; try discriminate; auto. apply Nat.eqb_eq in EV. congruence. }
      destruct (ptr_eq _ _ _ _ _ _ r w H K KW EV') as [(j & -> & ->)|(IR & IW)]; [destruct (NEQ j eq_refl); auto|].
      exists h4. split; [auto|]. split; [auto|]. split; [auto|]. split; [rewrite EV'; exact PE4|]. split; [|auto]. intros j n I. unfold drop. rewrite IW, occ_nil, Nat.sub_0_r. auto.
    - destruct (put_view st h4 (n_pair e) _ _ _ (KProd [DEL_RC; DEL_RC]) [VPtr (n_key e); pt r] W4 PE4) as (h5 & -> & W5 & N5 & O5 & X5); [discriminate..|]. cbn [bind].
      assert (SO5 : static_ok h5 ss).
      { eapply hold_static2; [exact H2|exact TT|]. fold g. intros x I. cbn [iblocks] in I. rewrite !in_app_iff in I. cbn [In] in I. rewrite X5, X4; [auto|cbn [In]; tauto|].
        intros ->. apply I. left. right. right. eapply ent_in; [exact IE|right; left; auto]. }
      assert (T5 : tags h5 g (bump cnt r)). { eapply tags_ext; [|exact T4]. intros x I. apply X5. intros ->. auto. }
      destruct (tags_dec h5 g (bump cnt r) w W5 SO5 T5 (fun a b => hold_inj _ _ _ _ _ _ a b H2) KW) as (h6 & E6 & W6 & N6 & T6 & X6).
      { intros j EJ. specialize (BW j EJ). unfold bump. lia. }
      exists h6. split; [auto|]. split; [auto|]. split; [congruence|]. split; [eapply obj_ext; [discriminate|apply X6; auto|exact O5]|]. split; [auto|].
      intros x I. cbn [In] in I. rewrite X6, X5; [auto|intros ->; tauto|tauto]. }
  destruct STEP as (h6 & -> & W6 & N6 & P6 & T6 & X6). cbn [bind].
  destruct (drop_view st h6 t k (pt r) deep W6) as (h7 & h8 & -> & E8 & G8).
  { eapply obj_ext; [discriminate|apply X6; intros [Q|Q]; auto|exact P4]. }
  { eapply obj_ext; [discriminate|apply X6; intros [Q|Q]; auto|exact K4]. }
  { auto. }
  { auto. }
  cbn [bind]. rewrite E8. cbn [bind]. destruct G8 as (W8 & N8 & G8 & X8).
  exists h8, c1. split; [auto|]. rewrite <- (app_nil_r lost).
  assert (X48 : forall x, ~ In x (n_pair e :: t :: k :: tagl g) -> look h8 x = look h4 x). { intros x I. cbn [In] in I. rewrite X8, X6; [auto|cbn [In]; tauto|cbn [In]; tauto]. }
  apply (hold_step h2 c1 g1 i (PObj m ks ts es) g2 cnt lost [t; k] h8 _ (drop (bump cnt r) w) [] [] [t; k]); auto; try congruence.
  - intros x I. fold g in I. cbn [iblocks app In] in I. rewrite !in_app_iff in I. cbn [In] in I. rewrite X48, X4; [auto|cbn [In]; tauto|cbn [In]]. intros [Q|Q]; [|tauto].
    subst x. apply I. right. right. left. eapply ent_in; [exact IE|right; left; auto].
  - fold g. eapply tags_ext; [|exact T6]. intros x I. apply X8. intros [<-|[<-|[]]]; auto.
  - assert (X28 : forall x, 0 < Nat.b2n (x =? m) + (Nat.b2n (x =? ks) + (occ x (flat_map nblocks (es1 ++ es2)) + Nat.b2n (x =? n_key e))) -> look h8 x = look h2 x).
    { intros x P. assert (NX : ~ In x [n_pair e; t; k]). { specialize (OB x). cbn [In]. intros [<-|[<-|[<-|[]]]]; rewrite Nat.eqb_refl in OB; cbn [Nat.b2n] in OB; lia. }
      assert (NTG : ~ In x (tagl g)). { apply AP. rewrite occ_in, !occ_cons, occ_app. unfold es. rewrite flat_mid. unfold nblocks at 2. rewrite !occ_cons. lia. }
      cbn [In] in NX. rewrite X48, X4; [auto|cbn [In]; tauto|cbn [In]; tauto]. }
    cbn [JsonShareDel.inner]. split; [eapply obj_ext; [discriminate|apply X28; rewrite Nat.eqb_refl; cbn [Nat.b2n]; lia|exact M2]|].
    split; [rewrite PM; unfold es; rewrite !map_app; auto|]. split; [eapply obj_ext; [discriminate|apply X28; rewrite Nat.eqb_refl; cbn [Nat.b2n]; lia|]; unfold es in S2; rewrite map_app in *; exact S2|].
    split; [unfold es in NM; rewrite map_app in *; exact NM|].
    assert (FR : forall e', In e' (es1 ++ es2) -> entry_ok ss at_ c1 h8 2 e').
    { intros e' I. rewrite Forall_forall in F2. eapply entry_ok_ext; [|apply F2; unfold es; rewrite in_app_iff in *; cbn [In]; tauto]. intros x J. split; [|auto]. apply X28. assert (J' := ent_in _ _ _ I J). rewrite occ_in in J'. lia. }
    apply Forall_app. split; [|constructor].
    + rewrite Forall_forall. intros e' I. apply FR. apply in_app_iff. auto.
    + rewrite Forall_forall in F2. destruct (F2 e IE) as (A & C & _). split; [cbn [n_key]; eapply obj_ext; [discriminate|apply X28; rewrite Nat.eqb_refl; cbn [Nat.b2n]; lia|exact A]|]. split; [exact C|].
      cbn [n_key n_pair n_val]. eapply obj_ext; [discriminate|apply X8|exact P6]. cbn [In]. intros [Q|[Q|[]]]; congruence.
    + rewrite Forall_forall. intros e' I. apply FR. apply in_app_iff. auto.
  - intros x. cbn [iblocks]. unfold es. repeat rewrite ?occ_app, ?occ_cons, ?occ_nil, ?flat_mid. unfold nblocks at 2 4. cbn [n_key n_pair]. lia.
Qed.
Lemma filter_out t ts : ~ In t ts -> filter (fun x => negb (val_eqb x (VPtr t))) (map VPtr ts) = map VPtr ts.
Proof.
  induction ts as [|x r IH]; intros NI; cbn [map filter val_eqb]; [auto|]. destruct (x =? t) eqn:E; [apply Nat.eqb_eq in E; destruct NI; left; auto|]. cbn [negb]. rewrite IH; [auto|].
  intros I. apply NI. right. auto.
Qed.
Lemma filter_ptrs t ts : exists ts', filter (fun x => negb (val_eqb x (VPtr t))) (map VPtr ts) = map VPtr ts' /\ ts' = filter (fun x => negb (x =? t)) ts.
Proof.
  eexists. split; [|reflexivity]. induction ts as [|x r IH]; cbn [map filter val_eqb]; [auto|]. destruct (x =? t); cbn [negb map]; [auto|]. rewrite IH. auto.
Qed.
Lemma filter_none (t : nat) ts : ~ In t ts -> filter (fun x => negb (x =? t)) ts = ts.
Proof.
  induction ts as [|x r IH]; intros NI; cbn [filter]; [auto|]. destruct (x =? t) eqn:E; [apply Nat.eqb_eq in E; destruct NI; left; auto|]. cbn [negb]. rewrite IH; [auto|].
  intros I. apply NI. right. auto.
Qed.
Lemma inner_find h c m ks ts es key : inner h c (PObj m ks ts es) ->
  Forall (fun e => named c key VForeign (VPtr (e_key e)) = text_eqb key (e_name e)) (map lay es) /\
  forall e, In e es -> n_name e = key -> find_entry (named c key) h VForeign (map VPtr ts) = Ok (Some (VPtr (n_pair e))).
Proof.
  intros (_ & PM & _ & NM & F). rewrite Forall_forall in F.
  assert (HK : forall es', incl es' es -> Forall (fun e => named c key VForeign (VPtr (e_key e)) = text_eqb key (e_name e)) (map lay es')).
  { intros es' IC. rewrite Forall_forall. intros e I. apply in_map_iff in I as (e0 & <- & I). destruct (F e0 (IC _ I)) as (_ & C & _). unfold e_key, e_name, lay. cbn [fst snd named]. rewrite C. auto. }
  split; [apply HK; intros x; auto|]. intros e IE EN. destruct (perm_map_inv _ _ _ PM) as (es' & PE & ->). rewrite <- lay_pairs.
  destruct (find_keq h (named c key) VForeign key (map lay es')) as [(NI & _)|(e' & IE' & EN' & ->)].
  - apply HK. intros x. apply Permutation_in. auto.
  - rewrite Forall_forall. intros e' I. apply in_map_iff in I as (e0 & <- & I). destruct (F e0) as (_ & _ & C); [eapply Permutation_in; eauto|]. eexists. exact C.
  - destruct NI. rewrite lay_names, <- EN. apply in_map. eapply Permutation_in; [apply Permutation_sym; exact PE|auto].
  - apply in_map_iff in IE' as (e0 & <- & IE'). change (e_name (lay e0)) with (n_name e0) in EN'. change (e_pair (lay e0)) with (n_pair e0).
    assert (e0 = e) as ->; [|auto]. assert (I0 : In e0 es) by (eapply Permutation_in; eauto). apply in_split in IE as (es1 & es2 & ->). rewrite map_app in NM. cbn [map] in NM. apply NoDup_remove_2 in NM.
    rewrite <- map_app in NM. rewrite in_app_iff in I0. cbn [In] in I0. destruct I0 as [I0|[I0|I0]]; [|auto|]; destruct NM; rewrite EN, <- EN'; apply in_map; apply in_app_iff; auto.
Qed.
Lemma get_ok h c g cnt lost E i m ks ts es e : hold h c g cnt lost E -> In (i, PObj m ks ts es) g -> In e es -> object_get h c (VPtr (at_ i)) (n_name e) = Ok (pt (n_val e)).
Proof.
  intros H I IE. destruct (hold_object _ _ _ _ _ _ i m ks ts es H I) as (TO & IN). unfold object_get. rewrite TO. cbn [bind not_null target].
  destruct (inner_find _ _ _ _ _ _ (n_name e) IN) as (_ & FE). destruct IN as (M & _ & _ & _ & F). rewrite (get_obj_of _ _ _ _ _ M). cbn [bind tl]. rewrite (FE e IE eq_refl). cbn [bind].
  rewrite Forall_forall in F. destruct (F e IE) as (_ & _ & T). unfold tuple_get. cbn [target bind]. rewrite (get_obj_of _ _ _ _ _ T). reflexivity.
Qed.
Lemma index_ok h c g cnt lost E i l rs k r : hold h c g cnt lost E -> In (i, PArr l rs) g -> nth_error rs k = Some r -> array_get h (VPtr (at_ i)) k = Ok (pt r).
Proof.
  intros H I N. destruct (hold_array _ _ _ _ _ _ i l rs H I) as (TA & O). unfold array_get. rewrite TA. cbn [bind not_null target]. rewrite (get_obj_of _ _ _ _ _ O). cbn [bind].
  f_equal. apply nth_error_nth. apply map_nth_error. auto.
Qed.
Lemma remove_ok h c g1 i m ks ts es1 e es2 g2 cnt lost : hold h c (g1 ++ (i, PObj m ks ts (es1 ++ e :: es2)) :: g2) cnt lost [] ->
  known (er (g1 ++ (i, PObj m ks ts (es1 ++ e :: es2)) :: g2)) (n_val e) -> (forall j, n_val e = RAt j -> 0 < cnt j) ->
  exists h' ts', object_remove deep h c (VPtr (at_ i)) (n_name e) = Ok h' /\
    hold h' c (g1 ++ (i, PObj m ks ts' (es1 ++ es2)) :: g2) (drop cnt (n_val e)) (lost ++ [n_key e]) [].
Proof.
  intros H KW BW. set (es := es1 ++ e :: es2) in *. set (g := g1 ++ (i, PObj m ks ts es) :: g2) in *. set (w := n_val e) in *.
  assert (Wh := i_W _ _ _ _ _ _ (o_inv _ _ _ _ _ _ H)).
  destruct (hold_object _ _ _ _ _ _ i m ks ts es H) as (TO & IN); [apply in_app_iff; right; left; auto|].
  unfold object_remove. rewrite TO. cbn [bind not_null target].
  destruct (inner_find _ _ _ _ _ _ (n_name e) IN) as (HK & FE). destruct IN as (M & PM & SK & NM & F). rewrite Forall_forall in F.
  assert (IE : In e es) by (apply in_app_iff; right; left; auto). specialize (FE e IE eq_refl).
  assert (OB : forall z, occ z (gblocks (g1 ++ g2)) + (Nat.b2n (z =? at_ i) + (Nat.b2n (z =? m) + (Nat.b2n (z =? ks) + (occ z (flat_map nblocks (es1 ++ es2)) + (Nat.b2n (z =? n_key e) + Nat.b2n (z =? n_pair e)))))) + occ z lost <= 1).
  { intros z. assert (Q := hold_occ _ _ _ _ _ _ _ _ _ H z). cbn [iblocks] in Q. unfold es in Q. rewrite !occ_cons, flat_mid in Q. unfold nblocks at 2 in Q. rewrite !occ_cons, !occ_nil in Q. lia. }
  assert (AP : forall x, In x (m :: ks :: flat_map nblocks es) -> ~ In x (tagl g)).
  { intros x I. eapply apart; [exact H|]. cbn [iblocks app In]. cbn [In] in I. rewrite !in_app_iff in *. tauto. }
  assert (APk : ~ In (n_key e) (tagl g)) by (apply AP; right; right; eapply ent_in; [exact IE|left; auto]).
  assert (APp : ~ In (n_pair e) (tagl g)) by (apply AP; right; right; eapply ent_in; [exact IE|right; left; auto]).
  assert (DF : m <> n_key e /\ m <> n_pair e /\ m <> ks /\ n_key e <> n_pair e /\ n_key e <> ks /\ n_pair e <> ks).
  { assert (Q1 := OB (n_key e)). assert (Q2 := OB (n_pair e)). assert (Q3 := OB m). rewrite Nat.eqb_refl in Q1, Q2, Q3. cbn [Nat.b2n] in Q1, Q2, Q3.
    repeat split; intros Q; rewrite Q, ?Nat.eqb_refl in *; cbn [Nat.b2n] in *; lia. }
  destruct DF as (D1 & D2 & D3 & D4 & D5 & D6).
  destruct (filter_ptrs (n_pair e) ts) as (ts' & EF & ET).
  destruct (put_view st h m _ _ _ (KMap DEL_RC DEL_RC) (VPtr ks :: map VPtr ts') Wh M) as (h1 & E1 & W1 & N1 & O1 & X1); [discriminate..|].
  destruct (F e IE) as (K & CE & T). fold w in T.
  assert (T1 : obj h1 (n_pair e) (KProd [DEL_RC; DEL_RC]) [VPtr (n_key e); pt w] 0) by (eapply obj_ext; [discriminate|apply X1; auto|exact T]).
  assert (K1 : obj h1 (n_key e) KLeaf [] 2) by (eapply obj_ext; [discriminate|apply X1; auto|exact K]).
  destruct (decr_view st h1 _ _ _ _ W1 K1) as (h2 & E2 & W2 & N2 & O2 & X2); [discriminate|]. change (if (2 =? 0)%Z then 2%Z else (2 - 1)%Z) with 1%Z in O2.
  assert (SO2 : static_ok h2 ss).
  { eapply hold_static2; [exact H|constructor|]. intros x I. cbn [iblocks app In] in I. rewrite in_app_iff in I. rewrite X2, X1; [auto|intros ->; tauto|].
    intros ->. apply I. right. right. left. eapply ent_in; [exact IE|left; auto]. }
  assert (T2 : tags h2 g cnt).
  { eapply tags_ext; [|exact (g_tag _ _ _ _ _ _ (o_good _ _ _ _ _ _ H))]. intros x I. rewrite X2, X1; [auto| |]; intros ->; [apply AP in I; [auto|left; auto]|auto]. }
  destruct (tags_dec h2 g cnt w W2 SO2 T2 (fun a b => hold_inj _ _ _ _ _ _ a b H) KW BW) as (h3 & E3 & W3 & N3 & T3 & X3).
  assert (P3 : obj h3 (n_pair e) (KProd [DEL_RC; DEL_RC]) [VPtr (n_key e); pt w] 0) by (eapply obj_ext; [discriminate|rewrite X3, X2 by auto; reflexivity|exact T1]).
  destruct (policy_view st h3 _ _ _ _ 0 NOOP W3 P3) as (h4 & E4 & W4 & N4 & P4 & X4). cbn [update] in P4.
  destruct (policy_view st h4 _ _ _ _ 1 NOOP W4 P4) as (h5 & E5 & W5 & N5 & P5 & X5). cbn [update] in P5.
  destruct (finish_view st h5 (n_pair e) W5) as (h6 & E6 & W6 & N6 & G6 & X6); [eapply thing_obj; [exact P5|discriminate]|].
  assert (E6' : cee_del deep h5 (VPtr (n_pair e)) = Ok h6).
  { destruct deep as [|f]; [lia|]. unfold cee_del. cbn [del_e]. rewrite (trace_step f h5 _ _ _ _ P5) by discriminate. exact E6. }
  assert (X26 : forall x, x <> n_pair e -> ~ In x (tagl g) -> look h6 x = look h2 x).
  { intros x A C. rewrite X6 by (intros [Q|[]]; auto). rewrite X5, X4, X3 by auto. reflexivity. }
  assert (APs : ~ In ks (tagl g)) by (apply AP; right; left; auto). assert (APm : ~ In m (tagl g)) by (apply AP; left; auto).
  assert (S6 : obj h6 ks (KList DEL_RC) (map (fun e => VPtr (n_key e)) es) 0). { eapply obj_ext; [discriminate| |exact SK]. rewrite X26, X2, X1; auto. }
  assert (K6 : obj h6 (n_key e) KLeaf [] 1). { eapply obj_ext; [discriminate|apply X26; auto|exact O2]. }
  destruct (put_view st h6 ks _ _ _ (KList DEL_RC) (map (fun e => VPtr (n_key e)) (es1 ++ es2)) W6 S6) as (h7 & E7 & W7 & N7 & S7 & X7); [discriminate..|].
  assert (K7 : obj h7 (n_key e) KLeaf [] 1) by (eapply obj_ext; [discriminate|apply X7; auto|exact K6]).
  destruct (decr_view st h7 _ _ _ _ W7 K7) as (h8 & E8 & W8 & N8 & O8 & X8); [discriminate|]. change (if (1 =? 0)%Z then 1%Z else (1 - 1)%Z) with 0%Z in O8.
  assert (ED : key_delete (named c (n_name e)) h6 ks VForeign = Ok h8).
  { unfold key_delete. rewrite (get_obj_of _ _ _ _ _ S6). cbn [bind]. rewrite <- lay_keys. unfold es in HK |- *. rewrite map_app in HK |- *. cbn [map] in HK |- *.
    rewrite (delete_at deep DP (named c (n_name e)) VForeign (n_name e)); [|..|reflexivity|exact HK].
    - cbn [Nat.add]. unfold list_remove. rewrite (get_obj_of _ _ _ _ _ S6). cbn [bind]. unfold es. rewrite map_app. cbn [map]. rewrite map_length.
      replace (length es1) with (length (map (fun e => VPtr (n_key e)) es1)) by apply map_length.
      rewrite nth_error_app2, Nat.sub_diag by lia. cbn [nth_error]. rewrite firstn_app, firstn_all, Nat.sub_diag. cbn [firstn]. rewrite app_nil_r.
      rewrite skipn_app, skipn_all2 by lia. replace (S (length (map (fun e => VPtr (n_key e)) es1)) - length (map (fun e => VPtr (n_key e)) es1)) with 1 by lia. cbn [skipn app].
      rewrite map_app in E7. rewrite E7. cbn [bind]. exact E8.
    - unfold es in NM. rewrite map_app in NM. cbn [map] in NM. apply NoDup_remove_2 in NM. intros I. apply NM. apply in_app_iff. left. rewrite lay_names in I. exact I. }
  exists h8, ts'. split.
  { unfold map_remove. destruct M as (b & GB & BB & _). unfold get. rewrite GB. cbn [of_option bind]. rewrite BB. unfold bind at 2. rewrite FE. rewrite EF, E1. cbn [bind].
    unfold tuple_get. cbn [target bind]. rewrite (get_obj_of _ _ _ _ _ T1). cbn [bind of_option nth_error]. rewrite E2. cbn [bind]. rewrite E3. cbn [bind]. rewrite E4. cbn [bind]. rewrite E5. cbn [bind].
    rewrite E6'. cbn [bind]. rewrite ED. reflexivity. }
  assert (X08 : forall x, ~ In x (m :: ks :: n_key e :: n_pair e :: tagl g) -> look h8 x = look h x).
  { intros x I. cbn [In] in I. rewrite X8, X7, X26, X2, X1; try tauto; intros ->; tauto. }
  apply (hold_step h c g1 i (PObj m ks ts es) g2 cnt lost [] h8 _ (drop cnt w) [n_key e] [] [n_pair e]); auto; try congruence.
  - intros x I. cbn [iblocks app In] in I. rewrite in_app_iff in I. apply X08. fold g in I. cbn [In]. intros [<-|[<-|[<-|[<-|Q]]]]; [tauto|tauto|apply I|apply I|tauto]; right; right; left; (eapply ent_in; [exact IE|]); cbn [nblocks In]; auto.
  - fold g. eapply tags_ext; [|exact T3]. intros x I. assert (NX : x <> n_key e /\ x <> ks /\ x <> n_pair e) by (repeat split; intros ->; auto). destruct NX as (A1 & A2 & A3).
    rewrite X8, X7 by auto. rewrite X6 by (intros [Q|[]]; auto). rewrite X5, X4 by auto. reflexivity.
  - assert (FR : forall e', In e' (es1 ++ es2) -> entry_ok ss at_ c h8 2 e').
    { intros e' I. eapply entry_ok_ext; [|apply F; unfold es; rewrite in_app_iff in *; cbn [In]; tauto]. intros x J. split; [|auto]. apply X08. assert (J' := ent_in _ _ _ I J).
      assert (NTG : ~ In x (tagl g)). { apply AP. right. right. rewrite occ_in in *. unfold es. rewrite flat_mid. lia. }
      specialize (OB x). rewrite occ_in in J'. cbn [In]. intros [<-|[<-|[<-|[<-|Q]]]]; [rewrite Nat.eqb_refl in OB; cbn [Nat.b2n] in OB; lia..|auto]. }
    cbn [JsonShareDel.inner]. split; [eapply obj_ext; [discriminate| |exact O1]; rewrite X8, X7, X26, X2; auto|]. split; [|split; [|split]].
    + rewrite ET. eapply perm_trans; [apply perm_filter; exact PM|]. unfold es. rewrite !map_app, filter_app. cbn [map filter]. rewrite Nat.eqb_refl. cbn [negb].
      assert (Q : forall l x, In x (map n_pair l) -> In x (flat_map nblocks l)). { intros l x I. apply in_map_iff in I as (e' & <- & I). eapply ent_in; [exact I|right; left; auto]. }
      specialize (OB (n_pair e)). rewrite flat_map_app, occ_app, Nat.eqb_refl in OB. cbn [Nat.b2n] in OB. rewrite !filter_none; auto; intros I; apply Q in I; rewrite occ_in in I; lia.
    + eapply obj_ext; [discriminate|apply X8; auto|exact S7].
    + unfold es in NM. rewrite map_app in *. cbn [map] in NM. apply NoDup_remove_1 in NM. exact NM.
    + rewrite Forall_forall. exact FR.
  - intros x. cbn [iblocks]. unfold es. repeat rewrite ?occ_app, ?occ_cons, ?occ_nil, ?flat_mid. unfold nblocks at 3. repeat rewrite ?occ_app, ?occ_cons, ?occ_nil. lia.
  - intros x [<-|[]]. rewrite X8, X7 by auto. apply G6. left. auto.
Qed.

(** * Deleting *)
Lemma delete_ok h c g1 i n g2 lost f : hold h c (g1 ++ (i, n) :: g2) (places (er (g1 ++ (i, n) :: g2))) lost [] -> closed (g1 ++ (i, n) :: g2) [] ->
  places (er (g1 ++ (i, n) :: g2)) i = 0 -> 3 * length (g1 ++ (i, n) :: g2) + 1 <= f ->
  exists h' g', cee_del f h (VPtr (at_ i)) = Ok h' /\ hold h' c g' (places (er g')) lost [] /\ closed g' [] /\
    forall D, (forall x, In x D <-> falls (er (g1 ++ (i, n) :: g2)) i x) -> er g' = gone_from D (er (g1 ++ (i, n) :: g2)).
Proof.
  intros H CL P0 LE. pose proof H as [IV G LO]. assert (SO := hold_static _ _ _ _ _ _ H).
  destruct (del_root st ss at_ c f h g1 i n g2 (i_W _ _ _ _ _ _ IV) SO G CL P0 LE) as (h' & g' & E & [Q1 Q2 Q3 Q4 Q5 Q6 Q7 Q8] & DS).
  exists h', g'. split; [auto|]. assert (G' : good h' c g' (places (er g'))). { eapply good_ext; [auto| |exact Q3]. intros j _. unfold cnts. rewrite occ_nil. lia. }
  rewrite app_nil_r in *. split; [|split; [auto|]].
  - assert (ONE := i_one _ _ _ _ _ _ IV). constructor; auto.
    + rewrite app_nil_r. eapply (inv_move st deep h0 c0 DP) with (T := gblocks (g1 ++ (i, n) :: g2)); [exact IV|exact Q1|lia|auto| | | |].
      * intros x I. left. apply in_app_iff. auto.
      * intros x. rewrite occ_app. specialize (ONE x). rewrite occ_app in ONE. assert (ND := proj1 (nodup_occ _) (g_nd _ _ _ _ _ _ G') x).
        destruct (occ x (gblocks g')) eqn:EO; [lia|]. assert (I : In x (gblocks g')) by (apply occ_in; lia). apply Q6 in I. rewrite occ_in in I. lia.
      * intros x I. rewrite in_app_iff. destruct (in_dec Nat.eq_dec x (gblocks g')) as [J|J].
        -- split; [auto|]. intros _. apply thing_live. pose proof (good_things _ _ _ _ _ _ G') as TH. rewrite Forall_forall in TH. auto.
        -- rewrite (Q8 x I J). split; [congruence|]. intros [K|K]; [contradiction|]. specialize (ONE x). rewrite occ_app in ONE. rewrite occ_in in I, K. lia.
      * intros x I. rewrite !in_app_iff. split; [tauto|]. intros [J|J]; [apply Q6 in J; auto|auto].
    + rewrite Forall_forall in *. intros k K. eapply obj_ext; [discriminate|apply Q7|apply LO; auto]. intros I. specialize (ONE k). rewrite occ_app in ONE. rewrite occ_in in I, K. lia.
  - intros D HD. eapply dsteps_falls; [|rewrite er_mid; reflexivity|exact P0|exact DS|exact HD]. rewrite er_ids. apply G.
Qed.
Lemma delete_const_ok h r f : static_ok h ss -> (forall a, r <> RAt a) -> 1 <= f -> cee_del f h (pt r) = Ok h.
Proof.
  intros SO NR LE. destruct (static_ref ss at_ r NR) as (a & -> & IA & _). destruct (SO a IA) as (z & b & G & B & _). unfold cee_del. cbn [del_e]. destruct f as [|f]; [lia|]. cbn [trace_del].
  unfold get. rewrite G. cbn [of_option bind]. rewrite B. reflexivity.
Qed.
End At.

(** * Creating *)
Lemma pt_at at_ at' r : (forall i, r = RAt i -> at' i = at_ i) -> pointer ss at' r = pointer ss at_ r.
Proof. destruct r as [|b|i]; cbn [pointer]; auto. Qed.
Lemma gblocks_at at_ at' g : (forall i, In i (map fst g) -> at' i = at_ i) -> gblocks at' g = gblocks at_ g.
Proof.
  induction g as [|(i & n) r IH]; cbn [gblocks flat_map map fst snd]; intros E; [auto|]. fold (gblocks at' r) (gblocks at_ r). rewrite IH, E; auto; [left; auto|]. intros j J. apply E. right. auto.
Qed.
Lemma ids_in r rs i : In r rs -> r = RAt i -> In i (ids rs).
Proof. intros I ->. apply in_flat_map. exists (RAt i). split; [auto|left; auto]. Qed.
Lemma good_at at_ at' h c g cnt : (forall i, In i (map fst g) \/ In i (uses (er g)) -> at' i = at_ i) -> good ss at_ h c g cnt -> good ss at' h c g cnt.
Proof.
  intros E [A B C D]. constructor; auto.
  - intros i n I. specialize (A i n I). assert (EU : forall j, In j (kids (erase n)) -> at' j = at_ j).
    { intros j J. apply E. right. apply in_flat_map. exists (i, erase n). split; [|auto]. apply in_map_iff. exists (i, n). auto. }
    destruct n as [b x|l rs|m ks ts es]; cbn [inner] in *; [auto| |].
    + replace (map (pointer ss at') rs) with (map (pointer ss at_) rs); [auto|]. apply map_ext_in. intros r J. symmetry. apply pt_at. intros j EJ. apply EU. eapply ids_in; eauto.
    + destruct A as (A1 & A2 & A3 & A4 & A5). split; [auto|]. split; [auto|]. split; [auto|]. split; [auto|]. rewrite Forall_forall in *. intros e J. destruct (A5 e J) as (K1 & K2 & K3).
      split; [auto|]. split; [auto|]. rewrite (pt_at at_ at'); [auto|]. intros j EJ. apply EU. cbn [erase]. unfold kids. cbn [held]. rewrite pairs_vals. eapply ids_in; [|exact EJ]. apply in_map. auto.
  - intros i n I. rewrite E; auto. left. apply in_map_iff. exists (i, n). auto.
  - rewrite (gblocks_at at_ at'); auto.
Qed.
Lemma const_ok at_ h c g lost x : hold at_ h c g (places (er g)) lost [] -> match x with JNull | JBool _ => True | _ => False end ->
  exists h' c' r, new_value st ss mk_str h c x = Ok (h', c', pointer ss at_ r) /\ hold at_ h' c' g (places (er g)) lost [] /\ r = match x with JBool b => RBool b | _ => RNull end.
Proof.
  intros H IC. pose proof H as [IV G LO]. assert (SO := hold_static _ _ _ _ _ _ _ H). assert (Wh := i_W _ _ _ _ _ _ IV).
  destruct (new_turns st ss place deep mk_str MK DP h c x Wh SO) as (h' & c' & L & E & T & LD & J); [destruct x; try contradiction; exact I|].
  assert (LC : L = LConst x). { destruct L as [y|a b y|a l es|a m ks es]; cbn [json_of] in J; [congruence| |subst; contradiction..]. cbn [laid] in LD. destruct LD as (_ & _ & _ & BX). subst. destruct x; contradiction. }
  subst L. cbn [blocks] in T. exists h', c', (match x with JBool b => RBool b | _ => RNull end). split; [|split; [|auto]].
  - rewrite E. f_equal. f_equal. destruct x as [| |[]| | | | | | | |]; try contradiction; reflexivity.
  - assert (LT : forall y, In y (gblocks at_ g ++ lost ++ []) -> look h' y = look h y /\ c' y = c y). { intros y Y. apply (t_same _ _ _ _ _ _ _ T); [auto|]. eapply inv_lt; eauto. }
    constructor.
    + eapply inv_turns with (X := gblocks at_ g ++ lost ++ []); [exact IV|exact T|intros y; rewrite occ_nil; lia..].
    + eapply good_ext; [|auto|exact G]. intros y Y. apply LT. apply in_app_iff. auto.
    + rewrite Forall_forall in *. intros k K. eapply obj_ext; [discriminate|apply LT; rewrite !in_app_iff; auto|auto].
Qed.
Lemma new_ok at_ h c g lost x n nx : hold at_ h c g (places (er g)) lost [] -> closed g [] -> (forall i, In i (map fst g) -> i < nx) -> makes x n ->
  exists h' c' at' n', new_value st ss mk_str h c x = Ok (h', c', VPtr (at' nx)) /\ (forall i, i <> nx -> at' i = at_ i) /\ erase n' = n /\
    hold at' h' c' (g ++ [(nx, n')]) (places (er (g ++ [(nx, n')]))) lost [].
Proof.
  intros H CL LTN M. pose proof H as [IV G LO]. assert (SO := hold_static _ _ _ _ _ _ _ H). assert (Wh := i_W _ _ _ _ _ _ IV).
  destruct (new_turns st ss place deep mk_str MK DP h c x Wh SO) as (h' & c' & L & E & T & LD & J); [inversion M as [y BX| |]; [destruct x; try contradiction|..]; exact I|].
  assert (N : exists a n', ptr ss L = VPtr a /\ erase n' = n /\ kids n = [] /\ blocks L = a :: iblocks n' /\ (forall at', inner ss at' h' c' n') /\ obj h' a (KProd [DEL_RC]) [VPtr (top n')] 0).
  { inversion M as [y BX| |]; subst.
    - destruct L as [y|a b y|a l es|a m ks es]; cbn [json_of] in *; [cbn [laid] in LD; destruct LD as [->|[->| ->]]; contradiction| |contradiction..].
      cbn [laid] in LD. destruct LD as (A & B & C & D). exists a, (PBox b y). cbn [erase top iblocks inner]. repeat (split; [auto|]). auto.
    - destruct L as [y|a b y|a l es|a m ks es]; cbn [json_of] in *; [cbn [laid] in LD; subst; destruct LD as [LD|[LD|LD]]; discriminate LD|cbn [laid] in LD; destruct LD as (_ & _ & _ & D); subst; contradiction| |discriminate].
      destruct es; [|discriminate]. apply laid_arr in LD as (A & B & _). exists a, (PArr l []). cbn [erase top iblocks inner map]. repeat (split; [auto|]). auto.
    - destruct L as [y|a b y|a l es|a m ks es]; cbn [json_of] in *; [cbn [laid] in LD; subst; destruct LD as [LD|[LD|LD]]; discriminate LD|cbn [laid] in LD; destruct LD as (_ & _ & _ & D); subst; contradiction|discriminate|].
      destruct es; [|discriminate]. apply laid_obj in LD as (A & (ts & B & P) & C & _). cbn [map] in P. apply Permutation_sym, Permutation_nil in P. subst ts.
      exists a, (PObj m ks [] []). cbn [erase top iblocks inner map flat_map pairs_of]. split; [auto|]. split; [auto|]. split; [auto|]. split; [auto|]. split; [|auto]. intros at'. split; [exact B|].
      split; [constructor|]. split; [exact C|]. split; constructor. }
  destruct N as (a & n' & EP & EN & KN & EB & IN & TG). rewrite EP in E. rewrite EB in T. set (at' := fun i => if i =? nx then a else at_ i).
  assert (A1 : at' nx = a) by (unfold at'; rewrite Nat.eqb_refl; auto). assert (A2 : forall i, i <> nx -> at' i = at_ i) by (intros i NE; unfold at'; apply Nat.eqb_neq in NE; rewrite NE; auto).
  exists h', c', at', n'. split; [rewrite A1; exact E|]. split; [exact A2|]. split; [auto|].
  assert (AG : forall i, In i (map fst g) \/ In i (uses (er g)) -> at' i = at_ i).
  { intros i I. apply A2. assert (Q : In i (map fst g)) by (destruct I as [I|I]; [auto|apply CL; apply in_app_iff; auto]). apply LTN in Q. lia. }
  assert (EG : gblocks at' g = gblocks at_ g) by (apply gblocks_at; auto).
  assert (LT : forall y, In y (gblocks at_ g ++ lost ++ []) -> look h' y = look h y /\ c' y = c y). { intros y Y. apply (t_same _ _ _ _ _ _ _ T); [auto|]. eapply inv_lt; eauto. }
  assert (EA : forall y, occ y (gblocks at' (g ++ [(nx, n')])) = occ y (a :: iblocks n') + occ y (gblocks at_ g)).
  { intros y. rewrite gblocks_mid, app_nil_r, EG, A1. lia. }
  assert (IV' : inv st h0 c0 h' c' (gblocks at' (g ++ [(nx, n')]) ++ lost ++ [])).
  { eapply inv_turns with (X := gblocks at_ g ++ lost ++ []); [exact IV|exact T|intros y; rewrite occ_nil; lia|]. intros y. rewrite !occ_app, EA. lia. }
  constructor; auto.
  - assert (PL : forall j, places (er (g ++ [(nx, n')])) j = places (er g) j). { intros j. rewrite er_mid, places_mid, app_nil_r, EN, KN, occ_nil. lia. }
    assert (NI : ~ In nx (map fst g)) by (intros I; apply LTN in I; lia).
    apply good_mid; rewrite ?app_nil_r; auto.
    + eapply good_ext; [|intros j _; apply PL|eapply good_at; [exact AG|exact G]]. intros y Y. apply LT. apply in_app_iff. left. rewrite EG in Y. auto.
    + rewrite A1, PL. replace (places (er g) nx) with 0; [exact TG|]. symmetry. destruct (places (er g) nx) eqn:EQ; [auto|]. destruct NI. apply CL. apply in_app_iff. left. apply occ_in. rewrite <- places_occ. lia.
    + apply nodup_occ. intros y. assert (Q := i_one _ _ _ _ _ _ IV' y). rewrite occ_app in Q. lia.
  - rewrite Forall_forall in *. intros k K. eapply obj_ext; [discriminate|apply LT; rewrite !in_app_iff; auto|auto].
Qed.
End Ops.
