(** Proofs about merging values (cee-json/value.c:211-259). *)
From Coq Require Import ZArith List Bool Lia Arith Sorting.Permutation Sorting.Sorted.
From Verif Require Import Base ArrayLemmas TsearchModel TsearchProofs SetProofs MapModel MapProofs MapHistory ListModel ListProofs
  Json JsonHeapModel JsonHeapSpec JsonHeapProofs JsonFrame.
Import ListNotations.
Open Scope Z_scope.
Local Arguments Z.add : simpl never.
Local Arguments Z.of_nat : simpl never.
Local Arguments Z.to_nat : simpl never.

Notation cnt := (count_occ Nat.eq_dec).
Lemma cnt_in l c : In c l <-> (0 < cnt l c)%nat.
Proof. rewrite (count_occ_In Nat.eq_dec). lia. Qed.
Lemma cnt_nodup l c : NoDup l -> (cnt l c <= 1)%nat.
Proof. intros N. rewrite (NoDup_count_occ Nat.eq_dec) in N. auto. Qed.
Lemma cnt_cons x l c : cnt (x :: l) c = ((if Nat.eq_dec x c then 1 else 0) + cnt l c)%nat.
Proof. cbn [count_occ]. destruct (Nat.eq_dec x c); lia. Qed.

Lemma store_other h d nd c : c <> d -> nth_error (store h d nd) c = nth_error h c.
Proof. intros. unfold store. rewrite nth_error_update_neq; auto. Qed.
Lemma store_same h d nd n0 : nth_error h d = Some n0 -> nth_error (store h d nd) d = Some nd.
Proof. intros E. unfold store. rewrite nth_error_update_eq; auto. apply nth_error_Some. congruence. Qed.
Lemma store_length h d nd : length (store h d nd) = length h.
Proof. apply update_length. Qed.
Lemma store_leaves h d nd n0 : nth_error h d = Some n0 -> is_leaf n0 = false -> leaves_kept h (store h d nd).
Proof. intros E L c n En Ln. rewrite store_other; [auto|]. intros ->. congruence. Qed.
Lemma leaves_off h h' l : (forall c, In c l -> exists nd, nth_error h c = Some nd /\ is_leaf nd = false) ->
  (forall c, ~ In c l -> nth_error h' c = nth_error h c) -> leaves_kept h h'.
Proof.
  intros C O c n E L. rewrite O; [auto|]. intros I. destruct (C c I) as (nd & E' & L'). congruence.
Qed.

(** What a merge that succeeds leaves behind *)
Definition merge_post (h h' : heap) (jd js : json) (d s : nat) : Prop :=
  length h' = length h /\
  (forall c, ~ In c (containers h jd d) -> nth_error h' c = nth_error h c) /\
  if mergeable jd js then
    exists z, merged jd js z /\ holds h' z d /\
      forall c, (cnt (containers h' z d) c <= cnt (containers h jd d) c + cnt (containers h js s) c)%nat
  else h' = h.

(** * Arrays *)
Lemma merge_arrays h d s dl sl : holds h (JArr dl) d -> holds h (JArr sl) s ->
  NoDup (containers h (JArr dl) d) -> disjoint (containers h (JArr dl) d) (containers h (JArr sl) s) ->
  forall fuel, (length sl < fuel)%nat ->
  exists h' ret, list_iterate (fun h => list_at h s) (fun h e _ => bind (array_append h d e) (fun h => Ok (h, 0))) fuel false h = Ok (h', ret) /\
    merge_post h h' (JArr dl) (JArr sl) d s.
Proof.
  intros Hd Hs N D fuel Lf. apply holds_arr in Hd as (l & xs & E & R & F). apply holds_arr in Hs as (l' & ys & E' & R' & F').
  rewrite (containers_arr h d l xs dl E R) in *. rewrite (containers_arr h s l' ys sl E' R') in *.
  assert (Nds : d <> s) by (intros ->; apply (D s); left; auto).
  unfold list_iterate.
  assert (G : forall done todo fuel h1 i ret l1, ys = done ++ todo -> i = Z.of_nat (length done) -> (length todo < fuel)%nat ->
     nth_error h1 d = Some (NArr l1) -> rep l1 (map Some (xs ++ done)) -> length h1 = length h -> (forall c, c <> d -> nth_error h1 c = nth_error h c) ->
     exists h' ret' l2, iterate_from (option nat) heap (fun h => list_at h s) (fun h e _ => bind (array_append h d e) (fun h => Ok (h, 0))) fuel h1 i ret = Ok (h', ret') /\
       nth_error h' d = Some (NArr l2) /\ rep l2 (map Some (xs ++ ys)) /\ length h' = length h /\ (forall c, c <> d -> nth_error h' c = nth_error h c)).
  { intros done todo. revert done. induction todo as [|y todo IH]; intros done [|fl] h1 i ret l1 Ey Ei Lt Ed R1 Ln O; try (cbn [length] in Lt; lia); cbn [iterate_from].
    - assert (El : list_at h1 s = l') by (unfold list_at; rewrite O, E' by auto; auto). rewrite El.
      assert (Sz : l_size l' = Z.of_nat (length ys)) by (destruct R' as (Sz & _); rewrite map_length in Sz; auto). rewrite Sz.
      rewrite app_nil_r in Ey. subst done. destruct (Z.ltb_spec i (Z.of_nat (length ys))); [lia|].
      exists h1, ret, l1. auto.
    - assert (El : list_at h1 s = l') by (unfold list_at; rewrite O, E' by auto; auto). rewrite El.
      assert (Sz : l_size l' = Z.of_nat (length ys)) by (destruct R' as (Sz & _); rewrite map_length in Sz; auto). rewrite Sz.
      assert (length ys = length done + S (length todo))%nat by (rewrite Ey, app_length; auto).
      destruct (Z.ltb_spec i (Z.of_nat (length ys))); [|lia].
      rewrite (rep_read l' (map Some ys) i (Some y) R'); [|rewrite nth_error_map, Ey, nth_error_app2 by lia; replace (_ - _)%nat with 0%nat by lia; auto|lia].
      cbn [bind]. unfold array_append. rewrite (array_at_ok h1 d l1 Ed). cbn [bind].
      destruct (append_rep l1 _ (Some y) R1) as (l2 & Ea & R2). rewrite Ea. cbn [bind]. change (0 =? 0) with true. cbn iota.
      apply (IH (done ++ [y]) fl (store h1 d (NArr l2)) (i + 1) (Some 0) l2).
      + rewrite <- app_assoc. auto.
      + rewrite app_length. cbn [length]. lia.
      + cbn [length] in Lt. lia.
      + eapply store_same; eauto.
      + rewrite app_assoc, map_app. exact R2.
      + rewrite store_length; auto.
      + intros c Nc. rewrite store_other; auto. }
  destruct (G [] ys fuel h 0 None l) as (h' & ret & l2 & Ei & Ed & R2 & Ln & O); [auto|auto|pose proof (forall2_len F'); lia|auto|rewrite app_nil_r; auto|auto|auto|].
  exists h', ret. split; [exact Ei|]. split; [auto|].
  assert (LK : leaves_kept h h') by (apply (leaves_off h h' [d]); [intros c [<-|[]]; eauto|intros c Nc; apply O; intros ->; apply Nc; left; auto]).
  rewrite (containers_arr h d l xs dl E R), (containers_arr h s l' ys sl E' R').
  split; [intros c Nc; apply O; intros ->; apply Nc; left; auto|]. cbn [mergeable].
  inversion N as [|? ? Nd N']; subst.
  destruct (frame_arr h h' dl xs LK F) as (G1 & G2); [intros c I; apply O; intros ->; auto|].
  destruct (frame_arr h h' sl ys LK F') as (G3 & G4); [intros c I; apply O; intros ->; apply (D d); [left; auto|right; auto]|].
  assert (FA : Forall2 (holds h') (dl ++ sl) (xs ++ ys)) by (apply Forall2_app; auto).
  exists (JArr (dl ++ sl)). split; [constructor|]. split; [apply holds_arr; exists l2, (xs ++ ys); auto|].
  intros c. rewrite (containers_arr h' d l2 (xs ++ ys) _ Ed R2), conts_app by (apply (forall2_len F)). rewrite G2, G4.
  rewrite !cnt_cons, count_occ_app. destruct (Nat.eq_dec d c), (Nat.eq_dec s c); lia.
Qed.

(** * Objects *)
Lemma lookup_incl h k kjs kas x a : members h kjs kas -> lookup k kjs = Some x -> lookup k kas = Some a -> incl (containers h x a) (mconts h kjs kas).
Proof.
  intros F. induction F as [|(k1, j1) (k2, a2) kjs kas (E & H) F IH]; cbn [lookup]; [discriminate|]. cbn [fst snd] in *. subst k2.
  rewrite mconts_cons. cbn [snd]. destruct (list_eq_dec Z.eq_dec k k1).
  - intros Ex Ea. injection Ex as ->. injection Ea as ->. apply incl_appl, incl_refl.
  - intros Ex Ea. apply incl_appr; auto.
Qed.
Lemma lookup_disjoint h k k' kjs kas x a x' a' : members h kjs kas -> NoDup (mconts h kjs kas) -> k <> k' ->
  lookup k kjs = Some x -> lookup k kas = Some a -> lookup k' kjs = Some x' -> lookup k' kas = Some a' ->
  disjoint (containers h x a) (containers h x' a').
Proof.
  intros F. induction F as [|(k1, j1) (k2, a2) kjs kas (E & H) F IH]; cbn [lookup]; [discriminate|]. cbn [fst snd] in *. subst k2.
  rewrite mconts_cons. cbn [snd]. intros N Ne.
  assert (Dj : disjoint (containers h j1 a2) (mconts h kjs kas)).
  { intros c I1 I2. apply (NoDup_count_occ Nat.eq_dec) with (x := c) in N. rewrite count_occ_app in N. apply cnt_in in I1, I2. lia. }
  assert (N' : NoDup (mconts h kjs kas)) by (rewrite (NoDup_count_occ Nat.eq_dec) in *; intros c; specialize (N c); rewrite count_occ_app in N; lia).
  clear N. rename N' into N. destruct (list_eq_dec Z.eq_dec k k1) as [->|], (list_eq_dec Z.eq_dec k' k1) as [->|]; try congruence.
  - intros E1 E2 E3 E4. injection E1 as ->. injection E2 as ->. intros c I1 I2. apply (Dj c I1). eapply lookup_incl; eauto.
  - intros E1 E2 E3 E4. injection E3 as ->. injection E4 as ->. intros c I1 I2. apply (Dj c I2). eapply lookup_incl; eauto.
  - apply IH; auto.
Qed.

Section Objects.
Variable n : nat.
Context (IH : forall h jd js d s, holds h jd d -> holds h js s -> NoDup (containers h jd d) -> disjoint (containers h jd d) (containers h js s) ->
  (size jd + size js < n)%nat -> Z.of_nat (size jd + size js) < 2 ^ 64 ->
  exists h', merge n h (Some d) (Some s) = Ok (mergeable jd js, h') /\ merge_post h h' jd js d s).
Variable h : heap.
Variables d s : nat.
Variables kd ks : list (text * json).
Variables ad as_ : list (text * nat).
Variables md ms : cmap text nat.
Context (Ed : nth_error h d = Some (NObj md)) (Rd : mrep strcmp md (wrapped ad)) (Fd : members h kd ad).
Context (Es : nth_error h s = Some (NObj ms)) (Rs : mrep strcmp ms (wrapped as_)) (Fs : members h ks as_).
Context (Nd : NoDup (d :: mconts h kd ad)) (Dj : disjoint (d :: mconts h kd ad) (s :: mconts h ks as_)).
Context (Sz : (size (JObj kd) + size (JObj ks) < S n)%nat) (Sz64 : Z.of_nat (size (JObj kd) + size (JObj ks)) < 2 ^ 64).

Definition from_src (e : text * option nat) : list nat :=
  match lookup (fst e) ks, snd e with Some y, Some b => containers h y b | _, _ => [] end.
Record State (done : list (text * option nat)) (h1 : heap) (m1 : cmap text nat) (a1 : list (text * nat)) (r1 : list (text * json)) (new : list text) : Prop := {
  st_done : incl done (visited _ (m_root ms));
  st_off : forall c, ~ In c (d :: mconts h kd ad) -> nth_error h1 c = nth_error h c;
  st_len : length h1 = length h;
  st_leaves : leaves_kept h h1;
  st_d : nth_error h1 d = Some (NObj m1);
  st_rep : mrep strcmp m1 (wrapped a1);
  st_members : members h1 r1 a1;
  st_keys : map fst r1 = map fst kd ++ new;
  st_newlen : (length new <= length done)%nat;
  st_newnd : NoDup new;
  st_new : forall k, In k new <-> In k (map fst done) /\ ~ In k (map fst kd);
  st_rest : forall k, ~ In k (map fst done) -> lookup k r1 = lookup k kd /\ lookup k a1 = lookup k ad /\
     forall x a, lookup k kd = Some x -> lookup k ad = Some a -> agree h h1 (containers h x a);
  st_absent : forall k y, In k (map fst done) -> lookup k kd = None -> lookup k ks = Some y -> lookup k r1 = Some y;
  st_both : forall k x y, In k (map fst done) -> lookup k kd = Some x -> lookup k ks = Some y -> exists z, lookup k r1 = Some z /\ becomes x y z;
  st_count : forall c, (cnt (d :: mconts h1 r1 a1) c <= cnt (d :: mconts h kd ad) c + cnt (flat_map from_src done) c)%nat }.
Definition Inv (done : list (text * option nat)) (h1 : heap) : Prop := exists m1 a1 r1 new, State done h1 m1 a1 r1 new.

Lemma visited_entry k v : In (k, v) (visited _ (m_root ms)) -> exists b y, v = Some b /\ lookup k as_ = Some b /\ lookup k ks = Some y /\ holds h y b.
Proof.
  intros I. apply (Permutation_in _ (visited_rep strcmp ms _ Rs)) in I. unfold wrapped in I. apply in_map_iff in I as ((k', b) & E & I).
  cbn [fst snd] in E. injection E as -> <-. pose proof (mrep_nodup ms as_ Rs) as N. pose proof (in_lookup k as_ b N I) as L.
  pose proof (members_lookup k Fs) as ML. rewrite L in ML. destruct (lookup k ks) as [y|]; [|contradiction]. exists b, y. auto.
Qed.
Lemma from_src_in done c : incl done (visited _ (m_root ms)) -> In c (flat_map from_src done) -> In c (mconts h ks as_).
Proof.
  intros I Ic. apply in_flat_map in Ic as ((k, v) & Ie & Ic). apply I in Ie. destruct (visited_entry k v Ie) as (b & y & -> & Lb & Ly & Hy).
  unfold from_src in Ic. cbn [fst snd] in Ic. rewrite Ly in Ic. eapply lookup_incl; eauto.
Qed.
Lemma dest_node c : In c (d :: mconts h kd ad) -> exists nd, nth_error h c = Some nd /\ is_leaf nd = false.
Proof.
  intros I. apply (container_node h (size (JObj kd)) (JObj kd) d c); [auto| |].
  - apply holds_obj. exists md, ad. auto.
  - rewrite (containers_obj h d md ad kd Ed Rd). auto.
Qed.

Lemma inv_start : Inv [] h.
Proof.
  exists md, ad, kd, []. constructor; auto.
  - intros e [].
  - intros c nd; auto.
  - rewrite app_nil_r; auto.
  - constructor.
  - cbn [map]. intros k; split; [intros []|intros ([] & _)].
  - intros k _; split; [auto|split; [auto|intros x a _ _ c _; auto]].
  - intros k y [].
  - intros k x y [].
  - cbn [flat_map count_occ]. intros c. lia.
Qed.
Lemma inv_tree done h1 : Inv done h1 -> tree_at h1 s = m_root ms.
Proof.
  intros (m1 & a1 & r1 & new & St). unfold tree_at. rewrite (st_off _ _ _ _ _ _ St), Es; [auto|]. intros I. apply (Dj s); [auto|left; auto].
Qed.

(** The nodes of the member [k] of the destination *)
Definition part (k : text) : list nat := match lookup k kd, lookup k ad with Some x, Some a => containers h x a | _, _ => [] end.
Lemma part_in k c : In c (part k) -> In c (mconts h kd ad).
Proof.
  unfold part. destruct (lookup k kd) eqn:E1; [|intros []]. destruct (lookup k ad) eqn:E2; [|intros []]. intros I. eapply lookup_incl; eauto.
Qed.

(** The member [k] of the destination has become [z], at the address [bz]. *)
Lemma inv_next done k b y h1 h2 m1 a1 r1 m2 z bz new : State done h1 m1 a1 r1 new ->
  In (k, Some b) (visited _ (m_root ms)) -> ~ In k (map fst done) -> lookup k ks = Some y ->
  length h2 = length h1 -> leaves_kept h1 h2 ->
  (forall c, c <> d -> ~ In c (part k) -> nth_error h2 c = nth_error h1 c) ->
  nth_error h2 d = Some (NObj m2) -> mrep strcmp m2 (wrapped (put k bz a1)) -> holds h2 z bz ->
  match lookup k kd with None => z = y | Some x => becomes x y z end ->
  (forall c, (cnt (containers h2 z bz) c <= cnt (part k) c + cnt (containers h y b) c)%nat) ->
  Inv (done ++ [(k, Some b)]) h2.
Proof.
  intros St Iv Nk Ly Ln2 LK O2 Ed2 R2 Hz Bz Cz. destruct St as [Inc O Ln LK0 Ed1 R1 F1 Keys Lnew Nnew New Rest Absent Both Cnt].
  destruct (Rest k Nk) as (Lr & La & Ag).
  (* what is in the destination once is nowhere else *)
  assert (Once : forall c, In c (d :: mconts h kd ad) -> (cnt (d :: mconts h1 r1 a1) c <= 1)%nat).
  { intros c I. specialize (Cnt c). assert (cnt (flat_map from_src done) c = 0)%nat.
    { destruct (cnt (flat_map from_src done) c) eqn:Ec; [auto|]. exfalso. apply (Dj c I). right. apply (from_src_in done c Inc), cnt_in. lia. }
    pose proof (cnt_nodup _ c Nd). lia. }
  assert (Fresh : forall c, In c (mconts h1 r1 a1) -> c <> d).
  { intros c I ->. pose proof (Once d (or_introl eq_refl)) as X. rewrite cnt_cons in X. apply cnt_in in I. destruct (Nat.eq_dec d d); [lia|congruence]. }
  (* the members *)
  assert (G : members h2 (put k z r1) (put k bz a1) /\
     forall c, (cnt (mconts h2 (put k z r1) (put k bz a1)) c + cnt (part k) c <= cnt (mconts h1 r1 a1) c + cnt (containers h2 z bz) c)%nat).
  { destruct (lookup k kd) as [x|] eqn:Lx.
    - destruct (members_split h1 k r1 a1 x F1 Lr) as (a & q1 & q2 & s1 & s2 & La1 & Hx & Er & Ea & Lq & M1 & M2 & P).
      destruct (P z bz) as (-> & ->).
      assert (Pk : part k = containers h1 x a).
      { unfold part. rewrite Lx, <- La, La1. symmetry. apply frame_containers; [auto| |apply Ag; [auto|congruence]].
        pose proof (members_lookup k Fd) as X. rewrite Lx, <- La, La1 in X. auto. }
      assert (Mc : mconts h1 r1 a1 = mconts h1 q1 s1 ++ containers h1 x a ++ mconts h1 q2 s2) by (rewrite Er, Ea, mconts_app by auto; auto).
      assert (Agr : forall c, In c (mconts h1 q1 s1) \/ In c (mconts h1 q2 s2) -> nth_error h2 c = nth_error h1 c).
      { intros c I. apply O2.
        - apply Fresh. rewrite Mc, !in_app_iff. tauto.
        - rewrite Pk. intros I'. pose proof (Once c) as X. rewrite cnt_cons, Mc, !count_occ_app in X.
          assert (In c (d :: mconts h kd ad)) by (right; apply (part_in k); rewrite Pk; auto). specialize (X H).
          apply cnt_in in I'. destruct I as [I|I]; apply cnt_in in I; lia. }
      destruct (frame_members h1 h2 q1 s1 LK M1) as (G1 & G2); [intros c I; auto|].
      destruct (frame_members h1 h2 q2 s2 LK M2) as (G3 & G4); [intros c I; auto|].
      split; [apply Forall2_app; [auto|constructor; auto]|].
      intros c. rewrite mconts_app, mconts_cons by auto. rewrite Mc, Pk, G2, G4. cbn [snd]. rewrite !count_occ_app. lia.
    - assert (La1 : lookup k a1 = None) by (pose proof (members_lookup k F1) as X; rewrite Lr in X; destruct (lookup k a1); [contradiction|auto]).
      rewrite (put_fresh k z r1 Lr), (put_fresh k bz a1 La1). assert (Pk : part k = []) by (unfold part; rewrite Lx; auto).
      destruct (frame_members h1 h2 r1 a1 LK F1) as (G1 & G2); [intros c I; apply O2; [auto|rewrite Pk; intros []]|].
      split; [apply Forall2_app; [auto|constructor; [auto|constructor]]|].
      intros c. rewrite mconts_app by (apply (forall2_len F1)). rewrite mconts_cons, Pk, G2. cbn [snd]. rewrite !count_occ_app. cbn. lia. }
  destruct G as (G1 & G2).
  exists m2, (put k bz a1), (put k z r1), (new ++ match lookup k kd with Some _ => [] | None => [k] end).
  constructor; auto.
  - intros e I. apply in_app_or in I as [I|[<-|[]]]; auto.
  - intros c Nc. rewrite O2; [auto|intros ->; apply Nc; left; auto|]. intros I. apply Nc. right. eapply part_in; eauto.
  - congruence.
  - intros c nd E L. auto.
  - rewrite put_keys, Keys, Lr, app_assoc. auto.
  - rewrite !app_length. destruct (lookup k kd); cbn [length]; lia.
  - destruct (lookup k kd) eqn:Lx; [rewrite app_nil_r; auto|].
    apply (Permutation_NoDup (Permutation_cons_append new k)). constructor; [|auto]. intros I. apply New in I. tauto.
  - intros k'. rewrite map_app, !in_app_iff. cbn [map fst In]. rewrite New. destruct (lookup k kd) as [x|] eqn:Lx.
    + assert (In k (map fst kd)) by (apply lookup_in in Lx; apply (in_map fst) in Lx; auto). cbn [In].
      split; [intros [(X & Y)|[]]; tauto|]. intros ([X|[X|[]]] & Y); [tauto|]. subst k'. tauto.
    + apply lookup_none in Lx. cbn [In]. split; [intros [(X & Y)|[X|[]]]; [tauto|subst k'; tauto]|]. tauto.
  - intros k' Nk'. rewrite map_app, in_app_iff in Nk'. cbn [map fst In] in Nk'. assert (Ne : k' <> k) by (intros ->; apply Nk'; auto).
    assert (Nk1 : ~ In k' (map fst done)) by tauto. destruct (Rest k' Nk1) as (X1 & X2 & X3). rewrite !lookup_put.
    destruct (list_eq_dec Z.eq_dec k' k); [contradiction|]. split; [auto|]. split; [auto|].
    intros x a Lx La' c I. rewrite O2; [apply (X3 x a); auto| |].
    + intros ->. inversion Nd as [|? ? N1 N2]; subst. apply N1. eapply lookup_incl; eauto.
    + unfold part. destruct (lookup k kd) as [x0|] eqn:Lx0; [|intros []]. destruct (lookup k ad) as [a0|] eqn:La0; [|intros []].
      intros I'. inversion Nd as [|? ? N1 N2]; subst. exact (lookup_disjoint h k' k kd ad x a x0 a0 Fd N2 Ne Lx La' Lx0 La0 c I I').
  - intros k' y' I Lx Ly'. rewrite lookup_put. destruct (list_eq_dec Z.eq_dec k' k) as [->|Ne].
    + rewrite Lx in Bz. congruence.
    + apply Absent; auto. rewrite map_app, in_app_iff in I. cbn [map fst In] in I. destruct I as [I|[I|[]]]; [auto|congruence].
  - intros k' x y' I Lx Ly'. rewrite lookup_put. destruct (list_eq_dec Z.eq_dec k' k) as [->|Ne].
    + rewrite Lx in Bz. exists z. split; [auto|]. congruence.
    + apply Both; auto. rewrite map_app, in_app_iff in I. cbn [map fst In] in I. destruct I as [I|[I|[]]]; [auto|congruence].
  - intros c. rewrite flat_map_app, count_occ_app. cbn [flat_map]. rewrite app_nil_r. unfold from_src at 2. cbn [fst snd]. rewrite Ly.
    specialize (G2 c). specialize (Cz c). specialize (Cnt c). rewrite !cnt_cons in *. lia.
Qed.

Lemma inv_step done k v rest h1 : pre (m_root ms) = done ++ (k, v) :: rest -> Inv done h1 ->
  exists h2, add_kv (merge n) d h1 k v = Ok h2 /\ Inv (done ++ [(k, v)]) h2.
Proof.
  intros P (m1 & a1 & r1 & new & St).
  assert (Av : avl (m_root ms)) by apply Rs. rewrite <- (visited_pre _ Av) in P.
  assert (Iv : In (k, v) (visited _ (m_root ms))) by (rewrite P; apply in_or_app; right; left; auto).
  destruct (visited_entry k v Iv) as (b & y & -> & Lb & Ly & Hy).
  assert (Nvk : NoDup (map fst (visited _ (m_root ms)))).
  { eapply Permutation_NoDup; [apply Permutation_sym, Permutation_map, (visited_rep strcmp ms _ Rs)|]. rewrite wrapped_fst. apply (mrep_nodup ms as_ Rs). }
  assert (Lv : length (visited _ (m_root ms)) = length ks).
  { rewrite (Permutation_length (visited_rep strcmp ms _ Rs)). unfold wrapped. rewrite map_length. symmetry. apply (forall2_len Fs). }
  assert (Nk : ~ In k (map fst done)).
  { rewrite P, map_app in Nvk. cbn [map fst] in Nvk. apply NoDup_remove_2 in Nvk. rewrite in_app_iff in Nvk. tauto. }
  pose proof St as St0. destruct St as [Inc O Ln LK0 Ed1 R1 F1 Keys Lnew Nnew New Rest Absent Both Cnt].
  destruct (Rest k Nk) as (Lr & La & Ag).
  assert (B64 : Z.of_nat (length a1) <= 2 ^ 64).
  { assert (length a1 = length kd + length new)%nat by (rewrite <- (forall2_len F1), <- (map_length fst r1), Keys, app_length, map_length; auto).
    assert (length done <= length (visited _ (m_root ms)))%nat by (rewrite P, app_length; lia).
    pose proof (size_obj_len kd). pose proof (size_obj_len ks). lia. }
  (* the source *)
  assert (Dy : forall c, In c (containers h y b) -> ~ In c (d :: mconts h kd ad)).
  { intros c I I'. apply (Dj c I'). right. eapply lookup_incl; eauto. }
  assert (Hy1 : holds h1 y b) by (apply (frame_holds h h1); auto; intros c I; apply O; auto).
  assert (Cy1 : containers h1 y b = containers h y b) by (apply (frame_containers h h1); auto; intros c I; apply O; auto).
  unfold add_kv. rewrite (object_at_ok h1 d m1 Ed1). cbn [bind].
  (* storing the value of the source *)
  assert (Set_ : forall m2, mrep strcmp m2 (wrapped (put k b a1)) -> match lookup k kd with None => True | Some x => mergeable x y = false end ->
      Inv (done ++ [(k, Some b)]) (store h1 d (NObj m2))).
  { intros m2 R2 Mg. assert (LK : leaves_kept h1 (store h1 d (NObj m2))) by (eapply store_leaves; eauto).
    assert (A2 : agree h1 (store h1 d (NObj m2)) (containers h1 y b)).
    { intros c I. apply store_other. intros ->. rewrite Cy1 in I. apply (Dy d I). left; auto. }
    apply (inv_next done k b y h1 _ m1 a1 r1 m2 y b new St0 Iv Nk Ly); auto.
    - apply store_length.
    - intros c Nc _. apply store_other; auto.
    - eapply store_same; eauto.
    - apply (frame_holds h1); auto.
    - destruct (lookup k kd); [apply becomes_new; auto|auto].
    - intros c. rewrite (frame_containers h1 _ y b LK Hy1 A2), Cy1. lia. }
  destruct (tsearch_put m1 a1 k b R1 B64) as [(a & Et & La1 & Rm)|(root & Et & La1 & Rm)]; rewrite Et; cbn [bind negb fst snd].
  - (* present *)
    pose proof (members_lookup k F1) as X. rewrite La1, Lr in X. destruct (lookup k kd) as [x|] eqn:Lx; [|contradiction].
    rewrite La in La1. assert (Hx0 : holds h x a) by (pose proof (members_lookup k Fd) as X'; rewrite Lx, La1 in X'; auto).
    assert (Cx : containers h1 x a = containers h x a) by (apply (frame_containers h h1); auto).
    assert (Pk : part k = containers h x a) by (unfold part; rewrite Lx, La1; auto).
    assert (Ix : forall c, In c (containers h x a) -> In c (mconts h kd ad)) by (intros c I; eapply lookup_incl; eauto).
    inversion Nd as [|? ? N1 N2]; subst.
    destruct (IH h1 x y a b X Hy1) as (h2 & Em & Ln2 & O2 & Post).
    { rewrite Cx. apply NoDup_count_occ with (decA := Nat.eq_dec). intros c. pose proof (cnt_nodup _ c N2) as Y.
      destruct (members_split h k kd ad x Fd Lx) as (a' & q1 & q2 & s1 & s2 & La' & _ & Er & Ea & Lq & _ & _ & _).
      rewrite La1 in La'. injection La' as <-. rewrite Er, Ea, mconts_app, mconts_cons in Y by auto. cbn [snd] in Y. rewrite !count_occ_app in Y. lia. }
    { rewrite Cx, Cy1. intros c I1 I2. apply (Dy c I2). right; auto. }
    { apply lookup_in in Lx, Ly. apply size_obj_in in Lx, Ly. cbn [snd] in *. lia. }
    { apply lookup_in in Lx, Ly. apply size_obj_in in Lx, Ly. cbn [snd] in *. lia. }
    rewrite Em. cbn [bind]. rewrite Cx in O2. destruct (mergeable x y) eqn:Mg.
    + exists h2. split; [auto|]. destruct Post as (z & Mz & Hz & Cz).
      apply (inv_next done k b y h1 h2 m1 a1 r1 m1 z a new St0 Iv Nk Ly); auto.
      * apply (leaves_off h1 h2 (containers h1 x a)); [intros c I; apply (container_node h1 (size x) x a); auto|rewrite Cx; auto].
      * intros c _ Nc. apply O2. rewrite <- Pk. auto.
      * rewrite O2; [auto|]. intros I. apply N1, Ix, I.
      * rewrite put_same by congruence. auto.
      * rewrite Lx. constructor; auto.
      * rewrite Pk, <- Cx, <- Cy1. auto.
    + subst h2. rewrite (object_at_ok h1 d m1 Ed1). cbn [bind]. eexists. split; [reflexivity|]. apply Set_; auto.
  - (* absent *)
    eexists. split; [reflexivity|]. apply Set_; [auto|]. rewrite <- Lr. pose proof (members_lookup k F1) as X. rewrite La1 in X.
    destruct (lookup k r1); [contradiction|auto].
Qed.

Lemma merge_objects : exists h', live_walk heap (fun h => tree_at h s) (add_kv (merge n) d) n h (key_of (m_root ms)) = Ok h' /\
  merge_post h h' (JObj kd) (JObj ks) d s.
Proof.
  pose proof Rs as (Av & So & Pm & _).
  assert (Lv : length (inorder (m_root ms)) = length ks).
  { rewrite (Permutation_length Pm). unfold wrapped. rewrite map_length. symmetry. apply (forall2_len Fs). }
  destruct (live_walk_ok heap (fun h => tree_at h s) (add_kv (merge n) d) (m_root ms) Inv So inv_tree inv_step n h Av) as (h' & E & (m1 & a1 & r1 & new & St));
    [pose proof (size_obj_len ks); pose proof (size_pos (JObj kd)); lia|apply inv_start|].
  exists h'. split; [exact E|]. destruct St as [Inc O Ln LK0 Ed1 R1 F1 Keys Lnew Nnew New Rest Absent Both Cnt].
  split; [auto|]. rewrite (containers_obj h d md ad kd Ed Rd), (containers_obj h s ms as_ ks Es Rs). split; [auto|]. cbn [mergeable].
  assert (All : forall k, In k (map fst (visited _ (m_root ms))) <-> In k (map fst ks)).
  { intros k. rewrite (members_fst Fs), <- (wrapped_fst as_). pose proof (Permutation_map fst (visited_rep strcmp ms _ Rs)) as P.
    split; apply Permutation_in; [auto|apply Permutation_sym; auto]. }
  exists (JObj r1). split; [|split].
  - apply merged_obj with (new := new); auto.
    + intros k. rewrite New, All. tauto.
    + intros k x Lx Ly. destruct (Rest k) as (-> & _); [rewrite All; apply lookup_none; auto|auto].
    + intros k y Lx Ly. apply Absent; auto. apply All. apply lookup_in in Ly. apply (in_map fst) in Ly. auto.
    + intros k x y Lx Ly. apply Both; auto. apply All. apply lookup_in in Ly. apply (in_map fst) in Ly. auto.
  - apply holds_obj. exists m1, a1. auto.
  - intros c. rewrite (containers_obj h' d m1 a1 r1 Ed1 R1). specialize (Cnt c).
    assert (Q : cnt (flat_map from_src (visited _ (m_root ms))) c = cnt (mconts h ks as_) c).
    { rewrite (proj1 (Permutation_count_occ Nat.eq_dec _ _) (Permutation_flat_map from_src (visited_rep strcmp ms _ Rs)) c).
      f_equal. pose proof (mrep_nodup ms as_ Rs) as N. rewrite <- (members_fst Fs) in N. clear - Fs N. unfold from_src.
      assert (G : forall l l', members h l l' -> (forall kj, In kj l -> In kj ks) -> flat_map from_src (wrapped l') = mconts h l l').
      { intros l l' F. induction F as [|(k, j) (k', x) l l' (Ek & Hj) F IHF]; intros I; [auto|]. cbn [fst snd] in *. subst k'. cbn [wrapped map flat_map].
        unfold from_src at 1. cbn [fst snd]. rewrite (in_lookup k ks j N) by (apply I; left; auto). rewrite mconts_cons. cbn [snd]. f_equal.
        apply IHF. intros; apply I; right; auto. }
      apply G; auto. }
    rewrite !cnt_cons in *. lia.
Qed.
End Objects.

Theorem merge_ok : forall fuel h jd js d s, holds h jd d -> holds h js s -> NoDup (containers h jd d) -> disjoint (containers h jd d) (containers h js s) ->
  (size jd + size js < fuel)%nat -> Z.of_nat (size jd + size js) < 2 ^ 64 ->
  exists h', merge fuel h (Some d) (Some s) = Ok (mergeable jd js, h') /\ merge_post h h' jd js d s.
Proof.
  induction fuel as [|n IH]; intros h jd js d s Hd Hs N D Sz B; [lia|]. cbn [merge load].
  destruct (leaf_cases jd) as [(nd & Ld)|[(dl & ->)|(kd & ->)]].
  - pose proof Hd as Hd0. apply (holds_leaf h jd d nd Ld) in Hd0. rewrite Hd0. cbn [of_option bind]. 
    assert (X : exists sn, nth_error h s = Some sn).
    { destruct (leaf_cases js) as [(ns & Ls)|[(sl & ->)|(ks & ->)]].
      - apply (holds_leaf h js s ns Ls) in Hs. eauto.
      - apply holds_arr in Hs as (? & ? & E & _). eauto.
      - apply holds_obj in Hs as (? & ? & E & _). eauto. }
    destruct X as (sn & Es). rewrite Es. cbn [of_option bind]. exists h. assert (Mg : mergeable jd js = false) by (destruct jd; auto; discriminate).
    rewrite Mg. split; [|unfold merge_post; rewrite Mg; auto]. apply leaf_is_leaf in Ld. destruct nd; auto; discriminate.
  - pose proof Hd as Hd0. apply holds_arr in Hd0 as (l & xs & E & R & F). rewrite E. cbn [of_option bind].
    destruct (leaf_cases js) as [(ns & Ls)|[(sl & ->)|(ks & ->)]].
    + apply (holds_leaf h js s ns Ls) in Hs. rewrite Hs. cbn [of_option bind]. exists h. assert (Mg : mergeable (JArr dl) js = false) by (destruct js; auto; discriminate).
      rewrite Mg. split; [|unfold merge_post; rewrite Mg; auto]. apply leaf_is_leaf in Ls. destruct ns; auto; discriminate.
    + destruct (merge_arrays h d s dl sl Hd Hs N D n) as (h' & ret & Ei & P); [pose proof (size_arr_len sl); pose proof (size_pos (JArr dl)); lia|].
      apply holds_arr in Hs as (l' & ys & E' & _). rewrite E'. cbn [of_option bind]. rewrite Ei. cbn [bind]. exists h'. auto.
    + apply holds_obj in Hs as (m' & as_ & E' & _). rewrite E'. cbn [of_option bind]. exists h. unfold merge_post. cbn [mergeable]. auto.
  - pose proof Hd as Hd0. apply holds_obj in Hd0 as (m & ad & E & R & F). rewrite E. cbn [of_option bind].
    destruct (leaf_cases js) as [(ns & Ls)|[(sl & ->)|(ks & ->)]].
    + apply (holds_leaf h js s ns Ls) in Hs. rewrite Hs. cbn [of_option bind]. exists h. assert (Mg : mergeable (JObj kd) js = false) by (destruct js; auto; discriminate).
      rewrite Mg. split; [|unfold merge_post; rewrite Mg; auto]. apply leaf_is_leaf in Ls. destruct ns; auto; discriminate.
    + apply holds_arr in Hs as (l' & ys & E' & _). rewrite E'. cbn [of_option bind]. exists h. unfold merge_post. cbn [mergeable]. auto.
    + apply holds_obj in Hs as (m' & as_ & E' & R' & F'). rewrite E'. cbn [of_option bind].
      rewrite (containers_obj h d m ad kd E R) in N, D. rewrite (containers_obj h s m' as_ ks E' R') in D.
      destruct (merge_objects n IH h d s kd ks ad as_ m m' E R F E' R' F' N D Sz B) as (h' & Ew & P).
      rewrite Ew. cbn [bind]. exists h'. auto.
Qed.
