(** Proofs about string views. *)
From Coq Require Import ZArith List Bool Lia.
From Verif Require Import Base ArrayLemmas StrViewModel.
Import ListNotations.
Open Scope Z_scope.
Local Arguments Z.add : simpl never.
Local Arguments Z.sub : simpl never.
Local Arguments Z.mul : simpl never.
Local Arguments Z.of_nat : simpl never.
Local Arguments Z.to_nat : simpl never.
Local Arguments Z.pow : simpl never.

(** * Specification vocabulary *)
(** [v] lies inside [mem] and shows the text [w]. *)
Definition viewed (mem : list Z) (v : view) (w : list Z) : Prop :=
  exists pre post, mem = pre ++ w ++ post /\ v_off v = Z.of_nat (length pre) /\ v_cnt v = Z.of_nat (length w).
(** [v'] lies inside [v]. *)
Definition inside (v' v : view) : Prop :=
  v_off v <= v_off v' /\ 0 <= v_cnt v' /\ v_off v' + v_cnt v' <= v_off v + v_cnt v.
(** Objects are smaller than half the address space. *)
Definition fits (mem : list Z) : Prop := Z.of_nat (length mem) < 2 ^ 63.

(** [a] is the longest prefix of [a ++ b] satisfying [p] throughout. *)
Definition longest (p : Z -> bool) (a b : list Z) : Prop :=
  Forall (fun c => p c = true) a /\ forall c b', b = c :: b' -> p c = false.
(** [a] is the longest suffix of [b ++ a] satisfying [p] throughout. *)
Definition rlongest (p : Z -> bool) (b a : list Z) : Prop :=
  Forall (fun c => p c = true) a /\ forall b' c, b = b' ++ [c] -> p c = false.
(** The number written by decimal digits. *)
Definition decimal (ds : list Z) : Z := fold_left (fun n c => 10 * n + (c - 48)) ds 0.
(** The first occurrence of [d] in [a ++ d ++ b] is the one behind [a]. *)
Definition first_occ (d a b : list Z) : Prop :=
  forall x y, a ++ d ++ b = x ++ d ++ y -> (length a <= length x)%nat.
(** White space and digits of the C locale; letters differing in case only. *)
Definition blank (c : Z) : Prop := In c [32; 9; 10; 11; 12; 13].
Definition digit (c : Z) : Prop := 48 <= c <= 57.
Definition same_letter (x y : Z) : Prop := x = y \/ (65 <= x <= 90 /\ y = x + 32) \/ (65 <= y <= 90 /\ x = y + 32).

Lemma isspace_blank c : isspace c = true <-> blank c.
Proof.
  unfold isspace, blank. cbn [In]. rewrite orb_true_iff, andb_true_iff, Z.eqb_eq, !Z.leb_le. lia.
Qed.
Lemma isspace_not c : isspace c = false <-> ~ blank c.
Proof. rewrite <- isspace_blank. destruct (isspace c); intuition congruence. Qed.
Lemma isdigit_digit c : isdigit c = true <-> digit c.
Proof. unfold isdigit, digit. rewrite andb_true_iff, !Z.leb_le. lia. Qed.
Lemma isdigit_not c : isdigit c = false <-> ~ digit c.
Proof. rewrite <- isdigit_digit. destruct (isdigit c); intuition congruence. Qed.
Lemma lower_same x y : lower x = lower y <-> same_letter x y.
Proof.
  unfold lower, same_letter.
  destruct (Z.leb_spec 65 x); destruct (Z.leb_spec x 90); destruct (Z.leb_spec 65 y); destruct (Z.leb_spec y 90); cbn [andb]; lia.
Qed.
Lemma lower_map a : forall b, map lower a = map lower b <-> Forall2 same_letter a b.
Proof.
  induction a as [|x a IH]; intros [|y b]; cbn [map]; try (split; [discriminate|intros H; inversion H]; fail).
  - split; auto.
  - split.
    + intros E. assert (E1 : lower x = lower y) by congruence. assert (E2 : map lower a = map lower b) by congruence.
      constructor; [apply lower_same; auto|apply IH; auto].
    + intros H. inversion H; subst. f_equal; [apply lower_same; auto|apply IH; auto].
Qed.

Section Mem.
Variable mem : list Z.

Lemma viewed_sub v a w b : viewed mem v (a ++ w ++ b) ->
  viewed mem (View (v_off v + Z.of_nat (length a)) (Z.of_nat (length w))) w.
Proof.
  intros (pre & post & E & O & C). exists (pre ++ a), (b ++ post). cbn [v_off v_cnt].
  rewrite E, O, app_length, <- !app_assoc. split; auto. split; [lia|auto].
Qed.

Lemma vread_ok v a c b i : viewed mem v (a ++ c :: b) -> i = Z.of_nat (length a) -> vread mem v i = Ok c.
Proof.
  intros (pre & post & -> & O & _) ->. unfold vread. rewrite O.
  replace (_ <? 0) with false by (symmetry; apply Z.ltb_ge; lia).
  replace (Z.to_nat _) with (length pre + length a)%nat by lia.
  rewrite <- app_assoc. rewrite nth_error_app2 by lia.
  replace (length pre + length a - length pre)%nat with (length a) by lia.
  rewrite nth_error_app2, Nat.sub_diag by lia. reflexivity.
Qed.

Lemma viewed_cnt v w : viewed mem v w -> v_cnt v = Z.of_nat (length w).
Proof. intros (pre & post & _ & _ & C). auto. Qed.
Lemma viewed_off v w : viewed mem v w -> 0 <= v_off v.
Proof. intros (pre & post & _ & O & _). lia. Qed.
Lemma viewed_len v w : viewed mem v w -> Z.of_nat (length w) <= Z.of_nat (length mem).
Proof. intros (pre & post & -> & _ & _). rewrite !app_length. lia. Qed.

Lemma scan_spec v p : forall a2 fuel a1 b, viewed mem v (a1 ++ a2 ++ b) -> longest p a2 b ->
  (length a2 < fuel)%nat -> scan mem fuel v p (Z.of_nat (length a1)) = Ok (Z.of_nat (length (a1 ++ a2))).
Proof.
  induction a2 as [|x a2 IH]; intros fuel a1 b V (F & N) L; (destruct fuel as [|fuel]; [lia|]); cbn [scan];
    rewrite (viewed_cnt _ _ V).
  - rewrite app_nil_r. cbn [app] in *. rewrite app_length. destruct b as [|c b].
    + replace (_ <? _) with false by (symmetry; apply Z.ltb_ge; cbn [length]; lia). auto.
    + replace (_ <? _) with true by (symmetry; apply Z.ltb_lt; cbn [length]; lia).
      rewrite (vread_ok v a1 c b _ V eq_refl). cbn [bind]. rewrite (N c b eq_refl). auto.
  - rewrite !app_length. cbn [length app].
    replace (_ <? _) with true by (symmetry; apply Z.ltb_lt; lia). cbn [app] in V.
    rewrite (vread_ok v a1 x (a2 ++ b) _ V eq_refl). cbn [bind]. inversion F; subst. rewrite H1.
    replace (Z.of_nat (length a1) + 1) with (Z.of_nat (length (a1 ++ [x]))) by (rewrite app_length; cbn [length]; lia).
    rewrite (IH fuel (a1 ++ [x]) b).
    + rewrite !app_length. cbn [length]. f_equal. lia.
    + rewrite <- app_assoc. auto.
    + split; auto.
    + cbn [length] in L. lia.
Qed.

Lemma scan0_spec v p a b : viewed mem v (a ++ b) -> longest p a b -> scan0 mem v p = Ok (Z.of_nat (length a)).
Proof.
  intros V H. unfold scan0. rewrite (viewed_cnt _ _ V).
  pose proof (scan_spec v p a (S (Z.to_nat (Z.of_nat (length (a ++ b))))) [] b V H) as S.
  apply S. rewrite app_length. lia.
Qed.

Lemma longest_ex p w : exists a b, w = a ++ b /\ longest p a b.
Proof.
  induction w as [|c w (a & b & -> & F & N)].
  - exists [], []. split; auto. split; auto. discriminate.
  - destruct (p c) eqn:P.
    + exists (c :: a), b. split; auto. split; auto.
    + exists [], (c :: a ++ b). split; auto. split; auto. intros ? ? [= <- <-]. auto.
Qed.

Lemma trim_left_ok v w : viewed mem v w ->
  exists v' a b, w = a ++ b /\ longest isspace a b /\ sv_trim_left mem v = Ok v' /\ viewed mem v' b /\ inside v' v.
Proof.
  intros V. destruct (longest_ex isspace w) as (a & b & -> & H).
  pose proof (viewed_cnt _ _ V) as C. rewrite app_length in C.
  eexists. exists a, b. split; auto. split; auto. unfold sv_trim_left. rewrite (scan0_spec v isspace a b V H). cbn [bind].
  split; [reflexivity|].
  replace (v_cnt v - Z.of_nat (length a)) with (Z.of_nat (length b)) by lia. split.
  - apply (viewed_sub v a b []). rewrite app_nil_r. auto.
  - unfold inside. cbn [v_off v_cnt]. lia.
Qed.

Lemma scan_right_spec v p : forall a2 fuel a1 b, viewed mem v (b ++ a2 ++ a1) ->
  Forall (fun c => p c = true) a2 -> (forall b' c, b = b' ++ [c] -> p c = false) ->
  (length a2 < fuel)%nat -> scan_right mem fuel v p (Z.of_nat (length a1)) = Ok (Z.of_nat (length (a2 ++ a1))).
Proof.
  induction a2 as [|x a2 IH] using rev_ind; intros fuel a1 b V F N L; (destruct fuel as [|fuel]; [lia|]); cbn [scan_right];
    rewrite (viewed_cnt _ _ V).
  - cbn [app] in *. rewrite app_length. destruct b as [|c b _] using rev_ind.
    + replace (_ <? _) with false by (symmetry; apply Z.ltb_ge; cbn [length]; lia). auto.
    + rewrite app_length. cbn [length].
      replace (_ <? _) with true by (symmetry; apply Z.ltb_lt; lia).
      rewrite <- app_assoc in V. cbn [app] in V.
      rewrite (vread_ok v b c a1 _ V) by lia. cbn [bind]. rewrite (N b c eq_refl). auto.
  - rewrite !app_length in *. cbn [length] in *.
    replace (_ <? _) with true by (symmetry; apply Z.ltb_lt; lia).
    assert (V1 : viewed mem v ((b ++ a2) ++ x :: a1)) by (rewrite <- !app_assoc in *; exact V).
    rewrite (vread_ok v _ x a1 _ V1) by (rewrite app_length; lia). cbn [bind].
    apply Forall_app in F as (F1 & F2). inversion F2; subst. rewrite H1.
    replace (Z.of_nat (length a1) + 1) with (Z.of_nat (length (x :: a1))) by (cbn [length]; lia).
    rewrite (IH fuel (x :: a1) b); auto; [|rewrite <- app_assoc in V1; auto|lia].
    f_equal. rewrite app_length. cbn [length]. lia.
Qed.


Lemma rlongest_ex p w : exists a b, w = b ++ a /\ rlongest p b a.
Proof.
  induction w as [|c w IH] using rev_ind.
  - exists [], []. split; auto. split; auto. intros [|? ?]; discriminate.
  - destruct IH as (a & b & -> & F & N). destruct (p c) eqn:P.
    + exists (a ++ [c]), b. rewrite <- app_assoc. split; auto. split; auto. apply Forall_app; auto.
    + exists [], ((b ++ a) ++ [c]). rewrite app_nil_r. split; auto. split; auto.
      intros b' x E. apply app_inj_tail in E as [_ <-]. auto.
Qed.

Lemma trim_right_ok v w : viewed mem v w ->
  exists v' a b, w = b ++ a /\ rlongest isspace b a /\ sv_trim_right mem v = Ok v' /\ viewed mem v' b /\ inside v' v.
Proof.
  intros V. destruct (rlongest_ex isspace w) as (a & b & -> & F & N).
  pose proof (viewed_cnt _ _ V) as C. rewrite app_length in C.
  eexists. exists a, b. split; auto. split; [split; auto|]. unfold sv_trim_right.
  assert (V1 : viewed mem v (b ++ a ++ [])) by (rewrite app_nil_r; auto).
  pose proof (scan_right_spec v isspace a (S (Z.to_nat (v_cnt v))) [] b V1 F N ltac:(lia)) as S.
  cbn [length] in S. change (Z.of_nat 0) with 0 in S. rewrite app_nil_r in S. rewrite S. cbn [bind].
  split; [reflexivity|]. replace (v_cnt v - Z.of_nat (length a)) with (Z.of_nat (length b)) by lia. split.
  - pose proof (viewed_sub v [] b a V) as X. cbn [length] in X. change (Z.of_nat 0) with 0 in X. rewrite Z.add_0_r in X. auto.
  - unfold inside. cbn [v_off v_cnt]. lia.
Qed.

Lemma trim_ok v w : viewed mem v w ->
  exists v' a b c, w = a ++ b ++ c /\ longest isspace a (b ++ c) /\ rlongest isspace b c /\
    sv_trim mem v = Ok v' /\ viewed mem v' b /\ inside v' v.
Proof.
  intros V. unfold sv_trim. destruct (trim_left_ok v w V) as (v1 & a & r & -> & H1 & -> & V1 & I1). cbn [bind].
  destruct (trim_right_ok v1 r V1) as (v2 & c & b & -> & H2 & -> & V2 & I2).
  exists v2, a, b, c. split; auto. split; auto. split; auto. split; auto. split; auto.
  unfold inside in *. lia.
Qed.

Hypothesis FITS : fits mem.

Lemma chop_left_ok v w n : viewed mem v w -> 0 <= n ->
  exists a b, w = a ++ b /\ Z.of_nat (length a) = Z.min n (Z.of_nat (length w)) /\
    viewed mem (fst (sv_chop_left v n)) a /\ viewed mem (snd (sv_chop_left v n)) b /\
    inside (fst (sv_chop_left v n)) v /\ inside (snd (sv_chop_left v n)) v.
Proof.
  intros V Hn. pose proof (viewed_cnt _ _ V) as C. pose proof (viewed_len _ _ V) as L. unfold fits in FITS.
  set (k := Z.min n (Z.of_nat (length w))).
  exists (firstn (Z.to_nat k) w), (skipn (Z.to_nat k) w). rewrite firstn_skipn. split; auto.
  assert (LF : length (firstn (Z.to_nat k) w) = Z.to_nat k) by (apply firstn_length_le; lia).
  split; [lia|]. unfold sv_chop_left.
  replace (if n >? v_cnt v then v_cnt v else n) with k.
  2:{ rewrite C, Z.gtb_ltb. destruct (Z.ltb_spec (Z.of_nat (length w)) n); lia. }
  replace (wrap 64 (v_cnt v - k)) with (v_cnt v - k) by (unfold wrap; rewrite Z.mod_small; lia). cbn [fst snd].
  assert (V1 := V). rewrite <- (firstn_skipn (Z.to_nat k) w) in V1.
  split; [|split; [|split]].
  - pose proof (viewed_sub v [] _ _ V1) as X. rewrite LF in X. cbn [length] in X. change (Z.of_nat 0) with 0 in X.
    rewrite Z.add_0_r, Z2Nat.id in X by lia. auto.
  - pose proof (viewed_sub v (firstn (Z.to_nat k) w) (skipn (Z.to_nat k) w) []) as X. rewrite app_nil_r in X. specialize (X V1).
    rewrite LF, skipn_length in X. replace (Z.of_nat (Z.to_nat k)) with k in X by lia.
    replace (Z.of_nat (length w - Z.to_nat k)) with (v_cnt v - k) in X by lia. auto.
  - unfold inside. cbn [v_off v_cnt]. lia.
  - unfold inside. cbn [v_off v_cnt]. lia.
Qed.

Lemma chop_right_ok v w n : viewed mem v w -> 0 <= n ->
  exists a b, w = b ++ a /\ Z.of_nat (length a) = Z.min n (Z.of_nat (length w)) /\
    viewed mem (fst (sv_chop_right v n)) a /\ viewed mem (snd (sv_chop_right v n)) b /\
    inside (fst (sv_chop_right v n)) v /\ inside (snd (sv_chop_right v n)) v.
Proof.
  intros V Hn. pose proof (viewed_cnt _ _ V) as C. pose proof (viewed_len _ _ V) as L. unfold fits in FITS.
  set (k := Z.min n (Z.of_nat (length w))). set (j := (length w - Z.to_nat k)%nat).
  exists (skipn j w), (firstn j w). rewrite firstn_skipn. split; auto.
  assert (LF : length (firstn j w) = j) by (apply firstn_length_le; lia).
  split; [rewrite skipn_length; lia|]. unfold sv_chop_right.
  replace (if n >? v_cnt v then v_cnt v else n) with k.
  2:{ rewrite C, Z.gtb_ltb. destruct (Z.ltb_spec (Z.of_nat (length w)) n); lia. }
  replace (wrap 64 (v_cnt v - k)) with (v_cnt v - k) by (unfold wrap; rewrite Z.mod_small; lia). cbn [fst snd].
  assert (V1 := V). rewrite <- (firstn_skipn j w) in V1.
  split; [|split; [|split]].
  - pose proof (viewed_sub v (firstn j w) (skipn j w) []) as X. rewrite app_nil_r in X. specialize (X V1).
    rewrite LF, skipn_length in X. replace (v_off v + Z.of_nat j) with (v_off v + v_cnt v - k) in X by lia.
    replace (Z.of_nat (length w - j)) with k in X by lia. auto.
  - pose proof (viewed_sub v [] _ _ V1) as X. rewrite LF in X. cbn [length] in X. change (Z.of_nat 0) with 0 in X.
    rewrite Z.add_0_r in X. replace (Z.of_nat j) with (v_cnt v - k) in X by lia. auto.
  - unfold inside. cbn [v_off v_cnt]. lia.
  - unfold inside. cbn [v_off v_cnt]. lia.
Qed.

Lemma delim_longest d a b : longest (fun x => negb (x =? d)) a b ->
  ~ In d a /\ (b = [] \/ exists b', b = d :: b').
Proof.
  intros (F & N). split.
  - intros H. rewrite Forall_forall in F. apply F in H. rewrite Z.eqb_refl in H. discriminate.
  - destruct b as [|c b]; auto. right. specialize (N c b eq_refl). apply negb_false_iff, Z.eqb_eq in N. subst. eauto.
Qed.

Lemma head_view v a b : viewed mem v (a ++ b) -> viewed mem (View (v_off v) (Z.of_nat (length a))) a.
Proof.
  intros V. pose proof (viewed_sub v [] a b V) as X. cbn [length] in X. change (Z.of_nat 0) with 0 in X.
  rewrite Z.add_0_r in X. auto.
Qed.
Lemma tail_view v a b : viewed mem v (a ++ b) -> viewed mem (View (v_off v + Z.of_nat (length a)) (Z.of_nat (length b))) b.
Proof. intros V. apply (viewed_sub v a b []). rewrite app_nil_r. auto. Qed.

Lemma chop_by_delim_ok v w d : viewed mem v w ->
  exists r v' a, sv_chop_by_delim mem v d = Ok (r, v') /\ viewed mem r a /\ ~ In d a /\
    inside r v /\ inside v' v /\
    ((w = a /\ viewed mem v' []) \/ exists b, w = a ++ d :: b /\ viewed mem v' b).
Proof.
  intros V. destruct (longest_ex (fun x => negb (x =? d)) w) as (a & b & -> & H).
  pose proof (viewed_cnt _ _ V) as C. pose proof (viewed_len _ _ V) as L. unfold fits in FITS. rewrite app_length in *.
  destruct (delim_longest d a b H) as (NI & D). unfold sv_chop_by_delim. rewrite (scan0_spec v _ a b V H). cbn [bind].
  destruct D as [->|(b' & ->)]; cbn [length] in *.
  - replace (_ <? _) with false by (symmetry; apply Z.ltb_ge; lia).
    replace (wrap 64 _) with 0 by (unfold wrap; rewrite Z.mod_small; lia).
    do 2 eexists. exists a. split; [reflexivity|]. split; [eapply head_view; eauto|]. split; auto.
    split; [unfold inside; cbn [v_off v_cnt]; lia|]. split; [unfold inside; cbn [v_off v_cnt]; lia|].
    left. rewrite app_nil_r. split; auto. apply (tail_view v a [] V).
  - replace (_ <? _) with true by (symmetry; apply Z.ltb_lt; lia).
    replace (wrap 64 _) with (Z.of_nat (length b')) by (unfold wrap; rewrite Z.mod_small; lia).
    do 2 eexists. exists a. split; [reflexivity|]. split; [eapply head_view; eauto|]. split; auto.
    split; [unfold inside; cbn [v_off v_cnt]; lia|]. split; [unfold inside; cbn [v_off v_cnt]; lia|].
    right. exists b'. split; auto.
    pose proof (tail_view v (a ++ [d]) b') as X. rewrite <- app_assoc in X. specialize (X V). rewrite app_length in X. cbn [length] in X.
    replace (v_off v + (Z.of_nat (length a) + 1)) with (v_off v + Z.of_nat (length a + 1)) by lia. auto.
Qed.

Lemma try_chop_ok v w d : viewed mem v w ->
  exists r v', sv_try_chop_by_delim mem v d = Ok (r, v') /\ inside v' v /\
    match r with
    | None => v' = v /\ ~ In d w
    | Some r => inside r v /\ exists a b, w = a ++ d :: b /\ ~ In d a /\ viewed mem r a /\ viewed mem v' b
    end.
Proof.
  intros V. destruct (longest_ex (fun x => negb (x =? d)) w) as (a & b & -> & H).
  pose proof (viewed_cnt _ _ V) as C. pose proof (viewed_len _ _ V) as L. unfold fits in FITS. rewrite app_length in *.
  destruct (delim_longest d a b H) as (NI & D). unfold sv_try_chop_by_delim. rewrite (scan0_spec v _ a b V H). cbn [bind].
  destruct D as [->|(b' & ->)]; cbn [length] in *.
  - replace (_ <? _) with false by (symmetry; apply Z.ltb_ge; lia).
    do 2 eexists. split; [reflexivity|]. split; [unfold inside; lia|]. rewrite app_nil_r. auto.
  - replace (_ <? _) with true by (symmetry; apply Z.ltb_lt; lia).
    replace (wrap 64 _) with (Z.of_nat (length b')) by (unfold wrap; rewrite Z.mod_small; lia).
    do 2 eexists. split; [reflexivity|]. split; [unfold inside; cbn [v_off v_cnt]; lia|].
    split; [unfold inside; cbn [v_off v_cnt]; lia|]. exists a, b'. split; auto. split; auto. split; [eapply head_view; eauto|].
    pose proof (tail_view v (a ++ [d]) b') as X. rewrite <- app_assoc in X. specialize (X V). rewrite app_length in X. cbn [length] in X.
    replace (v_off v + (Z.of_nat (length a) + 1)) with (v_off v + Z.of_nat (length a + 1)) by lia. auto.
Qed.

Lemma index_of_ok v w c : viewed mem v w ->
  exists r, sv_index_of mem v c = Ok r /\
    match r with
    | None => ~ In c w
    | Some i => exists a b, w = a ++ c :: b /\ ~ In c a /\ i = Z.of_nat (length a)
    end.
Proof.
  intros V. destruct (longest_ex (fun x => negb (x =? c)) w) as (a & b & -> & H).
  pose proof (viewed_cnt _ _ V) as C. rewrite app_length in *.
  destruct (delim_longest c a b H) as (NI & D). unfold sv_index_of. rewrite (scan0_spec v _ a b V H). cbn [bind].
  eexists. split; [reflexivity|]. destruct D as [->|(b' & ->)]; cbn [length] in *.
  - replace (_ <? _) with false by (symmetry; apply Z.ltb_ge; lia). rewrite app_nil_r. auto.
  - replace (_ <? _) with true by (symmetry; apply Z.ltb_lt; lia). eauto.
Qed.

Lemma take_while_ok v w p : viewed mem v w ->
  exists r a b, w = a ++ b /\ longest p a b /\ sv_take_left_while mem v p = Ok r /\ viewed mem r a /\ inside r v.
Proof.
  intros V. destruct (longest_ex p w) as (a & b & -> & H).
  pose proof (viewed_cnt _ _ V) as C. rewrite app_length in *.
  eexists. exists a, b. split; auto. split; auto. unfold sv_take_left_while. rewrite (scan0_spec v _ a b V H). cbn [bind].
  split; [reflexivity|]. split; [eapply head_view; eauto|]. unfold inside. cbn [v_off v_cnt]. lia.
Qed.

Lemma chop_while_ok v w p : viewed mem v w ->
  exists r v' a b, w = a ++ b /\ longest p a b /\ sv_chop_left_while mem v p = Ok (r, v') /\ viewed mem r a /\ viewed mem v' b /\
    inside r v /\ inside v' v.
Proof.
  intros V. destruct (longest_ex p w) as (a & b & -> & H). unfold sv_chop_left_while. rewrite (scan0_spec v _ a b V H). cbn [bind].
  destruct (chop_left_ok v (a ++ b) (Z.of_nat (length a)) V ltac:(lia)) as (a' & b' & E & L & V1 & V2 & I1 & I2).
  rewrite app_length in L. assert (LL : length a' = length a) by lia.
  assert (a' = a /\ b' = b) as (-> & ->).
  { clear -E LL. revert a' E LL. induction a as [|x a IH]; intros [|y a'] E LL; try discriminate; auto.
    cbn [app] in E. injection E as -> E. cbn [length] in LL. destruct (IH a' E ltac:(lia)) as (-> & ->). auto. }
  destruct (sv_chop_left v (Z.of_nat (length a))) as [r v'] eqn:EC. cbn [fst snd] in *.
  exists r, v', a, b. auto 10.
Qed.

(** * Comparisons *)
Lemma mem_eq_spec : forall n a b wa1 wa wb1 wb, viewed mem a (wa1 ++ wa) -> viewed mem b (wb1 ++ wb) ->
  length wa1 = length wb1 -> length wa = n -> length wb = n ->
  exists r, mem_eq mem n a b (Z.of_nat (length wa1)) = Ok r /\ (r = true <-> wa = wb).
Proof.
  induction n as [|n IH]; intros a b wa1 wa wb1 wb VA VB L1 LA LB; destruct wa as [|x wa]; destruct wb as [|y wb]; cbn [length] in *; try lia; cbn [mem_eq].
  - exists true. tauto.
  - rewrite (vread_ok a _ _ _ _ VA eq_refl). cbn [bind]. rewrite (vread_ok b _ _ _ _ VB) by lia. cbn [bind].
    destruct (Z.eqb_spec x y) as [->|NE].
    + replace (Z.of_nat (length wa1) + 1) with (Z.of_nat (length (wa1 ++ [y]))) by (rewrite app_length; cbn [length]; lia).
      destruct (IH a b (wa1 ++ [y]) wa (wb1 ++ [y]) wb) as (r & E & R); try (rewrite <- app_assoc; auto); try (rewrite !app_length; cbn [length]; lia); try lia.
      rewrite E. exists r. split; auto. rewrite R. split; [intros ->; auto|intros [= ->]; auto].
    + exists false. split; auto. split; [discriminate|]. intros [= -> _]. congruence.
Qed.

Lemma sv_eq_ok a b wa wb : viewed mem a wa -> viewed mem b wb ->
  exists r, sv_eq mem a b = Ok r /\ (r = true <-> wa = wb).
Proof.
  intros VA VB. unfold sv_eq. rewrite (viewed_cnt _ _ VA), (viewed_cnt _ _ VB).
  destruct (Z.eqb_spec (Z.of_nat (length wa)) (Z.of_nat (length wb))) as [E|E].
  - rewrite Nat2Z.id. apply (mem_eq_spec (length wa) a b [] wa [] wb); auto. lia.
  - exists false. split; auto. split; [discriminate|]. intros ->. congruence.
Qed.

Lemma app_len_inj {B} (a b c d : list B) : a ++ b = c ++ d -> length a = length c -> a = c /\ b = d.
Proof.
  revert c. induction a as [|x a IH]; intros [|y c] E LL; try discriminate; auto.
  cbn [app] in E. injection E as -> E. cbn [length] in LL. destruct (IH c E ltac:(lia)) as (-> & ->). auto.
Qed.

Lemma starts_with_ok v p w wp : viewed mem v w -> viewed mem p wp ->
  exists r, sv_starts_with mem v p = Ok r /\ (r = true <-> exists b, w = wp ++ b).
Proof.
  intros V P. unfold sv_starts_with. rewrite (viewed_cnt _ _ V), (viewed_cnt _ _ P).
  destruct (Z.leb_spec (Z.of_nat (length wp)) (Z.of_nat (length w))) as [L|L].
  - assert (V1 := V). rewrite <- (firstn_skipn (length wp) w) in V1. apply head_view in V1.
    rewrite firstn_length_le in V1 by lia.
    destruct (sv_eq_ok p _ wp _ P V1) as (r & E & R). exists r. split; auto. rewrite R. split.
    + intros E1. exists (skipn (length wp) w). rewrite E1 at 1. symmetry. apply firstn_skipn.
    + intros (b & ->). rewrite firstn_app, Nat.sub_diag. cbn [firstn]. rewrite app_nil_r, firstn_all. auto.
  - exists false. split; auto. split; [discriminate|]. intros (b & ->). rewrite app_length in L. lia.
Qed.

Lemma ends_with_ok v s w ws : viewed mem v w -> viewed mem s ws ->
  exists r, sv_ends_with mem v s = Ok r /\ (r = true <-> exists a, w = a ++ ws).
Proof.
  intros V P. unfold sv_ends_with. pose proof (viewed_cnt _ _ V) as CV. rewrite (viewed_cnt _ _ P), CV.
  destruct (Z.leb_spec (Z.of_nat (length ws)) (Z.of_nat (length w))) as [L|L].
  - set (j := (length w - length ws)%nat). assert (V1 := V). rewrite <- (firstn_skipn j w) in V1. apply tail_view in V1.
    rewrite firstn_length_le, skipn_length in V1 by lia.
    replace (v_off v + Z.of_nat (length w) - Z.of_nat (length ws)) with (v_off v + Z.of_nat j) by lia.
    replace (Z.of_nat (length w - j)) with (Z.of_nat (length ws)) in V1 by lia.
    destruct (sv_eq_ok s _ ws _ P V1) as (r & E & R). exists r. split; auto. rewrite R. split.
    + intros E1. exists (firstn j w). rewrite E1. symmetry. apply firstn_skipn.
    + intros (a & Ea). assert (X : firstn j w ++ skipn j w = a ++ ws) by (rewrite firstn_skipn; auto).
      apply app_len_inj in X as (_ & X); auto. rewrite firstn_length_le by lia. unfold j. rewrite Ea, app_length. lia.
  - exists false. split; auto. split; [discriminate|]. intros (b & ->). rewrite app_length in L. lia.
Qed.

Lemma eq_nocase_spec : forall n a b wa1 wa wb1 wb, viewed mem a (wa1 ++ wa) -> viewed mem b (wb1 ++ wb) ->
  length wa1 = length wb1 -> length wa = n -> length wb = n ->
  exists r, eq_nocase mem n a b (Z.of_nat (length wa1)) = Ok r /\ (r = true <-> map lower wa = map lower wb).
Proof.
  induction n as [|n IH]; intros a b wa1 wa wb1 wb VA VB L1 LA LB; destruct wa as [|x wa]; destruct wb as [|y wb]; cbn [length] in *; try lia; cbn [eq_nocase map].
  - exists true. tauto.
  - rewrite (vread_ok a _ _ _ _ VA eq_refl). cbn [bind]. rewrite (vread_ok b _ _ _ _ VB) by lia. cbn [bind].
    destruct (Z.eqb_spec (lower x) (lower y)) as [EQ|NE].
    + replace (Z.of_nat (length wa1) + 1) with (Z.of_nat (length (wa1 ++ [x]))) by (rewrite app_length; cbn [length]; lia).
      destruct (IH a b (wa1 ++ [x]) wa (wb1 ++ [y]) wb) as (r & E & R); try (rewrite <- app_assoc; auto); try (rewrite !app_length; cbn [length]; lia); try lia.
      rewrite E. exists r. split; auto. rewrite R, EQ. split; [intros ->; auto|intros [= ->]; auto].
    + exists false. split; auto. split; [discriminate|]. intros [= H _]. congruence.
Qed.

Lemma eq_ignorecase_ok a b wa wb : viewed mem a wa -> viewed mem b wb ->
  exists r, sv_eq_ignorecase mem a b = Ok r /\ (r = true <-> map lower wa = map lower wb).
Proof.
  intros VA VB. unfold sv_eq_ignorecase. rewrite (viewed_cnt _ _ VA), (viewed_cnt _ _ VB).
  destruct (Z.eqb_spec (Z.of_nat (length wa)) (Z.of_nat (length wb))) as [E|E].
  - rewrite Nat2Z.id. apply (eq_nocase_spec (length wa) a b [] wa [] wb); auto. lia.
  - exists false. split; auto. split; [discriminate|]. intros H. apply (f_equal (@length _)) in H. rewrite !map_length in H. lia.
Qed.

(** * Numbers *)

Lemma decimal_nonneg ds : Forall (fun c => isdigit c = true) ds -> 0 <= decimal ds.
Proof.
  intros F. unfold decimal. assert (G : forall n, 0 <= n -> 0 <= fold_left (fun n c => 10 * n + (c - 48)) ds n).
  { induction F as [|c ds H F IH]; intros n Hn; cbn [fold_left]; auto. apply IH.
    unfold isdigit in H. apply andb_prop in H as [H _]. apply Z.leb_le in H. lia. }
  apply G. lia.
Qed.

Lemma to_u64_spec v : forall ds n pre rest acc, viewed mem v (pre ++ ds ++ rest) -> longest isdigit ds rest ->
  n = length (ds ++ rest) ->
  to_u64_loop mem n v (Z.of_nat (length pre)) (wrap 64 acc) =
  Ok (wrap 64 (fold_left (fun n c => 10 * n + (c - 48)) ds acc)).
Proof.
  induction ds as [|c ds IH]; intros n pre rest acc V (F & N) ->; cbn [app fold_left].
  - destruct rest as [|c rest]; cbn [length to_u64_loop]; auto.
    cbn [app] in V. rewrite (vread_ok v _ _ _ _ V eq_refl). cbn [bind]. rewrite (N c rest eq_refl). auto.
  - cbn [length to_u64_loop]. cbn [app] in V. rewrite (vread_ok v _ _ _ _ V eq_refl). cbn [bind].
    inversion F; subst. rewrite H1.
    replace (wrap 64 (wrap 64 acc * 10 + c - 48)) with (wrap 64 (10 * acc + (c - 48))).
    2:{ unfold wrap. rewrite <- (Zplus_mod_idemp_l (10 * acc)), <- (Z.mul_mod_idemp_r 10 acc) by lia.
        rewrite Zplus_mod_idemp_l. f_equal. lia. }
    replace (Z.of_nat (length pre) + 1) with (Z.of_nat (length (pre ++ [c]))) by (rewrite app_length; cbn [length]; lia).
    apply (IH _ (pre ++ [c]) rest); auto; [rewrite <- app_assoc; auto|split; auto].
Qed.

Lemma to_u64_ok v w : viewed mem v w ->
  exists ds rest, w = ds ++ rest /\ longest isdigit ds rest /\ sv_to_u64 mem v = Ok (decimal ds mod 2 ^ 64).
Proof.
  intros V. destruct (longest_ex isdigit w) as (ds & rest & -> & H). exists ds, rest. split; auto. split; auto.
  unfold sv_to_u64. rewrite (viewed_cnt _ _ V), Nat2Z.id.
  apply (to_u64_spec v ds _ [] rest 0); auto.
Qed.

Lemma chop_u64_spec : forall ds v n rest acc, viewed mem v (ds ++ rest) -> longest isdigit ds rest ->
  n = length (ds ++ rest) ->
  exists v', chop_u64_loop mem n v (wrap 64 acc) =
  Ok (wrap 64 (fold_left (fun n c => 10 * n + (c - 48)) ds acc), v') /\ viewed mem v' rest /\ inside v' v.
Proof.
  induction ds as [|c ds IH]; intros v n rest acc V (F & N) ->; cbn [app fold_left].
  - pose proof (viewed_cnt _ _ V).
    assert (I : inside v v) by (unfold inside; lia).
    destruct rest as [|c rest]; cbn [length chop_u64_loop app]; [exists v; auto|].
    cbn [app] in V. rewrite (vread_ok v [] c rest 0 V eq_refl). cbn [bind]. rewrite (N c rest eq_refl). eauto.
  - cbn [length chop_u64_loop]. cbn [app] in V. rewrite (vread_ok v [] c (ds ++ rest) 0 V eq_refl). cbn [bind].
    inversion F; subst. rewrite H1.
    replace (wrap 64 (wrap 64 acc * 10 + c - 48)) with (wrap 64 (10 * acc + (c - 48))).
    2:{ unfold wrap. rewrite <- (Zplus_mod_idemp_l (10 * acc)), <- (Z.mul_mod_idemp_r 10 acc) by lia.
        rewrite Zplus_mod_idemp_l. f_equal. lia. }
    pose proof (viewed_cnt _ _ V) as C. cbn [length] in C.
    assert (V1 : viewed mem (View (v_off v + 1) (v_cnt v - 1)) (ds ++ rest)).
    { pose proof (tail_view v [c] (ds ++ rest) V) as X. cbn [length] in X. change (Z.of_nat 1) with 1 in X.
      replace (v_cnt v - 1) with (Z.of_nat (length (ds ++ rest))) by lia. auto. }
    destruct (IH _ _ rest (10 * acc + (c - 48)) V1 ltac:(split; auto) eq_refl) as (v' & E & V' & I).
    exists v'. split; auto. split; auto. unfold inside in *. cbn [v_off v_cnt] in I. lia.
Qed.

Lemma chop_u64_ok v w : viewed mem v w ->
  exists ds rest v', w = ds ++ rest /\ longest isdigit ds rest /\ sv_chop_u64 mem v = Ok (decimal ds mod 2 ^ 64, v') /\
    viewed mem v' rest /\ inside v' v.
Proof.
  intros V. destruct (longest_ex isdigit w) as (ds & rest & -> & H). exists ds, rest.
  destruct (chop_u64_spec ds v _ rest 0 V H eq_refl) as (v' & E & V' & I).
  exists v'. split; auto. split; auto. unfold sv_chop_u64. rewrite (viewed_cnt _ _ V), Nat2Z.id. auto.
Qed.

(** * Chopping by a text *)

Lemma find_sv_spec v d wd : viewed mem d wd ->
  forall fuel x y, viewed mem v (x ++ y) -> (length wd <= length y)%nat -> (length y < fuel + length wd)%nat ->
  exists a b, y = a ++ b /\ find_sv mem fuel v d (Z.of_nat (length x)) = Ok (Z.of_nat (length (x ++ a))) /\
   (length wd <= length b)%nat /\
   ((length b = length wd)%nat \/ exists b', b = wd ++ b' /\ b' <> []) /\
   forall a1 b1, y = a1 ++ wd ++ b1 -> (length a <= length a1)%nat.
Proof.
  intros D. induction fuel as [|fuel IH]; intros x y V L HF; [lia|]. cbn [find_sv].
  pose proof (viewed_cnt _ _ V) as C. pose proof (viewed_cnt _ _ D) as CD. pose proof (viewed_len _ _ V) as LV.
  unfold fits in FITS. rewrite app_length in *.
  replace (wrap 64 (Z.of_nat (length x) + v_cnt d)) with (Z.of_nat (length x) + v_cnt d) by (unfold wrap; rewrite Z.mod_small; lia).
  destruct (Z.ltb_spec (Z.of_nat (length x) + v_cnt d) (v_cnt v)) as [LT|GE].
  - assert (V1 := V). rewrite <- (firstn_skipn (length wd) y) in V1.
    pose proof (viewed_sub v x (firstn (length wd) y) (skipn (length wd) y) V1) as VW.
    rewrite firstn_length_le in VW by lia. rewrite <- CD in VW.
    destruct (sv_eq_ok _ d _ wd VW D) as (r & -> & R). cbn [bind]. destruct r.
    + assert (E : firstn (length wd) y = wd) by (apply R; auto).
      exists [], y. split; auto. rewrite app_nil_r. split; auto. split; auto. split.
      * right. exists (skipn (length wd) y). split; [rewrite <- E at 1; symmetry; apply firstn_skipn|].
        intros E0. apply (f_equal (@length _)) in E0. rewrite skipn_length in E0. cbn [length] in E0. lia.
      * intros; cbn [length]; lia.
    + destruct y as [|c y]; [cbn [length] in *; lia|]. cbn [length] in *.
      replace (Z.of_nat (length x) + 1) with (Z.of_nat (length (x ++ [c]))) by (rewrite app_length; cbn [length]; lia).
      destruct (IH (x ++ [c]) y) as (a & b & -> & E & Lb & S & M); [rewrite <- app_assoc; auto|lia|lia|].
      exists (c :: a), b. split; auto. rewrite E. split; [rewrite <- app_assoc; auto|]. split; auto. split; auto.
      intros a1 b1 E1. destruct a1 as [|c1 a1].
      * exfalso. assert (false = true); [|discriminate]. apply R. cbn [app] in E1. rewrite E1, firstn_app, Nat.sub_diag.
        cbn [firstn]. rewrite app_nil_r, firstn_all. auto.
      * cbn [app] in E1. injection E1 as -> E1. apply M in E1. cbn [length]. lia.
  - exists [], y. split; auto. rewrite app_nil_r. split; auto. split; auto. split; [left; lia|]. intros; cbn [length]; lia.
Qed.

(** The delimiter is found unless it is the very end of the view. *)
Lemma chop_by_sv_all v d w wd : viewed mem v w -> viewed mem d wd -> (length wd <= length w)%nat ->
  exists r v' a, sv_chop_by_sv mem v d = Ok (r, v') /\ viewed mem r a /\ inside r v /\ inside v' v /\
   ((w = a /\ viewed mem v' [] /\ forall x y, w = x ++ wd ++ y -> y = []) \/
    (exists b, b <> [] /\ w = a ++ wd ++ b /\ viewed mem v' b /\ first_occ wd a b)).
Proof.
  intros V D L. unfold sv_chop_by_sv.
  pose proof (viewed_cnt _ _ V) as C. pose proof (viewed_cnt _ _ D) as CD. pose proof (viewed_len _ _ V) as LV.
  unfold fits in FITS.
  destruct (find_sv_spec v d wd D (S (Z.to_nat (v_cnt v))) [] w V L) as (a & b & -> & E & Lb & S & M); [lia|].
  cbn [length app] in E. change (Z.of_nat 0) with 0 in E. rewrite E. cbn [bind]. rewrite app_length in *.
  replace (wrap 64 (Z.of_nat (length a) + v_cnt d)) with (Z.of_nat (length a) + v_cnt d) by (unfold wrap; rewrite Z.mod_small; lia).
  replace (wrap 64 (v_cnt v - (Z.of_nat (length a) + v_cnt d))) with (Z.of_nat (length b) - v_cnt d) by (unfold wrap; rewrite Z.mod_small; lia).
  destruct S as [S|(b' & -> & NB)].
  - replace (_ =? v_cnt v) with true by (symmetry; apply Z.eqb_eq; lia).
    do 2 eexists. exists (a ++ b). split; [reflexivity|]. split.
    { assert (V1 := V). rewrite <- (app_nil_r (a ++ b)) in V1. apply head_view in V1. rewrite app_length in V1.
      replace (Z.of_nat (length a) + v_cnt d) with (Z.of_nat (length a + length b)) by lia. auto. }
    split; [unfold inside; cbn [v_off v_cnt]; lia|]. split; [unfold inside; cbn [v_off v_cnt]; lia|].
    left. split; auto. split.
    { assert (V1 := V). rewrite <- (app_nil_r (a ++ b)) in V1. apply tail_view in V1. rewrite app_length in V1. cbn [length] in V1.
      replace (Z.of_nat (length a) + v_cnt d) with (Z.of_nat (length a + length b)) by lia.
      replace (Z.of_nat (length b) - v_cnt d) with 0 by lia. auto. }
    intros x y E1. pose proof (M x y E1) as LX.
    apply (f_equal (@length _)) in E1. rewrite !app_length in E1. destruct y; auto. cbn [length] in E1. lia.
  - rewrite app_length in *. assert (0 < length b')%nat by (destruct b'; [congruence|cbn [length]; lia]).
    replace (_ =? v_cnt v) with false by (symmetry; apply Z.eqb_neq; lia).
    do 2 eexists. exists a. split; [reflexivity|]. split; [eapply head_view; eauto|].
    split; [unfold inside; cbn [v_off v_cnt]; lia|]. split; [unfold inside; cbn [v_off v_cnt]; lia|].
    right. exists b'. split; auto. split; auto. split; [|exact M].
    assert (V1 := V). rewrite app_assoc in V1. apply tail_view in V1. rewrite app_length in V1.
    replace (Z.of_nat (length a) + v_cnt d) with (Z.of_nat (length a + length wd)) by lia.
    replace (Z.of_nat (length wd + length b') - v_cnt d) with (Z.of_nat (length b')) by lia. auto.
Qed.
Lemma chop_by_sv_ok v d w wd : viewed mem v w -> viewed mem d wd -> (length wd <= length w)%nat ->
  (forall a, w <> a ++ wd) ->
  exists r v' a, sv_chop_by_sv mem v d = Ok (r, v') /\ viewed mem r a /\ inside r v /\ inside v' v /\
   ((w = a /\ viewed mem v' [] /\ forall x y, w <> x ++ wd ++ y) \/
    (exists b, w = a ++ wd ++ b /\ viewed mem v' b /\ first_occ wd a b)).
Proof.
  intros V D L NE. destruct (chop_by_sv_all v d w wd V D L) as (r & v' & a & E & V1 & I1 & I2 & H). exists r, v', a.
  split; auto. split; auto. split; auto. split; auto. destruct H as [(H1 & H2 & H3)|(b & _ & H)]; [left|right; eauto].
  split; auto. split; auto. intros x y Q. assert (y = []) by eauto. subst y. rewrite app_nil_r in Q. apply (NE x Q).
Qed.
(** A delimiter longer than the view *)
Lemma chop_by_sv_longer v d w wd : viewed mem v w -> viewed mem d wd -> (length w < length wd)%nat ->
  exists r v', sv_chop_by_sv mem v d = Ok (r, v') /\ viewed mem r [] /\ inside r v /\
    v_off v' = v_off v + Z.of_nat (length wd) /\ v_cnt v' = 2 ^ 64 - (Z.of_nat (length wd) - Z.of_nat (length w)).
Proof.
  intros V D L. unfold sv_chop_by_sv.
  pose proof (viewed_cnt _ _ V) as C. pose proof (viewed_cnt _ _ D) as CD. pose proof (viewed_len _ _ V) as LV. pose proof (viewed_len _ _ D) as LD.
  unfold fits in FITS. cbn [find_sv].
  replace (wrap 64 (0 + v_cnt d)) with (v_cnt d) by (unfold wrap; rewrite Z.mod_small; lia).
  replace (v_cnt d <? v_cnt v) with false by (symmetry; apply Z.ltb_ge; lia). cbn [bind].
  replace (wrap 64 (0 + v_cnt d)) with (v_cnt d) by (unfold wrap; rewrite Z.mod_small; lia).
  replace (v_cnt d =? v_cnt v) with false by (symmetry; apply Z.eqb_neq; lia).
  do 2 eexists. split; [reflexivity|]. cbn [v_off v_cnt]. split; [|split; [|split; [lia|]]].
  - apply (head_view v [] w). auto.
  - unfold inside. cbn [v_off v_cnt]. lia.
  - unfold wrap. replace (v_cnt v - (0 + v_cnt d)) with (2 ^ 64 - (Z.of_nat (length wd) - Z.of_nat (length w)) + (-1) * 2 ^ 64) by lia.
    rewrite Z.mod_add by lia. rewrite Z.mod_small; lia.
Qed.
End Mem.

Lemma from_cstr_ok s rest : Forall (fun c => c <> 0) s ->
  exists v, sv_from_cstr (s ++ 0 :: rest) = Ok v /\ viewed (s ++ 0 :: rest) v s.
Proof.
  intros F. unfold sv_from_cstr.
  assert (E : cstrlen (s ++ 0 :: rest) = Ok (Z.of_nat (length s))).
  { induction F as [|c s H F IH]; cbn [app cstrlen length]; auto.
    replace (c =? 0) with false by (symmetry; apply Z.eqb_neq; auto). rewrite IH. cbn [bind]. f_equal. lia. }
  rewrite E. cbn [bind]. eexists. split; [reflexivity|]. exists [], (0 :: rest). auto.
Qed.
