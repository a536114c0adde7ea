(** Proofs about the substring replacing functions of str.c. *)
From Coq Require Import ZArith List Bool Lia.
From Verif Require Import Base ArrayLemmas StrModel StrProofs.
Import ListNotations.
Open Scope Z_scope.
Local Arguments Z.add : simpl never.
Local Arguments Z.sub : simpl never.
Local Arguments Z.mul : simpl never.
Local Arguments Z.of_nat : simpl never.
Local Arguments Z.to_nat : simpl never.
Local Arguments Z.pow : simpl never.

(** * Specifications *)
(** [t] is [s] with [k] occurrences of [old], found scanning from the left,
    replaced by [new]. *)
Inductive replaced (old new : list Z) : list Z -> nat -> list Z -> Prop :=
| rep_nil : replaced old new [] 0 []
| rep_hit s k t : replaced old new s k t -> replaced old new (old ++ s) (S k) (new ++ t)
| rep_miss c s k t : (forall r, c :: s <> old ++ r) -> replaced old new s k t ->
    replaced old new (c :: s) k (c :: t).

(** [t] is [s] where, scanning from the left, the first pair whose old text is
    found at the position is applied. *)
Inductive replaced_ext (pairs : list (list Z * list Z)) : list Z -> list Z -> Prop :=
| rex_nil : replaced_ext pairs [] []
| rex_hit ps1 old new ps2 s t : pairs = ps1 ++ (old, new) :: ps2 -> old ++ s <> [] ->
    (forall o n r, In (o, n) ps1 -> old ++ s <> o ++ r) ->
    replaced_ext pairs s t -> replaced_ext pairs (old ++ s) (new ++ t)
| rex_miss c s t : (forall o n r, In (o, n) pairs -> c :: s <> o ++ r) ->
    replaced_ext pairs s t -> replaced_ext pairs (c :: s) (c :: t).

(** * Helpers *)
Lemma is_prefix_spec p : forall s, is_prefix p s = true <-> exists r, s = p ++ r.
Proof.
  induction p as [|x p IH]; intros s; cbn [is_prefix app].
  - split; eauto.
  - destruct s as [|y s].
    + split; [discriminate|]. intros (r & H). discriminate.
    + rewrite andb_true_iff, Z.eqb_eq, IH. split.
      * intros (-> & r & ->). eauto.
      * intros (r & [= -> ->]). eauto.
Qed.

Lemma matches_at_spec pre s p : matches_at (pre ++ s) (Z.of_nat (length pre)) p = is_prefix p s.
Proof.
  unfold matches_at. rewrite Nat2Z.id, skipn_app, skipn_all, Nat.sub_diag. reflexivity.
Qed.

Lemma put_spec2 l p m : (length l <= length m)%nat ->
  put (p ++ m) (Z.of_nat (length p)) l = Ok (p ++ map Some l ++ skipn (length l) m).
Proof.
  intros H. rewrite <- (firstn_skipn (length l) m) at 1. rewrite put_spec; auto.
  apply firstn_length_le; auto.
Qed.

Lemma put_oob : forall l a i, 0 <= i -> i <= Z.of_nat (length a) ->
  Z.of_nat (length a) < i + Z.of_nat (length l) -> put a i l = Bad OutOfBounds.
Proof.
  induction l as [|c l IH]; intros a i H1 H2 H3; cbn [length put] in *; [lia|].
  destruct (Z.eq_dec i (Z.of_nat (length a))) as [E|E].
  - rewrite aset_oob by lia. reflexivity.
  - unfold aset. replace (0 <=? i) with true by (symmetry; apply Z.leb_le; lia).
    replace (i <? _) with true by (symmetry; apply Z.ltb_lt; lia). cbn [andb bind].
    apply IH; rewrite ?update_length; lia.
Qed.

Lemma cread_mid s1 c s2 i : i = Z.of_nat (length s1) -> cread (s1 ++ c :: s2) i = Ok c.
Proof.
  intros ->. unfold cread. replace (_ <? 0) with false by (symmetry; apply Z.ltb_ge; lia).
  rewrite app_length. cbn [length]. replace (_ =? _) with false by (symmetry; apply Z.eqb_neq; lia).
  rewrite Nat2Z.id, nth_error_app2 by lia. rewrite Nat.sub_diag. reflexivity.
Qed.

Lemma copy_spec : forall m n s1 s2 p j q i k, n = length m -> length j = n ->
  i = Z.of_nat (length s1) -> k = Z.of_nat (length p) ->
  copy n (s1 ++ m ++ s2) i (p ++ j ++ q) k = Ok (p ++ map Some m ++ q).
Proof.
  induction m as [|c m IH]; intros n s1 s2 p j q i k -> Lj -> ->; destruct j as [|y j]; cbn [length] in Lj; try lia;
    cbn [length copy map app].
  - auto.
  - rewrite cread_mid by auto. cbn [bind]. rewrite aset_mid by auto. cbn [bind].
    replace (s1 ++ c :: m ++ s2) with ((s1 ++ [c]) ++ m ++ s2) by (rewrite <- app_assoc; auto).
    replace (p ++ Some c :: j ++ q) with ((p ++ [Some c]) ++ j ++ q) by (rewrite <- app_assoc; auto).
    rewrite IH; auto; try (rewrite app_length; cbn [length]; lia). rewrite <- app_assoc. auto.
Qed.

(** * str_replace_at_offset *)
Lemma replace_at_offset_ok pre win post new :
  Z.of_nat (length (pre ++ win ++ post)) + Z.of_nat (length new) < 2 ^ 63 ->
  str_replace_at_offset (pre ++ win ++ post) (Z.of_nat (length pre)) (Z.of_nat (length win)) new
  = Ok (map Some (pre ++ new ++ post) ++ [Some 0]).
Proof.
  intros L. unfold str_replace_at_offset. rewrite !app_length in *.
  assert (W : wrap 64 (Z.of_nat (length pre + (length win + length post)) - Z.of_nat (length win) + Z.of_nat (length new) + 1)
    = Z.of_nat (length pre + length new + length post + 1)) by (unfold wrap; rewrite Z.mod_small; lia).
  rewrite W. clear W. rewrite !Nat2Z.id.
  assert (R : repeat (@None Z) (length pre + length new + length post + 1) =
     repeat None (length pre) ++ repeat None (length new) ++ repeat None (length post) ++ [None]).
  { replace [None] with (repeat (@None Z) 1) by auto. rewrite <- !repeat_app. f_equal. lia. }
  rewrite R. clear R.
  pose proof (copy_spec pre (length pre) [] (win ++ post) [] (repeat None (length pre))
    (repeat None (length new) ++ repeat None (length post) ++ [None]) 0 0 eq_refl (repeat_length _ _) eq_refl eq_refl) as C1.
  cbn [app] in C1. rewrite C1. cbn [bind]. clear C1.
  pose proof (copy_spec new (length new) [] [] (map Some pre) (repeat None (length new))
    (repeat None (length post) ++ [None]) 0 (Z.of_nat (length pre)) eq_refl (repeat_length _ _) eq_refl ltac:(rewrite map_length; auto)) as C2.
  cbn [app] in C2. rewrite app_nil_r in C2. rewrite C2. cbn [bind]. clear C2.
  assert (W : wrap 64 (Z.of_nat (length pre) + Z.of_nat (length win)) = Z.of_nat (length pre + length win)) by (unfold wrap; rewrite Z.mod_small; lia).
  rewrite W. clear W.
  replace (Z.to_nat _) with (length post) by lia.
  pose proof (copy_spec post (length post) (pre ++ win) [] (map Some pre ++ map Some new) (repeat None (length post)) [None]
    (Z.of_nat (length pre + length win)) (Z.of_nat (length new) + Z.of_nat (length pre)) eq_refl (repeat_length _ _)
    ltac:(rewrite app_length; lia) ltac:(rewrite app_length, !map_length; lia)) as C3.
  rewrite app_nil_r, <- !app_assoc in C3. rewrite C3. cbn [bind]. clear C3.
  rewrite !app_assoc. rewrite aset_mid.
  - rewrite !map_app. rewrite <- !app_assoc. reflexivity.
  - rewrite !app_length, !map_length. lia.
Qed.

(** * str_replace_all *)
Lemma replaced_total old new : old <> [] -> forall s, exists k t, replaced old new s k t.
Proof.
  intros HO s. remember (length s) as n eqn:En. revert s En.
  induction n as [n IH] using lt_wf_ind. intros s ->. destruct s as [|c s].
  - exists 0%nat, []. constructor.
  - destruct (is_prefix old (c :: s)) eqn:P.
    + apply is_prefix_spec in P as (r & E). rewrite E. destruct (IH (length r)) with (s := r) as (k & t & R); auto.
      { apply (f_equal (@length _)) in E. rewrite app_length in E. destruct old; [congruence|]. cbn [length] in *. lia. }
      exists (S k), (new ++ t). constructor; auto.
    + destruct (IH (length s)) with (s := s) as (k & t & R); auto.
      exists k, (c :: t). apply rep_miss; auto. intros r E.
      assert (X : is_prefix old (c :: s) = true) by (apply is_prefix_spec; eauto). congruence.
Qed.

Lemma replaced_length old new s k t : replaced old new s k t ->
  Z.of_nat (length t) = Z.of_nat (length s) + Z.of_nat k * (Z.of_nat (length new) - Z.of_nat (length old))
  /\ Z.of_nat k * Z.of_nat (length old) <= Z.of_nat (length s).
Proof.
  induction 1; cbn [length]; try rewrite !app_length; rewrite ?Nat2Z.inj_succ in *; rewrite ?Nat2Z.inj_add in *; lia.
Qed.

Lemma replace_loop_ok old new : old <> [] -> forall s k t, replaced old new s k t ->
  forall fuel pre dn junk, (length s < fuel)%nat -> (length t <= length junk)%nat ->
  Z.of_nat (length (pre ++ s)) < 2 ^ 31 -> Z.of_nat (length dn + length junk) < 2 ^ 31 ->
  replace_loop fuel (pre ++ s) old new (Z.of_nat (length pre)) (Z.of_nat (length dn)) (map Some dn ++ junk)
  = Ok (map Some (dn ++ t) ++ skipn (length t) junk, Z.of_nat (length (dn ++ t))).
Proof.
  intros HO. induction 1 as [|s k t R IH|c s k t M R IH]; intros fuel pre dn junk HF HJ H1 H2;
    (destruct fuel as [|fuel]; [lia|]); cbn [replace_loop].
  - rewrite !app_nil_r in *. unfold wrap. rewrite Z.mod_small by lia.
    rewrite Z.ltb_irrefl. cbn [length skipn]. reflexivity.
  - rewrite !app_length in *.
    assert (LO : (0 < length old)%nat) by (destruct old; [congruence|cbn [length]; lia]).
    replace (_ <? _) with true by (symmetry; apply Z.ltb_lt; unfold wrap; rewrite Z.mod_small; lia).
    rewrite matches_at_spec. replace (is_prefix old (old ++ s)) with true by (symmetry; apply is_prefix_spec; eauto).
    replace (Z.of_nat (length dn)) with (Z.of_nat (length (map Some dn))) at 1 by (rewrite map_length; auto).
    rewrite put_spec2 by lia. cbn [bind].
    rewrite !to_int32_id by lia.
    replace (Z.of_nat (length pre) + Z.of_nat (length old)) with (Z.of_nat (length (pre ++ old))) by (rewrite app_length; lia).
    replace (Z.of_nat (length dn) + Z.of_nat (length new)) with (Z.of_nat (length (dn ++ new))) by (rewrite app_length; lia).
    rewrite (app_assoc pre old s). rewrite (app_assoc (map Some dn)), <- map_app.
    rewrite IH; try (rewrite ?app_length, ?skipn_length; lia).
    rewrite !app_assoc. rewrite skipn_skipn, !app_length. f_equal. f_equal; [|lia]. f_equal. f_equal. lia.
  - rewrite app_length in H1. cbn [length] in *. rewrite app_length.
    replace (_ <? _) with true by (symmetry; apply Z.ltb_lt; unfold wrap; cbn [length]; rewrite Z.mod_small; lia).
    rewrite matches_at_spec. replace (is_prefix old (c :: s)) with false.
    2:{ symmetry. apply not_true_is_false. intros E. apply is_prefix_spec in E as (r & E). apply (M r E). }
    rewrite cread_mid by auto. cbn [bind].
    destruct junk as [|y junk]; cbn [length] in HJ; [lia|]. rewrite aset_mid by (rewrite map_length; auto). cbn [bind].
    replace (pre ++ c :: s) with ((pre ++ [c]) ++ s) by (rewrite <- app_assoc; auto).
    replace (map Some dn ++ Some c :: junk) with (map Some (dn ++ [c]) ++ junk) by (rewrite map_app, <- app_assoc; auto).
    replace (Z.of_nat (length pre) + 1) with (Z.of_nat (length (pre ++ [c]))) by (rewrite app_length; cbn [length]; lia).
    replace (Z.of_nat (length dn) + 1) with (Z.of_nat (length (dn ++ [c]))) by (rewrite app_length; cbn [length]; lia).
    cbn [length] in H2.
    rewrite IH; try (rewrite ?app_length; cbn [length]; lia). rewrite <- !app_assoc. cbn [app skipn length]. reflexivity.
Qed.

(** Exact behaviour: the right text, except that the NUL is written one byte
    behind the buffer when nothing is replaced and the buffer has no slack. *)
Lemma replace_all_exact str old new : old <> [] ->
  Z.of_nat (length str) * (Z.of_nat (length new) / Z.of_nat (length old) + 1) < 2 ^ 31 ->
  exists k t, replaced old new str k t /\
  ((k = 0%nat /\ ((length new < length old)%nat \/ str = [])) /\
     str_replace_all str old new = Bad OutOfBounds
   \/ ~ (k = 0%nat /\ ((length new < length old)%nat \/ str = [])) /\
     exists rest, str_replace_all str old new = Ok (map Some t ++ Some 0 :: rest)).
Proof.
  intros HO L. destruct (replaced_total old new HO str) as (k & t & R).
  exists k, t. split; auto. destruct (replaced_length _ _ _ _ _ R) as (L1 & L2).
  assert (LO : 0 < Z.of_nat (length old)) by (destruct old; [congruence|cbn [length]; lia]).
  unfold str_replace_all. replace (_ =? 0) with false by (symmetry; apply Z.eqb_neq; lia).
  set (o := Z.of_nat (length old)) in *. set (n := Z.of_nat (length new)) in *. set (l := Z.of_nat (length str)) in *.
  set (K := Z.of_nat k) in *. set (q := n / o) in *.
  pose proof (Z.div_mod n o ltac:(lia)) as DM. fold q in DM. pose proof (Z.mod_pos_bound n o LO) as MB.
  assert (Q0 : 0 <= q) by (apply Z.div_pos; lia).
  assert (LT : Z.of_nat (length t) <= l * (q + 1)) by nia.
  assert (LTS : (length t <= length (repeat (@None Z) (Z.to_nat (l * (q + 1)))))%nat) by (rewrite repeat_length; lia).
  pose proof (replace_loop_ok old new HO str k t R (S (length str)) [] [] (repeat None (Z.to_nat (l * (q + 1))))
    ltac:(lia) LTS ltac:(cbn [app]; fold l; nia) ltac:(cbn [length Nat.add]; rewrite repeat_length; lia)) as RL.
  cbn [app map length] in RL. change (Z.of_nat 0) with 0 in RL. rewrite RL. cbn [bind]. clear RL.
  destruct (Z.eq_dec (Z.of_nat (length t)) (l * (q + 1))) as [E|E].
  - left. split.
    + assert (K0 : K = 0) by nia. split; [unfold K in K0; lia|].
      rewrite K0 in L1. assert (l * q = 0) by lia.
      destruct (Z.eq_dec l 0) as [El|El]; [right; destruct str; auto; unfold l in El; cbn [length] in El; lia|].
      left. assert (q = 0) by nia. unfold n, o in *. assert (n < o) by nia. unfold n, o in *. lia.
    + apply aset_oob. right. rewrite app_length, map_length, skipn_length, repeat_length. lia.
  - right. split.
    + intros (K0 & C). apply E. unfold K in L1. subst k. destruct C as [C|C].
      * assert (q = 0) by (apply Z.div_small; unfold n, o; lia). lia.
      * assert (l = 0) by (unfold l; subst str; reflexivity). lia.
    + destruct (skipn (length t) (repeat None (Z.to_nat (l * (q + 1))))) as [|y rest] eqn:SK.
      * apply (f_equal (@length _)) in SK. rewrite skipn_length, repeat_length in SK. cbn [length] in SK. lia.
      * rewrite aset_mid by (rewrite map_length; auto). eauto.
Qed.

(** * str_replace_all_ext *)
Lemma min_old_le : forall (pairs : list (list Z * list Z)) m o n, In (o, n) pairs ->
  fold_left (fun m p => if Z.of_nat (length (fst p)) <? m then Z.of_nat (length (fst p)) else m) pairs m <= Z.of_nat (length o).
Proof.
  assert (G : forall (pairs : list (list Z * list Z)) m, fold_left (fun m p => if Z.of_nat (length (fst p)) <? m then Z.of_nat (length (fst p)) else m) pairs m <= m).
  { induction pairs as [|p pairs IH]; intros m; cbn [fold_left]; [lia|].
    etransitivity; [apply IH|]. destruct (_ <? m) eqn:C; [apply Z.ltb_lt in C|]; lia. }
  induction pairs as [|p pairs IH]; intros m o n I; [destruct I|]; destruct I as [->|H]; cbn [fold_left].
  - cbn [fst]. etransitivity; [apply G|]. destruct (_ <? m) eqn:C; [lia|apply Z.ltb_ge in C; lia].
  - eapply IH; eauto.
Qed.

Lemma max_new_ge : forall (pairs : list (list Z * list Z)) m o n, In (o, n) pairs ->
  Z.of_nat (length n) <= fold_left (fun m p => if Z.of_nat (length (snd p)) >? m then Z.of_nat (length (snd p)) else m) pairs m.
Proof.
  assert (G : forall (pairs : list (list Z * list Z)) m, m <= fold_left (fun m p => if Z.of_nat (length (snd p)) >? m then Z.of_nat (length (snd p)) else m) pairs m).
  { induction pairs as [|p pairs IH]; intros m; cbn [fold_left]; [lia|].
    etransitivity; [|apply IH]. rewrite Z.gtb_ltb. destruct (m <? _) eqn:C; [apply Z.ltb_lt in C|]; lia. }
  induction pairs as [|p pairs IH]; intros m o n I; [destruct I|]; destruct I as [->|H]; cbn [fold_left].
  - cbn [snd]. etransitivity; [|apply G]. rewrite Z.gtb_ltb. destruct (m <? _) eqn:C; [lia|apply Z.ltb_ge in C; lia].
  - eapply IH; eauto.
Qed.

Lemma used_pair_spec pre s pairs :
  match used_pair (pre ++ s) (Z.of_nat (length pre)) pairs with
  | Some (old, new) => exists ps1 ps2 r, pairs = ps1 ++ (old, new) :: ps2 /\ s = old ++ r /\
      forall o n r, In (o, n) ps1 -> s <> o ++ r
  | None => forall o n r, In (o, n) pairs -> s <> o ++ r
  end.
Proof.
  unfold used_pair. induction pairs as [|[o n] pairs IH]; cbn [find fst].
  - intros o n r [].
  - rewrite matches_at_spec.
    destruct ((Z.of_nat (length pre) + Z.of_nat (length o) <=? Z.of_nat (length (pre ++ s))) && is_prefix o s) eqn:C.
    + apply andb_prop in C as [_ C]. apply is_prefix_spec in C as (r & ->).
      exists [], pairs, r. split; [auto|]. split; [auto|]. intros ? ? ? [].
    + assert (NP : forall r, s <> o ++ r).
      { intros r ->. apply andb_false_elim in C as [C|C].
        - apply Z.leb_gt in C. rewrite !app_length in C. lia.
        - assert (X : is_prefix o (o ++ r) = true) by (apply is_prefix_spec; eauto). congruence. }
      destruct (find _ pairs) as [[o' n']|].
      * destruct IH as (ps1 & ps2 & r & -> & -> & H). exists ((o, n) :: ps1), ps2, r. split; [auto|]. split; [auto|].
        intros o1 n1 r1 [[= <- <-]|H1]; auto. eapply H; eauto.
      * intros o1 n1 r1 [[= <- <-]|H1]; auto. eapply IH; eauto.
Qed.

Lemma replaced_ext_total pairs : (forall o n, In (o, n) pairs -> o <> []) ->
  forall s, exists t, replaced_ext pairs s t.
Proof.
  intros HP s. remember (length s) as n eqn:En. revert s En.
  induction n as [n IH] using lt_wf_ind. intros s ->. destruct s as [|c s].
  - exists []. constructor.
  - pose proof (used_pair_spec [] (c :: s) pairs) as U. destruct (used_pair _ _ pairs) as [[o nw]|].
    + destruct U as (ps1 & ps2 & r & Ep & E & F). rewrite E in *.
      assert (HO : o <> []) by (apply (HP o nw); rewrite Ep; apply in_or_app; right; left; auto).
      destruct (IH (length r)) with (s := r) as (t & R); auto.
      { rewrite app_length. destruct o; [congruence|]. cbn [length] in *. lia. }
      exists (nw ++ t). eapply rex_hit; eauto. destruct o; discriminate || congruence.
    + destruct (IH (length s)) with (s := s) as (t & R); auto.
      exists (c :: t). apply rex_miss; auto.
Qed.

Lemma find_ext_eq {B} (f g : B -> bool) l : (forall x, f x = g x) -> find f l = find g l.
Proof. intros H. induction l; cbn [find]; auto. rewrite H, IHl. auto. Qed.

Lemma used_pair_shift pre s pairs :
  used_pair (pre ++ s) (Z.of_nat (length pre)) pairs = used_pair s 0 pairs.
Proof.
  unfold used_pair. apply find_ext_eq. intros [o n]. cbn [fst].
  change 0 with (Z.of_nat (length (@nil Z))). change s with ([] ++ s) at 4.
  rewrite !matches_at_spec. f_equal. rewrite app_length. cbn [length app].
  destruct (Z.leb_spec (Z.of_nat (length pre) + Z.of_nat (length o)) (Z.of_nat (length pre + length s)));
  destruct (Z.leb_spec (Z.of_nat 0 + Z.of_nat (length o)) (Z.of_nat (length s))); auto; lia.
Qed.

Lemma replace_ext_loop_spec pairs : (forall o n, In (o, n) pairs -> o <> []) ->
  forall n s, (length s < n)%nat -> exists t, replaced_ext pairs s t /\
  forall fuel pre dn junk, (length s < fuel)%nat ->
  replace_ext_loop fuel (pre ++ s) pairs (Z.of_nat (length pre)) (Z.of_nat (length dn)) (map Some dn ++ junk)
  = if (length t <=? length junk)%nat
    then Ok (map Some (dn ++ t) ++ skipn (length t) junk, Z.of_nat (length (dn ++ t)))
    else Bad OutOfBounds.
Proof.
  intros HP. induction n as [|n IH]; intros s Hn; [lia|]. destruct s as [|c s].
  - exists []. split; [constructor|]. intros fuel pre dn junk HF. destruct fuel; [lia|]. cbn [replace_ext_loop length Nat.leb skipn].
    rewrite !app_nil_r. replace (_ <? _) with false by (symmetry; apply Z.ltb_ge; lia). auto.
  - pose proof (used_pair_spec [] (c :: s) pairs) as U.
    rewrite used_pair_shift in U. destruct (used_pair (c :: s) 0 pairs) as [[o nw]|] eqn:EU.
    + destruct U as (ps1 & ps2 & r & Ep & E & F).
      assert (HO : o <> []) by (apply (HP o nw); rewrite Ep; apply in_or_app; right; left; auto).
      assert (LO : (0 < length o)%nat) by (destruct o; [congruence|cbn [length]; lia]).
      assert (LE : length (c :: s) = (length o + length r)%nat) by (rewrite E, app_length; auto).
      destruct (IH r ltac:(lia)) as (t & R & H).
      exists (nw ++ t). split. { rewrite E in *. eapply rex_hit; eauto. rewrite <- E. discriminate. }
      intros fuel pre dn junk HF. destruct fuel as [|fuel]; [lia|]. cbn [replace_ext_loop].
      rewrite used_pair_shift, EU. replace (_ <? _) with true by (symmetry; apply Z.ltb_lt; rewrite app_length; lia).
      rewrite app_length.
      destruct (Nat.leb_spec (length nw) (length junk)) as [J|J].
      * replace (Z.of_nat (length dn)) with (Z.of_nat (length (map Some dn))) at 1 by (rewrite map_length; auto).
        rewrite put_spec2 by lia. cbn [bind].
        replace (Z.of_nat (length pre) + Z.of_nat (length o)) with (Z.of_nat (length (pre ++ o))) by (rewrite app_length; lia).
        replace (Z.of_nat (length dn) + Z.of_nat (length nw)) with (Z.of_nat (length (dn ++ nw))) by (rewrite app_length; lia).
        rewrite E, (app_assoc pre o r), (app_assoc (map Some dn)), <- map_app.
        rewrite H by lia. rewrite skipn_length, skipn_skipn, <- !app_assoc.
        destruct (Nat.leb_spec (length t) (length junk - length nw)); destruct (Nat.leb_spec (length nw + length t) (length junk)); try lia; auto.
        rewrite (Nat.add_comm (length t)). auto.
      * rewrite put_oob; try (rewrite app_length, map_length; lia); try lia. cbn [bind].
        destruct (Nat.leb_spec (length nw + length t) (length junk)); auto. lia.
    + destruct (IH s ltac:(cbn [length] in *; lia)) as (t & R & H).
      exists (c :: t). split. { apply rex_miss; auto. }
      intros fuel pre dn junk HF. destruct fuel as [|fuel]; [lia|]. cbn [replace_ext_loop].
      rewrite used_pair_shift, EU. replace (_ <? _) with true by (symmetry; apply Z.ltb_lt; rewrite app_length; cbn [length]; lia).
      rewrite Nat2Z.id, nth_error_app2, Nat.sub_diag by lia. cbn [nth_error of_option bind length].
      destruct junk as [|y junk].
      * rewrite aset_oob by (rewrite app_length, map_length; cbn [length]; lia). cbn. auto.
      * rewrite aset_mid by (rewrite map_length; auto). cbn [bind length skipn Nat.leb].
        replace (pre ++ c :: s) with ((pre ++ [c]) ++ s) by (rewrite <- app_assoc; auto).
        replace (map Some dn ++ Some c :: junk) with (map Some (dn ++ [c]) ++ junk) by (rewrite map_app, <- app_assoc; auto).
        replace (Z.of_nat (length pre) + 1) with (Z.of_nat (length (pre ++ [c]))) by (rewrite app_length; cbn [length]; lia).
        replace (Z.of_nat (length dn) + 1) with (Z.of_nat (length (dn ++ [c]))) by (rewrite app_length; cbn [length]; lia).
        rewrite H by (cbn [length] in *; lia). rewrite <- !app_assoc. reflexivity.
Qed.

Definition min_len (pairs : list (list Z * list Z)) : Z := Z.min (min_old pairs) (max_new pairs).
Definition max_len (pairs : list (list Z * list Z)) : Z := Z.max (min_old pairs) (max_new pairs).

Lemma replaced_ext_bound pairs s t : 0 <= min_len pairs -> replaced_ext pairs s t ->
  Z.of_nat (length t) * min_len pairs <= Z.of_nat (length s) * max_len pairs.
Proof.
  intros M0. induction 1 as [|ps1 old new ps2 s t Ep _ _ R IH|c s t _ R IH]; cbn [length]; try rewrite !app_length; try lia.
  - assert (I : In (old, new) pairs) by (rewrite Ep; apply in_or_app; right; left; auto).
    pose proof (min_old_le pairs 1000 old new I). pose proof (max_new_ge pairs 0 old new I).
    fold (min_old pairs) in H. fold (max_new pairs) in H0. unfold min_len, max_len in *. nia.
  - unfold min_len, max_len in *. nia.
Qed.

Lemma replace_all_ext_exact str pairs : 1 <= min_len pairs ->
  Z.of_nat (length str) * max_len pairs < 2 ^ 62 ->
  exists t, replaced_ext pairs str t /\
  if Z.of_nat (length t) <=? Z.of_nat (length str) / min_len pairs * max_len pairs
  then exists rest, str_replace_all_ext str pairs = Ok (map Some t ++ Some 0 :: rest, Z.of_nat (length t))
  else str_replace_all_ext str pairs = Bad OutOfBounds.
Proof.
  intros M L.
  assert (HP : forall o n, In (o, n) pairs -> o <> []).
  { intros o n I ->. pose proof (min_old_le pairs 1000 [] n I) as H. fold (min_old pairs) in H. cbn [length] in H. unfold min_len in M. lia. }
  destruct (replace_ext_loop_spec pairs HP (S (length str)) str ltac:(lia)) as (t & R & H).
  exists t. split; auto. unfold str_replace_all_ext.
  replace (if max_new pairs >? min_old pairs then min_old pairs else max_new pairs) with (min_len pairs).
  2:{ unfold min_len. rewrite Z.gtb_ltb. destruct (Z.ltb_spec (min_old pairs) (max_new pairs)); lia. }
  replace (if max_new pairs >? min_old pairs then max_new pairs else min_old pairs) with (max_len pairs).
  2:{ unfold max_len. rewrite Z.gtb_ltb. destruct (Z.ltb_spec (min_old pairs) (max_new pairs)); lia. }
  replace (min_len pairs =? 0) with false by (symmetry; apply Z.eqb_neq; lia).
  set (m := min_len pairs) in *. set (X := max_len pairs) in *. set (l := Z.of_nat (length str)) in *.
  assert (MX : m <= X) by (unfold m, X, min_len, max_len; lia).
  assert (Dl : 0 <= l / m <= l). { split; [apply Z.div_pos; lia|]. apply Z.div_le_upper_bound; nia. }
  assert (W1 : wrap 64 (l / m * X) = l / m * X) by (unfold wrap; apply Z.mod_small; nia).
  assert (W2 : wrap 64 (l / m * X + 1) = l / m * X + 1) by (unfold wrap; apply Z.mod_small; nia).
  rewrite W1, W2. clear W1 W2.
  specialize (H (S (length str)) [] [] (repeat None (Z.to_nat (l / m * X + 1))) ltac:(lia)).
  cbn [app map length] in H. change (Z.of_nat 0) with 0 in H. rewrite H, repeat_length. clear H.
  destruct (Z.leb_spec (Z.of_nat (length t)) (l / m * X)) as [C|C].
  - destruct (Nat.leb_spec (length t) (Z.to_nat (l / m * X + 1))); [|lia]. cbn [bind].
    destruct (skipn (length t) (repeat None (Z.to_nat (l / m * X + 1)))) as [|y rest] eqn:SK.
    + apply (f_equal (@length _)) in SK. rewrite skipn_length, repeat_length in SK. cbn [length] in SK. lia.
    + rewrite aset_mid by (rewrite map_length; auto). cbn [bind]. eauto.
  - destruct (Nat.leb_spec (length t) (Z.to_nat (l / m * X + 1))); auto. cbn [bind].
    rewrite aset_oob; auto. right. rewrite app_length, map_length, skipn_length, repeat_length. lia.
Qed.

Lemma replace_all_ext_ok str pairs : 1 <= min_len pairs -> (min_len pairs | Z.of_nat (length str)) ->
  Z.of_nat (length str) * max_len pairs < 2 ^ 62 ->
  exists t rest, replaced_ext pairs str t /\
    str_replace_all_ext str pairs = Ok (map Some t ++ Some 0 :: rest, Z.of_nat (length t)).
Proof.
  intros M D L. destruct (replace_all_ext_exact str pairs M L) as (t & R & H).
  pose proof (replaced_ext_bound pairs str t ltac:(lia) R) as B.
  destruct D as (q & D). rewrite D in *. rewrite Z.div_mul in H by lia.
  destruct (Z.leb_spec (Z.of_nat (length t)) (q * max_len pairs)) as [C|C].
  - destruct H as (rest & H). eauto.
  - exfalso. nia.
Qed.
