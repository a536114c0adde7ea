(** The hash table: probing terminates, dictionaries refine first-write-wins
    association lists. *)
From Coq Require Import ZArith List Bool Lia Znumtheory Zpow_facts.
From Verif Require Import Base ArrayLemmas HsearchModel.
Import ListNotations.
Open Scope Z_scope.
Local Arguments Z.add : simpl never.
Local Arguments Z.sub : simpl never.
Local Arguments Z.mul : simpl never.
Local Arguments Z.of_nat : simpl never.
Local Arguments Z.to_nat : simpl never.
Local Arguments Z.pow : simpl never.

(** * Triangular probing modulo a power of two *)
(** Twice the n-th triangular number is n (n+1). *)
Definition tri (n : Z) : Z := n * (n + 1) / 2.

Lemma tri2 n : 2 * tri n = n * (n + 1).
Proof.
  unfold tri. assert (E : (n * (n + 1)) mod 2 = 0).
  { rewrite Z.mul_mod, Z.add_mod by lia. pose proof (Z.mod_pos_bound n 2 ltac:(lia)).
    assert (C : n mod 2 = 0 \/ n mod 2 = 1) by lia. destruct C as [-> | ->]; reflexivity. }
  pose proof (Z.div_mod (n * (n + 1)) 2 ltac:(lia)). lia.
Qed.

Lemma tri_succ n : tri (n + 1) = tri n + (n + 1).
Proof. pose proof (tri2 n). pose proof (tri2 (n + 1)). nia. Qed.

Lemma tri_0 : tri 0 = 0.
Proof. reflexivity. Qed.

Lemma pow2_divide_odd m x y : 0 <= m -> x mod 2 = 1 -> (2 ^ m | x * y) -> (2 ^ m | y).
Proof.
  intros Hm Hx Hd. apply Gauss with x; auto. apply rel_prime_sym, rel_prime_Zpower_r; auto.
  apply rel_prime_sym, prime_rel_prime; [apply prime_2|].
  intros D. apply Z.mod_divide in D; lia.
Qed.

Lemma tri_inj k h a b : 0 <= k -> 0 <= a < 2 ^ k -> 0 <= b < 2 ^ k ->
  (h + tri a) mod 2 ^ k = (h + tri b) mod 2 ^ k -> a = b.
Proof.
  assert (W : forall a b, 0 <= k -> 0 <= a -> a < b -> b < 2 ^ k ->
    (h + tri a) mod 2 ^ k = (h + tri b) mod 2 ^ k -> False).
  { clear. intros a b Hk Ha Hab Hb E.
    assert (P : 0 < 2 ^ k) by (apply Z.pow_pos_nonneg; lia).
    assert (D : (2 ^ k | tri b - tri a)).
    { apply Z.mod_divide; [lia|]. replace (tri b - tri a) with ((h + tri b) - (h + tri a)) by lia.
      rewrite Zminus_mod, E, Z.sub_diag. apply Z.mod_0_l; lia. }
    assert (D2 : (2 ^ (k + 1) | (b - a) * (b + a + 1))).
    { replace ((b - a) * (b + a + 1)) with (2 * (tri b - tri a)).
      - rewrite Z.add_1_r, Z.pow_succ_r by lia. apply Z.mul_divide_mono_l; auto.
      - pose proof (tri2 a). pose proof (tri2 b). nia. }
    assert (P2 : 2 ^ (k + 1) = 2 * 2 ^ k) by (rewrite Z.add_1_r, Z.pow_succ_r; lia).
    destruct (Z.eq_dec ((b - a) mod 2) 1) as [O|O].
    - apply pow2_divide_odd in D2; auto; [|lia]. apply Z.divide_pos_le in D2; lia.
    - assert (O2 : (b + a + 1) mod 2 = 1).
      { pose proof (Z.mod_pos_bound (b - a) 2 ltac:(lia)).
        pose proof (Z.div_mod (b - a) 2 ltac:(lia)).
        replace (b + a + 1) with (1 + ((b - a) / 2 + a) * 2) by lia.
        rewrite Z_mod_plus_full. reflexivity. }
      rewrite Z.mul_comm in D2. apply pow2_divide_odd in D2; auto; [|lia].
      apply Z.divide_pos_le in D2; lia. }
  intros Hk Ha Hb E. destruct (Z.lt_trichotomy a b) as [L|[->|L]]; auto; exfalso.
  - apply (W a b); auto; lia.
  - apply (W b a); auto; lia.
Qed.

(** Every slot is visited. *)
Lemma tri_surj k h s : 0 <= k -> 0 <= s < 2 ^ k ->
  exists n, 0 <= n < 2 ^ k /\ (h + tri n) mod 2 ^ k = s.
Proof.
  intros Hk Hs. assert (P : 0 < 2 ^ k) by (apply Z.pow_pos_nonneg; lia).
  set (N := Z.to_nat (2 ^ k)).
  set (f := fun n : nat => (h + tri (Z.of_nat n)) mod 2 ^ k).
  assert (ND : NoDup (map f (seq 0 N))).
  { apply NoDup_nth with (d := f 0%nat). intros i j Hi Hj.
    rewrite map_length, seq_length in *. rewrite !map_nth, !seq_nth by auto. cbn [Nat.add].
    intros E. unfold f in E. apply tri_inj in E; lia. }
  assert (I : incl (map Z.of_nat (seq 0 N)) (map f (seq 0 N))).
  { apply NoDup_length_incl; auto.
    - rewrite !map_length; auto.
    - intros x Hx. apply in_map_iff in Hx as (n & <- & Hn). unfold f.
      pose proof (Z.mod_pos_bound (h + tri (Z.of_nat n)) (2 ^ k) P).
      apply in_map_iff. exists (Z.to_nat ((h + tri (Z.of_nat n)) mod 2 ^ k)). split; [lia|].
      apply in_seq. lia. }
  assert (Hin : In s (map f (seq 0 N))).
  { apply I. apply in_map_iff. exists (Z.to_nat s). split; [lia|]. apply in_seq. lia. }
  apply in_map_iff in Hin as (n & E & Hn). apply in_seq in Hn.
  exists (Z.of_nat n). split; [lia|exact E].
Qed.

(** * Tables *)
Section Table.
Context {V : Type}.
Local Notation hentry := (hentry V).
Implicit Types (es : list (option hentry)) (e : hentry).

Lemma bytes_eqb_spec a : forall b, bytes_eqb a b = true <-> a = b.
Proof.
  induction a as [|x a IH]; destruct b as [|y b]; cbn [bytes_eqb]; split; try congruence; auto.
  - intros H. apply andb_prop in H as [H1 H2]. apply Z.eqb_eq in H1. apply IH in H2. congruence.
  - intros [= -> ->]. rewrite Z.eqb_refl. apply IH; auto.
Qed.

Definition idx (k h n : Z) : Z := (h + tri n) mod 2 ^ k.

Definition slot es (s : Z) : option (option hentry) := nth_error es (Z.to_nat s).

Fixpoint somes es : list hentry :=
  match es with [] => [] | Some e :: es' => e :: somes es' | None :: es' => somes es' end.

Lemma in_somes e es : In e (somes es) <-> In (Some e) es.
Proof.
  induction es as [|[x|] es IH]; cbn [somes In]; try tauto.
  - rewrite IH. split; intros [H|H]; auto; [left; congruence|left; congruence].
  - rewrite IH. intuition discriminate.
Qed.

Record tab_ok (k : Z) es : Prop := {
  t_k : 3 <= k <= 63;
  t_len : Z.of_nat (length es) = 2 ^ k;
  t_reach : forall s e, slot es s = Some (Some e) -> 0 <= s ->
    exists n, 0 <= n < 2 ^ k /\ idx k (keyhash (fst e)) n = s /\
    forall n', 0 <= n' < n -> exists e', slot es (idx k (keyhash (fst e)) n') = Some (Some e') /\ fst e' <> fst e
}.

Lemma idx_range k h n : 0 <= k -> 0 <= idx k h n < 2 ^ k.
Proof. intros. apply Z.mod_pos_bound. apply Z.pow_pos_nonneg; lia. Qed.

Lemma slot_some k es s : Z.of_nat (length es) = 2 ^ k -> 0 <= s < 2 ^ k -> exists x, slot es s = Some x.
Proof.
  intros L Hs. unfold slot. destruct (nth_error es (Z.to_nat s)) eqn:E; eauto.
  apply nth_error_None in E. lia.
Qed.

Lemma land_idx k i : 0 <= k -> Z.land i (2 ^ k - 1) = i mod 2 ^ k.
Proof.
  intros Hk. rewrite <- Z.land_ones by auto. f_equal. rewrite Z.ones_equiv. lia.
Qed.

Lemma wrap_mod x k : 0 <= k <= 64 -> wrap 64 x mod 2 ^ k = x mod 2 ^ k.
Proof.
  intros Hk. unfold wrap. symmetry. apply Zmod_div_mod; try (apply Z.pow_pos_nonneg; lia).
  exists (2 ^ (64 - k)). rewrite <- Z.pow_add_r by lia. f_equal; lia.
Qed.

(** The probing loop finds the first stopping slot of the probe sequence. *)
Lemma probe_spec k es stop h : 3 <= k <= 63 -> Z.of_nat (length es) = 2 ^ k ->
  forall fuel n m, 0 <= n <= m -> m < n + Z.of_nat fuel -> m < 2 ^ k ->
  (forall n', n <= n' < m -> exists x, slot es (idx k h n') = Some x /\ stop x = false) ->
  (exists x, slot es (idx k h m) = Some x /\ stop x = true) ->
  probe V fuel es (2 ^ k - 1) (wrap 64 (h + tri n)) (n + 1) stop = Ok (idx k h m).
Proof.
  intros Hk HL. induction fuel as [|fuel IH]; intros n m Hn Hm Hmk HB HS; [lia|].
  cbn [probe]. rewrite land_idx, wrap_mod by lia. fold (idx k h n).
  destruct (Z.eq_dec n m) as [->|NE].
  - destruct HS as (x & E1 & E2). fold (slot es (idx k h m)). rewrite E1. cbn [of_option bind]. rewrite E2. auto.
  - destruct (HB n ltac:(lia)) as (x & E1 & E2). fold (slot es (idx k h n)). rewrite E1.
    cbn [of_option bind]. rewrite E2.
    assert (P : 2 ^ k <= 2 ^ 63) by (apply Z.pow_le_mono_r; lia).
    replace (wrap 64 (wrap 64 (h + tri n) + (n + 1))) with (wrap 64 (h + tri (n + 1))).
    + replace (wrap 64 (n + 1 + 1)) with (n + 1 + 1).
      * apply IH; auto; try lia. intros; apply HB; lia.
      * unfold wrap. rewrite Z.mod_small; lia.
    + rewrite tri_succ. unfold wrap. rewrite Z.add_mod_idemp_l by lia. f_equal. lia.
Qed.

(** A minimal stopping position. *)
Lemma least (P : Z -> bool) (m : nat) : P (Z.of_nat m) = true ->
  exists m0, 0 <= m0 <= Z.of_nat m /\ P m0 = true /\ forall n, 0 <= n < m0 -> P n = false.
Proof.
  induction m as [m IH] using lt_wf_ind. intros PM.
  destruct (existsb (fun i => P (Z.of_nat i)) (seq 0 m)) eqn:X.
  - apply existsb_exists in X as (i & Hi & Pi). apply in_seq in Hi.
    destruct (IH i ltac:(lia) Pi) as (m0 & H1 & H2). exists m0. split; [lia|auto].
  - exists (Z.of_nat m). split; [lia|]. split; auto. intros n Hn.
    destruct (P n) eqn:Pn; auto. exfalso.
    assert (X' : existsb (fun i => P (Z.of_nat i)) (seq 0 m) = true).
    { apply existsb_exists. exists (Z.to_nat n). rewrite Z2Nat.id by lia. split; auto. apply in_seq. lia. }
    congruence.
Qed.

Lemma probe_least k es stop h s0 x0 : 3 <= k <= 63 -> Z.of_nat (length es) = 2 ^ k -> 0 <= h < 2 ^ 64 -> 0 <= s0 < 2 ^ k ->
  slot es s0 = Some x0 -> stop x0 = true ->
  exists m x, 0 <= m < 2 ^ k /\
    probe V (slots (2 ^ k - 1)) es (2 ^ k - 1) h 1 stop = Ok (idx k h m)
    /\ slot es (idx k h m) = Some x /\ stop x = true
    /\ forall n, 0 <= n < m -> exists x, slot es (idx k h n) = Some x /\ stop x = false.
Proof.
  intros Hk HL Hh Hs E1 E2.
  destruct (tri_surj k h s0 ltac:(lia) Hs) as (n & Hn & En).
  set (P := fun n => match slot es (idx k h n) with Some x => stop x | None => false end).
  destruct (least P (Z.to_nat n)) as (m & Hm & Pm & Hmin).
  { rewrite Z2Nat.id by lia. unfold P, idx. rewrite En, E1. auto. }
  rewrite Z2Nat.id in Hm by lia.
  destruct (slot_some k es (idx k h m) HL (idx_range k h m ltac:(lia))) as (x & Ex).
  unfold P in Pm. rewrite Ex in Pm.
  assert (HB : forall n0, 0 <= n0 < m -> exists x, slot es (idx k h n0) = Some x /\ stop x = false).
  { intros n0 Hn0. destruct (slot_some k es (idx k h n0) HL (idx_range k h n0 ltac:(lia))) as (y & Ey).
    exists y. split; auto. specialize (Hmin n0 Hn0). unfold P in Hmin. rewrite Ey in Hmin. auto. }
  exists m, x. split; [lia|]. split; [|auto].
  pose proof (probe_spec k es stop h Hk HL (slots (2 ^ k - 1)) 0 m) as PS.
  rewrite tri_0, Z.add_0_r in PS. replace (wrap 64 h) with h in PS by (unfold wrap; rewrite Z.mod_small; lia).
  apply PS; auto; try lia.
  - unfold slots. assert (0 < 2 ^ k) by (apply Z.pow_pos_nonneg; lia). lia.
  - exists x; auto.
Qed.

Lemma keyhash_range key : 0 <= keyhash key < 2 ^ 64.
Proof.
  unfold keyhash. rewrite <- fold_left_rev_right. destruct (rev key); cbn [fold_right]; [lia|].
  apply Z.mod_pos_bound. lia.
Qed.

(** Free slots. *)
Lemma somes_length es : (length (somes es) <= length es)%nat.
Proof. induction es as [|[x|] es IH]; cbn [somes length]; lia. Qed.

Lemma free_slot es : (length (somes es) < length es)%nat -> exists s, 0 <= s < Z.of_nat (length es) /\ slot es s = Some None.
Proof.
  induction es as [|[x|] es IH]; cbn [somes length]; intros H; [lia| |].
  - destruct IH as (s & Hs & E); [lia|]. exists (s + 1). split; [lia|].
    unfold slot in *. replace (Z.to_nat (s + 1)) with (S (Z.to_nat s)) by lia. auto.
  - exists 0. split; [lia|reflexivity].
Qed.

Lemma slot_in es s x : slot es s = Some x -> In x es.
Proof. apply nth_error_In. Qed.

Lemma in_slot es x : In x es -> exists s, 0 <= s < Z.of_nat (length es) /\ slot es s = Some x.
Proof.
  intros H. apply In_nth_error in H as (n & E). exists (Z.of_nat n).
  assert (n < length es)%nat by (apply nth_error_Some; congruence).
  split; [lia|]. unfold slot. rewrite Nat2Z.id. auto.
Qed.

(** Keys are unique. *)
Lemma tab_uniq k es s1 s2 e1 e2 : tab_ok k es -> 0 <= s1 -> 0 <= s2 ->
  slot es s1 = Some (Some e1) -> slot es s2 = Some (Some e2) -> fst e1 = fst e2 -> s1 = s2.
Proof.
  intros T H1 H2 E1 E2 F. pose proof T as [Hk HL HR].
  destruct (HR s1 e1 E1 H1) as (n1 & R1 & I1 & B1).
  destruct (HR s2 e2 E2 H2) as (n2 & R2 & I2 & B2).
  rewrite F in *.
  destruct (Z.lt_trichotomy n1 n2) as [L|[->|L]]; [| congruence |]; exfalso.
  - destruct (B2 n1 ltac:(lia)) as (e' & X & Y). rewrite I1, E1 in X. injection X as <-. congruence.
  - destruct (B1 n2 ltac:(lia)) as (e' & X & Y). rewrite I2, E2 in X. injection X as <-. congruence.
Qed.

Lemma somes_nodup es :
  (forall s1 s2 e1 e2, 0 <= s1 -> 0 <= s2 ->
    slot es s1 = Some (Some e1) -> slot es s2 = Some (Some e2) -> fst e1 = fst e2 -> s1 = s2) ->
  NoDup (map fst (somes es)).
Proof.
  induction es as [|x es IH]; intros H; cbn [somes map]; [constructor|].
  assert (IH' : NoDup (map fst (somes es))).
  { apply IH. intros s1 s2 e1 e2 H1 H2 E1 E2 F.
    assert (s1 + 1 = s2 + 1); [|lia]. apply (H (s1 + 1) (s2 + 1) e1 e2); auto; try lia; unfold slot in *.
    - replace (Z.to_nat (s1 + 1)) with (S (Z.to_nat s1)) by lia; auto.
    - replace (Z.to_nat (s2 + 1)) with (S (Z.to_nat s2)) by lia; auto. }
  destruct x as [e|]; auto. cbn [map]. constructor; auto.
  intros Hin. apply in_map_iff in Hin as (e' & F & Hin). apply in_somes in Hin.
  apply in_slot in Hin as (s & Hs & Es).
  assert (0 = s + 1); [|lia]. apply (H 0 (s + 1) e e'); auto; try lia.
  - unfold slot in *. replace (Z.to_nat (s + 1)) with (S (Z.to_nat s)) by lia. auto.
Qed.

(** Storing into a free slot. *)
Lemma update_slot es s x y : 0 <= s < Z.of_nat (length es) -> 0 <= y ->
  slot (update es (Z.to_nat s) x) y = if y =? s then Some x else slot es y.
Proof.
  intros Hs Hy. unfold slot.
  assert (G : forall (l : list (option hentry)) n m, (n < length l)%nat ->
     nth_error (update l n x) m = if (m =? n)%nat then Some x else nth_error l m).
  { clear. induction l as [|a l IH]; intros n m H; cbn [length] in H; [lia|].
    destruct n, m; cbn [update nth_error Nat.eqb]; auto. apply IH. lia. }
  rewrite G by lia.
  destruct (y =? s) eqn:C; [apply Z.eqb_eq in C | apply Z.eqb_neq in C].
  - subst. rewrite Nat.eqb_refl. auto.
  - destruct (Z.to_nat y =? Z.to_nat s)%nat eqn:D; auto. apply Nat.eqb_eq in D. lia.
Qed.

Lemma update_len {B} (l : list B) n x : length (update l n x) = length l.
Proof. revert n; induction l; destruct n; cbn [update length]; auto. Qed.

Lemma update_somes_length es s e : slot es s = Some None ->
  length (somes (update es (Z.to_nat s) (Some e))) = S (length (somes es)).
Proof.
  unfold slot. generalize (Z.to_nat s). induction es as [|x es IH]; intros n H; destruct n; cbn in H; try discriminate.
  - injection H as ->. reflexivity.
  - cbn [update somes]. destruct x; cbn [length]; rewrite IH; auto.
Qed.

Lemma update_in es s e x : 0 <= s < Z.of_nat (length es) -> slot es s = Some None ->
  (In (Some x) (update es (Z.to_nat s) (Some e)) <-> x = e \/ In (Some x) es).
Proof.
  intros Hs E. split.
  - intros H. apply in_slot in H as (y & Hy & Ey). rewrite update_len in Hy.
    rewrite update_slot in Ey by (auto; lia). destruct (y =? s); [left; congruence|right].
    eapply slot_in; eauto.
  - intros [->|H].
    + apply (slot_in _ s). rewrite update_slot by lia. rewrite Z.eqb_refl. auto.
    + apply in_slot in H as (y & Hy & Ey). apply (slot_in _ y).
      rewrite update_slot by lia. destruct (y =? s) eqn:C; auto. apply Z.eqb_eq in C. congruence.
Qed.

Lemma store_ok k es e m : tab_ok k es -> 0 <= m < 2 ^ k ->
  slot es (idx k (keyhash (fst e)) m) = Some None ->
  (forall n, 0 <= n < m -> exists e', slot es (idx k (keyhash (fst e)) n) = Some (Some e') /\ fst e' <> fst e) ->
  (forall e', In (Some e') es -> fst e' <> fst e) ->
  tab_ok k (update es (Z.to_nat (idx k (keyhash (fst e)) m)) (Some e)).
Proof.
  intros T Hm E HB HN. pose proof T as [Hk HL HR].
  set (s := idx k (keyhash (fst e)) m) in *.
  assert (Hs : 0 <= s < 2 ^ k) by (apply idx_range; lia).
  split; auto; [rewrite update_len; auto|].
  intros y ey Ey Hy. rewrite update_slot in Ey by lia. destruct (y =? s) eqn:C.
  - apply Z.eqb_eq in C. subst y. injection Ey as <-. exists m. split; auto. split; auto.
    intros n' Hn'. destruct (HB n' Hn') as (e' & X & Y). exists e'. split; auto.
    assert (0 <= idx k (keyhash (fst e)) n' < 2 ^ k) by (apply idx_range; lia).
    rewrite update_slot by lia.
    destruct (idx k (keyhash (fst e)) n' =? s) eqn:D; auto. apply Z.eqb_eq in D. congruence.
  - destruct (HR y ey Ey Hy) as (n & Rn & In_ & Bn). exists n. split; auto. split; auto.
    intros n' Hn'. destruct (Bn n' Hn') as (e' & X & Y).
    assert (0 <= idx k (keyhash (fst ey)) n' < 2 ^ k) by (apply idx_range; lia).
    rewrite update_slot by lia.
    destruct (idx k (keyhash (fst ey)) n' =? s) eqn:D; [|eauto].
    apply Z.eqb_eq in D. congruence.
Qed.

(** Looking a key up. *)
Lemma lookup_spec k es used key : tab_ok k es -> (length (somes es) < length es)%nat ->
  exists s m, lookup V key (keyhash key) (HTab es (2 ^ k - 1) used) = Ok s
    /\ s = idx k (keyhash key) m /\ 0 <= m < 2 ^ k /\
  ((exists e, slot es s = Some (Some e) /\ fst e = key) \/
   (slot es s = Some None /\ (forall e, In (Some e) es -> fst e <> key) /\
    forall n, 0 <= n < m -> exists e', slot es (idx k (keyhash key) n) = Some (Some e') /\ fst e' <> key)).
Proof.
  intros T HF. pose proof T as [Hk HL HR].
  destruct (free_slot es HF) as (s0 & Hs0 & E0). rewrite HL in Hs0.
  unfold lookup. cbn [h_mask h_entries].
  set (stop := fun s : option hentry => match s with None => true | Some e => bytes_eqb (fst e) key end).
  destruct (probe_least k es stop (keyhash key) s0 None Hk HL (keyhash_range key) Hs0 E0 eq_refl)
    as (m & x & Hm & E1 & E2 & E3 & HB).
  assert (HB' : forall n, 0 <= n < m -> exists e', slot es (idx k (keyhash key) n) = Some (Some e') /\ fst e' <> key).
  { intros n Hn. destruct (HB n Hn) as (y & Y1 & Y2). destruct y as [e'|]; [|discriminate].
    exists e'. split; auto. intros F. cbn in Y2. apply bytes_eqb_spec in F. congruence. }
  exists (idx k (keyhash key) m), m. split; auto. split; auto. split; auto.
  destruct x as [e|].
  - left. exists e. split; auto. apply bytes_eqb_spec. auto.
  - right. split; auto. split; auto. intros e He F.
    apply in_slot in He as (s & Hs & Es). destruct (HR s e Es ltac:(lia)) as (n & Rn & In_ & Bn).
    rewrite F in *.
    destruct (Z.lt_trichotomy n m) as [L|[->|L]].
    + destruct (HB' n ltac:(lia)) as (e' & X & Y). rewrite In_, Es in X. injection X as <-. congruence.
    + congruence.
    + destruct (Bn m ltac:(lia)) as (e' & X & Y). congruence.
Qed.

(** Rehashing. *)
Lemma rehash_spec k : forall old es, tab_ok k es ->
  (length (somes es) + length (somes old) < length es)%nat ->
  NoDup (map fst (somes old)) ->
  (forall e e', In (Some e) old -> In (Some e') es -> fst e <> fst e') ->
  exists es', rehash V (slots (2 ^ k - 1)) old es (2 ^ k - 1) = Ok es' /\ tab_ok k es'
    /\ length (somes es') = (length (somes es) + length (somes old))%nat
    /\ length es' = length es
    /\ forall e, In (Some e) es' <-> In (Some e) old \/ In (Some e) es.
Proof.
  induction old as [|[e|] old IH]; intros es T HL HN HD; cbn [rehash somes].
  - exists es. split; auto. split; auto. split; [cbn; lia|]. split; auto. intros; cbn [In]; tauto.
  - cbn [somes length map] in *. inversion HN; subst.
    assert (HF : (length (somes es) < length es)%nat) by lia.
    destruct (free_slot es HF) as (s0 & Hs0 & E0). pose proof T as [Hk HLn _]. rewrite HLn in Hs0.
    destruct (probe_least k es (fun s => match s with None => true | Some _ => false end)
               (keyhash (fst e)) s0 None Hk HLn (keyhash_range _) Hs0 E0 eq_refl)
      as (m & x & Hm & E1 & E2 & E3 & HB).
    rewrite E1. cbn [bind]. destruct x as [|]; [discriminate|].
    assert (FR : forall e', In (Some e') es -> fst e' <> fst e).
    { intros e' He' F. apply (HD e e'); cbn [In]; auto. }
    assert (Hs : 0 <= idx k (keyhash (fst e)) m < Z.of_nat (length es)).
    { rewrite HLn. apply idx_range. lia. }
    assert (T' := store_ok k es e m T Hm E2).
    destruct (IH (update es (Z.to_nat (idx k (keyhash (fst e)) m)) (Some e))) as (es' & R1 & R2 & R3 & R4 & R5).
    + apply T'; auto. intros n Hn. destruct (HB n Hn) as (y & Y1 & Y2). destruct y as [e'|]; [|discriminate].
      exists e'. split; auto. apply FR. eapply slot_in; eauto.
    + rewrite update_len, update_somes_length by auto. lia.
    + auto.
    + intros a a' Ha Ha'. apply update_in in Ha'; auto. destruct Ha' as [->|Ha'].
      * intros F. apply H1. rewrite <- F. apply in_map. apply in_somes. auto.
      * apply HD; cbn [In]; auto.
    + exists es'. split; auto. split; auto. rewrite update_somes_length in R3 by auto. rewrite update_len in R4.
      split; [lia|]. split; auto. intros a. rewrite R5, update_in by auto. cbn [In].
      split.
      * intros [X|[X|X]]; auto. left; left; congruence.
      * intros [[X|X]|X]; auto. right; left; congruence.
  - destruct (IH es T HL HN) as (es' & R1 & R2 & R3 & R4 & R5).
    + intros a a' Ha Ha'. apply HD; cbn [In]; auto.
    + exists es'. split; auto. split; auto. split; auto. split; auto. intros a. rewrite R5. cbn [In].
      intuition discriminate.
Qed.

Lemma grow_size_spec : forall fuel k nel, 0 <= k <= 63 -> nel <= 2 ^ 63 -> 63 - k < Z.of_nat fuel ->
  exists k', grow_size fuel (2 ^ k) nel = Ok (2 ^ k') /\ k <= k' <= 63 /\ nel <= 2 ^ k'.
Proof.
  induction fuel as [|fuel IH]; intros k nel Hk Hn Hf; [lia|]. cbn [grow_size].
  destruct (2 ^ k <? nel) eqn:C.
  - apply Z.ltb_lt in C.
    assert (k < 63). { destruct (Z.eq_dec k 63) as [->|]; lia. }
    assert (2 ^ (k + 1) = 2 * 2 ^ k) by (rewrite Z.add_1_r, Z.pow_succ_r; lia).
    assert (2 ^ (k + 1) <= 2 ^ 63) by (apply Z.pow_le_mono_r; lia).
    assert (0 < 2 ^ k) by (apply Z.pow_pos_nonneg; lia).
    replace (wrap 64 (2 ^ k * 2)) with (2 ^ (k + 1)).
    + destruct (IH (k + 1) nel) as (k' & E1 & H4 & H5); try lia. exists k'. split; auto. split; [lia|auto].
    + unfold wrap. rewrite Z.mod_small; lia.
  - apply Z.ltb_ge in C. exists k. split; auto. split; [lia|auto].
Qed.

Lemma empty_ok k : 3 <= k <= 63 -> tab_ok k (repeat None (Z.to_nat (2 ^ k))).
Proof.
  intros Hk. assert (0 < 2 ^ k) by (apply Z.pow_pos_nonneg; lia). split; auto.
  - rewrite repeat_length. lia.
  - intros s e E. apply slot_in, repeat_spec in E. discriminate.
Qed.

Lemma somes_repeat n : somes (repeat None n) = [].
Proof. induction n; cbn [repeat somes]; auto. Qed.

Definition all_reached es := 
  (forall s1 s2 e1 e2, 0 <= s1 -> 0 <= s2 ->
    slot es s1 = Some (Some e1) -> slot es s2 = Some (Some e2) -> fst e1 = fst e2 -> s1 = s2).

Lemma resize_spec nel (t : htab V) : all_reached (h_entries t) ->
  2 * Z.of_nat (length (somes (h_entries t))) <= nel <= 2 ^ 63 ->
  exists k es, resize V nel t = Ok (HTab es (2 ^ k - 1) (h_used t)) /\ tab_ok k es
    /\ length (somes es) = length (somes (h_entries t))
    /\ nel <= 2 ^ k
    /\ forall e, In (Some e) es <-> In (Some e) (h_entries t).
Proof.
  intros HU HN. unfold resize. change MAXSIZE with (2 ^ 63).
  replace (nel >? 2 ^ 63) with false by (symmetry; rewrite Z.gtb_ltb; apply Z.ltb_ge; lia).
  change MINSIZE with (2 ^ 3).
  destruct (grow_size_spec 64 3 nel) as (k & -> & Hk & Hn); try lia. cbn [bind].
  assert (8 <= 2 ^ k) by (change 8 with (2 ^ 3); apply Z.pow_le_mono_r; lia).
  destruct (rehash_spec k (h_entries t) _ (empty_ok k Hk)) as (es & -> & T & L1 & L2 & C).
  - rewrite somes_repeat, repeat_length. cbn [length]. lia.
  - apply somes_nodup. exact HU.
  - intros e e' _ H'. apply repeat_spec in H'. discriminate.
  - cbn [bind]. exists k, es. split; auto. split; auto. rewrite somes_repeat in L1. split; [cbn in L1; auto|].
    split; auto. intros e. rewrite C. split; [intros [?|X]; auto|auto]. apply repeat_spec in X. discriminate.
Qed.

(** * Dictionaries against association lists *)
Definition htab_rep (t : htab V) (l : list hentry) : Prop :=
  exists k, tab_ok k (h_entries t) /\ h_mask t = 2 ^ k - 1 /\
    h_used t = Z.of_nat (length (somes (h_entries t))) /\
    4 * h_used t <= 3 * 2 ^ k /\
    h_used t <= Z.of_nat (length l) /\
    forall key v, In (Some (key, v)) (h_entries t) <-> find (fun e => bytes_eqb (fst e) key) l = Some (key, v).

Lemma rep_free t l k : tab_ok k (h_entries t) -> h_used t = Z.of_nat (length (somes (h_entries t))) ->
  4 * h_used t <= 3 * 2 ^ k -> htab_rep t l -> (length (somes (h_entries t)) < length (h_entries t))%nat.
Proof.
  intros T U H _. pose proof T as [Hk HL _]. assert (0 < 2 ^ k) by (apply Z.pow_pos_nonneg; lia). lia.
Qed.

Lemma find_key l key e : find (fun e : hentry => bytes_eqb (fst e) key) l = Some e -> fst e = key.
Proof. intros H. apply find_some in H as [_ H]. apply bytes_eqb_spec; auto. Qed.

Lemma hfind_rep t l key : htab_rep t l ->
  hfind V key t = Ok (find (fun e => bytes_eqb (fst e) key) l).
Proof.
  intros R. pose proof R as (k & T & M & U & LF & _ & C).
  pose proof (rep_free t l k T U LF R) as HF.
  unfold hfind. destruct t as [es mask used]. cbn [h_entries h_mask h_used] in *. subst mask.
  destruct (lookup_spec k es used key T HF) as (s & m & -> & Es & Hm & D). cbn [bind].
  fold (slot es s). destruct D as [(e & E1 & E2)|(E1 & N & _)]; rewrite E1; cbn [of_option].
  - f_equal. symmetry. destruct e as [ke v]. cbn [fst] in E2. subst ke. apply C. eapply slot_in; eauto.
  - f_equal. symmetry. destruct (find _ l) as [[ke v]|] eqn:F; auto.
    pose proof (find_key _ _ _ F) as FK. cbn [fst] in FK. subst ke. apply C in F. apply N in F. cbn in F. congruence.
Qed.

Lemma find_app_one l key e :
  find (fun e => bytes_eqb (fst e) key) (l ++ [e]) =
  match find (fun e : hentry => bytes_eqb (fst e) key) l with
  | Some x => Some x | None => if bytes_eqb (fst e) key then Some e else None end.
Proof. induction l as [|a l IH]; cbn [find app]; auto. destruct (bytes_eqb (fst a) key); auto. Qed.

Lemma henter_rep t l key v : htab_rep t l -> Z.of_nat (length l) < 2 ^ 61 ->
  exists t', henter V (key, v) t =
    Ok (t', Some (match find (fun e => bytes_eqb (fst e) key) l with Some e => e | None => (key, v) end))
    /\ htab_rep t' (l ++ [(key, v)]).
Proof.
  intros R HB. pose proof R as (k & T & M & U & LF & UL & C).
  pose proof (rep_free t l k T U LF R) as HF.
  unfold henter. destruct t as [es mask used]. cbn [h_entries h_mask h_used fst] in *. subst mask.
  destruct (lookup_spec k es used key T HF) as (s & m & -> & Es & Hm & D). cbn [bind].
  fold (slot es s). destruct D as [(e & E1 & E2)|(E1 & N & BB)]; rewrite E1; cbn [of_option bind].
  - assert (F : find (fun e => bytes_eqb (fst e) key) l = Some e).
    { destruct e as [ke ve]. cbn [fst] in E2. subst ke. apply C. eapply slot_in; eauto. }
    rewrite F. eexists. split; [reflexivity|]. exists k. cbn [h_entries h_mask h_used].
    rewrite app_length. cbn [length].
    split; auto. split; auto. split; auto. split; auto. split; [lia|].
    intros key' v'. rewrite C, find_app_one.
    destruct (find (fun e0 => bytes_eqb (fst e0) key') l) eqn:F'; [tauto|].
    destruct (bytes_eqb (fst (key, v)) key') eqn:B; [|tauto].
    apply bytes_eqb_spec in B. cbn [fst] in B. subst key'. congruence.
  - assert (FN : find (fun e : hentry => bytes_eqb (fst e) key) l = None).
    { destruct (find _ l) as [[ke ve]|] eqn:F; auto.
      pose proof (find_key _ _ _ F) as FK. cbn [fst] in FK. subst ke. apply C in F. apply N in F. cbn in F. congruence. }
    rewrite FN. subst s.
    set (s := idx k (keyhash key) m) in *. set (es1 := update es (Z.to_nat s) (Some (key, v))).
    pose proof T as [Hk HL HR]. assert (P0 : 0 < 2 ^ k) by (apply Z.pow_pos_nonneg; lia).
    assert (Hs : 0 <= s < Z.of_nat (length es)) by (rewrite HL; apply idx_range; lia).
    assert (T1 : tab_ok k es1) by (apply (store_ok k es (key, v) m); auto).
    assert (L1 : length (somes es1) = S (length (somes es))) by (apply update_somes_length; auto).
    assert (I1 : forall x, In (Some x) es1 <-> x = (key, v) \/ In (Some x) es) by (intros; apply update_in; auto).
    assert (C1 : forall key' v', In (Some (key', v')) es1 <->
               find (fun e => bytes_eqb (fst e) key') (l ++ [(key, v)]) = Some (key', v')).
    { intros key' v'. rewrite I1, C, find_app_one. cbn [fst].
      destruct (find (fun e0 : hentry => bytes_eqb (fst e0) key') l) as [x|] eqn:F'.
      - split; [intros [X|X]; [|exact X] | auto]. injection X as X1 X2. subst key' v'.
        rewrite FN in F'. discriminate.
      - destruct (bytes_eqb key key') eqn:B.
        + apply bytes_eqb_spec in B. subst key'. split.
          * intros [X|X]; [|discriminate]. injection X as ->. auto.
          * intros X. left. injection X as ->. auto.
        + split; intros X; try discriminate. destruct X as [X|X]; [|discriminate]. injection X as -> ->.
          assert (bytes_eqb key key = true) by (apply bytes_eqb_spec; auto). congruence. }
    replace (wrap 64 (used + 1)) with (used + 1) by (unfold wrap; rewrite Z.mod_small; lia).
    assert (Q : (2 ^ k - 1) - (2 ^ k - 1) / 4 = 3 * 2 ^ (k - 2)).
    { replace (2 ^ k) with (4 * 2 ^ (k - 2)).
      - assert (0 < 2 ^ (k - 2)) by (apply Z.pow_pos_nonneg; lia).
        replace (4 * 2 ^ (k - 2) - 1) with (3 + (2 ^ (k - 2) - 1) * 4) at 2 by lia.
        rewrite Z.div_add by lia. change (3 / 4) with 0. lia.
      - change 4 with (2 ^ 2). rewrite <- Z.pow_add_r by lia. f_equal; lia. }
    rewrite Q. assert (Q2 : 2 ^ k = 4 * 2 ^ (k - 2)).
    { change 4 with (2 ^ 2). rewrite <- Z.pow_add_r by lia. f_equal; lia. }
    destruct (used + 1 >? 3 * 2 ^ (k - 2)) eqn:G.
    + replace (wrap 64 (2 * (used + 1))) with (2 * (used + 1)) by (unfold wrap; rewrite Z.mod_small; lia).
      destruct (resize_spec (2 * (used + 1)) (HTab es1 (2 ^ k - 1) (used + 1))) as (k2 & es2 & E2 & T2 & L2 & N2 & C2).
      * cbn [h_entries]. intros s1 s2 e1 e2 A B X Y F. eapply (tab_uniq k es1); eauto.
      * cbn [h_entries]. rewrite L1. lia.
      * match goal with |- context [resize V ?a ?b] => change (resize V a b) with (resize V (2 * (used + 1)) (HTab es1 (2 ^ k - 1) (used + 1))) end.
        rewrite E2. cbn [bind h_used h_entries] in *.
        assert (HF2 : (length (somes es2) < length es2)%nat).
        { pose proof (t_len _ _ T2). lia. }
        destruct (lookup_spec k2 es2 (used + 1) key T2 HF2) as (s2 & m2 & -> & Es2 & Hm2 & D2). cbn [bind].
        fold (slot es2 s2).
        assert (IN : In (Some (key, v)) es2) by (apply C2, I1; auto).
        destruct D2 as [(e & X1 & X2)|(X1 & X2 & _)].
        -- rewrite X1. cbn [of_option bind].
           assert (e = (key, v)).
           { apply in_slot in IN as (s3 & Hs3 & Es3).
             assert (s2 = s3).
             { apply (tab_uniq k2 es2 s2 s3 e (key, v)); auto; try lia. subst s2. apply idx_range. destruct T2; lia. }
             subst s3. rewrite X1 in Es3. congruence. }
           subst e. eexists. split; [reflexivity|]. exists k2. cbn [h_entries h_mask h_used].
           split; auto. split; auto. split; [lia|]. split; [lia|]. split; [rewrite app_length; cbn [length]; lia|].
           intros. rewrite C2. apply C1.
        -- exfalso. apply (X2 _ IN). reflexivity.
    + rewrite Z.gtb_ltb in G. apply Z.ltb_ge in G.
      exists (HTab es1 (2 ^ k - 1) (used + 1)). split; [reflexivity|]. exists k. cbn [h_entries h_mask h_used].
      split; auto. split; auto. split; [lia|]. split; [lia|]. split; [rewrite app_length; cbn [length]; lia|]. auto.
Qed.

Lemma hcreate_rep nel : 0 <= nel < 2 ^ 64 -> exists t, hcreate V nel = Ok t /\ htab_rep t [].
Proof.
  intros H. unfold hcreate.
  assert (X : exists nel', 0 <= nel' <= 2 ^ 63 /\ resize V nel (HTab [] 0 0) = resize V nel' (HTab [] 0 0)).
  { destruct (Z_le_gt_dec nel (2 ^ 63)) as [L|G].
    - exists nel. split; [lia|auto].
    - exists (2 ^ 63). split; [lia|]. unfold resize. change MAXSIZE with (2 ^ 63).
      replace (nel >? 2 ^ 63) with true by (symmetry; rewrite Z.gtb_ltb; apply Z.ltb_lt; lia).
      replace (2 ^ 63 >? 2 ^ 63) with false by reflexivity. reflexivity. }
  destruct X as (nel' & Hn & ->).
  destruct (resize_spec nel' (HTab [] 0 0)) as (k & es & -> & T & L & N & C).
  - intros s1 s2 e1 e2 _ _ E. cbn [h_entries] in E. unfold slot in E. destruct (Z.to_nat s1); discriminate.
  - cbn [h_entries somes length]. lia.
  - eexists. split; [reflexivity|]. exists k. cbn [h_entries h_mask h_used somes length] in *.
    assert (0 < 2 ^ k) by (apply Z.pow_pos_nonneg; destruct T; lia).
    split; auto. split; auto. split; [lia|]. split; [lia|]. split; [lia|].
    intros. rewrite C. cbn. intuition discriminate.
Qed.
End Table.

(** * Histories *)
Section History.
Context {V : Type}.

Definition dict_rep (d : cdict V) (l : list (hentry V)) : Prop :=
  htab_rep (d_tab d) l /\ d_keys d = map fst l /\ d_vals d = map snd l.

Lemma dict_add_rep d l key v : dict_rep d l -> Z.of_nat (length l) < 2 ^ 61 ->
  exists d', dict_add V d key v = Ok d' /\ dict_rep d' (l ++ [(key, v)]).
Proof.
  intros (R & K & W) HB. unfold dict_add.
  destruct (henter_rep (d_tab d) l key v R HB) as (t' & E & R').
  rewrite E. cbn [bind].
  eexists. split; [reflexivity|]. split; [exact R'|]. cbn [d_keys d_vals].
  rewrite K, W, !map_app. auto.
Qed.

Fixpoint dict_adds (d : cdict V) (l : list (hentry V)) : outcome (cdict V) :=
  match l with
  | [] => Ok d
  | (k, v) :: l' => match dict_add V d k v with Ok d' => dict_adds d' l' | Bad r => Bad r end
  end.

Lemma dict_adds_rep : forall l2 d l1, dict_rep d l1 ->
  Z.of_nat (length l1) + Z.of_nat (length l2) <= 2 ^ 61 ->
  exists d', dict_adds d l2 = Ok d' /\ dict_rep d' (l1 ++ l2).
Proof.
  induction l2 as [|[k v] l2 IH]; intros d l1 R HB; cbn [dict_adds].
  - exists d. rewrite app_nil_r. auto.
  - cbn [length] in HB. destruct (dict_add_rep d l1 k v R ltac:(lia)) as (d1 & -> & R1).
    destruct (IH d1 _ R1) as (d2 & -> & R2); [rewrite app_length; cbn [length]; lia|].
    exists d2. rewrite <- app_assoc in R2. auto.
Qed.

Lemma dict_find_rep d l key : dict_rep d l ->
  dict_find V d key = Ok (match find (fun e : hentry V => bytes_eqb (fst e) key) l with Some e => snd e | None => None end).
Proof.
  intros (R & _). unfold dict_find. rewrite (hfind_rep _ l key R). cbn [bind]. 
  destruct (find _ l); reflexivity.
Qed.

Lemma dict_mk_rep n : 0 <= n < 2 ^ 64 -> exists d, dict_mk V n = Ok d /\ dict_rep d [].
Proof.
  intros H. unfold dict_mk. destruct (hcreate_rep (V := V) n H) as (t & -> & R). cbn [bind].
  eexists. split; [reflexivity|]. split; auto.
Qed.

Lemma find_first (l : list (hentry V)) key :
  (forall pre v rest, l = pre ++ (key, v) :: rest -> ~ In key (map fst pre) ->
     find (fun e : hentry V => bytes_eqb (fst e) key) l = Some (key, v)) /\
  (~ In key (map fst l) -> find (fun e : hentry V => bytes_eqb (fst e) key) l = None).
Proof.
  split.
  - intros pre v rest ->. induction pre as [|[k w] pre IH]; cbn [map In app find fst]; intros H.
    + replace (bytes_eqb key key) with true; auto. symmetry. apply bytes_eqb_spec; auto.
    + destruct (bytes_eqb k key) eqn:B; [apply bytes_eqb_spec in B; exfalso; auto|]. apply IH; auto.
  - induction l as [|[k w] l IH]; cbn [map In find fst]; auto. intros H.
    destruct (bytes_eqb k key) eqn:B; [apply bytes_eqb_spec in B; exfalso; auto|]. apply IH; auto.
Qed.

Lemma dict_history n l : 0 <= n < 2 ^ 64 -> Z.of_nat (length l) <= 2 ^ 61 ->
  exists d0 d, dict_mk V n = Ok d0 /\ dict_adds d0 l = Ok d /\
    (forall key pre v rest, l = pre ++ (key, v) :: rest -> ~ In key (map fst pre) -> dict_find V d key = Ok v) /\
    (forall key, ~ In key (map fst l) -> dict_find V d key = Ok None) /\
    d_keys d = map fst l /\ d_vals d = map snd l.
Proof.
  intros Hn HL. destruct (dict_mk_rep n Hn) as (d0 & E0 & R0).
  destruct (dict_adds_rep l d0 [] R0) as (d & E & R); [cbn [length]; lia|]. cbn [app] in R.
  exists d0, d. split; auto. split; auto. split; [|split].
  - intros key pre v rest E1 H1. rewrite (dict_find_rep d l key R).
    rewrite (proj1 (find_first l key) pre v rest E1 H1). auto.
  - intros key H1. rewrite (dict_find_rep d l key R). rewrite (proj2 (find_first l key) H1). auto.
  - destruct R as (_ & K & W). auto.
Qed.

Lemma dict_load n l d0 d : 0 <= n < 2 ^ 64 -> Z.of_nat (length l) <= 2 ^ 61 ->
  dict_mk V n = Ok d0 -> dict_adds d0 l = Ok d ->
  let t := d_tab d in
  (exists k, 3 <= k <= 63 /\ Z.of_nat (length (h_entries t)) = 2 ^ k) /\
  4 * Z.of_nat (length (somes (h_entries t))) <= 3 * Z.of_nat (length (h_entries t)) /\
  In None (h_entries t) /\
  forall key, exists i, lookup V key (keyhash key) t = Ok i.
Proof.
  intros Hn HL E0 E1 t. destruct (dict_mk_rep n Hn) as (d0' & E0' & R0).
  assert (d0' = d0) by congruence. subst d0'.
  destruct (dict_adds_rep l d0 [] R0) as (d' & E & R); [cbn [length]; lia|]. cbn [app] in R.
  assert (d' = d) by congruence. subst d'. destruct R as (R & _). fold t in R.
  pose proof R as (k & T & M & U & LF & UL & C). pose proof (rep_free t l k T U LF R) as HF.
  split. { exists k. destruct T; auto. }
  split. { rewrite (t_len _ _ T). lia. }
  split. { destruct (free_slot _ HF) as (s & _ & Es). eapply slot_in; eauto. }
  intros key. destruct t as [es mask used]. cbn [h_entries h_mask h_used] in *. subst mask.
  destruct (lookup_spec k es used key T HF) as (s & m & E2 & _). eauto.
Qed.

Lemma probe_covers k (es : list (option (hentry V))) h s x stop :
  3 <= k <= 63 -> Z.of_nat (length es) = 2 ^ k -> 0 <= h < 2 ^ 64 ->
  nth_error es s = Some x -> stop x = true ->
  exists i y, probe V (slots (2 ^ k - 1)) es (2 ^ k - 1) h 1 stop = Ok i /\
    nth_error es (Z.to_nat i) = Some y /\ stop y = true.
Proof.
  intros Hk HL Hh E S. assert (s < length es)%nat by (apply nth_error_Some; congruence).
  destruct (probe_least k es stop h (Z.of_nat s) x Hk HL Hh) as (m & y & _ & E1 & E2 & E3 & _); auto; try lia.
  - unfold slot. rewrite Nat2Z.id. auto.
  - eauto.
Qed.
End History.
