(** Programs with hash tables see what association lists would give them, as long as
    they do not use a pointer to an entry of a table that was moved, and nothing
    remains when they have destroyed all tables. *)
From Coq Require Import ZArith List Bool Lia.
From Verif Require Import Base ArrayLemmas HsearchModel HsearchProofs HtableModel HtableSpec.
Import ListNotations.
Open Scope Z_scope.
Local Arguments Z.add : simpl never.
Local Arguments Z.sub : simpl never.
Local Arguments Z.mul : simpl never.
Local Arguments Z.of_nat : simpl never.
Local Arguments Z.to_nat : simpl never.
Local Arguments Z.pow : simpl never.
Local Arguments Z.div : simpl never.

Section Proofs.
Context {V : Type}.
Local Notation entry_of := (entry_of V).
Implicit Types (es : list (option (hentry V))) (l : list (hentry V)).

(** * One table *)
Lemma entry_find key l : entry_of key l = find (fun e : hentry V => bytes_eqb (fst e) key) l.
Proof.
  unfold HtableSpec.entry_of. induction l as [|[ke ve] l IH]; cbn [find fst]; auto. rewrite IH.
  destruct (list_eq_dec Z.eq_dec ke key) as [E|E].
  - apply bytes_eqb_spec in E. rewrite E. auto.
  - destruct (bytes_eqb ke key) eqn:B; auto. apply bytes_eqb_spec in B. congruence.
Qed.

Lemma rep_in h l key v : htab_rep h l -> In (Some (key, v)) (h_entries h) <-> entry_of key l = Some (key, v).
Proof. intros (k & _ & _ & _ & _ & _ & C). rewrite entry_find. apply C. Qed.

Lemma entry_key key l e : entry_of key l = Some e -> fst e = key.
Proof. rewrite entry_find. apply find_key. Qed.

Lemma lookup_rep h l (key : hkey) : htab_rep h l -> exists p e, lookup V key (keyhash key) h = Ok p /\ 0 <= p /\
  slot (h_entries h) p = Some e /\ e = entry_of key l.
Proof.
  intros R. pose proof R as (k & T & M & U & LF & _ & C). pose proof (rep_free h l k T U LF R) as HF.
  destruct h as [es mask used]. cbn [h_entries h_mask h_used] in *. subst mask.
  destruct (lookup_spec k es used key T HF) as (s & m & E & Es & Hm & D).
  assert (0 <= s) by (subst s; apply idx_range; destruct T; lia).
  destruct D as [([ke v] & E1 & E2)|(E1 & N & _)].
  - cbn [fst] in E2. subst ke. exists s, (Some (key, v)). split; auto. split; auto. split; auto. symmetry. rewrite entry_find.
    apply C. eapply slot_in; eauto.
  - exists s, None. split; auto. split; auto. split; auto. rewrite entry_find. match goal with |- None = find ?f l => destruct (find f l) as [[ke v]|] eqn:F; auto end.
    pose proof (find_key _ _ _ F) as FK. cbn [fst] in FK. subst ke. apply C in F. apply N in F. cbn in F. congruence.
Qed.

Lemma enter_new h l (key : hkey) v nel : htab_rep h l -> 0 <= nel <= h_mask h + 1 -> Z.of_nat (length l) < 2 ^ 61 ->
  entry_of key l = None ->
  exists p, lookup V key (keyhash key) h = Ok p /\ 0 <= p /\ slot (h_entries h) p = Some None /\
    let es1 := update (h_entries h) (Z.to_nat p) (Some (key, v)) in
    let used := wrap 64 (h_used h + 1) in
    (forall j x, 0 <= j -> slot (h_entries h) j = Some (Some x) -> slot es1 j = Some (Some x)) /\
    slot es1 p = Some (Some (key, v)) /\
    if used >? h_mask h - h_mask h / 4 then
      exists h2 p2, resize V (wrap 64 (2 * used)) (HTab es1 (h_mask h) used) = Ok h2 /\
        lookup V key (keyhash key) h2 = Ok p2 /\ 0 <= p2 /\ slot (h_entries h2) p2 = Some (Some (key, v)) /\
        htab_rep h2 (l ++ [(key, v)]) /\ nel <= h_mask h2 + 1 /\ room nel <= Z.of_nat (length l)
    else htab_rep (HTab es1 (h_mask h) used) (l ++ [(key, v)]).
Proof.
  intros R Hnel HB EN. pose proof R as (k & T & M & U & LF & UL & C).
  pose proof (rep_free h l k T U LF R) as HF.
  assert (FN := EN). rewrite entry_find in FN.
  destruct h as [es mask used]. cbn [h_entries h_mask h_used fst] in *. subst mask.
  destruct (lookup_spec k es used key T HF) as (s & m & E & Es & Hm & D).
  destruct D as [([ke ve] & E1 & E2)|(E1 & N & BB)].
  { exfalso. cbn [fst] in E2. subst ke. apply slot_in in E1. apply C in E1. congruence. }
  exists s. split; auto. subst s.
  set (s := idx k (keyhash key) m) in *. cbn zeta. set (es1 := update es (Z.to_nat s) (Some (key, v))).
  pose proof T as [Hk HL HR]. assert (P0 : 0 < 2 ^ k) by (apply Z.pow_pos_nonneg; lia).
  assert (Hs : 0 <= s < Z.of_nat (length es)) by (rewrite HL; apply idx_range; lia).
  split; [lia|]. split; auto.
  split. { intros j x Hj Ej. unfold es1. rewrite update_slot by lia. destruct (j =? s) eqn:G; auto. apply Z.eqb_eq in G. congruence. }
  split. { unfold es1. rewrite update_slot by lia. rewrite Z.eqb_refl. auto. }
  assert (T1 : tab_ok k es1) by (apply (store_ok k es (key, v) m); auto).
  assert (L1 : length (somes es1) = S (length (somes es))) by (apply update_somes_length; auto).
  assert (I1 : forall x, In (Some x) es1 <-> x = (key, v) \/ In (Some x) es) by (intros; apply update_in; auto).
  assert (C1 : forall key' v', In (Some (key', v')) es1 <->
             find (fun e : hentry V => bytes_eqb (fst e) key') (l ++ [(key, v)]) = Some (key', v')).
  { intros key' v'. rewrite I1, C. pose proof (find_app_one l key' (key, v)) as FA.
    match type of FA with ?L = _ => match goal with |- _ <-> ?X = _ => change X with L end end. rewrite FA. clear FA. cbn [fst].
    destruct (find (fun e0 : hentry V => bytes_eqb (fst e0) key') l) as [x|] eqn:F'.
    - split; [intros [X|X]; [|exact X] | auto]. injection X as X1 X2. subst key' v'.
      rewrite FN in F'. discriminate.
    - destruct (bytes_eqb key key') eqn:B.
      + apply bytes_eqb_spec in B. subst key'. split.
        * intros [X|X]; [|discriminate]. injection X as ->. auto.
        * intros X. left. injection X as ->. auto.
      + split; intros X; try discriminate. destruct X as [X|X]; [|discriminate]. injection X as -> ->.
        assert (bytes_eqb key key = true) by (apply bytes_eqb_spec; auto). congruence. }
  replace (wrap 64 (used + 1)) with (used + 1) by (unfold wrap; rewrite Z.mod_small; lia).
  assert (Q : (2 ^ k - 1) - (2 ^ k - 1) / 4 = 3 * 2 ^ (k - 2)).
  { replace (2 ^ k) with (4 * 2 ^ (k - 2)).
    - assert (0 < 2 ^ (k - 2)) by (apply Z.pow_pos_nonneg; lia).
      replace (4 * 2 ^ (k - 2) - 1) with (3 + (2 ^ (k - 2) - 1) * 4) at 2 by lia.
      rewrite Z.div_add by lia. change (3 / 4) with 0. lia.
    - change 4 with (2 ^ 2). rewrite <- Z.pow_add_r by lia. f_equal; lia. }
  rewrite Q. assert (Q2 : 2 ^ k = 4 * 2 ^ (k - 2)).
  { change 4 with (2 ^ 2). rewrite <- Z.pow_add_r by lia. f_equal; lia. }
  assert (Q3 : 2 <= 2 ^ (k - 2)) by (change 2 with (2 ^ 1) at 1; apply Z.pow_le_mono_r; lia).
  destruct (used + 1 >? 3 * 2 ^ (k - 2)) eqn:G; rewrite Z.gtb_ltb in G.
  - apply Z.ltb_lt in G. replace (wrap 64 (2 * (used + 1))) with (2 * (used + 1)) by (unfold wrap; rewrite Z.mod_small; lia).
    destruct (resize_spec (2 * (used + 1)) (HTab es1 (2 ^ k - 1) (used + 1))) as (k2 & es2 & E2 & T2 & L2 & N2 & C2).
    + cbn [h_entries]. intros s1 s2 e1 e2 A B X Y F. eapply (tab_uniq k es1); eauto.
    + cbn [h_entries]. rewrite L1. lia.
    + cbn [h_used h_entries] in *.
      assert (HF2 : (length (somes es2) < length es2)%nat).
      { pose proof (t_len _ _ T2). lia. }
      destruct (lookup_spec k2 es2 (used + 1) key T2 HF2) as (s2 & m2 & X & Es2 & Hm2 & D2).
      assert (IN : In (Some (key, v)) es2) by (apply C2, I1; auto).
      exists (HTab es2 (2 ^ k2 - 1) (used + 1)), s2. split; [exact E2|]. split; [exact X|].
      assert (H2 : 0 <= s2) by (subst s2; apply idx_range; destruct T2; lia).
      split; auto. cbn [h_entries h_mask].
      split.
      { destruct D2 as [(e & X1 & X2)|(X1 & X2 & _)].
        - rewrite X1. apply in_slot in IN as (s3 & Hs3 & Es3).
          assert (s2 = s3) by (apply (tab_uniq k2 es2 s2 s3 e (key, v)); auto; lia).
          subst s3. rewrite X1 in Es3. exact Es3.
        - exfalso. apply (X2 _ IN). reflexivity. }
      split.
      { exists k2. cbn [h_entries h_mask h_used].
        split; auto. split; auto. split; [lia|]. split; [lia|]. split; [rewrite app_length; cbn [length]; lia|].
        intros. rewrite C2. apply C1. }
      split; [lia|]. unfold room.
      assert (3 * nel / 4 <= 3 * 2 ^ (k - 2)); [|lia].
      apply Z.div_le_upper_bound; lia.
  - apply Z.ltb_ge in G.
    exists k. cbn [h_entries h_mask h_used].
    split; auto. split; auto. split; [lia|]. split; [lia|]. split; [rewrite app_length; cbn [length]; lia|]. auto.
Qed.

Lemma create_rep nel : 0 <= nel <= 2 ^ 63 -> exists h, hcreate V nel = Ok h /\ htab_rep h [] /\ nel <= h_mask h + 1.
Proof.
  intros H. unfold hcreate.
  destruct (resize_spec nel (V := V) (HTab [] 0 0)) as (k & es & -> & T & L & N & C).
  - intros s1 s2 e1 e2 _ _ E. cbn [h_entries] in E. unfold slot in E. destruct (Z.to_nat s1); discriminate.
  - cbn [h_entries somes length]. lia.
  - eexists. split; [reflexivity|]. cbn [h_mask]. split; [|lia]. exists k. cbn [h_entries h_mask h_used somes length] in *.
    assert (0 < 2 ^ k) by (apply Z.pow_pos_nonneg; destruct T; lia).
    split; auto. split; auto. split; [lia|]. split; [lia|]. split; [lia|].
    intros. rewrite C. cbn. intuition discriminate.
Qed.

Lemma entry_change key v l key' : entry_of key' (change V key v l) =
  if list_eq_dec Z.eq_dec key' key then match entry_of key l with Some _ => Some (key, v) | None => None end else entry_of key' l.
Proof.
  unfold HtableSpec.entry_of, change. induction l as [|[k0 v0] l IH]; cbn [map find fst].
  - destruct (list_eq_dec Z.eq_dec key' key); auto.
  - destruct (list_eq_dec Z.eq_dec k0 key) as [E|E]; cbn [fst].
    + destruct (list_eq_dec Z.eq_dec key key') as [F|F].
      * destruct (list_eq_dec Z.eq_dec key' key); [auto|congruence].
      * rewrite IH. destruct (list_eq_dec Z.eq_dec key' key); [congruence|].
        destruct (list_eq_dec Z.eq_dec k0 key'); [congruence|auto].
    + rewrite IH. destruct (list_eq_dec Z.eq_dec key' key).
      * destruct (list_eq_dec Z.eq_dec k0 key'); [congruence|auto].
      * auto.
Qed.

Lemma update_same_somes es : forall n e e0, nth_error es n = Some (Some e0) ->
  length (somes (update es n (Some e))) = length (somes es).
Proof.
  induction es as [|x es IH]; intros n e e0 H; destruct n; cbn in H; try discriminate.
  - injection H as ->. reflexivity.
  - cbn [update somes]. destruct x; cbn [length]; rewrite (IH _ _ _ H); auto.
Qed.

Lemma put_rep es mask used l key v0 v q : htab_rep (HTab es mask used) l -> 0 <= q ->
  slot es q = Some (Some (key, v0)) ->
  htab_rep (HTab (update es (Z.to_nat q) (Some (key, v))) mask used) (change V key v l) /\
  forall y key' v', slot es y = Some (Some (key', v')) -> 0 <= y ->
    exists v'', slot (update es (Z.to_nat q) (Some (key, v))) y = Some (Some (key', v'')).
Proof.
  intros R Hq E. pose proof R as (k & T & M & U & LF & UL & C). cbn [h_entries h_mask h_used] in *.
  pose proof T as [Hk HL HR].
  assert (Q : 0 <= q < Z.of_nat (length es)).
  { unfold slot in E. assert (Z.to_nat q < length es)%nat by (apply nth_error_Some; congruence). lia. }
  assert (SL : forall y key' v', slot es y = Some (Some (key', v')) -> 0 <= y ->
    exists v'', slot (update es (Z.to_nat q) (Some (key, v))) y = Some (Some (key', v''))).
  { intros y key' v' Ey Hy. rewrite update_slot by lia. destruct (y =? q) eqn:G; [|eauto].
    apply Z.eqb_eq in G. subst y. rewrite E in Ey. injection Ey as <- <-. eauto. }
  assert (SB : forall y e, slot (update es (Z.to_nat q) (Some (key, v))) y = Some (Some e) -> 0 <= y ->
    exists v'', slot es y = Some (Some (fst e, v''))).
  { intros y [ke ve] Ey Hy. rewrite update_slot in Ey by lia. destruct (y =? q) eqn:G; [|eauto].
    apply Z.eqb_eq in G. subst y. injection Ey as <- <-. eauto. }
  split; auto. exists k. cbn [h_entries h_mask h_used].
  split.
  { split; auto; [rewrite update_len; auto|]. intros s e Es Hs.
    destruct (SB s e Es Hs) as (v1 & E1). destruct (HR s _ E1 Hs) as (n & Hn & In_ & Bn). cbn [fst] in *.
    exists n. split; auto. split; auto. intros n' Hn'. destruct (Bn n' Hn') as ([k2 v2] & X & Y). cbn [fst] in Y.
    assert (0 <= idx k (keyhash (fst e)) n' < 2 ^ k) by (apply idx_range; lia).
    destruct (SL _ _ _ X ltac:(lia)) as (v3 & X3). exists (k2, v3). auto. }
  split; auto. split. { rewrite (update_same_somes es _ _ (key, v0)); auto. }
  split; auto. split. { unfold change. rewrite map_length. auto. }
  assert (EK : entry_of key l = Some (key, v0)). { rewrite entry_find. apply C. eapply slot_in; eauto. }
  intros key' v'. rewrite <- entry_find, entry_change.
  destruct (list_eq_dec Z.eq_dec key' key) as [->|NE].
  - rewrite EK. split.
    + intros H. apply in_slot in H as (y & Hy & Ey).
      destruct (SB y _ Ey ltac:(lia)) as (v1 & E1). cbn [fst] in E1.
      assert (y = q) by (apply (tab_uniq k es y q _ _ T ltac:(lia) Hq E1 E); auto). subst y.
      rewrite update_slot, Z.eqb_refl in Ey by lia. injection Ey as ->. reflexivity.
    + intros [= ->]. apply (slot_in _ q). rewrite update_slot, Z.eqb_refl by lia. auto.
  - rewrite entry_find, <- C. split; intros H; apply in_slot in H as (y & Hy & Ey).
    + rewrite update_len in Hy. rewrite update_slot in Ey by lia. destruct (y =? q); [congruence|]. eapply slot_in; eauto.
    + apply (slot_in _ y). rewrite update_slot by lia. destruct (y =? q) eqn:G; auto. apply Z.eqb_eq in G. congruence.
Qed.

(** * All tables and pointers *)
Definition tab_rep (w : hworld V) (n made : nat) (t : option htable) (d : option (ideal V)) : Prop :=
  match t, d with
  | None, None => True
  | Some t, Some d =>
    (exists es, w_arrays w (t_arr t) = Some es /\ htab_rep (HTab es (t_mask t) (t_used t)) (i_list d)) /\
    0 <= i_nel d <= t_mask t + 1 /\ (i_id d < made)%nat /\ (t_arr t < w_next w)%nat /\ (t_self t < w_next w)%nat /\
    In (t_self t) (w_structs w) /\ (length (i_list d) <= n)%nat
  | _, _ => False
  end.
Definition ptr_ok (w : hworld V) (f : nat -> option (ideal V)) (made : nat) (pm : option eptr) (ps : option pointer) : Prop :=
  match ps with
  | None => True
  | Some p => exists a q, pm = Some (a, q) /\ 0 <= q /\ (p_id p < made)%nat /\
      forall t d, w_tab w (p_tab p) = Some t -> f (p_tab p) = Some d -> i_id d = p_id p ->
        (p_moved p <= i_moved d)%nat /\
        (i_moved d = p_moved p -> a = t_arr t /\ exists es v, w_arrays w a = Some es /\ slot es q = Some (Some (p_key p, v)))
  end.
Record inv (n : nat) (w : hworld V) (ps : list (option eptr)) (s : istate V) : Prop := {
  v_tab : forall i, tab_rep w n (s_made s) (w_tab w i) (s_tabs s i);
  v_diff : forall i j t u, i <> j -> w_tab w i = Some t -> w_tab w j = Some u -> t_arr t <> t_arr u /\ t_self t <> t_self u;
  v_arr : forall a es, w_arrays w a = Some es -> exists i t, w_tab w i = Some t /\ t_arr t = a;
  v_str : forall a, In a (w_structs w) -> exists i t, w_tab w i = Some t /\ t_self t = a;
  v_ptr : Forall2 (ptr_ok w (s_tabs s) (s_made s)) ps (s_ptrs s)
}.

Lemma ptr_keep w f made w' f' made' pm ps : ptr_ok w f made pm ps -> (made <= made')%nat ->
  (forall p t' d', ps = Some p -> w_tab w' (p_tab p) = Some t' -> f' (p_tab p) = Some d' -> (i_id d' < made)%nat ->
     exists t d, w_tab w (p_tab p) = Some t /\ f (p_tab p) = Some d /\ i_id d = i_id d' /\ (i_moved d <= i_moved d')%nat /\
       (i_moved d = i_moved d' -> t_arr t = t_arr t' /\
          forall es, w_arrays w (t_arr t) = Some es -> exists es', w_arrays w' (t_arr t) = Some es' /\
          forall q key v, 0 <= q -> slot es q = Some (Some (key, v)) -> exists v', slot es' q = Some (Some (key, v')))) ->
  ptr_ok w' f' made' pm ps.
Proof.
  intros H L K. destruct ps as [p|]; [|exact I]. destruct H as (a & q & -> & Hq & Hi & H).
  exists a, q. split; auto. split; auto. split; [lia|]. intros t' d' Et Ed Ei.
  destruct (K p t' d' eq_refl Et Ed ltac:(lia)) as (t & d & E1 & E2 & E3 & E4 & E5).
  destruct (H t d E1 E2 ltac:(congruence)) as (G1 & G2). split; [lia|]. intros Em.
  assert (i_moved d = p_moved p) by lia. destruct (G2 H0) as (-> & es & v & X1 & X2).
  destruct (E5 ltac:(lia)) as (A & B). split; auto. destruct (B es X1) as (es' & Y1 & Y2).
  destruct (Y2 q _ _ Hq X2) as (v' & Y3). eauto.
Qed.

Lemma put_at_eq {A} (f : nat -> A) i x : put_at f i x i = x.
Proof. unfold put_at. rewrite Nat.eqb_refl. auto. Qed.
Lemma put_at_ne {A} (f : nat -> A) i x j : j <> i -> put_at f i x j = f j.
Proof. intros H. unfold put_at. apply Nat.eqb_neq in H. rewrite H. auto. Qed.
Lemma with_eq (f : nat -> option (ideal V)) i x : with_tab V f i x i = x.
Proof. unfold with_tab. destruct (Nat.eq_dec i i); [auto|congruence]. Qed.
Lemma with_ne (f : nat -> option (ideal V)) i x j : j <> i -> with_tab V f i x j = f j.
Proof. intros H. unfold with_tab. destruct (Nat.eq_dec j i); [congruence|auto]. Qed.

Lemma fa2_impl {A B} (P Q : A -> B -> Prop) (l : list A) (m : list B) : (forall a b, P a b -> Q a b) -> Forall2 P l m -> Forall2 Q l m.
Proof. intros H F. induction F; constructor; auto. Qed.

Lemma fa2_nth {A B} (P : A -> B -> Prop) (l : list A) (m : list B) n b : Forall2 P l m -> nth_error m n = Some b -> exists a, nth_error l n = Some a /\ P a b.
Proof. intros F. revert n. induction F; intros [|n] E; cbn in *; try discriminate; eauto. injection E as <-. eauto. Qed.

(** Table [i] replaced by another state of itself, in the same array. *)
Lemma inv_change n n' w ps s i t d es' mask used l' :
  inv n w ps s -> (n <= n')%nat -> w_tab w i = Some t -> s_tabs s i = Some d ->
  htab_rep (HTab es' mask used) l' -> i_nel d <= mask + 1 -> (length l' <= n')%nat ->
  (forall es q key v, w_arrays w (t_arr t) = Some es -> 0 <= q -> slot es q = Some (Some (key, v)) ->
     exists v', slot es' q = Some (Some (key, v'))) ->
  forall moved, (i_moved d <= moved)%nat ->
  inv n' (HWorld (w_next w) (put_at (w_arrays w) (t_arr t) (Some es')) (w_structs w)
            (put_at (w_tab w) i (Some (HTable (t_self t) (t_arr t) mask used)))) ps
    (IState (with_tab V (s_tabs s) i (Some (Ideal (i_id d) (i_nel d) l' moved))) (s_made s) (s_ptrs s)).
Proof.
  intros [J1 J2 J3 J4 J5] Hn Et Ed R Hm Hl K moved Hmv.
  pose proof (J1 i) as Ji. rewrite Et, Ed in Ji. destruct Ji as ((es & Ea & R0) & H1 & H2 & H3 & H4 & H5 & H6).
  split; cbn [w_tab w_arrays w_next w_structs s_tabs s_made s_ptrs].
  - intros j. destruct (Nat.eq_dec j i) as [->|NE].
    + rewrite put_at_eq, with_eq. cbn [tab_rep t_arr t_mask t_used t_self i_list i_nel i_id w_arrays w_next w_structs].
      split. { exists es'. rewrite put_at_eq. auto. }
      split; [lia|]. split; auto.
    + rewrite put_at_ne, with_ne by auto. pose proof (J1 j) as Jj.
      destruct (w_tab w j) as [u|] eqn:Eu, (s_tabs s j) as [e|] eqn:Ee; auto.
      destruct Jj as ((es2 & Ea2 & R2) & Jj). split.
      * exists es2. cbn [w_arrays]. rewrite put_at_ne; auto. destruct (J2 j i u t NE Eu Et). auto.
      * cbn [w_next w_structs]. destruct Jj as (A & B & C & D & E & F). repeat split; auto; lia.
  - intros a b u u' NE Ea1 Eb1. 
    assert (X : forall c x, put_at (w_tab w) i (Some (HTable (t_self t) (t_arr t) mask used)) c = Some x ->
       exists y, w_tab w c = Some y /\ t_arr y = t_arr x /\ t_self y = t_self x).
    { intros c x Ec. destruct (Nat.eq_dec c i) as [->|N2].
      - rewrite put_at_eq in Ec. injection Ec as <-. exists t. auto.
      - rewrite put_at_ne in Ec by auto. eauto. }
    destruct (X _ _ Ea1) as (y1 & Y1 & <- & <-), (X _ _ Eb1) as (y2 & Y2 & <- & <-). eauto.
  - intros a es2 E. destruct (Nat.eq_dec a (t_arr t)) as [->|NE].
    + exists i. eexists. rewrite put_at_eq. split; [reflexivity|auto].
    + rewrite put_at_ne in E by auto. destruct (J3 a es2 E) as (j & u & Eu & <-). exists j.
      destruct (Nat.eq_dec j i) as [->|N2]; [congruence|]. rewrite put_at_ne by auto. eauto.
  - intros a Ha. destruct (J4 a Ha) as (j & u & Eu & <-). exists j. destruct (Nat.eq_dec j i) as [->|N2].
    + rewrite put_at_eq. eexists. split; [reflexivity|]. cbn. congruence.
    + rewrite put_at_ne by auto. eauto.
  - eapply fa2_impl; [|exact J5]. intros pm p H. apply (ptr_keep _ _ _ _ _ _ _ _ H); auto.
    intros p0 t' d' _ Et' Ed' _. cbn [w_tab w_arrays] in *. destruct (Nat.eq_dec (p_tab p0) i) as [E|NE].
    + rewrite E in *. rewrite put_at_eq in Et'. rewrite with_eq in Ed'. injection Et' as <-. injection Ed' as <-.
      exists t, d. cbn [i_id i_moved t_arr]. repeat split; auto. intros es2 E2. exists es'. rewrite put_at_eq. split; auto.
      intros q key v Hq Eq. apply (K es2 q key v); auto.
    + rewrite put_at_ne in Et' by auto. rewrite with_ne in Ed' by auto. exists t', d'. repeat split; auto.
      intros es2 E2. exists es2. destruct (J2 _ _ _ _ NE Et' Et) as (A & _). rewrite put_at_ne by auto. split; auto.
      intros q key v _ X. eauto.
Qed.

(** Table [i] moved to another array. *)
Lemma inv_move n n' w ps s i t d es' mask used l' :
  inv n w ps s -> (n <= n')%nat -> w_tab w i = Some t -> s_tabs s i = Some d ->
  htab_rep (HTab es' mask used) l' -> i_nel d <= mask + 1 -> (length l' <= n')%nat ->
  inv n' (HWorld (S (w_next w)) (put_at (put_at (w_arrays w) (w_next w) (Some es')) (t_arr t) None) (w_structs w)
            (put_at (w_tab w) i (Some (HTable (t_self t) (w_next w) mask used)))) ps
    (IState (with_tab V (s_tabs s) i (Some (Ideal (i_id d) (i_nel d) l' (S (i_moved d))))) (s_made s) (s_ptrs s)).
Proof.
  intros [J1 J2 J3 J4 J5] Hn Et Ed R Hm Hl.
  pose proof (J1 i) as Ji. rewrite Et, Ed in Ji. destruct Ji as ((es & Ea & R0) & H1 & H2 & H3 & H4 & H5 & H6).
  assert (LT : forall j u, w_tab w j = Some u -> (t_arr u < w_next w)%nat).
  { intros j u Eu. pose proof (J1 j) as Jj. rewrite Eu in Jj. destruct (s_tabs s j); [|destruct Jj]. cbn in Jj. tauto. }
  split; cbn [w_tab w_arrays w_next w_structs s_tabs s_made s_ptrs].
  - intros j. destruct (Nat.eq_dec j i) as [->|NE].
    + rewrite put_at_eq, with_eq. cbn [tab_rep t_arr t_mask t_used t_self i_list i_nel i_id w_arrays w_next w_structs].
      split. { exists es'. rewrite put_at_ne, put_at_eq by lia. auto. }
      repeat split; auto; lia.
    + rewrite put_at_ne, with_ne by auto. pose proof (J1 j) as Jj.
      destruct (w_tab w j) as [u|] eqn:Eu, (s_tabs s j) as [e|] eqn:Ee; auto.
      destruct Jj as ((es2 & Ea2 & R2) & Jj). split.
      * exists es2. cbn [w_arrays]. destruct (J2 j i u t NE Eu Et). pose proof (LT j u Eu).
        rewrite !put_at_ne; auto. lia.
      * cbn [w_next w_structs]. destruct Jj as (A & B & C & D & E & F). repeat split; auto; lia.
  - intros a b u u' NE Ea1 Eb1. destruct (Nat.eq_dec a i) as [->|NA], (Nat.eq_dec b i) as [->|NB]; try congruence.
    + rewrite put_at_eq in Ea1. rewrite put_at_ne in Eb1 by auto. injection Ea1 as <-. cbn [t_arr t_self].
      pose proof (LT _ _ Eb1). destruct (J2 i b t u' NE Et Eb1). split; [lia|auto].
    + rewrite put_at_eq in Eb1. rewrite put_at_ne in Ea1 by auto. injection Eb1 as <-. cbn [t_arr t_self].
      pose proof (LT _ _ Ea1). destruct (J2 a i u t NE Ea1 Et). split; [lia|auto].
    + rewrite put_at_ne in Ea1, Eb1 by auto. eauto.
  - intros a es2 E. destruct (Nat.eq_dec a (t_arr t)) as [->|NE]; [rewrite put_at_eq in E; discriminate|].
    rewrite put_at_ne in E by auto. destruct (Nat.eq_dec a (w_next w)) as [->|N2].
    + exists i. eexists. rewrite put_at_eq. split; [reflexivity|auto].
    + rewrite put_at_ne in E by auto. destruct (J3 a es2 E) as (j & u & Eu & <-). exists j.
      destruct (Nat.eq_dec j i) as [->|N3]; [congruence|]. rewrite put_at_ne by auto. eauto.
  - intros a Ha. destruct (J4 a Ha) as (j & u & Eu & <-). exists j. destruct (Nat.eq_dec j i) as [->|N2].
    + rewrite put_at_eq. eexists. split; [reflexivity|]. cbn. congruence.
    + rewrite put_at_ne by auto. eauto.
  - eapply fa2_impl; [|exact J5]. intros pm p H. apply (ptr_keep _ _ _ _ _ _ _ _ H); auto.
    intros p0 t' d' _ Et' Ed' _. cbn [w_tab w_arrays] in *. destruct (Nat.eq_dec (p_tab p0) i) as [E|NE].
    + rewrite E in *. rewrite put_at_eq in Et'. rewrite with_eq in Ed'. injection Et' as <-. injection Ed' as <-.
      exists t, d. cbn [i_id i_moved]. split; auto. split; auto. split; auto. split; [lia|]. intros X. lia.
    + rewrite put_at_ne in Et' by auto. rewrite with_ne in Ed' by auto. exists t', d'.
      split; auto. split; auto. split; auto. split; auto. intros _. split; auto.
      intros es2 E2. exists es2. destruct (J2 _ _ _ _ NE Et' Et) as (A & _). pose proof (LT _ _ Et').
      rewrite !put_at_ne by (auto; lia). split; auto. intros q key v _ X. eauto.
Qed.

Lemma inv_ptr n w ps s pm p : inv n w ps s -> ptr_ok w (s_tabs s) (s_made s) pm p ->
  inv n w (ps ++ [pm]) (IState (s_tabs s) (s_made s) (s_ptrs s ++ [p])).
Proof.
  intros [J1 J2 J3 J4 J5] H. split; cbn [s_tabs s_made s_ptrs]; auto. apply Forall2_app; auto.
Qed.

(** The pointer that a search of table [i] returns. *)
Lemma ptr_new w made f i t d es q key v : w_tab w i = Some t -> f i = Some d -> (i_id d < made)%nat ->
  w_arrays w (t_arr t) = Some es -> 0 <= q -> slot es q = Some (Some (key, v)) ->
  ptr_ok w f made (Some (t_arr t, q)) (Some (Pointer i (i_id d) (i_moved d) key)).
Proof.
  intros Et Ed Hi Ea Hq Eq. exists (t_arr t), q. cbn [p_id p_tab p_moved p_key]. split; auto. split; auto. split; auto.
  intros t' d' Et' Ed' _. rewrite Et in Et'. rewrite Ed in Ed'. injection Et' as <-. injection Ed' as <-.
  split; auto. intros _. split; auto. eauto.
Qed.

Lemma inv_weak n n' w ps s : inv n w ps s -> (n <= n')%nat -> inv n' w ps s.
Proof.
  intros [J1 J2 J3 J4 J5] H. split; auto. intros i. specialize (J1 i). destruct (w_tab w i), (s_tabs s i); auto.
  destruct J1 as (A & B & C & D & E & F & G). repeat split; auto; lia.
Qed.

Lemma create_ok n w ps s i nel s' r : inv n w ps s -> istep V s (OCreate i nel) = Some (s', r) ->
  exists w' ps', hstep V (w, ps) (OCreate i nel) = Ok (w', ps', r) /\ inv n w' ps' s'.
Proof.
  intros J H. pose proof J as [J1 J2 J3 J4 J5]. cbn [istep] in H. destruct (s_tabs s i) eqn:Ed; [discriminate|].
  destruct ((0 <=? nel) && (nel <=? 2 ^ 63)) eqn:B; [|discriminate]. apply andb_prop in B as [B1 B2].
  apply Z.leb_le in B1. apply Z.leb_le in B2. injection H as <- <-.
  pose proof (J1 i) as Ji. rewrite Ed in Ji. destruct (w_tab w i) eqn:Et; [destruct Ji|].
  destruct (create_rep nel (conj B1 B2)) as ([es mask used] & E & R & M). cbn [h_mask] in M.
  cbn [hstep]. unfold create. rewrite E. cbn [bind h_entries h_mask h_used].
  eexists _, _. split; [reflexivity|].
  assert (LT : forall j u, w_tab w j = Some u -> (t_arr u < w_next w)%nat /\ (t_self u < w_next w)%nat).
  { intros j u Eu. pose proof (J1 j) as Jj. rewrite Eu in Jj. destruct (s_tabs s j); [|destruct Jj]. cbn in Jj. tauto. }
  split; cbn [w_tab w_arrays w_next w_structs s_tabs s_made s_ptrs].
  - intros j. destruct (Nat.eq_dec j i) as [->|NE].
    + rewrite put_at_eq, with_eq. cbn [tab_rep t_arr t_mask t_used t_self i_list i_nel i_id w_arrays w_next w_structs].
      split. { exists es. rewrite put_at_eq. auto. }
      cbn [In length]. repeat split; auto; lia.
    + rewrite put_at_ne, with_ne by auto. pose proof (J1 j) as Jj.
      destruct (w_tab w j) as [u|] eqn:Eu, (s_tabs s j) as [e|] eqn:Ee; auto.
      destruct Jj as ((es2 & Ea2 & R2) & Jj). split.
      * exists es2. cbn [w_arrays]. pose proof (LT j u Eu). rewrite put_at_ne; auto. lia.
      * cbn [w_next w_structs In]. destruct Jj as (A & B & C & D & F & G). repeat split; auto; lia.
  - intros a b u u' NE Ea1 Eb1. destruct (Nat.eq_dec a i) as [->|NA], (Nat.eq_dec b i) as [->|NB]; try congruence.
    + rewrite put_at_eq in Ea1. rewrite put_at_ne in Eb1 by auto. injection Ea1 as <-. cbn [t_arr t_self].
      pose proof (LT _ _ Eb1). split; lia.
    + rewrite put_at_eq in Eb1. rewrite put_at_ne in Ea1 by auto. injection Eb1 as <-. cbn [t_arr t_self].
      pose proof (LT _ _ Ea1). split; lia.
    + rewrite put_at_ne in Ea1, Eb1 by auto. eauto.
  - intros a es2 E2. destruct (Nat.eq_dec a (S (w_next w))) as [->|N2].
    + exists i. eexists. rewrite put_at_eq. split; [reflexivity|auto].
    + rewrite put_at_ne in E2 by auto. destruct (J3 a es2 E2) as (j & u & Eu & <-). exists j.
      destruct (Nat.eq_dec j i) as [->|N3]; [congruence|]. rewrite put_at_ne by auto. eauto.
  - cbn [In]. intros a [<-|Ha].
    + exists i. eexists. rewrite put_at_eq. split; [reflexivity|auto].
    + destruct (J4 a Ha) as (j & u & Eu & <-). exists j. destruct (Nat.eq_dec j i) as [->|N2]; [congruence|].
      rewrite put_at_ne by auto. eauto.
  - eapply fa2_impl; [|exact J5]. intros pm p H. apply (ptr_keep _ _ _ _ _ _ _ _ H); [lia|].
    intros p0 t' d' _ Et' Ed' Hi. cbn [w_tab w_arrays] in *. destruct (Nat.eq_dec (p_tab p0) i) as [X|NE].
    + exfalso. rewrite X in *. rewrite with_eq in Ed'. injection Ed' as <-. cbn [i_id] in Hi. lia.
    + rewrite put_at_ne in Et' by auto. rewrite with_ne in Ed' by auto. exists t', d'. repeat split; auto.
      intros es2 E2. exists es2. pose proof (LT _ _ Et'). rewrite put_at_ne by lia. split; auto.
      intros q key v _ X. eauto.
Qed.

Lemma destroy_ok n w ps s i s' r : inv n w ps s -> istep V s (ODestroy i) = Some (s', r) ->
  exists w' ps', hstep V (w, ps) (ODestroy i) = Ok (w', ps', r) /\ inv n w' ps' s'.
Proof.
  intros J H. pose proof J as [J1 J2 J3 J4 J5]. cbn [istep] in H. injection H as <- <-.
  pose proof (J1 i) as Ji. cbn [hstep]. unfold destroy.
  destruct (w_tab w i) as [t|] eqn:Et, (s_tabs s i) as [d|] eqn:Ed; try destruct Ji.
  - destruct H as (es & Ea & _). rewrite Ea. cbn [of_option bind]. eexists _, _. split; [reflexivity|].
    split; cbn [w_tab w_arrays w_next w_structs s_tabs s_made s_ptrs].
    + intros j. destruct (Nat.eq_dec j i) as [->|NE].
      * rewrite put_at_eq, with_eq. exact I.
      * rewrite put_at_ne, with_ne by auto. pose proof (J1 j) as Jj.
        destruct (w_tab w j) as [u|] eqn:Eu, (s_tabs s j) as [e|] eqn:Ee; auto.
        destruct Jj as ((es2 & Ea2 & R2) & Jj). destruct (J2 j i u t NE Eu Et) as (X & Y). split.
        -- exists es2. cbn [w_arrays]. rewrite put_at_ne; auto.
        -- cbn [w_next w_structs]. destruct Jj as (A & B & C & D & F & G). repeat split; auto; try lia.
           apply filter_In. split; auto. apply Nat.eqb_neq in Y. rewrite Y. auto.
    + intros a b u u' NE Ea1 Eb1. destruct (Nat.eq_dec a i) as [->|NA]; [rewrite put_at_eq in Ea1; discriminate|].
      destruct (Nat.eq_dec b i) as [->|NB]; [rewrite put_at_eq in Eb1; discriminate|].
      rewrite put_at_ne in Ea1, Eb1 by auto. eauto.
    + intros a es2 E2. destruct (Nat.eq_dec a (t_arr t)) as [->|N2]; [rewrite put_at_eq in E2; discriminate|].
      rewrite put_at_ne in E2 by auto. destruct (J3 a es2 E2) as (j & u & Eu & <-). exists j.
      destruct (Nat.eq_dec j i) as [->|N3]; [congruence|]. rewrite put_at_ne by auto. eauto.
    + intros a Ha. apply filter_In in Ha as [Ha X]. destruct (J4 a Ha) as (j & u & Eu & <-). exists j.
      destruct (Nat.eq_dec j i) as [->|N2].
      * exfalso. assert (u = t) by congruence. subst u. rewrite Nat.eqb_refl in X. discriminate.
      * rewrite put_at_ne by auto. eauto.
    + eapply fa2_impl; [|exact J5]. intros pm p H. apply (ptr_keep _ _ _ _ _ _ _ _ H); [lia|].
      intros p0 t' d' _ Et' Ed' Hi. cbn [w_tab w_arrays] in *. destruct (Nat.eq_dec (p_tab p0) i) as [X|NE].
      * exfalso. rewrite X in *. rewrite with_eq in Ed'. discriminate.
      * rewrite put_at_ne in Et' by auto. rewrite with_ne in Ed' by auto. exists t', d'. repeat split; auto.
        intros es2 E2. exists es2. destruct (J2 _ _ _ _ NE Et' Et) as (A & _). rewrite put_at_ne by auto. split; auto.
        intros q key v _ X. eauto.
  - cbn [bind]. eexists _, _. split; [reflexivity|].
    assert (F : forall j, with_tab V (s_tabs s) i None j = s_tabs s j).
    { intros j. destruct (Nat.eq_dec j i) as [->|NE]; [rewrite with_eq; auto|apply with_ne; auto]. }
    split; cbn [s_tabs s_made s_ptrs]; auto.
    + intros j. rewrite F. auto.
    + eapply fa2_impl; [|exact J5]. intros pm p H. apply (ptr_keep _ _ _ _ _ _ _ _ H); [lia|].
      intros p0 t' d' _ Et' Ed' Hi. rewrite F in Ed'. exists t', d'. repeat split; auto. intros es2 E2. exists es2. split; auto.
      intros q key v _ X. eauto.
Qed.

Lemma app_inv_ideal (s : istate V) : IState (s_tabs s) (s_made s) (s_ptrs s) = s.
Proof. destruct s; auto. Qed.

Lemma enter_ok n w ps s i key v s' r : inv n w ps s -> Z.of_nat n < 2 ^ 61 -> istep V s (OEnter i key v) = Some (s', r) ->
  exists w' ps', hstep V (w, ps) (OEnter i key v) = Ok (w', ps', r) /\ inv (S n) w' ps' s'.
Proof.
  intros J HN H. pose proof J as [J1 J2 J3 J4 J5]. cbn [istep] in H. destruct (s_tabs s i) as [d|] eqn:Ed; [|discriminate].
  pose proof (J1 i) as Ji. rewrite Ed in Ji. destruct (w_tab w i) as [t|] eqn:Et; [|destruct Ji].
  destruct Ji as ((es & Ea & R) & H1 & H2 & H3 & H4 & H5 & H6).
  cbn [hstep]. unfold enter_in, contents. rewrite Et. cbn [of_option bind]. rewrite Ea. cbn [of_option bind fst h_entries h_mask h_used].
  destruct (HtableSpec.entry_of V key (i_list d)) as [e|] eqn:F.
  - destruct (lookup_rep _ _ key R) as (p & x & -> & Hp & Sp & X). cbn [bind h_entries] in *. rewrite F in X. subst x.
    fold (slot es p). rewrite Sp. cbn [of_option bind]. unfold read_entry. cbn [fst snd]. rewrite Ea. cbn [of_option bind].
    fold (slot es p). rewrite Sp. cbn [of_option bind]. injection H as <- <-. eexists _, _. split; [reflexivity|].
    apply inv_weak with n; [|lia]. apply inv_ptr; auto. destruct e as [ke ve].
    pose proof (entry_key _ _ _ F) as K. cbn [fst] in K. subst ke. eapply ptr_new; eauto.
  - assert (HL : Z.of_nat (length (i_list d)) < 2 ^ 61) by lia.
    destruct (enter_new _ _ key v (i_nel d) R H1 HL F) as (p & L & Hp & Sp & K).
    rewrite L. cbn [bind h_entries h_mask h_used] in *. fold (slot es p). rewrite Sp. cbn [of_option bind].
    cbn zeta in K. destruct K as (K1 & K2 & K3).
    assert (HL2 : (length (i_list d ++ [(key, v)]) <= S n)%nat) by (rewrite app_length; cbn [length]; lia).
    destruct (wrap 64 (t_used t + 1) >? t_mask t - t_mask t / 4) eqn:G.
    + destruct K3 as (h2 & p2 & E1 & E2 & E3 & E4 & E5 & E6 & E7). cbn [h_used h_mask] in *.
      match type of E1 with ?L = _ => match goal with |- context [resize V ?a ?b] => change (resize V a b) with L end end. rewrite E1. cbn [bind]. rewrite E2. cbn [bind].
      unfold read_entry. cbn [fst snd w_arrays]. rewrite put_at_ne by lia. rewrite put_at_eq. cbn [of_option bind].
      fold (slot (h_entries h2) p2). rewrite E4. cbn [of_option bind].
      replace (Z.of_nat (length (i_list d)) <? room (i_nel d)) with false in H by (symmetry; apply Z.ltb_ge; auto).
      injection H as <- <-. eexists _, _. split; [reflexivity|].
      destruct h2 as [es2 mask2 used2]. cbn [h_entries h_mask h_used] in *.
      pose proof (inv_move n (S n) w ps s i t d es2 mask2 used2 _ J ltac:(lia) Et Ed E5 E6) as J'.
      specialize (J' HL2).
      apply (inv_ptr _ _ _ _ (Some (w_next w, p2)) (Some (Pointer i (i_id d) (S (i_moved d)) key)) J').
      cbn [s_tabs s_made]. match goal with |- ptr_ok ?W ?f ?m _ _ =>
        apply (ptr_new W m f i (HTable (t_self t) (w_next w) mask2 used2) (Ideal (i_id d) (i_nel d) (i_list d ++ [(key, v)]) (S (i_moved d))) es2 p2 key v) end;
        cbn [w_tab w_arrays t_arr i_id]; auto.
      * apply put_at_eq.
      * apply with_eq.
      * rewrite put_at_ne by lia. apply put_at_eq.
    + cbn [bind]. unfold read_entry. cbn [fst snd w_arrays]. rewrite put_at_eq. cbn [of_option bind].
      match type of K2 with ?L = _ => match goal with |- context [nth_error ?l (Z.to_nat p)] => change (nth_error l (Z.to_nat p)) with L end end.
      rewrite K2. cbn [of_option bind].
      set (moved := if Z.of_nat (length (i_list d)) <? room (i_nel d) then i_moved d else S (i_moved d)) in *.
      injection H as <- <-. eexists _, _. split; [reflexivity|].
      assert (i_moved d <= moved)%nat by (unfold moved; destruct (_ <? _); lia).
      pose proof (inv_change n (S n) w ps s i t d _ _ _ _ J ltac:(lia) Et Ed K3 (proj2 H1)) as J'.
      specialize (J' HL2). match type of J' with (?A -> _) => assert (X : A) end.
      { intros es2 q key' v' E2 Hq Eq. assert (es2 = es) by congruence. subst es2. exists v'. apply K1; auto. }
      specialize (J' X moved H).
      apply (inv_ptr _ _ _ _ (Some (t_arr t, p)) (Some (Pointer i (i_id d) moved key)) J').
      cbn [s_tabs s_made]. match goal with |- ptr_ok ?W ?f ?m _ _ =>
        eapply (ptr_new W m f i (HTable (t_self t) (t_arr t) (t_mask t) _) (Ideal (i_id d) (i_nel d) (i_list d ++ [(key, v)]) moved) _ p key v) end;
        cbn [w_tab w_arrays t_arr i_id]; auto.
      * apply put_at_eq.
      * apply with_eq.
      * apply put_at_eq.
      * exact K2.
Qed.

Lemma find_ok n w ps s i key s' r : inv n w ps s -> istep V s (OFind i key) = Some (s', r) ->
  exists w' ps', hstep V (w, ps) (OFind i key) = Ok (w', ps', r) /\ inv n w' ps' s'.
Proof.
  intros J H. pose proof J as [J1 J2 J3 J4 J5]. cbn [istep] in H. destruct (s_tabs s i) as [d|] eqn:Ed; [|discriminate].
  pose proof (J1 i) as Ji. rewrite Ed in Ji. destruct (w_tab w i) as [t|] eqn:Et; [|destruct Ji].
  destruct Ji as ((es & Ea & R) & H1 & H2 & H3 & H4 & H5 & H6).
  cbn [hstep]. unfold find_in, contents. rewrite Et. cbn [of_option bind]. rewrite Ea. cbn [of_option bind fst h_entries h_mask h_used].
  destruct (lookup_rep _ _ key R) as (p & x & -> & Hp & Sp & X). cbn [bind h_entries] in *. subst x.
  fold (slot es p). rewrite Sp. cbn [of_option bind]. injection H as <- <-.
  destruct (HtableSpec.entry_of V key (i_list d)) as [e|] eqn:F; cbn [bind].
  - unfold read_entry. cbn [fst snd]. rewrite Ea. cbn [of_option bind].
    fold (slot es p). rewrite Sp. cbn [of_option bind]. eexists _, _. split; [reflexivity|].
    apply inv_ptr; auto. destruct e as [ke ve].
    pose proof (entry_key _ _ _ F) as K. cbn [fst] in K. subst ke. eapply ptr_new; eauto.
  - eexists _, _. split; [reflexivity|]. apply inv_ptr; auto. exact I.
Qed.

Lemma points_ok n w ps s k p d e : inv n w ps s -> nth_error (s_ptrs s) k = Some (Some p) -> points_to V s p = Some (d, e) ->
  exists t q es, nth_error ps k = Some (Some (t_arr t, q)) /\ 0 <= q /\ w_tab w (p_tab p) = Some t /\ s_tabs s (p_tab p) = Some d /\
    w_arrays w (t_arr t) = Some es /\ slot es q = Some (Some e) /\ fst e = p_key p /\ htab_rep (HTab es (t_mask t) (t_used t)) (i_list d).
Proof.
  intros [J1 J2 J3 J4 J5] E H. destruct (fa2_nth _ _ _ _ _ J5 E) as (pm & Em & (a & q & -> & Hq & Hi & P)).
  unfold points_to in H. destruct (s_tabs s (p_tab p)) as [d0|] eqn:Ed; [|discriminate].
  destruct (Nat.eq_dec (i_id d0) (p_id p)) as [E1|]; [|discriminate].
  destruct (Nat.eq_dec (i_moved d0) (p_moved p)) as [E2|]; [|discriminate].
  destruct (HtableSpec.entry_of V (p_key p) (i_list d0)) as [e0|] eqn:F; [|discriminate]. injection H as <- <-.
  pose proof (J1 (p_tab p)) as Ji. rewrite Ed in Ji. destruct (w_tab w (p_tab p)) as [t|] eqn:Et; [|destruct Ji].
  destruct Ji as ((es & Ea & R) & _). destruct (P t d0 eq_refl eq_refl E1) as (_ & P2). destruct (P2 E2) as (-> & es2 & v & X1 & X2).
  assert (es2 = es) by congruence. subst es2. exists t, q, es. split; auto. split; auto. split; auto. split; auto. split; auto.
  assert (G : HtableSpec.entry_of V (p_key p) (i_list d0) = Some (p_key p, v)).
  { apply (rep_in _ _ _ _ R). cbn [h_entries]. eapply slot_in; eauto. }
  rewrite F in G. injection G as ->. auto.
Qed.

Lemma same_world (w : hworld V) i t : w_tab w i = Some t -> forall j, put_at (w_tab w) i (Some (HTable (t_self t) (t_arr t) (t_mask t) (t_used t))) j = w_tab w j.
Proof.
  intros E j. destruct (Nat.eq_dec j i) as [->|N]; [rewrite put_at_eq, E; destruct t; auto|apply put_at_ne; auto].
Qed.

Lemma inv_ext n w ps s f : inv n w ps s -> (forall j, f j = w_tab w j) -> inv n (HWorld (w_next w) (w_arrays w) (w_structs w) f) ps s.
Proof.
  intros [J1 J2 J3 J4 J5] E. split; cbn [w_tab w_arrays w_structs w_next].
  - intros i. rewrite E. exact (J1 i).
  - intros i j t u. rewrite !E. apply J2.
  - intros a es H. destruct (J3 a es H) as (i & t & X). exists i, t. rewrite E. auto.
  - intros a H. destruct (J4 a H) as (i & t & X). exists i, t. rewrite E. auto.
  - eapply fa2_impl; [|exact J5]. intros pm [p|] H; [|exact I]. destruct H as (a & q & H1 & H2 & H3 & H4).
    exists a, q. cbn [w_tab w_arrays]. split; auto. split; auto. split; auto. intros t d. rewrite E. apply H4.
Qed.

Lemma step_ok n w ps s o s' r : inv n w ps s -> Z.of_nat n < 2 ^ 61 -> istep V s o = Some (s', r) ->
  exists w' ps', hstep V (w, ps) o = Ok (w', ps', r) /\ inv (S n) w' ps' s'.
Proof.
  intros J HN H. destruct o as [i nel|i|i key v|i key|k|k v].
  - destruct (create_ok _ _ _ _ _ _ _ _ J H) as (w' & ps' & A & B). exists w', ps'. split; auto. apply (inv_weak n); auto.
  - destruct (destroy_ok _ _ _ _ _ _ _ J H) as (w' & ps' & A & B). exists w', ps'. split; auto. apply (inv_weak n); auto.
  - apply (enter_ok n w ps s); auto.
  - destruct (find_ok _ _ _ _ _ _ _ _ J H) as (w' & ps' & A & B). exists w', ps'. split; auto. apply (inv_weak n); auto.
  - cbn [istep] in H. destruct (nth_error (s_ptrs s) k) as [[p|]|] eqn:E; try discriminate.
    destruct (points_to V s p) as [[d e]|] eqn:P; [|discriminate]. injection H as <- <-.
    destruct (points_ok _ _ _ _ _ _ _ _ J E P) as (t & q & es & A1 & A2 & A3 & A4 & A5 & A6 & A7 & A8).
    cbn [hstep]. rewrite A1. cbn [of_option bind]. unfold read_entry. cbn [fst snd]. rewrite A5. cbn [of_option bind].
    fold (slot es q). rewrite A6. cbn [of_option bind]. eexists _, _. split; [reflexivity|]. apply (inv_weak n); auto.
  - cbn [istep] in H. destruct (nth_error (s_ptrs s) k) as [[p|]|] eqn:E; try discriminate.
    destruct (points_to V s p) as [[d e]|] eqn:P; [|discriminate]. injection H as <- <-.
    destruct (points_ok _ _ _ _ _ _ _ _ J E P) as (t & q & es & A1 & A2 & A3 & A4 & A5 & A6 & A7 & A8).
    cbn [hstep]. rewrite A1. cbn [of_option bind]. unfold write_data. cbn [fst snd]. rewrite A5. cbn [of_option bind].
    fold (slot es q). rewrite A6. cbn [of_option bind].
    destruct e as [ke ve]. cbn [fst] in A7. cbn [fst]. subst ke. eexists _, _. split; [reflexivity|].
    destruct (put_rep es (t_mask t) (t_used t) (i_list d) (p_key p) ve v q A8 A2 A6) as (R' & K).
    pose proof (v_tab _ _ _ _ J (p_tab p)) as Ji. rewrite A3, A4 in Ji. destruct Ji as (_ & H1 & H2 & H3 & H4 & H5 & H6).
    assert (HL : (length (change V (p_key p) v (i_list d)) <= S n)%nat) by (unfold change; rewrite map_length; lia).
    assert (J' := inv_change n (S n) w ps s (p_tab p) t d _ (t_mask t) (t_used t) _ J ltac:(lia) A3 A4 R' (proj2 H1) HL).
    specialize (J' ltac:(intros es2 q2 key v2 X Y Z; assert (es2 = es) by congruence; subst es2; eauto) (i_moved d) (le_n _)).
    apply (inv_ext _ _ _ _ (w_tab w)) in J'; [exact J'|]. intros j. cbn [w_tab]. symmetry. apply same_world; auto.
Qed.

Lemma play_ok ops : forall n w ps s s' rs, inv n w ps s -> Z.of_nat n + Z.of_nat (length ops) <= 2 ^ 61 ->
  iplay V s ops = Some (s', rs) ->
  exists w' ps', hplay V (w, ps) ops = Ok (w', ps', rs) /\ inv (n + length ops) w' ps' s'.
Proof.
  induction ops as [|o ops IH]; intros n w ps s s' rs J HN H; cbn [iplay hplay length] in *.
  - injection H as <- <-. eexists _, _. split; [reflexivity|]. rewrite Nat.add_0_r. auto.
  - destruct (istep V s o) as [[s1 r]|] eqn:E; [|discriminate].
    destruct (iplay V s1 ops) as [[s2 rs2]|] eqn:E2; [|discriminate]. injection H as <- <-.
    destruct (step_ok n w ps s o s1 r J ltac:(lia) E) as (w1 & ps1 & X & J1). rewrite X. cbn [bind].
    destruct (IH (S n) w1 ps1 s1 s2 rs2 J1 ltac:(lia) E2) as (w2 & ps2 & Y & J2).
    rewrite Y. cbn [bind]. eexists _, _. split; [reflexivity|]. rewrite Nat.add_succ_r. auto.
Qed.

Lemma inv_start : inv 0 (no_tables V) [] (nothing V).
Proof.
  split; cbn; try discriminate; auto; try tauto.
Qed.

Lemma programs_ok ops s rs : Z.of_nat (length ops) <= 2 ^ 61 -> iplay V (nothing V) ops = Some (s, rs) ->
  exists w ps, hplay V (no_tables V, []) ops = Ok (w, ps, rs) /\
    ((forall i, s_tabs s i = None) -> (forall a, w_arrays w a = None) /\ w_structs w = []) /\
    (forall i, s_tabs s i = None <-> w_tab w i = None).
Proof.
  intros HN H. destruct (play_ok ops 0 _ [] _ s rs inv_start ltac:(lia) H) as (w & ps & E & J).
  exists w, ps. split; auto. pose proof J as [J1 J2 J3 J4 J5].
  assert (N : forall i, s_tabs s i = None <-> w_tab w i = None).
  { intros i. specialize (J1 i). destruct (w_tab w i), (s_tabs s i); try destruct J1; intuition discriminate. }
  split; auto. intros A. assert (W : forall i t, w_tab w i <> Some t) by (intros i t X; rewrite (proj1 (N i) (A i)) in X; discriminate).
  split.
  - intros a. destruct (w_arrays w a) as [es|] eqn:X; auto. destruct (J3 a es X) as (i & t & Y & _). destruct (W _ _ Y).
  - destruct (w_structs w) as [|b l] eqn:X; auto. destruct (J4 b) as (i & t & Y & _); [cbn; auto|]. destruct (W _ _ Y).
Qed.
End Proofs.
