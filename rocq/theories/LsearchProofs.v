(** Proofs about musl-lsearch.c. *)
From Coq Require Import ZArith List Bool Lia.
From Verif Require Import Base ArrayLemmas LsearchModel LsearchSpec.
Import ListNotations.
Open Scope Z_scope.
Open Scope outcome_scope.
Local Arguments Z.add : simpl never.
Local Arguments Z.mul : simpl never.
Local Arguments Z.of_nat : simpl never.
Local Arguments Z.to_nat : simpl never.

Lemma read_ok a cs : forall off, 0 <= off ->
  (forall i c, nth_error cs i = Some c -> nth_error a (Z.to_nat off + i) = Some (Some c)) ->
  read_bytes a off (length cs) = Ok cs.
Proof.
  induction cs as [|c cs IH]; intros off L H; [reflexivity|].
  cbn [length read_bytes].
  assert (E : aread a off = Ok c).
  { unfold aread. rewrite aget_nth by exact L.
    pose proof (H 0%nat c eq_refl) as H0. rewrite Nat.add_0_r in H0. rewrite H0. reflexivity. }
  rewrite E. cbn [bind]. rewrite IH; [reflexivity | lia |].
  intros i d Hi. specialize (H (S i) d Hi).
  replace (Z.to_nat (off + 1) + i)%nat with (Z.to_nat off + S i)%nat by lia. exact H.
Qed.

Lemma load_ok m p cs : bytes_at m p cs -> load_bytes m p (length cs) = Ok cs.
Proof.
  intros (L & a & E & H). unfold load_bytes, block_of. rewrite E. cbn [of_option bind].
  apply read_ok; assumption.
Qed.

Lemma bytes_part m p cs n k : bytes_at m p cs ->
  bytes_at m (fst p, snd p + Z.of_nat n) (firstn k (skipn n cs)).
Proof.
  intros (L & a & E & H). split; [cbn; lia|]. exists a. split; [exact E|].
  intros i c Hi. cbn [snd].
  assert (Hi2 : nth_error cs (n + i) = Some c).
  { assert (Lt : (i < k)%nat).
    { destruct (Nat.lt_ge_cases i k) as [Q|Q]; [exact Q|]. exfalso.
      assert (N : nth_error (firstn k (skipn n cs)) i = None).
      { apply nth_error_None. rewrite firstn_length. lia. }
      congruence. }
    clear - Hi Lt. revert n cs Hi. revert i k Lt.
    assert (F : forall (l : list cell) i k, (i < k)%nat ->
               nth_error (firstn k l) i = nth_error l i).
    { induction l as [|x l IH]; intros i k Lt; [rewrite firstn_nil; reflexivity|].
      destruct k; [lia|]. destruct i; [reflexivity|]. apply IH. lia. }
    assert (G : forall (l : list cell) n i, nth_error (skipn n l) i = nth_error l (n + i)).
    { induction l as [|x l IH]; intros n i; [rewrite skipn_nil; destruct i, n; reflexivity|].
      destruct n; [reflexivity|]. apply IH. }
    intros i k Lt n cs Hi. rewrite F in Hi by exact Lt. rewrite G in Hi. exact Hi. }
  specialize (H _ c Hi2).
  replace (Z.to_nat (snd p + Z.of_nat n) + i)%nat with (Z.to_nat (snd p) + (n + i))%nat by lia.
  exact H.
Qed.

Lemma parts_row rows : forall j r, nth_error rows j = Some r ->
  firstn 8 (skipn (8 * j) (flat_map pointer_bytes rows)) = pointer_bytes r.
Proof.
  induction rows as [|s rows IH]; intros j r H; [destruct j; discriminate|].
  destruct j as [|j].
  - injection H as <-. reflexivity.
  - cbn [nth_error] in H. replace (8 * S j)%nat with (8 + 8 * j)%nat by lia.
    cbn [flat_map]. rewrite <- (IH j r H). reflexivity.
Qed.

Lemma ptr_eqb_refl p : ptr_eqb p p = true.
Proof. unfold ptr_eqb. rewrite Nat.eqb_refl, Z.eqb_refl. reflexivity. Qed.

Lemma as_pointer_ok r : as_pointer (pointer_bytes r) = Ok r.
Proof.
  unfold as_pointer, pointer_bytes. cbn [is_parts].
  rewrite ptr_eqb_refl. reflexivity.
Qed.

Lemma slot_ok m base rows j r : table_at m base rows -> nth_error rows j = Some r ->
  slot m base (Z.of_nat j) = Ok r.
Proof.
  intros T H. unfold slot.
  pose proof (bytes_part m base _ (8 * j) 8 T) as P. rewrite (parts_row rows j r H) in P.
  replace (8 * Z.of_nat j) with (Z.of_nat (8 * j)) by lia.
  change 8%nat with (length (pointer_bytes r)) at 2.
  rewrite (load_ok m _ _ P). cbn [bind]. apply as_pointer_ok.
Qed.

(** * Writing *)
Lemma write_ok cs : forall a off, 0 <= off -> (Z.to_nat off + length cs <= length a)%nat ->
  exists a', write_bytes a off cs = Ok a' /\ length a' = length a /\
    (forall i c, nth_error cs i = Some c -> nth_error a' (Z.to_nat off + i) = Some (Some c)) /\
    (forall i, (i < Z.to_nat off \/ Z.to_nat off + length cs <= i)%nat ->
       nth_error a' i = nth_error a i).
Proof.
  induction cs as [|c cs IH]; intros a off L B.
  - exists a. split; [reflexivity|]. split; [reflexivity|].
    split; [intros i c H; destruct i; discriminate | reflexivity].
  - cbn [length write_bytes] in *. unfold aset.
    replace ((0 <=? off) && (off <? Z.of_nat (length a))) with true
      by (symmetry; apply andb_true_intro; split; [apply Z.leb_le | apply Z.ltb_lt]; lia).
    cbn [bind].
    destruct (IH (update a (Z.to_nat off) (Some c)) (off + 1)) as (a' & E & Len & W & F).
    { lia. }
    { rewrite update_length. lia. }
    rewrite update_length in Len.
    exists a'. split; [exact E|]. split; [exact Len|]. split.
    + intros i d Hi. destruct i as [|i].
      * injection Hi as <-. rewrite F by lia. rewrite Nat.add_0_r.
        apply nth_error_update_eq. lia.
      * specialize (W i d Hi).
        replace (Z.to_nat off + S i)%nat with (Z.to_nat (off + 1) + i)%nat by lia. exact W.
    + intros i Hi. rewrite F by lia. apply nth_error_update_neq. lia.
Qed.

Lemma store_ok m p cs : room_at m p (length cs) ->
  exists m', store_bytes m p cs = Ok m' /\ bytes_at m' p cs /\
    (forall q ds, apart p (length cs) q (length ds) -> bytes_at m q ds -> bytes_at m' q ds) /\
    (forall q n, room_at m q n -> room_at m' q n).
Proof.
  intros (L & a & E & B). unfold store_bytes, block_of. rewrite E. cbn [of_option bind].
  destruct (write_ok cs a (snd p) L B) as (a' & -> & Len & W & F). cbn [bind].
  assert (Lp : (fst p < length m)%nat) by (apply nth_error_Some; rewrite E; discriminate).
  eexists. split; [reflexivity|]. split; [|split].
  - split; [exact L|]. exists a'. split; [apply nth_error_update_eq; exact Lp | exact W].
  - intros q ds A (Lq & b & Eq & H). split; [exact Lq|].
    destruct (Nat.eq_dec (fst p) (fst q)) as [Q|Q].
    + exists a'. split; [rewrite <- Q; apply nth_error_update_eq; exact Lp|].
      rewrite <- Q, E in Eq. injection Eq as <-.
      intros i c Hi. rewrite F; [exact (H i c Hi)|].
      assert (Li : (i < length ds)%nat) by (apply nth_error_Some; rewrite Hi; discriminate).
      destruct A as [A|[A|A]]; [contradiction | right | left]; lia.
    + exists b. split; [rewrite nth_error_update_neq by exact Q; exact Eq | exact H].
  - intros q n (Lq & b & Eq & H). split; [exact Lq|].
    destruct (Nat.eq_dec (fst p) (fst q)) as [Q|Q].
    + exists a'. split; [rewrite <- Q; apply nth_error_update_eq; exact Lp|].
      rewrite <- Q, E in Eq. injection Eq as <-. lia.
    + exists b. split; [rewrite nth_error_update_neq by exact Q; exact Eq | exact H].
Qed.

(** * Searching *)
Lemma place_le alike xs k : (place alike xs k <= length xs)%nat.
Proof. induction xs as [|x xs IH]; cbn; [lia|]. destruct (alike x k); lia. Qed.

Lemma place_found alike xs k : existsb (fun x => alike x k) xs = true ->
  (place alike xs k < length xs)%nat.
Proof.
  induction xs as [|x xs IH]; cbn; [discriminate|]. destruct (alike x k); [lia|].
  cbn. intros H. specialize (IH H). lia.
Qed.

Lemma place_absent alike xs k : existsb (fun x => alike x k) xs = false ->
  place alike xs k = length xs.
Proof.
  induction xs as [|x xs IH]; cbn; [reflexivity|]. destruct (alike x k); [discriminate|].
  cbn. intros H. rewrite (IH H). reflexivity.
Qed.

Section Search.
Variable compar : lmem -> ptr -> ptr -> outcome Z.
Variable w : nat.
Variable alike : list cell -> list cell -> bool.
Hypothesis C : compares compar w alike.

Lemma scan_ok m key base rows k : table_at m base rows ->
  length k = w -> bytes_at m key k ->
  forall xs i, Forall (fun x => length x = w) xs ->
  (forall j x, nth_error xs j = Some x ->
     exists r, nth_error rows (i + j) = Some r /\ bytes_at m r x) ->
  scan compar m key base (Z.of_nat i) (length xs) =
    Ok (if existsb (fun x => alike x k) xs
        then nth_error rows (i + place alike xs k) else None).
Proof.
  intros T Lk Bk xs. induction xs as [|x xs IH]; intros i F H; [reflexivity|].
  cbn [length scan existsb place].
  destruct (H 0%nat x eq_refl) as (r & Hr & Br). rewrite Nat.add_0_r in Hr.
  rewrite (slot_ok m base rows i r T Hr). cbn [bind].
  destruct (C m r key x k (Forall_inv F) Lk Br Bk) as (c & -> & Hc). cbn [bind].
  destruct (Z.eqb_spec c 0) as [E|E].
  - rewrite (proj1 Hc E). cbn [orb]. rewrite Nat.add_0_r, Hr. reflexivity.
  - destruct (alike x k); [elim E; apply Hc; reflexivity|]. cbn [orb].
    replace (Z.of_nat i + 1) with (Z.of_nat (S i)) by lia.
    rewrite (IH (S i) (Forall_inv_tail F)).
    + replace (S i + place alike xs k)%nat with (i + S (place alike xs k))%nat by lia.
      reflexivity.
    + intros j y Hj. destruct (H (S j) y Hj) as (s & Hs & Bs). exists s.
      replace (S i + j)%nat with (i + S j)%nat by lia. split; assumption.
Qed.

Lemma lfind_ok m key base rows k xs : table_at m base rows ->
  length k = w -> bytes_at m key k -> Forall (fun x => length x = w) xs ->
  entries_at m rows xs -> (length xs <= length rows)%nat ->
  lfind compar m key base (length xs) =
    Ok (if existsb (fun x => alike x k) xs
        then nth_error rows (place alike xs k) else None).
Proof.
  intros T Lk Bk F En L. unfold lfind. change 0 with (Z.of_nat 0).
  rewrite (scan_ok m key base rows k T Lk Bk xs 0 F); [reflexivity|].
  intros j x Hj. cbn [Nat.add].
  assert (Lj : (j < length xs)%nat) by (apply nth_error_Some; rewrite Hj; discriminate).
  destruct (nth_error rows j) as [r|] eqn:Hr; [|apply nth_error_None in Hr; lia].
  exists r. split; [reflexivity|]. exact (En j r x Hr Hj).
Qed.

(** The table with its rows, the entries of the first of them and the keys that
    will still be looked up. *)
Definition ready (m : lmem) (base : ptr) (rows : list ptr) (xs : list (list cell))
    (keys : list ptr) (ks : list (list cell)) : Prop :=
  table_at m base rows /\ entries_at m rows xs /\
  Forall (fun x => length x = w) xs /\
  (forall r, In r rows -> room_at m r w) /\
  Forall2 (fun p k => bytes_at m p k /\ length k = w /\ outside p rows w) keys ks.

Lemma forall2_imp {A B} (P Q : A -> B -> Prop) l1 l2 :
  (forall a b, P a b -> Q a b) -> Forall2 P l1 l2 -> Forall2 Q l1 l2.
Proof. intros H F. induction F; constructor; auto. Qed.

Lemma flat_len rows : length (flat_map pointer_bytes rows) = (8 * length rows)%nat.
Proof. induction rows as [|r rows IH]; cbn [flat_map]; [reflexivity|].
  rewrite app_length, IH. cbn [length pointer_bytes]. lia. Qed.

Lemma lsearch_ok m base rows xs key keys k ks : laid_out base rows w ->
  ready m base rows xs (key :: keys) (k :: ks) ->
  (length (enter alike xs k) <= length rows)%nat -> Z.of_nat (length rows) < 2 ^ 64 ->
  exists p m',
    lsearch compar m key base (length xs) w =
      Ok (p, Z.of_nat (length (enter alike xs k)), m') /\
    nth_error rows (place alike xs k) = Some p /\
    ready m' base rows (enter alike xs k) keys ks /\
    (forall q ds, (forall r, In r rows -> apart r w q (length ds)) ->
       bytes_at m q ds -> bytes_at m' q ds).
Proof.
  intros [LO1 LO2] (T & En & F & Rm & Ks) Fits Big.
  inversion Ks as [|? ? ? ? (Bk & Lk & Out) Ks']; subst. clear Ks.
  assert (Lx : (length xs <= length rows)%nat).
  { revert Fits. unfold enter. destruct (existsb _ xs); [auto|]. rewrite app_length. lia. }
  unfold lsearch. pose proof (lfind_ok m key base rows k xs T Lk Bk F En Lx) as S.
  unfold lfind in S. rewrite S. clear S. cbn [bind].
  unfold enter in *. destruct (existsb (fun x => alike x k) xs) eqn:Ex.
  - pose proof (place_found alike xs k Ex) as Pl.
    destruct (nth_error rows (place alike xs k)) as [p|] eqn:Hp;
      [|apply nth_error_None in Hp; lia].
    exists p, m. split; [reflexivity|]. split; [reflexivity|]. split; [|auto].
    split; [exact T|]. split; [exact En|]. split; [exact F|]. split; [exact Rm | exact Ks'].
  - rewrite (place_absent alike xs k Ex). rewrite app_length in *. cbn [length] in *.
    destruct (nth_error rows (length xs)) as [d|] eqn:Hd;
      [|apply nth_error_None in Hd; lia].
    rewrite (slot_ok m base rows (length xs) d T Hd). cbn [bind].
    unfold memcpy. pose proof (load_ok m key k Bk) as Ld. rewrite Lk in Ld.
    rewrite Ld. cbn [bind].
    pose proof (nth_error_In _ _ Hd) as Id. pose proof (Rm d Id) as Rd.
    rewrite <- Lk in Rd.
    destruct (store_ok m d k Rd) as (m' & -> & Bd & Fr & Fr2). cbn [bind]. rewrite Lk in Fr.
    exists d, m'. split.
    { f_equal. f_equal. f_equal. unfold wrap. rewrite Z.mod_small by lia. lia. }
    split; [reflexivity|]. split.
    + split; [|split; [|split; [|split]]].
      * apply Fr; [|exact T]. rewrite flat_len. exact (LO2 d Id).
      * intros j r x Hr Hx. destruct (Nat.eq_dec j (length xs)) as [->|N].
        { rewrite nth_error_app2 in Hx by lia. rewrite Nat.sub_diag in Hx. injection Hx as <-.
          rewrite Hd in Hr. injection Hr as <-. exact Bd. }
        assert (Lj : (j < length xs)%nat).
        { assert (Q : (j < length (xs ++ [k]))%nat)
            by (apply nth_error_Some; rewrite Hx; discriminate).
          rewrite app_length in Q. cbn [length] in Q. lia. }
        rewrite nth_error_app1 in Hx by exact Lj.
        apply Fr; [|exact (En j r x Hr Hx)].
        rewrite Forall_forall in F. rewrite (F x (nth_error_In _ _ Hx)).
        apply (LO1 (length xs) j d r Hd Hr). lia.
      * apply Forall_app. split; [exact F|]. constructor; [exact Lk | constructor].
      * intros r Hr. apply Fr2. exact (Rm r Hr).
      * revert Ks'. apply forall2_imp. intros q y (B & L & O).
        split; [|split; [exact L | exact O]]. apply Fr; [|exact B]. rewrite L. exact (O d Id).
    + intros q ds A B. apply Fr; [exact (A d Id) | exact B].
Qed.

Lemma enter_grows xs k : (length xs <= length (enter alike xs k))%nat.
Proof. unfold enter. destruct (existsb _ xs); [lia|]. rewrite app_length. lia. Qed.

Lemma entered_grows ks : forall xs, (length xs <= length (entered alike xs ks))%nat.
Proof.
  induction ks as [|k ks IH]; intros xs; [cbn; lia|].
  unfold entered in *. cbn [fold_left].
  pose proof (enter_grows xs k). specialize (IH (enter alike xs k)). lia.
Qed.

Lemma lsearches_ok base rows : laid_out base rows w -> Z.of_nat (length rows) < 2 ^ 64 ->
  forall keys ks m xs, ready m base rows xs keys ks ->
  (length (entered alike xs ks) <= length rows)%nat ->
  exists ps m',
    lsearches compar m base (Z.of_nat (length xs)) w keys =
      Ok (ps, Z.of_nat (length (entered alike xs ks)), m') /\
    Forall2 (fun p j => nth_error rows j = Some p) ps (places alike xs ks) /\
    table_at m' base rows /\ entries_at m' rows (entered alike xs ks) /\
    (forall q ds, (forall r, In r rows -> apart r w q (length ds)) ->
       bytes_at m q ds -> bytes_at m' q ds).
Proof.
  intros LO Big keys. induction keys as [|key keys IH]; intros ks m xs Rd Fits.
  - pose proof Rd as (T & En & _ & _ & Ks). inversion Ks; subst.
    exists [], m. cbn [lsearches entered fold_left places].
    split; [reflexivity|]. split; [constructor|]. split; [exact T|]. split; [exact En | auto].
  - pose proof Rd as (_ & _ & _ & _ & Ks). destruct ks as [|k ks]; [inversion Ks|].
    cbn [lsearches places]. rewrite Nat2Z.id.
    unfold entered in *. cbn [fold_left] in *. fold (entered alike (enter alike xs k) ks) in *.
    pose proof (entered_grows ks (enter alike xs k)) as G.
    destruct (lsearch_ok m base rows xs key keys k ks LO Rd) as (p & m1 & E1 & P1 & R1 & F1);
      [lia | exact Big |].
    rewrite E1. cbn [bind].
    destruct (IH ks m1 (enter alike xs k) R1 Fits) as (ps & m2 & E2 & P2 & T2 & En2 & F2).
    rewrite E2. cbn [bind].
    exists (p :: ps), m2. split; [reflexivity|]. split; [constructor; assumption|].
    split; [exact T2|]. split; [exact En2|].
    intros q ds A B. apply F2; [exact A|]. apply F1; [exact A | exact B].
Qed.
End Search.
