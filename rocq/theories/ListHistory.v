(** Consequences of the list refinement in terms of histories. *)
From Coq Require Import ZArith List Bool Lia.
From Verif Require Import Base ArrayLemmas ListModel ListProofs.
Import ListNotations.
Open Scope Z_scope.
Local Arguments Z.add : simpl never.
Local Arguments Z.of_nat : simpl never.

Section Proofs.
Context {A : Type}.

(** A list made by cee_list_mk and in-range operations, holding [xs]. *)
Definition reached (l : clist A) (xs : list A) : Prop :=
  exists cap ops rs, 0 <= cap /\ Z.of_nat (length ops) < 2 ^ 31 /\ ops_valid [] ops
    /\ model_run (list_mk cap) ops = Ok (l, rs) /\ fst (spec_run [] ops) = xs.

Lemma spec_run_length (ops : list (@list_op A)) : forall xs,
  (length (fst (spec_run xs ops)) <= length xs + length ops)%nat.
Proof.
  induction ops as [|o ops IH]; intros l; cbn [spec_run fst length]; [lia|].
  pose proof (spec_step_length l o). destruct (spec_step l o) as [l' r]. cbn [fst] in *.
  specialize (IH l'). destruct (spec_run l' ops). cbn [fst] in *. lia.
Qed.

Lemma reached_rep l xs : reached l xs -> rep l xs /\ Z.of_nat (length xs) < 2 ^ 31.
Proof.
  intros (cap & ops & rs & HC & HB & HV & R & <-).
  destruct (run_rep ops (list_mk cap) [] (rep_mk cap HC)) as (l' & E1 & R1); [exact HB|auto|].
  rewrite R in E1. injection E1 as -> _. split; auto.
  pose proof (spec_run_length ops []). cbn [length] in *. lia.
Qed.

Lemma remove_out_of_range l xs i : reached l xs ->
  - 2 ^ 31 <= i < 2 ^ 31 -> i < 0 \/ Z.of_nat (length xs) <= i ->
  list_remove (Some l) i = Ok (false, Some l).
Proof.
  intros R HI HO. apply reached_rep in R as [(SZ & _) HB]. apply remove_out; lia.
Qed.

Lemma iterate_history l xs S (f : S -> A -> Z -> S * Z) s fuel : reached l xs -> xs <> [] ->
  (length xs < fuel)%nat ->
  list_iterate (fun _ => l) (fun s x i => Ok (f s x i)) fuel false s
  = Ok (fst (spec_iterate f s 0 xs 0), Some (snd (spec_iterate f s 0 xs 0))).
Proof.
  intros R NE HF. apply reached_rep in R as [R HB]. unfold list_iterate.
  destruct (iterate_from_spec f l xs R fuel xs s 0 None) as (ret & -> & E2); auto; try lia.
  rewrite E2. destruct xs; [tauto|reflexivity].
Qed.

Lemma merge_history dest xs src ys fuel : reached dest xs -> reached src ys ->
  (length ys < fuel)%nat ->
  exists dest', list_merge fuel dest src = Ok (dest', src) /\ shows dest' (xs ++ ys).
Proof.
  intros R1 R2 HF. apply reached_rep in R1 as [R1 _]. apply reached_rep in R2 as [R2 _].
  destruct (merge_rep dest src xs ys fuel R1 R2 HF) as (d & E1 & R). exists d. split; auto.
  apply rep_shows; auto.
Qed.

Lemma merge_self_history l xs fuel : reached l xs -> xs <> [] ->
  list_merge_self fuel l = Bad OutOfFuel.
Proof.
  intros R NE. apply reached_rep in R as [R _]. unfold list_merge_self, list_iterate.
  rewrite (merge_self_from fuel l xs 0 None R); auto.
  destruct xs; [tauto|]. cbn [length]. lia.
Qed.

(** * Insertion out of range *)
Lemma shift_up_below : forall n i (a : list (option A)), 0 <= i < Z.of_nat (length a) -> i < Z.of_nat n -> shift_up A n i a = Bad OutOfBounds.
Proof.
  induction n as [|n IH]; intros i a Hi Hn; [lia|]. cbn [shift_up]. unfold aget. destruct (0 <=? i - 1) eqn:L; [|reflexivity]. apply Z.leb_le in L.
  destruct (nth_error a (Z.to_nat (i - 1))) as [x|] eqn:E; [|apply nth_error_None in E; lia]. cbn [of_option bind].
  unfold aset. replace (0 <=? i) with true by (symmetry; apply Z.leb_le; lia). replace (i <? Z.of_nat (length a)) with true by (symmetry; apply Z.ltb_lt; lia). cbn [andb bind].
  apply IH; [rewrite update_length|]; lia.
Qed.
Lemma insert_out_rep (l : clist A) (xs : list A) i (e : A) : rep l xs -> Z.of_nat (length xs) < 2 ^ 31 -> - 2 ^ 31 <= i < 2 ^ 31 ->
  let n := Z.of_nat (length xs) in let cap := list_capacity (Some l) in let room := if n =? cap then Z.max 1 (2 * cap) else cap in
  (i < 0 \/ room <= i -> list_insert l i e = Bad OutOfBounds) /\
  (n < i < room -> exists l', list_insert l i e = Ok l' /\ list_size (Some l') = n + 1 /\ list_capacity (Some l') = room /\
     (forall k x, nth_error xs k = Some x -> aread (l_a l') (Z.of_nat k) = Ok x) /\
     aget (l_a l') n = (if n =? cap then Ok None else aget (l_a l) n) /\ aread (l_a l') i = Ok e).
Proof.
  intros R HB HI n cap room. destruct (rep_reserve l xs R) as [R1 Rm].
  assert (Cap : l_capacity (list_reserve A l) = room).
  { unfold room, cap, n, list_reserve, list_capacity. destruct R as (Sz & Cp & _). rewrite <- Sz. destruct (l_size l =? l_capacity l) eqn:E; [|reflexivity]. cbn [l_capacity].
    destruct (l_capacity l =? 0) eqn:Z0; [apply Z.eqb_eq in Z0|apply Z.eqb_neq in Z0]; lia. }
  assert (Gap : aget (l_a (list_reserve A l)) n = if n =? cap then Ok None else aget (l_a l) n).
  { unfold cap, n, list_capacity, list_reserve. destruct R as (Sz & Cp & _). rewrite <- Sz. destruct (l_size l =? l_capacity l) eqn:E; [|reflexivity]. cbn [l_a].
    apply Z.eqb_eq in E. rewrite E, Cp. rewrite agrow_ge by (destruct (_ =? 0); lia).
    set (c := Z.of_nat (length (l_a l)) + _). assert (Hc : Z.of_nat (length (l_a l)) < c).
    { unfold c. destruct (Z.of_nat (length (l_a l)) =? 0) eqn:Z0; [lia|]. apply Z.eqb_neq in Z0. lia. }
    destruct (Z.to_nat c - length (l_a l))%nat as [|m] eqn:M; [lia|]. cbn [repeat]. apply aget_mid. reflexivity. }
  unfold list_insert. set (l1 := list_reserve A l) in *. destruct R1 as (H1 & H2 & junk & HA). rewrite H1, to_int32_id by lia. split.
  - intros [Neg|Far].
    + rewrite shift_up_below; [reflexivity|lia|lia].
    + replace (Z.to_nat (Z.of_nat (length xs) - i)) with 0%nat by lia. cbn [shift_up bind]. rewrite aset_oob by lia. reflexivity.
  - intros (Lo & Hi). replace (Z.to_nat (Z.of_nat (length xs) - i)) with 0%nat by lia. cbn [shift_up bind].
    unfold aset. replace (0 <=? i) with true by (symmetry; apply Z.leb_le; lia). replace (i <? Z.of_nat (length (l_a l1))) with true by (symmetry; apply Z.ltb_lt; lia). cbn [andb bind].
    eexists. split; [reflexivity|]. cbn [list_size list_capacity l_size l_capacity l_a]. split; [reflexivity|]. split; [exact Cap|].
    assert (Other : forall k, 0 <= k -> k <> i -> aget (update (l_a l1) (Z.to_nat i) (Some e)) k = aget (l_a l1) k).
    { intros k Hk Nk. rewrite !aget_nth by auto. rewrite nth_error_update_neq by lia. reflexivity. }
    split; [|split].
    + intros k x E. unfold aread. rewrite Other by (try lia; assert (k < length xs)%nat by (apply nth_error_Some; congruence); lia).
      change (aread (l_a l1) (Z.of_nat k) = Ok x). rewrite HA. apply aread_map_some; [lia|]. rewrite Nat2Z.id. exact E.
    + rewrite Other by lia. exact Gap.
    + unfold aread. rewrite aget_nth by lia. rewrite nth_error_update_eq by lia. reflexivity.
Qed.
Lemma insert_out_of_range (l : clist A) (xs : list A) i (e : A) : reached l xs -> - 2 ^ 31 <= i < 2 ^ 31 ->
  let n := Z.of_nat (length xs) in let cap := list_capacity (Some l) in let room := if n =? cap then Z.max 1 (2 * cap) else cap in
  (i < 0 \/ room <= i -> list_insert l i e = Bad OutOfBounds) /\
  (n < i < room -> exists l', list_insert l i e = Ok l' /\ list_size (Some l') = n + 1 /\ list_capacity (Some l') = room /\
     (forall k x, nth_error xs k = Some x -> aread (l_a l') (Z.of_nat k) = Ok x) /\
     aget (l_a l') n = (if n =? cap then Ok None else aget (l_a l) n) /\ aread (l_a l') i = Ok e).
Proof. intros R HI. apply reached_rep in R as [R HB]. apply insert_out_rep; auto. Qed.
End Proofs.
