(** Property C61: JSON arrays are sequences. *)
From Coq Require Import ZArith List Bool Lia Arith.
From Verif Require Import Base ArrayLemmas ListModel ListProofs ListHistory Json JsonHeapModel JsonHeapSpec JsonHeapProofs JsonFrame JsonMergeProofs JsonFieldProofs
  JsonArrayModel JsonArraySpec JsonArrayProofs.
Import ListNotations.
Open Scope Z_scope.

(** The full property: every history of the operations on an array behaves like a sequence:
    what is read, the length, the elements at the end; nothing else changes.  In the full
    statement all operations are allowed: any index for an insertion, and the array itself to
    append. *)
Definition C61_statement (mk_str : text -> outcome text) (allowed : heap -> nat -> list field -> list elem_op -> Prop) : Prop :=
  forall h0 js j ops fuel, holds h0 (JArr js) j -> allowed h0 j (map FieldAt (kids h0 j)) ops ->
  (all_added h0 ops < fuel)%nat -> Z.of_nat (length js + all_added h0 ops) < 2 ^ 31 ->
  let '(final, results) := elems_run h0 (map FieldAt (kids h0 j)) ops in
  exists h rs, array_run mk_str fuel j h0 ops = Ok (h, rs) /\ Forall2 (same_elem h) rs results /\
    Forall2 (field_shows h) final (kids h j) /\
    (exists n, array_length h (Some j) = Ok n /\ n = Z.of_nat (length final)) /\
    (forall c, c <> j -> (c < length h0)%nat -> nth_error h c = nth_error h0 c).

(** It holds if what is inserted has a place and another array is appended, and if
    cee_str_mk(st, "%s", x) gives the string.  What is missing: C61_insert_refuted,
    C61_concat_refuted, C61_str_refuted. *)
Theorem C61_history_partial : C61_statement byval_str_mk all_ok.
Proof.
  intros h0 js j ops fuel H A Lf B. destruct (elems_run h0 (map FieldAt (kids h0 j)) ops) as (final, results) eqn:Er.
  apply holds_arr in H as (cl & xs & E & R & F). pose proof (forall2_len F) as Ll. rewrite (kids_arr h0 j cl xs E R) in *.
  destruct (run_seq fuel h0 j ops h0 (map FieldAt xs)) as (h & rs & Ea & Sq & K & Q); auto.
  - split; [auto|]. split; [auto|]. exists cl, xs. split; [auto|]. split; [auto|]. split.
    + clear. induction xs; constructor; [reflexivity|auto].
    + apply Forall_forall. intros f If. apply in_map_iff in If as (y & <- & _). exact I.
  - rewrite map_length. lia.
  - rewrite Er in Sq, Q. cbn [fst snd] in *. exists h, rs. split; [auto|]. split; [apply Q; apply kept_refl|]. destruct Sq as (L0 & O & cl' & xs' & E' & R' & F' & _).
    rewrite (kids_arr h j cl' xs' E' R'). split; [auto|]. split; [|auto]. exists (l_size cl'). unfold array_length. rewrite (array_at_ok h j cl' E'). split; [auto|].
    destruct R' as (Sz & _). rewrite Sz, map_length. f_equal. symmetry. eapply forall2_len; eauto.
Qed.
(** With the values: if the stored values are JSON values that do not contain the array, the
    array is the JSON array of the values at the end. *)
Theorem C61_values : forall h0 js j ops fuel val, holds h0 (JArr js) j -> all_ok h0 j (map FieldAt (kids h0 j)) ops ->
  (all_added h0 ops < fuel)%nat -> Z.of_nat (length js + all_added h0 ops) < 2 ^ 31 ->
  (forall a, In a (kids h0 j) \/ (exists op, In op ops /\ In a (stored h0 op)) -> holds h0 (val a) a /\ ~ In j (containers h0 (val a) a)) ->
  exists h rs, array_run byval_str_mk fuel j h0 ops = Ok (h, rs) /\
    holds h (JArr (map (value_of val) (fst (elems_run h0 (map FieldAt (kids h0 j)) ops)))) j.
Proof.
  intros h0 js j ops fuel val H A Lf B Hv. apply holds_arr in H as (cl & xs & E & R & F). pose proof (forall2_len F) as Ll. rewrite (kids_arr h0 j cl xs E R) in *.
  destruct (run_seq fuel h0 j ops h0 (map FieldAt xs)) as (h & rs & Ea & Sq & K & Q); auto.
  - split; [auto|]. split; [auto|]. exists cl, xs. split; [auto|]. split; [auto|]. split.
    + clear. induction xs; constructor; [reflexivity|auto].
    + apply Forall_forall. intros f If. apply in_map_iff in If as (y & <- & _). exact I.
  - rewrite map_length. lia.
  - exists h, rs. split; [auto|]. eapply seq_value; eauto. apply elems_from.
    + apply Forall_forall. intros f If. apply in_map_iff in If as (y & <- & Iy). apply Hv. auto.
    + intros op v Io Iv. apply Hv. eauto.
Qed.
(** An array at 0, three values and an array of two of them *)
Definition some_arrays : heap :=
  match array_append [NArr (list_mk 1); NI64 5; NStr [120]; NNull; NArr (list_mk 10)] 4 (Some 1%nat) with
  | Ok h => match array_append h 4 (Some 3%nat) with Ok h => h | Bad _ => [] end
  | Bad _ => []
  end.
Example C61_history_example :
  match array_run byval_str_mk 9 0 some_arrays [EAppend 1; EAppend 2; EStr [121]; EInsert 1 3; EConcat 4; EBool true; ELength; ERemove 0; ERemove 9; EGet 0; EGet 1; EGet 2; EGet 6; ELength] with
  | Ok (h, rs) =>
    rs = [EDone; EDone; EDone; EDone; EDone; EDone; ELen 7; EDone; EDone; EGot (Some 3%nat); EGot (Some 2%nat); EGot (Some 5%nat); EGot None; ELen 6] /\
    kids h 0 = [3; 2; 5; 1; 3; 6]%nat /\ nth_error h 5 = Some (NStr [121]) /\ nth_error h 6 = Some (NBool true)
  | Bad _ => False
  end.
Proof. vm_compute. auto. Qed.

Lemma empty_array h : holds (NArr (list_mk 10) :: h) (JArr []) 0.
Proof. apply holds_arr. exists (list_mk 10), []. split; [auto|]. split; [apply (rep_mk (A := option nat)); lia|constructor]. Qed.
(** Inserting: before the start is outside the block; after the end leaves a gap, and the element is not in the array. *)
Theorem C61_insert_refuted :
  array_insert some_arrays 4 (-1) (Some 1%nat) = Bad OutOfBounds /\
  (match array_run byval_str_mk 9 0 [NArr (list_mk 10); NI64 5] [EInsert 3 1; ELength; EGet 0] with Ok _ => False | Bad b => b = Uninit end) /\
  ~ C61_statement byval_str_mk (fun _ _ _ _ => True).
Proof.
  split; [vm_compute; reflexivity|]. split; [vm_compute; reflexivity|]. intros S.
  specialize (S [NArr (list_mk 10); NI64 5] [] 0%nat [EInsert (-1) 1] 9%nat (empty_array _) I). destruct S as (h & rs & E & _).
  - vm_compute. lia.
  - vm_compute. reflexivity.
  - vm_compute in E. discriminate.
Qed.
(** What inserting does for every index out of range.  Within the block (grown first if it is full)
    the array gets longer by one, but the value is not in it; the new last element is what the
    block had there, nothing if it was full. *)
Theorem C61_insert_exact : forall h js j cl i v, holds h (JArr js) j -> nth_error h j = Some (NArr cl) ->
  let n := Z.of_nat (length js) in let cap := list_capacity (Some cl) in let room := if n =? cap then Z.max 1 (2 * cap) else cap in
  n < 2 ^ 31 -> - 2 ^ 31 <= i < 2 ^ 31 ->
  (i < 0 \/ room <= i -> array_insert h j i v = Bad OutOfBounds) /\
  (n < i < room -> exists h', array_insert h j i v = Ok h' /\ array_length h' (Some j) = Ok (n + 1) /\
     (forall k, k < n -> array_get h' (Some j) k = array_get h (Some j) k) /\ (n = cap -> array_get h' (Some j) n = Bad Uninit) /\
     (forall k, n < k -> array_get h' (Some j) k = Ok None) /\ forall c, c <> j -> nth_error h' c = nth_error h c).
Proof.
  intros h js j cl i v H E n cap room B Bi. apply holds_arr in H as (cl' & xs & E' & R & F). rewrite E in E'. injection E' as <-. pose proof (forall2_len F) as Ll.
  assert (Ln : length (map Some xs) = length js) by (rewrite map_length; auto).
  destruct (insert_out_rep cl (map Some xs) i v R) as (Out & In_); [rewrite Ln; exact B|exact Bi|]. rewrite Ln in Out, In_. fold n cap room in Out, In_.
  unfold array_insert. rewrite (array_at_ok h j cl E). cbn [bind]. split.
  - intros Q. rewrite (Out Q). reflexivity.
  - intros Q. destruct (In_ Q) as (l' & -> & Sz & Cp & El & Gap & _). cbn [bind]. eexists. split; [reflexivity|].
    assert (Ej : nth_error (store h j (NArr l')) j = Some (NArr l')) by (apply nth_error_update_eq; apply nth_error_Some; congruence).
    assert (Szl : l_size cl = n) by (destruct R as (Sz0 & _); rewrite Sz0, Ln; reflexivity).
    unfold array_length, array_get. rewrite (array_at_ok _ j l' Ej), (array_at_ok h j cl E). cbn [bind list_size] in *. rewrite Sz, Szl. split; [reflexivity|]. split; [|split; [|split]].
    + intros k Hk. destruct (0 <=? k) eqn:K0; [|reflexivity]. apply Z.leb_le in K0.
      replace (k <? n + 1) with true by (symmetry; apply Z.ltb_lt; lia). replace (k <? n) with true by (symmetry; apply Z.ltb_lt; lia). cbn [andb].
      destruct (nth_error (map Some xs) (Z.to_nat k)) as [x|] eqn:Ex; [|apply nth_error_None in Ex; unfold n in Hk; lia].
      replace k with (Z.of_nat (Z.to_nat k)) by lia. rewrite (El _ _ Ex). destruct R as (_ & _ & junk & ->). symmetry. apply aread_map_some; [lia|]. rewrite Nat2Z.id. exact Ex.
    + intros Full. replace (0 <=? n) with true by (symmetry; apply Z.leb_le; unfold n; lia). replace (n <? n + 1) with true by (symmetry; apply Z.ltb_lt; lia). cbn [andb].
      unfold aread. rewrite Gap, <- Full, Z.eqb_refl. reflexivity.
    + intros k Hk. replace (k <? n + 1) with false by (symmetry; apply Z.ltb_ge; lia). rewrite andb_false_r. reflexivity.
    + intros c Nc. apply nth_error_update_neq. auto.
Qed.
Example C61_insert_example :
  (exists h', array_insert some_arrays 4 9 (Some 1%nat) = Ok h' /\ array_length h' (Some 4%nat) = Ok 3 /\ array_get h' (Some 4%nat) 9 = Ok None /\ array_get h' (Some 4%nat) 1 = Ok (Some 3%nat)) /\
  array_insert some_arrays 4 10 (Some 1%nat) = Bad OutOfBounds.
Proof. split; [|vm_compute; reflexivity]. eexists. split; [vm_compute; reflexivity|]. vm_compute. auto. Qed.
(** Appending a non-empty array to itself does not end. *)
Theorem C61_concat_refuted : forall h js j fuel, holds h (JArr js) j -> js <> [] -> array_concat fuel h j j = Bad OutOfFuel.
Proof.
  intros h js j fuel H Ne. apply holds_arr in H as (cl & xs & E & R & F). unfold array_concat. rewrite (array_at_ok h j cl E). cbn [bind].
  eapply array_concat_self; eauto. pose proof (forall2_len F). destruct js; [congruence|]. cbn [length] in *. lia.
Qed.
Example C61_concat_example : holds some_arrays (JArr [JI64 5; JNull]) 4.
Proof.
  apply holds_arr. exists (CList 2 10 [Some (Some 1%nat); Some (Some 3%nat); None; None; None; None; None; None; None; None]), [1; 3]%nat.
  split; [vm_compute; reflexivity|]. split.
  - split; [reflexivity|]. split; [reflexivity|]. exists (repeat None 8). reflexivity.
  - constructor; [eapply holds_leaf; reflexivity|]. constructor; [eapply holds_leaf; reflexivity|constructor].
Qed.
(** With cee_str_mk as it is, a string cannot be appended. *)
Theorem C61_str_refuted : forall h js j s, holds h (JArr js) j -> array_append_str c_str_mk h j s = Bad BadVaList.
Proof. intros h js j s H. apply holds_arr in H as (cl & xs & E & _). unfold array_append_str. rewrite (array_at_ok h j cl E). reflexivity. Qed.

(** Iterating: the elements in order with their indices, until the callback returns something
    different from 0, which is the result.  Missing: the empty array (C61_iterate_refuted). *)
Theorem C61_iterate_partial : forall h js j S (f : S -> option nat -> Z -> S * Z) ctx fuel, holds h (JArr js) j -> js <> [] -> (length js < fuel)%nat ->
  array_iterate fuel h (Some j) ctx (fun s x i => Ok (f s x i)) =
    Ok (fst (spec_iterate f ctx 0 (map Some (kids h j)) 0), Some (snd (spec_iterate f ctx 0 (map Some (kids h j)) 0))).
Proof.
  intros h js j S f ctx fuel H Ne Lf. apply holds_arr in H as (cl & xs & E & R & F). pose proof (forall2_len F) as Ll. rewrite (kids_arr h j cl xs E R).
  unfold array_iterate. rewrite (array_at_ok h j cl E). cbn [bind]. unfold list_iterate.
  destruct (iterate_from_spec f cl (map Some xs) R fuel (map Some xs) ctx 0 None) as (ret & -> & E2); auto; try (rewrite map_length); try lia.
  rewrite E2. destruct xs; [destruct js; [congruence|discriminate]|reflexivity].
Qed.
Example C61_iterate_example :
  array_iterate 9 some_arrays (Some 4%nat) [] (fun s x i => Ok (s ++ [(x, i)], 0)) = Ok ([(Some 1%nat, 0); (Some 3%nat, 1)], Some 0) /\
  array_iterate 9 some_arrays (Some 4%nat) [] (fun s x i => Ok (s ++ [(x, i)], 7)) = Ok ([(Some 1%nat, 0)], Some 7).
Proof. vm_compute. auto. Qed.
Theorem C61_iterate_refuted : holds some_arrays (JArr []) 0 /\ array_iterate 9 some_arrays (Some 0%nat) tt (fun s _ _ => Ok (s, 0)) = Ok (tt, None).
Proof.
  split; [|vm_compute; reflexivity]. apply holds_arr. exists (list_mk 1), []. split; [vm_compute; reflexivity|]. split; [apply (rep_mk (A := option nat)); lia|constructor].
Qed.

Print Assumptions C61_history_partial.
Print Assumptions C61_values.
Print Assumptions C61_insert_exact.
Print Assumptions C61_insert_refuted.
Print Assumptions C61_concat_refuted.
Print Assumptions C61_iterate_partial.
