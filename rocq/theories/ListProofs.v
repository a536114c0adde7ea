(** cee_list refines mathematical sequences. *)
From Coq Require Import ZArith List Bool Lia.
From Verif Require Import Base ArrayLemmas ListModel.
Import ListNotations.
Open Scope Z_scope.
Local Arguments Z.add : simpl never.
Local Arguments Z.sub : simpl never.
Local Arguments Z.of_nat : simpl never.
Local Arguments Z.to_nat : simpl never.

(** * Specification: histories over sequences *)
Section Spec.
Context {A : Type}.

Inductive list_op : Type :=
| OAppend (e : A)
| OInsert (i : Z) (e : A)
| ORemove (i : Z).

(** The sequence after an operation, and the operation's result. *)
Definition spec_step (xs : list A) (op : list_op) : list A * option bool :=
  match op with
  | OAppend e => (xs ++ [e], None)
  | OInsert i e => (firstn (Z.to_nat i) xs ++ e :: skipn (Z.to_nat i) xs, None)
  | ORemove i =>
    if (0 <=? i) && (i <? Z.of_nat (length xs))
    then (firstn (Z.to_nat i) xs ++ skipn (S (Z.to_nat i)) xs, Some true)
    else (xs, Some false)
  end.

Fixpoint spec_run (xs : list A) (ops : list list_op) : list A * list (option bool) :=
  match ops with
  | [] => (xs, [])
  | op :: ops' =>
    let (xs', r) := spec_step xs op in
    let (xs'', rs) := spec_run xs' ops' in (xs'', r :: rs)
  end.

(** Insertions are in range; removals may use any int. *)
Fixpoint ops_valid (xs : list A) (ops : list list_op) : Prop :=
  match ops with
  | [] => True
  | op :: ops' =>
    match op with
    | OInsert i _ => 0 <= i <= Z.of_nat (length xs)
    | ORemove i => - 2 ^ 31 <= i < 2 ^ 31
    | OAppend _ => True
    end /\ ops_valid (fst (spec_step xs op)) ops'
  end.

(** * Running the model *)
Definition model_step (l : clist A) (op : list_op) : outcome (clist A * option bool) :=
  match op with
  | OAppend e => bind (list_append l e) (fun l' => Ok (l', None))
  | OInsert i e => bind (list_insert l i e) (fun l' => Ok (l', None))
  | ORemove i =>
    bind (list_remove (Some l) i) (fun '(b, ol) =>
      match ol with Some l' => Ok (l', Some b) | None => Bad NullDeref end)
  end.

Fixpoint model_run (l : clist A) (ops : list list_op)
  : outcome (clist A * list (option bool)) :=
  match ops with
  | [] => Ok (l, [])
  | op :: ops' =>
    bind (model_step l op) (fun '(l', r) =>
    bind (model_run l' ops') (fun '(l'', rs) => Ok (l'', r :: rs)))
  end.

(** What a user of the list sees: its size and its elements. *)
Definition shows (l : clist A) (xs : list A) : Prop :=
  list_size (Some l) = Z.of_nat (length xs) /\
  list_size (Some l) <= list_capacity (Some l) /\
  list_capacity (Some l) = Z.of_nat (length (l_a l)) /\
  forall i x, 0 <= i -> nth_error xs (Z.to_nat i) = Some x ->
              aread (l_a l) i = Ok x.

End Spec.

Section Proofs.
Context {A : Type}.
Implicit Types (l : clist A) (xs : list A).

Definition rep l xs : Prop :=
  l_size l = Z.of_nat (length xs) /\ l_capacity l = Z.of_nat (length (l_a l)) /\
  exists junk, l_a l = map Some xs ++ junk.

Lemma rep_shows l xs : rep l xs -> shows l xs.
Proof.
  intros (H1 & H2 & junk & H3). unfold shows, list_size, list_capacity.
  repeat split; auto.
  - rewrite H2, H1, H3, app_length, map_length. lia.
  - intros i x Hi Hx. rewrite H3. apply aread_map_some; auto.
Qed.

Lemma rep_mk cap : 0 <= cap -> rep (list_mk cap) [].
Proof.
  intros H. unfold rep, list_mk; simpl. rewrite repeat_length. repeat split; try lia.
  eexists; reflexivity.
Qed.

Lemma rep_reserve l xs : rep l xs ->
  rep (list_reserve A l) xs /\ l_size (list_reserve A l) < l_capacity (list_reserve A l).
Proof.
  intros (H1 & H2 & junk & H3). unfold list_reserve.
  assert (HL : (length xs <= length (l_a l))%nat) by (rewrite H3, app_length, map_length; lia).
  destruct (l_size l =? l_capacity l) eqn:F.
  - apply Z.eqb_eq in F.
    set (c := l_capacity l + (if l_capacity l =? 0 then 1 else l_capacity l)).
    assert (HC : Z.of_nat (length (l_a l)) < c).
    { unfold c. destruct (l_capacity l =? 0) eqn:Z0; [apply Z.eqb_eq in Z0|apply Z.eqb_neq in Z0]; lia. }
    split; [|simpl; lia]. unfold rep; cbn [l_size l_capacity l_a].
    rewrite agrow_length by lia. repeat split; auto; try lia.
    rewrite agrow_ge by lia. rewrite H3, <- app_assoc. eexists; reflexivity.
  - apply Z.eqb_neq in F. split; [|lia]. repeat split; eauto.
Qed.

(** A non-full list has a free cell after its elements. *)
Lemma rep_room l xs : rep l xs -> l_size l < l_capacity l ->
  exists y junk, l_a l = map Some xs ++ y :: junk.
Proof.
  intros (H1 & H2 & junk & H3) HR.
  destruct junk as [|y junk].
  - rewrite H3, app_nil_r, map_length in H2. lia.
  - eauto.
Qed.

Lemma append_rep l xs e : rep l xs ->
  exists l', list_append l e = Ok l' /\ rep l' (xs ++ [e]).
Proof.
  intros H. apply rep_reserve in H as [H HR]. unfold list_append.
  set (l1 := list_reserve A l) in *.
  destruct (rep_room _ _ H HR) as (y & junk & HA).
  destruct H as (H1 & H2 & _).
  rewrite HA, aset_mid by (rewrite map_length; auto). cbn [bind].
  eexists; split; [reflexivity|]. unfold rep; cbn [l_size l_capacity l_a].
  rewrite H2, HA, H1, map_app, !app_length, map_length. cbn [length].
  repeat split; try lia. exists junk. rewrite <- app_assoc. reflexivity.
Qed.

(** The insertion loop moves a block of cells one place up. *)
Lemma shift_up_spec : forall (mid pre : list (option A)) y post i,
  i = Z.of_nat (length pre + length mid) ->
  exists y', shift_up A (length mid) i (pre ++ mid ++ y :: post)
           = Ok (pre ++ y' :: mid ++ post).
Proof.
  induction mid as [|m mid IH] using rev_ind; intros pre y post i Hi.
  - exists y. reflexivity.
  - rewrite app_length in *. cbn [length] in *.
    replace (length mid + 1)%nat with (S (length mid)) by lia. cbn [shift_up].
    replace (pre ++ (mid ++ [m]) ++ y :: post) with ((pre ++ mid) ++ m :: y :: post)
      by (rewrite <- !app_assoc; auto).
    rewrite aget_mid by (rewrite app_length; lia). cbn [bind].
    replace ((pre ++ mid) ++ m :: y :: post) with ((pre ++ mid ++ [m]) ++ y :: post)
      by (rewrite <- !app_assoc; auto).
    rewrite aset_mid by (rewrite !app_length; simpl; lia). cbn [bind].
    replace ((pre ++ mid ++ [m]) ++ m :: post) with (pre ++ mid ++ m :: m :: post)
      by (rewrite <- !app_assoc; auto).
    destruct (IH pre m (m :: post) (i - 1)) as (y' & E); [lia|].
    exists y'. rewrite E. rewrite <- !app_assoc; auto.
Qed.

Lemma insert_rep l xs i e : rep l xs -> 0 <= i <= Z.of_nat (length xs) ->
  Z.of_nat (length xs) < 2 ^ 31 ->
  exists l', list_insert l i e = Ok l'
    /\ rep l' (firstn (Z.to_nat i) xs ++ e :: skipn (Z.to_nat i) xs).
Proof.
  intros H Hi HB. apply rep_reserve in H as [H HR]. unfold list_insert.
  set (l1 := list_reserve A l) in *.
  destruct (rep_room _ _ H HR) as (y & junk & HA).
  destruct H as (H1 & H2 & _).
  rewrite H1, to_int32_id by lia.
  set (p := firstn (Z.to_nat i) xs). set (q := skipn (Z.to_nat i) xs).
  assert (PQ : xs = p ++ q) by (symmetry; apply firstn_skipn).
  assert (LP : length p = Z.to_nat i) by (unfold p; rewrite firstn_length; lia).
  assert (LX : length xs = (length p + length q)%nat) by (rewrite PQ at 1; apply app_length).
  assert (HA' : l_a l1 = map Some p ++ map Some q ++ y :: junk)
    by (rewrite HA, PQ, map_app, <- app_assoc; auto).
  rewrite HA'.
  destruct (shift_up_spec (map Some q) (map Some p) y junk (Z.of_nat (length xs))) as (y' & E).
  { rewrite !map_length. lia. }
  rewrite map_length in E.
  replace (Z.to_nat (Z.of_nat (length xs) - i)) with (length q) by lia.
  rewrite E. cbn [bind]. rewrite aset_mid by (rewrite map_length; lia). cbn [bind].
  eexists; split; [reflexivity|]. unfold rep; cbn [l_size l_capacity l_a].
  rewrite H2, HA, map_app, !app_length. cbn [length map]. rewrite !app_length, !map_length.
  repeat split; try lia.
  exists junk. rewrite <- app_assoc. reflexivity.
Qed.

Lemma shift_down_spec : forall (mid pre : list (option A)) y post i,
  i = Z.of_nat (length pre) ->
  exists y', shift_down A (length mid) i (pre ++ y :: mid ++ post)
           = Ok (pre ++ mid ++ y' :: post).
Proof.
  induction mid as [|m mid IH]; intros pre y post i Hi.
  - exists y. reflexivity.
  - cbn [length shift_down app].
    replace (pre ++ y :: m :: mid ++ post) with ((pre ++ [y]) ++ m :: mid ++ post)
      by (rewrite <- !app_assoc; auto).
    rewrite aget_mid by (rewrite app_length; simpl; lia). cbn [bind].
    rewrite <- app_assoc. cbn [app].
    rewrite aset_mid by lia. cbn [bind].
    destruct (IH (pre ++ [m]) m post (i + 1)) as (y' & E).
    { rewrite app_length; simpl; lia. }
    exists y'. rewrite <- !app_assoc in E. exact E.
Qed.

Lemma remove_rep l xs i : rep l xs -> 0 <= i < Z.of_nat (length xs) ->
  Z.of_nat (length xs) < 2 ^ 64 ->
  exists l', list_remove (Some l) i = Ok (true, Some l')
    /\ rep l' (firstn (Z.to_nat i) xs ++ skipn (S (Z.to_nat i)) xs).
Proof.
  intros (H1 & H2 & junk & HA) Hi HB. unfold list_remove, wrap.
  rewrite Z.mod_small by lia.
  rewrite Z.geb_leb.
  replace (l_size l <=? i) with false by (symmetry; apply Z.leb_gt; lia).
  set (p := firstn (Z.to_nat i) xs). set (q := skipn (S (Z.to_nat i)) xs).
  assert (LP : length p = Z.to_nat i) by (unfold p; rewrite firstn_length; lia).
  assert (PQ : exists x, xs = p ++ x :: q).
  { pose proof (firstn_skipn (Z.to_nat i) xs) as FS.
    destruct (skipn (Z.to_nat i) xs) as [|x r] eqn:SK.
    - apply (f_equal (@length A)) in SK. rewrite skipn_length in SK. simpl in SK. lia.
    - exists x. fold p in FS. rewrite <- FS at 1. f_equal. f_equal.
      unfold q. replace (S (Z.to_nat i)) with (1 + Z.to_nat i)%nat by lia.
      rewrite <- skipn_skipn, SK. reflexivity. }
  destruct PQ as (x & PQ).
  assert (LX : length xs = (length p + S (length q))%nat) by (rewrite PQ at 1; apply app_length).
  rewrite HA. rewrite PQ, map_app, <- app_assoc. cbn [map app].
  rewrite aget_mid by (rewrite map_length; lia). cbn [bind].
  rewrite aset_mid by (rewrite map_length; lia). cbn [bind].
  destruct (shift_down_spec (map Some q) (map Some p) None junk i) as (y' & E).
  { rewrite map_length; lia. }
  rewrite map_length in E.
  replace (Z.to_nat (l_size l - 1 - i)) with (length q) by lia.
  rewrite E. cbn [bind]. eexists; split; [reflexivity|].
  unfold rep; cbn [l_size l_capacity l_a].
  rewrite H1, H2, HA, PQ, !map_app, !app_length. cbn [length map]. rewrite ?app_length, ?map_length.
  cbn [length]. rewrite ?app_length, ?map_length.
  repeat split; try lia. exists (y' :: junk). rewrite <- app_assoc. reflexivity.
Qed.

Lemma remove_out l i :
  0 <= l_size l < 2 ^ 32 -> - 2 ^ 31 <= i < 2 ^ 31 ->
  i < 0 \/ l_size l <= i ->
  list_remove (Some l) i = Ok (false, Some l).
Proof.
  intros HS HI H. unfold list_remove, wrap.
  assert (G : (i mod 2 ^ 64 >=? l_size l) = true).
  { rewrite Z.geb_leb. apply Z.leb_le.
    destruct (Z.lt_ge_cases i 0).
    - rewrite <- (Z.mod_add i 1) by lia. rewrite Z.mod_small; lia.
    - rewrite Z.mod_small; lia. }
  rewrite G; auto.
Qed.

Lemma step_rep l xs op :
  rep l xs -> Z.of_nat (length xs) < 2 ^ 31 ->
  match op with
  | OInsert i _ => 0 <= i <= Z.of_nat (length xs)
  | ORemove i => - 2 ^ 31 <= i < 2 ^ 31
  | OAppend _ => True
  end ->
  exists l', model_step l op = Ok (l', snd (spec_step xs op))
             /\ rep l' (fst (spec_step xs op)).
Proof.
  intros R HB V. destruct op as [e|i e|i]; unfold model_step, spec_step.
  - destruct (append_rep l xs e R) as (l' & -> & R'). cbn. eauto.
  - destruct (insert_rep l xs i e R V HB) as (l' & -> & R'). cbn. eauto.
  - destruct ((0 <=? i) && (i <? Z.of_nat (length xs))) eqn:B.
    + apply andb_prop in B as [B1 B2]. apply Z.leb_le in B1. apply Z.ltb_lt in B2.
      destruct (remove_rep l xs i R) as (l' & -> & R'); [lia|lia|]. cbn [bind fst snd]. eauto.
    + assert (i < 0 \/ Z.of_nat (length xs) <= i).
      { apply andb_false_iff in B as [B|B]; [apply Z.leb_gt in B|apply Z.ltb_ge in B]; lia. }
      destruct R as (R1 & R2). rewrite remove_out by lia. cbn [bind fst snd].
      eexists; split; [reflexivity|]. split; auto.
Qed.

Lemma spec_step_length xs (op : list_op) :
  (length (fst (spec_step xs op)) <= S (length xs))%nat.
Proof.
  destruct op; simpl.
  - rewrite app_length; simpl; lia.
  - rewrite app_length; simpl. rewrite firstn_length, skipn_length. lia.
  - destruct (_ && _); simpl; [|lia].
    rewrite app_length, firstn_length. change (match xs with [] => [] | _ :: l => skipn (Z.to_nat i) l end) with (skipn (S (Z.to_nat i)) xs). rewrite skipn_length. lia.
Qed.

Lemma run_rep ops : forall l xs,
  rep l xs -> Z.of_nat (length xs + length ops) < 2 ^ 31 -> ops_valid xs ops ->
  exists l', model_run l ops = Ok (l', snd (spec_run xs ops))
             /\ rep l' (fst (spec_run xs ops)).
Proof.
  induction ops as [|op ops IH]; intros l xs R HB V; cbn [model_run spec_run].
  - cbn. eauto.
  - cbn [length] in HB. destruct V as [V1 V2].
    destruct (step_rep l xs op R) as (l1 & -> & R1); [lia|auto|]. cbn [bind].
    pose proof (spec_step_length xs op) as SL.
    destruct (IH l1 _ R1) as (l2 & -> & R2); [lia|auto|]. cbn [bind].
    destruct (spec_step xs op) as [xs' r]. cbn [fst snd] in *.
    destruct (spec_run xs' ops) as [xs'' rs]. cbn [fst snd] in *. eauto.
Qed.

Theorem list_history_lemma cap (ops : list list_op) :
  0 <= cap -> Z.of_nat (length ops) < 2 ^ 31 -> ops_valid [] ops ->
  exists l, model_run (list_mk cap) ops = Ok (l, snd (spec_run [] ops))
            /\ shows l (fst (spec_run [] ops)).
Proof.
  intros HC HB V. destruct (run_rep ops (list_mk cap) []) as (l & E & R); auto.
  - apply rep_mk; auto.
  - exists l; split; auto. apply rep_shows; auto.
Qed.

(** ** Iteration *)

(** What iteration over a sequence should do: call [f] on the elements in
    order, stop at the first non-zero result. *)
Fixpoint spec_iterate {S} (f : S -> A -> Z -> S * Z) (s : S) (i : Z) xs (ret : Z) : S * Z :=
  match xs with
  | [] => (s, ret)
  | x :: xs' =>
    let (s', r) := f s x i in
    if r =? 0 then spec_iterate f s' (i + 1) xs' r else (s', r)
  end.

(** Iteration when the callback leaves the list alone. *)
Lemma iterate_from_spec {S} (f : S -> A -> Z -> S * Z) l xs : rep l xs ->
  forall fuel ys s i ret, 0 <= i -> skipn (Z.to_nat i) xs = ys -> i <= Z.of_nat (length xs) ->
  (length ys < fuel)%nat ->
  exists ret', 
  iterate_from A S (fun _ => l) (fun s x i => Ok (f s x i)) fuel s i ret
  = Ok (fst (spec_iterate f s i ys 0), ret')
  /\ (ret' = match ys with [] => ret | _ => Some (snd (spec_iterate f s i ys 0)) end).
Proof.
  intros R. induction fuel as [|fuel IH]; intros ys s i ret Hi HS HL HF; [lia|].
  cbn [iterate_from]. destruct R as (R1 & R2 & junk & R3).
  rewrite R1.
  destruct ys as [|y ys].
  - assert (i = Z.of_nat (length xs)).
    { apply (f_equal (@length A)) in HS. rewrite skipn_length in HS. simpl in HS. lia. }
    replace (i <? Z.of_nat (length xs)) with false by (symmetry; apply Z.ltb_ge; lia).
    eexists; split; reflexivity.
  - assert (LEN : length (y :: ys) = (length xs - Z.to_nat i)%nat)
      by (rewrite <- HS, skipn_length; auto).
    cbn [length] in LEN.
    replace (i <? Z.of_nat (length xs)) with true by (symmetry; apply Z.ltb_lt; lia).
    assert (NTH : nth_error xs (Z.to_nat i) = Some y).
    { rewrite <- (firstn_skipn (Z.to_nat i) xs) , HS.
      rewrite nth_error_app2 by (rewrite firstn_length; lia).
      rewrite firstn_length. replace (Z.to_nat i - _)%nat with 0%nat by lia. reflexivity. }
    rewrite R3, (aread_map_some xs junk i y) by auto. cbn [bind].
    cbn [spec_iterate]. destruct (f s y i) as [s' r].
    destruct (r =? 0) eqn:RZ.
    + apply Z.eqb_eq in RZ. subst r.
      destruct (IH ys s' (i + 1) (Some 0)) as (ret' & E & ER); try lia.
      { replace (Z.to_nat (i + 1)) with (1 + Z.to_nat i)%nat by lia.
        rewrite <- skipn_skipn, HS. reflexivity. }
      { cbn [length] in HF. lia. }
      exists ret'. split; [exact E|]. rewrite ER. destruct ys; auto.
    + eexists; split; reflexivity.
Qed.

(** ** Merging *)
Lemma merge_from_spec src ys0 : rep src ys0 ->
  forall fuel ys dest xs i ret, rep dest xs -> 0 <= i -> skipn (Z.to_nat i) ys0 = ys ->
  i <= Z.of_nat (length ys0) -> (length ys < fuel)%nat ->
  exists dest' ret',
  iterate_from A (clist A * clist A) snd
     (fun s e _ => bind (list_append (fst s) e) (fun d => Ok ((d, snd s), 0)))
     fuel (dest, src) i ret = Ok ((dest', src), ret')
  /\ rep dest' (xs ++ ys).
Proof.
  intros R. induction fuel as [|fuel IH]; intros ys dest xs i ret RD Hi HS HL HF; [lia|].
  cbn [iterate_from snd fst].
  destruct R as (R1 & R2 & junk & R3). rewrite R1.
  destruct ys as [|y ys].
  - assert (i = Z.of_nat (length ys0)).
    { apply (f_equal (@length A)) in HS. rewrite skipn_length in HS. simpl in HS. lia. }
    replace (i <? Z.of_nat (length ys0)) with false by (symmetry; apply Z.ltb_ge; lia).
    rewrite app_nil_r. do 2 eexists; split; [reflexivity|auto].
  - assert (LEN : length (y :: ys) = (length ys0 - Z.to_nat i)%nat)
      by (rewrite <- HS, skipn_length; auto).
    cbn [length] in LEN.
    replace (i <? Z.of_nat (length ys0)) with true by (symmetry; apply Z.ltb_lt; lia).
    assert (NTH : nth_error ys0 (Z.to_nat i) = Some y).
    { rewrite <- (firstn_skipn (Z.to_nat i) ys0) , HS.
      rewrite nth_error_app2 by (rewrite firstn_length; lia).
      rewrite firstn_length. replace (Z.to_nat i - _)%nat with 0%nat by lia. reflexivity. }
    rewrite R3, (aread_map_some ys0 junk i y) by auto. cbn [bind].
    destruct (append_rep dest xs y RD) as (d1 & -> & RD1). cbn [bind fst snd].
    replace (0 =? 0) with true by reflexivity.
    destruct (IH ys d1 (xs ++ [y]) (i + 1) (Some 0)) as (d2 & ret' & E & RD2); auto; try lia.
    { replace (Z.to_nat (i + 1)) with (1 + Z.to_nat i)%nat by lia.
      rewrite <- skipn_skipn, HS. reflexivity. }
    { cbn [length] in HF. lia. }
    exists d2, ret'. split; [exact E|]. rewrite <- app_assoc in RD2. exact RD2.
Qed.

Lemma merge_rep dest src xs ys fuel : rep dest xs -> rep src ys ->
  (length ys < fuel)%nat ->
  exists dest', list_merge fuel dest src = Ok (dest', src) /\ rep dest' (xs ++ ys).
Proof.
  intros RD RS HF. unfold list_merge, list_iterate.
  destruct (merge_from_spec src ys RS fuel ys dest xs 0 None RD) as (d' & r & E & RD'); auto; try lia.
  rewrite E. cbn [bind]. eauto.
Qed.

(** Self-merge of a non-empty list never ends. *)
Lemma merge_self_from fuel : forall l xs i ret, rep l xs ->
  0 <= i < Z.of_nat (length xs) ->
  iterate_from A (clist A) (fun s => s)
     (fun s e _ => bind (list_append s e) (fun d => Ok (d, 0))) fuel l i ret
  = Bad OutOfFuel.
Proof.
  induction fuel as [|fuel IH]; intros l xs i ret R Hi; cbn [iterate_from]; auto.
  pose proof R as (R1 & R2 & junk & R3). rewrite R1.
  replace (i <? Z.of_nat (length xs)) with true by (symmetry; apply Z.ltb_lt; lia).
  destruct (nth_error xs (Z.to_nat i)) as [y|] eqn:NTH.
  2:{ apply nth_error_None in NTH. lia. }
  rewrite R3, (aread_map_some xs junk i y) by (auto; lia). cbn [bind].
  destruct (append_rep l xs y R) as (d1 & -> & RD1). cbn [bind].
  replace (0 =? 0) with true by reflexivity.
  apply (IH d1 (xs ++ [y])); auto. rewrite app_length; simpl; lia.
Qed.

End Proofs.
