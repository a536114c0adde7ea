(** Consequences of the map refinement in terms of histories only. *)
From Coq Require Import ZArith List Bool Lia Sorting.Permutation.
From Verif Require Import Base TsearchModel TsearchProofs SetProofs MapModel MapProofs.
Import ListNotations.
Open Scope Z_scope.
Local Arguments Z.add : simpl never.
Local Arguments Z.of_nat : simpl never.

Section Spec.
Context {K V : Type}.
Variable kcmp : K -> K -> Z.

(** The value of the latest addition under a key equal to [k] that no later
    removal undid; the history is given latest operation first. *)
Fixpoint latest (k : K) (rops : list (map_op K V)) : option V :=
  match rops with
  | [] => None
  | MAdd (Some k') v :: r => if kcmp k k' =? 0 then v else latest k r
  | MRemove (Some k') :: r => if kcmp k k' =? 0 then None else latest k r
  | _ :: r => latest k r
  end.

(** Histories of additions and removals. *)
Definition add_or_remove (op : map_op K V) : Prop :=
  match op with MAdd _ _ | MRemove _ => True | _ => False end.

(** Whether a key was added and not removed since, latest operation first. *)
Fixpoint present (k : K) (rops : list (map_op K V)) : bool :=
  match rops with
  | [] => false
  | MAdd (Some k') v :: r => (kcmp k k' =? 0) || present k r
  | MRemove (Some k') :: r => negb (kcmp k k' =? 0) && present k r
  | _ :: r => present k r
  end.
End Spec.

Section Proofs.
Context {K V : Type}.
Variable kcmp : K -> K -> Z.
Context (TK : total_cmp kcmp).
Local Notation entry := (K * option V)%type.

Lemma ispec_run_app l ops op : 
  fst (ispec_run kcmp l (ops ++ [op])) = fst (ispec_step (V:=V) kcmp (fst (ispec_run kcmp l ops)) op).
Proof.
  revert l. induction ops as [|o ops IH]; intros l; cbn [app ispec_run].
  - cbn [fst]. destruct (ispec_step kcmp l op); reflexivity.
  - destruct (ispec_step kcmp l o) as [l' r]. specialize (IH l').
    destruct (ispec_run kcmp l' (ops ++ [op])), (ispec_run kcmp l' ops). auto.
Qed.

Lemma latest_spec ops k : Forall add_or_remove ops ->
  s_get kcmp k (fst (ispec_run kcmp [] ops)) = latest kcmp k (rev ops)
  /\ s_has kcmp k (fst (ispec_run kcmp [] ops)) = present (V:=V) kcmp k (rev ops).
Proof.
  induction ops as [|op ops IH] using rev_ind; intros F; [split; reflexivity|].
  apply Forall_app in F as [F Fop]. inversion Fop; subst. destruct (IH F) as [IG IP].
  rewrite ispec_run_app, rev_app_distr. cbn [rev app].
  set (l := fst (ispec_run kcmp [] ops)) in *.
  destruct op as [[k'|] v|[k'|] v f|[k'|]|k1 k2|[k'|]| |]; cbn [ispec_step fst latest present];
    try (cbn in H1; tauto); auto.
  - destruct (kcmp k k' =? 0) eqn:C.
    + apply Z.eqb_eq in C. rewrite (get_put_same kcmp TK) by auto.
      rewrite (has_put kcmp TK) by auto. split; auto. destruct (s_has kcmp k' l); auto.
    + apply Z.eqb_neq in C. destruct (get_put_other kcmp TK k k' v (fun _ => v) l C) as [-> ->]. auto.
  - destruct (kcmp k k' =? 0) eqn:C.
    + apply Z.eqb_eq in C. pose proof (has_del kcmp TK k k' l C) as HD. rewrite HD.
      split; auto. unfold s_get. rewrite has_get_find in HD.
      destruct (find (keq kcmp k) (s_del kcmp k' l)); [discriminate|auto].
    + apply Z.eqb_neq in C. destruct (get_del_other kcmp TK k k' l C) as [-> ->]. auto.
Qed.

Lemma rename_ok_simple (ops : list (map_op K V)) : Forall add_or_remove ops ->
  forall l, rename_ok kcmp l ops.
Proof.
  induction 1 as [|op ops H F IH]; intros l; cbn [rename_ok]; auto.
  split; auto. destruct op as [| | |[k|] [k'|]| | |]; auto.
Qed.

Lemma map_history ops : Z.of_nat (length ops) < 2 ^ 31 -> rename_ok kcmp [] ops ->
  exists m, mrun (V:=V) kcmp map_mk ops = Ok (m, snd (ispec_run kcmp [] ops))
    /\ mrep kcmp m (fst (ispec_run kcmp [] ops)).
Proof. intros. apply mrun_rep; auto. apply mrep_mk. Qed.

Lemma map_history_results ops : Z.of_nat (length ops) < 2 ^ 31 -> rename_ok kcmp [] ops ->
  exists m, mrun (V:=V) kcmp map_mk ops = Ok (m, snd (ispec_run kcmp [] ops)).
Proof. intros. destruct (map_history ops) as (m & ? & _); eauto. Qed.

Lemma find_rep m l k : mrep kcmp m l -> map_find K V kcmp (Some m) (Some k) = Ok (s_get kcmp k l).
Proof.
  intros R. unfold map_find. rewrite (mfind_rep kcmp TK m l k None R).
  unfold s_get. destruct (find (keq kcmp k) l); auto.
Qed.

Lemma map_latest ops k : Z.of_nat (length ops) < 2 ^ 31 -> Forall add_or_remove ops ->
  exists m rs, mrun (V:=V) kcmp map_mk ops = Ok (m, rs)
    /\ map_find K V kcmp (Some m) (Some k) = Ok (latest kcmp k (rev ops)).
Proof.
  intros HB F. destruct (map_history ops HB) as (m & E1 & R); [apply rename_ok_simple; auto|].
  exists m, (snd (ispec_run kcmp [] ops)). split; auto.
  rewrite (find_rep m _ k R). f_equal. apply latest_spec; auto.
Qed.

(** Keys in the key list: exactly those present, each once. *)
Lemma map_keys_present ops : Z.of_nat (length ops) < 2 ^ 31 -> Forall add_or_remove ops ->
  exists m rs, mrun (V:=V) kcmp map_mk ops = Ok (m, rs)
    /\ (forall k, present kcmp k (rev ops) = true <->
                  exists k', In k' (map_insertion_ordered_keys K V m) /\ kcmp k k' = 0)
    /\ uniq kcmp (map_insertion_ordered_keys K V m)
    /\ map_size K V (Some m) = Z.of_nat (length (map_insertion_ordered_keys K V m)).
Proof.
  intros HB F. destruct (map_history ops HB) as (m & E1 & R); [apply rename_ok_simple; auto|].
  exists m, (snd (ispec_run kcmp [] ops)). split; auto.
  pose proof (mrep_uniq kcmp TK _ _ R) as U.
  destruct R as (_ & _ & _ & KS & SZ). unfold map_insertion_ordered_keys, map_size. rewrite KS, SZ.
  split; [|split].
  - intros k. destruct (latest_spec ops k F) as [_ <-]. unfold s_has. rewrite existsb_exists. split.
    + intros (p & Hp & Kp). exists (fst p). split; [apply in_map; auto|]. apply Z.eqb_eq; auto.
    + intros (k' & Hk & C). apply in_map_iff in Hk as (p & <- & Hp). exists p. split; auto.
      unfold keq. apply Z.eqb_eq; auto.
  - destruct U as [N U]. split.
    + clear -N U TK. induction (fst (ispec_run kcmp [] ops)) as [|a l IH]; cbn [map]; constructor.
      * intros Hi. apply in_map_iff in Hi as (b & Eb & Hb).
        inversion N; subst. assert (b = a); [|subst; tauto].
        apply U; simpl; auto. unfold pcmp. rewrite Eb. apply (cmp_refl kcmp TK).
      * inversion N; subst. apply IH; auto. intros; apply U; simpl; auto.
    + intros x y Hx Hy C. apply in_map_iff in Hx as (a & <- & Ha). apply in_map_iff in Hy as (b & <- & Hb).
      f_equal. apply U; auto.
  - rewrite map_length; auto.
Qed.

(** Walking. *)
Lemma map_walk ops : Z.of_nat (length ops) < 2 ^ 31 -> rename_ok kcmp [] ops ->
  exists m rs order, mrun (V:=V) kcmp map_mk ops = Ok (m, rs)
    /\ Permutation order (fst (ispec_run kcmp [] ops))
    /\ map_keys K V m = map fst order /\ map_values K V m = map snd order
    /\ forall S (f : S -> K -> option V -> S * Z) c,
         map_iterate K V (Some m) (fun c k v => Ok (f c k v)) c = Ok (iter_spec f c order).
Proof.
  intros HB HR. destruct (map_history ops HB HR) as (m & E1 & R).
  exists m, (snd (ispec_run kcmp [] ops)), (visited entry (m_root m)).
  repeat split; auto.
  - apply (visited_rep kcmp m _ R).
  - intros. apply iterate_spec.
Qed.

(** Rename. *)
Lemma rename_ok_app a : forall (l : list entry) b, rename_ok kcmp l (a ++ b) ->
  rename_ok kcmp l a /\ rename_ok kcmp (fst (ispec_run kcmp l a)) b.
Proof.
  induction a as [|o a IH]; intros l b H; [split; cbn; auto|].
  cbn [app rename_ok ispec_run] in *. destruct H as [H1 H2]. apply IH in H2 as [H2 H3].
  destruct (ispec_step kcmp l o) as [l' r]. cbn [fst] in *.
  destruct (ispec_run kcmp l' a). cbn [fst] in *. auto.
Qed.

Lemma istep_run_length ops : forall (l : list entry),
  (length (fst (ispec_run kcmp l ops)) <= length l + length ops)%nat.
Proof.
  induction ops as [|o ops IH]; intros l; cbn [ispec_run fst length]; [lia|].
  pose proof (istep_length kcmp l o). destruct (ispec_step kcmp l o) as [l' r]. cbn [fst] in *.
  specialize (IH l'). destruct (ispec_run kcmp l' ops). cbn [fst] in *. lia.
Qed.

Lemma map_rename_history ops k1 k2 :
  Z.of_nat (length ops) + 1 < 2 ^ 31 -> rename_ok kcmp [] (ops ++ [MRename (Some k1) (Some k2)]) ->
  exists m rs b m', mrun (V:=V) kcmp map_mk ops = Ok (m, rs)
    /\ map_rename K V kcmp (Some m) (Some k1) (Some k2) = Ok (b, Some m')
    /\ (b = true <-> s_has kcmp k1 (fst (ispec_run kcmp [] ops)) = true)
    /\ (b = false -> m' = m)
    /\ forall k, b = true ->
       map_find K V kcmp (Some m') (Some k) =
         if kcmp k k2 =? 0 then map_find K V kcmp (Some m) (Some k1)
         else if kcmp k k1 =? 0 then Ok None
         else map_find K V kcmp (Some m) (Some k).
Proof.
  intros HB HR. apply rename_ok_app in HR as [HR1 [HR2 _]].
  destruct (map_history ops) as (m & E1 & R); [lia|auto|].
  pose proof (istep_run_length ops []) as L. cbn [length] in L.
  set (l := fst (ispec_run kcmp [] ops)) in *.
  pose proof (mstep_rep kcmp TK m l (MRename (Some k1) (Some k2)) R ltac:(lia) HR2) as (m' & E2 & R').
  cbn [mstep ispec_step fst snd] in E2, R'.
  exists m, (snd (ispec_run kcmp [] ops)), (s_has kcmp k1 l), m'.
  split; [exact E1|].
  destruct (map_rename K V kcmp (Some m) (Some k1) (Some k2)) as [[b [m1|]]|] eqn:RN; cbn [bind of_option] in E2;
    try discriminate.
  destruct (s_has kcmp k1 l) eqn:HS; cbn [fst snd] in *; injection E2 as -> ->.
  - split; [auto|]. split; [tauto|]. split; [discriminate|]. intros k _.
    rewrite !(find_rep m l _ R), (find_rep m' _ _ R').
    destruct (kcmp k k2 =? 0) eqn:C2.
    + apply Z.eqb_eq in C2. rewrite (get_put_same kcmp TK) by auto.
      destruct (s_has kcmp k2 (s_del kcmp k1 l)); auto.
    + apply Z.eqb_neq in C2.
      destruct (get_put_other kcmp TK k k2 (s_get kcmp k1 l) (fun _ => s_get kcmp k1 l) (s_del kcmp k1 l) C2) as [-> _].
      destruct (kcmp k k1 =? 0) eqn:C1.
      * apply Z.eqb_eq in C1. pose proof (has_del kcmp TK k k1 l C1) as HD.
        unfold s_get at 1. rewrite has_get_find in HD.
        destruct (find (keq kcmp k) (s_del kcmp k1 l)); [discriminate|auto].
      * apply Z.eqb_neq in C1. destruct (get_del_other kcmp TK k k1 l C1) as [-> _]. auto.
  - split; [auto|]. split; [intuition congruence|]. split; [|discriminate]. intros _.
    (* nothing removed *)
    unfold map_rename in RN.
    assert (FN : find (keq kcmp k1) l = None).
    { rewrite has_get_find in HS. destruct (find (keq kcmp k1) l); congruence. }
    unfold map_remove in RN. rewrite (mfind_rep kcmp TK m l k1 None R), FN in RN.
    cbn in RN. injection RN as ->. auto.
Qed.

(** Merge and clone. *)
Lemma map_merge_history dops sops mg :
  Z.of_nat (length dops + length sops) < 2 ^ 31 ->
  rename_ok kcmp [] dops -> rename_ok kcmp [] sops ->
  exists d rd s rs d',
    mrun (V:=V) kcmp map_mk dops = Ok (d, rd) /\ mrun kcmp map_mk sops = Ok (s, rs)
    /\ map_merge K V kcmp d (Some s) mg = Ok d'
    /\ forall k,
      let dl := fst (ispec_run kcmp [] dops) in let sl := fst (ispec_run kcmp [] sops) in
      map_find K V kcmp (Some d') (Some k) = Ok (
        if s_has kcmp k sl then
          if s_has kcmp k dl
          then match mg with None => s_get kcmp k sl | Some f => f (s_get kcmp k dl) (s_get kcmp k sl) end
          else s_get kcmp k sl
        else s_get kcmp k dl).
Proof.
  intros HB HD HS.
  destruct (map_history dops) as (d & E1 & R1); [lia|auto|].
  destruct (map_history sops) as (s & E2 & R2); [lia|auto|].
  assert (L : forall ops (l : list entry), (length (fst (ispec_run kcmp l ops)) <= length l + length ops)%nat).
  { induction ops as [|o ops IH]; intros l; cbn [ispec_run fst length]; [lia|].
    pose proof (istep_length kcmp l o). destruct (ispec_step kcmp l o) as [l' r]. cbn [fst] in *.
    specialize (IH l'). destruct (ispec_run kcmp l' ops). cbn [fst] in *. lia. }
  pose proof (L dops []). pose proof (L sops []). cbn [length] in *.
  destruct (merge_rep kcmp TK d _ s _ mg R1 R2) as (d' & ps & E3 & P & R3); [lia|].
  exists d, (snd (ispec_run kcmp [] dops)), s, (snd (ispec_run kcmp [] sops)), d'.
  split; [assumption|]. split; [assumption|]. split; [assumption|]. intros k. set (dl := fst (ispec_run kcmp [] dops)) in *. set (sl := fst (ispec_run kcmp [] sops)) in *.
  rewrite (find_rep d' _ k R3). f_equal.
  pose proof (mrep_uniq kcmp TK _ _ R2) as U2.
  assert (UP : uniq (pcmp K V kcmp) ps) by (eapply uniq_perm; [symmetry; exact P|auto]).
  destruct (merge_fold_get kcmp TK mg ps dl k UP) as [_ ->].
  destruct (perm_get kcmp TK k ps sl UP P) as [-> ->]. reflexivity.
Qed.

Lemma fold_fresh (ps : list entry) : forall l, uniq (pcmp K V kcmp) (l ++ ps) ->
  fold_left (merge_spec kcmp None) ps l = l ++ ps.
Proof.
  induction ps as [|p ps IH]; intros l U; cbn [fold_left]; [rewrite app_nil_r; auto|].
  unfold merge_spec at 2. rewrite put_absent.
  - rewrite <- surjective_pairing, IH; rewrite <- app_assoc; auto.
  - intros q Hq C. destruct U as [N U].
    assert (p = q) by (apply U; rewrite ?in_app_iff; simpl; auto).
    subst. apply NoDup_remove_2 in N. rewrite in_app_iff in N. tauto.
Qed.

Lemma map_clone_history ops : Z.of_nat (length ops) < 2 ^ 31 -> rename_ok kcmp [] ops ->
  exists m rs c, mrun (V:=V) kcmp map_mk ops = Ok (m, rs) /\ map_clone K V kcmp m = Ok c
    /\ map_size K V (Some c) = map_size K V (Some m)
    /\ (forall k, map_find K V kcmp (Some c) k = map_find K V kcmp (Some m) k)
    /\ Permutation (map_insertion_ordered_keys K V c) (map_insertion_ordered_keys K V m)
    /\ map_insertion_ordered_keys K V c = map_keys K V m.
Proof.
  intros HB HR. destruct (map_history ops HB HR) as (m & E1 & R).
  assert (L : forall ops (l : list entry), (length (fst (ispec_run kcmp l ops)) <= length l + length ops)%nat).
  { induction ops0 as [|o ops0 IH]; intros l; cbn [ispec_run fst length]; [lia|].
    pose proof (istep_length kcmp l o). destruct (ispec_step kcmp l o) as [l' r]. cbn [fst] in *.
    specialize (IH l'). destruct (ispec_run kcmp l' ops0). cbn [fst] in *. lia. }
  pose proof (L ops []) as L1. cbn [length] in L1.
  pose proof (visited_rep kcmp m _ R) as P. pose proof (Permutation_length P) as PL.
  pose proof (mrep_uniq kcmp TK _ _ R) as U.
  assert (UP : uniq (pcmp K V kcmp) (visited entry (m_root m))) by (eapply uniq_perm; [symmetry; exact P|auto]).
  destruct (merge_fold kcmp TK None (visited entry (m_root m)) map_mk [] (mrep_mk kcmp)) as (c & E2 & R2).
  { cbn [length]. lia. }
  rewrite (fold_fresh (visited entry (m_root m)) []) in R2 by auto. cbn [app] in R2.
  exists m, (snd (ispec_run kcmp [] ops)), c. split; auto. split.
  { unfold map_clone, map_merge, map_iterate. rewrite E2. reflexivity. }
  pose proof R as (_ & _ & _ & KS & SZ). pose proof R2 as (_ & _ & _ & KS2 & SZ2).
  repeat split.
  - cbn. rewrite SZ, SZ2, PL. reflexivity.
  - intros [k|]; [|reflexivity]. rewrite (find_rep m _ k R), (find_rep c _ k R2). f_equal.
    apply (perm_get kcmp TK); auto.
  - unfold map_insertion_ordered_keys. rewrite KS, KS2. apply Permutation_map. auto.
  - unfold map_insertion_ordered_keys. rewrite KS2. reflexivity.
Qed.
End Proofs.
