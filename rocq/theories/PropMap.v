(** C01, C02, C05, C46, C48: cee_map. *)
From Coq Require Import ZArith List Bool Lia Sorting.Permutation.
From Verif Require Import Base TsearchModel TsearchProofs SetProofs MapModel MapProofs MapHistory Samples.
Import ListNotations.
Open Scope Z_scope.

(** C01: results of all operations are those of an association list.  Keys are
    counted by an int in cee_map_remove, hence the bound 2^31. *)
Theorem C01_map_is_finite_map : forall K V (kcmp : K -> K -> Z), total_cmp kcmp ->
  forall ops : list (map_op K V), Z.of_nat (length ops) < 2 ^ 31 -> rename_ok kcmp [] ops ->
  exists m, mrun kcmp map_mk ops = Ok (m, snd (ispec_run kcmp [] ops)).
Proof. exact (fun K V kcmp TK ops => map_history_results kcmp TK ops). Qed.

(** A lookup gives the latest addition not undone by a removal. *)
Theorem C01_find_returns_latest : forall K V (kcmp : K -> K -> Z), total_cmp kcmp ->
  forall (ops : list (map_op K V)) k,
  Z.of_nat (length ops) < 2 ^ 31 -> Forall add_or_remove ops ->
  exists m rs, mrun kcmp map_mk ops = Ok (m, rs)
    /\ map_find K V kcmp (Some m) (Some k) = Ok (latest kcmp k (rev ops)).
Proof. exact (fun K V kcmp TK ops k => map_latest kcmp TK ops k). Qed.

Definition sample_ops : list (map_op Z Z) :=
  [MAdd (Some 11) (Some 100); MAdd (Some 7) (Some 200); MAdd (Some 21) (Some 300);
   MFind (Some 1); MSize; MRemove (Some 7); MFind (Some 7); MRename (Some 1) (Some 5);
   MAdd (Some 2) (Some 1); MKeys].

Example C01_example : total_cmp dcmp /\ rename_ok dcmp [] sample_ops /\
  exists m, mrun dcmp map_mk sample_ops =
    Ok (m, [RVal None; RVal None; RVal (Some 100); RVal (Some 300); RNum 2;
            RVal (Some 200); RVal None; RBool true; RVal None; RKeys [5; 2]]).
Proof.
  split; [exact dcmp_total|]. split.
  - cbn. repeat split; auto. discriminate.
  - eexists. vm_compute. reflexivity.
Qed.

(** C02: the recorded key order is that of the specification, whose keys keep
    their place when overwritten and go to the end when re-added. *)
Theorem C02_insertion_order : forall K V (kcmp : K -> K -> Z), total_cmp kcmp ->
  forall ops : list (map_op K V), Z.of_nat (length ops) < 2 ^ 31 -> rename_ok kcmp [] ops ->
  exists m rs, mrun kcmp map_mk ops = Ok (m, rs)
    /\ map_insertion_ordered_keys K V m = map fst (fst (ispec_run kcmp [] ops)).
Proof.
  intros K V kcmp TK ops HB HR. destruct (map_history kcmp TK ops HB HR) as (m & E & R).
  exists m, (snd (ispec_run kcmp [] ops)). split; [exact E|]. apply R.
Qed.

Theorem C02_keys_exactly_once : forall K V (kcmp : K -> K -> Z), total_cmp kcmp ->
  forall ops : list (map_op K V), Z.of_nat (length ops) < 2 ^ 31 -> Forall add_or_remove ops ->
  exists m rs, mrun kcmp map_mk ops = Ok (m, rs)
    /\ (forall k, present kcmp k (rev ops) = true <->
                  exists k', In k' (map_insertion_ordered_keys K V m) /\ kcmp k k' = 0)
    /\ uniq kcmp (map_insertion_ordered_keys K V m)
    /\ map_size K V (Some m) = Z.of_nat (length (map_insertion_ordered_keys K V m)).
Proof. exact (fun K V kcmp TK ops => map_keys_present kcmp TK ops). Qed.

Example C02_example :
  exists m rs, mrun dcmp map_mk
    [MAdd (Some 1) (Some 0); MAdd (Some 2) (Some 0); MAdd (Some 3) (Some 0);
     MAdd (Some 11) (Some 9); MRemove (Some 2); MAdd (Some 2) (Some 5)] = Ok (m, rs)
  /\ map_insertion_ordered_keys Z Z m = [1; 3; 2].
Proof. eexists. eexists. split; vm_compute; reflexivity. Qed.

(** C05: walking a map. [order] is one order used by all walks. *)
Theorem C05_map_walk : forall K V (kcmp : K -> K -> Z), total_cmp kcmp ->
  forall ops : list (map_op K V), Z.of_nat (length ops) < 2 ^ 31 -> rename_ok kcmp [] ops ->
  exists m rs order, mrun kcmp map_mk ops = Ok (m, rs)
    /\ Permutation order (fst (ispec_run kcmp [] ops))
    /\ map_keys K V m = map fst order /\ map_values K V m = map snd order
    /\ forall S (f : S -> K -> option V -> S * Z) c,
         map_iterate K V (Some m) (fun c k v => Ok (f c k v)) c = Ok (iter_spec f c order).
Proof. exact (fun K V kcmp TK ops => map_walk kcmp TK ops). Qed.

Example C05_map_example :
  exists m rs, mrun zcmp map_mk
    [MAdd (Some 3) (Some 30); MAdd (Some 1) (Some 10); MAdd (Some 2) (Some 20)] = Ok (m, rs)
  /\ map_keys Z Z m = [2; 1; 3]
  /\ map_iterate Z Z (Some m) (fun c k v => Ok (c ++ [k], if k =? 1 then 7 else 0)) [] = Ok ([2; 1], 7).
Proof. eexists. eexists. repeat split; vm_compute; reflexivity. Qed.

(** C46.  Renaming a key whose value is not NULL is part of C01's histories
    ([MRename] in [ispec_step]); with a NULL value the entry is lost. *)
Theorem C46_rename_null_value_refuted :
  exists m m', 
    mrun zcmp (@map_mk Z Z) [MAdd (Some 1) None; MAdd (Some 2) (Some 5)] = Ok (m, [RVal None; RVal None])
    /\ In 1 (map_insertion_ordered_keys Z Z m)
    /\ map_rename Z Z zcmp (Some m) (Some 1) (Some 3) = Ok (false, Some m')
    /\ map_insertion_ordered_keys Z Z m' = [2] /\ map_size Z Z (Some m') = 1.
Proof. eexists. eexists. split; [vm_compute; reflexivity|]. vm_compute. auto 10. Qed.

(** Rename for histories in which the renamed key has a value: full effect on
    every key. *)
Theorem C46_rename : forall K V (kcmp : K -> K -> Z), total_cmp kcmp ->
  forall (ops : list (map_op K V)) k1 k2,
  Z.of_nat (length ops) + 1 < 2 ^ 31 -> rename_ok kcmp [] (ops ++ [MRename (Some k1) (Some k2)]) ->
  exists m rs b m', mrun kcmp map_mk ops = Ok (m, rs)
    /\ map_rename K V kcmp (Some m) (Some k1) (Some k2) = Ok (b, Some m')
    /\ (b = true <-> s_has kcmp k1 (fst (ispec_run kcmp [] ops)) = true)
    /\ (b = false -> m' = m)
    /\ forall k, b = true ->
       map_find K V kcmp (Some m') (Some k) =
         if kcmp k k2 =? 0 then map_find K V kcmp (Some m) (Some k1)
         else if kcmp k k1 =? 0 then Ok None
         else map_find K V kcmp (Some m) (Some k).
Proof. exact (fun K V kcmp TK ops k1 k2 => map_rename_history kcmp TK ops k1 k2). Qed.

Example C46_rename_example :
  rename_ok zcmp [] [MAdd (Some 1) (Some 5); MRename (Some 1) (Some 2)] /\
  exists m m' rs, mrun zcmp map_mk [MAdd (Some 1) (Some 5)] = Ok (m, rs)
   /\ map_rename Z Z zcmp (Some m) (Some 1) (Some 2) = Ok (true, Some m')
   /\ map_find Z Z zcmp (Some m') (Some 2) = Ok (Some 5).
Proof.
  split; [cbn; repeat split; auto; discriminate|].
  eexists. eexists. eexists. repeat split; vm_compute; reflexivity.
Qed.

(** What every history gives, renaming keys bound to NULL included: renaming such a
    key removes it and reports that it was not there. *)
Section Lossy.
Context {K V : Type}.
Variable kcmp : K -> K -> Z.
Hypothesis TK : total_cmp kcmp.
Definition lossy_step (l : list (K * option V)) (op : map_op K V) : list (K * option V) * map_res K V :=
  match op with
  | MRename (Some k) (Some k') =>
    match s_get kcmp k l with
    | Some v => (s_put kcmp k' (Some v) (fun _ => Some v) (s_del kcmp k l), RBool true)
    | None => (s_del kcmp k l, RBool false)
    end
  | _ => ispec_step kcmp l op
  end.
Fixpoint lossy_run (l : list (K * option V)) (ops : list (map_op K V)) : list (K * option V) * list (map_res K V) :=
  match ops with
  | [] => (l, [])
  | op :: ops' => let (l', r) := lossy_step l op in let (l'', rs) := lossy_run l' ops' in (l'', r :: rs)
  end.
Lemma lossy_step_rep m l op : mrep kcmp m l -> Z.of_nat (length l) < 2 ^ 31 ->
  exists m', mstep kcmp m op = Ok (m', snd (lossy_step l op)) /\ mrep kcmp m' (fst (lossy_step l op)) /\
    (length (fst (lossy_step l op)) <= S (length l))%nat.
Proof.
  intros R B.
  assert (D : forall op', match op' with MRename (Some k) (Some _) => s_has kcmp k l = true -> s_get kcmp k l <> None | _ => True end ->
    exists m', mstep kcmp m op' = Ok (m', snd (ispec_step kcmp l op')) /\ mrep kcmp m' (fst (ispec_step kcmp l op')) /\
      (length (fst (ispec_step kcmp l op')) <= S (length l))%nat).
  { intros op' H. destruct (mstep_rep kcmp TK m l op' R B H) as (m' & E & R'). exists m'. split; auto. split; auto.
    pose proof (istep_length kcmp l op'). lia. }
  destruct op as [| | |[k|] [k'|]| | |]; try (apply D; exact I).
  cbn [lossy_step]. destruct (s_get kcmp k l) as [v|] eqn:G.
  - destruct (D (MRename (Some k) (Some k'))) as (m' & E & R' & L); [intros _; congruence|].
    assert (HS : s_has kcmp k l = true).
    { rewrite has_get_find. unfold s_get in G. destruct (find _ l); [reflexivity|discriminate]. }
    cbn [ispec_step] in *. rewrite HS, G in *. exists m'. auto.
  - destruct (D (MRemove (Some k)) I) as (m' & E & R' & L). cbn [mstep ispec_step fst snd] in *. rewrite G in E.
    destruct (map_remove K V kcmp (Some m) (Some k)) as [[v [m1|]]|] eqn:RM; cbn [bind of_option] in E; try discriminate.
    injection E as -> ->. exists m'. split; [|auto]. unfold map_rename. rewrite RM. reflexivity.
Qed.
Lemma lossy_run_rep ops : forall m l, mrep kcmp m l -> Z.of_nat (length l + length ops) < 2 ^ 31 ->
  exists m', mrun kcmp m ops = Ok (m', snd (lossy_run l ops)) /\ mrep kcmp m' (fst (lossy_run l ops)).
Proof.
  induction ops as [|op ops IH]; intros m l R B; cbn [mrun lossy_run]; [cbn; eauto|].
  cbn [length] in B. destruct (lossy_step_rep m l op R) as (m1 & -> & R1 & L); [lia|]. cbn [bind].
  destruct (IH m1 _ R1) as (m2 & -> & R2); [lia|]. cbn [bind].
  destruct (lossy_step l op) as [l' r]. cbn [fst snd] in *. destruct (lossy_run l' ops) as [l'' rs]. cbn [fst snd] in *. eauto.
Qed.
End Lossy.
Theorem C46_rename_exact : forall K V (kcmp : K -> K -> Z), total_cmp kcmp ->
  forall ops : list (map_op K V), Z.of_nat (length ops) < 2 ^ 31 ->
  exists m, mrun kcmp map_mk ops = Ok (m, snd (lossy_run kcmp [] ops)) /\
    map_insertion_ordered_keys K V m = map fst (fst (lossy_run kcmp [] ops)) /\
    forall k, map_find K V kcmp (Some m) (Some k) = Ok (s_get kcmp k (fst (lossy_run kcmp [] ops))).
Proof.
  intros K V kcmp T ops B. destruct (lossy_run_rep kcmp T ops map_mk [] (mrep_mk kcmp)) as (m & E & R); [cbn [length]; lia|].
  exists m. split; auto. split; [apply R|]. intros k. apply (find_rep kcmp T); auto.
Qed.
Example C46_rename_exact_example :
  let ops := [MAdd (Some 1) None; MAdd (Some 2) (Some 5); MRename (Some 1) (Some 3); MRename (Some 4) (Some 1); MSize; MRename (Some 2) (Some 1); MKeys; MFind (Some 1)] in
  lossy_run zcmp [] ops = ([(1, Some 5)], [RVal None; RVal None; RBool false; RBool false; RNum 1; RBool true; RKeys [1]; RVal (Some 5)]) /\
  exists m, mrun zcmp map_mk ops = Ok (m, [RVal None; RVal None; RBool false; RBool false; RNum 1; RBool true; RKeys [1]; RVal (Some 5)]).
Proof. split; [reflexivity|]. eexists. vm_compute. reflexivity. Qed.

(** Merging two maps, key by key; the source is not changed (it is only read by
    the model of cee_map_merge). *)
Theorem C46_merge : forall K V (kcmp : K -> K -> Z), total_cmp kcmp ->
  forall (dops sops : list (map_op K V)) mg,
  Z.of_nat (length dops + length sops) < 2 ^ 31 ->
  rename_ok kcmp [] dops -> rename_ok kcmp [] sops ->
  exists d rd s rs d',
    mrun kcmp map_mk dops = Ok (d, rd) /\ mrun kcmp map_mk sops = Ok (s, rs)
    /\ map_merge K V kcmp d (Some s) mg = Ok d'
    /\ forall k,
      let dl := fst (ispec_run kcmp [] dops) in let sl := fst (ispec_run kcmp [] sops) in
      map_find K V kcmp (Some d') (Some k) = Ok (
        if s_has kcmp k sl then
          if s_has kcmp k dl
          then match mg with None => s_get kcmp k sl | Some f => f (s_get kcmp k dl) (s_get kcmp k sl) end
          else s_get kcmp k sl
        else s_get kcmp k dl).
Proof. exact (fun K V kcmp TK dops sops mg => map_merge_history kcmp TK dops sops mg). Qed.

Example C46_merge_example :
  exists d s rd rs d', mrun zcmp map_mk [MAdd (Some 1) (Some 5); MAdd (Some 2) (Some 6)] = Ok (d, rd)
   /\ mrun zcmp map_mk [MAdd (Some 2) (Some 7); MAdd (Some 3) (Some 8)] = Ok (s, rs)
   /\ map_merge Z Z zcmp d (Some s) None = Ok d'
   /\ map (fun k => map_find Z Z zcmp (Some d') (Some k)) [1; 2; 3; 4]
      = [Ok (Some 5); Ok (Some 7); Ok (Some 8); Ok None].
Proof. do 5 eexists. repeat split; vm_compute; reflexivity. Qed.

(** Clone: same lookups and size; the clone's key order is the walking order. *)
Theorem C46_clone_lookup : forall K V (kcmp : K -> K -> Z), total_cmp kcmp ->
  forall ops : list (map_op K V), Z.of_nat (length ops) < 2 ^ 31 -> rename_ok kcmp [] ops ->
  exists m rs c, mrun kcmp map_mk ops = Ok (m, rs) /\ map_clone K V kcmp m = Ok c
    /\ map_size K V (Some c) = map_size K V (Some m)
    /\ (forall k, map_find K V kcmp (Some c) k = map_find K V kcmp (Some m) k)
    /\ Permutation (map_insertion_ordered_keys K V c) (map_insertion_ordered_keys K V m)
    /\ map_insertion_ordered_keys K V c = map_keys K V m.
Proof. exact (fun K V kcmp TK ops => map_clone_history kcmp TK ops). Qed.

(** The claim "clone yields an equal map" fails for the key order. *)
Theorem C46_clone_order_refuted :
  exists m rs c,
    mrun zcmp map_mk [MAdd (Some 1) (Some 0); MAdd (Some 2) (Some 0); MAdd (Some 3) (Some 0)] = Ok (m, rs)
    /\ map_clone Z Z zcmp m = Ok c
    /\ map_insertion_ordered_keys Z Z m = [1; 2; 3]
    /\ map_insertion_ordered_keys Z Z c = [2; 1; 3].
Proof. do 3 eexists. repeat split; vm_compute; reflexivity. Qed.

(** C48: a NULL map.  size and iterate are handled; find and remove are not,
    although the header documents them. *)
Theorem C48_map_null_partial : forall K V (kcmp : K -> K -> Z) S (f : S -> K -> option V -> outcome (S * Z)) c,
  map_size K V None = 0 /\ map_iterate K V None f c = Ok (c, 0).
Proof. intros. split; reflexivity. Qed.

Theorem C48_map_null_refuted : forall K V (kcmp : K -> K -> Z) k,
  map_find K V kcmp None (Some k) = Bad NullDeref
  /\ map_remove K V kcmp None (Some k) = Bad NullDeref.
Proof. intros. split; reflexivity. Qed.

Print Assumptions C01_map_is_finite_map.
Print Assumptions C01_find_returns_latest.
Print Assumptions C02_insertion_order.
Print Assumptions C02_keys_exactly_once.
Print Assumptions C05_map_walk.
Print Assumptions C46_rename_null_value_refuted.
Print Assumptions C46_rename.
Print Assumptions C46_rename_exact.
Print Assumptions C46_merge.
Print Assumptions C46_clone_lookup.
Print Assumptions C46_clone_order_refuted.
Print Assumptions C48_map_null_partial.
Print Assumptions C48_map_null_refuted.
