(** C84: JSON values in several places.

    [h0], [c0], [ss], [place] and [deep] are as in PropJsonMem.  A program
    (JsonShareModel) keeps pointers to JSON values and may put a value into as many
    arrays and objects as it likes.  [shares_of deep ops ([], [], 0) (vs, g, nx) k]
    (JsonShareSpec) says that the steps [ops] are allowed, that [vs] are the
    pointers and [g] is the graph of all values afterwards, and that [k] strings are
    left over. *)
From Coq Require Import ZArith List Bool Lia Permutation.
From Verif Require Import Base Json HeapModel HeapChainProofs HeapHistory JsonMemModel JsonMemSpec JsonMemView JsonMemDel JsonMemOps
  JsonEditModel JsonShareModel JsonShareSpec JsonShareGraph JsonShareDel JsonShareOps JsonShareHistory PropJsonMem.
From Verif Require JsonHeapModel.
Import ListNotations.
Open Scope nat_scope.
Open Scope outcome_scope.

(** Full statement: whatever such a program does, at the end every value of the
    graph is in memory, in objects of its own; the count of a value is the number of
    places it is in; and there are no other objects besides those that were there
    before.  In particular deleting a value takes exactly those of its parts with it
    that are in no other place.  That is false (below) when a value is put under a
    name where it is already, when names are removed, for 65536 places (C25), and
    because cee_str_mk uses its va_list twice (C12).  Proved: it is true apart from
    these, and exactly one string is left over for each name removed. *)
Theorem C84_history_partial : forall st ss place deep n h0 c0 ops vs g nx k,
  reach n st h0 -> static_ok h0 ss -> 2 <= deep -> shares_of deep ops ([], [], 0) (vs, g, nx) k ->
  exists h c at_ parts lost,
    splay st ss place deep JsonHeapModel.byval_str_mk ops (h0, c0, []) = Ok (h, c, map (pointer ss at_) vs) /\
    NoDup (map fst g) /\ (forall i m, In (i, m) g -> node_at h c ss at_ i m (places g i) (parts i)) /\
    length lost = k /\ Forall (fun x => obj h x KLeaf [] 0) lost /\
    NoDup (flat_map (fun p => parts (fst p)) g ++ lost) /\
    (forall x, x < h_next h0 -> look h x = look h0 x /\ c x = c0 x) /\
    (forall x, h_next h0 <= x -> (h_mem h x <> None <-> In x (flat_map (fun p => parts (fst p)) g ++ lost))).
Proof.
  intros st ss place deep n h0 c0 ops vs g nx k R SO D SH. apply reach_wf in R.
  destruct (run_ok st ss place deep JsonHeapModel.byval_str_mk (fun s => eq_refl) D h0 c0 R SO ops [] [] 0 _ k (fun _ => 0) h0 c0 [] SH (start_ok st ss h0 c0 R _))
    as (h & c & at_ & vs' & lg & nx' & lost & EQ & E & [[IV G LO] CL DM RG] & LL). injection EQ as -> -> ->. rewrite app_nil_r in IV.
  set (parts := fun i => flat_map (fun p => if fst p =? i then at_ i :: iblocks (snd p) else []) lg).
  assert (ND := g_ids _ _ _ _ _ _ G).
  assert (PE : forall i m, In (i, m) lg -> parts i = at_ i :: iblocks m).
  { intros i m I. apply in_split in I as (l1 & l2 & EL). assert (NI := ND). rewrite EL, map_app in NI. cbn [map fst] in NI. apply NoDup_remove_2 in NI. rewrite in_app_iff in NI.
    assert (Z : forall l, ~ In i (map fst l) -> flat_map (fun p : nat * lnode => if fst p =? i then at_ i :: iblocks (snd p) else []) l = []).
    { induction l as [|p r IH]; cbn [map flat_map In]; intros N; [auto|]. destruct (fst p =? i) eqn:EP; [apply Nat.eqb_eq in EP; tauto|]. apply IH. tauto. }
    unfold parts. rewrite EL, flat_map_app. cbn [flat_map fst snd]. rewrite Nat.eqb_refl, !Z by tauto. apply app_nil_r. }
  assert (PB : flat_map (fun p => parts (fst p)) (er lg) = gblocks at_ lg).
  { unfold er. rewrite !flat_map_concat_map, map_map. cbn [fst]. unfold gblocks. rewrite flat_map_concat_map. f_equal. apply map_ext_in. intros (i & m) I. cbn [fst snd]. apply PE. auto. }
  exists h, c, at_, parts, lost. split; [exact E|]. split; [rewrite er_ids; exact ND|]. split; [|split; [auto|split; [auto|split; [|split; [apply IV|]]]]].
  - intros i m I. apply er_in in I as (m' & I & <-). rewrite (PE i m' I). exists (top m'). split; [apply (g_tag _ _ _ _ _ _ G i m' I)|]. assert (IN := g_in _ _ _ _ _ _ G i m' I).
    destruct m' as [b x|l rs|m ks ts es]; cbn [erase top iblocks inner] in *; [auto|auto|]. destruct IN as (A & B & C & DN & F).
    exists ks, ts, (map (fun e => (n_key e, n_pair e)) es). split.
    { f_equal. f_equal. f_equal. rewrite !flat_map_concat_map, map_map. reflexivity. }
    split; [exact A|]. split; [rewrite map_map; exact B|]. split; [rewrite map_map; exact C|]. split; [rewrite pairs_names; exact DN|].
    unfold pairs_of. clear -F. induction F as [|e r (F1 & F2 & F3) _ IH]; cbn [map]; constructor; auto.
  - rewrite PB. apply nodup_occ. apply IV.
  - intros x X. rewrite PB. rewrite <- (JsonMemRun.i_live _ _ _ _ _ _ IV x X), look_none. tauto.
Qed.

(** So if in the end no value is left in the graph, and no name was removed, the
    heap is as it was. *)
Theorem C84_all_gone_partial : forall st ss place deep n h0 c0 ops vs nx,
  reach n st h0 -> static_ok h0 ss -> 2 <= deep -> shares_of deep ops ([], [], 0) (vs, [], nx) 0 ->
  exists h c ps, splay st ss place deep JsonHeapModel.byval_str_mk ops (h0, c0, []) = Ok (h, c, ps) /\ forall x, look h x = look h0 x.
Proof.
  intros st ss place deep n h0 c0 ops vs nx R SO D SH.
  destruct (C84_history_partial st ss place deep n h0 c0 ops vs [] nx 0 R SO D SH) as (h & c & at_ & parts & lost & E & _ & _ & LL & _ & _ & U & N).
  destruct lost; [|discriminate]. eexists h, c, _. split; [exact E|]. intros x.
  destruct (Nat.lt_ge_cases x (h_next h0)) as [X|X]; [apply U; auto|].
  assert (A : look h x = None). { apply look_none. destruct (h_mem h x) eqn:M; auto. exfalso. apply (proj1 (N x X)). congruence. }
  assert (B : look h0 x = None). { destruct (look h0 x) eqn:M; auto. exfalso. assert (x < h_next h0); [|lia]. apply (W_below st); [eapply reach_wf; exact R|]. congruence. }
  congruence.
Qed.

(** * Examples *)
Definition share_three (mk : text -> outcome text) (ops : list share) : outcome (heap * contents * list val) :=
  splay 0 three (fun _ _ => 0) 600 mk ops (h_three, fun _ => JNull, []).
Definition ka : text := [97%Z].
Lemma more deep o ops s s1 s' n m k : share_of deep o s s1 n -> shares_of deep ops s1 s' m -> n + m = k -> shares_of deep (o :: ops) s s' k.
Proof. intros E1 E2 <-. econstructor; eauto. Qed.
(** The 7 is twice in the array and once in the object; then the array is deleted. *)
Definition spread : list share :=
  [SNew (JArr []); SNew (JObj []); SNew (JI64 7); SAppend 0 2; SSet 1 ka 2; SAppend 0 2].
Definition spread_graph : graph := [(0, GArr [RAt 2; RAt 2]); (1, GObj [(ka, RAt 2)]); (2, GSimple (JI64 7))].
Lemma spread_then k ops s : shares_of 600 ops ([RAt 0; RAt 1; RAt 2], spread_graph, 3) s k -> shares_of 600 (spread ++ ops) ([], [], 0) s k.
Proof.
  intros T. unfold spread. cbn [app].
  eapply more; [apply so_new; apply mk_arr| |reflexivity]. eapply more; [apply so_new; apply mk_obj| |reflexivity]. eapply more; [apply so_new; apply mk_simple; exact I| |reflexivity]. cbn [app].
  eapply more; [apply (so_change 600 _ 0 0 (GArr []) (GArr ([] ++ [RAt 2])) [RAt 2] 0 [] [(1, GObj []); (2, GSimple (JI64 7))]); [reflexivity|apply ch_append; reflexivity|repeat constructor; cbn; tauto|] | |reflexivity].
  { intros x [<-|[]]. reflexivity. }
  eapply more; [apply (so_change 600 _ 1 1 (GObj []) (GObj ([] ++ [(ka, RAt 2)])) [RAt 2] 0 [(0, GArr [RAt 2])] [(2, GSimple (JI64 7))]); [reflexivity|apply ch_set_new; [reflexivity|intros []]|repeat constructor; cbn; tauto|] | |reflexivity].
  { intros x [<-|[]]. reflexivity. }
  eapply more; [apply (so_change 600 _ 0 0 (GArr [RAt 2]) (GArr ([RAt 2] ++ [RAt 2])) [RAt 2] 0 [] [(1, GObj [(ka, RAt 2)]); (2, GSimple (JI64 7))]); [reflexivity|apply ch_append; reflexivity|repeat constructor; cbn; tauto|] | |reflexivity].
  { intros x [<-|[]]. reflexivity. }
  exact T.
Qed.
Example C84_example_spread : shares_of 600 spread ([], [], 0) ([RAt 0; RAt 1; RAt 2], spread_graph, 3) 0.
Proof. rewrite <- (app_nil_r spread). apply spread_then. apply ss_nil. Qed.
Example C84_example_array_deleted :
  shares_of 600 (spread ++ [SDelete 0]) ([], [], 0) ([RAt 0; RAt 1; RAt 2], [(1, GObj [(ka, RAt 2)]); (2, GSimple (JI64 7))], 3) 0.
Proof.
  apply spread_then. eapply (more _ _ _ _ _ _ 0 0); [|apply ss_nil|reflexivity]. change [(1, GObj [(ka, RAt 2)]); (2, GSimple (JI64 7))] with (gone_from [0] spread_graph).
  apply (so_delete 600 0 0 [0]); [reflexivity|left; auto|reflexivity| |apply PeanoNat.Nat.leb_le; reflexivity].
  assert (N1 : ~ falls spread_graph 0 1). { intros F. inversion F as [|? _ (y & n & I2 & I3) _]. cbn in I2. destruct I2 as [[= <- <-]|[[= <- <-]|[[= <- <-]|[]]]]; cbn in I3; intuition lia. }
  intros x. cbn [In]. split; [intros [<-|[]]; apply falls_self|]. intros F. inversion F as [|? I1 I2 I3]; [auto|]. exfalso. cbn in I1. destruct I1 as [<-|[<-|[<-|[]]]].
  - destruct I2 as (y & n & I2 & I4). cbn in I2. destruct I2 as [[= <- <-]|[[= <- <-]|[[= <- <-]|[]]]]; cbn in I4; intuition lia.
  - auto.
  - apply N1. apply (I3 1 (GObj [(ka, RAt 2)])); [right; left; auto|left; auto].
Qed.
Example C84_example_both_deleted :
  shares_of 600 (spread ++ [SDelete 0; SDelete 1]) ([], [], 0) ([RAt 0; RAt 1; RAt 2], [], 3) 0.
Proof.
  pose proof C84_example_array_deleted as A. set (g := [(1, GObj [(ka, RAt 2)]); (2, GSimple (JI64 7))]) in *.
  assert (J : forall ops1 s s1 n, shares_of 600 ops1 s s1 n -> forall ops2 s2 m, shares_of 600 ops2 s1 s2 m -> shares_of 600 (ops1 ++ ops2) s s2 (n + m)).
  { induction 1; intros ops2 s2 q T; cbn [app]; [exact T|]. rewrite <- Nat.add_assoc. econstructor; [eassumption|]. auto. }
  change [SDelete 0; SDelete 1] with ([SDelete 0] ++ [SDelete 1]). rewrite app_assoc. apply (J _ _ _ _ A _ _ 0). eapply (more _ _ _ _ _ _ 0 0); [|apply ss_nil|reflexivity]. assert (EG : gone_from [1; 2] g = []) by reflexivity. rewrite <- EG.
  apply (so_delete 600 1 1 [1; 2]); [reflexivity|left; auto|reflexivity| |apply PeanoNat.Nat.leb_le; reflexivity].
  intros x. cbn [In]. split.
  - intros [<-|[<-|[]]]; [apply falls_self|]. apply falls_held; [right; left; auto|exists 1, (GObj [(ka, RAt 2)]); split; left; auto|].
    intros y n [[= <- <-]|[[= <- <-]|[]]] I; [apply falls_self|contradiction].
  - intros F. inversion F as [|? I1 _ _]; [auto|]. cbn in I1. tauto.
Qed.
(** 9 objects: 2 for the array, 3 + 2 for the object and its name, 2 for the 7; 7
    without the array; none at the end.  The count of the 7 (at 15, after its
    contents) is 3, then 1. *)
Example C84_example_objects :
  map (fun ops => match share_three JsonHeapModel.byval_str_mk ops with
                  | Ok (h, _, vs) => Some (length vs, length (live h) - 8, match nth 2 vs VNull with VPtr a => match h_mem h a with Some b => Some (b_rc b) | None => None end | _ => None end)
                  | Bad _ => None end)
    [spread; spread ++ [SDelete 0]; spread ++ [SDelete 0; SDelete 1]] = [Some (3, 9, Some 3%Z); Some (3, 7, Some 1%Z); Some (3, 0, None)].
Proof. vm_compute. reflexivity. Qed.
(** A part is read, and put into another array, which is appended to the first. *)
Definition parts_of : list share :=
  [SNew (JArr []); SNew (JArr []); SNew (JStr [120%Z]); SNew JNull; SInsert 1 0 2; SAppend 1 3; SPart 1 (AtIndex 0); SAppend 0 4; SConcat 0 1; SRemoveAt 0 0].
Example C84_example_parts : exists k,
  shares_of 600 parts_of ([], [], 0) ([RAt 0; RAt 1; RAt 2; RNull; RAt 2], [(0, GArr [RAt 2; RNull]); (1, GArr [RAt 2; RNull]); (2, GSimple (JStr [120%Z]))], 3) k.
Proof.
  exists 0. unfold parts_of.
  eapply more; [apply so_new; apply mk_arr| |reflexivity]. eapply more; [apply so_new; apply mk_arr| |reflexivity]. eapply more; [apply so_new; apply mk_simple; exact I| |reflexivity]. eapply more; [apply so_null| |reflexivity]. cbn [app].
  eapply more; [apply (so_change 600 _ 1 1 (GArr ([] ++ [])) (GArr ([] ++ RAt 2 :: [])) [RAt 2] 0 [(0, GArr [])] [(2, GSimple (JStr [120%Z]))]); [reflexivity|apply (ch_insert _ _ 1 1 2 (RAt 2) [] []); reflexivity|repeat constructor; cbn; tauto|] | |reflexivity].
  { intros x [<-|[]]. reflexivity. }
  eapply more; [apply (so_change 600 _ 1 1 (GArr [RAt 2]) (GArr ([RAt 2] ++ [RNull])) [RNull] 0 [(0, GArr [])] [(2, GSimple (JStr [120%Z]))]); [reflexivity|apply ch_append; reflexivity|repeat constructor|intros x []] | |reflexivity].
  eapply more; [eapply (so_index 600 1 1 0 [RAt 2; RNull]); [reflexivity|right; left; reflexivity|reflexivity]| |reflexivity]. cbn [app].
  eapply more; [apply (so_change 600 _ 0 0 (GArr []) (GArr ([] ++ [RAt 2])) [RAt 2] 0 [] [(1, GArr [RAt 2; RNull]); (2, GSimple (JStr [120%Z]))]); [reflexivity|apply ch_append; reflexivity|repeat constructor; cbn; tauto|] | |reflexivity].
  { intros x [<-|[]]. reflexivity. }
  eapply more; [apply (so_change 600 _ 0 0 (GArr [RAt 2]) (GArr ([RAt 2] ++ [RAt 2; RNull])) [RAt 2; RNull] 0 [] [(1, GArr [RAt 2; RNull]); (2, GSimple (JStr [120%Z]))]);
    [reflexivity|apply (ch_concat _ _ 0 0 1 1); [reflexivity|lia|right; left; reflexivity]|repeat constructor; cbn; tauto|] | |reflexivity].
  { intros x [<-|[]]. reflexivity. }
  eapply more; [apply (so_change 600 _ 0 0 (GArr ([] ++ RAt 2 :: [RAt 2; RNull])) (GArr ([] ++ [RAt 2; RNull])) [] 0 [] [(1, GArr [RAt 2; RNull]); (2, GSimple (JStr [120%Z]))]);
    [reflexivity|apply (ch_remove_at _ _ 0 0 [] (RAt 2) [RAt 2; RNull])|constructor|intros x []] | |reflexivity].
  apply ss_nil.
Qed.

(** * What is false *)
(** {"a":7}, then the 7 is put under "a" again, where it is already.  It is in one
    place; but when the object is deleted, the 7 stays, with count 1. *)
Definition again : list share := [SNew (JObj []); SNew (JI64 7); SSet 0 ka 1; SSet 0 ka 1; SDelete 0].
Theorem C84_again_refuted : exists st ss h0, reach 0 st h0 /\ static_ok h0 ss /\
  exists h c vs, splay st ss (fun _ _ => 0) 600 JsonHeapModel.byval_str_mk again (h0, fun _ => JNull, []) = Ok (h, c, vs) /\
    exists a b, nth_error vs 1 = Some (VPtr a) /\ h_next h0 <= a /\ h_mem h a = Some b /\ b_rc b = 1%Z.
Proof.
  exists 0, three, h_three. split; [exact three_reach|]. split; [exact three_static|]. set (r := splay _ _ _ _ _ _ _).
  assert (Q : match r with
              | Ok (h, _, vs) => match nth_error vs 1 with Some (VPtr a) => (8 <=? a) && match h_mem h a with Some b => (b_rc b =? 1)%Z | None => false end | _ => false end
              | _ => false end = true) by (vm_compute; reflexivity).
  destruct r as [((h, c), vs)|]; try discriminate. exists h, c, vs. split; [auto|]. destruct (nth_error vs 1) as [[|a| ]|]; try discriminate.
  apply andb_prop in Q as (Q1 & Q2). destruct (h_mem h a) as [b|] eqn:M; [|discriminate]. exists a, b. split; [auto|]. split; [apply Nat.leb_le; exact Q1|]. split; [auto|]. apply Z.eqb_eq. exact Q2.
Qed.
(** {"a":7}, then "a" is removed.  The string "a" stays when everything is deleted. *)
Definition lose : list share := [SNew (JObj []); SNew (JI64 7); SSet 0 ka 1; SRemove 0 ka; SDelete 0; SDelete 1].
Lemma C84_lose_allowed : shares_of 600 lose ([], [], 0) ([RAt 0; RAt 1], [], 2) 1.
Proof.
  unfold lose. eapply more; [apply so_new; apply mk_obj| |reflexivity]. eapply more; [apply so_new; apply mk_simple; exact I| |reflexivity]. cbn [app].
  eapply more; [apply (so_change 600 _ 0 0 (GObj []) (GObj ([] ++ [(ka, RAt 1)])) [RAt 1] 0 [] [(1, GSimple (JI64 7))]); [reflexivity|apply ch_set_new; [reflexivity|intros []]|repeat constructor; cbn; tauto|] | |reflexivity].
  { intros x [<-|[]]. reflexivity. }
  eapply (more _ _ _ _ _ _ 1 0); [apply (so_change 600 _ 0 0 (GObj ([] ++ (ka, RAt 1) :: [])) (GObj ([] ++ [])) [] 1 [] [(1, GSimple (JI64 7))]); [reflexivity|apply ch_remove|constructor|intros x []] | |reflexivity].
  eapply (more _ _ _ _ _ _ 0 0); [apply (so_delete 600 0 0 [0]); [reflexivity|left; auto|reflexivity| |apply PeanoNat.Nat.leb_le; reflexivity]| |reflexivity].
  { intros x. cbn [In]. split; [intros [<-|[]]; apply falls_self|]. intros F. inversion F as [|? _ (y & n & [[= <- <-]|[[= <- <-]|[]]] & []) _]. auto. }
  eapply (more _ _ _ _ _ _ 0 0); [apply (so_delete 600 1 1 [1]); [reflexivity|left; auto|reflexivity| |apply PeanoNat.Nat.leb_le; reflexivity]|apply ss_nil|reflexivity].
  intros x. cbn [In]. split; [intros [<-|[]]; apply falls_self|]. intros F. inversion F as [|? _ (y & n & [[= <- <-]|[]] & []) _]. auto.
Qed.
Theorem C84_remove_refuted : exists st ss h0 ops vs nx, reach 0 st h0 /\ static_ok h0 ss /\ (exists k, shares_of 600 ops ([], [], 0) (vs, [], nx) k) /\
  exists h c ps, splay st ss (fun _ _ => 0) 600 JsonHeapModel.byval_str_mk ops (h0, fun _ => JNull, []) = Ok (h, c, ps) /\
    exists x, h_next h0 <= x /\ h_mem h x <> None.
Proof.
  exists 0, three, h_three, lose, [RAt 0; RAt 1], 2. split; [exact three_reach|]. split; [exact three_static|]. split; [exists 1; apply C84_lose_allowed|].
  set (r := splay _ _ _ _ _ _ _).
  assert (Q : match r with Ok (h, _, _) => match h_mem h 13 with Some _ => true | None => false end | _ => false end = true) by (vm_compute; reflexivity).
  destruct r as [((h, c), ps)|]; try discriminate. exists h, c, ps. split; [auto|]. exists 13. split; [change (h_next h_three) with 8; lia|]. destruct (h_mem h 13); congruence.
Qed.
(** With cee_str_mk as the C standard has it, putting a value under a name fails. *)
Theorem C84_str_mk_refuted : exists st ss h0 ops s, reach 0 st h0 /\ static_ok h0 ss /\ shares_of 600 ops ([], [], 0) s 0 /\
  splay st ss (fun _ _ => 0) 600 JsonHeapModel.c_str_mk ops (h0, fun _ => JNull, []) = Bad BadVaList.
Proof.
  exists 0, three, h_three, spread, ([RAt 0; RAt 1; RAt 2], spread_graph, 3). split; [exact three_reach|]. split; [exact three_static|]. split; [apply C84_example_spread|]. vm_compute. reflexivity.
Qed.

Print Assumptions C84_history_partial.
Print Assumptions C84_all_gone_partial.
Print Assumptions C84_again_refuted.
Print Assumptions C84_remove_refuted.
Print Assumptions C84_str_mk_refuted.
