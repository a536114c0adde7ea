(** C81: building, editing and deleting JSON values.

    [h0], [c0], [ss], [place] and [deep] are as in PropJsonMem.  A program
    (JsonEditModel) keeps a list of values of its own; each step creates one,
    parses one, puts one into another, sets a field to a simple value, takes a part out, renames a name, or deletes
    one.  [edits_of ops [] js n] (JsonEditSpec) says that the steps [ops] are
    allowed, that [js] are the values afterwards, and that [n] strings are left
    over (one for each name removed or renamed). *)
From Coq Require Import ZArith List Bool Lia.
From Verif Require Import Base Json JsonSpec JsonNamesSpec HeapModel HeapChainProofs HeapHistory JsonMemModel JsonMemSpec JsonMemView JsonMemDel JsonMemOps
  JsonEditModel JsonEditSpec JsonEditHistory PropJsonMem.
From Verif Require JsonHeapModel JsonLangProofs.
Import ListNotations.
Open Scope nat_scope.
Open Scope outcome_scope.

(** Full statement: whatever such a program does, at the end each of its values is
    stored as it should be, in objects of its own, and there are no other objects
    besides those that were there before.  That is false (below), because strings
    are left over, and because cee_str_mk uses its va_list twice (C12).  Proved: on
    a machine on which that does no harm, exactly [n] strings are left over,
    everything else is so. *)
Theorem C81_history_partial : forall strtod st ss place deep n h0 c0 ops js k,
  reach n st h0 -> static_ok h0 ss -> 2 <= deep -> edits_of strtod deep ops [] js k ->
  exists h c vs xss lost,
    eplay strtod st ss place deep JsonHeapModel.byval_str_mk ops (h0, c0, []) = Ok (h, c, vs) /\
    length vs = length js /\ length xss = length js /\
    (forall i v p xs, nth_error js i = Some v -> nth_error vs i = Some p -> nth_error xss i = Some xs -> stored h c ss p v xs) /\
    length lost = k /\ Forall (fun x => obj h x KLeaf [] 0) lost /\
    NoDup (concat xss ++ lost) /\
    (forall x, x < h_next h0 -> look h x = look h0 x /\ c x = c0 x) /\
    (forall x, h_next h0 <= x -> (h_mem h x <> None <-> In x (concat xss ++ lost))).
Proof.
  intros strtod st ss place deep n h0 c0 ops js k R SO D ED. apply reach_wf in R.
  destruct (eplay_ok strtod st ss place deep JsonHeapModel.byval_str_mk (fun s => eq_refl) D h0 c0 R SO ops [] js k ED h0 c0 [] [] [] (ehold_start st ss h0 c0 R))
    as (h & c & vs & Ls & lost & E & [I HL HS EV EJ] & LL). cbn [app] in *.
  exists h, c, vs, (map blocks Ls), lost. assert (EC : concat (map blocks Ls) = flat_map blocks Ls) by (rewrite flat_map_concat_map; auto). rewrite EC.
  assert (ND : NoDup (flat_map blocks Ls ++ lost)) by (apply nodup_occ; apply I).
  split; [exact E|]. split; [rewrite EV, EJ, !map_length; auto|]. split; [rewrite EJ, !map_length; auto|]. split; [|split; [auto|split; [auto|split; [auto|split; [apply I|]]]]].
  - intros i v p xs I1 I2 I3. rewrite EJ, nth_error_map in I1. rewrite EV, nth_error_map in I2. rewrite nth_error_map in I3. destruct (nth_error Ls i) as [L|] eqn:EL; [|discriminate].
    injection I1 as <-. injection I2 as <-. injection I3 as <-. exists L. rewrite Forall_forall in HL. apply nth_error_In in EL. split; [auto|]. split; [auto|]. split; [auto|]. split; [auto|].
    apply in_split in EL as (l1 & l2 & ->). rewrite flat_map_app in ND. cbn [flat_map] in ND. assert (O := proj1 (nodup_occ _) ND). apply nodup_occ. intros y. specialize (O y). rewrite !occ_app in O. lia.
  - intros x X. rewrite <- (JsonMemRun.i_live _ _ _ _ _ _ I x X), look_none. tauto.
Qed.

(** So a program that neither removes nor renames a name, and at the end has
    deleted everything it had, leaves the heap as it was. *)
Theorem C81_all_deleted_partial : forall strtod st ss place deep n h0 c0 ops,
  reach n st h0 -> static_ok h0 ss -> 2 <= deep -> edits_of strtod deep ops [] [] 0 ->
  exists h c, eplay strtod st ss place deep JsonHeapModel.byval_str_mk ops (h0, c0, []) = Ok (h, c, []) /\ forall x, look h x = look h0 x.
Proof.
  intros strtod st ss place deep n h0 c0 ops R SO D ED.
  destruct (C81_history_partial strtod st ss place deep n h0 c0 ops [] 0 R SO D ED) as (h & c & vs & xss & lost & E & L1 & L2 & _ & L3 & _ & _ & U & N).
  destruct vs; [|discriminate]. destruct xss; [|discriminate]. destruct lost; [|discriminate]. exists h, c. split; [exact E|]. intros x.
  destruct (Nat.lt_ge_cases x (h_next h0)) as [X|X]; [apply U; auto|].
  assert (A : look h x = None). { apply look_none. destruct (h_mem h x) eqn:M; auto. exfalso. apply (proj1 (N x X)). congruence. }
  assert (B : look h0 x = None). { destruct (look h0 x) eqn:M; auto. exfalso. assert (x < h_next h0); [|lia]. apply (W_below st); [eapply reach_wf; exact R|]. congruence. }
  congruence.
Qed.

(** * Examples *)
Definition edit_three (mk : text -> outcome text) (ops : list edit) : outcome (heap * contents * list val) :=
  eplay (fun _ => 0%Z) 0 three (fun _ _ => 0) 600 mk ops (h_three, fun _ => JNull, []).
Definition ka : text := [97%Z].
Definition kb : text := [98%Z].
Lemma more strtod deep o ops js js1 js' n m k : edit_of strtod deep o js js1 n -> edits_of strtod deep ops js1 js' m -> n + m = k -> edits_of strtod deep (o :: ops) js js' k.
Proof. intros E1 E2 <-. econstructor; eauto. Qed.
(** [{"a":7}], then the 7 is replaced by "x"; the 7 is now a value of its own *)
Definition build : list edit :=
  [ENew (JArr []); ENew (JObj []); ENew (JI64 7); ESet 1 [] ka 2; EAppend 0 [] 1; ENew (JStr [120%Z]); ESet 0 [AtIndex 0] ka 1].
Example C81_example_values : forall strtod,
  edits_of strtod 600 build [] [JArr [JObj [(ka, JStr [120%Z])]]; JI64 7] 0.
Proof.
  intros strtod. unfold build.
  eapply more; [apply eo_new; exact I| |reflexivity]. eapply more; [apply eo_new; exact I| |reflexivity]. eapply more; [apply eo_new; exact I| |reflexivity].
  eapply more; [eapply (eo_set strtod 600 1 [] ka 2); [reflexivity|reflexivity|discriminate|]; apply ch_here; apply sf_new; [intros []|reflexivity]| |reflexivity].
  eapply more; [eapply (eo_append strtod 600 0 [] 1); [reflexivity|reflexivity|discriminate|]; apply ch_here; apply (pe true 0 _ [] []); reflexivity| |reflexivity].
  eapply more; [apply eo_new; exact I| |reflexivity].
  eapply more; [eapply (eo_set strtod 600 0 [AtIndex 0] ka 1); [reflexivity|reflexivity|discriminate|]; apply (ch_index _ [] _ []); apply ch_here; apply (sf_old _ _ _ [] _ []); reflexivity| |reflexivity].
  apply es_nil.
Qed.
(** 11 objects: 2 for the array, 3 and 2 for the object and its name, 2 for "x", 2
    for the 7; then 9 after deleting the 7, and 0. *)
Example C81_example_objects :
  map (fun ops => match edit_three JsonHeapModel.byval_str_mk ops with Ok (h, _, vs) => Some (length vs, length (live h) - 8) | Bad _ => None end)
    [build; build ++ [EDelete 1]; build ++ [EDelete 1; EDelete 0]] = [Some (2, 11); Some (1, 9); Some (0, 0)].
Proof. vm_compute. reflexivity. Qed.
(** Parsing  {"a":[1,"x"],"b":null} , inserting 7 into the array behind the 1, taking
    the "x" out again, renaming "a" to "b": then {"b":[1,7]}, "x" and null remain,
    and a string that is left over. *)
Definition revise : list edit :=
  [EParse sample_text []; ENew (JI64 7); EInsert 0 [AtName ka] 1 1; ERemoveAt 0 [AtName ka] 2; ERename 0 [] ka kb].
Example C81_example_revise : forall strtod,
  edits_of strtod 600 revise [] [JObj [(kb, JArr [JI64 1; JI64 7])]; JStr [120%Z]; JNull] 1.
Proof.
  intros strtod. unfold revise.
  eapply more; [apply (eo_parse strtod 600 511 [] sample_text [] sample_value); [constructor|constructor|apply C79_example_distinct|lia]| |reflexivity].
  eapply more; [apply eo_new; exact I| |reflexivity].
  eapply more; [eapply (eo_insert strtod 600 0 [AtName ka] 1 1); [reflexivity|reflexivity|discriminate|]; apply (ch_name _ [] ka _ [(kb, JNull)]); apply ch_here; apply (pe false 1 _ [JI64 1] [JStr [120%Z]]); reflexivity| |reflexivity].
  eapply more; [eapply (eo_remove_at strtod 600 0 [AtName ka] 2); [reflexivity|]; apply (ch_name _ [] ka _ [(kb, JNull)]); apply ch_here; apply (te_in _ _ [JI64 1; JI64 7] (JStr [120%Z]) []); reflexivity| |reflexivity].
  eapply more; [eapply (eo_rename strtod 600 0 [] ka kb); [reflexivity|]; apply ch_here; apply (rf_in _ _ _ [] _ [(kb, JNull)]); apply (sf_old _ _ _ [] _ []); reflexivity| |reflexivity].
  apply es_nil.
Qed.
(** 14 = 3 + 2 + 2 + 2 + 2 objects of the first value, 2 of the "x", 1 string *)
Example C81_example_revise_objects :
  match edit_three JsonHeapModel.byval_str_mk revise with
  | Ok (h, _, vs) => Some (length vs, length (live h) - 8, nth 2 vs VNull) | Bad _ => None
  end = Some (3, 14, VPtr (s_null three)).
Proof. vm_compute. reflexivity. Qed.

(** {"a":7} at once, "a" set to true, "b" to a string; the 7 is a value of its own
    again: 3 objects, 2 for each name, none for true, 2 for the string, 2 for the 7 *)
Definition put_fields : list edit := [ENew (JI64 7); EField ka 0; EPut 0 [] ka (JBool true); EPut 0 [] kb (JStr [120%Z])].
Example C81_example_put : forall strtod,
  edits_of strtod 600 put_fields [] [JObj [(ka, JBool true); (kb, JStr [120%Z])]; JI64 7] 0.
Proof.
  intros strtod. unfold put_fields. eapply more; [apply eo_new; exact I| |reflexivity]. eapply more; [apply (eo_field strtod 600 ka 0 (JI64 7)); reflexivity| |reflexivity].
  eapply more; [eapply (eo_put strtod 600 0 [] ka); [reflexivity|exact I|]; apply ch_here; apply (sf_old _ _ _ [] _ []); reflexivity| |reflexivity].
  eapply more; [eapply (eo_put strtod 600 0 [] kb); [reflexivity|exact I|]; apply ch_here; apply (sf_new _ _ _ [(ka, JBool true)]); [intros [E|[]]; discriminate|reflexivity]| |reflexivity].
  apply es_nil.
Qed.
Example C81_example_put_objects :
  map (fun ops => match edit_three JsonHeapModel.byval_str_mk ops with Ok (h, _, vs) => Some (length vs, length (live h) - 8) | Bad _ => None end)
    [put_fields; put_fields ++ [EDelete 1; EDelete 0]] = [Some (2, 11); Some (0, 0)].
Proof. vm_compute. reflexivity. Qed.

(** * What is false *)
(** {"a":7}, the name is removed, the 7 and the object are deleted: an object is
    still there, the string of the name. *)
Definition lose : list edit := [ENew (JObj []); ENew (JI64 7); ESet 0 [] ka 1; ERemove 0 [] ka; EDelete 1; EDelete 0].
Example C81_lose_allowed : forall strtod, edits_of strtod 600 lose [] [] 1.
Proof.
  intros strtod. unfold lose. eapply more; [apply eo_new; exact I| |reflexivity]. eapply more; [apply eo_new; exact I| |reflexivity].
  eapply more; [eapply (eo_set strtod 600 0 [] ka 1); [reflexivity|reflexivity|discriminate|]; apply ch_here; apply sf_new; [intros []|reflexivity]| |reflexivity].
  eapply more; [eapply (eo_remove strtod 600 0 [] ka); [reflexivity|]; apply ch_here; apply (tf_in _ _ [] _ []); reflexivity| |reflexivity].
  eapply more; [eapply (eo_delete strtod 600 1); [reflexivity|]; apply PeanoNat.Nat.leb_le; reflexivity| |reflexivity].
  eapply more; [eapply (eo_delete strtod 600 0); [reflexivity|]; apply PeanoNat.Nat.leb_le; reflexivity| |reflexivity].
  apply es_nil.
Qed.
Theorem C81_remove_refuted : exists st ss h0 ops, reach 0 st h0 /\ static_ok h0 ss /\ (exists k, edits_of (fun _ => 0%Z) 600 ops [] [] k) /\
  exists h c, eplay (fun _ => 0%Z) st ss (fun _ _ => 0) 600 JsonHeapModel.byval_str_mk ops (h0, fun _ => JNull, []) = Ok (h, c, []) /\
    exists x, h_next h0 <= x /\ h_mem h x <> None.
Proof.
  exists 0, three, h_three, lose. split; [exact three_reach|]. split; [exact three_static|]. split; [exists 1; apply C81_lose_allowed|].
  set (r := eplay _ _ _ _ _ _ _ _).
  assert (Q : match r with Ok (h, _, []) => match h_mem h 13 with Some _ => true | None => false end | _ => false end = true) by (vm_compute; reflexivity).
  destruct r as [((h, c), [|])|]; try discriminate. exists h, c. split; [auto|]. exists 13. split; [change (h_next h_three) with 8; lia|]. destruct (h_mem h 13); congruence.
Qed.
(** The same with renaming "a" to "b": the string "a" stays; and with renaming a
    name that is not there: the string "b" stays. *)
Definition lose_old : list edit := [ENew (JObj []); ENew (JI64 7); ESet 0 [] ka 1; ERename 0 [] ka kb; EDelete 0].
Definition lose_new : list edit := [ENew (JObj []); ERename 0 [] ka kb; EDelete 0].
Theorem C81_rename_refuted : exists st ss h0, reach 0 st h0 /\ static_ok h0 ss /\ forall ops, ops = lose_old \/ ops = lose_new ->
  (exists k, edits_of (fun _ => 0%Z) 600 ops [] [] k) /\
  exists h c, eplay (fun _ => 0%Z) st ss (fun _ _ => 0) 600 JsonHeapModel.byval_str_mk ops (h0, fun _ => JNull, []) = Ok (h, c, []) /\
    exists x, h_next h0 <= x /\ h_mem h x <> None.
Proof.
  exists 0, three, h_three. split; [exact three_reach|]. split; [exact three_static|].
  intros ops [-> | ->]; (split; [exists 1|]).
  - unfold lose_old. eapply more; [apply eo_new; exact I| |reflexivity]. eapply more; [apply eo_new; exact I| |reflexivity].
    eapply more; [eapply (eo_set _ 600 0 [] ka 1); [reflexivity|reflexivity|discriminate|]; apply ch_here; apply sf_new; [intros []|reflexivity]| |reflexivity].
    eapply more; [eapply (eo_rename _ 600 0 [] ka kb); [reflexivity|]; apply ch_here; apply (rf_in _ _ _ [] _ []); apply sf_new; [intros []|reflexivity]| |reflexivity].
    eapply more; [eapply (eo_delete _ 600 0); [reflexivity|]; apply PeanoNat.Nat.leb_le; reflexivity| |reflexivity]. apply es_nil.
  - set (r := eplay _ _ _ _ _ _ _ _).
    assert (Q : match r with Ok (h, _, []) => match h_mem h 13 with Some _ => true | None => false end | _ => false end = true) by (vm_compute; reflexivity).
    destruct r as [((h, c), [|])|]; try discriminate. exists h, c. split; [auto|]. exists 13. split; [change (h_next h_three) with 8; lia|]. destruct (h_mem h 13); congruence.
  - unfold lose_new. eapply more; [apply eo_new; exact I| |reflexivity].
    eapply more; [eapply (eo_rename _ 600 0 [] ka kb); [reflexivity|]; apply ch_here; apply rf_out; [intros []|reflexivity]| |reflexivity].
    eapply more; [eapply (eo_delete _ 600 0); [reflexivity|]; apply PeanoNat.Nat.leb_le; reflexivity| |reflexivity]. apply es_nil.
  - set (r := eplay _ _ _ _ _ _ _ _).
    assert (Q : match r with Ok (h, _, []) => match h_mem h 12 with Some _ => true | None => false end | _ => false end = true) by (vm_compute; reflexivity).
    destruct r as [((h, c), [|])|]; try discriminate. exists h, c. split; [auto|]. exists 12. split; [change (h_next h_three) with 8; lia|]. destruct (h_mem h 12); congruence.
Qed.
(** With cee_str_mk as the C standard has it, setting a field fails. *)
Theorem C81_str_mk_refuted : exists st ss h0 ops js, reach 0 st h0 /\ static_ok h0 ss /\ edits_of (fun _ => 0%Z) 600 ops [] js 0 /\
  eplay (fun _ => 0%Z) st ss (fun _ _ => 0) 600 JsonHeapModel.c_str_mk ops (h0, fun _ => JNull, []) = Bad BadVaList.
Proof.
  exists 0, three, h_three, build, [JArr [JObj [(ka, JStr [120%Z])]]; JI64 7]. split; [exact three_reach|]. split; [exact three_static|]. split; [apply C81_example_values|]. vm_compute. reflexivity.
Qed.

Print Assumptions C81_history_partial.
Print Assumptions C81_all_deleted_partial.
Print Assumptions C81_remove_refuted.
Print Assumptions C81_rename_refuted.
Print Assumptions C81_str_mk_refuted.
