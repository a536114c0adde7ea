(** C82: printing JSON values leaves nothing but the text in memory.

    [h0], [c0], [ss], [place], [deep] and the programs are as in PropJsonEdit, but
    the programs also print (JsonWriteModel): values or parts of them are printed
    with cee_json_asprint, and the block with the text is deleted.
    [writes_of ops [] js n ts] (JsonWriteSpec) says that the steps [ops] are
    allowed, that [js] are the values afterwards, that [n] strings are left over
    (one for each name removed or renamed), and that the texts printed are [ts].
    [fmt_g] is what "%lg" prints; [init] is what new blocks contain. *)
From Coq Require Import ZArith List Bool Lia.
From Verif Require Import Base BoxedModel Utf8Proofs Json JsonSpec JsonNamesSpec HeapModel HeapChainProofs HeapHistory JsonMemModel JsonMemSpec JsonMemView JsonMemDel JsonMemOps
  JsonPrintModel JsonPrintSpec JsonPrintMemModel JsonPrintMemProofs JsonEditModel JsonEditSpec JsonEditHistory JsonWriteModel JsonWriteSpec JsonWriteHistory PropJsonMem.
From Verif Require JsonHeapModel JsonLangProofs PropJsonEdit PropJsonPrint.
Import ListNotations.
Open Scope nat_scope.
Open Scope outcome_scope.

(** The static blocks of true, false and null are three. *)
Definition apart (ss : statics) : Prop := NoDup [s_true ss; s_false ss; s_null ss].

(** Full statement: the printed texts are as they should be; at the end each value
    is stored as it should be, in objects of its own, and there are no other
    objects besides those that were there before.  That is false (below), because
    printing values of more than 498 levels leaves objects behind; because strings
    are left over (C81); and because cee_str_mk uses its va_list twice (C12).
    Proved: on a machine on which that does no harm, if no value printed has more
    levels than the format supports, exactly [n] strings are left over, and
    everything else is so. *)
Theorem C82_history_partial : forall strtod fmt_g st ss place deep init n h0 c0 ops js k ts,
  reach n st h0 -> static_ok h0 ss -> apart ss -> 2 <= deep -> writes_of strtod fmt_g deep ops [] js k ts ->
  exists fuel0, forall fuel, fuel0 <= fuel -> exists h c vs xss lost,
    wplay strtod fmt_g st ss place deep JsonHeapModel.byval_str_mk fuel init ops (h0, c0, [], []) = Ok (h, c, vs, ts) /\
    length vs = length js /\ length xss = length js /\
    (forall i v p xs, nth_error js i = Some v -> nth_error vs i = Some p -> nth_error xss i = Some xs -> stored h c ss p v xs) /\
    length lost = k /\ Forall (fun x => obj h x KLeaf [] 0) lost /\
    NoDup (concat xss ++ lost) /\
    (forall x, x < h_next h0 -> look h x = look h0 x /\ c x = c0 x) /\
    (forall x, h_next h0 <= x -> (h_mem h x <> None <-> In x (concat xss ++ lost))).
Proof.
  intros strtod fmt_g st ss place deep init n h0 c0 ops js k ts R SO AP D WR. apply reach_wf in R.
  destruct (wplay_ok strtod fmt_g st ss place deep JsonHeapModel.byval_str_mk (fun s => eq_refl) D AP h0 c0 R SO init ops [] js k ts WR) as (F & H).
  exists F. intros fuel LE. destruct (H fuel LE h0 c0 [] [] [] [] (ehold_start st ss h0 c0 R)) as (h & c & vs & Ls & lost & E & [I HL HS EV EJ] & LL). cbn [app] in *.
  exists h, c, vs, (map blocks Ls), lost. assert (EC : concat (map blocks Ls) = flat_map blocks Ls) by (rewrite flat_map_concat_map; auto). rewrite EC.
  assert (ND : NoDup (flat_map blocks Ls ++ lost)) by (apply nodup_occ; apply I).
  split; [exact E|]. split; [rewrite EV, EJ, !map_length; auto|]. split; [rewrite EJ, !map_length; auto|]. split; [|split; [auto|split; [auto|split; [auto|split; [apply I|]]]]].
  - intros i v p xs I1 I2 I3. rewrite EJ, nth_error_map in I1. rewrite EV, nth_error_map in I2. rewrite nth_error_map in I3. destruct (nth_error Ls i) as [L|] eqn:EL; [|discriminate].
    injection I1 as <-. injection I2 as <-. injection I3 as <-. exists L. rewrite Forall_forall in HL. apply nth_error_In in EL. split; [auto|]. split; [auto|]. split; [auto|]. split; [auto|].
    apply in_split in EL as (l1 & l2 & ->). rewrite flat_map_app in ND. cbn [flat_map] in ND. assert (O := proj1 (nodup_occ _) ND). apply nodup_occ. intros y. specialize (O y). rewrite !occ_app in O. lia.
  - intros x X. rewrite <- (JsonMemRun.i_live _ _ _ _ _ _ I x X), look_none. tauto.
Qed.

(** Full statement: cee_json_snprint does to the text what the printer of values
    does (C28, C33, C34), whatever the value, the format and the buffer, and
    changes no object.  That is false for values of more than 498 levels; proved
    for all others.  [W st h]: the objects are linked to the state as they should be
    (HeapChainProofs). *)
Theorem C82_snprint_partial : forall fmt_g st ss deep h c v p xs fuel f buf,
  W st h -> static_ok h ss -> apart ss -> 2 <= deep -> stored h c ss p v xs -> height v <= 498 ->
  (forall r, snprint fmt_g fuel f buf v = Bad r -> msnprint fmt_g st ss deep fuel f h c buf p = Bad r) /\
  (forall x, snprint fmt_g fuel f buf v = Ok x ->
    exists h', msnprint fmt_g st ss deep fuel f h c buf p = Ok (h', x) /\ W st h' /\ forall y, look h' y = look h y).
Proof.
  intros fmt_g st ss deep h c v p xs fuel f buf Wh SO AP D (L & HL & <- & <- & _) HB.
  assert (A := snprint_mem fmt_g st ss deep h c Wh SO AP D fuel f buf 0%Z L HL).
  destruct (snprint fmt_g fuel f buf (json_of L)) as [x|r]; (split; [intros r'|intros x']; intros E; inversion E; subst); [|auto].
  destruct A as (h' & E' & W' & _ & X & _). exists h'. auto.
Qed.

(** * Examples *)
Definition write_three (mk : text -> outcome text) (ops : list write) : outcome (heap * contents * list val * list text) :=
  wplay (fun _ => 0%Z) (fun _ _ => []) 0 three (fun _ _ => 0) 600 mk 600 (fun _ => 255%Z) ops (h_three, fun _ => JNull, [], []).
Example C82_example_apart : apart three.
Proof. repeat constructor; cbn; intuition discriminate. Qed.
Lemma edit_more strtod fmt_g deep o ops js js1 js' n m k ts : edit_of strtod deep o js js1 n -> writes_of strtod fmt_g deep ops js1 js' m ts -> n + m = k ->
  writes_of strtod fmt_g deep (WEdit o :: ops) js js' k ts.
Proof. intros E1 E2 <-. econstructor; eauto. Qed.
Lemma print_more strtod fmt_g deep i p f x y ops js js' m ts t : nth_error js i = Some x -> part p x y -> everywhere (ordinary fmt_g) y -> height y <= levels f ->
  t = text_of fmt_g (readable f) 0 y ++ [0%Z] -> writes_of strtod fmt_g deep ops js js' m ts -> writes_of strtod fmt_g deep (WPrint i p f :: ops) js js' m (t :: ts).
Proof. intros. subst. econstructor; eauto. Qed.
(** {"a":[1,"x"],"b":null} is printed; then the array in it, readable; then the
    array is taken out, and both are printed. *)
Definition show : list write :=
  [WEdit (EParse sample_text []); WPrint 0 [] COMPACT; WPrint 0 [AtName [97%Z]] PRETTY;
   WEdit (ERemove 0 [] [97%Z]); WPrint 0 [] COMPACT; WPrint 1 [AtIndex 1] COMPACT].
Definition shown : list text :=
  [sample_text ++ [0]; [91; 10; 9; 49; 44; 10; 9; 34; 120; 34; 10; 93; 10; 0]; [123; 34; 98; 34; 58; 110; 117; 108; 108; 125; 0]; [34; 120; 34; 0]]%Z.
Example C82_example_values : forall strtod fmt_g, writes_of strtod fmt_g 600 show [] [JObj [([98%Z], JNull)]; JArr [JI64 1; JStr [120%Z]]] 1 shown.
Proof.
  intros strtod fmt_g. unfold show, shown.
  eapply edit_more; [apply (eo_parse strtod 600 511 [] sample_text [] sample_value); [constructor|constructor|apply C79_example_distinct|lia]| |reflexivity].
  assert (B : Forall byte [97%Z] /\ Forall byte [98%Z] /\ Forall byte [120%Z]) by (repeat split; repeat constructor; lia). destruct B as (Ba & Bb & Bx).
  assert (D2 : NoDup [[97%Z]; [98%Z]]) by (repeat constructor; cbn; intuition discriminate). assert (D1 : NoDup [[98%Z]]) by (repeat constructor; intros []).
  assert (E1 : everywhere (ordinary fmt_g) (JArr [JI64 1; JStr [120%Z]])) by (cbn -[Z.pow]; repeat split; auto; lia).
  eapply print_more; [reflexivity|apply pa_here| |apply PeanoNat.Nat.leb_le; reflexivity|reflexivity|].
  { cbn in E1. cbn -[Z.pow]. repeat split; auto; try lia; try apply E1. constructor; [split; [auto|cbn; lia]|]. constructor; [split; [auto|cbn; lia]|constructor]. }
  eapply print_more; [reflexivity|apply (pa_name [] _ _ [([98%Z], JNull)]); apply pa_here|exact E1|apply PeanoNat.Nat.leb_le; reflexivity|reflexivity|].
  eapply edit_more; [eapply (eo_remove strtod 600 0 [] [97%Z]); [reflexivity|]; apply ch_here; apply (tf_in _ _ [] _ [([98%Z], JNull)]); reflexivity| |reflexivity].
  eapply print_more; [reflexivity|apply pa_here| |apply PeanoNat.Nat.leb_le; reflexivity|reflexivity|].
  { cbn -[Z.pow]. repeat split; auto. constructor; [split; [auto|cbn; lia]|constructor]. }
  eapply print_more; [reflexivity|apply (pa_index [JI64 1] _ []); apply pa_here| |apply PeanoNat.Nat.leb_le; reflexivity|reflexivity|].
  { cbn -[Z.pow]. repeat split; auto; lia. }
  apply wo_nil.
Qed.
(** Before the first, the second, and the third text, and at the end: the numbers of
    texts and of objects.  13 = 3 of the object, 4 for its members, 6 in the array; when
    the array is taken out, a pair is deleted and a string is left over. *)
Example C82_example_objects :
  map (fun n => match write_three JsonHeapModel.byval_str_mk (firstn n show) with Ok (h, _, vs, ts) => Some (length ts, length (live h) - 8) | Bad _ => None end)
    [1; 2; 3; 4; 6] = [Some (0, 13); Some (1, 13); Some (2, 13); Some (2, 12); Some (4, 12)].
Proof. vm_compute. reflexivity. Qed.
Example C82_example_texts :
  match write_three JsonHeapModel.byval_str_mk show with Ok (_, _, _, ts) => Some ts | Bad _ => None end = Some shown.
Proof. vm_compute. reflexivity. Qed.

(** * What is false *)
(** Null in 500 arrays: the text is cut off (C33), and at least 1000 objects are
    left behind, none of which was there before. *)
Lemma nest_text_value strtod : forall k n, k <= n -> dvalue loose_string (loose_number strtod) true n (PropJsonPrint.nest_text k) (PropJsonPrint.nest k).
Proof.
  induction k as [|k IH]; intros n L; cbn [PropJsonPrint.nest_text PropJsonPrint.nest]; [constructor|]. destruct n as [|n]; [lia|]. apply dv_arr.
  rewrite <- (app_nil_r (PropJsonPrint.nest_text k)). apply (de_one _ _ _ n [] _ []); [constructor|apply IH; lia|constructor].
Qed.
Definition deep_text : text := PropJsonPrint.nest_text 500.
Definition deep_value : json := PropJsonPrint.nest 500.
Lemma parse_allowed strtod t v : dvalue loose_string (loose_number strtod) true 511 t v -> edits_of strtod 600 [EParse t []] [] [v] 0.
Proof.
  intros H. assert (E := eo_parse strtod 600 511 [] t [] v [] [] (Forall_nil _) (Forall_nil _) H (le_n _)). rewrite app_nil_r in E. eapply PropJsonEdit.more; [exact E|apply es_nil|reflexivity].
Qed.
Example C82_deep_allowed : forall strtod fmt_g, edits_of strtod 600 [EParse deep_text []] [] [deep_value] 0 /\ everywhere (ordinary fmt_g) deep_value.
Proof.
  intros strtod fmt_g. split.
  - apply parse_allowed. apply nest_text_value. apply PeanoNat.Nat.leb_le. reflexivity.
  - unfold deep_value. generalize 500. induction n; cbn; auto.
Qed.
Lemma left_behind t v n : edits_of (fun _ => 0%Z) 600 [EParse t []] [] [v] 0 -> snprint (fun _ _ => []) 2000 COMPACT None v = Ok (n, None) ->
  exists h c p xs, eplay (fun _ => 0%Z) 0 three (fun _ _ => 0) 600 JsonHeapModel.byval_str_mk [EParse t []] (h_three, fun _ => JNull, []) = Ok (h, c, [p]) /\
    stored h c three p v xs /\
    exists h' ys, msnprint (fun _ _ => []) 0 three 600 2000 COMPACT h c None p = Ok (h', (n, None)) /\
      2 * length (rest (fun _ _ => []) COMPACT 2000 (Output 0 None) [mk_entry 0 false v]) <= length ys /\ NoDup ys /\ Forall (fun y => h_mem h y = None /\ h_mem h' y <> None) ys.
Proof.
  intros AL Q. assert (R := reach_wf _ _ _ three_reach). assert (D : 2 <= 600) by (apply PeanoNat.Nat.leb_le; reflexivity).
  destruct (eplay_ok (fun _ => 0%Z) 0 three (fun _ _ => 0) 600 JsonHeapModel.byval_str_mk (fun s => eq_refl) D h_three (fun _ => JNull) R three_static _ _ _ _
    AL _ _ _ _ _ (ehold_start 0 three h_three (fun _ => JNull) R)) as (h & c & vs & Ls & lost & E & [I HL _ EV EJ] & _). cbn [app] in *.
  destruct Ls as [|L [|]]; try discriminate. cbn [map] in EJ, EV. injection EJ as EJ. rewrite EV in E. apply Forall_inv in HL.
  exists h, c, (ptr three L), (blocks L). split; [exact E|]. split.
  - exists L. split; [auto|]. split; [auto|]. split; [auto|]. split; [auto|]. apply nodup_occ. intros x. assert (O := JsonMemRun.i_one _ _ _ _ _ _ I x). cbn [flat_map] in O. rewrite !occ_app in O. lia.
  - assert (SO := JsonMemRun.inv_static 0 three h_three (fun _ => JNull) R three_static _ _ _ I).
    assert (A := snprint_mem (fun _ _ => []) 0 three 600 h c (JsonMemRun.i_W _ _ _ _ _ _ I) SO C82_example_apart D 2000 COMPACT None 0%Z L HL). rewrite <- EJ, Q in A.
    destruct A as (h' & EM & _ & _ & _ & ys & LY & NY & FY). exists h', ys. split; [exact EM|]. split; [exact LY|]. split; [auto|].
    eapply Forall_impl; [|exact FY]. intros y (A1 & A2). rewrite !look_none in *. auto.
Qed.
Lemma deep_cut : snprint (fun _ _ => []) 2000 COMPACT None deep_value = Ok (499%Z, None).
Proof. vm_compute. reflexivity. Qed.
Lemma deep_rest : 1000 <= 2 * length (rest (fun _ _ => []) COMPACT 2000 (Output 0 None) [mk_entry 0 false deep_value]).
Proof. apply PeanoNat.Nat.leb_le. vm_compute. reflexivity. Qed.
Theorem C82_deep_refuted : exists st ss h0, reach 0 st h0 /\ static_ok h0 ss /\ apart ss /\
  exists h c p xs, eplay (fun _ => 0%Z) st ss (fun _ _ => 0) 600 JsonHeapModel.byval_str_mk [EParse deep_text []] (h0, fun _ => JNull, []) = Ok (h, c, [p]) /\
    stored h c ss p deep_value xs /\
    exists h' n ys, msnprint (fun _ _ => []) st ss 600 2000 COMPACT h c None p = Ok (h', (n, None)) /\
      1000 <= length ys /\ NoDup ys /\ Forall (fun y => h_mem h y = None /\ h_mem h' y <> None) ys.
Proof.
  exists 0, three, h_three. split; [exact three_reach|]. split; [exact three_static|]. split; [exact C82_example_apart|].
  destruct (left_behind deep_text deep_value 499%Z (proj1 (C82_deep_allowed _ (fun _ _ => []))) deep_cut) as (h & c & p & xs & E & ST & h' & ys & EM & LY & NY & FY).
  exists h, c, p, xs. split; [exact E|]. split; [exact ST|]. exists h', 499%Z, ys. split; [exact EM|]. split; [exact (PeanoNat.Nat.le_trans _ _ _ deep_rest LY)|]. auto.
Qed.

(** With the real cee_str_mk not even a string can be created (C12). *)
Theorem C82_str_refuted : exists st ss h0 ops, reach 0 st h0 /\ static_ok h0 ss /\ apart ss /\ (exists js ts, writes_of (fun _ => 0%Z) (fun _ _ => []) 600 ops [] js 0 ts) /\
  wplay (fun _ => 0%Z) (fun _ _ => []) st ss (fun _ _ => 0) 600 JsonHeapModel.c_str_mk 600 (fun _ => 0%Z) ops (h0, fun _ => JNull, [], []) = Bad BadVaList.
Proof.
  exists 0, three, h_three, [WEdit (ENew (JStr [120%Z])); WPrint 0 [] COMPACT]. split; [exact three_reach|]. split; [exact three_static|]. split; [exact C82_example_apart|]. split.
  - exists [JStr [120%Z]], [[34; 120; 34; 0]%Z]. eapply edit_more; [apply eo_new; exact I| |reflexivity].
    eapply print_more; [reflexivity|apply pa_here| |apply PeanoNat.Nat.leb_le; reflexivity|reflexivity|apply wo_nil]. cbn -[Z.pow]. split; [|exact I]. split; [|lia]. constructor; [split; lia|constructor].
  - vm_compute. reflexivity.
Qed.

Print Assumptions C82_history_partial.
Print Assumptions C82_snprint_partial.
Print Assumptions C82_deep_refuted.
Print Assumptions C82_str_refuted.
