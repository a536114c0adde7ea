(** C79, C80: the memory of the JSON parser, and deleting a JSON value.

    [h0] is a heap reached from a new state [st] by any operations (HeapHistory),
    [c0] tells what its strings and numbers contain, [ss] are the three static
    blocks of true, false and null.  [place] tells where the tree of a map puts
    new entries (anywhere), [deep] how many nested calls a deletion may make.
    [stored], [look] and the layout of a value are defined in JsonMemSpec. *)
From Coq Require Import ZArith List Bool Lia.
From Verif Require Import Base Utf8Proofs Json JsonSpec JsonNamesSpec JsonTokModel JsonParseModel HeapModel HeapChainProofs HeapHistory
  JsonMemModel JsonMemSpec JsonMemView JsonMemDel JsonMemOps JsonMemHistory.
From Verif Require JsonParseProofs JsonLangProofs.
Import ListNotations.
Open Scope nat_scope.
Open Scope outcome_scope.

(** * C79 *)
(** Full statement: whatever the text [t], the parser changes nothing that was
    there before, and the only objects it leaves behind are those of the value it
    returns (none if it fails).  That is false (below).  Proved: it is so for
    texts (of the relaxed language, JsonSpec) in which no object repeats a name. *)
Theorem C79_only_the_value_partial : forall strtod st ss place deep n h0 c0 fuel a w b v junk,
  reach n st h0 -> static_ok h0 ss -> 2 <= deep ->
  spaces a -> spaces b -> dvalue loose_string (loose_number strtod) true 511 w v ->
  length (a ++ w ++ b) < fuel ->
  exists h c p xs,
    mparsex strtod st ss place deep fuel h0 c0 ((a ++ w ++ b) ++ 0%Z :: junk) (Z.of_nat (length (a ++ w ++ b))) true
      = Ok (h, c, inl p) /\
    stored h c ss p v xs /\
    (forall x, x < h_next h0 -> look h x = look h0 x /\ c x = c0 x) /\
    (forall x, h_next h0 <= x -> (h_mem h x <> None <-> In x xs)).
Proof.
  intros strtod st ss place deep n h0 c0 fuel a w b v junk R S D Sa Sb V F. apply reach_wf in R.
  destruct (parse_distinct strtod st ss place deep h0 c0 R S D fuel a w b v junk Sa Sb V F) as (h & c & L & E & U & _ & _ & J & H & ND & N & _).
  exists h, c, (ptr ss L), (blocks L). split; [exact E|]. split; [|split; [exact U|exact N]]. exists L. auto.
Qed.

(** Any text at all: the parser on the heap gives the value, or the line of the
    error, that the parser of JsonParseModel gives; nothing that was there before
    changes; and what a successful parse leaves behind besides the value are
    whole values that nobody has a pointer to. *)
Theorem C79_any_text : forall strtod st ss place deep n h0 c0 t junk fuel force,
  reach n st h0 -> static_ok h0 ss -> 2 <= deep ->
  Forall byte t -> Forall byte junk -> length t < fuel ->
  exists h c r r',
    mparsex strtod st ss place deep fuel h0 c0 (t ++ 0%Z :: junk) (Z.of_nat (length t)) force = Ok (h, c, r) /\
    parsex strtod fuel (t ++ 0%Z :: junk) (Z.of_nat (length t)) force = Ok r' /\
    (forall x, x < h_next h0 -> look h x = look h0 x /\ c x = c0 x) /\
    match r, r' with
    | inl p, POk v => exists xs lost,
        stored h c ss p v xs /\
        Forall (fun ys => exists p v, stored h c ss p v ys) lost /\
        NoDup (xs ++ concat lost) /\
        (forall x, h_next h0 <= x -> (h_mem h x <> None <-> In x (xs ++ concat lost)))
    | inr line, PErr line' => line = line'
    | _, _ => False
    end.
Proof.
  intros strtod st ss place deep n h0 c0 t junk fuel force R S D Bt Bj F. apply reach_wf in R.
  destruct (JsonParseProofs.parsex_total strtod junk Bj t fuel force Bt F) as (r' & E & _).
  destruct (parse_any strtod st ss place deep h0 c0 R S D fuel _ _ _ _ E) as (h & c & r & EM & U & _ & _ & X).
  exists h, c, r, r'. split; [exact EM|]. split; [exact E|]. split; [exact U|].
  destruct r as [p|line], r' as [v|line']; auto. destruct X as (L & ds & -> & J & H & HD & ND & N). exists (blocks L), (map blocks ds).
  assert (EC : forall l, concat (map blocks l) = flat_map blocks l) by (intros l; rewrite flat_map_concat_map; auto). rewrite EC.
  assert (SP : NoDup (blocks L) /\ forall d, In d ds -> NoDup (blocks d)).
  { assert (O := proj1 (nodup_occ _) ND). split; [apply nodup_occ; intros y; specialize (O y); rewrite occ_app in O; lia|].
    intros d I. apply nodup_occ. intros y. specialize (O y). rewrite occ_app in O. apply in_split in I as (l1 & l2 & ->). rewrite flat_map_app in O. cbn [flat_map] in O. rewrite !occ_app in O. lia. }
  split; [|split; [|split; [exact ND|exact N]]].
  - exists L. split; [auto|]. split; [auto|]. split; [auto|]. split; [auto|]. exact (proj1 SP).
  - apply Forall_map. rewrite Forall_forall in *. intros d I. exists (ptr ss d), (json_of d), d. split; [auto|]. split; [auto|]. split; [auto|]. split; [auto|]. apply SP. auto.
Qed.

(** How many objects a value consists of *)
Fixpoint size (j : json) : nat :=
  match j with
  | JArr l => 2 + list_sum (map size l)
  | JObj kvs => 3 + list_sum (map (fun kv => 2 + size (snd kv)) kvs)
  | JStr _ | JI64 _ | JU64 _ | JDouble _ | JBlob _ => 2
  | _ => 0
  end.
Lemma blocks_size h c ss : forall L n, laid h c ss n L -> length (blocks L) = size (json_of L).
Proof.
  induction L as [x|a b x|a l es IH|a m ks es IH] using layout_ind'; intros n H.
  - cbn [laid] in H. destruct H as [->|[->| ->]]; reflexivity.
  - destruct H as (_ & _ & _ & B). destruct x; try contradiction; reflexivity.
  - apply laid_arr in H as (_ & _ & H). cbn [blocks json_of size length]. rewrite map_map. change (2 + list_sum (map (fun x => size (json_of x)) es)) with (S (S (list_sum (map (fun x => size (json_of x)) es)))). do 2 f_equal.
    induction es as [|e es IHe]; [auto|]. apply Forall_cons_iff in IH as (I1 & I2). apply Forall_cons_iff in H as (K1 & K2). cbn [flat_map map]. rewrite app_length, (I1 _ K1), (IHe I2 K2). reflexivity.
  - apply laid_obj in H as (_ & _ & _ & _ & H). cbn [blocks json_of size length]. rewrite map_map. cbn [snd]. match goal with |- _ = 3 + ?x => change (3 + x) with (S (S (S x))) end. do 3 f_equal.
    induction es as [|e es IHe]; [auto|]. apply Forall_cons_iff in IH as (I1 & I2). apply Forall_cons_iff in H as ((_ & _ & _ & K1) & K2). unfold e_val in I1, K1. cbn [flat_map map app length]. rewrite app_length, (I1 _ K1), (IHe I2 K2). reflexivity.
Qed.

(** The smallest heap with the three static blocks *)
Definition h_first : heap := match state_mk empty_heap 0 with Ok (h, _) => h | Bad _ => empty_heap end.
Definition h_three : heap := fst (mk_static (fst (mk_static (fst (mk_static h_first))))).
Definition three : statics := Statics 5 6 7.
Lemma first_mk : state_mk empty_heap 0 = Ok (h_first, 0).
Proof.
  assert (Q : match state_mk empty_heap 0 with Ok (_, a) => (a =? 0) | Bad _ => false end = true) by (vm_compute; reflexivity).
  unfold h_first. destruct (state_mk empty_heap 0) as [(h, a)|]; [|discriminate]. apply Nat.eqb_eq in Q. rewrite Q. reflexivity.
Qed.
Lemma three_reach : reach 0 0 h_three.
Proof.
  unfold h_three. apply reach_step with (h := fst (mk_static (fst (mk_static h_first)))) (o := HStatic); [|reflexivity|vm_compute; discriminate].
  apply reach_step with (h := fst (mk_static h_first)) (o := HStatic); [|reflexivity|vm_compute; discriminate].
  apply reach_step with (h := h_first) (o := HStatic); [|reflexivity|vm_compute; discriminate]. apply reach_mk. exact first_mk.
Qed.
Lemma three_static : static_ok h_three three.
Proof. intros a [<-|[<-|[<-|[]]]]; exists 0%Z; eexists; vm_compute; repeat split; reflexivity. Qed.
Definition live (h : heap) : list addr := filter (fun x => match h_mem h x with Some _ => true | None => false end) (seq 0 (h_next h)).
Definition parse_three (t : text) : outcome (heap * contents * (val + Z)) :=
  mparsex (fun _ => 0%Z) 0 three (fun _ _ => 0) 100 100 h_three (fun _ => JNull) (t ++ [0%Z]) (Z.of_nat (length t)) true.

(** Objects 8 to 23 are created for  {"a":[1,"x"],"b":null}  and 13 are left, which
    is the size of the value.  Object 12 is the value; null, static, is pointed
    to once. *)
Definition sample_text : text := [123; 34; 97; 34; 58; 91; 49; 44; 34; 120; 34; 93; 44; 34; 98; 34; 58; 110; 117; 108; 108; 125]%Z.
Definition sample_value : json := JObj [([97%Z], JArr [JI64 1; JStr [120%Z]]); ([98%Z], JNull)].
Example C79_example :
  (match parse_three sample_text with
   | Ok (h, c, r) => Some (r, h_next h, live h, map c [13; 18; 20; 22])
   | Bad _ => None
   end) =
  Some (inl (VPtr 12), 24, [0; 1; 2; 3; 4; 5; 6; 7; 10; 11; 12; 13; 14; 15; 16; 18; 19; 20; 21; 22; 23],
        [JStr [97%Z]; JI64 1; JStr [120%Z]; JStr [98%Z]]) /\
  size sample_value = 13.
Proof. vm_compute. auto. Qed.
(** The example is in the language of the theorem. *)
Example C79_example_distinct : forall strtod, dvalue loose_string (loose_number strtod) true 511 sample_text sample_value.
Proof.
  intros strtod. apply (dv_obj _ _ _ 510 [34; 97; 34; 58; 91; 49; 44; 34; 120; 34; 93; 44; 34; 98; 34; 58; 110; 117; 108; 108]%Z).
  apply (dm_more _ _ _ _ [34; 97; 34; 58; 91; 49; 44; 34; 120; 34; 93]%Z [([97%Z], JArr [JI64 1; JStr [120%Z]])] [34; 98; 34; 58; 110; 117; 108; 108]%Z).
  - apply dm_one. apply (dm _ _ _ _ [] [97%Z] [97%Z] [] [] [91; 49; 44; 34; 120; 34; 93]%Z []); try exact (Forall_nil _).
    + exists [97%Z]. split; [apply lc_plain; [lia..|constructor]|]. split; [intros [|[]]; discriminate|auto].
    + apply (dv_arr _ _ _ 509 [49; 44; 34; 120; 34]%Z). apply (de_more _ _ _ _ [49%Z] [JI64 1] [] [34; 120; 34]%Z []); try exact (Forall_nil _).
      * apply (de_one _ _ _ _ [] [49%Z] []); try exact (Forall_nil _). apply dv_num. apply (ln_int strtod [] [49%Z]); [left; auto|]. split; [split; [discriminate|]|discriminate]. repeat constructor; lia.
      * apply (dv_str _ _ _ _ [120%Z]). exists [120%Z]. split; [apply lc_plain; [lia..|constructor]|]. split; [intros [|[]]; discriminate|auto].
  - apply (dm _ _ _ _ [] [98%Z] [98%Z] [] [] [110; 117; 108; 108]%Z []); try exact (Forall_nil _); [|constructor].
    exists [98%Z]. split; [apply lc_plain; [lia..|constructor]|]. split; [intros [|[]]; discriminate|auto].
  - intros [|[]]; discriminate.
Qed.

(** The number 1 in  {"a":1,"a":2}  is dropped but not deleted. *)
Theorem C79_repeated_name_refuted : exists st ss h0 t, reach 0 st h0 /\ static_ok h0 ss /\
  exists h c p v, mparsex (fun _ => 0%Z) st ss (fun _ _ => 0) 100 100 h0 (fun _ => JNull) (t ++ [0%Z]) (Z.of_nat (length t)) true = Ok (h, c, inl p) /\
    parsex (fun _ => 0%Z) 100 (t ++ [0%Z]) (Z.of_nat (length t)) true = Ok (POk v) /\
    forall xs, stored h c ss p v xs -> exists x, h_next h0 <= x /\ h_mem h x <> None /\ ~ In x xs.
Proof.
  exists 0, three, h_three, [123; 34; 97; 34; 58; 49; 44; 34; 97; 34; 58; 50; 125]%Z. split; [exact three_reach|]. split; [exact three_static|].
  set (r := mparsex _ _ _ _ _ _ _ _ _ _ _).
  assert (Q : match r with Ok (h, c, inl p) => forallb (fun x => match h_mem h x with Some _ => true | None => false end) [10; 11; 12; 13; 14; 15; 16; 18; 19] | _ => false end = true) by (vm_compute; reflexivity).
  destruct r as [((h, c), [p|])|]; try discriminate. exists h, c, p, (JObj [([97%Z], JI64 2)]). split; [auto|]. split; [vm_compute; reflexivity|].
  intros xs (L & H & _ & J & B & _). apply blocks_size in H. rewrite B, J in H. change (length xs = 7) in H.
  destruct (existsb (fun x => negb (existsb (Nat.eqb x) xs)) [10; 11; 12; 13; 14; 15; 16; 18; 19]) eqn:E.
  - apply existsb_exists in E as (x & I & E). exists x. rewrite forallb_forall in Q. specialize (Q x I). split; [change (h_next h_three) with 8; cbn in I; lia|]. split; [destruct (h_mem h x); congruence|].
    intros IX. apply negb_true_iff in E. assert (existsb (Nat.eqb x) xs = true); [|congruence]. apply existsb_exists. exists x. split; [auto|apply Nat.eqb_refl].
  - exfalso. assert (IN : incl [10; 11; 12; 13; 14; 15; 16; 18; 19] xs).
    { intros x I. destruct (existsb (Nat.eqb x) xs) eqn:X; [apply existsb_exists in X as (y & IY & EY); apply Nat.eqb_eq in EY; congruence|].
      exfalso. assert (existsb (fun x => negb (existsb (Nat.eqb x) xs)) [10; 11; 12; 13; 14; 15; 16; 18; 19] = true); [|congruence]. apply existsb_exists. exists x. rewrite X. auto. }
    apply NoDup_incl_length in IN; [change (9 <= length xs) in IN; rewrite H in IN; lia|]. repeat (constructor; [cbn; lia|]). constructor.
Qed.
(** An unfinished array is not deleted, nor is the tuple on the stack. *)
Theorem C79_failure_refuted : exists st ss h0 t, reach 0 st h0 /\ static_ok h0 ss /\
  exists h c line, mparsex (fun _ => 0%Z) st ss (fun _ _ => 0) 100 100 h0 (fun _ => JNull) (t ++ [0%Z]) (Z.of_nat (length t)) true = Ok (h, c, inr line) /\
    exists x, h_next h0 <= x /\ h_mem h x <> None.
Proof.
  exists 0, three, h_three, [91; 49]%Z. split; [exact three_reach|]. split; [exact three_static|].
  set (r := mparsex _ _ _ _ _ _ _ _ _ _ _).
  assert (Q : match r with Ok (h, c, inr _) => match h_mem h 11 with Some _ => true | None => false end | _ => false end = true) by (vm_compute; reflexivity).
  destruct r as [((h, c), [|line])|]; try discriminate. exists h, c, line. split; [auto|]. exists 11. split; [change (h_next h_three) with 8; lia|]. destruct (h_mem h 11); congruence.
Qed.

(** * C80 *)
(** cee_del on a value that nobody else uses frees each of its objects and
    nothing else, whatever else is in the heap. *)
Theorem C80_delete : forall st ss c h v x xs deep,
  (exists l, wf_chain false h st l) -> static_ok h ss -> stored h c ss v x xs ->
  5 * JsonLangProofs.depth x + 2 <= deep ->
  exists h', cee_del deep h v = Ok h' /\
    (forall y, In y xs -> h_mem h' y = None) /\ (forall y, ~ In y xs -> look h' y = look h y) /\
    (exists l, wf_chain false h' st l).
Proof.
  intros st ss c h v x xs deep Wh S (L & H & <- & <- & <- & ND) D.
  destruct (del_stored st c ss h deep L 0 Wh S H ND) as (h' & E & Wh' & _ & G & K); [pose proof (levels_depth L); lia|].
  exists h'. split; [auto|]. split; [|split; [auto|exact Wh']]. intros y Y. apply look_none. auto.
Qed.

(** A program that parses texts without repeated names and deletes values, in
    any order: at the end the values are stored in separate objects, these are
    the only ones that have been added, and nothing else has changed. *)
Theorem C80_history : forall strtod st ss place deep n h0 c0 ops js,
  reach n st h0 -> static_ok h0 ss -> 2 <= deep -> should_hold strtod deep ops [] js ->
  exists h c vs xss,
    jplay strtod st ss place deep ops (h0, c0, []) = Ok (h, c, vs) /\
    length vs = length js /\ length xss = length js /\
    (forall i v p xs, nth_error js i = Some v -> nth_error vs i = Some p -> nth_error xss i = Some xs -> stored h c ss p v xs) /\
    NoDup (concat xss) /\
    (forall x, x < h_next h0 -> look h x = look h0 x /\ c x = c0 x) /\
    (forall x, h_next h0 <= x -> (h_mem h x <> None <-> In x (concat xss))).
Proof.
  intros strtod st ss place deep n h0 c0 ops js R S D SH. apply reach_wf in R.
  destruct (jplay_ok strtod st ss place deep h0 c0 ops [] js SH D h0 c0 [] []) as (h & c & vs & Ls & E & [Wh SO NX OL NW AB ND LD EV EJ DL]).
  { constructor; auto.
    - intros x X. auto.
    - intros x X. cbn [flat_map]. split; [|intros []]. intros M. exfalso. assert (x < h_next h0); [|lia]. apply (W_below st); [exact R|]. rewrite look_none. auto.
    - intros x [].
    - constructor. }
  exists h, c, vs, (map blocks Ls). assert (EC : concat (map blocks Ls) = flat_map blocks Ls) by (rewrite flat_map_concat_map; auto). rewrite EC.
  split; [exact E|]. split; [rewrite EV, EJ, !map_length; auto|]. split; [rewrite EJ, !map_length; auto|]. split; [|auto].
  intros i v p xs I1 I2 I3. rewrite EJ, nth_error_map in I1. rewrite EV, nth_error_map in I2. rewrite nth_error_map in I3. destruct (nth_error Ls i) as [L|] eqn:EL; [|discriminate].
  injection I1 as <-. injection I2 as <-. injection I3 as <-. exists L. rewrite Forall_forall in LD. apply nth_error_In in EL. split; [auto|]. split; [auto|]. split; [auto|]. split; [auto|].
  apply in_split in EL as (l1 & l2 & ->). rewrite flat_map_app in ND. cbn [flat_map] in ND. assert (O := proj1 (nodup_occ _) ND). apply nodup_occ. intros y. specialize (O y). rewrite !occ_app in O. lia.
Qed.
(** So if everything has been deleted, the heap is as before. *)
Theorem C80_all_deleted : forall strtod st ss place deep n h0 c0 ops,
  reach n st h0 -> static_ok h0 ss -> 2 <= deep -> should_hold strtod deep ops [] [] ->
  exists h c, jplay strtod st ss place deep ops (h0, c0, []) = Ok (h, c, []) /\ forall x, look h x = look h0 x.
Proof.
  intros strtod st ss place deep n h0 c0 ops R S D SH.
  destruct (C80_history strtod st ss place deep n h0 c0 ops [] R S D SH) as (h & c & vs & xss & E & L1 & L2 & _ & _ & U & N).
  destruct vs; [|discriminate]. destruct xss; [|discriminate]. exists h, c. split; [exact E|]. intros x.
  destruct (Nat.lt_ge_cases x (h_next h0)) as [X|X]; [apply U; auto|].
  assert (A : look h x = None). { apply look_none. destruct (h_mem h x) eqn:M; auto. exfalso. apply (proj1 (N x X)). congruence. }
  assert (B : look h0 x = None). { destruct (look h0 x) eqn:M; auto. exfalso. assert (x < h_next h0); [|lia]. apply (W_below st); [eapply reach_wf; exact R|]. congruence. }
  congruence.
Qed.

(** Parse  {"a":[1,"x"],"b":null} , then "y", delete the first, parse "z", delete
    both: 13, 15, 2, 4 and 0 objects more than before *)
Example C80_example :
  map (fun ops => match jplay (fun _ => 0%Z) 0 three (fun _ _ => 0) 600 ops (h_three, fun _ => JNull, []) with
                  | Ok (h, _, vs) => Some (length vs, length (live h) - 8) | Bad _ => None end)
    [[JParse sample_text []]; [JParse sample_text []; JParse [34; 121; 34]%Z []];
     [JParse sample_text []; JParse [34; 121; 34]%Z []; JDelete 0];
     [JParse sample_text []; JParse [34; 121; 34]%Z []; JDelete 0; JParse [34; 122; 34]%Z []];
     [JParse sample_text []; JParse [34; 121; 34]%Z []; JDelete 0; JParse [34; 122; 34]%Z []; JDelete 1; JDelete 0]] =
  [Some (1, 13); Some (2, 15); Some (1, 2); Some (2, 4); Some (0, 0)].
Proof. vm_compute. reflexivity. Qed.
Example C80_example_hypothesis : forall strtod, should_hold strtod 2557 [JParse sample_text []; JDelete 0] [] [].
Proof.
  intros strtod. apply (sh_parse strtod 2557 511 [] sample_text [] sample_value []); [constructor|constructor|apply C79_example_distinct|lia|lia|].
  apply (sh_delete strtod 2557 0); [cbn; lia|]. constructor.
Qed.

Print Assumptions C79_only_the_value_partial.
Print Assumptions C79_any_text.
Print Assumptions C79_repeated_name_refuted.
Print Assumptions C79_failure_refuted.
Print Assumptions C80_delete.
Print Assumptions C80_history.
Print Assumptions C80_all_deleted.
