(** Properties C39 and C52: selectors. *)
From Coq Require Import ZArith List Bool Lia.
From Verif Require Import Base IntSpec TsearchModel MapModel MapProofs ListModel ListProofs Json JsonHeapModel JsonHeapSpec JsonHeapProofs
  Numeral NumeralProofs JsonSelectModel JsonSelectSpec JsonSelectProofs PropJsonHeap.
Import ListNotations.
Open Scope Z_scope.

(** The full property: a path selects what it leads to, for the types as they are
    documented, and with names and indexes in the selector or as arguments. *)
Definition result_is (h : heap) (j : option json) (r : option nat) : Prop :=
  match j with Some v => exists b, r = Some b /\ holds h v b | None => r = None end.
Definition C39_statement : Prop :=
  forall h j a steps fuel, holds h j a -> Forall step_fits steps -> (length (show steps) + 2 <= fuel)%nat ->
  exists r, select fuel h (Some a) (show steps) (args_of steps) = Ok r /\ result_is h (follow is_kind j steps) r.

(** What is missing: names given as arguments (C39_name_argument_refuted), and the
    other representations of numbers and strings (C39_number_refuted). *)
Theorem C39_path_partial :
  forall h j a steps fuel, holds h j a -> Forall step_fits steps -> Forall no_star_name steps -> (length (show steps) + 2 <= fuel)%nat ->
  exists r, select fuel h (Some a) (show steps) (args_of steps) = Ok r /\ result_is h (follow is_kind_strict j steps) r.
Proof.
  intros h j a steps fuel H F N L. destruct fuel as [|fuel]; [lia|]. unfold select. rewrite loop_start by (destruct (show steps); discriminate).
  apply select_path; auto. rewrite app_length. cbn [length]. lia.
Qed.
(** So paths that ask for other types, or for none, mean what is documented. *)
Definition clear_type (s : step) : Prop := match s with SType k => k <> KNumber /\ k <> KString | _ => True end.
Theorem C39_documented_partial :
  forall h j a steps fuel, holds h j a -> Forall step_fits steps -> Forall no_star_name steps -> Forall clear_type steps ->
  (length (show steps) + 2 <= fuel)%nat ->
  exists r, select fuel h (Some a) (show steps) (args_of steps) = Ok r /\ result_is h (follow is_kind j steps) r.
Proof.
  intros h j a steps fuel H F N C L. destruct (C39_path_partial h j a steps fuel H F N L) as (r & E & Q). exists r. split; [exact E|].
  replace (follow is_kind j steps) with (follow is_kind_strict j steps); [exact Q|]. clear -C. revert j.
  induction C as [|s steps C F IH]; intros j; [reflexivity|]. cbn [follow]. destruct s as [ps|ds|i|k]; cbn [clear_type] in C.
  - destruct j; try reflexivity. destruct (lookup (name_of ps) kvs); auto.
  - destruct j; try reflexivity. destruct (nth_error l (Z.to_nat (digits_value ds))); auto.
  - destruct j; try reflexivity. destruct (i <? 0); [auto|]. destruct (nth_error l (Z.to_nat i)); auto.
  - destruct C as (C1 & C2). destruct k; try congruence; destruct j; cbn [is_kind is_kind_strict]; auto.
Qed.

(** {a: null, b: [true, "hi"]} with the selectors .b[1]:s and .b[*] and .a:n *)
Example C39_example :
  let p1 := [SKey [Lit kb]; SIdx [49]; SType KString] in
  let p2 := [SKey [Lit kb]; SIdxArg 0] in
  let p3 := [SKey [Lit ka]; SType KNumber] in
  show p1 = [46; 98; 91; 49; 93; 58; 115] /\
  select 20 small (Some 0%nat) (show p1) (args_of p1) = Ok (Some 3%nat) /\
  select 20 small (Some 0%nat) (show p2) (args_of p2) = Ok (Some 4%nat) /\
  select 20 small (Some 0%nat) (show p3) (args_of p3) = Ok None.
Proof. vm_compute. auto. Qed.

(** Malformed selectors: whatever the text, only the selector is read, and the
    result is NULL or a value inside [j], if there is no [*], the last character does
    not begin a step, and no ten digits follow each other. *)
Theorem C39_any_selector_partial :
  forall h j a fmt fuel, holds h j a ->
  (forall c, In c fmt -> c <> 0 /\ c <> 42) ->
  (forall s c, fmt = s ++ [c] -> c <> 46 /\ c <> 91 /\ c <> 58) ->
  (forall s d t, fmt = s ++ d ++ t -> Forall digit d -> (length d < 10)%nat) ->
  (length fmt < fuel)%nat ->
  exists r, select fuel h (Some a) fmt [] = Ok r /\ match r with None => True | Some b => exists v, part v j /\ holds h v b end.
Proof.
  intros h j a fmt fuel H N L S F. unfold select. apply (loop_any h j fmt) with (pre := []) (t := []) (q := fmt) (j := j); auto; try (apply part_here); try (cbn; lia).
  apply Forall_forall. exact N.
Qed.
(** On the same value: ".b[]" is .b[0], "..b" asks for the name ".b", "b" is no path, a "]" is skipped. *)
Example C39_any_selector_example :
  select 20 small (Some 0%nat) [46; 98; 91; 93] [] = Ok (Some 4%nat) /\
  select 20 small (Some 0%nat) [46; 46; 98] [] = Ok None /\
  select 20 small (Some 0%nat) [98] [] = Ok None /\
  select 20 small (Some 0%nat) [93; 46; 98] [] = Ok (Some 2%nat).
Proof. vm_compute. auto. Qed.

(** The other selectors.  One that ends with the character that begins a step
    reads behind its end, here ".", "[" and ":" with any value, *)
Theorem C39_end_refuted : forall h a c fuel, c = 46 \/ c = 91 \/ c = 58 -> (4 <= fuel)%nat ->
  select fuel h (Some a) [c] [] = Bad OutOfBounds.
Proof. intros h a c fuel C L. do 4 (destruct fuel as [|fuel]; [lia|]). destruct C as [->|[->| ->]]; reflexivity. Qed.
(** a name from an argument is compared as uninitialised bytes, *)
Theorem C39_name_argument_refuted : forall h kjs a k fuel, holds h (JObj kjs) a -> kjs <> [] -> k <> [] -> (length k <= 64)%nat -> (5 <= fuel)%nat ->
  select fuel h (Some a) [46; 42] [AStr k] = Bad Uninit.
Proof.
  intros h kjs a k fuel H N Nk L Fu. apply holds_obj in H as (m & kas & E & R & F).
  do 5 (destruct fuel as [|fuel]; [lia|]). unfold select. cbn [app]. rewrite loop_start by discriminate. unfold resume, begin_token. cbn [deref bind].
  change (46 =? 93) with false. cbn iota. cbn [deref bind tl]. change (46 =? 0) with false. change (46 =? 46) with true. cbn iota. cbn [bind].
  cbn [select_loop deref bind]. unfold tlen at 1. cbn [length]. change (Z.of_nat 0 =? 0) with true. cbn [negb andb]. change (42 =? 42) with true. cbn iota. cbn [negb].
  cbn [star arg_str bind]. assert (El : to_int32 (Z.of_nat (length k)) = Z.of_nat (length k)).
  { apply to_int32_id. lia. }
  rewrite El. unfold tlen at 1. cbn [length]. destruct (Z.gtb_spec (Z.of_nat 0 + Z.of_nat (length k)) JSEL_MAX_TOKEN) as [G|_]; [unfold JSEL_MAX_TOKEN in G; lia|].
  destruct (Z.ltb_spec (Z.of_nat (length k)) 0) as [|_]; [lia|]. destruct (Z.ltb_spec 64 (Z.of_nat (length k))) as [|_]; [lia|]. cbn [orb].
  rewrite room_ok by (unfold tlen; cbn [length]; lia). cbn [bind app tl].
  rewrite Nat2Z.id. destruct k as [|x k]; [congruence|]. cbn [length repeat]. 
  change (tlen (None :: repeat None (length k)) =? 0) with false. cbn [negb andb]. change (0 =? 0) with true. cbn [orb].
  unfold apply_token. rewrite room_ok by (unfold tlen; cbn [length] in *; rewrite repeat_length; lia). cbn [bind]. unfold load. rewrite E. cbn [of_option bind].
  destruct (m_root m) as [|(k0, v0) a0 a1 hh] eqn:Em.
  - exfalso. pose proof (mrep_find m kas) as Q.
    destruct kjs as [|(k1, j1) kjs]; [congruence|]. inversion F as [|x0 y0 l0 l1 (E1 & _) F' X1 X2]; subst. destruct y0 as (k2, a2). specialize (Q k2 R).
    unfold map_find in Q. rewrite Em in Q. cbn [tfind lookup] in Q. destruct (list_eq_dec Z.eq_dec k2 k2); [discriminate|congruence].
  - reflexivity.
Qed.
(** a double is no number for ":n", *)
Theorem C39_number_refuted : forall h a z fuel, holds h (JDouble z) a -> (5 <= fuel)%nat ->
  select fuel h (Some a) [58; 110] [] = Ok None /\ follow is_kind (JDouble z) [SType KNumber] = Some (JDouble z).
Proof.
  intros h a z fuel H L. split; [|reflexivity].
  destruct (C39_path_partial h (JDouble z) a [SType KNumber] fuel H) as (r & E & Q); [repeat constructor|repeat constructor|cbn; lia|].
  cbn in Q. subst r. exact E.
Qed.
(** and an index of more than an int is undefined in atoi. *)
Theorem C39_index_refuted : exists h j a fmt, holds h j a /\ forall fuel, (15 <= fuel)%nat -> select fuel h (Some a) fmt [] = Bad Overflow.
Proof.
  exists [NArr (list_mk 1)], (JArr []), 0%nat, [91; 50; 49; 52; 55; 52; 56; 51; 54; 52; 56; 93]. split.
  - apply holds_arr. exists (list_mk 1), []. split; [reflexivity|]. split; [apply rep_mk; lia|constructor].
  - intros fuel L. do 15 (destruct fuel as [|fuel]; [lia|]). reflexivity.
Qed.
Theorem C39_statement_refuted : ~ C39_statement.
Proof.
  intros S. destruct (S [NDouble 0] (JDouble 0) 0%nat [SType KNumber] 5%nat) as (r & E & Q); [apply (holds_leaf _ _ _ (NDouble 0)); reflexivity|repeat constructor|cbn; lia|].
  cbn in Q. destruct Q as (b & -> & _). vm_compute in E. discriminate.
Qed.

(** * C52: an int by its path *)
Definition C52_statement : Prop :=
  forall h j a steps fuel, holds h j a -> Forall step_fits steps -> Forall no_star_name steps -> Forall (fun s => step_args s = []) steps ->
  (length (show steps) + 2 <= fuel)%nat ->
  select_as_int fuel h (Some a) (show steps) =
    Ok (match follow is_kind_strict j steps with
        | Some (JI64 z) => if (- 2 ^ 31 <=? z) && (z <? 2 ^ 31) then Some z else None
        | _ => None
        end).
(** It holds for integers that are ints.  What is missing: others are cut to 32 bits. *)
Theorem C52_int_partial :
  forall h j a steps fuel, holds h j a -> Forall step_fits steps -> Forall no_star_name steps -> Forall (fun s => step_args s = []) steps ->
  (forall z, follow is_kind_strict j steps = Some (JI64 z) -> - 2 ^ 31 <= z < 2 ^ 31) ->
  (length (show steps) + 2 <= fuel)%nat ->
  select_as_int fuel h (Some a) (show steps) =
    Ok (match follow is_kind_strict j steps with Some (JI64 z) => Some z | _ => None end).
Proof.
  intros h j a steps fuel H F N A B L. destruct (C39_path_partial h j a steps fuel H F N L) as (r & E & Q). unfold select_as_int.
  assert (Ea : args_of steps = []) by (clear -A; induction A as [|s steps Es A IH]; [auto|]; unfold args_of in *; cbn [flat_map]; rewrite Es, IH; auto).
  rewrite Ea in E. rewrite E. cbn [bind]. destruct (follow is_kind_strict j steps) as [v|] eqn:Ev; cbn [result_is] in Q; [|subst; auto].
  destruct Q as (b & -> & Hb). destruct (load_arr h v b Hb) as (n & En & D). rewrite En. cbn [bind]. f_equal.
  destruct v; cbn [leaf_node] in D; try (injection D as <-; auto); try (destruct D as (x & ->); auto).
  f_equal. apply to_int32_id, B. reflexivity.
Qed.
(** For all integers: what comes is the int that is the same modulo 2^32. *)
Theorem C52_exact :
  forall h j a steps fuel, holds h j a -> Forall step_fits steps -> Forall no_star_name steps -> Forall (fun s => step_args s = []) steps ->
  (length (show steps) + 2 <= fuel)%nat ->
  exists r, select_as_int fuel h (Some a) (show steps) = Ok r /\
    match follow is_kind_strict j steps with Some (JI64 z) => exists i, r = Some i /\ low_int z i | _ => r = None end.
Proof.
  intros h j a steps fuel H F N A L. destruct (C39_path_partial h j a steps fuel H F N L) as (r & E & Q). unfold select_as_int.
  assert (Ea : args_of steps = []) by (clear -A; induction A as [|s steps Es A IH]; [auto|]; unfold args_of in *; cbn [flat_map]; rewrite Es, IH; auto).
  rewrite Ea in E. rewrite E. cbn [bind]. destruct (follow is_kind_strict j steps) as [v|] eqn:Ev; cbn [result_is] in Q; [|subst; eauto].
  destruct Q as (b & -> & Hb). destruct (load_arr h v b Hb) as (n & En & D). rewrite En. cbn [bind]. eexists. split; [reflexivity|].
  destruct v; cbn [leaf_node] in D; try (injection D as <-; auto); try (destruct D as (x & ->); auto).
  eexists. split; [reflexivity|apply low_int_ok].
Qed.
Example C52_exact_example : select_as_int 10 [NI64 4294967301] (Some 0%nat) [] = Ok (Some 5) /\ select_as_int 10 [NI64 2147483648] (Some 0%nat) [] = Ok (Some (- 2147483648)).
Proof. vm_compute. auto. Qed.
Example C52_example : select_as_int 10 [NI64 (-7)] (Some 0%nat) [] = Ok (Some (-7)) /\ select_as_int 10 [NStr ka] (Some 0%nat) [] = Ok None.
Proof. vm_compute. auto. Qed.
(** 2^32 + 5 is stored as 5, and that is reported as success. *)
Theorem C52_statement_refuted : ~ C52_statement.
Proof.
  intros S. specialize (S [NI64 4294967301] (JI64 4294967301) 0%nat [] 5%nat). assert (X : holds [NI64 4294967301] (JI64 4294967301) 0) by (apply (holds_leaf _ _ _ (NI64 4294967301)); reflexivity).
  specialize (S X (Forall_nil _) (Forall_nil _) (Forall_nil _)). assert (Y : (length (show []) + 2 <= 5)%nat) by (cbn; lia). specialize (S Y).
  vm_compute in S. discriminate.
Qed.

Print Assumptions C39_path_partial.
Print Assumptions C39_documented_partial.
Print Assumptions C39_any_selector_partial.
Print Assumptions C39_name_argument_refuted.
Print Assumptions C52_int_partial.
Print Assumptions C52_exact.
