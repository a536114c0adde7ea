(** C28, C33, C34: the JSON printer.

    [fmt_g] is what "%lg" prints and [strtod] is the library function, both any
    functions unless more is said; [init] is what the allocated memory contains. *)
From Coq Require Import ZArith List Bool Lia.
From Verif Require Import Base Numeral NumeralProofs BoxedModel Utf8Proofs Json JsonTokModel JsonParseModel JsonSpec
  JsonStrProofs JsonLangProofs JsonPrintModel JsonPrintSpec JsonPrintProofs JsonPrintLang PropJsonParse.
Import ListNotations.
Open Scope Z_scope.
Local Arguments Z.add : simpl never.

(** The depth that the format supports: the number of steps down to the deepest
    value *)
Definition max_height (f : fmt) : nat := match f with COMPACT => 498 | PRETTY => 127 end.
Lemma fits_height f j : (height j <= max_height f)%nat -> fits f j.
Proof. unfold max_height, fits. destruct f; intros L; (split; [lia|intros; try discriminate; lia]). Qed.
Lemma depth_height : forall j, (depth j <= S (height j))%nat.
Proof.
  induction j as [| |b|d|z|z|s|s|z|l IH|kvs IH] using json_ind'; cbn [depth height]; try lia.
  - apply le_n_S. rewrite list_max_le, Forall_map. pose proof (height_arr l _ (Nat.le_refl _)) as H. cbn [height] in H.
    rewrite Forall_forall in *. intros x I. specialize (IH x I). specialize (H x I). cbn beta in H. lia.
  - apply le_n_S. rewrite list_max_le, Forall_map. pose proof (height_obj kvs _ (Nat.le_refl _)) as H. cbn [height] in H.
    rewrite Forall_forall in *. intros x I. specialize (IH x I). specialize (H x I). cbn beta in *. lia.
Qed.

(** * C28 *)
(** null, booleans, 64-bit integers, valid UTF-8 strings without NUL (of less
    than 4 GiB), arrays, objects with distinct keys of that kind *)
Definition good_string (s : text) : Prop := valid_utf8 s /\ ~ In 0 s /\ Z.of_nat (length s) < 2 ^ 32.
Definition plain (j : json) : Prop :=
  match j with
  | JNull | JBool _ | JArr _ => True
  | JI64 z => int64 z
  | JStr s => good_string s
  | JObj kvs => NoDup (map fst kvs) /\ Forall (fun kv => good_string (fst kv)) kvs
  | _ => False
  end.
Lemma good_bytes s : good_string s -> Forall byte s.
Proof.
  intros ((us & F & ->) & _). induction F as [|u us S F IH]; [constructor|]. cbn [flat_map]. apply Forall_app. split; [apply utf8_bytes; auto|auto].
Qed.
Lemma plain_ordinary fmt_g j : plain j -> ordinary fmt_g j.
Proof.
  destruct j; cbn [plain ordinary]; auto; try contradiction.
  - intros G. split; [apply good_bytes; auto|apply G].
  - intros (N & F). split; [auto|]. eapply Forall_impl; [|exact F]. intros kv G. split; [apply good_bytes; auto|apply G].
Qed.
Lemma plain_denotable fmt_g strtod dv j : plain j -> denotable fmt_g rfc_string (rfc_number strtod) dv j.
Proof.
  assert (S : forall s, good_string s -> rfc_string (flat_map escaped s) s /\ ~ In 0 s)
    by (intros s (V & N & _); split; [split; [apply chars_escaped; auto|auto]|auto]).
  destruct j; cbn [plain denotable]; auto; try contradiction.
  - apply decimal_number.
  - intros (N & F). split; [auto|]. eapply Forall_impl; [|exact F]. auto.
Qed.
Lemma plain_same dv j : everywhere plain j -> with_doubles dv j = j.
Proof.
  induction j as [| |b|d|z|z|s|s|z|l IH|kvs IH] using json_ind'; intros E; pose proof (everywhere_here _ _ E) as H0; cbn in H0; cbn [with_doubles]; auto; try contradiction.
  - f_equal. apply everywhere_arr in E. induction E as [|x l Hx Hl IHl]; [auto|]. cbn [map]. rewrite (Forall_inv IH) by auto.
    f_equal. apply IHl; exact (Forall_inv_tail IH).
  - f_equal. apply everywhere_obj in E. clear H0. induction E as [|(k, x) l Hx Hl IHl]; [auto|]. cbn [map fst snd].
    pose proof (Forall_inv IH) as Q. cbn [snd] in Q, Hx. rewrite Q by auto. f_equal. apply IHl. exact (Forall_inv_tail IH).
Qed.

(** Printing ends, with [t] and a NUL in the buffer and the length of [t]
    returned, and parsing [t] gives the value back. *)
Theorem C28_round_trip : forall fmt_g strtod init f j,
  everywhere plain j -> (height j <= max_height f)%nat ->
  exists steps t, (forall fuel, (steps <= fuel)%nat -> asprint fmt_g fuel f init j = Ok (Z.of_nat (length t), t ++ [0])) /\
    forall junk fuel, Forall byte junk -> (length t < fuel)%nat ->
      parsex strtod fuel (t ++ 0 :: junk) (Z.of_nat (length t)) true = Ok (POk j).
Proof.
  intros fmt_g strtod init f j E H. exists (cost j), (text_of fmt_g (is_pretty f) 0 j). split.
  - intros fuel L. apply asprint_ok; [|apply fits_height; auto|auto]. eapply everywhere_impl; [|exact E]. apply plain_ordinary.
  - intros junk fuel Bj L. set (dv := fun _ : Z => JNull).
    destruct (denotes_ok fmt_g (is_pretty f) rfc_string (rfc_number strtod) dv j 0%nat 511%nat) as (a & w & b & Et & Sa & Sb & J).
    + eapply everywhere_impl; [|exact E]. apply plain_denotable.
    + pose proof (depth_height j). destruct f; unfold max_height in H; lia.
    + rewrite plain_same in J by auto. apply (C30_accepts_all_partial strtod _ junk fuel 511 j); [|lia|auto|auto].
      exists a, w, b. auto.
Qed.

(** Keys with a quote and without characters, a string with an escape, a control
    character and a letter of two bytes, the least integer, empty containers *)
Definition sample_value : json :=
  JObj [([97; 34], JArr [JI64 1; JI64 (-9223372036854775808); JStr [195; 169; 10; 1]]);
        ([], JObj []);
        ([98], JArr [JArr []; JBool true; JNull])].
Definition printed_text (r : outcome (Z * text)) : text :=
  match r with Ok (n, t) => firstn (Z.to_nat n) t | _ => [] end.
Example C28_example : everywhere plain sample_value /\ (height sample_value <= max_height PRETTY)%nat /\
  printed_text (asprint (fun _ _ => []) 100 COMPACT (fun _ => 7) sample_value) =
    [123; 34; 97; 92; 34; 34; 58; 91; 49; 44; 45; 57; 50; 50; 51; 51; 55; 50; 48; 51; 54; 56; 53; 52; 55; 55; 53; 56; 48; 56; 44;
     34; 195; 169; 92; 110; 92; 117; 48; 48; 48; 49; 34; 93; 44; 34; 34; 58; 123; 125; 44; 34; 98; 34; 58; 91; 91; 93; 44; 116; 114; 117; 101; 44; 110; 117; 108; 108; 93; 125] /\
  (let t := printed_text (asprint (fun _ _ => []) 100 COMPACT (fun _ => 7) sample_value) in
   parsex (fun _ => 0) 500 (t ++ [0; 9]) (Z.of_nat (length t)) true = Ok (POk sample_value)) /\
  (let t := printed_text (asprint (fun _ _ => []) 100 PRETTY (fun _ => 7) sample_value) in
   length t = 112%nat /\ parsex (fun _ => 0) 500 (t ++ [0; 9]) (Z.of_nat (length t)) true = Ok (POk sample_value)).
Proof.
  split; [|vm_compute; split; [repeat constructor|auto 10]].
  assert (G : forall us, Forall scalar_value us -> ~ In 0 (flat_map utf8 us) -> (length us < 10)%nat -> good_string (flat_map utf8 us)).
  { intros us F N L. split; [exists us; auto|]. split; [auto|]. assert (M : forall us, Forall scalar_value us -> (length (flat_map utf8 us) <= 4 * length us)%nat).
    { clear. induction 1 as [|u us S F IH]; [auto|]. cbn [flat_map length]. rewrite app_length. pose proof (utf8_len u (proj1 (proj1 S))).
      destruct (u <? 65536); lia. }
    specialize (M us F). lia. }
  assert (K : forall us, forallb (fun u => (0 <? u) && (u <? 1000)) us = true -> (length us < 10)%nat -> forallb (fun c => negb (c =? 0)) (flat_map utf8 us) = true -> good_string (flat_map utf8 us)).
  { intros us B L B'. apply G; [|intros I; rewrite forallb_forall in B'; specialize (B' _ I); discriminate|auto].
    rewrite forallb_forall in B. apply Forall_forall. intros u I. specialize (B _ I). unfold scalar_value. lia. }
  assert (G1 : good_string [97; 34]) by (apply (K [97; 34]); cbn; auto; lia).
  assert (G2 : good_string []) by (apply (K []); cbn; auto; lia).
  assert (G3 : good_string [98]) by (apply (K [98]); cbn; auto; lia).
  assert (G4 : good_string [195; 169; 10; 1]) by (apply (K [233; 10; 1]); cbn; auto; lia).
  apply obj_everywhere.
  - split; [repeat constructor; cbn; intuition discriminate|].
    apply Forall_cons; [exact G1|]. apply Forall_cons; [exact G2|]. apply Forall_cons; [exact G3|constructor].
  - cbn. unfold int64. apply Forall_cons; [|apply Forall_cons; [|apply Forall_cons; [|constructor]]]; cbn; unfold int64;
      repeat match goal with |- _ /\ _ => split end; auto; try lia; constructor.
Qed.

(** * C33 *)
(** Full statement: for both formats and values of any depth.  Proved: compact at
    any depth; readable up to depth 127, since deeper it is false (below). *)
(** Compact: the call without a buffer ends and returns some [n]; the call with
    any buffer of more than [n] bytes returns [n] too, puts a NUL at [n] and does
    not change the bytes behind; and the buffer that asprint allocates is large
    enough. *)
Theorem C33_compact : forall fmt_g j, everywhere (printable fmt_g) j ->
  exists steps n, 0 <= n /\ forall fuel, (steps <= fuel)%nat ->
    snprint fmt_g fuel COMPACT None j = Ok (n, None) /\
    (forall buf : text, n < Z.of_nat (length buf) -> exists buf', snprint fmt_g fuel COMPACT (Some buf) j = Ok (n, Some buf') /\
      length buf' = length buf /\ nth_error buf' (Z.to_nat n) = Some 0 /\
      forall m, n < Z.of_nat m -> nth_error buf' m = nth_error buf m) /\
    (forall init, exists t, asprint fmt_g fuel COMPACT init j = Ok (n, t ++ [0]) /\ Z.of_nat (length t) = n).
Proof.
  intros fmt_g j N. destruct (snprint_total fmt_g j N) as (n & E). exists (cost j), n.
  destruct (snprint_agree fmt_g (cost j) j n None (E _ (Nat.le_refl _))) as (P & _ & _). split; [auto|]. intros fuel L. specialize (E fuel L).
  split; [auto|]. split.
  - apply (snprint_agree fmt_g fuel j n None E).
  - intros init. apply (asprint_agree fmt_g fuel j n None init E).
Qed.
(** Both formats, with the text that is printed *)
Theorem C33_both_partial : forall fmt_g f j, everywhere (ordinary fmt_g) j -> (height j <= max_height f)%nat ->
  exists steps, forall fuel, (steps <= fuel)%nat ->
    let t := text_of fmt_g (match f with PRETTY => true | COMPACT => false end) 0 j in
    snprint fmt_g fuel f None j = Ok (Z.of_nat (length t), None) /\
    (forall buf : text, (length t < length buf)%nat -> exists rest,
       snprint fmt_g fuel f (Some buf) j = Ok (Z.of_nat (length t), Some (t ++ 0 :: rest)) /\ length (t ++ 0 :: rest) = length buf) /\
    (forall init, asprint fmt_g fuel f init j = Ok (Z.of_nat (length t), t ++ [0])).
Proof.
  intros fmt_g f j N H. exists (cost j). intros fuel L t. apply fits_height in H. split; [apply snprint_none; auto|]. split.
  - intros buf Lb. apply snprint_some; auto.
  - intros init. apply asprint_ok; auto.
Qed.

(** No NUL is printed, unless the text of a double has one. *)
Definition no_nul (t : text) : Prop := Forall (fun c => c <> 0) t.
Lemma escaped_no_nul c : byte c -> no_nul (escaped c).
Proof.
  unfold byte, escaped, no_nul. intros B. repeat match goal with |- context [if ?b then _ else _] => destruct b eqn:?; [repeat constructor; lia|] end.
  assert (HX : forall d, 0 <= d < 16 -> hex_char d <> 0).
  { intros d D. unfold hex_char. assert (L : (Z.to_nat d < 16)%nat) by lia. revert L. generalize (Z.to_nat d). intros n L. do 16 (destruct n as [|n]; [cbn; lia|]). lia. }
  destruct (Z.ltb_spec c 32); [|repeat constructor; lia]. repeat constructor; try lia; apply HX; [split; [apply Z.div_pos; lia|apply Z.div_lt_upper_bound; lia]|apply Z.mod_pos_bound; lia].
Qed.
Lemma quote_no_nul s : Forall byte s -> no_nul (quote s).
Proof.
  intros F. unfold quote, no_nul. constructor; [lia|]. apply Forall_app. split; [|repeat constructor; lia]. induction F as [|c s B F IH]; [constructor|]. cbn [flat_map]. apply Forall_app. split; [apply escaped_no_nul; auto|auto].
Qed.
Lemma decimal_no_nul z : no_nul (decimal_of z).
Proof.
  unfold no_nul. assert (D : forall ds n, standard ds n -> Forall (fun c => c <> 0) ds) by (intros ds n (_ & F & _); eapply Forall_impl; [|exact F]; unfold digit_char; lia).
  destruct (decimal_of_ok z) as [(_ & S)|(_ & ds & -> & S)]; [eapply D; exact S|constructor; [lia|eapply D; exact S]].
Qed.
Lemma separated_no_nul ws : Forall no_nul ws -> no_nul (separated false ws).
Proof.
  induction 1 as [|w ws W F IH]; [constructor|]. cbn [separated]. destruct ws; [auto|]. apply Forall_app. split; [auto|]. constructor; [lia|auto].
Qed.
Definition double_no_nul (fmt_g : prim -> Z -> text) (j : json) : Prop := match j with JDouble d => no_nul (fmt_g F64 d) | _ => True end.
Lemma text_no_nul fmt_g j : everywhere (ordinary fmt_g) j -> everywhere (double_no_nul fmt_g) j -> forall t, no_nul (text_of fmt_g false t j).
Proof.
  assert (B : forall s, Forall byte s -> Forall byte (before_nul s)) by (intros s F; induction F as [|c s BC F IH]; cbn [before_nul]; [constructor|]; destruct (c =? 0); constructor; auto).
  induction j as [| |b|d|z|z|s|s|z|l IH|kvs IH] using json_ind'; intros E D t; pose proof (everywhere_here _ _ E) as H0; pose proof (everywhere_here _ _ D) as H1; cbn [ordinary double_no_nul] in *; cbn [text_of]; unfold indent, if_pretty; cbn [app].
  - repeat constructor; lia.
  - repeat constructor; lia.
  - destruct b; repeat constructor; lia.
  - auto.
  - apply decimal_no_nul.
  - apply decimal_no_nul.
  - apply quote_no_nul, B, H0.
  - apply quote_no_nul, H0.
  - contradiction.
  - apply everywhere_arr in E. apply everywhere_arr in D. unfold opening, closing, if_pretty, indent. cbn [app]. constructor; [lia|]. apply Forall_app. split; [|repeat constructor; lia].
    apply separated_no_nul. rewrite Forall_map. rewrite Forall_forall in *. intros x I. apply IH; auto.
  - apply everywhere_obj in E. apply everywhere_obj in D. unfold opening, closing, if_pretty, indent. cbn [app]. constructor; [lia|]. apply Forall_app. split; [|repeat constructor; lia].
    apply separated_no_nul. rewrite Forall_map. destruct H0 as (_ & K). rewrite Forall_forall in *. intros x I. cbn [app]. apply Forall_app. split; [apply quote_no_nul, B; apply (K x I)|]. constructor; [lia|]. apply IH; auto.
Qed.
(** cee_json_dprintf: the text of the caller, the printed value (compact) or
    "null" if there is none, and a newline *)
Theorem C33_dprintf_partial : forall fmt_g init j said, everywhere (ordinary fmt_g) j -> (height j <= max_height COMPACT)%nat -> everywhere (double_no_nul fmt_g) j ->
  (exists steps, forall fuel, (steps <= fuel)%nat -> json_dprintf fmt_g fuel init (Some j) (Some said) = Ok (said ++ text_of fmt_g false 0 j ++ [10]) /\
     json_dprintf fmt_g fuel init (Some j) None = Ok (text_of fmt_g false 0 j ++ [10])) /\
  forall fuel, json_dprintf fmt_g fuel init None (Some said) = Ok (said ++ [110; 117; 108; 108; 10]).
Proof.
  intros fmt_g init j said N H D. split; [|reflexivity]. assert (Z : ~ In 0 (text_of fmt_g false 0 j)) by (intros I; pose proof (text_no_nul fmt_g j N D 0%nat) as Q; unfold no_nul in Q; rewrite Forall_forall in Q; exact (Q 0 I eq_refl)). exists (cost j). intros fuel L. apply fits_height in H. unfold json_dprintf.
  rewrite (asprint_ok fmt_g COMPACT j fuel init N H L). cbn [bind is_pretty].
  assert (C : forall t, ~ In 0 t -> c_string (t ++ [0]) = Ok t).
  { induction t as [|c t IH]; intros NI; cbn [app c_string]; [reflexivity|]. destruct (Z.eqb_spec c 0) as [->|NE]; [destruct NI; left; auto|]. rewrite IH by (intros I; apply NI; right; auto). reflexivity. }
  rewrite (C _ Z). cbn [bind]. auto.
Qed.
Example C33_example_dprintf :
  json_dprintf (fun _ _ => []) 100 (fun _ => 7) (Some (JArr [JI64 1; JStr [120]])) (Some [58]) = Ok [58; 91; 49; 44; 34; 120; 34; 93; 10] /\
  json_dprintf (fun _ _ => []) 100 (fun _ => 7) None None = Ok [110; 117; 108; 108; 10].
Proof. vm_compute. auto. Qed.

(** Arrays in arrays: [n] pairs of brackets *)
Fixpoint nest (n : nat) : json := match n with O => JNull | S k => JArr [nest k] end.
Fixpoint nest_text (n : nat) : text := match n with O => [110; 117; 108; 108] | S k => 91 :: nest_text k ++ [93] end.
(** 130 levels, readable: the char that counts the tabs overflows, the offset
    goes back, and asprint writes before its buffer. *)
Theorem C33_deep_readable_refuted : exists j, forall fmt_g init,
  everywhere (ordinary fmt_g) j /\ asprint fmt_g 1000 PRETTY init j = Bad OutOfBounds.
Proof.
  exists (nest 130). intros fmt_g init. split.
  - assert (G : forall n, everywhere (ordinary fmt_g) (nest n)) by (induction n; cbn; auto). apply G.
  - unfold asprint. vm_compute. reflexivity.
Qed.

(** A blob: cee_str_mk reads its va_list twice (C12), so printing any blob is
    undefined. *)
Theorem C33_blob_refuted : exists n, 0 <= n /\ forall fmt_g f init,
  asprint fmt_g 100 f init (JBlob n) = Bad BadVaList.
Proof. exists 3. split; [lia|]. intros fmt_g [] init; vm_compute; reflexivity. Qed.

Theorem C33_blob_all_refuted : forall fmt_g f init n fuel, (2 <= fuel)%nat ->
  asprint fmt_g fuel f init (JBlob n) = Bad BadVaList.
Proof. intros fmt_g f init n fuel L. do 2 (destruct fuel as [|fuel]; [lia|]). destruct f; reflexivity. Qed.

(** A value of all kinds that can be printed; deep nesting, where the text is cut off, compact *)
Definition all_kinds : json :=
  JArr [JUndefined; JU64 18446744073709551615; JDouble 1; JStrn [1; 0; 2]; JObj [([107], JBool false); ([108], JArr [])]].
Example C33_example :
  everywhere (ordinary (fun _ _ => [49; 46; 53])) all_kinds /\
  snprint (fun _ _ => [49; 46; 53]) 100 COMPACT None all_kinds = Ok (76, None) /\
  (exists t, asprint (fun _ _ => [49; 46; 53]) 100 COMPACT (fun _ => 0) all_kinds = Ok (76, t ++ [0]) /\ length t = 76%nat) /\
  snprint (fun _ _ => [49; 46; 53]) 100 PRETTY None all_kinds = Ok (105, None) /\
  snprint (fun _ _ => []) 2000 COMPACT None (nest 600) = Ok (499, None).
Proof.
  split; [|split; [vm_compute; auto|split; [|split; vm_compute; auto]]].
  - cbn. repeat (split || constructor); cbn; try lia; try discriminate; try (unfold byte; lia); try (intros [|]; [discriminate|contradiction]); auto.
  - exists (printed_text (asprint (fun _ _ => [49; 46; 53]) 100 COMPACT (fun _ => 0) all_kinds)). split; vm_compute; reflexivity.
Qed.

(** * C34 *)
(** Full statement: for every value that the parser gives for some text, the
    printed text is JSON and denotes the value.  Proved: up to the depths above,
    if each double in the value prints as a number (denoting [dv] of it). *)
Theorem C34_complete_partial : forall fmt_g strtod dv init f t junk fuel force v,
  Forall byte t -> Forall byte junk -> (length t < fuel)%nat ->
  parsex strtod fuel (t ++ 0 :: junk) (Z.of_nat (length t)) force = Ok (POk v) ->
  everywhere (ordinary fmt_g) v -> (height v <= max_height f)%nat ->
  everywhere (fun j => match j with JDouble d => loose_number strtod (fmt_g F64 d) (dv d) | _ => True end) v ->
  exists steps out, (forall fuel', (steps <= fuel')%nat -> asprint fmt_g fuel' f init v = Ok (Z.of_nat (length out), out ++ [0])) /\
    json_text loose_string (loose_number strtod) false (depth v) out (with_doubles dv v).
Proof.
  intros fmt_g strtod dv init f t junk fuel force v Bt Bj L E N H D.
  assert (P : everywhere parsed v).
  { destruct (JsonParseProofs.parsex_total strtod junk Bj t fuel force Bt L) as (r & E' & Q). rewrite E in E'. injection E' as <-.
    destruct Q as (a & w & b & _ & _ & J & _). eapply parsed_ok; eauto. }
  exists (cost v), (text_of fmt_g (is_pretty f) 0 v). split.
  - intros fuel' L'. apply asprint_ok; [auto|apply fits_height; auto|auto].
  - destruct (denotes_ok fmt_g (is_pretty f) loose_string (loose_number strtod) dv v 0%nat (depth v)) as (a & w & b & Et & Sa & Sb & J); [|auto|].
    + eapply everywhere_and; [|exact P|]; [|eapply everywhere_and; [|exact N|exact D]; intros j H1 H2; exact (conj H1 H2)].
      assert (K : forall s, (exists w, loose_string w s) -> loose_string (flat_map escaped s) s /\ ~ In 0 s).
      { intros s (w & X). split; [eapply string_again; eauto|]. destruct X as (s0 & _ & _ & ->). apply before_nul_no_nul. }
      intros j Pj (Nj & Dj). destruct j; cbn [parsed ordinary denotable] in *; auto; try contradiction.
      * apply rfc_loose_number, decimal_number; auto.
      * split; [apply Nj|]. eapply Forall_impl; [|exact Pj]. auto.
    + exists a, w, b. auto.
Qed.

(** 500 levels: the parser accepts (it does up to 511), the printer stops when its
    stack of 500 is full and prints opening brackets only, which is not JSON, not
    even in the relaxed reading. *)
Theorem C34_deep_refuted : exists t v, forall fmt_g strtod init,
  parsex strtod 2000 (t ++ [0]) (Z.of_nat (length t)) true = Ok (POk v) /\
  everywhere (ordinary fmt_g) v /\
  exists out, asprint fmt_g 2000 COMPACT init v = Ok (Z.of_nat (length out), out ++ [0]) /\
    forall n v', ~ loose_json strtod n out v'.
Proof.
  exists (nest_text 500), (nest 500). intros fmt_g strtod init. split; [vm_compute; reflexivity|]. split.
  - assert (G : forall n, everywhere (ordinary fmt_g) (nest n)) by (induction n; cbn; auto). apply G.
  - exists (repeat 91 498 ++ [91]). split; [vm_compute; reflexivity|]. intros n v'. apply open_not_json.
Qed.
(** 128 levels, readable: the text is not JSON (and from 130 levels on there is
    the overflow of C33_deep_readable_refuted). *)
Definition bad_text : text := Eval vm_compute in printed_text (asprint (fun _ _ => []) 2000 PRETTY (fun _ => 0) (nest 128)).
Theorem C34_readable_refuted : exists t v out, forall fmt_g strtod init,
  parsex strtod 2000 (t ++ [0]) (Z.of_nat (length t)) true = Ok (POk v) /\
  everywhere (ordinary fmt_g) v /\
  asprint fmt_g 2000 PRETTY init v = Ok (Z.of_nat (length out), out ++ [0]) /\
  forall v', ~ loose_json strtod 511 out v'.
Proof.
  exists (nest_text 128), (nest 128), bad_text. intros fmt_g strtod init. split; [vm_compute; reflexivity|]. split; [|split].
  - assert (G : forall n, everywhere (ordinary fmt_g) (nest n)) by (induction n; cbn; auto). apply G.
  - vm_compute. reflexivity.
  - intros v' J.
    assert (B : forallb (fun c => (0 <? c) && (c <? 256)) bad_text = true) by (vm_compute; reflexivity). rewrite forallb_forall in B.
    assert (E : parsex strtod (S (length bad_text)) (bad_text ++ [0]) (Z.of_nat (length bad_text)) true = Ok (POk v')).
    { apply C29_no_nul; [|constructor|lia| |exact J].
      - apply Forall_forall. intros c I. specialize (B c I). unfold byte. lia.
      - intros I. specialize (B 0 I). discriminate. }
    vm_compute in E. discriminate.
Qed.
(** [1e999] is infinite, and prints as inf, if the library works as usual. *)
Theorem C34_infinite_refuted : exists t v, forall fmt_g strtod init,
  strtod [49; 101; 57; 57; 57] = 9218868437227405312 -> fmt_g F64 9218868437227405312 = [105; 110; 102] ->
  parsex strtod 100 (t ++ [0]) (Z.of_nat (length t)) true = Ok (POk v) /\
  everywhere (ordinary fmt_g) v /\
  asprint fmt_g 100 COMPACT init v = Ok (3, [105; 110; 102; 0]) /\
  forall n v', ~ loose_json strtod n [105; 110; 102] v'.
Proof.
  exists [49; 101; 57; 57; 57], (JDouble 9218868437227405312). intros fmt_g strtod init Es Ef. split; [|split; [|split]].
  - vm_compute. rewrite <- Es. reflexivity.
  - split; [|exact I]. cbn. rewrite Ef. split; [lia|discriminate].
  - pose proof (asprint_ok fmt_g COMPACT (JDouble 9218868437227405312) 100 init) as X. cbn [text_of is_pretty indent if_pretty app] in X. rewrite Ef in X.
    apply X; [split; [cbn; rewrite Ef; split; [lia|discriminate]|exact I]|apply fits_height; cbn; lia|cbn; lia].
  - intros n v'. apply inf_not_json.
Qed.

(** [1.5,"ÿ",{}] read and printed; the byte 255 is not UTF-8. *)
Definition fifteen (_ : prim) (_ : Z) : text := [49; 46; 53].
Example C34_example :
  parsex (fun _ => 77) 100 [91; 49; 46; 53; 44; 34; 255; 34; 44; 123; 125; 93; 0] 12 true = Ok (POk (JArr [JDouble 77; JStr [255]; JObj []])) /\
  printed_text (asprint fifteen 100 COMPACT (fun _ => 0) (JArr [JDouble 77; JStr [255]; JObj []])) = [91; 49; 46; 53; 44; 34; 255; 34; 44; 123; 125; 93] /\
  everywhere (ordinary fifteen) (JArr [JDouble 77; JStr [255]; JObj []]) /\
  everywhere (fun j => match j with JDouble d => loose_number (fun _ => 77) (fifteen F64 d) (JDouble 77) | _ => True end) (JArr [JDouble 77; JStr [255]; JObj []]).
Proof.
  split; [vm_compute; reflexivity|]. split; [vm_compute; reflexivity|].
  assert (N : loose_number (fun _ => 77) [49; 46; 53] (JDouble 77)).
  { apply (ln_double (fun _ => 77) [] [49] [46; 53] []); [left; auto| |right|left; auto|discriminate].
    - split; [discriminate|]. repeat constructor; discriminate.
    - exists [53]. split; [auto|]. split; [discriminate|]. repeat constructor; discriminate. }
  split; cbn; repeat match goal with |- _ /\ _ => split end; auto; try lia; try discriminate; repeat constructor; unfold byte; lia.
Qed.

Print Assumptions C28_round_trip.
Print Assumptions C33_compact.
Print Assumptions C33_both_partial.
Print Assumptions C33_dprintf_partial.
Print Assumptions C33_deep_readable_refuted.
Print Assumptions C33_blob_refuted.
Print Assumptions C33_blob_all_refuted.
Print Assumptions C34_complete_partial.
Print Assumptions C34_deep_refuted.
Print Assumptions C34_readable_refuted.
Print Assumptions C34_infinite_refuted.
