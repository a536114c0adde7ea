(** C29, C30, C31, C32: the JSON parser.

    Throughout, [t] is the text to parse, stored with a NUL behind it and then
    any bytes [junk]; [strtod] is the library function, any function. *)
From Coq Require Import ZArith List Bool Lia.
From Verif Require Import Base NumeralProofs Utf8Proofs Json JsonTokModel JsonParseModel JsonSpec
  JsonStrProofs JsonTokProofs JsonLexProofs JsonParseProofs JsonLangProofs.
Import ListNotations.
Open Scope Z_scope.

(** * C29 *)
(** Full statement: if the parser accepts [t] with value [v] then
    [rfc_json strtod 511 t v].  That is false (below).  Proved: what it accepts is
    a text of the relaxed language ([loose_string], [loose_number], trailing
    commas; see JsonSpec) with that value, followed by white space or by a
    comment with a NUL in it. *)
Theorem C29_accepts_only_partial : forall strtod t junk fuel v,
  Forall byte t -> Forall byte junk -> (length t < fuel)%nat ->
  parsex strtod fuel (t ++ 0 :: junk) (Z.of_nat (length t)) true = Ok (POk v) ->
  exists a w b, t = a ++ w ++ b /\ spaces a /\
    jvalue loose_string (loose_number strtod) true 511 w v /\
    (spaces b \/ exists b0 c d, b = b0 ++ [47; 47] ++ c ++ 0 :: d /\ spaces b0 /\ ~ In 10 c).
Proof. intros strtod t junk fuel v Bt Bj L E. apply parsex_exact in E; auto. Qed.

(** And conversely all of these are accepted, so this is exactly the language. *)
Theorem C29_relaxed_language : forall strtod t junk fuel v,
  Forall byte t -> Forall byte junk -> (length t < fuel)%nat ->
  (parsex strtod fuel (t ++ 0 :: junk) (Z.of_nat (length t)) true = Ok (POk v) <->
   exists a w b, t = a ++ w ++ b /\ spaces a /\
     jvalue loose_string (loose_number strtod) true 511 w v /\
     (spaces b \/ exists b0 c d, b = b0 ++ [47; 47] ++ c ++ 0 :: d /\ spaces b0 /\ ~ In 10 c)).
Proof. intros strtod t junk fuel v Bt Bj L. apply parsex_exact; auto. Qed.

(** Without a NUL in the text the last case disappears. *)
Theorem C29_no_nul : forall strtod t junk fuel v,
  Forall byte t -> Forall byte junk -> (length t < fuel)%nat -> ~ In 0 t ->
  (parsex strtod fuel (t ++ 0 :: junk) (Z.of_nat (length t)) true = Ok (POk v) <-> loose_json strtod 511 t v).
Proof.
  intros strtod t junk fuel v Bt Bj L N. rewrite parsex_exact by auto. unfold loose_json, json_text. split.
  - intros (a & w & b & E & S & J & [T|(b0 & c & d & -> & _)]); [exists a, w, b; auto|].
    destruct N. rewrite E. rewrite !in_app_iff. right. right. right. right. right. apply in_app_iff. right. left. auto.
  - intros (a & w & b & S & J & T & E). exists a, w, b. split; [auto|]. split; [auto|]. split; [auto|]. left. auto.
Qed.

(** [1,] in brackets, 00.5, a string with an invalid byte, a string with an
    unpaired surrogate, 1 followed by a comment with a NUL: all accepted *)
Theorem C29_trailing_comma_refuted : exists t, forall strtod,
  (exists v, parsex strtod 10 (t ++ [0]) (Z.of_nat (length t)) true = Ok (POk v)) /\
  forall n v, ~ rfc_json strtod n t v.
Proof.
  exists [91; 49; 44; 93]. intros strtod. split; [eexists; vm_compute; reflexivity|]. intros n v. apply comma_not_rfc.
Qed.
Theorem C29_leading_zeros_refuted : exists t, forall strtod,
  (exists v, parsex strtod 10 (t ++ [0]) (Z.of_nat (length t)) true = Ok (POk v)) /\
  forall n v, ~ rfc_json strtod n t v.
Proof.
  exists [48; 48; 46; 53]. intros strtod. split; [eexists; vm_compute; reflexivity|]. intros n v. apply zeros_not_rfc.
Qed.
Theorem C29_invalid_utf8_refuted : exists t, forall strtod,
  (exists v, parsex strtod 10 (t ++ [0]) (Z.of_nat (length t)) true = Ok (POk v)) /\
  forall n v, ~ rfc_json strtod n t v.
Proof.
  exists [34; 255; 34]. intros strtod. split; [eexists; vm_compute; reflexivity|]. intros n v. apply bad_utf8_not_rfc.
Qed.
Theorem C29_unpaired_surrogate_refuted : exists t, forall strtod,
  parsex strtod 10 (t ++ [0]) (Z.of_nat (length t)) true = Ok (POk (JStr [])) /\
  forall n v, ~ rfc_json strtod n t v.
Proof.
  exists [34; 92; 117; 100; 56; 48; 48; 34]. intros strtod. split; [vm_compute; reflexivity|]. intros n v. apply lone_not_rfc.
Qed.
Theorem C29_comment_refuted : exists t, forall strtod,
  parsex strtod 10 (t ++ [0]) (Z.of_nat (length t)) true = Ok (POk (JI64 1)) /\
  forall n v, ~ rfc_json strtod n t v.
Proof.
  exists [49; 47; 47; 0; 93]. intros strtod. split; [vm_compute; reflexivity|]. intros n v. apply comment_not_rfc.
Qed.

(** * C30 *)
(** Full statement: the same without the restriction that integers fit 64 bits
    ([rfc_number]) and that strings do not contain U+0000 ([rfc_string]). *)
Theorem C30_accepts_all_partial : forall strtod t junk fuel n v,
  rfc_json strtod n t v -> (n < 512)%nat -> Forall byte junk -> (length t < fuel)%nat ->
  parsex strtod fuel (t ++ 0 :: junk) (Z.of_nat (length t)) true = Ok (POk v).
Proof.
  intros strtod t junk fuel n v (a & w & b & Sa & J & Sb & ->) N Bj L.
  apply rfc_loose_value in J; [|lia]. apply parsex_exact; auto.
  - rewrite !Forall_app. split; [apply spaces_bytes; auto|]. split; [eapply loose_value_bytes; eauto|apply spaces_bytes; auto].
  - exists a, w, b. split; [auto|]. split; [auto|]. split; [auto|]. left. auto.
Qed.

(** JSON with all integers and all strings *)
Inductive any_number (strtod : text -> Z) : text -> json -> Prop :=
| an_int m ds : minus m -> int_part ds -> any_number strtod (m ++ ds) (JI64 (integer_value m ds))
| an_double m i f e : minus m -> int_part i -> (f = [] \/ frac_part f) -> (e = [] \/ exp_part e) ->
    f ++ e <> [] -> any_number strtod (m ++ i ++ f ++ e) (JDouble (strtod (m ++ i ++ f ++ e))).
Theorem C30_big_integer_refuted : exists t v, forall strtod,
  json_text chars (any_number strtod) false 0 t v /\
  parsex strtod 30 (t ++ [0]) (Z.of_nat (length t)) true <> Ok (POk v).
Proof.
  exists [49; 56; 52; 52; 54; 55; 52; 52; 48; 55; 51; 55; 48; 57; 53; 53; 49; 54; 49; 54], (JI64 18446744073709551616).
  intros strtod. split; [|vm_compute; discriminate].
  exists [], [49; 56; 52; 52; 54; 55; 52; 52; 48; 55; 51; 55; 48; 57; 53; 53; 49; 54; 49; 54], [].
  split; [constructor|]. split; [|split; [constructor|auto]]. apply jv_num.
  apply (an_int strtod [] [49; 56; 52; 52; 54; 55; 52; 52; 48; 55; 51; 55; 48; 57; 53; 53; 49; 54; 49; 54]); [left; auto|].
  split; [split; [discriminate|]|discriminate]. unfold digit_char. repeat constructor; lia.
Qed.
(** "a", U+0000, "b" *)
Theorem C30_nul_refuted : exists t v, forall strtod,
  json_text chars (any_number strtod) false 0 t v /\
  parsex strtod 30 (t ++ [0]) (Z.of_nat (length t)) true <> Ok (POk v).
Proof.
  exists [34; 97; 92; 117; 48; 48; 48; 48; 98; 34], (JStr [97; 0; 98]).
  intros strtod. split; [|vm_compute; discriminate].
  exists [], [34; 97; 92; 117; 48; 48; 48; 48; 98; 34], [].
  split; [constructor|]. split; [|split; [constructor|auto]]. apply (jv_str _ _ _ 0 [97; 92; 117; 48; 48; 48; 48; 98] [97; 0; 98]).
  apply (ch_plain 97 [92; 117; 48; 48; 48; 48; 98] [0; 98]); [unfold scalar_value; lia|lia|lia|lia|].
  apply (ch_unicode [48; 48; 48; 48] 0 [98] [98]); [|unfold high_surrogate; lia|unfold low_surrogate; lia|].
  - exists 48, 48, 48, 48, 0, 0, 0, 0. unfold hex_digit. split; [auto|]. lia.
  - apply (ch_plain 98 [] []); [unfold scalar_value; lia|lia|lia|lia|constructor].
Qed.

(** What is read in place: a string up to the first U+0000 in it, and of an
    integer the nearest one of 64 bits *)
Definition cut_string (w s : text) : Prop := exists s0, chars w s0 /\ s = before_nul s0.
Inductive nearest_number (strtod : text -> Z) : text -> json -> Prop :=
| nn_int m ds z : minus m -> int_part ds -> int64 z ->
    (forall y, int64 y -> Z.abs (z - integer_value m ds) <= Z.abs (y - integer_value m ds)) ->
    nearest_number strtod (m ++ ds) (JI64 z)
| nn_double m i f e : minus m -> int_part i -> (f = [] \/ frac_part f) -> (e = [] \/ exp_part e) ->
    f ++ e <> [] -> nearest_number strtod (m ++ i ++ f ++ e) (JDouble (strtod (m ++ i ++ f ++ e))).

Lemma saturate_nearest x z : int64 z -> (forall y, int64 y -> Z.abs (z - x) <= Z.abs (y - x)) -> z = saturate x.
Proof.
  unfold int64, saturate. intros I H.
  destruct (Z.ltb_spec x (- 2 ^ 63)).
  - specialize (H (- 2 ^ 63) ltac:(lia)). lia.
  - destruct (Z.leb_spec (2 ^ 63) x).
    + specialize (H (2 ^ 63 - 1) ltac:(lia)). lia.
    + specialize (H x ltac:(lia)). lia.
Qed.
Lemma nearest_saturate x : int64 (saturate x) /\ forall y, int64 y -> Z.abs (saturate x - x) <= Z.abs (y - x).
Proof.
  unfold int64, saturate. destruct (Z.ltb_spec x (- 2 ^ 63)); [|destruct (Z.leb_spec (2 ^ 63) x)]; split; try intros y Hy; lia.
Qed.
Lemma cut_loose w s : cut_string w s -> loose_string w s.
Proof. intros (s0 & C & ->). exists s0. split; [apply chars_loose; auto|]. split; [intros _; eapply chars_valid; eauto|auto]. Qed.
Lemma nearest_loose strtod w v : nearest_number strtod w v -> loose_number strtod w v.
Proof.
  intros [m ds z M I B H|m i f e M I F E N].
  - rewrite (saturate_nearest _ _ B H). apply ln_int; auto.
  - apply ln_double; auto. apply I.
Qed.
Lemma readable strtod n w v : jvalue chars (any_number strtod) false n w v ->
  exists v', jvalue cut_string (nearest_number strtod) false n w v'.
Proof.
  apply (jvalue_min chars (any_number strtod) false
    (fun n w v => exists v', jvalue cut_string (nearest_number strtod) false n w v')
    (fun n w l => exists l', jelements cut_string (nearest_number strtod) false n w l')
    (fun n w l => exists l', jmembers cut_string (nearest_number strtod) false n w l')
    (fun n w k v => exists k' v', jmember cut_string (nearest_number strtod) false n w k' v')); clear.
  - eexists. apply jv_null.
  - eexists. apply jv_true.
  - eexists. apply jv_false.
  - intros n w s C. eexists. apply jv_str. exists s. auto.
  - intros n w v [m ds M I|m i f e M I F E N].
    + destruct (nearest_saturate (integer_value m ds)) as (B & H). eexists. apply jv_num. eapply nn_int; eauto.
    + eexists. apply jv_num. apply nn_double; auto.
  - intros n b B. eexists. apply jv_arr0. auto.
  - intros n w l _ (l' & H). eexists. apply jv_arr. eauto.
  - discriminate.
  - intros n b B. eexists. apply jv_obj0. auto.
  - intros n w l _ (l' & H). eexists. apply jv_obj. eauto.
  - discriminate.
  - intros n a w b v A _ (v' & H) B. eexists. apply je_one; eauto.
  - intros n w0 l a w b v _ (l' & H0) A _ (v' & H) B. eexists. apply je_more; eauto.
  - intros n w k v _ (k' & v' & H). eexists. apply jm_one. eauto.
  - intros n w0 l w k v _ (l' & H0) _ (k' & v' & H). eexists. apply jm_more; eauto.
  - intros n a k s b c w d v A C B1 C1 _ (v' & H) D. eexists _, _. apply jm; eauto. exists s. eauto.
Qed.

(** All JSON texts nested less than 512 deep, with integers of any size and
    strings with any characters: they are accepted, and the value is what the text
    denotes when each string ends at its first U+0000 and each integer is replaced
    by the nearest one of 64 bits. *)
Theorem C30_exact : forall strtod t junk fuel n v,
  json_text chars (any_number strtod) false n t v -> (n < 512)%nat -> Forall byte junk -> (length t < fuel)%nat ->
  exists v', (forall x, json_text cut_string (nearest_number strtod) false n t x <-> x = v') /\
  parsex strtod fuel (t ++ 0 :: junk) (Z.of_nat (length t)) true = Ok (POk v').
Proof.
  intros strtod t junk fuel n v (a & w & b & Sa & J & Sb & E) N Bj L.
  assert (R : forall x, json_text cut_string (nearest_number strtod) false n t x ->
    parsex strtod fuel (t ++ 0 :: junk) (Z.of_nat (length t)) true = Ok (POk x)).
  { clear a w b Sa J Sb E. intros x (a & w & b & Sa & J & Sb & ->).
    assert (JL : jvalue loose_string (loose_number strtod) true 511 w x).
    { eapply jvalue_weaken; [apply cut_loose|apply nearest_loose| |exact J|lia]. discriminate. }
    apply parsex_exact; auto.
    - rewrite !Forall_app. split; [apply spaces_bytes; auto|]. split; [eapply loose_value_bytes; eauto|apply spaces_bytes; auto].
    - exists a, w, b. split; [auto|]. split; [auto|]. split; [auto|]. left. auto. }
  destruct (readable _ _ _ _ J) as (v' & J').
  assert (T : json_text cut_string (nearest_number strtod) false n t v') by (exists a, w, b; auto).
  exists v'. split; [|auto]. intros x. split; [|intros ->; auto].
  intros X. apply R in X. apply R in T. rewrite X in T. injection T as ->. reflexivity.
Qed.
(** Every integer that does not fit is read as another one. *)
Theorem C30_all_big_integers_refuted : forall strtod m ds junk fuel,
  minus m -> int_part ds -> ~ int64 (integer_value m ds) -> Forall byte junk -> (length (m ++ ds) < fuel)%nat ->
  json_text chars (any_number strtod) false 0 (m ++ ds) (JI64 (integer_value m ds)) /\
  exists z, z <> integer_value m ds /\
  z = (if integer_value m ds <? 0 then - 2 ^ 63 else 2 ^ 63 - 1) /\
  parsex strtod fuel ((m ++ ds) ++ 0 :: junk) (Z.of_nat (length (m ++ ds))) true = Ok (POk (JI64 z)).
Proof.
  intros strtod m ds junk fuel M I NI Bj L. split.
  - exists [], (m ++ ds), []. split; [constructor|]. split; [|split; [constructor|rewrite app_nil_r; auto]].
    apply jv_num. apply an_int; auto.
  - assert (LN : loose_number strtod (m ++ ds) (JI64 (saturate (integer_value m ds)))) by (apply ln_int; auto).
    exists (saturate (integer_value m ds)). split; [|split].
    + destruct (nearest_saturate (integer_value m ds)) as (B & _). intros E. rewrite E in B. auto.
    + unfold saturate, int64 in *. destruct (Z.ltb_spec (integer_value m ds) (- 2 ^ 63)).
      * destruct (Z.ltb_spec (integer_value m ds) 0); lia.
      * destruct (Z.leb_spec (2 ^ 63) (integer_value m ds)); destruct (Z.ltb_spec (integer_value m ds) 0); lia.
    + apply parsex_exact; auto.
      * eapply number_bytes; eauto.
      * exists [], (m ++ ds), []. split; [rewrite app_nil_r; auto|]. split; [constructor|]. split; [apply jv_num; auto|].
        left. constructor.
Qed.
(** ["a\u0000b",-9223372036854775809] *)
Example C30_exact_example :
  parsex (fun _ => 0) 100 ([91; 34; 97; 92; 117; 48; 48; 48; 48; 98; 34; 44; 45; 57; 50; 50; 51; 51; 55; 50; 48; 51; 54; 56; 53; 52; 55; 55;
    53; 56; 48; 57; 93] ++ [0]) 33 true = Ok (POk (JArr [JStr [97]; JI64 (- 9223372036854775808)])) /\
  (* of the members "a" and "a\u0000" only one is left *)
  parsex (fun _ => 0) 100 ([123; 34; 97; 34; 58; 49; 44; 34; 97; 92; 117; 48; 48; 48; 48; 34; 58; 50; 125] ++ [0]) 19 true =
  Ok (POk (JObj [([97], JI64 2)])).
Proof. vm_compute. auto. Qed.

(** White space, an object with a repeated key, nested containers, an escaped
    surrogate pair, numbers:
    { "a":[1,-20.5e3,null], "b\ud83d\ude00":{}, "a":true } *)
Definition sample : text :=
  [32; 123; 32; 34; 97; 34; 58; 91; 49; 44; 45; 50; 48; 46; 53; 101; 51; 44; 110; 117; 108; 108; 93; 44; 10;
   34; 98; 92; 117; 100; 56; 51; 100; 92; 117; 100; 101; 48; 48; 34; 58; 123; 125; 44; 32;
   34; 97; 34; 58; 116; 114; 117; 101; 125; 13; 10].
Example C30_example :
  parsex (fun w => Z.of_nat (length w)) 100 (sample ++ [0; 200]) (Z.of_nat (length sample)) true =
  Ok (POk (JObj [([97], JBool true); ([98; 240; 159; 152; 128], JObj [])])) /\
  (* [1,-20.5e3] *)
  parsex (fun w => Z.of_nat (length w)) 100 [91; 49; 44; 45; 50; 48; 46; 53; 101; 51; 93; 0] 11 true =
  Ok (POk (JArr [JI64 1; JDouble 7])) /\
  (* 1 1 *)
  parsex (fun w => Z.of_nat (length w)) 100 [49; 10; 49; 0] 3 true = Ok (PErr 1) /\
  parsex (fun w => Z.of_nat (length w)) 100 [49; 10; 49; 0] 3 false = Ok (POk (JI64 1)).
Proof. vm_compute. auto. Qed.
(** The example is an RFC text, so that the theorem applies: [1] nested twice *)
Example C30_example_rfc : rfc_json (fun _ => 0) 2 [91; 91; 32; 49; 93; 93] (JArr [JArr [JI64 1]]).
Proof.
  exists [], [91; 91; 32; 49; 93; 93], []. split; [constructor|]. split; [|split; [constructor|auto]].
  apply (jv_arr _ _ _ 1 [91; 32; 49; 93]). apply (je_one _ _ _ 1 [] [91; 32; 49; 93] []); [constructor| |constructor].
  apply (jv_arr _ _ _ 0 [32; 49]). apply (je_one _ _ _ 0 [32] [49] []); [repeat constructor| |constructor].
  apply jv_num. apply (rn_int _ [] [49]); [left; auto| |unfold int64; vm_compute; split; congruence].
  split; [split; [discriminate|]|discriminate]. repeat constructor; discriminate.
Qed.

(** * C31 *)
(** The number of line breaks (CR and LF each count) *)
Definition line_breaks (t : text) : Z := Z.of_nat (length (filter (fun c => (c =? 10) || (c =? 13)) t)).
(** Every text: a value or an error with a line, in at most as many rounds as the
    text has bytes plus one.  Full statement: the line is between 1 and 1 plus
    the number of line breaks.  The model counts from 0 (refuted below); the line
    is that of the place where the parser stopped. *)
Theorem C31_terminates_partial : forall strtod t junk fuel force,
  Forall byte t -> Forall byte junk -> (length t < fuel)%nat ->
  exists r, parsex strtod fuel (t ++ 0 :: junk) (Z.of_nat (length t)) force = Ok r /\
    forall line, r = PErr line -> exists before behind, t = before ++ behind /\
      line = line_breaks before /\ 0 <= line <= line_breaks t.
Proof.
  intros strtod t junk fuel force Bt Bj L. destruct (parsex_total strtod junk Bj t fuel force Bt L) as (r & E & P).
  exists r. split; [auto|]. intros line ->. destruct P as (p & q & -> & ->). exists p, q.
  change (line_breaks (p ++ q)) with (breaks (p ++ q)). rewrite breaks_app. pose proof (breaks_pos p). pose proof (breaks_pos q).
  split; [auto|]. split; [auto|lia].
Qed.
Theorem C31_line_number_refuted : exists t line, forall strtod,
  parsex strtod 10 (t ++ [0]) (Z.of_nat (length t)) true = Ok (PErr line) /\
  ~ 1 <= line <= 1 + line_breaks t.
Proof. exists [93], 0. intros strtod. split; [vm_compute; reflexivity|lia]. Qed.

(** The stack never holds more than 512 frames, its capacity, so that no push
    fails, whatever the input. *)
Theorem C31_stack : forall strtod t junk m,
  Forall byte t -> Forall byte junk ->
  reach strtod (Machine VALUE [Frame DONE None None] None (Tok 0 (t ++ 0 :: junk) (Z.of_nat (length t))) None) m ->
  (length (m_stack m) <= 512)%nat.
Proof.
  intros strtod t junk m Bt Bj R.
  assert (G : forall m1 m2, reach strtod m1 m2 -> forall w, good strtod junk t m1 w -> (length (m_stack m1) <= 512)%nat -> (length (m_stack m2) <= 512)%nat).
  { induction 1 as [m1|m1 m2 m3 RU ST RE IH]; intros w G L; [auto|].
    destruct G as [w pre suf ES EF ET|u w W EF T].
    - unfold running in RU. rewrite ES in RU. destruct (m_stack m1); [discriminate|]. rewrite andb_false_r in RU. discriminate.
    - destruct (step_ok strtod junk Bj t m1 u w Bt W EF T RU) as (m' & w' & E & G & _). rewrite ST in E. injection E as <-.
      apply (IH w' G). destruct G as [w' pre suf ES EF' ET|u' w' W' EF' T']; [|apply W'].
      destruct (next_total strtod junk Bj (breaks u) w) as (tok & tk' & EN & NR).
      { rewrite EF in Bt. apply Forall_app in Bt as (_ & ?). auto. }
      unfold step in ST. rewrite T, EN in ST. cbn [bind] in ST.
      destruct NR as [a r t0 S Ew TL|a r t0 S Ew TL ET'|a x r t0 S Lx Ew].
      + rewrite (transition_err strtod m1 TErr t0 u) in ST by auto. injection ST as <-. auto.
      + rewrite (transition_err strtod m1 TEof t0 u) in ST by auto. injection ST as <-. auto.
      + destruct (transition_ok strtod m1 u t0 (JsonLexProofs.tk (0 :: junk) (breaks u + breaks a) r) x a W RU Lx S) as (m' & E' & _ & W').
        rewrite ST in E'. injection E' as <-. apply W'. }
  apply (G _ _ R t); [apply start_good|cbn; lia].
Qed.

(** Nesting beyond the limit is an error: what is accepted is less than 512 deep *)
Theorem C31_depth : forall strtod t junk fuel force v,
  Forall byte t -> Forall byte junk -> (length t < fuel)%nat ->
  parsex strtod fuel (t ++ 0 :: junk) (Z.of_nat (length t)) force = Ok (POk v) -> (depth v < 512)%nat.
Proof.
  intros strtod t junk fuel force v Bt Bj L E. destruct (parsex_total strtod junk Bj t fuel force Bt L) as (r & E' & P).
  rewrite E in E'. injection E' as <-. destruct P as (a & w & b & _ & _ & J & _). apply value_depth in J. lia.
Qed.

Definition nested (n : nat) : text := repeat 91 n ++ repeat 93 n.
Example C31_example :
  (match parsex (fun _ => 0) 2000 (nested 511 ++ [0]) 1022 true with Ok (POk v) => (depth v =? 511)%nat | _ => false end) = true /\
  parsex (fun _ => 0) 2000 (nested 512 ++ [0]) 1024 true = Ok (PErr 0) /\
  parsex (fun _ => 0) 2000 (repeat 91 1500 ++ [0]) 1500 true = Ok (PErr 0) /\
  (* [ LF 1 LF x *)
  parsex (fun _ => 0) 10 [91; 10; 49; 10; 120; 0] 5 true = Ok (PErr 2).
Proof. vm_compute. auto. Qed.

(** * C32 *)
(** Full statement: no byte at or beyond buf+len is read.  Proved when there is a
    NUL behind the text: then the block may end there, nothing beyond the NUL is
    read. *)
Theorem C32_bounds_partial : forall strtod t fuel force,
  Forall byte t -> (length t < fuel)%nat ->
  forall reason, parsex strtod fuel (t ++ [0]) (Z.of_nat (length t)) force <> Bad reason.
Proof.
  intros strtod t fuel force Bt L reason E.
  destruct (parsex_total strtod [] (Forall_nil _) t fuel force Bt L) as (r & E' & _). congruence.
Qed.
(** And the result does not depend on what comes after the NUL. *)
Theorem C32_independent_partial : forall strtod t junk fuel v,
  Forall byte t -> Forall byte junk -> (length t < fuel)%nat ->
  parsex strtod fuel (t ++ 0 :: junk) (Z.of_nat (length t)) true = Ok (POk v) <->
  parsex strtod fuel (t ++ [0]) (Z.of_nat (length t)) true = Ok (POk v).
Proof.
  intros strtod t junk fuel v Bt Bj L. rewrite parsex_exact by auto. rewrite parsex_exact by auto. reflexivity.
Qed.
(** A block that ends with the text is read beyond its end; and a text followed
    by more text is not parsed as what it is: of "12" only "1" is given. *)
Theorem C32_overread_refuted : exists t, forall strtod,
  parsex strtod 10 t (Z.of_nat (length t)) true = Bad OutOfBounds.
Proof. exists [49]. intros strtod. vm_compute. reflexivity. Qed.
Theorem C32_overread_value_refuted : exists t rest, forall strtod,
  parsex strtod 10 (t ++ [0]) (Z.of_nat (length t)) true = Ok (POk (JI64 1)) /\
  parsex strtod 10 (t ++ rest) (Z.of_nat (length t)) true = Ok (POk (JI64 12)).
Proof. exists [49], [50; 0]. intros strtod. vm_compute. auto. Qed.
Example C32_example : (* the closing quote missing, and a backslash at the end *)
  parsex (fun _ => 0) 10 [34; 97; 0] 2 true = Ok (PErr 0) /\
  parsex (fun _ => 0) 10 [34; 97; 92; 0] 3 true = Ok (PErr 0) /\
  parsex (fun _ => 0) 10 [34; 97; 92] 3 true = Bad OutOfBounds.
Proof. vm_compute. auto. Qed.

Print Assumptions C29_accepts_only_partial.
Print Assumptions C29_relaxed_language.
Print Assumptions C29_no_nul.
Print Assumptions C29_trailing_comma_refuted.
Print Assumptions C29_leading_zeros_refuted.
Print Assumptions C29_invalid_utf8_refuted.
Print Assumptions C29_unpaired_surrogate_refuted.
Print Assumptions C29_comment_refuted.
Print Assumptions C30_accepts_all_partial.
Print Assumptions C30_big_integer_refuted.
Print Assumptions C30_nul_refuted.
Print Assumptions C30_exact.
Print Assumptions C30_all_big_integers_refuted.
Print Assumptions C31_terminates_partial.
Print Assumptions C31_line_number_refuted.
Print Assumptions C31_stack.
Print Assumptions C31_depth.
Print Assumptions C32_bounds_partial.
Print Assumptions C32_independent_partial.
Print Assumptions C32_overread_refuted.
Print Assumptions C32_overread_value_refuted.
