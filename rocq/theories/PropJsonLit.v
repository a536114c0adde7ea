(** C36, C37: string and integer literals of JSON. *)
From Coq Require Import ZArith List Bool Lia.
From Verif Require Import Base NumeralProofs Utf8Model Utf8Proofs Json JsonTokModel JsonParseModel JsonSpec
  JsonStrProofs JsonTokProofs JsonLexProofs JsonParseProofs JsonLangProofs.
Import ListNotations.
Open Scope Z_scope.

(** * C36 *)
(** Whatever the bytes between the quotes, unescaping never fails and never
    writes outside its block of as many bytes; the result leaves room for the
    terminator, which is there. *)
Theorem C36_bounds : forall w, Forall byte w ->
  exists r, json_string_unescape w = Ok r /\
    forall block n, r = UNew block n -> (n < length w)%nat /\ length block = length w /\ nth n block 1 = 0.
Proof.
  intros w B. destruct (unescape_ok w B) as [(E & _)|[(E & _)|(s & _ & _ & _ & L & E)]]; rewrite E; eexists; (split; [reflexivity|]);
    intros block n EQ; try discriminate. injection EQ as <- <-.
  split; [auto|]. split; [rewrite app_length, repeat_length; lia|].
  rewrite app_nth2 by lia. replace (length s - length s)%nat with 0%nat by lia.
  destruct (length w - length s)%nat eqn:D; [lia|]. reflexivity.
Qed.

(** Every string of RFC 8259 is decoded: the result is the input itself if there
    is nothing to decode, otherwise a new block that starts with the decoded text. *)
Theorem C36_decodes : forall w s, chars w s ->
  (~ In 92 w /\ s = w /\ json_string_unescape w = Ok USame) \/
  (In 92 w /\ exists z, json_string_unescape w = Ok (UNew (s ++ 0 :: z) (length s))).
Proof.
  intros w s C. pose proof (chars_loose _ _ C) as L. pose proof (loose_chars_bytes _ _ L) as B.
  pose proof (loose_raw _ _ L) as R.
  destruct (unescape_ok w B) as [(E & X)|[(E & N & R')|(s' & I & R' & V & LS & E)]].
  - destruct (X s R) as (_ & NV). destruct NV. eapply chars_valid; eauto.
  - left. split; [auto|]. split; [|auto]. eapply raw_fun; eauto.
  - right. split; [auto|]. rewrite (raw_fun w s s' B R R') in *. destruct (length w - length s')%nat eqn:D; [lia|].
    exists (repeat 0 n). rewrite E. reflexivity.
Qed.

(** Full statement: unpaired surrogates are rejected.  Missing: a high surrogate
    at the very end of the string (refuted below).  Proved: a low surrogate
    anywhere, and a high surrogate followed by anything but a low one. *)
Theorem C36_unpaired_low : forall p sp h x q, chars p sp -> hex4 h x -> low_surrogate x -> Forall byte q ->
  json_string_unescape (p ++ [92; 117] ++ h ++ q) = Ok UErr.
Proof.
  intros p sp h x q C H L Bq.
  assert (B : Forall byte (p ++ [92; 117] ++ h ++ q)).
  { rewrite !Forall_app. split; [eapply loose_chars_bytes, chars_loose; eauto|]. split; [unfold byte; repeat constructor; lia|].
    split; [|auto]. destruct H as (a & b & c & d & va & vb & vc & vd & -> & A1 & A2 & A3 & A4 & _).
    apply hex_digit_range in A1, A2, A3, A4. unfold byte. repeat constructor; lia. }
  assert (NV : forall s, raw None (p ++ [92; 117] ++ h ++ q) s -> ~ valid_utf8 s).
  { intros s R V. apply (raw_chars p sp C) in R as (s1 & -> & R). cbn [app] in R.
    inversion R as [|c0 ? ? ? N92|e0 c0 ? ? I0|h' x' w'' s' H' NH' R'|h' x' w'' s' H' NH' R'| |]; subst.
    - congruence.
    - apply escape_range in I0. lia.
    - hexeq H. assert (V2 : valid_utf8 (utf8 x ++ s')).
      { unfold low_surrogate in L. unfold utf8 in *. destruct (Z.ltb_spec x 128); [lia|]. destruct (Z.ltb_spec x 2048); [lia|].
        destruct (Z.ltb_spec x 65536); [|lia]. cbn [app] in *. apply (valid_boundary _ _ ) in V as (_ & V); [exact V|].
        assert (13 <= x / 4096) by (apply Z.div_le_lower_bound; lia). lia. }
      exact (low_not_valid x s' L V2).
    - hexeq H. unfold high_surrogate, low_surrogate in *. lia. }
  destruct (unescape_ok _ B) as [(E & _)|[(E & N & _)|(s' & I & R' & V & _)]]; [auto| |destruct (NV s'); auto].
  destruct N. apply in_app_iff. right. left. auto.
Qed.
Theorem C36_unpaired_high_partial : forall p sp h x q, chars p sp -> hex4 h x -> high_surrogate x -> Forall byte q -> q <> [] ->
  (forall h2 y r, q = [92; 117] ++ h2 ++ r -> hex4 h2 y -> ~ low_surrogate y) ->
  json_string_unescape (p ++ [92; 117] ++ h ++ q) = Ok UErr.
Proof.
  intros p sp h x q C H L Bq NE NL.
  assert (B : Forall byte (p ++ [92; 117] ++ h ++ q)).
  { rewrite !Forall_app. split; [eapply loose_chars_bytes, chars_loose; eauto|]. split; [unfold byte; repeat constructor; lia|].
    split; [|auto]. destruct H as (a & b & c & d & va & vb & vc & vd & -> & A1 & A2 & A3 & A4 & _).
    apply hex_digit_range in A1, A2, A3, A4. unfold byte. repeat constructor; lia. }
  assert (NV : forall s, ~ raw None (p ++ [92; 117] ++ h ++ q) s).
  { intros s R. apply (raw_chars p sp C) in R as (s1 & -> & R). cbn [app] in R.
    inversion R as [|c0 ? ? ? N92|e0 c0 ? ? I0|h' x' w'' s' H' NH' R'|h' x' w'' s' H' NH' R'| |]; subst.
    - congruence.
    - apply escape_range in I0. lia.
    - hexeq H. contradiction.
    - hexeq H. inversion R' as [| | | | |hib hb xb wb sb Hb Nb R''|]; subst; [|congruence]. eapply NL; eauto. reflexivity. }
  destruct (unescape_ok _ B) as [(E & _)|[(E & N & R')|(s' & I & R' & _)]]; [auto|destruct (NV _ R')|destruct (NV _ R')].
Qed.
(** A string that consists of an unpaired high surrogate becomes the empty string. *)
Theorem C36_unpaired_surrogate_refuted : exists h x, hex4 h x /\ high_surrogate x /\
  json_string_unescape ([92; 117] ++ h) = Ok (UNew [0; 0; 0; 0; 0; 0] 0).
Proof.
  exists [100; 56; 48; 48], 55296. split; [exists 100, 56, 48, 48, 13, 8, 0, 0; unfold hex_digit; split; [auto|]; lia|].
  split; [unfold high_surrogate; lia|]. vm_compute. reflexivity.
Qed.

(** a\nA U+1F600, and errors: an unknown escape, a control character, three digits *)
Example C36_example :
  json_string_unescape [97; 92; 110; 92; 117; 48; 48; 52; 49; 92; 117; 68; 56; 51; 68; 92; 117; 68; 69; 48; 48] =
    Ok (UNew ([97; 10; 65; 240; 159; 152; 128] ++ repeat 0 14) 7) /\
  json_string_unescape [92; 120] = Ok UErr /\ json_string_unescape [97; 10] = Ok UErr /\
  json_string_unescape [92; 117; 48; 48; 52] = Ok UErr /\
  json_string_unescape [92; 117; 68; 69; 48; 48] = Ok UErr /\ json_string_unescape [97; 98] = Ok USame.
Proof. vm_compute. auto 10. Qed.

(** * C37 *)
(** Full statement: also literals that do not fit 64 bits give their value or are
    rejected (refuted below). *)
Theorem C37_exact_partial : forall strtod m ds junk fuel,
  minus m -> int_part ds -> - 2 ^ 63 <= integer_value m ds < 2 ^ 63 -> Forall byte junk -> (length (m ++ ds) < fuel)%nat ->
  parsex strtod fuel ((m ++ ds) ++ 0 :: junk) (Z.of_nat (length (m ++ ds))) true = Ok (POk (JI64 (integer_value m ds))).
Proof.
  intros strtod m ds junk fuel M I R Bj L.
  assert (J : jvalue loose_string (loose_number strtod) true 511 (m ++ ds) (JI64 (integer_value m ds))).
  { apply jv_num. apply rfc_loose_number. apply rn_int; auto. }
  apply parsex_exact; auto; [eapply loose_value_bytes; eauto|].
  exists [], (m ++ ds), []. rewrite app_nil_r. split; [auto|]. split; [constructor|]. split; [auto|]. left. constructor.
Qed.
(** Whatever its size, an integer literal gives the nearest 64-bit integer. *)
Theorem C37_nearest : forall strtod m ds junk fuel,
  minus m -> int_part ds -> Forall byte junk -> (length (m ++ ds) < fuel)%nat ->
  exists z, parsex strtod fuel ((m ++ ds) ++ 0 :: junk) (Z.of_nat (length (m ++ ds))) true = Ok (POk (JI64 z)) /\
    - 2 ^ 63 <= z < 2 ^ 63 /\
    forall z', - 2 ^ 63 <= z' < 2 ^ 63 -> Z.abs (z - integer_value m ds) <= Z.abs (z' - integer_value m ds).
Proof.
  intros strtod m ds junk fuel M I Bj L. exists (saturate (integer_value m ds)). split.
  - assert (J : jvalue loose_string (loose_number strtod) true 511 (m ++ ds) (JI64 (saturate (integer_value m ds)))).
    { apply jv_num. apply ln_int; auto. }
    apply parsex_exact; auto; [eapply loose_value_bytes; eauto|].
    exists [], (m ++ ds), []. rewrite app_nil_r. split; [auto|]. split; [constructor|]. split; [auto|]. left. constructor.
  - unfold saturate. generalize (integer_value m ds). intros v. clear.
    destruct (Z.ltb_spec v (- 2 ^ 63)); [split; [lia|intros; lia]|]. destruct (Z.leb_spec (2 ^ 63) v); (split; [lia|intros; lia]).
Qed.
Theorem C37_silent_change_refuted : exists ds z, forall strtod,
  int_part ds /\ integer_value [] ds <> z /\
  parsex strtod 30 (ds ++ [0]) (Z.of_nat (length ds)) true = Ok (POk (JI64 z)).
Proof.
  exists [57; 50; 50; 51; 51; 55; 50; 48; 51; 54; 56; 53; 52; 55; 55; 53; 56; 48; 56], 9223372036854775807.
  intros strtod. split; [|split; [vm_compute; discriminate|vm_compute; reflexivity]].
  split; [split; [discriminate|]|discriminate]. unfold digit_char. repeat constructor; lia.
Qed.
(** Leading zeros *)
Theorem C37_leading_zeros : forall strtod m ds junk fuel,
  minus m -> digits ds -> hd 0 ds = 48 -> ds <> [48] -> Forall byte junk -> (length (m ++ ds) < fuel)%nat ->
  exists line, parsex strtod fuel ((m ++ ds) ++ 0 :: junk) (Z.of_nat (length (m ++ ds))) true = Ok (PErr line).
Proof.
  intros strtod m ds junk fuel M D Z N Bj L.
  assert (B : Forall byte (m ++ ds)).
  { apply Forall_app. split; [destruct M as [-> | ->]; repeat constructor; unfold byte; lia|apply digits_bytes; auto]. }
  destruct (parsex_total strtod junk Bj (m ++ ds) fuel true B L) as ([v|line] & E & P); [|eauto].
  destruct P as (a & w & b & E' & Sa & J & T). exfalso. eapply zeros_rejected; eauto.
Qed.

Example C37_example : (* -9223372036854775808, 012, -0 *)
  parsex (fun _ => 0) 30 [45; 57; 50; 50; 51; 51; 55; 50; 48; 51; 54; 56; 53; 52; 55; 55; 53; 56; 48; 56; 0] 20 true =
    Ok (POk (JI64 (- 2 ^ 63))) /\
  parsex (fun _ => 0) 30 [48; 49; 50; 0] 3 true = Ok (PErr 0) /\
  parsex (fun _ => 0) 30 [45; 48; 0] 2 true = Ok (POk (JI64 0)) /\
  parsex (fun _ => 0) 30 [45; 0] 1 true = Ok (PErr 0).
Proof. vm_compute. auto. Qed.

Print Assumptions C36_bounds.
Print Assumptions C36_decodes.
Print Assumptions C36_unpaired_low.
Print Assumptions C36_unpaired_high_partial.
Print Assumptions C36_unpaired_surrogate_refuted.
Print Assumptions C37_exact_partial.
Print Assumptions C37_nearest.
Print Assumptions C37_silent_change_refuted.
Print Assumptions C37_leading_zeros.
