(** C67: JSON values in files.

    [strtod] is the library function and [fmt_g] what "%lg" prints, both any
    functions; [init] is what the memory from malloc contains. *)
From Coq Require Import ZArith List Bool Lia.
From Verif Require Import Base Numeral NumeralProofs BoxedModel Utf8Proofs Json JsonTokModel JsonParseModel JsonSpec
  JsonStrProofs JsonTokProofs JsonLexProofs JsonParseProofs JsonLangProofs PropJsonParse
  JsonPrintModel JsonPrintSpec JsonPrintProofs JsonPrintLang PropJsonPrint JsonFileModel JsonFileProofs.
Import ListNotations.
Open Scope Z_scope.
Local Arguments Z.add : simpl never.
Local Arguments Z.of_nat : simpl never.

(** * Loading *)
(** The last byte of the file *)
Definition ends_with (P : Z -> Prop) (file : text) : Prop := exists f c, file = f ++ [c] /\ P c.
Definition number (v : json) : Prop := (exists z, v = JI64 z) \/ exists z, v = JDouble z.

(** Full statement: a file with a JSON text gives its value. *)
Definition C67_statement : Prop := forall strtod file n v force_eof want_line fuel,
  rfc_json strtod n file v -> (n < 512)%nat -> (length file < fuel)%nat ->
  load_from_fileno strtod fuel file force_eof want_line = Ok (Some v, None).
(** Proved: if a number alone has white space behind it. *)
Theorem C67_load_partial : forall strtod file n v force_eof want_line fuel,
  rfc_json strtod n file v -> (number v -> ends_with ws file) -> (n < 512)%nat -> (length file < fuel)%nat ->
  load_from_fileno strtod fuel file force_eof want_line = Ok (Some v, None) /\
  load_from_file_path strtod fuel (Some file) force_eof want_line = Ok (Some v, None).
Proof.
  intros strtod file n v fe wl fuel (a & w & b & Sa & J & Sb & E) NW N L. apply rfc_loose_value in J as J'; [|lia].
  assert (H : parsex strtod fuel (file ++ []) (Z.of_nat (length file)) true = Ok (POk v)).
  { eapply parsex_complete; eauto; [|intros _; left; auto]. intros Nu.
    destruct NW as (f & c & Ef & Wc).
    { destruct v; try discriminate; unfold number; eauto. }
    destruct b as [|b0 b]; [|eexists _, _; split; [reflexivity|]; pose proof (Forall_inv Sb) as W0; unfold stop_char, digit_char, ws in *; lia].
    exfalso. rewrite app_nil_r in E. assert (I : exists i d, w = i ++ [d] /\ digit_char d).
    { clear - J Nu. destruct J; try discriminate. destruct H as [m ds M (D & _)|m i f e M (D & _) F EX NE].
      - destruct D as (NE & D). destruct (exists_last NE) as (i & d & ->). exists (m ++ i), d. rewrite app_assoc. split; [auto|].
        apply Forall_app in D as (_ & D). exact (Forall_inv D).
      - assert (G : forall ds, digits ds -> forall pre, exists i d, pre ++ ds = i ++ [d] /\ digit_char d).
        { intros ds (X & Y) pre. destruct (exists_last X) as (i0 & d & ->). exists (pre ++ i0), d. rewrite app_assoc. split; [auto|].
          apply Forall_app in Y as (_ & Y). exact (Forall_inv Y). }
        destruct EX as [-> |(e1 & s & ds & _ & _ & -> & Dd)].
        + destruct F as [-> |(fs & -> & Df)]; [destruct NE; auto|]. rewrite app_nil_r. change (46 :: fs) with ([46] ++ fs). rewrite !app_assoc. apply G. auto.
        + replace (m ++ i ++ f ++ e1 :: s ++ ds) with ((m ++ i ++ f ++ e1 :: s) ++ ds) by (rewrite <- !app_assoc; cbn [app]; auto). apply G. auto. }
    destruct I as (i & d & -> & D). rewrite Ef, app_assoc in E. apply app_inj_tail in E as (_ & ->). unfold ws, digit_char in *. lia. }
  rewrite app_nil_r in H. cbn [load_from_file_path]. unfold load_from_fileno. rewrite H. cbn [bind]. auto.
Qed.

(** What it returns, if it does not read outside the block, is right: a value if
    and only if the file has that value in the relaxed language that C29 is about,
    and otherwise NULL with the number of line breaks before some place. *)
Definition relaxed (strtod : text -> Z) (file : text) (v : json) : Prop :=
  exists a w b, file = a ++ w ++ b /\ spaces a /\ jvalue loose_string (loose_number strtod) true 511 w v /\
    (spaces b \/ exists b0 c d, b = b0 ++ [47; 47] ++ c ++ 0 :: d /\ spaces b0 /\ ~ In 10 c).
Theorem C67_load_sound : forall strtod file force_eof want_line fuel j line,
  Forall byte file -> (length file < fuel)%nat ->
  load_from_fileno strtod fuel file force_eof want_line = Ok (j, line) ->
  (forall v, j = Some v <-> relaxed strtod file v) /\
  (forall l, line = Some l -> j = None /\ want_line = true /\ exists before behind, file = before ++ behind /\ l = line_breaks before) /\
  (j = None -> want_line = true -> line <> None).
Proof.
  intros strtod file fe wl fuel j line B L H. unfold load_from_fileno in H.
  destruct (parsex strtod fuel file (Z.of_nat (length file)) true) as [r|] eqn:E; [|discriminate]. cbn [bind] in H.
  apply (parsex_more strtod [0]) in E.
  pose proof (fun v => C29_relaxed_language strtod file [] fuel v B (Forall_nil _) L) as R.
  destruct (C31_terminates_partial strtod file [] fuel true B (Forall_nil _) L) as (r' & E' & T). rewrite E in E'. injection E' as <-.
  rewrite E in R. destruct r as [v0|l0]; injection H as <- <-.
  - split; [|split; [discriminate|discriminate]]. intros v. unfold relaxed. rewrite <- R. split; [intros [= ->]; auto|intros [= ->]; auto].
  - split; [|split].
    + intros v. unfold relaxed. rewrite <- R. split; discriminate.
    + intros l Hl. destruct wl; [|discriminate]. injection Hl as ->. split; [auto|]. split; [auto|].
      destruct (T l eq_refl) as (p & s & E1 & E2 & _). exists p, s. auto.
    + intros _ -> X. discriminate.
Qed.

(** A block with a NUL behind the text: always, and exactly the relaxed language *)
Theorem C67_buffer : forall strtod t junk fuel, Forall byte t -> Forall byte junk -> (length t < fuel)%nat ->
  exists j, load_from_buffer strtod fuel (t ++ 0 :: junk) (Z.of_nat (length t)) = Ok j /\
    forall v, j = Some v <-> relaxed strtod t v.
Proof.
  intros strtod t junk fuel Bt Bj L. unfold load_from_buffer.
  pose proof (fun v => C29_relaxed_language strtod t junk fuel v Bt Bj L) as R.
  destruct (C31_terminates_partial strtod t junk fuel true Bt Bj L) as (r & E & _). rewrite E in *. cbn [bind].
  destruct r as [v0|l0]; eexists; (split; [reflexivity|]); intros v; unfold relaxed; rewrite <- R; split; try discriminate; intros [= ->]; auto.
Qed.

(** A number that ends the file: the parser reads the byte behind it, which is
    outside the block; so the full statement does not hold. *)
Theorem C67_number_refuted : exists file v, (forall strtod, rfc_json strtod 0 file v /\
  forall fuel fe wl, (length file < fuel)%nat -> load_from_fileno strtod fuel file fe wl = Bad OutOfBounds) /\ ~ C67_statement.
Proof.
  assert (B : forall strtod fuel fe wl, (2 < fuel)%nat -> load_from_fileno strtod fuel [52; 50] fe wl = Bad OutOfBounds).
  { intros strtod fuel fe wl L. destruct fuel; [lia|]. vm_compute. reflexivity. }
  assert (R : forall strtod, rfc_json strtod 0 [52; 50] (JI64 42)).
  { intros strtod. exists [], [52; 50], []. split; [constructor|]. split; [|split; [constructor|auto]]. apply jv_num.
    apply (rn_int _ [] [52; 50]); [left; auto| |unfold int64; vm_compute; split; congruence].
    split; [split; [discriminate|]|discriminate]. repeat constructor; discriminate. }
  exists [52; 50], (JI64 42). split; [auto|]. intros H.
  specialize (H (fun _ => 0) [52; 50] 0%nat (JI64 42) true true 10%nat (R _) ltac:(lia) ltac:(cbn; lia)). rewrite B in H by lia. discriminate.
Qed.
(** A file that ends in a string: the same; with a NUL behind it, that is an error. *)
Theorem C67_string_refuted : exists file, forall strtod,
  load_from_buffer strtod 10 (file ++ [0]) (Z.of_nat (length file)) = Ok None /\
  forall fe wl, load_from_fileno strtod 10 file fe wl = Bad OutOfBounds.
Proof. exists [34; 97]. intros strtod. split; [vm_compute; reflexivity|]. intros fe wl. vm_compute. reflexivity. Qed.
(** Both are so for all files: a number that is the last thing in the file, and a string that does not end. *)
Lemma digits_end ds : Forall digit_char ds -> digits_from ds = Bad OutOfBounds.
Proof. induction 1 as [|c ds D F IH]; cbn [digits_from]; [reflexivity|]. rewrite (proj2 (isdigit_iff c) D), IH. reflexivity. Qed.
Lemma fraction_end fs : digits fs -> fraction (46 :: fs) = Bad OutOfBounds.
Proof.
  intros (N & F). destruct fs as [|d fs]; [congruence|]. unfold fraction. cbn [rd bind tl]. change (46 =? 46) with true. cbn match.
  rewrite (proj2 (isdigit_iff d) (Forall_inv F)). cbn [negb]. rewrite (digits_end fs (Forall_inv_tail F)). reflexivity.
Qed.
Lemma exponent_end e : exp_part e -> exponent e = Bad OutOfBounds.
Proof.
  intros (c & sg & ds & Hc & Hs & -> & (N & F)). destruct ds as [|d ds]; [congruence|]. pose proof (Forall_inv F) as D. apply Forall_inv_tail in F.
  unfold exponent. cbn [rd bind tl]. replace ((c =? 101) || (c =? 69)) with true by (destruct Hc as [-> | ->]; reflexivity). cbn zeta.
  destruct Hs as [->|[->| ->]]; cbn [app rd bind tl].
  - assert ((d =? 43) || (d =? 45) = false) as -> by (unfold digit_char in D; destruct (Z.eqb_spec d 43), (Z.eqb_spec d 45); try lia; reflexivity).
    cbn [rd bind tl]. rewrite (proj2 (isdigit_iff d) D). cbn [negb]. rewrite (digits_end ds F). reflexivity.
  - change ((43 =? 43) || (43 =? 45)) with true. cbn [rd bind tl]. rewrite (proj2 (isdigit_iff d) D). cbn [negb]. rewrite (digits_end ds F). reflexivity.
  - change ((45 =? 43) || (45 =? 45)) with true. cbn [rd bind tl]. rewrite (proj2 (isdigit_iff d) D). cbn [negb]. rewrite (digits_end ds F). reflexivity.
Qed.
Lemma number_part strtod m i r : minus m -> digits i -> (r = [] \/ exists c r', r = c :: r' /\ ~ digit_char c /\ (let* x := fraction r in match x with None => Ok None | Some (f, q) => let* y := exponent q in Ok y end)%outcome = Bad OutOfBounds) ->
  parse_number strtod (m ++ i ++ r) = Bad OutOfBounds.
Proof.
  intros M (N & F) R. destruct i as [|d ds]; [congruence|]. pose proof (Forall_inv F) as D. apply Forall_inv_tail in F.
  assert (G : (let* (ds0, p) := digits_from (ds ++ r) in
     let* frac := fraction p in
     match frac with None => Ok None | Some (f, q) =>
       let* expo := exponent q in
       match expo with None => Ok None | Some (e, p) =>
         if is_nil e && (is_nil f && negb (length (d :: ds0) =? 1)%nat && (hd 0 (d :: ds0) =? 48)) then Ok None
         else if negb (is_nil e) || negb (is_nil f) then Ok (Some (TDouble (strtod ((match m with [] => [] | _ => [45] end) ++ (d :: ds0) ++ f ++ e)), p))
         else Ok (Some (TI64 (strtoll (match m with [] => false | _ => true end) (d :: ds0)), p)) end end)%outcome = Bad OutOfBounds).
  { destruct R as [->|(c & r' & -> & Nc & X)].
    - rewrite app_nil_r, (digits_end ds F). reflexivity.
    - rewrite digits_from_complete by assumption. cbn [bind]. destruct (fraction (c :: r')) as [[[f q]|]|e]; cbn [bind] in *; [|discriminate X|injection X as ->; reflexivity].
      destruct (exponent q) as [y|e]; cbn [bind] in *; [discriminate X|injection X as ->; reflexivity]. }
  unfold parse_number. destruct M as [-> | ->]; cbn [app rd bind tl].
  - assert (d =? 45 = false) as -> by (apply Z.eqb_neq; unfold digit_char in D; lia). cbn [rd bind tl]. rewrite (proj2 (isdigit_iff d) D). cbn [negb]. exact G.
  - change (45 =? 45) with true. cbn [rd bind tl]. rewrite (proj2 (isdigit_iff d) D). cbn [negb]. exact G.
Qed.
Lemma number_end strtod w v : loose_number strtod w v -> parse_number strtod w = Bad OutOfBounds.
Proof.
  intros [m ds M (D & _)|m i f e M D F E NE].
  - rewrite <- (app_nil_r ds). apply number_part; auto.
  - apply number_part; auto. right. destruct F as [->|(fs & -> & Df)].
    + destruct E as [->|E]; [destruct NE; reflexivity|]. pose proof E as (c & sg & ds & Hc & _ & Ee & _). exists c, (sg ++ ds). split; [exact Ee|].
      split; [unfold digit_char; lia|]. cbn [app]. unfold fraction. rewrite Ee at 1. cbn [rd bind]. assert (c =? 46 = false) as -> by (apply Z.eqb_neq; lia). cbn [bind].
      rewrite (exponent_end e E). reflexivity.
    + exists 46, (fs ++ e). split; [reflexivity|]. split; [unfold digit_char; lia|]. cbn [app]. destruct E as [->|E].
      * rewrite app_nil_r, (fraction_end fs Df). reflexivity.
      * pose proof E as (c & sg & ds & Hc & _ & Ee & _).
        assert (Fc : fraction (46 :: fs ++ e) = Ok (Some (46 :: fs, e))).
        { rewrite Ee. apply (fraction_complete (46 :: fs)); [right; exists fs; auto| |]; [eexists _, _; split; [reflexivity|]; unfold digit_char; lia|cbn [hd]; lia]. }
        rewrite Fc. cbn [bind]. rewrite (exponent_end e E). reflexivity.
Qed.
Lemma parse_bad strtod fuel t force e : (0 < fuel)%nat -> next_token_from strtod t 0 (Z.of_nat (length t)) = Bad e ->
  parsex strtod fuel t (Z.of_nat (length t)) force = Bad e.
Proof.
  intros L N. unfold parsex. destruct fuel as [|fuel]; [lia|]. cbn [JsonParseModel.run].
  change (running (Machine VALUE [Frame DONE None None] None (Tok 0 t (Z.of_nat (length t))) None)) with true. cbn match.
  unfold JsonParseModel.step, next_token. cbn [m_tok t_buf t_line t_left]. rewrite N. reflexivity.
Qed.
Lemma load_bad strtod fuel file fe wl e : (0 < fuel)%nat -> next_token_from strtod file 0 (Z.of_nat (length file)) = Bad e -> load_from_fileno strtod fuel file fe wl = Bad e.
Proof.
  intros L N. unfold load_from_fileno, parsex. destruct fuel as [|fuel]; [lia|]. cbn [JsonParseModel.run].
  change (running (Machine VALUE [Frame DONE None None] None (Tok 0 file (Z.of_nat (length file))) None)) with true. cbn match.
  unfold JsonParseModel.step, next_token. cbn [m_tok t_buf t_line t_left]. rewrite N. reflexivity.
Qed.
Lemma number_last strtod file n v : rfc_json strtod n file v -> (n < 512)%nat -> number v -> ~ ends_with ws file ->
  next_token_from strtod file 0 (Z.of_nat (length file)) = Bad OutOfBounds.
Proof.
  intros (a & w & b & Sa & J & Sb & E) Nn Nu NW.
  destruct b as [|b0 b].
  2:{ exfalso. apply NW. destruct (exists_last (l := b0 :: b) ltac:(discriminate)) as (b1 & c & Eb). exists (a ++ w ++ b1), c. rewrite E, Eb, <- !app_assoc. split; [reflexivity|].
      rewrite Eb in Sb. apply Forall_app in Sb as (_ & Sb). exact (Forall_inv Sb). }
  rewrite app_nil_r in E. subst file. apply rfc_loose_value in J as J'; [|lia].
  assert (R : rfc_number strtod w v) by (destruct Nu as [(z & ->)|(z & ->)]; inversion J; assumption).
  apply rfc_loose_number in R. pose proof (next_ws strtod [] 0 a w _ Sa eq_refl) as X. rewrite !app_nil_r in X. rewrite X. clear X.
  pose proof (number_end _ _ _ R) as P. destruct (number_head _ _ _ R) as (c & w' & -> & Hc). cbn [next_token_from length].
  destruct (Z.leb_spec (Z.of_nat (S (length w'))) 0); [lia|]. rewrite P.
  assert (K : forall x, In x [91; 123; 58; 44; 125; 93; 10; 13; 32; 9; 34; 116; 110; 102] -> c =? x = false).
  { intros x I. apply Z.eqb_neq. intros ->. unfold digit_char in Hc. cbn [In] in I. lia. }
  rewrite !K by (cbn [In]; tauto). cbn [orb].
  assert ((c =? 45) || isdigit c = true) as ->; [|reflexivity]. destruct Hc as [->|D]; [reflexivity|]. rewrite (proj2 (isdigit_iff c) D). apply orb_true_r.
Qed.
Theorem C67_number_all_refuted : forall strtod file n v fuel fe wl,
  rfc_json strtod n file v -> (n < 512)%nat -> number v -> ~ ends_with ws file -> (length file < fuel)%nat ->
  load_from_fileno strtod fuel file fe wl = Bad OutOfBounds.
Proof. intros strtod file n v fuel fe wl J Nn Nu NW L. apply load_bad; [lia|]. eapply number_last; eauto. Qed.
(** C32: so does the parser with any text that is a number, in a block that ends
    with it. *)
Theorem C32_number_all_refuted : forall strtod t n v fuel force,
  rfc_json strtod n t v -> (n < 512)%nat -> number v -> ~ ends_with ws t -> (0 < fuel)%nat ->
  parsex strtod fuel t (Z.of_nat (length t)) force = Bad OutOfBounds.
Proof. intros. apply parse_bad; [lia|]. eapply number_last; eauto. Qed.
(** And if a number goes on behind the end of the text, all of it is read, whatever
    length was given. *)
Theorem C32_overread_value_all_refuted : forall strtod w v rest len fuel force,
  loose_number strtod w v -> stops rest -> 0 < len <= Z.of_nat (length w) -> (3 <= fuel)%nat ->
  parsex strtod fuel (w ++ rest) len force = Ok (POk v).
Proof.
  intros strtod w v rest len fuel force J St Le L. pose proof (parse_number_complete strtod w v rest J St) as P.
  assert (V : (exists z, v = JI64 z) \/ exists z, v = JDouble z) by (destruct J; eauto).
  destruct (number_head _ _ _ J) as (c & w' & -> & Hc).
  assert (K : forall x, In x [91; 123; 58; 44; 125; 93; 10; 13; 32; 9; 34; 116; 110; 102] -> c =? x = false).
  { intros x I. apply Z.eqb_neq. intros ->. unfold digit_char in Hc. cbn [In] in I. lia. }
  assert (Ed : (c =? 45) || isdigit c = true) by (destruct Hc as [->|D]; [reflexivity|]; rewrite (proj2 (isdigit_iff c) D); apply orb_true_r).
  assert (N : next_token_from strtod ((c :: w') ++ rest) 0 len = Ok (number_token v, Tok 0 rest (len - Z.of_nat (length (c :: w'))))).
  { cbn [app next_token_from] in *. destruct (Z.leb_spec len 0); [lia|]. rewrite !K by (cbn [In]; tauto). cbn [orb]. rewrite Ed, P. cbn [bind].
    unfold t_move. cbn [t_line t_buf t_left]. do 3 f_equal. cbn [length]. rewrite app_length. lia. }
  assert (N2 : next_token_from strtod rest 0 (len - Z.of_nat (length (c :: w'))) = Ok (TEof, Tok 0 rest (len - Z.of_nat (length (c :: w'))))).
  { destruct rest; cbn [next_token_from]; (destruct (Z.leb_spec (len - Z.of_nat (length (c :: w'))) 0); [reflexivity|lia]). }
  do 3 (destruct fuel as [|fuel]; [lia|]). unfold parsex. cbn [JsonParseModel.run].
  change (running (Machine VALUE [Frame DONE None None] None (Tok 0 ((c :: w') ++ rest) len) None)) with true. cbn match.
  unfold JsonParseModel.step at 1, next_token at 1. cbn [m_tok t_buf t_line t_left]. rewrite N. cbn [bind].
  cbn [length] in N2. destruct V as [(z & ->)|(z & ->)]; cbn; unfold next_token; cbn [t_buf t_line t_left m_tok]; destruct force; rewrite ?N2; reflexivity.
Qed.
Example C32_all_example :
  parsex (fun _ => 0) 9 [45; 49; 46; 53] 4 true = Bad OutOfBounds /\
  parsex (fun w => Z.of_nat (length w)) 9 [45; 49; 46; 53; 101; 51; 44] 2 true = Ok (POk (JDouble 6)).
Proof. vm_compute. auto. Qed.
(** A string that begins and does not end: in a file it is read past the block; before a NUL it is an error. *)
Theorem C67_string_all_refuted : forall strtod a body fuel fe wl,
  spaces a -> Forall (fun c => c <> 0 /\ c <> 34 /\ c <> 92) body -> (0 < fuel)%nat ->
  let file := a ++ 34 :: body in
  load_from_fileno strtod fuel file fe wl = Bad OutOfBounds /\
  load_from_buffer strtod fuel (file ++ [0]) (Z.of_nat (length file)) = Ok None.
Proof.
  intros strtod a body fuel fe wl Sa F L file.
  assert (E1 : string_end body = Bad OutOfBounds).
  { clear - F. induction F as [|c b (N0 & N1 & N2) F IH]; cbn [string_end]; [reflexivity|].
    destruct (Z.eqb_spec c 0), (Z.eqb_spec c 34), (Z.eqb_spec c 92); try lia. cbn [orb]. rewrite IH. reflexivity. }
  assert (E2 : string_end (body ++ [0]) = Ok (body, [0])).
  { clear - F. induction F as [|c b (N0 & N1 & N2) F IH]; cbn [string_end app]; [reflexivity|].
    destruct (Z.eqb_spec c 0), (Z.eqb_spec c 34), (Z.eqb_spec c 92); try lia. cbn [orb]. rewrite IH. reflexivity. }
  split.
  - apply load_bad; [exact L|]. pose proof (next_ws strtod [] 0 a (34 :: body) _ Sa eq_refl) as X. rewrite !app_nil_r in X. unfold file. rewrite X.
    cbn [next_token_from length]. destruct (Z.leb_spec (Z.of_nat (S (length body))) 0); [lia|]. cbn [Z.eqb Pos.eqb orb]. unfold parse_string. rewrite E1. reflexivity.
  - unfold load_from_buffer, parsex. destruct fuel as [|fuel]; [lia|]. cbn [JsonParseModel.run].
    change (running (Machine VALUE [Frame DONE None None] None (Tok 0 (file ++ [0]) (Z.of_nat (length file))) None)) with true. cbn match.
    unfold JsonParseModel.step, next_token. cbn [m_tok t_buf t_line t_left]. unfold file. rewrite (next_ws strtod [0] 0 a (34 :: body) _ Sa eq_refl).
    cbn [app next_token_from length]. destruct (Z.leb_spec (Z.of_nat (S (length body))) 0); [lia|]. cbn [Z.eqb Pos.eqb orb]. unfold parse_string. rewrite E2.
    cbn [bind rd]. change (0 =? 34) with false. cbn [negb bind transition m_stack m_state is_punct scalar]. destruct fuel; reflexivity.
Qed.
Example C67_all_example : forall strtod,
  load_from_fileno strtod 20 [32; 45; 49; 46; 53; 101; 43; 55] true true = Bad OutOfBounds /\ load_from_fileno strtod 20 [91; 49; 93] true true = Ok (Some (JArr [JI64 1]), None) /\
  ~ ends_with ws [32; 45; 49; 46; 53; 101; 43; 55].
Proof.
  intros strtod. split; [vm_compute; reflexivity|]. split; [vm_compute; reflexivity|]. intros (f & c & E & W). change [32; 45; 49; 46; 53; 101; 43; 55] with ([32; 45; 49; 46; 53; 101; 43] ++ [55]) in E.
  apply app_inj_tail in E as (_ & <-). unfold ws in W. lia.
Qed.
(** force_eof is not looked at: with false, the parser would take the value at the
    start of the file. *)
Theorem C67_force_eof_refuted : exists file v, forall strtod,
  parsex strtod 10 file (Z.of_nat (length file)) false = Ok (POk v) /\
  load_from_fileno strtod 10 file false true = Ok (None, Some 0).
Proof. exists [91; 93; 32; 93], (JArr []). intros strtod. vm_compute. auto. Qed.
(** A path that cannot be opened: the program ends. *)
Theorem C67_path_refuted : forall strtod fuel fe wl, load_from_file_path strtod fuel None fe wl = Bad Abort.
Proof. reflexivity. Qed.

(** * Saving *)
(** The text, all of it, or [false] and as much of it as there was room for *)
Theorem C67_save : forall fmt_g init how j file room, everywhere (ordinary fmt_g) j -> (height j <= max_height how)%nat ->
  exists steps, forall fuel, (steps <= fuel)%nat ->
    let t := text_of fmt_g (match how with PRETTY => true | COMPACT => false end) 0 j in
    match room with
    | None => save_fileno fmt_g fuel init j (WFile file None) how = Ok (true, WFile (file ++ t) None)
    | Some r =>
      ((length t <= r)%nat -> save_fileno fmt_g fuel init j (WFile file room) how = Ok (true, WFile (file ++ t) (Some (r - length t)%nat))) /\
      ((r < length t)%nat -> save_fileno fmt_g fuel init j (WFile file room) how = Ok (false, WFile (file ++ firstn r t) (Some 0%nat)))
    end.
Proof.
  intros fmt_g init how j file room E H. exists (cost j). intros fuel L t. apply fits_height in H.
  assert (S : forall f, save_fileno fmt_g fuel init j f how = let (n, f) := c_write f t in Ok (n =? Z.of_nat (length t), f))
    by (intros f; exact (save_ok fmt_g fuel init j f how E H L)).
  destruct room as [r|]; [split; intros Lr|]; rewrite S.
  - rewrite write_fits by auto. rewrite Z.eqb_refl. auto.
  - destruct (write_short (WFile file (Some r)) t r eq_refl Lr) as (n & -> & N). destruct (Z.eqb_spec n (Z.of_nat (length t))); [congruence|auto].
  - rewrite write_fits by (cbn; auto). rewrite Z.eqb_refl. auto.
Qed.

(** * There and back *)
Theorem C67_round_trip_partial : forall fmt_g strtod init how j force_eof want_line,
  everywhere plain j -> (height j <= max_height how)%nat -> ~ number j ->
  exists steps t, forall fuel, (steps <= fuel)%nat ->
    save_fileno fmt_g fuel init j (WFile [] None) how = Ok (true, WFile t None) /\
    load_from_fileno strtod fuel t force_eof want_line = Ok (Some j, None).
Proof.
  intros fmt_g strtod init how j fe wl E H NN.
  destruct (C67_save fmt_g init how j [] None) as (steps & S); [eapply everywhere_impl; [|exact E]; apply plain_ordinary|auto|].
  cbn zeta in S. set (t := text_of fmt_g match how with PRETTY => true | COMPACT => false end 0 j) in *.
  exists (steps + Datatypes.S (length t))%nat, t. intros fuel L. split; [apply S; lia|]. set (dv := fun _ : Z => JNull).
  destruct (denotes_ok fmt_g (is_pretty how) rfc_string (rfc_number strtod) dv j 0%nat 511%nat) as (a & w & b & Et & Sa & Sb & J).
  - eapply everywhere_impl; [|exact E]. apply plain_denotable.
  - pose proof (depth_height j). destruct how; unfold max_height in H; lia.
  - rewrite plain_same in J by auto. apply (C67_load_partial strtod t 511 j fe wl fuel); [|intros; contradiction|lia|lia].
    exists a, w, b. auto.
Qed.
(** An integer alone does not come back. *)
Theorem C67_round_trip_refuted : exists j, everywhere plain j /\ (height j <= max_height COMPACT)%nat /\
  forall fmt_g strtod init, exists t,
    save_fileno fmt_g 10 init j (WFile [] None) COMPACT = Ok (true, WFile t None) /\
    forall fe wl, load_from_fileno strtod 10 t fe wl = Bad OutOfBounds.
Proof.
  exists (JI64 42). split; [cbn; unfold int64; lia|]. split; [cbn; lia|]. intros fmt_g strtod init. eexists. split; [vm_compute; reflexivity|].
  intros fe wl. vm_compute. reflexivity.
Qed.

Example C67_example :
  (let f := match save_fileno (fun _ _ => []) 100 (fun _ => 7) sample_value (WFile [] None) PRETTY with Ok (_, f) => w_bytes f | _ => [] end in
   length f = 112%nat /\ load_from_fileno (fun _ => 0) 500 f true true = Ok (Some sample_value, None)) /\
  save_fileno (fun _ _ => []) 100 (fun _ => 7) (JArr [JI64 1; JNull]) (WFile [35] (Some 4%nat)) COMPACT =
    Ok (false, WFile [35; 91; 49; 44; 110] (Some 0%nat)) /\
  (* a number and a line break, an error in the third line, an empty file *)
  load_from_fileno (fun _ => 0) 10 [52; 50; 10] true true = Ok (Some (JI64 42), None) /\
  load_from_fileno (fun _ => 0) 10 [91; 10; 49; 10; 125] true true = Ok (None, Some 2) /\
  load_from_fileno (fun _ => 0) 10 [] true true = Ok (None, Some 0).
Proof. vm_compute. auto 10. Qed.

Print Assumptions C67_load_partial.
Print Assumptions C67_load_sound.
Print Assumptions C67_buffer.
Print Assumptions C67_number_refuted.
Print Assumptions C67_string_refuted.
Print Assumptions C67_number_all_refuted.
Print Assumptions C32_number_all_refuted.
Print Assumptions C32_overread_value_all_refuted.
Print Assumptions C67_string_all_refuted.
Print Assumptions C67_force_eof_refuted.
Print Assumptions C67_path_refuted.
Print Assumptions C67_save.
Print Assumptions C67_round_trip_partial.
Print Assumptions C67_round_trip_refuted.
