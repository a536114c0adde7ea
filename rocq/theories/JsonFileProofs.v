(** Proofs about loading and saving: a longer block does not change what the
    parser finds in a shorter one. *)
From Coq Require Import ZArith List Bool Lia.
From Verif Require Import Base Numeral BoxedModel Json JsonSpec JsonPrintModel JsonPrintSpec JsonPrintProofs
  JsonTokModel JsonParseModel JsonTokProofs JsonLexProofs JsonParseProofs JsonLangProofs JsonFileModel.
Import ListNotations.
Open Scope Z_scope.
Open Scope outcome_scope.
Local Arguments Z.add : simpl never.
Local Arguments Z.of_nat : simpl never.

(** * Longer blocks *)
Section Longer.
Variable strtod : text -> Z.
Variable x : text.

Definition longer (e : text) : text := e ++ x.
Lemma rd_more p c : rd p = Ok c -> rd (p ++ x) = Ok c /\ tl (p ++ x) = tl p ++ x.
Proof. destruct p; [discriminate|]. cbn. auto. Qed.
Lemma check_more s : forall p r, check p s = Ok r -> check (p ++ x) s = Ok (option_map longer r).
Proof.
  induction s as [|c s IH]; intros p r; cbn [check]; [intros [= <-]; auto|].
  destruct (rd p) as [d|] eqn:E; [|discriminate]. cbn [bind]. destruct (rd_more p d E) as (-> & ->). cbn [bind].
  destruct (d =? c); [apply IH|intros [= <-]; auto].
Qed.
Lemma string_end_more : forall n p, (length p <= n)%nat -> forall b e, string_end p = Ok (b, e) -> string_end (p ++ x) = Ok (b, e ++ x).
Proof.
  induction n as [|n IH]; intros p L b e; (destruct p as [|c p]; [discriminate|]); cbn [length] in L; [lia|]. cbn [app string_end].
  destruct ((c =? 0) || (c =? 34)); [intros [= <- <-]; auto|]. destruct (c =? 92).
  - destruct p as [|c2 p2]; [discriminate|]. cbn [app]. destruct (c2 =? 0); [intros [= <- <-]; auto|].
    destruct (string_end p2) as [(b', e')|] eqn:E; [|discriminate]. cbn [bind]. intros [= <- <-].
    rewrite (IH p2 ltac:(cbn [length] in L; lia) b' e' E). auto.
  - destruct (string_end p) as [(b', e')|] eqn:E; [|discriminate]. cbn [bind]. intros [= <- <-]. rewrite (IH p ltac:(lia) b' e' E). auto.
Qed.
Definition longer2 {A} (r : A * text) : A * text := (fst r, snd r ++ x).
Lemma parse_string_more p r : parse_string p = Ok r -> parse_string (p ++ x) = Ok (option_map longer2 r).
Proof.
  unfold parse_string. destruct (string_end p) as [(b, e)|] eqn:E; [|discriminate]. rewrite (string_end_more (length p) p (le_n _) b e E). cbn [bind].
  destruct (rd e) as [q|] eqn:Q; [|discriminate]. destruct (rd_more e q Q) as (-> & T). cbn [bind].
  destruct (negb (q =? 34)); [intros [= <-]; auto|]. destruct (json_string_unescape b) as [[| |block n]|]; cbn [bind]; [intros [= <-]; auto| |  |discriminate].
  - intros [= <-]. rewrite T. auto.
  - destruct (c_string block); cbn [bind]; [|discriminate]. intros [= <-]. rewrite T. auto.
Qed.
Lemma digits_more : forall p d e, digits_from p = Ok (d, e) -> digits_from (p ++ x) = Ok (d, e ++ x).
Proof.
  induction p as [|c p IH]; intros d e; cbn [digits_from app]; [discriminate|]. destruct (isdigit c); [|intros [= <- <-]; auto].
  destruct (digits_from p) as [(d', e')|]; [|discriminate]. cbn [bind]. intros [= <- <-]. rewrite (IH d' e' eq_refl). auto.
Qed.
Lemma fraction_more p r : fraction p = Ok r -> fraction (p ++ x) = Ok (option_map longer2 r).
Proof.
  unfold fraction. destruct (rd p) as [c|] eqn:E; [|discriminate]. destruct (rd_more p c E) as (-> & ->). cbn [bind].
  destruct (c =? 46); [|intros [= <-]; auto]. destruct (rd (tl p)) as [d|] eqn:E2; [|discriminate]. destruct (rd_more _ d E2) as (-> & ->). cbn [bind].
  destruct (negb (isdigit d)); [intros [= <-]; auto|]. destruct (digits_from (tl (tl p))) as [(ds, e)|] eqn:E3; [|discriminate].
  rewrite (digits_more _ _ _ E3). cbn [bind]. intros [= <-]. auto.
Qed.
Lemma exponent_more p r : exponent p = Ok r -> exponent (p ++ x) = Ok (option_map longer2 r).
Proof.
  unfold exponent. destruct (rd p) as [c|] eqn:E; [|discriminate]. destruct (rd_more p c E) as (-> & ->). cbn [bind].
  destruct ((c =? 101) || (c =? 69)); [|intros [= <-]; auto]. destruct (rd (tl p)) as [d|] eqn:E2; [|discriminate]. destruct (rd_more _ d E2) as (-> & T2). cbn [bind].
  destruct ((d =? 43) || (d =? 45)).
  - rewrite T2. destruct (rd (tl (tl p))) as [q|] eqn:E3; [|discriminate]. destruct (rd_more _ q E3) as (-> & T3). cbn [bind].
    destruct (negb (isdigit q)); [intros [= <-]; auto|]. rewrite T3. destruct (digits_from (tl (tl (tl p)))) as [(ds, e)|] eqn:E4; [|discriminate].
    rewrite (digits_more _ _ _ E4). cbn [bind]. intros [= <-]. auto.
  - rewrite (proj1 (rd_more _ d E2)). rewrite E2. cbn [bind].
    destruct (negb (isdigit d)); [intros [= <-]; auto|]. rewrite T2. destruct (digits_from (tl (tl p))) as [(ds, e)|] eqn:E4; [|discriminate].
    rewrite (digits_more _ _ _ E4). cbn [bind]. intros [= <-]. auto.
Qed.
Lemma number_tail_more c neg p r :
  (let* (ds, p) := digits_from p in
   let int_part := c :: ds in
   let* frac := fraction p in
   match frac with
   | None => Ok None
   | Some (frac, p) =>
     let* expo := exponent p in
     match expo with
     | None => Ok None
     | Some (expo, p) =>
       if is_nil expo && (is_nil frac && negb (length int_part =? 1)%nat && (hd 0 int_part =? 48)) then Ok None
       else if negb (is_nil expo) || negb (is_nil frac)
       then Ok (Some (TDouble (strtod ((if neg : bool then [45] else []) ++ int_part ++ frac ++ expo)), p))
       else Ok (Some (TI64 (strtoll neg int_part), p))
     end
   end) = Ok r ->
  (let* (ds, p) := digits_from (p ++ x) in
   let int_part := c :: ds in
   let* frac := fraction p in
   match frac with
   | None => Ok None
   | Some (frac, p) =>
     let* expo := exponent p in
     match expo with
     | None => Ok None
     | Some (expo, p) =>
       if is_nil expo && (is_nil frac && negb (length int_part =? 1)%nat && (hd 0 int_part =? 48)) then Ok None
       else if negb (is_nil expo) || negb (is_nil frac)
       then Ok (Some (TDouble (strtod ((if neg : bool then [45] else []) ++ int_part ++ frac ++ expo)), p))
       else Ok (Some (TI64 (strtoll neg int_part), p))
     end
   end) = Ok (option_map longer2 r).
Proof.
  destruct (digits_from p) as [(ds, p1)|] eqn:E; [|discriminate]. rewrite (digits_more _ _ _ E). cbn [bind].
  destruct (fraction p1) as [f|] eqn:F; [|discriminate]. rewrite (fraction_more _ _ F). cbn [bind].
  destruct f as [(f, p2)|]; [|intros [= <-]; auto]. cbn [option_map longer2 fst snd].
  destruct (exponent p2) as [g|] eqn:G; [|discriminate]. rewrite (exponent_more _ _ G). cbn [bind].
  destruct g as [(g, p3)|]; [|intros [= <-]; auto]. cbn [option_map longer2 fst snd].
  destruct (is_nil g && _); [intros [= <-]; auto|]. destruct (_ || _); intros [= <-]; auto.
Qed.
Lemma parse_number_more p r : parse_number strtod p = Ok r -> parse_number strtod (p ++ x) = Ok (option_map longer2 r).
Proof.
  unfold parse_number. destruct (rd p) as [c|] eqn:E; [|discriminate]. destruct (rd_more p c E) as (-> & T). cbn [bind]. rewrite T.
  destruct (c =? 45).
  - destruct (rd (tl p)) as [d|] eqn:E2; [|discriminate]. destruct (rd_more _ d E2) as (-> & T2). cbn [bind]. rewrite T2.
    destruct (negb (isdigit d)); [intros [= <-]; auto|]. apply (number_tail_more d true).
  - rewrite (proj1 (rd_more p c E)), E, T. cbn [bind]. destruct (negb (isdigit c)); [intros [= <-]; auto|]. apply (number_tail_more c false).
Qed.
Lemma skip_comment_more : forall p left k, skip_comment p left = Ok k -> skip_comment (p ++ x) left = Ok k.
Proof.
  induction p as [|c p IH]; intros left k; cbn [skip_comment app].
  - destruct x; cbn [skip_comment]; destruct (left <=? 0); auto; discriminate.
  - destruct (left <=? 0); [auto|]. destruct (c =? 0); [auto|]. destruct (c =? 10); [auto|]. apply IH.
Qed.

(** The tokenizer with the same text in the longer block *)
Definition lt (t : tokenizer) : tokenizer := Tok (t_line t) (t_buf t ++ x) (t_left t).
Lemma move_more t p : t_move (lt t) (p ++ x) = lt (t_move t p).
Proof. unfold t_move, lt. cbn [t_line t_buf t_left]. f_equal. rewrite !app_length. lia. Qed.
Lemma next_more : forall buf line left t t', next_token_from strtod buf line left = Ok (t, t') ->
  next_token_from strtod (buf ++ x) line left = Ok (t, lt t').
Proof.
  induction buf as [|c r IH]; intros line left t t'.
  - cbn [next_token_from app]. destruct (left <=? 0) eqn:L; [|discriminate]. intros [= <- <-]. unfold lt. cbn [t_line t_buf t_left app]. destruct x; cbn [next_token_from]; rewrite L; auto.
  - cbn [next_token_from app]. destruct (left <=? 0); [intros [= <- <-]; auto|].
    pose proof (move_more (Tok line (c :: r) left)) as M. change (lt (Tok line (c :: r) left)) with (Tok line (c :: r ++ x) left) in M.
    destruct ((c =? 91) || _ || _ || _ || _ || _); [intros [= <- <-]; rewrite M; auto|].
    destruct ((c =? 10) || (c =? 13)); [apply IH|]. destruct ((c =? 32) || (c =? 9)); [apply IH|].
    destruct (c =? 34).
    { destruct (parse_string r) as [q|] eqn:E; [|discriminate]. rewrite (parse_string_more _ _ E). cbn [bind]. destruct q as [(s, p)|]; cbn [option_map longer2 fst snd]; intros [= <- <-]; [rewrite M|]; auto. }
    assert (K : forall kw k, (let* y := check r kw in match y with Some p => Ok (k, t_move (Tok line (c :: r) left) p) | None => Ok (TErr, Tok line (c :: r) left) end) = Ok (t, t') ->
      (let* y := check (r ++ x) kw in match y with Some p => Ok (k, t_move (Tok line (c :: r ++ x) left) p) | None => Ok (TErr, Tok line (c :: r ++ x) left) end) = Ok (t, lt t')).
    { intros kw k. destruct (check r kw) as [q|] eqn:E; [|discriminate]. rewrite (check_more _ _ _ E). cbn [bind]. destruct q as [p|]; cbn [option_map]; intros [= <- <-]; unfold longer; [rewrite M|]; auto. }
    destruct (c =? 116); [apply K|]. destruct (c =? 110); [apply K|]. destruct (c =? 102); [apply K|].
    destruct ((c =? 45) || isdigit c).
    { destruct (parse_number strtod (c :: r)) as [q|] eqn:E; [|discriminate]. apply parse_number_more in E. cbn [app] in E. rewrite E. cbn [bind].
      destruct q as [(s, p)|]; cbn [option_map longer2 fst snd]; intros [= <- <-]; [rewrite M|]; auto. }
    destruct (c =? 47); [|intros [= <- <-]; auto].
    destruct (check r [47]) as [q|] eqn:E; [|discriminate]. rewrite (check_more _ _ _ E). cbn [bind]. destruct q as [p|]; cbn [option_map]; [|intros [= <- <-]; auto].
    cbn [t_left]. unfold longer. destruct (skip_comment p (left - 2)) as [k|] eqn:SK; [|discriminate]. rewrite (skip_comment_more _ _ _ SK). cbn [bind]. intros [= <- <-]. auto.
Qed.

Definition lm (m : machine) : machine := Machine (m_state m) (m_stack m) (m_key m) (lt (m_tok m)) (m_result m).
Lemma transition_more m t tok m' : transition m t tok = Ok m' -> transition (lm m) t (lt tok) = Ok (lm m').
Proof.
  intros H. pose proof (transition_tok _ _ _ _ H) as T. revert H. unfold transition, pop, lm. cbn [m_stack m_state m_key m_tok m_result]. rewrite T.
  destruct (m_stack m) as [|top below]; [discriminate|].
  intros H. repeat (match goal with
  | H : context [match ?y with _ => _ end] |- _ => destruct y eqn:?
  | H : context [if ?y then _ else _] |- _ => destruct y eqn:?
  | H : bind ?y _ = Ok _ |- _ => destruct y eqn:?; cbn [bind] in *
  end; try discriminate); injection H as <-; reflexivity.
Qed.
Lemma run_more : forall fuel m m', run strtod fuel m = Ok m' -> run strtod fuel (lm m) = Ok (lm m').
Proof.
  assert (R : forall m, running (lm m) = running m) by reflexivity.
  induction fuel as [|n IH]; intros m m'; cbn [run]; rewrite R; destruct (running m); try discriminate; try (intros [= <-]; reflexivity).
  unfold step. cbn [lm m_tok]. unfold next_token. cbn [lt t_buf t_line t_left].
  destruct (next_token_from strtod (t_buf (m_tok m)) (t_line (m_tok m)) (t_left (m_tok m))) as [(t, t')|] eqn:E; [|discriminate].
  rewrite (next_more _ _ _ _ _ E). cbn [bind]. destruct (transition m t t') as [m1|] eqn:T; [|discriminate].
  apply transition_more in T. rewrite T. cbn [bind]. apply IH.
Qed.
(** What the parser finds, it finds in a longer block too. *)
Lemma parsex_more fuel buf len force r : parsex strtod fuel buf len force = Ok r -> parsex strtod fuel (buf ++ x) len force = Ok r.
Proof.
  unfold parsex. destruct (run strtod fuel _) as [m|] eqn:E; [|discriminate]. apply run_more in E.
  change (lm (Machine VALUE [Frame DONE None None] None (Tok 0 buf len) None)) with (Machine VALUE [Frame DONE None None] None (Tok 0 (buf ++ x) len) None) in E.
  rewrite E. cbn [bind lm m_state m_result m_tok]. destruct (m_state m); try (cbn [lt t_line]; auto; fail).
  destruct (m_result m) as [j|]; cbn [of_option bind]; [|auto]. destruct force; [|auto].
  unfold next_token. cbn [lt t_buf t_line t_left]. destruct (next_token_from strtod (t_buf (m_tok m)) (t_line (m_tok m)) (t_left (m_tok m))) as [(t, t')|] eqn:N; [|discriminate].
  rewrite (next_more _ _ _ _ _ N). cbn [bind]. cbn [lt t_line]. auto.
Qed.
End Longer.

(** * Writing *)
Lemma write_fits f p : match w_room f with None => True | Some r => (length p <= r)%nat end ->
  c_write f p = (Z.of_nat (length p), WFile (w_bytes f ++ p) (option_map (fun r => r - length p)%nat (w_room f))).
Proof.
  unfold c_write. destruct (w_room f) as [r|]; cbn [option_map]; [|auto]. intros L. rewrite Nat.min_r by auto. rewrite firstn_all.
  destruct (Nat.eqb_spec (length p) 0) as [->|N]; auto.
Qed.
Lemma write_short f p r : w_room f = Some r -> (r < length p)%nat ->
  exists n, c_write f p = (n, WFile (w_bytes f ++ firstn r p) (Some 0%nat)) /\ n <> Z.of_nat (length p).
Proof.
  unfold c_write. intros -> L. rewrite Nat.min_l by lia. rewrite Nat.sub_diag.
  destruct ((r =? 0)%nat && negb (length p =? 0)%nat); eexists; (split; [reflexivity|lia]).
Qed.

Lemma save_ok fmt_g fuel init j f how : everywhere (ordinary fmt_g) j -> JsonPrintProofs.fits how j -> (cost j <= fuel)%nat ->
  save_fileno fmt_g fuel init j f how =
  let t := text_of fmt_g (is_pretty how) 0 j in let (n, f) := c_write f t in Ok (n =? Z.of_nat (length t), f).
Proof.
  intros E F L. unfold save_fileno. set (t := text_of fmt_g (is_pretty how) 0 j).
  rewrite (snprint_none fmt_g how j fuel) by auto. cbn [bind]. fold t. rewrite Nat2Z.id.
  destruct (snprint_some fmt_g how j fuel (map init (seq 0 (length t + 1)))) as (rest & E2 & _); [auto|auto|auto|rewrite map_length, seq_length; fold t; lia|].
  fold t in E2. match goal with |- bind ?A _ = _ => replace A with (Ok (Z.of_nat (length t), Some (t ++ 0 :: rest))) by (symmetry; exact E2) end. cbn [bind of_option]. rewrite firstn_app, firstn_all, Nat.sub_diag. cbn [firstn]. rewrite app_nil_r. auto.
Qed.
