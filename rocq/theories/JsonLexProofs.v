(** Proofs about [next_token]: white space, then one lexeme. *)
From Coq Require Import ZArith List Bool Lia.
From Verif Require Import Base NumeralProofs Utf8Model Utf8Proofs Json JsonTokModel JsonSpec JsonStrProofs JsonTokProofs.
Import ListNotations.
Open Scope Z_scope.
Local Arguments Z.add : simpl never.
Local Arguments Z.sub : simpl never.
Local Arguments Z.mul : simpl never.
Local Arguments Z.of_nat : simpl never.

Lemma check_complete s r : check (s ++ r) s = Ok (Some r).
Proof. induction s as [|c s IH]; cbn [app check rd bind tl]; [auto|]. rewrite Z.eqb_refl. auto. Qed.
Lemma check_total s : ~ In 0 s -> forall p, In 0 p -> check p s = Ok None \/ exists r, p = s ++ r /\ check p s = Ok (Some r).
Proof.
  induction s as [|c s IH]; intros N p I; cbn [check].
  - right. exists p. auto.
  - destruct p as [|d p]; [contradiction|]. cbn [rd bind tl]. destruct (Z.eqb_spec d c) as [->|D]; [|auto].
    destruct I as [->|I]; [destruct N; left; auto|].
    destruct (IH (fun X => N (or_intror X)) p I) as [E|(r & -> & E)]; [auto|]. right. exists r. auto.
Qed.

(** What may follow the value for the end of the text to be accepted: white space,
    or a comment that contains a NUL *)
Definition eof_tail (b : text) : Prop :=
  spaces b \/ exists b0 c d, b = b0 ++ 47 :: 47 :: c ++ 0 :: d /\ spaces b0 /\ ~ In 10 c.

Section Lex.
Variable strtod : text -> Z.
(** What comes behind the text in memory *)
Variable tail : text.

(** The tokenizer before the text [w] *)
Definition tk (line : Z) (w : text) : tokenizer := Tok line (w ++ tail) (Z.of_nat (length w)).

Inductive lexeme : text -> token -> Prop :=
| lx_punct c : In c [91; 123; 58; 44; 125; 93] -> lexeme [c] (TPunct c)
| lx_str w s : loose_string w s -> lexeme (34 :: w ++ [34]) (TStr s)
| lx_true : lexeme [116; 114; 117; 101] TTrue
| lx_null : lexeme [110; 117; 108; 108] TNull
| lx_false : lexeme [102; 97; 108; 115; 101] TFalse
| lx_int w z : loose_number strtod w (JI64 z) -> lexeme w (TI64 z)
| lx_double w z : loose_number strtod w (JDouble z) -> lexeme w (TDouble z).
Definition is_number (t : token) : bool := match t with TI64 _ | TDouble _ => true | _ => false end.

Lemma number_head w v : loose_number strtod w v -> exists c w', w = c :: w' /\ (c = 45 \/ digit_char c).
Proof.
  intros L. assert (G : forall m i x, minus m -> digits i -> exists c w', m ++ i ++ x = c :: w' /\ (c = 45 \/ digit_char c)).
  { intros m i x [-> | ->] (N & D); cbn [app]; [|eauto]. destruct i as [|d i]; [congruence|]. cbn [app]. exists d, (i ++ x). split; [auto|].
    right. exact (Forall_inv D). }
  destruct L as [m ds M (D & _)|m i f e M D _ _ _].
  - rewrite <- (app_nil_r ds). apply G; auto.
  - apply G; auto.
Qed.
Lemma lexeme_nonempty w t : lexeme w t -> w <> [].
Proof.
  destruct 1 as [| | | | |w z L|w z L]; try discriminate; destruct (number_head _ _ L) as (c & w' & -> & _); discriminate.
Qed.

Lemma next_ws line a w left : spaces a -> left = Z.of_nat (length (a ++ w)) ->
  next_token_from strtod ((a ++ w) ++ tail) line left =
  next_token_from strtod (w ++ tail) (line + breaks a) (Z.of_nat (length w)).
Proof.
  intros S. revert line left. induction S as [|c a Wc S IH]; intros line left ->.
  - cbn [app]. change (breaks []) with 0. rewrite Z.add_0_r. auto.
  - rewrite breaks_cons. cbn [app length]. cbn [next_token_from]. rewrite Nat2Z.inj_succ.
    destruct (Z.leb_spec (Z.succ (Z.of_nat (length (a ++ w)))) 0) as [L|_]; [lia|].
    destruct Wc as [-> |[-> |[-> | ->]]]; cbn [Z.eqb Pos.eqb orb is_break]; rewrite IH by lia; f_equal; lia.
Qed.

Lemma move_ok line x r : t_move (tk line (x ++ r)) (r ++ tail) = tk line r.
Proof.
  unfold t_move, tk. cbn [t_line t_buf t_left]. f_equal. rewrite !app_length. cbn [length]. lia.
Qed.
Lemma move_at line c x p r : p = r ++ tail ->
  t_move (Tok line (c :: (x ++ r) ++ tail) (Z.of_nat (length (c :: x ++ r)))) p = tk line r.
Proof. intros ->. apply (move_ok line (c :: x) r). Qed.

Lemma next_lexeme line x t r : lexeme x t -> (is_number t = true -> stops (r ++ tail)) ->
  next_token_from strtod ((x ++ r) ++ tail) line (Z.of_nat (length (x ++ r))) = Ok (t, tk line r).
Proof.
  intros L St. pose proof (lexeme_nonempty _ _ L) as NE.
  assert (GO : forall c x', x = c :: x' -> next_token_from strtod ((x ++ r) ++ tail) line (Z.of_nat (length (x ++ r))) =
     (let here := Tok line (c :: (x' ++ r) ++ tail) (Z.of_nat (length (c :: x' ++ r))) in
      let r := (x' ++ r) ++ tail in
      if (c =? 91) || (c =? 123) || (c =? 58) || (c =? 44) || (c =? 125) || (c =? 93)
      then Ok (TPunct c, t_move here r)
      else if (c =? 10) || (c =? 13) then next_token_from strtod r (line + 1) (t_left here - 1)
      else if (c =? 32) || (c =? 9) then next_token_from strtod r line (t_left here - 1)
      else if c =? 34 then
        bind (parse_string r) (fun x =>
        match x with Some (s, p) => Ok (TStr s, t_move here p) | None => Ok (TErr, here) end)
      else if c =? 116 then
        bind (check r [114; 117; 101]) (fun x =>
        match x with Some p => Ok (TTrue, t_move here p) | None => Ok (TErr, here) end)
      else if c =? 110 then
        bind (check r [117; 108; 108]) (fun x =>
        match x with Some p => Ok (TNull, t_move here p) | None => Ok (TErr, here) end)
      else if c =? 102 then
        bind (check r [97; 108; 115; 101]) (fun x =>
        match x with Some p => Ok (TFalse, t_move here p) | None => Ok (TErr, here) end)
      else if (c =? 45) || isdigit c then
        bind (parse_number strtod (c :: r)) (fun x =>
        match x with Some (n, p) => Ok (n, t_move here p) | None => Ok (TErr, here) end)
      else if c =? 47 then
        bind (check r [47]) (fun x =>
        match x with
        | Some p => bind (skip_comment p (t_left here - 2)) (fun k => Ok (k, here))
        | None => Ok (TErr, here)
        end)
      else Ok (TErr, here))).
  { intros c x' ->. cbn [app next_token_from length].
    destruct (Z.leb_spec (Z.of_nat (S (length (x' ++ r)))) 0) as [X|_]; [lia|]. reflexivity. }
  destruct L as [c I|w s LS| | | |w z L|w z L].
  - rewrite (GO c [] eq_refl). cbn zeta. cbn [app].
    assert ((c =? 91) || (c =? 123) || (c =? 58) || (c =? 44) || (c =? 125) || (c =? 93) = true) as ->.
    { cbn [In] in I. destruct I as [<-|[<-|[<-|[<-|[<-|[<-|[]]]]]]]; reflexivity. }
    f_equal. f_equal. apply (move_ok line [c] r).
  - rewrite (GO 34 (w ++ [34]) eq_refl). cbn zeta. cbn [Z.eqb Pos.eqb orb].
    rewrite <- !app_assoc. cbn [app]. rewrite (parse_string_complete w s); [|destruct LS as (s0 & LC & _); eapply loose_chars_bytes; eauto|auto].
    cbn [bind]. f_equal. f_equal. rewrite <- (move_at line 34 (w ++ [34]) (r ++ tail) r eq_refl).
    rewrite <- !app_assoc. cbn [app]. reflexivity.
  - rewrite (GO 116 [114; 117; 101] eq_refl). cbn zeta. cbn [Z.eqb Pos.eqb orb].
    rewrite <- app_assoc, check_complete. cbn [bind]. f_equal. f_equal. rewrite <- (move_at line 116 [114; 117; 101] (r ++ tail) r eq_refl).
    reflexivity.
  - rewrite (GO 110 [117; 108; 108] eq_refl). cbn zeta. cbn [Z.eqb Pos.eqb orb].
    rewrite <- app_assoc, check_complete. cbn [bind]. f_equal. f_equal. rewrite <- (move_at line 110 [117; 108; 108] (r ++ tail) r eq_refl).
    reflexivity.
  - rewrite (GO 102 [97; 108; 115; 101] eq_refl). cbn zeta. cbn [Z.eqb Pos.eqb orb].
    rewrite <- app_assoc, check_complete. cbn [bind]. f_equal. f_equal. rewrite <- (move_at line 102 [97; 108; 115; 101] (r ++ tail) r eq_refl).
    reflexivity.
  - destruct (number_head _ _ L) as (c & w' & -> & Hc). rewrite (GO c w' eq_refl). cbn zeta.
    assert (PN : parse_number strtod (c :: (w' ++ r) ++ tail) = Ok (Some (TI64 z, r ++ tail)))
      by (rewrite <- app_assoc; apply (parse_number_complete strtod (c :: w') (JI64 z)); auto).
    rewrite PN. cbn [bind]. rewrite (move_at line c w' (r ++ tail) r) by auto. revert Hc. clear. unfold digit_char, isdigit. intros Hc.
    destruct (Z.eqb_spec c 91); [lia|]. destruct (Z.eqb_spec c 123); [lia|]. destruct (Z.eqb_spec c 58); [lia|]. destruct (Z.eqb_spec c 44); [lia|].
    destruct (Z.eqb_spec c 125); [lia|]. destruct (Z.eqb_spec c 93); [lia|]. destruct (Z.eqb_spec c 10); [lia|]. destruct (Z.eqb_spec c 13); [lia|].
    destruct (Z.eqb_spec c 32); [lia|]. destruct (Z.eqb_spec c 9); [lia|]. destruct (Z.eqb_spec c 34); [lia|]. destruct (Z.eqb_spec c 116); [lia|].
    destruct (Z.eqb_spec c 110); [lia|]. destruct (Z.eqb_spec c 102); [lia|]. cbn [orb].
    destruct (Z.eqb_spec c 45); [auto|]. destruct (Z.leb_spec 48 c); [|lia]. destruct (Z.leb_spec c 57); [auto|lia].
  - destruct (number_head _ _ L) as (c & w' & -> & Hc). rewrite (GO c w' eq_refl). cbn zeta.
    assert (PN : parse_number strtod (c :: (w' ++ r) ++ tail) = Ok (Some (TDouble z, r ++ tail)))
      by (rewrite <- app_assoc; apply (parse_number_complete strtod (c :: w') (JDouble z)); auto).
    rewrite PN. cbn [bind]. rewrite (move_at line c w' (r ++ tail) r) by auto. revert Hc. clear. unfold digit_char, isdigit. intros Hc.
    destruct (Z.eqb_spec c 91); [lia|]. destruct (Z.eqb_spec c 123); [lia|]. destruct (Z.eqb_spec c 58); [lia|]. destruct (Z.eqb_spec c 44); [lia|].
    destruct (Z.eqb_spec c 125); [lia|]. destruct (Z.eqb_spec c 93); [lia|]. destruct (Z.eqb_spec c 10); [lia|]. destruct (Z.eqb_spec c 13); [lia|].
    destruct (Z.eqb_spec c 32); [lia|]. destruct (Z.eqb_spec c 9); [lia|]. destruct (Z.eqb_spec c 34); [lia|]. destruct (Z.eqb_spec c 116); [lia|].
    destruct (Z.eqb_spec c 110); [lia|]. destruct (Z.eqb_spec c 102); [lia|]. cbn [orb].
    destruct (Z.eqb_spec c 45); [auto|]. destruct (Z.leb_spec 48 c); [|lia]. destruct (Z.leb_spec c 57); [auto|lia].
Qed.

(** White space, then a lexeme *)
Lemma next_complete line a x t r : spaces a -> lexeme x t -> (is_number t = true -> stops (r ++ tail)) ->
  next_token strtod (tk line (a ++ x ++ r)) = Ok (t, tk (line + breaks a) r).
Proof.
  intros S L St. unfold next_token, tk. cbn [t_buf t_line t_left]. rewrite next_ws by auto. apply next_lexeme; auto.
Qed.

Lemma skip_nul : forall c d, ~ In 10 c -> skip_comment ((c ++ 0 :: d) ++ tail) (Z.of_nat (length (c ++ 0 :: d))) = Ok TEof.
Proof.
  induction c as [|x c IH]; intros d N; cbn [app length skip_comment].
  - destruct (Z.leb_spec (Z.of_nat (S (length d))) 0); [lia|auto].
  - destruct (Z.leb_spec (Z.of_nat (S (length (c ++ 0 :: d)))) 0); [lia|]. destruct (x =? 0); [auto|].
    destruct (Z.eqb_spec x 10) as [->|N10]; [destruct N; left; auto|].
    replace (Z.of_nat (S (length (c ++ 0 :: d))) - 1) with (Z.of_nat (length (c ++ 0 :: d))) by lia. apply IH. intros X. apply N. right. auto.
Qed.

Lemma next_eof line b : eof_tail b -> exists t', next_token strtod (tk line b) = Ok (TEof, t').
Proof.
  intros [Sp|(b0 & c & d & -> & Sp & N)]; unfold next_token, tk; cbn [t_buf t_line t_left].
  - replace (b ++ tail) with ((b ++ []) ++ tail) by (rewrite app_nil_r; auto). rewrite next_ws; [|auto|rewrite app_nil_r; auto]. cbn [app length].
    destruct tail; cbn [next_token_from]; change (Z.of_nat 0 <=? 0) with true; eauto.
  - rewrite next_ws by auto. cbn [app length next_token_from].
    destruct (Z.leb_spec (Z.of_nat (S (S (length (c ++ 0 :: d))))) 0); [lia|]. cbn [Z.eqb Pos.eqb orb isdigit Z.leb Z.compare Pos.compare Pos.compare_cont andb].
    pose proof (check_complete [47] ((c ++ 0 :: d) ++ tail)) as CC. cbn [app] in CC. rewrite CC. cbn [bind].
    replace (Z.of_nat (S (S (length (c ++ 0 :: d)))) - 2) with (Z.of_nat (length (c ++ 0 :: d))) by lia.
    rewrite skip_nul by auto. cbn [bind]. eauto.
Qed.
End Lex.

(** ** Texts that end with a NUL *)
Section Total.
Variable strtod : text -> Z.
(** What comes behind the final NUL in memory *)
Variable junk : text.
Hypothesis junk_bytes : Forall byte junk.
Notation tk := (tk (0 :: junk)).
Notation lexeme := (lexeme strtod).

Lemma skip_total : forall c, exists k, skip_comment (c ++ 0 :: junk) (Z.of_nat (length c)) = Ok k /\ (k = TErr \/
   k = TEof /\ exists c' d, c = c' ++ 0 :: d /\ ~ In 10 c').
Proof.
  induction c as [|x c (k & E & D)]; cbn [app length skip_comment].
  - exists TErr. auto.
  - destruct (Z.leb_spec (Z.of_nat (S (length c))) 0); [lia|]. destruct (Z.eqb_spec x 0) as [->|N0].
    + exists TEof. split; [auto|]. right. split; [auto|]. exists [], c. auto.
    + destruct (Z.eqb_spec x 10) as [->|N10]; [exists TErr; auto|].
      replace (Z.of_nat (S (length c)) - 1) with (Z.of_nat (length c)) by lia. exists k. split; [auto|].
      destruct D as [-> |(-> & c' & d & -> & N)]; [auto|]. right. split; [auto|]. exists (x :: c'), d. split; [auto|]. intros [X|X]; auto.
Qed.
(** What [next_token] does with any text *)
Inductive next_result (line : Z) (w : text) : token -> tokenizer -> Prop :=
| nr_err a r t' : spaces a -> w = a ++ r -> t_line t' = line + breaks a -> next_result line w TErr t'
| nr_eof a r t' : spaces a -> w = a ++ r -> t_line t' = line + breaks a -> eof_tail w -> next_result line w TEof t'
| nr_tok a x r t : spaces a -> lexeme x t -> w = a ++ x ++ r -> next_result line w t (tk (line + breaks a) r).

Lemma next_result_ws line line' c w t t' : ws c -> line' = line + (if is_break c then 1 else 0) ->
  next_result line' w t t' -> next_result line (c :: w) t t'.
Proof.
  intros Wc -> [a r t0 S -> TL|a r t0 S E TL ET|a x r t0 S L ->].
  - apply nr_err with (c :: a) r; [constructor; auto|auto|]. rewrite breaks_cons. lia.
  - apply nr_eof with (c :: a) r; [constructor; auto|cbn; f_equal; auto|rewrite breaks_cons; lia|].
    destruct ET as [ET|(b0 & c0 & d0 & -> & S0 & N)]; [left; constructor; auto|].
    right. exists (c :: b0), c0, d0. split; [auto|]. split; [constructor; auto|auto].
  - replace (line + (if is_break c then 1 else 0) + breaks a) with (line + breaks (c :: a)) by (rewrite breaks_cons; lia).
    apply nr_tok with x; [constructor; auto|auto|auto].
Qed.

Lemma next_total line w : Forall byte w -> exists t t', next_token strtod (tk line w) = Ok (t, t') /\ next_result line w t t'.
Proof.
  unfold next_token, tk. cbn [t_buf t_line t_left]. revert line. induction w as [|c w IH]; intros line B.
  { cbn [app length next_token_from]. cbn. exists TEof. eexists. split; [reflexivity|].
    apply nr_eof with [] []; [constructor|auto|cbn; change (breaks []) with 0; lia|left; constructor]. }
  specialize (fun l => IH l (Forall_inv_tail B)).
  assert (BB : Forall byte (w ++ 0 :: junk)).
  { apply Forall_app. split; [eapply Forall_inv_tail; eauto|]. constructor; [unfold byte; lia|auto]. }
  assert (I0 : In 0 (w ++ 0 :: junk)) by (apply in_or_app; right; left; auto).
  cbn [app length next_token_from].
  destruct (Z.leb_spec (Z.of_nat (S (length w))) 0) as [X|_]; [lia|].
  set (here := Tok line (c :: w ++ 0 :: junk) (Z.of_nat (S (length w)))).
  assert (ERR : next_result line (c :: w) TErr here).
  { apply nr_err with [] (c :: w); [constructor|auto|]. cbn. change (breaks []) with 0. lia. }
  assert (LEX : forall x r t p, c :: w = x ++ r -> p = r ++ 0 :: junk -> lexeme x t -> next_result line (c :: w) t (t_move here p)).
  { intros x r t p E -> L. assert (here = tk line (x ++ r)) as -> by (unfold here, tk; rewrite <- E; auto).
    rewrite move_ok. assert (tk line r = tk (line + breaks []) r) as -> by (f_equal; change (breaks []) with 0; lia). apply nr_tok with x; [constructor|auto|auto]. }
  destruct ((c =? 91) || (c =? 123) || (c =? 58) || (c =? 44) || (c =? 125) || (c =? 93)) eqn:PU.
  { exists (TPunct c), (t_move here (w ++ 0 :: junk)). split; [auto|]. apply LEX with [c] w; [auto|auto|]. constructor.
    rewrite !orb_true_iff, !Z.eqb_eq in PU. cbn [In]. lia. }
  replace (Z.of_nat (S (length w)) - 1) with (Z.of_nat (length w)) by lia.
  destruct ((c =? 10) || (c =? 13)) eqn:BR.
  { destruct (IH (line + 1)) as (t & t' & E & NR). exists t, t'. split; [auto|].
    eapply next_result_ws; [| |exact NR]; [unfold ws; rewrite orb_true_iff, !Z.eqb_eq in BR; lia|]. unfold is_break. rewrite BR. auto. }
  destruct ((c =? 32) || (c =? 9)) eqn:SP.
  { destruct (IH line) as (t & t' & E & NR). exists t, t'. split; [auto|].
    eapply next_result_ws; [| |exact NR]; [unfold ws; rewrite orb_true_iff, !Z.eqb_eq in SP; lia|]. unfold is_break. rewrite BR. lia. }
  destruct (Z.eqb_spec c 34) as [->|N34].
  { destruct (parse_string_sound (w ++ 0 :: junk) BB I0) as [E|(x & s & r & Ew & Nx & LS & E)]; rewrite E; cbn [bind]; [eauto|].
    exists (TStr s), (t_move here r). split; [auto|].
    change (34 :: r) with ([34] ++ r) in Ew. rewrite app_assoc in Ew.
    destruct (inside w junk (x ++ [34]) r Ew) as (r' & -> & ->).
    { intros Y. apply in_app_or in Y as [Y|[Y|[]]]; [auto|lia]. }
    apply LEX with (34 :: x ++ [34]) r'; [auto|auto|]. constructor. auto. }
  assert (KEY : forall k kw, ~ In 0 kw -> (lexeme (c :: kw) k) ->
    exists t t', bind (check (w ++ 0 :: junk) kw) (fun x => match x with Some p => Ok (k, t_move here p) | None => Ok (TErr, here) end) = Ok (t, t') /\ next_result line (c :: w) t t').
  { intros k kw N L. destruct (check_total kw N (w ++ 0 :: junk) I0) as [E|(r & Ew & E)]; rewrite E; cbn [bind]; [eauto|].
    exists k, (t_move here r). split; [auto|]. destruct (inside w junk kw r Ew N) as (r' & -> & ->).
    apply LEX with (c :: kw) r'; auto. }
  destruct (Z.eqb_spec c 116) as [->|N116]; [apply KEY; [cbn; lia|constructor]|].
  destruct (Z.eqb_spec c 110) as [->|N110]; [apply KEY; [cbn; lia|constructor]|].
  destruct (Z.eqb_spec c 102) as [->|N102]; [apply KEY; [cbn; lia|constructor]|].
  destruct ((c =? 45) || isdigit c) eqn:NU.
  { destruct (parse_number_sound strtod (c :: w ++ 0 :: junk)) as [E|(x & v & r & Ew & Nx & LN & NE & V & E)]; [right; auto| |];
      rewrite E; cbn [bind]; [eauto|].
    exists (number_token v), (t_move here r). split; [auto|].
    destruct (inside (c :: w) junk x r Ew Nx) as (r' & Ew' & ->). apply LEX with x r'; [auto|auto|].
    destruct V as (b & [-> | ->]); cbn [number_token]; constructor; auto. }
  destruct (Z.eqb_spec c 47) as [->|N47]; [|eauto].
  destruct (check_total [47] ltac:(cbn; lia) (w ++ 0 :: junk) I0) as [E|(r & Ew & E)]; rewrite E; cbn [bind]; [eauto|].
  destruct (inside w junk [47] r Ew) as (r' & -> & ->); [cbn; lia|].
  destruct (skip_total r') as (k & Ek & D).
  replace (Z.of_nat (S (length ([47] ++ r'))) - 2) with (Z.of_nat (length r')) by (cbn [app length]; lia). rewrite Ek. cbn [bind].
  exists k, here. split; [auto|]. destruct D as [-> |(-> & c' & d & -> & N10)]; [auto|].
  apply nr_eof with [] (47 :: [47] ++ c' ++ 0 :: d); [constructor|auto|cbn; change (breaks []) with 0; lia|].
  right. exists [], c', d. split; [auto|]. split; [constructor|auto].
Qed.
End Total.
