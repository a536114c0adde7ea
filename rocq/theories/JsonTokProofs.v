(** Proofs about the tokenizer: it finds exactly the lexemes of the relaxed language. *)
From Coq Require Import ZArith List Bool Lia.
From Verif Require Import Base NumeralProofs Utf8Model Utf8Proofs Json JsonTokModel JsonSpec JsonStrProofs.
Import ListNotations.
Open Scope Z_scope.
Local Arguments Z.add : simpl never.
Local Arguments Z.sub : simpl never.
Local Arguments Z.mul : simpl never.
Local Arguments Z.of_nat : simpl never.

(** The number of line breaks *)
Definition is_break (c : Z) : bool := (c =? 10) || (c =? 13).
Definition breaks (w : text) : Z := Z.of_nat (length (filter is_break w)).
Lemma breaks_app a b : breaks (a ++ b) = breaks a + breaks b.
Proof. unfold breaks. rewrite filter_app, app_length. lia. Qed.
Lemma breaks_cons c b : breaks (c :: b) = (if is_break c then 1 else 0) + breaks b.
Proof. unfold breaks. cbn [filter]. destruct (is_break c); cbn [length]; lia. Qed.
Lemma breaks_pos w : 0 <= breaks w. Proof. unfold breaks. lia. Qed.

(** * Positions before the final NUL *)
Lemma inside w j x p : w ++ 0 :: j = x ++ p -> ~ In 0 x -> exists r, w = x ++ r /\ p = r ++ 0 :: j.
Proof.
  intros E N. apply app_eq_app in E as (l & [(E1 & E2)|(E1 & E2)]).
  - exists l. auto.
  - destruct l as [|c l].
    + exists []. cbn in E2. rewrite app_nil_r in *. subst. auto.
    + cbn in E2. injection E2 as <- E2. destruct N. rewrite E1. apply in_or_app. right. left. auto.
Qed.

(** * Numbers *)
Lemma isdigit_iff c : isdigit c = true <-> digit_char c.
Proof. unfold isdigit, digit_char. rewrite andb_true_iff, !Z.leb_le. tauto. Qed.
Lemma isdigit_no c : ~ digit_char c -> isdigit c = false.
Proof. intros N. destruct (isdigit c) eqn:E; [|auto]. apply isdigit_iff in E. contradiction. Qed.

(** A byte at which a number stops *)
Definition stop_char (c : Z) : Prop := ~ digit_char c /\ c <> 46 /\ c <> 101 /\ c <> 69.
Definition stops (r : text) : Prop := exists c r', r = c :: r' /\ stop_char c.

Lemma digits_from_complete ds c r : Forall digit_char ds -> ~ digit_char c -> digits_from (ds ++ c :: r) = Ok (ds, c :: r).
Proof.
  induction 1 as [|d ds D F IH]; intros N; cbn [app digits_from].
  - rewrite isdigit_no; auto.
  - apply isdigit_iff in D. rewrite D, IH; auto.
Qed.
Lemma digits_from_total p : In 0 p -> exists ds c r, digits_from p = Ok (ds, c :: r) /\ p = ds ++ c :: r /\ Forall digit_char ds /\ ~ digit_char c.
Proof.
  induction p as [|c p IH]; intros I; [contradiction|]. cbn [digits_from]. destruct (isdigit c) eqn:D.
  - apply isdigit_iff in D. destruct I as [->|I]; [unfold digit_char in D; lia|].
    destruct (IH I) as (ds & c' & r & E & -> & F & N). rewrite E. cbn [bind]. exists (c :: ds), c', r. auto.
  - exists [], c, p. split; [auto|]. split; [auto|]. split; [constructor|]. intros X. apply isdigit_iff in X. congruence.
Qed.
Lemma digits_no_nul ds : Forall digit_char ds -> ~ In 0 ds.
Proof. intros F I. rewrite Forall_forall in F. apply F in I. unfold digit_char in I. lia. Qed.

Lemma strtoll_ok m ds : minus m -> strtoll (match m with [] => false | _ => true end) ds = saturate (integer_value m ds).
Proof.
  intros M. unfold strtoll, saturate. change (digits_number ds) with (digits_value ds).
  replace (if match m with [] => false | _ => true end then - digits_value ds else digits_value ds) with (integer_value m ds) by (destruct m; auto).
  generalize (integer_value m ds). intros v. destruct (Z.ltb_spec v (- 2 ^ 63)); [lia|]. destruct (Z.leb_spec (2 ^ 63) v); lia.
Qed.

(** [p] starts with a byte that is not a digit *)
Definition nondigit (p : text) : Prop := exists c r, p = c :: r /\ ~ digit_char c.

Lemma fraction_complete f r : f = [] \/ frac_part f -> nondigit r -> hd 0 r <> 46 -> fraction (f ++ r) = Ok (Some (f, r)).
Proof.
  intros F (c & r' & -> & N) N46. cbn [hd] in N46. destruct F as [-> |(ds & -> & (Nd & D))]; unfold fraction.
  - cbn [app rd bind]. destruct (Z.eqb_spec c 46); [congruence|auto].
  - cbn [app rd bind tl Z.eqb Pos.eqb]. destruct ds as [|d ds]; [congruence|]. pose proof (Forall_inv D) as Dd. pose proof (Forall_inv_tail D) as Dds.
    apply isdigit_iff in Dd. cbn [app rd bind tl]. rewrite Dd. cbn [negb]. rewrite digits_from_complete by auto. auto.
Qed.
Lemma fraction_total p : In 0 p -> nondigit p ->
  fraction p = Ok None \/
  exists f r, p = f ++ r /\ (f = [] \/ frac_part f) /\ ~ In 0 f /\ In 0 r /\ nondigit r /\ fraction p = Ok (Some (f, r)).
Proof.
  intros I (c & r & -> & N). unfold fraction. cbn [rd bind tl]. destruct (Z.eqb_spec c 46) as [->|N46].
  - destruct I as [I|I]; [lia|]. destruct (digits_from_total r I) as (ds & c' & r' & E & -> & D & N').
    destruct ds as [|d ds].
    + cbn [app rd bind]. rewrite isdigit_no by auto. auto.
    + right. pose proof (proj2 (isdigit_iff d) (Forall_inv D)) as Dd. cbn [app rd bind tl]. rewrite Dd. cbn [negb].
      rewrite digits_from_complete by (auto; eapply Forall_inv_tail; eauto). cbn [bind].
      exists (46 :: d :: ds), (c' :: r'). split; [auto|].
      split; [right; exists (d :: ds); split; [auto|]; split; [discriminate|auto]|].
      pose proof (digits_no_nul _ D) as ND. apply in_app_or in I as [I|I]; [contradiction|].
      split; [intros [X|X]; [lia|auto]|]. split; [auto|]. split; [exists c', r'; auto|auto].
  - right. exists [], (c :: r). split; [auto|]. split; [auto|]. split; [auto|]. split; [auto|]. split; [exists c, r; auto|auto].
Qed.

Lemma exponent_complete e r : e = [] \/ exp_part e -> nondigit r -> hd 0 r <> 101 -> hd 0 r <> 69 -> exponent (e ++ r) = Ok (Some (e, r)).
Proof.
  intros E (c & r' & -> & N) N1 N2. cbn [hd] in N1, N2. unfold exponent. destruct E as [-> |(ee & sg & es & Ee & Sg & -> & (Ne & De))].
  - cbn [app rd bind]. destruct (Z.eqb_spec c 101); [congruence|]. destruct (Z.eqb_spec c 69); [congruence|]. auto.
  - cbn [app rd bind tl]. assert ((ee =? 101) || (ee =? 69) = true) as -> by (destruct Ee as [-> | ->]; reflexivity).
    destruct es as [|d es]; [congruence|]. pose proof (Forall_inv De) as Dd. pose proof (proj2 (isdigit_iff d) Dd) as Ed. cbn zeta.
    assert (Q : exists s, rd ((sg ++ d :: es) ++ c :: r') = Ok s /\
                 (if (s =? 43) || (s =? 45) then tl ((sg ++ d :: es) ++ c :: r') else (sg ++ d :: es) ++ c :: r') = d :: es ++ c :: r' /\
                 (if (s =? 43) || (s =? 45) then [s] else []) = sg).
    { destruct Sg as [-> |[-> | ->]]; cbn [app rd tl].
      - exists d. split; [auto|]. unfold digit_char in Dd. destruct (Z.eqb_spec d 43); [lia|]. destruct (Z.eqb_spec d 45); [lia|]. auto.
      - exists 43. auto.
      - exists 45. auto. }
    destruct Q as (s & Q1 & Q2 & Q3). rewrite Q1. cbn [bind]. rewrite Q2, Q3. cbn [rd bind tl]. rewrite Ed. cbn [negb].
    rewrite digits_from_complete by (auto; eapply Forall_inv_tail; eauto). auto.
Qed.
Lemma exponent_total p : In 0 p -> nondigit p ->
  exponent p = Ok None \/
  exists e r, p = e ++ r /\ (e = [] \/ exp_part e) /\ ~ In 0 e /\ nondigit r /\ exponent p = Ok (Some (e, r)).
Proof.
  intros I (c & r & -> & N).
  assert (D : (c =? 101) || (c =? 69) = false \/ c = 101 \/ c = 69).
  { destruct (Z.eqb_spec c 101); [auto|]. destruct (Z.eqb_spec c 69); auto. }
  destruct D as [D|D].
  { right. exists [], (c :: r). split; [auto|]. split; [auto|]. split; [auto|]. split; [exists c, r; auto|].
    unfold exponent. cbn [rd bind]. rewrite D. auto. }
  assert (Ec : (c =? 101) || (c =? 69) = true) by (destruct D as [-> | ->]; reflexivity).
  destruct I as [I|I]; [lia|].
  assert (SG : exists sg r2, r = sg ++ r2 /\ In 0 r2 /\ (sg = [] \/ sg = [43] \/ sg = [45]) /\ ~ In 0 sg /\
     exists s, rd r = Ok s /\ (if (s =? 43) || (s =? 45) then tl r else r) = r2 /\ (if (s =? 43) || (s =? 45) then [s] else []) = sg).
  { destruct r as [|s r]; [contradiction|]. destruct (Z.eqb_spec s 43) as [->|S1]; [|destruct (Z.eqb_spec s 45) as [->|S2]].
    - exists [43], r. split; [auto|]. split; [destruct I; [lia|auto]|]. split; [auto|]. split; [intros [X|[]]; lia|]. exists 43. auto.
    - exists [45], r. split; [auto|]. split; [destruct I; [lia|auto]|]. split; [auto|]. split; [intros [X|[]]; lia|]. exists 45. auto.
    - exists [], (s :: r). split; [auto|]. split; [auto|]. split; [auto|]. split; [auto|]. exists s.
      split; [auto|]. destruct (Z.eqb_spec s 43); [congruence|]. destruct (Z.eqb_spec s 45); [congruence|]. auto. }
  destruct SG as (sg & r2 & Er & I2 & Sg & Nsg & s & Q1 & Q2 & Q3).
  destruct (digits_from_total r2 I2) as (es & c' & r' & E & E2 & De & N').
  unfold exponent. cbn [rd bind]. rewrite Ec. cbn [tl]. cbn zeta. rewrite Q1. cbn [bind]. rewrite Q2, Q3. rewrite E2.
  destruct es as [|d es].
  - left. cbn [app rd bind]. rewrite isdigit_no by auto. auto.
  - right. pose proof (proj2 (isdigit_iff d) (Forall_inv De)) as Dd. cbn [app rd bind tl]. rewrite Dd. cbn [negb].
    rewrite digits_from_complete by (auto; eapply Forall_inv_tail; eauto). cbn [bind].
    exists (c :: sg ++ d :: es), (c' :: r'). split; [rewrite Er, E2; cbn [app]; rewrite <- app_assoc; auto|].
    split; [right; exists c, sg, (d :: es); split; [auto|]; split; [auto|]; split; [auto|]; split; [discriminate|auto]|].
    split; [|split; [exists c', r'; auto|auto]].
    pose proof (digits_no_nul _ De) as ND. intros [X|X]; [lia|]. apply in_app_or in X as [X|X]; auto.
Qed.

Section Tok.
Variable strtod : text -> Z.

Definition number_token (v : json) : token :=
  match v with JI64 z => TI64 z | JDouble d => TDouble d | _ => TErr end.

(** The parts of a number put together *)
Lemma parse_number_parts m i f e p q r : minus m -> digits i -> nondigit p ->
  fraction p = Ok (Some (f, q)) -> exponent q = Ok (Some (e, r)) ->
  parse_number strtod (m ++ i ++ p) =
    if is_nil (f ++ e) then
      if negb (length i =? 1)%nat && (hd 0 i =? 48) then Ok None
      else Ok (Some (TI64 (saturate (integer_value m i)), r))
    else Ok (Some (TDouble (strtod (m ++ i ++ f ++ e)), r)).
Proof.
  intros M (Ni & Di) (c & r0 & -> & Nc) F E. destruct i as [|d ds]; [congruence|]. pose proof (Forall_inv Di) as Dd. pose proof (Forall_inv_tail Di) as Dds.
  pose proof (proj2 (isdigit_iff d) Dd) as Ed.
  pose proof (strtoll_ok m (d :: ds) M) as ST.
  assert (G : forall f e, is_nil e && (is_nil f && negb (length (d :: ds) =? 1)%nat && (hd 0 (d :: ds) =? 48)) =
     is_nil (f ++ e) && (negb (length (d :: ds) =? 1)%nat && (hd 0 (d :: ds) =? 48))).
  { clear. intros [|x f] [|y e]; cbn [is_nil app]; auto. }
  assert (G2 : forall f e, negb (is_nil e) || negb (is_nil f) = negb (is_nil (f ++ e))).
  { clear. intros [|x f] [|y e]; cbn [is_nil app]; auto. }
  assert (W : forall v, (if is_nil (f ++ e) && (negb (length (d :: ds) =? 1)%nat && (hd 0 (d :: ds) =? 48)) then Ok None
     else if negb (is_nil (f ++ e)) then Ok (Some (TDouble (strtod (m ++ (d :: ds) ++ f ++ e)), r)) else Ok (Some (TI64 v, r))) =
     (if is_nil (f ++ e) then if negb (length (d :: ds) =? 1)%nat && (hd 0 (d :: ds) =? 48) then Ok None else Ok (Some (TI64 v, r))
      else Ok (Some (TDouble (strtod (m ++ (d :: ds) ++ f ++ e)), r)))).
  { intros v. destruct (is_nil (f ++ e)); cbn [andb negb]; auto. }
  unfold parse_number. destruct M as [-> | ->]; cbn [app rd bind tl].
  - assert (d =? 45 = false) as -> by (apply Z.eqb_neq; unfold digit_char in Dd; lia). cbn [rd bind tl]. rewrite Ed. cbn [negb].
    rewrite digits_from_complete by auto. cbn [bind]. rewrite F. cbn [bind]. rewrite E. cbn [bind]. rewrite G, G2, <- ST, <- W. reflexivity.
  - change (45 =? 45) with true. cbn [rd bind tl]. rewrite Ed. cbn [negb].
    rewrite digits_from_complete by auto. cbn [bind]. rewrite F. cbn [bind]. rewrite E. cbn [bind]. rewrite G, G2, <- ST, <- W. reflexivity.
Qed.

Lemma parse_number_complete w v r : loose_number strtod w v -> stops r ->
  parse_number strtod (w ++ r) = Ok (Some (number_token v, r)).
Proof.
  intros L (c & r' & -> & Nd & N46 & N101 & N69).
  assert (ND : nondigit (c :: r')) by (exists c, r'; auto).
  destruct L as [m ds M (D & Z0)|m i f e M D F E N].
  - rewrite <- app_assoc. rewrite (parse_number_parts m ds [] [] (c :: r') (c :: r') (c :: r')); auto;
      [|apply (fraction_complete []); auto|apply (exponent_complete []); auto].
    cbn [app is_nil].
    assert (negb (length ds =? 1)%nat && (hd 0 ds =? 48) = false) as ->; [|auto].
    destruct (Z.eqb_spec (hd 0 ds) 48) as [X|X]; [|apply andb_false_r]. rewrite (Z0 X). auto.
  - rewrite <- !app_assoc.
    assert (X : nondigit (e ++ c :: r') /\ hd 0 (e ++ c :: r') <> 46).
    { destruct E as [-> |(ee & sg & es & Ee & _ & -> & _)]; [auto|]. cbn [app hd]. split; [|lia].
      eexists _, _. split; [reflexivity|]. unfold digit_char. lia. }
    destruct X as (X1 & X2).
    assert (Y : nondigit (f ++ e ++ c :: r')).
    { destruct F as [-> |(fs & -> & _)]; [auto|]. cbn [app]. eexists _, _. split; [reflexivity|]. unfold digit_char. lia. }
    rewrite (parse_number_parts m i f e (f ++ e ++ c :: r') (e ++ c :: r') (c :: r')); auto;
      [|apply fraction_complete; auto|apply exponent_complete; auto].
    destruct (f ++ e); [congruence|auto].
Qed.

Lemma parse_number_sound p : In 0 p ->
  parse_number strtod p = Ok None \/
  exists w v r, p = w ++ r /\ ~ In 0 w /\ loose_number strtod w v /\ w <> [] /\
    (exists b, v = JI64 b \/ v = JDouble b) /\
    parse_number strtod p = Ok (Some (number_token v, r)).
Proof.
  intros I.
  assert (HM : exists m p0, p = m ++ p0 /\ minus m /\ ~ In 0 m /\ (m = [] -> hd 0 p0 <> 45)).
  { destruct p as [|c p]; [contradiction|]. destruct (Z.eq_dec c 45) as [->|N].
    - exists [45], p. split; [auto|]. split; [right; auto|]. split; [intros [X|[]]; lia|discriminate].
    - exists [], (c :: p). split; [auto|]. split; [left; auto|]. split; [auto|]. cbn. auto. }
  destruct HM as (m & p0 & -> & M & Nm & H45). apply in_app_or in I as [I|I]; [contradiction|].
  destruct (digits_from_total p0 I) as (i & c & r & _ & E & Di & Nc). destruct i as [|d ds].
  { left. cbn [app] in E. subst p0. unfold parse_number. destruct M as [-> | ->]; cbn [app rd bind tl].
    - specialize (H45 eq_refl). cbn in H45. destruct (Z.eqb_spec c 45); [congruence|]. cbn [rd bind]. rewrite isdigit_no; auto.
    - change (45 =? 45) with true. cbn [rd bind]. rewrite isdigit_no; auto. }
  subst p0. clear H45. assert (Ri : digits (d :: ds)) by (split; [discriminate|auto]).
  assert (I1 : In 0 (c :: r)) by (apply in_app_or in I as [I|I]; [apply digits_no_nul in I; [contradiction|auto]|auto]).
  pose proof (digits_no_nul _ Di) as Ni.
  assert (NOT : forall A B, fraction (c :: r) = Ok None -> A = B :> nat -> parse_number strtod (m ++ (d :: ds) ++ c :: r) = Ok None).
  { intros _ _ F _. pose proof (proj2 (isdigit_iff d) (Forall_inv Di)) as Ed. pose proof (Forall_inv Di) as Dd. unfold digit_char in Dd.
    unfold parse_number. destruct M as [-> | ->]; cbn [app rd bind tl].
    - destruct (Z.eqb_spec d 45); [lia|]. cbn [rd bind tl]. rewrite Ed. cbn [negb]. rewrite digits_from_complete by (auto; eapply Forall_inv_tail; eauto).
      cbn [bind]. rewrite F. auto.
    - change (45 =? 45) with true. cbn [rd bind tl]. rewrite Ed. cbn [negb]. rewrite digits_from_complete by (auto; eapply Forall_inv_tail; eauto).
      cbn [bind]. rewrite F. auto. }
  destruct (fraction_total (c :: r)) as [F|(f & q & Ef & Pf & Nf & Iq & Nq & F)]; [auto|exists c, r; auto|left; apply (NOT O O); auto|].
  clear NOT. destruct (exponent_total q Iq Nq) as [X|(e & t & Ee & Pe & Ne & Nt & X)].
  { left. pose proof (proj2 (isdigit_iff d) (Forall_inv Di)) as Ed. pose proof (Forall_inv Di) as Dd. unfold digit_char in Dd.
    unfold parse_number. destruct M as [-> | ->]; cbn [app rd bind tl].
    - destruct (Z.eqb_spec d 45); [lia|]. cbn [rd bind tl]. rewrite Ed. cbn [negb]. rewrite digits_from_complete by (auto; eapply Forall_inv_tail; eauto).
      cbn [bind]. rewrite F. cbn [bind]. rewrite X. auto.
    - change (45 =? 45) with true. cbn [rd bind tl]. rewrite Ed. cbn [negb]. rewrite digits_from_complete by (auto; eapply Forall_inv_tail; eauto).
      cbn [bind]. rewrite F. cbn [bind]. rewrite X. auto. }
  rewrite (parse_number_parts m (d :: ds) f e (c :: r) q t); auto; [|exists c, r; auto].
  assert (EQ : m ++ (d :: ds) ++ c :: r = (m ++ (d :: ds) ++ f ++ e) ++ t) by (rewrite Ef, Ee, <- !app_assoc; auto).
  assert (NN : ~ In 0 (m ++ (d :: ds) ++ f ++ e)).
  { intros Y. apply in_app_or in Y as [Y|Y]; [auto|]. apply in_app_or in Y as [Y|Y]; [auto|]. apply in_app_or in Y as [Y|Y]; auto. }
  assert (NE : m ++ (d :: ds) ++ f ++ e <> []) by (destruct m; discriminate).
  destruct (is_nil (f ++ e)) eqn:Z0.
  - assert (FE : f ++ e = []) by (destruct (f ++ e); [auto|discriminate]).
    destruct (negb (length (d :: ds) =? 1)%nat && (hd 0 (d :: ds) =? 48)) eqn:LZ; [left; auto|].
    right. exists (m ++ d :: ds), (JI64 (saturate (integer_value m (d :: ds)))), t.
    rewrite FE, app_nil_r in EQ, NN, NE. split; [auto|]. split; [auto|]. split.
    + constructor; auto. split; [auto|]. intros Hd. apply andb_false_iff in LZ as [LZ|LZ].
      * cbn [hd length] in Hd, LZ. apply negb_false_iff, Nat.eqb_eq in LZ. destruct ds; [congruence|cbn in LZ; lia].
      * apply Z.eqb_neq in LZ. congruence.
    + split; [auto|]. split; [eauto|auto].
  - right. exists (m ++ (d :: ds) ++ f ++ e), (JDouble (strtod (m ++ (d :: ds) ++ f ++ e))), t. split; [auto|]. split; [auto|].
    split; [constructor; auto; intros Y; rewrite Y in Z0; discriminate|]. split; [auto|]. split; [eauto|auto].
Qed.
End Tok.
