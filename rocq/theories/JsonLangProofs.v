(** More about the language of the parser: RFC texts belong to it, and texts that
    are not RFC texts. *)
From Coq Require Import ZArith List Bool Lia.
From Verif Require Import Base NumeralProofs Utf8Model Utf8Proofs Json JsonTokModel JsonParseModel JsonSpec
  JsonStrProofs JsonTokProofs JsonLexProofs JsonParseProofs.
Import ListNotations.
Open Scope Z_scope.
Local Arguments Z.add : simpl never.
Local Arguments Z.of_nat : simpl never.

(** * Inclusion *)
Scheme jvalue_min := Minimality for jvalue Sort Prop
  with jelements_min := Minimality for jelements Sort Prop
  with jmembers_min := Minimality for jmembers Sort Prop
  with jmember_min := Minimality for jmember Sort Prop.

Lemma jvalue_weaken (str str' : text -> text -> Prop) (num num' : text -> json -> Prop) (tc tc' : bool) :
  (forall w s, str w s -> str' w s) -> (forall w v, num w v -> num' w v) -> (tc = true -> tc' = true) ->
  forall n w v, jvalue str num tc n w v -> forall n', (n <= n')%nat -> jvalue str' num' tc' n' w v.
Proof.
  intros HS HN HT.
  apply (jvalue_min str num tc
    (fun n w v => forall n', (n <= n')%nat -> jvalue str' num' tc' n' w v)
    (fun n w v => forall n', (n <= n')%nat -> jelements str' num' tc' n' w v)
    (fun n w v => forall n', (n <= n')%nat -> jmembers str' num' tc' n' w v)
    (fun n w k v => forall n', (n <= n')%nat -> jmember str' num' tc' n' w k v)); intros;
    try (destruct n' as [|n']; [lia|]); try (constructor; auto; fail).
  - apply jv_arr; auto with arith.
  - apply jv_arr_comma; auto with arith.
  - apply jv_obj; auto with arith.
  - apply jv_obj_comma; auto with arith.
Qed.

Lemma rfc_loose_number strtod w v : rfc_number strtod w v -> loose_number strtod w v.
Proof.
  intros [m ds M I R|m i f e M I F E N].
  - assert (E : saturate (integer_value m ds) = integer_value m ds).
    { unfold saturate, int64 in *. destruct (Z.ltb_spec (integer_value m ds) (- 2 ^ 63)); [lia|].
      destruct (Z.leb_spec (2 ^ 63) (integer_value m ds)); [lia|auto]. }
    rewrite <- E. apply ln_int; auto.
  - apply ln_double; auto. apply I.
Qed.
Lemma rfc_loose_value strtod n w v : jvalue rfc_string (rfc_number strtod) false n w v -> (n <= 511)%nat ->
  jvalue loose_string (loose_number strtod) true 511 w v.
Proof.
  intros J N. eapply jvalue_weaken; [apply rfc_loose_string|apply rfc_loose_number| |exact J|exact N]. discriminate.
Qed.

(** * All are bytes *)
Lemma spaces_bytes b : spaces b -> Forall byte b.
Proof. apply Forall_impl. unfold ws, byte. intros; lia. Qed.
Lemma digits_bytes ds : digits ds -> Forall byte ds.
Proof. intros (_ & F). eapply Forall_impl; [|exact F]. unfold digit_char, byte. intros; lia. Qed.
Lemma number_bytes strtod w v : loose_number strtod w v -> Forall byte w.
Proof.
  assert (M : forall m, minus m -> Forall byte m) by (intros m [-> | ->]; repeat constructor; unfold byte; lia).
  intros [m ds Hm (Hd & _)|m i f e Hm Hi Hf He _]; rewrite !Forall_app; [auto using digits_bytes|].
  split; [auto|]. split; [auto using digits_bytes|]. split.
  - destruct Hf as [-> |(ds & -> & Hd)]; [constructor|]. constructor; [unfold byte; lia|auto using digits_bytes].
  - destruct He as [-> |(ee & sg & ds & Ee & Sg & -> & Hd)]; [constructor|]. constructor; [unfold byte; lia|]. apply Forall_app.
    split; [|auto using digits_bytes]. destruct Sg as [-> |[-> | ->]]; repeat constructor; unfold byte; lia.
Qed.
Lemma loose_value_bytes strtod n w v : jvalue loose_string (loose_number strtod) true n w v -> Forall byte w.
Proof.
  assert (B : forall c, 0 <= c < 256 -> byte c) by (unfold byte; auto).
  assert (ST : forall w s, loose_string w s -> Forall byte w) by (intros ? ? (s0 & L & _); eapply loose_chars_bytes; eauto).
  apply (jvalue_min loose_string (loose_number strtod) true
    (fun n w v => Forall byte w) (fun n w v => Forall byte w) (fun n w v => Forall byte w) (fun n w k v => Forall byte w)); intros;
    repeat match goal with
    | H : spaces _ |- _ => apply spaces_bytes in H
    | H : loose_string _ _ |- _ => apply ST in H
    | H : loose_number _ _ _ |- _ => apply number_bytes in H
    | |- Forall byte (_ ++ _) => apply Forall_app; split
    | |- Forall byte (_ :: _) => constructor; [apply B; lia|]
    end; auto.
Qed.

Lemma eof_tail_stops junk b : eof_tail b -> stops (b ++ 0 :: junk).
Proof.
  intros [S|(b0 & c & d & -> & S & _)].
  - destruct S as [|c b W S]; [apply stops_nil|]. eexists _, _. split; [reflexivity|]. unfold stop_char, digit_char, ws in *. lia.
  - destruct S as [|x b0 W S]; (eexists _, _; split; [reflexivity|]); unfold stop_char, digit_char, ws in *; lia.
Qed.

(** * Exactly the relaxed language *)
Lemma parsex_exact strtod t junk fuel : Forall byte t -> Forall byte junk -> (length t < fuel)%nat -> forall v,
  parsex strtod fuel (t ++ 0 :: junk) (Z.of_nat (length t)) true = Ok (POk v) <->
  exists a w b, t = a ++ w ++ b /\ spaces a /\ jvalue loose_string (loose_number strtod) true 511 w v /\ eof_tail b.
Proof.
  intros Bt Bj L v. split.
  - intros E. destruct (parsex_total strtod junk Bj t fuel true Bt L) as (r & E' & P). rewrite E in E'. injection E' as <-.
    destruct P as (a & w & b & E1 & S & J & T). exists a, w, b. auto.
  - intros (a & w & b & E1 & S & J & T). eapply parsex_complete; eauto. intros _. apply eof_tail_stops. auto.
Qed.

(** * Nesting of values *)
Fixpoint depth (j : json) : nat :=
  match j with
  | JArr l => S (list_max (map depth l))
  | JObj kvs => S (list_max (map (fun kv => depth (snd kv)) kvs))
  | _ => 0%nat
  end.
Lemma max_put kvs k v n : (list_max (map (fun kv => depth (snd kv)) kvs) <= n)%nat -> (depth v <= n)%nat ->
  (list_max (map (fun kv => depth (snd kv)) (with_member kvs k v)) <= n)%nat.
Proof.
  rewrite !list_max_le. unfold with_member. destruct (existsb _ kvs); intros F D; rewrite Forall_map in *.
  - rewrite Forall_map. eapply Forall_impl; [|exact F]. intros (k', v') H. cbn [snd fst] in *. destruct (text_eqb k k'); auto.
  - apply Forall_app. split; [auto|]. repeat constructor. auto.
Qed.
Lemma value_depth strtod n w v : jvalue loose_string (loose_number strtod) true n w v -> (depth v <= n)%nat.
Proof.
  apply (jvalue_min loose_string (loose_number strtod) true
    (fun n w v => (depth v <= n)%nat) (fun n w l => (list_max (map depth l) <= n)%nat)
    (fun n w l => (list_max (map (fun kv => depth (snd kv)) l) <= n)%nat) (fun n w k v => (depth v <= n)%nat)); intros; cbn [depth];
    try lia; auto.
  - match goal with H : loose_number _ _ _ |- _ => destruct H; cbn; lia end.
  - cbn; lia.
  - cbn; lia.
  - cbn. lia.
  - rewrite map_app, list_max_app. cbn. lia.
  - cbn. lia.
  - apply max_put; auto.
Qed.

(** * Texts that are not RFC texts *)
Section NotRfc.
Variable strtod : text -> Z.
Notation rv := (jvalue rfc_string (rfc_number strtod) false).

Definition number_char (c : Z) : Prop := digit_char c \/ c = 45 \/ c = 43 \/ c = 46 \/ c = 101 \/ c = 69.
Lemma digits_number_chars ds : digits ds -> Forall number_char ds.
Proof. intros (_ & F). eapply Forall_impl; [|exact F]. unfold number_char. auto. Qed.
Lemma rfc_number_chars w v : rfc_number strtod w v -> Forall number_char w.
Proof.
  assert (M : forall m, minus m -> Forall number_char m) by (intros m [-> | ->]; repeat constructor; unfold number_char; lia).
  intros [m ds Hm (Hd & _) _|m i f e Hm (Hi & _) Hf He _]; rewrite !Forall_app; [auto using digits_number_chars|].
  split; [auto|]. split; [auto using digits_number_chars|]. split.
  - destruct Hf as [-> |(ds & -> & Hd)]; [constructor|]. constructor; [unfold number_char; lia|auto using digits_number_chars].
  - destruct He as [-> |(ee & sg & ds & Ee & Sg & -> & Hd)]; [constructor|]. constructor; [unfold number_char; lia|]. apply Forall_app.
    split; [|auto using digits_number_chars]. destruct Sg as [-> |[-> | ->]]; repeat constructor; unfold number_char; lia.
Qed.
Lemma rfc_number_head w v : rfc_number strtod w v -> exists c r, w = c :: r /\ (c = 45 \/ digit_char c).
Proof. intros N. apply rfc_loose_number in N. eapply number_head; eauto. Qed.

(** The first character tells what the value is. *)
Lemma head_number n w v c r : rv n w v -> w = c :: r -> digit_char c \/ c = 45 -> rfc_number strtod w v.
Proof. intros J E D. unfold digit_char in D. destruct J; auto; injection E as <- _; lia. Qed.
Lemma head_string n w v r : rv n w v -> w = 34 :: r -> exists k s, w = 34 :: k ++ [34] /\ rfc_string k s.
Proof.
  intros J E. destruct J; try discriminate; [eauto|].
  match goal with H : rfc_number _ _ _ |- _ => apply rfc_number_head in H as (c & r' & -> & D) end.
  injection E as -> _. unfold digit_char in D. lia.
Qed.
Lemma head_array n w v r : rv n w v -> w = 91 :: r -> exists n' w', r = w' ++ [93] /\ (spaces w' \/ exists l, jelements rfc_string (rfc_number strtod) false n' w' l).
Proof.
  intros J E. destruct J; try discriminate.
  - match goal with H : rfc_number _ _ _ |- _ => apply rfc_number_head in H as (c & r' & -> & D) end.
    injection E as -> _. unfold digit_char in D. lia.
  - injection E as <-. exists 0%nat, b. auto.
  - injection E as <-. exists n, w. eauto.
Qed.
Lemma value_nonempty n w v : rv n w v -> w <> [].
Proof.
  intros J. destruct J; try discriminate.
  match goal with H : rfc_number _ _ _ |- _ => apply rfc_number_head in H as (c & r' & -> & D) end. discriminate.
Qed.
Lemma number_last w v : rfc_number strtod w v -> exists w' c, w = w' ++ [c] /\ digit_char c.
Proof.
  assert (D : forall p ds, digits ds -> exists w' c, p ++ ds = w' ++ [c] /\ digit_char c).
  { intros p ds (N & F). destruct (exists_last N) as (ds' & c & ->). exists (p ++ ds'), c. rewrite app_assoc. split; [auto|].
    apply Forall_app in F as (_ & F). exact (Forall_inv F). }
  intros [m ds Hm (Hd & _) _|m i f e Hm (Hi & _) Hf He NN]; [auto|].
  destruct He as [-> |(ee & sg & ds & Ee & Sg & -> & Hd)].
  - rewrite !app_nil_r in *. destruct Hf as [-> |(ds & -> & Hd)]; [congruence|].
    replace (m ++ i ++ 46 :: ds) with ((m ++ i ++ [46]) ++ ds) by (rewrite <- !app_assoc; auto). auto.
  - replace (m ++ i ++ f ++ ee :: sg ++ ds) with ((m ++ i ++ f ++ ee :: sg) ++ ds) by (rewrite <- !app_assoc; cbn [app]; auto). auto.
Qed.
Lemma value_last n w v : rv n w v -> exists w' c, w = w' ++ [c] /\ c <> 44 /\ ~ ws c.
Proof.
  assert (T : forall (p : text) c, c <> 44 -> ~ ws c -> exists w' c', p ++ [c] = w' ++ [c'] /\ c' <> 44 /\ ~ ws c') by eauto.
  assert (W : forall c, 47 < c -> c <> 44 /\ ~ ws c) by (unfold ws; intros; lia).
  intros J. destruct J.
  - apply (T [110; 117; 108] 108); apply W; lia.
  - apply (T [116; 114; 117] 101); apply W; lia.
  - apply (T [102; 97; 108; 115] 101); apply W; lia.
  - apply (T (34 :: w) 34); unfold ws; lia.
  - match goal with H : rfc_number _ _ _ |- _ => apply number_last in H as (w' & c & -> & D) end. apply T; apply W; unfold digit_char in D; lia.
  - apply (T (91 :: b) 93); apply W; lia.
  - apply (T (91 :: w) 93); apply W; lia.
  - discriminate.
  - apply (T (123 :: b) 125); apply W; lia.
  - apply (T (123 :: w) 125); apply W; lia.
  - discriminate.
Qed.

(** The white space before the first other character *)
Lemma first_char a w c r : spaces a -> a ++ w = c :: r -> ~ ws c -> a = [].
Proof. intros [|x a' W S] E N; [auto|]. injection E as <- _. contradiction. Qed.

(** [00.5] *)
Lemma zeros_not_rfc n v : ~ rfc_json strtod n [48; 48; 46; 53] v.
Proof.
  intros (a & w & b & Sa & J & Sb & E). symmetry in E.
  assert (a = []) as -> by (eapply first_char; [exact Sa|exact E|unfold ws; lia]). cbn [app] in E.
  pose proof (value_nonempty _ _ _ J) as NE. destruct w as [|c w]; [congruence|]. cbn [app] in E. injection E as -> E.
  pose proof (head_number _ _ _ _ _ J eq_refl (or_introl (conj (Z.le_refl 48) (Z.lt_le_incl 48 57 eq_refl)))) as N.
  remember (48 :: w) as W eqn:EW. destruct N as [m ds Hm (Hd & Hz) _|m i f e Hm (Hi & Hz) Hf He NN].
  - assert (m = []) as -> by (destruct Hm as [-> | ->]; [auto|discriminate]). cbn [app] in EW. subst ds.
    specialize (Hz eq_refl). injection Hz as ->. cbn [app] in E. subst b. pose proof (Forall_inv Sb). unfold ws in *. lia.
  - assert (m = []) as -> by (destruct Hm as [-> | ->]; [auto|discriminate]). cbn [app] in EW.
    destruct i as [|i0 i]; [destruct Hi; congruence|]. injection EW as -> EW. specialize (Hz eq_refl). injection Hz as ->. cbn [app] in EW. subst w.
    destruct Hf as [-> |(ds & -> & _)]; [|cbn [app] in E; discriminate].
    destruct He as [-> |(ee & sg & ds & Ee & Sg & -> & _)]; [cbn in NN; congruence|]. cbn [app] in E. injection E as E _. lia.
Qed.

(** [1,] in brackets *)
Lemma comma_not_rfc n v : ~ rfc_json strtod n [91; 49; 44; 93] v.
Proof.
  intros (a & w & b & Sa & J & Sb & E). symmetry in E.
  assert (a = []) as -> by (eapply first_char; [exact Sa|exact E|unfold ws; lia]). cbn [app] in E.
  pose proof (value_nonempty _ _ _ J) as NE. destruct w as [|c w]; [congruence|]. cbn [app] in E. injection E as -> E.
  destruct (head_array _ _ _ _ J eq_refl) as (n' & w' & -> & K). rewrite <- app_assoc in E. cbn [app] in E.
  assert (w' = [49; 44]) as ->.
  { destruct w' as [|x1 [|x2 [|x3 [|x4 w']]]]; cbn [app] in E; try congruence. }
  destruct K as [K|(l & K)]; [pose proof (Forall_inv K); unfold ws in *; lia|].
  remember [49; 44] as W eqn:EW. destruct K as [n1 a1 w1 b1 v1 S1 J1 S2|n1 w0 l a1 w1 b1 v1 J0 S1 J1 S2].
  - destruct (value_last _ _ _ J1) as (w2 & c & -> & N1 & N2).
    destruct b1 as [|y b1 _] using rev_ind.
    + rewrite app_nil_r, app_assoc in EW. change [49; 44] with ([49] ++ [44]) in EW. apply app_inj_tail in EW as (_ & EW). congruence.
    + rewrite !app_assoc in EW. change [49; 44] with ([49] ++ [44]) in EW. apply app_inj_tail in EW as (_ & ->).
      apply Forall_app in S2 as (_ & S2). pose proof (Forall_inv S2). unfold ws in *. lia.
  - pose proof (value_nonempty _ _ _ J1) as N1. destruct w0 as [|x0 [|x1 w0]].
    + injection EW as EW _. lia.
    + injection EW as _ EW. destruct a1; [|discriminate]. destruct w1; [congruence|discriminate].
    + cbn [app] in EW. injection EW. intros EW' _ _. destruct w0; discriminate.
Qed.

(** A string with the byte 255, which never occurs in UTF-8 *)
Lemma quoted_text k n v : rfc_json strtod n (34 :: k ++ [34]) v -> ~ In 34 k -> exists s, rfc_string k s.
Proof.
  intros (a & w & b & Sa & J & Sb & E) NI. symmetry in E.
  assert (a = []) as -> by (eapply first_char; [exact Sa|exact E|unfold ws; lia]). cbn [app] in E.
  pose proof (value_nonempty _ _ _ J) as NE. destruct w as [|c w]; [congruence|]. cbn [app] in E. injection E as -> E.
  destruct (head_string _ _ _ _ J eq_refl) as (k' & s & EK & R). injection EK as ->. exists s.
  assert (b = []) as ->.
  { destruct b as [|y b _] using rev_ind; [auto|]. rewrite !app_assoc in E. apply app_inj_tail in E as (_ & ->).
    apply Forall_app in Sb as (_ & Sb). pose proof (Forall_inv Sb). unfold ws in *. lia. }
  rewrite app_nil_r in E. apply app_inj_tail in E as (-> & _). auto.
Qed.
Lemma bad_utf8_not_rfc n v : ~ rfc_json strtod n [34; 255; 34] v.
Proof.
  intros R. apply (quoted_text [255]) in R; [|cbn; lia]. destruct R as (s & C & _).
  apply chars_loose in C as L. assert (valid_utf8 s) as V by (eapply chars_valid; eauto).
  assert (s = [255]) as ->.
  { inversion L; subst; [|lia..]. match goal with H : loose_chars [] _ |- _ => inversion H end. auto. }
  destruct V as (us & F & E). destruct us as [|u us]; [discriminate|]. cbn [flat_map] in E.
  destruct (Forall_inv F) as (R & _). unfold utf8 in E.
  destruct (Z.ltb_spec u 128); [injection E as E _; lia|].
  destruct (Z.ltb_spec u 2048); [discriminate|]. destruct (Z.ltb_spec u 65536); discriminate.
Qed.
(** A string that is an unpaired surrogate *)
Lemma lone_not_rfc n v : ~ rfc_json strtod n [34; 92; 117; 100; 56; 48; 48; 34] v.
Proof.
  intros R. apply (quoted_text [92; 117; 100; 56; 48; 48]) in R; [|cbn; lia]. destruct R as (s & C & _).
  remember [92; 117; 100; 56; 48; 48] as w eqn:E. destruct C as [|u w s S A N1 N2 C|e c w s I C|h x w s H N1 N2 C|h1 h2 hi lo w s H1 H2 N1 N2 C].
  - discriminate.
  - destruct S as (P & _). unfold utf8 in E. div_mod u 64. div_mod (u / 64) 64. div_mod u 4096. div_mod u 262144.
    destruct (Z.ltb_spec u 128); [injection E as E _; lia|]. destruct (Z.ltb_spec u 2048); [injection E as E _; lia|].
    destruct (Z.ltb_spec u 65536); injection E as E _; lia.
  - injection E as -> _. cbn in I. repeat destruct I as [I|I]; try discriminate; auto.
  - destruct H as (a & b & c & d & va & vb & vc & vd & -> & Ha & Hb & Hc & Hd & ->). cbn [app] in E. injection E as -> -> -> -> _.
    unfold hex_digit in *. unfold high_surrogate in N1. lia.
  - destruct H1 as (a & b & c & d & va & vb & vc & vd & -> & _). discriminate.
Qed.
(** Anything behind a comment sign *)
Lemma comment_not_rfc r n v : ~ rfc_json strtod n (49 :: 47 :: r) v.
Proof.
  intros (a & w & b & Sa & J & Sb & E). symmetry in E.
  assert (a = []) as -> by (eapply first_char; [exact Sa|exact E|unfold ws; lia]). cbn [app] in E.
  pose proof (value_nonempty _ _ _ J) as NE. destruct w as [|c w]; [congruence|]. cbn [app] in E. injection E as -> E.
  assert (N : rfc_number strtod (49 :: w) v) by (eapply head_number; [exact J|reflexivity|unfold digit_char; lia]).
  apply rfc_number_chars in N. apply Forall_inv_tail in N. destruct w as [|c w].
  - cbn [app] in E. subst b. pose proof (Forall_inv Sb). unfold ws in *. lia.
  - injection E as -> _. pose proof (Forall_inv N). unfold number_char, digit_char in *. lia.
Qed.
End NotRfc.

(** * Integer literals *)
Lemma digits_split m ds m' ds' : minus m -> minus m' -> digits ds -> digits ds' -> m ++ ds = m' ++ ds' -> m = m' /\ ds = ds'.
Proof.
  intros M M' (N & F) (N' & F') E. destruct ds as [|d ds]; [congruence|]. destruct ds' as [|d' ds']; [congruence|].
  pose proof (Forall_inv F) as D. pose proof (Forall_inv F') as D'. unfold digit_char in D, D'.
  destruct M as [-> | ->], M' as [-> | ->]; cbn [app] in E; try (injection E as E1 E2); auto; try lia.
  - split; [auto|congruence].
  - split; [auto|congruence].
Qed.

(** An integer with superfluous zeros is no value, and nothing can be split off. *)
Lemma zeros_rejected strtod m ds : minus m -> digits ds -> hd 0 ds = 48 -> ds <> [48] ->
  forall n a w b v, m ++ ds = a ++ w ++ b -> spaces a -> jvalue loose_string (loose_number strtod) true n w v -> eof_tail b -> False.
Proof.
  intros M D Z N n a w b v E Sa J Sb.
  assert (C : Forall (fun c => c = 45 \/ digit_char c) (m ++ ds)).
  { apply Forall_app. split; [destruct M as [-> | ->]; repeat constructor; auto|]. eapply Forall_impl; [|apply D]. auto. }
  rewrite E in C. rewrite !Forall_app in C. destruct C as (Ca & Cw & Cb).
  assert (a = []) as ->. { destruct Sa as [|x a W S]; [auto|]. pose proof (Forall_inv Ca). unfold ws, digit_char in *. lia. }
  assert (b = []) as ->.
  { destruct Sb as [S|(b0 & c & d & -> & S & _)].
    - destruct S as [|x b W S]; [auto|]. pose proof (Forall_inv Cb). unfold ws, digit_char in *. lia.
    - apply Forall_app in Cb as (_ & Cb). pose proof (Forall_inv Cb). unfold digit_char in *. lia. }
  cbn [app] in E. rewrite app_nil_r in E.
  assert (L : loose_number strtod w v).
  { destruct J; auto; pose proof (Forall_inv Cw); unfold digit_char in *; lia. }
  destruct L as [m' ds' M' (D' & Z')|m' i f e M' D' F' E' NN].
  - destruct (digits_split m ds m' ds' M M' D D' E) as (-> & ->). auto.
  - rewrite !Forall_app in Cw. destruct Cw as (_ & _ & Cf & Ce).
    destruct F' as [-> |(x & -> & _)]; [|pose proof (Forall_inv Cf); unfold digit_char in *; lia].
    destruct E' as [-> |(ee & sg & x & Ee & Sg & -> & _)]; [cbn in NN; congruence|]. pose proof (Forall_inv Ce). unfold digit_char in *. lia.
Qed.

(** * Unpaired surrogates *)
Lemma raw_chars p s0 : chars p s0 -> forall w s, raw None (p ++ w) s -> exists s1, s = s0 ++ s1 /\ raw None w s1.
Proof.
  assert (PL : forall b w s, Forall (fun c => 32 <= c < 256 /\ c <> 92) b -> raw None (b ++ w) s -> exists s1, s = b ++ s1 /\ raw None w s1).
  { induction b as [|c b IH]; intros w s F R; [exists s; auto|]. cbn [app] in R. destruct (Forall_inv F) as (_ & N).
    inversion R as [|c' w' s' A' N' R'| | | | |]; subst; try congruence. destruct (IH w s' (Forall_inv_tail F) R') as (s2 & -> & R2). exists s2. auto. }
  induction 1 as [|u p s0 S A N1 N2 C IH|e c p s0 I C IH|h x p s0 H N1 N2 C IH|h1 h2 hi lo p s0 H1 H2 N1 N2 C IH]; intros w s R.
  - exists s. auto.
  - rewrite <- app_assoc in R. apply PL in R as (s1 & -> & R).
    + apply IH in R as (s2 & -> & R). exists s2. rewrite app_assoc. auto.
    + eapply Forall_impl; [|apply utf8_plain; eauto]. cbn beta. intros; lia.
  - cbn [app] in R. inversion R as [| |e' c' ? ? I' R'|h' x' w' s' H' N' R'|h' x' w' s' H' N' R'| |]; subst.
    + congruence.
    + apply escape_iff in I, I'. rewrite I in I'. injection I' as <-. apply IH in R' as (s2 & -> & R'). exists s2. auto.
    + apply escape_range in I. lia.
    + apply escape_range in I. lia.
  - cbn [app] in R. rewrite <- app_assoc in R. inversion R as [| |e' c' ? ? I' R'|h' x' w' s' H' N' R'|h' x' w' s' H' N' R'| |]; subst.
    + congruence.
    + apply escape_range in I'. lia.
    + hexeq H. apply IH in R' as (s2 & -> & R'). exists s2. rewrite app_assoc. auto.
    + hexeq H. contradiction.
  - cbn [app] in R. rewrite <- app_assoc in R. inversion R as [| |e' c' ? ? I' R'|h' x' w' s' H' N' R'|h' x' w' s' H' N' R'| |]; subst.
    + congruence.
    + apply escape_range in I'. lia.
    + hexeq H1. contradiction.
    + hexeq H1. rewrite <- ?app_assoc in R'. cbn [app] in R'. rewrite <- ?app_assoc in R'.
      inversion R' as [| | | | |hib hb xb wb sb Hb Nb R''|]; subst. hexeq H2.
      apply IH in R'' as (s2 & -> & R''). exists s2. rewrite app_assoc. auto.
Qed.
