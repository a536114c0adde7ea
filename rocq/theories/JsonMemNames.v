(** The parser never meets a name again in a text that does not repeat names. *)
From Coq Require Import ZArith List Bool Lia.
From Verif Require Import Base Utf8Proofs Json JsonTokModel JsonParseModel JsonSpec JsonNamesSpec JsonTokProofs JsonLexProofs JsonParseProofs.
From Verif Require Import JsonMemRun.
Import ListNotations.
Open Scope Z_scope.
Open Scope outcome_scope.

Lemma put_new_end kvs k v : ~ In k (map fst kvs) -> obj_put kvs k v = kvs ++ [(k, v)].
Proof.
  induction kvs as [|(k', v') r IH]; intros N; cbn [obj_put app map fst In] in *; [auto|].
  destruct (text_eqb k k') eqn:E; [apply text_eqb_iff in E; subst; tauto|]. f_equal. apply IH. tauto.
Qed.

Section Names.
Variable strtod : text -> Z.
Variable tail : text.
Notation dv := (dvalue loose_string (loose_number strtod) true).
Notation tk := (JsonLexProofs.tk tail).
Notation stops_at := (stops_at tail).
Notation fits := JsonParseProofs.fits.

Inductive nreach : machine -> machine -> Prop :=
| nreach_refl m : nreach m m
| nreach_step m m1 m2 : running m = true -> new_name m -> step strtod m = Ok m1 -> nreach m1 m2 -> nreach m m2.
Lemma nreach_trans m1 m2 m3 : nreach m1 m2 -> nreach m2 m3 -> nreach m1 m3.
Proof. induction 1; intros; [auto|]. eapply nreach_step; eauto. Qed.
Lemma nreach_names m m' : nreach m m' -> running m' = false -> forall fuel, new_names strtod fuel m.
Proof.
  induction 1 as [m|m m1 m2 R N E H IH]; intros NR fuel; destruct fuel as [|f]; cbn [new_names]; auto; intros RN; [congruence|].
  split; [auto|]. intros m' E'. rewrite E in E'. injection E' as <-. apply IH. auto.
Qed.
Lemma one_step st stk key line res a x t r m' : spaces a -> lexeme strtod x t -> (is_number t = true -> stops (r ++ tail)) ->
  running (Machine st stk key (tk line (a ++ x ++ r)) res) = true -> new_name (Machine st stk key (tk line (a ++ x ++ r)) res) ->
  transition (Machine st stk key (tk line (a ++ x ++ r)) res) t (tk (line + breaks a) r) = Ok m' ->
  nreach (Machine st stk key (tk line (a ++ x ++ r)) res) m'.
Proof.
  intros Sa Lx St R N T. eapply nreach_step; [exact R|exact N| |apply nreach_refl].
  unfold step. cbn [m_tok]. rewrite (next_complete strtod tail line a x t r) by auto. cbn [bind]. exact T.
Qed.

Definition value_ok (n : nat) (w : text) (v : json) : Prop :=
  forall st stk key line a r res ret fk base, begins (Machine st stk key (tk line (a ++ w ++ r)) res) ret fk base ->
    spaces a -> (length base + 1 + n <= 512)%nat -> (length stk < 512)%nat -> new_name (Machine st stk key (tk line (a ++ w ++ r)) res) -> (numeric v = true -> stops_at r) ->
    exists key' line' res', nreach (Machine st stk key (tk line (a ++ w ++ r)) res) (Machine ret (put_value fk base v) key' (tk line' r) res') /\
      (base = [] -> res' = Some v).
Definition elements_ok (n : nat) (w : text) (l : list json) : Prop :=
  forall ret fk base key line r res, (length base + 2 + n <= 512)%nat -> stops_at r ->
    exists b key' line' res', spaces b /\
      nreach (Machine AVALUE (Frame ret fk (Some (JArr [])) :: base) key (tk line (w ++ r)) res)
            (Machine ACOMMA (Frame ret fk (Some (JArr l)) :: base) key' (tk line' (b ++ r)) res').
Definition members_ok (n : nat) (w : text) (kvs : list (text * json)) : Prop :=
  forall ret fk base key line r res, (length base + 2 + n <= 512)%nat -> stops_at r ->
    exists b key' line' res', spaces b /\
      nreach (Machine OKEY (Frame ret fk (Some (JObj [])) :: base) key (tk line (w ++ r)) res)
            (Machine OCOMMA (Frame ret fk (Some (JObj kvs)) :: base) key' (tk line' (b ++ r)) res').
Definition member_ok (n : nat) (w k : text) (v : json) : Prop :=
  forall ret fk base kvs key line r res, ~ In k (map fst kvs) -> (length base + 2 + n <= 512)%nat -> stops_at r ->
    exists b key' line' res', spaces b /\
      nreach (Machine OKEY (Frame ret fk (Some (JObj kvs)) :: base) key (tk line (w ++ r)) res)
            (Machine OCOMMA (Frame ret fk (Some (JObj (obj_put kvs k v))) :: base) key' (tk line' (b ++ r)) res').

Scheme dvalue_min := Minimality for dvalue Sort Prop
  with delements_min := Minimality for delements Sort Prop
  with dmembers_min := Minimality for dmembers Sort Prop
  with dmember_min := Minimality for dmember Sort Prop.

Lemma scalar_ok n w t v : lexeme strtod w t -> scalar t = Some v -> value_ok n w v.
Proof.
  intros L S st stk key line a r res ret fk base B Sa LB LS NM St.
  destruct (begins_scalar _ ret fk base t (tk (line + breaks a) r) v B S) as (res' & E & R).
  eexists _, _, res'. split; [|exact R]. eapply one_step; [exact Sa|exact L|intros N; apply St; destruct t; try discriminate; cbn in S; injection S as <-; auto| |exact NM|exact E].
  inversion B; subst; apply running_ok; auto; discriminate.
Qed.

(** Open, contents, close *)
Lemma array_ok n w l b0 : spaces b0 ->
  (forall ret fk base key line r res, (length base + 1 + S n <= 512)%nat -> stops_at r ->
    exists st b key' line' res', spaces b /\ (st = AVALUE \/ st = ACOMMA) /\
      nreach (Machine AVALUE (Frame ret fk (Some (JArr [])) :: base) key (tk line (w ++ r)) res)
            (Machine st (Frame ret fk (Some (JArr l)) :: base) key' (tk line' (b ++ r)) res')) ->
  value_ok (S n) (91 :: w ++ [93]) (JArr l).
Proof.
  intros _ H st stk key line a r res ret fk base B Sa LB LS NM St.
  pose proof (begins_fits _ _ _ _ B) as F.
  assert (O : nreach (Machine st stk key (tk line (a ++ (91 :: w ++ [93]) ++ r)) res)
     (Machine AVALUE (Frame ret fk (Some (JArr [])) :: base) key (tk (line + breaks a) (w ++ 93 :: r)) None)).
  { replace (a ++ (91 :: w ++ [93]) ++ r) with (a ++ [91] ++ w ++ 93 :: r) in * by (cbn [app]; rewrite <- app_assoc; auto).
    eapply one_step; [exact Sa|apply lx_punct; cbn; auto|discriminate| |exact NM|].
    - inversion B; subst; apply running_ok; auto; discriminate.
    - exact (begins_array _ _ _ _ _ B). }
  destruct (H ret fk base key (line + breaks a) (93 :: r) None) as (st' & b & key' & line' & res' & Sb & Hs & RE); [lia|apply stops_char; auto|].
  eexists key', _, (Some (JArr l)). split; [|auto].
  eapply nreach_trans; [exact O|]. eapply nreach_trans; [exact RE|].
  change (93 :: r) with ([93] ++ r). eapply one_step; [exact Sb|apply lx_punct; cbn; auto 10|discriminate| |destruct Hs as [-> | ->]; exact I|].
  - apply running_ok; [discriminate|cbn [length]; lia| |]; destruct Hs as [-> | ->]; discriminate.
  - unfold transition. cbn [m_stack m_state m_key is_punct]. change (93 =? 93) with true. destruct Hs as [-> | ->]; cbn iota; rewrite pop_fits by auto; reflexivity.
Qed.
Lemma object_ok n w l b0 : spaces b0 ->
  (forall ret fk base key line r res, (length base + 1 + S n <= 512)%nat -> stops_at r ->
    exists st b key' line' res', spaces b /\ (st = OKEY \/ st = OCOMMA) /\
      nreach (Machine OKEY (Frame ret fk (Some (JObj [])) :: base) key (tk line (w ++ r)) res)
            (Machine st (Frame ret fk (Some (JObj l)) :: base) key' (tk line' (b ++ r)) res')) ->
  value_ok (S n) (123 :: w ++ [125]) (JObj l).
Proof.
  intros _ H st stk key line a r res ret fk base B Sa LB LS NM St.
  pose proof (begins_fits _ _ _ _ B) as F.
  assert (O : nreach (Machine st stk key (tk line (a ++ (123 :: w ++ [125]) ++ r)) res)
     (Machine OKEY (Frame ret fk (Some (JObj [])) :: base) key (tk (line + breaks a) (w ++ 125 :: r)) None)).
  { replace (a ++ (123 :: w ++ [125]) ++ r) with (a ++ [123] ++ w ++ 125 :: r) in * by (cbn [app]; rewrite <- app_assoc; auto).
    eapply one_step; [exact Sa|apply lx_punct; cbn; auto|discriminate| |exact NM|].
    - inversion B; subst; apply running_ok; auto; discriminate.
    - exact (begins_object _ _ _ _ _ B). }
  destruct (H ret fk base key (line + breaks a) (125 :: r) None) as (st' & b & key' & line' & res' & Sb & Hs & RE); [lia|apply stops_char; auto|].
  eexists key', _, (Some (JObj l)). split; [|auto].
  eapply nreach_trans; [exact O|]. eapply nreach_trans; [exact RE|].
  change (125 :: r) with ([125] ++ r). eapply one_step; [exact Sb|apply lx_punct; cbn; auto 10|discriminate| |destruct Hs as [-> | ->]; exact I|].
  - apply running_ok; [discriminate|cbn [length]; lia| |]; destruct Hs as [-> | ->]; discriminate.
  - unfold transition. cbn [m_stack m_state m_key is_punct]. change (125 =? 125) with true. change (125 =? 44) with false.
    destruct Hs as [-> | ->]; cbn iota; rewrite pop_fits by auto; reflexivity.
Qed.

(** A comma *)
Lemma comma_array ret fk base l key line b r res : spaces b -> (length base < 511)%nat ->
  exists line', nreach (Machine ACOMMA (Frame ret fk (Some (JArr l)) :: base) key (tk line (b ++ 44 :: r)) res)
    (Machine AVALUE (Frame ret fk (Some (JArr l)) :: base) key (tk line' r) None).
Proof.
  intros Sb L. eexists. change (44 :: r) with ([44] ++ r). eapply one_step; [exact Sb|apply lx_punct; cbn; auto 10|discriminate| |exact I|reflexivity].
  apply running_ok; [discriminate|cbn [length]; lia|discriminate|discriminate].
Qed.
Lemma comma_object ret fk base l key line b r res : spaces b -> (length base < 511)%nat ->
  exists line', nreach (Machine OCOMMA (Frame ret fk (Some (JObj l)) :: base) key (tk line (b ++ 44 :: r)) res)
    (Machine OKEY (Frame ret fk (Some (JObj l)) :: base) key (tk line' r) None).
Proof.
  intros Sb L. eexists. change (44 :: r) with ([44] ++ r). eapply one_step; [exact Sb|apply lx_punct; cbn; auto 10|discriminate| |exact I|reflexivity].
  apply running_ok; [discriminate|cbn [length]; lia|discriminate|discriminate].
Qed.

(** An element behind a bracket or a comma *)
Lemma element_ok n a w b v l ret fk base key line r res : value_ok n w v -> spaces a -> spaces b ->
  (length base + 2 + n <= 512)%nat -> stops_at r ->
  exists key' line' res', nreach (Machine AVALUE (Frame ret fk (Some (JArr l)) :: base) key (tk line ((a ++ w ++ b) ++ r)) res)
     (Machine ACOMMA (Frame ret fk (Some (JArr (l ++ [v]))) :: base) key' (tk line' (b ++ r)) res').
Proof.
  intros V Sa Sb L St. rewrite <- !app_assoc.
  destruct (V AVALUE (Frame ret fk (Some (JArr l)) :: base) key line a (b ++ r) res ACOMMA None (Frame ret fk (Some (JArr l)) :: base))
    as (key' & line' & res' & R & _); [constructor|auto|cbn [length]; lia|cbn [length]; lia|exact I|intros _; apply stops_spaces; auto|].
  exists key', line', res'. exact R.
Qed.

Lemma dv_complete n w v : dv n w v -> value_ok n w v.
Proof.
  apply (dvalue_min loose_string (loose_number strtod) true value_ok elements_ok members_ok member_ok); clear n w v.
  - intros n. eapply scalar_ok; [apply lx_null|auto].
  - intros n. eapply scalar_ok; [apply lx_true|auto].
  - intros n. eapply scalar_ok; [apply lx_false|auto].
  - intros n w s S. eapply scalar_ok; [apply lx_str; eauto|auto].
  - intros n w v N. destruct N as [m ds M D|m i f e M D F E NN].
    + eapply scalar_ok; [apply lx_int; constructor; auto|auto].
    + eapply scalar_ok; [apply lx_double; constructor; auto|auto].
  - intros n b Sb. apply (array_ok n b [] []); [constructor|]. intros. exists AVALUE, b, key, line, res. split; [auto|]. split; [auto|]. apply nreach_refl.
  - intros n w l _ H. apply (array_ok n w l []); [constructor|]. intros ret fk base key line r res L St.
    destruct (H ret fk base key line r res) as (b & key' & line' & res' & Sb & R); [lia|auto|]. exists ACOMMA, b, key', line', res'. auto.
  - intros n w l b _ _ H Sb. replace (91 :: w ++ 44 :: b ++ [93]) with (91 :: (w ++ 44 :: b) ++ [93]) by (rewrite <- app_assoc; auto).
    apply (array_ok n _ l []); [constructor|]. intros ret fk base key line r res L St.
    destruct (H ret fk base key line (44 :: b ++ r) res) as (b' & key' & line' & res' & Sb' & R); [lia|apply stops_char; auto|].
    destruct (comma_array ret fk base l key' line' b' (b ++ r) res') as (line2 & R2); [auto|lia|].
    exists AVALUE, b, key', line2, None. split; [auto|]. split; [auto|]. rewrite <- app_assoc. cbn [app]. eapply nreach_trans; eauto.
  - intros n b Sb. apply (object_ok n b [] []); [constructor|]. intros. exists OKEY, b, key, line, res. split; [auto|]. split; [auto|]. apply nreach_refl.
  - intros n w l _ H. apply (object_ok n w l []); [constructor|]. intros ret fk base key line r res L St.
    destruct (H ret fk base key line r res) as (b & key' & line' & res' & Sb & R); [lia|auto|]. exists OCOMMA, b, key', line', res'. auto.
  - intros n w l b _ _ H Sb. replace (123 :: w ++ 44 :: b ++ [125]) with (123 :: (w ++ 44 :: b) ++ [125]) by (rewrite <- app_assoc; auto).
    apply (object_ok n _ l []); [constructor|]. intros ret fk base key line r res L St.
    destruct (H ret fk base key line (44 :: b ++ r) res) as (b' & key' & line' & res' & Sb' & R); [lia|apply stops_char; auto|].
    destruct (comma_object ret fk base l key' line' b' (b ++ r) res') as (line2 & R2); [auto|lia|].
    exists OKEY, b, key', line2, None. split; [auto|]. split; [auto|]. rewrite <- app_assoc. cbn [app]. eapply nreach_trans; eauto.
  - intros n a w b v Sa _ V Sb ret fk base key line r res L St.
    destruct (element_ok n a w b v [] ret fk base key line r res V Sa Sb L St) as (key' & line' & res' & R). exists b, key', line', res'. auto.
  - intros n w0 l a w b v _ H Sa _ V Sb ret fk base key line r res L St. rewrite <- app_assoc. cbn [app].
    destruct (H ret fk base key line (44 :: (a ++ w ++ b) ++ r) res) as (b' & key' & line' & res' & Sb' & R); [lia|apply stops_char; auto|].
    destruct (comma_array ret fk base l key' line' b' ((a ++ w ++ b) ++ r) res') as (line2 & R2); [auto|lia|].
    destruct (element_ok n a w b v l ret fk base key' line2 r None V Sa Sb L St) as (key3 & line3 & res3 & R3).
    exists b, key3, line3, res3. split; [auto|]. eapply nreach_trans; [exact R|]. eapply nreach_trans; [exact R2|exact R3].
  - intros n w k v _ M ret fk base key line r res L St. exact (M ret fk base [] key line r res (fun f => f) L St).
  - intros n w0 kvs w k v J0 H _ M NK ret fk base key line r res L St. rewrite <- app_assoc. cbn [app].
    rewrite <- (put_new_end kvs k v NK).
    destruct (H ret fk base key line (44 :: w ++ r) res) as (b' & key' & line' & res' & Sb' & R); [lia|apply stops_char; auto|].
    destruct (comma_object ret fk base kvs key' line' b' (w ++ r) res') as (line2 & R2); [auto|lia|].
    destruct (M ret fk base kvs key' line2 r None NK L St) as (b3 & key3 & line3 & res3 & Sb3 & R3).
    exists b3, key3, line3, res3. split; [auto|]. eapply nreach_trans; [exact R|]. eapply nreach_trans; [exact R2|exact R3].
  - intros n a k s b c w d v Sa S Sb Sc _ V Sd ret fk base kvs key line r res NK L St.
    replace ((a ++ (34 :: k ++ [34]) ++ b ++ 58 :: c ++ w ++ d) ++ r) with (a ++ (34 :: k ++ [34]) ++ b ++ [58] ++ c ++ w ++ d ++ r)
      by (rewrite <- !app_assoc; cbn [app]; rewrite <- ?app_assoc; auto).
    exists d.
    destruct (V OVALUE (Frame ret fk (Some (JObj kvs)) :: base) (Some s) (line + breaks a + breaks b) c (d ++ r) None OCOMMA (Some s) (Frame ret fk (Some (JObj kvs)) :: base))
      as (key3 & line3 & res3 & R3 & _); [constructor|auto|cbn [length]; lia|cbn [length]; lia|exact NK|intros _; apply stops_spaces; auto|].
    exists key3, line3, res3. split; [auto|]. cbn [put_value] in R3. eapply nreach_trans; [|exact R3].
    eapply nreach_trans.
    { eapply one_step with (m' := Machine OCOLON (Frame ret fk (Some (JObj kvs)) :: base) (Some s) (tk (line + breaks a) (b ++ [58] ++ c ++ w ++ d ++ r)) None);
        [exact Sa|apply lx_str; eauto|discriminate| |exact I|reflexivity].
      apply running_ok; [discriminate|cbn [length]; lia|discriminate|discriminate]. }
    eapply one_step; [exact Sb|apply lx_punct; cbn; auto 10|discriminate| |exact I|reflexivity].
    apply running_ok; [discriminate|cbn [length]; lia|discriminate|discriminate].
Qed.
Lemma names_start a w v b fuel : spaces a -> dv 511 w v -> (numeric v = true -> stops_at b) ->
  new_names strtod fuel (JsonMemRun.start ((a ++ w ++ b) ++ tail) (Z.of_nat (length (a ++ w ++ b)))).
Proof.
  intros Sa V St. change (JsonMemRun.start ((a ++ w ++ b) ++ tail) (Z.of_nat (length (a ++ w ++ b)))) with
    (Machine VALUE [Frame DONE None None] None (tk 0 (a ++ w ++ b)) None).
  destruct (dv_complete 511 w v V VALUE [Frame DONE None None] None 0 a b None DONE None []) as (key' & line' & res' & R & _);
    [constructor|auto|cbn; lia|cbn; lia|exact I|auto|]. eapply nreach_names; [exact R|reflexivity].
Qed.
End Names.

(** Such a text is a text of the grammar with the same value. *)
Section Incl.
Variables (str : text -> text -> Prop) (num : text -> json -> Prop) (comma : bool).
Lemma with_member_new kvs k v : ~ In k (map fst kvs) -> with_member kvs k v = kvs ++ [(k, v)].
Proof.
  intros N. unfold with_member. replace (existsb _ kvs) with false; [auto|]. symmetry. apply not_true_is_false. intros E. apply existsb_exists in E as ((k', v') & I & E).
  apply text_eqb_iff in E. cbn in E. subst k'. apply N. apply in_map_iff. exists (k, v'). auto.
Qed.
Scheme dvalue_min' := Minimality for dvalue Sort Prop
  with delements_min' := Minimality for delements Sort Prop
  with dmembers_min' := Minimality for dmembers Sort Prop
  with dmember_min' := Minimality for dmember Sort Prop.
Lemma dvalue_jvalue n w v : dvalue str num comma n w v -> jvalue str num comma n w v.
Proof.
  apply (dvalue_min' str num comma (jvalue str num comma) (jelements str num comma) (jmembers str num comma) (jmember str num comma)); clear n w v; intros; try (econstructor; eauto; fail).
  rewrite <- with_member_new by auto. apply jm_more; auto.
Qed.
End Incl.

