(** The printed text is JSON and denotes the value. *)
From Coq Require Import ZArith List Bool Lia.
From Verif Require Import Base Numeral NumeralProofs BoxedModel Utf8Proofs Json JsonSpec JsonStrProofs JsonLexProofs JsonLangProofs
  JsonPrintSpec JsonPrintProofs.
Import ListNotations.
Open Scope Z_scope.
Local Arguments Z.add : simpl never.
Local Arguments Z.of_nat : simpl never.
Local Arguments Z.to_nat : simpl never.

(** * Integers *)
Lemma no_zero (w : text) : w <> [] -> (forall r, w = 48 :: r -> r = []) -> hd 0 w = 48 -> w = [48].
Proof. intros N Z0 E. destruct w as [|c w]; [congruence|]. cbn in E. subst c. rewrite (Z0 w eq_refl). auto. Qed.
Lemma decimal_number strtod z : int64 z -> rfc_number strtod (decimal_of z) (JI64 z).
Proof.
  intros R. destruct (decimal_of_ok z) as [(P & N & F & V & Z0)|(P & ds & -> & N & F & V & Z0)].
  - pose proof (rn_int strtod [] (decimal_of z)) as X. cbn [app integer_value] in X. rewrite V in X. apply X; [left; auto| |exact R].
    split; [split; auto|]. apply no_zero; auto.
  - pose proof (rn_int strtod [45] ds) as X. cbn [app integer_value] in X. rewrite V, Z.opp_involutive in X. apply X; [right; auto| |exact R].
    split; [split; auto|]. apply no_zero; auto.
Qed.

(** * Strings *)
Lemma escaped_plain c : 32 <= c -> c <> 34 -> c <> 92 -> escaped c = [c].
Proof.
  intros H1 H2 H3. unfold escaped.
  repeat (match goal with |- context [?a =? ?b] => destruct (Z.eqb_spec a b); [lia|] end).
  destruct (Z.ltb_spec c 32); [lia|auto].
Qed.
Lemma escaped_plains p : Forall (fun c => 32 <= c < 256 /\ c <> 34 /\ c <> 92) p -> flat_map escaped p = p.
Proof.
  induction 1 as [|c p (H1 & H2 & H3) F IH]; [auto|]. cbn [flat_map]. rewrite escaped_plain by lia. cbn [app]. rewrite IH. auto.
Qed.
Lemma utf8_small u : 0 <= u < 128 -> utf8 u = [u].
Proof. intros. unfold utf8. destruct (Z.ltb_spec u 128); [auto|lia]. Qed.
Lemma hex_char_digit d : 0 <= d < 16 -> hex_digit (hex_char d) d.
Proof.
  intros R. assert (HB : forallb (fun d => let c := hex_char d in ((48 <=? c) && (c <=? 57) && (d =? c - 48)) || ((97 <=? c) && (c <=? 102) && (d =? c - 97 + 10)))
    (map Z.of_nat (seq 0 16)) = true) by (vm_compute; auto).
  rewrite forallb_forall in HB. specialize (HB d). unfold hex_digit. cbv zeta in HB.
  assert (I : In d (map Z.of_nat (seq 0 16))) by (apply in_map_iff; exists (Z.to_nat d); split; [lia|]; apply in_seq; lia).
  specialize (HB I). apply orb_prop in HB as [HB|HB]; apply andb_prop in HB as (HB & H3); apply andb_prop in HB as (H1 & H2); lia.
Qed.
Lemma chars_escaped s : valid_utf8 s -> chars (flat_map escaped s) s.
Proof.
  intros (us & F & ->). induction F as [|u us Su F IH]; [constructor|]. cbn [flat_map]. rewrite flat_map_app.
  destruct (Z_lt_ge_dec u 32) as [L|L].
  - assert (P : 0 <= u) by apply Su. rewrite utf8_small by lia. cbn [flat_map]. rewrite app_nil_r. cbn [app].
    assert (Hx : forall a b, escaped u = [92; 117; 48; 48; a; b] -> hex_digit a (u / 16) -> hex_digit b (u mod 16) ->
      chars (escaped u ++ flat_map escaped (flat_map utf8 us)) (u :: flat_map utf8 us)).
    { intros a b E Ha Hb. rewrite E. change ([92; 117; 48; 48; a; b] ++ ?w) with (92 :: 117 :: [48; 48; a; b] ++ w).
      replace (u :: flat_map utf8 us) with (utf8 u ++ flat_map utf8 us) by (rewrite utf8_small by lia; auto).
      apply ch_unicode; [|unfold high_surrogate; lia|unfold low_surrogate; lia|exact IH].
      exists 48, 48, a, b, 0, 0, (u / 16), (u mod 16). unfold hex_digit at 1 2. split; [auto|]. split; [lia|]. split; [lia|]. split; [auto|]. split; [auto|].
      pose proof (Z.div_mod u 16). lia. }
    assert (He : forall e, escaped u = [92; e] -> In (e, u) escapes -> chars (escaped u ++ flat_map escaped (flat_map utf8 us)) (u :: flat_map utf8 us)).
    { intros e E I. rewrite E. cbn [app]. apply ch_escape; auto. }
    unfold escaped in Hx, He |- *.
    destruct (Z.eqb_spec u 34); [lia|]. destruct (Z.eqb_spec u 92); [lia|].
    destruct (Z.eqb_spec u 8) as [E|]; [subst u; apply (He 98); [auto|cbn; auto 10]|].
    destruct (Z.eqb_spec u 9) as [E|]; [subst u; apply (He 116); [auto|cbn; auto 10]|].
    destruct (Z.eqb_spec u 10) as [E|]; [subst u; apply (He 110); [auto|cbn; auto 10]|].
    destruct (Z.eqb_spec u 12) as [E|]; [subst u; apply (He 102); [auto|cbn; auto 10]|].
    destruct (Z.eqb_spec u 13) as [E|]; [subst u; apply (He 114); [auto|cbn; auto 10]|].
    destruct (Z.ltb_spec u 32); [|lia]. apply (Hx _ _ eq_refl); apply hex_char_digit.
    + split; [apply Z.div_pos; lia|apply Z.div_lt_upper_bound; lia].
    + apply Z.mod_pos_bound. lia.
  - destruct (Z.eq_dec u 34) as [->|N1]; [rewrite utf8_small by lia; cbn [flat_map app]; apply (ch_escape 34 34); [cbn; auto|exact IH]|].
    destruct (Z.eq_dec u 92) as [->|N2]; [rewrite utf8_small by lia; cbn [flat_map app]; apply (ch_escape 92 92); [cbn; auto|exact IH]|].
    rewrite (escaped_plains (utf8 u)) by (apply utf8_plain; auto; lia). apply ch_plain; auto; lia.
Qed.
Lemma string_again w s : loose_string w s -> loose_string (flat_map escaped s) s.
Proof.
  intros (s0 & L & V & ->). destruct (in_dec Z.eq_dec 92 w) as [I|I].
  - specialize (V I). assert (V' : valid_utf8 (before_nul s0)).
    { clear L I. assert (B : exists r, s0 = before_nul s0 ++ r /\ (r = [] \/ exists r', r = 0 :: r')).
      { clear V. induction s0 as [|c s IH]; cbn [before_nul]; [exists []; auto|]. destruct (Z.eqb_spec c 0) as [->|]; [exists (0 :: s); eauto|].
        destruct IH as (r & E & R). exists r. cbn [app]. rewrite <- E. auto. }
      destruct B as (r & E & [->|(r' & ->)]); [rewrite app_nil_r in E; rewrite <- E; auto|].
      rewrite E in V. apply valid_boundary in V as (V & _); [exact V|lia]. }
    apply rfc_loose_string. split; [apply chars_escaped; auto|]. clear. induction s0 as [|c s IH]; cbn [before_nul]; [auto|].
    destruct (Z.eqb_spec c 0); [auto|]. cbn [In]. intros [|]; auto.
  - assert (P : Forall (fun c => 32 <= c < 256 /\ c <> 34 /\ c <> 92) s0).
    { clear V. induction L; try (exfalso; apply I; cbn; auto; fail); [constructor|]. constructor; [auto|]. apply IHL. cbn in I. tauto. }
    assert (N0 : before_nul s0 = s0) by (apply before_nul_id; intros X; rewrite Forall_forall in P; specialize (P _ X); lia).
    rewrite N0, escaped_plains by auto. exists s0. split; [|split; [|auto]].
    + pose proof (loose_plain_app s0 [] [] P lc_nil) as X. rewrite app_nil_r in X. exact X.
    + intros X. rewrite Forall_forall in P. specialize (P _ X). lia.
Qed.
Lemma before_nul_no_nul s : ~ In 0 (before_nul s).
Proof. induction s as [|c s IH]; cbn [before_nul]; [auto|]. destruct (Z.eqb_spec c 0); [auto|]. cbn [In]. intros [|]; auto. Qed.

(** * Values *)
Section Denote.
Variables (fmt_g : prim -> Z -> text) (pretty : bool) (strtod : text -> Z) (str : text -> text -> Prop) (num : text -> json -> Prop) (dv : Z -> json).

(** What the values are made of *)
Definition denotable (j : json) : Prop :=
  match j with
  | JNull | JBool _ | JArr _ => True
  | JI64 z => num (decimal_of z) (JI64 z)
  | JDouble d => num (fmt_g F64 d) (dv d)
  | JStr s => str (flat_map escaped s) s /\ ~ In 0 s
  | JObj kvs => NoDup (map fst kvs) /\ Forall (fun kv => str (flat_map escaped (fst kv)) (fst kv) /\ ~ In 0 (fst kv)) kvs
  | _ => False
  end.

Lemma indent_spaces t : spaces (indent pretty t).
Proof. unfold indent, if_pretty. destruct pretty; [|constructor]. induction t; constructor; [unfold ws; auto|auto]. Qed.
Lemma if_pretty_spaces w : spaces w -> spaces (if_pretty pretty w).
Proof. unfold if_pretty. destruct pretty; [auto|constructor]. Qed.
Lemma spaces_app a b : spaces a -> spaces b -> spaces (a ++ b).
Proof. intros. apply Forall_app. auto. Qed.

(** The text of a value is the text that denotes it in white space. *)
Definition denotes (j : json) : Prop := forall t n, everywhere denotable j -> (depth j <= n)%nat ->
  exists a w b, text_of fmt_g pretty t j = a ++ w ++ b /\ spaces a /\ spaces b /\ jvalue str num false n w (with_doubles dv j).

Lemma list_max_in x l n : (list_max l <= n)%nat -> In x l -> (x <= n)%nat.
Proof. rewrite list_max_le, Forall_forall. auto. Qed.
Ltac scalar0 t := exists (indent pretty t); eexists; exists []; split; [rewrite app_nil_r; reflexivity|]; split; [apply indent_spaces|]; split; [constructor|]; cbn [with_doubles].

Lemma separated_snoc ws w : ws <> [] -> separated pretty (ws ++ [w]) = separated pretty ws ++ comma pretty ++ w.
Proof.
  induction ws as [|x ws IH]; intros N; [congruence|]. destruct ws as [|y ws]; [cbn; auto|].
  change ((x :: y :: ws) ++ [w]) with (x :: ((y :: ws) ++ [w])). rewrite (separated_cons pretty x ((y :: ws) ++ [w])), IH, (separated_cons pretty x (y :: ws)) by discriminate.
  cbn [app comma_before]. rewrite <- !app_assoc. reflexivity.
Qed.

Lemma elements_ok l t n : l <> [] -> Forall denotes l -> Forall (everywhere denotable) l -> Forall (fun x => (depth x <= n)%nat) l ->
  forall a b, spaces a -> spaces b ->
  jelements str num false n (a ++ separated pretty (map (text_of fmt_g pretty t) l) ++ b) (map (with_doubles dv) l).
Proof.
  induction l as [|x l IH] using rev_ind; [congruence|]. intros _ F1 F2 F3 a b Sa Sb.
  apply Forall_app in F1 as (F1 & X1), F2 as (F2 & X2), F3 as (F3 & X3). apply Forall_inv in X1, X2, X3.
  destruct (X1 t n X2 X3) as (p & w & q & Ew & Sp & Sq & J).
  rewrite !map_app. cbn [map]. destruct l as [|y l].
  - cbn [map app separated]. rewrite Ew. replace (a ++ (p ++ w ++ q) ++ b) with ((a ++ p) ++ w ++ (q ++ b)) by (rewrite <- !app_assoc; auto).
    apply je_one; auto using spaces_app.
  - rewrite separated_snoc by discriminate. rewrite Ew.
    assert (IH' := IH ltac:(discriminate) F1 F2 F3 a [] Sa (Forall_nil _)). rewrite app_nil_r in IH'.
    replace (a ++ (separated pretty (map (text_of fmt_g pretty t) (y :: l)) ++ comma pretty ++ p ++ w ++ q) ++ b)
      with ((a ++ separated pretty (map (text_of fmt_g pretty t) (y :: l))) ++ 44 :: (if_pretty pretty [10] ++ p) ++ w ++ (q ++ b))
      by (unfold comma; rewrite <- !app_assoc; cbn [app]; auto).
    apply je_more; auto using spaces_app. apply spaces_app; [|auto]. apply if_pretty_spaces. constructor; [unfold ws; auto|constructor].
Qed.

Definition member (t : nat) (kv : text * json) : text :=
  indent pretty t ++ quote (before_nul (fst kv)) ++ colon pretty ++ text_of fmt_g pretty (S t) (snd kv).
Definition reread (kv : text * json) : text * json := (fst kv, with_doubles dv (snd kv)).
Lemma with_member_new kvs k v : ~ In k (map fst kvs) -> with_member kvs k v = kvs ++ [(k, v)].
Proof.
  intros N. unfold with_member. destruct (existsb _ kvs) eqn:E; [|auto]. apply existsb_exists in E as ((k', v') & I & E). cbn [fst] in E.
  unfold text_eqb in E. destruct (list_eq_dec Z.eq_dec k k') as [->|]; [|discriminate]. destruct N. apply in_map_iff. exists (k', v'). auto.
Qed.
Lemma members_ok l t n : l <> [] -> Forall (fun kv => denotes (snd kv)) l -> Forall (fun kv => everywhere denotable (snd kv)) l ->
  Forall (fun kv => (depth (snd kv) <= n)%nat) l -> NoDup (map fst l) ->
  Forall (fun kv => str (flat_map escaped (fst kv)) (fst kv) /\ ~ In 0 (fst kv)) l ->
  forall a b, spaces a -> spaces b ->
  jmembers str num false n (a ++ separated pretty (map (member t) l) ++ b) (map reread l).
Proof.
  induction l as [|(k, x) l IH] using rev_ind; [congruence|]. intros _ F1 F2 F3 Nd F4 a b Sa Sb.
  apply Forall_app in F1 as (F1 & X1), F2 as (F2 & X2), F3 as (F3 & X3), F4 as (F4 & X4). apply Forall_inv in X1, X2, X3, X4. cbn [fst snd] in *.
  rewrite map_app in Nd. cbn [map fst] in Nd. apply NoDup_remove in Nd as (Nd & Nk). rewrite app_nil_r in Nd, Nk.
  destruct X4 as (Sk & N0). destruct (X1 (S t) n X2 X3) as (p & w & q & Ew & Sp & Sq & J).
  assert (M : forall a b, spaces a -> spaces b -> jmember str num false n (a ++ member t (k, x) ++ b) k (with_doubles dv x)).
  { clear a b Sa Sb. intros a b Sa Sb. unfold member. cbn [fst snd]. rewrite Ew, before_nul_id by auto. unfold colon, quote.
    replace (a ++ (indent pretty t ++ ([34] ++ flat_map escaped k ++ [34]) ++ (if_pretty pretty [32] ++ [58] ++ if_pretty pretty [9]) ++ p ++ w ++ q) ++ b)
      with ((a ++ indent pretty t) ++ (34 :: flat_map escaped k ++ [34]) ++ if_pretty pretty [32] ++ 58 :: (if_pretty pretty [9] ++ p) ++ w ++ (q ++ b))
      by (rewrite <- !app_assoc; cbn [app]; rewrite <- !app_assoc; auto).
    apply jm; auto using spaces_app, indent_spaces.
    - apply if_pretty_spaces. constructor; [unfold ws; auto|constructor].
    - apply spaces_app; [|auto]. apply if_pretty_spaces. constructor; [unfold ws; auto|constructor]. }
  rewrite !map_app. cbn [map]. destruct l as [|y l].
  - cbn [map app separated]. apply jm_one. auto.
  - rewrite separated_snoc by discriminate.
    assert (IH' := IH ltac:(discriminate) F1 F2 F3 Nd F4 a [] Sa (Forall_nil _)). rewrite app_nil_r in IH'.
    match goal with |- jmembers _ _ _ _ ?g _ => replace g
      with ((a ++ separated pretty (map (member t) (y :: l))) ++ 44 :: (if_pretty pretty [10] ++ member t (k, x) ++ b))
      by (unfold comma; rewrite <- !app_assoc; cbn [app]; auto) end.
    unfold reread at 2. cbn [fst snd]. rewrite <- with_member_new.
    + apply jm_more; [exact IH'|]. apply M; [|auto]. apply if_pretty_spaces. constructor; [unfold ws; auto|constructor].
    + rewrite map_map. cbn [reread fst]. exact Nk.
Qed.

Lemma denotes_ok : forall j, denotes j.
Proof.
  induction j as [| |b|d|z|z|s|s|z|l IH|kvs IH] using json_ind'; intros t n E D; pose proof (everywhere_here _ _ E) as H0; cbn [denotable] in H0; cbn [text_of]; try contradiction.
  - scalar0 t. apply jv_null.
  - destruct b; scalar0 t; [apply jv_true|apply jv_false].
  - scalar0 t. apply jv_num. auto.
  - scalar0 t. apply jv_num. auto.
  - destruct H0 as (Hs & N0). rewrite before_nul_id by auto. scalar0 t. apply jv_str. auto.
  - assert (Sc : spaces (if_pretty pretty [10])) by (apply if_pretty_spaces; constructor; [unfold ws; auto|constructor]).
    exists [], (91 :: (if_pretty pretty [10] ++ separated pretty (map (text_of fmt_g pretty (S t)) l) ++ if_pretty pretty [10] ++ indent pretty t) ++ [93]), (if_pretty pretty [10]).
    split; [unfold opening, closing; cbn [app]; rewrite <- !app_assoc; reflexivity|]. split; [constructor|]. split; [exact Sc|].
    cbn [depth] in D. destruct n as [|n]; [lia|]. apply le_S_n in D. rewrite list_max_le, Forall_map in D. cbn [with_doubles].
    destruct l as [|x l].
    + cbn [map separated app]. apply jv_arr0. auto using spaces_app, indent_spaces.
    + apply jv_arr. apply elements_ok; auto using spaces_app, indent_spaces; [discriminate|]. apply everywhere_arr. auto.
  - assert (Sc : spaces (if_pretty pretty [10])) by (apply if_pretty_spaces; constructor; [unfold ws; auto|constructor]).
    exists [], (123 :: (if_pretty pretty [10] ++ separated pretty (map (member t) kvs) ++ if_pretty pretty [10] ++ indent pretty t) ++ [125]), (if_pretty pretty [10]).
    split; [unfold opening, closing, member; cbn [app]; rewrite <- !app_assoc; reflexivity|]. split; [constructor|]. split; [exact Sc|].
    cbn [depth] in D. destruct n as [|n]; [lia|]. apply le_S_n in D. rewrite list_max_le, Forall_map in D. cbn [with_doubles].
    destruct H0 as (Nd & Hk). destruct kvs as [|x l].
    + cbn [map separated app]. apply jv_obj0. auto using spaces_app, indent_spaces.
    + change (fun kv : text * json => (fst kv, with_doubles dv (snd kv))) with reread.
      apply jv_obj. apply members_ok; auto using spaces_app, indent_spaces; [discriminate|]. apply everywhere_obj. auto.
Qed.
End Denote.

(** * What the parser gives *)
Lemma arr_everywhere (P : json -> Prop) l : P (JArr l) -> Forall (everywhere P) l -> everywhere P (JArr l).
Proof. intros H F. split; [auto|]. clear H. induction F; cbn; auto. Qed.
Lemma obj_everywhere (P : json -> Prop) kvs : P (JObj kvs) -> Forall (fun kv => everywhere P (snd kv)) kvs -> everywhere P (JObj kvs).
Proof. intros H F. split; [auto|]. clear H. induction F; cbn; auto. Qed.
Lemma everywhere_and (P Q R : json -> Prop) : (forall j, P j -> Q j -> R j) -> forall j, everywhere P j -> everywhere Q j -> everywhere R j.
Proof.
  intros X. induction j as [| |b|d|z|z|s|s|z|l IH|kvs IH] using json_ind'; intros HP HQ;
    pose proof (X _ (everywhere_here _ _ HP) (everywhere_here _ _ HQ)) as H0; try (split; [exact H0|exact I]).
  - apply arr_everywhere; [auto|]. apply everywhere_arr in HP, HQ. rewrite Forall_forall in *. auto.
  - apply obj_everywhere; [auto|]. apply everywhere_obj in HP, HQ. rewrite Forall_forall in *. auto.
Qed.
Lemma everywhere_impl (P Q : json -> Prop) : (forall j, P j -> Q j) -> forall j, everywhere P j -> everywhere Q j.
Proof. intros X j H. apply (everywhere_and P P Q); auto. Qed.

Definition parsed (j : json) : Prop :=
  match j with
  | JNull | JBool _ | JDouble _ | JArr _ => True
  | JI64 z => int64 z
  | JStr s => exists w, loose_string w s
  | JObj kvs => Forall (fun kv => exists w, loose_string w (fst kv)) kvs
  | _ => False
  end.
Lemma saturate_int64 z : int64 (saturate z).
Proof. unfold saturate, int64. destruct (Z.ltb_spec z (- 2 ^ 63)); [lia|]. destruct (Z.leb_spec (2 ^ 63) z); lia. Qed.
Lemma with_member_all (P : text * json -> Prop) kvs k v : Forall P kvs -> P (k, v) -> (forall k' v', P (k', v') -> P (k', v)) -> Forall P (with_member kvs k v).
Proof.
  intros F H X. unfold with_member. destruct (existsb _ kvs).
  - rewrite Forall_map. eapply Forall_impl; [|exact F]. intros (k', v') H'. destruct (text_eqb k _); [eapply X; exact H'|exact H'].
  - apply Forall_app. auto.
Qed.
Lemma parsed_ok strtod n w v : jvalue loose_string (loose_number strtod) true n w v -> everywhere parsed v.
Proof.
  apply (jvalue_min loose_string (loose_number strtod) true
    (fun n w v => everywhere parsed v) (fun n w l => Forall (everywhere parsed) l)
    (fun n w l => Forall (fun kv => exists w, loose_string w (fst kv)) l /\ Forall (fun kv => everywhere parsed (snd kv)) l)
    (fun n w k v => (exists w, loose_string w k) /\ everywhere parsed v)); intros;
    try (cbn [everywhere parsed fold_right]; eauto; fail).
  - match goal with H : loose_number _ _ _ |- _ => destruct H end; cbn; auto using saturate_int64.
  - apply arr_everywhere; cbn; auto.
  - apply arr_everywhere; cbn; auto.
  - apply obj_everywhere; cbn; tauto.
  - apply obj_everywhere; cbn; tauto.
  - apply Forall_app. auto.
  - match goal with H : _ /\ _ |- _ => destruct H end. auto.
  - match goal with H : _ /\ everywhere _ _ |- _ => destruct H as (K & E) end.
    match goal with H : _ /\ Forall _ _ |- _ => destruct H as (F & G) end. split.
    + apply with_member_all; [auto|exact K|]. intros k' v' Q. exact Q.
    + apply with_member_all; [auto|exact E|]. intros k' v' Q. exact E.
Qed.

(** * Texts that are not JSON *)
Lemma loose_number_last strtod w v : loose_number strtod w v -> exists w' c, w = w' ++ [c] /\ digit_char c.
Proof.
  assert (D : forall p ds, digits ds -> exists w' c, p ++ ds = w' ++ [c] /\ digit_char c).
  { intros p ds (N & F). destruct (exists_last N) as (ds' & c & ->). exists (p ++ ds'), c. rewrite app_assoc. split; [auto|].
    apply Forall_app in F as (_ & F). exact (Forall_inv F). }
  intros [m ds Hm (Hd & _)|m i f e Hm Hi Hf He NN]; [auto|].
  destruct He as [-> |(ee & sg & ds & Ee & Sg & -> & Hd)].
  - rewrite !app_nil_r in *. destruct Hf as [-> |(ds & -> & Hd)]; [congruence|].
    replace (m ++ i ++ 46 :: ds) with ((m ++ i ++ [46]) ++ ds) by (rewrite <- !app_assoc; auto). auto.
  - replace (m ++ i ++ f ++ ee :: sg ++ ds) with ((m ++ i ++ f ++ ee :: sg) ++ ds) by (rewrite <- !app_assoc; cbn [app]; auto). auto.
Qed.
Lemma loose_value_last strtod tc n w v : jvalue loose_string (loose_number strtod) tc n w v -> exists w' c, w = w' ++ [c] /\ c <> 91 /\ ~ ws c.
Proof.
  assert (T : forall (p : text) c, c <> 91 -> ~ ws c -> exists w' c', p ++ [c] = w' ++ [c'] /\ c' <> 91 /\ ~ ws c') by eauto.
  intros J. destruct J.
  - apply (T [110; 117; 108] 108); unfold ws; lia.
  - apply (T [116; 114; 117] 101); unfold ws; lia.
  - apply (T [102; 97; 108; 115] 101); unfold ws; lia.
  - apply (T (34 :: w) 34); unfold ws; lia.
  - match goal with H : loose_number _ _ _ |- _ => apply loose_number_last in H as (w' & c & -> & D) end. apply T; unfold digit_char, ws in *; lia.
  - apply (T (91 :: b) 93); unfold ws; lia.
  - apply (T (91 :: w) 93); unfold ws; lia.
  - replace (91 :: w ++ 44 :: b ++ [93]) with ((91 :: w ++ 44 :: b) ++ [93]) by (cbn [app]; rewrite <- app_assoc; auto). apply T; unfold ws; lia.
  - apply (T (123 :: b) 125); unfold ws; lia.
  - apply (T (123 :: w) 125); unfold ws; lia.
  - replace (123 :: w ++ 44 :: b ++ [125]) with ((123 :: w ++ 44 :: b) ++ [125]) by (cbn [app]; rewrite <- app_assoc; auto). apply T; unfold ws; lia.
Qed.
Lemma open_not_json strtod n t v : ~ loose_json strtod n (t ++ [91]) v.
Proof.
  intros (a & w & b & Sa & J & Sb & E). destruct (loose_value_last _ _ _ _ _ J) as (w' & c & -> & N & _).
  destruct b as [|x b] using rev_ind.
  - rewrite app_nil_r, app_assoc in E. apply app_inj_tail in E as (_ & E). congruence.
  - rewrite !app_assoc in E. apply app_inj_tail in E as (_ & E). apply Forall_app in Sb as (_ & Sb). apply Forall_inv in Sb. unfold ws in Sb. lia.
Qed.
Lemma loose_value_head strtod tc n w v c r : jvalue loose_string (loose_number strtod) tc n w v -> w = c :: r ->
  In c [110; 116; 102; 34; 91; 123; 45] \/ digit_char c.
Proof.
  intros J E. destruct J; try (injection E as <- _; left; cbn; auto 10; fail).
  match goal with H : loose_number _ _ _ |- _ => apply number_head in H as (c' & r' & E' & D) end. rewrite E in E'. injection E' as -> _.
  destruct D as [-> |D]; [left; cbn; auto 10|auto].
Qed.
Lemma inf_not_json strtod n r v : ~ loose_json strtod n (105 :: r) v.
Proof.
  intros (a & w & b & Sa & J & Sb & E). destruct a as [|x a].
  - destruct w as [|c w]; [apply loose_value_last in J as (w' & c & E' & _); destruct w'; discriminate|]. injection E as <- _.
    destruct (loose_value_head _ _ _ _ _ _ _ J eq_refl) as [H|H]; [cbn in H; lia|unfold digit_char in H; lia].
  - injection E as <- _. apply Forall_inv in Sa. unfold ws in Sa. lia.
Qed.
