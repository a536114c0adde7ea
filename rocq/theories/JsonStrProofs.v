(** Proofs about string literals of the tokenizer. *)
From Coq Require Import ZArith List Bool Lia.
From Verif Require Import Base Utf8Model Utf8Proofs Json JsonTokModel JsonSpec.
Import ListNotations.
Open Scope Z_scope.

Local Arguments Z.add : simpl never.
Local Arguments Z.sub : simpl never.
Local Arguments Z.mul : simpl never.
Local Arguments Z.div : simpl never.
Local Arguments Z.modulo : simpl never.

(** * Hexadecimal digits and simple escapes *)
Lemma hexval_iff c v : hexval c = Some v <-> hex_digit c v.
Proof.
  unfold hexval, hex_digit.
  destruct (Z.leb_spec 48 c), (Z.leb_spec c 57), (Z.leb_spec 97 c), (Z.leb_spec c 102), (Z.leb_spec 65 c), (Z.leb_spec c 70); cbn;
    (split; intros X; [try discriminate; injection X as <-; lia|try lia; f_equal; lia]).
Qed.
Lemma read_iff s x r : read_4_digits s = Some (x, r) <-> exists h, hex4 h x /\ s = h ++ r.
Proof.
  split.
  - destruct s as [|a [|b [|c [|d s]]]]; try discriminate. cbn [read_4_digits].
    destruct (hexval a) as [va|] eqn:A; [|discriminate]. destruct (hexval b) as [vb|] eqn:B; [|discriminate].
    destruct (hexval c) as [vc|] eqn:C; [|discriminate]. destruct (hexval d) as [vd|] eqn:D; [|discriminate].
    intros X. injection X as <- <-. exists [a; b; c; d]. split; [|auto].
    exists a, b, c, d, va, vb, vc, vd. rewrite <- !hexval_iff. split; [auto|]. split; [auto|]. split; [auto|]. split; [auto|]. split; [auto|]. ring.
  - intros (h & (a & b & c & d & va & vb & vc & vd & -> & A & B & C & D & ->) & ->).
    apply hexval_iff in A, B, C, D. cbn [app read_4_digits]. rewrite A, B, C, D. f_equal. f_equal. ring.
Qed.
Lemma hex_digit_range c v : hex_digit c v -> 0 <= v < 16 /\ 48 <= c < 128 /\ c <> 92.
Proof. unfold hex_digit. lia. Qed.
Lemma hex4_range h x : hex4 h x -> 0 <= x < 65536 /\ length h = 4%nat.
Proof.
  intros (a & b & c & d & va & vb & vc & vd & -> & A & B & C & D & ->).
  apply hex_digit_range in A, B, C, D. cbn. lia.
Qed.
Lemma escape_iff c b : simple_escape c = Some b <-> In (c, b) escapes.
Proof.
  unfold simple_escape, escapes. cbn [In]. split.
  - destruct (Z.eqb_spec c 34); [intros [= <-]; subst; auto 10|]. destruct (Z.eqb_spec c 92); [intros [= <-]; subst; auto 10|].
    destruct (Z.eqb_spec c 47); [intros [= <-]; subst; auto 10|]. destruct (Z.eqb_spec c 98); [intros [= <-]; subst; auto 10|].
    destruct (Z.eqb_spec c 102); [intros [= <-]; subst; auto 10|]. destruct (Z.eqb_spec c 110); [intros [= <-]; subst; auto 10|].
    destruct (Z.eqb_spec c 114); [intros [= <-]; subst; auto 10|]. destruct (Z.eqb_spec c 116); [intros [= <-]; subst; auto 10|]. discriminate.
  - intros X. repeat (destruct X as [X|X]; [injection X as <- <-; reflexivity|]). contradiction.
Qed.
Lemma escape_range e c : In (e, c) escapes -> 32 < e < 128 /\ 0 < c < 128 /\ e <> 117.
Proof. cbn [escapes In]. intros X. repeat (destruct X as [X|X]; [injection X as <- <-; lia|]). contradiction. Qed.

(** * Surrogates *)
Lemma first_iff x : utf16_is_first_surrogate x = true <-> high_surrogate x.
Proof. unfold utf16_is_first_surrogate, high_surrogate. rewrite andb_true_iff, !Z.leb_le. tauto. Qed.
Lemma second_iff x : utf16_is_second_surrogate x = true <-> low_surrogate x.
Proof. unfold utf16_is_second_surrogate, low_surrogate. rewrite andb_true_iff, !Z.leb_le. tauto. Qed.
Lemma pair_range hi lo : high_surrogate hi -> low_surrogate lo -> 65536 <= pair_value hi lo < 1114112.
Proof. unfold high_surrogate, low_surrogate, pair_value. lia. Qed.
Lemma utf8_len u : 0 <= u -> (length (utf8 u) <= (if (u <? 65536)%Z then 3 else 4))%nat.
Proof.
  intros P. unfold utf8. destruct (Z.ltb_spec u 128); [destruct (Z.ltb_spec u 65536); cbn; lia|].
  destruct (Z.ltb_spec u 2048); [destruct (Z.ltb_spec u 65536); cbn; lia|]. destruct (Z.ltb_spec u 65536); cbn; lia.
Qed.

(** * The unescaping loop *)
(** What the loop does, with the high surrogate it has just seen *)
Inductive raw : option Z -> text -> text -> Prop :=
| raw_nil : raw None [] []
| raw_plain c w s : 32 <= c < 256 -> c <> 92 -> raw None w s -> raw None (c :: w) (c :: s)
| raw_escape e c w s : In (e, c) escapes -> raw None w s -> raw None (92 :: e :: w) (c :: s)
| raw_unicode h x w s : hex4 h x -> ~ high_surrogate x -> raw None w s ->
    raw None (92 :: 117 :: h ++ w) (utf8 x ++ s)
| raw_high h x w s : hex4 h x -> high_surrogate x -> raw (Some x) w s -> raw None (92 :: 117 :: h ++ w) s
| raw_low hi h x w s : hex4 h x -> low_surrogate x -> raw None w s ->
    raw (Some hi) (92 :: 117 :: h ++ w) (utf8 (pair_value hi x) ++ s)
| raw_end hi : raw (Some hi) [] [].

Lemma put_all_ok cap : forall cs out, (length out + length cs <= cap)%nat -> put_all cap out cs = Ok (out ++ cs).
Proof.
  induction cs as [|c cs IH]; intros out L; cbn [put_all].
  - rewrite app_nil_r. auto.
  - cbn [length] in L. unfold put. destruct (Nat.ltb_spec (length out) cap); [|lia]. cbn [bind].
    rewrite IH by (rewrite app_length; cbn; lia). rewrite <- app_assoc. auto.
Qed.
Lemma put_ok cap out c : (length out < cap)%nat -> put cap out c = Ok (out ++ [c]).
Proof. intros L. unfold put. destruct (Nat.ltb_spec (length out) cap); [auto|lia]. Qed.

Definition loop_good (first : option Z) (w out : text) (r : outcome (option text)) : Prop :=
  (exists s, raw first w s /\ r = Ok (Some (out ++ s))) \/ (r = Ok None /\ forall s, ~ raw first w s).

Lemma hex4_fun h x h' x' w w' : hex4 h x -> hex4 h' x' -> h ++ w = h' ++ w' -> x = x' /\ w = w'.
Proof.
  intros A B E. assert (X : read_4_digits (h ++ w) = Some (x, w)) by (apply read_iff; eauto).
  assert (Y : read_4_digits (h' ++ w') = Some (x', w')) by (apply read_iff; eauto). rewrite E in X. rewrite X in Y. injection Y; auto.
Qed.

Ltac hexeq H :=
  match goal with H' : hex4 ?h' _, Q : ?h' ++ _ = _ ++ _ |- _ =>
    destruct (hex4_fun _ _ _ _ _ _ H' H Q) as (-> & ->); clear H' Q end.
Lemma loop_ok : forall fuel cap w first out, (length w < fuel)%nat -> (length out + length w <= cap)%nat ->
  Forall byte w -> (forall hi, first = Some hi -> high_surrogate hi) ->
  loop_good first w out (unescape_loop fuel cap w first out).
Proof.
  induction fuel as [|f IH]; intros cap w first out LF LC B HF; [lia|].
  destruct w as [|c w]; cbn [unescape_loop].
  { left. exists []. rewrite app_nil_r. split; [destruct first; constructor|auto]. }
  cbn [length] in LF, LC. pose proof (Forall_inv B) as Bc. pose proof (Forall_inv_tail B) as Bw. unfold byte in Bc.
  destruct (Z.eqb_spec c 92) as [Ec|Ec].
  2:{ destruct first as [hi|]; cbn [andb negb].
      { right. split; [auto|]. intros s R. inversion R; subst; congruence. }
      destruct (Z.leb_spec c 31) as [L|L].
      { right. split; [auto|]. intros s R. inversion R; subst; try congruence. lia. }
      rewrite put_ok by lia. cbn [bind].
      destruct (IH cap w None (out ++ [c])) as [(s & R & E)|(E & N)]; [lia|rewrite app_length; cbn; lia|auto|auto| |].
      - left. exists (c :: s). split; [constructor; auto; lia|]. rewrite E, <- app_assoc. auto.
      - right. split; [auto|]. intros s R. inversion R; subst; try congruence. eapply N; eauto. }
  subst c. rewrite andb_false_r. change (92 <=? 31) with false. cbn iota.
  destruct w as [|c w].
  { right. split; [auto|]. intros s R. inversion R; subst; congruence. }
  cbn [length] in LF, LC. pose proof (Forall_inv Bw) as Bc'. pose proof (Forall_inv_tail Bw) as Bw'. clear B Bw.
  assert (U : forall x w', read_4_digits w = Some (x, w') -> exists h, hex4 h x /\ w = h ++ w' /\ Forall byte w' /\ length w = (4 + length w')%nat).
  { intros x w' E. apply read_iff in E as (h & H & ->). exists h. apply Forall_app in Bw' as (_ & ?). rewrite app_length.
    split; [auto|]. split; [auto|]. split; [auto|]. destruct (hex4_range h x H) as (_ & ->). auto. }
  assert (UN : read_4_digits w = None -> forall h x w', hex4 h x -> w = h ++ w' -> False).
  { intros E h x w' H Ew. assert (read_4_digits w = Some (x, w')) by (apply read_iff; eauto). congruence. }
  destruct first as [hi|]; cbn [andb].
  - destruct (Z.eqb_spec c 117) as [->|Ec]; cbn [negb].
    2:{ right. split; [auto|]. intros s R. inversion R; subst; congruence. }
    change (simple_escape 117) with (@None Z). cbn iota.
    destruct (read_4_digits w) as [(x, w')|] eqn:E4.
    2:{ right. split; [auto|]. intros s R. inversion R; subst. eapply UN; eauto. }
    destruct (U x w' eq_refl) as (h & H & -> & B' & L'). destruct (hex4_range h x H) as (Rx & _).
    destruct (utf16_is_second_surrogate x) eqn:S2; cbn [negb].
    2:{ right. split; [auto|]. intros s R. inversion R as [| | | | |? h' x' w'' ? H' L2 ?|]; subst.
        hexeq H. apply second_iff in L2. congruence. }
    apply second_iff in S2. specialize (HF hi eq_refl). pose proof (pair_range hi x HF S2) as PR.
    rewrite combine_ok by auto. fold (pair_value hi x). rewrite encode_utf8 by lia.
    pose proof (utf8_len (pair_value hi x) ltac:(lia)) as LU. destruct (Z.ltb_spec (pair_value hi x) 65536); [lia|].
    rewrite put_all_ok by lia. cbn [bind].
    destruct (IH cap w' None (out ++ utf8 (pair_value hi x))) as [(s & R & E)|(E & N)]; [lia|rewrite app_length; lia|auto|discriminate| |].
    + left. exists (utf8 (pair_value hi x) ++ s). split; [constructor; auto|]. rewrite E, <- app_assoc. auto.
    + right. split; [auto|]. intros s R. inversion R as [| | | | |? h' x' w'' s' H' L2 R'|]; subst.
      hexeq H. eapply N; eauto.
  - destruct (simple_escape c) as [b|] eqn:ES.
    + apply escape_iff in ES. rewrite put_ok by lia. cbn [bind].
      destruct (IH cap w None (out ++ [b])) as [(s & R & E)|(E & N)]; [lia|rewrite app_length; cbn; lia|auto|discriminate| |].
      * left. exists (b :: s). split; [constructor; auto|]. rewrite E, <- app_assoc. auto.
      * right. split; [auto|]. intros s R. pose proof (escape_range _ _ ES) as (_ & _ & Nu).
        inversion R; subst; try congruence. eapply N; eauto.
    + assert (NE : forall b, ~ In (c, b) escapes) by (intros b I; apply escape_iff in I; congruence).
      destruct (Z.eqb_spec c 117) as [->|Ec].
      2:{ right. split; [auto|]. intros s R. inversion R; subst; try congruence. eapply NE; eauto. }
      destruct (read_4_digits w) as [(x, w')|] eqn:E4.
      2:{ right. split; [auto|]. intros s R. inversion R; subst; try congruence; [eapply NE; eauto|eapply UN; eauto|eapply UN; eauto]. }
      destruct (U x w' eq_refl) as (h & H & -> & B' & L'). destruct (hex4_range h x H) as (Rx & _).
      destruct (utf16_is_first_surrogate x) eqn:S1.
      * apply first_iff in S1.
        destruct (IH cap w' (Some x) out) as [(s & R & E)|(E & N)]; [lia|lia|auto|intros ? [= <-]; auto| |].
        -- left. exists s. split; [constructor 5 with x; auto|auto].
        -- right. split; [auto|]. intros s R.
           inversion R as [|c0 ? ? ? N92|e0 c0 ? ? I0|h' x' w'' s' H' NH R'|h' x' w'' s' H' NH R'| |]; subst; try congruence; [eapply NE; eauto| |];
             hexeq H; [contradiction|eapply N; eauto].
      * assert (NH : ~ high_surrogate x) by (intros I; apply first_iff in I; congruence).
        rewrite encode_utf8 by lia. pose proof (utf8_len x ltac:(lia)) as LU. destruct (Z.ltb_spec x 65536); [|lia].
        rewrite put_all_ok by lia. cbn [bind].
        destruct (IH cap w' None (out ++ utf8 x)) as [(s & R & E)|(E & N)]; [lia|rewrite app_length; lia|auto|discriminate| |].
        -- left. exists (utf8 x ++ s). split; [constructor; auto|]. rewrite E, <- app_assoc. auto.
        -- right. split; [auto|]. intros s R.
           inversion R as [|c0 ? ? ? N92|e0 c0 ? ? I0|h' x' w'' s' H' NH' R'|h' x' w'' s' H' NH' R'| |]; subst; try congruence; [eapply NE; eauto| |];
             hexeq H; [eapply N; eauto|contradiction].
Qed.

(** [raw] is functional *)
Lemma raw_fun w s1 s2 : Forall byte w -> raw None w s1 -> raw None w s2 -> s1 = s2.
Proof.
  intros B R1 R2.
  revert w s1 s2 B R1 R2.
  assert (G : forall n first w s1 s2, (length w < n)%nat -> raw first w s1 -> raw first w s2 -> s1 = s2).
  { induction n as [|n IH]; intros first w s1 s2 L R1 R2; [lia|].
    inversion R1 as [|c w1 t1 A N R|e c w1 t1 I R|h x w1 t1 H N R|h x w1 t1 H N R|hi h x w1 t1 H N R|hi]; subst; cbn [length] in L.
    - inversion R2; auto.
    - inversion R2; subst; try congruence. f_equal. eapply IH; [|eauto|eauto]. lia.
    - pose proof (escape_range _ _ I) as (_ & _ & Nu). inversion R2 as [| |e' c' ? ? I' R'| | | |]; subst; try congruence.
      apply escape_iff in I, I'. rewrite I in I'. injection I' as <-. f_equal. eapply IH; [|eauto|eauto]. lia.
    - rewrite app_length in L. destruct (hex4_range h x H) as (_ & L4).
      inversion R2 as [| |e' c' ? ? I' R'|h' x' w' s' H' N' R'|h' x' w' s' H' N' R'| |]; subst; try congruence.
      + apply escape_range in I'. lia.
      + hexeq H. f_equal. eapply IH; [|eauto|eauto]. lia.
      + hexeq H. contradiction.
    - rewrite app_length in L. destruct (hex4_range h x H) as (_ & L4).
      inversion R2 as [| |e' c' ? ? I' R'|h' x' w' s' H' N' R'|h' x' w' s' H' N' R'| |]; subst; try congruence.
      + apply escape_range in I'. lia.
      + hexeq H. contradiction.
      + hexeq H. eapply IH; [|eauto|eauto]. lia.
    - rewrite app_length in L. destruct (hex4_range h x H) as (_ & L4).
      inversion R2 as [| | | | |? h' x' w' s' H' N' R'|]; subst.
      hexeq H. f_equal. eapply IH; [|eauto|eauto]. lia.
    - inversion R2; auto. }
  intros w s1 s2 _ R1 R2. eapply G; eauto.
Qed.

Lemma raw_length first w s : raw first w s -> (forall hi, first = Some hi -> high_surrogate hi) -> (length s <= length w)%nat.
Proof.
  induction 1 as [|c w s A N R IH|e c w s I R IH|h x w s H N R IH|h x w s H N R IH|hi h x w s H N R IH|hi]; intros HF; cbn [length];
    try (destruct (hex4_range h x H) as (Rx & L4)); rewrite ?app_length.
  - lia.
  - specialize (IH ltac:(discriminate)). lia.
  - specialize (IH ltac:(discriminate)). lia.
  - specialize (IH ltac:(discriminate)). pose proof (utf8_len x ltac:(lia)). destruct (Z.ltb_spec x 65536); lia.
  - specialize (IH ltac:(intros ? [= <-]; auto)). lia.
  - specialize (IH ltac:(discriminate)). pose proof (pair_range hi x (HF hi eq_refl) N). pose proof (utf8_len (pair_value hi x) ltac:(lia)).
    destruct (Z.ltb_spec (pair_value hi x) 65536); lia.
  - lia.
Qed.
Lemma raw_shorter w s : raw None w s -> In 92 w -> (length s < length w)%nat.
Proof.
  intros R. remember None as first eqn:EF. revert EF.
  induction R as [|c w s A N R IH|e c w s I R IH|h x w s H N R IH|h x w s H N R IH|hi h x w s H N R IH|hi]; intros EF I92; try discriminate;
    try (destruct (hex4_range h x H) as (Rx & L4)); cbn [length]; rewrite ?app_length.
  - contradiction.
  - destruct I92 as [I92|I92]; [congruence|]. specialize (IH eq_refl I92). lia.
  - pose proof (raw_length _ _ _ R ltac:(discriminate)). lia.
  - pose proof (raw_length _ _ _ R ltac:(discriminate)). pose proof (utf8_len x ltac:(lia)). destruct (Z.ltb_spec x 65536); lia.
  - pose proof (raw_length _ _ _ R ltac:(intros ? [= <-]; auto)). lia.
Qed.
Lemma raw_plain_id w s : raw None w s -> ~ In 92 w -> s = w.
Proof.
  intros R. remember None as first eqn:EF. revert EF. induction R; intros EF N; try discriminate; auto;
    try (exfalso; apply N; left; reflexivity).
  f_equal. apply IHR; [auto|]. intros I. apply N. right. auto.
Qed.
Lemma raw_bytes first w s : raw first w s -> (forall hi, first = Some hi -> high_surrogate hi) -> Forall byte s.
Proof.
  assert (UB : forall u, 0 <= u < 1114112 -> Forall byte (utf8 u)).
  { intros u P. unfold utf8, byte. div_mod u 64. div_mod (u / 64) 64. div_mod (u / 4096) 64. div_mod u 4096. div_mod u 262144.
    destruct (Z.ltb_spec u 128); [repeat constructor; lia|].
    destruct (Z.ltb_spec u 2048); [repeat constructor; lia|].
    destruct (Z.ltb_spec u 65536); [repeat constructor; lia|].
    repeat constructor; lia. }
  induction 1 as [|c w s A N R IH|e c w s I R IH|h x w s H N R IH|h x w s H N R IH|hi h x w s H N R IH|hi]; intros HF;
    try (destruct (hex4_range h x H) as (Rx & L4)).
  - constructor.
  - constructor; [unfold byte; lia|]. apply IH. discriminate.
  - pose proof (escape_range _ _ I). constructor; [unfold byte; lia|]. apply IH. discriminate.
  - apply Forall_app. split; [apply UB; lia|]. apply IH. discriminate.
  - apply IH. intros ? [= <-]; auto.
  - pose proof (pair_range hi x (HF hi eq_refl) N). apply Forall_app. split; [apply UB; lia|]. apply IH. discriminate.
  - constructor.
Qed.

(** * Low surrogates are not valid UTF-8 *)
Lemma utf8_shape u : scalar_value u -> exists c ts, utf8 u = c :: ts /\ Forall (fun t => 128 <= t < 192) ts.
Proof.
  intros (R & _). unfold utf8. div_mod u 64. div_mod (u / 64) 64. div_mod (u / 4096) 64.
  destruct (Z.ltb_spec u 128); [eexists _, _; split; [reflexivity|constructor]|].
  destruct (Z.ltb_spec u 2048); [eexists _, _; split; [reflexivity|repeat constructor; lia]|].
  destruct (Z.ltb_spec u 65536); eexists _, _; (split; [reflexivity|repeat constructor; lia]).
Qed.
Lemma valid_boundary c r : ~ 128 <= c < 192 -> forall p, valid_utf8 (p ++ c :: r) -> valid_utf8 p /\ valid_utf8 (c :: r).
Proof.
  intros N p (us & F & E). revert p F E. induction us as [|u us IH]; intros p F E.
  - cbn in E. destruct p; discriminate.
  - cbn [flat_map] in E. pose proof (Forall_inv F) as S. pose proof (Forall_inv_tail F) as F'.
    destruct p as [|b p].
    + split; [exists []; split; [constructor|auto]|]. exists (u :: us). split; [auto|]. exact E.
    + destruct (utf8_shape u S) as (d & ts & Eu & T). symmetry in E.
      apply app_eq_app in E as (l & [(E1 & E2)|(E1 & E2)]).
      * destruct l as [|l0 l].
        -- cbn in E2. rewrite app_nil_r in E1. split; [exists [u]; split; [repeat constructor; apply S|cbn; rewrite app_nil_r; auto]|].
           exists us. split; [auto|congruence].
        -- cbn in E2. injection E2 as -> E2. exfalso. rewrite Eu in E1. cbn in E1. injection E1 as -> E1.
           apply N. rewrite Forall_forall in T. apply T. rewrite E1. apply in_or_app. right. left. auto.
      * rewrite E1. destruct (IH l F' (eq_sym E2)) as (V1 & V2). split; [|auto]. apply valid_cons; auto.
Qed.
Lemma low_not_valid x s : low_surrogate x -> ~ valid_utf8 (utf8 x ++ s).
Proof.
  intros L (us & F & E). unfold low_surrogate in L. unfold utf8 in E at 1.
  destruct (Z.ltb_spec x 128); [lia|]. destruct (Z.ltb_spec x 2048); [lia|]. destruct (Z.ltb_spec x 65536); [|lia].
  cbn [app] in E. destruct us as [|u us]; [discriminate|]. cbn [flat_map] in E. destruct (Forall_inv F) as (R & NS).
  unfold utf8 in E at 1. div_mod u 64. div_mod (u / 64) 64. div_mod x 64. div_mod (x / 64) 64.
  assert (D1 : u / 64 / 64 = u / 4096) by (rewrite Z.div_div by lia; auto).
  assert (D2 : x / 64 / 64 = x / 4096) by (rewrite Z.div_div by lia; auto).
  destruct (Z.ltb_spec u 128); [cbn [app] in E; injection E as E1 _; lia|].
  destruct (Z.ltb_spec u 2048); [cbn [app] in E; injection E as E1 _ _; lia|].
  destruct (Z.ltb_spec u 65536); cbn [app] in E.
  - injection E as E1 E2 E3 _. apply NS. lia.
  - assert (0 <= u / 262144) by (apply Z.div_le_lower_bound; lia). injection E as E1 _ _ _. lia.
Qed.

(** * From the loop to the relaxed strings *)
(** The shape of what [string_end] passes *)
Inductive quoted : text -> Prop :=
| q_nil : quoted []
| q_plain c w : c <> 0 -> c <> 34 -> c <> 92 -> quoted w -> quoted (c :: w)
| q_escape c w : c <> 0 -> quoted w -> quoted (92 :: c :: w).
Lemma quoted_hex h x w : hex4 h x -> quoted (h ++ w) -> quoted w.
Proof.
  intros (a & b & c & d & va & vb & vc & vd & -> & A & B & C & D & _) Q. apply hex_digit_range in A, B, C, D.
  cbn [app] in Q. inversion Q as [|? ? _ _ _ Q1|? ? _ Q1]; subst; [|lia]. inversion Q1 as [|? ? _ _ _ Q2|? ? _ Q2]; subst; [|lia].
  inversion Q2 as [|? ? _ _ _ Q3|? ? _ Q3]; subst; [|lia]. inversion Q3 as [|? ? _ _ _ Q4|? ? _ Q4]; subst; [auto|lia].
Qed.
Lemma hex_quoted h x w : hex4 h x -> quoted w -> quoted (h ++ w).
Proof.
  intros (a & b & c & d & va & vb & vc & vd & -> & A & B & C & D & _) Q.
  assert (G : forall c v, hex_digit c v -> c <> 0 /\ c <> 34 /\ c <> 92) by (intros ? ? X; apply hex_digit_range in X; lia).
  apply G in A, B, C, D. cbn [app].
  repeat (apply q_plain; [tauto|tauto|tauto|]). auto.
Qed.
Lemma loose_quoted w s : loose_chars w s -> quoted w.
Proof.
  induction 1 as [|c w s A N1 N2 L IH|e c w s I L IH|h x w s H N1 N2 L IH|h1 h2 hi lo w s H1 H2 N1 N2 L IH|h x H N].
  - constructor.
  - apply q_plain; [lia|auto|auto|auto].
  - apply escape_range in I. apply q_escape; [lia|auto].
  - apply q_escape; [lia|]. eapply hex_quoted; eauto.
  - apply q_escape; [lia|]. eapply hex_quoted; [eauto|]. apply q_escape; [lia|]. eapply hex_quoted; eauto.
  - apply q_escape; [lia|]. rewrite <- (app_nil_r h). eapply hex_quoted; [eauto|constructor].
Qed.
Lemma loose_raw w s : loose_chars w s -> raw None w s.
Proof.
  induction 1 as [|c w s A N1 N2 L IH|e c w s I L IH|h x w s H N1 N2 L IH|h1 h2 hi lo w s H1 H2 N1 N2 L IH|h x H N].
  - constructor.
  - constructor; auto.
  - constructor; auto.
  - constructor; auto.
  - apply raw_high with hi; [auto|auto|]. constructor; auto.
  - rewrite <- (app_nil_r h). apply raw_high with x; [auto|auto|]. constructor.
Qed.
Lemma raw_loose_gen : forall n w s p, (length w < n)%nat -> quoted w -> raw None w s ->
  (In 92 w -> valid_utf8 (p ++ s)) -> loose_chars w s.
Proof.
  induction n as [|n IH]; intros w s p L Q R V; [lia|].
  inversion R as [|c w1 t1 A N R'|e c w1 t1 I R'|h x w1 t1 H N R'|h x w1 t1 H N R'| |]; subst; cbn [length] in L.
  - constructor.
  - inversion Q; subst; [|congruence]. constructor; auto. apply IH with (p ++ [c]); auto; [lia|].
    intros I92. rewrite <- app_assoc. apply V. right. auto.
  - inversion Q; subst; [congruence|]. constructor; auto. apply IH with (p ++ [c]); auto; [lia|].
    intros I92. rewrite <- app_assoc. apply V. left. auto.
  - inversion Q as [| |? ? _ Q']; subst; [congruence|]. specialize (V (or_introl eq_refl)).
    rewrite app_length in L. constructor; auto.
    + intros LS. assert (E : exists ts, utf8 x = 237 :: ts).
      { unfold low_surrogate in LS. unfold utf8. destruct (Z.ltb_spec x 128); [lia|]. destruct (Z.ltb_spec x 2048); [lia|]. destruct (Z.ltb_spec x 65536); [|lia].
        replace (x / 4096) with 13; [eexists; reflexivity|]. apply Z.div_unique with (x - 13 * 4096); lia. }
      destruct E as (ts & E). eapply low_not_valid; [exact LS|]. rewrite E in V |- *. cbn [app] in V |- *.
      apply valid_boundary in V as (_ & V); [exact V|lia].
    + apply IH with (p ++ utf8 x); auto; [lia|eapply quoted_hex; eauto|]. intros _. rewrite <- app_assoc. auto.
  - inversion Q as [| |? ? _ Q']; subst; [congruence|]. specialize (V (or_introl eq_refl)). rewrite app_length in L.
    inversion R' as [| | | | |hi h' x' w' s' H' N' R'' |]; subst.
    + constructor 5; auto. apply quoted_hex with (1 := H) in Q'. inversion Q' as [| |? ? _ Q'']; subst; [congruence|].
      cbn [length] in L. rewrite app_length in L.
      apply IH with (p ++ utf8 (pair_value x x')); auto; [lia|eapply quoted_hex; eauto|]. intros _. rewrite <- app_assoc. auto.
    + rewrite app_nil_r. constructor 6 with x; auto.
Qed.
Lemma raw_loose w s : quoted w -> raw None w s -> (In 92 w -> valid_utf8 s) -> loose_chars w s.
Proof. intros Q R V. apply raw_loose_gen with (S (length w)) []; auto. Qed.

(** * Reading a string *)
Lemma test_ok w : Forall byte w ->
  (unescape_test w = None /\ forall s, ~ raw None w s) \/
  (unescape_test w = Some true /\ In 92 w) \/
  (unescape_test w = Some false /\ ~ In 92 w /\ raw None w w).
Proof.
  induction w as [|c w IH]; intros B.
  - right. right. split; [auto|]. split; [auto|constructor].
  - pose proof (Forall_inv B) as Bc. specialize (IH (Forall_inv_tail B)). unfold byte in Bc. cbn [unescape_test].
    destruct (Z.leb_spec c 31) as [L|L].
    + left. split; [auto|]. intros s R. inversion R; subst; lia.
    + destruct (Z.eqb_spec c 92) as [->|N].
      * right. left. split; [auto|left; auto].
      * destruct IH as [(E & X)|[(E & X)|(E & X & R)]].
        -- left. split; [auto|]. intros s R. inversion R; subst; try congruence. eapply X; eauto.
        -- right. left. split; [auto|right; auto].
        -- right. right. split; [auto|]. split; [intros [I|I]; [congruence|auto]|]. constructor; auto; lia.
Qed.

(** json_string_unescape, exactly *)
Lemma unescape_ok w : Forall byte w ->
  (json_string_unescape w = Ok UErr /\ forall s, raw None w s -> In 92 w /\ ~ valid_utf8 s) \/
  (json_string_unescape w = Ok USame /\ ~ In 92 w /\ raw None w w) \/
  (exists s, In 92 w /\ raw None w s /\ valid_utf8 s /\ (length s < length w)%nat /\
     json_string_unescape w = Ok (UNew (s ++ repeat 0 (length w - length s)) (length s))).
Proof.
  intros B. unfold json_string_unescape. destruct (test_ok w B) as [(E & X)|[(E & X)|(E & X & R)]]; rewrite E.
  - left. split; [auto|]. intros s R. destruct (X s R).
  - destruct (loop_ok (S (length w)) (length w) w None []) as [(s & R & E1)|(E1 & N)]; auto; [discriminate| |]; cbn [app] in E1; rewrite E1; cbn [bind].
    + destruct (validate_ok s) as (b & E2 & I2); [eapply raw_bytes; [exact R|discriminate]|]. rewrite E2. cbn [bind].
      destruct b.
      * right. right. exists s. split; [auto|]. split; [auto|]. split; [apply I2; auto|]. split; [apply raw_shorter; auto|auto].
      * left. split; [auto|]. intros s' R'. rewrite (raw_fun _ _ _ B R' R). split; [auto|]. intros V. apply I2 in V. discriminate.
    + left. split; [auto|]. intros s R. destruct (N s R).
  - right. left. auto.
Qed.

Lemma string_end_quoted w r : quoted w -> string_end (w ++ 34 :: r) = Ok (w, 34 :: r).
Proof.
  induction 1 as [|c w N1 N2 N3 Q IH|c w N Q IH]; cbn [app string_end].
  - auto.
  - destruct (Z.eqb_spec c 0); [congruence|]. destruct (Z.eqb_spec c 34); [congruence|]. destruct (Z.eqb_spec c 92); [congruence|].
    cbn [orb]. rewrite IH. auto.
  - cbn [Z.eqb Pos.eqb orb]. destruct (Z.eqb_spec c 0); [congruence|]. rewrite IH. auto.
Qed.
Lemma string_end_total : forall n p, (length p < n)%nat -> In 0 p ->
  exists b e, string_end p = Ok (b, e) /\ p = b ++ e /\ ~ In 0 b /\
    ((exists r, e = 34 :: r /\ quoted b) \/ (exists r, e = 0 :: r)).
Proof.
  induction n as [|n IH]; intros p L I; [lia|]. destruct p as [|c p]; [contradiction|]. cbn [length] in L. cbn [string_end].
  destruct (Z.eqb_spec c 0) as [->|N0]; [exists [], (0 :: p); cbn; eauto 10|].
  destruct (Z.eqb_spec c 34) as [->|N1].
  { cbn [orb]. exists [], (34 :: p). split; [auto|]. split; [auto|]. split; [auto|]. left. exists p. split; [auto|constructor]. }
  cbn [orb]. destruct I as [I|I]; [congruence|].
  destruct (Z.eqb_spec c 92) as [->|N2].
  - destruct p as [|c2 p]; [contradiction|]. destruct (Z.eqb_spec c2 0) as [->|N3].
    + exists [92], (0 :: p). split; [auto|]. split; [auto|]. split; [intros [X|[]]; lia|]. right. eauto.
    + destruct I as [I|I]; [congruence|]. cbn [length] in L. destruct (IH p) as (b & e & E & -> & Nb & D); [lia|auto|]. rewrite E. cbn [bind].
      exists (92 :: c2 :: b), e. split; [auto|]. split; [auto|]. split; [intros [X|[X|X]]; [lia|congruence|auto]|].
      destruct D as [(r & -> & Q)|(r & ->)]; [left; exists r; split; [auto|apply q_escape; auto]|right; eauto].
  - destruct (IH p) as (b & e & E & -> & Nb & D); [lia|auto|]. rewrite E. cbn [bind].
    exists (c :: b), e. split; [auto|]. split; [auto|]. split; [intros [X|X]; [congruence|auto]|].
    destruct D as [(r & -> & Q)|(r & ->)]; [left; exists r; split; [auto|constructor; auto]|right; eauto].
Qed.

Lemma c_string_n_eq s : c_string_n s = before_nul s.
Proof. induction s as [|c s IH]; cbn; [auto|]. destruct (c =? 0); [auto|]. rewrite IH. auto. Qed.
Lemma c_string_pad s n : (0 < n)%nat -> c_string (s ++ repeat 0 n) = Ok (before_nul s).
Proof.
  intros P. induction s as [|c s IH]; cbn [app c_string before_nul].
  - destruct n; [lia|]. auto.
  - destruct (c =? 0); [auto|]. rewrite IH. auto.
Qed.

(** parse_string accepts exactly the relaxed strings *)
Lemma parse_string_complete w s r : Forall byte w -> loose_string w s -> parse_string (w ++ 34 :: r) = Ok (Some (s, r)).
Proof.
  intros B (s0 & L & V & ->). unfold parse_string. rewrite string_end_quoted by (eapply loose_quoted; eauto). cbn [bind rd].
  cbn [Z.eqb Pos.eqb negb]. apply loose_raw in L.
  destruct (unescape_ok w B) as [(E & X)|[(E & X & R)|(s & I & R & V' & LS & E)]]; rewrite E; cbn [bind tl].
  - destruct (X s0 L) as (I & N). destruct N. auto.
  - rewrite (raw_plain_id _ _ L X), c_string_n_eq. auto.
  - rewrite (raw_fun _ _ _ B L R). rewrite c_string_pad by lia. auto.
Qed.
Lemma parse_string_sound p : Forall byte p -> In 0 p ->
  parse_string p = Ok None \/
  (exists w s r, p = w ++ 34 :: r /\ ~ In 0 w /\ loose_string w s /\ parse_string p = Ok (Some (s, r))).
Proof.
  intros B I. destruct (string_end_total (S (length p)) p) as (b & e & E & -> & Nb & D); [lia|auto|].
  apply Forall_app in B as (Bb & Be).
  destruct D as [(r & -> & Q)|(r & ->)].
  - destruct (unescape_ok b Bb) as [(E1 & X)|[(E1 & X & R)|(s & I92 & R & V' & LS & E1)]].
    + left. unfold parse_string. rewrite E. cbn [bind rd Z.eqb Pos.eqb negb]. rewrite E1. auto.
    + right. exists b, (before_nul b), r. split; [auto|]. split; [auto|].
      assert (LC : loose_string b (before_nul b)) by (exists b; split; [apply raw_loose; auto; contradiction|]; split; [contradiction|auto]).
      split; [auto|]. apply parse_string_complete; auto.
    + right. exists b, (before_nul s), r. split; [auto|]. split; [auto|].
      assert (LC : loose_string b (before_nul s)) by (exists s; split; [apply raw_loose; auto|]; split; auto).
      split; [auto|]. apply parse_string_complete; auto.
  - left. unfold parse_string. rewrite E. cbn [bind rd]. auto.
Qed.

(** * RFC strings *)
Lemma utf8_plain u : scalar_value u -> 32 <= u -> u <> 34 -> u <> 92 -> Forall (fun c => 32 <= c < 256 /\ c <> 34 /\ c <> 92) (utf8 u).
Proof.
  intros (R & _) A N1 N2. unfold utf8. div_mod u 64. div_mod (u / 64) 64. div_mod (u / 4096) 64. div_mod u 4096. div_mod u 262144.
  destruct (Z.ltb_spec u 128); [repeat constructor; lia|].
  destruct (Z.ltb_spec u 2048); [repeat constructor; lia|].
  destruct (Z.ltb_spec u 65536); repeat constructor; lia.
Qed.
Lemma loose_plain_app p w s : Forall (fun c => 32 <= c < 256 /\ c <> 34 /\ c <> 92) p -> loose_chars w s -> loose_chars (p ++ w) (p ++ s).
Proof. induction 1 as [|c p (A & B & C) F IH]; intros L; cbn [app]; [auto|]. constructor; auto. Qed.
Lemma chars_loose w s : chars w s -> loose_chars w s.
Proof.
  induction 1 as [|u w s S A N1 N2 C IH|e c w s I C IH|h x w s H N1 N2 C IH|h1 h2 hi lo w s H1 H2 N1 N2 C IH].
  - constructor.
  - apply loose_plain_app; [apply utf8_plain; auto|auto].
  - apply lc_escape; auto.
  - apply lc_unicode; auto.
  - eapply lc_pair; eauto.
Qed.
Lemma chars_valid w s : chars w s -> valid_utf8 s.
Proof.
  induction 1 as [|u w s S A N1 N2 C IH|e c w s I C IH|h x w s H N1 N2 C IH|h1 h2 hi lo w s H1 H2 N1 N2 C IH].
  - exists []. split; [constructor|auto].
  - apply valid_cons; auto.
  - pose proof (escape_range _ _ I) as (_ & R & _). change (c :: s) with ([c] ++ s).
    replace [c] with (utf8 c); [apply valid_cons; [split; lia|auto]|]. unfold utf8. destruct (Z.ltb_spec c 128); [auto|lia].
  - apply valid_cons; [|auto]. apply hex4_range in H. unfold high_surrogate, low_surrogate in *. split; lia.
  - apply valid_cons; [|auto]. pose proof (pair_range hi lo N1 N2). split; lia.
Qed.
Lemma before_nul_id s : ~ In 0 s -> before_nul s = s.
Proof.
  induction s as [|c s IH]; intros N; cbn; [auto|]. destruct (Z.eqb_spec c 0) as [->|]; [destruct N; left; auto|].
  rewrite IH; [auto|]. intros I. apply N. right. auto.
Qed.
Lemma rfc_loose_string w s : rfc_string w s -> loose_string w s.
Proof.
  intros (C & N). exists s. split; [apply chars_loose; auto|]. split; [intros _; eapply chars_valid; eauto|]. symmetry. apply before_nul_id. auto.
Qed.
Lemma loose_chars_bytes w s : loose_chars w s -> Forall byte w.
Proof.
  assert (HB : forall h x, hex4 h x -> Forall byte h).
  { intros h x (a & b & c & d & va & vb & vc & vd & -> & A & B & C & D & _). apply hex_digit_range in A, B, C, D. unfold byte. repeat constructor; lia. }
  assert (BY : byte 92 /\ byte 117) by (unfold byte; lia). destruct BY as (B92 & B117).
  induction 1 as [|c w s A N1 N2 L IH|e c w s I L IH|h x w s H N1 N2 L IH|h1 h2 hi lo w s H1 H2 N1 N2 L IH|h x H N].
  - constructor.
  - constructor; [unfold byte; lia|auto].
  - apply escape_range in I. constructor; [auto|]. constructor; [unfold byte; lia|auto].
  - constructor; [auto|]. constructor; [auto|]. apply Forall_app. split; [eapply HB; eauto|auto].
  - constructor; [auto|]. constructor; [auto|]. apply Forall_app. split; [eapply HB; eauto|].
    constructor; [auto|]. constructor; [auto|]. apply Forall_app. split; [eapply HB; eauto|auto].
  - constructor; [auto|]. constructor; [auto|]. eapply HB; eauto.
Qed.
