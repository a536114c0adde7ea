(** UTF-8: specification (RFC 3629) and proofs. *)
From Coq Require Import ZArith List Bool Lia.
From Verif Require Import Base Utf8Model.
Import ListNotations.
Open Scope Z_scope.

Section Spec.
Definition byte (c : Z) : Prop := 0 <= c < 256.
(** Unicode scalar values: code points that are not surrogates *)
Definition scalar_value (u : Z) : Prop := 0 <= u < 1114112 /\ ~ 55296 <= u < 57344.
(** RFC 3629, section 3: the bytes of a code point *)
Definition utf8 (u : Z) : list Z :=
  if u <? 128 then [u]
  else if u <? 2048 then [192 + u / 64; 128 + u mod 64]
  else if u <? 65536 then [224 + u / 4096; 128 + u / 64 mod 64; 128 + u mod 64]
  else [240 + u / 262144; 128 + u / 4096 mod 64; 128 + u / 64 mod 64; 128 + u mod 64].
Definition valid_utf8 (bs : list Z) : Prop :=
  exists us, Forall scalar_value us /\ bs = flat_map utf8 us.
End Spec.

(** * Bit operations as arithmetic *)
Lemma land_mod x n : 0 <= n -> Z.land x (2 ^ n - 1) = x mod 2 ^ n.
Proof. intros. rewrite <- Z.land_ones by auto. rewrite Z.ones_equiv. f_equal. Qed.
Lemma lor_disjoint a b n : 0 <= n -> 0 <= b < 2 ^ n -> Z.lor (a * 2 ^ n) b = a * 2 ^ n + b.
Proof.
  intros N B. assert (D : Z.land (a * 2 ^ n) b = 0).
  { apply Z.bits_inj'. intros i I. rewrite Z.land_spec, Z.bits_0.
    destruct (Z.lt_ge_cases i n).
    - rewrite Z.mul_pow2_bits_low by lia. auto.
    - rewrite <- (Z.mod_small b (2 ^ n)) by auto. rewrite Z.mod_pow2_bits_high by lia. apply andb_false_r. }
  rewrite <- Z.lxor_lor by auto. rewrite Z.add_nocarry_lxor; auto.
Qed.
Lemma lor_shift a b n : 0 <= n -> 0 <= b < 2 ^ n -> Z.lor (Z.shiftl a n) b = a * 2 ^ n + b.
Proof. intros. rewrite Z.shiftl_mul_pow2 by auto. apply lor_disjoint; auto. Qed.
Lemma land63 x : Z.land x 63 = x mod 64. Proof. apply (land_mod x 6). lia. Qed.
Lemma land255 x : Z.land x 255 = x mod 256. Proof. apply (land_mod x 8). lia. Qed.
Lemma land1023 x : Z.land x 1023 = x mod 1024. Proof. apply (land_mod x 10). lia. Qed.

(** * Checking all bytes *)
Lemma all_bytes (P : Z -> bool) : forallb P (map Z.of_nat (seq 0 256)) = true -> forall c, byte c -> P c = true.
Proof.
  intros H c B. rewrite forallb_forall in H. apply H. apply in_map_iff. exists (Z.to_nat c). unfold byte in B.
  split; [lia|]. apply in_seq. lia.
Qed.
Lemma is_trail_iff c : byte c -> utf8_is_trail c = (128 <=? c) && (c <? 192).
Proof.
  intros B. apply eqb_prop. apply (all_bytes (fun c => Bool.eqb (utf8_is_trail c) ((128 <=? c) && (c <? 192)))); auto.
Qed.

(** * Decoding one code point *)
Lemma utf8_nonempty u : utf8 u <> [].
Proof. unfold utf8. destruct (_ <? _); [discriminate|]. destruct (_ <? _); [discriminate|]. destruct (_ <? _); discriminate. Qed.
Ltac div_mod a b := let H := fresh in pose proof (Z.div_mod a b ltac:(lia)) as H; pose proof (Z.mod_pos_bound a b ltac:(lia)).
Lemma utf8_bytes u : scalar_value u -> Forall byte (utf8 u).
Proof.
  intros (R & _). unfold utf8, byte. div_mod u 64. div_mod (u / 64) 64. div_mod (u / 4096) 64. div_mod u 4096. div_mod u 262144.
  destruct (Z.ltb_spec u 128); [repeat constructor; lia|].
  destruct (Z.ltb_spec u 2048); [repeat constructor; lia|].
  destruct (Z.ltb_spec u 65536); [repeat constructor; lia|].
  repeat constructor; lia.
Qed.

Lemma trail_step c t p : byte t -> 128 <= t < 192 ->
  forall n, utf8_trails (S n) c (t :: p) = utf8_trails n (c * 64 + (t - 128)) p.
Proof.
  intros B T n. cbn [utf8_trails]. rewrite is_trail_iff by auto.
  destruct (Z.leb_spec 128 t), (Z.ltb_spec t 192); try lia. cbn [andb]. rewrite land63.
  replace (t mod 64) with (t - 128) by (apply Z.mod_unique with 2; lia).
  rewrite lor_shift by lia. auto.
Qed.
Lemma trails_inv : forall n c p c' p', Forall byte p -> utf8_trails n c p = Some (c', p') ->
  exists ts, p = ts ++ p' /\ length ts = n /\ Forall (fun t => 128 <= t < 192) ts /\
    c' = fold_left (fun a t => a * 64 + (t - 128)) ts c.
Proof.
  induction n as [|n IH]; intros c p c' p' B H.
  - cbn in H. injection H as <- <-. exists []. cbn. auto 10.
  - destruct p as [|t p]; [discriminate|]. inversion B; subst.
    destruct (utf8_is_trail t) eqn:T; [|cbn in H; rewrite T in H; discriminate].
    rewrite is_trail_iff in T by auto. apply andb_prop in T as (T1 & T2). apply Z.leb_le in T1. apply Z.ltb_lt in T2.
    rewrite trail_step in H by auto. apply IH in H as (ts & -> & L & F & ->); auto.
    exists (t :: ts). cbn. split; [auto|]. split; [lia|]. split; [constructor; [lia|auto]|auto].
Qed.

(** lead bits *)
Lemma lead_bits c k : byte c -> (k = 1 /\ 194 <= c < 224 \/ k = 2 /\ 224 <= c < 240 \/ k = 3 /\ 240 <= c <= 244) ->
  Z.land c (Z.shiftl 1 (6 - k) - 1) = c - (if k =? 1 then 192 else if k =? 2 then 224 else 240).
Proof.
  intros B K. rewrite Z.shiftl_mul_pow2, Z.mul_1_l, land_mod by lia.
  destruct K as [(-> & R)|[(-> & R)|(-> & R)]]; cbn [Z.eqb Pos.eqb]; symmetry.
  - change (2 ^ (6 - 1)) with 32. apply Z.mod_unique with 6; lia.
  - change (2 ^ (6 - 2)) with 16. apply Z.mod_unique with 14; lia.
  - change (2 ^ (6 - 3)) with 8. apply Z.mod_unique with 30; lia.
Qed.

Lemma utf_valid_iff u : 0 <= u -> utf_valid u = true <-> scalar_value u.
Proof.
  intros P. unfold utf_valid, scalar_value. destruct (Z.gtb_spec u 1114111); [split; [discriminate|lia]|].
  destruct (Z.leb_spec 55296 u), (Z.leb_spec u 57343); cbn; split; try discriminate; try lia; auto; intros; lia.
Qed.

Lemma next_utf8 u r : scalar_value u -> utf8_next (utf8 u ++ r) false = (u, r).
Proof.
  intros S. pose proof (utf8_bytes u S) as B. pose proof (proj2 (utf_valid_iff u ltac:(destruct S; lia)) S) as V.
  destruct S as (R & _). revert B. unfold utf8.
  destruct (Z.ltb_spec u 128) as [L|L].
  { intros _. cbn [app utf8_next]. unfold utf8_trail_length. destruct (Z.ltb_spec u 128); [|lia]. cbn. auto. }
  assert (W : forall k lead ts, byte lead -> (k = 1 /\ 194 <= lead < 224 \/ k = 2 /\ 224 <= lead < 240 \/ k = 3 /\ 240 <= lead <= 244) ->
     utf8_trails (Z.to_nat k) (lead - (if k =? 1 then 192 else if k =? 2 then 224 else 240)) (ts ++ r) = Some (u, r) ->
     utf8_width u = k + 1 -> utf8_next (lead :: ts ++ r) false = (u, r)).
  { intros k lead ts B K T Wd. cbn [utf8_next].
    assert (E : utf8_trail_length lead = k).
    { unfold utf8_trail_length. destruct (Z.ltb_spec lead 128); [lia|]. destruct (Z.ltb_spec lead 194); [lia|].
      destruct (Z.ltb_spec lead 224); [lia|]. destruct (Z.ltb_spec lead 240); [lia|]. destruct (Z.leb_spec lead 244); lia. }
    rewrite E. destruct (Z.ltb_spec k 0); [lia|]. destruct (Z.eqb_spec k 0); [lia|].
    rewrite lead_bits, T, V, Wd by auto. rewrite Z.eqb_refl. cbn. auto. }
  unfold utf8_width in W.
  div_mod u 64. div_mod (u / 64) 64. div_mod (u / 4096) 64. 
  assert (D1 : u / 64 / 64 = u / 4096) by (rewrite Z.div_div by lia; auto).
  assert (D2 : u / 4096 / 64 = u / 262144) by (rewrite Z.div_div by lia; auto).
  destruct (Z.ltb_spec u 2048) as [L2|L2].
  { intros B. inversion B as [|? ? B1 B2]; subst. inversion B2 as [|? ? B3 _]; subst.
    cbn [app]. apply (W 1 _ [128 + u mod 64]); auto; [lia| |destruct (Z.leb_spec u 127); [lia|]; destruct (Z.leb_spec u 2047); lia].
    cbn [app]. change (Z.to_nat 1) with 1%nat. rewrite trail_step by (auto; lia). cbn [utf8_trails Z.eqb Pos.eqb]. f_equal. f_equal. lia. }
  destruct (Z.ltb_spec u 65536) as [L3|L3].
  { intros B. inversion B as [|? ? B1 B2]; subst. inversion B2 as [|? ? B3 B4]; subst. inversion B4 as [|? ? B5 _]; subst.
    cbn [app]. apply (W 2 _ [128 + u / 64 mod 64; 128 + u mod 64]); auto; [lia| |destruct (Z.leb_spec u 127); [lia|]; destruct (Z.leb_spec u 2047); [lia|]; destruct (Z.leb_spec u 65535); lia].
    cbn [app]. change (Z.to_nat 2) with 2%nat. rewrite !trail_step by (auto; lia). cbn [utf8_trails Z.eqb Pos.eqb]. f_equal. f_equal. lia. }
  intros B. inversion B as [|? ? B1 B2]; subst. inversion B2 as [|? ? B3 B4]; subst. inversion B4 as [|? ? B5 B6]; subst. inversion B6 as [|? ? B7 _]; subst.
  cbn [app]. apply (W 3 _ [128 + u / 4096 mod 64; 128 + u / 64 mod 64; 128 + u mod 64]); auto; [lia| |destruct (Z.leb_spec u 127); [lia|]; destruct (Z.leb_spec u 2047); [lia|]; destruct (Z.leb_spec u 65535); lia].
  cbn [app]. change (Z.to_nat 3) with 3%nat. rewrite !trail_step by (auto; lia). cbn [utf8_trails Z.eqb Pos.eqb]. f_equal. f_equal. lia.
Qed.

Lemma next_inv p u r : Forall byte p -> utf8_next p false = (u, r) -> u <> utf_illegal ->
  p = utf8 u ++ r /\ scalar_value u.
Proof.
  intros B H N. destruct p as [|c p]; [cbn in H; congruence|]. inversion B as [|? ? Bc Bp]; subst. cbn [utf8_next] in H.
  unfold byte in Bc.
  assert (K : utf8_trail_length c = -1 \/ utf8_trail_length c = 0 /\ c < 128 \/
     utf8_trail_length c = 1 /\ 194 <= c < 224 \/ utf8_trail_length c = 2 /\ 224 <= c < 240 \/ utf8_trail_length c = 3 /\ 240 <= c <= 244).
  { unfold utf8_trail_length. destruct (Z.ltb_spec c 128); [lia|]. destruct (Z.ltb_spec c 194); [lia|].
    destruct (Z.ltb_spec c 224); [lia|]. destruct (Z.ltb_spec c 240); [lia|]. destruct (Z.leb_spec c 244); lia. }
  destruct K as [E|[(E & R)|K]].
  - rewrite E in H. cbn in H. congruence.
  - rewrite E in H. cbn in H. injection H as <- <-. unfold utf8, scalar_value. destruct (Z.ltb_spec c 128); [|lia]. split; [auto|lia].
  - set (k := utf8_trail_length c) in *. destruct (Z.ltb_spec k 0); [lia|]. destruct (Z.eqb_spec k 0); [lia|].
    rewrite lead_bits in H by (auto; unfold byte; lia).
    destruct (utf8_trails _ _ p) as [(u', r')|] eqn:T; [|congruence].
    destruct (utf_valid u') eqn:V; cbn [negb] in H; [|congruence].
    destruct (Z.eqb_spec (utf8_width u') (k + 1)) as [Wd|]; cbn [negb andb] in H; [|congruence]. injection H as -> ->.
    apply trails_inv in T as (ts & -> & L & F & U); auto.
    assert (SV : scalar_value u).
    { apply utf_valid_iff; auto. subst u. clear - F K. 
      assert (G : forall ts a, 0 <= a -> Forall (fun t => 128 <= t < 192) ts -> 0 <= fold_left (fun a t => a * 64 + (t - 128)) ts a).
      { clear. induction ts as [|t ts IH]; intros a A F; auto. inversion F; subst. cbn. apply IH; auto. lia. }
      apply G; auto. destruct K as [(-> & R)|[(-> & R)|(-> & R)]]; cbn; lia. }
    split; auto. destruct SV as (RU & _).
    assert (RW : (k = 1 -> 128 <= u < 2048) /\ (k = 2 -> 2048 <= u < 65536) /\ (k = 3 -> 65536 <= u)).
    { revert Wd. unfold utf8_width. destruct (Z.leb_spec u 127); [lia|]. destruct (Z.leb_spec u 2047); [lia|]. destruct (Z.leb_spec u 65535); lia. }
    clear Wd. destruct RW as (RW1 & RW2 & RW3). 
    destruct K as [(K & R)|[(K & R)|(K & R)]]; rewrite K in *; cbn [Z.eqb Pos.eqb] in U; [specialize (RW1 eq_refl)|specialize (RW2 eq_refl)|specialize (RW3 eq_refl)].
    + destruct ts as [|t [|]]; try discriminate. pose proof (Forall_inv F) as T1. cbv beta in T1. cbn [fold_left] in U.
      unfold utf8. 
      destruct (Z.ltb_spec u 128); [lia|]. destruct (Z.ltb_spec u 2048); [|lia].
      assert (Q : u / 64 = c - 192) by (symmetry; apply Z.div_unique with (t - 128); lia).
      assert (M : u mod 64 = t - 128) by (symmetry; apply Z.mod_unique with (c - 192); lia).
      rewrite Q, M. cbn [app]. f_equal; [lia|]. f_equal. lia.
    + destruct ts as [|t [|t2 [|]]]; try discriminate. pose proof (Forall_inv F) as T1. pose proof (Forall_inv (Forall_inv_tail F)) as T2. cbv beta in T1, T2. cbn [fold_left] in U.
      unfold utf8. 
      destruct (Z.ltb_spec u 128); [lia|]. destruct (Z.ltb_spec u 2048); [lia|]. destruct (Z.ltb_spec u 65536); [|lia].
      assert (Q : u / 64 = (c - 224) * 64 + (t - 128)) by (symmetry; apply Z.div_unique with (t2 - 128); lia).
      assert (M : u mod 64 = t2 - 128) by (symmetry; apply Z.mod_unique with ((c - 224) * 64 + (t - 128)); lia).
      assert (Q2 : u / 4096 = c - 224).
      { change 4096 with (64 * 64). rewrite <- Z.div_div by lia. rewrite Q. symmetry. apply Z.div_unique with (t - 128); lia. }
      assert (M2 : ((c - 224) * 64 + (t - 128)) mod 64 = t - 128) by (symmetry; apply Z.mod_unique with (c - 224); lia).
      rewrite Q2, Q, M, M2. cbn [app]. f_equal; [lia|]. f_equal; [lia|]. f_equal. lia.
    + destruct ts as [|t [|t2 [|t3 [|]]]]; try discriminate. pose proof (Forall_inv F) as T1. pose proof (Forall_inv (Forall_inv_tail F)) as T2. pose proof (Forall_inv (Forall_inv_tail (Forall_inv_tail F))) as T3. cbv beta in T1, T2, T3. cbn [fold_left] in U.
      unfold utf8. 
      destruct (Z.ltb_spec u 128); [lia|]. destruct (Z.ltb_spec u 2048); [lia|]. destruct (Z.ltb_spec u 65536); [lia|].
      assert (Q : u / 64 = ((c - 240) * 64 + (t - 128)) * 64 + (t2 - 128)) by (symmetry; apply Z.div_unique with (t3 - 128); lia).
      assert (M : u mod 64 = t3 - 128) by (symmetry; apply Z.mod_unique with (((c - 240) * 64 + (t - 128)) * 64 + (t2 - 128)); lia).
      assert (Q2 : u / 4096 = (c - 240) * 64 + (t - 128)).
      { change 4096 with (64 * 64). rewrite <- Z.div_div by lia. rewrite Q. symmetry. apply Z.div_unique with (t2 - 128); lia. }
      assert (Q3 : u / 262144 = c - 240).
      { change 262144 with (4096 * 64). rewrite <- Z.div_div by lia. rewrite Q2. symmetry. apply Z.div_unique with (t - 128); lia. }
      rewrite Q3, Q2, Q, M.
      assert (M2 : (((c - 240) * 64 + (t - 128)) * 64 + (t2 - 128)) mod 64 = t2 - 128) by (symmetry; apply Z.mod_unique with ((c - 240) * 64 + (t - 128)); lia).
      assert (M3 : ((c - 240) * 64 + (t - 128)) mod 64 = t - 128) by (symmetry; apply Z.mod_unique with (c - 240); lia).
      rewrite M2, M3. cbn [app]. f_equal; [lia|]. f_equal; [lia|]. f_equal; [lia|]. f_equal. lia.
Qed.

(** * The validator *)
Lemma scalar_legal u : scalar_value u -> u <> utf_illegal.
Proof. intros ((_ & B) & _) E. rewrite E in B. unfold utf_illegal in B. lia. Qed.
Lemma valid_cons u bs : scalar_value u -> valid_utf8 (utf8 u ++ bs) <-> valid_utf8 bs.
Proof.
  intros S. split.
  - intros (us & F & E). destruct us as [|u' us]; cbn in E.
    + exfalso. apply app_eq_nil in E as (E & _). apply (utf8_nonempty u E).
    + inversion F; subst. assert (X : utf8_next (utf8 u ++ bs) false = utf8_next (utf8 u' ++ flat_map utf8 us) false) by congruence.
      rewrite !next_utf8 in X by auto. injection X as <- ->. exists us. auto.
  - intros (us & F & ->). exists (u :: us). split; [constructor; auto|auto].
Qed.

Lemma validate_loop_ok : forall fuel p, Forall byte p -> (length p < fuel)%nat ->
  exists b, utf8_validate_loop fuel p = Ok b /\ (b = true <-> valid_utf8 p).
Proof.
  induction fuel as [|f IH]; intros p B L; [lia|]. cbn [utf8_validate_loop].
  destruct p as [|c p0] eqn:EP.
  - exists true. split; auto. split; auto. intros _. exists []. split; [constructor|auto].
  - rewrite <- EP in *. destruct (utf8_next p false) as (u, r) eqn:E. destruct (Z.eqb_spec u utf_illegal) as [I|I].
    + exists false. split; auto. split; [discriminate|]. intros (us & F & X). exfalso. destruct us as [|u' us]; [cbn in X; congruence|].
      inversion F; subst us u'. cbn [flat_map] in X. rewrite X in E. rewrite next_utf8 in E by auto. injection E as <- <-.
      apply (scalar_legal x); auto.
    + apply next_inv in E as (E & S); auto. rewrite E in B. apply Forall_app in B as (_ & B). 
      destruct (IH r B) as (b & E1 & I1).
      { rewrite E in L. rewrite app_length in L. pose proof (utf8_nonempty u). destruct (utf8 u); [congruence|]. cbn [length] in L. lia. }
      exists b. split; auto. rewrite E, valid_cons; auto.
Qed.
Lemma validate_ok p : Forall byte p -> exists b, utf8_validate p = Ok b /\ (b = true <-> valid_utf8 p).
Proof. intros B. apply validate_loop_ok; auto. Qed.

(** * Encoding *)
Lemma encode_utf8 u : 0 <= u < 1114112 -> utf8_encode u = utf8 u.
Proof.
  intros R. unfold utf8_encode, utf8.
  assert (OR : forall a b n, 0 <= n -> 0 <= a < 2 ^ n -> b mod 2 ^ n = 0 -> Z.lor a b = a + b).
  { intros a b n N A M. rewrite Z.lor_comm. pose proof (Z.div_mod b (2 ^ n) ltac:(apply Z.pow_nonzero; lia)) as E. rewrite M, Z.add_0_r in E.
    rewrite E, Z.mul_comm. rewrite lor_disjoint by auto. lia. }
  assert (T : forall x, Z.land (Z.lor (Z.land x 63) 128) 255 = 128 + x mod 64).
  { intros x. rewrite land63. pose proof (Z.mod_pos_bound x 64 ltac:(lia)). rewrite (OR _ 128 6); [|lia|lia|reflexivity].
    rewrite land255, Z.mod_small; lia. }
  rewrite !T. rewrite !Z.shiftr_div_pow2 by lia. change (2 ^ 6) with 64. change (2 ^ 12) with 4096. change (2 ^ 18) with 262144.
  div_mod u 64. div_mod u 4096. div_mod u 262144.
  destruct (Z.leb_spec u 127), (Z.ltb_spec u 128); try lia; [rewrite land255, Z.mod_small; auto; lia|].
  destruct (Z.leb_spec u 2047), (Z.ltb_spec u 2048); try lia.
  { rewrite (OR _ 192 6); [|lia|lia|reflexivity]. rewrite land255, Z.mod_small by lia. f_equal. lia. }
  destruct (Z.leb_spec u 65535), (Z.ltb_spec u 65536); try lia.
  { rewrite (OR _ 224 4); [|lia|lia|reflexivity]. rewrite land255, Z.mod_small by lia. f_equal. lia. }
  rewrite (OR _ 240 4); [|lia|lia|reflexivity]. rewrite land255, Z.mod_small by lia. f_equal. lia.
Qed.

Lemma combine_ok hi lo : 55296 <= hi <= 56319 -> 56320 <= lo <= 57343 ->
  utf16_combine_surrogate hi lo = 65536 + (hi - 55296) * 1024 + (lo - 56320).
Proof.
  intros H L. unfold utf16_combine_surrogate. rewrite !land1023.
  replace (hi mod 1024) with (hi - 55296) by (apply Z.mod_unique with 54; lia).
  replace (lo mod 1024) with (lo - 56320) by (apply Z.mod_unique with 55; lia).
  rewrite lor_shift by lia. change (2 ^ 10) with 1024. lia.
Qed.
