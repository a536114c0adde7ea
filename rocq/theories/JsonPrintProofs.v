(** Proofs about the printer. *)
From Coq Require Import ZArith List Bool Lia.
From Verif Require Import Base Numeral NumeralProofs BoxedModel PropBoxed Utf8Proofs Json JsonTokModel JsonSpec JsonStrProofs JsonParseProofs
  JsonPrintModel JsonPrintSpec.
Import ListNotations.
Open Scope Z_scope.
Local Arguments Z.add : simpl never.
Local Arguments Z.of_nat : simpl never.
Local Arguments Z.to_nat : simpl never.

Definition is_pretty (f : fmt) : bool := match f with PRETTY => true | COMPACT => false end.

(** * Writing *)
(** The buffer of [cap] bytes, if there is one, starts with [out]. *)
Definition shows (cap : nat) (b : option text) (out : text) : Prop :=
  match b with None => True | Some l => length l = cap /\ exists rest, l = out ++ rest end.
Lemma shows_prefix cap b out w : shows cap b (out ++ w) -> shows cap b out.
Proof. destruct b as [l|]; [|auto]. intros (L & r & ->). split; [auto|]. exists (w ++ r). rewrite app_assoc. auto. Qed.
Lemma write_ok cap b out cs : shows cap b out -> (length out + length cs <= cap)%nat ->
  exists b', write_at b (Z.of_nat (length out)) cs = Ok b' /\ shows cap b' (out ++ cs) /\ (b = None -> b' = None).
Proof.
  intros S L. destruct b as [l|]; [|exists None; destruct cs; cbn; auto]. destruct S as (Ll & r & El).
  destruct cs as [|c cs]; [exists (Some l); split; [auto|]; split; [|discriminate]; split; [auto|]; exists r; rewrite app_nil_r; auto|].
  unfold write_at. destruct (Z.leb_spec 0 (Z.of_nat (length out))); [|lia]. cbn [andb].
  destruct (Z.leb_spec (Z.of_nat (length out) + Z.of_nat (length (c :: cs))) (Z.of_nat (length l))); [|lia].
  eexists. split; [reflexivity|]. split; [|discriminate]. rewrite Nat2Z.id. split.
  - rewrite !app_length, firstn_length, skipn_length. lia.
  - exists (skipn (length out + length (c :: cs)) l). rewrite <- app_assoc. f_equal.
    rewrite El, firstn_app, Nat.sub_diag, firstn_all. cbn. apply app_nil_r.
Qed.

(** [good o out]: the output so far is [out]. *)
Definition good (cap : nat) (o : output) (out : text) : Prop :=
  o_off o = Z.of_nat (length out) /\ shows cap (o_buf o) out.
Lemma emit_ok cap o out cs : good cap o out -> (length out + length cs <= cap)%nat ->
  exists o', emit o cs = Ok o' /\ good cap o' (out ++ cs).
Proof.
  intros (E & S) L. unfold emit. rewrite E. destruct (write_ok cap _ out cs S L) as (b' & -> & S' & _). cbn [bind].
  eexists. split; [reflexivity|]. split; [cbn [o_off]; rewrite app_length; lia|exact S'].
Qed.
Lemma pad_ok cap o out f t : good cap o out -> (length out + length (indent (is_pretty f) t) <= cap)%nat ->
  exists o', pad o (Z.of_nat t) f = Ok o' /\ good cap o' (out ++ indent (is_pretty f) t).
Proof.
  intros G L. destruct f; cbn [pad is_pretty indent if_pretty] in *.
  - exists o. rewrite app_nil_r. auto.
  - destruct G as (E & S). rewrite E, Nat2Z.id. destruct (write_ok cap _ out _ S L) as (b' & -> & S' & _). cbn [bind].
    eexists. split; [reflexivity|]. split; [cbn [o_off]; rewrite app_length, repeat_length; lia|exact S'].
Qed.
Lemma pad_compact o z : pad o z COMPACT = Ok o.
Proof. auto. Qed.

(** The tabs of an entry matter in the readable format only. *)
Definition tabs_are (f : fmt) (z : Z) (t : nat) : Prop := f = PRETTY -> z = Z.of_nat t.
Lemma pad_ok' cap o out f z t : tabs_are f z t -> good cap o out -> (length out + length (indent (is_pretty f) t) <= cap)%nat ->
  exists o', pad o z f = Ok o' /\ good cap o' (out ++ indent (is_pretty f) t).
Proof.
  intros T G L. destruct f; [exists o; cbn; rewrite app_nil_r; auto|]. rewrite (T eq_refl). apply pad_ok; auto.
Qed.
Lemma open_ok cap o out f z t c : tabs_are f z t -> c = 91 \/ c = 123 -> good cap o out ->
  (length out + length (opening (is_pretty f) c) <= cap)%nat -> (length out + t <= cap)%nat ->
  exists o', delimiter o f z c = Ok o' /\ good cap o' (out ++ opening (is_pretty f) c).
Proof.
  intros T C G L Lt. destruct f; cbn [delimiter is_pretty opening if_pretty app] in *.
  - apply emit_ok; auto.
  - rewrite (T eq_refl). assert (((c =? 91) || (c =? 123)) = true) as -> by (destruct C as [-> | ->]; auto).
    destruct (pad_ok cap o out PRETTY t G) as (p & -> & Gp); [cbn; rewrite repeat_length; lia|]. cbn [bind].
    apply emit_ok; [|auto]. split; [apply G|]. cbn [o_buf]. destruct Gp as (_ & S). apply shows_prefix in S. auto.
Qed.
Lemma close_ok cap o out f z t c : tabs_are f z t -> c = 93 \/ c = 125 -> good cap o out ->
  (length out + length (closing (is_pretty f) t c) <= cap)%nat ->
  exists o', delimiter o f z c = Ok o' /\ good cap o' (out ++ closing (is_pretty f) t c).
Proof.
  intros T C G L. destruct f; cbn [delimiter is_pretty closing indent if_pretty app] in *.
  - apply emit_ok; auto.
  - rewrite (T eq_refl). assert (((c =? 91) || (c =? 123)) = false) as -> by (destruct C as [-> | ->]; auto).
    assert (((c =? 93) || (c =? 125)) = true) as -> by (destruct C as [-> | ->]; auto).
    cbn [length] in L. rewrite app_length in L. cbn [length] in L. rewrite repeat_length in L.
    destruct (emit_ok cap o out [10] G) as (o1 & -> & G1); [cbn [length]; lia|]. cbn [bind].
    destruct (pad_ok cap o1 _ PRETTY t G1) as (o2 & -> & G2); [cbn [is_pretty indent if_pretty]; rewrite app_length, repeat_length; cbn [length]; lia|]. cbn [bind].
    destruct (emit_ok cap o2 _ [c] G2) as (o3 & -> & G3); [cbn [is_pretty indent if_pretty]; rewrite !app_length, repeat_length; cbn [length]; lia|]. cbn [bind].
    destruct (emit_ok cap o3 _ [10] G3) as (o4 & -> & G4); [cbn [is_pretty indent if_pretty]; rewrite !app_length, repeat_length; cbn [length]; lia|].
    exists o4. split; [auto|]. cbn [is_pretty indent if_pretty] in G4. rewrite <- !app_assoc in G4. exact G4.
Qed.
Lemma colon_ok cap o out f z : good cap o out -> (length out + length (colon (is_pretty f)) <= cap)%nat ->
  exists o', delimiter o f z 58 = Ok o' /\ good cap o' (out ++ colon (is_pretty f)).
Proof. intros G L. destruct f; cbn [delimiter is_pretty colon if_pretty app] in *; apply emit_ok; auto. Qed.
Lemma comma_ok cap o out f z : good cap o out -> (length out + length (comma (is_pretty f)) <= cap)%nat ->
  exists o', delimiter o f z 44 = Ok o' /\ good cap o' (out ++ comma (is_pretty f)).
Proof. intros G L. destruct f; cbn [delimiter is_pretty comma if_pretty app] in *; apply emit_ok; auto. Qed.

(** * Strings *)
Lemma addon_escaped c : 0 <= c -> escaped c = match addon c with Some a => a | None => [c] end.
Proof.
  intros P. unfold escaped, addon.
  destruct (Z.eqb_spec c 34); [auto|]. destruct (Z.eqb_spec c 92); [auto|]. destruct (Z.eqb_spec c 8); [auto|].
  destruct (Z.eqb_spec c 9); [subst; auto|]. destruct (Z.eqb_spec c 10); [subst; auto|]. destruct (Z.eqb_spec c 12); [subst; auto|].
  destruct (Z.eqb_spec c 13); [subst; auto|]. destruct (Z.ltb_spec c 32), (Z.leb_spec c 31); try lia; [|auto].
  assert (HB : forallb (fun c => if list_eq_dec Z.eq_dec [92; 117; 48; 48; hex_char (c / 16); hex_char (c mod 16)]
    [92; 117; 48; 48; tohex (Z.shiftr c 4); tohex (Z.land c 15)] then true else false) (map Z.of_nat (seq 0 32)) = true) by (vm_compute; auto).
  rewrite forallb_forall in HB. specialize (HB c). destruct (list_eq_dec _ _ _); [auto|]. discriminate HB.
  apply in_map_iff. exists (Z.to_nat c). split; [lia|]. apply in_seq. lia.
Qed.
Lemma str_loop_ok cap : forall s o out run, Forall byte s -> good cap o out ->
  (length out + length run + length (flat_map escaped s) <= cap)%nat ->
  exists o', str_loop o run s = Ok o' /\ good cap o' (out ++ run ++ flat_map escaped s).
Proof.
  induction s as [|c s IH]; intros o out run P G L; cbn [str_loop flat_map] in *.
  - rewrite app_nil_r. apply emit_ok; [auto|lia].
  - rewrite app_length in L. pose proof (addon_escaped c (proj1 (Forall_inv P))) as E. apply Forall_inv_tail in P.
    destruct (addon c) as [a|]; rewrite E in *.
    + destruct (emit_ok cap o out run G) as (o1 & -> & G1); [lia|]. cbn [bind].
      destruct (emit_ok cap o1 _ a G1) as (o2 & -> & G2); [rewrite app_length; lia|]. cbn [bind].
      destruct (IH o2 _ [] P G2) as (o3 & -> & G3); [rewrite !app_length; cbn [length]; lia|].
      exists o3. split; [auto|]. cbn [app] in G3. rewrite <- !app_assoc in G3. exact G3.
    + destruct (IH o out (run ++ [c]) P G) as (o3 & -> & G3); [rewrite app_length; lia|].
      exists o3. split; [auto|]. rewrite <- app_assoc in G3. exact G3.
Qed.
Lemma str_append_ok cap o out s : Forall byte s -> Z.of_nat (length s) < 2 ^ 32 -> good cap o out ->
  (length out + length (quote s) <= cap)%nat -> exists o', str_append o s = Ok o' /\ good cap o' (out ++ quote s).
Proof.
  intros P Ls G L. unfold quote in L. rewrite !app_length in L. cbn [length] in L. unfold str_append.
  destruct (emit_ok cap o out [34] G) as (o1 & -> & G1); [cbn [length]; lia|]. cbn [bind].
  unfold wrap. rewrite Z.mod_small, Nat2Z.id, firstn_all by lia.
  destruct (str_loop_ok cap s o1 _ [] P G1) as (o2 & -> & G2); [rewrite !app_length; cbn [length]; lia|]. cbn [bind].
  destruct (emit_ok cap o2 _ [34] G2) as (o3 & -> & G3); [rewrite !app_length; cbn [length]; lia|].
  exists o3. split; [auto|]. rewrite <- !app_assoc in G3. exact G3.
Qed.

(** * Numbers *)
Section Print.
Variable fmt_g : prim -> Z -> text.

Lemma decimal_nonempty z : decimal_of z <> [].
Proof. destruct (decimal_of_ok z) as [(_ & N & _)|(_ & ds & -> & _)]; [auto|discriminate]. Qed.
Lemma decimal_bytes z : Forall byte (decimal_of z).
Proof.
  assert (D : forall ds n, standard ds n -> Forall byte ds).
  { intros ds n (_ & F & _). eapply Forall_impl; [|exact F]. unfold digit_char, byte. intros; lia. }
  destruct (decimal_of_ok z) as [(_ & N)|(_ & ds & -> & N)]; [eauto|]. constructor; [unfold byte; lia|eauto].
Qed.
Lemma boxed_ok cap o out b w : (forall size, boxed_snprint fmt_g size b = Ok (snprintf size w)) ->
  good cap o out -> (length out + length w + 1 <= cap)%nat ->
  exists o', print_boxed fmt_g o b = Ok o' /\ good cap o' (out ++ w).
Proof.
  intros E (EO & S) L. unfold print_boxed. rewrite E. cbn [snprintf bind]. rewrite Nat2Z.id, E. rewrite Nat.add_1_r. cbn [snprintf bind].
  rewrite firstn_all. rewrite EO. destruct (write_ok cap _ out (w ++ [0]) S) as (b' & -> & S' & _); [rewrite app_length; cbn [length]; lia|]. cbn [bind].
  eexists. split; [reflexivity|]. split; [cbn [o_off]; rewrite app_length; lia|]. rewrite app_assoc in S'. apply shows_prefix in S'. exact S'.
Qed.
Lemma print_integer t z size : t = I64 \/ t = U64 -> value_of t z -> boxed_snprint fmt_g size (boxed_from t z) = Ok (snprintf size (decimal_of z)).
Proof.
  intros T R. unfold boxed_snprint. cbn [boxed_from mk_header bx_type bx_mem]. rewrite load_store by auto.
  assert (L : Z.of_nat (length (decimal_of z)) >? 0 = true).
  { pose proof (decimal_nonempty z). destruct (decimal_of z); [congruence|]. apply Z.gtb_lt; cbn [length]; lia. }
  unfold snprintf. destruct T as [-> | ->]; rewrite L; auto.
Qed.
Lemma print_double d size : 0 <= d < 2 ^ 64 -> fmt_g F64 d <> [] ->
  boxed_snprint fmt_g size (boxed_from F64 d) = Ok (snprintf size (fmt_g F64 d)).
Proof.
  intros R N. unfold boxed_snprint. cbn [boxed_from mk_header bx_type bx_mem]. rewrite (load_store F64) by auto.
  assert (L : Z.of_nat (length (fmt_g F64 d)) >? 0 = true).
  { destruct (fmt_g F64 d); [congruence|]. apply Z.gtb_lt; cbn [length]; lia. }
  unfold snprintf. rewrite L. auto.
Qed.

(** * Scalars *)
Lemma before_nul_bytes s : Forall byte s -> Forall byte (before_nul s) /\ (length (before_nul s) <= length s)%nat.
Proof.
  induction 1 as [|c s B F (IH & L)]; cbn [before_nul]; [split; [constructor|auto]|].
  destruct (c =? 0); cbn [length]; [split; [constructor|lia]|split; [constructor; auto|lia]].
Qed.
Definition is_container (j : json) : bool := match j with JArr _ | JObj _ => true | _ => false end.
Definition scalar_text (j : json) : text :=
  match j with
  | JUndefined => [117; 110; 100; 101; 102; 105; 110; 101; 100]
  | JNull => [110; 117; 108; 108]
  | JBool true => [116; 114; 117; 101]
  | JBool false => [102; 97; 108; 115; 101]
  | JDouble d => fmt_g F64 d
  | JI64 z | JU64 z => decimal_of z
  | JStr s => quote (before_nul s)
  | JStrn s => quote s
  | JBlob n => quote ([98; 108; 111; 98; 58] ++ decimal_of n ++ [32; 98; 121; 116; 101; 115])
  | _ => []
  end.
Lemma scalar_text_of pretty t j : is_container j = false -> text_of fmt_g pretty t j = indent pretty t ++ scalar_text j.
Proof. destruct j as [| |[]| | | | | | | |]; try discriminate; auto. Qed.
Lemma print_scalar_ok cap o out j : is_container j = false -> ordinary fmt_g j -> good cap o out ->
  (length out + length (scalar_text j) + 1 <= cap)%nat ->
  exists o', print_scalar fmt_g o j = Ok o' /\ good cap o' (out ++ scalar_text j).
Proof.
  intros C N G L. destruct j as [| |[]|d|z|z|s|s|n| |]; try discriminate; cbn [scalar_text print_scalar ordinary] in *;
    try (apply emit_ok; [auto|lia]).
  - destruct N as (R & N). apply boxed_ok; auto. intros. apply print_double; auto.
  - apply boxed_ok; auto. intros. apply print_integer; [auto|]. cbn. lia.
  - apply boxed_ok; auto. intros. apply print_integer; [auto|]. cbn. lia.
  - destruct N as (B & N). destruct (before_nul_bytes s B) as (B' & L'). rewrite c_string_n_eq. apply str_append_ok; auto; lia.
  - destruct N as (B & N). apply str_append_ok; auto; lia.
  - contradiction.
Qed.

(** * Values *)
Lemma to_char_id z : 0 <= z <= 127 -> to_char z = z.
Proof. intros. unfold to_char. rewrite Z.mod_small; lia. Qed.
Lemma everywhere_arr P l : everywhere P (JArr l) -> Forall (everywhere P) l.
Proof. intros (_ & E). induction l as [|x l IH]; [constructor|]. destruct E as (E1 & E2). constructor; auto. Qed.
Lemma everywhere_obj P kvs : everywhere P (JObj kvs) -> Forall (fun kv => everywhere P (snd kv)) kvs.
Proof. intros (_ & E). induction kvs as [|x l IH]; [constructor|]. destruct E as (E1 & E2). constructor; auto. Qed.
Lemma everywhere_here P j : everywhere P j -> P j.
Proof. destruct j; intros (E & _); exact E. Qed.
Lemma height_arr l n : (height (JArr l) <= n)%nat -> Forall (fun x => (S (height x) <= n)%nat) l.
Proof. cbn [height]. rewrite list_max_le, Forall_map. auto. Qed.
Lemma height_obj kvs n : (height (JObj kvs) <= n)%nat -> Forall (fun kv => (S (height (snd kv)) <= n)%nat) kvs.
Proof. cbn [height]. rewrite list_max_le, Forall_map. auto. Qed.
Lemma obj_find_at pre k v post : ~ In k (map fst pre) -> obj_find (pre ++ (k, v) :: post) k = Some v.
Proof.
  induction pre as [|(k', v') pre IH]; cbn [app obj_find map fst]; intros N.
  - unfold text_eqb. destruct (list_eq_dec _ _ _); congruence.
  - unfold text_eqb at 1. destruct (list_eq_dec _ _ _) as [->|]; [cbn in N; tauto|]. apply IH. cbn in N. tauto.
Qed.

(** The number of iterations *)
Fixpoint cost (j : json) : nat :=
  match j with
  | JArr l => S (list_sum (map (fun x => S (cost x)) l))
  | JObj kvs => S (list_sum (map (fun kv => S (cost (snd kv))) kvs))
  | _ => 1%nat
  end.

(** What an iteration does after the opening bracket *)
Definition inner_arr f o i z more l (below : list entry) : outcome (output * list entry) :=
  match nth_error l i with
  | Some x => Ok (o, mk_entry (z + 1) ((1 <? length l)%nat && (i + 1 <? length l)%nat) x :: Entry (i + 1) z more (JArr l) :: below)
  | None => bind (delimiter o f z 93) (fun o => bind (comma_if o f (Entry i z more (JArr l))) (fun o => Ok (o, below)))
  end.
Definition inner_obj f o i z more kvs (below : list entry) : outcome (output * list entry) :=
  match nth_error kvs i with
  | Some (k, _) =>
    bind (of_option NullDeref (obj_find kvs k)) (fun x =>
    bind (pad o z f) (fun o => bind (str_append o (c_string_n k)) (fun o => bind (delimiter o f z 58) (fun o =>
      Ok (o, mk_entry (z + 1) ((1 <? length kvs)%nat && (i + 1 <? length kvs)%nat) x :: Entry (i + 1) z more (JObj kvs) :: below)))))
  | None => bind (delimiter o f z 125) (fun o => bind (comma_if o f (Entry i z more (JObj kvs))) (fun o => Ok (o, below)))
  end.
Lemma step_arr f o i z more l below : step fmt_g f o (Entry i z more (JArr l)) below =
  bind (if (i =? 0)%nat then delimiter o f z 91 else Ok o) (fun o => inner_arr f o i z more l below).
Proof. reflexivity. Qed.
Lemma step_obj f o i z more l below : step fmt_g f o (Entry i z more (JObj l)) below =
  bind (if (i =? 0)%nat then delimiter o f z 123 else Ok o) (fun o => inner_obj f o i z more l below).
Proof. reflexivity. Qed.
Lemma step_scalar f o i z more j below : is_container j = false -> step fmt_g f o (Entry i z more j) below =
  bind (pad o z f) (fun o => bind (print_scalar fmt_g o j) (fun o => bind (comma_if o f (Entry i z more j)) (fun o => Ok (o, below)))).
Proof. destruct j; try discriminate; reflexivity. Qed.
Lemma run_step fuel f o e below : (length below + 1 < 500)%nat ->
  run fmt_g (S fuel) f o (e :: below) = bind (step fmt_g f o e below) (fun p => run fmt_g fuel f (fst p) (snd p)).
Proof.
  intros L. cbn [run]. destruct (Nat.eqb_spec (length (e :: below)) stack_capacity) as [E|_];
    [unfold stack_capacity in E; cbn [length] in E; lia|].
  destruct (step fmt_g f o e below) as [(o', st)|]; reflexivity.
Qed.

Definition comma_text f (more : bool) : text := if more then comma (is_pretty f) else [].
Lemma comma_if_ok cap o out f z i more j : good cap o out -> (length out + length (comma_text f more) <= cap)%nat ->
  exists o', comma_if o f (Entry i z more j) = Ok o' /\ good cap o' (out ++ comma_text f more).
Proof.
  intros G L. unfold comma_if, comma_text in *. cbn [e_more e_tabs]. destruct more; [apply comma_ok; auto|].
  exists o. rewrite app_nil_r. auto.
Qed.
Definition comma_before (pretty : bool) (ws : list text) : text := match ws with [] => [] | _ => comma pretty end.
Lemma separated_cons pretty w ws : separated pretty (w :: ws) = w ++ comma_before pretty ws ++ separated pretty ws.
Proof. destruct ws; cbn [separated]; [rewrite app_nil_r; auto|auto]. Qed.

Definition printed cap f t z j : Prop := forall o out more below,
  everywhere (ordinary fmt_g) j -> (length below + 1 + height j < 500)%nat -> (f = PRETTY -> (t + height j <= 127)%nat) ->
  tabs_are f z t -> good cap o out ->
  (length out + length (text_of fmt_g (is_pretty f) t j) + length (comma_text f more) + 1 <= cap)%nat ->
  exists o', good cap o' (out ++ text_of fmt_g (is_pretty f) t j ++ comma_text f more) /\
    forall fuel, run fmt_g (cost j + fuel) f o (Entry 0 z more j :: below) = run fmt_g fuel f o' below.

Lemma more_flag (n a b : nat) : n = (a + S b)%nat -> ((1 <? n)%nat && (a + 1 <? n)%nat) = negb (b =? 0)%nat.
Proof.
  intros ->. destruct (Nat.ltb_spec 1 (a + S b)), (Nat.ltb_spec (a + 1) (a + S b)), (Nat.eqb_spec b 0); cbn; auto; lia.
Qed.

Lemma printed_scalar cap f t z j : is_container j = false -> printed cap f t z j.
Proof.
  intros C o out more below N D P T G L. rewrite (scalar_text_of _ _ _ C) in *. rewrite app_length in L.
  destruct (pad_ok' cap o out f z t T G) as (o1 & E1 & G1); [lia|].
  destruct (print_scalar_ok cap o1 _ j C (everywhere_here _ _ N) G1) as (o2 & E2 & G2); [rewrite app_length; lia|].
  destruct (comma_if_ok cap o2 _ f z 0 more j G2) as (o3 & E3 & G3); [rewrite !app_length; lia|].
  exists o3. split; [rewrite <- !app_assoc in *; exact G3|]. intros fuel.
  assert (cost j = 1%nat) as -> by (destruct j; try discriminate; auto). cbn [Nat.add].
  rewrite run_step by lia. rewrite step_scalar by auto. rewrite E1. cbn [bind]. rewrite E2. cbn [bind]. rewrite E3. reflexivity.
Qed.

Lemma printed_arr cap f t z l : Forall (fun x => forall t z, printed cap f t z x) l -> printed cap f t z (JArr l).
Proof.
  intros IH o out more below N D P T G L. cbn [text_of] in *.
  pose proof (everywhere_arr _ _ N) as Nl.
  pose proof (height_arr l _ (Nat.le_refl _)) as Hl. set (H := height (JArr l)) in *.
  assert (Loop : forall todo don o out, l = don ++ todo -> good cap o out ->
    (length out + length (separated (is_pretty f) (map (text_of fmt_g (is_pretty f) (S t)) todo) ++ closing (is_pretty f) t 93) +
       length (comma_text f more) + 1 <= cap)%nat ->
    exists o', good cap o' (out ++ separated (is_pretty f) (map (text_of fmt_g (is_pretty f) (S t)) todo) ++ closing (is_pretty f) t 93 ++ comma_text f more) /\
    forall fuel, bind (inner_arr f o (length don) z more l below) (fun p => run fmt_g (list_sum (map (fun x => S (cost x)) todo) + fuel) f (fst p) (snd p))
      = run fmt_g fuel f o' below).
  { clear G L o out. induction todo as [|x todo IHt]; intros don o out E G L; rewrite ?app_length in L.
    - cbn [map separated list_sum app length] in *. rewrite app_nil_r in E. subst don.
      destruct (close_ok cap o out f z t 93 T (or_introl eq_refl) G) as (o1 & E1 & G1); [lia|].
      destruct (comma_if_ok cap o1 _ f z (length l) more (JArr l) G1) as (o2 & E2 & G2); [rewrite app_length; lia|].
      exists o2. split; [rewrite <- !app_assoc in *; exact G2|]. intros fuel. unfold inner_arr.
      assert (nth_error l (length l) = None) as -> by (apply nth_error_None; lia).
      rewrite E1. cbn [bind]. rewrite E2. reflexivity.
    - cbn [map] in *. rewrite separated_cons in *. rewrite !app_length in L.
      assert (Fx : In x l) by (subst l; apply in_elt).
      assert (Cm : comma_text f (negb (length todo =? 0)%nat) = comma_before (is_pretty f) (map (text_of fmt_g (is_pretty f) (S t)) todo))
        by (destruct todo; reflexivity).
      rewrite <- Cm in L |- *.
      pose proof (proj1 (Forall_forall _ _) IH x Fx) as IHx. pose proof (proj1 (Forall_forall _ _) Nl x Fx) as Nx.
      pose proof (proj1 (Forall_forall _ _) Hl x Fx) as Hx. cbn beta in Hx.
      destruct (IHx (S t) (to_char (z + 1)) o out (negb (length todo =? 0)%nat) (Entry (length don + 1) z more (JArr l) :: below) Nx)
        as (o1 & G1 & R1).
      + cbn [length]. lia.
      + intros Pf. specialize (P Pf). lia.
      + intros Pf. specialize (P Pf). rewrite (T Pf), to_char_id; lia.
      + exact G.
      + lia.
      + assert (Ed : l = (don ++ [x]) ++ todo) by (rewrite <- app_assoc; exact E).
        destruct (IHt (don ++ [x]) o1 _ Ed G1) as (o2 & G2 & R2).
        * rewrite !app_length. lia.
        * exists o2. split; [rewrite <- !app_assoc in *; exact G2|]. intros fuel. unfold inner_arr at 1.
          assert (nth_error l (length don) = Some x) as -> by (subst l; rewrite nth_error_app2, Nat.sub_diag by lia; auto).
          cbn [bind fst snd]. unfold mk_entry. rewrite (more_flag (length l) (length don) (length todo)) by (subst l; rewrite app_length; auto).
          assert (Ef : (list_sum (S (cost x) :: map (fun x => S (cost x)) todo) + fuel = cost x + (S (list_sum (map (fun x => S (cost x)) todo) + fuel)))%nat).
          { cbn [list_sum fold_right]. change (fold_right Nat.add 0%nat ?l) with (list_sum l). lia. }
          rewrite Ef, R1, run_step by lia. rewrite step_arr.
          destruct (Nat.eqb_spec (length don + 1) 0) as [|_]; [lia|]. cbn [bind].
          specialize (R2 fuel). rewrite app_length in R2. cbn [length] in R2. exact R2. }
  rewrite !app_length in L. assert (Lt : (t <= length (closing (is_pretty f) t 93) \/ f = COMPACT)%nat).
  { destruct f; [auto|]. left. unfold closing, indent, if_pretty. cbn [is_pretty]. rewrite !app_length, repeat_length. lia. }
  assert (exists o1, delimiter o f z 91 = Ok o1 /\ good cap o1 (out ++ opening (is_pretty f) 91)) as (o1 & E1 & G1).
  { destruct Lt as [Lt|Lt]; [apply (open_ok cap o out f z t); auto; lia|]. subst f. apply (emit_ok cap o out [91]); [auto|]. change (length (opening (is_pretty COMPACT) 91)) with 1%nat in L. cbn [length]. lia. }
  destruct (Loop l [] o1 _ eq_refl G1) as (o2 & G2 & R2); [rewrite !app_length; lia|].
  exists o2. split; [rewrite <- !app_assoc in *; exact G2|]. intros fuel. cbn [cost Nat.add].
  rewrite run_step by lia. rewrite step_arr. cbn [Nat.eqb]. rewrite E1. cbn [bind]. apply R2.
Qed.
Definition member_text f t (kv : text * json) : text :=
  indent (is_pretty f) t ++ quote (before_nul (fst kv)) ++ colon (is_pretty f) ++ text_of fmt_g (is_pretty f) (S t) (snd kv).
Lemma printed_obj cap f t z kvs : Forall (fun kv => forall t z, printed cap f t z (snd kv)) kvs -> printed cap f t z (JObj kvs).
Proof.
  intros IH o out more below N D P T G L. cbn [text_of] in *.
  change (map (fun kv => indent (is_pretty f) t ++ quote (before_nul (fst kv)) ++ colon (is_pretty f) ++ text_of fmt_g (is_pretty f) (S t) (snd kv)) kvs)
    with (map (member_text f t) kvs) in *.
  destruct (everywhere_here _ _ N) as (Nd & Nk).
  pose proof (everywhere_obj _ _ N) as Nl.
  pose proof (height_obj kvs _ (Nat.le_refl _)) as Hl. set (H := height (JObj kvs)) in *.
  assert (Loop : forall todo don o out, kvs = don ++ todo -> good cap o out ->
    (length out + length (separated (is_pretty f) (map (member_text f t) todo) ++ closing (is_pretty f) t 125) +
       length (comma_text f more) + 1 <= cap)%nat ->
    exists o', good cap o' (out ++ separated (is_pretty f) (map (member_text f t) todo) ++ closing (is_pretty f) t 125 ++ comma_text f more) /\
    forall fuel, bind (inner_obj f o (length don) z more kvs below) (fun p => run fmt_g (list_sum (map (fun kv => S (cost (snd kv))) todo) + fuel) f (fst p) (snd p))
      = run fmt_g fuel f o' below).
  { clear G L o out. induction todo as [|(k, x) todo IHt]; intros don o out E G L; rewrite ?app_length in L.
    - cbn [map separated list_sum app length] in *. rewrite app_nil_r in E. subst don.
      destruct (close_ok cap o out f z t 125 T (or_intror eq_refl) G) as (o1 & E1 & G1); [lia|].
      destruct (comma_if_ok cap o1 _ f z (length kvs) more (JObj kvs) G1) as (o2 & E2 & G2); [rewrite app_length; lia|].
      exists o2. split; [rewrite <- !app_assoc in *; exact G2|]. intros fuel. unfold inner_obj.
      assert (nth_error kvs (length kvs) = None) as -> by (apply nth_error_None; lia).
      rewrite E1. cbn [bind]. rewrite E2. reflexivity.
    - cbn [map] in *. rewrite separated_cons in *. rewrite !app_length in L.
      assert (Fx : In (k, x) kvs) by (subst kvs; apply in_elt).
      assert (Cm : comma_text f (negb (length todo =? 0)%nat) = comma_before (is_pretty f) (map (member_text f t) todo))
        by (destruct todo; reflexivity).
      rewrite <- Cm in L |- *.
      pose proof (proj1 (Forall_forall _ _) IH (k, x) Fx) as IHx. pose proof (proj1 (Forall_forall _ _) Nl (k, x) Fx) as Nx.
      pose proof (proj1 (Forall_forall _ _) Hl (k, x) Fx) as Hx. cbn [snd] in IHx, Nx, Hx.
      pose proof (proj1 (Forall_forall _ _) Nk (k, x) Fx) as (Kb & Kl). cbn [fst] in Kb, Kl.
      destruct (before_nul_bytes k Kb) as (Kb' & Kl').
      unfold member_text at 1 in L. cbn [fst snd] in L. rewrite !app_length in L.
      destruct (pad_ok' cap o out f z t T G) as (p1 & F1 & H1); [lia|].
      assert (Kl2 : Z.of_nat (length (before_nul k)) < 2 ^ 32) by lia.
      destruct (str_append_ok cap p1 _ (before_nul k) Kb' Kl2 H1) as (p2 & F2 & H2); [rewrite app_length; lia|].
      destruct (colon_ok cap p2 _ f z H2) as (p3 & F3 & H3); [rewrite !app_length; lia|].
      destruct (IHx (S t) (to_char (z + 1)) p3 (((out ++ indent (is_pretty f) t) ++ quote (before_nul k)) ++ colon (is_pretty f)) (negb (length todo =? 0)%nat) (Entry (length don + 1) z more (JObj kvs) :: below) Nx)
        as (o1 & G1 & R1).
      + cbn [length]. lia.
      + intros Pf. specialize (P Pf). lia.
      + intros Pf. specialize (P Pf). rewrite (T Pf), to_char_id; lia.
      + exact H3.
      + rewrite !app_length. lia.
      + assert (Ed : kvs = (don ++ [(k, x)]) ++ todo) by (rewrite <- app_assoc; exact E).
        destruct (IHt (don ++ [(k, x)]) o1 _ Ed G1) as (o2 & G2 & R2).
        * rewrite !app_length. lia.
        * exists o2. split; [unfold member_text at 1; cbn [fst snd]; rewrite <- !app_assoc in *; exact G2|]. intros fuel. unfold inner_obj at 1.
          assert (nth_error kvs (length don) = Some (k, x)) as -> by (subst kvs; rewrite nth_error_app2, Nat.sub_diag by lia; auto).
          assert (obj_find kvs k = Some x) as ->.
          { subst kvs. apply obj_find_at. rewrite map_app in Nd. cbn [map fst] in Nd. apply NoDup_remove_2 in Nd. rewrite in_app_iff in Nd. tauto. }
          cbn [of_option bind]. rewrite F1. cbn [bind]. rewrite c_string_n_eq, F2. cbn [bind]. rewrite F3.
          cbn [bind fst snd]. unfold mk_entry. rewrite (more_flag (length kvs) (length don) (length todo)) by (subst kvs; rewrite app_length; auto).
          assert (Ef : (list_sum (S (cost x) :: map (fun kv => S (cost (snd kv))) todo) + fuel = cost x + (S (list_sum (map (fun kv => S (cost (snd kv))) todo) + fuel)))%nat).
          { cbn [list_sum fold_right snd]. change (fold_right Nat.add 0%nat ?l) with (list_sum l). lia. }
          rewrite Ef, R1, run_step by lia. rewrite step_obj.
          destruct (Nat.eqb_spec (length don + 1) 0) as [|_]; [lia|]. cbn [bind].
          specialize (R2 fuel). rewrite app_length in R2. cbn [length] in R2. exact R2. }
  rewrite !app_length in L. assert (Lt : (t <= length (closing (is_pretty f) t 125) \/ f = COMPACT)%nat).
  { destruct f; [auto|]. left. unfold closing, indent, if_pretty. cbn [is_pretty]. rewrite !app_length, repeat_length. lia. }
  assert (exists o1, delimiter o f z 123 = Ok o1 /\ good cap o1 (out ++ opening (is_pretty f) 123)) as (o1 & E1 & G1).
  { destruct Lt as [Lt|Lt]; [apply (open_ok cap o out f z t); auto; lia|]. subst f. apply (emit_ok cap o out [123]); [auto|]. change (length (opening (is_pretty COMPACT) 123)) with 1%nat in L. cbn [length]. lia. }
  destruct (Loop kvs [] o1 _ eq_refl G1) as (o2 & G2 & R2); [rewrite !app_length; lia|].
  exists o2. split; [rewrite <- !app_assoc in *; exact G2|]. intros fuel. cbn [cost Nat.add].
  rewrite run_step by lia. rewrite step_obj. cbn [Nat.eqb]. rewrite E1. cbn [bind]. apply R2.
Qed.

Lemma printed_ok cap f : forall j t z, printed cap f t z j.
Proof.
  induction j as [| | | | | | | | |l IH|kvs IH] using json_ind'; intros t0 z0; try (apply printed_scalar; reflexivity).
  - apply printed_arr. exact IH.
  - apply printed_obj. exact IH.
Qed.

(** * The whole *)
Definition fits f j : Prop := (height j <= 498)%nat /\ (f = PRETTY -> (height j <= 127)%nat).
Lemma run_ok f j (buf : option text) fuel : everywhere (ordinary fmt_g) j -> fits f j -> (cost j <= fuel)%nat ->
  match buf with None => True | Some b => (length (text_of fmt_g (is_pretty f) 0 j) + 1 <= length b)%nat end ->
  let cap := match buf with None => (length (text_of fmt_g (is_pretty f) 0 j) + 1)%nat | Some b => length b end in
  exists o, run fmt_g fuel f (Output 0 buf) [mk_entry 0 false j] = Ok o /\ good cap o (text_of fmt_g (is_pretty f) 0 j).
Proof.
  intros N (H1 & H2) C L cap. assert (G : good cap (Output 0 buf) []).
  { split; [auto|]. cbn [o_buf]. unfold shows, cap. destruct buf as [b|]; [|auto]. split; [auto|]. exists b. auto. }
  assert (Lc : (length (text_of fmt_g (is_pretty f) 0 j) + 1 <= cap)%nat) by (unfold cap; destruct buf; lia).
  destruct (printed_ok cap f j 0%nat (to_char 0) (Output 0 buf) [] false [] N) as (o & Go & R); auto.
  - cbn [length]. lia.
  - intros _. reflexivity.
  - cbn [length comma_text]. lia.
  - cbn [comma_text app] in Go. rewrite app_nil_r in Go. exists o. split; [|exact Go].
    replace fuel with (cost j + (fuel - cost j))%nat by lia. unfold mk_entry. rewrite R. destruct (fuel - cost j)%nat; reflexivity.
Qed.
(** Whether there is a buffer does not change. *)
Definition has (b : option text) : bool := match b with Some _ => true | None => false end.
Definition keeps (op : output -> outcome output) : Prop := forall o o', op o = Ok o' -> has (o_buf o') = has (o_buf o).
Lemma keeps_bind op1 op2 : keeps op1 -> keeps op2 -> keeps (fun o => bind (op1 o) op2).
Proof. intros K1 K2 o o' X. apply bind_ok in X as (p & X1 & X). rewrite (K2 _ _ X). auto. Qed.
Lemma keeps_ok : keeps (fun o => Ok o).
Proof. intros o o' [= <-]. auto. Qed.
Lemma write_has b off cs b' : write_at b off cs = Ok b' -> has b' = has b.
Proof. destruct b as [l|], cs; cbn [write_at]; try (intros [= <-]; reflexivity). destruct (_ && _); [intros [= <-]; reflexivity|discriminate]. Qed.
Lemma keeps_emit cs : keeps (fun o => emit o cs).
Proof. intros o o' X. apply bind_ok in X as (b & X1 & X). injection X as <-. apply write_has in X1. exact X1. Qed.
Lemma keeps_pad z f : keeps (fun o => pad o z f).
Proof. intros o o'. destruct f; cbn [pad]; [congruence|]. intros X. apply bind_ok in X as (b & X1 & X). injection X as <-. apply write_has in X1. exact X1. Qed.
Lemma keeps_delimiter f z c : keeps (fun o => delimiter o f z c).
Proof.
  destruct f; [apply keeps_emit|]. unfold delimiter. destruct ((c =? 91) || (c =? 123)).
  { intros o o' X. apply bind_ok in X as (p & X1 & X). apply keeps_emit in X. apply keeps_pad in X1. cbn [o_buf] in X. congruence. }
  destruct (_ || _).
  { apply (keeps_bind (fun o => emit o [10])); [apply keeps_emit|]. apply (keeps_bind (fun o => pad o z PRETTY)); [apply keeps_pad|].
    apply (keeps_bind (fun o => emit o [c])); apply keeps_emit. }
  destruct (c =? 58); [apply keeps_emit|]. destruct (c =? 44); [apply keeps_emit|apply keeps_ok].
Qed.
Lemma keeps_loop s : forall r, keeps (fun o => str_loop o r s).
Proof.
  induction s as [|c s IH]; intros r; cbn [str_loop]; [apply keeps_emit|]. destruct (addon c) as [a|]; [|apply IH].
  apply (keeps_bind (fun o => emit o r)); [apply keeps_emit|]. apply (keeps_bind (fun o => emit o a)); [apply keeps_emit|apply IH].
Qed.
Lemma keeps_append s : keeps (fun o => str_append o s).
Proof.
  apply (keeps_bind (fun o => emit o [34])); [apply keeps_emit|].
  apply (keeps_bind (fun o => str_loop o [] _)); [apply keeps_loop|apply keeps_emit].
Qed.
Lemma keeps_boxed b : keeps (fun o => print_boxed fmt_g o b).
Proof.
  intros o o' X. unfold print_boxed in X. apply bind_ok in X as ((w & n) & X1 & X). apply bind_ok in X as ((w' & n') & X2 & X).
  apply bind_ok in X as (bb & X3 & X). apply write_has in X3. injection X as <-. exact X3.
Qed.
Lemma keeps_scalar j : keeps (fun o => print_scalar fmt_g o j).
Proof.
  destruct j as [| |[]| | | | | | | |]; cbn [print_scalar]; first [apply keeps_emit|apply keeps_append|apply keeps_boxed|intros ? ? ?; discriminate].
Qed.
Lemma keeps_comma f e : keeps (fun o => comma_if o f e).
Proof. unfold comma_if. destruct (e_more e); [apply keeps_delimiter|apply keeps_ok]. Qed.
Lemma keeps_step f o e below o' st' : step fmt_g f o e below = Ok (o', st') -> has (o_buf o') = has (o_buf o).
Proof.
  destruct e as [i z more j]. destruct (is_container j) eqn:C.
  - destruct j as [| | | | | | | | |l|l]; try discriminate; [rewrite step_arr|rewrite step_obj];
      intros X; apply bind_ok in X as (p & X1 & X);
      (assert (Bp : has (o_buf p) = has (o_buf o)) by (destruct (i =? 0)%nat; [apply keeps_delimiter in X1; auto|congruence])); rewrite <- Bp; clear X1 Bp.
    + unfold inner_arr in X. destruct (nth_error l i); [injection X as <- <-; auto|].
      apply bind_ok in X as (p1 & X2 & X). apply bind_ok in X as (p2 & X3 & X). injection X as <- <-.
      apply keeps_delimiter in X2. apply keeps_comma in X3. congruence.
    + unfold inner_obj in X. destruct (nth_error l i) as [(k & v)|].
      * apply bind_ok in X as (x & X2 & X). apply bind_ok in X as (p2 & X3 & X). apply bind_ok in X as (p3 & X4 & X).
        apply bind_ok in X as (p4 & X5 & X). injection X as <- <-.
        apply keeps_pad in X3. apply keeps_append in X4. apply keeps_delimiter in X5. congruence.
      * apply bind_ok in X as (p1 & X2 & X). apply bind_ok in X as (p2 & X3 & X). injection X as <- <-.
        apply keeps_delimiter in X2. apply keeps_comma in X3. congruence.
  - rewrite step_scalar by auto. intros X. apply bind_ok in X as (p1 & X2 & X). apply bind_ok in X as (p2 & X3 & X).
    apply bind_ok in X as (p3 & X4 & X). injection X as <- <-.
    apply keeps_pad in X2. apply keeps_scalar in X3. apply keeps_comma in X4. congruence.
Qed.
Lemma run_has fuel : forall f o st o', run fmt_g fuel f o st = Ok o' -> has (o_buf o') = has (o_buf o).
Proof.
  induction fuel as [|n IH]; intros f o st o'; cbn [run]; destruct st as [|e below]; try congruence;
    destruct (length (e :: below) =? stack_capacity)%nat; try congruence.
  intros X. apply bind_ok in X as ((o1 & st1) & X1 & X). apply keeps_step in X1. apply IH in X. congruence.
Qed.
Lemma snprint_none f j fuel : everywhere (ordinary fmt_g) j -> fits f j -> (cost j <= fuel)%nat ->
  snprint fmt_g fuel f None j = Ok (Z.of_nat (length (text_of fmt_g (is_pretty f) 0 j)), None).
Proof.
  intros N F C. destruct (run_ok f j None fuel N F C I) as (o & E & G). unfold snprint.
  pose proof (run_has _ _ _ _ _ E) as B. rewrite E. cbn [bind]. destruct (o_buf o); [discriminate|]. cbn [write_at bind].
  destruct G as (-> & _). reflexivity.
Qed.
Lemma snprint_some f j fuel (buf : text) : everywhere (ordinary fmt_g) j -> fits f j -> (cost j <= fuel)%nat ->
  (length (text_of fmt_g (is_pretty f) 0 j) < length buf)%nat ->
  exists rest, snprint fmt_g fuel f (Some buf) j =
    Ok (Z.of_nat (length (text_of fmt_g (is_pretty f) 0 j)), Some (text_of fmt_g (is_pretty f) 0 j ++ 0 :: rest)) /\
    length (text_of fmt_g (is_pretty f) 0 j ++ 0 :: rest) = length buf.
Proof.
  intros N F C L. destruct (run_ok f j (Some buf) fuel N F C) as (o & E & G); [lia|]. unfold snprint.
  pose proof (run_has _ _ _ _ _ E) as B. rewrite E. cbn [bind]. destruct G as (EO & S). rewrite EO.
  destruct (o_buf o) as [l|]; [|discriminate].
  destruct (write_ok (length buf) (Some l) _ [0] S) as (b' & E2 & S' & _); [cbn [length]; lia|]. rewrite E2. cbn [bind].
  apply write_has in E2. destruct b' as [l'|]; [|discriminate]. destruct S' as (L' & r & El). rewrite <- app_assoc in El. cbn [app] in El.
  exists r. subst l'. split; [reflexivity|exact L'].
Qed.
Lemma asprint_ok f j fuel init : everywhere (ordinary fmt_g) j -> fits f j -> (cost j <= fuel)%nat ->
  asprint fmt_g fuel f init j = Ok (Z.of_nat (length (text_of fmt_g (is_pretty f) 0 j)), text_of fmt_g (is_pretty f) 0 j ++ [0]).
Proof.
  intros N F C. unfold asprint. rewrite (snprint_none f j fuel N F C). cbn [bind].
  change (@Some (list Z) ?x) with (@Some text x).
  destruct (snprint_some f j fuel (map init (seq 0 (Z.to_nat (Z.of_nat (length (text_of fmt_g (is_pretty f) 0 j))) + 1))) N F C) as (r & -> & L);
    [rewrite map_length, seq_length; lia|]. cbn [bind of_option]. rewrite map_length, seq_length, app_length, Nat2Z.id in L. cbn [length] in L.
  destruct r; [reflexivity|cbn [length] in L; lia].
Qed.

(** * Any depth, compact *)
Lemma nth_error_skipn {A} (l : list A) : forall n m, nth_error (skipn n l) m = nth_error l (n + m).
Proof. induction l as [|x l IH]; intros [|n] m; cbn; auto. destruct m; auto. Qed.
(** The outputs without and with a buffer, which started as [l0]: behind the
    offset the buffer is as it was, but for a NUL. *)
Definition sim (l0 : text) (o1 o2 : output) : Prop :=
  o_buf o1 = None /\ o_off o1 = o_off o2 /\ 0 <= o_off o1 /\
  exists l, o_buf o2 = Some l /\ length l = length l0 /\
    forall m, (Z.to_nat (o_off o1) < m)%nat -> nth_error l m = nth_error l0 m.
Definition sims (op : output -> outcome output) : Prop := forall l0 o1 o2 o1', sim l0 o1 o2 -> op o1 = Ok o1' ->
  o_off o1 <= o_off o1' /\ o_buf o1' = None /\
  (o_off o1' + 1 <= Z.of_nat (length l0) -> exists o2', op o2 = Ok o2' /\ sim l0 o1' o2').
Lemma sims_bind op1 op2 : sims op1 -> sims op2 -> sims (fun o => bind (op1 o) op2).
Proof.
  intros K1 K2 l0 o1 o2 o3 S X. apply bind_ok in X as (o & X1 & X2). destruct (K1 l0 o1 o2 o S X1) as (M1 & B1 & R1).
  (* an output with a buffer to compare with, whether or not it fits *)
  assert (M2 : o_off o <= o_off o3 /\ o_buf o3 = None).
  { destruct (K2 (repeat 0 (Z.to_nat (o_off o))) o (Output (o_off o) (Some (repeat 0 (Z.to_nat (o_off o))))) o3) as (Q1 & Q2 & _); auto.
    destruct S as (_ & E & P & _). split; [auto|]. split; [auto|]. split; [lia|]. eexists. split; [reflexivity|]. split; [auto|auto]. }
  destruct M2 as (M2 & B2). split; [lia|]. split; [auto|]. intros L. destruct R1 as (o' & E' & S'); [lia|].
  destruct (K2 l0 o o' o3 S' X2) as (_ & _ & R2). destruct (R2 L) as (o4 & E4 & S4). exists o4. rewrite E'. auto.
Qed.
Lemma sims_ok : sims (fun o => Ok o).
Proof. intros l0 o1 o2 o1' S [= <-]. split; [lia|]. split; [apply S|]. intros _. exists o2. auto. Qed.
Lemma write_sim l0 off (l : text) cs off' : 0 <= off -> length l = length l0 -> off + Z.of_nat (length cs) <= off' + 1 -> off <= off' ->
  off' + 1 <= Z.of_nat (length l0) -> (forall m, (Z.to_nat off < m)%nat -> nth_error l m = nth_error l0 m) ->
  exists l', write_at (Some l) off cs = Ok (Some l') /\ length l' = length l0 /\
    forall m, (Z.to_nat off' < m)%nat -> nth_error l' m = nth_error l0 m.
Proof.
  intros P L W M C E. destruct cs as [|c cs]; [exists l; split; [auto|]; split; [auto|]; intros; apply E; lia|].
  unfold write_at. destruct (Z.leb_spec 0 off); [|lia]. cbn [andb].
  destruct (Z.leb_spec (off + Z.of_nat (length (c :: cs))) (Z.of_nat (length l))); [|lia].
  eexists. split; [reflexivity|]. split; [rewrite !app_length, firstn_length, skipn_length; lia|].
  intros m Lm. rewrite nth_error_app2 by (rewrite firstn_length; lia). rewrite firstn_length.
  rewrite nth_error_app2 by lia. rewrite <- E by lia. rewrite nth_error_skipn. f_equal. lia.
Qed.
Lemma sims_emit cs : sims (fun o => emit o cs).
Proof.
  intros l0 o1 o2 o1' (B & E & P & l & B2 & L & F) X. unfold emit in *. rewrite B in X.
  assert (o1' = Output (o_off o1 + Z.of_nat (length cs)) None) as -> by (destruct cs; cbn in X |- *; congruence).
  cbn [o_off o_buf]. split; [lia|]. split; [auto|]. intros C. rewrite B2, <- E.
  destruct (write_sim l0 (o_off o1) l cs (o_off o1 + Z.of_nat (length cs))) as (l' & -> & L' & F'); auto; try lia.
  cbn [bind]. eexists. split; [reflexivity|]. split; [auto|]. split; [auto|]. split; [cbn [o_off]; lia|]. exists l'. auto.
Qed.
Lemma sims_loop s : forall r, sims (fun o => str_loop o r s).
Proof.
  induction s as [|c s IH]; intros r; cbn [str_loop]; [apply sims_emit|]. destruct (addon c) as [a|]; [|apply IH].
  apply (sims_bind (fun o => emit o r)); [apply sims_emit|]. apply (sims_bind (fun o => emit o a)); [apply sims_emit|apply IH].
Qed.
Lemma sims_append s : sims (fun o => str_append o s).
Proof.
  apply (sims_bind (fun o => emit o [34])); [apply sims_emit|].
  apply (sims_bind (fun o => str_loop o [] _)); [apply sims_loop|apply sims_emit].
Qed.
Lemma boxed_print b size w n : boxed_snprint fmt_g size b = Ok (w, n) ->
  0 < n /\ forall size', exists w', boxed_snprint fmt_g size' b = Ok (w', n) /\ Z.of_nat (length w') <= n + 1.
Proof.
  unfold boxed_snprint. cbv zeta. set (t := match bx_type b with F64 | F32 => fmt_g (bx_type b) (load (bx_mem b) (bx_type b)) | _ => decimal_of (load (bx_mem b) (bx_type b)) end).
  assert (Q : forall sz, match bx_type b with F64 | F32 => snprintf sz (fmt_g (bx_type b) (load (bx_mem b) (bx_type b))) | _ => snprintf sz (decimal_of (load (bx_mem b) (bx_type b))) end = snprintf sz t)
    by (intros; unfold t; destruct (bx_type b); reflexivity).
  rewrite Q. destruct (snprintf size t) as (w0, s) eqn:E. assert (s = Z.of_nat (length t)) as -> by (unfold snprintf in E; destruct size; congruence).
  destruct (Z.gtb_spec (Z.of_nat (length t)) 0) as [G|]; [|discriminate]. intros [= <- <-]. split; [lia|]. intros size'. rewrite Q.
  unfold snprintf. destruct (Z.gtb_spec (Z.of_nat (length t)) 0); [|lia]. destruct size' as [|k]; eexists; (split; [reflexivity|]); cbn [length]; [lia|].
  rewrite app_length, firstn_length. cbn [length]. lia.
Qed.
Lemma sims_boxed b : sims (fun o => print_boxed fmt_g o b).
Proof.
  intros l0 o1 o2 o1' (B & E & P & l & B2 & L & F) X. unfold print_boxed in *.
  apply bind_ok in X as ((w & n) & X1 & X). destruct (boxed_print _ _ _ _ X1) as (Pn & R). destruct (R (Z.to_nat n + 1)%nat) as (w' & R1 & R2).
  rewrite R1 in X. cbn [bind] in X. rewrite B in X.
  assert (o1' = Output (o_off o1 + n) None) as -> by (destruct w'; cbn in X |- *; congruence).
  cbn [o_off o_buf]. split; [lia|]. split; [auto|]. intros C. rewrite X1. cbn [bind]. rewrite R1. cbn [bind]. rewrite B2, <- E.
  destruct (write_sim l0 (o_off o1) l w' (o_off o1 + n)) as (l' & -> & L' & F'); auto; try lia.
  cbn [bind]. eexists. split; [reflexivity|]. split; [auto|]. split; [auto|]. split; [cbn [o_off]; lia|]. exists l'. auto.
Qed.
Lemma sims_scalar j : sims (fun o => print_scalar fmt_g o j).
Proof.
  destruct j as [| |[]| | | | | | | |]; cbn [print_scalar]; first [apply sims_emit|apply sims_append|apply sims_boxed|intros; discriminate|idtac].
Qed.
Lemma sims_comma e : sims (fun o => comma_if o COMPACT e).
Proof. unfold comma_if. destruct (e_more e); [apply sims_emit|apply sims_ok]. Qed.
(** One iteration is one of these operations, and what it does to the stack does
    not depend on the output. *)
Lemma step_compact e below : exists op st, sims op /\ forall o, step fmt_g COMPACT o e below = bind (op o) (fun o => Ok (o, st)).
Proof.
  destruct e as [i z more j]. destruct (is_container j) eqn:C.
  - destruct j as [| | | | | | | | |l|l]; try discriminate.
    + exists (fun o => bind (if (i =? 0)%nat then delimiter o COMPACT z 91 else Ok o) (fun o => match nth_error l i with Some _ => Ok o | None => bind (delimiter o COMPACT z 93) (fun o => comma_if o COMPACT (Entry i z more (JArr l))) end)).
      eexists. split.
      * apply (sims_bind (fun o => if (i =? 0)%nat then delimiter o COMPACT z 91 else Ok o)); [destruct (i =? 0)%nat; [apply sims_emit|apply sims_ok]|].
        destruct (nth_error l i); [apply sims_ok|]. apply (sims_bind (fun o => delimiter o COMPACT z 93)); [apply sims_emit|apply sims_comma].
      * intros o. rewrite step_arr. unfold inner_arr. destruct (if (i =? 0)%nat then _ else _) as [o1|]; [|reflexivity]. cbn [bind].
        instantiate (1 := match nth_error l i with Some x => _ | None => below end). destruct (nth_error l i); [reflexivity|].
        destruct (delimiter o1 COMPACT z 93) as [o2|]; [|reflexivity]. cbn [bind]. destruct (comma_if _ _ _); reflexivity.
    + destruct (nth_error l i) as [(k & v)|] eqn:En.
      * destruct (obj_find l k) as [x|] eqn:Ef.
        -- exists (fun o => bind (if (i =? 0)%nat then delimiter o COMPACT z 123 else Ok o) (fun o => bind (str_append o (c_string_n k)) (fun o => delimiter o COMPACT z 58))).
           eexists. split.
           ++ apply (sims_bind (fun o => if (i =? 0)%nat then delimiter o COMPACT z 123 else Ok o)); [destruct (i =? 0)%nat; [apply sims_emit|apply sims_ok]|].
              apply (sims_bind (fun o => str_append o (c_string_n k))); [apply sims_append|apply sims_emit].
           ++ intros o. rewrite step_obj. unfold inner_obj. destruct (if (i =? 0)%nat then _ else _) as [o1|]; [|reflexivity]. cbn [bind].
              rewrite En, Ef. cbn [of_option bind pad]. destruct (str_append o1 (c_string_n k)) as [o2|]; [|reflexivity]. cbn [bind].
              destruct (delimiter o2 COMPACT z 58); [|reflexivity]. cbn [bind]. reflexivity.
        -- exists (fun o => bind (if (i =? 0)%nat then delimiter o COMPACT z 123 else Ok o) (fun o => Bad NullDeref)), []. split.
           ++ intros l0 o1 o2 o1' _ X. apply bind_ok in X as (p & _ & X). discriminate.
           ++ intros o. rewrite step_obj. unfold inner_obj. destruct (if (i =? 0)%nat then _ else _) as [o1|]; [|reflexivity]. cbn [bind].
              rewrite En, Ef. reflexivity.
      * exists (fun o => bind (if (i =? 0)%nat then delimiter o COMPACT z 123 else Ok o) (fun o => bind (delimiter o COMPACT z 125) (fun o => comma_if o COMPACT (Entry i z more (JObj l))))).
        eexists. split.
        -- apply (sims_bind (fun o => if (i =? 0)%nat then delimiter o COMPACT z 123 else Ok o)); [destruct (i =? 0)%nat; [apply sims_emit|apply sims_ok]|].
           apply (sims_bind (fun o => delimiter o COMPACT z 125)); [apply sims_emit|apply sims_comma].
        -- intros o. rewrite step_obj. unfold inner_obj. destruct (if (i =? 0)%nat then _ else _) as [o1|]; [|reflexivity]. cbn [bind].
           rewrite En. destruct (delimiter o1 COMPACT z 125) as [o2|]; [|reflexivity]. cbn [bind]. destruct (comma_if _ _ _); reflexivity.
  - exists (fun o => bind (print_scalar fmt_g o j) (fun o => comma_if o COMPACT (Entry i z more j))), below. split.
    + apply (sims_bind (fun o => print_scalar fmt_g o j)); [apply sims_scalar|apply sims_comma].
    + intros o. rewrite step_scalar by auto. cbn [pad bind]. destruct (print_scalar fmt_g o j) as [o1|]; [|reflexivity]. cbn [bind].
      destruct (comma_if _ _ _); reflexivity.
Qed.
Lemma sims_run fuel : forall st, sims (fun o => run fmt_g fuel COMPACT o st).
Proof.
  induction fuel as [|n IH]; intros st; cbn [run]; destruct st as [|e below]; try apply sims_ok;
    destruct (length (e :: below) =? stack_capacity)%nat; try apply sims_ok; [intros ? ? ? ? _ X; discriminate|].
  destruct (step_compact e below) as (op & st & K & E). pose proof (sims_bind op _ K (IH st)) as R.
  intros l0 o1 o2 o1' S X. rewrite E in X. assert (X' : bind (op o1) (fun o => run fmt_g n COMPACT o st) = Ok o1') by (destruct (op o1); auto).
  destruct (R l0 o1 o2 o1' S X') as (M & B & F). split; [auto|]. split; [auto|]. intros L. destruct (F L) as (o2' & E2 & S2). exists o2'. split; [|auto].
  rewrite E. destruct (op o2); auto.
Qed.
Lemma snprint_agree fuel j n b : snprint fmt_g fuel COMPACT None j = Ok (n, b) ->
  0 <= n /\ b = None /\ forall buf : text, n < Z.of_nat (length buf) -> exists buf', snprint fmt_g fuel COMPACT (Some buf) j = Ok (n, Some buf') /\
    length buf' = length buf /\ nth_error buf' (Z.to_nat n) = Some 0 /\ forall m, n < Z.of_nat m -> nth_error buf' m = nth_error buf m.
Proof.
  unfold snprint. intros X. apply bind_ok in X as (o & X1 & X).
  assert (S : forall buf : text, sim buf (Output 0 None) (Output 0 (Some buf))).
  { intros buf. split; [auto|]. split; [auto|]. split; [cbn; lia|]. exists buf. auto. }
  destruct (sims_run fuel _ [] _ _ _ (S []) X1) as (M & B & _). cbn [o_off] in M. rewrite B in X. cbn [write_at bind] in X. injection X as <- <-.
  split; [auto|]. split; [auto|]. intros buf L. destruct (sims_run fuel _ buf _ _ _ (S buf) X1) as (_ & _ & F).
  destruct F as (o2 & E2 & (_ & Eo & _ & l & B2 & Ll & Fl)); [lia|]. change (@Some (list Z) buf) with (@Some text buf). rewrite E2. cbn [bind]. rewrite B2, <- Eo.
  unfold write_at. destruct (Z.leb_spec 0 (o_off o)); [|lia]. cbn [andb length].
  destruct (Z.leb_spec (o_off o + Z.of_nat 1) (Z.of_nat (length l))); [|lia]. cbn [bind]. eexists. split; [reflexivity|].
  split; [rewrite !app_length, firstn_length, skipn_length; cbn [length]; lia|]. split.
  - rewrite nth_error_app2 by (rewrite firstn_length; lia). rewrite firstn_length.
    replace (Z.to_nat (o_off o) - Nat.min (Z.to_nat (o_off o)) (length l))%nat with 0%nat by lia. reflexivity.
  - intros m Lm. rewrite <- Fl by lia. rewrite nth_error_app2 by (rewrite firstn_length; lia). rewrite firstn_length.
    rewrite nth_error_app2 by (cbn [length]; lia). rewrite nth_error_skipn. f_equal. cbn [length]. lia.
Qed.
Lemma asprint_agree fuel j n b init : snprint fmt_g fuel COMPACT None j = Ok (n, b) ->
  exists t, asprint fmt_g fuel COMPACT init j = Ok (n, t ++ [0]) /\ Z.of_nat (length t) = n.
Proof.
  intros X. destruct (snprint_agree _ _ _ _ X) as (P & _ & F). unfold asprint. rewrite X. cbn [bind].
  destruct (F (map init (seq 0 (Z.to_nat n + 1)))) as (b' & E & L & N0 & _); [rewrite map_length, seq_length; lia|].
  change (@Some (list Z) ?x) with (@Some text x) in E |- *. rewrite E. cbn [bind of_option]. rewrite map_length, seq_length in L.
  exists (firstn (Z.to_nat n) b'). split; [|rewrite firstn_length; lia]. do 2 f_equal.
  rewrite <- (firstn_skipn (Z.to_nat n) b') at 1. f_equal. apply nth_error_split in N0 as (a & c & -> & La).
  rewrite app_length in L. cbn [length] in L. rewrite <- La, skipn_app, skipn_all, Nat.sub_diag. destruct c; [reflexivity|cbn [length] in L; lia].
Qed.

(** It ends. *)
Lemma run_more n : forall f o st o' k, run fmt_g n f o st = Ok o' -> run fmt_g (n + k) f o st = Ok o'.
Proof.
  induction n as [|n IH]; intros f o st o' k; cbn [run Nat.add].
  - destruct st as [|e below]; [destruct k; auto|]. destruct (length (e :: below) =? stack_capacity)%nat eqn:E; [|discriminate].
    destruct k; cbn [run]; [rewrite E; auto|rewrite E; auto].
  - destruct st as [|e below]; [auto|]. destruct (length (e :: below) =? stack_capacity)%nat; [auto|].
    intros X. apply bind_ok in X as ((o1 & st1) & X1 & X). rewrite X1. cbn [bind]. auto.
Qed.

Definition total (op : output -> outcome output) : Prop := forall o, o_buf o = None -> exists o', op o = Ok o' /\ o_buf o' = None.
Lemma total_bind op1 op2 : total op1 -> total op2 -> total (fun o => bind (op1 o) op2).
Proof. intros T1 T2 o B. destruct (T1 o B) as (o1 & -> & B1). destruct (T2 o1 B1) as (o2 & E & B2). exists o2. auto. Qed.
Lemma total_ok : total (fun o => Ok o).
Proof. intros o B. exists o. auto. Qed.
Lemma total_emit cs : total (fun o => emit o cs).
Proof. intros o B. unfold emit. rewrite B. destruct cs; cbn [write_at bind]; eexists; split; reflexivity. Qed.
Lemma total_loop s : forall r, total (fun o => str_loop o r s).
Proof.
  induction s as [|c s IH]; intros r; cbn [str_loop]; [apply total_emit|]. destruct (addon c) as [a|]; [|apply IH].
  apply (total_bind (fun o => emit o r)); [apply total_emit|]. apply (total_bind (fun o => emit o a)); [apply total_emit|apply IH].
Qed.
Lemma total_append s : total (fun o => str_append o s).
Proof.
  apply (total_bind (fun o => emit o [34])); [apply total_emit|].
  apply (total_bind (fun o => str_loop o [] _)); [apply total_loop|apply total_emit].
Qed.
Lemma total_boxed b w : (forall size, boxed_snprint fmt_g size b = Ok (snprintf size w)) -> total (fun o => print_boxed fmt_g o b).
Proof.
  intros E o B. unfold print_boxed. rewrite E. cbn [snprintf bind]. rewrite E. destruct (snprintf _ w) as (w' & n). cbn [bind]. rewrite B.
  destruct w'; cbn [write_at bind]; eexists; split; reflexivity.
Qed.
Lemma print_any_integer t z : t = I64 \/ t = U64 -> exists w, forall size, boxed_snprint fmt_g size (boxed_from t z) = Ok (snprintf size w).
Proof.
  intros T. exists (decimal_of (load (bx_mem (boxed_from t z)) t)). intros sz. unfold boxed_snprint. cbn [boxed_from mk_header bx_type bx_mem].
  assert (L : forall y, Z.of_nat (length (decimal_of y)) >? 0 = true).
  { intros y. pose proof (decimal_nonempty y). destruct (decimal_of y); [congruence|]. apply Z.gtb_lt; cbn [length]; lia. }
  unfold snprintf. destruct T as [-> | ->]; rewrite L; auto.
Qed.
Lemma total_scalar j : is_container j = false -> printable fmt_g j -> total (fun o => print_scalar fmt_g o j).
Proof.
  intros C N. destruct j as [| |[]|d|z|z|s|s|n| |]; try discriminate; cbn [print_scalar printable] in *;
    try apply total_emit; try apply total_append.
  - destruct N as (R & N). apply (total_boxed _ (fmt_g F64 d)). intros. apply print_double; auto.
  - destruct (print_any_integer I64 z) as (w & E); [auto|]. apply (total_boxed _ w E).
  - destruct (print_any_integer U64 z) as (w & E); [auto|]. apply (total_boxed _ w E).
  - contradiction.
Qed.
Lemma total_comma e : total (fun o => comma_if o COMPACT e).
Proof. unfold comma_if. destruct (e_more e); [apply total_emit|apply total_ok]. Qed.

(** The iterations an entry still needs *)
Definition work (e : entry) : nat :=
  match e_json e with
  | JArr l => S (list_sum (map (fun x => S (cost x)) (skipn (e_next e) l)))
  | JObj kvs => S (list_sum (map (fun kv => S (cost (snd kv))) (skipn (e_next e) kvs)))
  | _ => 1%nat
  end.
Definition works (st : list entry) : nat := list_sum (map work st).
Lemma work_start tabs more j : work (mk_entry tabs more j) = cost j.
Proof. destruct j; reflexivity. Qed.
Lemma skipn_at {A} (l : list A) : forall i x, nth_error l i = Some x -> skipn i l = x :: skipn (i + 1) l.
Proof.
  induction l as [|y l IH]; intros [|i] x; cbn [nth_error]; try discriminate; [intros [= ->]; reflexivity|]. intros E. cbn [skipn Nat.add]. auto.
Qed.
Definition fine (st : list entry) : Prop := Forall (fun e => everywhere (printable fmt_g) (e_json e)) st.
Lemma step_total o e below : o_buf o = None -> fine (e :: below) ->
  exists o' st, step fmt_g COMPACT o e below = Ok (o', st) /\ o_buf o' = None /\ fine st /\ (works st < works (e :: below))%nat.
Proof.
  intros B F. pose proof (Forall_inv F) as Fe. pose proof (Forall_inv_tail F) as Fb. destruct e as [i z more j]. cbn [e_json] in Fe.
  destruct (is_container j) eqn:C.
  - destruct j as [| | | | | | | | |l|l]; try discriminate.
    + assert (T : total (fun o => if (i =? 0)%nat then delimiter o COMPACT z 91 else Ok o)) by (destruct (i =? 0)%nat; [apply total_emit|apply total_ok]).
      destruct (T o B) as (o1 & E1 & B1). rewrite step_arr. rewrite E1. cbn [bind]. unfold inner_arr.
      destruct (nth_error l i) as [x|] eqn:En.
      * eexists. eexists. split; [reflexivity|]. split; [auto|]. split.
        -- constructor; [|constructor; auto]. pose proof (everywhere_arr _ _ Fe) as Fl. rewrite Forall_forall in Fl. apply Fl. eapply nth_error_In; eauto.
        -- unfold works. cbn [map]. rewrite work_start. unfold work at 1 3. cbn [e_json e_next]. rewrite (skipn_at _ _ _ En). cbn [map list_sum fold_right].
           change (fold_right Nat.add 0%nat ?l) with (list_sum l). lia.
      * destruct (total_bind (fun o => delimiter o COMPACT z 93) (fun o => comma_if o COMPACT (Entry i z more (JArr l))) (total_emit _) (total_comma _) o1 B1) as (o2 & E2 & B2).
        apply bind_ok in E2 as (p & E2 & E3). rewrite E2. cbn [bind]. rewrite E3. cbn [bind].
        eexists. eexists. split; [reflexivity|]. split; [auto|]. split; [auto|]. unfold works. cbn [map list_sum fold_right]. unfold work at 2. cbn [e_json]. unfold list_sum. lia.
    + assert (T : total (fun o => if (i =? 0)%nat then delimiter o COMPACT z 123 else Ok o)) by (destruct (i =? 0)%nat; [apply total_emit|apply total_ok]).
      destruct (T o B) as (o1 & E1 & B1). rewrite step_obj. rewrite E1. cbn [bind]. unfold inner_obj.
      destruct (nth_error l i) as [(k & x)|] eqn:En.
      * assert (Ef : obj_find l k = Some x).
        { pose proof (everywhere_here _ _ Fe) as Nd. cbn [printable] in Nd. apply nth_error_split in En as (a & c & -> & _). apply obj_find_at.
          rewrite map_app in Nd. cbn [map fst] in Nd. apply NoDup_remove_2 in Nd. rewrite in_app_iff in Nd. tauto. }
        rewrite Ef. cbn [of_option bind pad].
        destruct (total_bind (fun o => str_append o (c_string_n k)) (fun o => delimiter o COMPACT z 58) (total_append _) (total_emit _) o1 B1) as (o2 & E2 & B2).
        apply bind_ok in E2 as (p & E2 & E3). rewrite E2. cbn [bind]. rewrite E3. cbn [bind].
        eexists. eexists. split; [reflexivity|]. split; [auto|]. split.
        -- constructor; [|constructor; auto]. pose proof (everywhere_obj _ _ Fe) as Fl. rewrite Forall_forall in Fl. apply (Fl (k, x)). eapply nth_error_In; eauto.
        -- unfold works. cbn [map]. rewrite work_start. unfold work at 1 3. cbn [e_json e_next]. rewrite (skipn_at _ _ _ En). cbn [map list_sum fold_right snd].
           change (fold_right Nat.add 0%nat ?l) with (list_sum l). lia.
      * destruct (total_bind (fun o => delimiter o COMPACT z 125) (fun o => comma_if o COMPACT (Entry i z more (JObj l))) (total_emit _) (total_comma _) o1 B1) as (o2 & E2 & B2).
        apply bind_ok in E2 as (p & E2 & E3). rewrite E2. cbn [bind]. rewrite E3. cbn [bind].
        eexists. eexists. split; [reflexivity|]. split; [auto|]. split; [auto|]. unfold works. cbn [map list_sum fold_right]. unfold work at 2. cbn [e_json]. unfold list_sum. lia.
  - destruct (total_bind (fun o => print_scalar fmt_g o j) (fun o => comma_if o COMPACT (Entry i z more j)) (total_scalar j C (everywhere_here _ _ Fe)) (total_comma _) o B) as (o2 & E2 & B2).
    apply bind_ok in E2 as (p & E2 & E3). rewrite step_scalar by auto. cbn [pad bind]. rewrite E2. cbn [bind]. rewrite E3. cbn [bind].
    eexists. eexists. split; [reflexivity|]. split; [auto|]. split; [auto|]. unfold works. cbn [map list_sum fold_right].
    assert (work (Entry i z more j) = 1%nat) as -> by (destruct j; try discriminate; reflexivity). unfold list_sum. lia.
Qed.
Lemma run_total fuel : forall o st, o_buf o = None -> fine st -> (works st <= fuel)%nat ->
  exists o', run fmt_g fuel COMPACT o st = Ok o' /\ o_buf o' = None.
Proof.
  induction fuel as [|n IH]; intros o st B F W; cbn [run].
  - destruct st as [|e below]; [eauto|]. destruct (step_total o e below B F) as (_ & st & _ & _ & _ & L). lia.
  - destruct st as [|e below]; [eauto|]. destruct (length (e :: below) =? stack_capacity)%nat; [eauto|].
    destruct (step_total o e below B F) as (o' & st & -> & B' & F' & L). cbn [bind]. apply IH; [auto|auto|lia].
Qed.
Lemma snprint_total j : everywhere (printable fmt_g) j ->
  exists n, forall fuel, (cost j <= fuel)%nat -> snprint fmt_g fuel COMPACT None j = Ok (n, None).
Proof.
  intros N. destruct (run_total (cost j) (Output 0 None) [mk_entry 0 false j]) as (o & E & B).
  - reflexivity.
  - constructor; [exact N|constructor].
  - unfold works. cbn [map list_sum fold_right]. rewrite work_start. lia.
  - exists (o_off o). intros fuel L. replace fuel with (cost j + (fuel - cost j))%nat by lia. unfold snprint.
    rewrite (run_more _ _ _ _ _ _ E). cbn [bind]. rewrite B. reflexivity.
Qed.
End Print.
