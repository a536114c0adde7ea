(** C64 to C66: reading JSON values by type, turning fields into integers, and
    reporting errors. *)
From Coq Require Import ZArith List Bool Lia.
From Verif Require Import Base IntSpec TsearchModel MapModel MapProofs ListModel ListProofs Json JsonHeapModel JsonHeapSpec JsonHeapProofs JsonFrame JsonMergeProofs JsonFieldProofs JsonSelectModel JsonAccessModel JsonAccessProofs
  NumeralProofs SqlModel SqlSpec SqlProofs.
Import ListNotations.
Open Scope Z_scope.
Local Arguments Z.add : simpl never.
Local Arguments Z.mul : simpl never.
Local Arguments Z.pow : simpl never.

(** * C64 *)
(** What a value is for each of the types that it can be read as *)
Definition double_of (j : json) : option Z := match j with JDouble z => Some z | _ => None end.
Definition i64_of (j : json) : option Z := match j with JI64 z => Some z | _ => None end.
Definition u64_of (j : json) : option Z := match j with JU64 z => Some z | _ => None end.
Definition bool_of (j : json) : option bool := match j with JBool b => Some b | _ => None end.
Definition str_of (j : json) : option text := match j with JStr s => Some s | _ => None end.
Definition strn_of (j : json) : option text := match j with JStrn s => Some s | _ => None end.
Definition blob_of (j : json) : option Z := match j with JBlob z => Some z | _ => None end.
Definition members_of (j : json) : option (list (text * json)) := match j with JObj kvs => Some kvs | _ => None end.
Definition elements_of (j : json) : option (list json) := match j with JArr l => Some l | _ => None end.
(** Success gives the value, and a failure leaves the variable alone. *)
Definition read {A} (v : option A) (r : A) : Z * A := match v with Some x => (0, x) | None => (EINVAL, r) end.

Definition C64_statement : Prop := forall h j a, holds h j a ->
  (forall r, to_doublex h (Some a) r = Ok (read (double_of j) r)) /\
  (forall r, to_i64x h (Some a) r = Ok (read (i64_of j) r)) /\
  (forall r, to_u64x h (Some a) r = Ok (read (u64_of j) r)) /\
  (forall r, to_intx h (Some a) r = Ok (read (match i64_of j with Some z => if (- 2 ^ 31 <=? z) && (z <? 2 ^ 31) then Some z else None | None => None end) r)) /\
  (forall r, to_boolx h (Some a) r = Ok (read (bool_of j) r)).
(** What is missing: an integer that is not an int is no error, but is cut to the int that is the
    same modulo 2^32, see C64_int_refuted. *)
Theorem C64_numbers_partial : forall h j a, holds h j a ->
  (forall r, to_doublex h (Some a) r = Ok (read (double_of j) r)) /\
  (forall r, to_i64x h (Some a) r = Ok (read (i64_of j) r)) /\
  (forall r, to_u64x h (Some a) r = Ok (read (u64_of j) r)) /\
  (exists v, (forall r, to_intx h (Some a) r = Ok (read v r)) /\ match i64_of j with Some z => exists i, v = Some i /\ low_int z i | None => v = None end) /\
  (forall r, to_boolx h (Some a) r = Ok (read (bool_of j) r)).
Proof.
  intros h j a H. destruct (load_holds h j a H) as (n & E & D). unfold to_doublex, to_i64x, to_u64x, to_intx, to_boolx. rewrite E. cbn [bind].
  destruct j; cbn [leaf_node] in D; try subst n; try (destruct D as (? & ? & -> & _)); (split; [reflexivity|]; split; [reflexivity|]; split; [reflexivity|]; split; [|reflexivity]);
    try (exists None; split; reflexivity).
  exists (Some (to_int32 z)). split; [intros r; reflexivity|]. eexists. split; [reflexivity|apply low_int_ok].
Qed.
Theorem C64_int_refuted : ~ C64_statement.
Proof.
  intros Q. destruct (Q [NI64 4294967301] (JI64 4294967301) 0%nat) as (_ & _ & _ & X & _); [apply (holds_leaf _ _ _ (NI64 4294967301)); reflexivity|].
  specialize (X 0). vm_compute in X. discriminate.
Qed.
(** It is so for every integer that is not an int: success is reported, with an
    int that differs from it by a multiple of 2^32. *)
Theorem C64_int_all_refuted : forall h z a r, holds h (JI64 z) a -> ~ - 2 ^ 31 <= z < 2 ^ 31 ->
  exists i, to_intx h (Some a) r = Ok (0, i) /\ - 2 ^ 31 <= i < 2 ^ 31 /\ i <> z /\ (exists k, z = i + k * 2 ^ 32).
Proof.
  intros h z a r H N. destruct (C64_numbers_partial h (JI64 z) a H) as (_ & _ & _ & (v & E & i & -> & B & k & K) & _).
  exists i. rewrite E. split; [reflexivity|]. split; [exact B|]. split; [intros ->; auto|]. exists k. lia.
Qed.
Example C64_int_all_example : to_intx [NI64 4294967301] (Some 0%nat) 7 = Ok (0, 5) /\
  to_intx [NI64 2147483648] (Some 0%nat) 7 = Ok (0, - 2147483648).
Proof. vm_compute. auto. Qed.
(** The other types: only the pointer of the right one is given, and with it what
    the value consists of. *)
Theorem C64_others : forall h j a, holds h j a ->
  to_str h (Some a) = Ok (str_of j) /\ to_strn h (Some a) = Ok (strn_of j) /\ to_blob h (Some a) = Ok (blob_of j) /\
  (exists o, to_object h (Some a) = Ok o /\
    match members_of j with Some kvs => exists m kas, o = Some m /\ mrep strcmp m (wrapped kas) /\ members h kvs kas | None => o = None end) /\
  (exists o, to_array h (Some a) = Ok o /\
    match elements_of j with Some js => exists l xs, o = Some l /\ rep l (map Some xs) /\ Forall2 (holds h) js xs | None => o = None end) /\
  is_empty h (Some a) = Ok (match j with JArr [] | JObj [] => true | _ => false end).
Proof.
  intros h j a H. destruct (leaf_cases j) as [(n & L)|[(l & ->)|(l & ->)]].
  - apply (holds_leaf h j a n L) in H. unfold to_str, to_strn, to_blob, to_object, to_array, is_empty, load. rewrite H. cbn [of_option bind].
    destruct j; cbn [leaf_node] in L; try discriminate; injection L as <-; cbn; eauto 10.
  - apply holds_arr in H as (l' & xs & E & R & F). unfold to_str, to_strn, to_blob, to_object, to_array, is_empty, load. rewrite E. cbn [of_option bind].
    split; [reflexivity|]. split; [reflexivity|]. split; [reflexivity|]. split; [exists None; split; reflexivity|]. split.
    + eexists. split; [reflexivity|]. cbn [elements_of]. eauto.
    + destruct R as (Sz & _). rewrite Sz, map_length. pose proof (forall2_len F) as X. destruct l as [|j l], xs as [|x xs]; try discriminate; reflexivity.
  - apply holds_obj in H as (m & kas & E & R & F). unfold to_str, to_strn, to_blob, to_object, to_array, is_empty, load. rewrite E. cbn [of_option bind].
    split; [reflexivity|]. split; [reflexivity|]. split; [reflexivity|]. split; [|split].
    + eexists. split; [reflexivity|]. cbn [members_of]. eauto.
    + exists None. split; reflexivity.
    + assert (Sz : m_size m = Z.of_nat (length kas)) by (destruct R as (_ & _ & _ & _ & Sz); rewrite Sz; unfold wrapped; rewrite map_length; auto).
      unfold map_size. rewrite Sz. pose proof (forall2_len F) as X. destruct l as [|j l], kas as [|x xs]; try discriminate; reflexivity.
Qed.
Example C64_example :
  to_u64x [NU64 (2 ^ 64 - 1); NI64 7] (Some 0%nat) 5 = Ok (0, 2 ^ 64 - 1) /\ to_u64x [NU64 (2 ^ 64 - 1); NI64 7] (Some 1%nat) 5 = Ok (22, 5) /\
  to_intx [NI64 (-7)] (Some 0%nat) 5 = Ok (0, -7) /\ to_boolx [NBool true; NI64 1] (Some 0%nat) false = Ok (0, true) /\
  to_boolx [NBool true; NI64 1] (Some 1%nat) true = Ok (22, true) /\ to_str [NStr [104; 105]; NStrn [104]] (Some 1%nat) = Ok None /\
  is_empty [NArr (list_mk 1); NStr []] (Some 0%nat) = Ok true /\ is_empty [NArr (list_mk 1); NStr []] (Some 1%nat) = Ok false.
Proof. vm_compute. auto 10. Qed.

(** * C65 *)
(** The integer that a text spells is the one that str2i64 gives, and it gives no
    other. *)
Theorem C65_text : forall s z, str2i64 s = Ok (Some z) <-> spelled s z /\ is_i64 z.
Proof.
  intros s z. destruct (scan_cases s) as (ws & sg & k & ds & rest & E & Fw & Sk & Fd & Nd & Nb & Es). unfold str2i64. rewrite Es. split.
  - destruct ds as [|d ds]; cbn [bind]; [discriminate|]. destruct (Z.leb_spec (- 2 ^ 63) (k * digits_value (d :: ds))); cbn [andb bind]; [|discriminate].
    destruct (Z.ltb_spec (k * digits_value (d :: ds)) (2 ^ 63)); cbn [bind]; [|discriminate]. destruct rest; [|discriminate].
    intros X. injection X as <-. split; [|split; auto]. exists ws, sg, k, (d :: ds). rewrite app_nil_r in E. split; [auto|]. split; [auto|]. split; [auto|]. split; [discriminate|]. auto.
  - intros ((ws1 & sg1 & k1 & ds1 & E1 & Fw1 & Sk1 & N1 & Fd1 & ->) & (B1 & B2)).
    destruct (sign_ws ws1 sg1 k1 ds1 Fw1 Sk1 Fd1 N1 ws sg k ds rest) as (<- & <- & <- & <- & ->); auto; [congruence|].
    destruct ds1 as [|d ds1]; [congruence|]. rewrite (proj2 (Z.leb_le _ _) B1), (proj2 (Z.ltb_lt _ _) B2). reflexivity.
Qed.
(** Only a numeral out of range is a problem. *)
Theorem C65_text_safe : forall s e, str2i64 s = Bad e -> exists p r z, s = p ++ r /\ spelled p z /\ ~ is_i64 z.
Proof.
  intros s e. destruct (scan_cases s) as (ws & sg & k & ds & rest & E & Fw & Sk & Fd & Nd & Nb & Es). unfold str2i64. rewrite Es.
  destruct ds as [|d ds]; cbn [bind]; [discriminate|]. intros X. exists (ws ++ sg ++ d :: ds), rest, (k * digits_value (d :: ds)).
  split; [rewrite <- !app_assoc; auto|]. split.
  - exists ws, sg, k, (d :: ds). split; [auto|]. split; [auto|]. split; [auto|]. split; [discriminate|]. auto.
  - intros (B1 & B2). rewrite (proj2 (Z.leb_le _ _) B1), (proj2 (Z.ltb_lt _ _) B2) in X. cbn [andb bind] in X. destruct rest; discriminate.
Qed.
Example C65_text_example : (* " -42", "+7", "12x", "", "-" *)
  str2i64 [32; 45; 52; 50] = Ok (Some (-42)) /\ str2i64 [43; 55] = Ok (Some 7) /\ str2i64 [49; 50; 120] = Ok None /\ str2i64 [] = Ok None /\ str2i64 [45] = Ok None.
Proof. vm_compute. auto. Qed.

(** In full: a field that is an integer stays, and one that is a text that spells an
    integer becomes this integer. *)
Definition C65_statement : Prop := forall mk_str h kvs a k, holds h (JObj kvs) a ->
  exists b h', convert_to_i64 mk_str h (Some a) k = Ok (b, h') /\
    match lookup k kvs with
    | Some (JI64 _) => b = true /\ h' = h
    | Some (JStr s) => forall z, spelled s z /\ is_i64 z -> b = true /\ exists kas x, object_fields h' a kas /\ lookup k kas = Some x /\ nth_error h' x = Some (NI64 z)
    | _ => b = false /\ h' = h
    end.
(** What is missing: fields that are texts, and fields that do not exist. *)
Theorem C65_convert_partial : forall mk_str h kvs a k v, holds h (JObj kvs) a -> lookup k kvs = Some v ->
  (forall s, v <> JStr s) ->
  convert_to_i64 mk_str h (Some a) k = Ok (match v with JI64 _ => true | _ => false end, h).
Proof.
  intros mk_str h kvs a k v H L N. destruct (object_get_ok h kvs a k H) as (r & E & Q). rewrite L in Q. destruct Q as (b & -> & Hb).
  unfold convert_to_i64, to_str. apply holds_obj in H as (m & kas & Eh & R & F). unfold to_object, load. rewrite Eh. cbn [of_option bind]. rewrite E. cbn [bind].
  destruct (C64_numbers_partial h v b Hb) as (_ & X & _). rewrite (X 0). cbn [bind]. destruct v; cbn [i64_of read]; reflexivity.
Qed.
(** Texts are never converted: the test is made on the object instead of its field. *)
Theorem C65_string_refuted : forall mk_str h kvs a k s, holds h (JObj kvs) a -> lookup k kvs = Some (JStr s) ->
  convert_to_i64 mk_str h (Some a) k = Ok (false, h).
Proof.
  intros mk_str h kvs a k s H L. destruct (object_get_ok h kvs a k H) as (r & E & Q). rewrite L in Q. destruct Q as (b & -> & Hb).
  unfold convert_to_i64, to_str. apply holds_obj in H as (m & kas & Eh & R & F). unfold to_object, load. rewrite Eh. cbn [of_option bind]. rewrite E. cbn [bind].
  destruct (C64_numbers_partial h (JStr s) b Hb) as (_ & X & _). rewrite (X 0). reflexivity.
Qed.
(** A field that does not exist is read. *)
Theorem C65_absent_refuted : forall mk_str h kvs a k, holds h (JObj kvs) a -> lookup k kvs = None ->
  convert_to_i64 mk_str h (Some a) k = Bad NullDeref.
Proof.
  intros mk_str h kvs a k H L. destruct (object_get_ok h kvs a k H) as (r & E & Q). rewrite L in Q. subst r.
  unfold convert_to_i64. apply holds_obj in H as (m & kas & Eh & R & F). unfold to_object, load. rewrite Eh. cbn [of_option bind]. rewrite E. reflexivity.
Qed.
Definition key_n : text := [110].
Definition with_n (nd : node) : outcome heap := object_set byval_str_mk [NObj map_mk; nd] (Some 0%nat) key_n (Some 1%nat).
Lemma with_n_holds j nd h : leaf_node j = Some nd -> with_n nd = Ok h -> holds h (JObj [(key_n, j)]) 0.
Proof.
  intros L E. apply holds_obj. cbv in E. injection E as <-. eexists. exists [(key_n, 1%nat)]. split; [reflexivity|]. split.
  - pose proof (mrep_mk (V := nat) strcmp) as R0. destruct (add_field_ok [NObj map_mk; nd] 0 map_mk [] key_n 1) as (m' & Ea & R'); [reflexivity|exact R0|cbn; lia|].
    cbv in Ea. injection Ea as <-. exact R'.
  - constructor; [|constructor]. cbn [fst snd]. split; [auto|]. apply (holds_leaf _ j 1 nd L). reflexivity.
Qed.
Example C65_convert_example : exists h, with_n (NI64 5) = Ok h /\ convert_to_i64 byval_str_mk h (Some 0%nat) key_n = Ok (true, h).
Proof. eexists. split; [reflexivity|]. vm_compute. reflexivity. Qed.
Theorem C65_statement_refuted : ~ C65_statement.
Proof.
  intros Q. destruct (with_n (NStr [52; 50])) as [h|] eqn:E; [|discriminate]. pose proof (with_n_holds (JStr [52; 50]) _ h eq_refl E) as H.
  destruct (Q byval_str_mk h [(key_n, JStr [52; 50])] 0%nat key_n H) as (b & h' & Ec & X). cbn [lookup] in X. destruct (list_eq_dec Z.eq_dec key_n key_n); [|congruence].
  rewrite (C65_string_refuted byval_str_mk h _ 0%nat key_n [52; 50] H) in Ec by (cbn [lookup]; destruct (list_eq_dec Z.eq_dec key_n key_n); congruence).
  injection Ec as <- <-. destruct (X 42) as (X1 & _); [|discriminate]. apply C65_text. vm_compute. reflexivity.
Qed.

(** * C66 *)
Section Errors.
Variable mk_str : text -> outcome text.
Fixpoint report_all (h : heap) (s : option (option nat)) (msgs : list text) : outcome heap :=
  match msgs with
  | [] => Ok h
  | m :: r => bind (set_error mk_str h s (Ok m)) (fun h => report_all h s r)
  end.
End Errors.
(** In full: of all errors reported the first one stays; an error that is there
    already stays too, and all other fields and all other values are as before. *)
Definition first_error (h h' : heap) (s : option (option nat)) (msgs : list text) : Prop :=
  only_status h h' s /\
  match s with
  | Some (Some a) => forall kas, object_fields h a kas ->
      match lookup key_error kas, msgs with
      | None, m :: _ => exists x, object_fields h' a (kas ++ [(key_error, x)]) /\ nth_error h' x = Some (NStr m)
      | _, _ => h' = h
      end
  | _ => h' = h
  end.
Definition C66_statement (mk_str : text -> outcome text) : Prop := forall h s msgs, is_status h s -> exists h', report_all mk_str h s msgs = Ok h' /\ first_error h h' s msgs.
(** What is missing: this is for a string constructor that gives its string. *)
Theorem C66_first_partial : C66_statement byval_str_mk.
Proof.
  intros h s msgs St. destruct s as [[a|]|].
  2,3: (exists h; split; [induction msgs as [|m msgs IH]; [reflexivity|exact IH]|split; [apply only_refl|reflexivity]]).
  assert (Same : forall h1 kas1, object_fields h1 a kas1 -> lookup key_error kas1 <> None -> forall ms, report_all byval_str_mk h1 (Some (Some a)) ms = Ok h1).
  { intros h1 kas1 F1 L1. induction ms as [|m ms IH]; cbn [report_all]; [auto|]. destruct (lookup key_error kas1) as [v|] eqn:L; [|congruence].
    rewrite (set_error_any h1 (Some (Some a)) (length kas1)); [exact IH|exists kas1; auto|exists kas1, v; auto]. }
  destruct St as (kas & F & Ln). destruct msgs as [|m msgs].
  { exists h. split; [reflexivity|]. split; [apply only_refl|]. intros kas' _. destruct (lookup key_error kas'); reflexivity. }
  destruct (lookup key_error kas) as [v|] eqn:L.
  - exists h. split; [apply (Same h kas F); congruence|]. split; [apply only_refl|]. intros kas' F'. rewrite (fields_lookup h a kas' kas key_error F' F), L. reflexivity.
  - destruct (set_new_ok h a kas key_error (NStr m) F) as (h' & Es & F' & N & Lh & O); [lia|]. rewrite (put_fresh _ _ _ L) in F'.
    assert (Le : lookup key_error (kas ++ [(key_error, length h)]) = Some (length h)).
    { clear -L. induction kas as [|(k, x) kas IH]; cbn [app lookup] in *.
      - destruct (list_eq_dec Z.eq_dec key_error key_error); congruence.
      - destruct (list_eq_dec Z.eq_dec key_error k); [discriminate|auto]. }
    exists h'. split.
    + cbn [report_all]. assert (E : set_error byval_str_mk h (Some (Some a)) (Ok m) = Ok h').
      { destruct F as (mp & E & R). cbn [set_error]. rewrite (object_at_ok h a mp E). cbn [bind]. rewrite (select_error h a mp E), (mrep_find mp kas key_error R), L.
        cbn [byval_str_mk bind alloc]. rewrite <- Es. unfold object_set_new, object_set. rewrite (object_at_ok h a mp E). cbn [bind alloc].
        rewrite (object_at_ok (h ++ [NStr m]) a mp) by (rewrite alloc_other; [auto|apply nth_error_Some; congruence]). cbn [bind load]. rewrite alloc_new. reflexivity. }
      rewrite E. cbn [bind]. apply (Same h' _ F'). congruence.
    + split; [split; [lia|]; intros c Lc Nc; apply O; [auto|]; intros ->; auto|]. intros kas' F2. rewrite (fields_lookup h a kas' kas key_error F2 F), L.
      exists (length h). split; [|auto].
      assert (kas' = kas).
      { destruct F as (m1 & E1 & R1), F2 as (m2 & E2 & R2). rewrite E1 in E2. injection E2 as <-. assert (K : map fst kas' = map fst kas).
        { destruct R1 as (_ & _ & _ & K1 & _), R2 as (_ & _ & _ & K2 & _). rewrite K1 in K2. rewrite !map_map in K2. cbn [fst] in K2. auto. }
        pose proof (mrep_nodup m1 kas R1) as Nd. assert (LL : forall k, lookup k kas' = lookup k kas) by (intros k; apply (fields_lookup h a); exists m1; auto).
        clear - K Nd LL. revert kas K Nd LL. induction kas' as [|(k', x') kas' IH]; intros [|(k, x) kas] K Nd LL; cbn [map fst] in *; try discriminate; [auto|]. injection K as -> K. inversion Nd as [|? ? N1 N2]; subst.
        pose proof (LL k) as X. cbn [lookup] in X. destruct (list_eq_dec Z.eq_dec k k); [|congruence]. injection X as ->. f_equal. apply IH; auto.
        intros k'. specialize (LL k'). cbn [lookup] in LL. destruct (list_eq_dec Z.eq_dec k' k) as [->|]; [|auto].
        assert (Z1 : forall l : list (text * nat), ~ In k (map fst l) -> lookup k l = None).
        { induction l as [|(q, y) l IHl]; cbn [lookup map fst]; [auto|]. intros Ni. destruct (list_eq_dec Z.eq_dec k q); [subst; exfalso; apply Ni; left; auto|]. apply IHl. intros I. apply Ni. right; auto. }
        rewrite !Z1; [auto|auto|rewrite K; auto]. }
      subst kas'. exact F'.
Qed.
Example C66_example : exists h, report_all byval_str_mk [NObj map_mk] (Some (Some 0%nat)) [[98; 97; 100]; [119; 111; 114; 115; 101]] = Ok h /\
  select 10 h (Some 0%nat) (46 :: key_error) [] = Ok (Some 1%nat) /\ nth_error h 1 = Some (NStr [98; 97; 100]) /\ length h = 2%nat.
Proof. eexists. split; [reflexivity|]. vm_compute. auto. Qed.
(** With the string constructor as it is no error can be reported, *)
Theorem C66_message_refuted : ~ C66_statement c_str_mk.
Proof.
  intros Q. destruct (Q [NObj map_mk] (Some (Some 0%nat)) [[98]]) as (h' & E & _); [exists []; split; [exists map_mk; split; [reflexivity|apply (mrep_mk (V := nat) strcmp)]|cbn; lia]|].
  vm_compute in E. discriminate.
Qed.
(** and reporting an error in something other than an object ends the program. *)
Theorem C66_kind_refuted : forall mk_str h a nd msg, nth_error h a = Some nd -> (forall m, nd <> NObj m) -> set_error mk_str h (Some (Some a)) msg = Bad Abort.
Proof. intros mk_str h a nd msg E N. cbn [set_error]. unfold object_at, to_object, load. rewrite E. destruct nd; try reflexivity. exfalso. eapply N. reflexivity. Qed.

Print Assumptions C64_numbers_partial.
Print Assumptions C64_int_refuted.
Print Assumptions C64_int_all_refuted.
Print Assumptions C64_others.
Print Assumptions C65_text.
Print Assumptions C65_text_safe.
Print Assumptions C65_convert_partial.
Print Assumptions C65_string_refuted.
Print Assumptions C65_absent_refuted.
Print Assumptions C65_statement_refuted.
Print Assumptions C66_first_partial.
Print Assumptions C66_message_refuted.
Print Assumptions C66_kind_refuted.
