(** Binding data from any object. *)
From Coq Require Import String Ascii ZArith List Bool Lia Sorting.Permutation.
From Verif Require Import Base ArrayLemmas TsearchModel TsearchProofs MapModel MapProofs ListModel ListProofs Json IntSpec JsonHeapModel JsonHeapSpec JsonHeapProofs JsonMergeProofs SqlModel SqlSpec SqlProofs SqlJsonModel SqlJsonSpec SqlJsonProofs SqlUseSpec.
Import ListNotations.
Open Scope Z_scope.

Lemma find_col_first key : forall l i j info, find_col i l key = Some (j, info) ->
  (i <= j)%nat /\ nth_error l (j - i) = Some info /\ i_col info = key /\ forall n x, (n < j - i)%nat -> nth_error l n = Some x -> i_col x <> key.
Proof.
  induction l as [|y l IH]; intros i j info E; cbn [find_col] in E; [discriminate|].
  destruct (Z.eqb_spec (strcmp key (i_col y)) 0) as [C|C].
  - injection E as <- <-. rewrite Nat.sub_diag. split; auto. split; auto. split; [symmetry; apply strcmp_eq; auto|]. intros; lia.
  - apply IH in E as (L & N & C2 & F). replace (j - i)%nat with (S (j - S i)) by lia. split; [lia|]. split; auto. split; auto.
    intros [|n] x Ln Ex; cbn [nth_error] in Ex; [injection Ex as <-; intros Q; apply C; apply strcmp_eq; auto|]. apply (F n x); auto. lia.
Qed.
Lemma find_col_column infos k i info : find_col 0 infos k = Some (i, info) -> column_of infos k i info.
Proof. intros E. apply find_col_first in E as (_ & N & C & F). rewrite Nat.sub_0_r in *. split; auto. Qed.

Lemma put_changed (data : list bind_data) i (how : bind_data -> bind_data -> Prop) d d' : nth_error data i = Some d -> how d d' -> d_has_value d' = true -> changed i how data (update data i d').
Proof.
  intros E H V. split; [apply update_length|]. split; [intros j Ne; apply data_put_other; auto|].
  exists d, d'. split; auto. split; auto. apply nth_error_update_eq. apply nth_error_Some. congruence.
Qed.

Lemma said_bytes s : said s = map (fun c => Z.of_nat (nat_of_ascii c)) (list_ascii_of_string s).
Proof. reflexivity. Qed.
Lemma msg_int col : msg_quote col should_be_int = said "'" ++ col ++ said "' should be int".
Proof. reflexivity. Qed.
Lemma msg_int64 col : msg_quote col should_be_int64 = said "'" ++ col ++ said "' should be int64".
Proof. reflexivity. Qed.
Lemma msg_blob col : msg_quote col should_be_blob = said "'" ++ col ++ said "' should be blob and is not supported yet".
Proof. reflexivity. Qed.

Lemma node_eq (n : node) : n = NNull \/ n <> NNull.
Proof. destruct n; auto; right; discriminate. Qed.
Lemma node_i64 (n : node) : (exists z, n = NI64 z) \/ forall z, n <> NI64 z.
Proof. destruct n; eauto; right; discriminate. Qed.
Lemma node_str (n : node) : (exists z, n = NStr z) \/ forall z, n <> NStr z.
Proof. destruct n; eauto; right; discriminate. Qed.

Section Populate.
Variable infos : list bind_info.
Variables used unused errors : option nat.
Hypothesis apart : NoDup (addrs used ++ addrs unused ++ addrs errors).
Notation lists := (addrs used ++ addrs unused ++ addrs errors).
Notation state := (state used unused errors).
Notation asks := (match errors with Some _ => true | None => false end).

Lemma node_of h v x : seems h v x -> exists n, nth_error h x = Some n /\
  (n = NNull <-> v = JNull) /\ (forall z, n = NI64 z <-> v = JI64 z) /\ (forall s, n = NStr s <-> v = JStr s).
Proof.
  unfold seems. destruct v; cbn [leaf_node]; intros H; try (eexists; split; [exact H|]; split; [split; congruence|]; split; intros; split; congruence).
  all: destruct H as [(c & E)|(m & E)]; eexists; (split; [exact E|]); (split; [split; congruence|]); split; intros; split; congruence.
Qed.

Lemma usage_exact h data us ns es k v x : state h us ns es -> seems h v x -> (length infos <= length data)%nat ->
  (exists h' data' u n, populate_usage byval_str_mk infos used unused errors (h, Some data) k (Some x) = Ok ((h', Some data'), 0) /\
     treats infos k v data data' u n /\ state h' (us ++ u) (ns ++ n) es /\ keeps h h' lists /\ length data' = length data) \/
  (exists h' e, populate_usage byval_str_mk infos used unused errors (h, Some data) k (Some x) = Ok ((h', Some data), 1) /\
     complains infos k v e /\ ~ undefined_for infos asks k v /\ state h' us ns (es ++ [e]) /\ keeps h h' lists) \/
  (exists r, populate_usage byval_str_mk infos used unused errors (h, Some data) k (Some x) = Bad r /\ undefined_for infos asks k v).
Proof.
  intros S H Ld. unfold populate_usage. destruct (find_col 0 infos k) as [(i, info)|] eqn:FC.
  - pose proof (find_col_column _ _ _ _ FC) as C. pose proof C as (Ni & Ck & First).
    destruct (node_of h v x H) as (nd & En & N1 & N2 & N3). cbn [load]. rewrite En. cbn [of_option bind].
    assert (Li : (i < length data)%nat). { apply Nat.lt_le_trans with (length infos); auto. apply nth_error_Some. congruence. }
    destruct (nth_error data i) as [d|] eqn:Ed; [|apply nth_error_None in Ed; lia].
    assert (Uniq : forall j y, column_of infos k j y -> j = i /\ y = info).
    { intros j y (Nj & Cj & Fj). assert (j = i).
      { destruct (Nat.lt_trichotomy j i) as [L|[L|L]]; auto; exfalso; [apply (First j y L Nj Cj)|apply (Fj i info L Ni Ck)]. }
      subst j. split; congruence. }
    assert (Take : forall (how : bind_data -> bind_data -> Prop) d', how d d' -> d_has_value d' = true -> (forall a b, how a b -> set_to (i_type info) v a b) -> (v = JNull -> i_not_null info = false) ->
      exists h' data' u n, bind (note byval_str_mk h used (i_col info)) (fun h0 => Ok ((h0, data_put (Some data) i d'), 0)) = Ok ((h', Some data'), 0) /\
      treats infos k v data data' u n /\ state h' (us ++ u) (ns ++ n) es /\ keeps h h' lists /\ length data' = length data).
    { intros how d' Hw Hv Hs Hn. destruct (note_used used unused errors apart h us ns es (i_col info) S) as (h' & -> & S' & K). cbn [bind data_put].
      exists h', (update data i d'), [k], []. split; auto. split.
      - eapply treats_used; [exact C|exact Hn|]. apply put_changed with (d := d); auto.
      - split; [rewrite app_nil_r; rewrite <- Ck; exact S'|]. split; auto. apply update_length. }
    assert (Err : forall m, complains infos k v m -> ~ undefined_for infos asks k v ->
      exists h' e, bind (note byval_str_mk h errors m) (fun h0 => Ok ((h0, Some data), 1)) = Ok ((h', Some data), 1) /\
      complains infos k v e /\ ~ undefined_for infos asks k v /\ state h' us ns (es ++ [e]) /\ keeps h h' lists).
    { intros m Hm Hu. destruct (note_errors used unused errors apart h us ns es m S) as (h' & -> & S' & K). cbn [bind]. exists h', m. auto. }
    assert (DG : data_get (Some data) i = Ok d) by (cbn [data_get]; rewrite Ed; reflexivity).
    assert (UN : i_type info = T_INT \/ i_type info = T_INT64 -> ~ undefined_for infos asks k v).
    { intros T U. inversion U as [? ? j y Cy Ty|? ? j y Cy Ty|? ? j y Cy Ty]; subst; destruct (Uniq _ _ Cy); subst; destruct T; congruence. }
    destruct (node_eq nd) as [->|NN].
    + assert (v = JNull) by (apply N1; auto). left. destruct (i_not_null info) eqn:NN.
      * exists h, data, [], []. split; auto. subst v. split; [eapply treats_dropped; eauto|]. split; [rewrite !app_nil_r; auto|]. split; auto.
        apply keeps_refl. eapply state_arrays; eauto.
      * rewrite DG. cbn [bind]. apply (Take (set_to (i_type info) v)); auto. subst v. constructor; reflexivity.
    + assert (NV : v <> JNull) by (intros Q; apply NN, N1; auto).
      replace (match nd with NNull => _ | _ => _ end) with
        (match i_type info with
         | T_UNDEF => Bad Abort
         | T_INT => match nd with
           | NI64 z => bind (data_get (Some data) i) (fun d => bind (note byval_str_mk h used (i_col info)) (fun h0 => Ok ((h0, data_put (Some data) i (BindData (to_int32 z) (d_i64 d) (d_value d) (d_size d) true (d_is_null d))), 0)))
           | _ => bind (note byval_str_mk h errors (msg_quote (i_col info) should_be_int)) (fun h0 => Ok ((h0, Some data), 1)) end
         | T_INT64 => match nd with
           | NI64 z => bind (data_get (Some data) i) (fun d => bind (note byval_str_mk h used (i_col info)) (fun h0 => Ok ((h0, data_put (Some data) i (BindData (d_i d) z (d_value d) (d_size d) true (d_is_null d))), 0)))
           | _ => bind (note byval_str_mk h errors (msg_quote (i_col info) should_be_int64)) (fun h0 => Ok ((h0, Some data), 1)) end
         | T_TEXT => match nd with
           | NStr s => bind (data_get (Some data) i) (fun d => bind (note byval_str_mk h used (i_col info)) (fun h0 => Ok ((h0, data_put (Some data) i (BindData (d_i d) (d_i64 d) (Some (with_nul s)) (d_size d) true (d_is_null d))), 0)))
           | _ => Bad NullDeref end
         | T_BLOB => bind (of_option NullDeref errors) (fun e => bind (array_append_strf byval_str_mk h e (msg_quote (i_col info) should_be_blob)) (fun h0 => Ok ((h0, Some data), 1)))
         end) by (destruct nd; congruence || reflexivity).
      rewrite DG. cbn [bind]. destruct (i_type info) eqn:Ty.
      * right. right. exists Abort. split; auto. eapply undefined_type; eauto.
      * destruct (node_str nd) as [(s & ->)|NZ].
        -- left. apply (Take (set_to T_TEXT v)); auto; [|congruence]. rewrite (proj1 (N3 s) eq_refl). apply set_text; auto.
        -- right. right. exists NullDeref. split; [destruct nd; congruence || reflexivity || (exfalso; eapply NZ; reflexivity)|].
           eapply undefined_text; eauto. intros s Q. apply (NZ s), N3. auto.
      * destruct (node_i64 nd) as [(z & ->)|NZ].
        -- left. apply (Take (set_to T_INT v)); auto; [|congruence]. rewrite (proj1 (N2 z) eq_refl). apply set_int; auto. apply low_int_ok.
        -- right. left. replace (match nd with NI64 z => _ | _ => _ end) with (bind (note byval_str_mk h errors (msg_quote (i_col info) should_be_int)) (fun h0 => Ok ((h0, Some data), 1))) by (destruct nd; congruence || reflexivity || (exfalso; eapply NZ; reflexivity)).
           apply Err; auto. rewrite msg_int, Ck. eapply complains_int; eauto. intros z Q. apply (NZ z), N2. auto.
      * destruct (node_i64 nd) as [(z & ->)|NZ].
        -- left. apply (Take (set_to T_INT64 v)); auto; [|congruence]. rewrite (proj1 (N2 z) eq_refl). apply set_int64; auto.
        -- right. left. replace (match nd with NI64 z => _ | _ => _ end) with (bind (note byval_str_mk h errors (msg_quote (i_col info) should_be_int64)) (fun h0 => Ok ((h0, Some data), 1))) by (destruct nd; congruence || reflexivity || (exfalso; eapply NZ; reflexivity)).
           apply Err; auto. rewrite msg_int64, Ck. eapply complains_int64; eauto. intros z Q. apply (NZ z), N2. auto.
      * destruct errors as [ea|] eqn:Ee.
        -- right. left. cbn [of_option bind]. change (array_append_strf byval_str_mk h ea (msg_quote (i_col info) should_be_blob)) with (note byval_str_mk h (Some ea) (msg_quote (i_col info) should_be_blob)).
           apply Err; [rewrite msg_blob, Ck; eapply complains_blob; eauto|].
           intros U. inversion U as [? ? j y Cy Ty2|? ? j y Cy Ty2 ? As|? ? j y Cy Ty2]; subst; destruct (Uniq _ _ Cy); subst; congruence.
        -- right. right. exists NullDeref. split; auto. eapply undefined_blob; eauto.
  - left. destruct (note_unused used unused errors apart h us ns es k S) as (h' & -> & S' & K). cbn [bind].
    exists h', data, [], [k]. split; auto. split; [constructor; apply (find_col_none k infos 0); auto|]. split; [rewrite app_nil_r; auto|]. auto.
Qed.

Lemma usage_run ps : forall h data us ns es vs,
  Forall2 (member_ok h) vs ps -> state h us ns es -> (length infos <= length data)%nat ->
  exists r, uses infos asks vs data r /\
  let go := fold_left (fun o '(k, v) => bind o (fun '(c, ret) => if negb (ret =? 0) then Ok (c, ret) else populate_usage byval_str_mk infos used unused errors c k v)) ps (Ok ((h, Some data), 0)) in
  match r with
  | Used data' us' ns' es' => exists h' ret, go = Ok ((h', Some data'), ret) /\ state h' (us ++ us') (ns ++ ns') (es ++ es') /\ keeps h h' lists
  | Undefined => exists b, go = Bad b
  end.
Proof.
  induction ps as [|(k, p) ps IH]; intros h data us ns es vs F S Ld.
  - inversion F; subst. exists (Used data [] [] []). split; [constructor|]. exists h, 0. rewrite !app_nil_r. split; [reflexivity|]. split; auto.
    apply keeps_refl. eapply state_arrays; eauto.
  - inversion F as [|(k1, v) ? vs' ? (Ek & x & Ex & Sx) F']; subst. cbn [fst snd] in *. subst k1 p. cbn [fold_left].
    change (bind (Ok (h, Some data, 0)) _) with (populate_usage byval_str_mk infos used unused errors (h, Some data) k (Some x)).
    destruct (usage_exact h data us ns es k v x S Sx Ld) as [(h1 & data1 & u & n & E & T & S1 & K1 & L1)|[(h1 & e & E & C & U & S1 & K1)|(b & E & U)]]; rewrite E.
    + destruct (IH h1 data1 (us ++ u) (ns ++ n) es vs') as (r & Us & R); [|exact S1|lia|].
      { eapply forall2_impl; [|exact F']. intros kv q (A & y & B & C). split; [auto|]. exists y. split; [auto|]. eapply seems_keeps; eauto. }
      exists (before u n r). split; [exact (uses_next _ _ _ _ _ _ _ _ _ _ T Us)|]. destruct r as [d' us' ns' es'|]; cbn [before]; [|exact R].
      destruct R as (h2 & ret & E2 & S2 & K2). exists h2, ret. split; [exact E2|]. split; [rewrite !app_assoc; exact S2|]. eapply keeps_trans; eauto.
    + exists (Used data [] [] [e]). split; [constructor; auto|]. exists h1, 1. split; [|rewrite !app_nil_r; auto].
      clear. induction ps as [|(k0, v0) l IHl]; cbn [fold_left bind]; [auto|]. exact IHl.
    + exists Undefined. split; [constructor; auto|]. exists b. clear. induction ps as [|(k0, v0) l IHl]; cbn [fold_left bind]; auto.
Qed.
End Populate.

Lemma populate_exact infos h a kvs data used unused errors us ns es :
  holds h (JObj kvs) a -> NoDup (addrs used ++ addrs unused ++ addrs errors) ->
  state used unused errors h us ns es -> (length infos <= length data)%nat ->
  exists order r, Permutation order kvs /\ uses infos (match errors with Some _ => true | None => false end) order data r /\
  match r with
  | Used data' us' ns' es' => exists h', populate byval_str_mk h (Some a) infos (Some data) used unused errors = Ok (h', Some data') /\
      state used unused errors h' (us ++ us') (ns ++ ns') (es ++ es') /\ keeps h h' (addrs used ++ addrs unused ++ addrs errors)
  | Undefined => exists b, populate byval_str_mk h (Some a) infos (Some data) used unused errors = Bad b
  end.
Proof.
  intros H Ap S Ld. apply holds_obj in H as (m & kas & Em & R & F). unfold populate. rewrite (object_at_ok _ _ _ Em). cbn [bind]. unfold map_iterate.
  pose proof (visited_rep _ _ _ R) as P. destruct (members_perm h kvs kas _ F P) as (vs & Pv & Fv).
  destruct (usage_run infos used unused errors Ap (visited (text * option nat) (m_root m)) h data us ns es vs Fv S Ld) as (r & U & G).
  exists vs, r. split; auto. split; auto. destruct r as [d' us' ns' es'|].
  - destruct G as (h' & ret & E & S' & K). exists h'. split; auto.
    match goal with |- context [bind ?A _] => replace A with (Ok ((h', Some d'), ret)) end. reflexivity.
  - destruct G as (b & E). exists b.
    match goal with |- context [bind ?A _] => replace A with (Bad b : outcome (heap * option (list bind_data) * Z)) end. reflexivity.
Qed.

Lemma bind_data_exact infos h a kvs data used unused errors us ns es :
  holds h (JObj kvs) a -> NoDup (given_at used ++ given_at unused ++ given_at errors) ->
  text_list h used us -> text_list h unused ns -> text_list h errors es -> (length infos <= length data)%nat ->
  exists order r, Permutation order kvs /\ uses infos (match errors with Some _ => true | None => false end) order data r /\
  match r with
  | Used data' us' ns' es' => exists h' used' unused' errors',
      bind_data_from_json byval_str_mk h infos (Some data) (Some a) used unused errors = Ok (0, h', Some data', used', unused', errors') /\
      asked used used' /\ asked unused unused' /\ asked errors errors' /\
      text_list h' used' (us ++ us') /\ text_list h' unused' (ns ++ ns') /\ text_list h' errors' (es ++ es') /\
      (forall c, (c < length h)%nat -> ~ In c (given_at used ++ given_at unused ++ given_at errors) -> nth_error h' c = nth_error h c)
  | Undefined => exists b, bind_data_from_json byval_str_mk h infos (Some data) (Some a) used unused errors = Bad b
  end.
Proof.
  intros H Ap Tu Tn Te Ld. unfold bind_data_from_json, to_object. pose proof H as H0. apply holds_obj in H0 as (m & _ & Em & _). cbn [load]. rewrite Em. cbn [of_option bind].
  destruct (wanted_ok h used us Tu) as (h1 & x & E1 & L1 & A1 & X1 & I1 & J1). rewrite E1.
  destruct (wanted_ok h1 unused ns (text_list_extends _ _ _ _ X1 Tn)) as (h2 & y & E2 & L2 & A2 & X2 & I2 & J2). rewrite E2.
  assert (X12 : extends h h2) by (eapply extends_trans; eauto).
  destruct (wanted_ok h2 errors es (text_list_extends _ _ _ _ X12 Te)) as (h3 & z & E3 & L3 & A3 & X3 & I3 & J3). rewrite E3.
  assert (X : extends h h3) by (eapply extends_trans; eauto).
  pose proof (extends_len _ _ X1). pose proof (extends_len _ _ X2). pose proof (extends_len _ _ X3).
  assert (Gu := fun a => given_lt h used us a Tu). assert (Gn := fun a => given_lt h unused ns a Tn). assert (Ge := fun a => given_lt h errors es a Te).
  assert (D12 : forall c, In c (given_at used) -> In c (given_at unused) -> False) by (intros c Ic Jc; destruct used as [[u|]|], unused as [[v|]|], errors as [[w|]|]; cbn [given_at app In] in *; try tauto; inversion Ap as [|? ? Nx]; apply Nx; cbn [In]; intuition subst; auto).
  assert (D13 : forall c, In c (given_at used) -> In c (given_at errors) -> False) by (intros c Ic Jc; destruct used as [[u|]|], unused as [[v|]|], errors as [[w|]|]; cbn [given_at app In] in *; try tauto; inversion Ap as [|? ? Nx]; apply Nx; cbn [In]; intuition subst; auto).
  assert (D23 : forall c, In c (given_at unused) -> In c (given_at errors) -> False).
  { intros c Ic Jc. apply NoDup_remove_1 in Ap || idtac. destruct used as [[u|]|], unused as [[v|]|], errors as [[w|]|]; cbn [given_at app In] in *; try tauto;
      repeat match goal with K : NoDup (_ :: _) |- _ => inversion K; clear K; subst end; cbn [In] in *; intuition (subst; auto). }
  destruct (populate_exact infos h3 a kvs data x y z us ns es) as (order & r & P & U & R); auto.
  { eapply holds_extends; eauto. }
  { apply nodup3; intros c Ic Jc.
    - apply I1 in Ic. apply I2 in Jc. destruct Ic as [Ic|Ic], Jc as [Jc|Jc]; try lia; [eauto|apply Gu in Ic; lia|apply Gn in Jc; lia].
    - apply I1 in Ic. apply I3 in Jc. destruct Ic as [Ic|Ic], Jc as [Jc|Jc]; try lia; [eauto|apply Gu in Ic; lia|apply Ge in Jc; lia].
    - apply I2 in Ic. apply I3 in Jc. destruct Ic as [Ic|Ic], Jc as [Jc|Jc]; try lia; [eauto|apply Gn in Ic; lia|apply Ge in Jc; lia]. }
  { split; [|split; [|auto]]; eapply listed_extends; [|eassumption| |eassumption]; eauto. eapply extends_trans; eauto. }
  exists order, r. split; auto. split.
  { replace (match errors with Some _ => true | None => false end) with (match z with Some _ => true | None => false end); auto.
    destruct errors as [[e|]|], z as [z|]; cbn [asked option_map] in A3; auto; try discriminate; destruct A3; discriminate. }
  destruct r as [data' us' ns' es'|].
  - destruct R as (h' & E & (S1 & S2 & S3) & K). rewrite E. cbn [bind]. exists h', (option_map Some x), (option_map Some y), (option_map Some z). split; [reflexivity|].
    split; [auto|]. split; [auto|]. split; [auto|].
    assert (TL : forall o l, listed h' o l -> text_list h' (option_map Some o) l) by (intros [o|] l; cbn; auto).
    split; [auto|]. split; [auto|]. split; [auto|].
    intros c Lc Nc. destruct K as (Lk & K). destruct (K c ltac:(lia)) as (K1 & _). rewrite K1; [apply extends_get; auto|].
    intros I. apply Nc. apply in_app_or in I as [I|I]; [|apply in_app_or in I as [I|I]]; apply in_or_app.
    + left. apply I1 in I. destruct I; [auto|lia].
    + right. apply in_or_app. left. apply I2 in I. destruct I; [auto|lia].
    + right. apply in_or_app. right. apply I3 in I. destruct I; [auto|lia].
  - destruct R as (b & E). rewrite E. exists b. reflexivity.
Qed.
