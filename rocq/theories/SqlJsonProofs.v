From Coq Require Import ZArith List Bool Lia Sorting.Permutation.
From Verif Require Import Base ArrayLemmas TsearchModel TsearchProofs MapModel MapProofs ListModel ListProofs Json JsonHeapModel JsonHeapSpec JsonHeapProofs JsonMergeProofs SqlModel SqlSpec SqlProofs SqlJsonModel SqlJsonSpec.
Import ListNotations.
Open Scope Z_scope.
Local Arguments Z.add : simpl never.
Local Arguments Z.of_nat : simpl never.
Local Arguments Z.to_nat : simpl never.

Lemma forall2_impl {A B} (R R' : A -> B -> Prop) l l' : (forall x y, R x y -> R' x y) -> Forall2 R l l' -> Forall2 R' l l'.
Proof. intros H F. induction F; constructor; auto. Qed.

(** * Lists of strings *)
Lemma strings_ok h l a : holds h (JArr (map JStr l)) a <->
  exists cl xs, nth_error h a = Some (NArr cl) /\ rep cl (map Some xs) /\ Forall2 (fun s x => nth_error h x = Some (NStr s)) l xs.
Proof.
  rewrite holds_arr. split; intros (cl & xs & E & R & F); exists cl, xs; (split; [auto|]); (split; [auto|]).
  - clear -F. revert xs F. induction l as [|s l IH]; intros xs F; inversion F as [|? x ? ? Hx F']; subst; constructor; auto.
    apply (holds_leaf h (JStr s) x (NStr s) eq_refl). auto.
  - clear -F. induction F; cbn [map]; constructor; auto. apply (holds_leaf h (JStr x) y (NStr x) eq_refl). auto.
Qed.
Definition only_array (h h' : heap) (a : nat) : Prop :=
  (length h <= length h')%nat /\ (forall c, (c < length h)%nat -> c <> a -> nth_error h' c = nth_error h c) /\
  exists cl cl', nth_error h a = Some (NArr cl) /\ nth_error h' a = Some (NArr cl').
Lemma append_strf_ok h a l s : holds h (JArr (map JStr l)) a ->
  exists h', array_append_strf byval_str_mk h a s = Ok h' /\ holds h' (JArr (map JStr (l ++ [s]))) a /\ only_array h h' a.
Proof.
  intros H. apply strings_ok in H as (cl & xs & E & R & F). unfold array_append_strf. rewrite (array_at_ok _ _ _ E). cbn [bind byval_str_mk].
  unfold alloc. cbn iota. unfold array_append.
  assert (La : (a < length h)%nat) by (apply nth_error_Some; congruence).
  assert (E1 : nth_error (h ++ [NStr s]) a = Some (NArr cl)) by (rewrite nth_error_app1; auto).
  rewrite (array_at_ok _ _ _ E1). cbn [bind]. destruct (append_rep cl _ (Some (length h)) R) as (cl' & Ea & R'). rewrite Ea. cbn [bind].
  exists (store (h ++ [NStr s]) a (NArr cl')). split; [auto|].
  assert (E2 : nth_error (store (h ++ [NStr s]) a (NArr cl')) a = Some (NArr cl')).
  { unfold store. apply nth_error_update_eq. rewrite app_length. cbn [length]. lia. }
  split; [|split; [|split]].
  - apply strings_ok. exists cl', (xs ++ [length h]). split; [auto|]. split; [rewrite map_app; exact R'|]. apply Forall2_app.
    + eapply forall2_impl; [|exact F]. cbn beta. intros t x Ex. unfold store. rewrite nth_error_update_neq by (intros ->; congruence).
      rewrite nth_error_app1; [auto|]. apply nth_error_Some. congruence.
    + constructor; [|constructor]. unfold store. rewrite nth_error_update_neq by lia. rewrite nth_error_app2, Nat.sub_diag by lia. reflexivity.
  - unfold store. rewrite update_length, app_length. lia.
  - intros c Lc Nc. unfold store. rewrite nth_error_update_neq by auto. apply nth_error_app1. auto.
  - exists cl, cl'. auto.
Qed.
Lemma strings_frame h h' a b l : only_array h h' a -> a <> b -> holds h (JArr (map JStr l)) b -> holds h' (JArr (map JStr l)) b.
Proof.
  intros (L & Fr & cl & _ & Ea & _) Ne H. apply strings_ok in H as (cb & xs & E & R & F). apply strings_ok. exists cb, xs.
  split; [rewrite Fr; [auto|apply nth_error_Some; congruence|auto]|]. split; [auto|].
  eapply forall2_impl; [|exact F]. cbn beta. intros t x Ex. rewrite Fr; [auto|apply nth_error_Some; congruence|congruence].
Qed.

(** the three lists *)
Definition listed (h : heap) (p : option nat) (l : list text) : Prop := match p with Some a => holds h (JArr (map JStr l)) a | None => True end.
Definition addrs (p : option nat) : list nat := match p with Some a => [a] | None => [] end.
(** what stays the same: everything but the lists, which stay arrays *)
Definition keeps (h h' : heap) (l : list nat) : Prop :=
  (length h <= length h')%nat /\
  forall c, (c < length h)%nat -> (~ In c l -> nth_error h' c = nth_error h c) /\ (In c l -> exists cl cl', nth_error h c = Some (NArr cl) /\ nth_error h' c = Some (NArr cl')).
Lemma keeps_refl h l : (forall a, In a l -> exists cl, nth_error h a = Some (NArr cl)) -> keeps h h l.
Proof. intros A. split; [auto|]. intros c Lc. split; [auto|]. intros I. destruct (A c I) as (cl & E). eauto. Qed.
Lemma keeps_trans h1 h2 h3 l : keeps h1 h2 l -> keeps h2 h3 l -> keeps h1 h3 l.
Proof.
  intros (L1 & K1) (L2 & K2). split; [lia|]. intros c Lc. destruct (K1 c Lc) as (A1 & B1). destruct (K2 c ltac:(lia)) as (A2 & B2). split.
  - intros N. rewrite A2, A1; auto.
  - intros I. destruct (B1 I) as (x & y & E1 & E2). destruct (B2 I) as (x' & y' & E1' & E2'). eauto.
Qed.

(** a value of an object: its node, or an array or object *)
Definition seems (h : heap) (v : json) (x : nat) : Prop :=
  match leaf_node v with
  | Some n => nth_error h x = Some n
  | None => (exists cl, nth_error h x = Some (NArr cl)) \/ exists m, nth_error h x = Some (NObj m)
  end.
Lemma seems_holds h v x : holds h v x -> seems h v x.
Proof.
  intros H. unfold seems. destruct (leaf_cases v) as [(n & E)|[(l & ->)|(l & ->)]].
  - rewrite E. apply (holds_leaf h v x n E). auto.
  - cbn [leaf_node]. apply holds_arr in H as (cl & _ & E & _). eauto.
  - cbn [leaf_node]. apply holds_obj in H as (m & _ & E & _). eauto.
Qed.
Lemma seems_keeps h h' l v x : keeps h h' l -> seems h v x -> seems h' v x.
Proof.
  intros (L & K). unfold seems. intros H.
  assert (Lx : (x < length h)%nat).
  { apply nth_error_Some. destruct (leaf_node v); [congruence|]. destruct H as [(? & E)|(? & E)]; congruence. }
  destruct (K x Lx) as (A & B). destruct (in_dec Nat.eq_dec x l) as [I|N].
  - destruct (B I) as (cl & cl' & E & E'). destruct (leaf_node v) as [n|] eqn:En; [|eauto].
    exfalso. rewrite E in H. injection H as <-. eapply leaf_not_arr; eauto.
  - rewrite (A N). auto.
Qed.

Section Populate.
Variable infos : list bind_info.
Variables used unused errors : option nat.
Hypothesis apart : NoDup (addrs used ++ addrs unused ++ addrs errors).
Notation lists := (addrs used ++ addrs unused ++ addrs errors).
Definition state (h : heap) (us ns es : list text) : Prop := listed h used us /\ listed h unused ns /\ listed h errors es.

Lemma only_keeps h h' us ns es a : state h us ns es -> In a lists -> only_array h h' a -> keeps h h' lists.
Proof.
  intros (Su & Sn & Se) I (L & Fr & cl & cl' & E & E'). split; [auto|]. intros c Lc. split.
  - intros N. apply Fr; [auto|]. intros ->. auto.
  - intros Ic. destruct (Nat.eq_dec c a) as [->|Ne]; [eauto|]. rewrite (Fr c Lc Ne).
    assert (exists x, nth_error h c = Some (NArr x)) as (x & Ex); [|eauto].
    apply in_app_or in Ic as [Ic|Ic]; [|apply in_app_or in Ic as [Ic|Ic]].
    + destruct used; [|destruct Ic]. destruct Ic as [->|[]]. apply strings_ok in Su as (x & ? & ? & _). eauto.
    + destruct unused; [|destruct Ic]. destruct Ic as [->|[]]. apply strings_ok in Sn as (x & ? & ? & _). eauto.
    + destruct errors; [|destruct Ic]. destruct Ic as [->|[]]. apply strings_ok in Se as (x & ? & ? & _). eauto.
Qed.
Lemma state_arrays h us ns es : state h us ns es -> forall a, In a lists -> exists cl, nth_error h a = Some (NArr cl).
Proof.
  intros (Su & Sn & Se) c Ic. apply in_app_or in Ic as [Ic|Ic]; [|apply in_app_or in Ic as [Ic|Ic]].
  + destruct used; [|destruct Ic]. destruct Ic as [->|[]]. apply strings_ok in Su as (x & ? & ? & _). eauto.
  + destruct unused; [|destruct Ic]. destruct Ic as [->|[]]. apply strings_ok in Sn as (x & ? & ? & _). eauto.
  + destruct errors; [|destruct Ic]. destruct Ic as [->|[]]. apply strings_ok in Se as (x & ? & ? & _). eauto.
Qed.
Lemma listed_frame h h' a p l : only_array h h' a -> ~ In a (addrs p) -> listed h p l -> listed h' p l.
Proof. intros O N. destruct p as [b|]; cbn [listed addrs] in *; [|auto]. apply strings_frame with (a := a); auto. intros ->. apply N. left. auto. Qed.

Lemma disjoint3 a : (In a (addrs used) -> ~ In a (addrs unused) /\ ~ In a (addrs errors)) /\
  (In a (addrs unused) -> ~ In a (addrs used) /\ ~ In a (addrs errors)) /\ (In a (addrs errors) -> ~ In a (addrs used) /\ ~ In a (addrs unused)).
Proof.
  clear -apart. destruct used, unused, errors; cbn [addrs app] in *;
    repeat match goal with H : NoDup (_ :: _) |- _ => inversion H; clear H; subst end; cbn [In] in *; intuition (subst; auto).
Qed.

Lemma note_used h us ns es s : state h us ns es -> exists h', note byval_str_mk h used s = Ok h' /\ state h' (us ++ [s]) ns es /\ keeps h h' lists.
Proof.
  intros S. assert (D := fun a => proj1 (disjoint3 a)). assert (KA := state_arrays _ _ _ _ S). destruct used as [a|] eqn:U.
  - destruct (append_strf_ok h a us s) as (h' & E & H & O); [destruct S as (Su & _); rewrite U in Su; exact Su|]. exists h'. split; [exact E|].
    destruct (D a ltac:(left; auto)) as (D1 & D2). split.
    + destruct S as (Su & Sn & Se). split; [rewrite U; exact H|]. split; eapply listed_frame; eauto.
    + rewrite <- U in *. eapply only_keeps; eauto. rewrite U. left. auto.
  - exists h. split; [auto|]. split; [|apply keeps_refl; exact KA]. destruct S as (Su & Sn & Se). split; [rewrite U; exact I|auto].
Qed.
Lemma note_unused h us ns es s : state h us ns es -> exists h', note byval_str_mk h unused s = Ok h' /\ state h' us (ns ++ [s]) es /\ keeps h h' lists.
Proof.
  intros S. assert (D := fun a => proj1 (proj2 (disjoint3 a))). assert (KA := state_arrays _ _ _ _ S). destruct unused as [a|] eqn:U.
  - destruct (append_strf_ok h a ns s) as (h' & E & H & O); [destruct S as (_ & Su & _); rewrite U in Su; exact Su|]. exists h'. split; [exact E|].
    destruct (D a ltac:(left; auto)) as (D1 & D2). split.
    + destruct S as (Su & Sn & Se). split; [eapply listed_frame; eauto|]. split; [rewrite U; exact H|]. eapply listed_frame; eauto.
    + rewrite <- U in *. eapply only_keeps; eauto. rewrite U. apply in_or_app. right. left. auto.
  - exists h. split; [auto|]. split; [|apply keeps_refl; exact KA]. destruct S as (Su & Sn & Se). split; [auto|]. split; [rewrite U; exact I|auto].
Qed.
Lemma note_errors h us ns es s : state h us ns es -> exists h', note byval_str_mk h errors s = Ok h' /\ state h' us ns (es ++ [s]) /\ keeps h h' lists.
Proof.
  intros S. assert (D := fun a => proj2 (proj2 (disjoint3 a))). assert (KA := state_arrays _ _ _ _ S). destruct errors as [a|] eqn:U.
  - destruct (append_strf_ok h a es s) as (h' & E & H & O); [destruct S as (_ & _ & Su); rewrite U in Su; exact Su|]. exists h'. split; [exact E|].
    destruct (D a ltac:(left; auto)) as (D1 & D2). split.
    + destruct S as (Su & Sn & Se). split; [eapply listed_frame; eauto|]. split; [eapply listed_frame; eauto|]. rewrite U; exact H.
    + rewrite <- U in *. eapply only_keeps; eauto. rewrite U. apply in_or_app. right. apply in_or_app. right. left. auto.
  - exists h. split; [auto|]. split; [|apply keeps_refl; exact KA]. destruct S as (Su & Sn & Se). split; [auto|]. split; [auto|]. rewrite U; exact I.
Qed.

Lemma find_col_some key : forall l i j info, find_col i l key = Some (j, info) -> (i <= j)%nat /\ nth_error l (j - i) = Some info /\ i_col info = key.
Proof.
  induction l as [|x l IH]; intros i j info; cbn [find_col]; [discriminate|]. rewrite strcmp_eqb. destruct (list_eq_dec Z.eq_dec key (i_col x)) as [E|N].
  - intros H. injection H as <- <-. rewrite Nat.sub_diag. auto.
  - intros H. apply IH in H as (L & En & Ec). split; [lia|]. split; [|auto]. replace (j - i)%nat with (S (j - S i)) by lia. auto.
Qed.
Lemma find_col_none key : forall l i, find_col i l key = None <-> ~ In key (map i_col l).
Proof.
  induction l as [|x l IH]; intros i; cbn [find_col map In]; [tauto|]. rewrite strcmp_eqb. destruct (list_eq_dec Z.eq_dec key (i_col x)) as [E|N].
  - split; [discriminate|]. intros H. exfalso. apply H. auto.
  - rewrite IH. intuition congruence.
Qed.

Hypothesis columns : NoDup (map i_col infos).
Lemma column_unique i j x y : nth_error infos i = Some x -> nth_error infos j = Some y -> i_col x = i_col y -> i = j.
Proof.
  intros Ei Ej E. rewrite NoDup_nth_error in columns. apply columns.
  - rewrite map_length. apply nth_error_Some. congruence.
  - rewrite !nth_error_map, Ei, Ej. cbn. congruence.
Qed.

(** the message for a wrong value *)
Definition complaint (info : bind_info) : text := msg_quote (i_col info) (match i_type info with T_INT64 => should_be_int64 | _ => should_be_int end).

Definition member_ok (h : heap) (kv : text * json) (p : text * option nat) : Prop := fst p = fst kv /\ exists x, snd p = Some x /\ seems h (snd kv) x.

Lemma data_put_other (data : list bind_data) i j d : i <> j -> nth_error (update data i d) j = nth_error data j.
Proof. intros N. apply nth_error_update_neq. auto. Qed.

(** what one member leads to *)
Definition step_result h data us ns es k v (r : outcome ((heap * option (list bind_data)) * Z)) : Prop :=
  exists h' data' us' ns' es' ret, r = Ok ((h', Some data'), ret) /\
    state h' (us ++ us') (ns ++ ns') (es ++ es') /\ keeps h h' lists /\ length data' = length data /\
    ((ret = 0 /\ es' = [] /\
      ((ns' = [k] /\ us' = [] /\ ~ In k (map i_col infos) /\ data' = data) \/
       (ns' = [] /\ us' = [k] /\ exists i info d, nth_error infos i = Some info /\ i_col info = k /\ takes info v /\ data' = update data i d /\ data_is info v d))) \/
     (ret = 1 /\ us' = [] /\ ns' = [] /\ data' = data /\ exists info, In info infos /\ i_col info = k /\ not_an_integer info v /\ es' = [complaint info])).
Lemma usage_ok h data us ns es k v x : state h us ns es -> seems h v x -> (length infos <= length data)%nat ->
  (forall i info d, nth_error infos i = Some info -> nth_error data i = Some d -> i_col info = k -> fresh d) ->
  (forall info, In info infos -> i_col info = k -> takes info v \/ not_an_integer info v) ->
  step_result h data us ns es k v (populate_usage byval_str_mk infos used unused errors (h, Some data) k (Some x)).
Proof.
  intros S Se Ld Fr Hok. unfold populate_usage. destruct (find_col 0 infos k) as [(i, info)|] eqn:Ef.
  2: { destruct (note_unused h us ns es k S) as (h' & En & S' & K). rewrite En. cbn [bind]. exists h', data, [], [k], [], 0.
       split; [auto|]. rewrite !app_nil_r. split; [auto|]. split; [auto|]. split; [auto|]. left. split; [auto|]. split; [auto|]. left.
       split; [auto|]. split; [auto|]. split; [|auto]. apply (find_col_none k infos 0). auto. }
  apply find_col_some in Ef as (_ & Ei & Ec). rewrite Nat.sub_0_r in Ei. pose proof (nth_error_In _ _ Ei) as Ii.
  assert (Li : (i < length data)%nat) by (apply Nat.lt_le_trans with (length infos); [apply nth_error_Some; congruence|auto]).
  destruct (nth_error data i) as [d|] eqn:Ed; [|apply nth_error_None in Ed; lia]. destruct (Fr i info d Ei Ed Ec) as (Fn & Fs).
  assert (Dg : data_get (Some data) i = Ok d) by (cbn [data_get]; rewrite Ed; reflexivity).
  destruct (note_used h us ns es (i_col info) S) as (h1 & En1 & S1 & K1).
  assert (Good : forall d', takes info v -> data_is info v d' -> step_result h data us ns es k v (Ok ((h1, data_put (Some data) i d'), 0))).
  { intros d' T Di. exists h1, (update data i d'), [k], [], [], 0. split; [reflexivity|]. rewrite !app_nil_r, <- Ec. split; [auto|]. split; [auto|]. split; [apply update_length|].
    left. split; [auto|]. split; [auto|]. right. split; [auto|]. split; [auto|]. exists i, info, d'. auto. }
  assert (Wrong : not_an_integer info v -> exists h2, note byval_str_mk h errors (complaint info) = Ok h2 /\ step_result h data us ns es k v (Ok ((h2, Some data), 1))).
  { intros N. destruct (note_errors h us ns es (complaint info) S) as (h2 & En2 & S2 & K2). exists h2. split; [auto|]. exists h2, data, [], [], [complaint info], 1.
    split; [auto|]. rewrite !app_nil_r. split; [auto|]. split; [auto|]. split; [auto|]. right. split; [auto|]. split; [auto|]. split; [auto|]. split; [auto|]. exists info. auto. }
  destruct (Hok info Ii Ec) as [T|N].
  - pose proof T as T'. destruct T as [Nn|z Ty B|z Ty|s Ty N0]; unfold seems in Se; cbn [leaf_node] in Se; cbn [load]; rewrite Se; cbn [of_option bind].
    + rewrite Nn, En1. cbn [bind]. rewrite Dg. cbn [bind]. apply Good; [auto|]. split; auto.
    + rewrite Ty, Dg. cbn [bind]. rewrite En1. cbn [bind]. apply Good; [auto|]. split; [auto|]. cbn [d_is_null]. split; [auto|]. intros limit. rewrite Ty, to_int32_id by auto.
      apply (den_int limit (BindData z (d_i64 d) (d_value d) (d_size d) true (d_is_null d))).
    + rewrite Ty, Dg. cbn [bind]. rewrite En1. cbn [bind]. apply Good; [auto|]. split; [auto|]. cbn [d_is_null]. split; [auto|]. intros limit. rewrite Ty.
      apply (den_int64 limit (BindData (d_i d) z (d_value d) (d_size d) true (d_is_null d))).
    + rewrite Ty, Dg. cbn [bind]. rewrite En1. cbn [bind]. apply Good; [auto|]. split; [auto|]. cbn [d_is_null]. split; [auto|]. intros limit Ls. rewrite Ty.
      apply den_string with (rest := []); auto.
  - destruct (Wrong N) as (h2 & En2 & R2). destruct N as (Ty & Nn & Ni).
    assert (L : exists nd, load h (Some x) = Ok nd /\ nd <> NNull /\ forall z, nd <> NI64 z).
    { unfold seems in Se. cbn [load]. destruct (leaf_node v) as [nd|] eqn:Lv.
      - rewrite Se. exists nd. split; [auto|]. destruct v; try discriminate; injection Lv as <-; split; try discriminate; try congruence; intros z' Eq; injection Eq as ->; eapply Ni; eauto.
      - destruct Se as [(cl & E)|(m & E)]; rewrite E; eexists; (split; [reflexivity|]); split; discriminate. }
    destruct L as (nd & Eload & N1 & N2). rewrite Eload. cbn [bind].
    unfold complaint in En2. destruct Ty as [Ty|Ty]; rewrite Ty in En2 |- *; destruct nd; try (exfalso; congruence); try (exfalso; eapply N2; reflexivity); rewrite En2; cbn [bind]; exact R2.
Qed.

(** all members; the first complaint ends it *)
Lemma usage_all ps : forall h data us ns es vs,
  Forall2 (member_ok h) vs ps -> state h us ns es -> (length infos <= length data)%nat -> NoDup (map fst vs) ->
  (forall i info d, nth_error infos i = Some info -> nth_error data i = Some d -> In (i_col info) (map fst vs) -> fresh d) ->
  (forall k v info, In (k, v) vs -> In info infos -> i_col info = k -> takes info v \/ not_an_integer info v) ->
  exists h' data' us' ns' es' ret pre post,
    fold_left (fun o '(k, v) => bind o (fun '(c, ret) => if negb (ret =? 0) then Ok (c, ret) else populate_usage byval_str_mk infos used unused errors c k v)) ps (Ok ((h, Some data), 0)) = Ok ((h', Some data'), ret) /\
    state h' (us ++ us') (ns ++ ns') (es ++ es') /\ keeps h h' lists /\
    vs = pre ++ post /\ sorted infos pre us' ns' [] /\ data_from infos pre data data' /\
    (match post with
     | [] => es' = []
     | (k, v) :: _ => exists info, In info infos /\ i_col info = k /\ not_an_integer info v /\ es' = [complaint info]
     end).
Proof.
  induction ps as [|(k, o) ps IH]; intros h data us ns es vs F S Ld Nd Fr Hok.
  - inversion F; subst. exists h, data, [], [], [], 0, [], []. cbn [fold_left]. split; [auto|]. rewrite !app_nil_r. split; [auto|].
    split; [apply keeps_refl; eapply state_arrays; eauto|]. split; [auto|]. split; [constructor|]. split; [|auto]. split; [auto|]. intros. cbn [lookup]. auto.
  - inversion F as [|(k', v) ? vs' ? (Hk & x & Hx & Se) F']; subst. cbn [fst snd] in *. subst k' o. cbn [map fst] in Nd. inversion Nd as [|? ? Nk Nd']; subst.
    cbn [fold_left bind]. change (0 =? 0) with true. cbn [negb].
    destruct (usage_ok h data us ns es k v x S Se Ld) as (h1 & data1 & us1 & ns1 & es1 & ret1 & E1 & S1 & K1 & L1 & C1).
    { intros i info d Ei Ed Ec. eapply Fr; eauto. left. auto. }
    { intros info Ii Ec. apply Hok with (k := k); auto. left. auto. }
    rewrite E1. destruct C1 as [(-> & -> & C1)|(-> & -> & -> & -> & info & Ii & Ec & Ni & ->)].
    + assert (Other : forall j info', nth_error infos j = Some info' -> i_col info' <> k -> nth_error data1 j = nth_error data j).
      { intros j info' Ej Nj. destruct C1 as [(_ & _ & _ & ->)|(_ & _ & i & info & d & Ei & Ec & _ & -> & _)]; [auto|]. apply data_put_other. intros ->. congruence. }
      destruct (IH h1 data1 (us ++ us1) (ns ++ ns1) (es ++ []) vs') as (h2 & data2 & us2 & ns2 & es2 & ret2 & pre & post & E2 & S2 & K2 & -> & So & Df & Po); auto.
      { eapply forall2_impl; [|exact F']. intros kv p (A & y & B & C). split; [auto|]. exists y. split; [auto|]. eapply seems_keeps; eauto. }
      { lia. }
      { intros i info d Ei Ed Ic. apply (Fr i info d Ei); [|right; auto]. rewrite <- Ed. symmetry. apply (Other i info Ei). intros Eq. apply Nk. rewrite <- Eq. exact Ic. }
      { intros k0 v0 info I0. apply (Hok k0 v0 info). right. auto. }
      rewrite <- !app_assoc in S2. cbn [app] in S2. exists h2, data2, (us1 ++ us2), (ns1 ++ ns2), es2, ret2, ((k, v) :: pre), post.
      split; [exact E2|]. split; [exact S2|]. split; [eapply keeps_trans; eauto|]. split; [auto|].
      assert (Np : ~ In k (map fst pre)) by (intros I; apply Nk; rewrite map_app; apply in_or_app; auto).
      split; [|split; [|exact Po]].
      * destruct C1 as [(-> & -> & N & _)|(-> & -> & i & info & d & Ei & Ec & T & _)]; cbn [app].
        -- apply sorted_unused; auto.
        -- apply sorted_used with (info := info); auto. eapply nth_error_In; eauto.
      * destruct Df as (Dl & Df). split; [lia|]. intros j info' Ej. specialize (Df j info' Ej). cbn [lookup]. destruct (list_eq_dec Z.eq_dec (i_col info') k) as [Eq|Ne].
        -- rewrite Eq in Df. rewrite (proj2 (lookup_none k pre) Np) in Df.
           destruct C1 as [(_ & _ & N & _)|(_ & _ & i & info & d & Ei & Ec & T & Ed & Di)].
           { exfalso. apply N. rewrite <- Eq. apply in_map. eapply nth_error_In; eauto. }
           assert (i = j) by (eapply column_unique; eauto; congruence). subst j. assert (info' = info) by congruence. subst info'.
           exists d. split; [|auto]. rewrite Df, Ed. apply nth_error_update_eq. apply Nat.lt_le_trans with (length infos); [apply nth_error_Some; congruence|auto].
        -- rewrite <- (Other j info' Ej Ne). exact Df.
    + assert (Stop : forall l, fold_left (fun o '(k, v) => bind o (fun '(c, ret) => if negb (ret =? 0) then Ok (c, ret) else populate_usage byval_str_mk infos used unused errors c k v)) l (Ok ((h1, Some data), 1)) = Ok ((h1, Some data), 1)).
      { induction l as [|(k0, v0) l IHl]; cbn [fold_left bind]; [auto|]. exact IHl. }
      rewrite Stop. exists h1, data, [], [], [complaint info], 1, [], ((k, v) :: vs'). split; [auto|]. split; [auto|]. split; [auto|]. split; [auto|]. split; [constructor|].
      split; [split; [auto|intros; cbn [lookup]; auto]|]. exists info. auto.
Qed.
End Populate.

Lemma members_perm h kjs kas ps : Forall2 (fun (kj : text * json) (ka : text * nat) => fst kj = fst ka /\ holds h (snd kj) (snd ka)) kjs kas ->
  Permutation ps (map (fun ka => (fst ka, Some (snd ka))) kas) -> exists vs, Permutation vs kjs /\ Forall2 (member_ok h) vs ps.
Proof.
  intros F P. assert (F2 : Forall2 (member_ok h) kjs (map (fun ka => (fst ka, Some (snd ka))) kas)).
  { clear P. induction F as [|kj ka kjs' kas' (A & B) F IH]; cbn [map]; constructor; auto. split; [cbn [fst]; auto|]. exists (snd ka). split; [auto|]. apply seems_holds. auto. }
  apply Permutation_sym in P. clear F. revert kjs F2. induction P as [|p l l' P IH|p q l|l l' l'' P1 IH1 P2 IH2]; intros kjs F2.
  - inversion F2; subst. exists []. auto.
  - inversion F2 as [|a ? r ? Ha Hr]; subst. destruct (IH _ Hr) as (vs & Pv & Fv). exists (a :: vs). auto.
  - inversion F2 as [|a ? r ? Ha Hr]; subst. inversion Hr as [|b ? r' ? Hb Hr']; subst. exists (b :: a :: r'). split; [constructor|auto].
  - destruct (IH1 _ F2) as (vs & Pv & Fv). destruct (IH2 _ Fv) as (vs2 & Pv2 & Fv2). exists vs2. split; [|auto]. eapply Permutation_trans; eauto.
Qed.

Lemma populate_ok infos h a kvs data used unused errors us ns es :
  holds h (JObj kvs) a -> NoDup (addrs used ++ addrs unused ++ addrs errors) -> NoDup (map i_col infos) ->
  state used unused errors h us ns es -> (length infos <= length data)%nat ->
  (forall i info d, nth_error infos i = Some info -> nth_error data i = Some d -> In (i_col info) (map fst kvs) -> fresh d) ->
  (forall k v info, In (k, v) kvs -> In info infos -> i_col info = k -> takes info v \/ not_an_integer info v) ->
  exists h' data' us' ns' es' pre post,
    populate byval_str_mk h (Some a) infos (Some data) used unused errors = Ok (h', Some data') /\
    state used unused errors h' (us ++ us') (ns ++ ns') (es ++ es') /\ keeps h h' (addrs used ++ addrs unused ++ addrs errors) /\
    Permutation (pre ++ post) kvs /\ sorted infos pre us' ns' [] /\ data_from infos pre data data' /\
    (match post with
     | [] => es' = []
     | (k, v) :: _ => exists info, In info infos /\ i_col info = k /\ not_an_integer info v /\ es' = [complaint info]
     end).
Proof.
  intros H Ap Co S Ld Fr Hok. apply holds_obj in H as (m & kas & Em & R & F). unfold populate. rewrite (object_at_ok _ _ _ Em). cbn [bind]. unfold map_iterate.
  pose proof (visited_rep _ _ _ R) as P. destruct (members_perm h kvs kas _ F P) as (vs & Pv & Fv).
  assert (Nk : NoDup (map fst kvs)). { rewrite (members_fst F). eapply mrep_nodup; eauto. }
  assert (Nv : NoDup (map fst vs)). { eapply Permutation_NoDup; [|exact Nk]. apply Permutation_sym, Permutation_map. exact Pv. }
  destruct (usage_all infos used unused errors Ap Co (visited (text * option nat) (m_root m)) h data us ns es vs Fv S Ld Nv) as (h' & data' & us' & ns' & es' & ret & pre & post & E & S' & K & Eq & So & Df & Po).
  { intros i info d Ei Ed I. apply (Fr i info d Ei Ed). eapply Permutation_in; [|exact I]. apply Permutation_map. auto. }
  { intros k v info I. apply (Hok k v info). eapply Permutation_in; eauto. }
  exists h', data', us', ns', es', pre, post. split; [|rewrite <- Eq; auto 8].
  match goal with |- context [bind ?A _] => replace A with (Ok ((h', Some data'), ret)) end. reflexivity.
Qed.

(** * The lists that the caller asks for *)
Definition extends (h h' : heap) : Prop := exists r, h' = h ++ r.
Lemma extends_get h h' c : extends h h' -> (c < length h)%nat -> nth_error h' c = nth_error h c.
Proof. intros (r & ->) L. apply nth_error_app1. auto. Qed.
Lemma extends_len h h' : extends h h' -> (length h <= length h')%nat.
Proof. intros (r & ->). rewrite app_length. lia. Qed.
Lemma extends_some h h' c (n : node) : extends h h' -> nth_error h c = Some n -> nth_error h' c = Some n.
Proof. intros X E. rewrite (extends_get h h'); auto. apply nth_error_Some. congruence. Qed.
Lemma extends_trans h1 h2 h3 : extends h1 h2 -> extends h2 h3 -> extends h1 h3.
Proof. intros (r & ->) (r' & ->). exists (r ++ r'). rewrite app_assoc. auto. Qed.
Lemma strings_extends h h' l a : extends h h' -> holds h (JArr (map JStr l)) a -> holds h' (JArr (map JStr l)) a.
Proof.
  intros X H. apply strings_ok in H as (cl & xs & E & R & F). apply strings_ok. exists cl, xs. split; [eapply extends_some; eauto|]. split; [auto|].
  eapply forall2_impl; [|exact F]. cbn beta. intros s x. apply extends_some. auto.
Qed.
Lemma new_array h c : 0 <= c -> holds (h ++ [NArr (list_mk c)]) (JArr []) (length h).
Proof.
  intros C. apply (strings_ok _ []). exists (list_mk c), []. split; [rewrite nth_error_app2, Nat.sub_diag by lia; auto|]. split; [|constructor].
  split; [reflexivity|]. unfold list_mk; cbn [l_capacity l_a]. split; [rewrite repeat_length; lia|]. eexists. reflexivity.
Qed.
Lemma wanted_ok h p l : text_list h p l ->
  exists h' x, wanted h p = (h', x, option_map Some x) /\ listed h' x l /\ asked p (option_map Some x) /\ extends h h' /\
    (forall a, In a (addrs x) -> In a (given_at p) \/ (length h <= a < length h')%nat) /\ (forall a, In a (addrs x) -> (a < length h')%nat).
Proof.
  intros T. destruct p as [[a|]|]; cbn [wanted text_list asked given_at] in *.
  - exists h, (Some a). split; [auto|]. split; [auto|]. split; [auto|]. split; [exists []; rewrite app_nil_r; auto|]. split; [auto|].
    intros b [<-|[]]. apply strings_ok in T as (cl & _ & E & _). apply nth_error_Some. congruence.
  - subst l. unfold alloc. exists (h ++ [NArr (list_mk 10)]), (Some (length h)). split; [auto|]. split; [apply new_array; lia|]. split; [eexists; reflexivity|].
    split; [eexists; reflexivity|]. rewrite app_length; cbn [length]. split; intros b [<-|[]]; [right|]; lia.
  - exists h, None. split; [auto|]. split; [exact I|]. split; [auto|]. split; [exists []; rewrite app_nil_r; auto|]. split; intros b [].
Qed.
Lemma text_list_extends h h' p l : extends h h' -> text_list h p l -> text_list h' p l.
Proof. intros X. destruct p as [[a|]|]; cbn [text_list]; auto. apply strings_extends. auto. Qed.
Lemma listed_extends h h' p l : extends h h' -> listed h p l -> listed h' p l.
Proof. intros X. destruct p as [a|]; cbn [listed]; auto. apply strings_extends. auto. Qed.
Lemma given_lt h p l a : text_list h p l -> In a (given_at p) -> (a < length h)%nat.
Proof. intros T I. destruct p as [[b|]|]; cbn [given_at text_list] in *; try (exfalso; exact I). destruct I as [<-|[]]. apply strings_ok in T as (cl & _ & E & _). apply nth_error_Some. congruence. Qed.
Lemma nodup3 (A B C : option nat) : (forall a, In a (addrs A) -> In a (addrs B) -> False) -> (forall a, In a (addrs A) -> In a (addrs C) -> False) -> (forall a, In a (addrs B) -> In a (addrs C) -> False) ->
  NoDup (addrs A ++ addrs B ++ addrs C).
Proof.
  intros H1 H2 H3. destruct A as [a|], B as [b|], C as [c|]; cbn [addrs app In] in *; repeat constructor; cbn [In]; intros X; intuition (subst; eauto).
Qed.
Lemma seems_extends h h' v x : extends h h' -> seems h v x -> seems h' v x.
Proof.
  intros X. unfold seems. destruct (leaf_node v); [apply extends_some; auto|]. intros [(cl & E)|(m & E)]; [left|right]; eexists; eapply extends_some; eauto.
Qed.

Section All2Mono.
Lemma holds_extends h h' : extends h h' -> forall n j a, (size j <= n)%nat -> holds h j a -> holds h' j a.
Proof.
  intros X. induction n as [|n IH]; intros j a Ln; [pose proof (size_pos j); lia|]. destruct (leaf_cases j) as [(nd & E)|[(l & ->)|(l & ->)]].
  - rewrite !(holds_leaf _ _ _ _ E). apply extends_some. auto.
  - rewrite !holds_arr. intros (cl & xs & E & R & F). exists cl, xs. split; [eapply extends_some; eauto|]. split; [auto|].
    assert (G : forall j x, In j l -> holds h j x -> holds h' j x) by (intros j x Ij; apply IH; pose proof (size_arr_in j l Ij); lia).
    clear -F G. induction F as [|j x l xs Hx F IHF]; constructor; [apply G; [left|]; auto|]. apply IHF. intros; apply G; [right|]; auto.
  - rewrite !holds_obj. intros (m & kas & E & R & F). exists m, kas. split; [eapply extends_some; eauto|]. split; [auto|].
    assert (G : forall kj x, In kj l -> holds h (snd kj) x -> holds h' (snd kj) x) by (intros kj x Ij; apply IH; pose proof (size_obj_in kj l Ij); lia).
    clear -F G. induction F as [|kj x l xs (Hk & Hx) F IHF]; constructor; [split; [auto|]; apply G; [left|]; auto|]. apply IHF. intros; apply G; [right|]; auto.
Qed.
End All2Mono.

Lemma bind_data_ok infos h a kvs data used unused errors us ns es :
  holds h (JObj kvs) a -> NoDup (given_at used ++ given_at unused ++ given_at errors) -> NoDup (map i_col infos) ->
  text_list h used us -> text_list h unused ns -> text_list h errors es -> (length infos <= length data)%nat ->
  (forall i info d, nth_error infos i = Some info -> nth_error data i = Some d -> In (i_col info) (map fst kvs) -> fresh d) ->
  (forall k v info, In (k, v) kvs -> In info infos -> i_col info = k -> takes info v \/ not_an_integer info v) ->
  exists h' data' used' unused' errors' us' ns' es' pre post,
    bind_data_from_json byval_str_mk h infos (Some data) (Some a) used unused errors = Ok (0, h', Some data', used', unused', errors') /\
    asked used used' /\ asked unused unused' /\ asked errors errors' /\
    text_list h' used' (us ++ us') /\ text_list h' unused' (ns ++ ns') /\ text_list h' errors' (es ++ es') /\
    (forall c, (c < length h)%nat -> ~ In c (given_at used ++ given_at unused ++ given_at errors) -> nth_error h' c = nth_error h c) /\
    Permutation (pre ++ post) kvs /\ sorted infos pre us' ns' [] /\ data_from infos pre data data' /\
    (match post with
     | [] => es' = []
     | (k, v) :: _ => exists info, In info infos /\ i_col info = k /\ not_an_integer info v /\ es' = [complaint info]
     end).
Proof.
  intros H Ap Co Tu Tn Te Ld Fr Hok. unfold bind_data_from_json, to_object. pose proof H as H0. apply holds_obj in H0 as (m & _ & Em & _). cbn [load]. rewrite Em. cbn [of_option bind].
  destruct (wanted_ok h used us Tu) as (h1 & x & E1 & L1 & A1 & X1 & I1 & J1). rewrite E1.
  destruct (wanted_ok h1 unused ns (text_list_extends _ _ _ _ X1 Tn)) as (h2 & y & E2 & L2 & A2 & X2 & I2 & J2). rewrite E2.
  assert (X12 : extends h h2) by (eapply extends_trans; eauto).
  destruct (wanted_ok h2 errors es (text_list_extends _ _ _ _ X12 Te)) as (h3 & z & E3 & L3 & A3 & X3 & I3 & J3). rewrite E3.
  assert (X : extends h h3) by (eapply extends_trans; eauto).
  pose proof (extends_len _ _ X1). pose proof (extends_len _ _ X2). pose proof (extends_len _ _ X3).
  assert (Gu := fun a => given_lt h used us a Tu). assert (Gn := fun a => given_lt h unused ns a Tn). assert (Ge := fun a => given_lt h errors es a Te).
  assert (D12 : forall c, In c (given_at used) -> In c (given_at unused) -> False) by (intros c Ic Jc; destruct used as [[u|]|], unused as [[v|]|], errors as [[w|]|]; cbn [given_at app In] in *; try tauto; inversion Ap as [|? ? Nx]; apply Nx; cbn [In]; intuition subst; auto).
  assert (D13 : forall c, In c (given_at used) -> In c (given_at errors) -> False) by (intros c Ic Jc; destruct used as [[u|]|], unused as [[v|]|], errors as [[w|]|]; cbn [given_at app In] in *; try tauto; inversion Ap as [|? ? Nx]; apply Nx; cbn [In]; intuition subst; auto).
  assert (D23 : forall c, In c (given_at unused) -> In c (given_at errors) -> False).
  { intros c Ic Jc. apply NoDup_remove_1 in Ap || idtac. destruct used as [[u|]|], unused as [[v|]|], errors as [[w|]|]; cbn [given_at app In] in *; try tauto;
      repeat match goal with K : NoDup (_ :: _) |- _ => inversion K; clear K; subst end; cbn [In] in *; intuition (subst; auto). }
  destruct (populate_ok infos h3 a kvs data x y z us ns es) as (h' & data' & us' & ns' & es' & pre & post & E & (S1 & S2 & S3) & K & P & So & Df & Po); auto.
  { eapply holds_extends; eauto. }
  { apply nodup3; intros c Ic Jc.
    - apply I1 in Ic. apply I2 in Jc. destruct Ic as [Ic|Ic], Jc as [Jc|Jc]; try lia; [eauto|apply Gu in Ic; lia|apply Gn in Jc; lia].
    - apply I1 in Ic. apply I3 in Jc. destruct Ic as [Ic|Ic], Jc as [Jc|Jc]; try lia; [eauto|apply Gu in Ic; lia|apply Ge in Jc; lia].
    - apply I2 in Ic. apply I3 in Jc. destruct Ic as [Ic|Ic], Jc as [Jc|Jc]; try lia; [eauto|apply Gn in Ic; lia|apply Ge in Jc; lia]. }
  { split; [|split; [|auto]]; eapply listed_extends; [|eassumption| |eassumption]; eauto. eapply extends_trans; eauto. }
  rewrite E. cbn [bind]. exists h', data', (option_map Some x), (option_map Some y), (option_map Some z), us', ns', es', pre, post. split; [reflexivity|].
  split; [auto|]. split; [auto|]. split; [auto|].
  assert (TL : forall o l, listed h' o l -> text_list h' (option_map Some o) l) by (intros [o|] l; cbn; auto).
  split; [auto|]. split; [auto|]. split; [auto|]. split; [|auto 8].
  intros c Lc Nc. destruct K as (Lk & K). destruct (K c ltac:(lia)) as (K1 & _). rewrite K1; [apply extends_get; auto|].
  intros I. apply Nc. apply in_app_or in I as [I|I]; [|apply in_app_or in I as [I|I]]; apply in_or_app.
  - left. apply I1 in I. destruct I; [auto|lia].
  - right. apply in_or_app. left. apply I2 in I. destruct I; [auto|lia].
  - right. apply in_or_app. right. apply I3 in I. destruct I; [auto|lia].
Qed.

(** * Entries from an object *)
Lemma info_one h a k v : holds h (JObj [(k, v)]) a ->
  (exists z, v = JI64 z /\ - 2 ^ 31 <= z < 2 ^ 31) \/ (exists s, v = JStr s /\ ~ In 0 s) ->
  exists info, json_to_bind_info byval_str_mk h (Some a) = Ok [info] /\ entry_is k v info.
Proof.
  intros H V. apply holds_obj in H as (m & kas & Em & R & F). unfold json_to_bind_info. rewrite (object_at_ok _ _ _ Em). cbn [bind]. unfold map_iterate.
  inversion F as [|? ka ? kas' (Ek & Hv) F']; subst. inversion F'; subst. cbn [fst snd] in *. subst k.
  pose proof (visited_rep _ _ _ R) as P. cbn [map] in P. apply Permutation_sym, Permutation_length_1_inv in P. rewrite P.
  assert (Sz : m_size m = 1). { destruct R as (_ & _ & _ & _ & Sm). exact Sm. }
  unfold map_size. rewrite Sz. change (Z.to_nat (to_int32 1)) with 1%nat. change (Z.to_nat 1 + 1)%nat with 2%nat. cbn [fold_left repeat firstn forallb andb bind].
  change (0 =? 0) with true. cbn [negb].
  destruct V as [(z & -> & B)|(s & -> & N)]; destruct Hv as (nd & En & Hv); injection En as <-; cbn [load]; rewrite Hv; cbn [of_option bind fill_slots byval_str_mk entries]; eexists; (split; [reflexivity|]).
  - split; [auto|]. split; [auto|]. split; [|auto]. split; [auto|]. split; [auto|]. cbn [i_type i_data]. intros limit. rewrite to_int32_id by auto. apply (den_int limit (BindData z 0 None 0 true false)).
  - split; [auto|]. split; [auto|]. split; [|auto]. split; [auto|]. split; [auto|]. cbn [i_type i_data]. intros limit L. apply den_string with (rest := []); auto.
Qed.

(** * Composing statements *)
Lemma joined_snoc l x : joined (l ++ [x]) = match l with [] => x | _ => joined l ++ 44 :: x end.
Proof.
  induction l as [|y l IH]; [auto|]. destruct l as [|z l]; [auto|]. change (joined ((y :: z :: l) ++ [x])) with (y ++ 44 :: joined ((z :: l) ++ [x])). rewrite IH.
  change (joined (y :: z :: l)) with (y ++ 44 :: joined (z :: l)). rewrite <- app_assoc. auto.
Qed.
Lemma joined_nil l : Forall (fun x => x <> []) l -> joined l = [] -> l = [].
Proof.
  destruct l as [|y l]; [auto|]. intros F E. exfalso. apply (Forall_inv F). destruct l; [auto|]. cbn [joined] in E. apply app_eq_nil in E as (E & _). auto.
Qed.
Lemma joined_case {A} l (x : A) y : Forall (fun x => x <> []) l -> (match joined l with [] => x | _ => y end) = match l with [] => x | _ => y end.
Proof. intros F. destruct (joined l) eqn:E; [apply joined_nil in E; subst; auto|]. destruct l; [discriminate|auto]. Qed.
Lemma cat_joined l x : Forall (fun x => x <> []) l -> cat (joined l) x = joined (l ++ [x]).
Proof.
  intros F. rewrite joined_snoc. unfold cat. rewrite joined_case by auto. destruct l; auto.
Qed.

Lemma has_data_ok data i n info : covers data n -> (i < n)%nat ->
  exists b, has_data data i = Ok b /\ (b || d_has_value (i_data info) = true <-> has_value_for data i info).
Proof.
  intros C L. unfold has_data, has_value_for, given. destruct data as [l|].
  - cbn [covers] in C. destruct (nth_error l i) as [d|] eqn:E; [|apply nth_error_None in E; lia]. cbn [of_option bind]. exists (d_has_value d). split; [auto|].
    rewrite orb_true_iff. split; (intros [H|H]; [left|right; auto]); [exists d; auto|]. destruct H as (d' & Eq & H). congruence.
  - exists false. split; [auto|]. cbn [orb]. split; [auto|]. intros [(d & Eq & _)|H]; [discriminate|auto].
Qed.

Lemma compose_loop h a kvs data : holds h (JObj kvs) a -> forall infos i n sets inss, n = (i + length infos)%nat -> covers data n -> Forall (fun info => i_col info <> []) infos ->
  Forall (fun x => x <> []) (map assignment sets) -> Forall (fun x => x <> []) (map i_col inss) ->
  exists s c, picked (to_set kvs data) i infos s /\ picked (to_insert data) i infos c /\
    forall set ins, 
    compose h (Some a) infos data i (if set : bool then Some (joined (map assignment sets)) else None) (if ins : bool then Some (joined (map i_col inss), joined (map i_var inss)) else None) =
    Ok (if set then Some (joined (map assignment (sets ++ s))) else None, if ins then Some (joined (map i_col (inss ++ c)), joined (map i_var (inss ++ c))) else None).
Proof.
  intros H. induction infos as [|info infos IH]; intros i n sets inss En C Fc Fs Fi.
  - exists [], []. split; [constructor|]. split; [constructor|]. intros set ins. cbn [compose]. rewrite !app_nil_r. auto.
  - cbn [length] in En. destruct (has_data_ok data i n info C ltac:(lia)) as (b & Eb & Hb).
    set (b' := b || d_has_value (i_data info)) in *.
    set (in_obj := match lookup (i_col info) kvs with Some _ => true | None => false end).
    set (sets' := if in_obj && negb (i_no_update info) && b' then sets ++ [info] else sets).
    set (inss' := if b' || i_not_null info then inss ++ [info] else inss).
    assert (Ne : forall x, assignment x <> []) by (intros x; unfold assignment; destruct (i_col x); discriminate).
    destruct (IH (S i) n sets' inss') as (s & c & Ps & Pc & E); [lia|auto|apply (Forall_inv_tail Fc)| | |].
    { apply Forall_forall. intros x Ix. apply in_map_iff in Ix as (y & <- & _). apply Ne. }
    { unfold inss'. destruct (b' || i_not_null info); [|auto]. rewrite map_app. apply Forall_app. split; [auto|]. constructor; [apply (Forall_inv Fc)|constructor]. }
    assert (Ts : in_obj && negb (i_no_update info) && b' = true <-> to_set kvs data i info).
    { unfold to_set. rewrite !andb_true_iff, negb_true_iff, Hb. unfold in_obj. destruct (lookup (i_col info) kvs) as [v|] eqn:El.
      - apply lookup_in in El. apply (in_map fst) in El. cbn [fst] in El. tauto.
      - apply lookup_none in El. split; [intros ((X & _) & _); discriminate|tauto]. }
    assert (Ti : b' || i_not_null info = true <-> to_insert data i info) by (unfold to_insert; rewrite orb_true_iff, Hb; tauto).
    exists (if in_obj && negb (i_no_update info) && b' then info :: s else s), (if b' || i_not_null info then info :: c else c).
    split; [|split].
    + destruct (in_obj && negb (i_no_update info) && b'); [apply picked_yes; [tauto|auto]|apply picked_no; [|auto]]. intros X. apply Ts in X. discriminate.
    + destruct (b' || i_not_null info); [apply picked_yes; [tauto|auto]|apply picked_no; [|auto]]. intros X. apply Ti in X. discriminate.
    + intros set ins. cbn [compose].
      assert (Eg : exists o, object_get h (Some a) (Some (i_col info)) = Ok o /\ in_obj = match o with Some _ => true | None => false end).
      { destruct (object_get_ok h kvs a (i_col info) H) as (o & Eo & G). exists o. split; [auto|]. unfold in_obj. destruct (lookup (i_col info) kvs) as [v|].
        - destruct G as (x & -> & _). auto.
        - subst o. auto. }
      destruct Eg as (o & Eo & Ein). rewrite Eo. cbn [bind].
      assert (E1 : (match o, (if set then Some (joined (map assignment sets)) else None) with
        | Some _, Some s0 => if i_no_update info then Ok (Some s0) else bind (has_data data i) (fun b0 => Ok (Some (if b0 || d_has_value (i_data info) then cat s0 (i_col info ++ 61 :: i_var info) else s0)))
        | _, _ => Ok (if set then Some (joined (map assignment sets)) else None) end) = Ok (if set then Some (joined (map assignment sets')) else None)).
      { unfold sets'. rewrite Ein. destruct set; [|destruct o; auto]. destruct o; [|auto]. destruct (i_no_update info); [auto|]. rewrite Eb. cbn [bind negb andb]. fold b'.
        destruct b'; [|auto]. change (i_col info ++ 61 :: i_var info) with (assignment info). rewrite cat_joined by auto. rewrite map_app. auto. }
      rewrite E1. cbn [bind].
      assert (E2 : (match (if ins then Some (joined (map i_col inss), joined (map i_var inss)) else None) with
        | Some (cols, vars) => bind (has_data data i) (fun b0 => Ok (Some (if b0 || d_has_value (i_data info) || i_not_null info then match cols with [] => (cols ++ i_col info, vars ++ i_var info) | _ => (cols ++ 44 :: i_col info, vars ++ 44 :: i_var info) end else (cols, vars))))
        | None => Ok None end) = Ok (if ins then Some (joined (map i_col inss'), joined (map i_var inss')) else None)).
      { destruct ins; [|auto]. rewrite Eb. cbn [bind]. fold b'. unfold inss'. destruct (b' || i_not_null info); [|auto]. f_equal. f_equal. rewrite !map_app. cbn [map]. rewrite !joined_snoc.
        rewrite joined_case by auto. destruct inss as [|y inss]; cbn [map]; auto. }
      rewrite E2. cbn [bind]. rewrite E. f_equal. f_equal; [destruct set|destruct ins]; auto; unfold sets', inss'.
      * destruct (in_obj && negb (i_no_update info) && b'); [rewrite <- app_assoc|]; auto.
      * destruct (b' || i_not_null info); [rewrite <- app_assoc|]; auto.
Qed.
