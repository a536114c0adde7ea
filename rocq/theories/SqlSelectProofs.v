(** Proofs about select statements. *)
From Coq Require Import ZArith List Bool Lia.
From Verif Require Import Base ArrayLemmas TsearchModel MapModel MapProofs ListModel ListProofs Json JsonTokModel JsonHeapModel JsonHeapSpec JsonHeapProofs JsonFrame
  JsonMergeProofs JsonFieldProofs JsonSelectModel JsonSelectSpec JsonSelectProofs SqlModel SqlSpec SqlProofs SqlSelectModel SqlSelectSpec.
Import ListNotations.
Open Scope Z_scope.
Lemma no_error_node h a n : nth_error h a = Some n -> (forall m, n <> NObj m) -> error_of h (Some a) = Ok None.
Proof. intros E N. unfold error_of, select, key_error. cbn - [map_find find_token]. rewrite E. cbn [of_option bind]. destruct n; try reflexivity. exfalso. eapply N. reflexivity. Qed.
Lemma no_error_arr h a l : nth_error h a = Some (NArr l) -> error_of h (Some a) = Ok None.
Proof. intros E. apply (no_error_node h a _ E). discriminate. Qed.
Lemma select_zero h a l : nth_error h a = Some (NArr l) -> select 10 h (Some a) [91; 48; 93] [] = array_get h (Some a) 0.
Proof.
  intros E. unfold select. cbn - [array_get]. rewrite E. cbn [of_option bind]. destruct (array_get h (Some a) 0) as [[x|]|]; reflexivity.
Qed.
Local Arguments Z.add : simpl never.
Local Arguments Z.of_nat : simpl never.
Local Arguments Z.to_nat : simpl never.

(** * Objects given member by member *)
Notation tdec := (list_eq_dec Z.eq_dec).
Definition pick (l : list (text * json)) (k : text) : list (text * json) := match lookup k (rev l) with Some v => [(k, v)] | None => [] end.
Definition first_keys (l : list (text * json)) : list text := rev (nodup tdec (rev (map fst l))).

Lemma lookup_app {A} k (l l' : list (text * A)) : lookup k (l ++ l') = match lookup k l with Some v => Some v | None => lookup k l' end.
Proof. induction l as [|(k', v) l IH]; [auto|]. cbn [app lookup]. destruct (tdec k k'); auto. Qed.
Lemma lookup_rev (l : list (text * json)) k : In k (map fst l) -> lookup k (rev l) <> None.
Proof. intros I E. apply lookup_none in E. apply E. rewrite map_rev. apply -> in_rev. auto. Qed.
Lemma first_keys_in l k : In k (first_keys l) <-> In k (map fst l).
Proof. unfold first_keys. rewrite <- in_rev, nodup_In, <- in_rev. tauto. Qed.
Lemma first_keys_snoc l k v : first_keys (l ++ [(k, v)]) = if in_dec tdec k (map fst l) then first_keys l else first_keys l ++ [k].
Proof.
  unfold first_keys. rewrite map_app, rev_app_distr. cbn [map fst rev app nodup].
  destruct (in_dec tdec k (rev (map fst l))) as [I|I]; destruct (in_dec tdec k (map fst l)) as [J|J]; auto; exfalso.
  - apply J, in_rev, I.
  - apply I. apply -> in_rev. auto.
Qed.
Lemma pick_snoc l k v k' : pick (l ++ [(k, v)]) k' = if tdec k' k then [(k', v)] else pick l k'.
Proof. unfold pick. rewrite rev_app_distr. cbn [rev app lookup]. destruct (tdec k' k); auto. Qed.
Lemma picked l k v : forall ks, NoDup ks -> (forall x, In x ks -> lookup x (rev l) <> None) ->
  flat_map (pick (l ++ [(k, v)])) ks = if in_dec tdec k ks then put k v (flat_map (pick l) ks) else flat_map (pick l) ks.
Proof.
  induction ks as [|x ks IH]; intros N H; [reflexivity|]. inversion N as [|? ? N1 N2]; subst.
  cbn [flat_map]. rewrite pick_snoc, IH by (auto; intros; apply H; right; auto).
  destruct (lookup x (rev l)) as [y|] eqn:E; [|exfalso; apply (H x); [left; auto|auto]].
  assert (Ep : pick l x = [(x, y)]) by (unfold pick; rewrite E; auto). rewrite Ep. cbn [app put].
  destruct (in_dec tdec k (x :: ks)) as [I|I]; destruct (in_dec tdec k ks) as [J|J].
  - destruct (tdec x k) as [->|Ne]; [contradiction|]. destruct (tdec k x) as [->|]; [congruence|]. auto.
  - destruct I as [->|I]; [|contradiction]. destruct (tdec k k); [auto|congruence].
  - exfalso. apply I. right. auto.
  - destruct (tdec x k) as [->|Ne]; [exfalso; apply I; left; auto|]. auto.
Qed.
Lemma picked_keys l ks k : In k (map fst (flat_map (pick l) ks)) -> In k ks.
Proof.
  intros I. apply in_map_iff in I as ((k', v) & <- & I). apply in_flat_map in I as (x & Ix & I). unfold pick in I.
  destruct (lookup x (rev l)); [|destruct I]. destruct I as [I|[]]. injection I as <- <-. auto.
Qed.
Lemma object_of_snoc l k v : object_of (l ++ [(k, v)]) = put k v (object_of l).
Proof.
  change (flat_map (pick (l ++ [(k, v)])) (first_keys (l ++ [(k, v)])) = put k v (flat_map (pick l) (first_keys l))).
  assert (N : NoDup (first_keys l)) by (unfold first_keys; apply NoDup_rev, NoDup_nodup).
  assert (H : forall x, In x (first_keys l) -> lookup x (rev l) <> None) by (intros x I; apply lookup_rev, first_keys_in, I).
  rewrite first_keys_snoc. destruct (in_dec tdec k (map fst l)) as [I|I].
  - rewrite picked by auto. apply first_keys_in in I. destruct (in_dec tdec k (first_keys l)); [auto|contradiction].
  - rewrite flat_map_app, picked by auto. destruct (in_dec tdec k (first_keys l)) as [J|J]; [exfalso; apply I, first_keys_in, J|].
    rewrite put_fresh; [|apply lookup_none; intros X; apply J; eapply picked_keys; eauto].
    f_equal. cbn [flat_map]. rewrite pick_snoc. destruct (tdec k k); [auto|congruence].
Qed.
Lemma put_length {A} k (v : A) l : (length (put k v l) <= S (length l))%nat.
Proof. induction l as [|(k', v') l IH]; cbn [put length]; [auto|]. destruct (tdec k k'); cbn [length]; lia. Qed.
Lemma object_of_length l : (length (object_of l) <= length l)%nat.
Proof.
  induction l as [|(k, v) l IH] using rev_ind; [auto|]. rewrite object_of_snoc, app_length. cbn [length].
  pose proof (put_length k v (object_of l)). lia.
Qed.

(** * A row *)
Lemma before_nul_ok t : column_text t = before_nul t.
Proof.
  induction t as [|c t IH]; [auto|]. unfold column_text in *. cbn [c_string_n before_nul]. rewrite IH.
  destruct (Z.eqb_spec c 0), (Z.eq_dec c 0); auto; contradiction.
Qed.
Lemma flag_ok flag infos name :
  flag_of flag infos name = match find (fun i => if tdec (i_col i) name then true else false) infos with Some i => flag i | None => false end.
Proof.
  induction infos as [|i infos IH]; [auto|]. cbn [flag_of find]. rewrite strcmp_eqb. destruct (tdec (i_col i) name); auto.
Qed.
Lemma returned_ok info name : column_flag i_no_return info name = negb (returned info name).
Proof.
  unfold column_flag, returned, entry_for. destruct info as [infos|]; [|auto]. rewrite flag_ok. destruct (find _ infos); [rewrite negb_involutive; auto|auto].
Qed.
Lemma labelled_ok info name : column_flag i_no_label info name = negb (labelled info name).
Proof.
  unfold column_flag, labelled, entry_for. destruct info as [infos|]; [|auto]. rewrite flag_ok. destruct (find _ infos); [rewrite negb_involutive; auto|auto].
Qed.
Lemma node_ok v : exists n, column_node byval_str_mk v = Ok n /\ leaf_node (value_json v) = Some n.
Proof.
  destruct v; cbn [column_node value_json byval_str_mk bind leaf_node]; eexists; (split; [reflexivity|]); auto. rewrite before_nul_ok. auto.
Qed.

Definition leafs (h : heap) (kjs : list (text * json)) (kas : list (text * nat)) : Prop :=
  Forall2 (fun kj ka => fst kj = fst ka /\ exists n, leaf_node (snd kj) = Some n /\ nth_error h (snd ka) = Some n) kjs kas.
Lemma leafs_put h kjs kas k j x n : leafs h kjs kas -> leaf_node j = Some n -> nth_error h x = Some n -> leafs h (put k j kjs) (put k x kas).
Proof.
  intros F L E. induction F as [|(k1, j1) (k2, x2) kjs kas (Ek & n1 & L1 & E1) F IH]; cbn [put].
  - constructor; [|constructor]. cbn [fst snd]. split; [auto|exists n; auto].
  - cbn [fst snd] in *. subst k2. destruct (tdec k k1); constructor; auto; cbn [fst snd]; (split; [auto|]); [exists n|exists n1]; auto.
Qed.
Lemma leafs_frame h h' kjs kas : leafs h kjs kas -> leaves_kept h h' -> leafs h' kjs kas.
Proof.
  intros F K. induction F as [|kj ka kjs kas (Ek & n & L & E) F IH]; constructor; auto. split; [auto|]. exists n. split; [auto|].
  apply K; [auto|]. eapply leaf_is_leaf; eauto.
Qed.
Lemma leafs_members h kjs kas : leafs h kjs kas -> members h kjs kas /\ mconts h kjs kas = [].
Proof.
  intros F. induction F as [|(k, j) (k', x) kjs kas (Ek & n & L & E) F (IH1 & IH2)]; [split; [constructor|auto]|]. cbn [fst snd] in *. split.
  - constructor; [|auto]. cbn [fst snd]. split; [auto|]. apply (holds_leaf h j x n L). auto.
  - rewrite mconts_cons, IH2. cbn [snd]. rewrite (containers_leaf h j x n L). auto.
Qed.
Lemma leafs_length h kjs kas : leafs h kjs kas -> length kjs = length kas.
Proof. apply forall2_len. Qed.

Lemma set_leaf h obj m kas k n : nth_error h obj = Some (NObj m) -> mrep strcmp m (wrapped kas) -> Z.of_nat (length kas) <= 2 ^ 64 -> is_leaf n = true ->
  exists h' m', object_set byval_str_mk (h ++ [n]) (Some obj) k (Some (length h)) = Ok h' /\
    nth_error h' obj = Some (NObj m') /\ mrep strcmp m' (wrapped (put k (length h) kas)) /\ nth_error h' (length h) = Some n /\
    length h' = S (length h) /\ (forall c, (c < length h)%nat -> c <> obj -> nth_error h' c = nth_error h c) /\ leaves_kept h h'.
Proof.
  intros E R B L. assert (Lo : (obj < length h)%nat) by (apply nth_error_Some; congruence).
  assert (E1 : nth_error (h ++ [n]) obj = Some (NObj m)) by (rewrite alloc_other; auto).
  destruct (add_field_ok (h ++ [n]) obj m kas k (length h) E1 R B) as (m' & Ea & R').
  exists (store (h ++ [n]) obj (NObj m')), m'. split.
  { unfold object_set. rewrite (object_at_ok _ _ _ E1). cbn [bind load]. rewrite alloc_new. exact Ea. }
  split; [eapply store_same; eauto|]. split; [auto|]. split; [rewrite store_other by lia; apply alloc_new|].
  split; [rewrite store_length, app_length; cbn [length]; lia|].
  assert (Fr : forall c, (c < length h)%nat -> c <> obj -> nth_error (store (h ++ [n]) obj (NObj m')) c = nth_error h c) by (intros; rewrite store_other, alloc_other; auto).
  split; [auto|]. intros c nd Ec Lc. rewrite Fr; [auto|apply nth_error_Some; congruence|intros ->; rewrite E in Ec; injection Ec as <-; discriminate].
Qed.

Definition jcols (cols : list (text * sqlv)) : list (text * json) := map (fun nv => (fst nv, value_json (snd nv))) cols.
Definition chosen (info : option (list bind_info)) (names : list text) (vs : list sqlv) : list (text * sqlv) :=
  filter (fun nv => returned info (fst nv)) (combine names vs).

Lemma last_cons {A} (r : list A) : forall c d, last (c :: r) d = last r c.
Proof. induction r as [|a r IH]; intros c d; [auto|]. change (last (a :: r) d = last (a :: r) c). rewrite !IH. auto. Qed.
Lemma row_loop_ok obj info row : forall names vs pre done h m kas single nl,
  row = pre ++ vs -> length vs = length names ->
  nth_error h obj = Some (NObj m) -> mrep strcmp m (wrapped kas) -> leafs h (object_of (jcols done)) kas ->
  Z.of_nat (length done + length names) <= 2 ^ 64 ->
  exists h' single' nl' m' kas', row_loop byval_str_mk h obj info names (length pre) (Some row) single nl = Ok (h', single', nl') /\
    nth_error h' obj = Some (NObj m') /\ mrep strcmp m' (wrapped kas') /\ leafs h' (object_of (jcols (done ++ chosen info names vs))) kas' /\
    (length h <= length h')%nat /\ (forall c, (c < length h)%nat -> c <> obj -> nth_error h' c = nth_error h c) /\ leaves_kept h h' /\
    match chosen info names vs with
    | [] => single' = single /\ nl' = nl
    | c :: r => exists x n, single' = Some x /\ leaf_node (value_json (snd (last r c))) = Some n /\ nth_error h' x = Some n /\ nl' = negb (labelled info (fst (last r c)))
    end.
Proof.
  induction names as [|name names IH]; intros vs pre done h m kas single nl Er Lv E R F B; destruct vs as [|v vs]; try discriminate.
  - exists h, single, nl, m, kas. cbn [row_loop]. unfold chosen. cbn [combine filter]. rewrite app_nil_r.
    split; [auto|]. split; [auto|]. split; [auto|]. split; [auto|]. split; [auto|]. split; [auto|]. split; [intros c n Ec _; auto|auto].
  - cbn [row_loop]. rewrite returned_ok. unfold chosen. cbn [combine filter fst].
    assert (Er' : row = (pre ++ [v]) ++ vs) by (rewrite <- app_assoc; auto).
    assert (Lp : length (pre ++ [v]) = S (length pre)) by (rewrite app_length; cbn [length]; lia).
    cbn [length] in Lv. destruct (returned info name) eqn:Rt; cbn [negb].
    + rewrite labelled_ok. assert (Ei : nth_error row (length pre) = Some v) by (rewrite Er, nth_error_app2, Nat.sub_diag by auto; auto).
      cbn [column_of]. rewrite Ei. cbn [of_option bind].
      destruct (node_ok v) as (n & En & Ln). rewrite En. cbn [bind alloc].
      pose proof (leafs_length _ _ _ F) as Lf. pose proof (object_of_length (jcols done)) as Lo.
      assert (Lj : length (jcols done) = length done) by apply map_length.
      cbn [length] in B.
      destruct (set_leaf h obj m kas name n E R ltac:(lia) (leaf_is_leaf _ _ Ln)) as (h1 & m1 & E1 & Eo & R1 & Ex & L1 & O1 & K1).
      rewrite E1. cbn [bind].
      destruct (IH vs (pre ++ [v]) (done ++ [(name, v)]) h1 m1 (put name (length h) kas) (Some (length h)) (negb (labelled info name)) Er' ltac:(lia) Eo R1)
        as (h' & s' & nl' & m' & kas' & E2 & Eo2 & R2 & F2 & L2 & O2 & K2 & Q).
      { unfold jcols. rewrite map_app. cbn [map fst snd]. rewrite object_of_snoc. apply (leafs_put h1 _ _ name (value_json v) (length h) n); auto.
        eapply leafs_frame; eauto. }
      { rewrite app_length. cbn [length]. lia. }
      rewrite Lp in E2. exists h', s', nl', m', kas'. split; [exact E2|]. split; [auto|]. split; [auto|].
      split; [rewrite <- app_assoc in F2; exact F2|]. split; [lia|]. split; [intros c Lc Nc; rewrite O2, O1; auto; lia|].
      split; [intros c nd Ec Lc; apply K2; auto|]. fold (chosen info names vs). destruct (chosen info names vs) as [|c r].
      * destruct Q as (-> & ->). exists (length h), n. cbn [last fst snd]. split; [auto|]. split; [auto|]. split; [|auto].
        apply K2; [auto|]. eapply leaf_is_leaf; eauto.
      * destruct Q as (x & nd & Q). exists x, nd. rewrite last_cons. exact Q.
    + destruct (IH vs (pre ++ [v]) done h m kas single nl Er' ltac:(lia) E R F) as (h' & s' & nl' & m' & kas' & E2 & H); [cbn [length] in B; lia|].
      rewrite Lp in E2. exists h', s', nl', m', kas'. split; [exact E2|exact H].
Qed.

(** The lists that are collected: their arrays and objects are new. *)
Definition collects (b : nat) (h : heap) (js : list json) (a : nat) : Prop :=
  exists l xs, nth_error h a = Some (NArr l) /\ rep l (map Some xs) /\ Forall2 (holds h) js xs /\ ~ In a (conts h js xs) /\ (b <= a)%nat /\
    forall c, In c (conts h js xs) -> (b <= c)%nat.
Lemma collects_holds b h js a : collects b h js a -> holds h (JArr js) a /\ forall c, In c (containers h (JArr js) a) -> (b <= c)%nat.
Proof.
  intros (l & xs & E & R & F & _ & Lb & Cb). split; [apply holds_arr; exists l, xs; auto|]. rewrite (containers_arr h a l xs js E R).
  intros c [<-|I]; auto.
Qed.
Lemma row_value_chosen info names vs : length vs = length names ->
  (exists n v, names = [n] /\ vs = [v] /\ returned info n = true /\ labelled info n = false /\ row_value info names vs = value_json v) \/
  (row_value info names vs = JObj (object_of (jcols (chosen info names vs))) /\
   (length names = 1%nat -> match chosen info names vs with [] => True | c :: r => labelled info (fst (last r c)) = true end)).
Proof.
  intros L. unfold row_value. fold (chosen info names vs). destruct names as [|n [|n2 names]].
  - right. destruct vs; [|discriminate]. split; [reflexivity|discriminate].
  - destruct vs as [|v [|]]; try discriminate. unfold chosen. cbn [combine filter fst].
    destruct (returned info n) eqn:Rn; [|right; split; [reflexivity|auto]]. destruct (labelled info n) eqn:Ln; [right|left; exists n, v; auto 6].
    split; [|intros _; cbn [last fst]; exact Ln]. change (jcols [(n, v)]) with ([] ++ [(n, value_json v)]). rewrite object_of_snoc. reflexivity.
  - right. split; [|discriminate]. destruct (chosen info (n :: n2 :: names) vs) as [|(x, y) [|]]; reflexivity.
Qed.

Lemma append_fresh b h a js x j : collects b h js a -> holds h j x -> (forall c, In c (containers h j x) -> (b <= c)%nat /\ c <> a) ->
  exists h', array_append h a (Some x) = Ok h' /\ collects b h' (js ++ [j]) a /\ length h' = length h /\ (forall c, c <> a -> nth_error h' c = nth_error h c).
Proof.
  intros (l & xs & E & R & F & Na & Lb & Cb) H Hc. destruct (array_append_ok h a l xs x E R) as (l2 & Ea & R2). exists (store h a (NArr l2)).
  assert (K : leaves_kept h (store h a (NArr l2))) by (eapply store_leaves; eauto).
  assert (A1 : agree h (store h a (NArr l2)) (conts h js xs)) by (intros c I; apply store_other; intros ->; auto).
  assert (A2 : agree h (store h a (NArr l2)) (containers h j x)) by (intros c I; apply store_other; intros ->; apply (Hc a I); auto).
  destruct (frame_arr h _ js xs K F A1) as (F1 & C1). destruct (frame h _ K (size j) j x (le_n _) H A2) as (F2 & C2).
  assert (Ec : conts (store h a (NArr l2)) (js ++ [j]) (xs ++ [x]) = conts h js xs ++ containers h j x).
  { rewrite conts_app by (apply (forall2_len F)). rewrite C1, conts_cons, C2. cbn [conts zip concat]. unfold conts. cbn [zip concat]. rewrite app_nil_r. auto. }
  split; [auto|]. split; [|split; [apply store_length|intros c Nc; apply store_other; auto]].
  exists l2, (xs ++ [x]). split; [eapply store_same; eauto|]. split; [auto|]. split; [apply Forall2_app; auto|]. rewrite Ec.
  split; [|split; [auto|]].
  - intros I. apply in_app_or in I as [I|I]; [auto|]. apply (Hc a I). auto.
  - intros c I. apply in_app_or in I as [I|I]; [auto|apply Hc; auto].
Qed.

Lemma collects_frame b h h' js a : collects b h js a -> leaves_kept h h' -> (forall c, (c < length h)%nat -> nth_error h' c = nth_error h c) -> collects b h' js a.
Proof.
  intros (l & xs & E & R & F & Na & Lb & Cb) K O.
  assert (A : agree h h' (conts h js xs)).
  { intros c I. apply O. apply in_conts in I as (j & x & _ & _ & Hj & I); [|auto]. destruct (container_node h (size j) j x c (le_n _) Hj I) as (nd & En & _).
    apply nth_error_Some. congruence. }
  destruct (frame_arr h h' js xs K F A) as (F1 & C1). exists l, xs. rewrite C1. split; [rewrite O; [auto|apply nth_error_Some; congruence]|]. auto 8.
Qed.

Lemma a_row_ok b h js a info names row : collects b h js a -> (b <= length h)%nat -> length row = length names -> Z.of_nat (length names) <= 2 ^ 64 ->
  exists h', get_a_row byval_str_mk a info h names (Some row) = Ok (h', 0) /\ collects b h' (js ++ [row_value info names row]) a /\
    (length h <= length h')%nat /\ (forall c, (c < length h)%nat -> c <> a -> nth_error h' c = nth_error h c).
Proof.
  intros C Lb Lr B. unfold get_a_row. cbn [alloc].
  assert (La : (a < length h)%nat) by (destruct C as (l & ? & E & _); apply nth_error_Some; congruence).
  assert (E0 : nth_error (h ++ [NObj map_mk]) (length h) = Some (NObj map_mk)) by apply alloc_new.
  destruct (row_loop_ok (length h) info row names row [] [] (h ++ [NObj map_mk]) map_mk [] None false eq_refl Lr E0 (mrep_mk (V := nat) strcmp) (Forall2_nil _))
    as (h1 & s1 & nl & m1 & kas & E1 & Eo & R1 & F1 & L1 & O1 & K1 & Q); [cbn [length]; lia|].
  cbn [length] in E1. rewrite E1. cbn [bind app] in *. rewrite app_length in L1, O1. cbn [length] in L1, O1.
  assert (Oh : forall c, (c < length h)%nat -> nth_error h1 c = nth_error h c) by (intros c Lc; rewrite O1, alloc_other by lia; auto).
  assert (Kh : leaves_kept h h1) by (intros c n Ec _; rewrite Oh; [auto|apply nth_error_Some; congruence]).
  assert (C1 : collects b h1 js a) by (eapply collects_frame; eauto).
  destruct (row_value_chosen info names row Lr) as [(n & v & -> & -> & Rn & Ln & Ev)|(Ev & Lab)].
  - rewrite Ev. unfold chosen in Q. cbn [combine filter fst] in Q. rewrite Rn in Q. cbn [last fst snd] in Q. destruct Q as (x & nd & -> & Lf & Ex & ->).
    rewrite Ln. cbn [length Nat.eqb negb andb].
    destruct (append_fresh b h1 a js x (value_json v) C1) as (h2 & E2 & C2 & L2 & O2).
    { apply (holds_leaf h1 _ x nd Lf). auto. }
    { intros c I. rewrite (containers_leaf h1 _ x nd Lf) in I. destruct I. }
    rewrite E2. cbn [bind]. exists h2. split; [auto|]. split; [auto|]. split; [lia|]. intros c Lc Nc. rewrite O2; auto.
  - rewrite Ev. set (kjs := object_of (jcols (chosen info names row))) in *. destruct (leafs_members h1 kjs kas F1) as (Mm & Mc).
    assert (Ho : holds h1 (JObj kjs) (length h)) by (apply holds_obj; exists m1, kas; auto).
    assert (El : ((length names =? 1)%nat && nl)%bool = false).
    { destruct (Nat.eqb_spec (length names) 1) as [L1n|]; [|auto]. specialize (Lab L1n). destruct (chosen info names row) as [|c r]; [destruct Q as (_ & ->); auto|].
      destruct Q as (x & nd & _ & _ & _ & ->). rewrite Lab. auto. }
    rewrite El. destruct (append_fresh b h1 a js (length h) (JObj kjs) C1 Ho) as (h2 & E2 & C2 & L2 & O2).
    { intros c I. rewrite (containers_obj h1 (length h) m1 kas kjs Eo R1), Mc in I. destruct I as [<-|[]]. lia. }
    rewrite E2. cbn [bind]. exists h2. split; [auto|]. split; [auto|]. split; [lia|]. intros c Lc Nc. rewrite O2; auto.
Qed.

(** * The statement *)
Section Select.
Variable DB : Type.
Variable prepare : DB -> text -> Z * list (option text).
Variable exec : DB -> text -> list sqlv -> DB * list (list sqlv) * Z.
Variable columns : DB -> text -> list text.
Variable limit : Z.
Variable counters : DB -> counts.
Variable msg_unbound : text -> Z -> text -> text.
Variable msg_failed : Z -> text -> text.
Hypothesis limit_small : limit < 2 ^ 31.
Notation bind_run_sql := (bind_run_sql DB prepare exec limit msg_unbound msg_failed byval_str_mk).
Notation World := (World DB).
Notation can_run := (can_run DB prepare limit).
Notation runs_with := (runs_with DB prepare limit).

Definition code_of (rows : list (list sqlv)) (fin : Z) : Z := match rows with [] => fin | _ => SQLITE_ROW end.
Lemma run_take w info data sql : can_run info data (w_db DB w) sql ->
  exists vals, runs_with info data (w_db DB w) sql vals /\
    forall db' rows fin, exec (w_db DB w) sql vals = (db', rows, fin) ->
    bind_run_sql w info data sql true (Some None) =
      Ok (code_of rows fin, World db' (w_open DB w + 1) (w_heap DB w ++ [NObj map_mk]), Some (Some (length (w_heap DB w))), Some (Stmt sql vals rows fin)).
Proof.
  intros (Ok0 & C). destruct (prepare (w_db DB w) sql) as (rc0, params) eqn:P. cbn [fst snd] in *. subst rc0. destruct info as [infos|].
  - unfold runs_with, SqlSelectSpec.runs_with in *. rewrite P in *. cbn [snd] in *. destruct C as (N & Cv & Np & Nm & Sp).
    assert (NN : forall p, In p params -> p <> None).
    { intros p I ->. rewrite Forall_forall in Nm. destruct (Nm None I) as (i & _ & E). discriminate. }
    destruct (run_ok DB prepare exec limit msg_unbound msg_failed limit_small w infos data sql true (Some None) SQLITE_OK params 0 I ltac:(cbn; lia) P NN Np N Cv Sp)
      as (rc & w' & ret' & stm & E & Ss & _ & _ & D).
    destruct D as [(_ & _ & vals & A & (rows0 & fin0 & Ex & Er) & Eo & Eh & Est)|([X|X] & _)]; [|contradiction|contradiction].
    exists vals. split; [exact A|]. intros db' rows fin Ex'. rewrite Ex in Ex'. injection Ex' as Ed <- <-. rewrite E. cbn [same_status] in Ss. subst ret' rc.
    rewrite (Est _ _ Ex). cbn [accept_result alloc fst] in Eh. destruct w' as [db1 o1 h1]. cbn [w_db w_open w_heap] in *. subst. auto.
  - exists (map (fun _ => V_NULL) params). unfold runs_with, SqlSelectSpec.runs_with. rewrite P. split; [reflexivity|]. intros db' rows fin Ex.
    unfold bind_run_sql, SqlModel.bind_run_sql. rewrite P. cbn [accept_result alloc]. change (SQLITE_OK =? SQLITE_OK) with true. cbn iota.
    unfold step_once. cbn [w_db w_open w_heap]. rewrite Ex. reflexivity.
Qed.

Notation iter_rows := (iter_rows DB exec columns).
Lemma iter_ok b a info sql vals names rows : forall fuel w js,
  columns (w_db DB w) sql = names -> collects b (w_heap DB w) js a -> (b <= length (w_heap DB w))%nat ->
  Forall (fun r => length r = length names) rows -> Z.of_nat (length names) <= 2 ^ 64 -> (length rows <= fuel)%nat ->
  exists h', iter_rows fuel (get_a_row byval_str_mk a info) w (Stmt sql vals rows SQLITE_DONE) (code_of rows SQLITE_DONE) =
      Ok (SQLITE_DONE, World (w_db DB w) (w_open DB w - 1) h') /\
    collects b h' (js ++ rows_value info names rows) a /\
    (length (w_heap DB w) <= length h')%nat /\ (forall c, (c < length (w_heap DB w))%nat -> c <> a -> nth_error h' c = nth_error (w_heap DB w) c).
Proof.
  induction rows as [|row rows IH]; intros fuel w js Ec C Lb Fr B Lf.
  - exists (w_heap DB w). unfold rows_value. cbn [map]. rewrite app_nil_r. split; [|auto]. destruct fuel; reflexivity.
  - destruct fuel as [|fuel]; [cbn [length] in Lf; lia|]. inversion Fr as [|? ? Lr Fr']; subst. cbn [SqlSelectModel.iter_rows code_of].
    change (SQLITE_ROW =? SQLITE_DONE) with false. cbn iota. cbn [s_sql s_rows hd_error].
    destruct (a_row_ok b (w_heap DB w) js a info (columns (w_db DB w) sql) row C Lb Lr B) as (h1 & E1 & C1 & L1 & O1).
    rewrite E1. cbn [bind]. change (negb (0 =? 0)) with false. cbn iota.
    cbn [length] in Lf.
    destruct (IH fuel (World (w_db DB w) (w_open DB w) h1) (js ++ [row_value info (columns (w_db DB w) sql) row]) eq_refl C1) as (h' & E2 & C2 & L2 & O2); cbn [w_heap]; try lia; auto.
    exists h'. cbn [w_db w_open w_heap] in *. split.
    + destruct rows as [|r2 rows]; cbn [next_row s_rows s_sql s_vals s_end code_of] in *; exact E2.
    + split; [unfold rows_value in *; cbn [map]; rewrite <- app_assoc in C2; exact C2|]. split; [lia|]. intros c Lc Nc. rewrite O2, O1; auto. lia.
Qed.

Notation sql_select := (sql_select DB prepare exec columns limit msg_unbound msg_failed byval_str_mk).
Lemma select_ok w info data sql status old : can_run info data (w_db DB w) sql -> is_list (w_heap DB w) status old ->
  exists vals, runs_with info data (w_db DB w) sql vals /\
    forall db' rows, exec (w_db DB w) sql vals = (db', rows, SQLITE_DONE) ->
    let names := columns db' sql in
    Forall (fun r => length r = length names) rows -> Z.of_nat (length names) <= 2 ^ 64 ->
    Z.of_nat (size (JArr old) + size (JArr (rows_value info names rows))) < 2 ^ 64 ->
    forall fuel, (size (JArr old) + size (JArr (rows_value info names rows)) < fuel)%nat ->
    exists h' status', sql_select fuel w info data sql status = Ok (SQLITE_DONE, World db' (w_open DB w) h', status') /\
      now_list (w_heap DB w) h' status status' (old ++ rows_value info names rows) /\
      only_value (w_heap DB w) h' status (JArr old).
Proof.
  intros Cr Il. set (h0 := w_heap DB w) in *. set (w1 := World (w_db DB w) (w_open DB w) (h0 ++ [NArr (list_mk 10)])).
  destruct (run_take w1 info data sql Cr) as (vals & Rw & Run). exists vals. split; [exact Rw|]. intros db' rows Ex names Fr B Bs fuel Lf.
  specialize (Run db' rows SQLITE_DONE Ex). unfold w1 in Run; cbn [w_heap w_open] in Run.
  assert (Lrows : (length rows <= fuel)%nat).
  { pose proof (size_arr_len (rows_value info names rows)) as X. unfold rows_value in X at 1. rewrite map_length in X. lia. }
  set (h2 := (h0 ++ [NArr (list_mk 10)]) ++ [NObj map_mk]) in *.
  assert (L2 : length h2 = S (S (length h0))) by (unfold h2; rewrite !app_length; cbn [length]; lia).
  assert (O2 : forall c, (c < length h0)%nat -> nth_error h2 c = nth_error h0 c) by (intros c Lc; unfold h2; rewrite !alloc_other; auto; rewrite app_length; lia).
  assert (C2 : collects (length h0) h2 [] (length h0)).
  { exists (list_mk 10), []. split; [unfold h2; rewrite alloc_other by (rewrite app_length; cbn [length]; lia); apply alloc_new|]. split; [apply rep_mk; lia|]. split; [constructor|].
    split; [intros []|]. split; [auto|intros c []]. }
  destruct (iter_ok (length h0) (length h0) info sql vals names rows fuel (World db' (w_open DB w + 1) h2) [] eq_refl C2) as (h3 & E3 & C3 & L3 & O3); cbn [w_heap]; try lia; auto.
  cbn [w_heap w_db w_open app] in *. replace (w_open DB w + 1 - 1) with (w_open DB w) in E3 by lia.
  apply collects_holds in C3 as (H3 & F3).
  assert (Od : forall c, (c < length h0)%nat -> nth_error h3 c = nth_error h0 c) by (intros c Lc; rewrite O3, O2; auto; lia).
  assert (Check : match status with Some (Some a) => bind (array_at (h0 ++ [NArr (list_mk 10)]) (Some a)) (fun _ => Ok tt) | _ => Ok tt end = Ok tt).
  { destruct status as [[a|]|]; auto. destruct Il as (Ho & _). apply holds_arr in Ho as (l & xs & E & _).
    rewrite (array_at_ok _ a l); [auto|]. rewrite alloc_other; [auto|apply nth_error_Some; congruence]. }
  assert (Iter : select_iter DB prepare exec columns limit msg_unbound msg_failed byval_str_mk fuel (get_a_row byval_str_mk (length h0) info) w1 info data sql status
    = Ok (SQLITE_DONE, World db' (w_open DB w) h3, status)).
  { unfold select_iter, w1. cbn [w_heap w_db w_open].
    destruct status as [[a|]|]; [destruct (array_at _ _); [|discriminate]| |]; cbn [bind]; rewrite Run; cbn [bind];
      (assert (Ec : (negb (code_of rows SQLITE_DONE =? SQLITE_ROW) && negb (code_of rows SQLITE_DONE =? SQLITE_DONE))%bool = false) by (destruct rows; reflexivity));
      rewrite Ec; cbn [of_option bind]; rewrite E3; reflexivity. }
  unfold sql_select, SqlSelectModel.sql_select. cbn [alloc]. fold h0. fold w1. rewrite Iter. cbn [bind]. change (SQLITE_DONE =? SQLITE_DONE) with true. cbn iota.
  destruct status as [[a|]|]; cbn [is_list] in Il.
  - destruct Il as (Ho & Nd).
    assert (K : leaves_kept h0 h3) by (intros c n Ec _; rewrite Od; [auto|apply nth_error_Some; congruence]).
    assert (Lc : forall c, In c (containers h0 (JArr old) a) -> (c < length h0)%nat).
    { intros c I. destruct (container_node h0 (size (JArr old)) (JArr old) a c (le_n _) Ho I) as (nd & En & _). apply nth_error_Some. congruence. }
    assert (Ag : agree h0 h3 (containers h0 (JArr old) a)) by (intros c I; apply Od, Lc, I).
    destruct (frame h0 h3 K (size (JArr old)) (JArr old) a (le_n _) Ho Ag) as (Ho3 & Ec3).
    destruct (merge_ok fuel h3 (JArr old) (JArr (rows_value info names rows)) a (length h0) Ho3 H3) as (h4 & E4 & L4 & O4 & P4); auto.
    { rewrite Ec3. auto. }
    { rewrite Ec3. intros c I J. apply Lc in I. apply F3 in J. lia. }
    cbn [w_heap]. rewrite E4. cbn [bind mergeable] in *. destruct P4 as (z & Mz & Hz & _). inversion Mz; subst.
    exists h4, (Some (Some a)). split; [reflexivity|]. split; [split; auto|]. split; [lia|]. cbn beta. intros c Lc' Nc. rewrite O4 by (rewrite Ec3; auto). auto.
  - subst old. exists h3, (Some (Some (length h0))). split; [reflexivity|]. split; [exists (length h0); auto|]. split; [lia|]. auto.
  - subst old. exists h3, None. split; [reflexivity|]. split; [reflexivity|]. split; [lia|]. auto.
Qed.

(** ** One row *)
Lemma error_obj h kjs a : holds h (JObj kjs) a -> exists r, error_of h (Some a) = Ok r /\
  match lookup key_error kjs with Some j => exists x, r = Some x /\ holds h j x | None => r = None end.
Proof.
  intros H. apply holds_obj in H as (m & kas & E & R & F). unfold error_of. rewrite (select_error h a m E), (mrep_find m kas key_error R). eexists. split; [reflexivity|].
  pose proof (members_lookup key_error F) as M. destruct (lookup key_error kjs) as [j|], (lookup key_error kas) as [x|]; try contradiction; auto. exists x. auto.
Qed.
Lemma path_ok h j a steps fuel : holds h j a -> Forall step_fits steps -> Forall no_star_name steps -> (length (show steps) + 2 <= fuel)%nat ->
  exists r, select fuel h (Some a) (show steps) (args_of steps) = Ok r /\
    match follow is_kind_strict j steps with Some v => exists b, r = Some b /\ holds h v b | None => r = None end.
Proof.
  intros H F N L. destruct fuel as [|fuel]; [lia|]. unfold select. rewrite loop_start by (destruct (show steps); discriminate).
  apply select_path; auto. rewrite app_length. cbn [length]. lia.
Qed.
Lemma first_ok h js a : holds h (JArr js) a -> exists r, select 10 h (Some a) [91; 48; 93] [] = Ok r /\
  match js with j :: _ => exists x, r = Some x /\ holds h j x | [] => r = None end.
Proof.
  intros H. destruct (path_ok h (JArr js) a [SIdx [48]] 10 H) as (r & E & Q).
  - constructor; [|constructor]. split; [discriminate|]. split; [constructor; [unfold digit; lia|constructor]|]. split; [cbn; lia|reflexivity].
  - constructor; [exact I|constructor].
  - cbn. lia.
  - exists r. split; [exact E|]. cbn in Q. destruct js as [|j js]; exact Q.
Qed.
Lemma conts_incl h js a j x : holds h (JArr (j :: js)) a -> select 10 h (Some a) [91; 48; 93] [] = Ok (Some x) ->
  holds h j x /\ incl (containers h j x) (containers h (JArr (j :: js)) a).
Proof.
  intros H E. destruct (first_ok h _ a H) as (r & E' & y & -> & Hy). rewrite E in E'. injection E' as <-. split; [auto|].
  pose proof H as H'. apply holds_arr in H' as (l & xs & En & R & F). rewrite (containers_arr h a l xs _ En R). inversion F as [|? x' ? xs' Hj F']; subst.
  assert (x = x').
  { revert E. rewrite (select_zero h a l En). unfold array_get. rewrite (array_at_ok h a l En). cbn [bind].
    destruct R as (Sz & R0). rewrite Sz. cbn [map length]. destruct (Z.ltb_spec 0 (Z.of_nat (S (length (map Some xs'))))); [|lia]. change (0 <=? 0) with true. cbn [andb].
    rewrite (rep_read l (map Some (x' :: xs')) 0 (Some x')); [|split; auto|reflexivity|lia]. intros E. injection E as ->. auto. }
  subst x'. rewrite conts_cons. intros c I. right. apply in_or_app. auto.
Qed.

(** A value made of new arrays and objects is merged into the status. *)
Lemma merge_into h h1 s old j x fuel : is_value h s old -> (length h <= length h1)%nat -> (forall c, (c < length h)%nat -> nth_error h1 c = nth_error h c) ->
  holds h1 j x -> all_new h h1 j x -> (size old + size j < fuel)%nat -> Z.of_nat (size old + size j) < 2 ^ 64 ->
  match s with
  | None => True
  | Some None => now_merged h h1 s (Some (Some x)) old j
  | Some (Some a) => exists b h2, merge fuel h1 (Some a) (Some x) = Ok (b, h2) /\ now_merged h h2 s s old j /\ only_value h h2 s old
  end.
Proof.
  intros V L O Hj N Lf B. destruct s as [[a|]|]; [|exists x; auto|auto]. destruct V as (Ho & Nd).
  assert (K : leaves_kept h h1) by (intros c n Ec _; rewrite O; [auto|apply nth_error_Some; congruence]).
  assert (Lc : forall c, In c (containers h old a) -> (c < length h)%nat).
  { intros c I. destruct (container_node h (size old) old a c (le_n _) Ho I) as (nd & En & _). apply nth_error_Some. congruence. }
  destruct (frame h h1 K (size old) old a (le_n _) Ho) as (Ho1 & Ec); [intros c I; apply O, Lc, I|].
  destruct (merge_ok fuel h1 old j a x Ho1 Hj) as (h2 & E2 & L2 & O2 & P2); auto.
  { rewrite Ec. auto. }
  { rewrite Ec. intros c I J. apply Lc in I. apply N in J. lia. }
  exists (mergeable old j), h2. split; [auto|]. split.
  - split; [auto|]. destruct (mergeable old j); [destruct P2 as (z & Mz & Hz & _); exists z; auto|subst h2; exists old; auto].
  - split; [lia|]. cbn beta iota. intros c Lc' Nc. rewrite O2 by (rewrite Ec; auto). auto.
Qed.

Notation sql_select1 := (sql_select1 DB prepare exec columns limit msg_unbound msg_failed byval_str_mk).
Lemma select1_ok w info data sql status old : can_run info data (w_db DB w) sql -> is_value (w_heap DB w) status old ->
  exists vals, runs_with info data (w_db DB w) sql vals /\
    forall db' rows, exec (w_db DB w) sql vals = (db', rows, SQLITE_DONE) ->
    let names := columns db' sql in
    Forall (fun r => length r = length names) rows -> Z.of_nat (length names) <= 2 ^ 64 ->
    Z.of_nat (size old + size (JArr (rows_value info names rows))) < 2 ^ 64 ->
    forall fuel, (size old + size (JArr (rows_value info names rows)) < fuel)%nat ->
    exists h' status', sql_select1 fuel w info data sql status = Ok (SQLITE_DONE, World db' (w_open DB w) h', status') /\
      match rows with
      | [] => status' = status /\ quiet (w_heap DB w) h'
      | r :: _ => now_merged (w_heap DB w) h' status status' old (row_value info names r) /\ only_value (w_heap DB w) h' status old /\
          (status = Some None -> quiet (w_heap DB w) h' /\ exists x, status' = Some (Some x) /\ holds h' (row_value info names r) x /\ all_new (w_heap DB w) h' (row_value info names r) x)
      end.
Proof.
  intros Cr V. destruct (select_ok w info data sql (Some None) [] Cr eq_refl) as (vals & Rw & Run). exists vals. split; [exact Rw|].
  intros db' rows Ex names Fr B Bs fuel Lf. pose proof (size_pos old) as Sp.
  assert (S1 : size (JArr []) = 1%nat) by reflexivity.
  destruct (Run db' rows Ex Fr B ltac:(rewrite S1; fold names; lia) fuel ltac:(rewrite S1; fold names; lia)) as (h1 & s1 & E1 & (a & -> & Ha & Na) & (L1 & O1)). fold names in Ha, Na. cbn [app] in Ha, Na.
  unfold sql_select1, SqlSelectModel.sql_select1. rewrite E1. cbn [bind pointee w_heap].
  pose proof Ha as Ha'. apply holds_arr in Ha' as (l & xs & En & _). rewrite (no_error_arr h1 a l En). cbn [bind].
  assert (O1' : forall c, (c < length (w_heap DB w))%nat -> nth_error h1 c = nth_error (w_heap DB w) c) by (intros c Lc; apply O1; auto).
  destruct (first_ok h1 _ a Ha) as (r & E2 & Q). rewrite E2. cbn [bind]. destruct rows as [|row rows].
  - cbn [rows_value map] in Q. subst r. exists h1, status. split; [destruct status as [[]|]; reflexivity|]. split; [auto|]. split; auto.
  - unfold rows_value in Q, Ha, Na. cbn [map] in Q, Ha, Na. destruct Q as (x & -> & Hx). destruct (conts_incl h1 _ a _ x Ha E2) as (_ & In1).
    assert (Nx : all_new (w_heap DB w) h1 (row_value info names row) x) by (intros c I; apply Na, In1, I).
    assert (Sz : (size (row_value info names row) < size (JArr (rows_value info names (row :: rows))))%nat) by (apply size_arr_in; left; auto).
    pose proof (merge_into (w_heap DB w) h1 status old (row_value info names row) x fuel V L1 O1' Hx Nx ltac:(lia) ltac:(lia)) as Mi.
    destruct status as [[s|]|].
    + destruct Mi as (b & h2 & E3 & Nm & Ov). cbn [w_heap w_db w_open]. rewrite E3. cbn [bind]. exists h2, (Some (Some s)). split; [reflexivity|]. split; [auto|]. split; [auto|discriminate].
    + exists h1, (Some (Some x)). split; [reflexivity|]. split; [exists x; auto|]. split; [split; auto|]. intros _. split; [split; auto|]. exists x. auto.
    + exists h1, None. split; [reflexivity|]. split; [reflexivity|]. split; [split; auto|discriminate].
Qed.

(** ** A row, or a new one *)
Notation select1_or_insert := (select1_or_insert DB prepare exec columns limit counters msg_unbound msg_failed byval_str_mk).
Lemma or_insert_found w info data t status old : can_run info data (w_db DB w) (t_select t) -> is_value (w_heap DB w) status old ->
  exists vals, runs_with info data (w_db DB w) (t_select t) vals /\
    forall db' row rows, exec (w_db DB w) (t_select t) vals = (db', row :: rows, SQLITE_DONE) ->
    let names := columns db' (t_select t) in
    Forall (fun r => length r = length names) (row :: rows) -> Z.of_nat (length names) <= 2 ^ 64 ->
    (match row_value info names row with JObj kjs => lookup key_error kjs = None | _ => True end) ->
    Z.of_nat (size old + size (JArr (rows_value info names (row :: rows)))) < 2 ^ 64 ->
    forall fuel, (size old + size (JArr (rows_value info names (row :: rows))) < fuel)%nat ->
    exists h' status', select1_or_insert fuel w info data t status = Ok (SQLITE_DONE, World db' (w_open DB w) h', status') /\
      now_merged (w_heap DB w) h' status status' old (row_value info names row) /\ only_value (w_heap DB w) h' status old.
Proof.
  intros Cr V. destruct (select1_ok w info data (t_select t) (Some None) JNull Cr eq_refl) as (vals & Rw & Run). exists vals. split; [exact Rw|].
  intros db' row rows Ex names Fr B Ne Bs fuel Lf. pose proof (size_pos old) as Sp.
  assert (S1 : size JNull = 1%nat) by reflexivity.
  destruct (Run db' (row :: rows) Ex Fr B ltac:(rewrite S1; fold names; lia) fuel ltac:(rewrite S1; fold names; lia)) as (h1 & s1 & E1 & _ & _ & Q). fold names in Q.
  destruct (Q eq_refl) as ((L1 & O1) & x & -> & Hx & Nx). unfold select1_or_insert, SqlSelectModel.select1_or_insert. rewrite E1. cbn [bind pointee w_heap].
  assert (Sz : (size (row_value info names row) < size (JArr (rows_value info names (row :: rows))))%nat) by (apply size_arr_in; left; auto).
  pose proof (merge_into (w_heap DB w) h1 status old (row_value info names row) x fuel V L1 O1 Hx Nx ltac:(lia) ltac:(lia)) as Mi.
  assert (Er : error_of h1 (Some x) = Ok None).
  { destruct (leaf_cases (row_value info names row)) as [(n & Ln)|[(js & Ej)|(kjs & Ej)]].
    - apply (holds_leaf h1 _ x n Ln) in Hx. apply (no_error_node h1 x n Hx). intros m ->. eapply leaf_not_obj; eauto.
    - rewrite Ej in Hx. apply holds_arr in Hx as (l & ? & En & _). apply (no_error_arr h1 x l En).
    - rewrite Ej in *. destruct (error_obj h1 kjs x Hx) as (r & E & Qr). rewrite Ne in Qr. subst r. auto. }
  destruct status as [[s|]|].
  - rewrite Er. cbn [bind]. destruct Mi as (b & h2 & E3 & Nm & Ov). cbn [w_db w_open]. rewrite E3. cbn [bind]. exists h2, (Some (Some s)). auto.
  - rewrite Er. cbn [bind]. exists h1, (Some (Some x)). split; [reflexivity|]. split; [auto|]. split; auto.
  - exists h1, None. split; [reflexivity|]. split; [reflexivity|]. split; auto.
Qed.

Lemma run_same w info data sql take ret rc w' ret' stm : ret <> Some None -> bind_run_sql w info data sql take ret = Ok (rc, w', ret', stm) -> ret' = ret.
Proof.
  intros N. unfold bind_run_sql, SqlModel.bind_run_sql. destruct (prepare (w_db DB w) sql) as (rc0, params).
  replace (accept_result (w_heap DB w) ret) with (w_heap DB w, ret) by (destruct ret as [[]|]; auto; congruence).
  destruct (rc0 =? SQLITE_OK).
  - destruct info as [infos|].
    + destruct (bind_loop _ _ _ _ _ _ _ _) as [(vals, bound)|]; cbn [bind]; [|discriminate]. destruct (first_unbound 0 bound).
      * destruct (set_error _ _ _ _); cbn [bind]; [|discriminate]. intros E. injection E as <- <- <- <-. auto.
      * destruct (step_once _ _ _ _ _ _) as ((c, w1), s1). intros E. injection E as <- <- <- <-. auto.
    + destruct (step_once _ _ _ _ _ _) as ((c, w1), s1). intros E. injection E as <- <- <- <-. auto.
  - destruct (set_error _ _ _ _); cbn [bind]; [|discriminate]. intros E. injection E as <- <- <- <-. auto.
Qed.
Notation sql_insert := (sql_insert DB prepare exec limit counters msg_unbound msg_failed byval_str_mk).
Lemma or_insert_eq fuel w info data t status rc w1 : sql_select1 fuel w info data (t_select t) (Some None) = Ok (rc, w1, Some None) ->
  select1_or_insert fuel w info data t status = bind (sql_insert w1 info data (insert_of t) status None) (fun '(rc, w', s', _) => Ok (rc, w', s')).
Proof.
  intros E. unfold select1_or_insert, SqlSelectModel.select1_or_insert. rewrite E. cbn [bind pointee]. unfold sql_insert, SqlModel.sql_insert, report.
  assert (A : snd (accept_result (w_heap DB w1) status) <> Some None) by (destruct status as [[]|]; discriminate).
  destruct (accept_result (w_heap DB w1) status) as (h, s1). cbn [snd] in A.
  destruct (SqlModel.bind_run_sql _ _ _ _ _ _ _ _ _ _ _ _ s1) as [(((rc2, w2), s2), st2)|] eqn:E2; cbn [bind]; [|auto].
  apply run_same in E2; [|auto]. subst s2. destruct (rc2 =? SQLITE_DONE); cbn [negb].
  - destruct s1 as [[a|]|]; cbn [pointee]; [|congruence|auto]. destruct (set_field _ _ _ _ _ _); auto.
  - destruct (set_error _ _ _ _); auto.
Qed.
Lemma fields_quiet h h' a kas : quiet h h' -> object_fields h a kas -> object_fields h' a kas.
Proof. intros (L & O) (m & E & R). exists m. split; [rewrite O; [auto|apply nth_error_Some; congruence]|auto]. Qed.
Lemma or_insert_none w infos data t s n : can_run (Some infos) data (w_db DB w) (t_select t) -> good_sql DB prepare limit infos data (insert_of t) ->
  st (w_heap DB w) s n -> Z.of_nat n < 2 ^ 32 ->
  exists vals, runs_with (Some infos) data (w_db DB w) (t_select t) vals /\
    forall db', exec (w_db DB w) (t_select t) vals = (db', [], SQLITE_DONE) -> Z.of_nat (length (columns db' (t_select t))) <= 2 ^ 64 ->
    forall fuel, (2 < fuel)%nat ->
    exists rc w' s', select1_or_insert fuel w (Some infos) data t s = Ok (rc, w', s') /\
      same_or_new (w_heap DB w) s s' /\ only_status (w_heap DB w) (w_heap DB w') s /\
      performs DB prepare exec limit infos data db' (insert_of t) rc (w_db DB w') /\
      (rc <> SQLITE_DONE -> has_error (w_heap DB w') s') /\
      (rc = SQLITE_DONE -> reports (w_heap DB w') s' key_rowid (NI64 (to_int32 (last_insert_rowid (counters (w_db DB w')))))).
Proof.
  intros Cr G St B. destruct (select1_ok w (Some infos) data (t_select t) (Some None) JNull Cr eq_refl) as (vals & Rw & Run). exists vals. split; [exact Rw|].
  intros db' Ex Bc fuel Lf. destruct (Run db' [] Ex) with (fuel := fuel) as (h1 & s1 & E1 & -> & Q); auto; try (constructor); try (cbn; lia).
  rewrite (or_insert_eq fuel w (Some infos) data t s _ _ E1).
  assert (St1 : st h1 s n) by (destruct s as [[a|]|]; auto; destruct St as (kas & F & L); exists kas; split; [eapply fields_quiet; eauto|auto]).
  destruct Cr as (_ & N & Cv & _).
  destruct (insert_ok DB prepare exec limit counters msg_unbound msg_failed limit_small (World db' (w_open DB w) h1) infos data (insert_of t) s None n St1 B N Cv G)
    as (rc & w' & s' & id & E2 & ((Ss & (L2 & O2)) & _) & P & He & R). rewrite E2. cbn [bind w_heap w_db] in *. destruct Q as (L1 & O1).
  exists rc, w', s'. split; [auto|]. split; [|split; [|split; [auto|split]]].
  - unfold same_or_new, same_status in *. destruct s as [[a|]|]; auto. exists (length h1). auto.
  - split; [lia|]. intros c Lc Nc. rewrite O2, O1; auto. lia.
  - intros Ne. apply He, Ne.
  - intros Ed. apply R, Ed.
Qed.

(** ** The next int *)
Notation next_int := (next_int DB prepare exec columns limit msg_unbound msg_failed byval_str_mk).
Lemma next_int_ok w column from status db' v : let q := firstn 127 (max_query column from) in
  fst (prepare (w_db DB w) q) = SQLITE_OK ->
  exec (w_db DB w) q (map (fun _ => V_NULL) (snd (prepare (w_db DB w) q))) = (db', [[v]], SQLITE_DONE) -> columns db' q = [key_max] ->
  forall fuel, (4 < fuel)%nat ->
  exists h', quiet (w_heap DB w) h' /\
    match v with
    | V_INT z => next_int fuel w column from status = if to_int32 z =? 2 ^ 31 - 1 then Bad Overflow else Ok (to_int32 z + 1, World db' (w_open DB w) h', status)
    | V_NULL => next_int fuel w column from status = Ok (1, World db' (w_open DB w) h', status)
    | _ => exists a, next_int fuel w column from status = Ok (-1, World db' (w_open DB w) h', Some a) /\ holds h' (JObj [(key_max, value_json v)]) a
    end.
Proof.
  intros q P Ex Ec fuel Lf. destruct (select1_ok w None None q (Some None) JNull (conj P I) eq_refl) as (vals & Rw & Run).
  cbn [SqlSelectSpec.runs_with] in Rw. subst vals. specialize (Run db' [[v]] Ex). cbv zeta in Run. rewrite Ec in Run.
  assert (Er : row_value None [key_max] [v] = JObj [(key_max, value_json v)]) by reflexivity.
  assert (Es : size (JArr (rows_value None [key_max] [[v]])) = 3%nat) by (unfold rows_value; cbn [map]; rewrite Er; destruct v; reflexivity).
  destruct (Run (Forall_cons [v] (eq_refl : length [v] = length [key_max]) (Forall_nil _)) ltac:(cbn; lia)) with (fuel := fuel) as (h1 & s1 & E1 & _ & _ & Q); try (rewrite Es; cbn; lia).
  destruct (Q eq_refl) as (Qu & x & -> & Hx & _). rewrite Er in Hx. exists h1. split; [auto|].
  assert (En : forall r, next_int fuel w column from status = r <-> bind (error_of h1 (Some x)) (fun error => match error with
      | Some _ => Ok (-1, World db' (w_open DB w) h1, Some x)
      | None => bind (select 14 h1 (Some x) (46 :: key_max ++ [58; 110]) []) (fun n => match n with
        | Some a => bind (load h1 (Some a)) (fun v => match v with
          | NI64 z => let i := to_int32 z in if i =? 2 ^ 31 - 1 then Bad Overflow else Ok (i + 1, World db' (w_open DB w) h1, status)
          | _ => Ok (-1, World db' (w_open DB w) h1, Some x) end)
        | None => bind (select 14 h1 (Some x) (46 :: key_max ++ [58; 33]) []) (fun y => match y with
          | Some _ => Ok (1, World db' (w_open DB w) h1, status)
          | None => Ok (-1, World db' (w_open DB w) h1, Some x) end) end) end) = r).
  { intros r. unfold next_int, SqlSelectModel.next_int. fold q. rewrite E1. reflexivity. }
  destruct (error_obj h1 _ x Hx) as (r & Ee & Qe). cbn [lookup] in Qe. destruct (tdec key_error key_max) as [Bad|_]; [discriminate|]. cbn [lookup] in Qe. subst r.
  assert (Sf : step_fits (SKey [Lit key_max])).
  { split; [discriminate|]. split; [cbn; lia|]. constructor; [|constructor]. unfold key_max.
    repeat (constructor; [split; [lia|intros [X|[X|[X|[X|[X|[]]]]]]; discriminate X]|]). constructor. }
  assert (Pn : forall k, exists r, select 14 h1 (Some x) (46 :: key_max ++ [58; letter k]) [] = Ok r /\
    match (if is_kind_strict k (value_json v) then Some (value_json v) else None) with Some v => exists b, r = Some b /\ holds h1 v b | None => r = None end).
  { intros k. destruct (path_ok h1 _ x [SKey [Lit key_max]; SType k] 14 Hx) as (r & E & Qr).
    - constructor; [auto|constructor; [exact I|constructor]].
    - constructor; [constructor; [exact I|constructor]|constructor; [exact I|constructor]].
    - destruct k; cbn; lia.
    - exists r. split; [exact E|]. cbn [follow name_of flat_map piece_text app lookup] in Qr. destruct (tdec _ _) as [_|Bad]; [|exfalso; apply Bad; rewrite app_nil_r; auto].
      cbn iota in Qr. destruct (is_kind_strict k (value_json v)); exact Qr. }
  destruct (Pn KNumber) as (rn & E2 & Q2). destruct (Pn KNull) as (ru & E3 & Q3). cbn [letter] in E2, E3.
  setoid_rewrite Ee in En. cbn [bind] in En. setoid_rewrite E2 in En. cbn [bind] in En.
  destruct v; cbn [value_json is_kind_strict] in *; subst; cbn [bind] in En; try (exists x; split; [|exact Hx]); try (apply En; rewrite E3; reflexivity).
  - destruct Q3 as (b & -> & _). apply En. rewrite E3. reflexivity.
  - destruct Q2 as (b & -> & Hb). apply (holds_leaf h1 (JI64 z) b (NI64 z) eq_refl) in Hb. apply En. unfold load. rewrite Hb. reflexivity.
Qed.

(** ** Errors *)
Lemma append_error fuel h a kas e m : object_fields h a kas -> Z.of_nat (length kas) < 2 ^ 32 -> lookup error_key kas = None -> nth_error h e = Some (NStr m) ->
  exists h', object_append byval_str_mk fuel h (Some a) key_error (Some e) = Ok h' /\ error_text h' (Some (Some a)) /\ only_status h h' (Some (Some a)).
Proof.
  intros (mp & Ea & R) B Lk Em. destruct (add_field_ok h a mp kas key_error e Ea R ltac:(lia)) as (m4 & E4 & R4). exists (store h a (NObj m4)). split; [|split].
  - unfold object_append, object_get. rewrite (object_at_ok h a _ Ea). cbn [bind]. rewrite (mrep_find mp kas key_error R). change key_error with error_key at 1. rewrite Lk. cbn [bind].
    unfold object_set. rewrite (object_at_ok h a _ Ea). cbn [bind]. unfold load. rewrite Em. exact E4.
  - exists (put key_error e kas), e, m. split; [exists m4; split; [eapply store_same; eauto|exact R4]|]. split; [rewrite lookup_put; destruct (list_eq_dec Z.eq_dec error_key key_error); [auto|exfalso; auto]|].
    rewrite store_other; [auto|]. intros ->. congruence.
  - split; [rewrite store_length; auto|]. intros c Lc Nc. apply store_other. congruence.
Qed.
Lemma select_fails w infos data sql s : NoDup (map i_var infos) -> covers data (length infos) -> good_sql DB prepare limit infos data sql ->
  s = None \/ s = Some None ->
  exists rc db', performs DB prepare exec limit infos data (w_db DB w) sql rc db' /\
    (rc <> SQLITE_ROW -> rc <> SQLITE_DONE -> forall fuel, (0 < fuel)%nat -> exists w' s', sql_select fuel w (Some infos) data sql s = Ok (rc, w', s') /\ w_db DB w' = db' /\
      (s = Some None -> exists a, s' = Some (Some a) /\ (length (w_heap DB w) <= a)%nat /\ error_text (w_heap DB w') s') /\ (s = None -> s' = None) /\
      quiet (w_heap DB w) (w_heap DB w')).
Proof.
  intros N C G Hs. set (h0 := w_heap DB w). set (w1 := World (w_db DB w) (w_open DB w) (h0 ++ [NArr (list_mk 10)])).
  specialize (G (w_db DB w)). destruct (prepare (w_db DB w) sql) as (rc0, params) eqn:P. cbn [snd] in G. cbv zeta in G. destruct G as (NN & Np & Sp).
  destruct (run_ok DB prepare exec limit msg_unbound msg_failed limit_small w1 infos data sql true (Some None) rc0 params 0 I ltac:(cbn; lia) P NN Np N C Sp)
    as (rc & w' & ret' & stm & E & Ss & _ & Os & D). cbn [same_status] in Ss. unfold w1 in Ss; cbn [w_heap] in Ss. exists rc, (w_db DB w').
  assert (L1 : length (h0 ++ [NArr (list_mk 10)]) = S (length h0)) by (rewrite app_length; cbn [length]; lia).
  assert (Q0 : quiet h0 (w_heap DB w')).
  { destruct Os as (L & O). unfold w1 in L, O. cbn [w_heap] in L, O. split; [lia|]. intros c Lc. rewrite O, alloc_other; auto; [lia|discriminate]. }
  split; [destruct D as [(-> & F & vals & A & R & _)|(X & Ed & Er & _)]; [eapply performs_runs; eauto|rewrite Ed; eapply performs_fails; eauto]|].
  intros Nr Nd fuel Lf. unfold sql_select, SqlSelectModel.sql_select. cbn [alloc]. fold h0 w1.
  assert (Err : forall k, error_of (w_heap DB w' ++ [NObj map_mk]) (Some (length (h0 ++ [NArr (list_mk 10)]))) = Ok k -> 
     match k with None => True | Some e => exists m, nth_error (w_heap DB w' ++ [NObj map_mk]) e = Some (NStr m) end).
  { set (a := length (h0 ++ [NArr (list_mk 10)])) in *. intros k Ek.
    destruct D as [(_ & _ & vals & _ & _ & _ & Eh & _)|(_ & _ & _ & _ & _ & m & Es)].
    - unfold w1 in Eh. cbn [w_heap accept_result alloc fst] in Eh.
      assert (Ea : nth_error (w_heap DB w' ++ [NObj map_mk]) a = Some (NObj map_mk)).
      { rewrite Eh. rewrite alloc_other by (rewrite (app_length (h0 ++ _)); cbn [length]; unfold a; lia). apply alloc_new. }
      unfold error_of in Ek. rewrite (select_error _ a map_mk Ea) in Ek. change (map_find text nat strcmp (Some map_mk) (Some key_error)) with (Ok (@None nat)) in Ek. injection Ek as <-. auto.
    - unfold w1 in Es. cbn [w_heap accept_result alloc fst] in Es. fold a in Es. rewrite Ss in Es. cbn [set_error] in Es.
      destruct (set_new_ok ((h0 ++ [NArr (list_mk 10)]) ++ [NObj map_mk]) a [] key_error (NStr m)) as (h' & Es' & Fa & Na & Lh & _); [apply mk_fields|cbn; lia|].
      assert (Ea : nth_error ((h0 ++ [NArr (list_mk 10)]) ++ [NObj map_mk]) a = Some (NObj map_mk)) by apply alloc_new.
      assert (La : (a < length ((h0 ++ [NArr (list_mk 10)]) ++ [NObj map_mk]))%nat) by (apply nth_error_Some; congruence).
      revert Es. rewrite (object_at_ok _ a _ Ea). cbn [bind]. rewrite (select_error _ a _ Ea). change (map_find text nat strcmp (Some map_mk) (Some key_error)) with (Ok (@None nat)).
      cbn [bind byval_str_mk alloc]. intros Es.
      assert (Eh : h' = w_heap DB w').
      { cut (Ok h' = Ok (w_heap DB w')); [congruence|]. rewrite <- Es, <- Es'. unfold object_set_new, object_set. rewrite (object_at_ok _ a _ Ea). cbn [bind alloc].
        rewrite (object_at_ok _ a map_mk) by (rewrite alloc_other; auto). cbn [bind load]. rewrite alloc_new. reflexivity. }
      subst h'. destruct Fa as (mp & Em & R). cbn [put] in R.
      assert (Ea' : nth_error (w_heap DB w' ++ [NObj map_mk]) a = Some (NObj mp)) by (rewrite alloc_other; [auto|apply nth_error_Some; congruence]).
      unfold error_of in Ek. rewrite (select_error _ a mp Ea'), (mrep_find mp _ key_error R) in Ek. cbn [lookup] in Ek. destruct (tdec key_error key_error); [|congruence].
      injection Ek as <-. exists m. rewrite alloc_other; [auto|apply nth_error_Some; congruence]. }
  assert (Eok : exists k, error_of (w_heap DB w' ++ [NObj map_mk]) (Some (length (h0 ++ [NArr (list_mk 10)]))) = Ok k).
  { destruct (run_ok DB prepare exec limit msg_unbound msg_failed limit_small w1 infos data sql true (Some None) rc0 params 0 I ltac:(cbn; lia) P NN Np N C Sp)
      as (rc' & w'' & ret'' & stm' & E' & Ss' & St' & _). rewrite E in E'. injection E' as <- <- <- <-. rewrite Ss in St'. destruct St' as (kas & (mp & Em & R) & _).
    unfold error_of. erewrite select_error; [|rewrite alloc_other; [exact Em|apply nth_error_Some; congruence]]. rewrite (mrep_find mp kas key_error R). eauto. }
  assert (Code : (negb (rc =? SQLITE_ROW) && negb (rc =? SQLITE_DONE))%bool = true).
  { destruct (Z.eqb_spec rc SQLITE_ROW); [contradiction|]. destruct (Z.eqb_spec rc SQLITE_DONE); [contradiction|]. auto. }
  assert (Nd' : (rc =? SQLITE_DONE) = false) by (apply Z.eqb_neq; auto).
  destruct Hs as [-> | ->].
  - exists w', None. unfold select_iter. cbn [bind]. rewrite E. cbn [bind]. rewrite Code. cbn [bind]. rewrite Nd'. split; [reflexivity|]. split; [auto|]. split; [discriminate|]. split; auto.
  - unfold select_iter. cbn [bind]. rewrite E. cbn [bind]. rewrite Code. cbn [accept_result alloc]. rewrite Ss. cbn [pointee].
    destruct Eok as (k & Ek). rewrite Ek. cbn [bind]. specialize (Err k Ek). set (o := length (w_heap DB w')) in *. set (h3 := w_heap DB w' ++ [NObj map_mk]) in *.
    assert (L3 : length h3 = S o) by (unfold h3; rewrite app_length; cbn [length]; lia).
    assert (Eo : nth_error h3 o = Some (NObj map_mk)) by apply alloc_new.
    assert (App : exists h5, bind (object_append byval_str_mk fuel h3 (Some o) key_error k) (fun h => set_error byval_str_mk h (Some (Some o)) (Ok (msg_failed rc sql))) = Ok h5 /\
      error_text h5 (Some (Some o)) /\ only_status h3 h5 (Some (Some o))).
    { destruct k as [e|].
      - destruct Err as (m & Em). destruct (append_error fuel h3 o [] e m (mk_fields _) ltac:(cbn; lia) eq_refl Em) as (h4 & E4 & (kas & v & m' & (mp & Ea & R) & Lk & Ev) & Oo).
        exists h4. rewrite E4. cbn [bind set_error]. rewrite (object_at_ok h4 o _ Ea). cbn [bind]. rewrite (select_error h4 o _ Ea), (mrep_find mp kas key_error R).
        change key_error with error_key. rewrite Lk. cbn [bind]. split; [auto|]. split; [exists kas, v, m'; split; [exists mp; auto|auto]|auto].
      - destruct (set_new_ok h3 o [] key_error (NStr (msg_failed rc sql))) as (h5 & E5 & Fa & Na & Lh & Oh); [apply mk_fields|cbn; lia|]. exists h5.
        cbn [object_append bind set_error]. rewrite (object_at_ok h3 o _ Eo). cbn [bind]. rewrite (select_error h3 o _ Eo).
        change (map_find text nat strcmp (Some map_mk) (Some key_error)) with (Ok (@None nat)). cbn [bind byval_str_mk alloc].
        split; [|split].
        + rewrite <- E5. unfold object_set_new, object_set. rewrite (object_at_ok _ o _ Eo). cbn [bind alloc].
          rewrite (object_at_ok _ o map_mk) by (rewrite alloc_other; auto; lia). cbn [bind load]. rewrite alloc_new. reflexivity.
        + exists [(key_error, length h3)], (length h3), (msg_failed rc sql). split; [exact Fa|]. split; [reflexivity|auto].
        + split; [lia|]. intros c Lc Nc. apply Oh; [auto|congruence]. }
    destruct App as (h5 & E5 & He & (L5 & O5)).
    destruct (object_append byval_str_mk fuel h3 (Some o) key_error k) as [h4|] eqn:E4; cbn [bind] in E5 |- *; [|discriminate]. rewrite E5. cbn [bind]. rewrite Nd'.
    eexists _, (Some (Some o)). split; [reflexivity|]. cbn [w_db w_heap]. split; [auto|]. destruct Q0 as (Lq & Oq). fold o in Lq.
    split; [intros _; exists o; split; [auto|]; split; [auto|exact He]|]. split; [discriminate|].
    split; [lia|]. intros c Lc. fold h0 in Lc.
    assert (Nc : Some (Some o) <> Some (Some c)) by (intros X; injection X as X; lia).
    rewrite O5 by (auto; lia). unfold h3. rewrite alloc_other by (fold o; lia). auto.
Qed.

Lemma error_there h a : error_text h (Some (Some a)) -> exists e m, error_of h (Some a) = Ok (Some e) /\ nth_error h e = Some (NStr m).
Proof.
  intros (kas & v & m & (mp & Ea & R) & Lk & Ev). exists v, m. split; [|auto]. unfold error_of. rewrite (select_error h a mp Ea), (mrep_find mp kas key_error R).
  change key_error with error_key. rewrite Lk. reflexivity.
Qed.
Lemma pass_error fuel h0 h s r : quiet h0 h -> no_error_yet h0 s -> (length h0 <= r)%nat -> error_text h (Some (Some r)) ->
  exists e, error_of h (Some r) = Ok (Some e) /\
    (forall a, s = Some (Some a) -> exists h', object_append byval_str_mk fuel h (Some a) key_error (Some e) = Ok h' /\ error_text h' s /\ only_status h0 h' s) /\
    (s = Some None -> exists h', object_append byval_str_mk fuel (h ++ [NObj map_mk]) (Some (length h)) key_error (Some e) = Ok h' /\
       error_text h' (Some (Some (length h))) /\ only_status h0 h' s).
Proof.
  intros (L & O) N Lr Et. destruct (error_there h r Et) as (e & m & Ee & Em). exists e. split; [auto|]. split.
  - intros a ->. destruct N as (kas & F & B & Lk). destruct (append_error fuel h a kas e m (fields_quiet h0 h a kas (conj L O) F) B Lk Em) as (h' & E & Te & (L' & O')).
    exists h'. split; [auto|]. split; [auto|]. split; [lia|]. intros c Lc Nc. rewrite O' by (auto; lia). auto.
  - intros ->. destruct (append_error fuel (h ++ [NObj map_mk]) (length h) [] e m (mk_fields h) ltac:(cbn; lia) eq_refl) as (h' & E & Te & (L' & O')).
    { rewrite alloc_other; [auto|]. apply nth_error_Some. congruence. }
    exists h'. split; [auto|]. split; [auto|]. rewrite app_length in L'. split; [lia|]. intros c Lc _. rewrite O'; [|rewrite app_length; lia|intros X; injection X as X; lia].
    rewrite alloc_other by lia. auto.
Qed.
Lemma select1_fails w infos data sql s : NoDup (map i_var infos) -> covers data (length infos) -> good_sql DB prepare limit infos data sql -> no_error_yet (w_heap DB w) s ->
  exists rc db', performs DB prepare exec limit infos data (w_db DB w) sql rc db' /\
    (rc <> SQLITE_ROW -> rc <> SQLITE_DONE -> forall fuel, (0 < fuel)%nat -> exists w' s', sql_select1 fuel w (Some infos) data sql s = Ok (rc, w', s') /\ w_db DB w' = db' /\
      same_or_new (w_heap DB w) s s' /\ error_text (w_heap DB w') s' /\ only_status (w_heap DB w) (w_heap DB w') s).
Proof.
  intros N C G Ne. destruct (select_fails w infos data sql (Some None) N C G (or_intror eq_refl)) as (rc & db' & P & F). exists rc, db'. split; [auto|].
  intros Nr Nd fuel Lf. destruct (F Nr Nd fuel Lf) as (w1 & s1 & E & Ed & Q & _ & Qu). destruct (Q eq_refl) as (r & -> & Lr & Et).
  destruct (pass_error fuel (w_heap DB w) (w_heap DB w1) s r Qu Ne Lr Et) as (e & Ee & A & B).
  unfold sql_select1, SqlSelectModel.sql_select1. rewrite E. cbn [bind pointee]. rewrite Ee. cbn [bind]. destruct s as [[a|]|].
  - cbn [accept_result pointee]. destruct (A a eq_refl) as (h' & E' & Te & Oo). rewrite E'. cbn [bind]. eexists _, _. split; [reflexivity|]. cbn [w_db w_heap same_or_new]. auto.
  - cbn [accept_result alloc pointee]. destruct (B eq_refl) as (h' & E' & Te & Oo). rewrite E'. cbn [bind]. eexists _, _. split; [reflexivity|]. cbn [w_db w_heap same_or_new].
    split; [auto|]. split; [exists (length (w_heap DB w1)); split; [auto|apply Qu]|auto].
  - eexists _, _. split; [reflexivity|]. split; [auto|]. split; [reflexivity|]. split; [exact I|]. destruct Qu as (L & O). split; [auto|]. intros c Lc _. auto.
Qed.
Lemma or_insert_fails w infos data t s : NoDup (map i_var infos) -> covers data (length infos) -> good_sql DB prepare limit infos data (t_select t) -> no_error_yet (w_heap DB w) s ->
  exists rc db', performs DB prepare exec limit infos data (w_db DB w) (t_select t) rc db' /\
    (rc <> SQLITE_ROW -> rc <> SQLITE_DONE -> forall fuel, (0 < fuel)%nat -> exists w' s', select1_or_insert fuel w (Some infos) data t s = Ok (rc, w', s') /\ w_db DB w' = db' /\
      same_or_new (w_heap DB w) s s' /\ error_text (w_heap DB w') s' /\ only_status (w_heap DB w) (w_heap DB w') s).
Proof.
  intros N C G Ne. destruct (select1_fails w infos data (t_select t) (Some None) N C G I) as (rc & db' & P & F). exists rc, db'. split; [auto|].
  intros Nr Nd fuel Lf. destruct (F Nr Nd fuel Lf) as (w1 & s1 & E & Ed & (r & -> & Lr) & Et & (L & O)).
  assert (Qu : quiet (w_heap DB w) (w_heap DB w1)) by (split; [auto|]; intros c Lc; apply O; [auto|discriminate]).
  destruct (pass_error fuel (w_heap DB w) (w_heap DB w1) s r Qu Ne Lr Et) as (e & Ee & A & _).
  unfold select1_or_insert, SqlSelectModel.select1_or_insert. rewrite E. cbn [bind pointee]. destruct s as [[a|]|].
  - rewrite Ee. cbn [bind]. destruct (A a eq_refl) as (h' & E' & Te & Oo). rewrite E'. cbn [bind]. eexists _, _. split; [reflexivity|]. cbn [w_db w_heap same_or_new]. auto.
  - rewrite Ee. cbn [bind]. eexists _, _. split; [reflexivity|]. split; [auto|]. split; [exists r; auto|]. split; [auto|]. split; [auto|]. intros c Lc _. apply Qu, Lc.
  - eexists _, _. split; [reflexivity|]. split; [auto|]. split; [reflexivity|]. split; [exact I|]. split; [auto|]. intros c Lc _. apply Qu, Lc.
Qed.

(** Without a description and parameters: as with an empty one *)
Lemma run_empty w sql take ret : snd (prepare (w_db DB w) sql) = [] -> bind_run_sql w (Some []) None sql take ret = bind_run_sql w None None sql take ret.
Proof.
  intros E. unfold bind_run_sql, SqlModel.bind_run_sql. destruct (prepare (w_db DB w) sql) as (rc0, params). cbn [snd] in E. subst params.
  destruct (accept_result (w_heap DB w) ret) as (h, r). destruct (rc0 =? SQLITE_OK); reflexivity.
Qed.
Lemma row_loop_empty h obj : forall names i row single nl h0, h0 = h ->
  row_loop byval_str_mk h0 obj (Some []) names i row single nl = row_loop byval_str_mk h0 obj None names i row single nl.
Proof.
  intros names. revert h. induction names as [|name r IH]; intros h i row single nl h0 ->; [auto|]. cbn [row_loop]. unfold column_flag, flag_of.
  destruct (column_of row i); cbn [bind]; [|auto]. destruct (column_node byval_str_mk a); cbn [bind]; [|auto]. cbn [alloc].
  destruct (object_set _ _ _ _ _); cbn [bind]; [|auto]. eapply IH. reflexivity.
Qed.
Lemma iter_rows_ext f g : (forall h ns r, f h ns r = g h ns r) -> forall fuel w s rc, iter_rows fuel f w s rc = iter_rows fuel g w s rc.
Proof.
  intros E. induction fuel as [|n IH]; intros w s rc; cbn [iter_rows]; [auto|]. destruct (rc =? SQLITE_DONE); [auto|]. rewrite E. destruct (g _ _ _) as [(h, stop)|]; cbn [bind]; [|auto].
  destruct (negb (stop =? 0)); [auto|]. destruct (next_row _ _ _ _) as ((db, s'), rc'). apply IH.
Qed.
Lemma select_empty fuel w sql s : snd (prepare (w_db DB w) sql) = [] -> sql_select fuel w (Some []) None sql s = sql_select fuel w None None sql s.
Proof.
  intros E. unfold sql_select, SqlSelectModel.sql_select. cbn [alloc]. f_equal. unfold select_iter, SqlSelectModel.select_iter.
  destruct (match s with Some (Some a) => _ | _ => Ok tt end); cbn [bind]; [|auto].
  fold bind_run_sql. rewrite (run_empty (World (w_db DB w) (w_open DB w) (w_heap DB w ++ [NArr (list_mk 10)])) sql true (Some None) E).
  destruct (bind_run_sql _ None None sql true (Some None)) as [(((rc, w1), my), st1)|]; cbn [bind]; [|auto].
  destruct (negb (rc =? SQLITE_ROW) && negb (rc =? SQLITE_DONE))%bool; [auto|]. destruct (of_option NullDeref st1); cbn [bind]; [|auto].
  rewrite (iter_rows_ext (get_a_row byval_str_mk (length (w_heap DB w)) (Some [])) (get_a_row byval_str_mk (length (w_heap DB w)) None)); [auto|].
  intros h ns r. unfold get_a_row. cbn [alloc]. rewrite (row_loop_empty (h ++ [NObj map_mk])) by reflexivity. auto.
Qed.
Lemma select1_empty fuel w sql s : snd (prepare (w_db DB w) sql) = [] -> sql_select1 fuel w (Some []) None sql s = sql_select1 fuel w None None sql s.
Proof. intros E. unfold sql_select1, SqlSelectModel.sql_select1. fold sql_select. rewrite (select_empty fuel w sql (Some None) E). auto. Qed.
Lemma next_int_fails w column from status : let q := firstn 127 (max_query column from) in
  (forall db, snd (prepare db q) = []) ->
  exists rc db', performs DB prepare exec limit [] None (w_db DB w) q rc db' /\
    (rc <> SQLITE_ROW -> rc <> SQLITE_DONE -> forall fuel, (0 < fuel)%nat -> exists w' a, next_int fuel w column from status = Ok (-1, w', Some a) /\ w_db DB w' = db' /\
      (length (w_heap DB w) <= a)%nat /\ error_text (w_heap DB w') (Some (Some a)) /\ quiet (w_heap DB w) (w_heap DB w')).
Proof.
  intros q Np. destruct (select1_fails w [] None q (Some None)) as (rc & db' & P & F).
  - constructor.
  - exact I.
  - intros db. rewrite Np. split; [intros p []|]. split; [constructor|]. intros j i Ej. destruct j; discriminate.
  - exact I.
  - exists rc, db'. split; [auto|]. intros Nr Nd fuel Lf. destruct (F Nr Nd fuel Lf) as (w' & s' & E & Ed & (a & -> & La) & Et & (L & O)).
    destruct (error_there _ a Et) as (e & m & Ee & _). exists w', a. split; [|split; [auto|split; [auto|split; [auto|split; [auto|]]]]].
    + unfold next_int, SqlSelectModel.next_int. fold sql_select1. fold q. rewrite <- (select1_empty fuel w q (Some None) (Np _)), E.
      cbn [bind pointee]. rewrite Ee. reflexivity.
    + intros c Lc. apply O; [auto|discriminate].
Qed.
End Select.
