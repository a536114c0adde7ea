(** Proofs about the operations on JSON objects. *)
From Coq Require Import ZArith List Bool Lia Arith Sorting.Permutation.
From Verif Require Import Base ArrayLemmas TsearchModel MapModel MapProofs ListModel ListProofs Json JsonHeapModel JsonHeapSpec JsonHeapProofs JsonFrame JsonMergeProofs JsonFieldProofs
  JsonSelectModel SqlModel SqlSpec SqlProofs SqlJsonModel SqlJsonSpec SqlJsonProofs SqlSelectModel SqlSelectProofs SqlGenericModel SqlGenericSpec.
Import ListNotations.
Open Scope Z_scope.

Lemma fill_ok tp before behind set : template tp before behind -> fill_template tp set = Some (before ++ set ++ behind).
Proof.
  intros (-> & N1 & N2). induction before as [|c before IH].
  - cbn [app fill_template]. assert (E : existsb (fun c => c =? 37) behind = false).
    { clear -N2. induction behind as [|c r IH]; [auto|]. cbn [existsb In] in *. rewrite IH by tauto. destruct (Z.eqb_spec c 37); [exfalso; apply N2; auto|auto]. }
    rewrite E. auto.
  - assert (N : c <> 37) by (intros ->; apply N1; left; auto). assert (N' : ~ In 37 before) by (intros I; apply N1; right; auto).
    assert (Y : forall r, fill_template (c :: r) set = match fill_template r set with Some t => Some (c :: t) | None => None end).
    { intros r. cbn [fill_template]. destruct c as [|p|p]; auto; repeat (destruct p as [p|p|]; auto); congruence. }
    change ((c :: before) ++ [37; 115] ++ behind) with (c :: (before ++ [37; 115] ++ behind)). rewrite Y, IH by auto. auto.
Qed.

Lemma agree_extends (h h' : heap) : (length h <= length h')%nat -> (forall c, (c < length h)%nat -> nth_error h' c = nth_error h c) -> extends h h'.
Proof.
  revert h'. induction h as [|n h IH]; intros h' L A; [exists h'; auto|]. destruct h' as [|n' h']; [cbn [length] in L; lia|].
  destruct (IH h') as (r & ->); [cbn [length] in L; lia|intros c Lc; apply (A (S c)); cbn [length]; lia|].
  specialize (A 0%nat ltac:(cbn [length]; lia)). cbn [nth_error] in A. injection A as ->. exists r. auto.
Qed.
Lemma holds_below (h h' : heap) j a : (length h <= length h')%nat -> (forall c, (c < length h)%nat -> nth_error h' c = nth_error h c) -> holds h j a -> holds h' j a.
Proof. intros L A. eapply holds_extends; [apply agree_extends; auto|apply le_n]. Qed.

(** strings and lists of strings do not notice changes of objects *)
Definition simple (j : json) : Prop := (exists s, j = JStr s) \/ exists l, j = JArr (map JStr l).
Lemma simple_stable h h' x m j a : simple j -> nth_error h x = Some (NObj m) -> only_status h h' (Some (Some x)) -> holds h j a -> holds h' j a.
Proof.
  intros Sj Ex (L & O). assert (G : forall c n, nth_error h c = Some n -> (forall m, n <> NObj m) -> nth_error h' c = Some n).
  { intros c n E N. rewrite O; [auto|apply nth_error_Some; congruence|]. intros Q. injection Q as ->. rewrite Ex in E. injection E as <-. eapply N; eauto. }
  destruct Sj as [(s & ->)|(l & ->)].
  - rewrite !(holds_leaf _ (JStr s) _ (NStr s) eq_refl). intros E. apply G; [auto|discriminate].
  - rewrite !strings_ok. intros (cl & xs & E & R & F). exists cl, xs. split; [apply G; [auto|discriminate]|]. split; [auto|].
    eapply forall2_impl; [|exact F]. cbn beta. intros s y E'. apply G; [auto|discriminate].
Qed.
Lemma simple_none h h' j a : only_status h h' None -> holds h j a -> holds h' j a.
Proof. intros (L & O). apply holds_below; [auto|]. intros c Lc. apply O; [auto|discriminate]. Qed.

Lemma set_ok h a kas k v : object_fields h a kas -> Z.of_nat (length kas) <= 2 ^ 64 -> (v < length h)%nat ->
  exists h', object_set byval_str_mk h (Some a) k (Some v) = Ok h' /\ object_fields h' a (put k v kas) /\ length h' = length h /\ only_status h h' (Some (Some a)).
Proof.
  intros (m & E & R) B Lv. unfold object_set. rewrite (object_at_ok h a m E). cbn [bind load].
  destruct (nth_error h v) eqn:Ev; [|apply nth_error_None in Ev; lia]. cbn [of_option bind].
  destruct (add_field_ok h a m kas k v E R B) as (m' & Ea & R'). rewrite Ea. eexists. split; [reflexivity|].
  split; [exists m'; split; [eapply store_same; eauto|auto]|]. rewrite store_length. split; [auto|]. split; [rewrite store_length; auto|].
  intros c Lc Nc. rewrite store_other; [auto|]. congruence.
Qed.
Lemma set_str_ok h a kas k s : object_fields h a kas -> Z.of_nat (length kas) <= 2 ^ 64 ->
  exists h', object_set_str byval_str_mk h (Some a) k s = Ok h' /\ object_fields h' a (put k (length h) kas) /\ nth_error h' (length h) = Some (NStr s) /\
    only_status h h' (Some (Some a)).
Proof.
  intros F B. destruct (set_new_ok h a kas k (NStr s) F B) as (h' & E & F' & N & L & O). exists h'. unfold object_set_str.
  pose proof F as (m & Em & _). rewrite (object_at_ok h a m Em). cbn [bind byval_str_mk]. split; [auto|]. split; [auto|]. split; [auto|]. split; [lia|].
  intros c Lc Nc. apply O; [auto|congruence].
Qed.

(** an object of such values *)
Definition plain_object (h : heap) (d : nat) (kjs : list (text * json)) : Prop :=
  exists kas, object_fields h d kas /\ Forall2 (fun kj ka => fst kj = fst ka /\ simple (snd kj) /\ holds h (snd kj) (snd ka)) kjs kas.
Lemma plain_holds h d kjs : plain_object h d kjs -> holds h (JObj kjs) d.
Proof.
  intros (kas & (m & E & R) & F). apply holds_obj. exists m, kas. split; [auto|]. split; [auto|]. eapply forall2_impl; [|exact F]. cbn beta. tauto.
Qed.
Lemma plain_keys h (kjs : list (text * json)) (kas : list (text * nat)) k : Forall2 (fun kj ka => fst kj = fst ka /\ simple (snd kj) /\ holds h (snd kj) (snd ka)) kjs kas ->
  ~ In k (map fst kjs) -> lookup k kas = None.
Proof.
  intros F N. apply lookup_none. intros I. apply N. clear N. induction F as [|kj ka kjs kas (A & _) F IH]; cbn [map In] in *; [auto|]. rewrite A. tauto.
Qed.
Lemma plain_add h h' d kjs kas k j v : object_fields h d kas -> Forall2 (fun kj ka => fst kj = fst ka /\ simple (snd kj) /\ holds h (snd kj) (snd ka)) kjs kas ->
  ~ In k (map fst kjs) -> simple j -> object_fields h' d (put k v kas) -> only_status h h' (Some (Some d)) -> holds h' j v -> plain_object h' d (kjs ++ [(k, j)]).
Proof.
  intros (m & E & R) F N Sj F' O Hv. exists (put k v kas). split; [auto|]. rewrite put_fresh by (eapply plain_keys; eauto). apply Forall2_app.
  - eapply forall2_impl; [|exact F]. cbn beta. intros kj ka (A & B & C). split; [auto|]. split; [auto|]. eapply simple_stable; eauto.
  - constructor; [|constructor]. cbn [fst snd]. auto.
Qed.
Lemma plain_set h d kjs k j v : plain_object h d kjs -> (length kjs < 100)%nat -> ~ In k (map fst kjs) -> simple j -> holds h j v ->
  exists h', object_set byval_str_mk h (Some d) k (Some v) = Ok h' /\ plain_object h' d (kjs ++ [(k, j)]) /\ only_status h h' (Some (Some d)).
Proof.
  intros (kas & F & M) L N Sj Hv. pose proof (forall2_len M) as Ll.
  assert (Lv : (v < length h)%nat) by (apply holds_node in Hv as (nd & Ev & _); apply nth_error_Some; congruence).
  destruct (set_ok h d kas k v F) as (h' & E & F' & _ & O); [lia|auto|]. exists h'. split; [auto|]. split; [|auto].
  pose proof F as (m & Em & _). assert (Hv' : holds h' j v) by (apply (simple_stable h h' d m); auto).
  exact (plain_add h h' d kjs kas k j v F M N Sj F' O Hv').
Qed.
Lemma plain_set_str h d kjs k s : plain_object h d kjs -> (length kjs < 100)%nat -> ~ In k (map fst kjs) ->
  exists h', object_set_str byval_str_mk h (Some d) k s = Ok h' /\ plain_object h' d (kjs ++ [(k, JStr s)]) /\ only_status h h' (Some (Some d)).
Proof.
  intros (kas & F & M) L N. pose proof (forall2_len M) as Ll.
  destruct (set_str_ok h d kas k s F) as (h' & E & F' & Ns & O); [lia|]. exists h'. split; [auto|]. split; [|auto].
  apply (plain_add h h' d kjs kas k (JStr s) (length h) F M N); [left; eauto|auto|auto|]. apply (holds_leaf _ (JStr s) _ (NStr s) eq_refl). auto.
Qed.
Lemma plain_other h h' d kjs r m : plain_object h d kjs -> r <> d -> nth_error h r = Some (NObj m) -> only_status h h' (Some (Some r)) -> plain_object h' d kjs.
Proof.
  intros (kas & (md & E & R) & F) Ne Er O. exists kas. split.
  - exists md. split; [|auto]. destruct O as (_ & O). rewrite O; [auto|apply nth_error_Some; congruence|congruence].
  - eapply forall2_impl; [|exact F]. cbn beta. intros kj ka (A & B & C). split; [auto|]. split; [auto|]. eapply simple_stable; eauto.
Qed.
Lemma plain_mk h : plain_object (h ++ [NObj map_mk]) (length h) [].
Proof. exists []. split; [apply mk_fields|constructor]. Qed.
Lemma fields_other h h' r x kas : object_fields h r kas -> r <> x -> only_status h h' (Some (Some x)) -> object_fields h' r kas.
Proof. intros (m & E & R) Ne (_ & O). exists m. split; [|auto]. rewrite O; [auto|apply nth_error_Some; congruence|congruence]. Qed.

Lemma lookup_perm {A} k (l l' : list (text * A)) : Permutation l l' -> NoDup (map fst l) -> lookup k l = lookup k l'.
Proof.
  intros P N. destruct (lookup k l) as [v|] eqn:E.
  - apply lookup_in in E. assert (I : In (k, v) l') by (eapply Permutation_in; eauto).
    assert (N' : NoDup (map fst l')) by (eapply Permutation_NoDup; [|exact N]; apply Permutation_map; auto). symmetry.
    clear -I N'. induction l' as [|(k', v') l' IH]; [destruct I|]. cbn [lookup map fst] in *. inversion N' as [|? ? N1 N2]; subst.
    destruct I as [Q|I]; [injection Q as -> ->; destruct (list_eq_dec Z.eq_dec k k); congruence|].
    destruct (list_eq_dec Z.eq_dec k k') as [<-|]; [|auto]. exfalso. apply N1. apply in_map_iff. exists (k, v). auto.
  - symmetry. apply lookup_none. apply lookup_none in E. intros I. apply E. eapply Permutation_in; [|exact I]. apply Permutation_map, Permutation_sym. auto.
Qed.
Lemma only_some h h' s x : only_status h h' (Some (Some x)) -> (length h <= x)%nat -> only_status h h' s.
Proof. intros (L & O) Lx. split; [auto|]. intros c Lc _. apply O; [auto|]. intros Q. injection Q as ->. lia. Qed.

(** * Composing *)
Lemma compose_made h a kvs infos data t : holds h (JObj kvs) a -> covers (Some data) (length infos) -> Forall (fun info => i_col info <> []) infos ->
  (forall tp, t_update_template t = Some tp -> exists before behind, template tp before behind) ->
  exists set ins ux ix, compose h (Some a) infos (Some data) 0 (match t_update_template t with Some _ => Some [] | None => None end) (if t_insert_dynamic t then Some ([], []) else None) = Ok (set, ins) /\
    (match t_update_template t, set with
     | Some tp, Some (c :: r) => let* x := of_option BadVaList (fill_template tp (c :: r)) in let* x := byval_str_mk x in Ok (Some x)
     | Some _, _ => Ok None
     | None, _ => Ok (t_update_x t)
     end)%outcome = Ok ux /\
    (match ins with Some (cols, vars) => byval_str_mk (insert_text (t_table t) cols vars) | None => Ok (t_insert_x t) end) = Ok ix /\
    composed kvs infos (Some data) t (Stmts (t_table t) (t_select t) (t_insert t) (t_insert_dynamic t) ix (t_delete t) (t_update t) (t_update_template t) ux).
Proof.
  intros H C Fc Ht. destruct (compose_loop h a kvs (Some data) H infos 0 (length infos) [] []) as (s & c & Ps & Pc & E); try constructor; auto.
  specialize (E (match t_update_template t with Some _ => true | None => false end) (t_insert_dynamic t)). cbn [app map joined] in E.
  assert (Ne : Forall (fun x => x <> []) (map assignment s)).
  { apply Forall_forall. intros x Ix. apply in_map_iff in Ix as (y & <- & _). unfold assignment. destruct (i_col y); discriminate. }
  destruct (t_update_template t) as [tp|] eqn:Et.
  - destruct (Ht tp eq_refl) as (bf & bh & T).
    exists (Some (joined (map assignment s))), (if t_insert_dynamic t then Some (joined (map i_col c), joined (map i_var c)) else None),
      (match s with [] => None | _ => Some (bf ++ joined (map assignment s) ++ bh) end), (if t_insert_dynamic t then insert_sql (t_table t) c else t_insert_x t).
    split; [exact E|]. split; [|split].
    + destruct s as [|i0 s]; [reflexivity|]. pose proof (joined_nil _ Ne) as J. destruct (joined (map assignment (i0 :: s))) as [|z r] eqn:Ej; [discriminate J; auto|].
      rewrite (fill_ok _ _ _ _ T). reflexivity.
    + destruct (t_insert_dynamic t); reflexivity.
    + unfold composed. cbn [t_table t_select t_insert t_insert_dynamic t_insert_x t_delete t_update t_update_template t_update_x]. rewrite Et. do 7 (split; [reflexivity|]). split.
      * exists s. split; [auto|]. split; [intros ->; auto|]. intros Ns. exists bf, bh. split; [auto|]. destruct s; [congruence|auto].
      * destruct (t_insert_dynamic t); [|auto]. exists c. auto.
  - exists None, (if t_insert_dynamic t then Some (joined (map i_col c), joined (map i_var c)) else None), (t_update_x t), (if t_insert_dynamic t then insert_sql (t_table t) c else t_insert_x t).
    split; [exact E|]. split; [reflexivity|]. split; [destruct (t_insert_dynamic t); reflexivity|].
    unfold composed. cbn [t_table t_select t_insert t_insert_dynamic t_insert_x t_delete t_update t_update_template t_update_x]. rewrite Et. do 8 (split; [reflexivity|]).
    destruct (t_insert_dynamic t); [|auto]. exists c. auto.
Qed.

(** * The report *)
Ltac step E := match type of E with ?L = _ => match goal with |- context [bind ?A _] => change A with L end end; rewrite E; cbn [bind].
Lemma report_ok h s n (t t' : stmts) used unused errors us ns : st h s n -> Z.of_nat n <= 2 ^ 40 -> (s <> Some None) ->
  (t_update_template t <> None -> t_update_x t' <> None) ->
  holds h (JArr (map JStr us)) used -> holds h (JArr (map JStr ns)) unused -> holds h (JArr []) errors ->
  exists h', (let (h, debug) := alloc h (NObj map_mk) in
    let* h := match t_update_template t with
      | Some _ => let* x := of_option NullDeref (t_update_x t') in object_set_str byval_str_mk h (Some debug) key_update x
      | None => Ok h end in
    let* h := if t_insert_dynamic t then object_set_str byval_str_mk h (Some debug) key_insert (t_insert_x t') else Ok h in
    match s with
    | Some (Some result) =>
      let* h := object_set byval_str_mk h (Some debug) key_used (Some used) in
      let* x := select 10 h (Some unused) [91; 48; 93] [] in
      let* h := match x with Some _ => object_set byval_str_mk h (Some debug) key_unused (Some unused) | None => Ok h end in
      let* h := object_set byval_str_mk h (Some result) key_debug (Some debug) in
      let* x := select 10 h (Some errors) [91; 48; 93] [] in
      match x with Some _ => object_set byval_str_mk h (Some result) key_error (Some errors) | None => Ok h end
    | _ => Ok h
    end)%outcome = Ok h' /\ only_status h h' s /\ st h' s (S n) /\ with_debug h h' s (debug_value t t' us ns).
Proof.
  intros St Bn Ns Hu Hus Hns Hes. cbn [alloc].
  set (d := length h). pose proof (plain_mk h) as P0. fold d in P0. set (h0 := h ++ [NObj map_mk]) in *.
  assert (O0 : only_status h h0 (Some (Some d))).
  { split; [unfold h0; rewrite app_length; lia|]. intros c Lc _. apply alloc_other. auto. }
  assert (Str : forall h1 l a, only_status h h1 (Some (Some d)) -> holds h (JArr (map JStr l)) a -> holds h1 (JArr (map JStr l)) a).
  { intros h1 l a (L1 & O1). apply holds_below; [auto|]. intros c Lc. apply O1; [auto|]. intros Q. injection Q as Q. unfold d in Q. lia. }
  set (j1 := match t_update_template t, t_update_x t' with Some _, Some x => [(k_update, JStr x)] | _, _ => [] end).
  assert (S1 : exists h1, (match t_update_template t with
      | Some _ => let* x := of_option NullDeref (t_update_x t') in object_set_str byval_str_mk h0 (Some d) key_update x
      | None => Ok h0 end)%outcome = Ok h1 /\ plain_object h1 d j1 /\ only_status h0 h1 (Some (Some d))).
  { unfold j1. destruct (t_update_template t) as [tp|]; [|exists h0; split; [auto|]; split; [auto|apply only_refl]].
    destruct (t_update_x t') as [x|] eqn:Ex; [|exfalso; apply Hu; congruence]. cbn [of_option bind].
    destruct (plain_set_str h0 d [] key_update x P0) as (h1 & E1 & P1 & O1); [cbn; lia|auto|]. exists h1. auto. }
  destruct S1 as (h1 & E1 & P1 & O1). step E1.
  set (j2 := j1 ++ if t_insert_dynamic t then [(k_insert, JStr (t_insert_x t'))] else []).
  assert (S2 : exists h2, (if t_insert_dynamic t then object_set_str byval_str_mk h1 (Some d) key_insert (t_insert_x t') else Ok h1) = Ok h2 /\
    plain_object h2 d j2 /\ only_status h1 h2 (Some (Some d))).
  { unfold j2. destruct (t_insert_dynamic t); [|exists h1; rewrite app_nil_r; split; [auto|]; split; [auto|apply only_refl]].
    apply plain_set_str; [auto| |].
    - unfold j1. destruct (t_update_template t); [destruct (t_update_x t')|]; cbn [length]; lia.
    - unfold j1. destruct (t_update_template t); [destruct (t_update_x t')|]; cbn [map fst In]; intros I; try tauto. destruct I as [I|[]]. discriminate. }
  destruct S2 as (h2 & E2 & P2 & O2). step E2.
  assert (L2 : (length j2 <= 2)%nat /\ (forall k, In k (map fst j2) -> k = k_update \/ k = k_insert)).
  { unfold j2, j1. destruct (t_update_template t); [destruct (t_update_x t')|]; destruct (t_insert_dynamic t); cbn [length app map fst In]; (split; [lia|]);
      intros k I; repeat (destruct I as [<-|I]; [auto|]); destruct I. }
  pose proof (only_trans _ _ _ _ O0 (only_trans _ _ _ _ O1 O2)) as O02.
  destruct s as [[r|]|]; [|congruence|].
  2: { exists h2. split; [auto|]. split; [eapply only_some; [exact O02|unfold d; lia]|]. split; exact I. }
  destruct St as (kas & Fr & Lk). assert (Lr : (r < length h)%nat) by (destruct Fr as (m & Er & _); apply nth_error_Some; congruence).
  assert (Nrd : r <> d) by (unfold d; lia).
  destruct (plain_set h2 d j2 key_used (JArr (map JStr us)) used P2) as (h3 & E3 & P3 & O3); [lia| |right; eauto|apply Str; auto|].
  { intros I. apply (proj2 L2) in I as [I|I]; discriminate. }
  step E3. pose proof (only_trans _ _ _ _ O02 O3) as O03.
  destruct (first_ok h3 (map JStr ns) unused) as (x & Ex & Qx); [apply Str; auto|]. step Ex.
  set (j3 := j2 ++ [(key_used, JArr (map JStr us))]) in *.
  set (j4 := j3 ++ match ns with [] => [] | _ => [(k_unused, JArr (map JStr ns))] end).
  assert (S4 : exists h4, (match x with Some _ => object_set byval_str_mk h3 (Some d) key_unused (Some unused) | None => Ok h3 end) = Ok h4 /\ plain_object h4 d j4 /\ only_status h3 h4 (Some (Some d))).
  { unfold j4. destruct ns as [|n0 ns]; cbn [map] in Qx.
    - subst x. exists h3. rewrite app_nil_r. split; [auto|]. split; [auto|apply only_refl].
    - destruct Qx as (x0 & -> & _). apply (plain_set h3 d j3 key_unused (JArr (map JStr (n0 :: ns)))); [auto| | |right; eauto|apply Str; auto].
      + unfold j3. rewrite app_length. cbn [length]. lia.
      + unfold j3. rewrite map_app. intros I. apply in_app_or in I as [I|I]; [apply (proj2 L2) in I as [I|I]; discriminate|]. cbn [map fst In] in I. destruct I as [I|[]]. discriminate. }
  destruct S4 as (h4 & E4 & P4 & O4). step E4. pose proof (only_trans _ _ _ _ O03 O4) as O04.
  assert (Fr4 : object_fields h4 r kas) by (eapply fields_other; eauto).
  assert (Ld : (d < length h4)%nat) by (destruct P4 as (? & (md & Ed & _) & _); apply nth_error_Some; congruence).
  destruct (set_ok h4 r kas key_debug d Fr4) as (h5 & E5 & F5 & L5 & O5); [lia|auto|]. step E5.
  assert (O05 : only_status h h5 (Some (Some r))) by (eapply only_trans; [eapply only_some; [exact O04|unfold d; lia]|exact O5]).
  pose proof Fr4 as (mr & Er4 & _).
  destruct (first_ok h5 [] errors) as (y & Ey & ->).
  { apply (simple_stable h4 h5 r mr); [right; exists []; auto|auto|auto|]. apply (Str h4 []); auto. }
  step Ey. exists h5. split; [auto|]. split; [auto|].
  split; [exists (put key_debug d kas); split; [auto|pose proof (put_length_le key_debug d kas); lia]|].
  exists kas, (put key_debug d kas), d. split; [auto|]. split; [auto|]. split; [rewrite lookup_put; destruct (list_eq_dec Z.eq_dec k_debug key_debug); [auto|exfalso; auto]|].
  split.
  - assert (Ej : debug_value t t' us ns = JObj j4).
    { unfold debug_value, j4, j3, j2. rewrite <- !app_assoc. reflexivity. }
    rewrite Ej. apply plain_holds. eapply plain_other; eauto.
  - intros k Nk. rewrite lookup_put. destruct (list_eq_dec Z.eq_dec k key_debug); [exfalso; auto|auto].
Qed.

(** * The operation *)
Lemma accept_more h s n : st h s n -> exists h' s', accept_result h s = (h', s') /\ extends h h' /\ st h' s' n /\ s' <> Some None /\ same_status h s s'.
Proof.
  intros St. destruct s as [[a|]|]; cbn [accept_result alloc].
  - exists h, (Some (Some a)). split; [auto|]. split; [exists []; rewrite app_nil_r; auto|]. split; [auto|]. split; [discriminate|reflexivity].
  - exists (h ++ [NObj map_mk]), (Some (Some (length h))). split; [auto|]. split; [eexists; reflexivity|]. split; [exists []; split; [apply mk_fields|cbn [length]; lia]|].
    split; [discriminate|reflexivity].
  - exists h, None. split; [auto|]. split; [exists []; rewrite app_nil_r; auto|]. split; [auto|]. split; [discriminate|reflexivity].
Qed.
Lemma st_extends h h' s n : extends h h' -> st h s n -> st h' s n.
Proof.
  intros X. destruct s as [[a|]|]; cbn [st]; auto. intros (kas & (m & E & R) & L). exists kas. split; [|auto]. exists m. split; [|auto]. eapply extends_some; eauto.
Qed.
Lemma strings_only h h' s n l a : st h s n -> s <> Some None -> only_status h h' s -> holds h (JArr (map JStr l)) a -> holds h' (JArr (map JStr l)) a.
Proof.
  intros St Ns O H. destruct s as [[r|]|]; [|congruence|eapply simple_none; eauto].
  destruct St as (kas & (m & E & _) & _). eapply simple_stable; eauto. right. eauto.
Qed.

Section Op.
Variable DB : Type.
Variable op : world DB -> option (list bind_info) -> option (list bind_data) -> stmts -> option (option nat) -> outcome (Z * world DB * option (option nat)).

Lemma generic_ok (w : world DB) a kvs infos data t s n :
  holds (w_heap DB w) (JObj kvs) a -> st (w_heap DB w) s n -> NoDup (map i_col infos) -> Forall (fun info => i_col info <> []) infos ->
  (length infos <= length data)%nat ->
  (forall i info d, nth_error infos i = Some info -> nth_error data i = Some d -> In (i_col info) (map fst kvs) -> fresh d) ->
  (forall k v info, In (k, v) kvs -> In info infos -> i_col info = k -> takes info v) ->
  (forall tp, t_update_template t = Some tp -> exists before behind, template tp before behind) ->
  exists h1 s1 data' t' order us ns,
    same_status (w_heap DB w) s s1 /\ extends (w_heap DB w) h1 /\ s1 <> Some None /\ st h1 s1 n /\
    Permutation order kvs /\ sorted infos order us ns [] /\ data_from infos kvs data data' /\ composed kvs infos (Some data') t t' /\
    (forall b, op (on_heap DB w h1) (Some infos) (Some data') t' s1 = Bad b -> generic_opcode byval_str_mk DB op w (Some a) (Some infos) (Some data) t s = Bad b) /\
    (forall rc w2, op (on_heap DB w h1) (Some infos) (Some data') t' s1 = Ok (rc, w2, s1) -> t_update_template t <> None -> t_update_x t' = None ->
       generic_opcode byval_str_mk DB op w (Some a) (Some infos) (Some data) t s = Bad NullDeref) /\
    (forall rc w2 m, op (on_heap DB w h1) (Some infos) (Some data') t' s1 = Ok (rc, w2, s1) -> only_status h1 (w_heap DB w2) s1 -> st (w_heap DB w2) s1 m ->
       Z.of_nat m <= 2 ^ 40 -> (t_update_template t <> None -> t_update_x t' <> None) ->
       exists h', generic_opcode byval_str_mk DB op w (Some a) (Some infos) (Some data) t s = Ok (rc, on_heap DB w2 h', Some data', s1) /\
         only_status (w_heap DB w2) h' s1 /\ st h' s1 (S m) /\ with_debug (w_heap DB w2) h' s1 (debug_value t t' us ns)).
Proof.
  intros H St Nd Fc Ld Fr Ht Htp.
  destruct (accept_more _ _ _ St) as (h0 & s1 & Ea & X0 & St0 & Ns & Ss).
  set (e := length h0). set (g1 := h0 ++ [NArr (list_mk 1)]). set (u := length g1). set (g2 := g1 ++ [NArr (list_mk 10)]). set (v := length g2). set (g3 := g2 ++ [NArr (list_mk 10)]).
  assert (X1 : extends h0 g1) by (eexists; reflexivity). assert (X2 : extends g1 g2) by (eexists; reflexivity). assert (X3 : extends g2 g3) by (eexists; reflexivity).
  assert (Lu : u = S e) by (unfold u, g1, e; rewrite app_length; cbn [length]; lia). assert (Lv : v = S u) by (unfold v, g2, u; rewrite app_length; cbn [length]; lia).
  assert (He : listed g3 (Some e) []).
  { cbn [listed]. apply (strings_extends g1); [eapply extends_trans; eauto|]. apply new_array. lia. }
  assert (Hu : listed g3 (Some u) []). { cbn [listed]. apply (strings_extends g2); [auto|]. apply new_array. lia. }
  assert (Hv : listed g3 (Some v) []). { cbn [listed]. apply new_array. lia. }
  assert (Xg : extends (w_heap DB w) g3). { eapply extends_trans; [exact X0|]. eapply extends_trans; [exact X1|]. eapply extends_trans; eauto. }
  assert (Hg : holds g3 (JObj kvs) a). { eapply holds_extends; [exact Xg|apply le_n|exact H]. }
  destruct (populate_ok infos g3 a kvs data (Some v) (Some u) (Some e) [] [] [] Hg) as (h1 & data' & us & ns & es & pre & post & Ep & (Sv & Su & Se) & K & Pm & So & Df & Po);
    [cbn [addrs app]; repeat constructor; cbn [In]; lia|auto|split; [auto|split; auto]|auto|auto|intros k x info I1 I2 I3; left; eauto|].
  cbn [app] in Sv, Su, Se. assert (Nk : NoDup (map fst kvs)).
  { apply holds_obj in H as (m & kas & _ & R & F). rewrite (members_fst F). eapply mrep_nodup; eauto. }
  assert (post = [] /\ es = []) as (-> & ->).
  { destruct post as [|(k, x) post]; [auto|]. destruct Po as (info & I & Ec & (Ti & Nn & Nz) & _). exfalso.
    assert (T : takes info x) by (apply (Ht k x info); auto; eapply Permutation_in; [exact Pm|]; apply in_or_app; right; left; auto).
    inversion T; subst; [congruence|eapply Nz; eauto|eapply Nz; eauto|]. destruct Ti; congruence. }
  rewrite app_nil_r in Pm. clear Po.
  assert (X4 : extends h0 h1).
  { destruct K as (Lk & K). assert (L03 : (length h0 <= length g3)%nat) by (apply extends_len; eapply extends_trans; [exact X1|]; eapply extends_trans; eauto).
    apply agree_extends; [lia|]. intros c Lc. destruct (K c) as (A & _); [lia|]. rewrite A.
    - apply extends_get; [eapply extends_trans; [exact X1|]; eapply extends_trans; eauto|auto].
    - cbn [addrs app In]. unfold e in *. lia. }
  pose proof (extends_trans _ _ _ X0 X4) as X. assert (H1 : holds h1 (JObj kvs) a) by (eapply holds_extends; [exact X|apply le_n|exact H]).
  assert (Df' : data_from infos kvs data data').
  { destruct Df as (L & D). split; [auto|]. intros i info Ei. specialize (D i info Ei). rewrite <- (lookup_perm (i_col info) pre kvs Pm); [auto|].
    eapply Permutation_NoDup; [apply Permutation_map, Permutation_sym; exact Pm|auto]. }
  destruct (compose_made h1 a kvs infos data' t H1) as (set & ins & ux & ix & Ec & Eu & Ei & Co);
    [cbn [covers]; destruct Df as (-> & _); auto|auto|auto|].
  set (t' := Stmts (t_table t) (t_select t) (t_insert t) (t_insert_dynamic t) ix (t_delete t) (t_update t) (t_update_template t) ux) in *.
  exists h1, s1, data', t', pre, us, ns. split; [exact Ss|]. split; [exact X|]. split; [exact Ns|]. split; [exact (st_extends _ _ _ _ X4 St0)|]. split; [exact Pm|]. split; [exact So|]. split; [exact Df'|]. split; [exact Co|].
  set (P := op (on_heap DB w h1) (Some infos) (Some data') t' s1).
  assert (G : generic_opcode byval_str_mk DB op w (Some a) (Some infos) (Some data) t s =
    (let* (rc, w, status) := P in
     let* h := (let (h, debug) := alloc (w_heap DB w) (NObj map_mk) in
       let* h := match t_update_template t with
         | Some _ => let* x := of_option NullDeref (t_update_x t') in object_set_str byval_str_mk h (Some debug) key_update x
         | None => Ok h end in
       let* h := if t_insert_dynamic t then object_set_str byval_str_mk h (Some debug) key_insert (t_insert_x t') else Ok h in
       match s1 with
       | Some (Some result) =>
         let* h := object_set byval_str_mk h (Some debug) key_used (Some v) in
         let* x := select 10 h (Some u) [91; 48; 93] [] in
         let* h := match x with Some _ => object_set byval_str_mk h (Some debug) key_unused (Some u) | None => Ok h end in
         let* h := object_set byval_str_mk h (Some result) key_debug (Some debug) in
         let* x := select 10 h (Some e) [91; 48; 93] [] in
         match x with Some _ => object_set byval_str_mk h (Some result) key_error (Some e) | None => Ok h end
       | _ => Ok h
       end) in
     Ok (rc, on_heap DB w h, Some data', status))%outcome).
  { unfold generic_opcode. rewrite Ea. cbn [alloc]. fold e g1. fold u g2. fold v g3. rewrite Ep. cbn [bind].
    match goal with |- bind ?A _ = _ => replace A with (Ok (set, ins)) by (symmetry; exact Ec) end. cbn [bind].
    match goal with |- bind ?A _ = _ => replace A with (Ok ux) by (symmetry; exact Eu) end. cbn [bind].
    match goal with |- bind ?A _ = _ => replace A with (Ok ix) by (symmetry; exact Ei) end. cbn [bind]. fold t'. fold P.
    destruct P as [((rc & w2) & s2)|b]; [|reflexivity]. cbn [bind].
    change (t_update_x t') with ux. change (t_insert_x t') with ix.
    match goal with |- bind ?A _ = _ => destruct A; [|reflexivity] end. cbn [bind].
    match goal with |- bind ?A _ = _ => destruct A; [|reflexivity] end. cbn [bind].
    destruct s1 as [[r|]|]; [|reflexivity|reflexivity].
    match goal with |- bind ?A _ = _ => destruct A; [|reflexivity] end. cbn [bind].
    match goal with |- bind ?A _ = _ => destruct A as [x|]; [|reflexivity] end. cbn [bind].
    match goal with |- bind ?A _ = _ => destruct A; [|reflexivity] end. cbn [bind].
    match goal with |- bind ?A _ = _ => destruct A; [|reflexivity] end. cbn [bind].
    match goal with |- bind ?A _ = _ => destruct A as [y|]; [|reflexivity] end. cbn [bind]. reflexivity. }
  split; [|split].
  - intros b Eb. fold P in Eb. rewrite G, Eb. reflexivity.
  - intros rc w2 Eo Nt Nu. fold P in Eo. rewrite G, Eo. cbn [bind alloc]. destruct (t_update_template t) as [tp|]; [|congruence]. rewrite Nu. reflexivity.
  - intros rc w2 m Eo O St2 Bm Hx. fold P in Eo.
    pose proof (st_extends _ _ _ _ X4 St0) as St1.
    destruct (report_ok (w_heap DB w2) s1 m t t' v u e us ns St2 Bm Ns Hx) as (h' & Er & Or & Sr & Wd).
    { eapply strings_only; eauto. } { eapply strings_only; eauto. } { apply (strings_only h1 (w_heap DB w2) s1 n []); auto. }
    exists h'. split; [|auto]. rewrite G, Eo. cbn [bind]. rewrite Er. reflexivity.
Qed.
End Op.

(** * The values of the columns *)
Lemma cut_unique : forall (s s' r r' : text), s ++ 0 :: r = s' ++ 0 :: r' -> ~ In 0 s -> ~ In 0 s' -> s = s'.
Proof.
  induction s as [|c s IH]; intros [|c' s'] r r' E N N'; cbn [app In] in *; auto.
  - injection E as E0 _. exfalso; apply N'; auto.
  - injection E as E0 _. exfalso; apply N; auto.
  - injection E as -> E. f_equal. eapply IH; eauto.
Qed.
Lemma take_unique (s s' r r' : text) : s ++ r = s' ++ r' -> length s = length s' -> s = s'.
Proof. intros E L. apply (f_equal (firstn (length s))) in E. rewrite firstn_app, firstn_all, Nat.sub_diag in E. rewrite L, firstn_app, firstn_all, Nat.sub_diag in E. cbn [firstn] in E. rewrite !app_nil_r in E. auto. Qed.
Lemma denotes_int l l' d ty z v : ty = T_INT \/ ty = T_INT64 -> denotes l d ty (V_INT z) -> denotes l' d ty v -> v = V_INT z.
Proof. intros [-> | ->] A B; inversion A; inversion B; subst; auto. Qed.
Lemma denotes_text l l' d s v : denotes l d T_TEXT (V_TEXT s) -> denotes l' d T_TEXT v -> v = V_TEXT s.
Proof.
  intros A B. inversion A as [| | |? r E N Z0 L E1 E2|? r E Sz L E1 E2| |]; subst; inversion B as [| |E'|s' r' E' N' Z' L' E1' E2'|s' r' E' Sz' L' E1' E2'| |]; subst; try congruence; try lia.
  - rewrite E in E'. injection E' as E'. f_equal. symmetry. eapply cut_unique; eauto.
  - rewrite E in E'. injection E' as E'. f_equal. symmetry. eapply take_unique; eauto. lia.
Qed.
Lemma data_null info d : data_is info JNull d -> takes info JNull -> d_has_value d = true /\ d_is_null d = true /\ i_not_null info = false.
Proof. intros (A & B) T. inversion T. auto. Qed.

(** what binding gives is what the column is to have *)
Lemma supplied_member limit P info j d v : takes info j -> data_is info j d -> (forall s, j = JStr s -> Z.of_nat (length s) <= limit) ->
  supplied limit P info (Some d) v <-> sql_of j = Some v.
Proof.
  intros T (Hv & D) Ll. assert (Sd : source info (Some d) = Some d) by (unfold source; rewrite Hv; auto). inversion T as [Nn|z Ti Br|z Ti|s Ti Nz]; subst; cbn [sql_of].
  - split.
    + intros X. inversion X as [d' S1 S2 S3|d' v' S1 S2 S3|v' S1]; subst; [auto| |congruence]. destruct S2 as [S2|S2]; congruence.
    + intros Q. injection Q as <-. eapply supplied_null; eauto.
  - destruct D as (N & D). split.
    + intros X. inversion X as [d' S1 S2 S3|d' v' S1 S2 S3|v' S1]; subst; try congruence. assert (d' = d) by congruence. subst d'. f_equal. symmetry. exact (denotes_int limit limit d (i_type info) z v (or_introl Ti) (D limit) S3).
    + intros Q. injection Q as <-. eapply supplied_data; eauto.
  - destruct D as (N & D). split.
    + intros X. inversion X as [d' S1 S2 S3|d' v' S1 S2 S3|v' S1]; subst; try congruence. assert (d' = d) by congruence. subst d'. f_equal. symmetry. exact (denotes_int limit limit d (i_type info) z v (or_intror Ti) (D limit) S3).
    + intros Q. injection Q as <-. eapply supplied_data; eauto.
  - destruct D as (N & D). specialize (D limit (Ll s eq_refl)). split.
    + intros X. inversion X as [d' S1 S2 S3|d' v' S1 S2 S3|v' S1]; subst; try congruence. assert (d' = d) by congruence. subst d'. rewrite Ti in S3, D. f_equal. symmetry. eapply denotes_text; eauto.
    + intros Q. injection Q as <-. eapply supplied_data; eauto.
Qed.
Lemma supplied_own limit (P : Prop) info d v : d_has_value d = false ->
  supplied limit P info (Some d) v <-> (d_has_value (i_data info) = true /\ own_value limit info v) \/ (d_has_value (i_data info) = false /\ P /\ i_not_null info = true /\ zero_value (i_type info) v).
Proof.
  intros Hd. assert (Sd : source info (Some d) = if d_has_value (i_data info) then Some (i_data info) else None) by (unfold source; rewrite Hd; auto). split.
  - intros X. inversion X as [d' S1 S2 S3|d' v' S1 S2 S3|v' S1 S2 S3 S4]; subst; rewrite Sd in S1; destruct (d_has_value (i_data info)); try discriminate.
    + injection S1 as <-. left. split; [auto|]. apply own_null; auto.
    + injection S1 as <-. left. split; [auto|]. apply own_data; auto.
    + right. auto.
  - intros [(Hv & O)|(Hv & HP & Nn & Zv)]; rewrite Hv in Sd.
    + inversion O as [S2 S3|v' S2 S3]; subst; [eapply supplied_null; eauto|eapply supplied_data; eauto].
    + apply supplied_zero; auto.
Qed.

Section Columns.
Variable limit : Z.
Variable kvs : list (text * json).
Variable infos : list bind_info.
Variables data data' : list bind_data.
Hypothesis types : forall k v info, In (k, v) kvs -> In info infos -> i_col info = k -> takes info v.
Hypothesis short : forall k s, In (k, JStr s) kvs -> Z.of_nat (length s) <= limit.
Hypothesis enough : (length infos <= length data)%nat.
Hypothesis new : Forall unused_data data.
Hypothesis bound : data_from infos kvs data data'.

Lemma column_data j info : nth_error infos j = Some info ->
  exists d, nth_error data' j = Some d /\
    match lookup (i_col info) kvs with Some v => takes info v /\ data_is info v d | None => d_has_value d = false end.
Proof.
  intros E. destruct bound as (_ & B). specialize (B j info E). destruct (lookup (i_col info) kvs) as [v|] eqn:El.
  - destruct B as (d & Ed & D). exists d. split; [auto|]. split; [|auto]. eapply types; [eapply lookup_in; eauto|eapply nth_error_In; eauto|auto].
  - assert (Lj : (j < length data)%nat) by (assert (j < length infos)%nat by (apply nth_error_Some; congruence); lia).
    destruct (nth_error data j) as [d|] eqn:Ed; [|apply nth_error_None in Ed; lia]. exists d. split; [auto|].
    apply (proj1 (Forall_forall _ _) new). eapply nth_error_In; eauto.
Qed.
Lemma column_supplied P j info v : nth_error infos j = Some info -> (P : Prop) ->
  supplied limit P info (given (Some data') j) v <-> column_value limit kvs info v.
Proof.
  intros E HP. destruct (column_data j info E) as (d & Ed & D). cbn [given]. rewrite Ed. destruct (lookup (i_col info) kvs) as [x|] eqn:El.
  - destruct D as (T & D). rewrite (supplied_member limit P info x d v T D).
    + split; [intros Q; eapply from_member; eauto|]. intros Q. inversion Q; congruence.
    + intros s ->. eapply short. eapply lookup_in; eauto.
  - rewrite (supplied_own limit P info d v D). split.
    + intros [(Hv & O)|(Hv & _ & Nn & Zv)]; [apply from_own; auto|apply from_zero; auto].
    + intros Q. inversion Q; subst; try congruence; auto.
Qed.
(** without the zeros *)
Lemma column_given (P : Prop) j info v : nth_error infos j = Some info -> In (i_col info) (map fst kvs) \/ d_has_value (i_data info) = true ->
  supplied limit P info (given (Some data') j) v <-> column_value limit kvs info v.
Proof.
  intros E HP. destruct (column_data j info E) as (d & Ed & D). cbn [given]. rewrite Ed. destruct (lookup (i_col info) kvs) as [x|] eqn:El.
  - destruct D as (T & D). rewrite (supplied_member limit P info x d v T D).
    + split; [intros Q; eapply from_member; eauto|]. intros Q. inversion Q; congruence.
    + intros s ->. eapply short. eapply lookup_in; eauto.
  - assert (Hv : d_has_value (i_data info) = true) by (destruct HP as [I|]; [apply lookup_none in El; contradiction|auto]).
    rewrite (supplied_own limit P info d v D). split.
    + intros [(_ & O)|(Hv' & _)]; [apply from_own; auto|congruence].
    + intros Q. inversion Q; subst; try congruence; auto.
Qed.
Lemma has_value_iff j info : nth_error infos j = Some info -> has_value_for (Some data') j info <-> In (i_col info) (map fst kvs) \/ d_has_value (i_data info) = true.
Proof.
  intros E. destruct (column_data j info E) as (d & Ed & D). unfold has_value_for. cbn [given]. rewrite Ed. destruct (lookup (i_col info) kvs) as [x|] eqn:El.
  - destruct D as (T & Hv & D). apply lookup_in, (in_map fst) in El. cbn [fst] in El. split; [auto|]. intros _. left. exists d. auto.
  - apply lookup_none in El. split; [|tauto]. intros [(d' & Q & Hv)|]; [congruence|auto].
Qed.
Lemma inserted_iff j info : nth_error infos j = Some info -> to_insert (Some data') j info <-> inserted kvs j info.
Proof. intros E. unfold to_insert, inserted. rewrite (has_value_iff j info E). tauto. Qed.
Lemma column_exists info : In info infos -> good_entry limit info -> inserted kvs 0 info -> exists v, column_value limit kvs info v.
Proof.
  intros I (_ & Go & Gz) Ins. destruct (lookup (i_col info) kvs) as [x|] eqn:El.
  - pose proof El as In1. apply lookup_in in In1. pose proof (types _ _ _ In1 I eq_refl) as T. destruct (sql_of x) as [v|] eqn:Ev; [exists v; eapply from_member; eauto|].
    exfalso. inversion T; subst; discriminate.
  - apply lookup_none in El as Nl. destruct Ins as [Ik|Hr]; [contradiction|]. destruct (d_has_value (i_data info)) eqn:Hv.
    + destruct (Go eq_refl) as (v & O). exists v. apply from_own; auto.
    + destruct Hr as [Hr|Hn]; [discriminate|]. destruct (Gz Hn) as (v & Zv). exists v. apply from_zero; auto.
Qed.
End Columns.

Notation picked := SqlJsonSpec.picked.
Lemma picked_in P : forall infos i l, picked P i infos l -> forall info, In info l -> exists j, nth_error infos j = Some info /\ P (i + j)%nat info.
Proof.
  induction 1 as [|i x infos l Px H IH|i x infos l Px H IH]; intros info I; [destruct I| |].
  - destruct I as [->|I]; [exists 0%nat; rewrite Nat.add_0_r; auto|]. destruct (IH _ I) as (j & E & Pj). exists (S j). rewrite <- plus_n_Sm. auto.
  - destruct (IH _ I) as (j & E & Pj). exists (S j). rewrite <- plus_n_Sm. auto.
Qed.
Lemma picked_has P : forall infos i l, picked P i infos l -> forall j info, nth_error infos j = Some info -> P (i + j)%nat info -> In info l.
Proof.
  induction 1 as [|i x infos l Px H IH|i x infos l Px H IH]; intros j info E Pj; destruct j as [|j]; try discriminate; cbn [nth_error] in E.
  - injection E as ->. left; auto.
  - right. apply (IH j info E). rewrite <- plus_n_Sm in Pj. auto.
  - injection E as ->. rewrite Nat.add_0_r in Pj. contradiction.
  - apply (IH j info E). rewrite <- plus_n_Sm in Pj. auto.
Qed.
Lemma picked_ext P Q : forall infos i l, (forall j info, nth_error infos j = Some info -> P (i + j)%nat info <-> Q (i + j)%nat info) -> picked P i infos l -> picked Q i infos l.
Proof.
  induction infos as [|x infos IH]; intros i l Ex H; inversion H; subst; [constructor|apply picked_yes|apply picked_no].
  - specialize (Ex 0%nat x eq_refl). rewrite Nat.add_0_r in Ex. tauto.
  - apply IH; [|auto]. intros j info E. specialize (Ex (S j) info E). rewrite <- plus_n_Sm in Ex. auto.
  - specialize (Ex 0%nat x eq_refl). rewrite Nat.add_0_r in Ex. tauto.
  - apply IH; [|auto]. intros j info E. specialize (Ex (S j) info E). rewrite <- plus_n_Sm in Ex. auto.
Qed.
Lemma picked_nodup P {A} (f : bind_info -> A) : forall infos i l, picked P i infos l -> NoDup (map f infos) -> NoDup (map f l).
Proof.
  induction 1 as [|i x infos l Px H IH|i x infos l Px H IH]; cbn [map]; intros N; [constructor| |]; inversion N as [|? ? N1 N2]; subst; [|auto].
  constructor; [|auto]. intros I. apply N1. apply in_map_iff in I as (y & <- & Iy). apply in_map. destruct (picked_in _ _ _ _ H y Iy) as (j & E & _). eapply nth_error_In; eauto.
Qed.

Lemma rename_ok h r kas old new : object_fields h r kas -> Z.of_nat (length kas) < 2 ^ 31 -> old <> new ->
  exists b h' kas', object_rename byval_str_mk h r old new = Ok (b, h') /\ only_status h h' (Some (Some r)) /\ object_fields h' r kas' /\
    (forall k, k <> old -> k <> new -> lookup k kas' = lookup k kas) /\ (forall x, lookup old kas = Some x -> lookup new kas' = Some x).
Proof.
  intros (cm & E & R) B Ne. unfold object_rename, to_object, load. rewrite E. cbn [of_option bind byval_str_mk map_rename].
  destruct (MapProofs.remove_rep strcmp strcmp_total cm (wrapped kas) old R) as (cm' & Er & R'); [unfold wrapped; rewrite map_length; lia|].
  rewrite Er. cbn [bind]. rewrite get_wrapped. rewrite del_wrapped in R'.
  assert (O : forall n, only_status h (store h r n) (Some (Some r))).
  { intros n. split; [rewrite store_length; auto|]. intros c _ Nc. apply store_other. congruence. }
  destruct (lookup old kas) as [a|] eqn:Lo.
  - destruct (add_e_rep strcmp strcmp_total cm' (wrapped (del old kas)) new (Some a) None R') as (cm2 & Ea & R2).
    { unfold wrapped. rewrite map_length. pose proof (del_length_le old kas). lia. }
    unfold map_add. rewrite Ea. cbn [bind of_option]. rewrite put_wrapped in R2.
    exists true, (store h r (NObj cm2)), (put new a (del old kas)). split; [reflexivity|]. split; [apply O|]. split; [exists cm2; split; [eapply store_same; eauto|auto]|]. split.
    + intros k N1 N2. rewrite lookup_put, lookup_del. destruct (list_eq_dec Z.eq_dec k new); [congruence|]. destruct (list_eq_dec Z.eq_dec k old); congruence.
    + intros x Q. injection Q as <-. rewrite lookup_put. destruct (list_eq_dec Z.eq_dec new new); congruence.
  - cbn [of_option bind]. exists false, (store h r (NObj cm')), (del old kas). split; [reflexivity|]. split; [apply O|]. split; [exists cm'; split; [eapply store_same; eauto|auto]|]. split.
    + intros k N1 N2. rewrite lookup_del. destruct (list_eq_dec Z.eq_dec k old); congruence.
    + intros x Q. discriminate.
Qed.

Lemma insert_sql_type table l : is_insert (insert_sql table l).
Proof.
  exists [], [105; 110; 115; 101; 114; 116]. eexists. split; [unfold insert_sql; cbn [app]; reflexivity|]. split; [constructor|]. repeat constructor.
Qed.

Section Insert.
Variable DB : Type.
Variable prepare : DB -> text -> Z * list (option text).
Variable exec : DB -> text -> list sqlv -> DB * list (list sqlv) * Z.
Variable limit : Z.
Variable counters : DB -> counts.
Variable msg_unbound : text -> Z -> text -> text.
Variable msg_failed : Z -> text -> text.
Hypothesis limit_small : limit < 2 ^ 31.

Lemma map_some_nodup {A} (l : list A) : NoDup l -> NoDup (map Some l).
Proof. induction 1 as [|x l N H IH]; cbn [map]; constructor; auto. intros I. apply in_map_iff in I as (y & Q & I). injection Q as ->. auto. Qed.
Lemma var_unique infos i j x y : NoDup (map i_var infos) -> nth_error infos i = Some x -> nth_error infos j = Some y -> i_var x = i_var y -> i = j.
Proof.
  intros N Ei Ej Q. apply (proj1 (NoDup_nth_error (map i_var infos)) N).
  - rewrite map_length. apply nth_error_Some. congruence.
  - rewrite !nth_error_map, Ei, Ej. cbn [option_map]. congruence.
Qed.

Lemma insert_good kvs infos data data' table c :
  (forall k v info, In (k, v) kvs -> In info infos -> i_col info = k -> takes info v) -> (forall k s, In (k, JStr s) kvs -> Z.of_nat (length s) <= limit) ->
  (length infos <= length data)%nat -> Forall unused_data data -> data_from infos kvs data data' ->
  NoDup (map i_var infos) -> Forall (good_entry limit) infos -> finds_params DB prepare infos table ->
  picked (inserted kvs) 0 infos c ->
  good_sql DB prepare limit infos (Some data') (insert_sql table c) /\
  forall db rc db', performs DB prepare exec limit infos (Some data') db (insert_sql table c) rc db' ->
    (exists vals, fst (prepare db (insert_sql table c)) = SQLITE_OK /\ Forall2 (column_value limit kvs) c vals /\ ran DB exec db (insert_sql table c) vals rc db') \/
    (fst (prepare db (insert_sql table c)) = rc /\ rc <> SQLITE_OK /\ db' = db).
Proof.
  intros Ty Sh En Ne Df Nv Ge Fp Pc.
  assert (Ic : incl c infos) by (intros x I; destruct (picked_in _ _ _ _ Pc x I) as (j & E & _); eapply nth_error_In; eauto).
  assert (Nc : NoDup (map i_var c)) by (eapply picked_nodup; eauto).
  split.
  - intros db. destruct (Fp db c Ic Nc) as [E|(rc & _ & E)]; rewrite E; cbn [snd]; cbv zeta.
    2: { split; [intros p []|]. split; [constructor|]. intros j info _ []. }
    split; [intros p I Q; subst p; apply in_map_iff in I as (y & Q & _); discriminate|]. split; [rewrite <- (map_map i_var Some); apply map_some_nodup; auto|].
    intros j info Ej I. apply in_map_iff in I as (y & Q & Iy). injection Q as Q. destruct (picked_in _ _ _ _ Pc y Iy) as (j' & Ej' & Ins).
    assert (j' = j) by exact (var_unique infos _ _ _ _ Nv Ej' Ej Q). subst j'. assert (y = info) by congruence. subst y.
    assert (Ii : In info infos) by auto. destruct (column_exists limit kvs infos Ty info Ii (proj1 (Forall_forall _ _) Ge info Ii) Ins) as (v & Cv).
    exists v. apply (column_supplied limit kvs infos data data' Ty Sh En Ne Df); auto. apply insert_sql_type.
  - intros db rc db' P. inversion P as [params vals rc' db2 Ep Fn Al Rn|rc0 params rc' Ep Bad Er]; subst.
    + left. exists vals. rewrite Ep. split; [auto|]. split; [|auto]. destruct (Fp db c Ic Nc) as [E|(rc1 & Nr & E)]; [|congruence].
      rewrite Ep in E. injection E as ->. destruct Al as (Ll & Al). rewrite map_length in Ll. clear -Ll Al Ic Nv Ty Sh En Ne Df.
      assert (A : forall k x, nth_error c k = Some x -> exists v, nth_error vals k = Some v /\ column_value limit kvs x v).
      { intros k x Ex. destruct (Al k (Some (i_var x))) as (j & info & v & Ej & Q & Ev & Sv); [rewrite nth_error_map, Ex; auto|].
        injection Q as Q. destruct (In_nth_error infos x) as (j' & Ej'); [apply Ic; eapply nth_error_In; eauto|].
        assert (j' = j) by exact (var_unique infos _ _ _ _ Nv Ej' Ej Q). subst j'. assert (x = info) by congruence. subst x.
        exists v. split; [auto|]. apply (column_supplied limit kvs infos data data' Ty Sh En Ne Df) in Sv; auto. apply insert_sql_type. }
      clear Al Ic. revert vals Ll A. induction c as [|x c IH]; intros [|v vals] Ll A; try discriminate; constructor.
      * destruct (A 0%nat x eq_refl) as (v' & Q & C). injection Q as <-. auto.
      * apply IH; [cbn [length] in Ll; lia|]. intros k y Ek. apply (A (S k) y Ek).
    + right. rewrite Ep. cbn [fst]. destruct (Fp db' c Ic Nc) as [E|(rc1 & Nr & E)]; rewrite Ep in E; injection E as -> ->.
      * exfalso. destruct Bad as [B|B]; [congruence|]. apply B. apply Forall_forall. intros p I. apply in_map_iff in I as (y & <- & Iy). exists y. auto.
      * destruct (Z.eqb_spec rc1 SQLITE_OK); [congruence|]. auto.
Qed.

Lemma insert_op_ok (w : world DB) a kvs infos data t s n :
  holds (w_heap DB w) (JObj kvs) a -> st (w_heap DB w) s n -> Z.of_nat n < 2 ^ 30 -> s <> None ->
  NoDup (map i_col infos) -> NoDup (map i_var infos) -> Forall (good_entry limit) infos ->
  (length infos <= length data)%nat -> Forall unused_data data ->
  (forall k v info, In (k, v) kvs -> In info infos -> i_col info = k -> takes info v) -> (forall k s, In (k, JStr s) kvs -> Z.of_nat (length s) <= limit) ->
  t_insert_dynamic t = true ->
  (forall tp, t_update_template t = Some tp -> (exists before behind, template tp before behind) /\
     exists info, In info infos /\ In (i_col info) (map fst kvs) /\ i_no_update info = false) ->
  finds_params DB prepare infos (t_table t) ->
  exists c rc w' data' s', picked (inserted kvs) 0 infos c /\
    insert_op DB prepare exec limit counters msg_unbound msg_failed byval_str_mk w (Some a) (Some infos) (Some data) t s = Ok (rc, w', data', s') /\
    after DB w s w' s' /\
    ((exists vals, fst (prepare (w_db DB w) (insert_sql (t_table t) c)) = SQLITE_OK /\ Forall2 (column_value limit kvs) c vals /\
        ran DB exec (w_db DB w) (insert_sql (t_table t) c) vals rc (w_db DB w')) \/
     (fst (prepare (w_db DB w) (insert_sql (t_table t) c)) = rc /\ rc <> SQLITE_OK /\ w_db DB w' = w_db DB w)) /\
    (rc <> SQLITE_DONE -> has_error (w_heap DB w') s') /\
    (rc = SQLITE_DONE -> reports (w_heap DB w') s' k_id (NI64 (to_int32 (last_insert_rowid (counters (w_db DB w')))))).
Proof.
  intros H St Bn Ns Nc Nv Ge En Ne Ty Sh Dy Tp Fp.
  destruct (generic_ok DB (insert_wrapper DB prepare exec limit counters msg_unbound msg_failed byval_str_mk) w a kvs infos data t s n H St Nc)
    as (h1 & s1 & data' & t' & order & us & ns & Ss & X & Ns1 & St1 & Pm & So & Df & Co & _ & _ & Go); auto.
  { eapply Forall_impl; [|exact Ge]. cbn beta. intros i (G & _). auto. }
  { intros i info d _ Ed _. apply (proj1 (Forall_forall _ _) Ne d). eapply nth_error_In; eauto. }
  { intros tp Et. apply (Tp tp Et). }
  destruct Co as (Ct & _ & _ & Cd & _ & _ & _ & Cu & Ci). rewrite Dy in Ci. destruct Ci as (c & Pc & Ec).
  assert (Pc' : picked (inserted kvs) 0 infos c).
  { eapply picked_ext; [|exact Pc]. intros j info E. apply (inserted_iff kvs infos data data' Ty En Ne Df). auto. }
  destruct (insert_good kvs infos data data' (t_table t) c Ty Sh En Ne Df Nv Ge Fp Pc') as (Gs & Pf).
  destruct (insert_ok DB prepare exec limit counters msg_unbound msg_failed limit_small (on_heap DB w h1) infos (Some data') (insert_sql (t_table t) c) s1 None n) as
    (rc & w2 & s2 & id & E & ((Ss2 & O2) & St2) & P & He & R); auto; [lia|cbn [covers]; destruct Df as (-> & _); auto|].
  assert (s2 = s1) by (unfold same_status in Ss2; destruct s1 as [[x|]|]; congruence). subst s2.
  destruct (Go rc w2 (n + 5)%nat) as (h' & Eg & O' & Sh' & Wd); [|auto|auto|lia| |].
  { unfold insert_wrapper, insert_of. rewrite Cd, Dy, Ec, E. reflexivity. }
  { intros Nt. destruct (t_update_template t) as [tp|] eqn:Et; [|congruence]. destruct Cu as (l & Pl & _ & Cu). destruct (Tp tp eq_refl) as (_ & info & I & Ik & Nu).
    assert (Il : In info l).
    { destruct (In_nth_error _ _ I) as (j & Ej). eapply picked_has; [exact Pl|exact Ej|]. split; [auto|]. split; [auto|]. apply (has_value_iff kvs infos data data' Ty En Ne Df); auto. }
    destruct Cu as (bf & bh & _ & ->); [intros ->; destruct Il|discriminate]. }
  cbn [w_heap on_heap] in O2. assert (O12 : only_status (w_heap DB w) (w_heap DB w2) s).
  { destruct O2 as (L2 & O2). pose proof (extends_len _ _ X). split; [lia|]. intros x Lx Nx. rewrite O2.
    - apply extends_get; auto.
    - lia.
    - intros Q. unfold same_status in Ss. destruct s as [[y|]|]; subst s1; try congruence. injection Q as Q. lia. }
  destruct s1 as [[r|]|]; [|congruence|unfold same_status in Ss; destruct s as [[y|]|]; congruence].
  destruct Sh' as (kas' & F' & L'). destruct Wd as (kas2 & kas3 & xd & F2 & F3 & Ld & Hd & Same).
  destruct (rename_ok h' r kas' key_rowid key_id F') as (b & h3 & kas4 & Er & O3 & F4 & Keep & Move); [lia|discriminate|].
  exists c, rc, (on_heap DB w2 h3), (Some data'), (Some (Some r)). split; [auto|]. split.
  { unfold insert_op. rewrite Eg. cbn [bind of_option]. cbn [w_heap on_heap]. rewrite Er. reflexivity. }
  assert (Lk : forall k, k <> key_rowid -> k <> key_id -> k <> k_debug -> lookup k kas4 = lookup k kas2).
  { intros k N1 N2 N3. rewrite Keep by auto. rewrite <- Same by auto. apply (fields_lookup h' r); auto. }
  cbn [w_heap w_db on_heap]. split.
  { split; [auto|]. cbn [w_heap on_heap]. eapply (only_same _ (w_heap DB w2)); [exact Ss|auto|]. eapply only_trans; eauto. }
  split; [exact (Pf _ _ _ P)|]. split.
  - intros Nd. destruct (He Nd) as ((kas5 & v & F5 & L5) & _). exists kas4, v. split; [auto|]. rewrite Lk by discriminate. rewrite <- L5. eapply fields_lookup; eauto.
  - intros Ed. destruct (R Ed) as ((kas5 & x & F5 & L5 & N5) & _). exists kas4, x. split; [auto|]. split.
    + apply Move. rewrite <- L5. rewrite <- (fields_lookup (w_heap DB w2) r kas2 kas5 key_rowid F2 F5). rewrite <- (Same key_rowid) by discriminate. apply (fields_lookup h' r); auto.
    + assert (Lx : (x < length (w_heap DB w2))%nat) by (apply nth_error_Some; congruence).
      assert (Nx : Some (Some r) <> Some (Some x)). { intros Q. injection Q as <-. destruct F5 as (m & Q & _). congruence. }
      destruct O3 as (L3 & O3), O' as (Lh & O'). rewrite O3; [|lia|auto]. rewrite O'; auto.
Qed.
End Insert.

(** * Updating *)
Section Update.
Variable DB : Type.
Variable prepare : DB -> text -> Z * list (option text).
Variable exec : DB -> text -> list sqlv -> DB * list (list sqlv) * Z.
Variable limit : Z.
Variable counters : DB -> counts.
Variable msg_unbound : text -> Z -> text -> text.
Variable msg_failed : Z -> text -> text.
Hypothesis limit_small : limit < 2 ^ 31.
Variable kvs : list (text * json).
Variable infos : list bind_info.
Variables data : list bind_data.
Hypothesis types : forall k v info, In (k, v) kvs -> In info infos -> i_col info = k -> takes info v.
Hypothesis short : forall k s, In (k, JStr s) kvs -> Z.of_nat (length s) <= limit.
Hypothesis enough : (length infos <= length data)%nat.
Hypothesis new : Forall unused_data data.
Hypothesis cols : NoDup (map i_col infos).
Hypothesis vars : NoDup (map i_var infos).
Hypothesis good : Forall (good_entry limit) infos.
Notation good_params := (good_params DB prepare kvs infos).
Notation performs_with := (performs_with DB prepare exec limit kvs infos).

Lemma good_performs data' sql : data_from infos kvs data data' -> good_params sql ->
  good_sql DB prepare limit infos (Some data') sql /\
  forall db rc db', performs DB prepare exec limit infos (Some data') db sql rc db' -> performs_with db sql rc db'.
Proof.
  intros Df G.
  assert (Cs : forall j info v, nth_error infos j = Some info -> In (i_col info) (map fst kvs) \/ d_has_value (i_data info) = true \/ (is_insert sql /\ i_not_null info = true) ->
    supplied limit (is_insert sql) info (given (Some data') j) v <-> column_value limit kvs info v).
  { intros j info v Ej [A|[A|(A & _)]]; [apply (column_given limit kvs infos data data'); auto|apply (column_given limit kvs infos data data'); auto|
      apply (column_supplied limit kvs infos data data'); auto]. }
  split.
  - intros db. destruct (G db) as (G1 & G2 & G3). split; [auto|]. split; [auto|]. intros j info Ej I.
    assert (Ii : In info infos) by (eapply nth_error_In; eauto). pose proof (G3 info Ii I) as V.
    destruct (column_exists limit kvs infos types info Ii (proj1 (Forall_forall _ _) good info Ii)) as (v & Cv).
    { unfold inserted. tauto. }
    exists v. apply (Cs j info v Ej V). auto.
  - intros db rc db' P. inversion P as [params vals rc' db2 Ep Fn Al Rn|rc0 params rc' Ep Bad Er]; subst; [|eapply with_fails; eauto].
    eapply with_runs; [exact Ep| |exact Rn]. destruct (G db) as (_ & _ & G3). rewrite Ep in G3. cbn [snd] in G3. destruct Al as (Ll & Al).
    assert (A : forall k p, nth_error params k = Some p -> exists v, nth_error vals k = Some v /\ value_of limit kvs infos p v).
    { intros k p Ek. destruct (Al k p Ek) as (j & info & v & Ej & -> & Ev & Sv). exists v. split; [auto|]. assert (Ii : In info infos) by (eapply nth_error_In; eauto).
      exists info. split; [auto|]. split; [auto|]. apply (Cs j info v Ej); [apply G3; [auto|eapply nth_error_In; eauto]|auto]. }
    clear -Ll A. revert vals Ll A. induction params as [|p params IH]; intros [|v vals] Ll A; try discriminate; constructor.
    + destruct (A 0%nat p eq_refl) as (v' & Q & C). injection Q as <-. auto.
    + apply IH; [cbn [length] in Ll; lia|]. intros k y Ek. apply (A (S k) y Ek).
Qed.

Lemma composed_texts data' t t' : data_from infos kvs data data' -> composed kvs infos (Some data') t t' -> updating kvs infos t ->
  t_select t' = t_select t /\ insert_stmt kvs infos t (insert_of t') /\ (t_update_template t <> None -> t_update_x t' <> None) /\
  exists u, update_of t' = Some u /\ update_stmt kvs infos t u.
Proof.
  intros Df (Ct & Cs & Cin & Cd & _ & Cup & _ & Cu & Ci) Up. split; [auto|]. split; [|].
  - unfold insert_of. rewrite Cd. destruct (t_insert_dynamic t) eqn:Dy.
    + destruct Ci as (c & Pc & ->). apply insert_made; [auto|]. eapply picked_ext; [|exact Pc]. intros j info E. apply (inserted_iff kvs infos data data'); auto.
    + rewrite Cin. apply insert_given. auto.
  - unfold update_of, updating in *. rewrite Cup. destruct (t_update_template t) as [tp|] eqn:Et.
    + destruct Cu as (l & Pl & _ & Cu). destruct Up as (_ & info & I & Ik & Nu).
      assert (Il : In info l).
      { destruct (In_nth_error _ _ I) as (j & Ej). eapply picked_has; [exact Pl|exact Ej|]. split; [auto|]. split; [auto|]. apply (has_value_iff kvs infos data data'); auto. }
      destruct Cu as (bf & bh & T & ->); [intros ->; destruct Il|]. split; [discriminate|]. destruct (t_update t) as [u|] eqn:Eu; [exists u; split; [auto|]; apply update_given; auto|].
      eexists. split; [reflexivity|]. eapply update_made; eauto. eapply picked_ext; [|exact Pl]. intros j x E. unfold to_set, updated.
      rewrite (has_value_iff kvs infos data data' types enough new Df (0 + j) x E). tauto.
    + split; [congruence|]. destruct (t_update t) as [u|] eqn:Eu; [|congruence]. exists u. split; [auto|]. apply update_given. auto.
Qed.

Lemma update_or_insert_op_ok (w : world DB) a t s n :
  holds (w_heap DB w) (JObj kvs) a -> st (w_heap DB w) s n -> Z.of_nat n < 2 ^ 32 -> updating kvs infos t ->
  good_params (t_select t) -> (forall u, update_stmt kvs infos t u -> good_params u) -> (forall i, insert_stmt kvs infos t i -> good_params i) ->
  exists rc w' data' s' rc1 db1 u i, update_or_insert_op DB prepare exec limit counters msg_unbound msg_failed byval_str_mk w (Some a) (Some infos) (Some data) t s = Ok (rc, w', data', s') /\
    after DB w s w' s' /\ update_stmt kvs infos t u /\ insert_stmt kvs infos t i /\
    performs_with (w_db DB w) (t_select t) rc1 db1 /\
    (rc1 = SQLITE_ROW -> performs_with db1 u rc (w_db DB w')) /\
    (rc1 <> SQLITE_ROW -> performs_with db1 i rc (w_db DB w') /\ (rc = SQLITE_DONE -> reports (w_heap DB w') s' key_rowid (NI64 (to_int32 (last_insert_rowid (counters (w_db DB w'))))))) /\
    (rc <> SQLITE_DONE -> has_error (w_heap DB w') s').
Proof.
  intros H St Bn Up Gs Gu Gi.
  destruct (generic_ok DB (update_or_insert DB prepare exec limit counters msg_unbound msg_failed byval_str_mk) w a kvs infos data t s n H St cols)
    as (h1 & s1 & data' & t' & order & us & ns & Ss & X & Ns1 & St1 & Pm & So & Df & Co & _ & _ & Go); auto.
  { eapply Forall_impl; [|exact good]. cbn beta. intros i (G & _). auto. }
  { intros i info d _ Ed _. apply (proj1 (Forall_forall _ _) new d). eapply nth_error_In; eauto. }
  { intros tp Et. unfold updating in Up. rewrite Et in Up. apply Up. }
  destruct (composed_texts data' t t' Df Co Up) as (Es & Ti & Tx & u & Eu & Tu).
  destruct (good_performs data' (t_select t) Df Gs) as (Gs1 & Ps). destruct (good_performs data' u Df (Gu u Tu)) as (Gu1 & Pu).
  destruct (good_performs data' (insert_of t') Df (Gi _ Ti)) as (Gi1 & Pi).
  destruct (update_or_insert_ok DB prepare exec limit counters msg_unbound msg_failed limit_small (on_heap DB w h1) infos (Some data') t' s1 n) as
    (rc & w2 & s2 & rc1 & db1 & E & ((Ss2 & O2) & St2) & P & U & I & He); auto; [cbn [covers]; destruct Df as (-> & _); auto|rewrite Es; auto|rewrite Eu; auto|].
  assert (s2 = s1) by (unfold same_status in Ss2; destruct s1 as [[x|]|]; congruence). subst s2.
  destruct (Go rc w2 (n + 5)%nat E O2 St2) as (h' & Eg & O' & Sh' & Wd); [lia|auto|].
  exists rc, (on_heap DB w2 h'), (Some data'), s1, rc1, db1, u, (insert_of t'). split; [exact Eg|]. cbn [w_heap w_db on_heap] in *.
  assert (O12 : only_status (w_heap DB w) (w_heap DB w2) s).
  { destruct O2 as (L2 & O2). pose proof (extends_len _ _ X). split; [lia|]. intros x Lx Nx. rewrite O2; [apply extends_get; auto|lia|].
    intros Q. unfold same_status in Ss. destruct s as [[y|]|]; subst s1; try congruence. injection Q as Q. lia. }
  split; [split; [auto|cbn [w_heap on_heap]; eapply only_same; eauto]|]. split; [auto|]. split; [auto|]. split; [rewrite Es in P; auto|].
  split; [intros R; apply Pu; specialize (U R); unfold updates in U; fold (update_of t') in U; rewrite Eu in U; auto|].
  assert (Kr : forall k nd, k <> k_debug -> (forall m, nd <> NObj m) -> reports (w_heap DB w2) s1 k nd -> reports h' s1 k nd).
  { intros k nd Nk No. destruct s1 as [[r|]|]; cbn [reports]; auto. destruct Wd as (kas2 & kas3 & xd & F2 & F3 & Ld & Hd & Same). intros (kas & x & F & L & N).
    exists kas3, x. split; [auto|]. split; [rewrite (Same k Nk), <- L; eapply fields_lookup; eauto|]. destruct O' as (Lh & O'). rewrite O'; [auto|apply nth_error_Some; congruence|].
    intros Q. injection Q as <-. destruct F as (m & Q & _). rewrite Q in N. injection N as <-. eapply No; eauto. }
  split.
  - intros R. destruct (I R) as (I1 & I2). split; [auto|]. intros Ed. apply Kr; [discriminate|discriminate|auto].
  - intros Nd. specialize (He Nd). destruct s1 as [[r|]|]; cbn [has_error] in *; auto. destruct Wd as (kas2 & kas3 & xd & F2 & F3 & Ld & Hd & Same). destruct He as (kas & v & F & L).
    exists kas3, v. split; [auto|]. rewrite Same by discriminate. rewrite <- L. eapply fields_lookup; eauto.
Qed.

Lemma update_if_exists_op_ok (w : world DB) a t s n :
  holds (w_heap DB w) (JObj kvs) a -> st (w_heap DB w) s n -> Z.of_nat n < 2 ^ 32 -> updating kvs infos t ->
  good_params (t_select t) -> (forall u, update_stmt kvs infos t u -> good_params u) ->
  exists rc w' data' s' rc1 db1 u, update_if_exists_op DB prepare exec limit counters msg_unbound msg_failed byval_str_mk w (Some a) (Some infos) (Some data) t s = Ok (rc, w', data', s') /\
    after DB w s w' s' /\ update_stmt kvs infos t u /\
    performs_with (w_db DB w) (t_select t) rc1 db1 /\
    (rc1 = SQLITE_ROW -> performs_with db1 u rc (w_db DB w') /\ (rc <> SQLITE_DONE -> has_error (w_heap DB w') s')) /\
    (rc1 <> SQLITE_ROW -> rc = rc1 /\ w_db DB w' = db1).
Proof.
  intros H St Bn Up Gs Gu.
  destruct (generic_ok DB (update_if_exists DB prepare exec limit counters msg_unbound msg_failed byval_str_mk) w a kvs infos data t s n H St cols)
    as (h1 & s1 & data' & t' & order & us & ns & Ss & X & Ns1 & St1 & Pm & So & Df & Co & _ & _ & Go); auto.
  { eapply Forall_impl; [|exact good]. cbn beta. intros i (G & _). auto. }
  { intros i info d _ Ed _. apply (proj1 (Forall_forall _ _) new d). eapply nth_error_In; eauto. }
  { intros tp Et. unfold updating in Up. rewrite Et in Up. apply Up. }
  destruct (composed_texts data' t t' Df Co Up) as (Es & Ti & Tx & u & Eu & Tu).
  destruct (good_performs data' (t_select t) Df Gs) as (Gs1 & Ps). destruct (good_performs data' u Df (Gu u Tu)) as (Gu1 & Pu).
  destruct (update_if_ok DB prepare exec limit counters msg_unbound msg_failed limit_small (on_heap DB w h1) infos (Some data') t' s1 n) as
    (rc & w2 & s2 & rc1 & db1 & E & ((Ss2 & O2) & St2) & P & U & I); auto; [cbn [covers]; destruct Df as (-> & _); auto|rewrite Es; auto|rewrite Eu; auto|].
  assert (s2 = s1) by (unfold same_status in Ss2; destruct s1 as [[x|]|]; congruence). subst s2.
  destruct (Go rc w2 (n + 5)%nat E O2 St2) as (h' & Eg & O' & Sh' & Wd); [lia|auto|].
  exists rc, (on_heap DB w2 h'), (Some data'), s1, rc1, db1, u. split; [exact Eg|]. cbn [w_heap w_db on_heap] in *.
  assert (O12 : only_status (w_heap DB w) (w_heap DB w2) s).
  { destruct O2 as (L2 & O2). pose proof (extends_len _ _ X). split; [lia|]. intros x Lx Nx. rewrite O2; [apply extends_get; auto|lia|].
    intros Q. unfold same_status in Ss. destruct s as [[y|]|]; subst s1; try congruence. injection Q as Q. lia. }
  split; [split; [auto|cbn [w_heap on_heap]; eapply only_same; eauto]|]. split; [auto|]. split; [rewrite Es in P; auto|]. split; [|auto].
  intros R. destruct (U R) as (U1 & _ & He). split; [apply Pu; unfold updates in U1; fold (update_of t') in U1; rewrite Eu in U1; auto|].
  intros Nd. specialize (He Nd). destruct s1 as [[r|]|]; cbn [has_error] in *; auto. destruct Wd as (kas2 & kas3 & xd & F2 & F3 & Ld & Hd & Same). destruct He as (kas & v & F & L).
  exists kas3, v. split; [auto|]. rewrite Same by discriminate. rewrite <- L. eapply fields_lookup; eauto.
Qed.
Lemma update_op_ok (w : world DB) a t s n :
  holds (w_heap DB w) (JObj kvs) a -> st (w_heap DB w) s n -> Z.of_nat n < 2 ^ 32 -> updating kvs infos t ->
  good_params (t_select t) -> (forall u, update_stmt kvs infos t u -> good_params u) ->
  exists rc w' data' s' rc1 db1 u, update_op DB prepare exec limit counters msg_unbound msg_failed byval_str_mk w (Some a) (Some infos) (Some data) t s = Ok (rc, w', data', s') /\
    after DB w s w' s' /\ update_stmt kvs infos t u /\
    performs_with (w_db DB w) (t_select t) rc1 db1 /\ (rc = SQLITE_OK -> has_error (w_heap DB w') s') /\
    (rc1 = SQLITE_ROW -> performs_with db1 u rc (w_db DB w') /\ (rc <> SQLITE_DONE -> has_error (w_heap DB w') s')) /\
    (rc1 <> SQLITE_ROW -> rc = rc1 /\ w_db DB w' = db1).
Proof.
  intros H St Bn Up Gs Gu.
  destruct (generic_ok DB (sql_update DB prepare exec limit counters msg_unbound msg_failed byval_str_mk) w a kvs infos data t s n H St cols)
    as (h1 & s1 & data' & t' & order & us & ns & Ss & X & Ns1 & St1 & Pm & So & Df & Co & _ & _ & Go); auto.
  { eapply Forall_impl; [|exact good]. cbn beta. intros i (G & _). auto. }
  { intros i info d _ Ed _. apply (proj1 (Forall_forall _ _) new d). eapply nth_error_In; eauto. }
  { intros tp Et. unfold updating in Up. rewrite Et in Up. apply Up. }
  destruct (composed_texts data' t t' Df Co Up) as (Es & Ti & Tx & u & Eu & Tu).
  destruct (good_performs data' (t_select t) Df Gs) as (Gs1 & Ps). destruct (good_performs data' u Df (Gu u Tu)) as (Gu1 & Pu).
  destruct (update_ok DB prepare exec limit counters msg_unbound msg_failed limit_small (on_heap DB w h1) infos (Some data') t' s1 n) as
    (rc & w2 & s2 & rc1 & db1 & E & ((Ss2 & O2) & St2) & P & K & U & I); auto; [cbn [covers]; destruct Df as (-> & _); auto|rewrite Es; auto|rewrite Eu; auto|].
  assert (s2 = s1) by (unfold same_status in Ss2; destruct s1 as [[x|]|]; congruence). subst s2.
  destruct (Go rc w2 (n + 6)%nat E O2 St2) as (h' & Eg & O' & Sh' & Wd); [lia|auto|].
  exists rc, (on_heap DB w2 h'), (Some data'), s1, rc1, db1, u. split; [exact Eg|]. cbn [w_heap w_db on_heap] in *.
  assert (O12 : only_status (w_heap DB w) (w_heap DB w2) s).
  { destruct O2 as (L2 & O2). pose proof (extends_len _ _ X). split; [lia|]. intros x Lx Nx. rewrite O2; [apply extends_get; auto|lia|].
    intros Q. unfold same_status in Ss. destruct s as [[y|]|]; subst s1; try congruence. injection Q as Q. lia. }
  split; [split; [auto|cbn [w_heap on_heap]; eapply only_same; eauto]|]. split; [auto|]. split; [rewrite Es in P; auto|].
  assert (HE : has_error (w_heap DB w2) s1 -> has_error h' s1).
  { intros He. destruct s1 as [[r|]|]; cbn [has_error] in *; auto. destruct Wd as (kas2 & kas3 & xd & F2 & F3 & Ld & Hd & Same). destruct He as (kas & v & F & L).
    exists kas3, v. split; [auto|]. rewrite Same by discriminate. rewrite <- L. eapply fields_lookup; eauto. }
  split; [auto|]. split; [|auto]. intros R. destruct (U R) as (U1 & _ & He). split; [apply Pu; unfold updates in U1; fold (update_of t') in U1; rewrite Eu in U1; auto|].
  auto.
Qed.
End Update.
