(** Proofs about JSON arrays as sequences. *)
From Coq Require Import ZArith List Bool Lia Arith.
From Verif Require Import Base ArrayLemmas ListModel ListProofs Json JsonHeapModel JsonHeapSpec JsonHeapProofs JsonFrame JsonMergeProofs JsonFieldProofs JsonArrayModel JsonArraySpec.
Import ListNotations.
Open Scope Z_scope.
Local Arguments Z.add : simpl never.
Local Arguments Z.of_nat : simpl never.
Local Arguments Z.to_nat : simpl never.

Definition plain_elem (f : field) : Prop := match f with FieldAt _ => True | FieldIs j => exists n, leaf_node j = Some n end.
(** The array at [j] has the elements [l]; the rest of the first memory is as it was. *)
Definition is_seq (h0 h : heap) (j : nat) (l : list field) : Prop :=
  (length h0 <= length h)%nat /\ (forall c, c <> j -> (c < length h0)%nat -> nth_error h c = nth_error h0 c) /\
  exists cl xs, nth_error h j = Some (NArr cl) /\ rep cl (map Some xs) /\ Forall2 (field_shows h) l xs /\ Forall plain_elem l.

Lemma elem_kept h h' f a : plain_elem f -> leaves_kept h h' -> field_shows h f a -> field_shows h' f a.
Proof.
  intros P K. destruct f as [x|j]; [auto|]. cbn [field_shows plain_elem] in *. destruct P as (n & L). rewrite !(holds_leaf _ j a n L).
  intros E. apply K; [auto|]. eapply leaf_is_leaf; eauto.
Qed.
Lemma elems_kept h h' l xs : Forall plain_elem l -> leaves_kept h h' -> Forall2 (field_shows h) l xs -> Forall2 (field_shows h') l xs.
Proof.
  intros P K F. induction F as [|f a l xs Hf F IH]; constructor.
  - eapply elem_kept; eauto. apply (Forall_inv P).
  - apply IH. apply (Forall_inv_tail P).
Qed.
Lemma forall2_firstn {A B} (R : A -> B -> Prop) l l' : Forall2 R l l' -> forall n, Forall2 R (firstn n l) (firstn n l').
Proof. induction 1; intros [|n]; cbn [firstn]; constructor; auto. Qed.
Lemma forall2_skipn {A B} (R : A -> B -> Prop) l l' : Forall2 R l l' -> forall n, Forall2 R (skipn n l) (skipn n l').
Proof. induction 1; intros [|n]; cbn [skipn]; try constructor; auto. Qed.
Lemma forall2_nth {A B} (R : A -> B -> Prop) l l' : Forall2 R l l' -> forall n, match nth_error l n, nth_error l' n with Some a, Some b => R a b | None, None => True | _, _ => False end.
Proof. induction 1; intros [|n]; cbn [nth_error]; auto. apply IHForall2. Qed.
Lemma forall_firstn {A} (P : A -> Prop) l n : Forall P l -> Forall P (firstn n l).
Proof. intros H. apply Forall_forall. intros x I. eapply Forall_forall in H; eauto. rewrite <- (firstn_skipn n l). apply in_or_app. auto. Qed.
Lemma forall_skipn {A} (P : A -> Prop) l n : Forall P l -> Forall P (skipn n l).
Proof. intros H. apply Forall_forall. intros x I. eapply Forall_forall in H; eauto. rewrite <- (firstn_skipn n l). apply in_or_app. auto. Qed.
Lemma kept_refl h : leaves_kept h h.
Proof. intros c n; auto. Qed.
Lemma kept_trans h1 h2 h3 : leaves_kept h1 h2 -> leaves_kept h2 h3 -> leaves_kept h1 h3.
Proof. intros A B c n E L. auto. Qed.
Lemma kept_alloc h n : leaves_kept h (h ++ [n]).
Proof. intros c nd E L. rewrite alloc_other; [auto|]. apply nth_error_Some. congruence. Qed.

(** The array is stored anew with other elements. *)
Lemma seq_store h0 h j l cl xs cl' l' xs' : (length h0 <= length h)%nat -> (forall c, c <> j -> (c < length h0)%nat -> nth_error h c = nth_error h0 c) ->
  nth_error h j = Some (NArr cl) -> rep cl (map Some xs) -> Forall2 (field_shows h) l xs -> 
  rep cl' (map Some xs') -> Forall2 (field_shows h) l' xs' -> Forall plain_elem l' ->
  is_seq h0 (store h j (NArr cl')) j l' /\ leaves_kept h (store h j (NArr cl')).
Proof.
  intros L0 O E R F R' F' P. assert (K : leaves_kept h (store h j (NArr cl'))) by (eapply store_leaves; eauto).
  split; [|auto]. split; [rewrite store_length; auto|]. split; [intros c Nc Lc; rewrite store_other; auto|].
  exists cl', xs'. split; [eapply store_same; eauto|]. split; [auto|]. split; [eapply elems_kept; eauto|auto].
Qed.
Lemma seq_append h0 h j l v f : is_seq h0 h j l -> field_shows h f v -> plain_elem f ->
  exists h', array_append h j (Some v) = Ok h' /\ is_seq h0 h' j (l ++ [f]) /\ leaves_kept h h'.
Proof.
  intros (L0 & O & cl & xs & E & R & F & P) Hf Pf. destruct (array_append_ok h j cl xs v E R) as (cl' & Ea & R').
  destruct (seq_store h0 h j l cl xs cl' (l ++ [f]) (xs ++ [v])) as (S1 & K); auto.
  - apply Forall2_app; [auto|constructor; [auto|constructor]].
  - apply Forall_app. auto.
  - eexists. split; [exact Ea|]. auto.
Qed.
Lemma seq_alloc h0 h j l n : is_seq h0 h j l -> is_seq h0 (h ++ [n]) j l.
Proof.
  intros (L0 & O & cl & xs & E & R & F & P). split; [rewrite app_length; lia|].
  split; [intros c Nc Lc; rewrite alloc_other by lia; auto|]. exists cl, xs. split; [rewrite alloc_other; [auto|apply nth_error_Some; congruence]|].
  split; [auto|]. split; [eapply elems_kept; eauto; apply kept_alloc|auto].
Qed.
Lemma seq_new h0 h j l n v : is_seq h0 h j l -> leaf_node v = Some n ->
  exists h', array_append (h ++ [n]) j (Some (length h)) = Ok h' /\ is_seq h0 h' j (l ++ [FieldIs v]) /\ leaves_kept h h'.
Proof.
  intros Sq L. destruct (seq_append h0 (h ++ [n]) j l (length h) (FieldIs v)) as (h' & Ea & S' & K).
  - apply seq_alloc; auto.
  - cbn [field_shows]. apply (holds_leaf _ v _ n L). apply alloc_new.
  - exists n. auto.
  - exists h'. split; [auto|]. split; [auto|]. eapply kept_trans; [apply kept_alloc|exact K].
Qed.
Lemma at_index_map {A B} (R : A -> B -> Prop) l l' i : Forall2 R l l' ->
  match at_index l i, at_index l' i with Some a, Some b => R a b | None, None => True | _, _ => False end.
Proof. intros F. unfold at_index. destruct (i <? 0); [auto|]. apply forall2_nth. auto. Qed.

Lemma step_seq fuel h0 h j l op : is_seq h0 h j l -> ok_elem h0 j (length l) op -> (adds h0 op < fuel)%nat -> Z.of_nat (length l + adds h0 op) < 2 ^ 31 ->
  exists h' r, array_step byval_str_mk fuel j h op = Ok (h', r) /\ is_seq h0 h' j (fst (elems_step h0 l op)) /\ leaves_kept h h' /\
    forall hf, leaves_kept h' hf -> same_elem hf r (snd (elems_step h0 l op)).
Proof.
  intros Sq Fit Lf B. pose proof Sq as (L0 & O & cl & xs & E & R & F & P). pose proof (forall2_len F) as Ll.
  assert (Sz : l_size cl = Z.of_nat (length xs)) by (destruct R as (Sz & _); rewrite map_length in Sz; auto).
  destruct op as [v|b|s|s|src|i v|i|i|]; cbn [array_step elems_step fst snd adds ok_elem] in *.
  - destruct (seq_append h0 h j l v (FieldAt v) Sq eq_refl I) as (h' & Ea & S' & K). rewrite Ea. cbn [bind]. exists h', EDone. split; [auto|]. split; [auto|]. split; [auto|]. intros; exact I.
  - unfold array_append_bool. rewrite (array_at_ok h j cl E). cbn [bind alloc]. destruct (seq_new h0 h j l (NBool b) (JBool b) Sq eq_refl) as (h' & Ea & S' & K). rewrite Ea. cbn [bind].
    exists h', EDone. split; [auto|]. split; [auto|]. split; [auto|]. intros; exact I.
  - unfold array_append_str. rewrite (array_at_ok h j cl E). cbn [bind alloc byval_str_mk]. destruct (seq_new h0 h j l (NStr s) (JStr s) Sq eq_refl) as (h' & Ea & S' & K). rewrite Ea. cbn [bind].
    exists h', EDone. split; [auto|]. split; [auto|]. split; [auto|]. intros; exact I.
  - unfold array_append_strf. rewrite (array_at_ok h j cl E). cbn [bind alloc byval_str_mk]. destruct (seq_new h0 h j l (NStr s) (JStr s) Sq eq_refl) as (h' & Ea & S' & K). rewrite Ea. cbn [bind].
    exists h', EDone. split; [auto|]. split; [auto|]. split; [auto|]. intros; exact I.
  - destruct Fit as (Ns & js & Hs). apply holds_arr in Hs as (ls & ys & Es & Rs & _). pose proof (kids_arr h0 src ls ys Es Rs) as Ek. rewrite Ek in *.
    assert (Es' : nth_error h src = Some (NArr ls)) by (rewrite O; auto; apply nth_error_Some; congruence).
    unfold array_concat. rewrite (array_at_ok h j cl E), (array_at_ok h src ls Es'). cbn [bind].
    destruct (concat_ok h j src ls ys (fun X => Ns (eq_sym X)) Es' Rs ys [] fuel h cl xs) as (h' & l2 & Ec & Lh & Oh & Ej & R2); auto; [rewrite app_nil_r; auto|].
    cbn [length] in Ec. change (Z.of_nat 0) with 0 in Ec. rewrite Ec. cbn [bind]. exists h', EDone. split; [auto|].
    assert (K : leaves_kept h h') by (intros c nd Ecn Lc; rewrite Oh; [auto|]; intros ->; rewrite E in Ecn; injection Ecn as <-; discriminate).
    split; [|split; [auto|intros; exact I]]. split; [lia|]. split; [intros c Nc Lc; rewrite Oh; auto|].
    exists l2, (xs ++ ys). split; [auto|]. split; [auto|]. split.
    + apply Forall2_app; [eapply elems_kept; eauto|]. clear. induction ys; cbn [map]; constructor; auto. reflexivity.
    + apply Forall_app. split; [auto|]. apply Forall_forall. intros f If. apply in_map_iff in If as (y & <- & _). exact I.
  - destruct Fit as (Lv & Bi). unfold array_insert. rewrite (array_at_ok h j cl E). cbn [bind].
    destruct (insert_rep cl (map Some xs) i (Some v) R) as (cl' & Ei & R'); [rewrite map_length; lia|rewrite map_length; lia|]. rewrite Ei. cbn [bind].
    destruct (seq_store h0 h j l cl xs cl' (firstn (Z.to_nat i) l ++ FieldAt v :: skipn (Z.to_nat i) l) (firstn (Z.to_nat i) xs ++ v :: skipn (Z.to_nat i) xs)) as (S' & K); auto.
    + rewrite map_app. cbn [map]. rewrite <- firstn_map, <- skipn_map. exact R'.
    + apply Forall2_app; [apply forall2_firstn; auto|]. constructor; [reflexivity|]. apply forall2_skipn; auto.
    + apply Forall_app. split; [apply forall_firstn; auto|]. constructor; [exact I|apply forall_skipn; auto].
    + eexists _, EDone. split; [reflexivity|]. split; [auto|]. split; [auto|]. intros; exact I.
  - unfold array_remove. rewrite (array_at_ok h j cl E). cbn [bind]. rewrite Sz. unfold at_index.
    destruct (Z.leb_spec 0 i); destruct (Z.ltb_spec i (Z.of_nat (length xs))); cbn [andb].
    + destruct (remove_rep cl (map Some xs) i R) as (cl' & Ei & R'); [rewrite map_length; lia|rewrite map_length; lia|]. rewrite Ei. cbn [bind of_option].
      destruct (Z.ltb_spec i 0); [lia|]. destruct (nth_error l (Z.to_nat i)) as [f|] eqn:En; [|apply nth_error_None in En; lia].
      destruct (seq_store h0 h j l cl xs cl' (firstn (Z.to_nat i) l ++ skipn (S (Z.to_nat i)) l) (firstn (Z.to_nat i) xs ++ skipn (S (Z.to_nat i)) xs)) as (S' & K); auto.
      * rewrite map_app, <- firstn_map, <- skipn_map. exact R'.
      * apply Forall2_app; [apply forall2_firstn; auto|apply forall2_skipn; auto].
      * apply Forall_app. split; [apply forall_firstn; auto|apply forall_skipn; auto].
      * eexists _, EDone. split; [reflexivity|]. split; [auto|]. split; [auto|]. intros; exact I.
    + exists h, EDone. split; [auto|]. destruct (Z.ltb_spec i 0); [lia|]. destruct (nth_error l (Z.to_nat i)) as [f|] eqn:En; [|split; [auto|]; split; [apply kept_refl|intros; exact I]].
      assert (nth_error l (Z.to_nat i) <> None) by congruence. apply nth_error_Some in H2. lia.
    + exists h, EDone. split; [auto|]. destruct (Z.ltb_spec i 0); [|lia]. split; [auto|]. split; [apply kept_refl|intros; exact I].
    + exists h, EDone. split; [auto|]. destruct (Z.ltb_spec i 0); [|lia]. split; [auto|]. split; [apply kept_refl|intros; exact I].
  - unfold array_get. rewrite (array_at_ok h j cl E). cbn [bind]. rewrite Sz. pose proof (at_index_map _ l xs i F) as A. unfold at_index in A |- *.
    destruct (Z.leb_spec 0 i); destruct (Z.ltb_spec i (Z.of_nat (length xs))); cbn [andb bind].
    + destruct (Z.ltb_spec i 0); [lia|]. destruct (nth_error xs (Z.to_nat i)) as [x|] eqn:Ex; [|apply nth_error_None in Ex; lia].
      rewrite (rep_read cl (map Some xs) i (Some x) R); [|rewrite nth_error_map, Ex; auto|lia]. cbn [bind]. eexists _, _. split; [reflexivity|]. split; [auto|]. split; [apply kept_refl|].
      intros hf K. destruct (nth_error l (Z.to_nat i)) as [f|] eqn:El; [|destruct A]. cbn [same_elem]. eapply elem_kept; eauto.
      eapply Forall_forall in P; [exact P|]. eapply nth_error_In; eauto.
    + eexists _, _. split; [reflexivity|]. split; [auto|]. split; [apply kept_refl|]. intros hf K. destruct (Z.ltb_spec i 0); [lia|].
      destruct (nth_error l (Z.to_nat i)) as [f|] eqn:El; [|exact I]. assert (X : nth_error l (Z.to_nat i) <> None) by congruence. apply nth_error_Some in X. lia.
    + eexists _, _. split; [reflexivity|]. split; [auto|]. split; [apply kept_refl|]. intros hf K. destruct (Z.ltb_spec i 0); [exact I|lia].
    + eexists _, _. split; [reflexivity|]. split; [auto|]. split; [apply kept_refl|]. intros hf K. destruct (Z.ltb_spec i 0); [exact I|lia].
  - unfold array_length. rewrite (array_at_ok h j cl E). cbn [bind]. eexists _, _. split; [reflexivity|]. split; [auto|]. split; [apply kept_refl|]. intros hf K. cbn [same_elem]. rewrite Sz. lia.
Qed.
Lemma step_length h0 l op : (length (fst (elems_step h0 l op)) <= length l + adds h0 op)%nat.
Proof.
  destruct op as [v|b|s|s|src|i v|i|i|]; cbn [elems_step fst adds]; try (rewrite app_length; cbn [length]; lia); try lia.
  - rewrite app_length, map_length. lia.
  - rewrite app_length. cbn [length]. rewrite firstn_length, skipn_length. lia.
  - destruct (at_index l i); [|lia]. rewrite app_length, firstn_length, skipn_length. lia.
Qed.
Lemma run_seq fuel h0 j ops : forall h l, is_seq h0 h j l -> all_ok h0 j l ops -> (all_added h0 ops < fuel)%nat -> Z.of_nat (length l + all_added h0 ops) < 2 ^ 31 ->
  exists h' rs, array_run byval_str_mk fuel j h ops = Ok (h', rs) /\ is_seq h0 h' j (fst (elems_run h0 l ops)) /\ leaves_kept h h' /\
    forall hf, leaves_kept h' hf -> Forall2 (same_elem hf) rs (snd (elems_run h0 l ops)).
Proof.
  induction ops as [|op ops IH]; intros h l Sq A Lf B; cbn [array_run elems_run].
  - exists h, []. split; [auto|]. split; [auto|]. split; [apply kept_refl|]. intros. constructor.
  - destruct A as (A1 & A2). assert (Ea : all_added h0 (op :: ops) = (adds h0 op + all_added h0 ops)%nat) by reflexivity. rewrite Ea in Lf, B. clear Ea.
    destruct (step_seq fuel h0 h j l op Sq A1) as (h1 & r & E1 & S1 & K1 & Q1); [lia|lia|]. rewrite E1. cbn [bind].
    pose proof (step_length h0 l op) as Sl.
    destruct (elems_step h0 l op) as (l1, r1) eqn:Es. cbn [fst snd] in *.
    destruct (IH h1 l1 S1 A2) as (h2 & rs & E2 & S2 & K2 & Q2); [lia|lia|]. rewrite E2. cbn [bind]. destruct (elems_run h0 l1 ops) as (l2, rs2). cbn [fst snd] in *.
    exists h2, (r :: rs). split; [auto|]. split; [auto|]. split; [eapply kept_trans; eauto|]. intros hf K. constructor; [apply Q1; eapply kept_trans; eauto|auto].
Qed.

(** The value of the array at the end *)
Lemma elems_from h0 (ok : nat -> Prop) : forall ops l, Forall (fun f => match f with FieldAt a => ok a | _ => True end) l ->
  (forall op v, In op ops -> In v (stored h0 op) -> ok v) -> Forall (fun f => match f with FieldAt a => ok a | _ => True end) (fst (elems_run h0 l ops)).
Proof.
  induction ops as [|op ops IH]; intros l Fl St; cbn [elems_run]; [auto|].
  assert (F1 : Forall (fun f => match f with FieldAt a => ok a | _ => True end) (fst (elems_step h0 l op))).
  { specialize (St op) as St1. destruct op as [v|b|s|s|src|i v|i|i|]; cbn [elems_step fst stored] in *; auto.
    - apply Forall_app. split; [auto|]. constructor; [apply (St1 v); cbn; auto|constructor].
    - apply Forall_app. split; [auto|]. constructor; [exact I|constructor].
    - apply Forall_app. split; [auto|]. constructor; [exact I|constructor].
    - apply Forall_app. split; [auto|]. constructor; [exact I|constructor].
    - apply Forall_app. split; [auto|]. apply Forall_forall. intros f If. apply in_map_iff in If as (y & <- & Iy). apply St1; cbn; auto.
    - apply Forall_app. split; [apply forall_firstn; auto|]. constructor; [apply (St1 v); cbn; auto|apply forall_skipn; auto].
    - destruct (at_index l i); auto. apply Forall_app. split; [apply forall_firstn; auto|apply forall_skipn; auto]. }
  destruct (elems_step h0 l op) as (l1, r). cbn [fst] in F1. specialize (IH l1 F1 (fun op v I => St op v (or_intror I))). destruct (elems_run h0 l1 ops). exact IH.
Qed.
Lemma seq_value h0 h j l val : is_seq h0 h j l -> leaves_kept h0 h ->
  Forall (fun f => match f with FieldAt a => holds h0 (val a) a /\ ~ In j (containers h0 (val a) a) | _ => True end) l ->
  holds h (JArr (map (value_of val) l)) j.
Proof.
  intros (L0 & O & cl & xs & E & R & F & P) K Hv. apply holds_arr. exists cl, xs. split; [auto|]. split; [auto|].
  clear R E P. induction F as [|f a l xs Hf F IH]; cbn [map]; constructor; [|apply IH; apply (Forall_inv_tail Hv)].
  apply Forall_inv in Hv. destruct f as [x|v]; cbn [field_shows value_of] in *; [|auto]. subst x. destruct Hv as (Ha & Nj). apply (frame_holds h0 h (val a) a K Ha).
  intros c Ic. apply O; [intros ->; auto|]. destruct (container_node h0 _ (val a) a c (le_n _) Ha Ic) as (nd & En & _). apply nth_error_Some. congruence.
Qed.
