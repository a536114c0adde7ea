(** Values between text and memory, what merging keeps, and the names of the files. *)
From Coq Require Import ZArith List Bool Lia Arith Sorting.Permutation.
From Verif Require Import Base ArrayLemmas TsearchModel TsearchProofs MapModel MapProofs ListModel ListProofs BoxedModel Utf8Proofs
  Json JsonSpec JsonTokModel JsonParseModel JsonPrintModel JsonPrintSpec JsonPrintProofs JsonPrintLang
  JsonHeapModel JsonHeapSpec JsonHeapProofs JsonFrame JsonMergeProofs JsonFieldProofs JsonStored JsonFileModel JsonMergeAllModel.
Import ListNotations.
Open Scope Z_scope.
Open Scope outcome_scope.
Local Arguments Z.add : simpl never.
Local Arguments Z.of_nat : simpl never.
Local Arguments Z.to_nat : simpl never.

(** * Building *)
Section Children.
Variable a : nat.
Fixpoint elements (h : heap) (l : list json) : outcome heap :=
  match l with
  | [] => Ok h
  | x :: r => let* (h, b) := build h x in let* h := array_append h a (Some b) in elements h r
  end.
Fixpoint fields_of (h : heap) (l : list (text * json)) : outcome heap :=
  match l with
  | [] => Ok h
  | (k, x) :: r => let* (h, b) := build h x in let* h := add_field byval_str_mk h a k (Some b) in fields_of h r
  end.
End Children.
Lemma build_arr h l : build h (JArr l) = bind (elements (length h) (h ++ [NArr (list_mk 20)]) l) (fun h' => Ok (h', length h)).
Proof. reflexivity. Qed.
Lemma build_obj h l : build h (JObj l) = bind (fields_of (length h) (h ++ [NObj map_mk]) l) (fun h' => Ok (h', length h)).
Proof. reflexivity. Qed.
Lemma store_at (h : heap) x y e : store (h ++ x :: e) (length h) y = h ++ y :: e.
Proof. unfold store. induction h as [|z h IH]; cbn [app length update]; [auto|]. rewrite IH. auto. Qed.

Definition built (h : heap) (j : json) : Prop :=
  exists e a, build h j = Ok (h ++ e, a) /\ holds (h ++ e) j a /\ NoDup (containers (h ++ e) j a) /\
    forall c, In c (containers (h ++ e) j a) -> (length h <= c)%nat.

(** One more child: the node [a] changes from [n] to [n'], behind which are [e] and
    then the child in [e']. *)
Lemma child_frame h n n' e e' js xs b j : is_leaf n = false ->
  Forall2 (holds (h ++ n :: e)) js xs -> NoDup (conts (h ++ n :: e) js xs) -> (forall c, In c (conts (h ++ n :: e) js xs) -> (length h < c)%nat) ->
  holds ((h ++ n :: e) ++ e') j b -> NoDup (containers ((h ++ n :: e) ++ e') j b) ->
  (forall c, In c (containers ((h ++ n :: e) ++ e') j b) -> (length (h ++ n :: e) <= c)%nat) ->
  let h2 := h ++ n' :: (e ++ e') in
  Forall2 (holds h2) (js ++ [j]) (xs ++ [b]) /\ NoDup (conts h2 (js ++ [j]) (xs ++ [b])) /\
  forall c, In c (conts h2 (js ++ [j]) (xs ++ [b])) -> (length h < c)%nat.
Proof.
  intros Lf F N G H Nj Gj h2. set (h1 := h ++ n :: e) in *.
  assert (E2 : h2 = store (h1 ++ e') (length h) n').
  { unfold h2, h1. rewrite <- app_assoc. cbn [app]. rewrite store_at. auto. }
  assert (En : nth_error (h1 ++ e') (length h) = Some n).
  { unfold h1. rewrite <- app_assoc. cbn [app]. rewrite nth_error_app2, Nat.sub_diag by lia. auto. }
  assert (LK : leaves_kept (h1 ++ e') h2) by (rewrite E2; eapply store_leaves; eauto).
  assert (O : forall c, c <> length h -> nth_error h2 c = nth_error (h1 ++ e') c) by (intros c X; rewrite E2; apply store_other; auto).
  destruct (extend_arr h1 e' js xs F) as (F1 & C1).
  destruct (frame_arr (h1 ++ e') h2 js xs LK F1) as (F2 & C2); [intros c I; apply O; rewrite C1 in I; apply G in I; lia|].
  assert (Lh1 : (length h < length h1)%nat) by (unfold h1; rewrite app_length; cbn [length]; lia).
  assert (H2 : holds h2 j b) by (apply (frame_holds (h1 ++ e') h2); auto; intros c I; apply O; apply Gj in I; lia).
  assert (C3 : containers h2 j b = containers (h1 ++ e') j b) by (apply frame_containers; auto; intros c I; apply O; apply Gj in I; lia).
  pose proof (forall2_len F) as Ll. rewrite conts_app by auto. rewrite C2, C1.
  replace (conts h2 [j] [b]) with (containers (h1 ++ e') j b) by (unfold conts; cbn [zip concat]; rewrite app_nil_r, C3; auto).
  assert (Bd : forall c, In c (conts h1 js xs) -> (c < length h1)%nat).
  { intros c I. apply in_conts in I as (j' & x' & _ & _ & Hx & I); [|auto]. eapply containers_bound; eauto. }
  split; [apply Forall2_app; auto|]. split.
  - apply NoDup_count_occ with (decA := Nat.eq_dec). intros c. rewrite count_occ_app.
    pose proof (cnt_nodup _ c N). pose proof (cnt_nodup _ c Nj).
    destruct (in_dec Nat.eq_dec c (conts h1 js xs)) as [I|I].
    + assert (~ In c (containers (h1 ++ e') j b)) as I' by (intros I'; apply Gj in I'; apply Bd in I; lia).
      rewrite (count_occ_not_In Nat.eq_dec) in I'. lia.
    + rewrite (count_occ_not_In Nat.eq_dec) in I. lia.
  - intros c I. apply in_app_or in I as [I|I]; [auto|]. apply Gj in I. lia.
Qed.

Lemma elements_ok h : forall todo don e l xs, Forall (fun j => forall h, built h j) todo ->
  rep l (map Some xs) -> Forall2 (holds (h ++ NArr l :: e)) don xs -> NoDup (conts (h ++ NArr l :: e) don xs) ->
  (forall c, In c (conts (h ++ NArr l :: e) don xs) -> (length h < c)%nat) ->
  exists e2 l2 xs2, elements (length h) (h ++ NArr l :: e) todo = Ok (h ++ NArr l2 :: e2) /\ rep l2 (map Some xs2) /\
    Forall2 (holds (h ++ NArr l2 :: e2)) (don ++ todo) xs2 /\ NoDup (conts (h ++ NArr l2 :: e2) (don ++ todo) xs2) /\
    forall c, In c (conts (h ++ NArr l2 :: e2) (don ++ todo) xs2) -> (length h < c)%nat.
Proof.
  induction todo as [|x todo IH]; intros don e l xs Bd R F N G.
  - exists e, l, xs. rewrite app_nil_r. cbn [elements]. auto.
  - cbn [elements]. destruct (Forall_inv Bd (h ++ NArr l :: e)) as (e' & b & Eb & H & Nb & Gb). rewrite Eb. cbn [bind].
    assert (En : nth_error ((h ++ NArr l :: e) ++ e') (length h) = Some (NArr l)).
    { rewrite <- app_assoc. cbn [app]. rewrite nth_error_app2, Nat.sub_diag by lia. auto. }
    destruct (array_append_ok _ _ l xs b En R) as (l2 & Ea & R2). rewrite Ea. cbn [bind].
    replace (store ((h ++ NArr l :: e) ++ e') (length h) (NArr l2)) with (h ++ NArr l2 :: (e ++ e')) by (rewrite <- app_assoc; cbn [app]; rewrite store_at; auto).
    destruct (child_frame h (NArr l) (NArr l2) e e' don xs b x eq_refl F N G H Nb Gb) as (F2 & N2 & G2).
    destruct (IH (don ++ [x]) (e ++ e') l2 (xs ++ [b]) (Forall_inv_tail Bd) R2 F2 N2 G2) as (e3 & l3 & xs3 & E3 & R3 & F3 & N3 & G3).
    rewrite <- app_assoc in F3, N3, G3. exists e3, l3, xs3. auto.
Qed.

Lemma fields_ok h : forall todo don e m kas, Forall (fun kj => forall h, built h (snd kj)) todo ->
  NoDup (map fst (don ++ todo)) -> Z.of_nat (length (don ++ todo)) <= 2 ^ 64 ->
  mrep strcmp m (wrapped kas) -> members (h ++ NObj m :: e) don kas -> NoDup (mconts (h ++ NObj m :: e) don kas) ->
  (forall c, In c (mconts (h ++ NObj m :: e) don kas) -> (length h < c)%nat) ->
  exists e2 m2 kas2, fields_of (length h) (h ++ NObj m :: e) todo = Ok (h ++ NObj m2 :: e2) /\ mrep strcmp m2 (wrapped kas2) /\
    members (h ++ NObj m2 :: e2) (don ++ todo) kas2 /\ NoDup (mconts (h ++ NObj m2 :: e2) (don ++ todo) kas2) /\
    forall c, In c (mconts (h ++ NObj m2 :: e2) (don ++ todo) kas2) -> (length h < c)%nat.
Proof.
  assert (Sp : forall h kjs kas, members h kjs kas <-> map fst kjs = map fst kas /\ Forall2 (holds h) (map snd kjs) (map snd kas)).
  { intros h0 kjs kas. split.
    - intros F. split; [apply (members_fst F)|]. induction F as [|? ? ? ? (_ & H) F IH]; cbn [map]; constructor; auto.
    - revert kas. induction kjs as [|(k, j) kjs IH]; intros [|(k', a) kas] (E & F); try discriminate; [constructor|]. cbn [map fst snd] in *.
      injection E as <- E. inversion F; subst. constructor; [auto|]. apply IH. auto. }
  induction todo as [|(k, x) todo IH]; intros don e m kas Bd Nk Sz R F N G.
  - exists e, m, kas. rewrite app_nil_r. cbn [fields_of]. auto.
  - cbn [fields_of]. destruct (Forall_inv Bd (h ++ NObj m :: e)) as (e' & b & Eb & H & Nb & Gb). cbn [snd] in *. rewrite Eb. cbn [bind].
    assert (En : nth_error ((h ++ NObj m :: e) ++ e') (length h) = Some (NObj m)).
    { rewrite <- app_assoc. cbn [app]. rewrite nth_error_app2, Nat.sub_diag by lia. auto. }
    pose proof (proj1 (Sp _ _ _) F) as (Fk & Fs). pose proof (forall2_len F) as Ll.
    destruct (add_field_ok _ _ m kas k b En R) as (m2 & Ea & R2); [rewrite app_length in Sz; lia|]. rewrite Ea. cbn [bind].
    assert (Fr : lookup k kas = None).
    { apply lookup_none. rewrite <- Fk. rewrite map_app in Nk. cbn [map fst] in Nk. apply NoDup_remove_2 in Nk. intros I. apply Nk. apply in_or_app. auto. }
    rewrite put_fresh in R2 by auto.
    replace (store ((h ++ NObj m :: e) ++ e') (length h) (NObj m2)) with (h ++ NObj m2 :: (e ++ e')) by (rewrite <- app_assoc; cbn [app]; rewrite store_at; auto).
    destruct (child_frame h (NObj m) (NObj m2) e e' (map snd don) (map snd kas) b x eq_refl Fs N G H Nb Gb) as (F2 & N2 & G2).
    replace (map snd don ++ [x]) with (map snd (don ++ [(k, x)])) in * by (rewrite map_app; auto).
    replace (map snd kas ++ [b]) with (map snd (kas ++ [(k, b)])) in * by (rewrite map_app; auto).
    destruct (IH (don ++ [(k, x)]) (e ++ e') m2 (kas ++ [(k, b)]) (Forall_inv_tail Bd)) as (e3 & m3 & kas3 & E3 & R3 & F3 & N3 & G3);
      rewrite <- ?app_assoc; cbn [app]; auto.
    { apply Sp. rewrite !map_app. cbn [map fst]. rewrite Fk. rewrite !map_app in F2. auto. }
    rewrite <- app_assoc in F3, N3, G3. exists e3, m3, kas3. auto.
Qed.

Lemma build_ok : forall j h, distinct j -> Z.of_nat (size j) <= 2 ^ 64 -> built h j.
Proof.
  assert (Lf : forall j n h, leaf_node j = Some n -> build h j = Ok (h ++ [n], length h) -> built h j).
  { intros j n h L E. exists [n], (length h). split; [auto|]. rewrite (containers_leaf _ j _ n L).
    split; [apply (holds_leaf _ j _ n L); apply alloc_new|]. split; [constructor|intros c []]. }
  induction j as [| |b|d|z|z|s|s|z|l IH|kvs IH] using json_ind'; intros h D B; try (eapply Lf; reflexivity).
  - apply distinct_arr in D.
    destruct (elements_ok h l [] [] (list_mk 20) []) as (e2 & l2 & xs2 & E & R & F & N & G).
    { rewrite Forall_forall in *. intros x I h0. pose proof (size_arr_in x l I). apply IH; auto. lia. }
    { apply rep_mk. lia. } { constructor. } { constructor. } { intros c []. }
    cbn [app] in F, N, G. exists (NArr l2 :: e2), (length h). rewrite build_arr.
    match goal with |- bind ?A _ = _ /\ _ => replace A with (Ok (h ++ NArr l2 :: e2)) by (symmetry; exact E) end. cbn [bind].
    assert (En : nth_error (h ++ NArr l2 :: e2) (length h) = Some (NArr l2)) by (rewrite nth_error_app2, Nat.sub_diag by lia; auto).
    split; [auto|]. split; [apply holds_arr; eauto|]. rewrite (containers_arr _ _ l2 xs2 l En R).
    split; [constructor; [intros I; apply G in I; lia|auto]|]. intros c [<-|I]; [lia|]. apply G in I. lia.
  - apply distinct_obj in D as (Nk & D). pose proof (size_obj_len kvs).
    destruct (fields_ok h kvs [] [] map_mk []) as (e2 & m2 & kas2 & E & R & F & N & G); cbn [app]; auto.
    { rewrite Forall_forall in *. intros kj I h0. pose proof (size_obj_in kj kvs I). apply IH; auto. lia. }
    { lia. } { apply mrep_mk. } { constructor. } { intros c []. }
    cbn [app] in F, N, G. exists (NObj m2 :: e2), (length h). rewrite build_obj.
    match goal with |- bind ?A _ = _ /\ _ => replace A with (Ok (h ++ NObj m2 :: e2)) by (symmetry; exact E) end. cbn [bind].
    assert (En : nth_error (h ++ NObj m2 :: e2) (length h) = Some (NObj m2)) by (rewrite nth_error_app2, Nat.sub_diag by lia; auto).
    split; [auto|]. split; [apply holds_obj; eauto|]. rewrite (containers_obj _ _ m2 kas2 kvs En R).
    split; [constructor; [intros I; apply G in I; lia|auto]|]. intros c [<-|I]; [lia|]. apply G in I. lia.
Qed.

(** * Reading back *)
Lemma value_at_ok h : forall fuel j a, holds h j a -> (size j <= fuel)%nat -> value_at fuel h (Some a) = Ok j.
Proof.
  induction fuel as [|n IH]; intros j a H L; [pose proof (size_pos j); lia|]. cbn [value_at load].
  destruct (leaf_cases j) as [(nd & Lf)|[(js & ->)|(kjs & ->)]].
  - apply (holds_leaf _ j _ nd Lf) in H. rewrite H. cbn [of_option bind]. destruct j; try discriminate; injection Lf as <-; auto.
  - apply holds_arr in H as (l & xs & E & R & F). rewrite E. cbn [of_option bind].
    assert (Go : forall todo tx i, skipn (Z.to_nat i) xs = tx -> 0 <= i -> Forall2 (holds h) todo tx -> incl todo js ->
      (fix elements (k : nat) (i : Z) : outcome (list json) :=
        match k with
        | O => Ok []
        | S k => let* e := aread (l_a l) i in let* j := value_at n h e in let* r := elements k (i + 1) in Ok (j :: r)
        end) (length todo) i = Ok todo).
    { induction todo as [|j todo IHt]; intros tx i Sk P Ft Inc; [reflexivity|]. inversion Ft as [|? x ? tx' Hx Ft' Ea Eb]; subst. cbn [length].
      assert (Ei : nth_error xs (Z.to_nat i) = Some x).
      { rewrite <- (firstn_skipn (Z.to_nat i) xs), <- Eb. assert (length (firstn (Z.to_nat i) xs) = Z.to_nat i).
        { rewrite firstn_length. assert (length (skipn (Z.to_nat i) xs) <> 0%nat) by (rewrite <- Eb; discriminate). rewrite skipn_length in *. lia. }
        rewrite nth_error_app2 by lia. rewrite H, Nat.sub_diag. auto. }
      rewrite (rep_read l (map Some xs) i (Some x) R); [|rewrite nth_error_map, Ei; auto|auto]. cbn [bind].
      rewrite (IH j x Hx); [|pose proof (size_arr_in j js (Inc j (or_introl eq_refl))); lia]. cbn [bind].
      rewrite (IHt tx' (i + 1)); [auto| |lia|auto|intros y I; apply Inc; right; auto].
      replace (Z.to_nat (i + 1)) with (S (Z.to_nat i)) by lia. clear - Eb. revert Eb. generalize (Z.to_nat i) as q. induction xs as [|x0 xs IHx]; intros [|q] Eb; try discriminate; cbn [skipn] in *; [congruence|auto]. }
    pose proof (forall2_len F) as Ll. destruct R as (Rs & R'). rewrite map_length in Rs.
    replace (Z.to_nat (l_size l)) with (length js) by lia. rewrite (Go js xs 0); [auto|auto|lia|auto|intros y I; auto].
  - apply holds_obj in H as (m & kas & E & R & F). rewrite E. cbn [of_option bind].
    assert (Km : m_keys m = map fst kjs).
    { rewrite (members_fst F). destruct R as (_ & _ & _ & Rk & _). rewrite Rk. apply wrapped_fst. }
    pose proof (mrep_nodup _ _ R) as Nk.
    assert (Go : forall todo tk don dk, don ++ todo = kjs -> dk ++ tk = kas -> length don = length dk -> members h todo tk ->
      (fix members (ks : list text) : outcome (list (text * json)) :=
        match ks with
        | [] => Ok []
        | k :: r => let* e := map_find text nat strcmp (Some m) (Some k) in let* j := value_at n h e in let* r := members r in Ok ((k, j) :: r)
        end) (map fst todo) = Ok todo).
    { induction todo as [|(k, j) todo IHt]; intros tk don dk E1 E2 Ld Ft; [reflexivity|].
      destruct tk as [|(k', x) tk]; [inversion Ft|]. 
      assert (Hd : (k = k' /\ holds h j x) /\ members h todo tk) by (inversion Ft; subst; auto). destruct Hd as ((Ek & Hx) & Ft').
      cbn [fst snd] in *. subst k'. cbn [map fst].
      rewrite (mrep_find m kas k R). cbn [bind]. rewrite (in_lookup k kas x); [|auto|rewrite <- E2; apply in_or_app; right; left; auto].
      rewrite (IH j x Hx); [|pose proof (size_obj_in (k, j) kjs ltac:(rewrite <- E1; apply in_or_app; right; left; auto)); cbn [snd] in *; lia]. cbn [bind].
      rewrite (IHt tk (don ++ [(k, j)]) (dk ++ [(k, x)])); auto; [rewrite <- app_assoc; auto|rewrite <- app_assoc; auto|rewrite !app_length; cbn [length]; lia]. }
    rewrite Km. rewrite (Go kjs kas [] []); auto.
Qed.

(** * What merging keeps *)
Lemma nodup_both {A} (l l' : list A) : NoDup l -> NoDup l' -> (forall x, In x l' -> ~ In x l) -> NoDup (l ++ l').
Proof.
  intros N N' D. induction N as [|x l I N IH]; [auto|]. cbn [app]. constructor.
  - intros J. apply in_app_or in J as [J|J]; [auto|]. apply (D x J). left. auto.
  - apply IH. intros y J K. apply (D y J). right. auto.
Qed.
Lemma merged_arr_inv d s r : merged (JArr d) s r -> exists s', s = JArr s' /\ r = JArr (d ++ s').
Proof. intros M. inversion M; subst. eauto. Qed.
Lemma merged_mergeable d s r : merged d s r -> mergeable d s = true.
Proof. intros M. destruct M; auto. Qed.

(** A property [P] of all values nested that does not depend on what the members
    are, except for their keys *)
Lemma merged_members (P : json -> Prop) :
  (forall d s, P (JArr d) -> P (JArr s) -> P (JArr (d ++ s))) ->
  (forall d s r, P (JObj d) -> P (JObj s) -> NoDup (map fst r) -> (forall k, In k (map fst r) -> In k (map fst d) \/ In k (map fst s)) ->
     (forall k x, lookup k r = Some x -> lookup k d = Some x \/ lookup k s = Some x \/ exists a b, lookup k d = Some a /\ lookup k s = Some b /\ P x) -> P (JObj r)) ->
  (forall d, P (JObj d) -> NoDup (map fst d) /\ Forall (fun kv => P (snd kv)) d) ->
  forall d s r, merged d s r -> P d -> P s -> P r.
Proof.
  intros Ca Co Co'. assert (Go : forall n d s r, (size d <= n)%nat -> merged d s r -> P d -> P s -> P r).
  { induction n as [|n IH]; intros d s r L M Pd Ps; [pose proof (size_pos d); lia|]. destruct M as [d s|d s r new K Nw Nn Ad As Bo].
    - apply Ca; auto.
    - destruct (Co' d Pd) as (Nd & Fd). destruct (Co' s Ps) as (Ns & Fs). rewrite Forall_forall in *. apply (Co d s r Pd Ps).
      + rewrite K. apply nodup_both; auto. intros k I. apply Nw in I as (_ & I). auto.
      + intros k I. rewrite K in I. apply in_app_or in I as [I|I]; [auto|]. apply Nw in I as (I & _). auto.
      + intros k x E. destruct (lookup k d) as [a|] eqn:Ed; destruct (lookup k s) as [b|] eqn:Es.
        * right. right. exists a, b. split; [auto|]. split; [auto|]. destruct (Bo k a b Ed Es) as (z & Ez & Bz). rewrite E in Ez. injection Ez as <-.
          apply lookup_in in Ed, Es. pose proof (size_obj_in (k, a) d Ed). destruct Bz as [a b z Mz|a b Mz].
          -- apply (IH a b z); auto; [cbn [snd] in *; lia|apply (Fd (k, a) Ed)|apply (Fs (k, b) Es)].
          -- apply (Fs (k, b) Es).
        * rewrite (Ad k a Ed Es) in E. injection E as <-. auto.
        * rewrite (As k b Ed Es) in E. injection E as <-. auto.
        * exfalso. apply lookup_none in Ed, Es. apply lookup_in in E. assert (I : In k (map fst r)) by (apply in_map_iff; exists (k, x); auto).
          rewrite K in I. apply in_app_or in I as [I|I]; [auto|]. apply Nw in I as (I & _). auto. }
  intros d s r. apply (Go (size d)). auto.
Qed.

Lemma all_members (P : json -> Prop) d s (r : list (text * json)) : NoDup (map fst r) -> Forall (fun kv => P (snd kv)) d -> Forall (fun kv => P (snd kv)) s ->
  (forall k x, lookup k r = Some x -> lookup k d = Some x \/ lookup k s = Some x \/ exists a b, lookup k d = Some a /\ lookup k s = Some b /\ P x) ->
  Forall (fun kv => P (snd kv)) r.
Proof.
  intros N Fd Fs C. rewrite Forall_forall in *. intros (k, x) I. cbn [snd]. apply in_lookup in I; [|auto].
  destruct (C k x I) as [E|[E|(_ & _ & _ & _ & E)]]; [apply lookup_in in E; apply (Fd (k, x) E)|apply lookup_in in E; apply (Fs (k, x) E)|auto].
Qed.
Lemma merged_ordinary fmt_g d s r : merged d s r -> everywhere (ordinary fmt_g) d -> everywhere (ordinary fmt_g) s -> everywhere (ordinary fmt_g) r.
Proof.
  apply (merged_members (everywhere (ordinary fmt_g))); clear.
  - intros d s Hd Hs. apply arr_everywhere; [exact I|]. apply everywhere_arr in Hd, Hs. apply Forall_app. auto.
  - intros d s r Hd Hs N K C. pose proof (everywhere_here _ _ Hd) as (_ & Kd). pose proof (everywhere_here _ _ Hs) as (_ & Ks).
    apply everywhere_obj in Hd, Hs. apply obj_everywhere; [|exact (all_members _ d s r N Hd Hs C)]. split; [auto|].
    rewrite Forall_forall in *. intros (k, x) I. cbn [fst]. destruct (K k) as [J|J]; [apply in_map_iff; exists (k, x); auto| |];
      apply in_map_iff in J as ((k', y) & E & J); cbn [fst] in E; subst k'; [apply (Kd (k, y) J)|apply (Ks (k, y) J)].
  - intros d Hd. pose proof (everywhere_here _ _ Hd) as (N & _). apply everywhere_obj in Hd. auto.
Qed.
Lemma ordinary_distinct fmt_g j : everywhere (ordinary fmt_g) j -> distinct j.
Proof.
  induction j as [| |b|d|z|z|s|s|z|l IH|kvs IH] using json_ind'; intros E; try exact I.
  - apply distinct_arr. apply everywhere_arr in E. rewrite Forall_forall in *. auto.
  - pose proof (everywhere_here _ _ E) as (N & _). apply everywhere_obj in E. apply distinct_obj. split; [auto|]. rewrite Forall_forall in *. auto.
Qed.

Lemma height_arr_le l n : Forall (fun x => (S (height x) <= n)%nat) l -> (height (JArr l) <= n)%nat.
Proof. cbn [height]. rewrite list_max_le, Forall_map. auto. Qed.
Lemma height_obj_le kvs n : Forall (fun kv => (S (height (snd kv)) <= n)%nat) kvs -> (height (JObj kvs) <= n)%nat.
Proof. cbn [height]. rewrite list_max_le, Forall_map. auto. Qed.
Lemma merged_height : forall N n d s r, (size d <= N)%nat -> merged d s r -> distinct d -> distinct s -> (height d <= n)%nat -> (height s <= n)%nat -> (height r <= n)%nat.
Proof.
  induction N as [|N IH]; intros n d s r L M Dd Ds Hd Hs; [pose proof (size_pos d); lia|]. destruct M as [d s|d s r new K Nw Nn Ad As Bo].
  - apply height_arr in Hd, Hs. apply height_arr_le. apply Forall_app. auto.
  - apply height_obj in Hd, Hs. apply height_obj_le. apply distinct_obj in Dd as (Nd & Dd). apply distinct_obj in Ds as (Ns & Ds). rewrite Forall_forall in *.
    assert (Nr : NoDup (map fst r)).
    { rewrite K. apply nodup_both; auto. intros k I. apply Nw in I as (_ & I). auto. }
    intros (k, x) I. cbn [snd]. apply in_lookup in I as E; [|auto]. destruct (lookup k d) as [a|] eqn:Ed; destruct (lookup k s) as [b|] eqn:Es.
    + destruct (Bo k a b Ed Es) as (z & Ez & Bz). rewrite E in Ez. injection Ez as <-.
      apply lookup_in in Ed, Es. pose proof (size_obj_in (k, a) d Ed) as Sz. pose proof (Hd _ Ed) as H1. pose proof (Hs _ Es) as H2. cbn [snd] in *.
      destruct Bz as [a b z Mz|a b Mz]; [|auto]. destruct n as [|n]; [lia|]. apply le_n_S.
      apply (IH n a b z); auto; [lia|apply (Dd _ Ed)|apply (Ds _ Es)|lia|lia].
    + rewrite (Ad k a Ed Es) in E. injection E as <-. apply lookup_in in Ed. apply (Hd _ Ed).
    + rewrite (As k b Ed Es) in E. injection E as <-. apply lookup_in in Es. apply (Hs _ Es).
    + exfalso. apply lookup_none in Ed, Es. assert (J : In k (map fst r)) by (apply in_map_iff; exists (k, x); auto).
      rewrite K in J. apply in_app_or in J as [J|J]; [auto|]. apply Nw in J as (J & _). auto.
Qed.

(** Sizes *)
Definition size_at (k : text) (l : list (text * json)) : nat := match lookup k l with Some x => size x | None => 0%nat end.
Lemma sum_single (f : text -> nat) k ks : NoDup ks -> (forall q, q <> k -> f q = 0%nat) -> (list_sum (map f ks) <= f k)%nat.
Proof.
  intros N Z. induction N as [|q ks I N IH]; cbn [map list_sum fold_right]; [lia|]. change (f q + list_sum (map f ks) <= f k)%nat.
  destruct (list_eq_dec Z.eq_dec q k) as [->|X]; [|rewrite (Z q X); lia].
  assert (list_sum (map f ks) = 0%nat); [|lia]. clear - I Z. induction ks as [|q ks IHk]; [auto|]. change (f q + list_sum (map f ks) = 0)%nat. cbn [In] in I.
  rewrite Z by (intros ->; apply I; auto). apply IHk. intros J. apply I. auto.
Qed.
Lemma list_sum_add {A} (f g : A -> nat) l : list_sum (map (fun x => f x + g x)%nat l) = (list_sum (map f l) + list_sum (map g l))%nat.
Proof. induction l as [|x l IH]; [auto|]. change (f x + g x + list_sum (map (fun x => f x + g x)%nat l) = f x + list_sum (map f l) + (g x + list_sum (map g l)))%nat. lia. Qed.
Lemma list_sum_le {A} (f g : A -> nat) l : (forall x, In x l -> (f x <= g x)%nat) -> (list_sum (map f l) <= list_sum (map g l))%nat.
Proof.
  induction l as [|x l IH]; intros H; [auto|]. change (f x + list_sum (map f l) <= g x + list_sum (map g l))%nat.
  pose proof (H x (or_introl eq_refl)). specialize (IH (fun y I => H y (or_intror I))). lia.
Qed.
Lemma sum_keys ks l : NoDup ks -> (list_sum (map (fun k => size_at k l) ks) <= list_sum (map (fun kv => size (snd kv)) l))%nat.
Proof.
  intros N. induction l as [|(k, x) l IH].
  - unfold size_at. cbn [lookup]. clear. induction ks as [|k ks IH]; [cbn; lia|]. exact IH.
  - change (list_sum (map (fun kv => size (snd kv)) ((k, x) :: l))) with (size x + list_sum (map (fun kv => size (snd kv)) l))%nat.
    set (f := fun q : text => if list_eq_dec Z.eq_dec q k then size x else 0%nat).
    assert (Fk : f k = size x) by (unfold f; destruct (list_eq_dec Z.eq_dec k k); congruence).
    transitivity (list_sum (map (fun q => f q + size_at q l)%nat ks)).
    + apply list_sum_le. intros q _. unfold size_at, f. cbn [lookup]. destruct (list_eq_dec Z.eq_dec q k); lia.
    + rewrite list_sum_add. pose proof (sum_single f k ks N) as Q.
      specialize (Q ltac:(intros q X; unfold f; destruct (list_eq_dec Z.eq_dec q k); congruence)). rewrite Fk in Q. lia.
Qed.
Lemma sum_members l : NoDup (map fst l) -> list_sum (map (fun kv => size (snd kv)) l) = list_sum (map (fun k => size_at k l) (map fst l)).
Proof.
  intros N. rewrite map_map. f_equal. apply map_ext_in. intros (k, x) I. cbn [fst snd]. unfold size_at. rewrite (in_lookup k l x N I). auto.
Qed.
Lemma merged_size : forall N d s r, (size d <= N)%nat -> merged d s r -> distinct d -> distinct s -> (size r <= size d + size s)%nat.
Proof.
  induction N as [|N IH]; intros d s r L M Dd Ds; [pose proof (size_pos d); lia|]. destruct M as [d s|d s r new K Nw Nn Ad As Bo].
  - cbn [size]. rewrite map_app, list_sum_app. lia.
  - apply distinct_obj in Dd as (Nd & Dd). apply distinct_obj in Ds as (Ns & Ds). rewrite Forall_forall in *.
    assert (Nr : NoDup (map fst r)).
    { rewrite K. apply nodup_both; auto. intros k I. apply Nw in I as (_ & I). auto. }
    cbn [size]. rewrite (sum_members r Nr). pose proof (sum_keys (map fst r) d Nr) as S1. pose proof (sum_keys (map fst r) s Nr) as S2.
    assert (S3 : (list_sum (map (fun k => size_at k r) (map fst r)) <= list_sum (map (fun k => size_at k d + size_at k s)%nat (map fst r)))%nat).
    { apply list_sum_le. intros k I. unfold size_at. destruct (lookup_some_in k r I) as (x & E). rewrite E.
      destruct (lookup k d) as [a|] eqn:Ed; destruct (lookup k s) as [b|] eqn:Es.
      - destruct (Bo k a b Ed Es) as (z & Ez & Bz). rewrite E in Ez. injection Ez as <-.
        apply lookup_in in Ed, Es. pose proof (size_obj_in (k, a) d Ed) as Sz. cbn [snd] in *.
        destruct Bz as [a b z Mz|a b Mz]; [|lia]. apply (IH a b z); auto; [lia|apply (Dd _ Ed)|apply (Ds _ Es)].
      - rewrite (Ad k a Ed Es) in E. injection E as <-. lia.
      - rewrite (As k b Ed Es) in E. injection E as <-. lia.
      - exfalso. apply lookup_none in Ed, Es. rewrite K in I. apply in_app_or in I as [I|I]; [auto|]. apply Nw in I as (I & _). auto. }
    rewrite list_sum_add in S3. lia.
Qed.
Lemma cost_size j : (S (cost j) <= 2 * size j)%nat.
Proof.
  induction j as [| |b|d|z|z|s|s|z|l IH|kvs IH] using json_ind'; cbn [cost size]; try lia.
  - assert (list_sum (map (fun x => S (cost x)) l) <= 2 * list_sum (map size l))%nat; [|lia].
    induction IH as [|x l Hx Hl IHl]; [auto|]. change (S (cost x) + list_sum (map (fun x => S (cost x)) l) <= 2 * (size x + list_sum (map size l)))%nat. lia.
  - assert (list_sum (map (fun kv : text * json => S (cost (snd kv))) kvs) <= 2 * list_sum (map (fun kv => size (snd kv)) kvs))%nat; [|lia].
    induction IH as [|x l Hx Hl IHl]; [auto|].
    change (S (cost (snd x)) + list_sum (map (fun kv : text * json => S (cost (snd kv))) l) <= 2 * (size (snd x) + list_sum (map (fun kv => size (snd kv)) l)))%nat. lia.
Qed.

(** * The names of the files *)
Lemma with_member_put kvs k v : NoDup (map fst kvs) -> with_member kvs k v = put k v kvs.
Proof.
  unfold with_member. intros N. destruct (existsb (fun kv => text_eqb k (fst kv)) kvs) eqn:Ex.
  - induction kvs as [|(k', v') kvs IH]; [discriminate|]. cbn [map put fst existsb] in *. inversion N as [|? ? I N']; subst. unfold text_eqb at 1 in Ex. unfold text_eqb at 1.
    destruct (list_eq_dec Z.eq_dec k k') as [<-|X].
    + f_equal. clear - I. induction kvs as [|(q, v') kvs IH]; [auto|]. cbn [map fst] in *. unfold text_eqb at 1. destruct (list_eq_dec Z.eq_dec k q) as [->|]; [cbn in I; tauto|].
      f_equal. apply IH. cbn in I. tauto.
    + f_equal. apply IH; auto.
  - rewrite put_fresh; [auto|]. apply lookup_none. intros I. apply in_map_iff in I as ((k', v') & E & I). cbn [fst] in E. subst k'.
    assert (Y : existsb (fun kv => text_eqb k (fst kv)) kvs = true); [|congruence]. apply existsb_exists. exists (k, v'). split; [auto|].
    unfold text_eqb. cbn [fst]. destruct (list_eq_dec Z.eq_dec k k); congruence.
Qed.
Lemma members_put h k j b kjs kas : members h kjs kas -> holds h j b -> members h (put k j kjs) (put k b kas).
Proof.
  intros F H. induction F as [|(k1, j1) (k2, a2) kjs kas (E & Hx) F IH]; cbn [put]; [repeat constructor; auto|].
  cbn [fst snd] in *. subst k2. destruct (list_eq_dec Z.eq_dec k k1); constructor; auto.
Qed.

Lemma append_names_ok i : forall todo don h l xs, nth_error h i = Some (NArr l) -> rep l (map Some xs) -> Forall2 (holds h) (map JStr don) xs ->
  exists h', append_names byval_str_mk h i todo = Ok h' /\ holds h' (JArr (map JStr (don ++ todo))) i /\ (length h <= length h')%nat /\
    forall c, c <> i -> (c < length h)%nat -> nth_error h' c = nth_error h c.
Proof.
  induction todo as [|p todo IH]; intros don h l xs E R F; cbn [append_names].
  - exists h. rewrite app_nil_r. split; [auto|]. split; [apply holds_arr; eauto|auto].
  - unfold byval_str_mk at 1. cbn [bind alloc]. assert (Li : (i < length h)%nat) by (apply nth_error_Some; congruence).
    destruct (array_append_ok (h ++ [NStr p]) i l xs (length h)) as (l2 & Ea & R2); [rewrite alloc_other; auto|auto|]. rewrite Ea. cbn [bind].
    assert (En : nth_error (h ++ [NStr p]) i = Some (NArr l)) by (rewrite alloc_other; auto).
    assert (LK : leaves_kept (h ++ [NStr p]) (store (h ++ [NStr p]) i (NArr l2))) by (eapply store_leaves; eauto).
    destruct (IH (don ++ [p]) (store (h ++ [NStr p]) i (NArr l2)) l2 (xs ++ [length h])) as (h' & E' & H' & L' & O').
    + eapply store_same; eauto.
    + auto.
    + rewrite map_app. cbn [map]. destruct (extend_arr h [NStr p] _ _ F) as (F1 & C1).
      assert (Cn : forall (js : list text) xs, conts h (map JStr js) xs = []).
      { clear. unfold conts. intros js. induction js as [|j js IHj]; intros [|x xs]; cbn [map zip concat]; auto. rewrite IHj. auto. }
      apply Forall2_app.
      * apply (frame_arr (h ++ [NStr p])); auto. rewrite C1, Cn. intros c [].
      * constructor; [|constructor]. apply (holds_leaf _ (JStr p) _ (NStr p) eq_refl). apply LK; [apply alloc_new|auto].
    + rewrite <- app_assoc in H'. cbn [app] in H'. rewrite store_length, app_length in L'. cbn [length] in L'. exists h'.
      split; [auto|]. split; [auto|]. split; [lia|].
      intros c X Lc. rewrite O' by (rewrite ?store_length, ?app_length; cbn [length]; lia). rewrite store_other by auto. apply alloc_other. auto.
Qed.

(** The object with the names set, the array being filled after that *)
Lemma originals_ok h kz a paths cap : holds h (JObj kz) a -> NoDup (containers h (JObj kz) a) -> Z.of_nat (length kz) <= 2 ^ 64 -> 0 <= cap ->
  exists h', (let (h, inputs) := alloc h (NArr (list_mk cap)) in
     let* h := object_set byval_str_mk h (Some a) originals (Some inputs) in append_names byval_str_mk h inputs paths) = Ok h' /\
    holds h' (JObj (put originals (JArr (map JStr paths)) kz)) a.
Proof.
  intros H N B Bc. apply holds_obj in H as (m & kas & E & R & F). rewrite (containers_obj _ _ m kas kz E R) in N. apply NoDup_cons_iff in N as (Na & _).
  cbn [alloc]. unfold object_set. assert (La : (a < length h)%nat) by (apply nth_error_Some; congruence). set (h1 := h ++ [NArr (list_mk cap)]).
  assert (E1 : nth_error h1 a = Some (NObj m)) by (unfold h1; rewrite alloc_other; auto).
  assert (Ei : nth_error h1 (length h) = Some (NArr (list_mk cap))) by apply alloc_new.
  rewrite (object_at_ok h1 a m E1). cbn [bind]. unfold load at 1. rewrite Ei. cbn [of_option bind].
  pose proof (forall2_len F) as Ll.
  destruct (add_field_ok h1 a m kas originals (length h) E1 R) as (m2 & -> & R2); [lia|]. cbn [bind].
  set (h2 := store h1 a (NObj m2)). 
  destruct (append_names_ok (length h) paths [] h2 (list_mk cap) []) as (h' & E' & H' & L' & O').
  { unfold h2. rewrite store_other by lia. auto. } { apply rep_mk. auto. } { constructor. }
  exists h'. split; [exact E'|]. cbn [app] in H'. apply holds_obj. exists m2, (put originals (length h) kas).
  assert (L2 : length h2 = S (length h)) by (unfold h2, h1; rewrite store_length, app_length; cbn [length]; lia).
  split; [|split; [auto|]].
  - rewrite O' by lia. unfold h2. eapply store_same; eauto.
  - apply members_put; [|auto].
    assert (Ag : forall c, c <> a -> (c < length h)%nat -> nth_error h' c = nth_error h c).
    { intros c X Lc. rewrite O' by lia. unfold h2. rewrite store_other by auto. apply alloc_other. auto. }
    apply (frame_members h h' kz kas); auto.
    + intros c nd En Lf. rewrite Ag; auto; [intros ->; rewrite E in En; injection En as <-; discriminate|apply nth_error_Some; congruence].
    + intros c I. apply Ag; [intros ->; auto|]. apply in_mconts in I as (k & j & x & _ & _ & Hx & I); [|auto]. eapply containers_bound; eauto.
Qed.
