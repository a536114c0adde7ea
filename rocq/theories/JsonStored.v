(** Every JSON value whose objects have distinct keys can be in memory. *)
From Coq Require Import ZArith List Bool Lia Arith Sorting.Permutation Sorting.Sorted.
From Verif Require Import Base ArrayLemmas TsearchModel TsearchProofs SetProofs MapModel MapProofs MapHistory ListModel ListProofs
  Json JsonHeapModel JsonHeapSpec JsonHeapProofs JsonFrame JsonMergeProofs JsonFieldProofs.
Import ListNotations.
Open Scope Z_scope.
Local Arguments Z.add : simpl never.
Local Arguments Z.of_nat : simpl never.

Lemma holds_in h j a : holds h j a -> (a < length h)%nat.
Proof. intros H. destruct (holds_node h j a H) as (n & E & _). apply nth_error_Some. congruence. Qed.
Lemma containers_bound h j a c : holds h j a -> In c (containers h j a) -> (c < length h)%nat.
Proof. intros H I. destruct (container_node h (size j) j a c) as (n & E & _); auto. apply nth_error_Some. congruence. Qed.
Lemma extend h e j a : holds h j a -> holds (h ++ e) j a /\ containers (h ++ e) j a = containers h j a.
Proof.
  intros H. apply (frame h (h ++ e)) with (n := size j); auto.
  - intros c nd E _. rewrite nth_error_app1; [auto|]. apply nth_error_Some. congruence.
  - intros c I. apply nth_error_app1. eapply containers_bound; eauto.
Qed.
Lemma extend_arr h e js xs : Forall2 (holds h) js xs -> Forall2 (holds (h ++ e)) js xs /\ conts (h ++ e) js xs = conts h js xs.
Proof.
  intros F. induction F as [|j x js xs H F (IH1 & IH2)]; [split; [constructor|auto]|]. destruct (extend h e j x H) as (G1 & G2).
  split; [constructor; auto|]. rewrite !conts_cons, G2, IH2. auto.
Qed.

Lemma map_exists kas : NoDup (map fst kas) -> Z.of_nat (length kas) <= 2 ^ 64 -> exists m, mrep strcmp m (wrapped kas).
Proof.
  induction kas as [|(k, a) kas IH] using rev_ind; intros N B.
  - exists map_mk. apply mrep_mk.
  - rewrite map_app, app_length in *. cbn [map fst length] in *. destruct IH as (m & R); [|lia|].
    { apply (Permutation_NoDup (Permutation_app_comm _ _)) in N. cbn [app] in N. inversion N; auto. }
    destruct (add_e_rep strcmp strcmp_total m (wrapped kas) k (Some a) None R) as (m' & _ & R'); [unfold wrapped; rewrite map_length; lia|].
    exists m'. rewrite put_wrapped in R'. rewrite put_fresh in R'; [auto|]. apply lookup_none. intros I.
    apply (Permutation_NoDup (Permutation_app_comm _ _)) in N. cbn [app] in N. inversion N; auto.
Qed.

Lemma distinct_arr l : distinct (JArr l) <-> Forall distinct l.
Proof. cbn [distinct]. induction l as [|x l IH]; cbn [fold_right]; [split; [constructor|auto]|]. rewrite IH. split; [intros (H1 & H2); constructor; auto|]. intros H. inversion H; auto. Qed.
Lemma distinct_obj l : distinct (JObj l) <-> NoDup (map fst l) /\ Forall (fun kv => distinct (snd kv)) l.
Proof.
  cbn [distinct]. assert (E : fold_right (fun kv Q => distinct (snd kv) /\ Q) True l <-> Forall (fun kv => distinct (snd kv)) l).
  { induction l as [|x l IH]; cbn [fold_right]; [split; [constructor|auto]|]. rewrite IH. split; [intros (H1 & H2); constructor; auto|]. intros H. inversion H; auto. }
  tauto.
Qed.

Lemma stored : forall n j h, (size j <= n)%nat -> distinct j -> Z.of_nat (size j) <= 2 ^ 64 ->
  exists e a, holds (h ++ e) j a /\ NoDup (containers (h ++ e) j a) /\ forall c, In c (containers (h ++ e) j a) -> (length h <= c)%nat.
Proof.
  induction n as [|n IH]; intros j h Ls D B; [pose proof (size_pos j); lia|].
  assert (Go : forall js h, (forall j, In j js -> (size j <= n)%nat /\ distinct j /\ Z.of_nat (size j) <= 2 ^ 64) ->
    exists e xs, Forall2 (holds (h ++ e)) js xs /\ NoDup (conts (h ++ e) js xs) /\ forall c, In c (conts (h ++ e) js xs) -> (length h <= c)%nat).
  { clear - IH. induction js as [|j js IHs]; intros h A; [exists [], []; split; [constructor|]; split; [constructor|intros c []]|].
    destruct (A j (or_introl eq_refl)) as (A1 & A2 & A3). destruct (IH j h A1 A2 A3) as (e & a & H & N & G).
    destruct (IHs (h ++ e)) as (e' & xs & F & N' & G'); [intros; apply A; right; auto|].
    destruct (extend (h ++ e) e' j a H) as (H1 & H2). exists (e ++ e'), (a :: xs). rewrite app_assoc. split; [constructor; auto|].
    rewrite conts_cons, H2. split.
    - apply NoDup_count_occ with (decA := Nat.eq_dec). intros c. rewrite count_occ_app.
      pose proof (cnt_nodup _ c N). pose proof (cnt_nodup _ c N').
      destruct (in_dec Nat.eq_dec c (containers (h ++ e) j a)) as [I|I].
      + assert (~ In c (conts ((h ++ e) ++ e') js xs)) as I'.
        { intros I'. apply G' in I'. pose proof (containers_bound _ _ _ _ H I). lia. }
        rewrite (count_occ_not_In Nat.eq_dec) in I'. lia.
      + rewrite (count_occ_not_In Nat.eq_dec) in I. lia.
    - intros c I. apply in_app_or in I as [I|I]; [auto|]. apply G' in I. rewrite app_length in I. lia. }
  destruct (leaf_cases j) as [(nd & L)|[(js & ->)|(kjs & ->)]].
  - exists [nd], (length h). rewrite (containers_leaf _ j _ nd L). split; [apply (holds_leaf _ j _ nd L); apply alloc_new|]. split; [constructor|intros c []].
  - apply distinct_arr in D. rewrite Forall_forall in D. destruct (Go js h) as (e & xs & F & N & G).
    { intros j I. pose proof (size_arr_in j js I). split; [lia|]. split; [auto|lia]. }
    set (l := CList (Z.of_nat (length xs)) (Z.of_nat (length xs)) (map Some (map Some xs))).
    assert (R : rep l (map Some xs)).
    { unfold rep, l. cbn [l_size l_capacity l_a]. rewrite !map_length. split; [auto|]. split; [auto|]. exists []. rewrite app_nil_r. auto. }
    exists (e ++ [NArr l]), (length (h ++ e)). rewrite app_assoc. assert (E : nth_error ((h ++ e) ++ [NArr l]) (length (h ++ e)) = Some (NArr l)) by apply alloc_new.
    destruct (extend_arr (h ++ e) [NArr l] js xs F) as (F1 & F2). rewrite (containers_arr _ _ l xs js E R), F2.
    split; [apply holds_arr; exists l, xs; auto|]. split.
    + constructor; [|auto]. intros I. apply in_conts in I as (j & x & _ & _ & Hx & I); [|auto]. pose proof (containers_bound _ _ _ _ Hx I). lia.
    + intros c [<-|I]; [rewrite app_length; lia|auto].
  - apply distinct_obj in D as (Nk & D). rewrite Forall_forall in D. destruct (Go (map snd kjs) h) as (e & xs & F & N & G).
    { intros j I. apply in_map_iff in I as (kj & <- & I). pose proof (size_obj_in kj kjs I). split; [lia|]. split; [auto|lia]. }
    pose proof (forall2_len F) as Lx. rewrite map_length in Lx. set (kas := combine (map fst kjs) xs).
    assert (K1 : map fst kas = map fst kjs /\ map snd kas = xs).
    { unfold kas. clear - Lx. revert xs Lx. induction kjs as [|(k, j) kjs IHk]; intros [|x xs] Lx; try discriminate; cbn [map combine fst snd]; [auto|].
      destruct (IHk xs) as (-> & ->); [cbn [length] in Lx; lia|auto]. }
    destruct K1 as (K1 & K2). pose proof (size_obj_len kjs).
    destruct (map_exists kas) as (m & R); [rewrite K1; auto|unfold kas; rewrite combine_length, map_length; lia|].
    exists (e ++ [NObj m]), (length (h ++ e)). rewrite app_assoc. assert (E : nth_error ((h ++ e) ++ [NObj m]) (length (h ++ e)) = Some (NObj m)) by apply alloc_new.
    destruct (extend_arr (h ++ e) [NObj m] (map snd kjs) xs F) as (F1 & F2). rewrite (containers_obj _ _ m kas kjs E R). unfold mconts. rewrite K2, F2.
    split; [|split].
    + apply holds_obj. exists m, kas. split; [auto|]. split; [auto|]. unfold kas. clear - F1 Lx. revert xs F1 Lx.
      generalize ((h ++ e) ++ [NObj m]) as h1. intros h1. induction kjs as [|(k, j) kjs IHk]; intros [|x xs] F Lx; try discriminate; cbn [map combine fst snd] in *; [constructor|].
      inversion F; subst. constructor; [auto|]. apply IHk; auto.
    + constructor; [|auto]. intros I. apply in_conts in I as (j & x & _ & _ & Hx & I); [|auto]. pose proof (containers_bound _ _ _ _ Hx I). lia.
    + intros c [<-|I]; [rewrite app_length; lia|auto].
Qed.
