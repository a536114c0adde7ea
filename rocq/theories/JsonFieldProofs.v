(** Proofs about the fields of an object: histories of changes, and appending. *)
From Coq Require Import ZArith List Bool Lia Arith Sorting.Permutation Sorting.Sorted.
From Verif Require Import Base ArrayLemmas TsearchModel TsearchProofs SetProofs MapModel MapProofs MapHistory ListModel ListProofs
  Json JsonHeapModel JsonHeapSpec JsonHeapProofs JsonFrame JsonMergeProofs.
Import ListNotations.
Open Scope Z_scope.
Local Arguments Z.add : simpl never.
Local Arguments Z.of_nat : simpl never.
Local Arguments Z.to_nat : simpl never.

(** * Removing a member *)
Fixpoint del {A} (k : text) (l : list (text * A)) : list (text * A) :=
  match l with
  | [] => []
  | (k', v) :: r => if list_eq_dec Z.eq_dec k k' then del k r else (k', v) :: del k r
  end.
Lemma del_wrapped k kas : s_del strcmp k (wrapped kas) = wrapped (del k kas).
Proof.
  unfold s_del. induction kas as [|(k', a) kas IH]; [auto|]. cbn [wrapped map filter del]. unfold keq at 1. cbn [fst snd]. rewrite strcmp_eqb.
  destruct (list_eq_dec Z.eq_dec k k'); cbn [negb]; [exact IH|]. unfold wrapped in IH. rewrite IH. auto.
Qed.
Lemma lookup_del {A} k k' (l : list (text * A)) : lookup k (del k' l) = if list_eq_dec Z.eq_dec k k' then None else lookup k l.
Proof.
  induction l as [|(k1, v1) l IH]; cbn [lookup del].
  - destruct (list_eq_dec Z.eq_dec k k'); auto.
  - destruct (list_eq_dec Z.eq_dec k' k1) as [->|]; cbn [lookup].
    + rewrite IH. destruct (list_eq_dec Z.eq_dec k k1); auto.
    + rewrite IH. destruct (list_eq_dec Z.eq_dec k k1), (list_eq_dec Z.eq_dec k k'); auto; congruence.
Qed.
Lemma del_length_le {A} k (l : list (text * A)) : (length (del k l) <= length l)%nat.
Proof. induction l as [|(k', v) l IH]; cbn [del length]; [auto|]. destruct (list_eq_dec Z.eq_dec k k'); cbn [length]; lia. Qed.
Lemma put_length_le {A} k (v : A) (l : list (text * A)) : (length (put k v l) <= S (length l))%nat.
Proof. induction l as [|(k', v') l IH]; cbn [put length]; [auto|]. destruct (list_eq_dec Z.eq_dec k k'); cbn [length]; lia. Qed.

(** * Histories *)
(** The object at [j] has the fields [m], and [n] of them at most. *)
Definition shown (h0 h : heap) (j : nat) (m : fields) (n : nat) : Prop :=
  (length h0 <= length h)%nat /\ (forall c, c <> j -> (c < length h0)%nat -> nth_error h c = nth_error h0 c) /\
  exists cm kas, nth_error h j = Some (NObj cm) /\ mrep strcmp cm (wrapped kas) /\ (length kas <= n)%nat /\
    forall k, match m k, lookup k kas with Some f, Some a => field_shows h f a | None, None => True | _, _ => False end.

(** Fields that are new values are not arrays or objects, and so stay. *)
Definition plain (m : fields) : Prop := forall k j, m k = Some (FieldIs j) -> exists n, leaf_node j = Some n.
Lemma plain_shows h h' f a : (forall j, f = FieldIs j -> exists n, leaf_node j = Some n) ->
  (forall n, nth_error h a = Some n -> is_leaf n = true -> nth_error h' a = Some n) -> field_shows h f a -> field_shows h' f a.
Proof.
  intros P K. destruct f as [x|j]; [auto|]. cbn [field_shows]. destruct (P j eq_refl) as (n & L). rewrite !(holds_leaf _ j a n L).
  intros E. apply K; [auto|]. eapply leaf_is_leaf; eauto.
Qed.

Lemma alloc_other (h : heap) n c : (c < length h)%nat -> nth_error (h ++ [n]) c = nth_error h c.
Proof. intros. apply nth_error_app1; auto. Qed.
Lemma alloc_new (h : heap) n : nth_error (h ++ [n]) (length h) = Some n.
Proof. rewrite nth_error_app2, Nat.sub_diag; auto. Qed.

Lemma add_field_ok h j cm kas k v : nth_error h j = Some (NObj cm) -> mrep strcmp cm (wrapped kas) -> Z.of_nat (length kas) <= 2 ^ 64 ->
  exists cm', add_field byval_str_mk h j k (Some v) = Ok (store h j (NObj cm')) /\ mrep strcmp cm' (wrapped (put k v kas)).
Proof.
  intros E R B. unfold add_field. rewrite (object_at_ok h j cm E). cbn [bind byval_str_mk].
  destruct (add_e_rep strcmp strcmp_total cm (wrapped kas) k (Some v) None R) as (m' & Em & Rm); [unfold wrapped; rewrite map_length; auto|].
  unfold map_add. rewrite Em. cbn [bind of_option]. exists m'. split; [auto|]. rewrite put_wrapped in Rm. auto.
Qed.

Lemma with_plain m k f : plain m -> (forall j, f = Some (FieldIs j) -> exists n, leaf_node j = Some n) -> plain (with_field m k f).
Proof. intros P Q k' j. unfold with_field. destruct (list_eq_dec Z.eq_dec k' k); auto. apply P. Qed.
Lemma step_plain m op : plain m -> plain (fst (fields_step m op)).
Proof.
  intros P. destruct op; cbn [fields_step fst]; auto; try (apply with_plain; [auto|]; intros j E; injection E as <-; eexists; reflexivity); try (apply with_plain; [auto|]; intros j E; discriminate).
  destruct (m old) as [f|] eqn:E; cbn [fst]; [|auto]. apply with_plain; [apply with_plain; [auto|discriminate]|]. intros j Ej. injection Ej as ->. eapply P; eauto.
Qed.

(** storing a field *)
Lemma set_shown h0 h h1 j m n k v f : shown h0 h j m n -> plain m -> Z.of_nat n < 2 ^ 31 ->
  (length h <= length h1)%nat -> (forall c, (c < length h)%nat -> nth_error h1 c = nth_error h c) ->
  (forall nd, field_shows (store h1 j nd) f v) ->
  exists h', add_field byval_str_mk h1 j k (Some v) = Ok h' /\ shown h0 h' j (with_field m k (Some f)) (S n) /\ leaves_kept h h'.
Proof.
  intros (L0 & O & cm & kas & E & R & Ln & Sh) P B L1 O1 Fv.
  assert (Lj : (j < length h)%nat) by (apply nth_error_Some; congruence). assert (E1 : nth_error h1 j = Some (NObj cm)) by (rewrite O1; auto).
  destruct (add_field_ok h1 j cm kas k v E1 R) as (cm' & Ea & R'); [lia|]. exists (store h1 j (NObj cm')). split; [exact Ea|].
  assert (LK : leaves_kept h (store h1 j (NObj cm'))).
  { intros c nd En Lf. rewrite store_other by (intros ->; rewrite E in En; injection En as <-; discriminate).
    rewrite O1; [auto|]. apply nth_error_Some. congruence. }
  split; [|exact LK]. split; [rewrite store_length; lia|]. split; [intros c Nc Lc; rewrite store_other, O1 by (auto; lia); auto|].
  exists cm', (put k v kas). split; [eapply store_same; eauto|]. split; [auto|]. split; [pose proof (put_length_le k v kas); lia|].
  intros k'. unfold with_field. rewrite lookup_put. destruct (list_eq_dec Z.eq_dec k' k); [apply Fv|].
  specialize (Sh k'). destruct (m k') as [f'|] eqn:Em, (lookup k' kas) as [a|]; auto.
  eapply plain_shows; [intros j' ->; eapply P; eauto| |exact Sh]. intros nd En Lf. apply LK; auto.
Qed.

Lemma new_shown h0 h j m n k nd jv : shown h0 h j m n -> plain m -> Z.of_nat n < 2 ^ 31 -> leaf_node jv = Some nd ->
  exists h', object_set_new byval_str_mk h (Some j) k nd = Ok h' /\ shown h0 h' j (with_field m k (Some (FieldIs jv))) (S n) /\ leaves_kept h h'.
Proof.
  intros Sh P B L. pose proof Sh as (L0 & O & cm & kas & E & _). unfold object_set_new. rewrite (object_at_ok h j cm E). cbn [bind alloc].
  assert (Lj : (j < length h)%nat) by (apply nth_error_Some; congruence).
  apply (set_shown h0 h (h ++ [nd]) j m n k (length h) (FieldIs jv) Sh P B).
  - rewrite app_length. lia.
  - intros c Lc. apply alloc_other; auto.
  - intros nd'. cbn [field_shows]. apply (holds_leaf _ jv _ nd L). rewrite store_other by lia. apply alloc_new.
Qed.

Lemma step_shown h0 h j m n op : shown h0 h j m n -> plain m -> Z.of_nat n < 2 ^ 31 -> op_fits h0 op ->
  exists h' r, object_step byval_str_mk j h op = Ok (h', r) /\ shown h0 h' j (fst (fields_step m op)) (S n) /\ leaves_kept h h' /\
    forall hf, leaves_kept h' hf -> same_res hf r (snd (fields_step m op)).
Proof.
  intros Sh P B Fit. pose proof Sh as (L0 & O & cm & kas & E & R & Ln & Hf).
  destruct op; cbn [object_step fields_step fst snd];
    try match goal with |- context [object_set_new _ _ _ _ ?nd] =>
      match goal with |- context [FieldIs ?jv] => destruct (new_shown h0 h j m n k nd jv Sh P B eq_refl) as (h' & Ea & Sh' & LK); rewrite Ea; cbn [bind]; exists h', RDone; split; [auto|]; split; [auto|]; split; [auto|]; intros; exact I end end.
  - (* set *)
    unfold object_set. rewrite (object_at_ok h j cm E). cbn [bind]. unfold load. cbn [op_fits] in Fit.
    destruct (nth_error h v) as [nv|] eqn:Ev; [|apply nth_error_None in Ev; lia]. cbn [of_option bind].
    destruct (set_shown h0 h h j m n k v (FieldAt v) Sh P B) as (h' & Ea & Sh' & LK); [lia|auto|intros nd; reflexivity|].
    rewrite Ea. cbn [bind]. exists h', RDone. split; [auto|]. split; [auto|]. split; [auto|]. intros; exact I.
  - (* string *)
    unfold object_set_str. rewrite (object_at_ok h j cm E). cbn [bind byval_str_mk].
    destruct (new_shown h0 h j m n k (NStr s) (JStr s) Sh P B eq_refl) as (h' & Ea & Sh' & LK). rewrite Ea. cbn [bind].
    exists h', RDone. split; [auto|]. split; [auto|]. split; [auto|]. intros; exact I.
  - (* remove *)
    unfold object_remove. rewrite (object_at_ok h j cm E). cbn [bind].
    destruct (MapProofs.remove_rep strcmp strcmp_total cm (wrapped kas) k R) as (cm' & Er & R'); [unfold wrapped; rewrite map_length; lia|].
    rewrite Er. cbn [bind of_option]. rewrite del_wrapped in R'.
    assert (LK : leaves_kept h (store h j (NObj cm'))) by (eapply store_leaves; eauto).
    eexists. exists RDone. split; [reflexivity|]. split; [|split; [auto|intros; exact I]].
    split; [rewrite store_length; auto|]. split; [intros c Nc Lc; rewrite store_other; auto|].
    exists cm', (del k kas). split; [eapply store_same; eauto|]. split; [auto|]. split; [pose proof (del_length_le k kas); lia|].
    intros k'. unfold with_field. rewrite lookup_del. destruct (list_eq_dec Z.eq_dec k' k); [auto|].
    specialize (Hf k'). destruct (m k') as [f'|] eqn:Em, (lookup k' kas) as [a|]; auto.
    eapply plain_shows; [intros j' ->; eapply P; eauto| |exact Hf]. intros nd En Lf. apply LK; auto.
  - (* rename *)
    unfold object_rename, to_object, load. rewrite E. cbn [of_option bind byval_str_mk map_rename].
    destruct (MapProofs.remove_rep strcmp strcmp_total cm (wrapped kas) old R) as (cm' & Er & R'); [unfold wrapped; rewrite map_length; lia|].
    rewrite Er. cbn [bind]. rewrite get_wrapped. rewrite del_wrapped in R'. pose proof (Hf old) as Ho.
    destruct (lookup old kas) as [a|] eqn:Lo, (m old) as [f|] eqn:Mo; try contradiction.
    + destruct (add_e_rep strcmp strcmp_total cm' (wrapped (del old kas)) new (Some a) None R') as (cm2 & Ea & R2).
      { unfold wrapped. rewrite map_length. pose proof (del_length_le old kas). lia. }
      unfold map_add. rewrite Ea. cbn [bind of_option]. rewrite put_wrapped in R2.
      assert (LK : leaves_kept h (store h j (NObj cm2))) by (eapply store_leaves; eauto).
      eexists. exists (RRenamed true). split; [reflexivity|]. split; [|split; [auto|intros; reflexivity]].
      split; [rewrite store_length; auto|]. split; [intros c Nc Lc; rewrite store_other; auto|].
      exists cm2, (put new a (del old kas)). split; [eapply store_same; eauto|]. split; [auto|].
      split; [pose proof (put_length_le new a (del old kas)); pose proof (del_length_le old kas); lia|].
      intros k'. cbn [fst]. unfold with_field. rewrite lookup_put, lookup_del.
      destruct (list_eq_dec Z.eq_dec k' new); [|destruct (list_eq_dec Z.eq_dec k' old); [auto|]].
      * eapply plain_shows; [intros j' ->; eapply P; eauto| |exact Ho]. intros nd En Lf. apply LK; auto.
      * specialize (Hf k'). destruct (m k') as [f'|] eqn:Em, (lookup k' kas) as [a'|]; auto.
        eapply plain_shows; [intros j' ->; eapply P; eauto| |exact Hf]. intros nd En Lf. apply LK; auto.
    + cbn [of_option bind].
      assert (LK : leaves_kept h (store h j (NObj cm'))) by (eapply store_leaves; eauto).
      eexists. exists (RRenamed false). split; [reflexivity|]. split; [|split; [auto|intros; reflexivity]].
      split; [rewrite store_length; auto|]. split; [intros c Nc Lc; rewrite store_other; auto|].
      exists cm', (del old kas). split; [eapply store_same; eauto|]. split; [auto|]. split; [pose proof (del_length_le old kas); lia|].
      intros k'. cbn [fst]. rewrite lookup_del. destruct (list_eq_dec Z.eq_dec k' old) as [->|]; [rewrite Mo; auto|].
      specialize (Hf k'). destruct (m k') as [f'|] eqn:Em, (lookup k' kas) as [a|]; auto.
      eapply plain_shows; [intros j' ->; eapply P; eauto| |exact Hf]. intros nd En Lf. apply LK; auto.
  - (* get *)
    unfold object_get. rewrite (object_at_ok h j cm E). cbn [bind]. rewrite (mrep_find cm kas k R). cbn [bind].
    exists h, (RGot (lookup k kas)). split; [auto|]. split.
    { split; [auto|]. split; [auto|]. exists cm, kas. split; [auto|]. split; [auto|]. split; [lia|auto]. }
    split; [intros c nd; auto|]. intros hf LK. cbn [same_res]. specialize (Hf k). destruct (lookup k kas) as [a|], (m k) as [f|] eqn:Mk; auto.
    eapply plain_shows; [intros j' ->; eapply P; eauto| |exact Hf]. intros nd En Lf. apply LK; auto.
Qed.

Lemma run_shown h0 j ops : forall h m n, shown h0 h j m n -> plain m -> Z.of_nat (n + length ops) < 2 ^ 31 -> Forall (op_fits h0) ops ->
  exists h' rs, object_run byval_str_mk j h ops = Ok (h', rs) /\ shown h0 h' j (fst (fields_run m ops)) (n + length ops) /\ leaves_kept h h' /\
    forall hf, leaves_kept h' hf -> Forall2 (same_res hf) rs (snd (fields_run m ops)).
Proof.
  induction ops as [|op ops IH]; intros h m n Sh P B Fit.
  - exists h, []. cbn [object_run fields_run fst snd length]. rewrite Nat.add_0_r. split; [auto|]. split; [auto|]. split; [intros c nd; auto|]. intros; constructor.
  - cbn [length] in *. destruct (step_shown h0 h j m n op Sh P) as (h1 & r & E1 & Sh1 & LK1 & R1); [lia|apply (Forall_inv Fit)|].
    destruct (IH h1 (fst (fields_step m op)) (S n) Sh1 (step_plain m op P)) as (h2 & rs & E2 & Sh2 & LK2 & R2); [lia|apply (Forall_inv_tail Fit)|].
    exists h2, (r :: rs). cbn [object_run]. rewrite E1. cbn [bind]. rewrite E2. cbn [bind]. split; [auto|].
    cbn [fields_run]. destruct (fields_step m op) as (m1, r1) eqn:Es. cbn [fst snd] in *. destruct (fields_run m1 ops) as (m2, rs2) eqn:Er. cbn [fst snd] in *.
    replace (n + S (length ops))%nat with (S n + length ops)%nat by lia. split; [auto|]. split; [intros c nd En Lf; auto|].
    intros hf LK. constructor; [|auto]. apply R1. intros c nd En Lf. auto.
Qed.

(** * Appending *)
Lemma replaced_put k v l : NoDup (map fst l) -> In k (map fst l) -> replaced k v l = put k v l.
Proof.
  unfold replaced. induction l as [|(k', x) l IH]; cbn [map fst put]; [intros _ []|]. intros N I. inversion N as [|? ? N1 N2]; subst.
  destruct (list_eq_dec Z.eq_dec k k') as [->|Ne].
  - f_equal. clear - N1. induction l as [|(k1, x1) l IH]; cbn [map fst]; [auto|]. cbn [map fst In] in N1.
    destruct (list_eq_dec Z.eq_dec k' k1) as [->|]; [exfalso; apply N1; auto|]. f_equal. apply IH. tauto.
  - f_equal. apply IH; [auto|]. destruct I; [congruence|auto].
Qed.

Lemma array_append_ok h o l xs y : nth_error h o = Some (NArr l) -> rep l (map Some xs) ->
  exists l2, array_append h o (Some y) = Ok (store h o (NArr l2)) /\ rep l2 (map Some (xs ++ [y])).
Proof.
  intros E R. unfold array_append. rewrite (array_at_ok h o l E). cbn [bind]. destruct (append_rep l _ (Some y) R) as (l2 & Ea & R2).
  rewrite Ea. cbn [bind]. exists l2. split; [auto|]. rewrite map_app. auto.
Qed.
Lemma concat_ok h0 o v lv ys : o <> v -> nth_error h0 v = Some (NArr lv) -> rep lv (map Some ys) -> 
  forall todo done fuel h l xs, ys = done ++ todo -> (length todo < fuel)%nat -> length h = length h0 -> (forall c, c <> o -> nth_error h c = nth_error h0 c) ->
  nth_error h o = Some (NArr l) -> rep l (map Some (xs ++ done)) ->
  exists h' l2, concat_loop fuel h o v (Z.of_nat (length done)) = Ok h' /\ length h' = length h0 /\ (forall c, c <> o -> nth_error h' c = nth_error h0 c) /\
    nth_error h' o = Some (NArr l2) /\ rep l2 (map Some (xs ++ ys)).
Proof.
  intros Ne Ev Rv. assert (Sz : l_size lv = Z.of_nat (length ys)) by (destruct Rv as (Sz & _); rewrite map_length in Sz; auto).
  induction todo as [|y todo IH]; intros done [|fuel] h l xs Ey Lf Lh O Eo R; try (cbn [length] in Lf; lia); cbn [concat_loop];
    rewrite (array_at_ok h v lv) by (rewrite O; auto); cbn [bind]; rewrite Sz.
  - rewrite app_nil_r in Ey. subst done. destruct (Z.ltb_spec (Z.of_nat (length ys)) (Z.of_nat (length ys))); [lia|]. exists h, l. auto 6.
  - assert (length ys = length done + S (length todo))%nat by (rewrite Ey, app_length; auto).
    destruct (Z.ltb_spec (Z.of_nat (length done)) (Z.of_nat (length ys))); [|lia].
    rewrite (rep_read lv (map Some ys) _ (Some y) Rv); [|rewrite nth_error_map, Ey, nth_error_app2 by lia; replace (_ - _)%nat with 0%nat by lia; auto|lia].
    cbn [bind]. destruct (array_append_ok h o l (xs ++ done) y Eo R) as (l2 & Ea & R2). rewrite Ea. cbn [bind].
    replace (Z.of_nat (length done) + 1) with (Z.of_nat (length (done ++ [y]))) by (rewrite app_length; cbn [length]; lia).
    apply (IH (done ++ [y]) fuel _ l2 xs).
    + rewrite <- app_assoc. auto.
    + cbn [length] in Lf. lia.
    + rewrite store_length; auto.
    + intros c Nc. rewrite store_other; auto.
    + eapply store_same; eauto.
    + rewrite app_assoc. auto.
Qed.
Lemma array_concat_self fuel : forall h o l xs i, nth_error h o = Some (NArr l) -> rep l (map Some xs) -> 0 <= i < Z.of_nat (length xs) ->
  concat_loop fuel h o o i = Bad OutOfFuel.
Proof.
  induction fuel as [|n IH]; intros h o l xs i E R B; cbn [concat_loop]; [auto|]. rewrite (array_at_ok h o l E). cbn [bind].
  assert (Sz : l_size l = Z.of_nat (length xs)) by (destruct R as (Sz & _); rewrite map_length in Sz; auto). rewrite Sz.
  destruct (Z.ltb_spec i (Z.of_nat (length xs))); [|lia]. destruct (nth_error xs (Z.to_nat i)) as [y|] eqn:Ey; [|apply nth_error_None in Ey; lia].
  rewrite (rep_read l (map Some xs) i (Some y) R); [|rewrite nth_error_map, Ey; auto|lia]. cbn [bind].
  destruct (array_append_ok h o l xs y E R) as (l2 & Ea & R2). rewrite Ea. cbn [bind].
  apply (IH _ o l2 (xs ++ [y])); [eapply store_same; eauto|auto|rewrite app_length; cbn [length]; lia].
Qed.

(** The values to append, at [ys], and what appending them to the array at [o] does. *)
Lemma holds_node h j a : holds h j a -> exists n, nth_error h a = Some n /\ (is_leaf n = false -> In a (containers h j a)) /\
  (forall l, n = NArr l -> exists js xs, j = JArr js /\ rep l (map Some xs) /\ Forall2 (holds h) js xs) /\
  ((forall l, n <> NArr l) -> items j = [j]).
Proof.
  intros H. destruct (leaf_cases j) as [(n & L)|[(js & ->)|(kjs & ->)]].
  - apply (holds_leaf h j a n L) in H. exists n. split; [auto|]. pose proof (leaf_is_leaf j n L). split; [congruence|].
    split; [intros l ->; discriminate|]. intros _. destruct j; auto; discriminate.
  - apply holds_arr in H as (l & xs & E & R & F). exists (NArr l). split; [auto|]. split; [intros _; left; auto|].
    split; [intros l' El; injection El as <-; eauto|]. intros X. exfalso. apply (X l); auto.
  - apply holds_obj in H as (m & kas & E & R & F). exists (NObj m). split; [auto|]. split; [intros _; left; auto|]. split; [discriminate|]. auto.
Qed.
Lemma append_items fuel h o v jv l xs : holds h jv v -> nth_error h o = Some (NArr l) -> rep l (map Some xs) -> ~ In o (containers h jv v) -> (size jv < fuel)%nat ->
  exists h' l2 ys, (let* varr := to_array h (Some v) in match varr with Some _ => array_concat fuel h o v | None => array_append h o (Some v) end)%outcome = Ok h' /\
    length h' = length h /\ (forall c, c <> o -> nth_error h' c = nth_error h c) /\ nth_error h' o = Some (NArr l2) /\ rep l2 (map Some (xs ++ ys)) /\
    Forall2 (holds h) (items jv) ys /\ incl (conts h (items jv) ys) (containers h jv v).
Proof.
  intros Hv Eo R No Lf. destruct (holds_node h jv v Hv) as (n & En & Nin & Narr & Nitems). unfold to_array, load. rewrite En. cbn [of_option bind].
  destruct n as [| |b|z|z|z|s|s|z|lv|m];
    try (destruct (array_append_ok h o l xs v Eo R) as (l2 & Ea & R2); eexists; exists l2, [v]; split; [exact Ea|];
         rewrite Nitems by discriminate; (split; [apply store_length|]); (split; [intros; apply store_other; auto|]); (split; [eapply store_same; eauto|]); (split; [auto|]);
         (split; [constructor; auto|]); unfold conts; cbn [zip concat]; rewrite app_nil_r; apply incl_refl).
  destruct (Narr lv eq_refl) as (js & ys & -> & Rv & Fv). cbn [items].
  assert (Ne : o <> v) by (intros ->; apply No; apply Nin; auto).
  unfold array_concat. rewrite (array_at_ok h o l Eo), (array_at_ok h v lv En). cbn [bind].
  destruct (concat_ok h o v lv ys Ne En Rv ys [] fuel h l xs) as (h' & l2 & Ec & Lh & O & Eo' & R2); auto.
  { pose proof (size_arr_len js). pose proof (forall2_len Fv). lia. }
  { rewrite app_nil_r. auto. }
  exists h', l2, ys. split; [exact Ec|]. split; [auto|]. split; [auto|]. split; [auto|]. split; [auto|]. split; [auto|].
  rewrite (containers_arr h v lv ys js En Rv). intros c I. right; auto.
Qed.

Lemma nodup_parts {h kjs kas k x a q1 q2 s1 s2} : NoDup (mconts h kjs kas) -> kjs = q1 ++ (k, x) :: q2 -> kas = s1 ++ (k, a) :: s2 -> length q1 = length s1 ->
  NoDup (containers h x a) /\ forall c, In c (containers h x a) -> ~ In c (mconts h q1 s1) /\ ~ In c (mconts h q2 s2).
Proof.
  intros N -> -> L. rewrite mconts_app, mconts_cons in N by auto. cbn [snd] in N. rewrite (NoDup_count_occ Nat.eq_dec) in N. split.
  - apply NoDup_count_occ with (decA := Nat.eq_dec). intros c. specialize (N c). rewrite !count_occ_app in N. lia.
  - intros c I. specialize (N c). rewrite !count_occ_app in N. apply cnt_in in I. split; intros J; apply cnt_in in J; lia.
Qed.

(** Changing a member in place, or exchanging it *)
Lemma member_changed h h' kjs kas cm j k x a z b :
  nth_error h' j = Some (NObj cm) -> mrep strcmp cm (wrapped (put k b kas)) -> members h kjs kas -> NoDup (mconts h kjs kas) ->
  lookup k kjs = Some x -> lookup k kas = Some a -> leaves_kept h h' ->
  (forall c, ~ In c (containers h x a) -> In c (mconts h kjs kas) -> nth_error h' c = nth_error h c) -> holds h' z b ->
  holds h' (JObj (put k z kjs)) j.
Proof.
  intros E R F N Lx La LK O Hz. destruct (members_split h k kjs kas x F Lx) as (a' & q1 & q2 & s1 & s2 & La' & Hx & Er & Ea & Lq & M1 & M2 & P).
  rewrite La in La'. injection La' as <-. destruct (P z b) as (-> & Eb). rewrite Eb in R. destruct (nodup_parts N Er Ea Lq) as (_ & Dj).
  assert (Mc : mconts h kjs kas = mconts h q1 s1 ++ containers h x a ++ mconts h q2 s2) by (rewrite Er, Ea, mconts_app by auto; auto).
  destruct (frame_members h h' q1 s1 LK M1) as (G1 & _).
  { intros c I. apply O; [intros J; destruct (Dj c J); auto|rewrite Mc, !in_app_iff; auto]. }
  destruct (frame_members h h' q2 s2 LK M2) as (G2 & _).
  { intros c I. apply O; [intros J; destruct (Dj c J); auto|rewrite Mc, !in_app_iff; auto]. }
  apply holds_obj. exists cm, (s1 ++ (k, b) :: s2). split; [auto|]. split; [auto|]. apply Forall2_app; [auto|constructor; auto].
Qed.

Lemma append_to_array mk_str fuel h j kjs k old v jv : holds h (JObj kjs) j -> holds h jv v -> NoDup (containers h (JObj kjs) j) ->
  disjoint (containers h (JObj kjs) j) (containers h jv v) -> lookup k kjs = Some (JArr old) -> (size jv < fuel)%nat ->
  exists h', object_append mk_str fuel h (Some j) k (Some v) = Ok h' /\ holds h' (JObj (replaced k (JArr (old ++ items jv)) kjs)) j /\ holds h' jv v /\
    forall c, ~ In c (containers h (JObj kjs) j) -> nth_error h' c = nth_error h c.
Proof.
  intros Hj Hv N D Lk Lf. pose proof Hj as Hj0. apply holds_obj in Hj0 as (cm & kas & E & R & F). rewrite (containers_obj h j cm kas kjs E R) in *.
  pose proof (members_lookup k F) as ML. rewrite Lk in ML. destruct (lookup k kas) as [o|] eqn:Lo; [|contradiction].
  pose proof ML as Ho. apply holds_arr in ML as (l & xs & Eo & Ro & Fo).
  assert (Io : In o (mconts h kjs kas)) by (eapply lookup_incl; eauto; left; auto).
  inversion N as [|? ? N1 N2]; subst.
  assert (Noj : o <> j) by (intros ->; auto).
  assert (Nov : ~ In o (containers h jv v)) by (intros I; apply (D o); [right; auto|auto]).
  destruct (append_items fuel h o v jv l xs Hv Eo Ro Nov Lf) as (h' & l2 & ys & Ea & Lh & O & Eo' & Ro' & Fy & Iy).
  assert (LK : leaves_kept h h') by (apply (leaves_off h h' [o]); [intros c [<-|[]]; eauto|intros c Nc; apply O; intros ->; apply Nc; left; auto]).
  exists h'. split.
  { unfold object_append, object_get. rewrite (object_at_ok h j cm E). cbn [bind]. rewrite (mrep_find cm kas k R), Lo. cbn [bind].
    unfold to_array at 1, load at 1. rewrite Eo. cbn [of_option bind]. exact Ea. }
  assert (Hz : holds h' (JArr (old ++ items jv)) o).
  { apply holds_arr. exists l2, (xs ++ ys). split; [auto|]. split; [auto|]. apply Forall2_app.
    - apply (frame_arr h h' old xs LK Fo). intros c I. apply O. intros ->. 
      destruct (members_split h k kjs kas _ F Lk) as (a' & q1 & q2 & s1 & s2 & La' & _ & Er & Ea' & Lq & _).
      rewrite Lo in La'. injection La' as <-. destruct (nodup_parts N2 Er Ea' Lq) as (Nx & _).
      rewrite (containers_arr h o l xs old Eo Ro) in Nx. inversion Nx; auto.
    - apply (frame_arr h h' (items jv) ys LK Fy). intros c I. apply O. intros ->. apply Nov, Iy, I. }
  split; [|split].
  - rewrite replaced_put; [|rewrite (members_fst F); apply (mrep_nodup cm kas R)|apply lookup_in in Lk; apply (in_map fst) in Lk; auto].
    apply (member_changed h h' kjs kas cm j k (JArr old) o _ o); auto.
    + rewrite O; auto.
    + rewrite put_same; auto.
    + intros c Nc _. apply O. intros ->. apply Nc. left; auto.
  - apply (frame_holds h h'); auto. intros c I. apply O. intros ->. auto.
  - intros c Nc. apply O. intros ->. apply Nc. right; auto.
Qed.

Lemma append_absent fuel h j kjs k v jv : holds h (JObj kjs) j -> holds h jv v -> NoDup (containers h (JObj kjs) j) ->
  disjoint (containers h (JObj kjs) j) (containers h jv v) -> lookup k kjs = None -> Z.of_nat (size (JObj kjs)) < 2 ^ 64 ->
  exists h', object_append byval_str_mk fuel h (Some j) k (Some v) = Ok h' /\ holds h' (JObj (kjs ++ [(k, jv)])) j /\ holds h' jv v /\
    forall c, c <> j -> nth_error h' c = nth_error h c.
Proof.
  intros Hj Hv N D Lk B. pose proof Hj as Hj0. apply holds_obj in Hj0 as (cm & kas & E & R & F). rewrite (containers_obj h j cm kas kjs E R) in *.
  pose proof (members_lookup k F) as ML. rewrite Lk in ML. destruct (lookup k kas) as [o|] eqn:Lo; [contradiction|].
  inversion N as [|? ? N1 N2]; subst. pose proof (size_obj_len kjs). pose proof (forall2_len F).
  destruct (add_field_ok h j cm kas k v E R) as (cm' & Ea & R'); [lia|].
  exists (store h j (NObj cm')). assert (LK : leaves_kept h (store h j (NObj cm'))) by (eapply store_leaves; eauto).
  assert (Nj : ~ In j (containers h jv v)) by (intros I; apply (D j); [left; auto|auto]).
  split; [|split; [|split]].
  - unfold object_append, object_get. rewrite (object_at_ok h j cm E). cbn [bind]. rewrite (mrep_find cm kas k R), Lo. cbn [bind].
    unfold object_set. rewrite (object_at_ok h j cm E). cbn [bind]. destruct (holds_node h jv v Hv) as (n & En & _). unfold load. rewrite En. exact Ea.
  - apply holds_obj. exists cm', (put k v kas). split; [eapply store_same; eauto|]. split; [auto|]. rewrite (put_fresh k v kas Lo). apply Forall2_app.
    + apply (frame_members h _ kjs kas LK F). intros c I. apply store_other. intros ->; auto.
    + constructor; [|constructor]. split; [auto|]. cbn [snd]. apply (frame_holds h); auto. intros c I. apply store_other. intros ->; auto.
  - apply (frame_holds h); auto. intros c I. apply store_other. intros ->; auto.
  - intros c Nc. apply store_other; auto.
Qed.

Lemma holds_alloc h n j a : holds h j a -> holds (h ++ [n]) j a /\ containers (h ++ [n]) j a = containers h j a.
Proof.
  intros H. apply (frame h (h ++ [n])) with (n := size j); auto.
  - intros c nd E _. rewrite alloc_other; [auto|]. apply nth_error_Some. congruence.
  - intros c I. apply alloc_other. destruct (container_node h (size j) j a c) as (nd & E & _); auto. apply nth_error_Some. congruence.
Qed.
Lemma append_to_string fuel h j kjs k s v jv : holds h (JObj kjs) j -> holds h jv v -> NoDup (containers h (JObj kjs) j) ->
  disjoint (containers h (JObj kjs) j) (containers h jv v) -> lookup k kjs = Some (JStr s) -> (size jv < fuel)%nat -> Z.of_nat (size (JObj kjs)) < 2 ^ 64 ->
  exists h', object_append byval_str_mk fuel h (Some j) k (Some v) = Ok h' /\ holds h' (JObj (replaced k (JArr (JStr s :: items jv)) kjs)) j /\ holds h' jv v /\
    forall c, c <> j -> (c < length h)%nat -> nth_error h' c = nth_error h c.
Proof.
  intros Hj Hv N D Lk Lf B. pose proof Hj as Hj0. apply holds_obj in Hj0 as (cm & kas & E & R & F).
  pose proof (members_lookup k F) as ML. rewrite Lk in ML. destruct (lookup k kas) as [o|] eqn:Lo; [|contradiction].
  pose proof ML as Ho. apply (holds_leaf h (JStr s) o (NStr s) eq_refl) in ML.
  assert (Lj : (j < length h)%nat) by (apply nth_error_Some; congruence). assert (Lo' : (o < length h)%nat) by (apply nth_error_Some; congruence).
  (* the new list *)
  set (h1 := h ++ [NArr (list_mk 1)]). set (L := length h). assert (El1 : nth_error h1 L = Some (NArr (list_mk 1))) by apply alloc_new.
  destruct (array_append_ok h1 L (list_mk 1) [] o El1) as (l1 & Ea1 & R1); [apply (rep_mk (A := option nat) 1); lia|].
  set (h2 := store h1 L (NArr l1)) in *. assert (O2 : forall c, (c < length h)%nat -> nth_error h2 c = nth_error h c).
  { intros c Lc. unfold h2. rewrite store_other by lia. apply alloc_other; auto. }
  assert (Ln2 : length h2 = S (length h)) by (unfold h2, h1; rewrite store_length, app_length; cbn [length]; lia).
  assert (LK2 : leaves_kept h h2) by (intros c nd En _; rewrite O2; [auto|]; apply nth_error_Some; congruence).
  assert (In2 : forall jj a c, holds h jj a -> In c (containers h jj a) -> (c < length h)%nat).
  { intros jj a c Hjj I. destruct (container_node h (size jj) jj a c) as (nd & En & _); auto. apply nth_error_Some. congruence. }
  assert (Fr2 : forall jj a, holds h jj a -> holds h2 jj a /\ containers h2 jj a = containers h jj a).
  { intros jj a Hjj. apply (frame h h2 LK2 (size jj)); auto. intros c I. apply O2. eauto. }
  destruct (Fr2 jv v Hv) as (Hv2 & Cv2).
  assert (El2 : nth_error h2 L = Some (NArr l1)) by (eapply store_same; eauto).
  destruct (append_items fuel h2 L v jv l1 [o] Hv2 El2 R1) as (h3 & l3 & ys & Ea3 & Ln3 & O3 & El3 & R3 & Fy & Iy).
  { rewrite Cv2. intros I. pose proof (In2 _ _ _ Hv I). unfold L in *. lia. }
  { auto. }
  assert (O3' : forall c, (c < length h)%nat -> nth_error h3 c = nth_error h c) by (intros c Lc; rewrite O3, O2 by (unfold L; lia); auto).
  assert (E3 : nth_error h3 j = Some (NObj cm)) by (rewrite O3'; auto).
  pose proof (size_obj_len kjs). pose proof (forall2_len F).
  destruct (add_field_ok h3 j cm kas k L E3 R) as (cm' & Ea & R'); [lia|]. set (h4 := store h3 j (NObj cm')) in *.
  assert (O4 : forall c, (c < length h)%nat -> c <> j -> nth_error h4 c = nth_error h c) by (intros c Lc Nc; unfold h4; rewrite store_other; auto).
  assert (LK : leaves_kept h h4).
  { intros c nd En Lfn. rewrite O4; [auto|apply nth_error_Some; congruence|]. intros ->. rewrite E in En. injection En as <-. discriminate. }
  rewrite (containers_obj h j cm kas kjs E R) in *. inversion N as [|? ? N1 N2]; subst.
  assert (Njv : ~ In j (containers h jv v)) by (intros I; apply (D j); [left; auto|auto]).
  assert (Hv4 : holds h4 jv v) by (apply (frame_holds h); auto; intros c I; apply O4; [eauto|intros ->; auto]).
  exists h4. split; [|split; [|split]].
  - unfold object_append, object_get. rewrite (object_at_ok h j cm E). cbn [bind]. rewrite (mrep_find cm kas k R), Lo. cbn [bind].
    unfold to_array at 1, load at 1. rewrite ML. cbn [of_option bind]. unfold listify, load. rewrite ML. cbn [of_option bind alloc].
    fold h1. fold L. rewrite Ea1. cbn [bind]. fold h2.
    match goal with |- bind ?a ?f = _ => assert (Ef : bind (bind a (fun varr => match varr with Some _ => array_concat fuel h2 L v | None => array_append h2 L (Some v) end)) (fun h => object_set byval_str_mk h (Some j) k (Some L)) = Ok h4) end.
    { rewrite Ea3. cbn [bind]. unfold object_set. rewrite (object_at_ok h3 j cm E3). cbn [bind]. unfold load. rewrite El3. cbn [of_option bind]. exact Ea. }
    destruct (to_array h2 (Some v)) as [varr|]; cbn [bind] in *; exact Ef.
  - rewrite replaced_put; [|rewrite (members_fst F); apply (mrep_nodup cm kas R)|apply lookup_in in Lk; apply (in_map fst) in Lk; auto].
    apply (member_changed h h4 kjs kas cm' j k (JStr s) o _ L); auto.
    + unfold h4. eapply store_same; eauto.
    + intros c _ I. apply O4; [|intros ->; auto]. apply in_mconts in I as (k' & j' & x' & _ & _ & Hx' & I); [|auto]. eauto.
    + apply holds_arr. exists l3, (o :: ys). split; [unfold h4; rewrite store_other by (unfold L; lia); auto|]. split; [auto|].
      constructor; [apply (holds_leaf h4 (JStr s) o (NStr s) eq_refl); apply LK; auto|].
      assert (LK4 : leaves_kept h2 h4).
      { intros c nd En Lfn. unfold h4. destruct (Nat.eq_dec c j) as [->|Nc]; [rewrite O2, E in En by auto; injection En as <-; discriminate|].
        rewrite store_other by auto. destruct (Nat.eq_dec c L) as [->|Nl]; [rewrite El2 in En; injection En as <-; discriminate|]. rewrite O3; auto. }
      apply (frame_arr h2 h4 (items jv) ys LK4 Fy). intros c I. apply Iy in I. rewrite Cv2 in I. pose proof (In2 _ _ _ Hv I).
      rewrite O4, O2; auto. intros ->; auto.
  - auto.
  - intros c Nc Lc. apply O4; auto.
Qed.
