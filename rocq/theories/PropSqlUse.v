(** C45: what binding data from an object does, for every object, columns and data. *)
From Coq Require Import String Ascii ZArith List Bool Lia Sorting.Permutation.
From Verif Require Import Base TsearchModel MapModel MapProofs ListModel Json IntSpec JsonHeapModel JsonHeapSpec JsonHeapProofs SqlModel SqlSpec SqlJsonModel SqlJsonSpec SqlJsonProofs SqlUseSpec SqlUseProofs PropSqlJson.
Import ListNotations.
Open Scope Z_scope.

(** For every object, columns (also repeated ones) and data (also used before): the
    members are taken one by one in some order, until one is complained about.  If one
    comes that is undefined, so is the whole. *)
Theorem C45_exact :
  forall infos h a kvs data used unused errors us ns es,
  holds h (JObj kvs) a -> NoDup (given_at used ++ given_at unused ++ given_at errors) ->
  text_list h used us -> text_list h unused ns -> text_list h errors es -> (length infos <= length data)%nat ->
  exists order r, Permutation order kvs /\ uses infos (match errors with Some _ => true | None => false end) order data r /\
  match r with
  | Used data' us' ns' es' => exists h' used' unused' errors',
      bind_data_from_json byval_str_mk h infos (Some data) (Some a) used unused errors = Ok (0, h', Some data', used', unused', errors') /\
      asked used used' /\ asked unused unused' /\ asked errors errors' /\
      text_list h' used' (us ++ us') /\ text_list h' unused' (ns ++ ns') /\ text_list h' errors' (es ++ es') /\
      (forall c, (c < length h)%nat -> ~ In c (given_at used ++ given_at unused ++ given_at errors) -> nth_error h' c = nth_error h c)
  | Undefined => exists b, bind_data_from_json byval_str_mk h infos (Some data) (Some a) used unused errors = Bad b
  end.
Proof. exact bind_data_exact. Qed.

(** What is done with the members in a given order is determined. *)
Theorem C45_exact_one : forall infos asked l data r r', uses infos asked l data r -> uses infos asked l data r' -> r = r'.
Proof.
  intros infos asked.
  assert (CO : forall k i x j y, column_of infos k i x -> column_of infos k j y -> i = j /\ x = y).
  { intros k i x j y (Ni & Ci & Fi) (Nj & Cj & Fj). assert (i = j).
    { destruct (Nat.lt_trichotomy i j) as [L|[L|L]]; auto; exfalso; [apply (Fj i x L Ni Ci)|apply (Fi j y L Nj Cj)]. }
    subst j. split; congruence. }
  assert (IN : forall k i x, column_of infos k i x -> In k (map i_col infos)).
  { intros k i x (N & C & _). rewrite <- C. apply in_map. eapply nth_error_In; eauto. }
  assert (EX : forall l l' : list bind_data, (forall n, nth_error l n = nth_error l' n) -> l = l').
  { induction l as [|x l IH]; intros [|y l'] E; auto; try (specialize (E 0%nat); discriminate). pose proof (E 0%nat) as E0. injection E0 as ->. f_equal. apply IH. intros n. apply (E (S n)). }
  assert (ST : forall ty v d x y, set_to ty v d x -> set_to ty v d y -> d_has_value x = true -> d_has_value y = true -> x = y).
  { intros ty v d x y A B X Y. destruct x, y; cbn in *. inversion A; subst; inversion B; subst; cbn in *; try congruence.
    assert (d_i = d_i0) by (eapply low_int_one; eauto). congruence. }
  assert (TR : forall k v d d1 u1 n1 d2 u2 n2, treats infos k v d d1 u1 n1 -> treats infos k v d d2 u2 n2 -> d1 = d2 /\ u1 = u2 /\ n1 = n2).
  { intros k v d d1 u1 n1 d2 u2 n2 A B. inversion A; subst; inversion B; subst; auto;
      try (exfalso; match goal with N : ~ In _ _, C : column_of _ _ _ _ |- _ => apply N; eapply IN; exact C end);
      match goal with C : column_of _ _ _ _, D : column_of _ _ _ _ |- _ => destruct (CO _ _ _ _ _ C D); subst end; auto;
      try (exfalso; match goal with N : JNull = JNull -> _ |- _ => specialize (N eq_refl); congruence end).
    split; auto.
    match goal with C : changed _ _ _ _, D : changed _ _ _ _ |- _ => destruct C as (L1 & O1 & a1 & b1 & E1 & F1 & G1 & V1), D as (L2 & O2 & a2 & b2 & E2 & F2 & G2 & V2) end.
    assert (a1 = a2) by congruence. subst a2. assert (b1 = b2) by (eapply ST; eauto). subst b2.
    apply EX. intros n. destruct (Nat.eq_dec n i0) as [->|Ne]; [congruence|]. rewrite O1, O2; auto. }
  assert (TC : forall k v d d1 u1 n1 e, treats infos k v d d1 u1 n1 -> complains infos k v e -> False).
  { intros k v d d1 u1 n1 e A B. inversion A; subst; inversion B; subst;
      try (match goal with N : ~ In _ _, C : column_of _ _ _ _ |- _ => apply N; eapply IN; exact C end);
      match goal with C : column_of _ _ _ _, D : column_of _ _ _ _ |- _ => destruct (CO _ _ _ _ _ C D); subst end; try congruence;
      match goal with C : changed _ _ _ _ |- _ => destruct C as (_ & _ & ? & ? & _ & _ & HS & _) end; inversion HS; subst; congruence. }
  assert (TU : forall k v d d1 u1 n1, treats infos k v d d1 u1 n1 -> undefined_for infos asked k v -> False).
  { intros k v d d1 u1 n1 A B. inversion A; subst; inversion B; subst;
      try (match goal with N : ~ In _ _, C : column_of _ _ _ _ |- _ => apply N; eapply IN; exact C end);
      match goal with C : column_of _ _ _ _, D : column_of _ _ _ _ |- _ => destruct (CO _ _ _ _ _ C D); subst end; try congruence;
      match goal with C : changed _ _ _ _ |- _ => destruct C as (_ & _ & ? & ? & _ & _ & HS & _) end; inversion HS; subst; congruence. }
  intros l data r r' U. revert r'. induction U as [data|k v l data data' u n r T U IH|k v l data e C N|k v l data N]; intros r' U'.
  - inversion U'. auto.
  - inversion U' as [|? ? ? ? d2 u2 n2 r2 T2 U2|? ? ? ? e2 C2 N2|? ? ? ? N2]; subst; [|exfalso; eauto|exfalso; eauto].
    destruct (TR _ _ _ _ _ _ _ _ _ T T2) as (<- & <- & <-). f_equal. auto.
  - inversion U' as [|? ? ? ? d2 u2 n2 r2 T2 U2|? ? ? ? e2 C2 N2|? ? ? ? N2]; subst; [exfalso; eauto| |exfalso; eauto].
    assert (e = e2); [|congruence]. inversion C; subst; inversion C2; subst; auto;
      match goal with C : column_of _ _ _ _, D : column_of _ _ _ _ |- _ => destruct (CO _ _ _ _ _ C D); subst end; congruence.
  - inversion U' as [|? ? ? ? d2 u2 n2 r2 T2 U2|? ? ? ? e2 C2 N2|? ? ? ? N2]; subst; auto; exfalso; eauto.
Qed.

(** Stale data, an integer beyond int, a null that is dropped, a complaint about a blob, an
    unknown column *)
Definition stale : bind_data := BindData 1 2 (Some [120; 0]) 3 true true.
Example C45_exact_example :
  let infos := [column 97 T_INT false; column 98 T_TEXT true; column 97 T_TEXT false; column 99 T_BLOB false] in
  let data := [stale; zero_data; zero_data; zero_data] in
  (uses infos true [([97], JI64 (2 ^ 32 + 7)); ([98], JNull); ([122], JBool true); ([99], JI64 5); ([97], JNull)] data
    (Used [BindData 7 2 (Some [120; 0]) 3 true true; zero_data; zero_data; zero_data] [[97]] [[122]] [said "'c' should be blob and is not supported yet"])) /\
  match bind_data_from_json byval_str_mk (object_with [([97], NI64 (2 ^ 32 + 7)); ([98], NNull); ([122], NBool true)]) infos (Some data) (Some 0%nat) (Some None) (Some None) (Some None) with
  | Ok (rc, h, data', u, n, e) => data' = Some [BindData 7 2 (Some [120; 0]) 3 true true; zero_data; zero_data; zero_data] /\
      texts h u = [NStr [97]] /\ texts h n = [NStr [122]] /\ texts h e = []
  | Bad _ => False
  end.
Proof.
  cbv zeta. split; [|vm_compute; auto].
  assert (C97 : column_of [column 97 T_INT false; column 98 T_TEXT true; column 97 T_TEXT false; column 99 T_BLOB false] [97] 0 (column 97 T_INT false)).
  { split; auto. split; auto. intros; lia. }
  assert (C98 : column_of [column 97 T_INT false; column 98 T_TEXT true; column 97 T_TEXT false; column 99 T_BLOB false] [98] 1 (column 98 T_TEXT true)).
  { split; auto. split; auto. intros [|j] x L E; [injection E as <-; discriminate|lia]. }
  assert (C99 : column_of [column 97 T_INT false; column 98 T_TEXT true; column 97 T_TEXT false; column 99 T_BLOB false] [99] 3 (column 99 T_BLOB false)).
  { split; auto. split; auto. intros [|[|[|j]]] x L E; try (injection E as <-; discriminate); lia. }
  match goal with |- uses ?i ?b ?l ?d (Used ?d' ?u ?n ?e) =>
    change (Used d' u n e) with (before [[97]] [] (before [] [] (before [] [[122]] (Used d' [] [] e)))) end.
  apply uses_next with (data' := [BindData 7 2 (Some [120; 0]) 3 true true; zero_data; zero_data; zero_data]).
  { eapply treats_used; [exact C97|discriminate|]. split; [reflexivity|]. split; [intros [|j] Ne; [congruence|reflexivity]|].
    exists stale, (BindData 7 2 (Some [120; 0]) 3 true true). split; auto. split; auto. split; auto. apply set_int; auto. split; [cbn; lia|exists 1; reflexivity]. }
  eapply uses_next; [eapply treats_dropped; [exact C98|reflexivity]|].
  eapply uses_next; [apply treats_unknown; cbn; intuition discriminate|].
  apply uses_error; [eapply complains_blob; [exact C99|reflexivity|discriminate]|].
  intros U. inversion U as [? ? i x C T|? ? i x C T Nv A|? ? i x C T]; subst; [|discriminate|];
    destruct C as (N & E & F); destruct i as [|[|[|[|i]]]]; try (injection N as <-; discriminate); destruct i; discriminate.
Qed.

Print Assumptions C45_exact.
Print Assumptions C45_exact_one.
