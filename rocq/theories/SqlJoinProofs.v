(** Lemmas about joining. *)
From Coq Require Import ZArith List Bool Lia Arith.
From Verif Require Import Base ArrayLemmas TsearchModel MapModel MapProofs ListModel ListProofs Json JsonHeapModel JsonHeapSpec JsonHeapProofs
  JsonFrame JsonMergeProofs JsonFieldProofs JsonSelectModel SqlModel SqlSpec SqlProofs SqlSelectModel SqlSelectSpec SqlSelectProofs SqlJsonModel SqlJoinModel SqlJoinSpec.
From Verif Require JsonSpec JsonMergeAllProofs SqlJsonProofs SqlInsertProofs.
Import ListNotations.
Open Scope Z_scope.
Local Arguments Z.add : simpl never.
Local Arguments Z.of_nat : simpl never.
Local Arguments Z.to_nat : simpl never.

(** * Going through a list with a callback that may stop *)
Lemma iterate_stops {A T} (l : clist A) xs (f : T -> A -> Z -> outcome (T * Z)) (Inv : list A -> T -> Prop) (End : list A -> A -> T -> Prop) s fuel :
  rep l xs -> (length xs < fuel)%nat ->
  (forall done x rest s, xs = done ++ x :: rest -> Inv done s -> exists s' r, f s x (Z.of_nat (length done)) = Ok (s', r) /\
     (r = 0 -> Inv (done ++ [x]) s') /\ (r <> 0 -> End done x s')) ->
  Inv [] s -> exists s' ret, list_iterate (fun _ => l) f fuel false s = Ok (s', ret) /\
    (Inv xs s' \/ exists done x rest, xs = done ++ x :: rest /\ End done x s').
Proof.
  intros R Lf St I0. unfold list_iterate.
  assert (G : forall todo done fuel s ret, xs = done ++ todo -> (length todo < fuel)%nat -> Inv done s ->
    exists s' ret', iterate_from A T (fun _ => l) f fuel s (Z.of_nat (length done)) ret = Ok (s', ret') /\
      (Inv xs s' \/ exists done x rest, xs = done ++ x :: rest /\ End done x s')).
  { clear Lf I0. pose proof R as (R1 & _). induction todo as [|x todo IH]; intros done [|fl] s1 ret E L I1; try (cbn [length] in L; lia); cbn [iterate_from]; rewrite R1, E, app_length.
    - cbn [length]. replace (Z.of_nat (length done) <? Z.of_nat (length done + 0)) with false by (symmetry; apply Z.ltb_ge; lia).
      exists s1, ret. rewrite app_nil_r. auto.
    - cbn [length]. replace (Z.of_nat (length done) <? Z.of_nat (length done + S (length todo))) with true by (symmetry; apply Z.ltb_lt; lia).
      rewrite (rep_read l xs _ x R); [|rewrite Nat2Z.id, E, nth_error_app2, Nat.sub_diag by lia; auto|lia]. cbn [bind].
      destruct (St done x todo s1 E I1) as (s2 & r & Ef & I2 & E2). rewrite Ef. cbn [bind]. destruct (Z.eqb_spec r 0) as [->|Nr].
      + destruct (IH (done ++ [x]) fl s2 (Some 0)) as (s3 & ret3 & E3 & I3); [rewrite <- app_assoc; auto|cbn [length] in L; lia|auto|].
        rewrite app_length in E3. cbn [length] in E3. replace (Z.of_nat (length done + 1)) with (Z.of_nat (length done) + 1) in E3 by lia.
        exists s3, ret3. split; [exact E3|]. rewrite <- E. exact I3.
      + exists s2, (Some r). split; [auto|]. right. exists done, x, todo. auto. }
  destruct (G xs [] fuel s None eq_refl Lf I0) as (s' & ret & E & I'). exists s', ret. auto.
Qed.

(** * Entries that differ in their values only *)
Definition same_item (d d' : bind_data) : Prop := d_has_value d' = d_has_value d /\ d_size d' = d_size d /\ d_is_null d' = d_is_null d /\ d_i64 d' = d_i64 d.
Definition same_entry (i i' : bind_info) : Prop := i = with_data i' (i_data i) /\ same_item (i_data i) (i_data i').
Definition same_data (data data' : option (list bind_data)) : Prop :=
  match data, data' with None, None => True | Some l, Some l' => Forall2 same_item l l' | _, _ => False end.
Definition similar (infos infos' : list bind_info) (data data' : option (list bind_data)) : Prop := Forall2 same_entry infos infos' /\ same_data data data'.

Lemma same_item_refl d : same_item d d.
Proof. split; [auto|]. split; [auto|]. split; auto. Qed.
Lemma same_item_trans a b c : same_item a b -> same_item b c -> same_item a c.
Proof. intros (A1 & A2 & A3 & A4) (B1 & B2 & B3 & B4). split; [congruence|]. split; [congruence|]. split; congruence. Qed.
Lemma same_entry_refl i : same_entry i i.
Proof. split; [destruct i; auto|apply same_item_refl]. Qed.
Lemma same_entry_fields i i' : same_entry i i' -> i_var i' = i_var i /\ i_col i' = i_col i /\ i_type i' = i_type i /\ i_not_null i' = i_not_null i /\ i_no_return i' = i_no_return i /\ i_no_label i' = i_no_label i.
Proof. intros (E & _). destruct i, i'. cbn in E. injection E as -> -> -> -> -> -> ->. cbn. auto 8. Qed.
Lemma same_entry_trans a b c : same_entry a b -> same_entry b c -> same_entry a c.
Proof.
  intros (E1 & S1) (E2 & S2). split; [|eapply same_item_trans; eauto]. destruct a, b, c. cbn in *. injection E1 as -> -> -> -> -> -> ->. injection E2 as -> -> -> -> -> -> ->. auto.
Qed.
Lemma forall2_refl {A} (R : A -> A -> Prop) l : (forall x, R x x) -> Forall2 R l l.
Proof. intros H. induction l; constructor; auto. Qed.
Lemma forall2_trans {A} (R : A -> A -> Prop) : (forall x y z, R x y -> R y z -> R x z) -> forall l1 l2 l3, Forall2 R l1 l2 -> Forall2 R l2 l3 -> Forall2 R l1 l3.
Proof. intros T l1 l2 l3 F. revert l3. induction F; intros l3 G; inversion G; subst; constructor; eauto. Qed.
Lemma similar_refl infos data : similar infos infos data data.
Proof. split; [apply forall2_refl, same_entry_refl|]. destruct data; [apply forall2_refl, same_item_refl|exact I]. Qed.
Lemma similar_trans i1 i2 i3 d1 d2 d3 : similar i1 i2 d1 d2 -> similar i2 i3 d2 d3 -> similar i1 i3 d1 d3.
Proof.
  intros (A1 & B1) (A2 & B2). split; [eapply forall2_trans; eauto; apply same_entry_trans|]. destruct d1, d2, d3; try contradiction; [|exact I]. cbn in *. eapply forall2_trans; eauto. apply same_item_trans.
Qed.
Lemma forall2_nth_l {A B} (R : A -> B -> Prop) l l' : Forall2 R l l' -> forall n x, nth_error l n = Some x -> exists y, nth_error l' n = Some y /\ R x y.
Proof. induction 1 as [|x y l l' H F IH]; intros [|n] z E; cbn in E |- *; try discriminate; [injection E as <-; eauto|eauto]. Qed.
Lemma forall2_nth_r {A B} (R : A -> B -> Prop) l l' : Forall2 R l l' -> forall n y, nth_error l' n = Some y -> exists x, nth_error l n = Some x /\ R x y.
Proof. induction 1 as [|x y l l' H F IH]; intros [|n] z E; cbn in E |- *; try discriminate; [injection E as <-; eauto|eauto]. Qed.
Lemma forall2_update {A} (R : A -> A -> Prop) l : forall n x, (forall x, R x x) -> (forall y, nth_error l n = Some y -> R y x) -> Forall2 R l (update l n x).
Proof.
  induction l as [|y l IH]; intros [|n] x Rf H; cbn [update]; try constructor; auto; try (apply forall2_refl; auto).
Qed.
Lemma similar_var infos infos' data data' : similar infos infos' data data' -> map i_var infos' = map i_var infos.
Proof. intros (F & _). induction F as [|i i' l l' H F IH]; cbn [map]; [auto|]. apply same_entry_fields in H as (-> & _). congruence. Qed.
Lemma similar_len infos infos' data data' : similar infos infos' data data' -> length infos' = length infos.
Proof. intros (F & _). symmetry. apply (forall2_len F). Qed.
Lemma similar_covers infos infos' data data' n : similar infos infos' data data' -> covers data n -> covers data' n.
Proof. intros (_ & D). destruct data, data'; cbn in *; try contradiction; auto. rewrite <- (forall2_len D). auto. Qed.
Lemma similar_given infos infos' data data' j : similar infos infos' data data' ->
  match given data j, given data' j with Some d, Some d' => same_item d d' | None, None => True | _, _ => False end.
Proof.
  intros (_ & D). destruct data as [l|], data' as [l'|]; cbn [given same_data] in *; try contradiction; auto.
  destruct (nth_error l j) as [d|] eqn:E.
  - destruct (forall2_nth_l _ _ _ D j d E) as (d' & -> & S). auto.
  - destruct (nth_error l' j) as [d'|] eqn:E'; [|auto]. destruct (forall2_nth_r _ _ _ D j d' E') as (d & X & _). congruence.
Qed.
Lemma similar_source infos infos' data data' j info info' : similar infos infos' data data' -> same_entry info info' ->
  match source info (given data j), source info' (given data' j) with Some d, Some d' => same_item d d' | None, None => True | _, _ => False end.
Proof.
  intros S (_ & Si). pose proof (similar_given _ _ _ _ j S) as G. unfold source.
  assert (Own : match (if d_has_value (i_data info) then Some (i_data info) else None), (if d_has_value (i_data info') then Some (i_data info') else None) with
    Some d, Some d' => same_item d d' | None, None => True | _, _ => False end).
  { pose proof Si as (-> & _). destruct (d_has_value (i_data info)); auto. }
  destruct (given data j) as [d|], (given data' j) as [d'|]; try contradiction; [|exact Own].
  pose proof G as (-> & _). destruct (d_has_value d); auto.
Qed.
Lemma similar_entry_for infos infos' name : Forall2 same_entry infos infos' ->
  match entry_for (Some infos) name, entry_for (Some infos') name with Some i, Some i' => same_entry i i' | None, None => True | _, _ => False end.
Proof.
  cbn [entry_for]. induction 1 as [|i i' l l' H F IH]; cbn [find]; [auto|]. pose proof (same_entry_fields _ _ H) as (_ & -> & _). destruct (list_eq_dec Z.eq_dec (i_col i) name); auto.
Qed.
Lemma similar_returned infos infos' name : Forall2 same_entry infos infos' -> returned (Some infos') name = returned (Some infos) name.
Proof.
  intros F. unfold returned. pose proof (similar_entry_for _ _ name F) as H. destruct (entry_for (Some infos) name), (entry_for (Some infos') name); try contradiction; auto.
  apply same_entry_fields in H as (_ & _ & _ & _ & -> & _). auto.
Qed.
Lemma similar_labelled infos infos' name : Forall2 same_entry infos infos' -> labelled (Some infos') name = labelled (Some infos) name.
Proof.
  intros F. unfold labelled. pose proof (similar_entry_for _ _ name F) as H. destruct (entry_for (Some infos) name), (entry_for (Some infos') name); try contradiction; auto.
  apply same_entry_fields in H as (_ & _ & _ & _ & _ & ->). auto.
Qed.
Lemma similar_row infos infos' names vs : Forall2 same_entry infos infos' -> row_value (Some infos') names vs = row_value (Some infos) names vs.
Proof.
  intros F. unfold row_value.
  assert (E : filter (fun nv => returned (Some infos') (fst nv)) (combine names vs) = filter (fun nv => returned (Some infos) (fst nv)) (combine names vs)).
  { apply filter_ext. intros a. apply similar_returned; auto. }
  rewrite E. clear E. destruct names as [|n [|n2 names]]; [auto| |auto]. set (fl := filter _ _). destruct fl as [|(m, v) [|q r]]; [auto| |auto]. rewrite (similar_labelled infos infos' m F). auto.
Qed.
Lemma similar_rows infos infos' names rows : Forall2 same_entry infos infos' -> rows_value (Some infos') names rows = rows_value (Some infos) names rows.
Proof. intros F. unfold rows_value. apply map_ext. intros r. apply similar_row; auto. Qed.

Lemma nth_error_ext_skip {A} (l' l : list A) : forall n, length l' = length l -> (forall j, (n <= j)%nat -> nth_error l' j = nth_error l j) -> skipn n l' = skipn n l.
Proof.
  revert l. induction l' as [|x l' IH]; intros [|y l] n L H; cbn [length] in L; try lia; [auto|]. destruct n as [|n]; cbn [skipn].
  - pose proof (H 0%nat ltac:(lia)) as E. cbn in E. injection E as ->. f_equal. apply (IH l 0%nat); [lia|]. intros j _. apply (H (S j) ltac:(lia)).
  - apply IH; [lia|]. intros j Lj. apply (H (S j) ltac:(lia)).
Qed.

Ltac leaf H := match type of H with holds ?h ?j ?a =>
  let n := eval cbn [leaf_node] in (leaf_node j) in match n with Some ?n => apply (holds_leaf h j a n eq_refl) in H end end.

(** * Filling in the values *)
Section Fill.
Variable msg_missing : text -> text -> text.
Variable msg_kind : text -> node -> text.
Notation fill_items := (fill_items msg_missing msg_kind).

Definition filled (obj : list (text * json)) (info : bind_info) (d : bind_data) : Prop :=
  match lookup (i_col info) obj with
  | Some (JI64 z) => d_i d = to_int32 z
  | Some (JStr s) => d_value d = Some (with_nul s)
  | _ => False
  end.
Definition same_below (i : nat) (infos infos' : list bind_info) (data data' : option (list bind_data)) : Prop :=
  forall j, (j < i)%nat -> nth_error infos' j = nth_error infos j /\ given data' j = given data j.

Lemma item_ok info infos data i : nth_error infos i = Some info -> covers data (length infos) ->
  exists r, item_at info data i = Ok r /\ match r with
    | None => source info (given data i) = None
    | Some (d, in_data) => source info (given data i) = Some d /\
        forall d', same_item d d' -> exists infos' data', put_item infos data i info in_data d' = (infos', data') /\ similar infos infos' data data' /\
          (forall j, j <> i -> nth_error infos' j = nth_error infos j /\ given data' j = given data j) /\
          exists info', nth_error infos' i = Some info' /\ same_entry info info' /\ source info' (given data' i) = Some d'
    end.
Proof.
  intros E C. assert (Li : (i < length infos)%nat) by (apply nth_error_Some; congruence).
  assert (Own : forall d0, d_has_value (i_data info) = true -> given data i = d0 -> (forall d, d0 = Some d -> d_has_value d = false) ->
    source info d0 = Some (i_data info) /\ forall d', same_item (i_data info) d' -> exists infos' data', put_item infos data i info false d' = (infos', data') /\ similar infos infos' data data' /\
          (forall j, j <> i -> nth_error infos' j = nth_error infos j /\ given data' j = given data j) /\
          exists info', nth_error infos' i = Some info' /\ same_entry info info' /\ source info' (given data' i) = Some d').
  { intros d0 Ho Eg Hd. split.
    - unfold source. rewrite Ho. destruct d0 as [d|]; [rewrite (Hd d eq_refl)|]; auto.
    - intros d' Si. unfold put_item. do 2 eexists. split; [reflexivity|].
      assert (Se : same_entry info (with_data info d')) by (split; [destruct info; reflexivity|exact Si]).
      split; [split; [apply forall2_update; [apply same_entry_refl|intros y Ey; rewrite E in Ey; injection Ey as <-; exact Se]|apply similar_refl; exact infos]|].
      split; [intros j Nj; split; [apply nth_error_update_neq; auto|auto]|]. exists (with_data info d'). split; [apply nth_error_update_eq; auto|]. split; [exact Se|].
      rewrite Eg. unfold source. cbn [with_data i_data]. destruct Si as (-> & _). rewrite Ho. destruct d0 as [d|]; [rewrite (Hd d eq_refl)|]; auto. }
  unfold item_at. destruct data as [l|]; cbn [data_at given].
  - cbn [covers] in C. destruct (nth_error l i) as [d|] eqn:El; [|apply nth_error_None in El; lia]. cbn [of_option bind].
    destruct (d_has_value d) eqn:Hd.
    + eexists. split; [reflexivity|]. cbn beta iota. split; [unfold source; rewrite Hd; auto|]. intros d' Si. unfold put_item. cbn [data_put]. do 2 eexists. split; [reflexivity|].
      split; [split; [apply forall2_refl, same_entry_refl|apply forall2_update; [apply same_item_refl|intros y Ey; rewrite El in Ey; injection Ey as <-; exact Si]]|].
      split; [intros j Nj; split; [auto|apply nth_error_update_neq; auto]|]. exists info. split; [auto|]. split; [apply same_entry_refl|].
      cbn [given]. rewrite nth_error_update_eq by lia. unfold source. destruct Si as (-> & _). rewrite Hd. auto.
    + eexists. split; [reflexivity|]. destruct (d_has_value (i_data info)) eqn:Ho.
      * cbn beta iota. specialize (Own (Some d) eq_refl El). apply Own. intros d1 Q. injection Q as <-. exact Hd.
      * cbn beta iota. unfold source. rewrite Hd, Ho. auto.
  - cbn [bind]. eexists. split; [reflexivity|]. destruct (d_has_value (i_data info)) eqn:Ho.
    + cbn beta iota. apply (Own None eq_refl eq_refl). discriminate.
    + cbn beta iota. unfold source. rewrite Ho. auto.
Qed.

Lemma fill_ok h a obj : holds h (JObj obj) a -> forall todo i infos data, skipn i infos = todo -> covers data (length infos) ->
  exists infos' data' stop, fill_items h (Some a) todo i infos data = Ok (infos', data', stop) /\ similar infos infos' data data' /\ same_below i infos infos' data data' /\
    match stop with
    | None => forall j info d, (i <= j)%nat -> nth_error infos' j = Some info -> source info (given data' j) = Some d -> filled obj info d
    | Some msg => exists j info d, nth_error infos j = Some info /\ source info (given data j) = Some d /\ complains msg_missing msg_kind obj info msg
    end.
Proof.
  intros H. induction todo as [|info todo IH]; intros i infos data E C; cbn [SqlJoinModel.fill_items].
  - exists infos, data, None. split; [auto|]. split; [apply similar_refl|]. split; [split; auto|]. intros j info d Lj Ej _. exfalso.
    assert (Lt : (j < length infos)%nat) by (apply nth_error_Some; congruence). apply (f_equal (@length _)) in E. rewrite skipn_length in E. cbn in E. lia.
  - assert (Ei : nth_error infos i = Some info /\ skipn (S i) infos = todo).
    { clear - E. revert i E. induction infos as [|x infos IH]; intros [|i] E; cbn in E |- *; try discriminate; [injection E as -> ->; auto|]. apply IH. auto. }
    destruct Ei as (Ei & Es). assert (Li : (i < length infos)%nat) by (apply nth_error_Some; congruence).
    destruct (item_ok info infos data i Ei C) as (r & Er & Q). rewrite Er. cbn [bind]. destruct r as [(d, in_data)|].
    + destruct Q as (Sd & Put). destruct (object_get_ok h obj a (i_col info) H) as (v & Ev & Qv). rewrite Ev. cbn [bind].
      assert (Go : forall d', same_item d d' -> filled obj info d' ->
        exists infos' data' stop, (let (infos, data) := put_item infos data i info in_data d' in fill_items h (Some a) todo (S i) infos data) = Ok (infos', data', stop) /\
          similar infos infos' data data' /\ same_below i infos infos' data data' /\
          match stop with
          | None => forall j info d, (i <= j)%nat -> nth_error infos' j = Some info -> source info (given data' j) = Some d -> filled obj info d
          | Some msg => exists j info d, nth_error infos j = Some info /\ source info (given data j) = Some d /\ complains msg_missing msg_kind obj info msg
          end).
      { intros d' Si Fd. destruct (Put d' Si) as (infos1 & data1 & Ep & Sm & Ot & info1 & E1 & Se & S1). rewrite Ep.
        assert (Es1 : skipn (S i) infos1 = todo).
        { rewrite <- Es. pose proof (similar_len _ _ _ _ Sm) as Ll. clear - Ot Ll. apply nth_error_ext_skip with (1 := Ll). intros j Lj. apply (proj1 (Ot j ltac:(lia))). }
        destruct (IH (S i) infos1 data1 Es1) as (infos2 & data2 & stop & E2 & Sm2 & Sb2 & Q2).
        { rewrite (similar_len _ _ _ _ Sm). eapply similar_covers; eauto. }
        exists infos2, data2, stop. split; [exact E2|]. split; [eapply similar_trans; eauto|].
        split; [intros j Lj; destruct (Sb2 j ltac:(lia)) as (-> & ->); apply Ot; lia|]. destruct stop as [msg|].
        - destruct Q2 as (j & info2 & d2 & Ej & Sj & Cm). destruct (Nat.eq_dec j i) as [->|Nj].
          + rewrite E1 in Ej. injection Ej as <-. exists i, info, d. split; [auto|]. split; [auto|]. unfold complains in *. pose proof (same_entry_fields _ _ Se) as (V & Cc & _). rewrite V, Cc in Cm. exact Cm.
          + destruct (Ot j Nj) as (O1 & O2). rewrite O1 in Ej. rewrite O2 in Sj. exists j, info2, d2. auto.
        - intros j infoj dj Lj Ej Sj. destruct (Nat.eq_dec j i) as [->|Nj]; [|apply (Q2 j); auto; lia].
          destruct (Sb2 i ltac:(lia)) as (Y1 & Y2). rewrite Y1 in Ej. rewrite Y2 in Sj. rewrite E1 in Ej. injection Ej as <-. rewrite S1 in Sj. injection Sj as <-.
          unfold filled in *. pose proof (same_entry_fields _ _ Se) as (_ & -> & _). exact Fd. }
      destruct (lookup (i_col info) obj) as [x|] eqn:El.
      * destruct Qv as (y & -> & Hy). cbn [load].
        assert (Stop : forall n, nth_error h y = Some n -> match x with JI64 _ | JStr _ => False | _ => True end ->
          exists infos' data' stop, Ok (infos, data, Some (msg_kind (i_col info) n)) = Ok (infos', data', stop) /\
          similar infos infos' data data' /\ same_below i infos infos' data data' /\
          match stop with
          | None => forall j info d, (i <= j)%nat -> nth_error infos' j = Some info -> source info (given data' j) = Some d -> filled obj info d
          | Some msg => exists j info d, nth_error infos j = Some info /\ source info (given data j) = Some d /\ complains msg_missing msg_kind obj info msg
          end).
        { intros n En Nx. exists infos, data, (Some (msg_kind (i_col info) n)). split; [auto|]. split; [apply similar_refl|]. split; [split; auto|].
          exists i, info, d. split; [auto|]. split; [auto|]. unfold complains. rewrite El. destruct x; try contradiction; eauto. }
        destruct x; try (leaf Hy; rewrite Hy; cbn [of_option bind]; apply (Stop _ Hy I)).
        -- leaf Hy. rewrite Hy. cbn [of_option bind]. apply Go; [repeat split|]. unfold filled. rewrite El. reflexivity.
        -- leaf Hy. rewrite Hy. cbn [of_option bind]. apply Go; [repeat split|]. unfold filled. rewrite El. reflexivity.
        -- apply holds_arr in Hy as (? & ? & En & _). rewrite En. cbn [of_option bind]. apply (Stop _ En I).
        -- apply holds_obj in Hy as (? & ? & En & _). rewrite En. cbn [of_option bind]. apply (Stop _ En I).
      * subst v. exists infos, data, (Some (msg_missing (i_col info) (i_var info))). split; [auto|]. split; [apply similar_refl|]. split; [split; auto|].
        exists i, info, d. split; [auto|]. split; [auto|]. unfold complains. rewrite El. auto.
    + destruct (IH (S i) infos data Es C) as (infos2 & data2 & stop & E2 & Sm2 & Sb2 & Q2). exists infos2, data2, stop. split; [exact E2|]. split; [auto|].
      split; [intros j Lj; apply Sb2; lia|]. destruct stop as [msg|]; [exact Q2|]. intros j infoj dj Lj Ej Sj. destruct (Nat.eq_dec j i) as [->|Nj]; [|apply (Q2 j); auto; lia].
      destruct (Sb2 i ltac:(lia)) as (Y1 & Y2). rewrite Y1, Ei in Ej. injection Ej as <-. rewrite Y2 in Sj. congruence.
Qed.
End Fill.

(** * Binding the values *)
Section Bind.
Variable limit : Z.


Lemma similar_at infos infos' data data' j info d : similar infos infos' data data' -> nth_error infos j = Some info -> source info (given data j) = Some d ->
  exists info' d', nth_error infos' j = Some info' /\ source info' (given data' j) = Some d' /\ same_entry info info' /\ same_item d d'.
Proof.
  intros Sm E Sd. destruct (forall2_nth_l _ _ _ (proj1 Sm) j info E) as (info' & E' & Se). pose proof (similar_source _ _ _ _ j info info' Sm Se) as Q. rewrite Sd in Q.
  destruct (source info' (given data' j)) as [d'|] eqn:S'; [|contradiction]. exists info', d'. auto.
Qed.
Lemma similar_back infos infos' data data' j info' d' : similar infos infos' data data' -> nth_error infos' j = Some info' -> source info' (given data' j) = Some d' ->
  exists info d, nth_error infos j = Some info /\ source info (given data j) = Some d /\ same_entry info info' /\ same_item d d'.
Proof.
  intros Sm E Sd. destruct (forall2_nth_r _ _ _ (proj1 Sm) j info' E) as (info & E' & Se). pose proof (similar_source _ _ _ _ j info info' Sm Se) as Q. rewrite Sd in Q.
  destruct (source info (given data j)) as [d|] eqn:S'; [|contradiction]. exists info, d. auto.
Qed.
Lemma similar_replaced infos infos' data data' info : similar infos infos' data data' -> replaced infos data info -> exists info', replaced infos' data' info' /\ same_entry info info'.
Proof. intros Sm (j & d & E & Sd). destruct (similar_at _ _ _ _ _ _ _ Sm E Sd) as (info' & d' & E' & Sd' & Se & _). exists info'. split; [exists j, d'; auto|auto]. Qed.
Lemma similar_unreplaced infos infos' data data' info' : similar infos infos' data data' -> replaced infos' data' info' -> exists info, replaced infos data info /\ same_entry info info'.
Proof. intros Sm (j & d & E & Sd). destruct (similar_back _ _ _ _ _ _ _ Sm E Sd) as (info & d' & E' & Sd' & Se & _). exists info. split; [exists j, d'; auto|auto]. Qed.
Lemma similar_used info info' d d' : same_entry info info' -> same_item d d' -> used info' d' <-> used info d.
Proof. intros Se (_ & _ & Hn & _). pose proof (same_entry_fields _ _ Se) as (_ & _ & _ & Hm & _). unfold used. rewrite Hn, Hm. tauto. Qed.
Lemma similar_sendable infos infos' data data' obj : similar infos infos' data data' -> sendable limit infos data obj -> sendable limit infos' data' obj.
Proof.
  intros Sm J j info' d' E Sd. destruct (similar_back _ _ _ _ _ _ _ Sm E Sd) as (info & d & E0 & Sd0 & Se & Si). destruct (J j info d E0 Sd0) as (x & Lx & Kx & Ux).
  pose proof (similar_used _ _ _ _ Se Si) as U. destruct Si as (_ & Hs & _).
  pose proof (same_entry_fields _ _ Se) as (_ & -> & Ty & _). exists x. split; [auto|]. split; [auto|]. intros Us. rewrite Ty, Hs. apply Ux, U, Us.
Qed.
Lemma similar_sent info info' d d' x v : same_entry info info' -> same_item d d' -> sent info' d' x v -> sent info d x v.
Proof.
  intros Se Si M. pose proof (similar_used _ _ _ _ Se Si) as U. destruct Si as (_ & Hs & Hn & H6). pose proof (same_entry_fields _ _ Se) as (_ & _ & Ty & Nn & _). destruct M.
  - constructor; congruence.
  - eapply sent_int; eauto; [apply U; auto|congruence].
  - rewrite H6. apply sent_kept; [apply U; auto|congruence].
  - apply sent_text; [apply U; auto|congruence|auto|congruence].
  - apply (sent_part _ _ _ s t rest); [apply U; auto|congruence|auto|auto|congruence|congruence].
Qed.
Lemma similar_fits DB (prepare : DB -> text -> Z * list (option text)) good infos infos' data data' sql : similar infos infos' data data' ->
  statement_fits DB prepare good infos data sql -> statement_fits DB prepare good infos' data' sql.
Proof.
  intros Sm (N & C & F). split; [rewrite (similar_var _ _ _ _ Sm); auto|]. split; [rewrite (similar_len _ _ _ _ Sm); eapply similar_covers; eauto|].
  intros db G. destruct (F db G) as (A & B & D). split; [auto|]. split; [auto|]. eapply Forall_impl; [|exact D]. intros p (info & R & ->).
  destruct (similar_replaced _ _ _ _ _ Sm R) as (info' & R' & Se). exists info'. split; [auto|]. pose proof (same_entry_fields _ _ Se) as (-> & _). auto.
Qed.
Lemma similar_finishes DB (exec : DB -> text -> list sqlv -> DB * list (list sqlv) * Z) (columns : DB -> text -> list text) good infos infos' data data' sql n : similar infos infos' data data' ->
  finishes DB exec columns good infos sql n -> finishes DB exec columns good infos' sql n.
Proof.
  intros Sm F db vals G. destruct (F db vals G) as (db' & rows & E & G' & A & B & C). exists db', rows. split; [auto|]. split; [auto|]. split; [auto|]. split; [auto|]. rewrite (similar_rows _ _ _ _ (proj1 Sm)). auto.
Qed.
Lemma similar_rows_sent DB (prepare : DB -> text -> Z * list (option text)) exec infos infos' data data' sql db obj rows db' : similar infos infos' data data' ->
  rows_sent DB prepare exec infos' data' sql db obj rows db' -> rows_sent DB prepare exec infos data sql db obj rows db'.
Proof.
  intros Sm (vals & E & F). exists vals. split; [auto|]. eapply SqlJsonProofs.forall2_impl; [|exact F]. intros p v (j & info' & d' & x & I & Sd & -> & Lx & M).
  destruct (similar_back _ _ _ _ _ _ _ Sm I Sd) as (info & d & I0 & Sd0 & Se & Si). pose proof (same_entry_fields _ _ Se) as (V & Cc & _). exists j, info, d, x. split; [auto|]. split; [auto|].
  split; [congruence|]. rewrite <- Cc. split; [auto|]. eapply similar_sent; eauto.
Qed.
Lemma similar_with_rows infos infos' data data' key obj names rows z : similar infos infos' data data' ->
  with_rows infos' key obj names rows z -> with_rows infos key obj names rows z.
Proof.
  intros Sm. unfold with_rows. destruct key as [k|]; [rewrite (similar_rows _ _ _ _ (proj1 Sm)); auto|]. destruct rows as [|r rows]; [auto|]. rewrite (similar_row _ _ _ _ (proj1 Sm)). auto.
Qed.

Lemma to_int32_small z : - 2 ^ 31 <= z < 2 ^ 31 -> to_int32 z = z.
Proof. apply to_int32_id. Qed.
Lemma before_first (s : text) : forall t rest rest', ~ In 0 s -> ~ In 0 t -> s ++ 0 :: rest = t ++ 0 :: rest' -> s = t.
Proof.
  induction s as [|c s IH]; intros [|c' t] rest rest' Ns Nt E; cbn [app] in E; [auto| | |].
  - injection E as <- _. exfalso. apply Nt. left. auto.
  - injection E as -> _. exfalso. apply Ns. left. auto.
  - injection E as -> E. f_equal. apply (IH t rest rest'); [intros I; apply Ns; right; auto|intros I; apply Nt; right; auto|auto].
Qed.
Lemma to_int32_mod z : - 2 ^ 31 <= to_int32 z < 2 ^ 31 /\ (to_int32 z - z) mod 2 ^ 32 = 0.
Proof.
  unfold to_int32. pose proof (Z.mod_pos_bound (z + 2 ^ 31) (2 ^ 32) ltac:(lia)). split; [lia|].
  rewrite (Z.mod_eq (z + 2 ^ 31)) by lia. replace (z + 2 ^ 31 - 2 ^ 32 * ((z + 2 ^ 31) / 2 ^ 32) - 2 ^ 31 - z) with (- ((z + 2 ^ 31) / 2 ^ 32) * 2 ^ 32) by lia. apply Z.mod_mul. lia.
Qed.
Lemma supplied_filled inserting obj info given d x : source info given = Some d -> lookup (i_col info) obj = Some x -> sendable_as limit info d x -> filled obj info d ->
  (exists v, supplied limit inserting info given v) /\ forall v, supplied limit inserting info given v -> sent info d x v.
Proof.
  intros Sd Lx (Kx & Ux) Fd. unfold filled in Fd. rewrite Lx in Fd.
  assert (D : used info d -> (exists v, denotes limit d (i_type info) v) /\ forall v, denotes limit d (i_type info) v -> sent info d x v).
  { intros U. specialize (Ux U). destruct (i_type info) eqn:Ty; try (destruct x; contradiction).
    - destruct x; try contradiction. destruct Ux as (N0 & Lm & Sz & Sl). split.
      + destruct (Z.eq_dec (d_size d) 0) as [Z0|Z0]; [eexists; apply (den_string limit d s []); auto|].
        exists (V_TEXT (firstn (Z.to_nat (d_size d)) (s ++ [0]))). apply (den_text limit d _ (skipn (Z.to_nat (d_size d)) (s ++ [0]))).
        * rewrite firstn_skipn. exact Fd.
        * rewrite firstn_length, app_length. cbn [length]. lia.
        * rewrite firstn_length, app_length. cbn [length]. lia.
      + intros v D. inversion D; subst.
        * congruence.
        * rewrite Fd in *. match goal with H : Some _ = Some _ |- _ => injection H as H end. unfold with_nul in *.
          match goal with H : s ++ [0] = ?t ++ 0 :: ?r |- _ => rewrite <- (before_first s t [] r N0 ltac:(auto) H) end. apply sent_text; auto.
        * rewrite Fd in *. match goal with H : Some _ = Some _ |- _ => injection H as H end. unfold with_nul in *. eapply sent_part; eauto. lia.
    - destruct x; try contradiction. split; [eexists; constructor|]. intros v D. inversion D; subst. rewrite Fd. eapply sent_int; eauto; apply to_int32_mod.
    - split; [eexists; constructor|]. intros v D. inversion D; subst. apply sent_kept; auto. }
  split.
  - destruct (d_is_null d) eqn:Nu; [destruct (i_not_null info) eqn:Nn|].
    + destruct (D (or_intror Nn)) as ((v & Dv) & _). exists v. apply (supplied_data limit _ info _ d v); auto.
    + exists V_NULL. eapply supplied_null; eauto.
    + destruct (D (or_introl Nu)) as ((v & Dv) & _). exists v. apply (supplied_data limit _ info _ d v); auto.
  - intros v Sp. destruct Sp as [d0 S0 Nu Nn|d0 v S0 U Dv|v S0 _ _ _]; rewrite Sd in S0; try discriminate; injection S0 as <-; [apply sent_null; auto|apply D; auto].
Qed.
Lemma var_once (infos : list bind_info) j j' info info' : NoDup (map i_var infos) -> nth_error infos j = Some info -> nth_error infos j' = Some info' -> i_var info = i_var info' -> j = j'.
Proof.
  intros N E E' V. apply (NoDup_nth_error (map i_var infos)); [auto|rewrite map_length; apply nth_error_Some; congruence|]. rewrite !nth_error_map, E, E'. cbn. congruence.
Qed.
Lemma bound_ok DB (prepare : DB -> text -> Z * list (option text)) good infos data sql obj db : (good db : Prop) -> statement_fits DB prepare good infos data sql -> sendable limit infos data obj ->
  (forall j info d, nth_error infos j = Some info -> source info (given data j) = Some d -> filled obj info d) ->
  can_run DB prepare limit (Some infos) data db sql /\
  forall vals, runs_with DB prepare limit (Some infos) data db sql vals ->
    Forall2 (fun p v => exists j info d x, nth_error infos j = Some info /\ source info (given data j) = Some d /\ p = Some (i_var info) /\ lookup (i_col info) obj = Some x /\ sent info d x v) (snd (prepare db sql)) vals.
Proof.
  intros G (N & C & F) J Fl. destruct (F db G) as (A & B & D).
  assert (One : forall j info, nth_error infos j = Some info -> In (Some (i_var info)) (snd (prepare db sql)) -> exists d x, source info (given data j) = Some d /\ lookup (i_col info) obj = Some x /\
    (exists v, supplied limit (is_insert sql) info (given data j) v) /\ forall v, supplied limit (is_insert sql) info (given data j) v -> sent info d x v).
  { intros j info E I. rewrite Forall_forall in D. destruct (D _ I) as (info0 & (j0 & d & E0 & Sd) & V). injection V as V. pose proof (var_once infos j j0 info info0 N E E0 V) as <-.
    rewrite E in E0. injection E0 as <-. destruct (J j info d E Sd) as (x & Lx & Ux).
    exists d, x. split; [auto|]. split; [auto|]. apply (supplied_filled _ obj); auto. apply (Fl j); auto. }
  split.
  - split; [auto|]. cbn zeta. split; [auto|]. split; [auto|]. split; [auto|]. split.
    + eapply Forall_impl; [|exact D]. intros p (info & (j & d & E & _) & ->). exists info. split; [eapply nth_error_In; eauto|auto].
    + intros j info E I. destruct (One j info E I) as (d & x & Sd & _ & Sv & _). exact Sv.
  - intros vals (Ln & Q). apply SqlInsertProofs.forall2_nth; [auto|]. intros k p Ep. destruct (Q k p Ep) as (j & info & v & E & -> & Ev & Sp). exists v. split; [auto|].
    destruct (One j info E (nth_error_In _ _ Ep)) as (d & x & Sd & Lx & _ & M). exists j, info, d, x. auto 10.
Qed.
End Bind.

(** * One object *)
Lemma in_mconts_put h k j b kjs : forall kas c, members h kjs kas -> In c (mconts h (put k j kjs) (put k b kas)) -> In c (mconts h kjs kas) \/ In c (containers h j b).
Proof.
  induction kjs as [|(k1, j1) kjs IH]; intros [|(k2, a2) kas] c F I; inversion F as [|? ? ? ? (E & _) F']; subst; cbn [put] in I.
  - rewrite mconts_cons in I. cbn [snd] in I. apply in_app_or in I as [I|I]; [auto|destruct I].
  - cbn [fst] in E. subst k2. rewrite mconts_cons. cbn [snd]. destruct (list_eq_dec Z.eq_dec k k1) as [<-|X]; rewrite mconts_cons in I; cbn [snd] in I; apply in_app_or in I as [I|I].
    + auto.
    + left. apply in_or_app. auto.
    + left. apply in_or_app. auto.
    + destruct (IH kas c F' I) as [Q|Q]; [left; apply in_or_app; auto|auto].
Qed.
Lemma old_containers h j a : holds h j a -> forall c, In c (containers h j a) -> (c < length h)%nat.
Proof. intros H c I. destruct (container_node h (size j) j a c (le_n _) H I) as (nd & E & _). apply nth_error_Some. congruence. Qed.
Lemma kept_below h h1 : (forall c, (c < length h)%nat -> nth_error h1 c = nth_error h c) -> leaves_kept h h1.
Proof. intros O c n E _. rewrite O; [auto|]. apply nth_error_Some. congruence. Qed.
(** The object at [a] has become [z]; nothing else has changed. *)
Definition becomes_at (h h' : heap) (obj : list (text * json)) (a : nat) (z : json) : Prop :=
  (length h <= length h')%nat /\ holds h' z a /\
  (forall c, (c < length h)%nat -> ~ In c (containers h (JObj obj) a) -> nth_error h' c = nth_error h c) /\
  (forall c, In c (containers h' z a) -> In c (containers h (JObj obj) a) \/ (length h <= c)%nat) /\ leaves_kept h h'.

Lemma set_member_ok h h1 obj a k j x : holds h (JObj obj) a -> NoDup (containers h (JObj obj) a) -> (length h <= length h1)%nat ->
  (forall c, (c < length h)%nat -> nth_error h1 c = nth_error h c) -> holds h1 j x -> all_new h h1 j x -> Z.of_nat (length obj) <= 2 ^ 64 ->
  exists h2, add_field byval_str_mk h1 a k (Some x) = Ok h2 /\ becomes_at h h2 obj a (JObj (JsonSpec.with_member obj k j)) /\ length h2 = length h1 /\
    (forall c, c <> a -> nth_error h2 c = nth_error h1 c).
Proof.
  intros H N L O Hj Nw B. pose proof (kept_below h h1 O) as K. pose proof (old_containers h _ a H) as Lc.
  destruct (frame h h1 K (size (JObj obj)) (JObj obj) a (le_n _) H) as (H1 & Ec); [intros c I; apply O, Lc, I|].
  pose proof H1 as H1'. apply holds_obj in H1' as (m & kas & E & R & F). change (Forall2 _ obj kas) with (members h1 obj kas) in F.
  destruct (add_field_ok h1 a m kas k x E R) as (m' & Ea & R'); [rewrite <- (forall2_len F); auto|]. exists (store h1 a (NObj m')). split; [exact Ea|].
  rewrite <- Ec in N. rewrite (containers_obj h1 a m kas obj E R) in Ec, N. inversion N as [|? ? Na N']; subst.
  assert (La : (a < length h)%nat) by (apply Lc; rewrite <- Ec; left; auto).
  pose proof (store_leaves h1 a (NObj m') (NObj m) E eq_refl) as K2.
  destruct (frame_members h1 (store h1 a (NObj m')) obj kas K2 F) as (F2 & E2); [intros c I; apply store_other; intros ->; contradiction|].
  destruct (frame h1 (store h1 a (NObj m')) K2 (size j) j x (le_n _) Hj) as (Hj2 & E3).
  { intros c I. apply store_other. intros ->. apply Nw in I. lia. }
  assert (Nd : NoDup (map fst obj)) by (rewrite (members_fst F); eapply mrep_nodup; eauto).
  assert (Es : nth_error (store h1 a (NObj m')) a = Some (NObj m')) by (eapply store_same; eauto).
  split; [|split; [apply store_length|intros c Nc; apply store_other; auto]].
  rewrite (JsonMergeAllProofs.with_member_put obj k j Nd). split; [rewrite store_length; auto|]. split; [|split; [|split]].
  - apply holds_obj. exists m', (put k x kas). split; [exact Es|]. split; [exact R'|]. apply JsonMergeAllProofs.members_put; auto.
  - intros c Lc' Nc. rewrite store_other; [apply O; auto|]. intros ->. apply Nc. rewrite <- Ec. left. auto.
  - intros c I. rewrite (containers_obj _ a m' (put k x kas) _ Es R') in I. destruct I as [<-|I]; [left; rewrite <- Ec; left; auto|].
    apply (in_mconts_put _ k j x obj kas c F2) in I as [I|I]; [left; rewrite <- Ec; right; rewrite <- E2; auto|right; apply Nw; rewrite <- E3; auto].
  - intros c n En Ln. apply K2; [apply K|]; auto.
Qed.

Lemma object_of_keys l k : In k (map fst (object_of l)) -> In k (map fst l).
Proof.
  intros I. unfold object_of in I. apply in_map_iff in I as ((k', v) & <- & I). apply in_flat_map in I as (k2 & I & Q). rewrite <- in_rev, nodup_In, <- in_rev in I.
  destruct (lookup k2 (rev l)); [|destruct Q]. destruct Q as [Q|[]]. injection Q as -> ->. auto.
Qed.
Lemma row_keys infos names vs kjs k : row_value infos names vs = JObj kjs -> In k (map fst kjs) -> In k names.
Proof.
  intros E I. unfold row_value in E.
  assert (Cb : forall nv, In nv (filter (fun nv => returned infos (fst nv)) (combine names vs)) -> In (fst nv) names).
  { intros (n, v) Q. apply filter_In in Q as (Q & _). apply in_combine_l in Q. auto. }
  set (fl := filter _ _) in *.
  assert (Gen : JObj (object_of (map (fun nv => (fst nv, value_json (snd nv))) fl)) = JObj kjs -> In k names).
  { intros Q. injection Q as <-. apply object_of_keys in I. rewrite map_map in I. cbn [fst] in I. apply in_map_iff in I as (nv & <- & J). apply Cb; auto. }
  destruct names as [|n [|n2 names]]; auto. destruct fl as [|(m, v) [|q r]]; auto. destruct (labelled infos m).
  - injection E as <-. destruct I as [<-|[]]. apply (Cb (m, v)). left. auto.
  - destruct v; discriminate.
Qed.
Lemma merged_keys obj row z k : merged (JObj obj) row z -> exists kjs, z = JObj kjs /\ (lookup k kjs <> None -> lookup k obj <> None \/ exists s, row = JObj s /\ In k (map fst s)).
Proof.
  intros M. inversion M as [|d s r new Ek En Nn A B C]; subst. exists r. split; [auto|]. intros Lk. destruct (lookup k obj) as [x|] eqn:Eo; [left; discriminate|right].
  exists s. split; [auto|]. assert (Ik : In k (map fst r)).
  { clear - Lk. induction r as [|(k1, v1) r IH]; cbn [lookup] in Lk; [congruence|]. cbn [map fst]. destruct (list_eq_dec Z.eq_dec k k1); [left; auto|right; auto]. }
  rewrite Ek in Ik. apply in_app_or in Ik as [Ik|Ik]; [|apply En in Ik; tauto]. exfalso. clear - Ik Eo.
  induction obj as [|(k1, v1) obj IH]; cbn [map fst lookup] in *; [auto|]. destruct (list_eq_dec Z.eq_dec k k1); [discriminate|]. destruct Ik; [congruence|auto].
Qed.

Lemma firstn_step {A} (l : list A) : forall k x, nth_error l k = Some x -> firstn (S k) l = firstn k l ++ [x] /\ l = firstn k l ++ x :: skipn (S k) l.
Proof.
  induction l as [|y l IH]; intros [|k] x E; cbn in E; try discriminate; [injection E as ->; auto|]. destruct (IH k x E) as (A1 & A2).
  split; [change (firstn (S (S k)) (y :: l)) with (y :: firstn (S k) l); rewrite A1; auto|]. cbn [firstn app skipn]. f_equal. exact A2.
Qed.
Lemma app_inj_len {A} (a b c d : list A) : a ++ b = c ++ d -> length a = length c -> a = c /\ b = d.
Proof.
  revert c. induction a as [|x a IH]; intros [|y c] E L; cbn in *; try discriminate; [auto|]. injection E as -> E. destruct (IH c E ltac:(lia)) as (-> & ->). auto.
Qed.
Lemma NoDup_app_iff {A} (a b : list A) : NoDup (a ++ b) -> NoDup a /\ NoDup b /\ forall x, In x a -> ~ In x b.
Proof.
  induction a as [|x a IH]; cbn [app]; intros N; [split; [constructor|split; [auto|intros ? []]]|]. inversion N as [|? ? Nx N']; subst. destruct (IH N') as (A1 & A2 & A3).
  split; [constructor; auto; intros I; apply Nx, in_or_app; auto|]. split; [auto|]. intros y [<-|I] J; [apply Nx, in_or_app; auto|apply (A3 y I J)].
Qed.
Section One.
Variable DB : Type.
Variable prepare : DB -> text -> Z * list (option text).
Variable exec : DB -> text -> list sqlv -> DB * list (list sqlv) * Z.
Variable columns : DB -> text -> list text.
Variable limit : Z.
Variable msg_unbound : text -> Z -> text -> text.
Variable msg_failed : Z -> text -> text.
Variable msg_missing : text -> text -> text.
Variable msg_kind : text -> node -> text.
Variable good_db : DB -> Prop.
Hypothesis limit_small : limit < 2 ^ 31.
Notation join_one := (join_one DB prepare exec columns limit msg_unbound msg_failed msg_missing msg_kind byval_str_mk).
Notation statement_fits := (statement_fits DB prepare good_db).
Notation finishes := (finishes DB exec columns good_db).
Notation rows_sent := (rows_sent DB prepare exec).


Lemma join_one_ok fuel sql key w infos data a idx obj n :
  good_db (w_db DB w) -> statement_fits infos data sql -> finishes infos sql n -> no_error_column DB columns good_db sql key ->
  holds (w_heap DB w) (JObj obj) a -> NoDup (containers (w_heap DB w) (JObj obj) a) -> sendable limit infos data obj -> no_error_member key obj ->
  (size (JObj obj) + n < fuel)%nat -> Z.of_nat (size (JObj obj) + n) < 2 ^ 64 ->
  exists w' infos' data', join_one fuel sql key (w, infos, data) (Some a) idx = Ok ((w', infos', data'), 0) /\ similar infos infos' data data' /\
    w_open DB w' = w_open DB w /\ good_db (w_db DB w') /\
    exists rows z, rows_sent infos data sql (w_db DB w) obj rows (w_db DB w') /\ with_rows infos key obj (columns (w_db DB w') sql) rows z /\ becomes_at (w_heap DB w) (w_heap DB w') obj a z.
Proof.
  intros Gd Sf Fi Nc H N J Ne Lf B. set (h := w_heap DB w) in *. unfold SqlJoinModel.join_one. fold h.
  destruct (fill_ok msg_missing msg_kind h a obj H infos 0 infos data eq_refl (proj1 (proj2 Sf))) as (infos1 & data1 & stop & E1 & Sm & _ & Q1). rewrite E1. cbn [bind].
  assert (En : stop = None).
  { destruct stop as [msg|]; [|auto]. exfalso. destruct Q1 as (j & info & d & Ej & Sj & Cm). destruct (J j info d Ej Sj) as (x & Lx & Kx & _).
    unfold complains in Cm. rewrite Lx in Cm. destruct x; contradiction. }
  subst stop. assert (Fl : forall j info d, nth_error infos1 j = Some info -> source info (given data1 j) = Some d -> filled obj info d) by (intros j info d; apply Q1; lia).
  destruct (bound_ok limit DB prepare good_db infos1 data1 sql obj (w_db DB w) Gd (similar_fits _ _ _ _ _ _ _ _ Sm Sf) (similar_sendable limit _ _ _ _ _ Sm J) Fl) as (Cr & Vs).
  destruct (select_ok DB prepare exec columns limit msg_unbound msg_failed limit_small w (Some infos1) data1 sql (Some None) [] Cr eq_refl) as (vals & Rw & Run).
  destruct (similar_finishes DB exec columns _ _ _ _ _ _ _ Sm Fi (w_db DB w) vals Gd) as (db' & rows & Ex & Gd' & Fr & Bn & Sz).
  assert (S1 : size (JArr []) = 1%nat) by reflexivity. pose proof (size_pos (JObj obj)) as Sp.
  destruct (Run db' rows Ex Fr Bn ltac:(rewrite S1; lia) fuel ltac:(rewrite S1; lia)) as (h1 & s1 & E2 & (ar & -> & Ha & Na) & (L1 & O1)). cbn [app] in Ha, Na. fold h in L1, O1, Na.
  assert (O1' : forall c, (c < length h)%nat -> nth_error h1 c = nth_error h c) by (intros c Lc; apply O1; auto).
  assert (Rf : rows_sent infos data sql (w_db DB w) obj rows db').
  { apply (similar_rows_sent DB prepare exec _ _ _ _ sql _ obj rows db' Sm). exists vals. split; [auto|]. apply Vs. exact Rw. }
  pose proof Ha as Ha'. apply holds_arr in Ha' as (l & xs & Ear & _). destruct key as [k|].
  - rewrite E2. cbn [bind pointee w_heap].
    assert (Bo : Z.of_nat (length obj) <= 2 ^ 64).
    { pose proof (size_obj_len obj). lia. }
    destruct (set_member_ok h h1 obj a k (JArr (rows_value (Some infos1) (columns db' sql) rows)) ar H N L1 O1' Ha Na Bo) as (h2 & E3 & Ba & L2 & O2).
    assert (Aa : exists m, nth_error h1 a = Some (NObj m)).
    { pose proof H as H'. apply holds_obj in H' as (m & kas & Em & _). exists m. rewrite O1'; [auto|]. apply nth_error_Some. congruence. }
    destruct Aa as (m & Em).
    assert (Eo : object_set byval_str_mk h1 (Some a) k (Some ar) = Ok h2).
    { unfold object_set. rewrite (object_at_ok h1 a m Em). cbn [bind load]. rewrite Ear. cbn [of_option bind]. exact E3. }
    rewrite Eo. cbn [bind]. assert (Nar : ar <> a) by (intros ->; congruence).
    rewrite (no_error_arr h2 ar l) by (rewrite O2; auto). cbn [bind]. exists (World DB db' (w_open DB w) h2), infos1, data1. split; [reflexivity|]. split; [exact Sm|]. split; [reflexivity|]. split; [exact Gd'|].
    exists rows, (JObj (JsonSpec.with_member obj k (JArr (rows_value (Some infos1) (columns db' sql) rows)))). split; [exact Rf|]. split; [|exact Ba].
    apply (similar_with_rows _ _ _ _ (Some k) obj _ _ _ Sm). reflexivity.
  - unfold sql_select1. rewrite E2. cbn [bind pointee w_heap]. rewrite (no_error_arr h1 ar l Ear). cbn [bind].
    assert (Same : becomes_at h h1 obj a (JObj obj)).
    { pose proof (kept_below h h1 O1') as K. destruct (frame h h1 K (size (JObj obj)) (JObj obj) a (le_n _) H) as (H1 & Ec); [intros c I; apply O1', (old_containers h _ a H), I|].
      split; [auto|]. split; [auto|]. split; [auto|]. split; [intros c I; left; rewrite <- Ec; auto|auto]. }
    assert (Quiet : error_of h1 (Some a) = Ok None).
    { destruct (error_obj h1 obj a (proj1 (proj2 Same))) as (r & Er & Qr). change key_error with error_key in Qr. rewrite (Ne eq_refl) in Qr. subst r. exact Er. }
    destruct (first_ok h1 _ ar Ha) as (r & E3 & Q3). rewrite E3. cbn [bind]. destruct rows as [|row rows].
    + cbn [rows_value map] in Q3. subst r. cbn [bind pointee w_heap]. rewrite Quiet. cbn [bind]. exists (World DB db' (w_open DB w) h1), infos1, data1. split; [reflexivity|]. split; [exact Sm|]. split; [reflexivity|]. split; [exact Gd'|].
      exists [], (JObj obj). split; [exact Rf|]. split; [reflexivity|exact Same].
    + unfold rows_value in Q3, Ha, Na. cbn [map] in Q3, Ha, Na. destruct Q3 as (x & -> & Hx). destruct (conts_incl h1 _ ar _ x Ha E3) as (_ & In1).
      set (rv := row_value (Some infos1) (columns db' sql) row) in *.
      assert (Szx : (size rv < size (JArr (rows_value (Some infos1) (columns db' sql) (row :: rows))))%nat) by (apply size_arr_in; left; auto).
      destruct Same as (_ & H1 & _ & _ & K). destruct (frame h h1 K (size (JObj obj)) (JObj obj) a (le_n _) H) as (_ & Ec); [intros c I; apply O1', (old_containers h _ a H), I|].
      destruct (merge_ok fuel h1 (JObj obj) rv a x H1 Hx) as (h2 & E4 & L2 & O2 & P2); [rewrite Ec; auto| |lia|lia|].
      { rewrite Ec. intros c I Jc. apply (old_containers h _ a H) in I. apply In1, Na in Jc. lia. }
      cbn [w_heap w_db w_open]. rewrite E4. cbn [bind pointee w_heap]. cbn [bind pointee w_heap].
      assert (Z : exists z, with_rows infos1 None obj (columns db' sql) (row :: rows) z /\ becomes_at h h2 obj a z /\ error_of h2 (Some a) = Ok None).
      { unfold with_rows. fold rv. assert (Kp : leaves_kept h1 h2).
        { apply (leaves_off h1 h2 (containers h1 (JObj obj) a)); [intros c I; apply (container_node h1 (size (JObj obj)) (JObj obj) a c (le_n _) H1 I)|auto]. }
        assert (Ot : forall c, (c < length h)%nat -> ~ In c (containers h (JObj obj) a) -> nth_error h2 c = nth_error h c) by (intros c Lc Nn; rewrite O2 by (rewrite Ec; auto); auto).
        destruct (mergeable (JObj obj) rv).
        - destruct P2 as (z & Mz & Hz & Cn). exists z. split; [auto|]. split.
          + split; [lia|]. split; [auto|]. split; [auto|]. split; [|intros c nd En' Ln; apply Kp; auto].
            intros c I. apply cnt_in in I. specialize (Cn c). destruct (in_dec Nat.eq_dec c (containers h1 (JObj obj) a)) as [I1|I1]; [left; rewrite <- Ec; auto|].
            right. apply Na, In1. apply cnt_in. apply (count_occ_not_In Nat.eq_dec) in I1. lia.
          + destruct (merged_keys obj rv z error_key Mz) as (kjs & -> & Kz). destruct (error_obj h2 kjs a Hz) as (r & Er & Qr). change key_error with error_key in Qr. rewrite Er.
            destruct (lookup error_key kjs) as [je|] eqn:El; [|subst r; auto]. exfalso. destruct Kz as [Kz|(s & Es & Is)]; [discriminate|apply Kz, Ne; auto|].
            apply (Nc eq_refl db' Gd'). eapply row_keys; [exact Es|exact Is].
        - subst h2. exists (JObj obj). split; [auto|]. split; [|exact Quiet]. split; [auto|]. split; [auto|]. split; [auto|]. split; [intros c I; left; rewrite <- Ec; auto|auto]. }
      destruct Z as (z & Wz & Bz & Ez). rewrite Ez. cbn [bind]. exists (World DB db' (w_open DB w) h2), infos1, data1. split; [reflexivity|]. split; [exact Sm|]. split; [reflexivity|]. split; [exact Gd'|].
      exists (row :: rows), z. split; [exact Rf|]. split; [|exact Bz]. apply (similar_with_rows _ _ _ _ None obj _ _ _ Sm). exact Wz.
Qed.

Lemma join_one_stops fuel sql key w infos data a idx obj :
  covers data (length infos) -> holds (w_heap DB w) (JObj obj) a -> NoDup (containers (w_heap DB w) (JObj obj) a) -> Z.of_nat (length obj) <= 2 ^ 64 ->
  (exists info, replaced infos data info /\ lacks obj info) ->
  exists w' infos' data' msg, join_one fuel sql key (w, infos, data) (Some a) idx = Ok ((w', infos', data'), 1) /\ similar infos infos' data data' /\
    w_open DB w' = w_open DB w /\ w_db DB w' = w_db DB w /\
    (exists info, replaced infos data info /\ complains msg_missing msg_kind obj info msg) /\
    becomes_at (w_heap DB w) (w_heap DB w') obj a (JObj (JsonSpec.with_member obj error_key (JStr msg))).
Proof.
  intros C H N B (info & R & Lk). set (h := w_heap DB w) in *. unfold SqlJoinModel.join_one. fold h.
  destruct (fill_ok msg_missing msg_kind h a obj H infos 0 infos data eq_refl C) as (infos1 & data1 & stop & E1 & Sm & _ & Q1). rewrite E1. cbn [bind].
  destruct stop as [msg|].
  - pose proof H as H'. apply holds_obj in H' as (m & kas & Em & _). assert (La : (a < length h)%nat) by (apply nth_error_Some; congruence).
    destruct (set_member_ok h (h ++ [NStr msg]) obj a error_key (JStr msg) (length h) H N) as (h2 & E2 & Ba & _ & _); auto.
    { rewrite app_length. lia. }
    { intros c Lc. apply alloc_other; auto. }
    { apply (holds_leaf _ (JStr msg) _ (NStr msg) eq_refl). apply alloc_new. }
    { intros c []. }
    unfold object_set_str. rewrite (object_at_ok h a m Em). cbn [bind byval_str_mk]. unfold object_set_new. rewrite (object_at_ok h a m Em). cbn [bind alloc].
    change key_error with error_key. rewrite E2. cbn [bind]. exists (World DB (w_db DB w) (w_open DB w) h2), infos1, data1, msg. split; [reflexivity|]. split; [exact Sm|]. split; [reflexivity|]. split; [reflexivity|].
    split; [|exact Ba]. destruct Q1 as (j & info1 & d & Ej & Sj & Cm). exists info1. split; [exists j, d; auto|auto].
  - exfalso. destruct R as (j & d & Ej & Sj). destruct (similar_at _ _ _ _ _ _ _ Sm Ej Sj) as (info' & d' & Ej' & Sj' & Se & _).
    specialize (Q1 j info' d' ltac:(lia) Ej' Sj'). unfold filled in Q1. unfold lacks in Lk. pose proof (same_entry_fields _ _ Se) as (_ & Ec & _). rewrite Ec in Q1.
    destruct (lookup (i_col info) obj) as [[]|]; contradiction.
Qed.

(** * An array *)
Lemma joined_all_snoc infos sql key rf db objs zs db1 obj rows db2 z : joined_by DB columns infos sql key rf db objs zs db1 ->
  rf db1 obj rows db2 -> with_rows infos key obj (columns db2 sql) rows z ->
  joined_by DB columns infos sql key rf db (objs ++ [obj]) (zs ++ [z]) db2.
Proof. induction 1; intros R W; cbn [app]; econstructor; eauto. constructor. Qed.

Lemma conts_elem h js xs : Forall2 (holds h) js xs -> forall c, In c (conts h js xs) -> (c < length h)%nat.
Proof. intros F c I. destruct (in_conts h js xs c I F) as (j & x & _ & _ & Hx & Ic). eapply old_containers; eauto. Qed.

Lemma array_join_sent fuel sql key w infos data a good tail n :
  good_db (w_db DB w) -> statement_fits infos data sql -> finishes infos sql n -> no_error_column DB columns good_db sql key ->
  let objs := good ++ tail in
  holds (w_heap DB w) (JArr (map JObj objs)) a -> NoDup (containers (w_heap DB w) (JArr (map JObj objs)) a) ->
  Forall (sendable limit infos data) good -> Forall (no_error_member key) good ->
  match tail with [] => True | bad :: _ => exists info, replaced infos data info /\ lacks bad info end ->
  (size (JArr (map JObj objs)) + n < fuel)%nat -> Z.of_nat (size (JArr (map JObj objs)) + n) < 2 ^ 64 ->
  exists w' infos' data' zs, array_join DB prepare exec columns limit msg_unbound msg_failed msg_missing msg_kind byval_str_mk fuel (w, infos, data) (Some a) sql key = Ok (w', infos', data') /\
    joined_by DB columns infos sql key (rows_sent infos data sql) (w_db DB w) good zs (w_db DB w') /\ w_open DB w' = w_open DB w /\
    (forall c, (c < length (w_heap DB w))%nat -> ~ In c (containers (w_heap DB w) (JArr (map JObj objs)) a) -> nth_error (w_heap DB w') c = nth_error (w_heap DB w) c) /\
    match tail with
    | [] => holds (w_heap DB w') (JArr zs) a
    | bad :: rest => exists info msg, replaced infos data info /\ complains msg_missing msg_kind bad info msg /\
        holds (w_heap DB w') (JArr (zs ++ JObj (JsonSpec.with_member bad error_key (JStr msg)) :: map JObj rest)) a
    end.
Proof.
  intros Gd Sf Fi Nc objs H N Jg Ng Bad Lf B. set (h := w_heap DB w) in *.
  pose proof H as H'. apply holds_arr in H' as (l & xs & Ea & R & F). rewrite (containers_arr h a l xs _ Ea R) in N. inversion N as [|? ? Na N']; subst.
  pose proof (conts_elem h _ _ F) as Lc. assert (La : (a < length h)%nat) by (apply nth_error_Some; congruence).
  pose proof (forall2_len F) as Lx. rewrite map_length in Lx.
  (* after some elements *)
  set (Inv := fun (done : list (option nat)) (s : join_state DB) => let '(w1, infos1, data1) := s in
    exists (k : nat) zs, done = map Some (firstn k xs) /\ (k <= length xs)%nat /\ (k <= length good)%nat /\
      similar infos infos1 data data1 /\ good_db (w_db DB w1) /\ w_open DB w1 = w_open DB w /\ (length h <= length (w_heap DB w1))%nat /\ leaves_kept h (w_heap DB w1) /\
      joined_by DB columns infos sql key (rows_sent infos data sql) (w_db DB w) (firstn k objs) zs (w_db DB w1) /\
      Forall2 (holds (w_heap DB w1)) zs (firstn k xs) /\
      (forall c, (c < length h)%nat -> ~ In c (conts h (map JObj (firstn k objs)) (firstn k xs)) -> nth_error (w_heap DB w1) c = nth_error h c) /\
      (forall c, In c (conts (w_heap DB w1) zs (firstn k xs)) -> In c (conts h (map JObj (firstn k objs)) (firstn k xs)) \/ (length h <= c)%nat)).
  set (End := fun (done : list (option nat)) (x : option nat) (s : join_state DB) => let '(w1, infos1, data1) := s in
    exists zs bad rest info msg, tail = bad :: rest /\ done = map Some (firstn (length good) xs) /\
      joined_by DB columns infos sql key (rows_sent infos data sql) (w_db DB w) good zs (w_db DB w1) /\ w_open DB w1 = w_open DB w /\
      (forall c, (c < length h)%nat -> ~ In c (conts h (map JObj objs) xs) -> nth_error (w_heap DB w1) c = nth_error h c) /\
      replaced infos data info /\ complains msg_missing msg_kind bad info msg /\
      Forall2 (holds (w_heap DB w1)) (zs ++ JObj (JsonSpec.with_member bad error_key (JStr msg)) :: map JObj rest) xs).
  assert (Sz : (length xs < fuel)%nat) by (pose proof (size_arr_len (map JObj objs)) as X; rewrite map_length in X; lia).
  destruct (iterate_stops l (map Some xs) (join_one fuel sql key) Inv End (w, infos, data) fuel R) as (s' & ret & E & Q).
  - rewrite map_length. auto.
  - (* a step *)
    intros done x rest ((w1, infos1), data1) Ex (k & zs & -> & Lk & Lg & Sm & Gd1 & Wo & Lh & K & Aj & Fz & Un & Cz). set (h1 := w_heap DB w1) in *.
    assert (Lkx : (k < length xs)%nat).
    { apply (f_equal (@length _)) in Ex. rewrite map_length, app_length, map_length, firstn_length in Ex. cbn [length] in Ex. lia. }
    destruct (nth_error xs k) as [ax|] eqn:Exk; [|apply nth_error_None in Exk; lia].
    assert (Ex1 : x = Some ax).
    { assert (Q : nth_error (map Some xs) k = Some x).
      { rewrite Ex, nth_error_app2; rewrite map_length, firstn_length, Nat.min_l by lia; [rewrite Nat.sub_diag; auto|lia]. }
      rewrite nth_error_map, Exk in Q. cbn in Q. congruence. }
    subst x. destruct (nth_error objs k) as [obj|] eqn:Eo; [|apply nth_error_None in Eo; lia].
    assert (Sx : firstn (S k) xs = firstn k xs ++ [ax] /\ xs = firstn k xs ++ ax :: skipn (S k) xs) by (apply firstn_step; auto).
    assert (So : firstn (S k) objs = firstn k objs ++ [obj] /\ objs = firstn k objs ++ obj :: skipn (S k) objs) by (apply firstn_step; auto).
    destruct Sx as (Sx1 & Sx2), So as (So1 & So2).
    assert (Lfk : length (firstn k objs) = length (firstn k xs)) by (rewrite !firstn_length; lia).
    assert (Fs : Forall2 (holds h) (map JObj (firstn k objs)) (firstn k xs) /\ holds h (JObj obj) ax /\ Forall2 (holds h) (map JObj (skipn (S k) objs)) (skipn (S k) xs)).
    { rewrite So2, Sx2, map_app in F. cbn [map] in F. apply Forall2_app_inv_l in F as (y1 & y2 & F1 & F2 & Ey). inversion F2 as [|? y ? ys Hy Fy]; subst.
      pose proof (forall2_len F1) as Ly. rewrite map_length, Lfk in Ly. apply app_inj_len in Ey as (<- & Ey); [|auto]. injection Ey as <- <-. auto. }
    destruct Fs as (Fs1 & Fo & Fs2).
    assert (Cs : conts h (map JObj objs) xs = conts h (map JObj (firstn k objs)) (firstn k xs) ++ containers h (JObj obj) ax ++ conts h (map JObj (skipn (S k) objs)) (skipn (S k) xs)).
    { rewrite So2 at 1. rewrite Sx2 at 1. rewrite map_app. cbn [map]. rewrite conts_app by (rewrite map_length; auto). rewrite conts_cons. auto. }
    rewrite Cs in N', Na. apply NoDup_app_iff in N' as (N1 & N2 & D12). apply NoDup_app_iff in N2 as (N2 & N3 & D23).
    assert (Ag : agree h h1 (containers h (JObj obj) ax)).
    { intros c I. apply Un; [eapply old_containers; eauto|]. intros I1. apply (D12 c I1). apply in_or_app. auto. }
    destruct (frame h h1 K (size (JObj obj)) (JObj obj) ax (le_n _) Fo Ag) as (Fo1 & Eco).
    (* what a change of this element leaves *)
    assert (After : forall w2 z, becomes_at h1 (w_heap DB w2) obj ax z -> let h2 := w_heap DB w2 in
      (length h <= length h2)%nat /\ leaves_kept h h2 /\ Forall2 (holds h2) (zs ++ [z]) (firstn (S k) xs) /\
      (forall c, (c < length h)%nat -> ~ In c (conts h (map JObj (firstn (S k) objs)) (firstn (S k) xs)) -> nth_error h2 c = nth_error h c) /\
      (forall c, In c (conts h2 (zs ++ [z]) (firstn (S k) xs)) -> In c (conts h (map JObj (firstn (S k) objs)) (firstn (S k) xs)) \/ (length h <= c)%nat)).
    { intros w2 z (L2 & Hz & O2 & C2 & K2) h2. fold h2 in L2, Hz, O2, C2, K2. rewrite Eco in O2, C2.
      assert (Dz : forall c, In c (conts h1 zs (firstn k xs)) -> ~ In c (containers h (JObj obj) ax)).
      { intros c I I2. destruct (Cz c I) as [I1|I1]; [apply (D12 c I1), in_or_app; auto|]. apply (old_containers h _ _ Fo) in I2. lia. }
      destruct (frame_arr h1 h2 zs (firstn k xs) K2 Fz) as (Fz2 & Ez2).
      { intros c I. apply O2; [eapply conts_elem; eauto|]. apply Dz; auto. }
      split; [lia|]. split; [intros c nd Ec Ln; apply K2; auto|]. rewrite Sx1, So1, map_app. cbn [map]. split; [apply Forall2_app; auto|].
      rewrite !conts_app by (rewrite ?map_length; auto; rewrite <- (forall2_len Fz); auto). rewrite !conts_cons. rewrite Ez2. split.
      - intros c Lc' Nn. rewrite O2; [apply Un; [auto|]|lia|]; intros I; apply Nn, in_or_app; [auto|right; apply in_or_app; auto].
      - intros c I. apply in_app_or in I as [I|I].
        + destruct (Cz c I) as [I1|I1]; [left; apply in_or_app; auto|auto].
        + apply in_app_or in I as [I|[]]. destruct (C2 c I) as [I1|I1]; [left; apply in_or_app; right; apply in_or_app; auto|right; lia]. }
    assert (Szo : (size (JObj obj) < size (JArr (map JObj objs)))%nat) by (apply size_arr_in, in_map; eapply nth_error_In; eauto).
    destruct (Nat.lt_ge_cases k (length good)) as [Lt|Ge].
    + (* joined *)
      assert (Eg : nth_error good k = Some obj) by (unfold objs in Eo; rewrite nth_error_app1 in Eo; auto). apply nth_error_In in Eg. rewrite Forall_forall in Jg, Ng.
      destruct (join_one_ok fuel sql key w1 infos1 data1 ax (Z.of_nat (length (map (@Some nat) (firstn k xs)))) obj n) as (w2 & infos2 & data2 & E2 & Sm2 & Wo2 & Gd2 & rows & z & Rf & Wr & Ba); auto.
      { eapply similar_fits; eauto. }
      { eapply similar_finishes; eauto. }
      { fold h1. rewrite Eco. auto. }
      { eapply similar_sendable; eauto. }
      { lia. }
      { lia. }
      exists (w2, infos2, data2), 0. split; [exact E2|]. split; [|intros X; congruence]. intros _.
      destruct (After w2 z Ba) as (A1 & A2 & A3 & A4 & A5).
      exists (S k), (zs ++ [z]). split; [rewrite Sx1, map_app; auto|]. split; [lia|]. split; [lia|]. split; [eapply similar_trans; eauto|]. split; [auto|]. split; [congruence|]. split; [auto|]. split; [auto|].
      split; [|auto]. rewrite So1. eapply joined_all_snoc; [exact Aj| |].
      * apply (similar_rows_sent DB prepare exec _ _ _ _ sql _ obj rows _ Sm Rf).
      * apply (similar_with_rows _ _ _ _ key obj _ _ _ Sm Wr).
    + (* the end *)
      assert (k = length good) by lia. subst k. unfold objs in Eo. rewrite nth_error_app2, Nat.sub_diag in Eo by lia. destruct tail as [|bad rest0]; [discriminate|]. cbn in Eo. injection Eo as ->.
      destruct Bad as (info & Ri & Li). destruct (similar_replaced _ _ _ _ _ Sm Ri) as (info1 & Ri1 & Se).
      destruct (join_one_stops fuel sql key w1 infos1 data1 ax (Z.of_nat (length (map (@Some nat) (firstn (length good) xs)))) obj) as (w2 & infos2 & data2 & msg & E2 & Sm2 & Wo2 & Db2 & (info2 & Ri2 & Cm) & Ba); auto.
      { rewrite (similar_len _ _ _ _ Sm). eapply similar_covers; [exact Sm|apply Sf]. }
      { fold h1. rewrite Eco. auto. }
      { pose proof (size_obj_len obj). lia. }
      { exists info1. split; [auto|]. unfold lacks in *. pose proof (same_entry_fields _ _ Se) as (_ & -> & _). auto. }
      exists (w2, infos2, data2), 1. split; [exact E2|]. split; [discriminate|]. intros _.
      destruct (After w2 _ Ba) as (A1 & A2 & A3 & A4 & A5). destruct (similar_unreplaced _ _ _ _ _ Sm Ri2) as (info3 & Ri3 & Se3).
      exists zs, obj, rest0, info3, msg. split; [auto|]. split; [auto|].
      assert (Eg : firstn (length good) objs = good) by (unfold objs; rewrite firstn_app, firstn_all, Nat.sub_diag, firstn_O, app_nil_r; auto).
      assert (Er : skipn (S (length good)) objs = rest0).
      { unfold objs. change (good ++ obj :: rest0) with (good ++ [obj] ++ rest0). rewrite app_assoc, skipn_app, skipn_all2 by (rewrite app_length; cbn [length]; lia).
        rewrite app_length. cbn [length]. replace (S (length good) - (length good + 1))%nat with 0%nat by lia. auto. }
      split; [rewrite Db2, <- Eg; exact Aj|]. split; [congruence|]. split; [|split; [auto|split]].
      * intros c Lc' Nn. apply A4; [auto|]. intros I. apply Nn. rewrite Cs. rewrite Sx1, So1, map_app in I. cbn [map] in I. rewrite conts_app in I by (rewrite map_length; auto).
        apply in_app_or in I as [I|I]; apply in_or_app; [auto|right]. rewrite conts_cons in I. apply in_app_or in I as [I|[]]. apply in_or_app. auto.
      * unfold complains in *. pose proof (same_entry_fields _ _ Se3) as (V & Cc & _). rewrite <- V, <- Cc. exact Cm.
      * rewrite Sx2. rewrite Sx1 in A3. change (JObj (JsonSpec.with_member obj error_key (JStr msg)) :: map JObj rest0) with ([JObj (JsonSpec.with_member obj error_key (JStr msg))] ++ map JObj rest0).
        change (ax :: skipn (S (length good)) xs) with ([ax] ++ skipn (S (length good)) xs). rewrite !app_assoc. apply Forall2_app; [exact A3|].
        rewrite Er in Fs2. apply (frame_arr h (w_heap DB w2) _ _ A2 Fs2). intros c I. apply A4; [eapply conts_elem; [exact Fs2|exact I]|].
        rewrite Sx1, So1, map_app. cbn [map]. rewrite conts_app by (rewrite map_length; auto). rewrite conts_cons. intros I2. rewrite Er in D12, D23.
        apply in_app_or in I2 as [I2|I2]; [apply (D12 c I2), in_or_app; auto|]. apply in_app_or in I2 as [I2|[]]. apply (D23 c I2 I).
  - (* before *)
    exists 0%nat, []. split; [auto|]. split; [lia|]. split; [lia|]. split; [apply similar_refl|]. split; [auto|]. split; [auto|]. split; [auto|]. split; [intros c nd Ec _; auto|]. split; [constructor|].
    split; [constructor|]. split; [auto|]. intros c [].
  - (* the result *)
    destruct s' as ((w', infos'), data').
    assert (Eaj : array_join DB prepare exec columns limit msg_unbound msg_failed msg_missing msg_kind byval_str_mk fuel (w, infos, data) (Some a) sql key = Ok (w', infos', data')).
    { unfold array_join. cbn [fst]. fold h. unfold to_array, load. rewrite Ea. cbn [of_option bind]. rewrite E. reflexivity. }
    assert (Arr : forall h' js, (forall c, (c < length h)%nat -> ~ In c (conts h (map JObj objs) xs) -> nth_error h' c = nth_error h c) -> Forall2 (holds h') js xs -> holds h' (JArr js) a).
    { intros h' js O Fj. apply holds_arr. exists l, xs. split; [rewrite O; auto|]. auto. }
    destruct Q as [(k & zs & Ed & Lk & Lg & Sm & Gd1 & Wo & Lh & K & Aj & Fz & Un & _)|(done & x & rest & Ed & zs & bad & rest0 & info & msg & Et & _ & Aj & Wo & Un & Ri & Cm & Fz)].
    + assert (k = length xs). { apply (f_equal (@length _)) in Ed. rewrite !map_length, firstn_length in Ed. lia. } subst k.
      assert (Et : tail = []). { destruct tail; [auto|]. unfold objs in Lx. rewrite app_length in Lx. cbn [length] in Lx. lia. }
      rewrite firstn_all in Fz, Un. rewrite <- Lx, firstn_all in Aj, Un. subst tail. unfold objs in *. rewrite app_nil_r in *.
      exists w', infos', data', zs. split; [exact Eaj|]. split; [exact Aj|]. split; [auto|]. split; [|apply (Arr (w_heap DB w') zs); auto].
      intros c Lc' Nn. apply Un; [auto|]. intros I. apply Nn. rewrite (containers_arr h a l xs _ Ea R). right. auto.
    + exists w', infos', data', zs. split; [exact Eaj|]. split; [exact Aj|]. split; [auto|]. split.
      * intros c Lc' Nn. apply Un; [auto|]. intros I. apply Nn. rewrite (containers_arr h a l xs _ Ea R). right. auto.
      * rewrite Et. exists info, msg. split; [auto|]. split; [auto|]. apply (Arr (w_heap DB w')); auto.
Qed.

(** * Simple entries *)
Lemma simple_sendable infos data obj : simple infos data -> joinable limit infos data obj -> sendable limit infos data obj.
Proof.
  intros Si J j info d E Sd. destruct (Si j info d E Sd) as (_ & Ty). destruct (J info (ex_intro _ j (ex_intro _ d (conj E Sd)))) as (x & Lx & Ux). exists x. split; [auto|].
  destruct Ty as [Ty|(Ty & Sz)]; rewrite Ty in Ux; destruct x; cbn [usable] in Ux; try contradiction; (split; [exact I|]); intros _; rewrite Ty; [exact I|]. destruct Ux. rewrite Sz. repeat split; auto; lia.
Qed.
Lemma simple_rows infos data sql db obj rows db' : simple infos data -> joinable limit infos data obj -> rows_sent infos data sql db obj rows db' -> rows_for DB prepare exec infos sql db obj rows db'.
Proof.
  intros Si J (vals & E & F). exists vals. split; [auto|]. eapply SqlJsonProofs.forall2_impl; [|exact F]. intros p v (j & info & d & x & I & Sd & -> & Lx & M).
  exists info, x. split; [eapply nth_error_In; eauto|]. split; [auto|]. split; [auto|]. destruct (Si j info d I Sd) as (Nn & Ty).
  destruct (J info (ex_intro _ j (ex_intro _ d (conj I Sd)))) as (x' & Lx' & Ux). rewrite Lx in Lx'. injection Lx' as <-.
  destruct M as [Nu _|z z' _ T -> Bz Mz|_ T|s _ T -> Z0|s t rest _ T -> Es Sz Pz].
  - congruence.
  - rewrite T in *. cbn [usable] in Ux. assert (z' = z) as ->; [|constructor].
    apply Z.mod_divide in Mz as (q & Mz); lia.
  - destruct Ty as [Ty|(Ty & _)]; congruence.
  - rewrite T. constructor.
  - destruct Ty as [Ty|(_ & Z0)]; [congruence|lia].
Qed.
Lemma simple_joined infos data sql key db objs zs db' : simple infos data -> Forall (joinable limit infos data) objs ->
  joined_by DB columns infos sql key (rows_sent infos data sql) db objs zs db' -> all_joined DB prepare exec columns infos sql key db objs zs db'.
Proof.
  intros Si J Aj. unfold all_joined. induction Aj as [db|db obj objs rows db1 z zs db' Rf Wr Aj IH]; [constructor|].
  econstructor; [apply (simple_rows infos data); [exact Si|exact (Forall_inv J)|exact Rf]|exact Wr|apply IH; exact (Forall_inv_tail J)].
Qed.
Lemma array_join_ok fuel sql key w infos data a good tail n :
  good_db (w_db DB w) -> statement_fits infos data sql -> simple infos data -> finishes infos sql n -> no_error_column DB columns good_db sql key ->
  let objs := good ++ tail in
  holds (w_heap DB w) (JArr (map JObj objs)) a -> NoDup (containers (w_heap DB w) (JArr (map JObj objs)) a) ->
  Forall (joinable limit infos data) good -> Forall (no_error_member key) good ->
  match tail with [] => True | bad :: _ => exists info, replaced infos data info /\ lacks bad info end ->
  (size (JArr (map JObj objs)) + n < fuel)%nat -> Z.of_nat (size (JArr (map JObj objs)) + n) < 2 ^ 64 ->
  exists w' infos' data' zs, array_join DB prepare exec columns limit msg_unbound msg_failed msg_missing msg_kind byval_str_mk fuel (w, infos, data) (Some a) sql key = Ok (w', infos', data') /\
    all_joined DB prepare exec columns infos sql key (w_db DB w) good zs (w_db DB w') /\ w_open DB w' = w_open DB w /\
    (forall c, (c < length (w_heap DB w))%nat -> ~ In c (containers (w_heap DB w) (JArr (map JObj objs)) a) -> nth_error (w_heap DB w') c = nth_error (w_heap DB w) c) /\
    match tail with
    | [] => holds (w_heap DB w') (JArr zs) a
    | bad :: rest => exists info msg, replaced infos data info /\ complains msg_missing msg_kind bad info msg /\
        holds (w_heap DB w') (JArr (zs ++ JObj (JsonSpec.with_member bad error_key (JStr msg)) :: map JObj rest)) a
    end.
Proof.
  intros Gd Sf Si Fi Nc objs H N J Ng Bad Lf B.
  destruct (array_join_sent fuel sql key w infos data a good tail n Gd Sf Fi Nc H N) as (w' & infos' & data' & zs & E & A & O & U & Q); auto.
  { eapply Forall_impl; [|exact J]. intros obj. apply simple_sendable. exact Si. }
  exists w', infos', data', zs. split; [exact E|]. split; [|auto]. apply (simple_joined infos data); auto.
Qed.
End One.
