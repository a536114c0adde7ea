(** Lemmas about inserting rows. *)
From Coq Require Import ZArith List Bool Lia Arith Permutation.
From Verif Require Import Base ArrayLemmas TsearchModel MapModel MapProofs ListModel ListProofs Json JsonHeapModel JsonHeapSpec JsonHeapProofs
  JsonFrame JsonStored JsonArrayModel SqlModel SqlSpec SqlProofs SqlJsonModel SqlJsonSpec SqlJsonProofs SqlInsertModel SqlInsertSpec.
Import ListNotations.
Open Scope Z_scope.
Local Arguments Z.add : simpl never.
Local Arguments Z.of_nat : simpl never.
Local Arguments Z.to_nat : simpl never.

(** * Going through a list with a callback that does not stop *)
Lemma skip_nth {A} (xs : list A) : forall n y ys, skipn n xs = y :: ys -> nth_error xs n = Some y /\ skipn (S n) xs = ys.
Proof. induction xs as [|x xs IH]; intros [|n] y ys E; cbn in E |- *; try discriminate; [injection E as -> ->; auto|]. apply IH. auto. Qed.
Lemma iterate_steps {A T} (l : clist A) xs (f : T -> A -> Z -> outcome (T * Z)) (Inv : list A -> T -> Prop) s fuel :
  rep l xs -> (length xs < fuel)%nat ->
  (forall done x rest s, xs = done ++ x :: rest -> Inv done s -> exists s', f s x (Z.of_nat (length done)) = Ok (s', 0) /\ Inv (done ++ [x]) s') ->
  Inv [] s -> exists s', list_iterate (fun _ => l) f fuel false s = Ok (s', match xs with [] => None | _ => Some 0 end) /\ Inv xs s'.
Proof.
  intros R Lf St I0. unfold list_iterate.
  assert (G : forall todo done fuel s ret, xs = done ++ todo -> (length todo < fuel)%nat -> Inv done s ->
    exists s', iterate_from A T (fun _ => l) f fuel s (Z.of_nat (length done)) ret = Ok (s', match todo with [] => ret | _ => Some 0 end) /\ Inv xs s').
  { clear Lf I0. pose proof R as (R1 & _). induction todo as [|x todo IH]; intros done [|fl] s1 ret E L I1; try (cbn [length] in L; lia); cbn [iterate_from]; rewrite R1, E, app_length.
    - cbn [length]. replace (Z.of_nat (length done) <? Z.of_nat (length done + 0)) with false by (symmetry; apply Z.ltb_ge; lia).
      exists s1. rewrite app_nil_r. split; [auto|]. auto.
    - cbn [length]. replace (Z.of_nat (length done) <? Z.of_nat (length done + S (length todo))) with true by (symmetry; apply Z.ltb_lt; lia).
      rewrite (rep_read l xs _ x R); [|rewrite Nat2Z.id, E, nth_error_app2, Nat.sub_diag by lia; auto|lia]. cbn [bind].
      destruct (St done x todo s1 E I1) as (s2 & Ef & I2). rewrite Ef. cbn [bind]. change (0 =? 0) with true. cbn iota.
      destruct (IH (done ++ [x]) fl s2 (Some 0)) as (s3 & E3 & I3); [rewrite <- app_assoc; auto|cbn [length] in L; lia|auto|].
      rewrite app_length in E3. cbn [length] in E3. replace (Z.of_nat (length done + 1)) with (Z.of_nat (length done) + 1) in E3 by lia.
      exists s3. split; [rewrite E3; destruct todo; auto|rewrite <- E; auto]. }
  destruct (G xs [] fuel s None eq_refl Lf I0) as (s' & E & I'). exists s'. auto.
Qed.

(** * The statement *)
Lemma after_space_snoc l x : after_space (l ++ [x]) = after_space l ++ (match after_space l with [] => 32 | _ => 44 end) :: x.
Proof.
  destruct l as [|y l]; [reflexivity|]. cbn [after_space]. change ((y :: l) ++ [x]) with (y :: (l ++ [x])). cbn [after_space]. change (y :: (l ++ [x])) with ((y :: l) ++ [x]).
  rewrite joined_snoc. cbn [app]. auto.
Qed.
Lemma both_empty (l : row_of) : (match after_space (map fst l) with [] => 32 | _ => 44 end) = match after_space (map placeholder l) with [] => 32 | _ => 44 end.
Proof. destruct l; reflexivity. Qed.

(** The entry for a column *)
Definition info_of (kv : text * json) : bind_info :=
  match snd kv with
  | JStr s => BindInfo (64 :: fst kv) (fst kv) T_TEXT (BindData 0 0 (Some (with_nul s)) 0 true false) false false false false
  | JI64 z => BindInfo (64 :: fst kv) (fst kv) T_INT64 (BindData 0 z None 0 true false) false false false false
  | _ => BindInfo (64 :: fst kv) (fst kv) T_UNDEF (BindData 0 0 None 0 false false) false false false false
  end.
Lemma info_var kv : i_var (info_of kv) = 64 :: fst kv.
Proof. unfold info_of. destruct (snd kv); auto. Qed.
Definition collected (l : row_of) : columns :=
  Columns (after_space (map fst l)) (after_space (map placeholder l)) (map info_of (bound_columns l)).

Lemma bound_snoc l kv : bound_columns (l ++ [kv]) = bound_columns l ++ (if is_null (snd kv) then [] else [kv]).
Proof. unfold bound_columns. rewrite filter_app. cbn [filter]. destruct (is_null (snd kv)); auto. Qed.

Lemma collect_ok limit h l k v x : seems h v x -> flat limit v -> (length (bound_columns l) < 50)%nat ->
  collect byval_str_mk h (collected l) k (Some x) = Ok (collected (l ++ [(k, v)]), 0).
Proof.
  intros Se F L. unfold collect, collected. cbn [c_columns c_values c_infos]. rewrite bound_snoc, !map_app. cbn [map]. rewrite !after_space_snoc, both_empty. cbn [fst snd placeholder].
  unfold seems in Se. set (cm := match after_space (map placeholder l) with [] => 32 | _ => 44 end).
  destruct F as [->|[(z & ->)|(s & -> & _)]]; cbn [leaf_node] in Se; cbn [load is_null]; rewrite Se; cbn [of_option bind placeholder is_null fst snd].
  - cbn [map]. rewrite app_nil_r. auto.
  - unfold add_entry. cbn [c_infos]. rewrite map_length. change max_infos with 50%nat. destruct (Nat.ltb_spec (length (bound_columns l)) 50); [|lia]. auto.
  - unfold add_entry. cbn [c_infos]. rewrite map_length. change max_infos with 50%nat. destruct (Nat.ltb_spec (length (bound_columns l)) 50); [|lia]. auto.
Qed.

Lemma bound_app l l' : bound_columns (l ++ l') = bound_columns l ++ bound_columns l'.
Proof. apply filter_app. Qed.
Lemma collect_all limit h : forall ps vs done, Forall2 (member_ok h) vs ps -> flat_row limit vs -> (length (bound_columns (done ++ vs)) <= 50)%nat ->
  fold_left (fun o '(k, v) => bind o (fun '(c, ret) => if negb (ret =? 0) then Ok (c, ret) else collect byval_str_mk h c k v)) ps (Ok (collected done, 0)) = Ok (collected (done ++ vs), 0).
Proof.
  induction ps as [|(k, o) ps IH]; intros vs done F Fl L.
  - inversion F; subst. rewrite app_nil_r. auto.
  - inversion F as [|(k', v) ? vs' ? (Hk & x & Hx & Se) F']; subst. cbn [fst snd] in *. subst k' o. cbn [fold_left bind]. change (negb (0 =? 0)) with false. cbn iota.
    pose proof (Forall_inv Fl) as Fv. cbn [snd] in Fv.
    change ((k, v) :: vs') with ([(k, v)] ++ vs') in L |- *. rewrite app_assoc in L |- *.
    assert (E : collect byval_str_mk h (collected done) k (Some x) = Ok (collected (done ++ [(k, v)]), 0)).
    { destruct (Nat.lt_ge_cases (length (bound_columns done)) 50) as [Lt|Ge]; [eapply collect_ok; eauto|].
      rewrite !bound_app, !app_length in L. cbn [bound_columns filter snd] in L. destruct v; cbn [is_null negb length] in L; try lia.
      unfold seems in Se. cbn [leaf_node] in Se. unfold collect, collected. cbn [c_columns c_values c_infos load]. rewrite Se. cbn [of_option bind].
      rewrite bound_snoc, !map_app. cbn [map]. rewrite !after_space_snoc, both_empty. cbn [fst snd placeholder is_null map]. rewrite app_nil_r. auto. }
    rewrite E. apply IH; auto. apply (Forall_inv_tail Fl).
Qed.

(** * One row *)
Lemma flat_bound limit l kv : flat_row limit l -> In kv (bound_columns l) ->
  In kv l /\ ((exists z, snd kv = JI64 z) \/ (exists s, snd kv = JStr s /\ ~ In 0 s /\ Z.of_nat (length s) <= limit)).
Proof.
  intros F I. unfold bound_columns in I. apply filter_In in I as (I & N). split; [auto|]. unfold flat_row in F. rewrite Forall_forall in F. destruct (F kv I) as [E|C]; [|auto].
  rewrite E in N. discriminate.
Qed.
Lemma stored_supplied limit (Q : Prop) l kv : flat_row limit l -> In kv (bound_columns l) -> exists v, supplied limit Q (info_of kv) None v.
Proof.
  intros F I. destruct (flat_bound limit l kv F I) as (_ & [(z & E)|(s & E & N & L)]); unfold info_of; rewrite E.
  - eexists. eapply supplied_data; [reflexivity|auto|]. cbn [i_type]. apply den_int64.
  - exists (V_TEXT s). eapply supplied_data; [reflexivity|auto|]. cbn [i_type]. apply den_string with (rest := []); auto.
Qed.
Lemma supplied_stored limit (Q : Prop) l kv v : flat_row limit l -> In kv (bound_columns l) -> supplied limit Q (info_of kv) None v -> stored_as (snd kv) v.
Proof.
  intros F I S. destruct (flat_bound limit l kv F I) as (_ & [(z & E)|(s & E & N & L)]); unfold info_of in S; rewrite E in S |- *.
  - inversion S as [d Es Dn|d x Es Dn Dv|x Es]; subst; cbn in Es; try discriminate; injection Es as <-; [discriminate|]. cbn [i_type] in Dv. inversion Dv; subst. constructor.
  - inversion S as [d Es Dn|d x Es Dn Dv|x Es]; subst; cbn in Es; try discriminate; injection Es as <-; [discriminate|]. cbn [i_type] in Dv.
    inversion Dv as [| |En|s0 rest Ev N0 Ez L0|s0 rest Ev Ez L0| |]; subst; cbn [d_value d_size] in *; try discriminate.
    + injection Ev as Ev. unfold with_nul in Ev. assert (s0 = s); [|subst; constructor].
      clear - Ev N N0. revert s N Ev. induction s0 as [|c s0 IH]; intros [|c' s] N Ev; cbn [app] in Ev; auto.
      * injection Ev as Ec _. subst. exfalso. apply N. left; auto.
      * injection Ev as Ec _. subst. exfalso. apply N0. left; auto.
      * injection Ev as -> Ev. f_equal. apply IH; [|intros X; apply N; right; auto|auto]. intros X; apply N0; right; auto.
    + lia.
Qed.
Lemma forall2_nth {A B} (R : A -> B -> Prop) l : forall l', length l' = length l -> (forall k x, nth_error l k = Some x -> exists y, nth_error l' k = Some y /\ R x y) -> Forall2 R l l'.
Proof.
  induction l as [|x l IH]; intros [|y l'] L H; try discriminate; constructor.
  - destruct (H 0%nat x eq_refl) as (z & E & R0). injection E as ->. auto.
  - apply IH; [cbn in L; lia|]. intros k z E. apply (H (S k) z). auto.
Qed.
Lemma row_infos l : NoDup (map fst l) -> NoDup (map i_var (map info_of (bound_columns l))).
Proof.
  intros N. rewrite map_map. induction l as [|(k, v) l IH]; cbn [bound_columns filter]; [constructor|]. cbn [map fst] in N. inversion N as [|? ? Nk N']; subst.
  destruct (is_null (snd (k, v))); cbn [negb map]; [auto|]. constructor; [|auto]. intros I. rewrite info_var in I. cbn [fst] in I. apply in_map_iff in I as (kv & E & I). rewrite info_var in E. injection E as E.
  apply Nk. rewrite <- E. apply in_map. apply filter_In in I. tauto.
Qed.

Section Rows.
Variable DB : Type.
Variable prepare : DB -> text -> Z * list (option text).
Variable exec : DB -> text -> list sqlv -> DB * list (list sqlv) * Z.
Variable limit : Z.
Variable counters : DB -> counts.
Variable mu : text -> Z -> text -> text.
Variable mf : Z -> text -> text.
Hypothesis Lm : limit < 2 ^ 31.
Variable table : text.

Lemma row_named l p : named (map info_of (bound_columns l)) p <-> exists v, column_of l p v.
Proof.
  split.
  - intros (i & I & ->). apply in_map_iff in I as ((k, v) & <- & I). exists v, k. rewrite info_var. auto.
  - intros (v & k & -> & I). exists (info_of (k, v)). split; [apply in_map; auto|]. rewrite info_var. auto.
Qed.
Lemma performs_row l db rc db' : flat_row limit l ->
  performs DB prepare exec limit (map info_of (bound_columns l)) None db (row_sql table l) rc db' -> row_done DB prepare exec table db l rc db'.
Proof.
  intros F P. inversion P as [params vals rc1 db1 Ep Fn (La & Ar) Rn|rc0 params rc1 Ep X Erc]; subst.
  - eapply row_runs; eauto. apply forall2_nth; [auto|]. intros k p Ek. destruct (Ar k p Ek) as (j & info & v & Ej & -> & Ev & Sv). exists v. split; [auto|].
    apply nth_error_In in Ej. apply in_map_iff in Ej as ((key, x) & <- & I). exists x. split; [exists key; rewrite info_var; auto|].
    change x with (snd (key, x)). eapply supplied_stored; eauto.
  - eapply row_fails; eauto. destruct X as [X|X]; [auto|right].
    assert (D : Forall (named (map info_of (bound_columns l))) params \/ exists p, In p params /\ ~ named (map info_of (bound_columns l)) p).
    { clear Ep X. assert (Dn : forall p, named (map info_of (bound_columns l)) p \/ ~ named (map info_of (bound_columns l)) p).
      { intros p. destruct (in_dec (fun a b : option text => ltac:(decide equality; apply (list_eq_dec Z.eq_dec))) p (map (fun i => Some (i_var i)) (map info_of (bound_columns l)))) as [I|N].
        - left. apply in_map_iff in I as (i & <- & I). exists i. auto.
        - right. intros (i & I & ->). apply N. apply in_map_iff. exists i. auto. }
      clear -Dn. induction params as [|p params IH]; [left; constructor|]. destruct (Dn p) as [Y|N]; [|right; exists p; split; [left; auto|auto]].
      destruct IH as [IH|(q & I & N)]; [left; constructor; auto|right; exists q; split; [right; auto|auto]]. }
    destruct D as [D|(p & I & N)]; [contradiction|]. exists p. split; [auto|]. intros v C. apply N, row_named. exists v. auto.
Qed.

Lemma insert_one_ok w kvs a i : holds (w_heap DB w) (JObj kvs) a -> flat_row limit kvs -> (length (bound_columns kvs) < 50)%nat ->
  named_parameters DB prepare table [kvs] ->
  exists w' rc kvs', insert_one DB prepare exec limit counters mu mf byval_str_mk table w (Some a) i = Ok (w', 0) /\ Permutation kvs kvs' /\
    row_done DB prepare exec table (w_db DB w) kvs' rc (w_db DB w') /\
    (length (w_heap DB w) <= length (w_heap DB w'))%nat /\ (forall c, (c < length (w_heap DB w))%nat -> nth_error (w_heap DB w') c = nth_error (w_heap DB w) c) /\
    (parameters_are_columns DB prepare table [kvs] -> w_open DB w' = w_open DB w).
Proof.
  intros H Fl Lb Np. pose proof H as Hk. apply holds_obj in Hk as (m & kas & Em & R & F). unfold insert_one. rewrite (object_at_ok _ _ _ Em). cbn [bind]. unfold map_iterate.
  pose proof (visited_rep _ _ _ R) as P. destruct (members_perm _ kvs kas _ F P) as (vs & Pv & Fv).
  assert (Nk : NoDup (map fst kvs)). { rewrite (members_fst F). eapply mrep_nodup; eauto. }
  assert (Nv : NoDup (map fst vs)). { eapply Permutation_NoDup; [|exact Nk]. apply Permutation_sym, Permutation_map. exact Pv. }
  assert (Flv : flat_row limit vs). { eapply Permutation_Forall; [apply Permutation_sym; exact Pv|exact Fl]. }
  assert (Lv : length (bound_columns vs) = length (bound_columns kvs)).
  { clear -Pv. unfold bound_columns. induction Pv; cbn [filter]; try congruence; repeat match goal with |- context [if ?b then _ else _] => destruct b end; cbn [length]; congruence. }
  pose proof (collect_all limit (w_heap DB w) _ vs [] Fv Flv) as C. cbn [app] in C.
  match goal with |- context [bind ?A _] => replace A with (Ok (collected vs, 0)) by (symmetry; apply C; lia) end. cbn [bind].
  unfold collected. cbn [c_columns c_values c_infos]. rewrite map_length. destruct (Nat.eqb_spec (length (bound_columns vs)) max_infos) as [X|_]; [exfalso; change max_infos with 50%nat in X; lia|]. cbn [andb].
  match goal with |- context [sql_insert _ _ _ _ _ _ _ _ _ _ _ ?q _ _] => change q with (row_sql table vs) end.
  assert (G : good_sql DB prepare limit (map info_of (bound_columns vs)) None (row_sql table vs)).
  { intros db. cbv zeta. destruct (Np db kvs vs (or_introl eq_refl) (Permutation_sym Pv)) as (Nn & Nd). split; [rewrite Forall_forall in Nn; auto|]. split; [auto|].
    intros j info Ej _. cbn [given]. apply nth_error_In in Ej. apply in_map_iff in Ej as (kv & <- & I). eapply stored_supplied; eauto. }
  destruct (insert_ok DB prepare exec limit counters mu mf Lm w (map info_of (bound_columns vs)) None (row_sql table vs) (Some None) None 0) as (rc & w' & s' & id & E & ((_ & (Le & O)) & _) & Pf & _).
  { exact I. } { lia. } { apply row_infos; auto. } { exact I. } { exact G. }
  rewrite E. cbn [bind]. exists w', rc, vs. split; [auto|]. split; [apply Permutation_sym; auto|]. split; [apply performs_row; auto|]. split; [auto|].
  split; [intros c Lc; apply O; [auto|discriminate]|].
  intros Pc. eapply insert_open; [|exact E]. cbn [all_named]. intros db. split; [apply (Np db kvs vs (or_introl eq_refl) (Permutation_sym Pv))|].
  eapply Forall_impl; [|apply (Pc db kvs vs (or_introl eq_refl) (Permutation_sym Pv))]. intros p Hp. apply row_named. auto.
Qed.

Lemma rows_snoc rows : forall db rcs db1 kvs kvs' rc db', rows_done DB prepare exec table db rows rcs db1 -> Permutation kvs kvs' -> row_done DB prepare exec table db1 kvs' rc db' ->
  rows_done DB prepare exec table db (rows ++ [kvs]) (rcs ++ [rc]) db'.
Proof.
  induction rows as [|r rows IH]; intros db rcs db1 kvs kvs' rc db' H P D; inversion H; subst; cbn [app]; econstructor; eauto. constructor.
Qed.

Lemma unchanged_extends h h' : (length h <= length h')%nat -> (forall c, (c < length h)%nat -> nth_error h' c = nth_error h c) -> extends h h'.
Proof.
  intros L O. exists (skipn (length h) h'). assert (E : firstn (length h) h' = h); [|rewrite <- E at 1; symmetry; apply firstn_skipn].
  clear -L O. revert h' L O. induction h as [|x h IH]; intros [|y h'] L O; cbn [length firstn] in *; auto; try lia. f_equal.
  - specialize (O 0%nat ltac:(lia)). cbn in O. congruence.
  - apply IH; [lia|]. intros c Lc. apply (O (S c)). lia.
Qed.

Lemma insert_array_ok fuel w rows a : holds (w_heap DB w) (JArr (map JObj rows)) a -> (length rows < fuel)%nat ->
  Forall (fun kvs => flat_row limit kvs /\ (length (bound_columns kvs) < 50)%nat) rows -> named_parameters DB prepare table rows ->
  exists w' rcs, insert_json_array DB prepare exec limit counters mu mf byval_str_mk fuel w table (Some a) = Ok (w', match rows with [] => None | _ => Some 0 end) /\
    rows_done DB prepare exec table (w_db DB w) rows rcs (w_db DB w') /\ extends (w_heap DB w) (w_heap DB w') /\
    (parameters_are_columns DB prepare table rows -> w_open DB w' = w_open DB w).
Proof.
  intros H Lf Fl Np. pose proof H as Hk. apply holds_arr in Hk as (cl & xs & Ea & R & F). unfold insert_json_array, array_iterate. rewrite (array_at_ok _ _ _ Ea). cbn [bind].
  pose proof (forall2_len F) as Le. rewrite map_length in Le.
  set (Inv := fun (done : list (option nat)) (w1 : world DB) =>
    exists rcs, rows_done DB prepare exec table (w_db DB w) (firstn (length done) rows) rcs (w_db DB w1) /\ extends (w_heap DB w) (w_heap DB w1) /\
      (parameters_are_columns DB prepare table rows -> w_open DB w1 = w_open DB w)).
  destruct (iterate_steps cl (map Some xs) (insert_one DB prepare exec limit counters mu mf byval_str_mk table) Inv w fuel) as (w' & E & rcs & D & X & O).
  - auto.
  - rewrite map_length. lia.
  - intros done x rest w1 Ex (rcs & D & X & O).
    assert (Nx : nth_error (map Some xs) (length done) = Some x) by (rewrite Ex, nth_error_app2, Nat.sub_diag by lia; auto).
    rewrite nth_error_map in Nx. destruct (nth_error xs (length done)) as [b|] eqn:Eb; cbn [option_map] in Nx; [|discriminate]. injection Nx as <-.
    assert (Lr : (length done < length rows)%nat) by (rewrite Le; apply nth_error_Some; congruence).
    destruct (nth_error rows (length done)) as [kvs|] eqn:Ek; [|apply nth_error_None in Ek; lia].
    assert (Hb : holds (w_heap DB w) (JObj kvs) b).
    { assert (G : forall (js : list json) ys, Forall2 (holds (w_heap DB w)) js ys -> forall n j y, nth_error js n = Some j -> nth_error ys n = Some y -> holds (w_heap DB w) j y).
      { clear. induction 1 as [|j0 y0 js ys H0 F IH]; intros [|n] j y Ej Ey; cbn in Ej, Ey; try discriminate; [congruence|eauto]. }
      eapply (G _ _ F (length done)); [|exact Eb]. rewrite nth_error_map, Ek. auto. }
    assert (Ik : In kvs rows) by (eapply nth_error_In; eauto).
    rewrite Forall_forall in Fl. destruct (Fl kvs Ik) as (Fk & Lk).
    destruct (insert_one_ok w1 kvs b (Z.of_nat (length done))) as (w2 & rc & kvs' & E2 & P2 & D2 & L2 & O2 & C2); auto.
    { eapply holds_extends; [exact X|apply Nat.le_refl|exact Hb]. }
    { intros db k k' [<-|[]] Pk. apply (Np db kvs k' Ik Pk). }
    exists w2. split; [exact E2|]. exists (rcs ++ [rc]). rewrite app_length. cbn [length]. 
    assert (Fn : firstn (length done + 1) rows = firstn (length done) rows ++ [kvs]).
    { clear -Ek. revert Ek. generalize (length done). intros n. revert rows. induction n as [|n IH]; intros [|r rows] Ek; cbn in Ek |- *; try discriminate; [congruence|]. f_equal. apply IH. auto. }
    rewrite Fn. split; [eapply rows_snoc; eauto|]. split; [eapply extends_trans; [exact X|]; apply unchanged_extends; auto|].
    intros Pc. rewrite C2; [auto|]. intros db k k' [<-|[]] Pk. apply (Pc db kvs k' Ik Pk).
  - exists []. cbn [length firstn]. split; [constructor|]. split; [exists []; rewrite app_nil_r; auto|auto].
  - rewrite E. exists w', rcs. split; [destruct rows, xs; cbn in Le |- *; try discriminate; auto|]. rewrite map_length, <- Le, firstn_all in D. auto.
Qed.
End Rows.
