(** Proofs about values in memory: lookup, search, change. *)
From Coq Require Import ZArith List Bool Lia Sorting.Permutation Sorting.Sorted.
From Verif Require Import Base ArrayLemmas TsearchModel TsearchProofs SetProofs MapModel MapProofs MapHistory ListModel ListProofs
  Json JsonHeapModel JsonHeapSpec.
Import ListNotations.
Open Scope Z_scope.
Local Arguments Z.add : simpl never.
Local Arguments Z.of_nat : simpl never.
Local Arguments Z.to_nat : simpl never.

(** * strcmp *)
Lemma strcmp_anti : forall x y, Z.sgn (strcmp y x) = - Z.sgn (strcmp x y).
Proof.
  induction x as [|a x IH]; intros [|b y]; cbn [strcmp]; auto. rewrite (Z.eqb_sym b a). destruct (Z.eqb_spec a b); [apply IH|].
  destruct (Z.ltb_spec a b), (Z.ltb_spec b a); auto; lia.
Qed.
Lemma strcmp_trans : forall x y z, strcmp x y <= 0 -> strcmp y z <= 0 -> strcmp x z <= 0.
Proof.
  induction x as [|a x IH]; intros [|b y] [|c z]; cbn [strcmp]; try lia.
  destruct (Z.eqb_spec a b), (Z.eqb_spec b c), (Z.eqb_spec a c); subst; try (apply IH); try congruence;
    repeat match goal with |- context [?x <? ?y] => destruct (Z.ltb_spec x y) end; try lia.
Qed.
Lemma strcmp_total : total_cmp strcmp.
Proof. split; [apply strcmp_anti|apply strcmp_trans]. Qed.
Lemma strcmp_eq : forall x y, strcmp x y = 0 <-> x = y.
Proof.
  induction x as [|a x IH]; intros [|b y]; cbn [strcmp]; try (split; intros; congruence || lia).
  destruct (Z.eqb_spec a b).
  - subst. rewrite IH. split; congruence.
  - split; [|congruence]. destruct (a <? b); lia.
Qed.
Lemma strcmp_eqb x y : (strcmp x y =? 0) = if list_eq_dec Z.eq_dec x y then true else false.
Proof.
  destruct (list_eq_dec Z.eq_dec x y) as [E|E]; [apply Z.eqb_eq, strcmp_eq; auto|].
  apply Z.eqb_neq. rewrite strcmp_eq. auto.
Qed.

(** * all2, zip, lookup *)
Lemma all2_Forall2 {A B} (R : A -> B -> Prop) l l' : all2 R l l' <-> Forall2 R l l'.
Proof.
  revert l'. induction l as [|x l IH]; intros [|y l']; cbn [all2].
  - split; constructor.
  - split; [tauto|]. intros H; inversion H.
  - split; [tauto|]. intros H; inversion H.
  - rewrite IH. split; [intros (H1 & H2); constructor; auto|]. intros H; inversion H; auto.
Qed.
Lemma forall2_len {A B} {R : A -> B -> Prop} {l l'} : Forall2 R l l' -> length l = length l'.
Proof. induction 1; cbn [length]; auto. Qed.
Lemma lookup_in {A} k (l : list (text * A)) v : lookup k l = Some v -> In (k, v) l.
Proof.
  induction l as [|(k', v') l IH]; cbn [lookup]; [discriminate|]. destruct (list_eq_dec Z.eq_dec k k') as [<-|].
  - intros H; injection H as ->. left; auto.
  - right; auto.
Qed.
Lemma lookup_none {A} k (l : list (text * A)) : lookup k l = None <-> ~ In k (map fst l).
Proof.
  induction l as [|(k', v') l IH]; cbn [lookup map fst In]; [tauto|]. destruct (list_eq_dec Z.eq_dec k k') as [<-|].
  - split; [discriminate|tauto].
  - rewrite IH. split; [intros H [X|X]; [congruence|auto]|tauto].
Qed.
Lemma in_lookup {A} k (l : list (text * A)) v : NoDup (map fst l) -> In (k, v) l -> lookup k l = Some v.
Proof.
  induction l as [|(k', v') l IH]; cbn [lookup map fst In]; [tauto|]. intros N [H|H].
  - injection H as <- <-. destruct (list_eq_dec Z.eq_dec k' k'); congruence.
  - inversion N; subst. destruct (list_eq_dec Z.eq_dec k k') as [<-|]; [|auto].
    exfalso. apply H2. apply (in_map fst) in H. auto.
Qed.
Lemma lookup_some_in {A} k (l : list (text * A)) : In k (map fst l) -> exists v, lookup k l = Some v.
Proof. intros H. destruct (lookup k l) eqn:E; [eauto|]. apply lookup_none in E. tauto. Qed.

(** Entries with their pointers *)
Definition wrapped (kas : list (text * nat)) : list (text * option nat) := map (fun ka => (fst ka, Some (snd ka))) kas.
Lemma wrapped_fst kas : map fst (wrapped kas) = map fst kas.
Proof. unfold wrapped. rewrite map_map. reflexivity. Qed.
Lemma find_wrapped k kas : find (keq strcmp k) (wrapped kas) = match lookup k kas with Some a => Some (k, Some a) | None => None end.
Proof.
  induction kas as [|(k', a) kas IH]; cbn [wrapped map find lookup]; [auto|]. unfold keq at 1. cbn [fst snd]. rewrite strcmp_eqb.
  destruct (list_eq_dec Z.eq_dec k k') as [<-|]; [auto|apply IH].
Qed.
Lemma get_wrapped k kas : s_get strcmp k (wrapped kas) = lookup k kas.
Proof. unfold s_get. rewrite find_wrapped. destruct (lookup k kas); auto. Qed.
Lemma uniq_nodup kas : uniq (pcmp text nat strcmp) (wrapped kas) -> NoDup (map fst kas).
Proof.
  intros (N & U). revert N U. induction kas as [|(k, a) kas IH]; cbn [wrapped map fst]; intros N U; [constructor|]. inversion N as [|? ? N1 N2]; subst.
  constructor; [|apply IH; [auto|intros; apply U; cbn; auto]].
  intros I. apply in_map_iff in I as ((k', a') & E & I). cbn [fst] in E. subst k'.
  assert (X : (k, Some a) = (k, Some a')).
  { apply U; [cbn; auto|right; unfold wrapped; apply in_map_iff; exists (k, a'); auto|]. unfold pcmp. cbn [fst]. apply strcmp_eq; auto. }
  injection X as ->. apply N1. apply in_map_iff. exists (k, a'). auto.
Qed.
Lemma mrep_nodup m kas : mrep strcmp m (wrapped kas) -> NoDup (map fst kas).
Proof. intros R. apply uniq_nodup, (mrep_uniq strcmp strcmp_total m). exact R. Qed.
Lemma mrep_find m kas k : mrep strcmp m (wrapped kas) -> map_find text nat strcmp (Some m) (Some k) = Ok (lookup k kas).
Proof. intros R. rewrite (find_rep strcmp strcmp_total m _ k R), get_wrapped. auto. Qed.

(** * holds *)
Lemma holds_arr h js a : holds h (JArr js) a <->
  exists l xs, nth_error h a = Some (NArr l) /\ rep l (map Some xs) /\ Forall2 (holds h) js xs.
Proof.
  cbn [holds]. split; intros (l & xs & E & R & H); exists l, xs; (split; [auto|split; [auto|]]); apply all2_Forall2; exact H.
Qed.
Lemma holds_obj h kjs a : holds h (JObj kjs) a <->
  exists m kas, nth_error h a = Some (NObj m) /\ mrep strcmp m (wrapped kas) /\
    Forall2 (fun kj ka => fst kj = fst ka /\ holds h (snd kj) (snd ka)) kjs kas.
Proof.
  cbn [holds]. split; intros (m & kas & E & R & H); exists m, kas; (split; [auto|split; [auto|]]); apply all2_Forall2; exact H.
Qed.
Lemma holds_leaf h j a n : leaf_node j = Some n -> (holds h j a <-> nth_error h a = Some n).
Proof.
  intros L. destruct j; try discriminate; cbn [holds]; (split; [intros (n' & L' & E); cbn [leaf_node] in *; congruence|intros E; exists n; auto]).
Qed.
Lemma leaf_cases j : (exists n, leaf_node j = Some n) \/ (exists l, j = JArr l) \/ (exists l, j = JObj l).
Proof. destruct j; cbn [leaf_node]; eauto. Qed.
Lemma leaf_not_arr j l : leaf_node j <> Some (NArr l).
Proof. destruct j; discriminate. Qed.
Lemma leaf_not_obj j l : leaf_node j <> Some (NObj l).
Proof. destruct j; discriminate. Qed.

Lemma members_fst {h kjs kas} : Forall2 (fun (kj : text * json) (ka : text * nat) => fst kj = fst ka /\ holds h (snd kj) (snd ka)) kjs kas ->
  map fst kjs = map fst kas.
Proof. induction 1 as [|kj ka kjs kas (E & _) F IH]; cbn [map]; [auto|]. congruence. Qed.
Lemma members_lookup {h kjs kas} k : Forall2 (fun (kj : text * json) (ka : text * nat) => fst kj = fst ka /\ holds h (snd kj) (snd ka)) kjs kas ->
  match lookup k kjs, lookup k kas with
  | Some j, Some a => holds h j a
  | None, None => True
  | _, _ => False
  end.
Proof.
  induction 1 as [|(k1, j1) (k2, a2) kjs kas (E & H) F IH]; cbn [lookup]; [auto|]. cbn [fst snd] in *. subst k2.
  destruct (list_eq_dec Z.eq_dec k k1); auto.
Qed.

(** * Lookup *)
Lemma object_at_ok h a m : nth_error h a = Some (NObj m) -> object_at h (Some a) = Ok m.
Proof. intros E. unfold object_at, to_object, load. rewrite E. auto. Qed.
Lemma array_at_ok h a l : nth_error h a = Some (NArr l) -> array_at h (Some a) = Ok l.
Proof. intros E. unfold array_at, to_array, load. rewrite E. auto. Qed.

Lemma object_get_ok h kjs a k : holds h (JObj kjs) a ->
  exists r, object_get h (Some a) (Some k) = Ok r /\
  match lookup k kjs with Some j => exists b, r = Some b /\ holds h j b | None => r = None end.
Proof.
  intros H. apply holds_obj in H as (m & kas & E & R & F). unfold object_get. rewrite (object_at_ok h a m E). cbn [bind].
  rewrite (mrep_find m kas k R). eexists. split; [reflexivity|]. pose proof (members_lookup k F) as L.
  destruct (lookup k kjs), (lookup k kas); try contradiction; eauto.
Qed.
Lemma rep_read {A} (l : clist A) xs i x : rep l xs -> nth_error xs (Z.to_nat i) = Some x -> 0 <= i -> aread (l_a l) i = Ok x.
Proof.
  intros (S & C & junk & E) N P. unfold aread, aget. destruct (Z.leb_spec 0 i) as [_|]; [|lia]. rewrite E.
  assert (L : (Z.to_nat i < length xs)%nat) by (apply nth_error_Some; congruence).
  rewrite nth_error_app1 by (rewrite map_length; auto). rewrite nth_error_map, N. auto.
Qed.
Lemma array_get_ok h js a i : holds h (JArr js) a ->
  exists r, array_get h (Some a) i = Ok r /\
  match (if i <? 0 then None else nth_error js (Z.to_nat i)) with Some j => exists b, r = Some b /\ holds h j b | None => r = None end.
Proof.
  intros H. apply holds_arr in H as (l & xs & E & R & F). unfold array_get. rewrite (array_at_ok h a l E). cbn [bind].
  pose proof (forall2_len F) as L. assert (S : l_size l = Z.of_nat (length xs)) by (destruct R as (S & _); rewrite map_length in S; auto).
  rewrite S. destruct (Z.ltb_spec i 0) as [N|N].
  - destruct (Z.leb_spec 0 i) as [|_]; [lia|]. cbn [andb]. eauto.
  - destruct (Z.leb_spec 0 i) as [_|]; [|lia]. cbn [andb]. destruct (Z.ltb_spec i (Z.of_nat (length xs))) as [I|I].
    + destruct (nth_error xs (Z.to_nat i)) as [x|] eqn:X; [|apply nth_error_None in X; lia].
      rewrite (rep_read l (map Some xs) i (Some x) R); [|rewrite nth_error_map, X; auto|lia].
      destruct (nth_error js (Z.to_nat i)) as [j|] eqn:Y; [|apply nth_error_None in Y; lia].
      eexists. split; [reflexivity|]. exists x. split; [auto|].
      clear -F X Y. revert F X Y. generalize (Z.to_nat i) as n. intros n F. revert n. induction F as [|j0 x0 js xs H F IH]; intros [|n]; cbn [nth_error]; try discriminate; intros X Y; [congruence|eauto].
    + destruct (nth_error js (Z.to_nat i)) as [j|] eqn:Y; [|eauto]. assert (Z.to_nat i < length js)%nat by (apply nth_error_Some; congruence). lia.
Qed.

(** * Search *)
Definition flag {A} (f : option A) : Z := match f with Some _ => 1 | None => 0 end.
Lemma search_list {A B} (l : clist A) xs (F : A -> outcome (option B)) : rep l xs -> 
  forall ys fuel i ret, 0 <= i -> skipn (Z.to_nat i) xs = ys -> i <= Z.of_nat (length xs) -> (length ys < fuel)%nat ->
  (forall x, In x ys -> exists r, F x = Ok r) ->
  exists r ret', iterate_from A (option B) (fun _ => l) (fun _ e _ => bind (F e) (fun f => Ok (f, flag f))) fuel None i ret = Ok (r, ret') /\
    ((exists x b, r = Some b /\ In x ys /\ F x = Ok (Some b)) \/ (r = None /\ forall x, In x ys -> F x = Ok None)).
Proof.
  intros R. induction ys as [|y ys IH]; intros [|fuel] i ret P E L Lf H; try (cbn [length] in Lf; lia); cbn [iterate_from].
  - assert (Sz : l_size l = Z.of_nat (length xs)) by apply R. rewrite Sz.
    assert (N : (length xs <= Z.to_nat i)%nat).
    { apply (f_equal (@length A)) in E. rewrite skipn_length in E. cbn [length] in E. lia. }
    destruct (Z.ltb_spec i (Z.of_nat (length xs))) as [|_]; [lia|]. eexists. eexists. split; [reflexivity|]. right. split; [auto|]. intros x [].
  - assert (Sz : l_size l = Z.of_nat (length xs)) by apply R. rewrite Sz.
    assert (N : nth_error xs (Z.to_nat i) = Some y).
    { rewrite <- (firstn_skipn (Z.to_nat i) xs), E. pose proof (f_equal (@length A) E) as E'. rewrite skipn_length in E'. cbn [length] in E'.
      rewrite nth_error_app2; rewrite firstn_length; [|lia]. replace (Z.to_nat i - _)%nat with 0%nat by lia. auto. }
    assert (Z.to_nat i < length xs)%nat by (apply nth_error_Some; congruence).
    destruct (Z.ltb_spec i (Z.of_nat (length xs))) as [_|]; [|lia]. rewrite (rep_read l xs i y R N P). cbn [bind].
    destruct (H y (or_introl eq_refl)) as (r & Er). rewrite Er. cbn [bind]. destruct r as [b|]; cbn [flag].
    + change (1 =? 0) with false. cbn iota. eexists. eexists. split; [reflexivity|]. left. exists y, b. cbn; auto.
    + change (0 =? 0) with true. cbn iota. destruct (IH fuel (i + 1) (Some 0)) as (r & ret' & Ei & D); [lia| |lia|cbn [length] in Lf; lia|intros; apply H; right; auto|].
      { replace (Z.to_nat (i + 1)) with (S (Z.to_nat i)) by lia. rewrite <- (firstn_skipn (Z.to_nat i) xs) at 1.
        rewrite E. rewrite skipn_app, firstn_length. rewrite skipn_all2 by (rewrite firstn_length; lia).
        replace (_ - _)%nat with 1%nat by lia. auto. }
      exists r, ret'. split; [exact Ei|]. destruct D as [(x & b & D1 & D2 & D3)|(D1 & D2)]; [left; exists x, b; cbn; auto|].
      right. split; [auto|]. intros x [<-|I]; auto.
Qed.

Lemma search_stopped {K V B} (F : K -> option V -> outcome (option B)) ps : forall r,
  fold_left (fun o '(k, v) => bind o (fun '(c, ret) => if negb (ret =? 0) then Ok (c, ret) else bind (F k v) (fun f => Ok (f, flag f)))) ps (Ok (Some r, 1)) = Ok (Some r, 1).
Proof. induction ps as [|(k, v) ps IH]; intros r; cbn [fold_left bind]; [auto|]. change (negb (1 =? 0)) with true. cbn iota. apply IH. Qed.
Lemma search_map {K V B} (F : K -> option V -> outcome (option B)) : forall ps, (forall k v, In (k, v) ps -> exists r, F k v = Ok r) ->
  exists r ret, fold_left (fun o '(k, v) => bind o (fun '(c, ret) => if negb (ret =? 0) then Ok (c, ret) else bind (F k v) (fun f => Ok (f, flag f)))) ps (Ok (None, 0)) = Ok (r, ret) /\
    ((exists k v b, r = Some b /\ In (k, v) ps /\ F k v = Ok (Some b)) \/ (r = None /\ forall k v, In (k, v) ps -> F k v = Ok None)).
Proof.
  induction ps as [|(k, v) ps IH]; intros H; cbn [fold_left bind].
  - eexists. eexists. split; [reflexivity|]. right. split; [auto|]. intros k v [].
  - change (negb (0 =? 0)) with false. cbn iota. destruct (H k v (or_introl eq_refl)) as (r & E). rewrite E. cbn [bind].
    destruct r as [b|]; cbn [flag].
    + rewrite search_stopped. eexists. eexists. split; [reflexivity|]. left. exists k, v, b. cbn; auto.
    + destruct IH as (r & ret & E' & D); [intros; apply H; right; auto|]. exists r, ret. split; [exact E'|].
      destruct D as [(k1 & v1 & b & D1 & D2 & D3)|(D1 & D2)]; [left; exists k1, v1, b; cbn; auto|].
      right. split; [auto|]. intros k1 v1 [I|I]; [injection I as <- <-; auto|auto].
Qed.

Lemma size_arr_in x l : In x l -> (size x < size (JArr l))%nat.
Proof.
  intros I. cbn [size]. induction l as [|y l IH]; [destruct I|]. destruct I as [<-|I]; cbn [map list_sum fold_right]; [lia|]. specialize (IH I). unfold list_sum in IH. lia.
Qed.
Lemma size_obj_in kv l : In kv l -> (size (snd kv) < size (JObj l))%nat.
Proof.
  intros I. cbn [size]. induction l as [|y l IH]; [destruct I|]. destruct I as [<-|I]; cbn [map list_sum fold_right]; [lia|]. specialize (IH I). unfold list_sum in IH. lia.
Qed.
Lemma size_pos j : (1 <= size j)%nat.
Proof. destruct j; cbn [size]; lia. Qed.
Lemma size_arr_len l : (length l < size (JArr l))%nat.
Proof. cbn [size]. induction l as [|y l IH]; cbn [map list_sum fold_right length]; [lia|]. pose proof (size_pos y). unfold list_sum in IH. lia. Qed.
Lemma size_obj_len l : (length l < size (JObj l))%nat.
Proof. cbn [size]. induction l as [|y l IH]; cbn [map list_sum fold_right length]; [lia|]. pose proof (size_pos (snd y)). unfold list_sum in IH. lia. Qed.
Lemma forall2_in_r {A B} (R : A -> B -> Prop) l l' y : Forall2 R l l' -> In y l' -> exists x, In x l /\ R x y.
Proof. induction 1 as [|x0 y0 l l' H F IH]; [intros []|]; intros [E|I]; [subst; eexists; split; [left; auto|auto]|destruct (IH I) as (x & I' & H'); exists x; split; [right; auto|auto]]. Qed.
Lemma forall2_in_l {A B} (R : A -> B -> Prop) l l' x : Forall2 R l l' -> In x l -> exists y, In y l' /\ R x y.
Proof. induction 1 as [|x0 y0 l l' H F IH]; [intros []|]; intros [E|I]; [subst; eexists; split; [left; auto|auto]|destruct (IH I) as (y & I' & H'); exists y; split; [right; auto|auto]]. Qed.

Lemma has_ok h key : forall fuel j a, holds h j a -> (size j < fuel)%nat ->
  exists r, has fuel h (Some a) key = Ok r /\
  match r with Some b => exists v, holds h v b /\ nested key v j | None => forall v, ~ nested key v j end.
Proof.
  induction fuel as [|n IH]; intros j a H L; [lia|]. destruct (leaf_cases j) as [(nd & Lf)|[(js & ->)|(kjs & ->)]].
  - apply (holds_leaf h j a nd Lf) in H. exists None. cbn [has load]. rewrite H. cbn [of_option bind]. split.
    + destruct nd; auto; [exfalso; eapply leaf_not_arr; eauto|exfalso; eapply leaf_not_obj; eauto].
    + intros v N. destruct N; discriminate.
  - apply holds_arr in H as (l & xs & E & R & F). cbn [has load]. rewrite E. cbn [of_option bind].
    unfold list_iterate. pose proof (size_arr_len js). pose proof (forall2_len F).
    assert (Each : forall x, In (Some x) (map Some xs) -> exists j, In j js /\ holds h j x).
    { intros x I. apply in_map_iff in I as (y & Ey & I). injection Ey as ->. eapply forall2_in_r in F; eauto. }
    destruct (search_list l (map Some xs) (fun e => has n h e key) R (map Some xs) n 0 None) as (r & ret & Ei & D); [lia|auto|rewrite map_length; lia|rewrite map_length; lia| |].
    { intros x I. pose proof I as I2. apply in_map_iff in I2 as (y & <- & _). destruct (Each y I) as (j & Ij & Hj).
      destruct (IH j y Hj) as (r & Er & _); [apply size_arr_in in Ij; lia|eauto]. }
    exists r. split; [unfold flag in Ei; unfold bind at 1; rewrite Ei; auto|]. destruct D as [(x & b & -> & I & Ex)|(-> & N)].
    + pose proof I as I2. apply in_map_iff in I2 as (y & <- & _). destruct (Each y I) as (j & Ij & Hj).
      destruct (IH j y Hj) as (r & Er & Q); [apply size_arr_in in Ij; lia|]. rewrite Ex in Er. injection Er as <-.
      destruct Q as (v & Hv & Nv). exists v. split; [auto|]. eapply nested_arr; eauto.
    + intros v Nv. inversion Nv as [| |l0 j Ij Nj]; subst. eapply forall2_in_l in F as (y & Iy & Hy); [|exact Ij].
      destruct (IH j y Hy) as (r & Er & Q); [apply size_arr_in in Ij; lia|]. rewrite (N (Some y)) in Er by (apply in_map; auto).
      injection Er as <-. exact (Q v Nj).
  - apply holds_obj in H as (m & kas & E & R & F). cbn [has load]. rewrite E. cbn [of_option bind]. unfold map_iterate.
    pose proof (visited_rep strcmp m _ R) as P.
    assert (Each : forall k v, In (k, v) (visited _ (m_root m)) -> exists x j, v = Some x /\ In (k, j) kjs /\ holds h j x).
    { intros k v I. apply (Permutation_in _ P) in I. unfold wrapped in I. apply in_map_iff in I as ((k', x) & Ex & I). injection Ex as -> <-.
      eapply forall2_in_r in F as ((k'', j) & Ij & Ek & Hj); [|exact I]. cbn [fst snd] in *. subst k''. eauto. }
    set (FF := fun (k : text) (v : option nat) => if strcmp k key =? 0 then Ok v else has n h v key).
    assert (Eq : forall ps : list (text * option nat), (forall k v, In (k, v) ps -> v <> None) -> forall o,
       fold_left (fun o '(k, v) => bind o (fun '(c, ret) => if negb (ret =? 0) then Ok (c, ret) else
          if strcmp k key =? 0 then Ok (v, 1) else bind (has n h v key) (fun f => Ok (f, flag f)))) ps o =
       fold_left (fun o '(k, v) => bind o (fun '(c, ret) => if negb (ret =? 0) then Ok (c, ret) else bind (FF k v) (fun f => Ok (f, flag f)))) ps o).
    { induction ps as [|(k, v) ps IHp]; intros NN o; cbn [fold_left]; [auto|]. rewrite <- IHp by (intros; eapply NN; right; eauto). f_equal.
      destruct o as [(c, ret)|]; cbn [bind]; [|auto]. destruct (negb (ret =? 0)); [auto|]. unfold FF. destruct (strcmp k key =? 0); [|auto].
      cbn [bind]. destruct v; [auto|]. exfalso. apply (NN k None); [left; auto|auto]. }
    destruct (search_map FF (visited _ (m_root m))) as (r & ret & Ei & D).
    { intros k v I. unfold FF. destruct (strcmp k key =? 0); [eauto|]. destruct (Each k v I) as (x & j & -> & Ij & Hj).
      destruct (IH j x Hj) as (r & Er & _); [apply size_obj_in in Ij; cbn [snd] in Ij; lia|eauto]. }
    exists r. split.
    { unfold flag in Eq, Ei. rewrite Eq; [rewrite Ei; auto|]. intros k v I. destruct (Each k v I) as (x & j & -> & _). discriminate. }
    destruct D as [(k & v & b & -> & I & Ex)|(-> & N)].
    + destruct (Each k v I) as (x & j & -> & Ij & Hj). unfold FF in Ex. destruct (Z.eqb_spec (strcmp k key) 0) as [C|C].
      * apply strcmp_eq in C. subst k. injection Ex as ->. exists j. split; [auto|]. apply nested_here; auto.
      * destruct (IH j x Hj) as (r & Er & Q); [apply size_obj_in in Ij; cbn [snd] in Ij; lia|]. rewrite Ex in Er. injection Er as <-.
        destruct Q as (v & Hv & Nv). exists v. split; [auto|]. eapply nested_obj; eauto.
    + assert (Any : forall k j, In (k, j) kjs -> k <> key /\ forall v, ~ nested key v j).
      { intros k j Ij. eapply forall2_in_l in F as ((k', y) & Iy & Ek & Hy); [|exact Ij]. cbn [fst snd] in *. subst k'.
        assert (Iv : In (k, Some y) (visited _ (m_root m))) by (apply (Permutation_in _ (Permutation_sym P)); unfold wrapped; apply in_map_iff; exists (k, y); auto).
        specialize (N k (Some y) Iv). unfold FF in N. destruct (Z.eqb_spec (strcmp k key) 0) as [C|C]; [discriminate|].
        split; [intros ->; apply C, strcmp_eq; auto|].
        destruct (IH j y Hy) as (r & Er & Q); [apply size_obj_in in Ij; cbn [snd] in Ij; lia|]. rewrite N in Er. injection Er as <-. exact Q. }
      intros v Nv. inversion Nv as [kvs I|kvs k' x I Nx|]; subst.
      * destruct (Any key v I) as (X & _). congruence.
      * destruct (Any k' x I) as (_ & X). exact (X v Nx).
Qed.
