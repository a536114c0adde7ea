(** cee_set refines finite sets. *)
From Coq Require Import ZArith List Bool Lia Sorting.Permutation.
From Verif Require Import Base TsearchModel TsearchProofs SetModel.
Import ListNotations.
Open Scope Z_scope.
Local Arguments Z.add : simpl never.
Local Arguments Z.sub : simpl never.
Local Arguments Z.of_nat : simpl never.

(** * Specification: the elements present, oldest first *)
Section Spec.
Context {E : Type}.
Variable cmp : E -> E -> Z.

Inductive set_op : Type := EAdd (v : E) | ERemove (k : E) | EFind (k : E) | ESize | EEmpty | EClear.
Inductive set_res : Type := RUnit | ROpt (o : option E) | RNum (z : Z) | RBool (b : bool).

Definition same (x y : E) : bool := cmp x y =? 0.

Definition ideal_step (xs : list E) (op : set_op) : list E * set_res :=
  match op with
  | EAdd v => (if existsb (same v) xs then xs else xs ++ [v], RUnit)
  | ERemove k => (filter (fun y => negb (same k y)) xs, ROpt (find (same k) xs))
  | EFind k => (xs, ROpt (find (same k) xs))
  | ESize => (xs, RNum (Z.of_nat (length xs)))
  | EEmpty => (xs, RBool (match xs with [] => true | _ => false end))
  | EClear => ([], RUnit)
  end.

Fixpoint ideal_run (xs : list E) (ops : list set_op) : list E * list set_res :=
  match ops with
  | [] => (xs, [])
  | op :: ops' =>
    let (xs', r) := ideal_step xs op in
    let (xs'', rs) := ideal_run xs' ops' in (xs'', r :: rs)
  end.

(** No addition of a pointer that is in the set at that moment. *)
Fixpoint no_readd (xs : list E) (ops : list set_op) : Prop :=
  match ops with
  | [] => True
  | op :: ops' =>
    match op with EAdd v => ~ In v xs | _ => True end
    /\ no_readd (fst (ideal_step xs op)) ops'
  end.

(** What the functions count: the elements, and every addition of a pointer that
    is in the set, since the set was empty. *)
Fixpoint counted_run (xs : list E) (again : Z) (is_in : E -> list E -> bool) (ops : list set_op) : list set_res :=
  match ops with
  | [] => []
  | op :: ops' =>
    (match op with
     | ESize => RNum (Z.of_nat (length xs) + again)
     | EEmpty => RBool (Z.of_nat (length xs) + again =? 0)
     | _ => snd (ideal_step xs op)
     end) ::
    counted_run (fst (ideal_step xs op))
      (match op with EAdd v => if is_in v xs then again + 1 else again | EClear => 0 | _ => again end) is_in ops'
  end.

(** Operations whose results do not involve the element count. *)
Definition membership_op (op : set_op) : Prop :=
  match op with ESize | EEmpty => False | _ => True end.

(** * Running the model *)
Variable eqb : E -> E -> bool.

Definition model_step (s : cset E) (op : set_op) : outcome (cset E * set_res) :=
  match op with
  | EAdd v => bind (set_add E eqb cmp s v) (fun s' => Ok (s', RUnit))
  | ERemove k => bind (set_remove E cmp (Some s) k) (fun '(r, s') => Ok (s', ROpt r))
  | EFind k => bind (set_find E cmp (Some s) k) (fun r => Ok (s, ROpt r))
  | ESize => bind (set_size E (Some s)) (fun r => Ok (s, RNum r))
  | EEmpty => bind (set_empty E (Some s)) (fun r => Ok (s, RBool r))
  | EClear => Ok (snd (set_clear E s), RUnit)
  end.

Fixpoint model_run (s : cset E) (ops : list set_op) : outcome (cset E * list set_res) :=
  match ops with
  | [] => Ok (s, [])
  | op :: ops' =>
    bind (model_step s op) (fun '(s', r) =>
    bind (model_run s' ops') (fun '(s'', rs) => Ok (s'', r :: rs)))
  end.
End Spec.

Arguments set_op E : clear implicits.
Arguments set_res E : clear implicits.

(** * Lists up to the comparison *)
Section Uniq.
Context {E : Type}.
Variable cmp : E -> E -> Z.

(** No two entries compare equal. *)
Definition uniq (l : list E) : Prop :=
  NoDup l /\ forall x y, In x l -> In y l -> cmp x y = 0 -> x = y.

Lemma uniq_perm l l' : Permutation l l' -> uniq l -> uniq l'.
Proof.
  intros P [N U]. split.
  - eapply Permutation_NoDup; eauto.
  - intros x y Hx Hy. apply U; (eapply Permutation_in; [apply Permutation_sym; exact P|assumption]).
Qed.

Context (TC : total_cmp cmp).

Lemma sorted_uniq l : sorted cmp l -> uniq l.
Proof.
  intros S. split.
  - induction l as [|a l IH]; constructor.
    + rewrite sorted_cons in S. destruct S as [_ S]. intros H. apply S in H.
      rewrite cmp_refl in H; auto; lia.
    + apply IH. rewrite sorted_cons in S; tauto.
  - intros x y Hx Hy C. eapply (sorted_eq_unique cmp TC x l); eauto. apply cmp_refl; auto.
Qed.

Lemma find_some_uniq l k e : uniq l -> In e l -> cmp k e = 0 ->
  find (same cmp k) l = Some e.
Proof.
  intros [N U] Hin C. induction l as [|a l IH]; [destruct Hin|].
  cbn [find]. unfold same at 1. destruct (cmp k a =? 0) eqn:CA.
  - apply Z.eqb_eq in CA. f_equal. apply U; simpl; auto.
    eapply cmp_eq_trans; eauto. apply cmp_flip_eq; auto.
  - destruct Hin as [->|Hin]; [apply Z.eqb_neq in CA; lia|].
    inversion N; subst. apply IH; auto. intros; apply U; simpl; auto.
Qed.

Lemma find_none_all l k : (forall e, In e l -> cmp k e <> 0) -> find (same cmp k) l = None.
Proof.
  intros H. induction l as [|a l IH]; auto. cbn [find]. unfold same at 1.
  rewrite (proj2 (Z.eqb_neq _ _) (H a (or_introl eq_refl))). apply IH. simpl in H; auto.
Qed.

Lemma existsb_same_find l k :
  existsb (same cmp k) l = match find (same cmp k) l with Some _ => true | None => false end.
Proof. induction l; simpl; auto. destruct (same cmp k a); auto. Qed.

Lemma filter_none l k : (forall e, In e l -> cmp k e <> 0) ->
  filter (fun y => negb (same cmp k y)) l = l.
Proof.
  intros H. induction l as [|a l IH]; auto. cbn [filter]. unfold same at 1.
  rewrite (proj2 (Z.eqb_neq _ _) (H a (or_introl eq_refl))). simpl. f_equal. apply IH. simpl in H; auto.
Qed.

Lemma filter_split l1 e l2 k : uniq (l1 ++ e :: l2) -> cmp k e = 0 ->
  filter (fun y => negb (same cmp k y)) (l1 ++ e :: l2) = l1 ++ l2.
Proof.
  intros [N U] C.
  assert (D : forall x, In x (l1 ++ l2) -> cmp k x <> 0).
  { intros x Hx Hc.
    assert (x = e).
    { apply U.
      - rewrite in_app_iff in *. simpl. tauto.
      - apply in_elt.
      - eapply cmp_eq_trans; eauto. apply cmp_flip_eq; auto. }
    subst. apply NoDup_remove_2 in N. tauto. }
  rewrite filter_app. cbn [filter]. unfold same at 2. rewrite C. simpl.
  rewrite !filter_none; auto; intros x Hx; apply D; apply in_app_iff; auto.
Qed.
End Uniq.

Lemma Permutation_filter' {B} (f : B -> bool) l l' :
  Permutation l l' -> Permutation (filter f l) (filter f l').
Proof.
  induction 1; simpl; auto.
  - destruct (f x); auto.
  - destruct (f x), (f y); auto. constructor.
  - etransitivity; eauto.
Qed.

Lemma Permutation_length_filter {B} (l l' : list B) : Permutation l l' -> length l = length l'.
Proof. apply Permutation_length. Qed.

(** * Refinement *)
Section Proofs.
Context {E : Type}.
Variable cmp : E -> E -> Z.
Variable eqb : E -> E -> bool.
Context (TC : total_cmp cmp).
Context (EQ : forall x y, eqb x y = true <-> x = y).

(** The set holds exactly [xs]; the size field is [extra] too large. *)
Definition rep (s : cset E) (xs : list E) (extra : Z) : Prop :=
  avl (s_root s) /\ sorted cmp (inorder (s_root s)) /\
  Permutation (inorder (s_root s)) xs /\ s_size s = Z.of_nat (length xs) + extra.

Definition next_extra (xs : list E) (op : set_op E) (extra : Z) : Z :=
  match op with
  | EAdd v =>
    match find (same cmp v) xs with
    | Some e => if eqb e v then extra + 1 else extra
    | None => extra
    end
  | EClear => 0
  | _ => extra
  end.

Lemma rep_mk : rep (set_mk E) [] 0.
Proof. repeat split; auto. constructor. Qed.

Lemma rep_uniq s xs extra : rep s xs extra -> uniq cmp xs.
Proof.
  intros (_ & S & P & _). eapply uniq_perm; eauto. apply sorted_uniq; auto.
Qed.

Lemma rep_bound s xs extra : rep s xs extra -> Z.of_nat (length xs) <= 2 ^ 64 ->
  rheight (s_root s) + 1 <= MAXH.
Proof.
  intros (A & _ & P & _) H. apply Permutation_length in P. rewrite <- P in H.
  apply avl_height_64 in H; auto. change MAXH with 96. lia.
Qed.

Lemma tfind_rep s xs extra k : rep s xs extra ->
  tfind E cmp k (s_root s) = find (same cmp k) xs.
Proof.
  intros R. pose proof (rep_uniq _ _ _ R) as U. destruct R as (A & S & P & _).
  pose proof (tfind_spec cmp TC k (s_root s) S) as T.
  destruct (tfind E cmp k (s_root s)) as [e|].
  - destruct T as [T1 T2]. symmetry. apply find_some_uniq; auto.
    eapply Permutation_in; eauto.
  - symmetry. apply find_none_all. intros e He. apply T.
    eapply Permutation_in; [symmetry|]; eauto.
Qed.

Lemma add_rep s xs extra v : rep s xs extra -> Z.of_nat (length xs) <= 2 ^ 64 ->
  exists s', set_add E eqb cmp s v = Ok s'
    /\ rep s' (fst (ideal_step cmp xs (EAdd v))) (next_extra xs (EAdd v) extra).
Proof.
  intros R HB. pose proof (rep_bound _ _ _ R HB) as HM.
  pose proof (rep_uniq _ _ _ R) as U.
  pose proof R as (A & S & P & SZ).
  unfold set_add, ideal_step, next_extra. rewrite existsb_same_find.
  destruct (tsearch_spec cmp TC v (s_root s) A S HM) as
    [(e & -> & He & Ce) | (root' & l & r & -> & Hn & A' & I0 & I1 & S')]; cbn [bind].
  - assert (F : find (same cmp v) xs = Some e).
    { apply find_some_uniq; auto. eapply Permutation_in; eauto. }
    rewrite F. cbn [fst].
    destruct (eqb e v); cbn [negb]; eexists; (split; [reflexivity|]);
      repeat split; auto; cbn [s_size]; lia.
  - assert (F : find (same cmp v) xs = None).
    { apply find_none_all. intros e He. apply Hn. eapply Permutation_in; [symmetry|]; eauto. }
    rewrite F. cbn [fst].
    assert (eqb v v = true) as -> by (apply EQ; auto). cbn [negb].
    eexists; split; [reflexivity|]. repeat split; cbn [s_root s_size]; auto.
    + rewrite I1. rewrite I0 in P. rewrite <- Permutation_middle, P.
      rewrite Permutation_cons_append. reflexivity.
    + rewrite app_length. cbn [length]. lia.
Qed.

Lemma remove_rep s xs extra k : rep s xs extra -> Z.of_nat (length xs) <= 2 ^ 64 ->
  exists s', set_remove E cmp (Some s) k = Ok (find (same cmp k) xs, s')
    /\ rep s' (fst (ideal_step cmp xs (ERemove k))) extra.
Proof.
  intros R HB. pose proof (rep_bound _ _ _ R HB) as HM.
  pose proof (rep_uniq _ _ _ R) as U.
  pose proof R as (A & S & P & SZ).
  unfold set_remove. cbn [ideal_step fst].
  rewrite (tfind_rep _ _ _ k R).
  destruct (tdelete_spec cmp TC k (s_root s) A S HM) as
    [(D & Hn) | (root' & l & e & r & D & Ce & A' & I0 & I1 & S')].
  - assert (F : find (same cmp k) xs = None).
    { apply find_none_all. intros e He. apply Hn. eapply Permutation_in; [symmetry|]; eauto. }
    rewrite F. eexists; split; [reflexivity|].
    rewrite filter_none; auto. intros e He. apply Hn. eapply Permutation_in; [symmetry|]; eauto.
  - assert (F : find (same cmp k) xs = Some e).
    { apply find_some_uniq; auto. eapply Permutation_in; eauto. rewrite I0. apply in_elt. }
    rewrite F, D. cbn [bind]. eexists; split; [reflexivity|].
    assert (P2 : Permutation (inorder root') (filter (fun y => negb (same cmp k y)) xs)).
    { rewrite I1. rewrite <- (filter_split cmp TC l e r k); auto.
      - rewrite <- I0. apply Permutation_filter'; auto.
      - rewrite <- I0. apply sorted_uniq; auto. }
    repeat split; cbn [s_root s_size]; auto.
    apply Permutation_length in P2. apply Permutation_length in P.
    rewrite <- P2. rewrite I1. rewrite I0 in P. rewrite app_length in *. cbn [length] in P. lia.
Qed.

Lemma step_length (xs : list E) op : (length (fst (ideal_step cmp xs op)) <= S (length xs))%nat.
Proof.
  destruct op; simpl; auto.
  - destruct (existsb _ _); [lia|]. rewrite app_length; simpl; lia.
  - induction xs; simpl; auto. destruct (negb _); simpl; lia.
  - lia.
Qed.

(** Results adjusted by the surplus of the size field. *)
Definition adjust (extra : Z) (xs : list E) (r : set_res E) : set_res E :=
  match r with
  | RNum z => RNum (z + extra)
  | RBool _ => RBool (Z.of_nat (length xs) + extra =? 0)
  | _ => r
  end.

Lemma step_rep s xs extra op : rep s xs extra -> Z.of_nat (length xs) <= 2 ^ 64 ->
  exists s', model_step cmp eqb s op = Ok (s', adjust extra xs (snd (ideal_step cmp xs op)))
    /\ rep s' (fst (ideal_step cmp xs op)) (next_extra xs op extra).
Proof.
  intros R HB. destruct op as [v|k|k| | |]; cbn [model_step].
  - destruct (add_rep s xs extra v R HB) as (s' & -> & R'). cbn [bind]. eauto.
  - destruct (remove_rep s xs extra k R HB) as (s' & -> & R'). cbn [bind]. eauto.
  - cbn [set_find bind]. rewrite (tfind_rep _ _ _ k R). eauto.
  - cbn [set_size bind]. pose proof R as (_ & _ & _ & SZ). rewrite SZ. eauto.
  - cbn [set_empty bind]. pose proof R as (_ & _ & _ & SZ). rewrite SZ. eauto.
  - exists (CSet 0 Nil). split; [reflexivity|]. apply rep_mk.
Qed.

(** All histories, with the count. *)
Lemma next_extra_again xs op extra : uniq cmp xs ->
  next_extra xs op extra = match op with EAdd v => if existsb (eqb v) xs then extra + 1 else extra | EClear => 0 | _ => extra end.
Proof.
  intros U. destruct op as [v|k|k| | |]; cbn [next_extra]; auto.
  destruct (existsb (eqb v) xs) eqn:X.
  - apply existsb_exists in X as (e & He & Ee). apply EQ in Ee. subst e.
    rewrite (find_some_uniq cmp TC xs v v U He); [|apply cmp_refl; auto].
    assert (eqb v v = true) as -> by (apply EQ; auto). auto.
  - destruct (find (same cmp v) xs) as [e|] eqn:F; auto. destruct (eqb e v) eqn:Ee; auto.
    apply EQ in Ee. subst e. apply find_some in F as [F _]. rewrite <- not_true_iff_false in X. exfalso. apply X.
    apply existsb_exists. exists v. split; [auto|apply EQ; auto].
Qed.
Lemma run_counted ops : forall s xs extra,
  rep s xs extra -> Z.of_nat (length xs + length ops) <= 2 ^ 64 ->
  exists s' extra', model_run cmp eqb s ops = Ok (s', counted_run cmp xs extra (fun v => existsb (eqb v)) ops)
    /\ rep s' (fst (ideal_run cmp xs ops)) extra'.
Proof.
  induction ops as [|op ops IH]; intros s xs extra R HB; cbn [model_run ideal_run counted_run].
  - cbn. eauto.
  - cbn [length] in HB.
    destruct (step_rep s xs extra op R) as (s1 & -> & R1); [lia|]. cbn [bind].
    rewrite (next_extra_again _ _ _ (rep_uniq _ _ _ R)) in R1.
    pose proof (step_length xs op) as SL.
    destruct (IH s1 _ _ R1) as (s2 & ex & -> & R2); [lia|]. cbn [bind].
    exists s2, ex. split.
    + do 3 f_equal. destruct op; reflexivity.
    + destruct (ideal_step cmp xs op) as [xs' r]. cbn [fst] in *. destruct (ideal_run cmp xs' ops). exact R2.
Qed.

(** All histories: everything but the element count is right. *)
Lemma run_membership ops : Forall membership_op ops -> forall s xs extra,
  rep s xs extra -> Z.of_nat (length xs + length ops) <= 2 ^ 64 ->
  exists s' extra', model_run cmp eqb s ops = Ok (s', snd (ideal_run cmp xs ops))
    /\ rep s' (fst (ideal_run cmp xs ops)) extra'.
Proof.
  induction 1 as [|op ops HO HF IH]; intros s xs extra R HB; cbn [model_run ideal_run].
  - cbn. eauto.
  - cbn [length] in HB.
    destruct (step_rep s xs extra op R) as (s1 & -> & R1); [lia|]. cbn [bind].
    pose proof (step_length xs op).
    destruct (IH s1 _ _ R1) as (s2 & ex & -> & R2); [lia|]. cbn [bind].
    assert (adjust extra xs (snd (ideal_step cmp xs op)) = snd (ideal_step cmp xs op)) as ->.
    { destruct op; simpl in *; tauto. }
    destruct (ideal_step cmp xs op) as [xs' r]. cbn [fst snd] in *.
    destruct (ideal_run cmp xs' ops) as [xs'' rs]. cbn [fst snd] in *. eauto.
Qed.

(** Histories that never add a pointer already present: everything is right. *)
Lemma run_no_readd ops : forall s xs,
  rep s xs 0 -> Z.of_nat (length xs + length ops) <= 2 ^ 64 -> no_readd cmp xs ops ->
  exists s', model_run cmp eqb s ops = Ok (s', snd (ideal_run cmp xs ops))
    /\ rep s' (fst (ideal_run cmp xs ops)) 0.
Proof.
  induction ops as [|op ops IH]; intros s xs R HB HN; cbn [model_run ideal_run].
  - cbn. eauto.
  - cbn [length] in HB. destruct HN as [HN1 HN2].
    destruct (step_rep s xs 0 op R) as (s1 & -> & R1); [lia|]. cbn [bind].
    pose proof (step_length xs op).
    assert (next_extra xs op 0 = 0) as NE.
    { destruct op; simpl; auto. destruct (find (same cmp v) xs) as [e|] eqn:F; auto.
      destruct (eqb e v) eqn:EE; auto. apply EQ in EE. subst.
      apply find_some in F. tauto. }
    rewrite NE in R1.
    destruct (IH s1 _ R1) as (s2 & -> & R2); [lia|auto|]. cbn [bind].
    assert (adjust 0 xs (snd (ideal_step cmp xs op)) = snd (ideal_step cmp xs op)) as ->.
    { destruct op; cbn [ideal_step snd adjust]; auto; [f_equal; lia|].
      destruct xs; cbn [length]; auto. }
    destruct (ideal_step cmp xs op) as [xs' r]. cbn [fst snd] in *.
    destruct (ideal_run cmp xs' ops) as [xs'' rs]. cbn [fst snd] in *. eauto.
Qed.

(** ** values, iterate, clear, clone, union *)
Lemma values_rep s xs extra : rep s xs extra -> Permutation (set_values E s) xs.
Proof.
  intros (A & _ & P & _). unfold set_values. rewrite visited_perm; auto.
Qed.

Lemma clear_rep s xs extra : rep s xs extra -> Permutation (fst (set_clear E s)) xs.
Proof. intros (_ & _ & P & _). cbn [set_clear fst]. rewrite tdestroy_perm. exact P. Qed.

Lemma iterate_values {S} s (f : S -> E -> S) ctx :
  set_iterate E (Some s) (fun c e => Ok (f c e)) ctx
  = Ok (fold_left f (set_values E s) ctx).
Proof.
  unfold set_iterate, set_values. generalize (visited E (s_root s)).
  intros l. revert ctx. induction l; intros ctx; simpl; auto.
Qed.

Lemma add_all_rep vs : forall s xs extra,
  rep s xs extra -> Z.of_nat (length xs + length vs) <= 2 ^ 64 ->
  exists s' extra', add_all E eqb cmp s vs = Ok s'
    /\ rep s' (fold_left (fun acc v => if existsb (same cmp v) acc then acc else acc ++ [v]) vs xs) extra'
    /\ (extra = 0 -> (forall v, In v vs -> ~ In v xs) -> NoDup vs -> uniq cmp vs -> extra' = 0).
Proof.
  induction vs as [|v vs IH]; intros s xs extra R HB; cbn [add_all fold_left].
  - exists s, extra; auto.
  - cbn [length] in HB.
    destruct (add_rep s xs extra v R) as (s1 & -> & R1); [lia|]. cbn [bind].
    pose proof (step_length xs (EAdd v)) as SL. cbn [ideal_step fst] in *.
    destruct (IH s1 _ _ R1) as (s2 & ex & -> & R2 & Z2); [lia|].
    exists s2, ex. split; [auto|]. split; [exact R2|].
    intros E0 HN ND UQ. apply Z2.
    + unfold next_extra. destruct (find (same cmp v) xs) as [e|] eqn:F; auto.
      destruct (eqb e v) eqn:EE; auto. apply EQ in EE. subst.
      apply find_some in F as [F _]. exfalso. apply (HN v); simpl; auto.
    + inversion ND; subst. intros w Hw. destruct (existsb _ _).
      * apply HN; simpl; auto.
      * rewrite in_app_iff. intros [?|[<-|[]]]; [|tauto]. apply (HN w); simpl; auto.
    + inversion ND; auto.
    + destruct UQ as [_ U]. inversion ND; subst. split; auto. intros; apply U; simpl; auto.
Qed.

Lemma fold_add_fresh vs : forall xs,
  (forall v w, In v vs -> In w xs -> cmp v w <> 0) -> uniq cmp vs ->
  fold_left (fun acc v => if existsb (same cmp v) acc then acc else acc ++ [v]) vs xs = xs ++ vs.
Proof.
  induction vs as [|v vs IH]; intros xs H U; cbn [fold_left]; [rewrite app_nil_r; auto|].
  rewrite existsb_same_find, find_none_all; [|intros; apply H; simpl; auto].
  rewrite IH.
  - rewrite <- app_assoc; auto.
  - intros a b Ha Hb. rewrite in_app_iff in Hb. destruct Hb as [Hb|[<-|[]]].
    + apply H; simpl; auto.
    + intros C. destruct U as [N U]. inversion N; subst.
      rewrite (U a v) in Ha; simpl; auto.
  - destruct U as [N U]. inversion N; subst. split; auto. intros; apply U; simpl; auto.
Qed.

(** Elements of the union, whatever the order. *)
Lemma fold_add_in vs : forall xs e,
  In e (fold_left (fun acc v => if existsb (same cmp v) acc then acc else acc ++ [v]) vs xs) ->
  In e xs \/ In e vs.
Proof.
  induction vs as [|v vs IH]; intros xs e; cbn [fold_left]; auto.
  intros H. apply IH in H. destruct (existsb _ _); simpl; [tauto|].
  rewrite in_app_iff in H. simpl in H. tauto.
Qed.

Lemma fold_add_keeps vs : forall xs e, In e xs ->
  In e (fold_left (fun acc v => if existsb (same cmp v) acc then acc else acc ++ [v]) vs xs).
Proof.
  induction vs as [|v vs IH]; intros xs e H; cbn [fold_left]; auto.
  apply IH. destruct (existsb _ _); auto. apply in_app_iff; auto.
Qed.

Lemma fold_add_has vs : forall xs v, In v vs ->
  exists e, In e (fold_left (fun acc v => if existsb (same cmp v) acc then acc else acc ++ [v]) vs xs)
            /\ cmp v e = 0.
Proof.
  induction vs as [|w vs IH]; intros xs v []; cbn [fold_left].
  - subst w. destruct (existsb (same cmp v) xs) eqn:X.
    + apply existsb_exists in X as (e & He & Ce). exists e. split; [apply fold_add_keeps; auto|].
      apply Z.eqb_eq; auto.
    + exists v. split; [apply fold_add_keeps; apply in_app_iff; simpl; auto|]. apply cmp_refl; auto.
  - apply IH; auto.
Qed.

Lemma clone_is_add_all s : set_clone E eqb cmp s = add_all E eqb cmp (set_mk E) (set_values E s).
Proof.
  unfold set_clone, set_iterate, set_values. generalize (visited E (s_root s)) (set_mk E).
  induction l as [|v l IH]; intros s0; cbn [fold_left add_all]; auto.
  cbn [bind]. destruct (set_add E eqb cmp s0 v) as [s1|r]; cbn [bind]; auto.
  clear IH. induction l; cbn [fold_left bind]; auto.
Qed.

Lemma clone_rep s xs extra : rep s xs extra -> Z.of_nat (length xs) <= 2 ^ 64 ->
  exists s', set_clone E eqb cmp s = Ok s' /\ rep s' (set_values E s) 0
             /\ Permutation (set_values E s) xs.
Proof.
  intros R HB. pose proof (values_rep _ _ _ R) as P.
  pose proof (uniq_perm cmp _ _ (Permutation_sym P) (rep_uniq _ _ _ R)) as U.
  rewrite clone_is_add_all.
  destruct (add_all_rep (set_values E s) (set_mk E) [] 0 rep_mk) as (s' & ex & E1 & R1 & Z1).
  { apply Permutation_length in P. simpl. lia. }
  exists s'. rewrite fold_add_fresh in R1; auto; try (simpl; tauto).
  rewrite Z1 in R1; auto. destruct U; auto.
Qed.

Lemma union_rep s1 s2 xs1 xs2 e1 e2 : rep s1 xs1 e1 -> rep s2 xs2 e2 ->
  Z.of_nat (length xs1 + length xs2) <= 2 ^ 64 ->
  exists s xs extra, set_union E eqb cmp true s1 s2 = Ok s /\ rep s xs extra
    /\ (forall x, (exists e, In e xs /\ cmp x e = 0) <->
                  (exists e, (In e xs1 \/ In e xs2) /\ cmp x e = 0))
    /\ (forall e, In e xs -> In e xs1 \/ In e xs2)
    /\ (forall e, In e xs1 -> In e xs).
Proof.
  intros R1 R2 HB. unfold set_union.
  pose proof (values_rep _ _ _ R1) as P1. pose proof (values_rep _ _ _ R2) as P2.
  pose proof (uniq_perm cmp _ _ (Permutation_sym P1) (rep_uniq _ _ _ R1)) as U1.
  pose proof (Permutation_length P1). pose proof (Permutation_length P2).
  destruct (add_all_rep (set_values E s1) (set_mk E) [] 0 rep_mk) as (s' & ex & -> & RR & _).
  { simpl. lia. }
  cbn [bind]. rewrite fold_add_fresh in RR; auto; try (simpl; tauto). cbn [app] in RR.
  destruct (add_all_rep (set_values E s2) s' _ ex RR) as (s'' & ex' & -> & RR' & _).
  { lia. }
  do 3 eexists. split; [reflexivity|]. split; [exact RR'|]. split; [|split].
  - intros x; split.
    + intros (e & He & Ce). exists e. split; auto. apply fold_add_in in He as [He|He].
      * left. eapply Permutation_in; eauto.
      * right. eapply Permutation_in; eauto.
    + intros (e & [He|He] & Ce).
      * exists e. split; auto. apply fold_add_keeps. eapply Permutation_in; [symmetry|]; eauto.
      * destruct (fold_add_has (set_values E s2) (set_values E s1) e) as (e' & He' & Ce').
        { eapply Permutation_in; [symmetry|]; eauto. }
        exists e'. split; auto. eapply cmp_eq_trans; eauto.
  - intros e He. apply fold_add_in in He as [He|He]; [left|right]; eapply Permutation_in; eauto.
  - intros e He. apply fold_add_keeps. eapply Permutation_in; [symmetry|]; eauto.
Qed.

End Proofs.
