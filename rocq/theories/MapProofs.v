(** cee_map refines insertion-ordered finite maps. *)
From Coq Require Import ZArith List Bool Lia Sorting.Permutation.
From Verif Require Import Base TsearchModel TsearchProofs SetProofs MapModel.
Import ListNotations.
Open Scope Z_scope.
Local Arguments Z.add : simpl never.
Local Arguments Z.sub : simpl never.
Local Arguments Z.of_nat : simpl never.
Local Arguments Z.to_nat : simpl never.

(** * Specification: association lists, oldest key first *)
Section Spec.
Context {K V : Type}.
Variable kcmp : K -> K -> Z.
Local Notation entry := (K * option V)%type.

Definition keq (k : K) (p : entry) : bool := kcmp k (fst p) =? 0.

(** The value under a key; [None] is NULL. *)
Definition s_get (k : K) (l : list entry) : option V :=
  match find (keq k) l with Some p => snd p | None => None end.

Definition s_has (k : K) (l : list entry) : bool := existsb (keq k) l.

(** Bind [k] to [f old] if present (keeping its place), else append. *)
Fixpoint s_put (k : K) (v : option V) (f : option V -> option V) (l : list entry)
  : list entry :=
  match l with
  | [] => [(k, v)]
  | p :: l' => if keq k p then (fst p, f (snd p)) :: l' else p :: s_put k v f l'
  end.

Definition s_del (k : K) (l : list entry) : list entry :=
  filter (fun p => negb (keq k p)) l.

Inductive map_op : Type :=
| MAdd (k : option K) (v : option V)
| MMergeIn (k : option K) (v : option V) (f : option V -> option V -> option V)
| MRemove (k : option K)
| MRename (k k' : option K)
| MFind (k : option K)
| MSize
| MKeys.
Inductive map_res : Type :=
| RVal (v : option V) | RNum (z : Z) | RBool (b : bool) | RKeys (ks : list K).

Definition ispec_step (l : list entry) (op : map_op) : list entry * map_res :=
  match op with
  | MAdd (Some k) v => (s_put k v (fun _ => v) l, RVal (s_get k l))
  | MMergeIn (Some k) v f => (s_put k v (fun old => f old v) l, RVal (s_get k l))
  | MRemove (Some k) => (s_del k l, RVal (s_get k l))
  | MRename (Some k) (Some k') =>
    if s_has k l
    then (let v := s_get k l in s_put k' v (fun _ => v) (s_del k l), RBool true)
    else (l, RBool false)
  | MFind (Some k) => (l, RVal (s_get k l))
  | MSize => (l, RNum (Z.of_nat (length l)))
  | MKeys => (l, RKeys (map fst l))
  | MRename _ _ => (l, RBool false)
  | _ => (l, RVal None)
  end.

Fixpoint ispec_run (l : list entry) (ops : list map_op) : list entry * list map_res :=
  match ops with
  | [] => (l, [])
  | op :: ops' =>
    let (l', r) := ispec_step l op in
    let (l'', rs) := ispec_run l' ops' in (l'', r :: rs)
  end.

(** A renamed key is not bound to NULL. *)
Fixpoint rename_ok (l : list entry) (ops : list map_op) : Prop :=
  match ops with
  | [] => True
  | op :: ops' =>
    match op with
    | MRename (Some k) (Some _) => s_has k l = true -> s_get k l <> None
    | _ => True
    end /\ rename_ok (fst (ispec_step l op)) ops'
  end.

(** * Running the model *)
Local Notation cmap := (cmap K V).

Definition mstep (m : cmap) (op : map_op) : outcome (cmap * map_res) :=
  let ret {A} (f : A -> map_res) (o : outcome (A * option cmap)) :=
    bind o (fun '(r, om) => bind (of_option NullDeref om) (fun m' => Ok (m', f r))) in
  match op with
  | MAdd k v => ret RVal (map_add K V kcmp (Some m) k v)
  | MMergeIn k v f => ret RVal (map_add_e K V kcmp (Some m) k v (Some f))
  | MRemove k => ret RVal (map_remove K V kcmp (Some m) k)
  | MRename k k' => ret RBool (map_rename K V kcmp (Some m) k k')
  | MFind k => bind (map_find K V kcmp (Some m) k) (fun v => Ok (m, RVal v))
  | MSize => Ok (m, RNum (map_size K V (Some m)))
  | MKeys => Ok (m, RKeys (map_insertion_ordered_keys K V m))
  end.

Fixpoint mrun (m : cmap) (ops : list map_op) : outcome (cmap * list map_res) :=
  match ops with
  | [] => Ok (m, [])
  | op :: ops' =>
    bind (mstep m op) (fun '(m', r) =>
    bind (mrun m' ops') (fun '(m'', rs) => Ok (m'', r :: rs)))
  end.
End Spec.

Arguments map_op K V : clear implicits.
Arguments map_res K V : clear implicits.

Section Proofs.
Context {K V : Type}.
Variable kcmp : K -> K -> Z.
Context (TK : total_cmp kcmp).
Local Notation entry := (K * option V)%type.
Local Notation cmap := (cmap K V).
Local Notation pcmp := (pcmp K V kcmp).
Local Notation keq := (@keq K V kcmp).
Local Notation s_get := (@s_get K V kcmp).
Local Notation s_put := (@s_put K V kcmp).
Local Notation s_del := (@s_del K V kcmp).
Local Notation s_has := (@s_has K V kcmp).

Lemma pcmp_total : total_cmp pcmp.
Proof.
  split; unfold MapModel.pcmp; intros.
  - apply cmp_anti; auto.
  - eapply cmp_trans; eauto.
Qed.

(** The map holds exactly the entries [l], the keys in that order. *)
Definition mrep (m : cmap) (l : list entry) : Prop :=
  avl (m_root m) /\ sorted pcmp (inorder (m_root m)) /\
  Permutation (inorder (m_root m)) l /\
  m_keys m = map fst l /\ m_size m = Z.of_nat (length l).

Lemma mrep_mk : mrep map_mk [].
Proof. repeat split; auto. constructor. Qed.

Lemma mrep_uniq m l : mrep m l -> uniq pcmp l.
Proof.
  intros (_ & S & P & _). eapply uniq_perm; eauto. apply sorted_uniq; auto.
  apply pcmp_total.
Qed.

Lemma mrep_bound m l : mrep m l -> Z.of_nat (length l) <= 2 ^ 64 ->
  rheight (m_root m) + 1 <= MAXH.
Proof.
  intros (A & _ & P & _) H. pose proof (Permutation_length P) as E0.
  assert (H' : Z.of_nat (length (inorder (m_root m))) <= 2 ^ 64) by (lia).
  clear H; rename H' into H.
  apply avl_height_64 in H; auto. change MAXH with 96. lia.
Qed.

Lemma same_keq k (v : option V) p : same pcmp (k, v) p = keq k p.
Proof. reflexivity. Qed.

Lemma find_same k (v : option V) l : find (same pcmp (k, v)) l = find (keq k) l.
Proof. reflexivity. Qed.

Lemma filter_same k (v : option V) l :
  filter (fun y => negb (same pcmp (k, v) y)) l = s_del k l.
Proof.
  reflexivity.
Qed.

Lemma mfind_rep m l k (v : option V) : mrep m l ->
  tfind entry pcmp (k, v) (m_root m) = find (keq k) l.
Proof.
  intros R. pose proof (mrep_uniq _ _ R) as U. destruct R as (A & S & P & _).
  rewrite <- (find_same k v).
  pose proof (tfind_spec pcmp pcmp_total (k, v) (m_root m) S) as T.
  destruct (tfind entry pcmp (k, v) (m_root m)) as [e|].
  - destruct T as [T1 T2]. symmetry. apply (find_some_uniq pcmp pcmp_total); auto.
    eapply Permutation_in; eauto.
  - symmetry. apply find_none_all. intros e He. apply T.
    eapply Permutation_in; [symmetry|]; eauto.
Qed.

(** ** Overwriting a value in place *)
Definition subst_at (key e' : entry) (x : entry) : entry :=
  if pcmp key x =? 0 then e' else x.

Lemma subst_none key e' l : (forall x, In x l -> pcmp key x <> 0) ->
  map (subst_at key e') l = l.
Proof.
  intros H. induction l; simpl; auto. unfold subst_at at 1.
  rewrite (proj2 (Z.eqb_neq _ _) (H a (or_introl eq_refl))). f_equal. apply IHl. simpl in H; auto.
Qed.

Lemma tupdate_spec key e' n : sorted pcmp (inorder n) ->
  inorder (tupdate K V kcmp key e' n) = map (subst_at key e') (inorder n)
  /\ rheight (tupdate K V kcmp key e' n) = rheight n
  /\ (avl n -> avl (tupdate K V kcmp key e' n)).
Proof.
  pose proof pcmp_total as TP.
  induction n as [|k a0 IH0 a1 IH1 h]; intros S; [simpl; auto|].
  cbn [tupdate inorder rheight avl] in *. rewrite sorted_app, sorted_cons in S.
  destruct S as (S0 & (S1 & S1') & S2).
  destruct (IH0 S0) as (I0 & H0 & A0). destruct (IH1 S1) as (I1 & H1 & A1).
  rewrite map_app. cbn [map].
  destruct (pcmp key k =? 0) eqn:C0.
  - apply Z.eqb_eq in C0. cbn [inorder rheight avl]. split; [|split]; auto.
    rewrite (subst_none key e' (inorder a0)), (subst_none key e' (inorder a1)).
    + unfold subst_at. rewrite C0. reflexivity.
    + intros x Hx C. apply S1' in Hx. pose proof (cmp_eq_lt pcmp TP key k x C0 Hx). lia.
    + intros x Hx C. assert (pcmp x k < 0) by (apply S2; simpl; auto).
      apply (cmp_flip_eq pcmp TP) in C0.
      pose proof (cmp_eq_trans pcmp TP k key x C0 C). apply (cmp_flip_lt pcmp TP) in H. lia.
  - apply Z.eqb_neq in C0.
    destruct (pcmp key k >? 0) eqn:G; rewrite Z.gtb_ltb in G; cbn [inorder rheight avl].
    + apply Z.ltb_lt in G. rewrite I1, H1. split; [|split]; auto.
      * rewrite (subst_none key e' (inorder a0)).
        -- f_equal. f_equal. unfold subst_at. rewrite (proj2 (Z.eqb_neq _ _) C0); auto.
        -- intros x Hx C. assert (pcmp x k < 0) by (apply S2; simpl; auto).
           pose proof (cmp_eq_lt pcmp TP key x k C H). lia.
      * intuition.
    + apply Z.ltb_ge in G. rewrite I0, H0. split; [|split]; auto.
      * rewrite (subst_none key e' (inorder a1)).
        -- f_equal. unfold subst_at. rewrite (proj2 (Z.eqb_neq _ _) C0); auto.
        -- intros x Hx C. apply S1' in Hx.
           assert (pcmp key x < 0) by (eapply (cmp_lt_trans pcmp TP); eauto; lia). lia.
      * intuition.
Qed.

Lemma sorted_subst key (e e' : entry) l : fst e' = fst e ->
  pcmp key e = 0 -> In e l -> sorted pcmp l -> sorted pcmp (map (subst_at key e') l).
Proof.
  pose proof pcmp_total as TP.
  intros F C Hin S.
  assert (HF : forall x, In x l -> fst (subst_at key e' x) = fst x).
  { intros x Hx. unfold subst_at. destruct (pcmp key x =? 0) eqn:CX; auto.
    apply Z.eqb_eq in CX. rewrite (sorted_eq_unique pcmp TP key l e x S Hin Hx C CX) in F. auto. }
  clear Hin. induction l as [|a l IH]; [constructor|]. rewrite sorted_cons in S. destruct S as [S1 S2].
  cbn [map]. apply sorted_cons. split.
  - apply IH; auto. intros; apply HF; simpl; auto.
  - intros y Hy. apply in_map_iff in Hy as (x & <- & Hx).
    unfold MapModel.pcmp. rewrite !HF by (simpl; auto). apply S2; auto.
Qed.

Lemma put_present k v f l p : uniq pcmp l -> In p l -> kcmp k (fst p) = 0 ->
  s_put k v f l = map (subst_at (k, v) (fst p, f (snd p))) l.
Proof.
  pose proof pcmp_total as TP.
  intros [N U] Hin C. induction l as [|a l IH]; [destruct Hin|].
  cbn [MapProofs.s_put map]. unfold subst_at at 1. unfold MapProofs.keq, MapModel.pcmp. cbn [fst].
  destruct (kcmp k (fst a) =? 0) eqn:CA.
  - apply Z.eqb_eq in CA.
    assert (a = p).
    { apply U; simpl; auto. unfold MapModel.pcmp. eapply (cmp_eq_trans kcmp TK); eauto. apply (cmp_flip_eq kcmp TK); auto. }
    subst a. f_equal. symmetry. apply subst_none.
    intros x Hx CX. inversion N; subst. assert (x = p); [|subst; tauto].
    apply U; simpl; auto. unfold MapModel.pcmp in *. cbn [fst] in CX.
    eapply (cmp_eq_trans kcmp TK); eauto. apply (cmp_flip_eq kcmp TK); auto.
  - destruct Hin as [->|Hin]; [apply Z.eqb_neq in CA; lia|].
    f_equal. apply IH; auto; [inversion N; auto|]. intros; apply U; simpl; auto.
Qed.

Lemma put_absent k v f l : (forall p, In p l -> kcmp k (fst p) <> 0) ->
  s_put k v f l = l ++ [(k, v)].
Proof.
  intros H. induction l as [|a l IH]; auto. cbn [MapProofs.s_put app]. unfold MapProofs.keq.
  rewrite (proj2 (Z.eqb_neq _ _) (H a (or_introl eq_refl))). f_equal. apply IH. simpl in H; auto.
Qed.

Lemma find_keq_none k (l : list entry) : (forall p, In p l -> kcmp k (fst p) <> 0) -> find (keq k) l = None.
Proof.
  intros H. rewrite <- (find_same k None). apply find_none_all. intros e He. apply (H e He).
Qed.

Lemma subst_length key e' (l : list entry) : length (map (subst_at key e') l) = length l.
Proof. apply map_length. Qed.

Lemma add_e_rep m l k v mg : mrep m l -> Z.of_nat (length l) <= 2 ^ 64 ->
  exists m', map_add_e K V kcmp (Some m) (Some k) v mg = Ok (s_get k l, Some m')
    /\ mrep m' (s_put k v (fun old => match mg with None => v | Some f => f old v end) l).
Proof.
  pose proof pcmp_total as TP.
  intros R HB. pose proof (mrep_bound _ _ R HB) as HM.
  pose proof (mrep_uniq _ _ R) as U.
  pose proof R as (A & S & P & KS & SZ).
  unfold map_add_e.
  set (nv := fun old => match mg with None => v | Some f => f old v end).
  destruct (tsearch_spec pcmp TP (k, v) (m_root m) A S HM) as
    [(e & E1 & He & Ce) | (root' & ll & r & E1 & Hn & A' & I0 & I1 & S')].
  all: rewrite E1; cbn [bind].
  - assert (Hin : In e l) by (eapply Permutation_in; eauto).
    assert (F : find (keq k) l = Some e).
    { rewrite <- (find_same k v). apply (find_some_uniq pcmp TP); auto. }
    unfold MapProofs.s_get. rewrite F. cbn [negb].
    eexists; split; [reflexivity|].
    rewrite (put_present k v nv l e U Hin Ce).
    destruct (tupdate_spec (k, v) (fst e, nv (snd e)) (m_root m) S) as (IU & HU & AU).
    fold (nv (snd e)).
    repeat split; cbn [m_root m_keys m_size]; auto.
    + rewrite IU. apply (sorted_subst (k, v) e); auto.
    + rewrite IU. apply Permutation_map; auto.
    + rewrite KS, map_map. apply map_ext_in. intros x Hx. unfold subst_at.
      destruct (pcmp (k, v) x =? 0) eqn:CX; auto. apply Z.eqb_eq in CX. cbn [fst].
      destruct U as [_ U]. rewrite (U e x); auto.
      eapply (cmp_eq_trans pcmp TP); eauto. apply (cmp_flip_eq pcmp TP); auto.
    + rewrite map_length; auto.
  - assert (HA : forall p, In p l -> kcmp k (fst p) <> 0).
    { intros p Hp. apply (Hn p). eapply Permutation_in; [symmetry|]; eauto. }
    unfold MapProofs.s_get. rewrite find_keq_none by auto. cbn [negb].
    eexists; split; [reflexivity|]. rewrite put_absent by auto.
    repeat split; cbn [m_root m_keys m_size]; auto.
    + rewrite I1. rewrite I0 in P. rewrite <- Permutation_middle, P.
      rewrite Permutation_cons_append. reflexivity.
    + rewrite KS, map_app; auto.
    + rewrite app_length; cbn [length]. lia.
Qed.

Lemma okd_scan_spec keys k : (exists l1 x l2, keys = l1 ++ x :: l2 /\ kcmp k x = 0 /\
     forall y, In y l1 -> kcmp k y <> 0) -> forall n, (length keys <= n)%nat ->
  okd_scan K kcmp n keys k =
    Ok ((fix go ks := match ks with [] => [] | x :: t => if kcmp k x =? 0 then t else x :: go t end) keys).
Proof.
  intros (l1 & x & l2 & -> & C & H). induction l1 as [|a l1 IH]; intros n Hn.
  - destruct n; [simpl in Hn; lia|]. cbn [app okd_scan]. rewrite C. reflexivity.
  - destruct n; [simpl in Hn; lia|]. cbn [app okd_scan].
    rewrite (proj2 (Z.eqb_neq _ _) (H a (or_introl eq_refl))).
    rewrite IH; [reflexivity| |simpl in Hn; lia]. intros; apply H; simpl; auto.
Qed.

Lemma okd_rep l k p : uniq pcmp l -> In p l -> kcmp k (fst p) = 0 ->
  Z.of_nat (length l) < 2 ^ 31 ->
  ordered_key_delete K kcmp (map fst l) k = Ok (map fst (s_del k l)).
Proof.
  pose proof pcmp_total as TP.
  intros U Hin C HB. unfold ordered_key_delete.
  apply in_split in Hin as (l1 & l2 & ->).
  assert (D : forall x, In x (l1 ++ l2) -> kcmp k (fst x) <> 0).
  { destruct U as [N U]. intros x Hx Hc.
    assert (x = p).
    { apply U.
      - rewrite in_app_iff in *. simpl. tauto.
      - apply in_elt.
      - unfold MapModel.pcmp. eapply (cmp_eq_trans kcmp TK); eauto. apply (cmp_flip_eq kcmp TK); auto. }
    subst. apply NoDup_remove_2 in N. tauto. }
  rewrite okd_scan_spec.
  - f_equal. rewrite <- (filter_same k None), (filter_split pcmp TP l1 p l2 (k, None)); auto.
    clear U HB. induction l1 as [|a l1 IH]; cbn [map app].
    + rewrite C; auto.
    + rewrite (proj2 (Z.eqb_neq _ _) (D a (or_introl eq_refl))). f_equal. apply IH.
      intros x Hx. apply D. simpl; auto.
  - exists (map fst l1), (fst p), (map fst l2). rewrite map_app. split; [auto|]. split; auto.
    intros y Hy. apply in_map_iff in Hy as (x & <- & Hx). apply D. apply in_app_iff; auto.
  - rewrite map_length, to_int32_id by lia. lia.
Qed.

Lemma remove_rep m l k : mrep m l -> Z.of_nat (length l) < 2 ^ 31 ->
  exists m', map_remove K V kcmp (Some m) (Some k) = Ok (s_get k l, Some m')
    /\ mrep m' (s_del k l).
Proof.
  pose proof pcmp_total as TP.
  intros R HB. assert (HM := mrep_bound _ _ R ltac:(lia)).
  pose proof (mrep_uniq _ _ R) as U.
  pose proof R as (A & S & P & KS & SZ).
  unfold map_remove. 
  rewrite (mfind_rep m l k None R).
  destruct (tdelete_spec pcmp TP (k, None) (m_root m) A S HM) as
    [(D & Hn) | (root' & l1 & e & r & D & Ce & A' & I0 & I1 & S')].
  - assert (HA : forall p, In p l -> kcmp k (fst p) <> 0).
    { intros p Hp. apply (Hn p). eapply Permutation_in; [symmetry|]; eauto. }
    unfold MapProofs.s_get. rewrite find_keq_none by auto.
    eexists; split; [reflexivity|]. rewrite <- (filter_same k None), filter_none; auto.
  - assert (Hin : In e l) by (eapply Permutation_in; eauto; rewrite I0; apply in_elt).
    assert (F : find (keq k) l = Some e).
    { rewrite <- (find_same k None). apply (find_some_uniq pcmp TP); auto. }
    unfold MapProofs.s_get. rewrite F. rewrite D. cbn [bind].
    rewrite KS, (okd_rep l k e U Hin Ce HB). cbn [bind].
    eexists; split; [reflexivity|].
    assert (P2 : Permutation (inorder root') (s_del k l)).
    { rewrite I1, <- (filter_split pcmp TP l1 e r (k, None)); auto.
      - rewrite <- I0, <- (filter_same k None). apply Permutation_filter'; auto.
      - rewrite <- I0. apply sorted_uniq; auto. }
    repeat split; cbn [m_root m_keys m_size]; auto.
    apply Permutation_length in P2. apply Permutation_length in P.
    rewrite <- P2, I1. rewrite I0 in P. rewrite app_length in *. cbn [length] in P. lia.
Qed.

Lemma put_length k v f (l : list entry) : (length (s_put k v f l) <= S (length l))%nat.
Proof. induction l; simpl; auto. destruct (MapProofs.keq kcmp k a); simpl; lia. Qed.
Lemma del_length k (l : list entry) : (length (s_del k l) <= length l)%nat.
Proof. unfold MapProofs.s_del. induction l; simpl; auto. destruct (negb _); simpl; lia. Qed.

Lemma istep_length (l : list entry) op :
  (length (fst (ispec_step kcmp l op)) <= S (length l))%nat.
Proof.
  destruct op as [[k|] v|[k|] v f|[k|]|[k|] [k'|]|[k|]| |]; cbn [ispec_step fst]; auto;
    try apply put_length.
  - pose proof (del_length k l). lia.
  - destruct (MapProofs.s_has kcmp k l); cbn [fst]; auto.
    etransitivity; [apply put_length|]. pose proof (del_length k l). lia.
Qed.

Lemma has_get_find k (l : list entry) :
  s_has k l = match find (keq k) l with Some _ => true | None => false end.
Proof.
  unfold MapProofs.s_has. induction l; simpl; auto. destruct (MapProofs.keq kcmp k a); auto.
Qed.

Lemma del_absent k (l : list entry) : s_has k l = false -> s_del k l = l.
Proof.
  unfold MapProofs.s_has, MapProofs.s_del. induction l; simpl; auto.
  destruct (MapProofs.keq kcmp k a); simpl; [discriminate|]. intros; f_equal; auto.
Qed.

Lemma mstep_rep m l op : mrep m l -> Z.of_nat (length l) < 2 ^ 31 ->
  match op with
  | MRename (Some k) (Some _) => s_has k l = true -> s_get k l <> None
  | _ => True
  end ->
  exists m', mstep kcmp m op = Ok (m', snd (ispec_step kcmp l op))
    /\ mrep m' (fst (ispec_step kcmp l op)).
Proof.
  intros R HB HR.
  destruct op as [[k|] v|[k|] v f|[k|]|ok ok'|[k|]| |]; cbn [mstep ispec_step fst snd].
  - destruct (add_e_rep m l k v None R) as (m' & E1 & R'); [lia|].
    unfold map_add. rewrite E1. cbn. eauto.
  - cbn. eauto.
  - destruct (add_e_rep m l k v (Some f) R) as (m' & E1 & R'); [lia|].
    rewrite E1. cbn. eauto.
  - cbn. eauto.
  - destruct (remove_rep m l k R HB) as (m' & E1 & R'). rewrite E1. cbn. eauto.
  - cbn. eauto.
  - destruct ok as [k|], ok' as [k'|]; unfold map_rename; cbn [fst snd bind of_option]; eauto.
    destruct (remove_rep m l k R HB) as (m1 & -> & R1). cbn [bind].
    destruct (MapProofs.s_has kcmp k l) eqn:HS; cbn [fst snd].
    + specialize (HR eq_refl). destruct (MapProofs.s_get kcmp k l) as [x|] eqn:G; [|congruence].
      pose proof (del_length k l).
      destruct (add_e_rep m1 (s_del k l) k' (Some x) None R1) as (m2 & E2 & R2); [lia|].
      unfold map_add. rewrite E2. cbn [bind of_option]. eauto.
    + rewrite (del_absent k l HS) in R1.
      assert (s_get k l = None) as ->.
      { unfold MapProofs.s_get. rewrite has_get_find in HS. destruct (find (MapProofs.keq kcmp k) l); congruence. }
      cbn. eauto.
  - unfold map_find. rewrite (mfind_rep m l k None R).
    unfold MapProofs.s_get. destruct (find (MapProofs.keq kcmp k) l); cbn; eauto.
  - cbn. eauto.
  - cbn. destruct R as (? & ? & ? & ? & SZ). rewrite SZ. eexists; split; [reflexivity|]. repeat split; auto.
  - unfold map_insertion_ordered_keys. pose proof R as (? & ? & ? & KS & SZ). rewrite KS. eauto.
Qed.

Lemma mrun_rep ops : forall m l, mrep m l ->
  Z.of_nat (length l + length ops) < 2 ^ 31 -> rename_ok kcmp l ops ->
  exists m', mrun kcmp m ops = Ok (m', snd (ispec_run kcmp l ops))
    /\ mrep m' (fst (ispec_run kcmp l ops)).
Proof.
  induction ops as [|op ops IH]; intros m l R HB HN; cbn [mrun ispec_run].
  - cbn. eauto.
  - cbn [length] in HB. destruct HN as [HN1 HN2].
    destruct (mstep_rep m l op R) as (m1 & -> & R1); [lia|auto|]. cbn [bind].
    pose proof (istep_length l op).
    destruct (IH m1 _ R1) as (m2 & -> & R2); [lia|auto|]. cbn [bind].
    destruct (ispec_step kcmp l op) as [l' r]. cbn [fst snd] in *.
    destruct (ispec_run kcmp l' ops) as [l'' rs]. cbn [fst snd] in *. eauto.
Qed.

(** ** Walking a map *)
Lemma visited_rep m l : mrep m l -> Permutation (visited entry (m_root m)) l.
Proof. intros (A & _ & P & _). rewrite visited_perm; auto. Qed.

(** Iteration as a specification: call in order, stop at the first non-zero. *)
Fixpoint iter_spec {S} (f : S -> K -> option V -> S * Z) (c : S) (l : list entry) : S * Z :=
  match l with
  | [] => (c, 0)
  | (k, v) :: l' =>
    let (c', r) := f c k v in if r =? 0 then iter_spec f c' l' else (c', r)
  end.

Lemma fold_stopped {S} (f : S -> K -> option V -> S * Z) l : forall c r, r <> 0 ->
  fold_left (fun o '(k, v) => bind o (fun '(c, ret) =>
     if negb (ret =? 0) then Ok (c, ret) else Ok (f c k v))) l (Ok (c, r)) = Ok (c, r).
Proof.
  induction l as [|[k v] l IH]; intros c r H; cbn [fold_left bind]; auto.
  rewrite (proj2 (Z.eqb_neq _ _) H). cbn [negb]. auto.
Qed.

Lemma iterate_spec {S} m (f : S -> K -> option V -> S * Z) c :
  map_iterate K V (Some m) (fun c k v => Ok (f c k v)) c
  = Ok (iter_spec f c (visited entry (m_root m))).
Proof.
  unfold map_iterate. 
  generalize (visited entry (m_root m)). intros l. revert c.
  induction l as [|[k v] l IH]; intros c; cbn [fold_left iter_spec]; auto.
  cbn [bind negb]. replace (0 =? 0) with true by reflexivity. cbn [negb].
  destruct (f c k v) as [c' r]. destruct (r =? 0) eqn:RZ.
  - apply Z.eqb_eq in RZ. subst. apply IH.
  - apply Z.eqb_neq in RZ. apply fold_stopped; auto.
Qed.

(** ** Merge and clone *)
Definition merge_spec (mg : option (option V -> option V -> option V)) (d : list entry) (p : entry) :=
  s_put (fst p) (snd p) (fun old => match mg with None => snd p | Some f => f old (snd p) end) d.

Lemma merge_fold mg ps : forall m l, mrep m l -> Z.of_nat (length l + length ps) < 2 ^ 31 ->
  exists m',
  fold_left (fun o '(k, v) => bind o (fun '(c, ret) =>
     if negb (ret =? 0) then Ok (c, ret) else
       bind (map_add_e K V kcmp c (Some k) v mg) (fun '(_, d') => Ok (d', 0)))) ps (Ok (Some m, 0))
  = Ok (Some m', 0) /\ mrep m' (fold_left (merge_spec mg) ps l).
Proof.
  induction ps as [|[k v] ps IH]; intros m l R HB; cbn [fold_left].
  - eauto.
  - cbn [length bind] in *. replace (0 =? 0) with true by reflexivity. cbn [negb].
    destruct (add_e_rep m l k v mg R) as (m1 & -> & R1); [lia|]. cbn [bind].
    pose proof (put_length k v (fun old => match mg with None => v | Some f => f old v end) l).
    destruct (IH m1 _ R1) as (m2 & -> & R2); [lia|]. eauto.
Qed.

Lemma merge_rep d dl s sl mg : mrep d dl -> mrep s sl ->
  Z.of_nat (length dl + length sl) < 2 ^ 31 ->
  exists d' ps, map_merge K V kcmp d (Some s) mg = Ok d'
    /\ Permutation ps sl /\ mrep d' (fold_left (merge_spec mg) ps dl).
Proof.
  intros RD RS HB. unfold map_merge, map_iterate. 
  pose proof (visited_rep _ _ RS) as P. pose proof (Permutation_length P) as PL.
  destruct (merge_fold mg (visited entry (m_root s)) d dl RD) as (d' & E1 & R'); [lia|].
  exists d', (visited entry (m_root s)).
  split; [|split; auto]. rewrite E1. reflexivity.
Qed.

(** Looking up after an update. *)
Lemma get_put_same k k' v f (l : list entry) : kcmp k k' = 0 ->
  s_get k (s_put k' v f l) = if s_has k' l then f (s_get k' l) else v.
Proof.
  intros C. unfold MapProofs.s_get, MapProofs.s_has. induction l as [|a l IH]; cbn [MapProofs.s_put find existsb].
  - unfold MapProofs.keq. cbn [fst]. rewrite C. reflexivity.
  - destruct (MapProofs.keq kcmp k' a) eqn:KA; cbn [find orb].
    + unfold MapProofs.keq at 1. cbn [fst]. unfold MapProofs.keq in KA. apply Z.eqb_eq in KA.
      rewrite (cmp_eq_trans kcmp TK k k' (fst a) C KA). reflexivity.
    + unfold MapProofs.keq at 1. unfold MapProofs.keq in KA. apply Z.eqb_neq in KA.
      destruct (kcmp k (fst a) =? 0) eqn:E; auto.
      apply Z.eqb_eq in E. exfalso. apply KA.
      apply (cmp_eq_trans kcmp TK k' k); auto. apply (cmp_flip_eq kcmp TK); auto.
Qed.

Lemma get_put_other k k' v f (l : list entry) : kcmp k k' <> 0 ->
  s_get k (s_put k' v f l) = s_get k l /\ s_has k (s_put k' v f l) = s_has k l.
Proof.
  intros C. rewrite !has_get_find. unfold MapProofs.s_get.
  induction l as [|a l IH]; cbn [MapProofs.s_put find].
  - unfold MapProofs.keq. cbn [fst]. rewrite (proj2 (Z.eqb_neq _ _) C). auto.
  - destruct (MapProofs.keq kcmp k' a) eqn:KA; cbn [find].
    + unfold MapProofs.keq in KA. apply Z.eqb_eq in KA.
      assert (X : (kcmp k (fst a) =? 0) = false).
      { apply Z.eqb_neq. intros E. apply C. apply (cmp_eq_trans kcmp TK k (fst a)); auto.
        apply (cmp_flip_eq kcmp TK); auto. }
      change (MapProofs.keq kcmp k (fst a, f (snd a))) with (kcmp k (fst a) =? 0).
      change (MapProofs.keq kcmp k a) with (kcmp k (fst a) =? 0). rewrite X. auto.
    + destruct (MapProofs.keq kcmp k a); auto.
Qed.

Lemma has_put k k' v f (l : list entry) : kcmp k k' = 0 -> s_has k (s_put k' v f l) = true.
Proof.
  intros C. unfold MapProofs.s_has. induction l as [|a l IH]; cbn [MapProofs.s_put existsb].
  - unfold MapProofs.keq. cbn [fst]. rewrite C. reflexivity.
  - destruct (MapProofs.keq kcmp k' a) eqn:KA; cbn [existsb].
    + unfold MapProofs.keq at 1. cbn [fst]. unfold MapProofs.keq in KA. apply Z.eqb_eq in KA.
      rewrite (cmp_eq_trans kcmp TK k k' (fst a) C KA). reflexivity.
    + rewrite IH. apply orb_true_r.
Qed.

Lemma get_del_other k k' (l : list entry) : kcmp k k' <> 0 ->
  s_get k (s_del k' l) = s_get k l /\ s_has k (s_del k' l) = s_has k l.
Proof.
  intros C. rewrite !has_get_find. unfold MapProofs.s_get, MapProofs.s_del.
  induction l as [|a l IH]; cbn [filter find]; auto.
  destruct (MapProofs.keq kcmp k' a) eqn:KA; cbn [negb find].
  - assert (MapProofs.keq kcmp k a = false) as ->; auto.
    unfold MapProofs.keq in *. apply Z.eqb_neq. apply Z.eqb_eq in KA. intros E. apply C.
    apply (cmp_eq_trans kcmp TK k (fst a)); auto. apply (cmp_flip_eq kcmp TK); auto.
  - destruct (MapProofs.keq kcmp k a); auto.
Qed.

Lemma has_del k k' (l : list entry) : kcmp k k' = 0 -> s_has k (s_del k' l) = false.
Proof.
  intros C. unfold MapProofs.s_has, MapProofs.s_del.
  induction l as [|a l IH]; cbn [filter existsb]; auto.
  destruct (MapProofs.keq kcmp k' a) eqn:KA; cbn [negb existsb]; auto.
  rewrite IH, orb_false_r. unfold MapProofs.keq in *. apply Z.eqb_neq in KA. apply Z.eqb_neq.
  intros E. apply KA. apply (cmp_eq_trans kcmp TK k' k); auto. apply (cmp_flip_eq kcmp TK); auto.
Qed.

(** The result of merging, key by key. *)
Lemma merge_fold_get mg : forall ps dl k, uniq pcmp ps ->
  s_has k (fold_left (merge_spec mg) ps dl) = s_has k dl || s_has k ps
  /\ s_get k (fold_left (merge_spec mg) ps dl) =
     (if s_has k ps then
        if s_has k dl then match mg with None => s_get k ps | Some f => f (s_get k dl) (s_get k ps) end
        else s_get k ps
      else s_get k dl).
Proof.
  induction ps as [|[k0 v0] ps IH]; intros dl k U; cbn [fold_left].
  - cbn. rewrite orb_false_r. auto.
  - assert (U' : uniq pcmp ps).
    { destruct U as [N U]. inversion N; subst. split; auto. intros; apply U; simpl; auto. }
    destruct (IH (merge_spec mg dl (k0, v0)) k U') as [I1 I2]. rewrite I1, I2.
    unfold merge_spec. cbn [fst snd].
    change (s_has k ((k0, v0) :: ps)) with ((kcmp k k0 =? 0) || s_has k ps).
    destruct (kcmp k k0 =? 0) eqn:C.
    + apply Z.eqb_eq in C.
      assert (NP : s_has k ps = false).
      { destruct (s_has k ps) eqn:X; auto. exfalso. unfold MapProofs.s_has in X.
        apply existsb_exists in X as (p & Hp & Kp). unfold MapProofs.keq in Kp. apply Z.eqb_eq in Kp.
        destruct U as [N U]. inversion N; subst.
        assert ((k0, v0) = p); [|subst; tauto]. apply U; simpl; auto. unfold MapModel.pcmp. cbn [fst].
        apply (cmp_eq_trans kcmp TK k0 k); auto. apply (cmp_flip_eq kcmp TK); auto. }
      rewrite NP. cbn [orb].
      assert (GE : s_get k ((k0, v0) :: ps) = v0).
      { unfold MapProofs.s_get. cbn [find]. unfold MapProofs.keq at 1. cbn [fst]. rewrite C. reflexivity. }
      rewrite GE. rewrite has_put by auto. rewrite !get_put_same by auto.
      split; [rewrite !orb_true_r; auto|].
      assert (HE : s_has k dl = s_has k0 dl /\ s_get k dl = s_get k0 dl).
      { assert (forall a : entry, keq k a = keq k0 a) as KK.
        { intros a. unfold MapProofs.keq. apply eq_true_iff_eq. rewrite !Z.eqb_eq. split; intros H.
          - apply (cmp_eq_trans kcmp TK k0 k); auto. apply (cmp_flip_eq kcmp TK); auto.
          - apply (cmp_eq_trans kcmp TK k k0); auto. }
        unfold MapProofs.s_has, MapProofs.s_get. clear -KK. split.
        - induction dl; simpl; auto. rewrite KK, IHdl; auto.
        - assert (find (keq k) dl = find (keq k0) dl) as ->; auto.
          induction dl; simpl; auto. rewrite KK, IHdl; auto. }
      destruct HE as [-> ->]. destruct (s_has k0 dl); auto.
    + apply Z.eqb_neq in C. destruct (get_put_other k k0 v0 (fun old => match mg with None => v0 | Some f => f old v0 end) dl C) as [G H].
      rewrite G, H. cbn [orb].
      assert (GE : s_get k ((k0, v0) :: ps) = s_get k ps).
      { unfold MapProofs.s_get. cbn [find]. unfold MapProofs.keq at 1. cbn [fst].
        rewrite (proj2 (Z.eqb_neq _ _) C). reflexivity. }
      rewrite GE. auto.
Qed.

Lemma perm_get k (l l' : list entry) : uniq pcmp l -> Permutation l l' ->
  s_get k l = s_get k l' /\ s_has k l = s_has k l'.
Proof.
  pose proof pcmp_total as TP.
  intros U P. pose proof (uniq_perm pcmp _ _ P U) as U'.
  rewrite !has_get_find. unfold MapProofs.s_get.
  destruct (find (MapProofs.keq kcmp k) l) as [e|] eqn:F.
  - apply find_some in F as [F1 F2]. unfold MapProofs.keq in F2. apply Z.eqb_eq in F2.
    rewrite <- (find_same k None l'), (find_some_uniq pcmp TP l' (k, None) e); auto.
    eapply Permutation_in; eauto.
  - rewrite (find_keq_none k l'); auto. intros p Hp Cp.
    assert (Hp' : In p l) by (eapply Permutation_in; [symmetry|]; eauto).
    apply (find_none _ _ F) in Hp'. unfold MapProofs.keq in Hp'. apply Z.eqb_neq in Hp'. auto.
Qed.

End Proofs.
