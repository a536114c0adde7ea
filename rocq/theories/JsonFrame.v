(** Proofs about values in memory: which nodes a value depends on, changes of one
    object, walks of a tree that stays as it is. *)
From Coq Require Import ZArith List Bool Lia Arith Sorting.Permutation Sorting.Sorted.
From Verif Require Import Base ArrayLemmas TsearchModel TsearchProofs SetProofs MapModel MapProofs MapHistory ListModel ListProofs
  Json JsonHeapModel JsonHeapSpec JsonHeapProofs.
Import ListNotations.
Open Scope Z_scope.
Local Arguments Z.add : simpl never.
Local Arguments Z.of_nat : simpl never.
Local Arguments Z.to_nat : simpl never.

(** * Containers *)
Definition conts (h : heap) (js : list json) (xs : list nat) : list nat := concat (zip (containers h) js xs).
Definition mconts (h : heap) (kjs : list (text * json)) (kas : list (text * nat)) : list nat := conts h (map snd kjs) (map snd kas).
Notation members h := (Forall2 (fun (kj : text * json) (ka : text * nat) => fst kj = fst ka /\ holds h (snd kj) (snd ka))).

Lemma flat_map_cells (xs : list nat) : flat_map (fun c : option (option nat) => match c with Some (Some x) => [x] | _ => [] end) (map Some (map Some xs)) = xs.
Proof. induction xs as [|x xs IH]; cbn [map flat_map]; [auto|]. rewrite IH. auto. Qed.
Lemma kids_arr h a l xs : nth_error h a = Some (NArr l) -> rep l (map Some xs) -> kids h a = xs.
Proof.
  intros E (Sz & C & junk & J). unfold kids. rewrite E, J, Sz, Nat2Z.id.
  rewrite firstn_app, !map_length, Nat.sub_diag, firstn_O, app_nil_r. rewrite firstn_all2 by (rewrite !map_length; lia). apply flat_map_cells.
Qed.
Lemma kids_obj h a m kas : nth_error h a = Some (NObj m) -> mrep strcmp m (wrapped kas) -> kids h a = map snd kas.
Proof.
  intros E R. unfold kids. rewrite E. pose proof (mrep_nodup m kas R) as N. assert (K : m_keys m = map fst kas) by (rewrite <- wrapped_fst; apply R).
  rewrite K. 
  assert (G : forall l, (forall ka, In ka l -> In ka kas) ->
    flat_map (fun k => match map_find text nat strcmp (Some m) (Some k) with Ok (Some x) => [x] | _ => [] end) (map fst l) = map snd l).
  { induction l as [|(k, x) l IH]; intros I; cbn [map flat_map fst snd]; [auto|]. rewrite IH by (intros; apply I; right; auto).
    rewrite (mrep_find m kas k R), (in_lookup k kas x N) by (apply I; left; auto). auto. }
  apply G. auto.
Qed.
Lemma zip_map {A A' B B' C} (f : A' -> B' -> C) (g : A -> A') (g' : B -> B') l : forall l', zip f (map g l) (map g' l') = zip (fun a b => f (g a) (g' b)) l l'.
Proof. induction l as [|x l IH]; intros [|y l']; cbn [zip map]; auto. f_equal. apply IH. Qed.
Lemma zip_map_l {A A' B C} (f : A' -> B -> C) (g : A -> A') l : forall l', zip f (map g l) l' = zip (fun a b => f (g a) b) l l'.
Proof. induction l as [|x l IH]; intros [|y l']; cbn [zip map]; auto. f_equal. apply IH. Qed.
Lemma containers_arr h a l xs js : nth_error h a = Some (NArr l) -> rep l (map Some xs) -> containers h (JArr js) a = a :: conts h js xs.
Proof. intros E R. cbn [containers]. rewrite (kids_arr h a l xs E R). reflexivity. Qed.
Lemma containers_obj h a m kas kjs : nth_error h a = Some (NObj m) -> mrep strcmp m (wrapped kas) -> containers h (JObj kjs) a = a :: mconts h kjs kas.
Proof. intros E R. cbn [containers]. rewrite (kids_obj h a m kas E R). unfold mconts, conts. rewrite zip_map_l. reflexivity. Qed.
Lemma containers_leaf h j a n : leaf_node j = Some n -> containers h j a = [].
Proof. destruct j; try discriminate; reflexivity. Qed.

Lemma conts_cons h j js x xs : conts h (j :: js) (x :: xs) = containers h j x ++ conts h js xs.
Proof. reflexivity. Qed.
Lemma mconts_cons h kj kjs ka kas : mconts h (kj :: kjs) (ka :: kas) = containers h (snd kj) (snd ka) ++ mconts h kjs kas.
Proof. reflexivity. Qed.
Lemma conts_app h js js' xs xs' : length js = length xs -> conts h (js ++ js') (xs ++ xs') = conts h js xs ++ conts h js' xs'.
Proof.
  revert xs. induction js as [|j js IH]; intros [|x xs] L; try discriminate; [reflexivity|]. cbn [app]. rewrite !conts_cons, IH by (cbn [length] in L; lia).
  apply app_assoc.
Qed.
Lemma mconts_app h js js' xs xs' : length js = length xs -> mconts h (js ++ js') (xs ++ xs') = mconts h js xs ++ mconts h js' xs'.
Proof. intros L. unfold mconts. rewrite !map_app. apply conts_app. rewrite !map_length. auto. Qed.

(** * Frame *)
Definition is_leaf (n : node) : bool := match n with NArr _ | NObj _ => false | _ => true end.
Definition leaves_kept (h h' : heap) : Prop := forall c n, nth_error h c = Some n -> is_leaf n = true -> nth_error h' c = Some n.
Definition agree (h h' : heap) (l : list nat) : Prop := forall c, In c l -> nth_error h' c = nth_error h c.

Lemma leaf_is_leaf j n : leaf_node j = Some n -> is_leaf n = true.
Proof. destruct j; cbn [leaf_node]; intros E; try discriminate; injection E as <-; auto. Qed.

Lemma frame h h' : leaves_kept h h' -> forall n j a, (size j <= n)%nat -> holds h j a -> agree h h' (containers h j a) ->
  holds h' j a /\ containers h' j a = containers h j a.
Proof.
  intros LK. induction n as [|n IH]; intros j a Ls H A; [pose proof (size_pos j); lia|].
  destruct (leaf_cases j) as [(nd & L)|[(js & ->)|(kjs & ->)]].
  - rewrite !(containers_leaf _ j a nd L). split; [|auto]. apply (holds_leaf h j a nd L) in H. apply (holds_leaf h' j a nd L).
    apply LK; [auto|]. eapply leaf_is_leaf; eauto.
  - apply holds_arr in H as (l & xs & E & R & F). rewrite (containers_arr h a l xs js E R) in *.
    assert (E' : nth_error h' a = Some (NArr l)) by (rewrite (A a) by (left; auto); auto).
    assert (G : Forall2 (holds h') js xs /\ conts h' js xs = conts h js xs).
    { assert (Sm : forall j, In j js -> (size j <= n)%nat) by (intros j I; apply size_arr_in in I; lia).
      assert (A' : agree h h' (conts h js xs)) by (intros c I; apply A; right; auto).
      clear - IH F Sm A'. induction F as [|j x js xs Hj F IHF]; [split; [constructor|auto]|]. rewrite conts_cons in A'.
      destruct (IH j x) as (G1 & G2); [apply Sm; left; auto|auto|intros c I; apply A', in_or_app; auto|].
      destruct IHF as (G3 & G4); [intros; apply Sm; right; auto|intros c I; apply A', in_or_app; auto|].
      split; [constructor; auto|]. rewrite !conts_cons, G2, G4. auto. }
    destruct G as (G1 & G2). split; [apply holds_arr; exists l, xs; auto|]. rewrite (containers_arr h' a l xs js E' R), G2. auto.
  - apply holds_obj in H as (m & kas & E & R & F). rewrite (containers_obj h a m kas kjs E R) in *.
    assert (E' : nth_error h' a = Some (NObj m)) by (rewrite (A a) by (left; auto); auto).
    assert (G : members h' kjs kas /\ mconts h' kjs kas = mconts h kjs kas).
    { assert (Sm : forall kj, In kj kjs -> (size (snd kj) <= n)%nat) by (intros j I; apply size_obj_in in I; lia).
      assert (A' : agree h h' (mconts h kjs kas)) by (intros c I; apply A; right; auto).
      clear - IH F Sm A'. induction F as [|j x js xs (Ej & Hj) F IHF]; [split; [constructor|auto]|]. rewrite mconts_cons in A'.
      destruct (IH (snd j) (snd x)) as (G1 & G2); [apply Sm; left; auto|auto|intros c I; apply A', in_or_app; auto|].
      destruct IHF as (G3 & G4); [intros; apply Sm; right; auto|intros c I; apply A', in_or_app; auto|].
      split; [constructor; auto|]. rewrite !mconts_cons, G2, G4. auto. }
    destruct G as (G1 & G2). split; [apply holds_obj; exists m, kas; auto|]. rewrite (containers_obj h' a m kas kjs E' R), G2. auto.
Qed.
Lemma frame_holds h h' j a : leaves_kept h h' -> holds h j a -> agree h h' (containers h j a) -> holds h' j a.
Proof. intros. eapply (frame h h' H (size j)); eauto. Qed.
Lemma frame_containers h h' j a : leaves_kept h h' -> holds h j a -> agree h h' (containers h j a) -> containers h' j a = containers h j a.
Proof. intros. eapply (frame h h' H (size j)); eauto. Qed.
Lemma frame_arr h h' js xs : leaves_kept h h' -> Forall2 (holds h) js xs -> agree h h' (conts h js xs) ->
  Forall2 (holds h') js xs /\ conts h' js xs = conts h js xs.
Proof.
  intros LK F A. induction F as [|j x js xs Hj F IHF]; [split; [constructor|auto]|]. rewrite conts_cons in A.
  destruct (frame h h' LK (size j) j x) as (G1 & G2); [auto|auto|intros c I; apply A, in_or_app; auto|].
  destruct IHF as (G3 & G4); [intros c I; apply A, in_or_app; auto|].
  split; [constructor; auto|]. rewrite !conts_cons, G2, G4. auto.
Qed.
Lemma frame_members h h' kjs kas : leaves_kept h h' -> members h kjs kas -> agree h h' (mconts h kjs kas) ->
  members h' kjs kas /\ mconts h' kjs kas = mconts h kjs kas.
Proof.
  intros LK F A. induction F as [|j x js xs (Ej & Hj) F IHF]; [split; [constructor|auto]|]. rewrite mconts_cons in A.
  destruct (frame h h' LK (size (snd j)) (snd j) (snd x)) as (G1 & G2); [auto|auto|intros c I; apply A, in_or_app; auto|].
  destruct IHF as (G3 & G4); [intros c I; apply A, in_or_app; auto|].
  split; [constructor; auto|]. rewrite !mconts_cons, G2, G4. auto.
Qed.

(** Containers are containers. *)
Lemma in_conts h js xs c : In c (conts h js xs) -> Forall2 (holds h) js xs -> exists j x, In j js /\ In x xs /\ holds h j x /\ In c (containers h j x).
Proof.
  intros I F. induction F as [|j x js xs Hj F IHF]; [destruct I|]. rewrite conts_cons in I. apply in_app_or in I as [I|I].
  - exists j, x. cbn. auto.
  - destruct (IHF I) as (j' & x' & ? & ? & ? & ?). exists j', x'. cbn. auto.
Qed.
Lemma in_mconts h kjs kas c : In c (mconts h kjs kas) -> members h kjs kas -> exists k j x, In (k, j) kjs /\ In (k, x) kas /\ holds h j x /\ In c (containers h j x).
Proof.
  intros I F. induction F as [|(k, j) (k', x) js xs (Ek & Hj) F IHF]; [destruct I|]. cbn [fst snd] in *. subst k'. rewrite mconts_cons in I. apply in_app_or in I as [I|I].
  - exists k, j, x. cbn. auto.
  - destruct (IHF I) as (k' & j' & x' & ? & ? & ? & ?). exists k', j', x'. cbn. auto.
Qed.
Lemma container_node h : forall n j a c, (size j <= n)%nat -> holds h j a -> In c (containers h j a) -> exists nd, nth_error h c = Some nd /\ is_leaf nd = false.
Proof.
  induction n as [|n IH]; intros j a c Ls H I; [pose proof (size_pos j); lia|].
  destruct (leaf_cases j) as [(nd & L)|[(js & ->)|(kjs & ->)]].
  - rewrite (containers_leaf _ j a nd L) in I. destruct I.
  - apply holds_arr in H as (l & xs & E & R & F). rewrite (containers_arr h a l xs js E R) in I. destruct I as [<-|I]; [exists (NArr l); auto|].
    apply in_conts in I as (j & x & Ij & _ & Hj & I); [|auto]. apply (IH j x c); auto. apply size_arr_in in Ij. lia.
  - apply holds_obj in H as (m & kas & E & R & F). rewrite (containers_obj h a m kas kjs E R) in I. destruct I as [<-|I]; [exists (NObj m); auto|].
    apply in_mconts in I as (k & j & x & Ij & _ & Hj & I); [|auto]. apply (IH j x c); auto. apply size_obj_in in Ij. cbn [snd] in Ij. lia.
Qed.

(** * Setting a member *)
Fixpoint put {A} (k : text) (v : A) (l : list (text * A)) : list (text * A) :=
  match l with
  | [] => [(k, v)]
  | (k', v') :: r => if list_eq_dec Z.eq_dec k k' then (k', v) :: r else (k', v') :: put k v r
  end.
Lemma put_wrapped k b kas : s_put strcmp k (Some b) (fun _ => Some b) (wrapped kas) = wrapped (put k b kas).
Proof.
  induction kas as [|(k', a) kas IH]; [auto|]. cbn [wrapped map s_put put]. unfold keq at 1. cbn [fst snd]. rewrite strcmp_eqb.
  destruct (list_eq_dec Z.eq_dec k k'); [auto|]. unfold wrapped in IH. rewrite IH. auto.
Qed.
Lemma put_same {A} k (v : A) l : lookup k l = Some v -> put k v l = l.
Proof.
  induction l as [|(k', v') l IH]; cbn [lookup put]; [discriminate|]. destruct (list_eq_dec Z.eq_dec k k') as [<-|]; [congruence|].
  intros E. rewrite IH; auto.
Qed.
Lemma put_fresh {A} k (v : A) l : lookup k l = None -> put k v l = l ++ [(k, v)].
Proof.
  induction l as [|(k', v') l IH]; cbn [lookup put]; [auto|]. destruct (list_eq_dec Z.eq_dec k k'); [discriminate|].
  intros E. rewrite IH; auto.
Qed.
Lemma put_keys {A} k (v : A) l : map fst (put k v l) = map fst l ++ (match lookup k l with Some _ => [] | None => [k] end).
Proof.
  induction l as [|(k', v') l IH]; cbn [lookup put map app fst]; [auto|]. destruct (list_eq_dec Z.eq_dec k k'); cbn [map fst].
  - rewrite app_nil_r. auto.
  - rewrite IH. auto.
Qed.
Lemma lookup_put {A} k k' (v : A) l : lookup k (put k' v l) = if list_eq_dec Z.eq_dec k k' then Some v else lookup k l.
Proof.
  induction l as [|(k1, v1) l IH]; cbn [lookup put].
  - destruct (list_eq_dec Z.eq_dec k k'); auto.
  - destruct (list_eq_dec Z.eq_dec k' k1) as [->|]; cbn [lookup].
    + destruct (list_eq_dec Z.eq_dec k k1); auto.
    + rewrite IH. destruct (list_eq_dec Z.eq_dec k k1), (list_eq_dec Z.eq_dec k k'); auto; congruence.
Qed.
Lemma members_split h k kjs kas x : members h kjs kas -> lookup k kjs = Some x ->
  exists a r1 r2 s1 s2, lookup k kas = Some a /\ holds h x a /\
    kjs = r1 ++ (k, x) :: r2 /\ kas = s1 ++ (k, a) :: s2 /\ length r1 = length s1 /\ members h r1 s1 /\ members h r2 s2 /\
    forall z b, put k z kjs = r1 ++ (k, z) :: r2 /\ put k b kas = s1 ++ (k, b) :: s2.
Proof.
  intros F. induction F as [|(k1, j1) (k2, a2) kjs kas (E & H) F IH]; cbn [lookup]; [discriminate|]. cbn [fst snd] in *. subst k2.
  destruct (list_eq_dec Z.eq_dec k k1) as [->|Ne].
  - intros L; injection L as ->. exists a2, [], kjs, [], kas. cbn [lookup put app].
    destruct (list_eq_dec Z.eq_dec k1 k1) as [_|]; [|congruence]. repeat (split; [auto; constructor|]). auto.
  - intros L. destruct (IH L) as (a & r1 & r2 & s1 & s2 & L1 & Hx & -> & -> & Ln & M1 & M2 & P).
    exists a, ((k1, j1) :: r1), r2, ((k1, a2) :: s1), s2. cbn [lookup put app length].
    destruct (list_eq_dec Z.eq_dec k k1) as [|_]; [congruence|]. split; [exact L1|]. split; [auto|]. split; [auto|]. split; [auto|].
    split; [auto|]. split; [constructor; auto|]. split; [auto|]. intros z b. destruct (P z b) as (-> & ->). auto.
Qed.

Lemma tsearch_put m kas k b : mrep strcmp m (wrapped kas) -> Z.of_nat (length kas) <= 2 ^ 64 ->
  (exists a, tsearch (text * option nat) (pcmp text nat strcmp) (k, Some b) (m_root m) = Ok (m_root m, (k, Some a), false) /\ lookup k kas = Some a /\
     mrep strcmp (CMap (m_size m) (tupdate text nat strcmp (k, Some b) (k, Some b) (m_root m)) (m_keys m)) (wrapped (put k b kas))) \/
  (exists root, tsearch (text * option nat) (pcmp text nat strcmp) (k, Some b) (m_root m) = Ok (root, (k, Some b), true) /\ lookup k kas = None /\
     mrep strcmp (CMap (m_size m + 1) root (m_keys m ++ [k])) (wrapped (put k b kas))).
Proof.
  intros R B. assert (B' : Z.of_nat (length (wrapped kas)) <= 2 ^ 64) by (unfold wrapped; rewrite map_length; auto).
  destruct (add_e_rep strcmp strcmp_total m (wrapped kas) k (Some b) None R B') as (m' & Em & Rm).
  rewrite put_wrapped in Rm. unfold map_add_e in Em.
  pose proof (mrep_bound strcmp m _ R B') as HM. pose proof R as (A & So & P & KS & SZ).
  destruct (tsearch_spec _ (pcmp_total strcmp strcmp_total) (k, Some b) (m_root m) A So HM) as
    [(e & E1 & He & Ce) | (root' & ll & r & E1 & Hn & A' & I0 & I1 & S')].
  - left. unfold pcmp in Ce. cbn [fst] in Ce. apply strcmp_eq in Ce. destruct e as (k', ov). cbn [fst] in Ce. subst k'.
    apply (Permutation_in _ P) in He. unfold wrapped in He. apply in_map_iff in He as ((k', a) & Ee & Ia). cbn [fst snd] in Ee. injection Ee as -> <-.
    exists a. split; [exact E1|]. split; [apply in_lookup; [apply (mrep_nodup m); auto|auto]|].
    rewrite E1 in Em. cbn [bind negb fst snd] in Em. injection Em as _ <-. exact Rm.
  - right. exists root'. split; [exact E1|]. rewrite E1 in Em. cbn [bind negb] in Em. injection Em as _ <-. split; [|exact Rm].
    apply lookup_none. intros I. apply in_map_iff in I as ((k', a) & Ek & I). cbn [fst] in Ek. subst k'.
    apply (Hn (k, Some a)); [|unfold pcmp; cbn [fst]; apply strcmp_eq; auto].
    apply (Permutation_in _ (Permutation_sym P)). unfold wrapped. apply in_map_iff. exists (k, a). auto.
Qed.

(** * Walking *)
Section WalkProofs.
Local Notation pair_ := (text * option nat)%type.
Local Notation pc := (pcmp text nat strcmp).
Lemma subtree_in key t e : In e (inorder (subtree key t)) -> In e (inorder t).
Proof.
  induction t as [|(k, v) a0 IH0 a1 IH1 h]; cbn [subtree]; [auto|]. destruct (strcmp key k =? 0); [auto|].
  intros I. cbn [inorder]. apply in_or_app. destruct (strcmp key k >? 0); [right; right; auto|left; auto].
Qed.
Lemma strcmp_refl k : strcmp k k = 0.
Proof. apply strcmp_eq; auto. Qed.
Lemma subtree_self k v a0 a1 h : subtree k (Node (k, v) a0 a1 h) = Node (k, v) a0 a1 h.
Proof. cbn [subtree]. rewrite strcmp_refl. auto. Qed.
Lemma strcmp_flip x y : strcmp x y < 0 -> strcmp y x > 0.
Proof. intros. pose proof (strcmp_anti x y). destruct (Z.sgn_spec (strcmp x y)) as [(?&?)|[(?&?)|(?&?)]]; destruct (Z.sgn_spec (strcmp y x)) as [(?&?)|[(?&?)|(?&?)]]; lia. Qed.
Lemma subtree_child t : sorted pc (inorder t) -> forall key e a0 a1 h, subtree key t = Node e a0 a1 h ->
  (forall k v b0 b1 hh, a0 = Node (k, v) b0 b1 hh -> subtree k t = a0) /\
  (forall k v b0 b1 hh, a1 = Node (k, v) b0 b1 hh -> subtree k t = a1).
Proof.
  induction t as [|(k0, v0) l IHl r IHr h0]; intros So key e a0 a1 h E; [discriminate|].
  cbn [inorder] in So. apply sorted_app in So as (Sl & Sr & Sx). apply sorted_cons in Sr as (Sr & Sy).
  assert (GoL : forall k v, In (k, v) (inorder l) -> subtree k (Node (k0, v0) l r h0) = subtree k l).
  { intros k v I. cbn [subtree]. assert (C : strcmp k k0 < 0) by (apply (Sx (k, v) (k0, v0) I); left; auto).
    destruct (Z.eqb_spec (strcmp k k0) 0); [lia|]. rewrite Z.gtb_ltb. destruct (Z.ltb_spec 0 (strcmp k k0)); [lia|auto]. }
  assert (GoR : forall k v, In (k, v) (inorder r) -> subtree k (Node (k0, v0) l r h0) = subtree k r).
  { intros k v I. cbn [subtree]. assert (C : strcmp k0 k < 0) by (apply (Sy (k, v) I)). apply strcmp_flip in C.
    destruct (Z.eqb_spec (strcmp k k0) 0); [lia|]. rewrite Z.gtb_ltb. destruct (Z.ltb_spec 0 (strcmp k k0)); [auto|lia]. }
  cbn [subtree] in E. destruct (strcmp key k0 =? 0).
  - injection E as <- <- <- <-. split; intros k v b0 b1 hh ->.
    + rewrite (GoL k v) by (cbn [inorder]; apply in_or_app; right; left; auto). apply subtree_self.
    + rewrite (GoR k v) by (cbn [inorder]; apply in_or_app; right; left; auto). apply subtree_self.
  - destruct (strcmp key k0 >? 0).
    + destruct (IHr Sr key e a0 a1 h E) as (G0 & G1).
      assert (Sub : forall e', In e' (inorder a0) \/ In e' (inorder a1) -> In e' (inorder r)).
      { intros e' I. apply (subtree_in key). rewrite E. cbn [inorder]. apply in_or_app. destruct I; [left; auto|right; right; auto]. }
      split; intros k v b0 b1 hh Ea; (rewrite (GoR k v); [eauto|]); apply Sub; rewrite Ea; cbn [inorder]; [left|right]; apply in_or_app; right; left; auto.
    + destruct (IHl Sl key e a0 a1 h E) as (G0 & G1).
      assert (Sub : forall e', In e' (inorder a0) \/ In e' (inorder a1) -> In e' (inorder l)).
      { intros e' I. apply (subtree_in key). rewrite E. cbn [inorder]. apply in_or_app. destruct I; [left; auto|right; right; auto]. }
      split; intros k v b0 b1 hh Ea; (rewrite (GoL k v); [eauto|]); apply Sub; rewrite Ea; cbn [inorder]; [left|right]; apply in_or_app; right; left; auto.
Qed.

Variable W : Type.
Variable the_tree : W -> tree pair_.
Variable act : W -> text -> option nat -> outcome W.
Variable t0 : tree pair_.
Variable Inv : list pair_ -> W -> Prop.
Context (Sorted0 : sorted pc (inorder t0)).
Context (Stays : forall done w, Inv done w -> the_tree w = t0).
Context (Step : forall done k v rest w, pre t0 = done ++ (k, v) :: rest -> Inv done w -> exists w', act w k v = Ok w' /\ Inv (done ++ [(k, v)]) w').
Lemma live_walk_sub : forall t fuel w done rest, (t = Nil \/ exists key, subtree key t0 = t) -> avl t -> (length (inorder t) < fuel)%nat ->
  pre t0 = done ++ pre t ++ rest -> Inv done w ->
  exists w', live_walk W the_tree act fuel w (key_of t) = Ok w' /\ Inv (done ++ pre t) w'.
Proof.
  induction t as [|(k, v) a0 IH0 a1 IH1 h]; intros fuel w done rest Sb A L P I.
  - exists w. cbn [pre key_of]. rewrite app_nil_r. split; [destruct fuel; auto|auto].
  - assert (Hs : subtree k t0 = Node (k, v) a0 a1 h).
    { destruct Sb as [|(key & E)]; [discriminate|]. clear - E Sorted0.
      assert (strcmp key k = 0).
      { revert E. induction t0 as [|(k1, v1) l IHl r IHr h1]; cbn [subtree]; [discriminate|].
        cbn [inorder] in Sorted0. apply sorted_app in Sorted0 as (Sl & Sr & Sx). apply sorted_cons in Sr as (Sr & Sy).
        destruct (Z.eqb_spec (strcmp key k1) 0); [intros E; injection E as <- <- <- <- <-; auto|]. destruct (strcmp key k1 >? 0); auto. }
      apply strcmp_eq in H. subst. auto. }
    destruct fuel as [|n]; [lia|]. cbn [key_of live_walk]. rewrite (Stays done w I), Hs. destruct A as (A0 & A1 & Hh & Hb).
    cbn [pre app] in P. destruct (Step done k v (pre a0 ++ pre a1 ++ rest) w) as (w1 & E1 & I1); [rewrite P, <- app_assoc; auto|auto|].
    rewrite E1. cbn [bind]. cbn [inorder] in L. rewrite app_length in L. cbn [length] in L.
    destruct (Z.eqb_spec h 1) as [E|NE].
    + exists w1. split; [auto|]. pose proof (rheight_nonneg a0). pose proof (rheight_nonneg a1).
      destruct a0; [|pose proof (rheight_pos_node key a0_1 a0_2 h0); lia].
      destruct a1; [|pose proof (rheight_pos_node key a1_1 a1_2 h0); cbn [rheight] in *; lia]. exact I1.
    + destruct (subtree_child t0 Sorted0 k _ _ _ _ Hs) as (C0 & C1).
      rewrite (Stays _ w1 I1), Hs. cbn [left_of].
      destruct (IH0 n w1 (done ++ [(k, v)]) (pre a1 ++ rest)) as (w2 & E2 & I2); [|auto|lia| |auto|].
      { destruct a0 as [|(k', v') b0 b1 hh]; [left; auto|right; exists k'; eauto]. }
      { rewrite P, <- !app_assoc. auto. }
      rewrite E2. cbn [bind]. rewrite (Stays _ w2 I2), Hs. cbn [right_of].
      destruct (IH1 n w2 ((done ++ [(k, v)]) ++ pre a0) rest) as (w3 & E3 & I3); [|auto|lia| |auto|].
      { destruct a1 as [|(k', v') b0 b1 hh]; [left; auto|right; exists k'; eauto]. }
      { rewrite P, <- !app_assoc. auto. }
      exists w3. split; [exact E3|]. cbn [pre]. rewrite <- !app_assoc in I3. exact I3.
Qed.
Lemma live_walk_ok fuel w : avl t0 -> (length (inorder t0) < fuel)%nat -> Inv [] w ->
  exists w', live_walk W the_tree act fuel w (key_of t0) = Ok w' /\ Inv (visited _ t0) w'.
Proof.
  intros A L I. destruct (live_walk_sub t0 fuel w [] []) as (w' & E & I'); [|auto|auto|rewrite app_nil_r; auto|auto|].
  { destruct t0 as [|(k, v) a0 a1 h]; [left; auto|right; exists k; apply subtree_self]. }
  exists w'. split; [exact E|]. rewrite (visited_pre t0 A). exact I'.
Qed.
End WalkProofs.
