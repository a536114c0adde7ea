(** The sweep over a well-formed chain. *)
From Coq Require Import ZArith List Bool Lia.
From Verif Require Import Base HeapModel HeapChainProofs HeapHistory.
Import ListNotations.
Open Scope nat_scope.
Open Scope outcome_scope.

Definition mark_of (h : heap) (a : addr) : option Z := option_map b_mark (h_mem h a).
Definition is_marked (m : Z) (h : heap) (a : addr) : bool :=
  match mark_of h a with Some x => (x =? m)%Z | None => false end.

(** what is left is what was there, up to chain fields *)
Definition survive (h h' : heap) : Prop :=
  forall x b', h_mem h' x = Some b' -> exists b, h_mem h x = Some b /\ same_but_chain b b'.
Lemma survive_refl h : survive h h.
Proof. intros x b H. exists b. split; auto. apply same_but_chain_refl. Qed.
Lemma survive_trans h1 h2 h3 : survive h1 h2 -> survive h2 h3 -> survive h1 h3.
Proof.
  intros A B x b H. destruct (B x b H) as (b2 & H2 & S2). destruct (A x b2 H2) as (b1 & H1 & S1).
  exists b1. split; auto. eapply same_but_chain_trans; eauto.
Qed.
Lemma but_chain_survive h h' : heap_but_chain h h' -> survive h h'.
Proof. intros B x b' H. specialize (B x). rewrite H in B. destruct (h_mem h x); [|contradiction]. eauto. Qed.

Lemma filter_ext_on {A} (f g : A -> bool) l : (forall x, In x l -> f x = g x) -> filter f l = filter g l.
Proof. induction l as [|x l IH]; cbn; auto. intros H. rewrite (H x), IH; auto. Qed.

Lemma sweep_step_end fuel m h : sweep (S fuel) m h None = Ok h.
Proof. reflexivity. Qed.

Lemma sweep_rest st m : forall rest dn h fuel,
  wf_chain true h st (dn ++ rest) -> length rest < fuel ->
  exists h', sweep fuel m h (hd_error rest) = Ok h' /\
    wf_chain true h' st (dn ++ filter (is_marked m h) rest) /\
    h_freed h' = h_freed h ++ filter (fun a => negb (is_marked m h a)) rest /\
    h_next h' = h_next h /\ survive h h' /\
    (forall x, h_mem h' x = None <-> h_mem h x = None \/ In x rest /\ is_marked m h x = false).
Proof.
  induction rest as [|a rest IH]; intros dn h fuel W L.
  - destruct fuel as [|f]; [cbn in L; lia|]. exists h. cbn. split; auto. split; auto. rewrite app_nil_r. split; auto. split; auto.
    split; [apply survive_refl|]. tauto.
  - destruct fuel as [|f]; [lia|]. cbn [hd_error sweep].
    assert (Ia : In a (dn ++ a :: rest)) by (apply in_or_app; right; left; auto).
    pose proof (wf_live _ _ _ a W (or_intror Ia)) as La. unfold get. destruct (h_mem h a) as [b|] eqn:G; [|congruence]. cbn [bind].
    assert (IMa : is_marked m h a = (b_mark b =? m)%Z) by (unfold is_marked, mark_of; rewrite G; auto).
    assert (NX : b_next b = hd_error rest).
    { destruct rest as [|n r].
      - pose proof (wc_end _ _ _ W eq_refl) as X. rewrite last_snoc in X. unfold nxt in X. rewrite G in X. cbn in *. congruence.
      - pose proof (wc_links _ _ _ W) as X. rewrite links_app in X. destruct X as (_ & _ & _ & X & _). unfold nxt in X. rewrite G in X. cbn in *. congruence. }
    rewrite NX. cbn [filter]. rewrite IMa. destruct (b_mark b =? m)%Z eqn:EM; cbn [negb bind].
    + destruct (IH (dn ++ [a]) h f) as (h' & E & W' & F & N & S & LV); [rewrite <- app_assoc; auto|cbn in L; lia|].
      exists h'. split; [auto|]. rewrite <- app_assoc in W'. split; [auto|]. split; [auto|]. split; [auto|]. split; [auto|].
      intros x. rewrite LV. cbn. intuition congruence.
    + destruct (wc_obj _ _ _ W a Ia) as (SO & _). rewrite (shape_obj_nofollow _ _ SO).
      destruct (unlink_wf _ _ _ _ _ W) as (h1 & h2 & E1 & E2 & W2 & B & D & MM & N & F).
      rewrite E1. cbn [bind]. rewrite E2. cbn [bind].
      destruct (IH dn h2 f W2) as (h' & E & W' & F' & N' & S & LV); [cbn in L; lia|].
      assert (NIa : ~ In a rest).
      { pose proof (wc_nodup _ _ _ W) as ND. inversion ND as [|? ? _ ND']; subst. destruct (NoDup_mid _ _ _ ND') as (_ & X).
        intros Y. apply X, in_or_app. auto. }
      assert (MK : forall x, x <> a -> is_marked m h2 x = is_marked m h x).
      { intros x NE. unfold is_marked, mark_of. rewrite MM by auto. specialize (B x).
        destruct (h_mem h x), (h_mem h1 x); try contradiction; auto. cbn. destruct B as (_ & _ & -> & _). auto. }
      assert (MR : forall x, In x rest -> is_marked m h2 x = is_marked m h x).
      { intros x X. apply MK. intros ->. auto. }
      exists h'. split; [auto|]. split; [|split; [|split; [congruence|split]]].
      * rewrite <- (filter_ext_on _ _ _ MR). auto.
      * rewrite F', F, <- app_assoc. cbn [app]. f_equal. f_equal. apply filter_ext_on. intros x X. rewrite MR; auto.
      * eapply survive_trans; [apply but_chain_survive; exact B|]. eapply survive_trans; [|exact S].
        intros x b' X. destruct (Nat.eq_dec x a) as [->|NE]; [congruence|]. rewrite MM in X by auto. exists b'. split; auto. apply same_but_chain_refl.
      * intros x. rewrite LV. destruct (Nat.eq_dec x a) as [->|NE].
        -- rewrite D. cbn. rewrite IMa. tauto.
        -- rewrite MM by auto. rewrite (heap_but_chain_live _ _ _ B). cbn. rewrite MK by auto. intuition congruence.
Qed.

Lemma sweep_spec st m h l fuel : wf_chain true h st l -> has_mark m st h -> S (length l) < fuel ->
  exists h', sweep fuel m h (Some st) = Ok h' /\
    wf_chain true h' st (filter (is_marked m h) l) /\
    h_freed h' = h_freed h ++ filter (fun a => negb (is_marked m h a)) l /\
    h_next h' = h_next h /\ survive h h' /\
    (forall x, h_mem h' x = None <-> h_mem h x = None \/ In x l /\ is_marked m h x = false).
Proof.
  intros W M L. destruct fuel as [|f]; [lia|].
  pose proof (wf_live _ _ _ st W (or_introl eq_refl)) as La. unfold has_mark in M.
  destruct (h_mem h st) as [b|] eqn:G; [|congruence]. cbn in M.
  assert (NX : b_next b = hd_error l).
  { destruct l as [|n r].
    - pose proof (wc_end _ _ _ W eq_refl) as X. unfold nxt in X. cbn in X. rewrite G in X. cbn in *. congruence.
    - pose proof (wc_links _ _ _ W) as (X & _). unfold nxt in X. rewrite G in X. cbn in *. congruence. }
  destruct (sweep_rest st m l [] h f W) as (h' & E & R); [lia|].
  exists h'. split; [|exact R]. cbn [sweep]. unfold get. rewrite G. cbn [bind]. injection M as ->. rewrite Z.eqb_refl. cbn [bind].
  rewrite NX. exact E.
Qed.

(** * More fuel does not change a result *)
Lemma foldm_mon {A} (f g : heap -> A -> outcome heap) : (forall h x h', f h x = Ok h' -> g h x = Ok h') ->
  forall l h h', foldm f h l = Ok h' -> foldm g h l = Ok h'.
Proof.
  intros FG. induction l as [|x l IH]; intros h h'; cbn; auto. intros H. apply bind_ok in H as (h1 & H1 & H).
  rewrite (FG _ _ _ H1). cbn [bind]. auto.
Qed.
Lemma mark_val_mon f g : (forall h x h', f h x = Ok h' -> g h x = Ok h') ->
  forall h v h', mark_val f h v = Ok h' -> mark_val g h v = Ok h'.
Proof. intros FG h [] h'; cbn; auto. Qed.
Lemma trace_mark_mon m : forall f g h a h', f <= g -> trace_mark f m h a = Ok h' -> trace_mark g m h a = Ok h'.
Proof.
  induction f as [|f IH]; intros g h a h' L; [discriminate|]. destruct g as [|g]; [lia|]. cbn [trace_mark]. intros H.
  apply bind_ok in H as (b & -> & H). cbn [bind].
  assert (X : forall vs, (let* h1 := modify h a (set_mark m) in foldm (mark_val (trace_mark f m)) h1 vs) = Ok h' ->
    (let* h1 := modify h a (set_mark m) in foldm (mark_val (trace_mark g m)) h1 vs) = Ok h').
  { intros vs X. apply bind_ok in X as (h1 & -> & X). cbn [bind]. revert X. apply foldm_mon. apply mark_val_mon.
    intros h2 x h3. apply IH. lia. }
  destruct (b_body b) as [? ? ? ? ?|[] vs]; auto.
Qed.

(** the first [k] iterations of the sweep *)
Fixpoint sweep_steps (k : nat) (m : Z) (h : heap) (head : option addr) : outcome (heap * option addr) :=
  match k with
  | O => Ok (h, head)
  | S k =>
    match head with
    | None => Ok (h, None)
    | Some a =>
      let* b := get h a in
      let next := b_next b in
      let* h := if (b_mark b =? m)%Z then Ok h else del_nofollow h a in
      sweep_steps k m h next
    end
  end.
Lemma sweep_steps_ok m : forall k f h head h' a, sweep_steps k m h head = Ok (h', Some a) ->
  sweep (k + f) m h head = sweep f m h' (Some a).
Proof.
  induction k as [|k IH]; intros f h head h' a; cbn [sweep_steps sweep plus].
  - intros [= <- ->]. auto.
  - destruct head as [x|]; [|discriminate]. intros H. apply bind_ok in H as (b & -> & H). cbn [bind].
    apply bind_ok in H as (h1 & -> & H). cbn [bind]. auto.
Qed.
