(** A graph of JSON values in memory, and what deleting one of them does. *)
From Coq Require Import ZArith List Bool Lia Permutation.
From Verif Require Import Base Json HeapModel HeapChainProofs HeapHistory JsonMemModel JsonMemSpec JsonMemView JsonMemDel JsonMemOps JsonShareModel JsonShareSpec JsonShareGraph.
Import ListNotations.
Open Scope nat_scope.
Open Scope outcome_scope.
Local Arguments Z.add : simpl never.
Local Arguments Z.sub : simpl never.
Local Arguments Z.eqb : simpl never.
Local Arguments Z.of_nat : simpl never.
Local Arguments core : simpl never.

(** * Values with their objects *)
Record ent : Type := Ent { n_name : text; n_key : addr; n_pair : addr; n_val : ref }.
Inductive lnode : Type :=
| PBox (b : addr) (x : json)
| PArr (l : addr) (rs : list ref)
| PObj (m ks : addr) (ts : list addr) (es : list ent).
Definition top (n : lnode) : addr := match n with PBox b _ => b | PArr l _ => l | PObj m _ _ _ => m end.
Definition nblocks (e : ent) : list addr := [n_key e; n_pair e].
Definition iblocks (n : lnode) : list addr :=
  match n with PBox b _ => [b] | PArr l _ => [l] | PObj m ks _ es => m :: ks :: flat_map nblocks es end.
Definition pairs_of (es : list ent) : list (text * ref) := map (fun e => (n_name e, n_val e)) es.
Definition erase (n : lnode) : gnode :=
  match n with PBox _ x => GSimple x | PArr _ rs => GArr rs | PObj _ _ _ es => GObj (pairs_of es) end.
Definition lgraph : Type := list (nat * lnode).
Definition er (g : lgraph) : graph := map (fun p => (fst p, erase (snd p))) g.
(** an entry as one of a layout *)
Definition lay (e : ent) : text * addr * addr * layout := (n_name e, n_key e, n_pair e, LConst JNull).

Lemma er_app g1 g2 : er (g1 ++ g2) = er g1 ++ er g2.
Proof. apply map_app. Qed.
Lemma er_mid g1 i n g2 : er (g1 ++ (i, n) :: g2) = er g1 ++ (i, erase n) :: er g2.
Proof. apply er_app. Qed.
Lemma er_ids g : map fst (er g) = map fst g.
Proof. unfold er. rewrite map_map. auto. Qed.
Lemma ids_cons r rs : ids (r :: rs) = ids [r] ++ ids rs.
Proof. unfold ids. cbn [flat_map]. rewrite app_nil_r. auto. Qed.
Lemma ids_app rs1 rs2 : ids (rs1 ++ rs2) = ids rs1 ++ ids rs2.
Proof. apply flat_map_app. Qed.
Lemma ids_one i : ids [RAt i] = [i].
Proof. reflexivity. Qed.
Lemma pairs_vals es : map snd (pairs_of es) = map n_val es.
Proof. unfold pairs_of. rewrite map_map. auto. Qed.

Section Share.
Variables (st : addr) (ss : statics).
Notation W := (W st).

Section At.
Variable at_ : nat -> addr.
Notation pt := (pointer ss at_).
Definition gblocks (g : lgraph) : list addr := flat_map (fun p => at_ (fst p) :: iblocks (snd p)) g.
Definition entry_ok (c : contents) (h : heap) (n : Z) (e : ent) : Prop :=
  obj h (n_key e) KLeaf [] n /\ c (n_key e) = JStr (n_name e) /\ obj h (n_pair e) (KProd [DEL_RC; DEL_RC]) [VPtr (n_key e); pt (n_val e)] 0.
Definition inner (h : heap) (c : contents) (n : lnode) : Prop :=
  match n with
  | PBox b x => obj h b KLeaf [] 1 /\ c b = x
  | PArr l rs => obj h l (KList DEL_RC) (map pt rs) 1
  | PObj m ks ts es =>
    obj h m (KMap DEL_RC DEL_RC) (VPtr ks :: map VPtr ts) 1 /\ Permutation ts (map n_pair es) /\
    obj h ks (KList DEL_RC) (map (fun e => VPtr (n_key e)) es) 0 /\ NoDup (map n_name es) /\ Forall (entry_ok c h 2) es
  end.
Record good (h : heap) (c : contents) (g : lgraph) (cnt : nat -> nat) : Prop := Good {
  g_in : forall i n, In (i, n) g -> inner h c n;
  g_tag : forall i n, In (i, n) g -> obj h (at_ i) (KProd [DEL_RC]) [VPtr (top n)] (Z.of_nat (cnt i));
  g_ids : NoDup (map fst g);
  g_nd : NoDup (gblocks g)
}.

Lemma gblocks_app g1 g2 : gblocks (g1 ++ g2) = gblocks g1 ++ gblocks g2.
Proof. apply flat_map_app. Qed.
Lemma gblocks_mid g1 i n g2 x : occ x (gblocks (g1 ++ (i, n) :: g2)) = occ x (gblocks (g1 ++ g2)) + occ x (at_ i :: iblocks n).
Proof. rewrite !gblocks_app. cbn [gblocks flat_map fst snd]. fold (gblocks g2). rewrite !occ_app. lia. Qed.
Lemma gblocks_in g i n x : In (i, n) g -> In x (at_ i :: iblocks n) -> In x (gblocks g).
Proof. intros I J. apply in_flat_map. exists (i, n). auto. Qed.
Lemma entry_ok_ext c c' h h' n e : (forall x, In x (nblocks e) -> look h' x = look h x /\ c' x = c x) -> entry_ok c h n e -> entry_ok c' h' n e.
Proof.
  intros E (A & B & C). destruct (E (n_key e)) as (K1 & K2); [left; auto|]. destruct (E (n_pair e)) as (P1 & _); [right; left; auto|].
  split; [eapply obj_ext; [discriminate|exact K1|auto]|]. split; [congruence|]. eapply obj_ext; [discriminate|exact P1|auto].
Qed.
Lemma inner_ext h h' c c' n : (forall x, In x (iblocks n) -> look h' x = look h x /\ c' x = c x) -> inner h c n -> inner h' c' n.
Proof.
  intros E. destruct n as [b x|l rs|m ks ts es]; cbn [inner iblocks] in *.
  - intros (A & B). destruct (E b) as (E1 & E2); [left; auto|]. split; [eapply obj_ext; [discriminate|exact E1|auto]|congruence].
  - apply obj_ext; [discriminate|]. apply E. left. auto.
  - intros (A & B & C & D & F). split; [eapply obj_ext; [discriminate|apply E; left; auto|auto]|]. split; [auto|].
    split; [eapply obj_ext; [discriminate|apply E; right; left; auto|auto]|]. split; [auto|]. rewrite Forall_forall in *. intros e I.
    eapply entry_ok_ext; [|apply F; auto]. intros x X. apply E. right. right. apply in_flat_map. eauto.
Qed.
Lemma inner_things h c n : inner h c n -> Forall (thing h) (iblocks n).
Proof.
  destruct n as [b x|l rs|m ks ts es]; cbn [inner iblocks].
  - intros (A & _). repeat constructor. eapply thing_obj; eauto. discriminate.
  - intros A. repeat constructor. eapply thing_obj; eauto. discriminate.
  - intros (A & _ & B & _ & C). constructor; [eapply thing_obj; eauto; discriminate|]. constructor; [eapply thing_obj; eauto; discriminate|].
    rewrite Forall_forall in *. intros x X. apply in_flat_map in X as (e & I & X). destruct (C e I) as (C1 & _ & C2). destruct X as [<-|[<-|[]]]; eapply thing_obj; eauto; discriminate.
Qed.
Lemma good_things h c g cnt : good h c g cnt -> Forall (thing h) (gblocks g).
Proof.
  intros [A B _ _]. rewrite Forall_forall. intros x X. apply in_flat_map in X as ((i & n) & I & X). cbn [fst snd] in X. destruct X as [<-|X].
  - eapply thing_obj; [eapply B; eauto|discriminate].
  - specialize (A i n I). apply inner_things in A. rewrite Forall_forall in A. auto.
Qed.
Lemma good_ext h c h' c' g cnt cnt' : (forall x, In x (gblocks g) -> look h' x = look h x /\ c' x = c x) -> (forall i, In i (map fst g) -> cnt' i = cnt i) ->
  good h c g cnt -> good h' c' g cnt'.
Proof.
  intros E EC [A B C D]. constructor; auto.
  - intros i n I. eapply inner_ext; [|eapply A; eauto]. intros x X. apply E. eapply gblocks_in; eauto. right. auto.
  - intros i n I. rewrite EC by (apply in_map_iff; exists (i, n); auto). eapply obj_ext; [discriminate| |eapply B; eauto]. apply E. eapply gblocks_in; eauto. left. auto.
Qed.
Lemma good_sub h c g1 i n g2 cnt : good h c (g1 ++ (i, n) :: g2) cnt -> good h c (g1 ++ g2) cnt.
Proof.
  intros [A B C D]. assert (S : forall p : nat * lnode, In p (g1 ++ g2) -> In p (g1 ++ (i, n) :: g2)) by (intros p; rewrite !in_app_iff; cbn [In]; tauto).
  constructor; eauto.
  - rewrite map_app in *. cbn [map fst] in C. apply NoDup_remove_1 in C. auto.
  - apply nodup_occ. intros x. rewrite nodup_occ in D. specialize (D x). rewrite gblocks_mid in D. lia.
Qed.
(** one value replaced by another *)
Lemma good_mid h c g1 i n g2 cnt : good h c (g1 ++ g2) cnt -> inner h c n -> obj h (at_ i) (KProd [DEL_RC]) [VPtr (top n)] (Z.of_nat (cnt i)) ->
  ~ In i (map fst (g1 ++ g2)) -> NoDup (gblocks (g1 ++ (i, n) :: g2)) -> good h c (g1 ++ (i, n) :: g2) cnt.
Proof.
  intros [A B C D] N T NI ND. assert (S : forall j m, In (j, m) (g1 ++ (i, n) :: g2) -> (j, m) = (i, n) \/ In (j, m) (g1 ++ g2)) by (intros j m; rewrite !in_app_iff; cbn [In]; intros [|[|]]; auto).
  constructor; auto.
  - intros j m I. apply S in I as [[= -> ->]|I]; eauto.
  - intros j m I. apply S in I as [[= -> ->]|I]; eauto.
  - rewrite map_app in *. cbn [map fst]. apply (Permutation_NoDup (Permutation_middle (map fst g1) (map fst g2) i)). constructor; auto.
Qed.
(** the count of one value changes *)
Lemma good_recount h c h' g i n cnt cnt' : good h c g cnt -> In (i, n) g -> obj h' (at_ i) (KProd [DEL_RC]) [VPtr (top n)] (Z.of_nat (cnt' i)) ->
  (forall x, x <> at_ i -> look h' x = look h x) -> (forall j, j <> i -> cnt' j = cnt j) -> good h' c g cnt'.
Proof.
  intros H I O E EC. apply in_split in I as (g1 & g2 & ->). pose proof (g_nd _ _ _ _ H) as ND. pose proof (g_ids _ _ _ _ H) as NI.
  rewrite map_app in NI. cbn [map fst] in NI. apply NoDup_remove_2 in NI. rewrite <- map_app in NI.
  assert (AW : forall x, In x (gblocks (g1 ++ g2) ++ iblocks n) -> look h' x = look h x).
  { intros x X. apply E. intros ->. rewrite nodup_occ in ND. specialize (ND (at_ i)). rewrite gblocks_mid, occ_cons, Nat.eqb_refl in ND. cbn [Nat.b2n] in ND.
    apply in_app_iff in X as [X|X]; rewrite occ_in in X; lia. }
  apply good_mid; auto.
  - eapply good_ext; [| |eapply good_sub; eauto].
    + intros x X. split; auto. apply AW. apply in_app_iff. auto.
    + intros j J. apply EC. intros ->. auto.
  - eapply inner_ext; [|apply (g_in _ _ _ _ H i n); apply in_app_iff; right; left; auto]. intros x X. split; auto. apply AW. apply in_app_iff. auto.
Qed.

(** * Deleting *)
Section Del.
Variable c : contents.
(** [p]: pointers still to be given back *)
Definition cnts (g : lgraph) (p : list nat) (i : nat) : nat := places (er g) i + occ i p.
Definition closed (g : lgraph) (p : list nat) : Prop := forall i, In i (uses (er g) ++ p) -> In i (map fst g).
Definition ready (h : heap) (g : lgraph) (p : list nat) : Prop := W h /\ static_ok h ss /\ good h c g (cnts g p) /\ closed g p.
(** [g] is cut down to [g'], and [X] has disappeared too *)
Record cut (h : heap) (g : lgraph) (h' : heap) (g' : lgraph) (p : list nat) (X : list addr) : Prop := Cut {
  q_W : W h';
  q_next : h_next h' = h_next h;
  q_good : good h' c g' (cnts g' p);
  q_closed : closed g' p;
  q_len : length g' <= length g;
  q_incl : incl (gblocks g') (gblocks g);
  q_keep : forall x, ~ In x (gblocks g ++ X) -> look h' x = look h x;
  q_gone : forall x, In x (gblocks g ++ X) -> ~ In x (gblocks g') -> look h' x = None
}.
Lemma ready_eqv h g p p' : (forall x, occ x p = occ x p') -> ready h g p -> ready h g p'.
Proof.
  intros E (A & B & C & D). split; [auto|]. split; [auto|]. split.
  - eapply good_ext; [auto| |exact C]. intros i _. unfold cnts. rewrite E. auto.
  - intros i I. apply D. rewrite in_app_iff in *. rewrite (occ_in i p), E, <- occ_in. auto.
Qed.
Lemma cut_trans h g h1 g1 h2 g2 p1 p2 X1 X2 : cut h g h1 g1 p1 X1 -> cut h1 g1 h2 g2 p2 X2 -> cut h g h2 g2 p2 (X1 ++ X2).
Proof.
  intros [A1 A2 A3 A4 A5 A6 A7 A8] [B1 B2 B3 B4 B5 B6 B7 B8]. constructor; auto; try congruence; try lia.
  - intros x X. auto.
  - intros x X. rewrite !in_app_iff in X. rewrite B7, A7; [auto|rewrite in_app_iff; tauto|]. rewrite in_app_iff. intros [Y|Y]; [apply A6 in Y; tauto|tauto].
  - intros x X N. destruct (in_dec Nat.eq_dec x (gblocks g1 ++ X2)) as [I|NI]; [auto|]. rewrite B7 by auto. rewrite !in_app_iff in *. apply A8; [rewrite in_app_iff; tauto|tauto].
Qed.
Lemma cut_perm h g h' g' p X Y : (forall x, In x X <-> In x Y) -> cut h g h' g' p X -> cut h g h' g' p Y.
Proof.
  intros E [A1 A2 A3 A4 A5 A6 A7 A8]. constructor; auto.
  - intros x I. apply A7. rewrite in_app_iff in *. rewrite E. auto.
  - intros x I. apply A8. rewrite in_app_iff in *. rewrite E. auto.
Qed.
Lemma cut_gone h g h' p X : ready h g p -> gone st h h' X -> (forall x, In x X -> ~ In x (gblocks g)) -> cut h g h' g p X.
Proof.
  intros (Wh & SO & G & CL) (A1 & A2 & A3 & A4) DJ. constructor; auto.
  - eapply good_ext; [|auto|exact G]. intros x I. split; auto. apply A4. intros Y. apply (DJ x Y I).
  - intros x I; auto.
  - intros x I. apply A4. rewrite in_app_iff in I. tauto.
  - intros x I N. apply A3. rewrite in_app_iff in I. tauto.
Qed.
(** something that disappears later was changed before *)
Lemma cut_pre h h1 g h' g' p X : (forall x, ~ In x X -> look h1 x = look h x) -> h_next h1 = h_next h -> cut h1 g h' g' p X -> cut h g h' g' p X.
Proof.
  intros E N [A1 A2 A3 A4 A5 A6 A7 A8]. constructor; auto; [congruence|]. intros x I. rewrite A7 by auto. apply E. rewrite in_app_iff in I. tauto.
Qed.
Lemma cut_static h g h' g' p X cnt : static_ok h ss -> good h c g cnt -> Forall (thing h) X -> cut h g h' g' p X -> static_ok h' ss.
Proof.
  intros SO G T Q. apply (static_away h h' ss (gblocks g ++ X)); auto; [apply Q|]. intros x I. left. apply good_things in G. rewrite Forall_forall in *. apply in_app_iff in I as [I|I]; auto.
Qed.
Lemma cut_ready h g h' g' p p' X : ready h g p -> Forall (thing h) X -> cut h g h' g' p' X -> ready h' g' p'.
Proof. intros (A & B & C & D) T Q. split; [apply Q|]. split; [eapply cut_static; eauto|]. split; apply Q. Qed.

Lemma static_ref r : (forall i, r <> RAt i) -> exists a, pt r = VPtr a /\ In a [s_true ss; s_false ss; s_null ss] /\ ids [r] = [].
Proof. destruct r as [|[]|i]; intros H; [..|destruct (H i); auto]; eexists; (split; [reflexivity|]; split; [cbn; auto|auto]). Qed.
Lemma ref_cases r : (exists i, r = RAt i) \/ (forall i, r <> RAt i).
Proof. destruct r; [right; discriminate..|left; eauto]. Qed.

Definition deletes (f : nat) : Prop := forall h g p r, ready h g (ids [r] ++ p) -> 3 * length g + 1 <= f ->
  exists h' g', del_e (trace_del f) h (DEL_RC, pt r) = Ok h' /\ cut h g h' g' p [] /\ dsteps (er g, ids [r] ++ p) (er g', p).
Lemma del_refs f : deletes f -> forall rs h g p, ready h g (ids rs ++ p) -> 3 * length g + 1 <= f ->
  exists h' g', foldm (del_e (trace_del f)) h (map (pair DEL_RC) (map pt rs)) = Ok h' /\ cut h g h' g' p [] /\ dsteps (er g, ids rs ++ p) (er g', p).
Proof.
  intros D. induction rs as [|r rs IH]; intros h g p R F.
  - exists h, g. split; [auto|]. split; [|apply ds_done; auto]. apply cut_gone; auto. apply gone_nil. apply R.
  - rewrite ids_cons, <- app_assoc in *. destruct (D h g (ids rs ++ p) r R F) as (h1 & g1 & E1 & Q1 & S1). cbn [map foldm]. rewrite E1. cbn [bind].
    assert (R1 := cut_ready _ _ _ _ _ _ _ R (Forall_nil _) Q1). destruct (IH h1 g1 p R1) as (h2 & g2 & E2 & Q2 & S2); [pose proof (q_len _ _ _ _ _ _ Q1); lia|].
    exists h2, g2. split; [auto|]. split; [exact (cut_trans _ _ _ _ _ _ _ _ _ _ Q1 Q2)|eapply dsteps_trans; eauto].
Qed.
Lemma del_ents f : deletes f -> forall es h g p, ready h g (ids (map n_val es) ++ p) -> 3 * length g + 1 <= f -> Forall (entry_ok c h 1) es ->
  NoDup (flat_map nblocks es) -> (forall x, In x (flat_map nblocks es) -> ~ In x (gblocks g)) ->
  exists h' g', foldm (del_e (trace_del (S f))) h (map (pair DEL) (map VPtr (map n_pair es))) = Ok h' /\ cut h g h' g' p (flat_map nblocks es) /\
    dsteps (er g, ids (map n_val es) ++ p) (er g', p).
Proof.
  intros D. induction es as [|e es IH]; intros h g p R F H ND DJ.
  - exists h, g. split; [auto|]. split; [|apply ds_done; auto]. apply cut_gone; auto. apply gone_nil. apply R.
  - cbn [map flat_map] in *. rewrite ids_cons, <- app_assoc in *. apply Forall_cons_iff in H as ((K & CK & T) & H). cbn [nblocks app] in ND, DJ |- *.
    inversion ND as [|? ? NK ND1]; subst. inversion ND1 as [|? ? NP ND2]; subst.
    assert (NE : n_key e <> n_pair e) by (intros E; apply NK; left; auto).
    assert (TH : Forall (thing h) [n_key e; n_pair e]) by (repeat constructor; eapply thing_obj; eauto; discriminate).
    destruct R as (Wh & R'). destruct (del_ref_view st h (n_key e) KLeaf [] 1%Z (trace_del f) Wh K) as (h1 & W1 & N1 & O1 & X1 & E1); [discriminate|].
    change (lessened 1) with 0%Z in *. change (0 =? 0)%Z with true in E1. cbv iota in E1.
    destruct (del_leaf st f h1 (n_key e) 0 W1 O1) as (h2 & E2 & G2); [lia|].
    assert (G02 : gone st h h2 [n_key e]).
    { destruct G2 as (A1 & A2 & A3 & A4). split; [auto|]. split; [congruence|]. split; [auto|]. intros x I. rewrite A4 by auto. apply X1. intros ->. apply I. left. auto. }
    assert (Q2 : cut h g h2 g (ids [n_val e] ++ ids (map n_val es) ++ p) [n_key e]).
    { apply cut_gone; [split; auto|auto|]. intros x [<-|[]]. apply DJ. left. auto. }
    assert (R2 : ready h2 g (ids [n_val e] ++ ids (map n_val es) ++ p)).
    { eapply cut_ready; [split; [exact Wh|exact R']| |exact Q2]. constructor; [|constructor]. inversion TH; auto. }
    destruct (D h2 g _ (n_val e) R2 F) as (h3 & g3 & E3 & Q3 & S3).
    assert (R3 := cut_ready _ _ _ _ _ _ _ R2 (Forall_nil _) Q3).
    assert (Q03 := cut_trans _ _ _ _ _ _ _ _ _ _ Q2 Q3). rewrite app_nil_r in Q03.
    assert (KP : forall x, In x (n_pair e :: flat_map nblocks es) -> look h3 x = look h x).
    { intros x X. apply (q_keep _ _ _ _ _ _ Q03). rewrite in_app_iff. intros [Y|[Y|[]]]; [apply (DJ x); [right; auto|auto]|subst; auto]. }
    destruct (finish_view st h3 (n_pair e)) as (h4 & E4 & G4); [apply R3|eapply thing_ext; [apply KP; left; auto|inversion TH as [|? ? ? TT]; inversion TT; auto]|].
    assert (Q4 : cut h3 g3 h4 g3 (ids (map n_val es) ++ p) [n_pair e]).
    { apply cut_gone; auto. intros x [<-|[]] Y. apply (q_incl _ _ _ _ _ _ Q3) in Y. apply (DJ (n_pair e)); [right; left; auto|auto]. }
    assert (Q04 := cut_trans _ _ _ _ _ _ _ _ _ _ Q03 Q4). cbn [app] in Q04.
    assert (R4 : ready h4 g3 (ids (map n_val es) ++ p)) by (eapply cut_ready; [split; [exact Wh|exact R']|exact TH|exact Q04]).
    destruct (IH h4 g3 p R4) as (h5 & g5 & E5 & Q5 & S5).
    + pose proof (q_len _ _ _ _ _ _ Q3). lia.
    + rewrite Forall_forall in *. intros e' I. eapply entry_ok_ext; [|apply H; auto]. intros x X. split; auto. apply (q_keep _ _ _ _ _ _ Q04).
      assert (J : In x (flat_map nblocks es)) by (apply in_flat_map; eauto).
      rewrite in_app_iff. intros [Y|[Y|[Y|[]]]]; [apply (DJ x); [right; right; auto|auto]|subst; apply NK; right; auto|subst; auto].
    + auto.
    + intros x X Y. apply (q_incl _ _ _ _ _ _ Q3) in Y. apply (DJ x); [right; right; auto|auto].
    + exists h5, g5. cbn [foldm]. split; [|split].
      * change (del_e (trace_del (S f)) h (DEL, VPtr (n_pair e))) with (trace_del (S f) h (n_pair e)).
        rewrite (trace_step f h (n_pair e) _ _ _ T) by discriminate. cbn [del_fields combine foldm]. rewrite E1, E2. cbn [bind]. rewrite E3. cbn [bind]. rewrite E4. cbn [bind]. exact E5.
      * exact (cut_trans _ _ _ _ _ _ _ _ _ _ Q04 Q5).
      * eapply dsteps_trans; eauto.
Qed.

Lemma cnts_zero g p i : cnts g p i = 0 -> ~ In i (uses (er g) ++ p).
Proof. unfold cnts. rewrite places_occ, in_app_iff, !occ_in. lia. Qed.

(** the objects of one value *)
Lemma del_node f : (forall f', f' <= S f -> deletes f') -> forall h g p i n z, ready h g (kids (erase n) ++ p) -> 3 * length g + 1 <= f ->
  obj h (at_ i) (KProd [DEL_RC]) [VPtr (top n)] z -> inner h c n -> NoDup (at_ i :: iblocks n) -> (forall x, In x (at_ i :: iblocks n) -> ~ In x (gblocks g)) ->
  exists h' g', trace_del (S (S (S f))) h (at_ i) = Ok h' /\ cut h g h' g' p (at_ i :: iblocks n) /\ dsteps (er g, kids (erase n) ++ p) (er g', p).
Proof.
  intros D h g p i n z R F T N ND DJ. inversion ND as [|? ? NA ND1]; subst.
  rewrite (trace_step _ h (at_ i) _ _ _ T) by discriminate. cbn [del_fields combine foldm].
  (* what is left when the content has disappeared *)
  assert (FIN : forall h2 h3 g3, cut h2 g h3 g3 p (iblocks n) -> h_next h2 = h_next h -> (forall x, ~ In x (iblocks n) -> look h2 x = look h x) ->
    exists h', (let* h := Ok h3 in let* h := de_chain h (at_ i) in free h (at_ i)) = Ok h' /\ cut h g h' g3 p (at_ i :: iblocks n)).
  { intros h2 h3 g3 Q N2 X2. apply (cut_pre h) in Q; auto.
    assert (K : look h3 (at_ i) = look h (at_ i)). { apply (q_keep _ _ _ _ _ _ Q). rewrite in_app_iff. intros [Y|Y]; [apply (DJ (at_ i)); [left; auto|auto]|auto]. }
    assert (R3 : ready h3 g3 p) by (eapply cut_ready; [exact R|eapply inner_things; exact N|exact Q]).
    destruct (finish_view st h3 (at_ i)) as (h4 & E4 & G4); [apply Q|eapply thing_ext; [exact K|eapply thing_obj; [exact T|discriminate]]|].
    exists h4. split; [exact E4|]. eapply cut_perm; [|eapply cut_trans; [exact Q|eapply cut_gone; [exact R3|exact G4|]]].
    - intros x. rewrite in_app_iff. cbn. tauto.
    - intros x [<-|[]] Y. apply (q_incl _ _ _ _ _ _ Q) in Y. apply (DJ (at_ i)); [left; auto|auto]. }
  destruct R as (Wh & SO & G & CL).
  destruct n as [b x|l rs|m ks ts es]; cbn [top inner iblocks erase kids held] in *.
  - destruct N as (N & CB). destruct (del_ref_view st h b KLeaf [] 1%Z (trace_del (S (S f))) Wh N) as (h1 & W1 & N1 & O1 & X1 & E1); [discriminate|].
    change (lessened 1) with 0%Z in *. change (0 =? 0)%Z with true in E1. cbv iota in E1. rewrite E1.
    destruct (del_leaf st (S (S f)) h1 b 0 W1 O1) as (h2 & E2 & G2); [lia|]. rewrite E2.
    destruct (FIN h h2 g) as (h' & E' & Q'); auto.
    { apply cut_gone; [split; auto| |intros y [<-|[]]; apply DJ; right; left; auto]. destruct G2 as (A1 & A2 & A3 & A4). split; [auto|]. split; [congruence|]. split; [auto|].
      intros y I. rewrite A4 by auto. apply X1. intros ->. apply I. left. auto. }
    exists h', g. cbn [bind] in *. split; [exact E'|]. split; [auto|]. apply ds_done. auto.
  - destruct (del_ref_view st h l _ _ 1%Z (trace_del (S (S f))) Wh N) as (h1 & W1 & N1 & O1 & X1 & E1); [discriminate|].
    change (lessened 1) with 0%Z in *. change (0 =? 0)%Z with true in E1. cbv iota in E1. rewrite E1.
    rewrite (trace_step _ h1 l _ _ _ O1) by discriminate. cbn [del_fields].
    assert (NL : ~ In l (gblocks g)) by (apply DJ; right; left; auto).
    assert (R1 : ready h1 g (ids rs ++ p)).
    { split; [auto|]. split; [eapply static_keep; [exact SO|eapply thing_obj; [exact N|discriminate]|exact X1]|]. split; [|auto]. eapply good_ext; [|auto|exact G]. intros x X. split; auto. apply X1. intros ->. auto. }
    destruct (del_refs (S f) (D (S f) (le_n _)) rs h1 g p R1) as (h2 & g2 & E2 & Q2 & S2); [lia|]. rewrite E2. cbn [bind].
    destruct (finish_view st h2 l) as (h3 & E3 & G3); [apply Q2| |].
    { eapply thing_ext; [|eapply thing_obj; [exact O1|discriminate]]. apply (q_keep _ _ _ _ _ _ Q2). rewrite app_nil_r. auto. }
    rewrite E3. cbn [bind].
    assert (Q3 : cut h1 g h3 g2 p [l]).
    { eapply cut_perm; [|eapply cut_trans; [exact Q2|eapply cut_gone; [eapply cut_ready; [exact R1|constructor|exact Q2]|exact G3|]]]; [intros; reflexivity|].
      intros x [<-|[]] Y. apply (q_incl _ _ _ _ _ _ Q2) in Y. auto. }
    destruct (FIN h1 h3 g2 Q3 N1) as (h' & E' & Q'); [intros x I; apply X1; intros ->; apply I; left; auto|]. exists h', g2. cbn [bind] in E'. auto.
  - destruct N as (N & PM & NK & NN & NE). destruct (del_ref_view st h m _ _ 1%Z (trace_del (S (S f))) Wh N) as (h1 & W1 & N1 & O1 & X1 & E1); [discriminate|].
    change (lessened 1) with 0%Z in *. change (0 =? 0)%Z with true in E1. cbv iota in E1. rewrite E1.
    rewrite (trace_step _ h1 m _ _ _ O1) by discriminate. cbn [del_fields map foldm].
    change (del_e (trace_del (S f)) h1 (DEL, VPtr ks)) with (trace_del (S f) h1 ks).
    inversion ND1 as [|? ? NM ND2]; subst. inversion ND2 as [|? ? NKS ND3]; subst.
    assert (MK : m <> ks) by (intros ->; apply NM; left; auto).
    assert (EB : forall e, In e es -> forall x, In x (nblocks e) -> In x (flat_map nblocks es)) by (intros; apply in_flat_map; eauto).
    assert (K1 : obj h1 ks (KList DEL_RC) (map (fun e => VPtr (n_key e)) es) 0) by (eapply obj_ext; [discriminate|apply X1; auto|exact NK]).
    rewrite (trace_step _ h1 ks _ _ _ K1) by discriminate. cbn [del_fields].
    assert (NEk : Forall (fun e => obj h1 (e_key e) KLeaf [] 2) (map lay es)).
    { rewrite Forall_forall in *. intros e' I. apply in_map_iff in I as (e & <- & I). change (e_key (lay e)) with (n_key e). destruct (NE e I) as (A & _). eapply obj_ext; [discriminate|apply X1|exact A].
      intros Q. apply NM. right. apply (EB e I). left. auto. }
    assert (NDk : NoDup (map e_key (map lay es))).
    { rewrite map_map. change (NoDup (map n_key es)). clear - ND3. induction es as [|e es IH]; cbn [map flat_map nblocks app] in *; [constructor|]. inversion ND3 as [|? ? A B]; subst. inversion B; subst. constructor; [|auto].
      intros I. apply A. right. apply in_map_iff in I as (e' & E & I). apply in_flat_map. exists e'. split; [auto|]. rewrite <- E. left. auto. }
    destruct (del_keys st f (map lay es) h1 W1 NDk NEk) as (h2 & E2 & W2 & N2 & O2 & X2).
    rewrite !map_map in E2. change (map (fun x => (DEL_RC, VPtr (e_key (lay x)))) es) with (map (fun x => (DEL_RC, VPtr (n_key x))) es) in E2. rewrite map_map, E2. cbn [bind].
    rewrite map_map in X2. change (map (fun x => e_key (lay x)) es) with (map n_key es) in X2.
    assert (KI : forall x, In x (map n_key es) -> In x (flat_map nblocks es)). { intros x I. apply in_map_iff in I as (e & <- & I). apply (EB e I). left. auto. }
    assert (X02 : forall x, x <> m -> ~ In x (map n_key es) -> look h2 x = look h x) by (intros x A B; rewrite X2, X1; auto).
    assert (R2 : ready h2 g (ids (map n_val es) ++ p)).
    { split; [auto|]. split; [|split].
      - apply (static_away h h2 ss (m :: map n_key es)); auto; [intros x I; apply X02; intros Y; apply I; [left; auto|right; auto]|]. intros x [<-|I]; left; [eapply thing_obj; [exact N|discriminate]|].
        apply in_map_iff in I as (e & <- & I). rewrite Forall_forall in NE. destruct (NE e I) as (A & _). eapply thing_obj; [exact A|discriminate].
      - unfold kids, held in G. rewrite pairs_vals in G. eapply good_ext; [|auto|exact G]. intros x X. split; auto. apply X02; [intros ->; apply (DJ m); [right; left; auto|auto]|].
        intros I. apply (DJ x); [right; right; right; auto|auto].
      - unfold kids, held in CL. rewrite pairs_vals in CL. exact CL. }
    unfold kids, held. rewrite pairs_vals.
    assert (KS2 : obj h2 ks (KList DEL_RC) (map (fun e => VPtr (n_key e)) es) 0) by (eapply obj_ext; [discriminate|apply X2; auto|exact K1]).
    destruct (finish_view st h2 ks) as (h3 & E3 & G3); [auto|eapply thing_obj; [exact KS2|discriminate]|]. rewrite E3. cbn [bind].
    assert (Q3 : cut h2 g h3 g (ids (map n_val es) ++ p) [ks]). { apply cut_gone; auto. intros x [<-|[]]. apply DJ. right. right. left. auto. }
    assert (R3 : ready h3 g (ids (map n_val es) ++ p)). { eapply cut_ready; [exact R2| |exact Q3]. constructor; [eapply thing_obj; [exact KS2|discriminate]|constructor]. }
    apply perm_map_inv in PM as (es' & PM & ->).
    assert (EI : forall x, In x (flat_map nblocks es') <-> In x (flat_map nblocks es)).
    { intros x. rewrite !in_flat_map. split; intros (e & I & J); exists e; (split; [|auto]); [eapply Permutation_in; eauto|eapply Permutation_in; [apply Permutation_sym|]; eauto]. }
    assert (OC : forall x, occ x (ids (map n_val es')) = occ x (ids (map n_val es))).
    { intros x. clear - PM. induction PM as [|e l l' _ IH|e e' l|l1 l2 l3 _ IH1 _ IH2]; cbn [map]; auto.
      - rewrite (ids_cons _ (map n_val l)), (ids_cons _ (map n_val l')), !occ_app. lia.
      - rewrite !(ids_cons _ (_ :: _)), !(ids_cons _ (map n_val l)), !occ_app. lia.
      - lia. }
    destruct (del_ents f (D f (Nat.le_succ_diag_r f)) es' h3 g p) as (h4 & g4 & E4 & Q4 & S4).
    + eapply ready_eqv; [|exact R3]. intros x. rewrite !occ_app, OC. auto.
    + auto.
    + rewrite Forall_forall in *. intros e I. assert (I' : In e es) by (eapply Permutation_in; eauto). destruct (NE e I') as (A & B & C). split; [|split; [auto|]].
      * eapply obj_ext; [discriminate| |exact (O2 (lay e) (in_map lay es e I'))]. apply (q_keep _ _ _ _ _ _ Q3). rewrite in_app_iff. intros [Y|[Y|[]]].
        -- apply (DJ (n_key e)); [right; right; right; apply (EB e I'); left; auto|auto].
        -- apply NKS. rewrite Y. apply (EB e I'). left. auto.
      * eapply obj_ext; [discriminate| |exact C].
        assert (IB : In (n_pair e) (flat_map nblocks es)) by (apply (EB e I'); right; left; auto).
        rewrite (q_keep _ _ _ _ _ _ Q3), X02; [auto| | |].
        -- intros Q. apply NM. right. rewrite <- Q. auto.
        -- intros Q. apply in_map_iff in Q as (e2 & Q & I2). clear - ND3 I' I2 Q.
           induction es as [|e0 es IH]; [destruct I'|]. cbn [flat_map nblocks app] in ND3. inversion ND3 as [|? ? A B]; subst. inversion B as [|? ? A2 B2]; subst.
           destruct I' as [<-|I'], I2 as [<-|I2]; auto.
           ++ apply A. left. auto.
           ++ apply A2. rewrite <- Q. apply in_flat_map. exists e2. split; [auto|left; auto].
           ++ apply A. right. rewrite Q. apply in_flat_map. exists e. split; [auto|right; left; auto].
        -- rewrite in_app_iff. intros [Y|[Y|[]]]; [apply (DJ (n_pair e)); [right; right; right; auto|auto]|apply NKS; rewrite Y; auto].
    + apply nodup_occ. intros x. rewrite nodup_occ in ND3. specialize (ND3 x). enough (occ x (flat_map nblocks es') = occ x (flat_map nblocks es)) by lia.
      clear - PM. induction PM as [|e l l' _ IH|e e' l|l1 l2 l3 _ IH1 _ IH2]; auto; [cbn [flat_map]; rewrite !occ_app; lia|cbn [flat_map]; rewrite !occ_app; lia|lia].
    + intros x I. apply DJ. right. right. right. apply EI. auto.
    + rewrite map_map in E4. rewrite !map_map in *. rewrite E4. cbn [bind].
      assert (Q04 := cut_trans _ _ _ _ _ _ _ _ _ _ Q3 Q4).
      assert (TH : Forall (thing h2) ([ks] ++ flat_map nblocks es')).
      { constructor; [eapply thing_obj; [exact KS2|discriminate]|]. rewrite Forall_forall in *. intros x I. apply EI in I. apply in_flat_map in I as (e & I & J). destruct (NE e I) as (A & B & C).
        destruct J as [<-|[<-|[]]].
        - specialize (O2 (lay e) (in_map lay es e I)). eapply thing_obj; [exact O2|discriminate].
        - destruct (in_dec Nat.eq_dec (n_pair e) (map n_key es)) as [Y|Y].
          + apply in_map_iff in Y as (e2 & <- & I2). specialize (O2 (lay e2) (in_map lay es e2 I2)). eapply thing_obj; [exact O2|discriminate].
          + eapply thing_ext; [apply X02; [|auto]|eapply thing_obj; [exact C|discriminate]]. intros Q. apply NM. right. rewrite <- Q. apply (EB e I). right. left. auto. }
      assert (R4 := cut_ready _ _ _ _ _ _ _ R2 TH Q04).
      assert (M2 : look h4 m = look h2 m).
      { apply (q_keep _ _ _ _ _ _ Q04). rewrite in_app_iff. intros [Y|[Y|Y]]; [apply (DJ m); [right; left; auto|auto]|auto|apply NM; right; apply EI; auto]. }
      destruct (finish_view st h4 m) as (h5 & E5 & G5); [apply R4|eapply thing_ext; [rewrite M2; apply X2|eapply thing_obj; [exact O1|discriminate]]; intros I; apply NM; right; auto|].
      rewrite E5.
      assert (Q5 : cut h4 g4 h5 g4 p [m]). { apply cut_gone; auto. intros x [<-|[]] Y. apply (q_incl _ _ _ _ _ _ Q04) in Y. apply (DJ m); [right; left; auto|auto]. }
      assert (Q05 := cut_trans _ _ _ _ _ _ _ _ _ _ Q04 Q5).
      destruct (FIN h2 h5 g4) as (h' & E' & Q').
      * eapply cut_perm; [|exact Q05]. intros x. rewrite !in_app_iff, EI. cbn. tauto.
      * congruence.
      * intros x I. cbn in I. apply X02; [intros ->; tauto|]. intros Y. apply KI in Y. tauto.
      * exists h', g4. cbn [bind] in E'. split; [exact E'|]. split; [auto|]. eapply dsteps_start; [|exact S4]. intros x. rewrite !occ_app, OC. auto.
Qed.

Lemma deletes_all : forall f, deletes f.
Proof.
  induction f as [f IH] using lt_wf_ind. intros h g p r (Wh & SO & G & CL) F. destruct (ref_cases r) as [(i & ->)|NR].
  - rewrite ids_one in *. cbn [app] in *. assert (I : In i (map fst g)) by (apply CL; apply in_app_iff; right; left; auto).
    apply in_map_iff in I as ((i' & n) & E & I). cbn [fst] in E. subst i'. pose proof (g_tag _ _ _ _ G i n I) as T. cbn [pointer].
    destruct (del_ref_view st h (at_ i) _ _ _ (trace_del f) Wh T) as (h1 & W1 & N1 & O1 & X1 & ->); [discriminate|].
    assert (CI : cnts g (i :: p) i = S (cnts g p i)) by (unfold cnts; rewrite occ_cons, Nat.eqb_refl; cbn [Nat.b2n]; lia).
    assert (LE : lessened (Z.of_nat (cnts g (i :: p) i)) = Z.of_nat (cnts g p i)). { rewrite CI. unfold lessened. destruct (Z.eqb_spec (Z.of_nat (S (cnts g p i))) 0); lia. }
    rewrite LE in *. assert (SO1 : static_ok h1 ss) by (eapply static_keep; [exact SO|eapply thing_obj; [exact T|discriminate]|exact X1]).
    assert (IB : In (at_ i) (gblocks g)) by (eapply gblocks_in; [exact I|left; auto]).
    assert (CN : forall j, j <> i -> cnts g p j = cnts g (i :: p) j).
    { intros j NE. unfold cnts. rewrite occ_cons. apply Nat.eqb_neq in NE. rewrite NE. auto. }
    destruct (Z.eqb_spec (Z.of_nat (cnts g p i)) 0) as [Z0|Z0].
    + assert (C0 : cnts g p i = 0) by lia. clear Z0. pose proof I as I0. apply in_split in I as (g1 & g2 & EG).
      assert (ND := g_nd _ _ _ _ G). rewrite EG in ND. assert (OC := proj1 (nodup_occ _) ND).
      assert (NI := g_ids _ _ _ _ G). rewrite EG, map_app in NI. cbn [map fst] in NI. apply NoDup_remove_2 in NI. rewrite <- map_app in NI.
      assert (DJ : forall x, In x (at_ i :: iblocks n) -> ~ In x (gblocks (g1 ++ g2))).
      { intros x A B. specialize (OC x). rewrite gblocks_mid in OC. rewrite occ_in in A, B. lia. }
      assert (LN : length g = S (length (g1 ++ g2))) by (rewrite EG, !app_length; cbn [length]; lia).
      assert (UN : forall j, In j (uses (er (g1 ++ g2)) ++ kids (erase n) ++ p) -> In j (uses (er g) ++ p)).
      { intros j. rewrite EG, er_mid, er_app, !uses_app. cbn [uses flat_map snd]. rewrite !in_app_iff. unfold uses. tauto. }
      assert (R1 : ready h1 (g1 ++ g2) (kids (erase n) ++ p)).
      { split; [auto|]. split; [auto|]. split.
        - eapply good_ext; [| |eapply good_sub; rewrite EG in G; exact G].
          + intros x X. split; auto. apply X1. intros ->. apply (DJ (at_ i)); [left; auto|auto].
          + intros j J. rewrite <- EG, <- CN by (intros ->; auto). unfold cnts. rewrite EG, er_mid, places_mid, er_app, occ_app. lia.
        - intros j J. apply UN in J. assert (JI : j <> i) by (intros ->; apply (cnts_zero g p i C0); auto).
          assert (K : In j (map fst g)). { apply CL. rewrite in_app_iff in *. cbn [In]. tauto. }
          rewrite EG, map_app in K. cbn [map fst] in K. rewrite map_app. rewrite in_app_iff in *. cbn [In] in K. destruct K as [K|[K|K]]; auto. congruence. }
      destruct f as [|[|[|f]]]; [lia..|].
      destruct (del_node f) with (h := h1) (g := g1 ++ g2) (p := p) (i := i) (n := n) (z := Z.of_nat (cnts g p i)) as (h' & g' & E' & Q & S'); auto.
      * intros f' LF. apply IH. lia.
      * lia.
      * eapply inner_ext; [|eapply (g_in _ _ _ _ G); exact I0]. intros x X. split; auto. apply X1. intros ->. specialize (OC (at_ i)).
        rewrite gblocks_mid, occ_cons, Nat.eqb_refl in OC. cbn [Nat.b2n] in OC. rewrite occ_in in X. lia.
      * apply nodup_occ. intros x. specialize (OC x). rewrite gblocks_mid in OC. lia.
      * exists h', g'. split; [exact E'|]. assert (IG : forall x, In x (gblocks g) <-> In x (gblocks (g1 ++ g2)) \/ In x (at_ i :: iblocks n)) by (intros x; rewrite EG, !occ_in, gblocks_mid; lia).
        split; [|rewrite EG, er_mid; eapply ds_free; [intros; reflexivity| |rewrite <- er_app; exact S']].
        { destruct Q as [A1 A2 A3 A4 A5 A6 A7 A8]. constructor; auto.
          - congruence.
          - lia.
          - intros x X. apply IG. left. auto.
          - intros x X. rewrite app_nil_r, IG in X. rewrite A7 by (rewrite in_app_iff; auto). apply X1. intros ->. apply X. right. left. auto.
          - intros x X. rewrite app_nil_r, IG in X. apply A8. apply in_app_iff. auto. }
        rewrite <- er_mid, <- EG. exact C0.
    + exists h1, g. split; [auto|]. split; [|eapply ds_dec; [intros; reflexivity| |apply ds_done; auto]].
      * constructor; auto.
        -- eapply good_recount; [exact G|exact I|exact O1|exact X1|exact CN].
        -- intros j J. apply CL. rewrite in_app_iff in *. cbn [In]. tauto.
        -- intros x X. auto.
        -- intros x X. apply X1. rewrite app_nil_r in X. intros ->. auto.
        -- intros x X Y. rewrite app_nil_r in X. contradiction.
      * unfold cnts in Z0. lia.
  - destruct (static_ref r NR) as (a & -> & IA & EI). rewrite EI in *. cbn [app] in *. destruct (SO a IA) as (z & O).
    destruct (del_ref_static st h a z (trace_del f) Wh O) as (h1 & W1 & N1 & X1 & E1).
    { intros h1. destruct f as [|f]; [lia|]. cbn [trace_del]. unfold get. destruct (h_mem h1 a) as [b|] eqn:GB.
      - cbn [bind]. destruct (b_body b) as [|k vs] eqn:B; [right; intros ? (b' & G' & B' & _); congruence|].
        destruct k; try (right; intros ? (b' & G' & B' & _); congruence). left. auto.
      - right. intros ? (b' & G' & _). congruence. }
    exists h1, g. split; [auto|]. split; [|apply ds_done; auto].
    apply cut_gone; [split; auto| |intros x []]. split; [auto|]. split; [auto|]. split; [intros x []|auto].
Qed.

(** cee_del of a value that is in no place *)
Lemma del_root f h g1 i n g2 : W h -> static_ok h ss -> good h c (g1 ++ (i, n) :: g2) (places (er (g1 ++ (i, n) :: g2))) -> closed (g1 ++ (i, n) :: g2) [] ->
  places (er (g1 ++ (i, n) :: g2)) i = 0 -> 3 * length (g1 ++ (i, n) :: g2) + 1 <= f ->
  exists h' g', cee_del f h (VPtr (at_ i)) = Ok h' /\ cut h (g1 ++ (i, n) :: g2) h' g' [] [] /\ dsteps (er g1 ++ er g2, kids (erase n)) (er g', []).
Proof.
  intros Wh SO G CL P0 F. assert (ND := g_nd _ _ _ _ G). assert (OC := proj1 (nodup_occ _) ND).
  assert (NI := g_ids _ _ _ _ G). rewrite map_app in NI. cbn [map fst] in NI. apply NoDup_remove_2 in NI. rewrite <- map_app in NI.
  assert (DJ : forall x, In x (at_ i :: iblocks n) -> ~ In x (gblocks (g1 ++ g2))). { intros x A B. specialize (OC x). rewrite gblocks_mid in OC. rewrite occ_in in A, B. lia. }
  assert (I : In (i, n) (g1 ++ (i, n) :: g2)) by (apply in_app_iff; right; left; auto).
  assert (R1 : ready h (g1 ++ g2) (kids (erase n) ++ [])).
  { split; [auto|]. split; [auto|]. split.
    - eapply good_ext; [auto| |eapply good_sub; exact G]. intros j J. unfold cnts. rewrite er_mid, places_mid, er_app, occ_app, occ_nil. lia.
    - intros j J. rewrite app_nil_r in J. assert (J' : In j (uses (er (g1 ++ (i, n) :: g2)) ++ [])).
      { rewrite er_mid, uses_app. rewrite er_app, uses_app in J. cbn [uses flat_map snd]. rewrite !in_app_iff in *. unfold uses in *. tauto. }
      assert (JI : j <> i). { intros ->. rewrite app_nil_r in J'. rewrite places_occ in P0. rewrite occ_in in J'. lia. }
      apply CL in J'. rewrite map_app in J'. cbn [map fst] in J'. rewrite map_app. rewrite in_app_iff in *. cbn [In] in J'. destruct J' as [K|[K|K]]; auto. congruence. }
  rewrite app_length in F. cbn [length] in F. destruct f as [|[|[|f]]]; [lia..|].
  destruct (del_node f) with (h := h) (g := g1 ++ g2) (p := @nil nat) (i := i) (n := n) (z := Z.of_nat 0) as (h' & g' & E' & Q & S'); auto.
  - intros f' _. apply deletes_all.
  - rewrite app_length. lia.
  - rewrite <- P0. apply (g_tag _ _ _ _ G). auto.
  - apply (g_in _ _ _ _ G i). auto.
  - apply nodup_occ. intros x. specialize (OC x). rewrite gblocks_mid in OC. lia.
  - exists h', g'. split; [exact E'|]. split; [|rewrite app_nil_r, er_app in S'; exact S'].
    assert (IG : forall x, In x (gblocks (g1 ++ (i, n) :: g2)) <-> In x (gblocks (g1 ++ g2)) \/ In x (at_ i :: iblocks n)) by (intros x; rewrite !occ_in, gblocks_mid; lia).
    destruct Q as [A1 A2 A3 A4 A5 A6 A7 A8]. constructor; auto.
    + rewrite app_length in *. cbn [length]. lia.
    + intros x X. apply IG. left. auto.
    + intros x X. rewrite app_nil_r, IG in X. rewrite A7 by (rewrite in_app_iff; auto). auto.
    + intros x X. rewrite app_nil_r, IG in X. apply A8. apply in_app_iff. auto.
Qed.
End Del.
End At.
End Share.
