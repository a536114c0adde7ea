(** Programs that create, parse, edit and delete JSON values (JsonEditModel):
    the values are those that JsonEditSpec asks for, stored in separate objects. *)
From Coq Require Import ZArith List Bool Lia Permutation.
From Verif Require Import Base Json JsonSpec JsonNamesSpec HeapModel HeapChainProofs HeapHistory JsonMemModel JsonMemSpec JsonMemView JsonMemDel JsonMemOps JsonMemAdd JsonMemRun
  JsonMemHistory JsonEditModel JsonEditSpec JsonEditView JsonEditOps.
From Verif Require JsonLangProofs.
Import ListNotations.
Open Scope nat_scope.
Open Scope outcome_scope.
Local Arguments Z.add : simpl never.
Local Arguments Z.sub : simpl never.
Local Arguments Z.eqb : simpl never.
Local Arguments core : simpl never.
Notation without := JsonEditModel.without.

(** * Lists *)
Lemma upd_split {A} (l : list A) : forall i x, nth_error l i = Some x -> exists r, Permutation l (x :: r) /\ forall y, Permutation (update l i y) (y :: r).
Proof.
  induction l as [|a l IH]; intros [|i] x E; try discriminate; cbn [nth_error update] in *.
  - injection E as ->. exists l. auto.
  - destruct (IH i x E) as (r & P & Q). exists (a :: r). split; [eapply perm_trans; [apply perm_skip; exact P|apply perm_swap]|]. intros y. eapply perm_trans; [apply perm_skip; apply Q|apply perm_swap].
Qed.
Lemma out_split {A} (l : list A) : forall j v, nth_error l j = Some v -> Permutation l (v :: without j l).
Proof.
  induction l as [|a l IH]; intros [|j] v E; try discriminate; cbn [nth_error] in E.
  - injection E as ->. auto.
  - change (without (S j) (a :: l)) with (a :: without j l). eapply perm_trans; [apply perm_skip; apply (IH j v E)|apply perm_swap].
Qed.
Lemma upd_out_split {A} (l : list A) : forall i j x v, i <> j -> nth_error l i = Some x -> nth_error l j = Some v ->
  exists r, Permutation l (x :: v :: r) /\ forall y, Permutation (without j (update l i y)) (y :: r).
Proof.
  induction l as [|a l IH]; intros [|i] [|j] x v N E1 E2; try discriminate; try congruence; cbn [nth_error update] in *.
  - injection E1 as ->. exists (without j l). split; [apply perm_skip; apply out_split; auto|]. intros y. change (without (S j) (y :: l)) with (y :: without j l). auto.
  - injection E2 as ->. destruct (upd_split l i x E1) as (r & P & Q). exists r. split; [eapply perm_trans; [apply perm_skip; exact P|apply perm_swap]|]. intros y. exact (Q y).
  - destruct (IH i j x v) as (r & P & Q); auto. exists (a :: r). split.
    + eapply perm_trans; [apply perm_skip; exact P|]. eapply perm_trans; [apply perm_swap|]. apply perm_skip. apply perm_swap.
    + intros y. change (without (S j) (a :: update l i y)) with (a :: without j (update l i y)). eapply perm_trans; [apply perm_skip; apply Q|apply perm_swap].
Qed.
Lemma map_upd {A B} (f : A -> B) l : forall i y, map f (update l i y) = update (map f l) i (f y).
Proof. induction l as [|a l IH]; intros [|i] y; cbn [update map]; auto. rewrite IH. auto. Qed.
Lemma upd_same {A} (l : list A) : forall i x, nth_error l i = Some x -> update l i x = l.
Proof. induction l as [|a l IH]; intros [|i] x E; try discriminate; cbn [update nth_error] in *; [congruence|]. rewrite IH; auto. Qed.
Lemma map_out {A B} (f : A -> B) i l : map f (without i l) = without i (map f l).
Proof. unfold without. rewrite map_app, firstn_map, skipn_map. auto. Qed.
Lemma occ_perm Ls Ls' x : Permutation Ls Ls' -> occ x (flat_map blocks Ls) = occ x (flat_map blocks Ls').
Proof. intros P. apply (Permutation_count_occ Nat.eq_dec). apply Permutation_flat_map. exact P. Qed.

Section Program.
Variable strtod : text -> Z.
Variables (st : addr) (ss : statics) (place : heap -> addr -> nat) (deep : nat).
Variable mk_str : text -> outcome text.
Hypothesis MK : forall s, mk_str s = Ok s.
Hypothesis DP : 2 <= deep.
Variables (h0 : heap) (c0 : contents).
Hypothesis W0 : W st h0.
Hypothesis S0 : static_ok h0 ss.
Notation inv := (inv st h0 c0).
Notation turns := (turns st).
Notation acts := (acts st ss).

(** The program has the values [js], laid out as [Ls], with pointers [vs]; the
    strings [lost] are left over; there is nothing else. *)
Record ehold (h : heap) (c : contents) (vs : list val) (js : list json) (Ls : list layout) (lost : list addr) : Prop := EHold {
  eh_inv : inv h c (flat_map blocks Ls ++ lost);
  eh_laid : Forall (laid h c ss 0) Ls;
  eh_lost : Forall (fun x => obj h x KLeaf [] 0) lost;
  eh_vals : vs = map (ptr ss) Ls;
  eh_json : js = map json_of Ls
}.

(** From [Old] to [New] in one turn, others as before *)
Lemma ehold_turns h c h' c' Ls lost Old New rest Ls' lost' : inv h c (flat_map blocks Ls ++ lost) -> Forall (laid h c ss 0) rest -> Forall (fun x => obj h x KLeaf [] 0) lost -> turns h c h' c' Old New ->
  (forall x, occ x (flat_map blocks Ls) = occ x Old + occ x (flat_map blocks rest)) ->
  (forall x, occ x (flat_map blocks Ls' ++ lost') = occ x New + occ x (flat_map blocks rest) + occ x lost) ->
  inv h' c' (flat_map blocks Ls' ++ lost') /\ Forall (laid h' c' ss 0) rest /\ Forall (fun x => obj h' x KLeaf [] 0) lost.
Proof.
  intros I HR HL T EO EN. assert (Wh := i_W _ _ _ _ _ _ I). assert (ONE := i_one _ _ _ _ _ _ I). split; [|split].
  - eapply inv_turns with (X := flat_map blocks rest ++ lost); [exact I|exact T| |]; intros x; [rewrite !occ_app, EO|rewrite EN, occ_app]; lia.
  - rewrite Forall_forall in *. intros L IL. apply (turns_laid st ss _ _ _ _ _ _ _ _ Wh T (HR L IL)). intros x X O. specialize (ONE x). rewrite occ_app, EO in ONE.
    assert (Q : In x (flat_map blocks rest)) by (apply in_flat_map; eauto). rewrite occ_in in *. lia.
  - rewrite Forall_forall in *. intros x IX. apply (turns_obj st _ _ _ _ _ _ _ _ _ _ Wh T (HL x IX)); [discriminate|]. intros O. specialize (ONE x). rewrite occ_app, EO in ONE. rewrite occ_in in *. lia.
Qed.

(** One part of one value changes *)
Lemma ehold_acts h c Ls lost L Vs rest p F G R n' h' c' y ds k : inv h c (flat_map blocks Ls ++ lost) -> Forall (laid h c ss 0) Ls -> Forall (fun x => obj h x KLeaf [] 0) lost ->
  Permutation Ls (L :: Vs ++ rest) -> focus L p F G R -> laid h c ss n' F ->
  (forall h' c' F', laid h' c' ss n' F' -> ptr ss F' = ptr ss F -> (forall x, In x R -> look h' x = look h x /\ c' x = c x) -> laid h' c' ss 0 (G F')) ->
  acts h c h' c' n' F Vs y ds k ->
  exists F' ls, json_of F' = y /\ ptr ss (G F') = ptr ss L /\ length ls = k /\
    forall Ls', (forall L', Permutation (Ls' L') (L' :: rest)) -> forall js, js = map json_of (Ls' (G F')) ++ map json_of ds ->
    forall vs, vs = map (ptr ss) (Ls' (G F')) ++ map (ptr ss) ds -> ehold h' c' vs js (Ls' (G F') ++ ds) (lost ++ ls).
Proof.
  intros I HL HS P FO HF RB (F' & ls & T & HF' & PF & JF & HD & HLS & LL). exists F', ls. split; [auto|]. split; [eapply focus_ptr; eauto|]. split; [auto|]. intros Ls' P' js EJ vs EV.
  assert (HR : Forall (laid h c ss 0) rest). { eapply Permutation_Forall in HL; [|exact P]. apply Forall_cons_iff in HL as (_ & HL). apply Forall_app in HL. apply HL. }
  assert (BL : forall x, occ x (blocks L) = occ x R + occ x (blocks F)). { intros x. rewrite <- (focus_self _ _ _ _ _ FO) at 1. apply (focus_blocks _ _ _ _ _ FO). }
  assert (OL : forall x, occ x (flat_map blocks Ls) = occ x (blocks L) + occ x (flat_map blocks Vs) + occ x (flat_map blocks rest)). { intros x. rewrite (occ_perm _ _ x P). occs. lia. }
  assert (ONE := i_one _ _ _ _ _ _ I). assert (HLL : laid h c ss 0 L). { eapply Permutation_Forall in HL; [|exact P]. apply Forall_cons_iff in HL as (HL & _). exact HL. }
  assert (T' : turns h c h' c' (blocks L ++ flat_map blocks Vs) (blocks (G F') ++ flat_map blocks ds ++ ls)).
  { eapply turns_eqv; [| |apply (turns_frame st _ _ _ _ _ _ R T)].
    - intros x. rewrite !occ_app, BL. lia.
    - intros x. rewrite !occ_app, (focus_blocks _ _ _ _ _ FO). lia.
    - intros x. specialize (ONE x). rewrite !occ_app in *. rewrite OL, BL in ONE. lia.
    - intros x IX. assert (IL : In x (blocks L)) by (rewrite occ_in in *; rewrite BL; lia). split; [apply (laid_lt st ss _ _ _ _ _ (i_W _ _ _ _ _ _ I) HLL IL)|exact (laid_live ss _ _ _ _ _ HLL IL)]. }
  destruct (ehold_turns h c h' c' Ls lost _ _ rest (Ls' (G F') ++ ds) (lost ++ ls) I HR HS T') as (I' & HR' & HS').
  - intros x. rewrite OL, occ_app. lia.
  - intros x. assert (Q := occ_perm _ _ x (P' (G F'))). cbn [flat_map] in Q. rewrite occ_app in Q. rewrite !occ_app, occ_flat_app, Q. lia.
  - constructor; auto.
    + apply Forall_app. split; [|auto]. eapply Permutation_Forall; [apply Permutation_sym; apply P'|]. constructor; [|auto]. apply RB; auto. intros x IX. apply (t_same _ _ _ _ _ _ _ T).
      * intros IO. specialize (ONE x). rewrite occ_app, OL, BL in ONE. rewrite occ_in in *. rewrite occ_app in IO. lia.
      * assert (IL : In x (blocks L)) by (rewrite occ_in in *; rewrite BL; lia). apply (laid_lt st ss _ _ _ _ _ (i_W _ _ _ _ _ _ I) HLL IL).
    + apply Forall_app. auto.
    + rewrite map_app. auto.
    + rewrite map_app. auto.
Qed.

Lemma nth_js Ls js i x : js = map json_of Ls -> nth_error js i = Some x -> exists L, nth_error Ls i = Some L /\ json_of L = x.
Proof. intros -> E. rewrite nth_error_map in E. destruct (nth_error Ls i) as [L|]; [|discriminate]. injection E as <-. eauto. Qed.
Lemma nth_vs Ls vs i L : vs = map (ptr ss) Ls -> nth_error Ls i = Some L -> nth_error vs i = Some (ptr ss L).
Proof. intros -> E. rewrite nth_error_map, E. auto. Qed.
Lemma one_nodup h c Ls lost L r : inv h c (flat_map blocks Ls ++ lost) -> Permutation Ls (L :: r) -> forall p F G R, focus L p F G R -> NoDup (blocks F).
Proof.
  intros I P p F G R FO. apply nodup_occ. intros x. assert (Q := i_one _ _ _ _ _ _ I x). rewrite occ_app, (occ_perm _ _ x P) in Q. cbn [flat_map] in Q. rewrite occ_app in Q.
  rewrite <- (focus_self _ _ _ _ _ FO), (focus_blocks _ _ _ _ _ FO) in Q. lia.
Qed.
Lemma two_nodup h c Ls lost L V r : inv h c (flat_map blocks Ls ++ lost) -> Permutation Ls (L :: V :: r) -> forall p F G R, focus L p F G R -> NoDup (blocks F ++ blocks V).
Proof.
  intros I P p F G R FO. apply nodup_occ. intros x. assert (Q := i_one _ _ _ _ _ _ I x). rewrite occ_app, (occ_perm _ _ x P) in Q. cbn [flat_map] in Q. rewrite !occ_app in Q. rewrite occ_app.
  rewrite <- (focus_self _ _ _ _ _ FO), (focus_blocks _ _ _ _ _ FO) in Q. lia.
Qed.

(** A new value, then as above *)
Lemma ehold_new h c vs js Ls lost x : ehold h c vs js Ls lost -> simple x -> exists h' c' L, new_value st ss mk_str h c x = Ok (h', c', ptr ss L) /\ json_of L = x /\
  turns h c h' c' [] (blocks L) /\ ehold h' c' (vs ++ [ptr ss L]) (js ++ [x]) (Ls ++ [L]) lost.
Proof.
  intros [I HL HS EV EJ] SI. assert (Wh := i_W _ _ _ _ _ _ I). assert (SO := inv_static st ss h0 c0 W0 S0 _ _ _ I).
  destruct (new_turns st ss place deep mk_str MK DP h c x Wh SO SI) as (h' & c' & L & E & T & H & J). exists h', c', L. split; [auto|]. split; [auto|]. split; [auto|].
  destruct (ehold_turns h c h' c' Ls lost _ _ Ls (Ls ++ [L]) lost I HL HS T) as (I' & HR' & HS'); [intros; occs; lia|intros; occs; lia|]. constructor; auto.
  - apply Forall_app. auto.
  - rewrite map_app, EV. auto.
  - rewrite map_app, EJ. cbn [map]. congruence.
Qed.
Lemma upd_app {A} (l : list A) b : forall i y, i < length l -> update (l ++ [b]) i y = update l i y ++ [b].
Proof. induction l as [|a l IH]; intros [|i] y L; cbn [length app update] in *; try lia; auto. rewrite IH by lia. auto. Qed.
Lemma upd_len {A} (l : list A) : forall i y, length (update l i y) = length l.
Proof. induction l as [|a l IH]; intros [|i] y; cbn [update length]; auto. Qed.
Lemma out_last {A} (l : list A) b : without (length l) (l ++ [b]) = l.
Proof. unfold without. rewrite firstn_app, Nat.sub_diag, firstn_all, skipn_all2; [cbn [firstn]; rewrite !app_nil_r; auto|rewrite app_length; cbn; lia]. Qed.
Lemma out_app {A} (l : list A) b j : j < length l -> without j (l ++ [b]) = without j l ++ [b].
Proof.
  intros L. unfold without. rewrite firstn_app, skipn_app. replace (j - length l) with 0 by lia. replace (S j - length l) with 0 by lia. cbn [firstn skipn]. rewrite app_nil_r, app_assoc. auto.
Qed.
Lemma nth_last {A} (l : list A) b : nth_error (l ++ [b]) (length l) = Some b.
Proof. rewrite nth_error_app2, Nat.sub_diag by lia. auto. Qed.
Lemma scalar_simple x : scalar x -> simple x.
Proof. destruct x; cbn; auto; contradiction. Qed.
Lemma put_ok i p k v x y out js : nth_error js i = Some x -> scalar v -> changed (set_field k v out) p x y -> forall h c vs Ls lost, ehold h c vs js Ls lost ->
  exists h' c' vs' Ls', estep strtod st ss place deep mk_str (h, c, vs) (EPut i p k v) = Ok (h', c', vs') /\ ehold h' c' vs' (update js i y ++ out) Ls' lost.
Proof.
  intros E1 SC CH h c vs Ls lost HD. assert (Wh := i_W _ _ _ _ _ _ (eh_inv _ _ _ _ _ _ HD)).
  destruct (ehold_new h c vs js Ls lost v HD (scalar_simple v SC)) as (h1 & c1 & V & EN & JV & TN & [I1 HL1 HS1 EV1 EJ1]). destruct HD as [I HL HS EV EJ].
  assert (W1 := i_W _ _ _ _ _ _ I1). assert (SO1 := inv_static st ss h0 c0 W0 S0 _ _ _ I1).
  destruct (nth_js _ _ _ _ EJ E1) as (L & N1 & J1). assert (LI : i < length Ls) by (apply nth_error_Some; congruence).
  assert (LJ : length js = length Ls) by (rewrite EJ, map_length; auto). assert (LV : length vs = length Ls) by (rewrite EV, map_length; auto).
  assert (N1' : nth_error (Ls ++ [V]) i = Some L) by (rewrite nth_error_app1; auto).
  destruct (upd_out_split (Ls ++ [V]) i (length Ls) L V) as (r & P & P'); [lia|auto|apply nth_last|].
  assert (HLL := proj1 (Forall_forall _ _) HL L (nth_error_In _ _ N1)). assert (HLL1 := proj1 (Forall_forall _ _) HL1 L (nth_error_In _ _ N1')).
  assert (HV1 : laid h1 c1 ss 0 V) by (apply (proj1 (Forall_forall _ _) HL1); apply in_app_iff; right; left; auto).
  destruct (changed_focus _ h1 c1 ss p x y CH 0%Z L HLL1 J1) as (F & G & R & y' & FO & CF & CG). destruct (focus_laid _ _ _ _ _ _ _ _ FO 0%Z HLL1) as (n' & HF1 & RB). rewrite <- JV in CF.
  destruct (focus_laid _ _ _ _ _ _ _ _ FO 0%Z HLL) as (n0 & HF & _).
  cbn [estep]. rewrite (nth_vs _ _ _ _ EV N1). cbn [of_option bind]. rewrite (walk_laid ss _ _ _ _ _ _ _ FO _ HLL). cbn [bind].
  assert (EO : exists kvs, json_of F = JObj kvs) by (inversion CF; eauto). destruct EO as (kvs & EO). destruct (laid_is_obj _ _ _ _ _ _ HF1 EO) as (a & m & ks & es & -> & EE).
  destruct (set_acts st ss place deep mk_str MK DP h1 c1 n' (LObj a m ks es) V k out y' W1 SO1 HF1 HV1 (two_nodup _ _ _ _ _ _ _ I1 P _ _ _ _ FO) CF) as (oldp & h' & c' & ds & EG & ES & AC & JD & KD).
  assert (EG' : object_get h c (ptr ss (LObj a m ks es)) k = Ok oldp).
  { cbn [ptr] in *. rewrite <- EG. destruct (object_get_laid ss _ _ _ _ _ _ _ k HF) as (GN & GI). destruct (object_get_laid ss _ _ _ _ _ _ _ k HF1) as (GN1 & GI1).
    destruct (in_dec (list_eq_dec Z.eq_dec) k (map e_name es)) as [IN|NI]; [|rewrite GN, GN1; auto]. apply in_map_iff in IN as (e & <- & IN). rewrite (GI e IN eq_refl), (GI1 e IN eq_refl). auto. }
  rewrite EG'. cbn [bind].
  assert (EP : object_put st ss place deep mk_str h c (ptr ss (LObj a m ks es)) k v = Ok (h', c')).
  { unfold object_put. unfold object_set in ES. cbn [ptr] in *. rewrite (to_object_laid ss _ _ _ _ _ _ _ HF1) in ES. rewrite (to_object_laid ss _ _ _ _ _ _ _ HF). cbn [bind not_null] in *.
    replace (match v with JNull | JBool _ | JStr _ | JDouble _ | JI64 _ | JU64 _ => new_value st ss mk_str h c v | _ => Bad Abort end) with (new_value st ss mk_str h c v) by (destruct v; cbn in SC; try contradiction; auto).
    rewrite EN. cbn [bind]. exact ES. }
  rewrite EP. cbn [bind].
  destruct (ehold_acts h1 c1 (Ls ++ [V]) lost L [V] r p (LObj a m ks es) G R n' h' c' y' ds 0 I1 HL1 HS1 P FO HF1 RB AC) as (F' & ls & JF & PG & LL & HH). destruct ls; [|discriminate]. rewrite app_nil_r in HH.
  exists h', c', (vs ++ keep oldp), (without (length Ls) (update (Ls ++ [V]) i (G F')) ++ ds). split; [auto|].
  apply (HH (fun L' => without (length Ls) (update (Ls ++ [V]) i L'))); auto; rewrite upd_app, <- (upd_len Ls i (G F')), out_last by auto; rewrite map_upd.
  - rewrite <- EJ, (CG F' JF), JD. auto.
  - rewrite <- EV, PG, (upd_same vs i _ (nth_vs _ _ _ _ EV N1)), KD. auto.
Qed.
Lemma field_ok k j v js : nth_error js j = Some v -> forall h c vs Ls lost, ehold h c vs js Ls lost ->
  exists h' c' vs' Ls', estep strtod st ss place deep mk_str (h, c, vs) (EField k j) = Ok (h', c', vs') /\ ehold h' c' vs' (without j js ++ [JObj [(k, v)]]) Ls' lost.
Proof.
  intros E2 h c vs Ls lost HD.
  destruct (ehold_new h c vs js Ls lost (JObj []) HD Logic.I) as (h1 & c1 & O & EN & JO & TN & [I1 HL1 HS1 EV1 EJ1]). destruct HD as [I HL HS EV EJ].
  assert (W1 := i_W _ _ _ _ _ _ I1). assert (SO1 := inv_static st ss h0 c0 W0 S0 _ _ _ I1).
  destruct (nth_js _ _ _ _ EJ E2) as (V & N2 & J2). assert (LI : j < length Ls) by (apply nth_error_Some; congruence).
  assert (LJ : length js = length Ls) by (rewrite EJ, map_length; auto). assert (LV : length vs = length Ls) by (rewrite EV, map_length; auto).
  destruct (upd_out_split (Ls ++ [O]) (length Ls) j O V) as (r & P & P'); [lia|apply nth_last|rewrite nth_error_app1; auto|].
  assert (HO1 : laid h1 c1 ss 0 O) by (apply (proj1 (Forall_forall _ _) HL1); apply in_app_iff; right; left; auto).
  assert (HV1 : laid h1 c1 ss 0 V) by (apply (proj1 (Forall_forall _ _) HL1); apply in_app_iff; left; eapply nth_error_In; eauto).
  assert (FO : focus O [] O (fun x => x) []) by constructor.
  assert (CF : set_field k (json_of V) [] (json_of O) (JObj [(k, v)])) by (rewrite JO, J2; apply (sf_new k v [] []); [intros []|auto]).
  destruct (set_acts st ss place deep mk_str MK DP h1 c1 0%Z O V k [] _ W1 SO1 HO1 HV1 (two_nodup _ _ _ _ _ _ _ I1 P _ _ _ _ FO) CF) as (oldp & h' & c' & ds & EG & ES & AC & JD & KD).
  destruct ds; [|discriminate]. cbn [estep]. rewrite (nth_vs _ _ _ _ EV N2). cbn [of_option bind]. unfold object_kv. cbn [new_value] in EN.
  destruct (object_mk st h) as [(h2, o)|] eqn:EM; [|discriminate]. cbn [bind] in *. injection EN as -> <- ->. rewrite ES. cbn [bind].
  destruct (ehold_acts h1 c (Ls ++ [O]) lost O [V] r [] O (fun x => x) [] 0%Z h' c' (JObj [(k, v)]) [] 0 I1 HL1 HS1 P FO HO1) as (F' & ls & JF & PG & LL & HH); [auto|exact AC|]. destruct ls; [|discriminate]. rewrite app_nil_r in HH.
  exists h', c', (without j vs ++ [ptr ss O]), (without j (update (Ls ++ [O]) (length Ls) F') ++ []). split; [auto|].
  assert (UL : update (Ls ++ [O]) (length Ls) F' = Ls ++ [F']) by (clear; induction Ls; cbn [app length update]; congruence).
  apply (HH (fun L' => without j (update (Ls ++ [O]) (length Ls) L'))); auto; rewrite UL, map_out, map_app; cbn [map]; rewrite app_nil_r, out_app by (rewrite map_length; auto).
  - rewrite <- EJ, JF. auto.
  - rewrite <- EV, PG. auto.
Qed.

Lemma estep_ok o js js' n : edit_of strtod deep o js js' n -> forall h c vs Ls lost, ehold h c vs js Ls lost ->
  exists h' c' vs' Ls' ls, estep strtod st ss place deep mk_str (h, c, vs) o = Ok (h', c', vs') /\ ehold h' c' vs' js' Ls' (lost ++ ls) /\ length ls = n.
Proof.
  intros ED h c vs Ls lost [I HL HS EV EJ]. assert (Wh := i_W _ _ _ _ _ _ I). assert (SO := inv_static st ss h0 c0 W0 S0 _ _ _ I). assert (FL := proj1 (Forall_forall _ _) HL).
  destruct ED as [x js SI|k a w b v junk js Sa Sb V N|i p k j x y v out js E1 E2 NE CH|i p k v x y out js E1 SC CH|k j v js E2|i p j x y v js E1 E2 NE CH|i p k j x y v js E1 E2 NE CH|i p k x y out js E1 CH|i p k x y out js E1 CH|i p old new x y out js E1 CH|i x js E1 D]; cbn [estep].
  - destruct (new_turns st ss place deep mk_str MK DP h c x Wh SO SI) as (h' & c' & L & -> & T & H & J). cbn [bind].
    destruct (ehold_turns h c h' c' Ls lost _ _ Ls (Ls ++ [L]) lost I HL HS T) as (I' & HR' & HS'); [intros; occs; lia|intros; occs; lia|].
    exists h', c', (vs ++ [ptr ss L]), (Ls ++ [L]), []. rewrite app_nil_r. split; [auto|]. split; [|auto]. constructor; auto.
    + apply Forall_app. auto.
    + rewrite map_app, EV. auto.
    + rewrite map_app, EJ. cbn [map]. congruence.
  - destruct (parse_distinct strtod st ss place deep h c Wh SO DP (S (length (a ++ w ++ b))) a w b v junk Sa Sb (depth_mono _ _ _ _ V N)) as (h1 & c1 & L & E & U & W1 & NX1 & J & H & NDL & NW1 & AB1); [lia|].
    rewrite E. cbn [bind].
    assert (T : turns h c h1 c1 [] (blocks L)).
    { apply turns_mk; auto.
      - intros x [].
      - intros x X. rewrite look_none. apply NW1; auto.
      - intros x X NI. apply look_none. destruct (h_mem h1 x) eqn:M; auto. exfalso. apply NI. apply NW1; [auto|congruence]. }
    destruct (ehold_turns h c h1 c1 Ls lost _ _ Ls (Ls ++ [L]) lost I HL HS T) as (I' & HR' & HS'); [intros; occs; lia|intros; occs; lia|].
    exists h1, c1, (vs ++ [ptr ss L]), (Ls ++ [L]), []. rewrite app_nil_r. split; [auto|]. split; [|auto]. constructor; auto.
    + apply Forall_app. auto.
    + rewrite map_app, EV. auto.
    + rewrite map_app, EJ. cbn [map]. congruence.
  - destruct (nth_js _ _ _ _ EJ E1) as (L & N1 & J1). destruct (nth_js _ _ _ _ EJ E2) as (V & N2 & J2). destruct (upd_out_split Ls i j L V NE N1 N2) as (r & P & P').
    assert (HLL := FL L (nth_error_In _ _ N1)). assert (HV := FL V (nth_error_In _ _ N2)).
    destruct (changed_focus _ h c ss p x y CH 0%Z L HLL J1) as (F & G & R & y' & FO & CF & CG). destruct (focus_laid _ _ _ _ _ _ _ _ FO 0%Z HLL) as (n' & HF & RB). rewrite <- J2 in CF.
    rewrite (nth_vs _ _ _ _ EV N1), (nth_vs _ _ _ _ EV N2). cbn [of_option bind]. rewrite (walk_laid ss _ _ _ _ _ _ _ FO _ HLL). cbn [bind].
    destruct (set_acts st ss place deep mk_str MK DP h c n' F V k out y' Wh SO HF HV (two_nodup _ _ _ _ _ _ _ I P _ _ _ _ FO) CF) as (oldp & h' & c' & ds & EG & ES & AC & JD & KD). rewrite EG. cbn [bind]. rewrite ES. cbn [bind].
    destruct (ehold_acts h c Ls lost L [V] r p F G R n' h' c' y' ds 0 I HL HS P FO HF RB AC) as (F' & ls & JF & PG & LL & HH).
    exists h', c', (without j vs ++ keep oldp), (without j (update Ls i (G F')) ++ ds), ls. split; [auto|]. split; [|auto]. apply (HH (fun L' => without j (update Ls i L'))); auto.
    + rewrite map_out, map_upd, <- EJ, (CG F' JF), JD. auto.
    + rewrite map_out, map_upd, <- EV, PG, (upd_same vs i _ (nth_vs _ _ _ _ EV N1)), KD. auto.
  - destruct (put_ok i p k v x y out js E1 SC CH h c vs Ls lost (EHold _ _ _ _ _ _ I HL HS EV EJ)) as (h' & c' & vs' & Ls' & E & HD). exists h', c', vs', Ls', []. rewrite app_nil_r. auto.
  - destruct (field_ok k j v js E2 h c vs Ls lost (EHold _ _ _ _ _ _ I HL HS EV EJ)) as (h' & c' & vs' & Ls' & E & HD). exists h', c', vs', Ls', []. rewrite app_nil_r. auto.
  - destruct (nth_js _ _ _ _ EJ E1) as (L & N1 & J1). destruct (nth_js _ _ _ _ EJ E2) as (V & N2 & J2). destruct (upd_out_split Ls i j L V NE N1 N2) as (r & P & P').
    assert (HLL := FL L (nth_error_In _ _ N1)). assert (HV := FL V (nth_error_In _ _ N2)).
    destruct (changed_focus _ h c ss p x y CH 0%Z L HLL J1) as (F & G & R & y' & FO & CF & CG). destruct (focus_laid _ _ _ _ _ _ _ _ FO 0%Z HLL) as (n' & HF & RB). rewrite <- J2 in CF.
    rewrite (nth_vs _ _ _ _ EV N1), (nth_vs _ _ _ _ EV N2). cbn [of_option bind]. rewrite (walk_laid ss _ _ _ _ _ _ _ FO _ HLL). cbn [bind].
    destruct (append_acts st ss deep DP h c n' F V y' Wh SO HF HV (two_nodup _ _ _ _ _ _ _ I P _ _ _ _ FO) CF) as (h' & ES & AC). rewrite ES. cbn [bind].
    destruct (ehold_acts h c Ls lost L [V] r p F G R n' h' c y' [] 0 I HL HS P FO HF RB AC) as (F' & ls & JF & PG & LL & HH).
    exists h', c, (without j vs), (without j (update Ls i (G F'))), ls. split; [auto|]. split; [|auto]. rewrite <- (app_nil_r (without j (update Ls i (G F')))). apply (HH (fun L' => without j (update Ls i L'))); auto; cbn [map]; rewrite app_nil_r.
    + rewrite map_out, map_upd, <- EJ, (CG F' JF). auto.
    + rewrite map_out, map_upd, <- EV, PG, (upd_same vs i _ (nth_vs _ _ _ _ EV N1)). auto.
  - destruct (nth_js _ _ _ _ EJ E1) as (L & N1 & J1). destruct (nth_js _ _ _ _ EJ E2) as (V & N2 & J2). destruct (upd_out_split Ls i j L V NE N1 N2) as (r & P & P').
    assert (HLL := FL L (nth_error_In _ _ N1)). assert (HV := FL V (nth_error_In _ _ N2)).
    destruct (changed_focus _ h c ss p x y CH 0%Z L HLL J1) as (F & G & R & y' & FO & CF & CG). destruct (focus_laid _ _ _ _ _ _ _ _ FO 0%Z HLL) as (n' & HF & RB). rewrite <- J2 in CF.
    rewrite (nth_vs _ _ _ _ EV N1), (nth_vs _ _ _ _ EV N2). cbn [of_option bind]. rewrite (walk_laid ss _ _ _ _ _ _ _ FO _ HLL). cbn [bind].
    destruct (insert_acts st ss deep DP h c n' F V k y' Wh SO HF HV (two_nodup _ _ _ _ _ _ _ I P _ _ _ _ FO) CF) as (h' & ES & AC). rewrite ES. cbn [bind].
    destruct (ehold_acts h c Ls lost L [V] r p F G R n' h' c y' [] 0 I HL HS P FO HF RB AC) as (F' & ls & JF & PG & LL & HH).
    exists h', c, (without j vs), (without j (update Ls i (G F'))), ls. split; [auto|]. split; [|auto]. rewrite <- (app_nil_r (without j (update Ls i (G F')))). apply (HH (fun L' => without j (update Ls i L'))); auto; cbn [map]; rewrite app_nil_r.
    + rewrite map_out, map_upd, <- EJ, (CG F' JF). auto.
    + rewrite map_out, map_upd, <- EV, PG, (upd_same vs i _ (nth_vs _ _ _ _ EV N1)). auto.
  - destruct (nth_js _ _ _ _ EJ E1) as (L & N1 & J1). destruct (upd_split Ls i L N1) as (r & P & P'). assert (HLL := FL L (nth_error_In _ _ N1)).
    destruct (changed_focus _ h c ss p x y CH 0%Z L HLL J1) as (F & G & R & y' & FO & CF & CG). destruct (focus_laid _ _ _ _ _ _ _ _ FO 0%Z HLL) as (n' & HF & RB).
    rewrite (nth_vs _ _ _ _ EV N1). cbn [of_option bind]. rewrite (walk_laid ss _ _ _ _ _ _ _ FO _ HLL). cbn [bind].
    destruct (remove_at_acts st ss deep DP h c n' F k out y' Wh SO HF (one_nodup _ _ _ _ _ _ I P _ _ _ _ FO) CF) as (oldp & h' & ds & EG & ES & AC & JD & KD). rewrite EG. cbn [bind]. rewrite ES. cbn [bind].
    destruct (ehold_acts h c Ls lost L [] r p F G R n' h' c y' ds 0 I HL HS P FO HF RB AC) as (F' & ls & JF & PG & LL & HH).
    exists h', c, (vs ++ keep oldp), (update Ls i (G F') ++ ds), ls. split; [auto|]. split; [|auto]. apply (HH (fun L' => update Ls i L')); auto.
    + rewrite map_upd, <- EJ, (CG F' JF), JD. auto.
    + rewrite map_upd, <- EV, PG, (upd_same vs i _ (nth_vs _ _ _ _ EV N1)), KD. auto.
  - destruct (nth_js _ _ _ _ EJ E1) as (L & N1 & J1). destruct (upd_split Ls i L N1) as (r & P & P'). assert (HLL := FL L (nth_error_In _ _ N1)).
    destruct (changed_focus _ h c ss p x y CH 0%Z L HLL J1) as (F & G & R & y' & FO & CF & CG). destruct (focus_laid _ _ _ _ _ _ _ _ FO 0%Z HLL) as (n' & HF & RB).
    rewrite (nth_vs _ _ _ _ EV N1). cbn [of_option bind]. rewrite (walk_laid ss _ _ _ _ _ _ _ FO _ HLL). cbn [bind].
    destruct (remove_acts st ss place deep DP h c n' F k out y' Wh SO HF (one_nodup _ _ _ _ _ _ I P _ _ _ _ FO) CF) as (oldp & h' & ds & EG & ES & AC & JD & KD). rewrite EG. cbn [bind]. rewrite ES. cbn [bind].
    destruct (ehold_acts h c Ls lost L [] r p F G R n' h' c y' ds (length out) I HL HS P FO HF RB AC) as (F' & ls & JF & PG & LL & HH).
    exists h', c, (vs ++ keep oldp), (update Ls i (G F') ++ ds), ls. split; [auto|]. split; [|auto]. apply (HH (fun L' => update Ls i L')); auto.
    + rewrite map_upd, <- EJ, (CG F' JF), JD. auto.
    + rewrite map_upd, <- EV, PG, (upd_same vs i _ (nth_vs _ _ _ _ EV N1)), KD. auto.
  - destruct (nth_js _ _ _ _ EJ E1) as (L & N1 & J1). destruct (upd_split Ls i L N1) as (r & P & P'). assert (HLL := FL L (nth_error_In _ _ N1)).
    destruct (changed_focus _ h c ss p x y CH 0%Z L HLL J1) as (F & G & R & y' & FO & CF & CG). destruct (focus_laid _ _ _ _ _ _ _ _ FO 0%Z HLL) as (n' & HF & RB).
    rewrite (nth_vs _ _ _ _ EV N1). cbn [of_option bind]. rewrite (walk_laid ss _ _ _ _ _ _ _ FO _ HLL). cbn [bind].
    destruct (rename_acts st ss place deep mk_str MK DP h c n' F old new out y' Wh SO HF (one_nodup _ _ _ _ _ _ I P _ _ _ _ FO) CF) as (over & h' & c' & t & ds & EG & ES & AC & JD & KD). rewrite EG. cbn [bind]. rewrite ES. cbn [bind].
    destruct (ehold_acts h c Ls lost L [] r p F G R n' h' c' y' ds 1 I HL HS P FO HF RB AC) as (F' & ls & JF & PG & LL & HH).
    eexists h', c', _, (update Ls i (G F') ++ ds), ls. split; [reflexivity|]. split; [|auto]. apply (HH (fun L' => update Ls i L')); auto.
    + rewrite map_upd, <- EJ, (CG F' JF), JD. auto.
    + rewrite map_upd, <- EV, PG, (upd_same vs i _ (nth_vs _ _ _ _ EV N1)), KD. auto.
  - destruct (nth_js _ _ _ _ EJ E1) as (L & N1 & J1). assert (P := out_split Ls i L N1). assert (HLL := FL L (nth_error_In _ _ N1)). rewrite (nth_vs _ _ _ _ EV N1). cbn [of_option bind].
    assert (ND : NoDup (blocks L)) by (apply (one_nodup _ _ _ _ _ _ I P [] L (fun x => x) []); constructor).
    destruct (del_stored st c ss h deep L 0 Wh SO HLL ND) as (h1 & E & G); [pose proof (levels_depth L); subst; lia|]. rewrite E. cbn [bind].
    assert (T : turns h c h1 c (blocks L) []).
    { eapply turns_gone; [auto|exact G|intros z X; eapply laid_live; eauto|auto|intros z; rewrite occ_nil; auto]. }
    assert (HR : Forall (laid h c ss 0) (without i Ls)). { eapply Permutation_Forall in HL; [|exact P]. apply Forall_cons_iff in HL as (_ & HL). exact HL. }
    destruct (ehold_turns h c h1 c Ls lost _ _ (without i Ls) (without i Ls) lost I HR HS T) as (I' & HR' & HS').
    + intros z. rewrite (occ_perm _ _ z P). cbn [flat_map]. apply occ_app.
    + intros z. rewrite occ_app, occ_nil. lia.
    + exists h1, c, (without i vs), (without i Ls), []. rewrite app_nil_r. split; [auto|]. split; [|auto]. constructor; auto.
      * rewrite map_out, EV. auto.
      * rewrite map_out, EJ. auto.
Qed.
Lemma eplay_ok ops js js' n : edits_of strtod deep ops js js' n -> forall h c vs Ls lost, ehold h c vs js Ls lost ->
  exists h' c' vs' Ls' ls, eplay strtod st ss place deep mk_str ops (h, c, vs) = Ok (h', c', vs') /\ ehold h' c' vs' js' Ls' (lost ++ ls) /\ length ls = n.
Proof.
  induction 1 as [js|o ops js js1 js' n m E _ IH]; intros h c vs Ls lost HD.
  - exists h, c, vs, Ls, []. rewrite app_nil_r. auto.
  - destruct (estep_ok o js js1 n E h c vs Ls lost HD) as (h1 & c1 & vs1 & Ls1 & ls1 & E1 & HD1 & N1). destruct (IH h1 c1 vs1 Ls1 (lost ++ ls1) HD1) as (h2 & c2 & vs2 & Ls2 & ls2 & E2 & HD2 & N2).
    exists h2, c2, vs2, Ls2, (ls1 ++ ls2). rewrite app_assoc, app_length. split; [|split; [auto|lia]]. cbn [eplay]. rewrite E1. cbn [bind]. exact E2.
Qed.
Lemma ehold_start : ehold h0 c0 [] [] [] [].
Proof.
  constructor; auto. constructor; auto.
  - intros x X. cbn. split; [|intros []]. intros M. apply M. apply (beyond st); auto.
  - intros x [].
Qed.
End Program.
