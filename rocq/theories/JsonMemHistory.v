(** Programs that parse texts and delete values *)
From Coq Require Import ZArith List Bool Lia Permutation.
From Verif Require Import Base Json JsonSpec JsonNamesSpec JsonTokModel JsonParseModel HeapModel HeapChainProofs HeapHistory
  JsonMemModel JsonMemSpec JsonMemView JsonMemDel JsonMemOps JsonMemAdd JsonMemRun JsonMemNames.
From Verif Require JsonParseProofs JsonLangProofs JsonLexProofs.
Import ListNotations.
Open Scope nat_scope.
Open Scope outcome_scope.

Lemma levels_depth L : levels L <= 5 * JsonLangProofs.depth (json_of L) + 2.
Proof.
  induction L as [x|a b x|a l es IH|a m ks es IH] using layout_ind'; cbn [levels json_of JsonLangProofs.depth]; [lia|lia| |].
  - assert (list_max (map levels es) <= 5 * list_max (map JsonLangProofs.depth (map json_of es)) + 2); [|lia]. apply list_max_le. rewrite Forall_map. rewrite Forall_forall in *.
    intros e I. specialize (IH e I). assert (JsonLangProofs.depth (json_of e) <= list_max (map JsonLangProofs.depth (map json_of es))); [|lia]. apply list_max_ge. apply in_map_iff. exists (json_of e). split; [auto|]. apply in_map. auto.
  - match goal with |- context [list_max (map ?f (map ?g es))] => set (M := list_max (map f (map g es))) end.
    assert (list_max (map (fun e => levels (snd e)) es) <= 5 * M + 2); [|lia]. apply list_max_le. rewrite Forall_map. rewrite Forall_forall in *.
    intros e I. specialize (IH e I). unfold e_val in IH. assert (JsonLangProofs.depth (json_of (snd e)) <= M); [|lia]. apply list_max_ge. unfold M. rewrite map_map. apply in_map_iff. exists e. auto.
Qed.

(** * One parse *)
(** What was there before is unchanged. *)
Definition unchanged (h0 : heap) (c0 : contents) (h : heap) (c : contents) : Prop :=
  forall x, x < h_next h0 -> look h x = look h0 x /\ c x = c0 x.
(** The objects created since [h0] that are still there are [xs]. *)
Definition new_objects (h0 h : heap) (xs : list addr) : Prop :=
  forall x, h_next h0 <= x -> (h_mem h x <> None <-> In x xs).

Section One.
Variable strtod : text -> Z.
Variables (st : addr) (ss : statics) (place : heap -> addr -> nat) (deep : nat).
Variables (h0 : heap) (c0 : contents).
Hypothesis W0 : W st h0.
Hypothesis S0 : static_ok h0 ss.
Hypothesis DP : 2 <= deep.
Lemma inv_out h c R : inv st h0 c0 h c R -> unchanged h0 c0 h c /\ new_objects h0 h R /\ W st h /\ h_next h0 <= h_next h.
Proof.
  intros I. split; [exact (i_old _ _ _ _ _ _ I)|]. split; [|split; [apply I|apply I]]. intros x X. rewrite <- (i_live _ _ _ _ _ _ I x X), look_none. tauto.
Qed.
Lemma occ_nodup xs : (forall y, occ y xs <= 1) -> NoDup xs.
Proof. apply nodup_occ. Qed.
(** Any text *)
Lemma parse_any fuel buf len force r : parsex strtod fuel buf len force = Ok r ->
  exists h c v, mparsex strtod st ss place deep fuel h0 c0 buf len force = Ok (h, c, v) /\ unchanged h0 c0 h c /\ W st h /\ h_next h0 <= h_next h /\
    match r, v with
    | POk j, inl p => exists L ds, p = ptr ss L /\ json_of L = j /\ laid h c ss 0 L /\ Forall (laid h c ss 0) ds /\ NoDup (blocks L ++ flat_map blocks ds) /\
        new_objects h0 h (blocks L ++ flat_map blocks ds)
    | PErr line, inr line' => line' = line
    | _, _ => False
    end.
Proof.
  intros E. destruct (mparsex_sim strtod st ss place deep h0 c0 W0 S0 DP false fuel buf len force r E) as (h & c & v & R & EM & I & X); [discriminate|].
  destruct (inv_out _ _ _ I) as (U & N & Wh & NX). exists h, c, v. split; [auto|]. split; [auto|]. split; [auto|]. split; [auto|]. destruct r as [j|line], v as [p|line']; auto.
  destruct X as (L & ds & A & B & C & D & _ & O). exists L, ds. split; [auto|]. split; [auto|]. split; [auto|]. split; [auto|].
  assert (ONE := i_one _ _ _ _ _ _ I). split.
  - apply occ_nodup. intros y. rewrite occ_app. rewrite <- O. auto.
  - intros x X. rewrite (N x X), !occ_in, O, occ_app. tauto.
Qed.
(** A text without repeated names *)
Lemma parse_distinct fuel a w b v junk : spaces a -> spaces b -> dvalue loose_string (loose_number strtod) true 511 w v -> length (a ++ w ++ b) < fuel ->
  exists h c L, mparsex strtod st ss place deep fuel h0 c0 ((a ++ w ++ b) ++ 0%Z :: junk) (Z.of_nat (length (a ++ w ++ b))) true = Ok (h, c, inl (ptr ss L)) /\
    unchanged h0 c0 h c /\ W st h /\ h_next h0 <= h_next h /\ json_of L = v /\ laid h c ss 0 L /\ NoDup (blocks L) /\ new_objects h0 h (blocks L) /\ (forall x, In x (blocks L) -> h_next h0 <= x).
Proof.
  intros Sa Sb V F. assert (ST : JsonParseProofs.stops_at (0%Z :: junk) b) by (apply JsonLangProofs.eof_tail_stops; left; auto).
  assert (E : parsex strtod fuel ((a ++ w ++ b) ++ 0%Z :: junk) (Z.of_nat (length (a ++ w ++ b))) true = Ok (POk v)).
  { eapply JsonParseProofs.parsex_complete; [reflexivity|auto|apply dvalue_jvalue; eauto|auto|left; auto|auto]. }
  destruct (mparsex_sim strtod st ss place deep h0 c0 W0 S0 DP true _ _ _ _ _ E) as (h & c & r & R & EM & I & X).
  { intros _. apply (names_start strtod (0%Z :: junk) a w v b fuel Sa V (fun _ => ST)). }
  destruct (inv_out _ _ _ I) as (U & N & Wh & NX). destruct r as [p|]; [|contradiction]. destruct X as (L & ds & -> & J & H & _ & CL & O). rewrite (CL eq_refl) in O. cbn [flat_map] in O.
  assert (OB : forall y, occ y R = occ y (blocks L)). { intros y. rewrite O. occs. lia. }
  exists h, c, L. split; [auto|]. split; [auto|]. split; [auto|]. split; [auto|]. split; [auto|]. split; [auto|]. split; [|split].
  - apply occ_nodup. intros y. rewrite <- OB. apply I.
  - intros x X. rewrite (N x X), !occ_in, OB. tauto.
  - intros x X. apply (i_new _ _ _ _ _ _ I). rewrite occ_in in *. rewrite OB. auto.
Qed.
End One.

(** * Many values *)
Inductive jop : Type :=
| JParse (t junk : text)   (* a text with a NUL and other bytes behind it *)
| JDelete (i : nat).       (* the [i]-th value *)
Section Many.
Variable strtod : text -> Z.
Variables (st : addr) (ss : statics) (place : heap -> addr -> nat) (deep : nat).
Definition without {A} (i : nat) (l : list A) : list A := firstn i l ++ skipn (S i) l.
Definition jstep (s : heap * contents * list val) (o : jop) : outcome (heap * contents * list val) :=
  let '(h, c, vs) := s in
  match o with
  | JParse t junk =>
    let* (h, c, r) := mparsex strtod st ss place deep (S (length t)) h c (t ++ 0%Z :: junk) (Z.of_nat (length t)) true in
    Ok (h, c, match r with inl p => vs ++ [p] | inr _ => vs end)
  | JDelete i =>
    match nth_error vs i with
    | Some p => let* h := cee_del deep h p in Ok (h, c, without i vs)
    | None => Ok (h, c, vs)
    end
  end.
Fixpoint jplay (ops : list jop) (s : heap * contents * list val) : outcome (heap * contents * list val) :=
  match ops with [] => Ok s | o :: r => let* s := jstep s o in jplay r s end.
(** The values that should be there *)
Inductive should_hold : list jop -> list json -> list json -> Prop :=
| sh_nil js : should_hold [] js js
| sh_parse n a w b v junk ops js js' : spaces a -> spaces b -> dvalue loose_string (loose_number strtod) true n w v -> n <= 511 -> 5 * n + 2 <= deep ->
    should_hold ops (js ++ [v]) js' -> should_hold (JParse (a ++ w ++ b) junk :: ops) js js'
| sh_delete i ops js js' : i < length js -> should_hold ops (without i js) js' -> should_hold (JDelete i :: ops) js js'.

Variables (h0 : heap) (c0 : contents).
Record holding (h : heap) (c : contents) (vs : list val) (js : list json) (Ls : list layout) : Prop := Holding {
  hd_W : W st h;
  hd_static : static_ok h ss;
  hd_next : h_next h0 <= h_next h;
  hd_old : unchanged h0 c0 h c;
  hd_new : new_objects h0 h (flat_map blocks Ls);
  hd_above : forall x, In x (flat_map blocks Ls) -> h_next h0 <= x;
  hd_one : NoDup (flat_map blocks Ls);
  hd_laid : Forall (laid h c ss 0) Ls;
  hd_vals : vs = map (ptr ss) Ls;
  hd_json : js = map json_of Ls;
  hd_deep : Forall (fun L => levels L <= deep) Ls
}.
Lemma depth_mono n w v : dvalue loose_string (loose_number strtod) true n w v -> n <= 511 -> dvalue loose_string (loose_number strtod) true 511 w v.
Proof.
  assert (M : forall n w v, dvalue loose_string (loose_number strtod) true n w v -> forall m, n <= m -> dvalue loose_string (loose_number strtod) true m w v).
  { clear n w v. apply (dvalue_min' loose_string (loose_number strtod) true (fun n w v => forall m, n <= m -> dvalue loose_string (loose_number strtod) true m w v)
      (fun n w v => forall m, n <= m -> delements loose_string (loose_number strtod) true m w v) (fun n w v => forall m, n <= m -> dmembers loose_string (loose_number strtod) true m w v)
      (fun n w k v => forall m, n <= m -> dmember loose_string (loose_number strtod) true m w k v));
      intros; try (match goal with H : S _ <= ?m |- _ => destruct m as [|m]; [lia|]; apply le_S_n in H end); try (econstructor; eauto; fail). }
  intros D L. eapply M; eauto.
Qed.
Lemma dvalue_depth n w v : dvalue loose_string (loose_number strtod) true n w v -> JsonLangProofs.depth v <= n.
Proof. intros D. eapply JsonLangProofs.value_depth. apply dvalue_jvalue. exact D. Qed.
Lemma flat_map_without i (Ls : list layout) L y : nth_error Ls i = Some L -> occ y (flat_map blocks Ls) = occ y (flat_map blocks (without i Ls)) + occ y (blocks L).
Proof.
  unfold without. revert Ls. induction i as [|i IH]; intros [|L' Ls] E; try discriminate.
  - injection E as ->. cbn [firstn skipn app flat_map]. rewrite occ_app. lia.
  - cbn [firstn app flat_map]. rewrite !occ_app. rewrite (IH Ls E). cbn [skipn]. destruct Ls; [destruct i; discriminate|]. cbn [skipn]. lia.
Qed.
Lemma map_without {A B} (f : A -> B) i l : map f (without i l) = without i (map f l).
Proof. unfold without. rewrite map_app, firstn_map, skipn_map. auto. Qed.
Lemma Forall_without {A} (P : A -> Prop) i l : Forall P l -> Forall P (without i l).
Proof.
  unfold without. rewrite !Forall_forall. intros F x I. apply F. apply in_app_iff in I as [I|I];
    [rewrite <- (firstn_skipn i l)|rewrite <- (firstn_skipn (S i) l)]; apply in_app_iff; auto.
Qed.
Lemma jplay_ok ops js js' : should_hold ops js js' -> 2 <= deep -> forall h c vs Ls, holding h c vs js Ls ->
  exists h' c' vs' Ls', jplay ops (h, c, vs) = Ok (h', c', vs') /\ holding h' c' vs' js' Ls'.
Proof.
  intros SH DP. induction SH as [js|n a w b v junk ops js js' Sa Sb V N D SH IH|i ops js js' LT SH IH]; intros h c vs Ls HD.
  - exists h, c, vs, Ls. split; [reflexivity|auto].
  - pose proof HD as [Wh SO NX OL NW AB ND LD EV EJ DL].
    destruct (parse_distinct strtod st ss place deep h c Wh SO DP (S (length (a ++ w ++ b))) a w b v junk Sa Sb (depth_mono _ _ _ V N)) as (h1 & c1 & L & E & U & W1 & NX1 & J & H & NDL & NW1 & AB1); [lia|].
    assert (ABO : forall x, In x (flat_map blocks Ls) -> x < h_next h).
    { intros x X. apply (W_below st); [auto|]. rewrite look_none. apply NW; auto. }
    destruct (IH h1 c1 (vs ++ [ptr ss L]) (Ls ++ [L])) as (h2 & c2 & vs2 & Ls2 & E2 & HD2).
    + constructor.
      * auto.
      * intros x X. destruct (SO x X) as (k & O). apply static_obj. destruct (U x) as (-> & _); [|eapply obj_static; eauto]. apply (W_below st); auto. rewrite look_none. eapply obj_live; eauto.
      * lia.
      * intros x X. destruct (U x) as (-> & ->); [lia|]. apply OL. auto.
      * intros x X. rewrite flat_map_app, in_app_iff. cbn [flat_map]. rewrite app_nil_r. destruct (Nat.lt_ge_cases x (h_next h)) as [LT|GE].
        -- destruct (U x LT) as (LK & _). assert (Q : h_mem h1 x <> None <-> h_mem h x <> None) by (rewrite <- !look_none, LK; tauto). rewrite Q, (NW x X). split; [auto|]. intros [?|Y]; [auto|]. apply AB1 in Y. lia.
        -- rewrite (NW1 x GE). split; [auto|]. intros [Y|Y]; [apply ABO in Y; lia|auto].
      * intros x X. rewrite flat_map_app, in_app_iff in X. cbn [flat_map] in X. rewrite app_nil_r in X. destruct X as [X|X]; [auto|]. apply AB1 in X. lia.
      * rewrite flat_map_app. cbn [flat_map]. rewrite app_nil_r. apply nodup_occ. intros y. rewrite occ_app. assert (Q1 := proj1 (nodup_occ _) ND y). assert (Q2 := proj1 (nodup_occ _) NDL y).
        destruct (occ y (flat_map blocks Ls)) eqn:O1; [lia|]. destruct (occ y (blocks L)) eqn:O2; [lia|]. exfalso.
        assert (A1 : In y (flat_map blocks Ls)) by (rewrite occ_in; lia). assert (A2 : In y (blocks L)) by (rewrite occ_in; lia). apply ABO in A1. apply AB1 in A2. lia.
      * apply Forall_app. split; [|repeat constructor; auto]. rewrite Forall_forall in *. intros L' I. eapply laid_ext; [|apply LD; auto]. intros y Y. apply U. apply ABO. apply in_flat_map. eauto.
      * rewrite map_app, EV. auto.
      * rewrite map_app, EJ. cbn [map]. congruence.
      * apply Forall_app. split; [auto|]. repeat constructor. pose proof (levels_depth L) as Q. rewrite J in Q. apply dvalue_depth in V. lia.
    + exists h2, c2, vs2, Ls2. split; [|auto]. cbn [jplay jstep]. rewrite E. cbn [bind]. exact E2.
  - pose proof HD as [Wh SO NX OL NW AB ND LD EV EJ DL].
    destruct (nth_error Ls i) as [L|] eqn:EL; [|apply nth_error_None in EL; rewrite EJ, map_length in LT; lia].
    assert (EP : nth_error vs i = Some (ptr ss L)) by (rewrite EV, nth_error_map, EL; auto).
    pose proof (nth_error_In _ _ EL) as IL. assert (H : laid h c ss 0 L) by (rewrite Forall_forall in LD; auto). assert (LV : levels L <= deep) by (rewrite Forall_forall in DL; auto).
    assert (OC : forall y, occ y (flat_map blocks Ls) = occ y (flat_map blocks (without i Ls)) + occ y (blocks L)) by (intros; apply flat_map_without; auto).
    assert (ONE := proj1 (nodup_occ _) ND).
    assert (NDL : NoDup (blocks L)). { apply nodup_occ. intros y. specialize (ONE y). rewrite OC in ONE. lia. }
    destruct (del_stored st c ss h deep L 0 Wh SO H NDL LV) as (h1 & E & G). pose proof G as (W1 & NX1 & GD & GK).
    destruct (IH h1 c (without i vs) (without i Ls)) as (h2 & c2 & vs2 & Ls2 & E2 & HD2).
    + constructor.
      * auto.
      * eapply gone_static; [exact SO|exact (laid_things _ _ _ _ _ H)|exact G].
      * lia.
      * intros x X. destruct (OL x X) as (<- & <-). split; [|auto]. apply GK. intros Y. assert (h_next h0 <= x); [|lia]. apply AB. apply in_flat_map. eauto.
      * intros x X. destruct (in_dec Nat.eq_dec x (blocks L)) as [Y|Y].
        -- pose proof (proj1 (look_none h1 x) (GD x Y)) as Z. rewrite Z. split; [congruence|]. intros Q. exfalso. specialize (ONE x). rewrite OC in ONE. rewrite occ_in in *. lia.
        -- rewrite <- look_none, (GK x Y), look_none, (NW x X). rewrite !occ_in, OC. rewrite occ_in in Y. split; lia.
      * intros x X. apply AB. rewrite occ_in in *. rewrite OC. lia.
      * apply nodup_occ. intros y. specialize (ONE y). rewrite OC in ONE. lia.
      * assert (F := Forall_without _ i _ LD). rewrite Forall_forall in *. intros L' I. eapply laid_ext; [|apply F; auto]. intros y Y. split; [|auto]. apply GK. intros Q.
        specialize (ONE y). rewrite OC in ONE. assert (In y (flat_map blocks (without i Ls))) by (apply in_flat_map; eauto). rewrite occ_in in *. lia.
      * rewrite EV. symmetry. apply map_without.
      * rewrite EJ. symmetry. apply map_without.
      * apply Forall_without. auto.
    + exists h2, c2, vs2, Ls2. split; [|auto]. cbn [jplay jstep]. rewrite EP, E. cbn [bind]. exact E2.
Qed.
End Many.
