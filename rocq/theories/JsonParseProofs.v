(** Proofs about the parser: it never fails, it accepts only the relaxed language,
    and it accepts all of it. *)
From Coq Require Import ZArith List Bool Lia.
From Verif Require Import Base NumeralProofs Utf8Model Utf8Proofs Json JsonTokModel JsonParseModel JsonSpec
  JsonStrProofs JsonTokProofs JsonLexProofs.
Import ListNotations.
Open Scope Z_scope.
Local Arguments Z.add : simpl never.
Local Arguments Z.of_nat : simpl never.

(** * Objects *)
Lemma text_eqb_iff a b : text_eqb a b = true <-> a = b.
Proof. unfold text_eqb. destruct (list_eq_dec Z.eq_dec a b); split; auto; discriminate. Qed.
Lemma text_eqb_refl a : text_eqb a a = true. Proof. apply text_eqb_iff. auto. Qed.

Lemma with_member_put kvs k v : NoDup (map fst kvs) -> with_member kvs k v = obj_put kvs k v.
Proof.
  unfold with_member. induction kvs as [|(k', v') r IH]; intros N; cbn [existsb map app obj_put fst]; [auto|].
  cbn [map fst] in N. inversion N as [|? ? NI N']; subst. destruct (text_eqb k k') eqn:E; cbn [orb].
  - apply text_eqb_iff in E. subst k'. f_equal. clear -NI.
    induction r as [|(k', v0) r IH]; [auto|]. cbn [map fst] in *. destruct (text_eqb k k') eqn:E.
    + apply text_eqb_iff in E. subst. destruct NI. left. auto.
    + f_equal. apply IH. intros I. apply NI. right. auto.
  - rewrite <- IH by auto. destruct (existsb _ r); auto.
Qed.
Lemma put_keys kvs k v : NoDup (map fst kvs) -> NoDup (map fst (obj_put kvs k v)) /\
  (forall x, In x (map fst (obj_put kvs k v)) -> x = k \/ In x (map fst kvs)).
Proof.
  induction kvs as [|(k', v') r IH]; intros N; cbn [obj_put].
  - split; [repeat constructor; auto|]. intros x [X|[]]; auto.
  - cbn [map fst] in N. inversion N as [|? ? NI N']; subst. destruct (text_eqb k k') eqn:E.
    + cbn [map fst]. split; [auto|]. intros x [X|X]; cbn; auto.
    + destruct (IH N') as (A & B). cbn [map fst]. split.
      * constructor; [|auto]. intros I. apply B in I as [->|I]; [rewrite text_eqb_refl in E; discriminate|auto].
      * intros x [X|X]; [right; left; auto|]. apply B in X as [X|X]; [auto|right; right; auto].
Qed.

Section Parse.
Variable strtod : text -> Z.
Variable junk : text.
Hypothesis junk_bytes : Forall byte junk.
Notation jv := (jvalue loose_string (loose_number strtod) true).
Notation je := (jelements loose_string (loose_number strtod) true).
Notation jms := (jmembers loose_string (loose_number strtod) true).
Notation tk := (tk (0 :: junk)).

Lemma spaces_app a b : spaces a -> spaces b -> spaces (a ++ b).
Proof. intros A B. apply Forall_app. auto. Qed.
Lemma je_spaces n w l b : je n w l -> spaces b -> je n (w ++ b) l.
Proof.
  intros H S. destruct H as [n a w b' v A V B|n w0 l a w b' v H A V B].
  - rewrite <- !app_assoc. apply je_one; auto. apply spaces_app; auto.
  - rewrite <- app_assoc. cbn [app]. rewrite <- !app_assoc. apply je_more; auto. apply spaces_app; auto.
Qed.
Lemma jms_spaces n w l b : jms n w l -> spaces b -> jms n (w ++ b) l.
Proof.
  intros H S.
  assert (M : forall w k v, jmember loose_string (loose_number strtod) true n w k v -> jmember loose_string (loose_number strtod) true n (w ++ b) k v).
  { intros w' k v [n' a0 k0 s0 b0 c0 w0 d0 v0 A K B C V D].
    replace ((a0 ++ (34 :: k0 ++ [34]) ++ b0 ++ 58 :: c0 ++ w0 ++ d0) ++ b) with (a0 ++ (34 :: k0 ++ [34]) ++ b0 ++ 58 :: c0 ++ w0 ++ (d0 ++ b)).
    - constructor; auto. apply spaces_app; auto.
    - rewrite <- !app_assoc. cbn [app]. rewrite <- !app_assoc. auto. }
  destruct H as [n w k v H|n w0 kvs w k v H0 H].
  - constructor. auto.
  - rewrite <- app_assoc. cbn [app]. constructor; auto.
Qed.
Lemma jms_keys n w l : jms n w l -> NoDup (map fst l).
Proof.
  induction 1 as [n w k v H|n w0 kvs w k v H0 IH H]; [repeat constructor; auto|].
  rewrite with_member_put by auto. apply put_keys. auto.
Qed.

(** * What has been read so far *)
Definition awaiting_elem (n : nat) (u : text) (l : list json) : Prop :=
  l = [] /\ spaces u \/ exists w b, u = w ++ 44 :: b /\ je n w l /\ spaces b.
Definition awaiting_key (n : nat) (u : text) (kvs : list (text * json)) : Prop :=
  kvs = [] /\ spaces u \/ exists w b, u = w ++ 44 :: b /\ jms n w kvs /\ spaces b.
Definition awaiting_colon (n : nat) (u : text) (kvs : list (text * json)) (key : text) : Prop :=
  exists u1 k b, u = u1 ++ (34 :: k ++ [34]) ++ b /\ awaiting_key n u1 kvs /\ loose_string k key /\ spaces b.
Definition awaiting_val (n : nat) (u : text) (kvs : list (text * json)) (key : text) : Prop :=
  exists u1 c, u = u1 ++ 58 :: c /\ awaiting_colon n u1 kvs key /\ spaces c.

(** The text before the bracket that opened the container (with the state and key
    of its frame) on the given stack *)
Inductive opened : pstate -> option text -> list frame -> text -> Prop :=
| op_root u : spaces u -> opened DONE None [] u
| op_arr r k l base ua ub : opened r k base ua -> awaiting_elem (510 - length base) ub l ->
    opened ACOMMA None (Frame r k (Some (JArr l)) :: base) (ua ++ 91 :: ub)
| op_obj r k kvs key base ua ub : opened r k base ua -> awaiting_val (510 - length base) ub kvs key ->
    opened OCOMMA (Some key) (Frame r k (Some (JObj kvs)) :: base) (ua ++ 123 :: ub).

Definition wf (m : machine) (u : text) : Prop :=
  (length (m_stack m) <= 512)%nat /\
  match m_state m with
  | ERROR => True
  | DONE => m_stack m = [] /\ exists v a w, m_result m = Some v /\ u = a ++ w /\ spaces a /\ jv 511 w v
  | VALUE => m_stack m = [Frame DONE None None] /\ spaces u
  | AVALUE => exists r k l base ua ub, m_stack m = Frame r k (Some (JArr l)) :: base /\ opened r k base ua /\
      u = ua ++ 91 :: ub /\ awaiting_elem (510 - length base) ub l
  | ACOMMA => exists r k l base ua ub, m_stack m = Frame r k (Some (JArr l)) :: base /\ opened r k base ua /\
      u = ua ++ 91 :: ub /\ je (510 - length base) ub l
  | OKEY => exists r k l base ua ub, m_stack m = Frame r k (Some (JObj l)) :: base /\ opened r k base ua /\
      u = ua ++ 123 :: ub /\ awaiting_key (510 - length base) ub l
  | OCOLON => exists r k l base ua ub key, m_stack m = Frame r k (Some (JObj l)) :: base /\ opened r k base ua /\
      u = ua ++ 123 :: ub /\ m_key m = Some key /\ awaiting_colon (510 - length base) ub l key
  | OVALUE => exists r k l base ua ub key, m_stack m = Frame r k (Some (JObj l)) :: base /\ opened r k base ua /\
      u = ua ++ 123 :: ub /\ m_key m = Some key /\ awaiting_val (510 - length base) ub l key
  | OCOMMA => exists r k l base ua ub, m_stack m = Frame r k (Some (JObj l)) :: base /\ opened r k base ua /\
      u = ua ++ 123 :: ub /\ jms (510 - length base) ub l
  end.

Lemma awaiting_elem_spaces n u l b : awaiting_elem n u l -> spaces b -> awaiting_elem n (u ++ b) l.
Proof.
  intros [(-> & S)|(w & b0 & -> & H & S)] B; [left; split; [auto|apply spaces_app; auto]|].
  right. exists w, (b0 ++ b). split; [rewrite <- app_assoc; auto|]. split; [auto|apply spaces_app; auto].
Qed.
Lemma awaiting_key_spaces n u l b : awaiting_key n u l -> spaces b -> awaiting_key n (u ++ b) l.
Proof.
  intros [(-> & S)|(w & b0 & -> & H & S)] B; [left; split; [auto|apply spaces_app; auto]|].
  right. exists w, (b0 ++ b). split; [rewrite <- app_assoc; auto|]. split; [auto|apply spaces_app; auto].
Qed.
Lemma awaiting_colon_spaces n u l k b : awaiting_colon n u l k -> spaces b -> awaiting_colon n (u ++ b) l k.
Proof.
  intros (u1 & k0 & b0 & -> & A & S & B0) B. exists u1, k0, (b0 ++ b). split; [rewrite <- !app_assoc; auto|].
  split; [auto|]. split; [auto|apply spaces_app; auto].
Qed.
Lemma awaiting_val_spaces n u l k b : awaiting_val n u l k -> spaces b -> awaiting_val n (u ++ b) l k.
Proof.
  intros (u1 & c & -> & A & S) B. exists u1, (c ++ b). split; [rewrite <- app_assoc; auto|].
  split; [auto|apply spaces_app; auto].
Qed.
Lemma opened_spaces r k base u b : opened r k base u -> spaces b -> opened r k base (u ++ b).
Proof.
  intros H B. destruct H as [u S|r k l base ua ub O A|r k kvs key base ua ub O A].
  - constructor. apply spaces_app; auto.
  - rewrite <- app_assoc. cbn [app]. constructor; [auto|]. apply awaiting_elem_spaces; auto.
  - rewrite <- app_assoc. cbn [app]. constructor; [auto|]. apply awaiting_val_spaces; auto.
Qed.

Lemma elem_done n u l x v : awaiting_elem n u l -> jv n x v -> je n (u ++ x) (l ++ [v]).
Proof.
  intros [(-> & S)|(w & b & -> & H & S)] V.
  - rewrite <- (app_nil_r x). apply je_one; auto. constructor.
  - rewrite <- app_assoc. cbn [app]. rewrite <- (app_nil_r x). apply je_more; auto. constructor.
Qed.
Lemma member_done n u kvs k x v : awaiting_val n u kvs k -> jv n x v -> jms n (u ++ x) (obj_put kvs k v).
Proof.
  intros (u1 & c & -> & (u2 & k0 & b & -> & A & S & B) & C) V.
  assert (M : forall a, spaces a -> jmember loose_string (loose_number strtod) true n (a ++ (34 :: k0 ++ [34]) ++ b ++ 58 :: c ++ x ++ []) k v).
  { intros a Sa. constructor; auto. constructor. }
  destruct A as [(-> & S2)|(w & b2 & -> & H & S2)].
  - cbn [obj_put]. apply jm_one. specialize (M u2 S2). rewrite app_nil_r in M. rewrite <- !app_assoc. cbn [app] in M |- *. auto.
  - rewrite <- with_member_put by (eapply jms_keys; eauto). specialize (M b2 S2). rewrite app_nil_r in M.
    rewrite <- !app_assoc. cbn [app]. apply jm_more; auto.
Qed.

(** Putting a finished value where it belongs *)
Definition put_value (fk : option text) (base : list frame) (v : json) : list frame :=
  match base with
  | Frame r k (Some (JArr l)) :: fs => Frame r k (Some (JArr (l ++ [v]))) :: fs
  | Frame r k (Some (JObj kvs)) :: fs =>
    match fk with Some k0 => Frame r k (Some (JObj (obj_put kvs k0 v))) :: fs | None => base end
  | _ => base
  end.
Lemma put_value_length fk base v : length (put_value fk base v) = length base.
Proof. destruct base as [|[r k [[]|]] fs]; cbn; auto. destruct fk; auto. Qed.

Lemma pop_ok m tok ret fk base u v : opened ret fk base u ->
  pop m tok (Frame ret fk (Some v)) base = Ok (Machine ret (put_value fk base v) (m_key m) tok (Some v)).
Proof.
  intros O. destruct O as [u S|r k l base ua ub O A|r k kvs key base ua ub O A]; auto.
Qed.

(** A value is complete *)
Lemma value_done ret fk base u key tok res x v : opened ret fk base u -> (length base <= 511)%nat -> jv (511 - length base) x v ->
  (base = [] -> res = Some v) -> wf (Machine ret (put_value fk base v) key tok res) (u ++ x).
Proof.
  intros O L V R. split; [cbn [m_stack]; rewrite put_value_length; lia|].
  destruct O as [u S|r k l base ua ub O A|r k kvs key0 base ua ub O A]; cbn [m_state m_stack m_result put_value].
  - split; [auto|]. exists v, u, x. cbn [length] in V. auto.
  - cbn [length] in L, V. replace (511 - S (length base))%nat with (510 - length base)%nat in V by lia.
    exists r, k, (l ++ [v]), base, ua, (ub ++ x). split; [auto|]. split; [auto|]. split; [rewrite <- app_assoc; auto|]. apply elem_done; auto.
  - cbn [length] in L, V. replace (511 - S (length base))%nat with (510 - length base)%nat in V by lia.
    exists r, k, (obj_put kvs key0 v), base, ua, (ub ++ x). split; [auto|]. split; [auto|]. split; [rewrite <- app_assoc; auto|]. apply member_done; auto.
Qed.

(** The three states in which a value may begin: the frame a container gets *)
Inductive begins : machine -> pstate -> option text -> list frame -> Prop :=
| b_root key tok res : begins (Machine VALUE [Frame DONE None None] key tok res) DONE None []
| b_arr r k l fs key tok res : begins (Machine AVALUE (Frame r k (Some (JArr l)) :: fs) key tok res) ACOMMA None (Frame r k (Some (JArr l)) :: fs)
| b_obj r k l fs key tok res : begins (Machine OVALUE (Frame r k (Some (JObj l)) :: fs) (Some key) tok res) OCOMMA (Some key) (Frame r k (Some (JObj l)) :: fs).

Lemma begins_scalar m ret fk base t tok v : begins m ret fk base -> scalar t = Some v ->
  exists res, transition m t tok = Ok (Machine ret (put_value fk base v) (m_key m) tok res) /\ (base = [] -> res = Some v).
Proof.
  intros B S. assert (NP : forall c, is_punct t c = false) by (destruct t; auto; discriminate).
  destruct B; unfold transition; cbn [m_stack m_state m_key]; rewrite ?NP, S.
  - eexists. split; [reflexivity|auto].
  - eexists. split; [reflexivity|discriminate].
  - eexists. split; [reflexivity|discriminate].
Qed.
Lemma begins_array m ret fk base tok : begins m ret fk base ->
  transition m (TPunct 91) tok = Ok (Machine AVALUE (Frame ret fk (Some (JArr [])) :: base) (m_key m) tok None).
Proof. intros B. destruct B; reflexivity. Qed.
Lemma begins_object m ret fk base tok : begins m ret fk base ->
  transition m (TPunct 123) tok = Ok (Machine OKEY (Frame ret fk (Some (JObj [])) :: base) (m_key m) tok None).
Proof. intros B. destruct B; reflexivity. Qed.

Lemma scalar_value_text n x t v : lexeme strtod x t -> scalar t = Some v -> jv n x v.
Proof. intros L S. destruct L; cbn in S; try discriminate; injection S as <-; constructor; auto. Qed.

(** A token in a state where a value begins (and where a closing bracket does not) *)
Lemma begins_step m ret fk base t tok x u a : begins m ret fk base -> opened ret fk base u ->
  (length (m_stack m) <= 511)%nat -> (length base <= 511)%nat -> lexeme strtod x t -> spaces a ->
  (m_state m = AVALUE -> t <> TPunct 93) ->
  exists m', transition m t tok = Ok m' /\ m_tok m' = tok /\ wf m' (u ++ a ++ x).
Proof.
  intros B O Ls Lb Lx Sa NC. pose proof (opened_spaces _ _ _ _ a O Sa) as O'. rewrite app_assoc.
  assert (OB : opened ret fk base (u ++ a) /\ True) by auto. clear OB.
  destruct (scalar t) as [v|] eqn:S.
  - destruct (begins_scalar m ret fk base t tok v B S) as (res & E & R). eexists. split; [exact E|]. split; [auto|].
    apply value_done; auto. eapply scalar_value_text; eauto.
  - assert (P : exists c, t = TPunct c) by (destruct Lx; try discriminate; eauto). destruct P as (c & ->).
    assert (x = [c]) as ->. { inversion Lx; auto. }
    destruct (Z.eq_dec c 91) as [->|N1].
    + rewrite (begins_array m ret fk base tok B). eexists. split; [reflexivity|]. split; [auto|]. split; [cbn [m_stack length]; lia|].
      cbn [m_state m_stack]. exists ret, fk, [], base, (u ++ a), []. split; [auto|]. split; [auto|]. split; [auto|]. left. split; [auto|constructor].
    + destruct (Z.eq_dec c 123) as [->|N2].
      * rewrite (begins_object m ret fk base tok B). eexists. split; [reflexivity|]. split; [auto|]. split; [cbn [m_stack length]; lia|].
        cbn [m_state m_stack]. exists ret, fk, [], base, (u ++ a), []. split; [auto|]. split; [auto|]. split; [auto|]. left. split; [auto|constructor].
      * assert (E : transition m (TPunct c) tok = Ok (Machine ERROR (m_stack m) (m_key m) tok None)).
        { destruct B; unfold transition; cbn [m_stack m_state m_key is_punct scalar] in *;
            (destruct (Z.eqb_spec c 91); [congruence|]); (destruct (Z.eqb_spec c 123); [congruence|]); auto.
          destruct (Z.eqb_spec c 93) as [->|]; [destruct NC; auto|auto]. }
        rewrite E. eexists. split; [reflexivity|]. split; [auto|]. split; [cbn [m_stack]; lia|exact I].
Qed.

Lemma error_wf m tok u : (length (m_stack m) <= 512)%nat -> wf (Machine ERROR (m_stack m) (m_key m) tok None) u.
Proof. intros L. split; [auto|exact I]. Qed.

(** Closing a container *)
Lemma close_array n b w l : spaces b -> awaiting_elem n w l \/ je n w l -> jv (S n) (91 :: (w ++ b) ++ [93]) (JArr l).
Proof.
  intros B [A|A].
  - apply (awaiting_elem_spaces _ _ _ b) in A; auto. destruct A as [(-> & S)|(w' & b' & E & A & S)].
    + apply jv_arr0. auto.
    + rewrite E. rewrite <- app_assoc. cbn [app]. apply jv_arr_comma; auto.
  - apply jv_arr. apply je_spaces; auto.
Qed.
Lemma close_object n b w l : spaces b -> awaiting_key n w l \/ jms n w l -> jv (S n) (123 :: (w ++ b) ++ [125]) (JObj l).
Proof.
  intros B [A|A].
  - apply (awaiting_key_spaces _ _ _ b) in A; auto. destruct A as [(-> & S)|(w' & b' & E & A & S)].
    + apply jv_obj0. auto.
    + rewrite E. rewrite <- app_assoc. cbn [app]. apply jv_obj_comma; auto.
  - apply jv_obj. apply jms_spaces; auto.
Qed.

(** Every token in every reachable state *)
Lemma transition_ok m u t tok x a : wf m u -> running m = true -> lexeme strtod x t -> spaces a ->
  exists m', transition m t tok = Ok m' /\ m_tok m' = tok /\ wf m' (u ++ a ++ x).
Proof.
  intros (LL & W) R Lx Sa. destruct m as [st stk key tk0 res]. cbn [m_stack m_state m_key m_result] in *.
  unfold running in R. cbn [m_stack m_state] in R.
  assert (LS : (length stk <= 511)%nat).
  { destruct stk as [|f fs]; [discriminate|]. apply andb_true_iff in R as (R & _). apply negb_true_iff, Nat.eqb_neq in R. unfold max_depth in R. lia. }
  assert (ER : forall m, m = Machine st stk key tk0 res -> wf (Machine ERROR (m_stack m) (m_key m) tok None) (u ++ a ++ x)).
  { intros m ->. apply error_wf. auto. }
  specialize (ER _ eq_refl). cbn [m_stack m_key] in ER.
  destruct st.
  - destruct W as (-> & S). eapply begins_step; [constructor|constructor; auto|exact LS|cbn; lia|exact Lx|exact Sa|discriminate].
  - (* key or close *)
    destruct W as (r & k & l & base & ua & ub & -> & O & -> & A). unfold transition. cbn [m_stack m_state m_key].
    destruct (is_punct t 125) eqn:P.
    + assert (t = TPunct 125) as -> by (destruct t; try discriminate; cbn in P; apply Z.eqb_eq in P; congruence).
      assert (x = [125]) as -> by (inversion Lx; auto).
      rewrite (pop_ok _ _ _ _ _ ua) by auto. eexists. split; [reflexivity|]. split; [auto|].
      replace ((ua ++ 123 :: ub) ++ a ++ [125]) with (ua ++ (123 :: (ub ++ a) ++ [125])) by (rewrite <- !app_assoc; cbn [app]; rewrite <- ?app_assoc; auto).
      cbn [length] in LS. apply value_done; auto; [lia|]. replace (511 - length base)%nat with (S (510 - length base)) by lia. apply close_object; auto.
    + destruct t; try (eexists; split; [reflexivity|]; split; [auto|exact ER]).
      eexists. split; [reflexivity|]. split; [auto|]. split; [cbn [m_stack length] in *; lia|]. cbn [m_state m_stack m_key].
      inversion Lx as [|w s0 LSt| | | | |]; subst.
      exists r, k, l, base, ua, ((ub ++ a) ++ (34 :: w ++ [34]) ++ []), s. split; [auto|]. split; [auto|].
      split; [rewrite <- !app_assoc, app_nil_r; cbn [app]; rewrite <- ?app_assoc; auto|]. split; [auto|].
      exists (ub ++ a), w, []. split; [auto|]. split; [apply awaiting_key_spaces; auto|]. split; [auto|constructor].
  - (* colon *)
    destruct W as (r & k & l & base & ua & ub & key0 & -> & O & -> & -> & A). unfold transition. cbn [m_stack m_state m_key].
    destruct (is_punct t 58) eqn:P; [|eexists; split; [reflexivity|]; split; [auto|exact ER]].
    assert (t = TPunct 58) as -> by (destruct t; try discriminate; cbn in P; apply Z.eqb_eq in P; congruence).
    assert (x = [58]) as -> by (inversion Lx; auto).
    eexists. split; [reflexivity|]. split; [auto|]. split; [cbn [m_stack length] in *; lia|]. cbn [m_state m_stack m_key].
    exists r, k, l, base, ua, ((ub ++ a) ++ [58]), key0. split; [auto|]. split; [auto|].
    split; [rewrite <- !app_assoc; cbn [app]; rewrite <- ?app_assoc; auto|]. split; [auto|].
    exists (ub ++ a), []. split; [auto|]. split; [apply awaiting_colon_spaces; auto|constructor].
  - (* object value *)
    destruct W as (r & k & l & base & ua & ub & key0 & -> & O & -> & -> & A).
    eapply begins_step; [constructor|constructor; eauto|exact LS|exact LS|exact Lx|exact Sa|discriminate].
  - (* object comma *)
    destruct W as (r & k & l & base & ua & ub & -> & O & -> & A). unfold transition. cbn [m_stack m_state m_key].
    destruct (is_punct t 44) eqn:P.
    + assert (t = TPunct 44) as -> by (destruct t; try discriminate; cbn in P; apply Z.eqb_eq in P; congruence).
      assert (x = [44]) as -> by (inversion Lx; auto).
      eexists. split; [reflexivity|]. split; [auto|]. split; [cbn [m_stack length] in *; lia|]. cbn [m_state m_stack m_key].
      exists r, k, l, base, ua, ((ub ++ a) ++ [44]). split; [auto|]. split; [auto|].
      split; [rewrite <- !app_assoc; cbn [app]; rewrite <- ?app_assoc; auto|].
      right. exists (ub ++ a), []. split; [auto|]. split; [apply jms_spaces; auto|constructor].
    + destruct (is_punct t 125) eqn:P2; [|eexists; split; [reflexivity|]; split; [auto|exact ER]].
      assert (t = TPunct 125) as -> by (destruct t; try discriminate; cbn in P2; apply Z.eqb_eq in P2; congruence).
      assert (x = [125]) as -> by (inversion Lx; auto).
      rewrite (pop_ok _ _ _ _ _ ua) by auto. eexists. split; [reflexivity|]. split; [auto|].
      replace ((ua ++ 123 :: ub) ++ a ++ [125]) with (ua ++ (123 :: (ub ++ a) ++ [125])) by (rewrite <- !app_assoc; cbn [app]; rewrite <- ?app_assoc; auto).
      cbn [length] in LS. apply value_done; auto; [lia|]. replace (511 - length base)%nat with (S (510 - length base)) by lia. apply close_object; auto.
  - (* array value *)
    destruct W as (r & k & l & base & ua & ub & -> & O & -> & A).
    destruct (is_punct t 93) eqn:P.
    + assert (t = TPunct 93) as -> by (destruct t; try discriminate; cbn in P; apply Z.eqb_eq in P; congruence).
      assert (x = [93]) as -> by (inversion Lx; auto). unfold transition. cbn [m_stack m_state m_key is_punct Z.eqb Pos.eqb].
      rewrite (pop_ok _ _ _ _ _ ua) by auto. eexists. split; [reflexivity|]. split; [auto|].
      replace ((ua ++ 91 :: ub) ++ a ++ [93]) with (ua ++ (91 :: (ub ++ a) ++ [93])) by (rewrite <- !app_assoc; cbn [app]; rewrite <- ?app_assoc; auto).
      cbn [length] in LS. apply value_done; auto; [lia|]. replace (511 - length base)%nat with (S (510 - length base)) by lia. apply close_array; auto.
    + eapply begins_step; [constructor|constructor; eauto|exact LS|exact LS|exact Lx|exact Sa|]. intros _ ->. discriminate P.
  - (* array comma *)
    destruct W as (r & k & l & base & ua & ub & -> & O & -> & A). unfold transition. cbn [m_stack m_state m_key].
    destruct (is_punct t 93) eqn:P2.
    + assert (t = TPunct 93) as -> by (destruct t; try discriminate; cbn in P2; apply Z.eqb_eq in P2; congruence).
      assert (x = [93]) as -> by (inversion Lx; auto).
      rewrite (pop_ok _ _ _ _ _ ua) by auto. eexists. split; [reflexivity|]. split; [auto|].
      replace ((ua ++ 91 :: ub) ++ a ++ [93]) with (ua ++ (91 :: (ub ++ a) ++ [93])) by (rewrite <- !app_assoc; cbn [app]; rewrite <- ?app_assoc; auto).
      cbn [length] in LS. apply value_done; auto; [lia|]. replace (511 - length base)%nat with (S (510 - length base)) by lia. apply close_array; auto.
    + destruct (is_punct t 44) eqn:P; [|eexists; split; [reflexivity|]; split; [auto|exact ER]].
      assert (t = TPunct 44) as -> by (destruct t; try discriminate; cbn in P; apply Z.eqb_eq in P; congruence).
      assert (x = [44]) as -> by (inversion Lx; auto).
      eexists. split; [reflexivity|]. split; [auto|]. split; [cbn [m_stack length] in *; lia|]. cbn [m_state m_stack m_key].
      exists r, k, l, base, ua, ((ub ++ a) ++ [44]). split; [auto|]. split; [auto|].
      split; [rewrite <- !app_assoc; cbn [app]; rewrite <- ?app_assoc; auto|].
      right. exists (ub ++ a), []. split; [auto|]. split; [apply je_spaces; auto|constructor].
  - destruct stk; [discriminate|]. rewrite andb_false_r in R. discriminate.
  - destruct stk; [discriminate|]. rewrite andb_false_r in R. discriminate.
Qed.

(** The other two tokens end in the error state *)
Lemma transition_err m t tok u : wf m u -> running m = true -> t = TErr \/ t = TEof ->
  transition m t tok = Ok (Machine ERROR (m_stack m) (m_key m) tok None).
Proof.
  intros (_ & W) R T. unfold transition. unfold running in R. destruct (m_stack m) as [|top below] eqn:E; [discriminate|].
  destruct (m_state m); destruct T as [-> | ->]; auto; rewrite andb_false_r in R; discriminate.
Qed.

(** * The loop *)
Lemma breaks_none w : Forall (fun c => c <> 10 /\ c <> 13) w -> breaks w = 0.
Proof.
  induction 1 as [|c w (A & B) F IH]; [auto|]. rewrite breaks_cons, IH. unfold is_break.
  destruct (Z.eqb_spec c 10); [congruence|]. destruct (Z.eqb_spec c 13); [congruence|]. auto.
Qed.
Lemma no_break_digits ds : Forall digit_char ds -> Forall (fun c => c <> 10 /\ c <> 13) ds.
Proof. apply Forall_impl. unfold digit_char. intros; lia. Qed.
Lemma no_break_loose w t : loose_chars w t -> Forall (fun c => c <> 10 /\ c <> 13) w.
Proof.
  assert (HB : forall h x, hex4 h x -> Forall (fun c => c <> 10 /\ c <> 13) h).
  { intros h x (a & b & c & d & va & vb & vc & vd & -> & A & B & C & D & _). apply hex_digit_range in A, B, C, D. repeat constructor; lia. }
  assert (B2 : (92 <> 10 /\ 92 <> 13) /\ (117 <> 10 /\ 117 <> 13)) by lia. destruct B2 as (B92 & B117).
  induction 1 as [|c w s A N1 N2 L IH|e c w s I L IH|h x w s H N1 N2 L IH|h1 h2 hi lo w s H1 H2 N1 N2 L IH|h x H N].
  - constructor.
  - constructor; [lia|auto].
  - apply escape_range in I. constructor; [auto|]. constructor; [lia|auto].
  - constructor; [auto|]. constructor; [auto|]. apply Forall_app. split; [eapply HB; eauto|auto].
  - constructor; [auto|]. constructor; [auto|]. apply Forall_app. split; [eapply HB; eauto|].
    constructor; [auto|]. constructor; [auto|]. apply Forall_app. split; [eapply HB; eauto|auto].
  - constructor; [auto|]. constructor; [auto|]. eapply HB; eauto.
Qed.
Lemma no_break_number w v : loose_number strtod w v -> Forall (fun c => c <> 10 /\ c <> 13) w.
Proof.
  assert (M : forall m, minus m -> Forall (fun c => c <> 10 /\ c <> 13) m) by (intros m [-> | ->]; repeat constructor; lia).
  assert (D : forall i, digits i -> Forall (fun c => c <> 10 /\ c <> 13) i) by (intros i (_ & F); apply no_break_digits; auto).
  intros [m ds Hm (Hd & _)|m i f e Hm Hi Hf He _]; rewrite !Forall_app.
  - auto.
  - split; [auto|]. split; [auto|]. split.
    + destruct Hf as [-> |(ds & -> & Hd)]; [constructor|]. constructor; [lia|auto].
    + destruct He as [-> |(ee & sg & ds & Ee & Sg & -> & Hd)]; [constructor|]. constructor; [lia|]. apply Forall_app. split; [|auto].
      destruct Sg as [-> |[-> | ->]]; repeat constructor; lia.
Qed.
Lemma lexeme_breaks x t : lexeme strtod x t -> breaks x = 0.
Proof.
  intros L. apply breaks_none. destruct L as [c I|w s (s0 & L & _)| | | |w z L|w z L].
  - cbn [In] in I. repeat constructor; lia.
  - constructor; [lia|]. apply Forall_app. split; [eapply no_break_loose; eauto|repeat constructor; lia].
  - repeat constructor; lia.
  - repeat constructor; lia.
  - repeat constructor; lia.
  - eapply no_break_number; eauto.
  - eapply no_break_number; eauto.
Qed.

(** The state of the machine when [full] is the text *)
Inductive good (full : text) (m : machine) : text -> Prop :=
| good_err w pre suf : m_state m = ERROR -> full = pre ++ suf -> t_line (m_tok m) = breaks pre -> good full m w
| good_run u w : wf m u -> full = u ++ w -> m_tok m = tk (breaks u) w -> good full m w.

Lemma step_ok full m u w : Forall byte full -> wf m u -> full = u ++ w -> m_tok m = tk (breaks u) w -> running m = true ->
  exists m' w', step strtod m = Ok m' /\ good full m' w' /\ (m_state m' = ERROR \/ (length w' < length w)%nat).
Proof.
  intros B W -> T R. apply Forall_app in B as (_ & B). unfold step. rewrite T.
  destruct (next_total strtod junk junk_bytes (breaks u) w B) as (t & t' & E & NR). rewrite E. cbn [bind].
  destruct NR as [a r t0 S Ew TL|a r t0 S Ew TL ET|a x r t0 S L Ew].
  - rewrite (transition_err m TErr t0 u) by auto. eexists _, w. split; [reflexivity|]. split; [|auto].
    apply good_err with (u ++ a) r; cbn [m_state m_tok]; [auto|rewrite Ew, <- app_assoc; auto|]. rewrite breaks_app. auto.
  - rewrite (transition_err m TEof t0 u) by auto. eexists _, w. split; [reflexivity|]. split; [|auto].
    apply good_err with (u ++ a) r; cbn [m_state m_tok]; [auto|rewrite Ew, <- app_assoc; auto|]. rewrite breaks_app. auto.
  - destruct (transition_ok m u t0 (tk (breaks u + breaks a) r) x a W R L S) as (m' & E' & T' & W'). exists m', r. split; [auto|]. split.
    + apply good_run with (u ++ a ++ x); [auto|rewrite Ew, <- !app_assoc; auto|]. rewrite T'. f_equal. rewrite !breaks_app, (lexeme_breaks x t0) by auto. lia.
    + right. pose proof (lexeme_nonempty _ _ _ L). destruct x; [congruence|]. rewrite Ew, !app_length. cbn [length]. lia.
Qed.

Lemma run_ok full : Forall byte full -> forall fuel m w, good full m w -> (length w < fuel)%nat ->
  exists m' w', run strtod fuel m = Ok m' /\ running m' = false /\ good full m' w'.
Proof.
  intros B. induction fuel as [|f IH]; intros m w G L; [lia|]. cbn [run]. destruct (running m) eqn:R; [|exists m, w; auto].
  destruct G as [w pre suf ES EF ET|u w W EF T].
  { exfalso. unfold running in R. rewrite ES in R. destruct (m_stack m); [discriminate|]. rewrite andb_false_r in R. discriminate. }
  destruct (step_ok full m u w B W EF T R) as (m' & w' & E & G & D). rewrite E. cbn [bind].
  destruct D as [ER|D].
  - exists m', w'. split; [|split; [|auto]].
    + destruct f; cbn [run]; assert (running m' = false) as -> by (unfold running; rewrite ER; destruct (m_stack m'); [auto|apply andb_false_r]); auto.
    + unfold running; rewrite ER; destruct (m_stack m'); [auto|apply andb_false_r].
  - apply (IH m' w'); [auto|lia].
Qed.

(** ** Safety and soundness *)
Definition start (full : text) : machine := Machine VALUE [Frame DONE None None] None (tk 0 full) None.
Lemma start_good full : good full (start full) full.
Proof. apply good_run with []; [|auto|auto]. split; [cbn; lia|]. cbn. split; [auto|constructor]. Qed.

Lemma parsex_total full fuel force : Forall byte full -> (length full < fuel)%nat ->
  exists r, parsex strtod fuel (full ++ 0 :: junk) (Z.of_nat (length full)) force = Ok r /\
  match r with
  | POk v => exists a w b, full = a ++ w ++ b /\ spaces a /\ jv 511 w v /\ (force = true -> eof_tail b)
  | PErr line => exists pre suf, full = pre ++ suf /\ line = breaks pre
  end.
Proof.
  intros B L. unfold parsex. change (Machine VALUE [Frame DONE None None] None (Tok 0 (full ++ 0 :: junk) (Z.of_nat (length full))) None) with (start full).
  destruct (run_ok full B fuel _ _ (start_good full) L) as (m & w & E & R & G). rewrite E. cbn [bind].
  assert (LN : exists pre suf, full = pre ++ suf /\ t_line (m_tok m) = breaks pre).
  { destruct G as [w pre suf ES EF ET|u w W EF T]; [eauto|]. exists u, w. rewrite T. auto. }
  destruct G as [w pre suf ES EF ET|u w W EF T]; [rewrite ES; eexists; split; [reflexivity|auto]|].
  destruct (m_state m) eqn:ST; try (eexists; split; [reflexivity|exact LN]).
  destruct W as (_ & W). rewrite ST in W. destruct W as (_ & v & a & x & ER & -> & S & V). rewrite ER. cbn [of_option bind].
  destruct force; [|eexists; split; [reflexivity|]; exists a, x, w; rewrite <- app_assoc in EF; split; [auto|]; split; [auto|]; split; [auto|discriminate]].
  rewrite T. assert (Bw : Forall byte w) by (rewrite EF in B; apply Forall_app in B as (_ & ?); auto).
  destruct (next_total strtod junk junk_bytes (breaks (a ++ x)) w Bw) as (t & t' & E' & NR). rewrite E'. cbn [bind].
  destruct NR as [a' r t0 S' Ew TL|a' r t0 S' Ew TL ET|a' y r t0 S' Ly Ew].
  - eexists. split; [reflexivity|]. exists ((a ++ x) ++ a'), r. split; [rewrite EF, Ew, <- !app_assoc; auto|]. rewrite (breaks_app (a ++ x) a'). auto.
  - eexists. split; [reflexivity|]. exists a, x, w. rewrite <- app_assoc in EF. auto.
  - assert (NE : t0 <> TEof) by (destruct Ly; discriminate).
    exists (PErr (breaks (a ++ x) + breaks a')). split; [destruct t0; auto; congruence|].
    exists ((a ++ x) ++ a'), (y ++ r). split; [rewrite EF, Ew, <- !app_assoc; auto|]. rewrite (breaks_app (a ++ x) a'). auto.
Qed.

(** * Completeness *)
Inductive reach : machine -> machine -> Prop :=
| reach_refl m : reach m m
| reach_step m m1 m2 : running m = true -> step strtod m = Ok m1 -> reach m1 m2 -> reach m m2.
Lemma reach_trans m1 m2 m3 : reach m1 m2 -> reach m2 m3 -> reach m1 m3.
Proof. induction 1; intros; [auto|]. eapply reach_step; eauto. Qed.
End Parse.

(** ** Whatever comes behind the text *)
Section Complete.
Variable strtod : text -> Z.
Variable tail : text.
Notation jv := (jvalue loose_string (loose_number strtod) true).
Notation tk := (JsonLexProofs.tk tail).

(** Steps that take something from the text *)
Inductive creach : machine -> machine -> Prop :=
| creach_refl m : creach m m
| creach_step m m1 m2 : running m = true -> step strtod m = Ok m1 -> 0 <= t_left (m_tok m1) < t_left (m_tok m) -> creach m1 m2 -> creach m m2.
Lemma creach_trans m1 m2 m3 : creach m1 m2 -> creach m2 m3 -> creach m1 m3.
Proof. induction 1; intros; [auto|]. eapply creach_step; eauto. Qed.
Lemma creach_run m m' : creach m m' -> running m' = false -> forall fuel, (Z.to_nat (t_left (m_tok m)) < fuel)%nat -> run strtod fuel m = Ok m'.
Proof.
  induction 1 as [m|m m1 m2 R E D H IH]; intros N fuel L.
  - destruct fuel; cbn [run]; rewrite N; auto.
  - destruct fuel; [lia|]. cbn [run]. rewrite R, E. cbn [bind]. apply IH; [auto|lia].
Qed.
Lemma transition_tok m t tok m' : transition m t tok = Ok m' -> m_tok m' = tok.
Proof.
  unfold transition, pop. intros H.
  repeat (match goal with
  | H : context [match ?x with _ => _ end] |- _ => destruct x eqn:?
  | H : context [if ?x then _ else _] |- _ => destruct x eqn:?
  | H : bind ?x _ = Ok _ |- _ => destruct x eqn:?; cbn [bind] in H
  end; try discriminate); try (injection H as <-; reflexivity).
Qed.

Lemma one_step st stk key line res a x t r m' : spaces a -> lexeme strtod x t -> (is_number t = true -> stops (r ++ tail)) ->
  running (Machine st stk key (tk line (a ++ x ++ r)) res) = true ->
  transition (Machine st stk key (tk line (a ++ x ++ r)) res) t (tk (line + breaks a) r) = Ok m' ->
  creach (Machine st stk key (tk line (a ++ x ++ r)) res) m'.
Proof.
  intros Sa Lx St R T. eapply creach_step; [exact R| | |apply creach_refl].
  - unfold step. cbn [m_tok]. rewrite (next_complete strtod tail line a x t r) by auto. cbn [bind]. exact T.
  - rewrite (transition_tok _ _ _ _ T). cbn [m_tok t_left JsonLexProofs.tk]. rewrite !app_length. pose proof (lexeme_nonempty _ _ _ Lx). destruct x; [congruence|]. cbn [length]. lia.
Qed.

(** A container with the given return state and key may be closed on this stack *)
Definition fits (ret : pstate) (fk : option text) (base : list frame) : Prop :=
  match base with
  | [] => ret = DONE /\ fk = None
  | Frame _ _ (Some (JArr _)) :: _ => ret = ACOMMA /\ fk = None
  | Frame _ _ (Some (JObj _)) :: _ => ret = OCOMMA /\ exists k, fk = Some k
  | _ => False
  end.
Lemma begins_fits m ret fk base : begins m ret fk base -> fits ret fk base.
Proof. intros []; cbn; eauto. Qed.
Lemma pop_fits m tok ret fk base v : fits ret fk base ->
  pop m tok (Frame ret fk (Some v)) base = Ok (Machine ret (put_value fk base v) (m_key m) tok (Some v)).
Proof.
  intros F. destruct base as [|[r k [[]|]] fs]; cbn in F; try contradiction.
  - destruct F as (-> & ->). auto.
  - destruct F as (-> & ->). auto.
  - destruct F as (-> & k0 & ->). auto.
Qed.

Definition stops_at (r : text) : Prop := stops (r ++ tail).
Lemma stops_spaces b r : spaces b -> stops_at r -> stops_at (b ++ r).
Proof.
  intros [|c b' W S] R; [auto|]. unfold stops_at. cbn [app]. eexists _, _. split; [reflexivity|].
  unfold stop_char, digit_char, ws in *. lia.
Qed.
Lemma stops_char c r : c = 44 \/ c = 93 \/ c = 125 -> stops_at (c :: r).
Proof. intros H. eexists _, _. split; [reflexivity|]. unfold stop_char, digit_char. lia. Qed.

Lemma running_ok st stk key tok res : stk <> [] -> (length stk < 512)%nat -> st <> ERROR -> st <> DONE ->
  running (Machine st stk key tok res) = true.
Proof.
  intros N L E D. unfold running. cbn [m_stack m_state]. destruct stk; [congruence|]. apply andb_true_iff.
  split; [apply negb_true_iff, Nat.eqb_neq; unfold max_depth; lia|]. destruct st; congruence.
Qed.

(** Only a number looks at what follows it *)
Definition numeric (v : json) : bool := match v with JI64 _ | JDouble _ => true | _ => false end.
Definition value_ok (n : nat) (w : text) (v : json) : Prop :=
  forall st stk key line a r res ret fk base, begins (Machine st stk key (tk line (a ++ w ++ r)) res) ret fk base ->
    spaces a -> (length base + 1 + n <= 512)%nat -> (length stk < 512)%nat -> (numeric v = true -> stops_at r) ->
    exists key' line' res', creach (Machine st stk key (tk line (a ++ w ++ r)) res) (Machine ret (put_value fk base v) key' (tk line' r) res') /\
      (base = [] -> res' = Some v).
Definition elements_ok (n : nat) (w : text) (l : list json) : Prop :=
  forall ret fk base key line r res, (length base + 2 + n <= 512)%nat -> stops_at r ->
    exists b key' line' res', spaces b /\
      creach (Machine AVALUE (Frame ret fk (Some (JArr [])) :: base) key (tk line (w ++ r)) res)
            (Machine ACOMMA (Frame ret fk (Some (JArr l)) :: base) key' (tk line' (b ++ r)) res').
Definition members_ok (n : nat) (w : text) (kvs : list (text * json)) : Prop :=
  forall ret fk base key line r res, (length base + 2 + n <= 512)%nat -> stops_at r ->
    exists b key' line' res', spaces b /\
      creach (Machine OKEY (Frame ret fk (Some (JObj [])) :: base) key (tk line (w ++ r)) res)
            (Machine OCOMMA (Frame ret fk (Some (JObj kvs)) :: base) key' (tk line' (b ++ r)) res').
Definition member_ok (n : nat) (w k : text) (v : json) : Prop :=
  forall ret fk base kvs key line r res, (length base + 2 + n <= 512)%nat -> stops_at r ->
    exists b key' line' res', spaces b /\
      creach (Machine OKEY (Frame ret fk (Some (JObj kvs)) :: base) key (tk line (w ++ r)) res)
            (Machine OCOMMA (Frame ret fk (Some (JObj (obj_put kvs k v))) :: base) key' (tk line' (b ++ r)) res').

Scheme jvalue_min := Minimality for jvalue Sort Prop
  with jelements_min := Minimality for jelements Sort Prop
  with jmembers_min := Minimality for jmembers Sort Prop
  with jmember_min := Minimality for jmember Sort Prop.

Lemma scalar_ok n w t v : lexeme strtod w t -> scalar t = Some v -> value_ok n w v.
Proof.
  intros L S st stk key line a r res ret fk base B Sa LB LS St.
  destruct (begins_scalar _ ret fk base t (tk (line + breaks a) r) v B S) as (res' & E & R).
  eexists _, _, res'. split; [|exact R]. eapply one_step; [exact Sa|exact L|intros N; apply St; destruct t; try discriminate; cbn in S; injection S as <-; auto| |exact E].
  inversion B; subst; apply running_ok; auto; discriminate.
Qed.

(** Open, contents, close *)
Lemma array_ok n w l b0 : spaces b0 ->
  (forall ret fk base key line r res, (length base + 1 + S n <= 512)%nat -> stops_at r ->
    exists st b key' line' res', spaces b /\ (st = AVALUE \/ st = ACOMMA) /\
      creach (Machine AVALUE (Frame ret fk (Some (JArr [])) :: base) key (tk line (w ++ r)) res)
            (Machine st (Frame ret fk (Some (JArr l)) :: base) key' (tk line' (b ++ r)) res')) ->
  value_ok (S n) (91 :: w ++ [93]) (JArr l).
Proof.
  intros _ H st stk key line a r res ret fk base B Sa LB LS St.
  pose proof (begins_fits _ _ _ _ B) as F.
  assert (O : creach (Machine st stk key (tk line (a ++ (91 :: w ++ [93]) ++ r)) res)
     (Machine AVALUE (Frame ret fk (Some (JArr [])) :: base) key (tk (line + breaks a) (w ++ 93 :: r)) None)).
  { replace (a ++ (91 :: w ++ [93]) ++ r) with (a ++ [91] ++ w ++ 93 :: r) in * by (cbn [app]; rewrite <- app_assoc; auto).
    eapply one_step; [exact Sa|apply lx_punct; cbn; auto|discriminate| |].
    - inversion B; subst; apply running_ok; auto; discriminate.
    - exact (begins_array _ _ _ _ _ B). }
  destruct (H ret fk base key (line + breaks a) (93 :: r) None) as (st' & b & key' & line' & res' & Sb & Hs & RE); [lia|apply stops_char; auto|].
  eexists key', _, (Some (JArr l)). split; [|auto].
  eapply creach_trans; [exact O|]. eapply creach_trans; [exact RE|].
  change (93 :: r) with ([93] ++ r). eapply one_step; [exact Sb|apply lx_punct; cbn; auto 10|discriminate| |].
  - apply running_ok; [discriminate|cbn [length]; lia| |]; destruct Hs as [-> | ->]; discriminate.
  - unfold transition. cbn [m_stack m_state m_key is_punct]. change (93 =? 93) with true. destruct Hs as [-> | ->]; cbn iota; rewrite pop_fits by auto; reflexivity.
Qed.
Lemma object_ok n w l b0 : spaces b0 ->
  (forall ret fk base key line r res, (length base + 1 + S n <= 512)%nat -> stops_at r ->
    exists st b key' line' res', spaces b /\ (st = OKEY \/ st = OCOMMA) /\
      creach (Machine OKEY (Frame ret fk (Some (JObj [])) :: base) key (tk line (w ++ r)) res)
            (Machine st (Frame ret fk (Some (JObj l)) :: base) key' (tk line' (b ++ r)) res')) ->
  value_ok (S n) (123 :: w ++ [125]) (JObj l).
Proof.
  intros _ H st stk key line a r res ret fk base B Sa LB LS St.
  pose proof (begins_fits _ _ _ _ B) as F.
  assert (O : creach (Machine st stk key (tk line (a ++ (123 :: w ++ [125]) ++ r)) res)
     (Machine OKEY (Frame ret fk (Some (JObj [])) :: base) key (tk (line + breaks a) (w ++ 125 :: r)) None)).
  { replace (a ++ (123 :: w ++ [125]) ++ r) with (a ++ [123] ++ w ++ 125 :: r) in * by (cbn [app]; rewrite <- app_assoc; auto).
    eapply one_step; [exact Sa|apply lx_punct; cbn; auto|discriminate| |].
    - inversion B; subst; apply running_ok; auto; discriminate.
    - exact (begins_object _ _ _ _ _ B). }
  destruct (H ret fk base key (line + breaks a) (125 :: r) None) as (st' & b & key' & line' & res' & Sb & Hs & RE); [lia|apply stops_char; auto|].
  eexists key', _, (Some (JObj l)). split; [|auto].
  eapply creach_trans; [exact O|]. eapply creach_trans; [exact RE|].
  change (125 :: r) with ([125] ++ r). eapply one_step; [exact Sb|apply lx_punct; cbn; auto 10|discriminate| |].
  - apply running_ok; [discriminate|cbn [length]; lia| |]; destruct Hs as [-> | ->]; discriminate.
  - unfold transition. cbn [m_stack m_state m_key is_punct]. change (125 =? 125) with true. change (125 =? 44) with false.
    destruct Hs as [-> | ->]; cbn iota; rewrite pop_fits by auto; reflexivity.
Qed.

(** A comma *)
Lemma comma_array ret fk base l key line b r res : spaces b -> (length base < 511)%nat ->
  exists line', creach (Machine ACOMMA (Frame ret fk (Some (JArr l)) :: base) key (tk line (b ++ 44 :: r)) res)
    (Machine AVALUE (Frame ret fk (Some (JArr l)) :: base) key (tk line' r) None).
Proof.
  intros Sb L. eexists. change (44 :: r) with ([44] ++ r). eapply one_step; [exact Sb|apply lx_punct; cbn; auto 10|discriminate| |reflexivity].
  apply running_ok; [discriminate|cbn [length]; lia|discriminate|discriminate].
Qed.
Lemma comma_object ret fk base l key line b r res : spaces b -> (length base < 511)%nat ->
  exists line', creach (Machine OCOMMA (Frame ret fk (Some (JObj l)) :: base) key (tk line (b ++ 44 :: r)) res)
    (Machine OKEY (Frame ret fk (Some (JObj l)) :: base) key (tk line' r) None).
Proof.
  intros Sb L. eexists. change (44 :: r) with ([44] ++ r). eapply one_step; [exact Sb|apply lx_punct; cbn; auto 10|discriminate| |reflexivity].
  apply running_ok; [discriminate|cbn [length]; lia|discriminate|discriminate].
Qed.

(** An element behind a bracket or a comma *)
Lemma element_ok n a w b v l ret fk base key line r res : value_ok n w v -> spaces a -> spaces b ->
  (length base + 2 + n <= 512)%nat -> stops_at r ->
  exists key' line' res', creach (Machine AVALUE (Frame ret fk (Some (JArr l)) :: base) key (tk line ((a ++ w ++ b) ++ r)) res)
     (Machine ACOMMA (Frame ret fk (Some (JArr (l ++ [v]))) :: base) key' (tk line' (b ++ r)) res').
Proof.
  intros V Sa Sb L St. rewrite <- !app_assoc.
  destruct (V AVALUE (Frame ret fk (Some (JArr l)) :: base) key line a (b ++ r) res ACOMMA None (Frame ret fk (Some (JArr l)) :: base))
    as (key' & line' & res' & R & _); [constructor|auto|cbn [length]; lia|cbn [length]; lia|intros _; apply stops_spaces; auto|].
  exists key', line', res'. exact R.
Qed.

Lemma jv_complete n w v : jv n w v -> value_ok n w v.
Proof.
  apply (jvalue_min loose_string (loose_number strtod) true value_ok elements_ok members_ok member_ok); clear n w v.
  - intros n. eapply scalar_ok; [apply lx_null|auto].
  - intros n. eapply scalar_ok; [apply lx_true|auto].
  - intros n. eapply scalar_ok; [apply lx_false|auto].
  - intros n w s S. eapply scalar_ok; [apply lx_str; eauto|auto].
  - intros n w v N. destruct N as [m ds M D|m i f e M D F E NN].
    + eapply scalar_ok; [apply lx_int; constructor; auto|auto].
    + eapply scalar_ok; [apply lx_double; constructor; auto|auto].
  - intros n b Sb. apply (array_ok n b [] []); [constructor|]. intros. exists AVALUE, b, key, line, res. split; [auto|]. split; [auto|]. apply creach_refl.
  - intros n w l _ H. apply (array_ok n w l []); [constructor|]. intros ret fk base key line r res L St.
    destruct (H ret fk base key line r res) as (b & key' & line' & res' & Sb & R); [lia|auto|]. exists ACOMMA, b, key', line', res'. auto.
  - intros n w l b _ _ H Sb. replace (91 :: w ++ 44 :: b ++ [93]) with (91 :: (w ++ 44 :: b) ++ [93]) by (rewrite <- app_assoc; auto).
    apply (array_ok n _ l []); [constructor|]. intros ret fk base key line r res L St.
    destruct (H ret fk base key line (44 :: b ++ r) res) as (b' & key' & line' & res' & Sb' & R); [lia|apply stops_char; auto|].
    destruct (comma_array ret fk base l key' line' b' (b ++ r) res') as (line2 & R2); [auto|lia|].
    exists AVALUE, b, key', line2, None. split; [auto|]. split; [auto|]. rewrite <- app_assoc. cbn [app]. eapply creach_trans; eauto.
  - intros n b Sb. apply (object_ok n b [] []); [constructor|]. intros. exists OKEY, b, key, line, res. split; [auto|]. split; [auto|]. apply creach_refl.
  - intros n w l _ H. apply (object_ok n w l []); [constructor|]. intros ret fk base key line r res L St.
    destruct (H ret fk base key line r res) as (b & key' & line' & res' & Sb & R); [lia|auto|]. exists OCOMMA, b, key', line', res'. auto.
  - intros n w l b _ _ H Sb. replace (123 :: w ++ 44 :: b ++ [125]) with (123 :: (w ++ 44 :: b) ++ [125]) by (rewrite <- app_assoc; auto).
    apply (object_ok n _ l []); [constructor|]. intros ret fk base key line r res L St.
    destruct (H ret fk base key line (44 :: b ++ r) res) as (b' & key' & line' & res' & Sb' & R); [lia|apply stops_char; auto|].
    destruct (comma_object ret fk base l key' line' b' (b ++ r) res') as (line2 & R2); [auto|lia|].
    exists OKEY, b, key', line2, None. split; [auto|]. split; [auto|]. rewrite <- app_assoc. cbn [app]. eapply creach_trans; eauto.
  - intros n a w b v Sa _ V Sb ret fk base key line r res L St.
    destruct (element_ok n a w b v [] ret fk base key line r res V Sa Sb L St) as (key' & line' & res' & R). exists b, key', line', res'. auto.
  - intros n w0 l a w b v _ H Sa _ V Sb ret fk base key line r res L St. rewrite <- app_assoc. cbn [app].
    destruct (H ret fk base key line (44 :: (a ++ w ++ b) ++ r) res) as (b' & key' & line' & res' & Sb' & R); [lia|apply stops_char; auto|].
    destruct (comma_array ret fk base l key' line' b' ((a ++ w ++ b) ++ r) res') as (line2 & R2); [auto|lia|].
    destruct (element_ok n a w b v l ret fk base key' line2 r None V Sa Sb L St) as (key3 & line3 & res3 & R3).
    exists b, key3, line3, res3. split; [auto|]. eapply creach_trans; [exact R|]. eapply creach_trans; [exact R2|exact R3].
  - intros n w k v _ M ret fk base key line r res L St. exact (M ret fk base [] key line r res L St).
  - intros n w0 kvs w k v J0 H _ M ret fk base key line r res L St. rewrite <- app_assoc. cbn [app].
    rewrite with_member_put by (eapply jms_keys; exact J0).
    destruct (H ret fk base key line (44 :: w ++ r) res) as (b' & key' & line' & res' & Sb' & R); [lia|apply stops_char; auto|].
    destruct (comma_object ret fk base kvs key' line' b' (w ++ r) res') as (line2 & R2); [auto|lia|].
    destruct (M ret fk base kvs key' line2 r None L St) as (b3 & key3 & line3 & res3 & Sb3 & R3).
    exists b3, key3, line3, res3. split; [auto|]. eapply creach_trans; [exact R|]. eapply creach_trans; [exact R2|exact R3].
  - intros n a k s b c w d v Sa S Sb Sc _ V Sd ret fk base kvs key line r res L St.
    replace ((a ++ (34 :: k ++ [34]) ++ b ++ 58 :: c ++ w ++ d) ++ r) with (a ++ (34 :: k ++ [34]) ++ b ++ [58] ++ c ++ w ++ d ++ r)
      by (rewrite <- !app_assoc; cbn [app]; rewrite <- ?app_assoc; auto).
    exists d.
    destruct (V OVALUE (Frame ret fk (Some (JObj kvs)) :: base) (Some s) (line + breaks a + breaks b) c (d ++ r) None OCOMMA (Some s) (Frame ret fk (Some (JObj kvs)) :: base))
      as (key3 & line3 & res3 & R3 & _); [constructor|auto|cbn [length]; lia|cbn [length]; lia|intros _; apply stops_spaces; auto|].
    exists key3, line3, res3. split; [auto|]. cbn [put_value] in R3. eapply creach_trans; [|exact R3].
    eapply creach_trans.
    { eapply one_step with (m' := Machine OCOLON (Frame ret fk (Some (JObj kvs)) :: base) (Some s) (tk (line + breaks a) (b ++ [58] ++ c ++ w ++ d ++ r)) None);
        [exact Sa|apply lx_str; eauto|discriminate| |reflexivity].
      apply running_ok; [discriminate|cbn [length]; lia|discriminate|discriminate]. }
    eapply one_step; [exact Sb|apply lx_punct; cbn; auto 10|discriminate| |reflexivity].
    apply running_ok; [discriminate|cbn [length]; lia|discriminate|discriminate].
Qed.

Lemma parsex_complete full a w v b fuel force : full = a ++ w ++ b -> spaces a -> jv 511 w v ->
  (numeric v = true -> stops_at b) -> (force = true -> eof_tail b) -> (length full < fuel)%nat ->
  parsex strtod fuel (full ++ tail) (Z.of_nat (length full)) force = Ok (POk v).
Proof.
  intros EF Sa V St ET L. unfold parsex.
  change (Machine VALUE [Frame DONE None None] None (Tok 0 (full ++ tail) (Z.of_nat (length full))) None) with
    (Machine VALUE [Frame DONE None None] None (tk 0 full) None).
  destruct (jv_complete 511 w v V VALUE [Frame DONE None None] None 0 a b None DONE None []) as (key' & line' & res' & R & ER);
    [constructor|auto|cbn; lia|cbn; lia|auto|]. cbn [put_value] in R. specialize (ER eq_refl). subst res'. rewrite <- EF in R.
  rewrite (creach_run _ _ R eq_refl fuel) by (cbn; lia).
  cbn [bind m_state m_result of_option]. destruct force; [|auto]. cbn [m_tok].
  destruct (next_eof strtod tail line' b (ET eq_refl)) as (t' & E'). rewrite E'. auto.
Qed.
End Complete.

Lemma stops_nil junk : stops_at (0 :: junk) [].
Proof. eexists _, _. split; [reflexivity|]. unfold stop_char, digit_char. lia. Qed.
