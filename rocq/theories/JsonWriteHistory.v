(** Programs that edit and print JSON values: the texts are those that
    JsonWriteSpec asks for, and printing changes nothing. *)
From Coq Require Import ZArith List Bool Lia Permutation.
From Verif Require Import Base BoxedModel Json JsonSpec HeapModel HeapChainProofs HeapHistory JsonMemModel JsonMemSpec JsonMemView JsonMemDel JsonMemOps JsonMemAdd JsonMemRun
  JsonPrintModel JsonPrintSpec JsonPrintProofs JsonPrintMemModel JsonPrintMemView JsonPrintMemProofs JsonEditModel JsonEditSpec JsonEditView JsonEditHistory JsonWriteModel JsonWriteSpec.
From Verif Require PropJsonPrint.
Import ListNotations.
Open Scope nat_scope.
Open Scope outcome_scope.
Local Arguments Z.add : simpl never.
Local Arguments core : simpl never.

Lemma part_changed p x y : part p x y -> changed (fun a b => a = y /\ b = a) p x x.
Proof. induction 1; constructor; auto. Qed.
Lemma levels_height f : levels f = PropJsonPrint.max_height f.
Proof. destruct f; reflexivity. Qed.

Section Program.
Variable strtod : text -> Z.
Variable fmt_g : prim -> Z -> text.
Variables (st : addr) (ss : statics) (place : heap -> addr -> nat) (deep : nat).
Variable mk_str : text -> outcome text.
Hypothesis MK : forall s, mk_str s = Ok s.
Hypothesis DP : 2 <= deep.
Hypothesis SD : NoDup [s_true ss; s_false ss; s_null ss].
Variables (h0 : heap) (c0 : contents).
Hypothesis W0 : W st h0.
Hypothesis S0 : static_ok h0 ss.
Variable init : nat -> Z.
Notation ehold := (ehold st ss h0 c0).

(** The same objects *)
Lemma ehold_same h c vs js Ls lost h' : ehold h c vs js Ls lost -> W st h' -> h_next h <= h_next h' -> (forall x, look h' x = look h x) -> ehold h' c vs js Ls lost.
Proof.
  intros [I HL HS EV EJ] W' N X. constructor; auto.
  - destruct I as [A B C D E F]. constructor; auto; [lia| |]; intros x; rewrite X; auto.
  - eapply Forall_impl; [|exact HL]. intros L H. eapply laid_same; eauto.
  - eapply Forall_impl; [|exact HS]. intros x O. eapply obj_ext; [discriminate|apply X|exact O].
Qed.
(** Printing and deleting the text *)
Lemma print_ok fuel h c vs js Ls lost ts i p f x y : ehold h c vs js Ls lost -> nth_error js i = Some x -> part p x y -> everywhere (ordinary fmt_g) y -> height y <= levels f -> cost y <= fuel ->
  exists h', wstep strtod fmt_g st ss place deep mk_str fuel init (h, c, vs, ts) (WPrint i p f) = Ok (h', c, vs, ts ++ [text_of fmt_g (readable f) 0 y ++ [0%Z]]) /\ ehold h' c vs js Ls lost.
Proof.
  intros HD E PA OR HB FU. pose proof HD as [I HL HS EV EJ]. assert (Wh := i_W _ _ _ _ _ _ I). assert (SO := inv_static st ss h0 c0 W0 S0 _ _ _ I).
  destruct (nth_js _ _ _ _ EJ E) as (L & NL & JL). assert (HLL : laid h c ss 0 L) by (apply (proj1 (Forall_forall _ _) HL); eapply nth_error_In; eauto).
  destruct (changed_focus _ h c ss p x x (part_changed _ _ _ PA) 0%Z L HLL JL) as (F & G & R & y' & FO & (JF & _) & _). destruct (focus_laid _ _ _ _ _ _ _ _ FO 0%Z HLL) as (n' & HF & _).
  cbn [wstep]. rewrite (nth_vs _ _ _ _ _ EV NL). cbn [of_option bind]. rewrite (walk_laid ss _ _ _ _ _ _ _ FO _ HLL). cbn [bind].
  assert (H8 : height (json_of F) <= 498) by (rewrite JF; destruct f; cbn [levels] in HB; lia).
  assert (A := asprint_mem fmt_g st ss deep h c fuel f init n' F Wh SO SD DP HF H8). rewrite JF in A.
  rewrite (asprint_ok fmt_g f y fuel init OR) in A; [|apply PropJsonPrint.fits_height; rewrite <- levels_height; auto|auto].
  destruct A as (h1 & b & -> & W1 & NB & N1 & OB & X1). cbn [bind]. unfold cee_del. cbn [del_e].
  destruct (kept_leaf st deep h1 b W1 (kept_obj _ _ _ _ _ OB ltac:(discriminate))) as (h2 & -> & W2 & N2 & G1 & G2); [lia|]. cbn [bind]. exists h2. split; [auto|].
  eapply ehold_same; [exact HD|auto|lia|]. intros z. destruct (Nat.eq_dec z b) as [->|NE].
  - rewrite G1 by (left; auto). symmetry. destruct (look h b) eqn:Q; auto. assert (b < h_next h); [|lia]. apply (W_below st); auto. congruence.
  - rewrite G2 by (intros [X|[]]; congruence). apply X1. auto.
Qed.
Lemma wplay_ok ops js js' n ts : writes_of strtod fmt_g deep ops js js' n ts -> exists F, forall fuel, F <= fuel -> forall h c vs Ls lost ts0, ehold h c vs js Ls lost ->
  exists h' c' vs' Ls' ls, wplay strtod fmt_g st ss place deep mk_str fuel init ops (h, c, vs, ts0) = Ok (h', c', vs', ts0 ++ ts) /\ ehold h' c' vs' js' Ls' (lost ++ ls) /\ length ls = n.
Proof.
  induction 1 as [js|o ops js js1 js' n m ts E _ (F & IH)|i p f ops x y js js' m ts E PA OR HB _ (F & IH)].
  - exists 0. intros fuel _ h c vs Ls lost ts0 HD. exists h, c, vs, Ls, []. rewrite !app_nil_r. auto.
  - exists F. intros fuel LE h c vs Ls lost ts0 HD.
    destruct (estep_ok strtod st ss place deep mk_str MK DP h0 c0 W0 S0 o js js1 n E h c vs Ls lost HD) as (h1 & c1 & vs1 & Ls1 & ls1 & E1 & HD1 & N1).
    destruct (IH fuel LE h1 c1 vs1 Ls1 (lost ++ ls1) ts0 HD1) as (h2 & c2 & vs2 & Ls2 & ls2 & E2 & HD2 & N2).
    exists h2, c2, vs2, Ls2, (ls1 ++ ls2). rewrite app_assoc, app_length. split; [|split; [auto|lia]]. cbn [wplay wstep]. rewrite E1. cbn [bind]. exact E2.
  - exists (Nat.max F (cost y)). intros fuel LE h c vs Ls lost ts0 HD.
    destruct (print_ok fuel h c vs js Ls lost ts0 i p f x y HD E PA OR HB) as (h1 & E1 & HD1); [lia|].
    destruct (IH fuel ltac:(lia) h1 c vs Ls lost (ts0 ++ [text_of fmt_g (readable f) 0 y ++ [0%Z]]) HD1) as (h2 & c2 & vs2 & Ls2 & ls2 & E2 & HD2 & N2).
    exists h2, c2, vs2, Ls2, ls2. split; [|auto]. cbn [wplay]. rewrite E1. cbn [bind]. rewrite E2, <- app_assoc. auto.
Qed.
End Program.
