(** Blocks of hash tables that are lost, and pointers to entries that have moved. *)
From Coq Require Import ZArith List Bool Lia.
From Verif Require Import Base HsearchModel HtableModel.
Import ListNotations.
Open Scope Z_scope.

Section Lost.
Variable V : Type.
Notation hworld := (hworld V).

(** Each table has blocks of its own. *)
Definition sound (w : hworld) : Prop :=
  (forall i t, w_tab w i = Some t -> (t_self t < w_next w)%nat /\ (t_arr t < w_next w)%nat /\ In (t_self t) (w_structs w) /\ w_arrays w (t_arr t) <> None) /\
  (forall i j t u, i <> j -> w_tab w i = Some t -> w_tab w j = Some u -> t_self t <> t_self u /\ t_arr t <> t_arr u).
(** Two blocks that no table has *)
Definition lost (s a : nat) (w : hworld) : Prop :=
  (s < w_next w)%nat /\ (a < w_next w)%nat /\ In s (w_structs w) /\ w_arrays w a <> None /\
  (forall j u, w_tab w j = Some u -> t_self u <> s /\ t_arr u <> a).
(** An array that was released *)
Definition gone (a : nat) (w : hworld) : Prop := (a < w_next w)%nat /\ w_arrays w a = None.

Lemma put_same {A} (f : nat -> A) i x : put_at f i x i = x.
Proof. unfold put_at. rewrite Nat.eqb_refl. reflexivity. Qed.
Lemma put_other {A} (f : nat -> A) i x j : j <> i -> put_at f i x j = f j.
Proof. intros H. unfold put_at. destruct (Nat.eqb_spec j i); [contradiction|reflexivity]. Qed.

Lemma bind_inv {A B} (x : outcome A) (f : A -> outcome B) y : bind x f = Ok y -> exists a, x = Ok a /\ f a = Ok y.
Proof. destruct x as [a|]; cbn [bind]; [|discriminate]. intros H. exists a. auto. Qed.

(** What an operation does to the blocks *)
Inductive change (w : hworld) : hworld -> Prop :=
| Same : change w w
| Made i es m u : change w (HWorld (S (S (w_next w))) (put_at (w_arrays w) (S (w_next w)) (Some es)) (w_next w :: w_structs w) (put_at (w_tab w) i (Some (HTable (w_next w) (S (w_next w)) m u))))
| Dropped i t : w_tab w i = Some t ->
    change w (HWorld (w_next w) (put_at (w_arrays w) (t_arr t) None) (filter (fun s => negb (s =? t_self t)%nat) (w_structs w)) (put_at (w_tab w) i None))
| Moved i t es m u : w_tab w i = Some t ->
    change w (HWorld (S (w_next w)) (put_at (put_at (w_arrays w) (w_next w) (Some es)) (t_arr t) None) (w_structs w) (put_at (w_tab w) i (Some (HTable (t_self t) (w_next w) m u))))
| Entered i t es m u : w_tab w i = Some t -> w_arrays w (t_arr t) <> None ->
    change w (HWorld (w_next w) (put_at (w_arrays w) (t_arr t) (Some es)) (w_structs w) (put_at (w_tab w) i (Some (HTable (t_self t) (t_arr t) m u))))
| Written a es : w_arrays w a <> None -> change w (HWorld (w_next w) (put_at (w_arrays w) a (Some es)) (w_structs w) (w_tab w)).

Lemma enter_change w i item w' p : enter_in V w i item = Ok (w', p) -> change w w'.
Proof.
  unfold enter_in. intros H. apply bind_inv in H as (t & Et & H). apply bind_inv in H as (h & Eh & H). cbn zeta in H.
  apply bind_inv in H as (q & _ & H). apply bind_inv in H as (e & _ & H).
  destruct (w_tab w i) as [t0|] eqn:T; [|discriminate]. injection Et as ->.
  assert (A : w_arrays w (t_arr t) <> None).
  { unfold contents in Eh. destruct (w_arrays w (t_arr t)); [discriminate|discriminate Eh]. }
  destruct e; [injection H as <- <-; apply Same|].
  destruct (_ >? _); [|injection H as <- <-; apply (Entered w i t); auto].
  apply bind_inv in H as (h2 & _ & H). apply bind_inv in H as (p2 & _ & H). injection H as <- <-. apply (Moved w i t); auto.
Qed.
Lemma step_change w ps o w' ps' r : hstep V (w, ps) o = Ok (w', ps', r) -> change w w' /\ exists l, ps' = ps ++ l.
Proof.
  destruct o as [i nel|i|i key v|i key|q|q v]; cbn [hstep]; intros H.
  - apply bind_inv in H as ([w1 z] & E & H). injection H as <- <- <-. split; [|exists []; rewrite app_nil_r; reflexivity].
    unfold create in E. apply bind_inv in E as (h & _ & E). injection E as <- _. apply Made.
  - apply bind_inv in H as (w1 & E & H). injection H as <- <- <-. split; [|exists []; rewrite app_nil_r; reflexivity].
    unfold destroy in E. destruct (w_tab w i) as [t|] eqn:T; [|injection E as <-; apply Same].
    apply bind_inv in E as (x & _ & E). injection E as <-. apply Dropped, T.
  - apply bind_inv in H as ([w1 p] & E & H). apply bind_inv in H as (e & _ & H). injection H as <- <- <-. split; [|eauto]. apply enter_change in E. exact E.
  - apply bind_inv in H as (p & E & H). destruct p as [p|].
    + apply bind_inv in H as (e & _ & H). injection H as <- <- <-. split; [apply Same|eauto].
    + injection H as <- <- <-. split; [apply Same|eauto].
  - apply bind_inv in H as (p & _ & H). apply bind_inv in H as (p1 & _ & H). apply bind_inv in H as (e & _ & H). injection H as <- <- <-.
    split; [apply Same|exists []; rewrite app_nil_r; reflexivity].
  - apply bind_inv in H as (p & _ & H). apply bind_inv in H as (p1 & _ & H). apply bind_inv in H as (w1 & E & H). injection H as <- <- <-.
    split; [|exists []; rewrite app_nil_r; reflexivity]. unfold write_data in E. destruct (w_arrays w (fst p1)) as [es|] eqn:A; [|discriminate]. cbn [of_option bind] in E.
    apply bind_inv in E as (e1 & _ & E). apply bind_inv in E as (e2 & _ & E). injection E as <-. apply Written. rewrite A. discriminate.
Qed.

Lemma lost_change s a w w' : lost s a w -> change w w' -> lost s a w'.
Proof.
  intros (Ls & La & Is & Ia & N) C. destruct C as [|i es m u|i t T|i t es m u T|i t es m u T A|b es A]; unfold lost; cbn [w_next w_arrays w_structs w_tab].
  - auto.
  - split; [lia|]. split; [lia|]. split; [right; exact Is|]. split; [rewrite put_other by lia; exact Ia|].
    intros j x. destruct (Nat.eq_dec j i) as [->|]; [rewrite put_same; intros [= <-]; cbn [t_self t_arr]; lia|rewrite put_other by assumption; apply N].
  - destruct (N i t T) as (N1 & N2). split; [exact Ls|]. split; [exact La|]. split.
    { apply filter_In. split; [exact Is|]. destruct (Nat.eqb_spec s (t_self t)); [congruence|reflexivity]. }
    split; [rewrite put_other by congruence; exact Ia|].
    intros j x. destruct (Nat.eq_dec j i) as [->|]; [rewrite put_same; discriminate|rewrite put_other by assumption; apply N].
  - destruct (N i t T) as (N1 & N2). split; [lia|]. split; [lia|]. split; [exact Is|]. split; [rewrite put_other by congruence; rewrite put_other by lia; exact Ia|].
    intros j x. destruct (Nat.eq_dec j i) as [->|]; [rewrite put_same; intros [= <-]; cbn [t_self t_arr]; split; [exact N1|lia]|rewrite put_other by assumption; apply N].
  - destruct (N i t T) as (N1 & N2). split; [exact Ls|]. split; [exact La|]. split; [exact Is|]. split; [rewrite put_other by congruence; exact Ia|].
    intros j x. destruct (Nat.eq_dec j i) as [->|]; [rewrite put_same; intros [= <-]; cbn [t_self t_arr]; auto|rewrite put_other by assumption; apply N].
  - split; [exact Ls|]. split; [exact La|]. split; [exact Is|]. split; [|exact N].
    destruct (Nat.eq_dec a b) as [->|]; [rewrite put_same; discriminate|rewrite put_other by assumption; exact Ia].
Qed.
Lemma gone_change a w w' : sound w -> gone a w -> change w w' -> gone a w'.
Proof.
  intros (S1 & _) (La & Ia) C. destruct C as [|i es m u|i t T|i t es m u T|i t es m u T A|b es A]; unfold gone; cbn [w_next w_arrays].
  - auto.
  - split; [lia|]. rewrite put_other by lia. exact Ia.
  - split; [exact La|]. destruct (Nat.eq_dec a (t_arr t)) as [->|]; [apply put_same|rewrite put_other by assumption; exact Ia].
  - split; [lia|]. destruct (Nat.eq_dec a (t_arr t)) as [->|]; [apply put_same|rewrite put_other by assumption; rewrite put_other by lia; exact Ia].
  - split; [exact La|]. rewrite put_other by congruence. exact Ia.
  - split; [exact La|]. rewrite put_other by congruence. exact Ia.
Qed.
Lemma sound_change w w' : sound w -> change w w' -> sound w'.
Proof.
  intros Sw C. pose proof Sw as (S1 & S2). destruct C as [|i es m u|i t T|i t es m u T|i t es m u T A|b es A]; [exact Sw| | | | |]; (split; cbn [w_next w_arrays w_structs w_tab]).
  - intros j x. destruct (Nat.eq_dec j i) as [->|]; [rewrite put_same; intros [= <-]; cbn [t_self t_arr]; rewrite put_same; split; [lia|]; split; [lia|]; split; [left; reflexivity|discriminate]|].
    rewrite put_other by assumption. intros T. destruct (S1 j x T) as (A1 & A2 & A3 & A4). split; [lia|]. split; [lia|]. split; [right; exact A3|]. rewrite put_other by lia. exact A4.
  - intros j k x y N. destruct (Nat.eq_dec j i) as [->|Nj], (Nat.eq_dec k i) as [->|Nk]; rewrite ?put_same, ?(put_other _ _ _ _ Nj), ?(put_other _ _ _ _ Nk); [contradiction| | |eauto].
    + intros [= <-] T. destruct (S1 k y T) as (A1 & A2 & _). cbn [t_self t_arr]. lia.
    + intros T [= <-]. destruct (S1 j x T) as (A1 & A2 & _). cbn [t_self t_arr]. lia.
  - intros j x. destruct (Nat.eq_dec j i) as [->|Nj]; [rewrite put_same; discriminate|]. rewrite put_other by assumption. intros Tx. destruct (S1 j x Tx) as (A1 & A2 & A3 & A4).
    destruct (S2 j i x t Nj Tx T) as (D1 & D2). split; [exact A1|]. split; [exact A2|]. split; [|rewrite put_other by exact D2; exact A4].
    apply filter_In. split; [exact A3|]. destruct (Nat.eqb_spec (t_self x) (t_self t)); [contradiction|reflexivity].
  - intros j k x y N. destruct (Nat.eq_dec j i) as [->|Nj]; [rewrite put_same; discriminate|]. destruct (Nat.eq_dec k i) as [->|Nk]; [rewrite put_same; discriminate|].
    rewrite !put_other by assumption. eauto.
  - intros j x. destruct (S1 i t T) as (B1 & B2 & B3 & B4). destruct (Nat.eq_dec j i) as [->|Nj].
    + rewrite put_same. intros [= <-]. cbn [t_self t_arr]. split; [lia|]. split; [lia|]. split; [exact B3|]. rewrite put_other by lia. rewrite put_same. discriminate.
    + rewrite put_other by assumption. intros Tx. destruct (S1 j x Tx) as (A1 & A2 & A3 & A4). destruct (S2 j i x t Nj Tx T) as (D1 & D2).
      split; [lia|]. split; [lia|]. split; [exact A3|]. rewrite put_other by exact D2. rewrite put_other by lia. exact A4.
  - destruct (S1 i t T) as (B1 & B2 & B3 & B4). intros j k x y N. destruct (Nat.eq_dec j i) as [->|Nj], (Nat.eq_dec k i) as [->|Nk]; rewrite ?put_same, ?(put_other _ _ _ _ Nj), ?(put_other _ _ _ _ Nk); [contradiction| | |eauto].
    + intros [= <-] Ty. destruct (S1 k y Ty) as (A1 & A2 & _). destruct (S2 i k t y N T Ty) as (D1 & D2). cbn [t_self t_arr]. split; [exact D1|lia].
    + intros Tx [= <-]. destruct (S1 j x Tx) as (A1 & A2 & _). destruct (S2 j i x t N Tx T) as (D1 & D2). cbn [t_self t_arr]. split; [exact D1|lia].
  - intros j x. destruct (S1 i t T) as (B1 & B2 & B3 & B4). destruct (Nat.eq_dec j i) as [->|Nj].
    + rewrite put_same. intros [= <-]. cbn [t_self t_arr]. split; [exact B1|]. split; [exact B2|]. split; [exact B3|]. rewrite put_same. discriminate.
    + rewrite put_other by assumption. intros Tx. destruct (S1 j x Tx) as (A1 & A2 & A3 & A4). destruct (S2 j i x t Nj Tx T) as (D1 & D2).
      split; [exact A1|]. split; [exact A2|]. split; [exact A3|]. rewrite put_other by exact D2. exact A4.
  - intros j k x y N. destruct (Nat.eq_dec j i) as [->|Nj], (Nat.eq_dec k i) as [->|Nk]; rewrite ?put_same, ?(put_other _ _ _ _ Nj), ?(put_other _ _ _ _ Nk); [contradiction| | |eauto].
    + intros [= <-] Ty. exact (S2 i k t y N T Ty).
    + intros Tx [= <-]. exact (S2 j i x t N Tx T).
  - intros j x Tx. destruct (S1 j x Tx) as (A1 & A2 & A3 & A4). split; [exact A1|]. split; [exact A2|]. split; [exact A3|].
    destruct (Nat.eq_dec (t_arr x) b) as [->|]; [rewrite put_same; discriminate|rewrite put_other by assumption; exact A4].
  - exact S2.
Qed.

Lemma play_keeps (P : hworld -> Prop) : (forall w w', P w -> change w w' -> P w') ->
  forall ops w ps w' ps' rs, P w -> hplay V (w, ps) ops = Ok (w', ps', rs) -> P w' /\ exists l, ps' = ps ++ l.
Proof.
  intros K. induction ops as [|o ops IH]; intros w ps w' ps' rs H; cbn [hplay].
  - intros [= <- <- <-]. split; [exact H|]. exists []. rewrite app_nil_r. reflexivity.
  - intros E. apply bind_inv in E as ([[w1 ps1] r] & E1 & E). apply bind_inv in E as ([[w2 ps2] rs2] & E2 & E). injection E as <- <- <-.
    destruct (step_change _ _ _ _ _ _ E1) as (C & l1 & ->). destruct (IH _ _ _ _ _ (K _ _ H C) E2) as (H2 & l2 & ->). split; [exact H2|]. exists (l1 ++ l2). rewrite app_assoc. reflexivity.
Qed.
Lemma sound_no_tables : sound (no_tables V).
Proof. split; discriminate. Qed.
Lemma play_sound ops w ps rs : hplay V (no_tables V, []) ops = Ok (w, ps, rs) -> sound w.
Proof. intros E. exact (proj1 (play_keeps sound sound_change ops _ _ _ _ _ sound_no_tables E)). Qed.

(** A table is created where there is one: its blocks stay for good. *)
Lemma create_again ops i nel more w ps rs t w' ps' rs' :
  hplay V (no_tables V, []) ops = Ok (w, ps, rs) -> w_tab w i = Some t ->
  hplay V (w, ps) (OCreate i nel :: more) = Ok (w', ps', rs') -> In (t_self t) (w_structs w') /\ w_arrays w' (t_arr t) <> None.
Proof.
  intros E T E2. apply play_sound in E as (S1 & S2). destruct (S1 i t T) as (A1 & A2 & A3 & A4). cbn [hplay] in E2.
  apply bind_inv in E2 as ([[w1 ps1] r1] & Ec & E2). apply bind_inv in E2 as ([[w2 ps2] rs2] & Em & E2). injection E2 as <- <- <-.
  cbn [hstep] in Ec. apply bind_inv in Ec as ([w3 z] & Ec & Q). injection Q as <- <- <-.
  unfold create in Ec. apply bind_inv in Ec as (h & _ & Ec). injection Ec as <- <-.
  match type of Em with hplay V (?x, _) _ = _ => assert (L : lost (t_self t) (t_arr t) x) end.
  { unfold lost. cbn [w_next w_arrays w_structs w_tab]. split; [lia|]. split; [lia|]. split; [right; exact A3|]. split; [rewrite put_other by lia; exact A4|].
    intros j x. destruct (Nat.eq_dec j i) as [->|Nj]; [rewrite put_same; intros [= <-]; cbn [t_self t_arr]; lia|]. rewrite put_other by assumption. intros Tx. exact (S2 j i x t Nj Tx T). }
  destruct (play_keeps _ (lost_change (t_self t) (t_arr t)) _ _ _ _ _ _ L Em) as ((_ & _ & L3 & L4 & _) & _). auto.
Qed.

(** A key is entered in a table that is full to three quarters: pointers to its entries cannot be used again. *)
Lemma moved ops i key v more w ps rs t r p w' ps' rs' :
  hplay V (no_tables V, []) ops = Ok (w, ps, rs) -> w_tab w i = Some t -> wrap 64 (t_used t + 1) > t_mask t - t_mask t / 4 ->
  find_in V w i key = Ok None -> nth_error ps r = Some (Some (t_arr t, p)) ->
  hplay V (w, ps) (OEnter i key v :: more) = Ok (w', ps', rs') ->
  hplay V (w', ps') [OGet r] = Bad UseAfterFree /\ forall x, hplay V (w', ps') [OPut r x] = Bad UseAfterFree.
Proof.
  intros E T U F R E2. apply play_sound in E as Sw. pose proof Sw as (S1 & S2). destruct (S1 i t T) as (A1 & A2 & A3 & A4). cbn [hplay] in E2.
  apply bind_inv in E2 as ([[w1 ps1] r1] & Ec & E2). apply bind_inv in E2 as ([[w2 ps2] rs2] & Em & E2). injection E2 as <- <- <-.
  pose proof (step_change _ _ _ _ _ _ Ec) as (C & l1 & ->). pose proof (sound_change _ _ Sw C) as Sw1.
  assert (G : gone (t_arr t) w1).
  { cbn [hstep] in Ec. apply bind_inv in Ec as ([w3 q] & Ec & Q). apply bind_inv in Q as (e & _ & Q). injection Q as <- _ _.
    unfold enter_in in Ec. unfold find_in in F. rewrite T in Ec, F. cbn [of_option bind] in Ec, F. cbn [fst] in Ec.
    apply bind_inv in Ec as (h & Eh & Ec). rewrite Eh in F. cbn [bind] in F. cbn zeta in Ec. apply bind_inv in Ec as (q' & El & Ec). rewrite El in F. cbn [bind] in F.
    apply bind_inv in Ec as (e' & En & Ec). rewrite En in F. cbn [bind] in F. destruct e'; [discriminate|].
    assert (Qm : h_mask h = t_mask t /\ h_used h = t_used t).
    { unfold contents in Eh. apply bind_inv in Eh as (es & _ & Eh). injection Eh as <-. auto. }
    destruct Qm as (Q1 & Q2). rewrite Q1, Q2 in Ec. destruct (Z.gtb_spec (wrap 64 (t_used t + 1)) (t_mask t - t_mask t / 4)); [|lia].
    apply bind_inv in Ec as (h2 & _ & Ec). apply bind_inv in Ec as (p2 & _ & Ec). injection Ec as <- _. split; cbn [w_next w_arrays]; [lia|apply put_same]. }
  assert (K : forall x y, sound x /\ gone (t_arr t) x -> change x y -> sound y /\ gone (t_arr t) y) by (intros x y (H1 & H2) Cx; split; [exact (sound_change _ _ H1 Cx)|exact (gone_change _ _ _ H1 H2 Cx)]).
  destruct (play_keeps (fun x => sound x /\ gone (t_arr t) x) K _ _ _ _ _ _ (conj Sw1 G) Em) as ((_ & _ & D) & l2 & ->).
  assert (R' : nth_error ((ps ++ l1) ++ l2) r = Some (Some (t_arr t, p))).
  { rewrite <- app_assoc, nth_error_app1; [exact R|]. apply nth_error_Some. rewrite R. discriminate. }
  split; [|intros x]; cbn [hplay hstep]; rewrite R'; cbn [of_option bind]; [unfold read_entry|unfold write_data]; cbn [fst]; rewrite D; reflexivity.
Qed.
End Lost.
