(** Proofs about str.c: creation, growth, trimming, replacing. *)
From Coq Require Import ZArith List Bool Lia.
From Verif Require Import Base ArrayLemmas StrModel.
Import ListNotations.
Open Scope Z_scope.
Local Arguments Z.add : simpl never.
Local Arguments Z.sub : simpl never.
Local Arguments Z.mul : simpl never.
Local Arguments Z.of_nat : simpl never.
Local Arguments Z.to_nat : simpl never.
Local Arguments Z.pow : simpl never.

(** * Specification vocabulary *)
Definition nonzero (s : list Z) : Prop := Forall (fun c => c <> 0) s.

(** The block starts with the NUL-terminated text [s]. *)
Definition content (a : list (option Z)) (s : list Z) : Prop :=
  nonzero s /\ exists rest, a = map Some s ++ Some 0 :: rest.

(** * Basic operations *)
Lemma strlen_content a s : content a s -> c_strlen a = Ok (Z.of_nat (length s)).
Proof.
  intros (NZ & rest & ->). induction NZ as [|c s H NZ IH]; cbn [map app c_strlen length].
  - reflexivity.
  - replace (c =? 0) with false by (symmetry; apply Z.eqb_neq; auto). rewrite IH. cbn [bind]. f_equal. lia.
Qed.

Lemma put_spec : forall l p m q i, length m = length l -> i = Z.of_nat (length p) ->
  put (p ++ m ++ q) i l = Ok (p ++ map Some l ++ q).
Proof.
  induction l as [|c l IH]; intros p m q i L ->; destruct m as [|y m]; cbn [length] in L; try lia; cbn [put map app].
  - auto.
  - rewrite aset_mid by auto. cbn [bind].
    replace (p ++ Some c :: m ++ q) with ((p ++ [Some c]) ++ m ++ q) by (rewrite <- app_assoc; auto).
    rewrite IH; [rewrite <- app_assoc; auto|lia|rewrite app_length; cbn [length]; lia].
Qed.

Lemma put_length : forall l a i a', put a i l = Ok a' -> length a' = length a.
Proof.
  induction l as [|c l IH]; intros a i a' H; cbn [put] in H; [congruence|].
  apply bind_ok in H as (a1 & E & H). apply IH in H. unfold aset in E. destruct (_ && _); [|discriminate].
  injection E as <-. rewrite update_length in H. auto.
Qed.

Lemma split_at {B} (l : list B) n : (n <= length l)%nat -> exists p q, l = p ++ q /\ length p = n.
Proof.
  intros H. exists (firstn n l), (skipn n l). split; [symmetry; apply firstn_skipn|]. apply firstn_length_le; auto.
Qed.

(** Putting a text with its NUL. *)
Lemma put_text t p q n : (length t < length q)%nat ->
  n = Z.of_nat (length p) ->
  exists q', put (p ++ q) n (t ++ [0]) = Ok (p ++ map Some t ++ Some 0 :: q') /\
    (length p + length t + 1 + length q')%nat = (length p + length q)%nat.
Proof.
  intros L ->. destruct (split_at q (length t + 1)) as (m & q' & -> & Lm); [lia|].
  exists q'. rewrite put_spec; [|rewrite app_length; cbn [length]; lia|auto].
  rewrite map_app, <- app_assoc. split; auto. rewrite app_length. lia.
Qed.

Lemma no_directive_args f args : has_directive f = false -> fmt_text f [] = fmt_text f args.
Proof.
  induction f as [|[bs|] f IH]; cbn [has_directive existsb fmt_text]; intros H; auto; [|discriminate].
  rewrite IH; auto.
Qed.

Lemma vformat_some f args t : fmt_text f args = Some t -> exists ap, vformat f (Some args) = Ok (t, ap).
Proof.
  intros H. unfold vformat. destruct (has_directive f) eqn:D.
  - rewrite H. eauto.
  - rewrite (no_directive_args f args D), H. eauto.
Qed.

(** * The block invariant *)
Definition str_ok (b : cstr) (s : list Z) : Prop :=
  content (c_data b) s /\ 72 <= c_mem b /\ c_cap b = c_mem b - 72 /\
  Z.of_nat (length (c_data b)) = c_mem b - 64 /\
  Z.of_nat (length s) <= c_cap b.

Lemma block_for_spec n : 0 <= n < 2 ^ 63 ->
  let b := block_for n in
  c_cap b = c_mem b - 72 /\ n + 72 < c_mem b <= n + 136 /\ c_meth b = MalLoc /\
  c_data b = repeat None (Z.to_nat (c_mem b - 64)).
Proof.
  intros H. unfold block_for, HDR, DATA_OFF, CEE_BLOCK. cbn [c_cap c_mem c_meth c_data].
  assert (W1 : wrap 64 (n + 72) = n + 72) by (unfold wrap; rewrite Z.mod_small; lia).
  rewrite W1. pose proof (Z.div_mod (n + 72) 64 ltac:(lia)). pose proof (Z.mod_pos_bound (n + 72) 64 ltac:(lia)).
  assert (W2 : wrap 64 (((n + 72) / 64 + 1) * 64) = ((n + 72) / 64 + 1) * 64) by (unfold wrap; rewrite Z.mod_small; lia).
  rewrite W2. split; auto. split; [lia|auto].
Qed.

Lemma snput_text t p q n k : (length t < length q)%nat -> n = Z.of_nat (length p) ->
  Z.of_nat (length t) < k ->
  exists q', snput (p ++ q) n k t = Ok (p ++ map Some t ++ Some 0 :: q') /\
    (length p + length t + 1 + length q')%nat = (length p + length q)%nat.
Proof.
  intros L E K. unfold snput. replace (k =? 0) with false by (symmetry; apply Z.eqb_neq; lia).
  rewrite firstn_all2 by lia. apply put_text; auto.
Qed.

Lemma mk_e_fmt n f args t : fmt_text f args = Some t -> nonzero t -> Z.of_nat (length t) < 2 ^ 31 ->
  exists b, str_mk_e n (Some f) args = Ok b /\ str_ok b t /\ c_meth b = MalLoc /\ c_mem b <= Z.of_nat (length t) + 137.
Proof.
  intros T NZ L. unfold str_mk_e. destruct (vformat_some f args t T) as (ap & ->). cbn [bind].
  destruct (block_for_spec (Z.of_nat (length t) + 1) ltac:(lia)) as (B1 & B2 & B3 & B4).
  rewrite B4. destruct (snput_text t [] (repeat None (Z.to_nat (c_mem (block_for (Z.of_nat (length t) + 1)) - 64)))
     0 (c_cap (block_for (Z.of_nat (length t) + 1)))) as (q' & E & Lq).
  { rewrite repeat_length. lia. } { reflexivity. } { lia. }
  cbn [app length] in *. rewrite E. cbn [bind].
  eexists. split; [reflexivity|]. unfold set_data. cbn [c_cap c_mem c_meth c_data]. rewrite repeat_length in Lq.
  split; [|split; [auto|lia]]. unfold str_ok. cbn [c_cap c_mem c_meth c_data].
  split. { split; auto. eauto. } split; [lia|]. split; [lia|]. split; [|lia].
  rewrite app_length, map_length. cbn [length]. lia.
Qed.

Lemma mk_e_null n args : 0 <= n < 2 ^ 62 ->
  exists b, str_mk_e n None args = Ok b /\ str_ok b [] /\ c_meth b = MalLoc /\ c_mem b <= n + 136 /\
    n <= Z.of_nat (length (c_data b)).
Proof.
  intros L. unfold str_mk_e.
  destruct (block_for_spec n ltac:(lia)) as (B1 & B2 & B3 & B4).
  assert (X : exists k, Z.to_nat (c_mem (block_for n) - 64) = S k).
  { destruct (Z.to_nat (c_mem (block_for n) - 64)) eqn:E; [lia|eauto]. }
  destruct X as (k & K). rewrite B4, K. cbn [repeat].
  change (None :: repeat None k) with ([] ++ None :: repeat (@None Z) k).
  rewrite aset_mid by reflexivity. cbn [bind app].
  eexists. split; [reflexivity|]. unfold set_data. cbn [c_cap c_mem c_meth c_data length].
  split. { unfold str_ok. cbn [c_cap c_mem c_meth c_data length].
    split. { split; [constructor|]. exists (repeat None k). reflexivity. }
    split; [lia|]. split; [auto|]. split; [rewrite repeat_length; lia|lia]. }
  split; auto. split; [lia|]. rewrite repeat_length. lia.
Qed.

(** Growing. *)
Lemma newsize_spec a b : 0 <= a < 2 ^ 62 -> 0 <= b < 2 ^ 62 -> newsize a b = 2 * Z.max a b.
Proof.
  intros. unfold newsize, wrap. destruct (a >? b) eqn:C; rewrite Z.gtb_ltb in C;
    [apply Z.ltb_lt in C | apply Z.ltb_ge in C]; rewrite Z.mod_small; lia.
Qed.

Lemma resize_ok b s n : str_ok b s -> c_meth b <> Identity -> c_mem b <= n ->
  exists b1, str_resize b n = Ok b1 /\ str_ok b1 s /\ c_mem b1 = n /\ c_meth b1 = c_meth b.
Proof.
  intros ((NZ & rest & E) & M & C & L & S) NI Hn. unfold str_resize.
  assert (X : exists m, (m = RealLoc \/ m = MalLoc) /\ c_meth b = m) by (destruct (c_meth b); eauto; congruence).
  destruct X as (m & Hm & ->).
  replace (n <? c_mem b) with false by (symmetry; apply Z.ltb_ge; lia).
  assert (EQ : match m with Identity => Ok (CStr (c_mem b - HDR) (c_mem b) Identity (c_data b))
      | _ => Ok (CStr (n - HDR) n m (agrow (c_data b) (n - DATA_OFF))) end = Ok (CStr (n - HDR) n m (agrow (c_data b) (n - DATA_OFF))))
    by (destruct Hm as [->| ->]; auto).
  exists (CStr (n - HDR) n m (agrow (c_data b) (n - DATA_OFF))). split.
  { destruct Hm as [->| ->]; auto. }
  split; [|auto]. unfold str_ok, HDR, DATA_OFF. cbn [c_cap c_mem c_meth c_data].
  rewrite agrow_ge by lia.
  split. { split; auto. exists (rest ++ repeat None (Z.to_nat (n - 64) - length (c_data b))). rewrite E at 1. rewrite <- app_assoc. auto. }
  split; [lia|]. split; [auto|]. split; [|lia]. rewrite app_length, repeat_length. lia.
Qed.

(** The text [t] written at the end of [s]. *)
Lemma write_end b s t : str_ok b s -> nonzero t ->
  Z.of_nat (length s) + Z.of_nat (length t) <= c_cap b ->
  exists d, snput (c_data b) (Z.of_nat (length s)) (Z.of_nat (length t) + 1) t = Ok d /\ str_ok (set_data b d) (s ++ t).
Proof.
  intros ((NZ & rest & E) & M & C & L & S) NT H. rewrite E.
  destruct (snput_text t (map Some s) (Some 0 :: rest) (Z.of_nat (length s)) (Z.of_nat (length t) + 1)) as (q & -> & Lq).
  - rewrite E in L. rewrite app_length, map_length in L. lia.
  - rewrite map_length; auto.
  - lia.
  - eexists. split; [reflexivity|]. unfold str_ok, set_data. cbn [c_cap c_mem c_meth c_data].
    split. { split; [apply Forall_app; auto|]. exists q. rewrite map_app, <- app_assoc. auto. }
    split; auto. split; auto. rewrite E in L. rewrite !app_length, !map_length in *. cbn [length] in *. lia.
Qed.

Lemma write_front b s t : str_ok b s -> nonzero t ->
  Z.of_nat (length t) <= c_cap b ->
  exists d, snput (c_data b) 0 (Z.of_nat (length t) + 1) t = Ok d /\ str_ok (set_data b d) t.
Proof.
  intros (_ & M & C & L & S) NT H.
  destruct (snput_text t [] (c_data b) 0 (Z.of_nat (length t) + 1)) as (q & E & Lq); try lia; auto.
  cbn [app length] in *. rewrite E.
  eexists. split; [reflexivity|]. unfold str_ok, set_data. cbn [c_cap c_mem c_meth c_data].
  split. { split; eauto. }
  split; auto. split; auto. rewrite app_length, map_length. cbn [length]. lia.
Qed.

(** * Histories of growing operations *)
Inductive str_op : Type :=
| SAdd (c : Z) | SCatf (f : option fmt) (args : list (list Z)) | SReplace (f : option fmt) (args : list (list Z)).

Definition str_step (b : cstr) (o : str_op) : outcome cstr :=
  match o with
  | SAdd c => str_add b c
  | SCatf f args => str_catf b f args
  | SReplace f args => str_replace b f args
  end.
Fixpoint str_run (b : cstr) (ops : list str_op) : outcome cstr :=
  match ops with [] => Ok b | o :: ops' => bind (str_step b o) (fun b' => str_run b' ops') end.

(** Expected texts. *)
Definition text_step (s : list Z) (o : str_op) : list Z :=
  match o with
  | SAdd c => if c =? 0 then s else s ++ [c]
  | SCatf (Some f) args => match fmt_text f args with Some t => s ++ t | None => s end
  | SReplace (Some f) args => match fmt_text f args with Some t => t | None => s end
  | SCatf None _ | SReplace None _ => s
  end.
Definition text_run (s : list Z) (ops : list str_op) : list Z := fold_left text_step ops s.

(** Formats get the arguments they ask for and print NUL-free text. *)
Definition op_ok (o : str_op) : Prop :=
  match o with
  | SAdd _ => True
  | SCatf (Some f) args | SReplace (Some f) args => exists t, fmt_text f args = Some t /\ nonzero t
  | SCatf None _ | SReplace None _ => True
  end.
Definition op_size (o : str_op) : Z :=
  match o with
  | SAdd _ => 1
  | SCatf (Some f) args | SReplace (Some f) args =>
    match fmt_text f args with Some t => Z.of_nat (length t) | None => 0 end
  | SCatf None _ | SReplace None _ => 0
  end.
Fixpoint ops_size (ops : list str_op) : Z :=
  match ops with [] => 0 | o :: ops' => op_size o + ops_size ops' end.
Definition is_add (o : str_op) : bool := match o with SAdd _ => true | _ => false end.

Lemma op_size_nonneg o : 0 <= op_size o.
Proof. destruct o as [c|[f|] a|[f|] a]; cbn [op_size]; try lia; destruct (fmt_text f a); lia. Qed.
Lemma ops_size_nonneg ops : 0 <= ops_size ops.
Proof. induction ops; cbn [ops_size]; [lia|]. pose proof (op_size_nonneg a). lia. Qed.

Lemma add_ok b s c : str_ok b s -> c_mem b < 2 ^ 61 -> c_meth b = MalLoc -> Z.of_nat (length s) < 2 ^ 32 ->
  exists b', str_add b c = Ok b' /\ str_ok b' (text_step s (SAdd c)) /\ c_meth b' = MalLoc /\
    c_mem b' <= Z.max (c_mem b) (2 * (Z.of_nat (length s) + 72)).
Proof.
  intros OK HM ME HL. pose proof OK as ((NZ & rest & E) & M & C & L & S).
  unfold str_add. rewrite (strlen_content _ s (proj1 OK)). cbn [bind].
  replace (wrap 32 (Z.of_nat (length s))) with (Z.of_nat (length s)) by (unfold wrap; rewrite Z.mod_small; lia).
  assert (Wr : forall b1, str_ok b1 s -> Z.of_nat (length s) < c_cap b1 ->
     exists d, (let* d := aset (c_data b1) (Z.of_nat (length s)) (Some c) in
       let* d0 := aset d (Z.of_nat (length s) + 1) (Some 0) in Ok (set_data b1 d0))%outcome = Ok (set_data b1 d)
       /\ str_ok (set_data b1 d) (text_step s (SAdd c))).
  { clear b OK HM ME NZ rest E M C L S. intros b1 ((NZ & rest & E) & M & C & L & S) LT. rewrite E.
    rewrite aset_mid by (rewrite map_length; auto). cbn [bind].
    rewrite E in L. rewrite app_length, map_length in L. cbn [length] in L.
    destruct rest as [|r rest]; [cbn [length] in *; lia|].
    replace (map Some s ++ Some c :: r :: rest) with ((map Some s ++ [Some c]) ++ r :: rest) by (rewrite <- app_assoc; auto).
    rewrite aset_mid by (rewrite app_length, map_length; cbn [length]; lia). cbn [bind].
    eexists. split; [reflexivity|]. unfold str_ok, set_data. cbn [c_cap c_mem c_meth c_data text_step].
    split.
    { destruct (c =? 0) eqn:C0.
      - apply Z.eqb_eq in C0. subst c. split; auto. eexists. rewrite <- app_assoc. cbn [app]. reflexivity.
      - apply Z.eqb_neq in C0. split; [apply Forall_app; split; auto|].
        eexists. rewrite map_app. cbn [map]. reflexivity. }
    split; auto. split; auto. rewrite !app_length, map_length. cbn [length] in *.
    split; [lia|]. destruct (c =? 0); try rewrite app_length; cbn [length]; lia. }
  destruct (Z.of_nat (length s) <? c_cap b) eqn:LT; [apply Z.ltb_lt in LT|apply Z.ltb_ge in LT].
  - destruct (Wr b OK LT) as (d & E1 & E2). rewrite E1. eexists. split; [reflexivity|]. split; auto. split; [auto|].
    cbn [set_data c_mem]. lia.
  - unfold CEE_BLOCK. rewrite newsize_spec by lia.
    destruct (resize_ok b s (2 * Z.max (c_mem b) 64) OK) as (b1 & -> & OK1 & M1 & ME1); [congruence|lia|]. cbn [bind].
    rewrite ME. cbn [bind]. replace (c_cap b) with (Z.of_nat (length s)) by lia.
    destruct (Wr b1 OK1) as (d & E1 & E2).
    { destruct OK1 as (_ & _ & C1 & _). lia. }
    rewrite E1. eexists. split; [reflexivity|]. split; auto. split; [cbn [set_data c_meth]; congruence|].
    cbn [set_data c_mem]. lia.
Qed.

Lemma catf_ok b s f args t : str_ok b s -> c_mem b < 2 ^ 61 -> c_meth b <> Identity ->
  fmt_text f args = Some t -> nonzero t -> Z.of_nat (length t) < 2 ^ 61 ->
  exists b', str_catf b (Some f) args = Ok b' /\ str_ok b' (s ++ t) /\ c_meth b' = c_meth b /\
    c_mem b' <= Z.max (c_mem b) (2 * (Z.of_nat (length s) + Z.of_nat (length t) + 73)).
Proof.
  intros OK HM ME T NT HL. pose proof OK as (Hc & M & C & L & S).
  unfold str_catf. rewrite (strlen_content _ s Hc). cbn [bind].
  destruct (vformat_some f args t T) as (ap & ->). cbn [bind].
  destruct (_ <? c_cap b) eqn:LT; [apply Z.ltb_lt in LT|apply Z.ltb_ge in LT].
  - destruct (write_end b s t OK NT ltac:(lia)) as (d & -> & OK'). cbn [bind].
    eexists. split; [reflexivity|]. split; auto. split; auto. cbn [set_data c_mem]. lia.
  - rewrite newsize_spec by lia.
    destruct (resize_ok b s (2 * Z.max (c_mem b) (Z.of_nat (length t) + 1)) OK ME) as (b1 & -> & OK1 & M1 & ME1); [lia|]. cbn [bind].
    destruct (write_end b1 s t OK1 NT) as (d & -> & OK'). { destruct OK1 as (_ & _ & C1 & _). lia. } cbn [bind].
    eexists. split; [reflexivity|]. split; auto. split; [cbn [set_data c_meth]; congruence|]. cbn [set_data c_mem]. lia.
Qed.

Lemma replace_ok b s f args t : str_ok b s -> c_mem b < 2 ^ 61 -> c_meth b <> Identity ->
  fmt_text f args = Some t -> nonzero t -> Z.of_nat (length t) < 2 ^ 61 ->
  exists b', str_replace b (Some f) args = Ok b' /\ str_ok b' t /\ c_meth b' = c_meth b /\
    c_mem b' <= Z.max (c_mem b) (2 * (Z.of_nat (length t) + 73)).
Proof.
  intros OK HM ME T NT HL. pose proof OK as (Hc & M & C & L & S).
  unfold str_replace. destruct (vformat_some f args t T) as (ap & ->). cbn [bind].
  destruct (_ <? c_cap b) eqn:LT; [apply Z.ltb_lt in LT|apply Z.ltb_ge in LT].
  - destruct (write_front b s t OK NT ltac:(lia)) as (d & -> & OK'). cbn [bind].
    eexists. split; [reflexivity|]. split; auto. split; auto. cbn [set_data c_mem]. lia.
  - rewrite newsize_spec by lia.
    destruct (resize_ok b s (2 * Z.max (c_mem b) (Z.of_nat (length t) + 1)) OK ME) as (b1 & -> & OK1 & M1 & ME1); [lia|]. cbn [bind].
    destruct (write_front b1 s t OK1 NT) as (d & -> & OK'). { destruct OK1 as (_ & _ & C1 & _). lia. } cbn [bind].
    eexists. split; [reflexivity|]. split; auto. split; [cbn [set_data c_meth]; congruence|]. cbn [set_data c_mem]. lia.
Qed.

Lemma text_step_size s o : op_ok o -> Z.of_nat (length (text_step s o)) <= Z.of_nat (length s) + op_size o.
Proof.
  destruct o as [c|[f|] a|[f|] a]; cbn [text_step op_size]; intros H; try lia.
  - destruct (c =? 0); try rewrite app_length; cbn [length]; lia.
  - destruct (fmt_text f a); try rewrite app_length; lia.
  - destruct (fmt_text f a); lia.
Qed.

Lemma str_run_ok : forall ops b s, str_ok b s -> c_mem b < 2 ^ 61 ->
  (c_meth b = MalLoc \/ (c_meth b = RealLoc /\ existsb is_add ops = false)) ->
  Forall op_ok ops -> Z.of_nat (length s) + ops_size ops < 2 ^ 31 ->
  exists b', str_run b ops = Ok b' /\ str_ok b' (text_run s ops) /\ c_mem b' < 2 ^ 61.
Proof.
  induction ops as [|o ops IH]; intros b s OK HM ME FO HS; cbn [str_run].
  - exists b. auto.
  - inversion FO as [|? ? O1 O2]; subst. cbn [ops_size] in HS. unfold text_run. cbn [fold_left].
    pose proof (ops_size_nonneg ops). pose proof (op_size_nonneg o).
    pose proof (text_step_size s o O1).
    assert (STEP : exists b1, str_step b o = Ok b1 /\ str_ok b1 (text_step s o) /\ c_meth b1 = c_meth b /\ c_mem b1 < 2 ^ 61).
    { assert (NI : c_meth b <> Identity) by (destruct ME as [->|[-> _]]; discriminate).
      destruct o as [c|[f|] a|[f|] a]; cbn [str_step].
      - destruct ME as [ME|[_ X]]; [|cbn in X; discriminate].
        destruct (add_ok b s c OK HM ME) as (b1 & E1 & E2 & E3 & E4); [cbn [op_size] in *; lia|].
        exists b1. split; auto. split; auto. split; [congruence|]. cbn [op_size] in *. lia.
      - destruct O1 as (t & T & NT). cbn [op_size text_step] in *. rewrite T in *.
        destruct (catf_ok b s f a t OK HM NI T NT) as (b1 & E1 & E2 & E3 & E4); [lia|].
        exists b1. split; auto. split; auto. split; auto. lia.
      - exists b. split; auto.
      - destruct O1 as (t & T & NT). cbn [op_size text_step] in *. rewrite T in *.
        destruct (replace_ok b s f a t OK HM NI T NT) as (b1 & E1 & E2 & E3 & E4); [lia|].
        exists b1. split; auto. split; auto. split; auto. lia.
      - exists b. split; auto. }
    destruct STEP as (b1 & E1 & OK1 & ME1 & HM1). rewrite E1. cbn [bind].
    apply IH; auto; [|lia].
    destruct ME as [ME|[ME X]]; [left; congruence|right]. split; [congruence|].
    cbn [existsb] in X. apply orb_false_elim in X. tauto.
Qed.

(** A string made by cee_str_mk_e, its resize method chosen, then worked on. *)
Lemma str_history n f args t m ops b0 :
  match f with Some f => fmt_text f args = Some t | None => t = [] end -> nonzero t ->
  0 <= n < 2 ^ 60 ->
  (m = MalLoc \/ (m = RealLoc /\ existsb is_add ops = false)) ->
  Forall op_ok ops -> Z.of_nat (length t) + ops_size ops < 2 ^ 31 ->
  str_mk_e n f args = Ok b0 ->
  exists b, str_run (CStr (c_cap b0) (c_mem b0) m (c_data b0)) ops = Ok b /\
    content (c_data b) (text_run t ops) /\ Z.of_nat (length (c_data b)) = c_mem b - 64.
Proof.
  intros T NT Hn ME FO HS E. pose proof (ops_size_nonneg ops).
  assert (X : str_ok b0 t /\ c_mem b0 < 2 ^ 61).
  { destruct f as [f|].
    - destruct (mk_e_fmt n f args t T NT ltac:(lia)) as (b & E' & OK & _ & HM). rewrite E in E'. injection E' as <-.
      split; auto. lia.
    - subst t. destruct (mk_e_null n args ltac:(lia)) as (b & E' & OK & _ & HM & _). rewrite E in E'. injection E' as <-.
      split; auto. lia. }
  destruct X as (OK & HM).
  destruct (str_run_ok ops (CStr (c_cap b0) (c_mem b0) m (c_data b0)) t) as (b & E1 & OK1 & _); auto.
  exists b. split; auto. destruct OK1 as (A & _ & _ & B & _). auto.
Qed.

Lemma mk_no_directive f args t : has_directive f = false -> fmt_text f args = Some t -> nonzero t ->
  Z.of_nat (length t) < 2 ^ 31 ->
  exists b, str_mk (Some f) args = Ok b /\ content (c_data b) t /\ Z.of_nat (length (c_data b)) = c_mem b - 64.
Proof.
  intros D T NT L. unfold str_mk, str_mkv.
  assert (V : forall ap, vformat f ap = Ok (t, ap)).
  { intros ap. unfold vformat. rewrite D, (no_directive_args f args D), T. auto. }
  rewrite V. cbn [bind]. rewrite V. cbn [bind].
  destruct (block_for_spec (Z.of_nat (length t) + 1) ltac:(lia)) as (B1 & B2 & B3 & B4).
  rewrite B4. destruct (snput_text t [] (repeat None (Z.to_nat (c_mem (block_for (Z.of_nat (length t) + 1)) - 64)))
     0 (c_mem (block_for (Z.of_nat (length t) + 1)))) as (q' & E & Lq).
  { rewrite repeat_length. lia. } { reflexivity. } { lia. }
  cbn [app length] in *. rewrite E. cbn [bind]. rewrite repeat_length in Lq.
  eexists. split; [reflexivity|]. cbn [set_data c_data c_mem]. split; [split; eauto|].
  rewrite app_length, map_length. cbn [length]. lia.
Qed.

Lemma mk_directive f args : has_directive f = true -> str_mk (Some f) args = Bad BadVaList.
Proof.
  intros D. unfold str_mk, str_mkv, vformat. rewrite D. destruct (fmt_text f args); auto.
Qed.

(** * Trimming *)

(** [r] is [s] without its trailing (leading) white space. *)
(** White space: space, tab, line feed, carriage return. *)
Definition ws (c : Z) : bool := existsb (Z.eqb c) [32; 9; 10; 13].
Lemma is_blank_ws c : is_blank c = ws c.
Proof. unfold is_blank, ws. cbn [existsb]. destruct (c =? 32), (c =? 9), (c =? 10), (c =? 13); auto. Qed.
Definition rtrimmed (s r : list Z) : Prop :=
  exists bl, s = r ++ bl /\ Forall (fun c => ws c = true) bl /\
    forall r' c, r = r' ++ [c] -> ws c = false.
Definition ltrimmed (s r : list Z) : Prop :=
  exists bl, s = bl ++ r /\ Forall (fun c => ws c = true) bl /\
    forall c r', r = c :: r' -> ws c = false.

Lemma rtrim_loop_spec c : c <> 0 -> forall s rest, nonzero s ->
  exists r a', rtrim_loop (length s) (map Some (c :: s) ++ Some 0 :: rest) = Ok a' /\
    content a' (c :: r) /\ length a' = length (map Some (c :: s) ++ Some 0 :: rest) /\ rtrimmed s r.
Proof.
  intros Hc. induction s as [|x s IH] using rev_ind; intros rest NZ.
  - exists []. eexists. split; [reflexivity|]. split; [|split; auto].
    + split; [constructor; auto|]. eexists. reflexivity.
    + exists []. split; auto. split; auto. intros [|? ?] ? H; discriminate.
  - apply Forall_app in NZ as (NZ & NX). rewrite app_length. cbn [length].
    replace (length s + 1)%nat with (S (length s)) by lia. cbn [rtrim_loop].
    assert (A : map Some (c :: s ++ [x]) ++ Some 0 :: rest = map Some (c :: s) ++ Some x :: Some 0 :: rest).
    { cbn [map app]. rewrite map_app, <- app_assoc. reflexivity. }
    unfold aread. rewrite A. rewrite aget_mid by (rewrite map_length; cbn [length]; lia). cbn [of_option bind].
    rewrite is_blank_ws. destruct (ws x) eqn:B.
    + rewrite aset_mid by (rewrite map_length; cbn [length]; lia). cbn [bind].
      destruct (IH (Some 0 :: rest) NZ) as (r & a' & E & Hc' & L & (bl & -> & F & G)).
      exists r, a'. split; [exact E|]. split; auto. split.
      * rewrite L. rewrite !app_length. cbn [length]. lia.
      * exists (bl ++ [x]). rewrite app_assoc. split; auto. split; auto. apply Forall_app; auto.
    + exists (s ++ [x]). eexists. split; [reflexivity|]. split; [|split; auto].
      * split; [constructor; auto; apply Forall_app; auto|]. exists rest. symmetry. exact A.
      * exists []. rewrite app_nil_r. split; auto. split; auto. intros r' y Hy. apply app_inj_tail in Hy as [_ <-]. auto.
Qed.

(** What cee_str_rtrim really does: everything but the first character is
    trimmed. *)
Lemma rtrim_exact a s : content a s -> Z.of_nat (length s) < 2 ^ 31 ->
  exists a' r, str_rtrim a = Ok a' /\ content a' r /\ length a' = length a /\
    match s with [] => r = [] | c :: s' => exists r', r = c :: r' /\ rtrimmed s' r' end.
Proof.
  intros Hc L. unfold str_rtrim. rewrite (strlen_content a s Hc). cbn [bind].
  rewrite to_int32_id by lia. destruct s as [|c s].
  - exists a, []. split; auto.
  - replace (Z.to_nat (Z.of_nat (length (c :: s)) - 1)) with (length s) by (cbn [length]; lia).
    destruct Hc as (NZ & rest & ->). inversion NZ; subst.
    destruct (rtrim_loop_spec c H1 s rest H2) as (r & a' & E & C & La & R).
    exists a', (c :: r). split; auto. split; auto. split; auto. eauto.
Qed.

Lemma rtrim_ok a s : content a s -> Z.of_nat (length s) < 2 ^ 31 ->
  (s = [] \/ exists c, In c s /\ ws c = false) ->
  exists a' r, str_rtrim a = Ok a' /\ content a' r /\ length a' = length a /\ rtrimmed s r.
Proof.
  intros Hc L N. destruct (rtrim_exact a s Hc L) as (a' & r & E & C & La & X).
  exists a', r. split; auto. split; auto. split; auto. destruct s as [|c s].
  - subst r. exists []. split; auto. split; auto. intros [|? ?] ? H; discriminate.
  - destruct X as (r' & -> & bl & -> & F & G). exists bl. split; auto. split; auto.
    intros r1 x Hx. destruct r' as [|y r' _] using rev_ind.
    + destruct r1 as [|? [|? ?]]; try discriminate. injection Hx as <-.
      destruct N as [N|(z & Hz & Bz)]; [discriminate|]. destruct Hz as [->|Hz]; auto.
      rewrite Forall_forall in F. cbn [app] in Hz. apply F in Hz. congruence.
    + rewrite app_comm_cons in Hx. apply app_inj_tail in Hx as [_ <-]. eapply G; eauto.
Qed.

Lemma ltrim_start_spec : forall bl pre r rest fuel start,
  Forall (fun c => ws c = true) bl -> (forall c r', r = c :: r' -> ws c = false) ->
  nonzero r -> (length bl < fuel)%nat ->
  ltrim_start fuel (Z.of_nat (length pre)) start (pre ++ map Some (bl ++ r) ++ Some 0 :: rest)
    = Ok (if (length bl =? 0)%nat then start else Z.of_nat (length pre + length bl - 1)).
Proof.
  induction bl as [|b bl IH]; intros pre r rest fuel start F G NZ L; destruct fuel as [|fuel]; cbn [length] in L; try lia;
    cbn [ltrim_start app length Nat.eqb].
  - unfold aread. destruct r as [|c r]; cbn [map app].
    + rewrite aget_mid by auto. cbn [of_option bind]. reflexivity.
    + rewrite aget_mid by auto. cbn [of_option bind]. inversion NZ; subst.
      replace (c =? 0) with false by (symmetry; apply Z.eqb_neq; auto). rewrite is_blank_ws, (G c r) by auto. auto.
  - inversion F; subst. unfold aread. cbn [map app]. rewrite aget_mid by auto. cbn [of_option bind].
    replace (b =? 0) with false.
    2:{ symmetry. apply Z.eqb_neq. intros ->. discriminate. }
    rewrite is_blank_ws, H1. replace (pre ++ Some b :: map Some (bl ++ r) ++ Some 0 :: rest)
      with ((pre ++ [Some b]) ++ map Some (bl ++ r) ++ Some 0 :: rest) by (rewrite <- app_assoc; auto).
    replace (Z.of_nat (length pre) + 1) with (Z.of_nat (length (pre ++ [Some b]))) by (rewrite app_length; cbn [length]; lia).
    rewrite IH by (auto; lia). rewrite app_length. cbn [length].
    destruct (length bl) eqn:Lb; cbn [Nat.eqb]; f_equal; lia.
Qed.

Lemma blanks_nonzero bl : Forall (fun c => ws c = true) bl -> nonzero bl.
Proof. intros F. eapply Forall_impl; [|exact F]. cbn. intros a H ->. discriminate. Qed.

(** Every text is white space followed by a text that does not start with any. *)
Lemma split_blanks s : exists bl r, s = bl ++ r /\ Forall (fun c => ws c = true) bl /\
  forall c r', r = c :: r' -> ws c = false.
Proof.
  induction s as [|c s (bl & r & -> & F & G)].
  - exists [], []. split; auto. split; auto. discriminate.
  - destruct (ws c) eqn:B.
    + exists (c :: bl), r. split; auto.
    + exists [], (c :: bl ++ r). split; auto. split; auto. intros ? ? [= <- <-]. auto.
Qed.

(** What cee_str_ltrim really does: all leading white space but the last
    character of it is removed. *)
Lemma ltrim_exact a bl r : content a (bl ++ r) -> Z.of_nat (length (bl ++ r)) < 2 ^ 31 ->
  Forall (fun c => ws c = true) bl -> (forall c r', r = c :: r' -> ws c = false) ->
  exists a', str_ltrim a = Ok a' /\ length a' = length a /\
    content a' (skipn (length bl - 1) bl ++ r).
Proof.
  intros Hc L F G. unfold str_ltrim. pose proof (strlen_content _ _ Hc) as SL.
  destruct Hc as (NZ & rest & ->). apply Forall_app in NZ as (NB & NR).
  pose proof (ltrim_start_spec bl [] r rest (S (length (map Some (bl ++ r) ++ Some 0 :: rest))) 0 F G NR) as LT.
  cbn [app length Nat.add] in LT. change (Z.of_nat 0) with 0 in LT. rewrite LT; clear LT.
  2:{ rewrite app_length, map_length, app_length. lia. }
  cbn [bind]. rewrite SL. cbn [bind].
  set (st := if (length bl =? 0)%nat then 0 else Z.of_nat (length bl - 1)).
  assert (ST : st = Z.of_nat (length bl - 1)) by (unfold st; destruct (length bl); cbn [Nat.eqb]; auto).
  rewrite ST. rewrite app_length in *. rewrite to_int32_id by lia.
  set (k := (length bl - 1)%nat). set (n := Z.of_nat (length bl + length r) - Z.of_nat k).
  unfold memmove. rewrite app_length, map_length, app_length. cbn [length].
  replace (0 <=? n) with true by (symmetry; apply Z.leb_le; unfold n; lia).
  replace (0 <=? 0) with true by reflexivity.
  replace (0 <=? Z.of_nat k) with true by (symmetry; apply Z.leb_le; lia).
  replace (Z.of_nat k + n <=? _) with true by (symmetry; apply Z.leb_le; unfold n; lia).
  replace (0 + n <=? _) with true by (symmetry; apply Z.leb_le; unfold n; lia).
  cbn [andb bind]. change (Z.to_nat 0) with 0%nat. cbn [firstn app].
  assert (SK : skipn k (map Some (bl ++ r) ++ Some 0 :: rest) = map Some (skipn k bl ++ r) ++ Some 0 :: rest).
  { rewrite skipn_app. rewrite map_length, app_length. replace (k - (length bl + length r))%nat with 0%nat by lia.
    cbn [skipn]. f_equal. rewrite skipn_map. rewrite skipn_app. replace (k - length bl)%nat with 0%nat by lia. auto. }
  rewrite Nat2Z.id, SK.
  assert (LN : Z.to_nat n = length (skipn k bl ++ r)) by (rewrite app_length, skipn_length; unfold n; lia).
  rewrite LN. rewrite firstn_app, map_length, Nat.sub_diag. cbn [firstn].
  rewrite app_nil_r, firstn_all2 by (rewrite map_length; lia).
  replace (0 + n) with n by lia. rewrite LN.
  destruct (skipn (length (skipn k bl ++ r)) (map Some (bl ++ r) ++ Some 0 :: rest)) as [|y rest'] eqn:SS.
  { apply (f_equal (@length _)) in SS. rewrite skipn_length, app_length, map_length, !app_length, skipn_length in SS.
    cbn [length] in SS. lia. }
  assert (LS : length (y :: rest') = (length (map Some (bl ++ r) ++ Some 0%Z :: rest) - length (skipn k bl ++ r))%nat).
  { rewrite <- SS. apply skipn_length. }
  rewrite aset_mid by (rewrite map_length; lia).
  eexists. split; [reflexivity|]. split.
  - rewrite app_length, map_length. cbn [length] in *. rewrite !app_length, map_length, !app_length, skipn_length in *.
    cbn [length] in *. lia.
  - split; [|eauto]. apply Forall_app. split; auto.
    apply Forall_forall. intros x Hx. rewrite <- (firstn_skipn k bl) in NB. apply Forall_app in NB as (_ & NB).
    rewrite Forall_forall in NB. auto.
Qed.

Lemma ltrim_ok a s : content a s -> Z.of_nat (length s) < 2 ^ 31 ->
  (forall c s', s = c :: s' -> ws c = false) ->
  exists a' r, str_ltrim a = Ok a' /\ content a' r /\ length a' = length a /\ ltrimmed s r.
Proof.
  intros Hc L G. destruct (ltrim_exact a [] s Hc L ltac:(constructor) G) as (a' & E & La & C).
  exists a', s. cbn in C. split; auto. split; auto. split; auto. exists []. auto.
Qed.
