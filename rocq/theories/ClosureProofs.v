(** Programs with closures compute what lexical scoping says. *)
From Coq Require Import ZArith List Bool Lia.
From Verif Require Import Base TsearchModel TsearchProofs MapModel MapProofs MapHistory EnvModel ClosureModel ClosureSpec.
Import ListNotations.
Open Scope Z_scope.

Section Proofs.
Context {K : Type}.
Variable kcmp : K -> K -> Z.
Hypothesis TK : total_cmp kcmp.
Variable code : list (prog K).
Variables nothing hides : bool.
Hypothesis MODE : nothing = false \/ hides = false.
Local Notation mem := (mem K).
Local Notation frame := (@frame K).

(** The environment at [e] consists of the maps [p]. *)
Inductive path_at (es : list (option nat * nat)) : option nat -> list nat -> Prop :=
| path_null : path_at es None []
| path_env : forall a o v p, nth_error es a = Some (o, v) -> (forall b, o = Some b -> (b < a)%nat) ->
    path_at es o p -> path_at es (Some a) (v :: p).

Definition is_val (m : mem) (v : val) (s : sval) : Prop :=
  match v, s with
  | VInt a, SInt b => a = b
  | VMap a, SFrame b => a = b /\ (a < length (maps m))%nat
  | VEnv a, SScope p => path_at (envs m) (Some a) p
  | VClosure c, SFun p f => exists e, nth_error (closures m) c = Some (e, f) /\ path_at (envs m) e p
  | _, _ => False
  end.
Definition is_var (m : mem) (v : option val) (s : option sval) : Prop :=
  match v, s with
  | None, None => True
  | None, Some (SScope []) => True
  | Some v, Some s => is_val m v s
  | _, _ => False
  end.

(** The map holds the bindings of the frame. *)
Definition is_map (m : mem) (c : cmap K val) (f : frame) : Prop :=
  exists l, mrep kcmp c l /\ (length l <= length f)%nat /\
  forall k, match bound kcmp k f with
            | None => s_get kcmp k l = None
            | Some s => (nothing = true \/ something s) /\ is_var m (s_get kcmp k l) s
            end.
Definition good (m : mem) (fr : list frame) : Prop :=
  Forall2 (is_map m) (maps m) fr /\
  (forall a o v, nth_error (envs m) a = Some (o, v) -> (v < length (maps m))%nat).

(** Memory only grows. *)
Definition grows (m m' : mem) : Prop :=
  (exists l, envs m' = envs m ++ l) /\ (exists l, closures m' = closures m ++ l) /\ (length (maps m) <= length (maps m'))%nat.

Lemma grows_refl m : grows m m.
Proof. split; [|split]; auto; exists []; rewrite app_nil_r; auto. Qed.
Lemma grows_trans a b c : grows a b -> grows b c -> grows a c.
Proof.
  intros ((l1 & E1) & (k1 & C1) & L1) ((l2 & E2) & (k2 & C2) & L2). split; [|split; [|lia]].
  - exists (l1 ++ l2). rewrite E2, E1, app_assoc. auto.
  - exists (k1 ++ k2). rewrite C2, C1, app_assoc. auto.
Qed.

Lemma nth_app {A} (l l' : list A) n x : nth_error l n = Some x -> nth_error (l ++ l') n = Some x.
Proof. intros E. rewrite nth_error_app1; auto. apply nth_error_Some. congruence. Qed.

Lemma path_grows m m' e p : grows m m' -> path_at (envs m) e p -> path_at (envs m') e p.
Proof.
  intros ((l & E) & _ & _) P. induction P as [|a o v p N LT P IH]; econstructor; eauto.
  rewrite E. apply nth_app. auto.
Qed.
Lemma val_grows m m' v s : grows m m' -> is_val m v s -> is_val m' v s.
Proof.
  intros G. destruct v, s; cbn; auto.
  - destruct G as (_ & _ & G). intros (? & ?). split; auto. lia.
  - apply path_grows; auto.
  - intros (e & E & P). exists e. split; [|eapply path_grows; eauto].
    destruct G as (_ & (l & ->) & _). apply nth_app. auto.
Qed.
Lemma var_grows m m' v s : grows m m' -> is_var m v s -> is_var m' v s.
Proof. intros G. destruct v as [v|], s as [s|]; cbn [is_var]; auto. apply val_grows; auto. Qed.
Lemma vars_grow m m' vs ss : grows m m' -> Forall2 (is_var m) vs ss -> Forall2 (is_var m') vs ss.
Proof. intros G F. induction F; constructor; auto. eapply var_grows; eauto. Qed.
Lemma map_grows m m' c f : grows m m' -> is_map m c f -> is_map m' c f.
Proof.
  intros G (l & R & L & B). exists l. split; auto. split; auto. intros k. specialize (B k).
  destruct (bound kcmp k f); auto. destruct B. split; auto. eapply var_grows; eauto.
Qed.
Lemma maps_grow m m' cs fs : grows m m' -> Forall2 (is_map m) cs fs -> Forall2 (is_map m') cs fs.
Proof. intros G F. induction F; constructor; auto. eapply map_grows; eauto. Qed.

Lemma f2_nth {A B} (R : A -> B -> Prop) la lb n b : Forall2 R la lb -> nth_error lb n = Some b ->
  exists a, nth_error la n = Some a /\ R a b.
Proof.
  intros F. revert n. induction F; intros [|n]; cbn; try discriminate; eauto.
  intros [= <-]. eauto.
Qed.
Lemma f2_length {A B} (R : A -> B -> Prop) la lb : Forall2 R la lb -> length la = length lb.
Proof. intros F. induction F; cbn; auto. Qed.
Lemma f2_snoc {A B} (R : A -> B -> Prop) la lb a b : Forall2 R la lb -> R a b -> Forall2 R (la ++ [a]) (lb ++ [b]).
Proof. intros. apply Forall2_app; auto. Qed.
Lemma f2_update {A B} (R : A -> B -> Prop) la lb n a b : Forall2 R la lb -> R a b -> Forall2 R (update la n a) (update lb n b).
Proof. intros F Q. revert n. induction F; intros [|n]; cbn; constructor; auto. Qed.

Lemma update_length {A} (l : list A) n x : length (update l n x) = length l.
Proof. revert n. induction l; intros [|n]; cbn; auto. Qed.

(** Looking up a name *)
Lemma path_lt es e p : path_at es e p -> forall a, e = Some a -> (a < length es)%nat.
Proof. intros P. destruct P; intros b [= <-]. apply nth_error_Some. congruence. Qed.

Lemma env_lookup m fr k : good m fr -> forall p e s, path_at (envs m) e p -> scoped kcmp hides fr k p s ->
  forall fuel, (forall a, e = Some a -> a < fuel)%nat ->
  exists t v, env_at K fuel m e = Ok t /\ env_find K val kcmp t (Some k) = Ok v /\ is_var m v s.
Proof.
  intros (G & W) p. induction p as [|x p IH]; intros e s P Q fuel LT.
  - inversion P; subst. inversion Q; subst. exists ENull, None. destruct fuel; cbn; auto.
  - inversion P as [|a o v p' N LO P' E1 E2]; subst.
    destruct fuel as [|fuel]; [specialize (LT a eq_refl); lia|].
    assert (LO' : forall b, o = Some b -> (b < fuel)%nat).
    { intros b ->. specialize (LO b eq_refl). specialize (LT a eq_refl). lia. }
    cbn [env_at]. rewrite N. cbn [of_option bind].
    assert (Hf : exists f, nth_error fr x = Some f) by (inversion Q; subst; eauto). destruct Hf as (f & F).
    destruct (f2_nth _ _ _ _ _ G F) as (c & C & (l & R & L & B)). rewrite C. cbn [of_option bind].
    specialize (B k).
    inversion Q as [|a' r' f' v' F' BD HS|a' r' f' v' F' BD SC|a' r' f' n' v' F' BD HF NS SC]; subst; assert (f' = f) by congruence; subst f'; rewrite BD in B.
    + destruct B as (SM & IV). assert (SM' : something s) by (destruct MODE, SM, HS; auto; congruence). destruct SM' as (S1 & S2).
      (* the rest of the chain exists *)
      assert (ET : exists t, env_at K fuel m o = Ok t).
      { clear - P' LO' W G. revert fuel LO'. induction P' as [|a o v p N LO P IH]; intros fuel LT.
        - exists ENull. destruct fuel; auto.
        - destruct fuel as [|fuel]; [specialize (LT a eq_refl); lia|]. cbn [env_at]. rewrite N. cbn [of_option bind].
          pose proof (W _ _ _ N) as LV. apply nth_error_Some in LV. destruct (nth_error (maps m) v); [|congruence].
          cbn [of_option bind]. destruct (IH fuel) as (t & ->).
          { intros b ->. specialize (LO b eq_refl). specialize (LT a eq_refl). lia. }
          cbn [bind]. eauto. }
      destruct ET as (t & ET). rewrite ET. cbn [bind].
      eexists. exists (s_get kcmp k l). split; [reflexivity|]. split; auto.
      cbn [env_find]. rewrite (find_rep kcmp TK c l k R). cbn [bind].
      destruct (s_get kcmp k l) eqn:SG; auto. exfalso. destruct s as [[]|]; cbn in IV; try congruence; try tauto.
      destruct path; [congruence|tauto].
    + destruct (IH o s P' SC fuel LO') as (t & v & ET & EF & IV). rewrite ET. cbn [bind].
      eexists. exists v. split; [reflexivity|]. split; auto.
      cbn [env_find]. rewrite (find_rep kcmp TK c l k R). cbn [bind]. rewrite B. auto.
    + destruct (IH o s P' SC fuel LO') as (t & v & ET & EF & IV). rewrite ET. cbn [bind].
      eexists. exists v. split; [reflexivity|]. split; auto.
      cbn [env_find]. rewrite (find_rep kcmp TK c l k R). cbn [bind].
      assert (SG : s_get kcmp k l = None).
      { destruct B as (_ & B). destruct (s_get kcmp k l); auto. exfalso. apply NS. split; intros ->; cbn in B; auto.
        destruct v0; auto. inversion B. }
      rewrite SG. auto.
Qed.

Lemma int32_ok z : is_int32 z -> int32 z = Ok z.
Proof. intros H. unfold int32, is_int32 in *. replace (_ && _) with true; auto. symmetry. apply andb_true_intro. split; [apply Z.leb_le|apply Z.ltb_lt]; lia. Qed.

Lemma var_int m vs ss i z : Forall2 (is_var m) vs ss -> nth_error ss i = Some (Some (SInt z)) ->
  var vs i = Ok (Some (VInt z)).
Proof.
  intros F E. destruct (f2_nth _ _ _ _ _ F E) as ([v|] & N & Q); unfold var; rewrite N; cbn in *; [|tauto].
  destruct v; cbn in Q; try tauto. congruence.
Qed.
Lemma var_frame m vs ss i z : Forall2 (is_var m) vs ss -> nth_error ss i = Some (Some (SFrame z)) ->
  var vs i = Ok (Some (VMap z)) /\ (z < length (maps m))%nat.
Proof.
  intros F E. destruct (f2_nth _ _ _ _ _ F E) as ([v|] & N & Q); unfold var; rewrite N; cbn in *; [|tauto].
  destruct v; cbn in Q; try tauto. destruct Q as (-> & Q). auto.
Qed.
Lemma var_scope m vs ss i p : Forall2 (is_var m) vs ss -> nth_error ss i = Some (Some (SScope p)) ->
  exists v e, var vs i = Ok v /\ as_env v = Ok e /\ path_at (envs m) e p.
Proof.
  intros F E. destruct (f2_nth _ _ _ _ _ F E) as ([v|] & N & Q); unfold var; rewrite N; cbn in *.
  - destruct v; cbn in Q; try tauto. exists (Some (VEnv a)), (Some a). auto.
  - destruct p; [|tauto]. exists None, None. repeat split. constructor.
Qed.
Lemma var_any m vs ss i s : Forall2 (is_var m) vs ss -> nth_error ss i = Some s ->
  exists v, var vs i = Ok v /\ is_var m v s.
Proof. intros F E. destruct (f2_nth _ _ _ _ _ F E) as (v & N & Q). unfold var. rewrite N. cbn. eauto. Qed.

Lemma vars_of_ok m vs ss : Forall2 (is_var m) vs ss -> forall is l, Forall2 (fun j v => nth_error ss j = Some v) is l ->
  exists l', vars_of vs is = Ok l' /\ Forall2 (is_var m) l' l.
Proof.
  intros F is l Q. induction Q as [|i s is l E Q (l' & E' & Q')]; cbn [vars_of].
  - exists []. auto.
  - destruct (var_any _ _ _ _ _ F E) as (v & -> & R). cbn [bind]. rewrite E'. cbn [bind]. exists (v :: l'). auto.
Qed.

(** Binding a name in a map *)
Lemma bind_ok_ m c f k v s : is_map m c f -> nothing = true \/ something s -> is_var m v s -> Z.of_nat (length f) < 2 ^ 64 ->
  exists old c', map_add K val kcmp (Some c) (Some k) v = Ok (old, Some c') /\
    is_var m old (match bound kcmp k f with Some o => o | None => None end) /\ is_map m c' ((k, s) :: f).
Proof.
  intros (l & R & L & B) SM IV LB.
  destruct (add_e_rep kcmp TK c l k v None R) as (c' & E & R'); [lia|].
  exists (s_get kcmp k l), c'. split; [exact E|]. split.
  - specialize (B k). destruct (bound kcmp k f); [tauto|]. rewrite B. exact I.
  - eexists. split; [exact R'|]. split.
    + pose proof (put_length kcmp k v (fun _ => v) l). cbn [length]. cbn in *. lia.
    + intros k'. cbn [bound]. destruct (kcmp k' k =? 0) eqn:Q.
      * apply Z.eqb_eq in Q. rewrite (get_put_same kcmp TK) by auto. destruct (s_has kcmp k l); auto.
      * apply Z.eqb_neq in Q. destruct (get_put_other kcmp TK k' k v (fun _ => v) l Q) as (-> & _). apply B.
Qed.

Lemma good_grows m m' fr : grows m m' -> maps m' = maps m -> (forall a o v, nth_error (envs m') a = Some (o, v) -> (v < length (maps m))%nat) ->
  good m fr -> good m' fr.
Proof.
  intros G E W (F & _). split.
  - rewrite E. eapply maps_grow; eauto.
  - rewrite E. auto.
Qed.

Section Step.
Variable vfun : nat -> mem -> option val -> Z -> list (option val) -> outcome (mem * option val).

Lemma does_ok fr ss n sargs o fr' s sargs' : does kcmp nothing hides fr ss n sargs o fr' s sargs' ->
  forall m vs args, good m fr -> Forall2 (is_var m) vs ss -> Forall2 (is_var m) args sargs ->
  exists m' v args', do_op K kcmp vfun m vs n args o = Ok (m', v, args') /\
    good m' fr' /\ grows m m' /\ is_var m' v s /\ Forall2 (is_var m') args' sargs'.
Proof.
  intros D m vs args G FV FA. destruct D; cbn [do_op].
  - rewrite int32_ok by auto. cbn [bind]. exists m, (Some (VInt z)), args. repeat split; auto using grows_refl; try apply G; try (apply grows_refl).
  - inversion FA as [|v0 ? l0 ? Q FA']; subst. exists m, v0, l0. repeat split; auto; try apply G; try (apply grows_refl).
  - rewrite int32_ok by auto. cbn [bind]. exists m, (Some (VInt n)), args. repeat split; auto; try apply G; try (apply grows_refl).
  - rewrite (var_int m vs ss i a), (var_int m vs ss j b) by auto. cbn [bind as_int]. rewrite int32_ok by auto. cbn [bind].
    exists m, (Some (VInt (a + b))), args. repeat split; auto; try apply G; try (apply grows_refl).
  - rewrite (var_int m vs ss i a), (var_int m vs ss j b) by auto. cbn [bind as_int]. rewrite int32_ok by auto. cbn [bind].
    exists m, (Some (VInt (a * b))), args. repeat split; auto; try apply G; try (apply grows_refl).
  - destruct G as (GF & GW). cbn [new_map].
    assert (GR : grows m (Mem (maps m ++ [map_mk]) (envs m) (closures m))).
    { split; [|split]; [exists []; rewrite app_nil_r; auto|exists []; rewrite app_nil_r; auto|cbn; rewrite app_length; lia]. }
    eexists. eexists. exists args. split; [reflexivity|]. split; [|split; [exact GR|split]].
    + split; cbn [maps envs].
      * apply f2_snoc; [eapply maps_grow; eauto|]. exists []. split; [apply mrep_mk|]. split; auto. intros k. reflexivity.
      * intros a o v E. rewrite app_length. specialize (GW a o v E). lia.
    + cbn. split; [apply (f2_length _ _ _ GF)|rewrite app_length; cbn; lia].
    + eapply vars_grow; eauto.
  - rename H2 into SM.
    destruct (var_frame m vs ss i a FV H) as (-> & LA). cbn [bind as_map].
    destruct (var_any _ _ _ _ _ FV H1) as (x & -> & IX). cbn [bind].
    destruct G as (GF & GW).
    destruct (f2_nth _ _ _ _ _ GF H0) as (c & C & IM).
    destruct (bind_ok_ m c f k x v IM SM IX H3) as (old & c' & E & IO & IM').
    unfold bind_name. rewrite C. cbn [of_option bind]. rewrite E. cbn [of_option bind].
    assert (GR : grows m (Mem (update (maps m) a c') (envs m) (closures m))).
    { split; [|split]; [exists []; rewrite app_nil_r; auto|exists []; rewrite app_nil_r; auto|cbn; rewrite update_length; lia]. }
    eexists. exists old, args. split; [reflexivity|]. split; [|split; [exact GR|split]].
    + split; cbn [maps envs].
      * apply f2_update; [eapply maps_grow; eauto|eapply map_grows; eauto].
      * intros. rewrite update_length. eauto.
    + eapply var_grows; eauto.
    + eapply vars_grow; eauto.
  - destruct (var_scope _ _ _ _ _ FV H) as (x & e & -> & A1 & P). cbn [bind]. rewrite A1. cbn [bind].
    destruct (var_frame m vs ss j a FV H0) as (-> & LA). cbn [bind as_map new_env].
    assert (GR : grows m (Mem (maps m) (envs m ++ [(e, a)]) (closures m))).
    { split; [|split]; [exists [(e, a)]; auto|exists []; rewrite app_nil_r; auto|cbn; lia]. }
    eexists. eexists. exists args. split; [reflexivity|]. split; [|split; [exact GR|split]].
    + eapply good_grows; eauto. cbn [envs]. intros b o v N.
      destruct (Nat.lt_ge_cases b (length (envs m))) as [LB|LB].
      * rewrite nth_error_app1 in N by auto. destruct G as (_ & GW). eauto.
      * rewrite nth_error_app2 in N by auto. destruct (b - length (envs m))%nat as [|[]]; cbn in N; try discriminate.
        injection N as <- <-. auto.
    + cbn. econstructor.
      * rewrite nth_error_app2, Nat.sub_diag by auto. reflexivity.
      * intros b ->. apply (path_lt _ _ _ P b eq_refl).
      * exact (path_grows m _ _ _ GR P).
    + eapply vars_grow; eauto.
  - destruct (var_scope _ _ _ _ _ FV H) as (x & e & -> & A1 & P). cbn [bind]. rewrite A1. cbn [bind closure_mk].
    assert (GR : grows m (Mem (maps m) (envs m) (closures m ++ [(e, f)]))).
    { split; [|split]; [exists []; rewrite app_nil_r; auto|exists [(e, f)]; auto|cbn; lia]. }
    eexists. eexists. exists args. split; [reflexivity|]. split; [|split; [exact GR|split]].
    + eapply good_grows; eauto. cbn [envs]. apply G.
    + cbn. exists e. split; auto. rewrite nth_error_app2, Nat.sub_diag by auto. reflexivity.
    + eapply vars_grow; eauto.
  - destruct (var_scope _ _ _ _ _ FV H) as (x & e & -> & A1 & P). cbn [bind]. rewrite A1. cbn [bind].
    destruct (env_lookup m fr k G p e v P H0 (length (envs m))) as (t & y & ET & EF & IV); [apply (path_lt _ _ _ P)|].
    rewrite ET. cbn [bind]. rewrite EF. cbn [bind]. exists m, y, args. repeat split; auto; try apply G; try (apply grows_refl).
Qed.
End Step.

(** The main simulation: enough fuel, then the same result. *)
Lemma runs_ok fr ss n sargs p fr' s : runs kcmp code nothing hides fr ss n sargs p fr' s ->
  exists k, forall k', (k <= k')%nat ->
  forall m vs args, good m fr -> Forall2 (is_var m) vs ss -> Forall2 (is_var m) args sargs ->
  exists m' v, exec K kcmp (run_fun K kcmp code k') m vs n args p = Ok (m', v) /\ good m' fr' /\ grows m m' /\ is_var m' v s.
Proof.
  intros R. induction R as [fr ss n sargs i s E|fr ss n sargs o p fr1 s sargs' fr2 w D R IH
    |fr ss n sargs i c is p path f q l fr1 s fr2 w EC EL EQ R1 IH1 R2 IH2|fr ss n sargs i p q fr' s E R IH|fr ss n sargs i z p q fr' s E NZ R IH].
  - exists 0%nat. intros k' _ m vs args G FV FA. cbn [exec]. destruct (var_any _ _ _ _ _ FV E) as (v & -> & Q).
    cbn [bind]. exists m, v. repeat split; auto; try apply G; apply grows_refl.
  - destruct IH as (k & IH). exists k. intros k' LE m vs args G FV FA. cbn [exec].
    destruct (does_ok (run_fun K kcmp code k') _ _ _ _ _ _ _ _ D m vs args G FV FA) as (m1 & v & args' & E & G1 & GR & Q & FA').
    rewrite E. cbn [bind].
    destruct (IH k' LE m1 (vs ++ [v]) args' G1) as (m2 & v2 & E2 & G2 & GR2 & Q2); auto.
    + apply f2_snoc; auto. eapply vars_grow; eauto.
    + exists m2, v2. repeat split; auto; try apply G2. all: eapply grows_trans; eauto.
  - destruct IH1 as (k1 & IH1), IH2 as (k2 & IH2). exists (S (k1 + k2)). intros [|k'] LE m vs args G FV FA; [lia|].
    cbn [exec do_op].
    destruct (var_any _ _ _ _ _ FV EC) as (v & -> & Q). cbn [bind].
    destruct (vars_of_ok m vs ss FV is l EL) as (l' & -> & FL). cbn [bind].
    destruct v as [[]|]; cbn in Q; try tauto. destruct Q as (e & NC & P).
    cbn [closure_call]. rewrite NC. cbn [of_option bind]. cbn [run_fun]. rewrite EQ. cbn [of_option bind].
    destruct (IH1 k' ltac:(lia) m [option_map VEnv e] l' G) as (m1 & v1 & E1 & G1 & GR1 & Q1); auto.
    { constructor; auto. destruct e; cbn; auto. inversion P; subst; auto. }
    rewrite E1. cbn [bind].
    destruct (IH2 (S k') ltac:(lia) m1 (vs ++ [v1]) args G1) as (m2 & v2 & E2 & G2 & GR2 & Q2); auto.
    + apply f2_snoc; auto. eapply vars_grow; eauto.
    + eapply vars_grow; eauto.
    + exists m2, v2. repeat split; auto; try apply G2. all: eapply grows_trans; eauto.
  - destruct IH as (k & IH). exists k. intros k' LE m vs args G FV FA. cbn [exec].
    rewrite (var_int m vs ss i 0) by auto. cbn [bind as_int]. rewrite Z.eqb_refl. auto.
  - destruct IH as (k & IH). exists k. intros k' LE m vs args G FV FA. cbn [exec].
    rewrite (var_int m vs ss i z) by auto. cbn [bind as_int]. rewrite (proj2 (Z.eqb_neq _ _) NZ). auto.
Qed.

Lemma computes_ok p args s : computes kcmp code nothing hides p args s ->
  exists k, forall k', (k <= k')%nat -> exists m v, run_main K kcmp code k' p args = Ok (m, v) /\ is_var m v s.
Proof.
  intros (fr & R). destruct (runs_ok _ _ _ _ _ _ _ R) as (k & H). exists k. intros k' LE. unfold run_main.
  destruct (H k' LE no_mem [None] (map (fun z => Some (VInt z)) args)) as (m & v & E & _ & _ & Q).
  - split; cbn; [constructor|]. intros [|]; discriminate.
  - constructor; auto. exact I.
  - clear. induction args; cbn; constructor; auto. reflexivity.
  - exists m, v. auto.
Qed.
End Proofs.
