(** C19: lookup in nested environments. *)
From Coq Require Import ZArith List Bool Lia.
From Verif Require Import Base TsearchModel TsearchProofs MapModel MapProofs MapHistory EnvModel Samples.
Import ListNotations.
Open Scope Z_scope.

Section Spec.
Context {K V : Type}.
Variable kcmp : K -> K -> Z.

(** The history of one map of variables: additions and removals, latest first.
    [binding k ops]: what [k] is bound to, [None] if it is not bound. *)
Inductive var_op : Type := Bind (k : K) (v : option V) | Unbind (k : K).
Fixpoint binding (k : K) (ops : list var_op) : option (option V) :=
  match ops with
  | [] => None
  | Bind k' v :: r => if kcmp k k' =? 0 then Some v else binding k r
  | Unbind k' :: r => if kcmp k k' =? 0 then None else binding k r
  end.
(** Innermost environment first *)
Fixpoint lexical (k : K) (frames : list (list var_op)) : option (option V) :=
  match frames with
  | [] => None
  | f :: r => match binding k f with Some v => Some v | None => lexical k r end
  end.
Definition to_map_op (o : var_op) : map_op K V :=
  match o with Bind k v => MAdd (Some k) v | Unbind k => MRemove (Some k) end.

(** Environments built by the library: the map of each comes from its history. *)
Inductive built : env K V -> list (list var_op) -> Prop :=
| built_null : built ENull []
| built_env : forall outer frames ops m rs, built outer frames -> Z.of_nat (length ops) < 2 ^ 31 ->
    mrun kcmp map_mk (rev (map to_map_op ops)) = Ok (m, rs) ->
    built (env_mk K V outer (Some m)) (ops :: frames).

(** Every such chain can be built. *)
Definition small (frames : list (list var_op)) : Prop := Forall (fun ops => Z.of_nat (length ops) < 2 ^ 31) frames.
Definition no_null (frames : list (list var_op)) : Prop :=
  forall ops k, In ops frames -> ~ In (Bind k None) ops.
End Spec.
Arguments var_op K V : clear implicits.

Lemma to_map_simple {K V} (ops : list (var_op K V)) : Forall add_or_remove (map to_map_op ops).
Proof. induction ops as [|[]]; cbn; constructor; cbn; auto. Qed.

Lemma frame_find {K V} (kcmp : K -> K -> Z) (T : total_cmp kcmp) (ops : list (var_op K V)) m rs k :
  Z.of_nat (length ops) < 2 ^ 31 ->
  mrun kcmp map_mk (rev (map to_map_op ops)) = Ok (m, rs) ->
  map_find K V kcmp (Some m) (Some k) = Ok (match binding kcmp k ops with Some v => v | None => None end).
Proof.
  intros B E. destruct (map_latest kcmp T (rev (map to_map_op ops)) k) as (m' & rs' & E' & F).
  - rewrite rev_length, map_length. auto.
  - apply Forall_rev. apply to_map_simple.
  - rewrite E in E'. injection E' as <- <-. rewrite F, rev_involutive. f_equal. clear.
    induction ops as [|[k' v|k'] ops IH]; cbn; auto; destruct (kcmp k k' =? 0); auto.
Qed.

(** For every chain of environments with maps in which no name is bound to NULL,
    a name is looked up in the innermost environment that binds it. *)
Theorem C19_lexical_partial : forall K V (kcmp : K -> K -> Z), total_cmp kcmp ->
  forall frames : list (list (var_op K V)), small frames -> no_null frames ->
  exists e, built kcmp e frames /\
  forall k, env_find K V kcmp e (Some k) = Ok (match lexical kcmp k frames with Some v => v | None => None end) /\
            (env_find K V kcmp e (Some k) = Ok None <-> forall f, In f frames -> binding kcmp k f = None).
Proof.
  intros K V kcmp T frames. induction frames as [|ops frames IH]; intros SM NN.
  - exists ENull. split; [constructor|]. intros k. split; auto. cbn. split; auto; contradiction.
  - inversion SM; subst. destruct IH as (e & BE & FE); auto.
    { intros o k I. apply NN. right. auto. }
    assert (HM : exists m rs, mrun kcmp map_mk (rev (map to_map_op ops)) = Ok (m, rs)).
    { destruct (map_history kcmp T (rev (map to_map_op ops))) as (m & E & _).
      - rewrite rev_length, map_length. auto.
      - apply rename_ok_simple. apply Forall_rev, to_map_simple.
      - eauto. }
    destruct HM as (m & rs & E). exists (env_mk K V e (Some m)). split; [econstructor; eauto|].
    assert (NB : forall k, binding kcmp k ops <> Some None).
    { assert (N0 : forall k, ~ In (Bind k None) ops) by (intros k; apply NN; left; auto).
      clear - N0. intros k. induction ops as [|[k' [v|]|k'] ops IH]; cbn; try discriminate.
      - destruct (_ =? 0); [discriminate|]. apply IH. intros j J. apply (N0 j). right; auto.
      - exfalso. apply (N0 k'). left; auto.
      - destruct (_ =? 0); [discriminate|]. apply IH. intros j J. apply (N0 j). right; auto. }
    intros k. cbn [env_find env_mk]. rewrite (frame_find kcmp T ops m rs k) by auto. cbn [bind lexical].
    destruct (binding kcmp k ops) as [[v|]|] eqn:Bk.
    + split; auto. split; [discriminate|]. intros A. specialize (A ops (or_introl eq_refl)). congruence.
    + exfalso. apply (NB k Bk).
    + destruct (FE k) as (F1 & F2). split; auto. rewrite F2. split.
      * intros A f [<-|I]; auto.
      * intros A f I. apply A. right; auto.
Qed.

Example C19_example :
  let frames := [[Bind 1 (Some 10)]; []; [Unbind 1; Bind 2 (Some 25); Bind 2 (Some 20); Bind 1 (Some 5)]; [Bind 3 (Some 30); Bind 1 (Some 7)]] in
  map (fun k => lexical zcmp k frames) [1; 2; 3; 4] = [Some (Some 10); Some (Some 25); Some (Some 30); None] /\
  exists e, built zcmp e frames /\
    map (fun k => env_find Z Z zcmp e (Some k)) [1; 2; 3; 4] = [Ok (Some 10); Ok (Some 25); Ok (Some 30); Ok None].
Proof.
  cbv zeta. split; [vm_compute; auto|].
  eexists. split; [repeat (eapply built_env; [|reflexivity|vm_compute; reflexivity]); apply built_null|].
  vm_compute. auto.
Qed.

(** A name bound to NULL in an inner environment does not hide an outer one. *)
Theorem C19_null_value_refuted :
  exists frames e, built zcmp e frames /\ lexical zcmp 1 frames = Some None /\ env_find Z Z zcmp e (Some 1) = Ok (Some 5).
Proof.
  exists [[Bind 1 None]; [Bind 1 (Some 5)]]. eexists.
  split; [repeat (eapply built_env; [|reflexivity|vm_compute; reflexivity]); apply built_null|].
  vm_compute. auto.
Qed.

(** An environment made without a map of variables hides everything outside. *)
Theorem C19_null_vars_refuted :
  exists e, built zcmp e [[Bind 1 (Some 5)]] /\ env_find Z Z zcmp e (Some 1) = Ok (Some 5) /\
    env_find Z Z zcmp (env_mk Z Z e None) (Some 1) = Ok None.
Proof.
  eexists. split; [repeat (eapply built_env; [|reflexivity|vm_compute; reflexivity]); apply built_null|].
  vm_compute. auto.
Qed.

(** What is found in any chain, environments without a map and names bound to NULL
    included: the search ends at an environment without a map, and goes on past a
    name bound to NULL. *)
Inductive gives {K V} (kcmp : K -> K -> Z) (k : K) : list (option (list (var_op K V))) -> option V -> Prop :=
| gives_end : gives kcmp k [] None
| gives_no_map : forall r, gives kcmp k (None :: r) None
| gives_found : forall f r v, binding kcmp k f = Some (Some v) -> gives kcmp k (Some f :: r) (Some v)
| gives_past : forall f r v, binding kcmp k f = None \/ binding kcmp k f = Some None -> gives kcmp k r v -> gives kcmp k (Some f :: r) v.
Inductive built_of {K V} (kcmp : K -> K -> Z) : env K V -> list (option (list (var_op K V))) -> Prop :=
| bo_null : built_of kcmp ENull []
| bo_no_map : forall outer frames, built_of kcmp outer frames -> built_of kcmp (env_mk K V outer None) (None :: frames)
| bo_map : forall outer frames ops m rs, built_of kcmp outer frames ->
    mrun kcmp map_mk (rev (map to_map_op ops)) = Ok (m, rs) -> built_of kcmp (env_mk K V outer (Some m)) (Some ops :: frames).
Theorem C19_exact : forall K V (kcmp : K -> K -> Z), total_cmp kcmp ->
  forall frames : list (option (list (var_op K V))), (forall ops, In (Some ops) frames -> Z.of_nat (length ops) < 2 ^ 31) ->
  exists e, built_of kcmp e frames /\ forall k, exists v, gives kcmp k frames v /\ env_find K V kcmp e (Some k) = Ok v.
Proof.
  intros K V kcmp T frames. induction frames as [|[ops|] frames IH]; intros SM.
  - exists ENull. split; [constructor|]. intros k. exists None. split; [constructor|reflexivity].
  - destruct IH as (e & BE & FE); [intros; apply SM; right; auto|].
    assert (B : Z.of_nat (length ops) < 2 ^ 31) by (apply SM; left; auto).
    assert (HM : exists m rs, mrun kcmp map_mk (rev (map to_map_op ops)) = Ok (m, rs)).
    { destruct (map_history kcmp T (rev (map to_map_op ops))) as (m & E & _).
      - rewrite rev_length, map_length. auto.
      - apply rename_ok_simple. apply Forall_rev, to_map_simple.
      - eauto. }
    destruct HM as (m & rs & E). exists (env_mk K V e (Some m)). split; [econstructor; eauto|].
    intros k. cbn [env_find env_mk]. rewrite (frame_find kcmp T ops m rs k) by auto. cbn [bind].
    destruct (binding kcmp k ops) as [[v|]|] eqn:Bk.
    + exists (Some v). split; auto. constructor; auto.
    + destruct (FE k) as (v & G & F). exists v. split; auto. apply gives_past; auto.
    + destruct (FE k) as (v & G & F). exists v. split; auto. apply gives_past; auto.
  - destruct IH as (e & BE & FE); [intros; apply SM; right; auto|].
    exists (env_mk K V e None). split; [constructor; auto|]. intros k. exists None. split; [constructor|reflexivity].
Qed.
Example C19_exact_example :
  let frames := [Some [Bind 2 None; Bind 1 (Some 10)]; Some [Bind 2 (Some 20)]; None; Some [Bind 3 (Some 30)]] in
  (gives zcmp 1 frames (Some 10) /\ gives zcmp 2 frames (Some 20) /\ gives zcmp 3 frames None) /\
  exists e, built_of zcmp e frames /\ map (fun k => env_find Z Z zcmp e (Some k)) [1; 2; 3] = [Ok (Some 10); Ok (Some 20); Ok None].
Proof.
  cbv zeta. split.
  - split; [apply gives_found; reflexivity|]. split; [apply gives_past; [right; reflexivity|apply gives_found; reflexivity]|].
    apply gives_past; [left; reflexivity|]. apply gives_past; [left; reflexivity|]. constructor.
  - eexists. split; [repeat first [apply bo_no_map|eapply bo_map; [|vm_compute; reflexivity]|apply bo_null]|]. vm_compute. auto.
Qed.

Print Assumptions C19_exact.
Print Assumptions C19_lexical_partial.
Print Assumptions C19_null_value_refuted.
Print Assumptions C19_null_vars_refuted.
