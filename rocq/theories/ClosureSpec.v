(** What programs with closures compute under lexical scoping.  Scopes are
    mathematical paths of frames here, not objects in memory. *)
From Coq Require Import ZArith List Bool.
From Verif Require Import Base ClosureModel.
Import ListNotations.
Open Scope Z_scope.

(** A value: an integer, a frame of variables (the frames are numbered in order
    of creation), a scope, which is the frames it consists of, innermost first,
    or a function together with the scope it was made in. *)
Inductive sval : Type :=
| SInt (z : Z)
| SFrame (n : nat)
| SScope (path : list nat)
| SFun (path : list nat) (f : nat).

Section Spec.
Context {K : Type}.
Variable kcmp : K -> K -> Z.
Variable code : list (prog K).
(** May a name be bound to nothing at all? *)
Variable nothing : bool.
(** Does a name bound to nothing hide what it is bound to further out?  Under
    lexical scoping it does. *)
Variable hides : bool.

(** A frame: the bindings made in it, latest first.  [None] is nothing. *)
Definition frame : Type := list (K * option sval).
Fixpoint bound (k : K) (f : frame) : option (option sval) :=
  match f with
  | [] => None
  | (k', v) :: r => if kcmp k k' =? 0 then Some v else bound k r
  end.
(** The empty scope and nothing cannot be told apart by a pointer. *)
Definition something (v : option sval) : Prop := v <> None /\ v <> Some (SScope []).
(** The innermost frame of the path that binds the name decides; if nothing does
    not hide, the innermost that binds it to something. *)
Inductive scoped (fr : list frame) (k : K) : list nat -> option sval -> Prop :=
| scoped_none : scoped fr k [] None
| scoped_here : forall a r f v, nth_error fr a = Some f -> bound k f = Some v -> hides = true \/ something v -> scoped fr k (a :: r) v
| scoped_out : forall a r f v, nth_error fr a = Some f -> bound k f = None -> scoped fr k r v -> scoped fr k (a :: r) v
| scoped_past : forall a r f n v, nth_error fr a = Some f -> bound k f = Some n -> hides = false -> ~ something n ->
    scoped fr k r v -> scoped fr k (a :: r) v.

Definition is_int32 (z : Z) : Prop := - 2 ^ 31 <= z < 2 ^ 31.

(** What each call other than that of a closure does: frames, variables,
    argument count, arguments; the frames and the value after, and the arguments
    left. *)
Inductive does (fr : list frame) (vs : list (option sval)) (n : Z) : list (option sval) -> op K -> list frame -> option sval -> list (option sval) -> Prop :=
| does_num : forall args z, is_int32 z -> does fr vs n args (ONum z) fr (Some (SInt z)) args
| does_arg : forall v args, does fr vs n (v :: args) OArg fr v args
| does_count : forall args, is_int32 n -> does fr vs n args OCount fr (Some (SInt n)) args
| does_add : forall args i j a b, nth_error vs i = Some (Some (SInt a)) -> nth_error vs j = Some (Some (SInt b)) -> is_int32 (a + b) ->
    does fr vs n args (OAdd i j) fr (Some (SInt (a + b))) args
| does_mul : forall args i j a b, nth_error vs i = Some (Some (SInt a)) -> nth_error vs j = Some (Some (SInt b)) -> is_int32 (a * b) ->
    does fr vs n args (OMul i j) fr (Some (SInt (a * b))) args
| does_map : forall args, does fr vs n args OMap (fr ++ [[]]) (Some (SFrame (length fr))) args
| does_bind : forall args i k j a f v, nth_error vs i = Some (Some (SFrame a)) -> nth_error fr a = Some f ->
    nth_error vs j = Some v -> nothing = true \/ something v -> Z.of_nat (length f) < 2 ^ 64 ->
    does fr vs n args (OBind i k j) (update fr a ((k, v) :: f)) (match bound k f with Some old => old | None => None end) args
| does_env : forall args i j p a, nth_error vs i = Some (Some (SScope p)) -> nth_error vs j = Some (Some (SFrame a)) ->
    does fr vs n args (OEnv i j) fr (Some (SScope (a :: p))) args
| does_closure : forall args i f p, nth_error vs i = Some (Some (SScope p)) ->
    does fr vs n args (OClosure i f) fr (Some (SFun p f)) args
| does_find : forall args i k p v, nth_error vs i = Some (Some (SScope p)) -> scoped fr k p v ->
    does fr vs n args (OFind i k) fr v args.

(** [runs fr vs n args p fr' v]: the program [p] ends with value [v].  A called
    closure runs its function in the scope the closure was made in. *)
Inductive runs : list frame -> list (option sval) -> Z -> list (option sval) -> prog K -> list frame -> option sval -> Prop :=
| runs_return : forall fr vs n args i v, nth_error vs i = Some v -> runs fr vs n args (Return i) fr v
| runs_do : forall fr vs n args o p fr1 v args' fr2 w, does fr vs n args o fr1 v args' ->
    runs fr1 (vs ++ [v]) n args' p fr2 w -> runs fr vs n args (Do o p) fr2 w
| runs_call : forall fr vs n args i k is p path f q l fr1 v fr2 w,
    nth_error vs i = Some (Some (SFun path f)) -> Forall2 (fun j v => nth_error vs j = Some v) is l -> nth_error code f = Some q ->
    runs fr [Some (SScope path)] k l q fr1 v ->
    runs fr1 (vs ++ [v]) n args p fr2 w -> runs fr vs n args (Do (OCall i k is) p) fr2 w
| runs_zero : forall fr vs n args i p q fr' v, nth_error vs i = Some (Some (SInt 0)) ->
    runs fr vs n args p fr' v -> runs fr vs n args (IfZero i p q) fr' v
| runs_nonzero : forall fr vs n args i z p q fr' v, nth_error vs i = Some (Some (SInt z)) -> z <> 0 ->
    runs fr vs n args q fr' v -> runs fr vs n args (IfZero i p q) fr' v.

(** A program started with no frames, in the empty scope *)
Definition computes (p : prog K) (args : list Z) (v : option sval) : Prop :=
  exists fr, runs [] [Some (SScope [])] (Z.of_nat (length args)) (map (fun z => Some (SInt z)) args) p fr v.
End Spec.
