(** Model of closure.c, with the environments of env.c and the maps of map.c as
    objects in memory that are shared by pointer.

    The functions that closures run are the caller's.  Here such a function is a
    program over the calls of the library ([op]); what a C function computes
    from its arguments with plain C is represented by 32-bit additions and
    multiplications and by a test for zero. *)
From Coq Require Import ZArith List Bool.
From Verif Require Import Base TsearchModel MapModel EnvModel.
Import ListNotations.
Open Scope Z_scope.
Open Scope outcome_scope.

(** What a non-NULL pointer points to: a boxed 32-bit integer (boxed.c; by value,
    they are never changed here), or a map, an environment or a closure at its
    place in memory. *)
Inductive val : Type := VInt (z : Z) | VMap (a : nat) | VEnv (a : nat) | VClosure (a : nat).

Section Closure.
Variable K : Type.
Variable kcmp : K -> K -> Z.

(** Memory: the maps; the environments, cee.h:664-667 [struct cee_env], each with
    its enclosing environment (or NULL) and its map; the closures,
    cee.h:672-675 [struct cee_closure], each with its environment (or NULL) and
    its function, a number in the table of functions.  Nothing is deleted here:
    see HeapModel.v for that. *)
Record mem : Type := Mem {
  maps : list (cmap K val); envs : list (option nat * nat); closures : list (option nat * nat) }.
Definition no_mem : mem := Mem [] [] [].

(** The environment at a pointer, as the nested structure that env.c:70-78
    walks.  An environment is made after the one around it, so its place gives
    the number of steps. *)
Fixpoint env_at (fuel : nat) (m : mem) (e : option nat) : outcome (env K val) :=
  match e with
  | None => Ok ENull
  | Some a =>
    match fuel with
    | O => Bad OutOfFuel
    | S fuel' =>
      let* (outer, v) := of_option BadPointer (nth_error (envs m) a) in
      let* vars := of_option BadPointer (nth_error (maps m) v) in
      let* o := env_at fuel' m outer in
      Ok (Env o (Some vars))
    end
  end.

(** A pointer to an environment, or NULL *)
Definition as_env (r : option val) : outcome (option nat) :=
  match r with None => Ok None | Some (VEnv a) => Ok (Some a) | Some _ => Bad BadPointer end.
Definition as_map (r : option val) : outcome nat :=
  match r with None => Bad NullDeref | Some (VMap a) => Ok a | Some _ => Bad BadPointer end.
Definition as_int (r : option val) : outcome Z :=
  match r with None => Bad NullDeref | Some (VInt z) => Ok z | Some _ => Bad BadPointer end.

(** A result of int arithmetic in the caller's function *)
Definition int32 (z : Z) : outcome Z :=
  if (- 2 ^ 31 <=? z) && (z <? 2 ^ 31) then Ok z else Bad Overflow.

(** The calls a function can make.  Its variables are numbered: the first is the
    environment it was given, each call puts its result into the next. *)
Inductive op : Type :=
| ONum (z : Z)                              (* cee_boxed_from_i32 *)
| OArg                                      (* va_arg *)
| OCount                                    (* the parameter n *)
| OAdd (i j : nat)
| OMul (i j : nat)
| OMap                                      (* cee_map_mk *)
| OBind (m : nat) (name : K) (v : nat)      (* cee_map_add *)
| OEnv (outer m : nat)                      (* cee_env_mk *)
| OClosure (e : nat) (f : nat)              (* cee_closure_mk *)
| OFind (e : nat) (name : K)                (* cee_env_find *)
| OCall (c : nat) (n : Z) (args : list nat) (* cee_closure_call *).
Inductive prog : Type :=
| Return (i : nat)
| Do (o : op) (p : prog)
| IfZero (i : nat) (p q : prog).

Section Calls.
(** What running a function does: its number, the memory, the environment, [n]
    and the variable arguments. *)
Variable vfun : nat -> mem -> option val -> Z -> list (option val) -> outcome (mem * option val).

(** closure.c:35-48 [cee_closure_mk] *)
Definition closure_mk (m : mem) (e : option nat) (f : nat) : mem * option val :=
  (Mem (maps m) (envs m) (closures m ++ [(e, f)]), Some (VClosure (length (closures m)))).

(** closure.c:50-59 [cee_closure_call] *)
Definition closure_call (m : mem) (c : option val) (n : Z) (args : list (option val)) : outcome (mem * option val) :=
  match c with
  | None => Bad NullDeref
  | Some (VClosure a) =>
    let* (e, f) := of_option BadPointer (nth_error (closures m) a) in
    vfun f m (option_map VEnv e) n args
  | Some _ => Bad BadPointer
  end.

(** env.c:65-68 [cee_env_mk] with a map *)
Definition new_env (m : mem) (outer : option nat) (v : nat) : mem * option val :=
  (Mem (maps m) (envs m ++ [(outer, v)]) (closures m), Some (VEnv (length (envs m)))).

(** map.c:106-109 [cee_map_mk], map.c:150-152 [cee_map_add] on the map at a place;
    the value that was there before is the result *)
Definition new_map (m : mem) : mem * option val :=
  (Mem (maps m ++ [map_mk]) (envs m) (closures m), Some (VMap (length (maps m)))).
Definition bind_name (m : mem) (a : nat) (name : K) (v : option val) : outcome (mem * option val) :=
  let* vars := of_option BadPointer (nth_error (maps m) a) in
  let* (old, vars') := map_add K val kcmp (Some vars) (Some name) v in
  let* vars' := of_option NullDeref vars' in
  Ok (Mem (update (maps m) a vars') (envs m) (closures m), old).

(** A variable of the function *)
Definition var (vs : list (option val)) (i : nat) : outcome (option val) := of_option Uninit (nth_error vs i).
Fixpoint vars_of (vs : list (option val)) (is : list nat) : outcome (list (option val)) :=
  match is with
  | [] => Ok []
  | i :: r => let* v := var vs i in let* l := vars_of vs r in Ok (v :: l)
  end.

(** One call in a function's code: the memory and the result after it, and the
    variable arguments that are left *)
Definition do_op (m : mem) (vs : list (option val)) (n : Z) (args : list (option val)) (o : op)
  : outcome (mem * option val * list (option val)) :=
  match o with
  | ONum z => let* z := int32 z in Ok (m, Some (VInt z), args)
  | OArg => match args with [] => Bad BadVaList | v :: r => Ok (m, v, r) end
  | OCount => let* n := int32 n in Ok (m, Some (VInt n), args)
  | OAdd i j =>
    let* a := var vs i in let* b := var vs j in
    let* a := as_int a in let* b := as_int b in
    let* z := int32 (a + b) in Ok (m, Some (VInt z), args)
  | OMul i j =>
    let* a := var vs i in let* b := var vs j in
    let* a := as_int a in let* b := as_int b in
    let* z := int32 (a * b) in Ok (m, Some (VInt z), args)
  | OMap => let (m', v) := new_map m in Ok (m', v, args)
  | OBind i name j =>
    let* a := var vs i in let* a := as_map a in let* v := var vs j in
    let* (m', old) := bind_name m a name v in Ok (m', old, args)
  | OEnv i j =>
    let* e := var vs i in let* e := as_env e in
    let* a := var vs j in let* a := as_map a in
    let (m', v) := new_env m e a in Ok (m', v, args)
  | OClosure i f =>
    let* e := var vs i in let* e := as_env e in
    let (m', v) := closure_mk m e f in Ok (m', v, args)
  | OFind i name =>
    let* e := var vs i in let* e := as_env e in
    let* t := env_at (length (envs m)) m e in
    let* v := env_find K val kcmp t (Some name) in Ok (m, v, args)
  | OCall i k is =>
    let* c := var vs i in let* l := vars_of vs is in
    let* (m', v) := closure_call m c k l in Ok (m', v, args)
  end.
Fixpoint exec (m : mem) (vs : list (option val)) (n : Z) (args : list (option val)) (p : prog)
  : outcome (mem * option val) :=
  match p with
  | Return i => let* v := var vs i in Ok (m, v)
  | Do o q => let* (m', v, args') := do_op m vs n args o in exec m' (vs ++ [v]) n args' q
  | IfZero i q r =>
    let* v := var vs i in let* z := as_int v in
    if z =? 0 then exec m vs n args q else exec m vs n args r
  end.
End Calls.

(** Running a function of the table [code]; functions may call closures without
    end, hence the fuel. *)
Fixpoint run_fun (code : list prog) (fuel : nat) (f : nat) (m : mem) (e : option val) (n : Z) (args : list (option val))
  : outcome (mem * option val) :=
  match fuel with
  | O => Bad OutOfFuel
  | S fuel' =>
    let* p := of_option BadPointer (nth_error code f) in
    exec (run_fun code fuel') m [e] n args p
  end.

(** A program that starts with no memory and no environment *)
Definition run_main (code : list prog) (fuel : nat) (p : prog) (args : list Z) : outcome (mem * option val) :=
  exec (run_fun code fuel) no_mem [None] (Z.of_nat (length args)) (map (fun z => Some (VInt z)) args) p.
End Closure.
Arguments Mem {K} _ _ _.
Arguments maps {K} _.
Arguments envs {K} _.
Arguments closures {K} _.
Arguments no_mem {K}.
Arguments ONum {K} _.
Arguments OArg {K}.
Arguments OCount {K}.
Arguments OAdd {K} _ _.
Arguments OMul {K} _ _.
Arguments OMap {K}.
Arguments OBind {K} _ _ _.
Arguments OEnv {K} _ _.
Arguments OClosure {K} _ _.
Arguments OFind {K} _ _.
Arguments OCall {K} _ _ _.
Arguments Return {K} _.
Arguments Do {K} _ _.
Arguments IfZero {K} _ _ _.
