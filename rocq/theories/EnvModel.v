(** Model of env.c. *)
From Coq Require Import ZArith List Bool.
From Verif Require Import Base TsearchModel MapModel.
Import ListNotations.
Open Scope Z_scope.
Open Scope outcome_scope.

Section Env.
Variable K V : Type.
Variable kcmp : K -> K -> Z.

(** cee.h [struct cee_env]: the variables (possibly a NULL map) and the enclosing
    environment; [ENull] is the NULL pointer.  The enclosing environment exists
    before cee_env_mk is called, so chains end. *)
Inductive env : Type :=
| ENull
| Env (outer : env) (vars : option (cmap K V)).

(** env.c:65-68 [cee_env_mk] *)
Definition env_mk (outer : env) (vars : option (cmap K V)) : env := Env outer vars.

(** env.c:70-78 [cee_env_find] *)
Fixpoint env_find (e : env) (key : option K) : outcome (option V) :=
  match e with
  | ENull => Ok None
  | Env _ None => Ok None
  | Env outer (Some m) =>
    let* ret := map_find K V kcmp (Some m) key in
    match ret with
    | Some v => Ok (Some v)
    | None => env_find outer key
    end
  end.
End Env.
Arguments ENull {K V}.
Arguments Env {K V} _ _.
