(** Model of the constructors of tuple.c, triple.c, quadruple.c and n_tuple.c on
    top of HeapModel.v. *)
From Coq Require Import ZArith List Bool.
From Verif Require Import Base HeapModel.
Import ListNotations.
Open Scope Z_scope.
Open Scope outcome_scope.

(** tuple.c:45-68 [cee_tuple_mk_e], [cee_tuple_mk] *)
Definition tuple_mk_e (h : heap) (st : addr) (p1 p2 : policy) (v1 v2 : val) :=
  mk_prod h st [p1; p2] [v1; v2].
Definition tuple_mk (h : heap) (st : addr) (v1 v2 : val) := tuple_mk_e h st DEL_RC DEL_RC v1 v2.

(** triple.c:44-69 [cee_triple_mk_e], [cee_triple_mk] *)
Definition triple_mk_e (h : heap) (st : addr) (p1 p2 p3 : policy) (v1 v2 v3 : val) :=
  mk_prod h st [p1; p2; p3] [v1; v2; v3].
Definition triple_mk (h : heap) (st : addr) (v1 v2 v3 : val) :=
  triple_mk_e h st DEL_RC DEL_RC DEL_RC v1 v2 v3.

(** quadruple.c:44-66 [cee_quadruple_mk_e]; cee_quadruple_mk (cee.h:365) is
    declared but defined nowhere. *)
Definition quadruple_mk_e (h : heap) (st : addr) (p1 p2 p3 p4 : policy) (v1 v2 v3 v4 : val) :=
  mk_prod h st [p1; p2; p3; p4] [v1; v2; v3; v4].

(** va_arg, [n] times: the arguments passed are [args] *)
Fixpoint va_args (n : nat) (args : list val) : outcome (list val) :=
  match n, args with
  | O, _ => Ok []
  | S n', v :: r => let* vs := va_args n' r in Ok (v :: vs)
  | S _, [] => Bad BadVaList
  end.

(** n_tuple.c:13 CEE_MAX_N_TUPLE *)
Definition max_n_tuple : nat := 16.

(** n_tuple.c:48-83 [cee_n_tuple_v], [cee_n_tuple_mk].  The loop that fetches the
    arguments and the one that counts them are one loop in C; nothing else reads
    the object in between.  The temporary array of policies (:75-78, :81) is not
    part of the heap model. *)
Definition n_tuple_mk (h : heap) (st : addr) (n : nat) (args : list val) : outcome (heap * addr) :=
  if (max_n_tuple <? n)%nat then Bad Abort
  else
    let* vs := va_args n args in
    mk_prod h st (repeat DEL_RC n) vs.

(** [x->_[i]] of a product (cee.h: struct cee_tuple, cee_triple, ...) *)
Definition component (h : heap) (a : addr) (i : nat) : outcome val :=
  let* (k, vs) := get_obj h a in
  match k with
  | KProd _ => of_option OutOfBounds (nth_error vs i)
  | _ => Bad BadPointer
  end.
