(** Model of musl-insque.c: doubly linked lists threaded through the objects of
    the caller.  The memory is the list of the objects that exist, an address is
    a position in it; of each object only the two pointers at its start are
    kept, since the code touches nothing else. *)
From Coq Require Import List.
From Verif Require Import Base.
Import ListNotations.
Open Scope outcome_scope.

(** A pointer: [None] is NULL. *)
Definition link : Type := option nat.

(** musl-insque.c:9-12 [struct S(node)]; a field that was never written is
    [None]. *)
Record qnode : Type := QNode { q_next : option link; q_prev : option link }.

(** The objects by their address, and dereferencing; an address outside is no
    object. *)
Definition qmem : Type := list qnode.

Definition node_at (m : qmem) (a : nat) : outcome qnode :=
  of_option BadPointer (nth_error m a).

(** [x->next], [x->prev] *)
Definition get_next (m : qmem) (a : nat) : outcome link :=
  let* n := node_at m a in of_option Uninit (q_next n).
Definition get_prev (m : qmem) (a : nat) : outcome link :=
  let* n := node_at m a in of_option Uninit (q_prev n).

(** [x->next = v], [x->prev = v] *)
Definition set_next (m : qmem) (a : nat) (v : link) : outcome qmem :=
  let* n := node_at m a in Ok (update m a (QNode (Some v) (q_prev n))).
Definition set_prev (m : qmem) (a : nat) (v : link) : outcome qmem :=
  let* n := node_at m a in Ok (update m a (QNode (q_next n) (Some v))).

(** musl-insque.c:14-28 [musl_insque] *)
Definition insque (m : qmem) (e : nat) (pred : link) : outcome qmem :=
  match pred with
  | None =>
      let* m := set_prev m e None in
      set_next m e None
  | Some p =>
      let* n := get_next m p in
      let* m := set_next m e n in
      let* m := set_prev m e (Some p) in
      let* m := set_next m p (Some e) in
      let* n := get_next m e in
      match n with
      | None => Ok m
      | Some x => set_prev m x (Some e)
      end
  end.

(** musl-insque.c:30-38 [musl_remque] *)
Definition remque (m : qmem) (e : nat) : outcome qmem :=
  let* n := get_next m e in
  let* m :=
    match n with
    | None => Ok m
    | Some x => let* p := get_prev m e in set_prev m x p
    end in
  let* p := get_prev m e in
  match p with
  | None => Ok m
  | Some x => let* n := get_next m e in set_next m x n
  end.

(** What a caller does with the objects.  [QClose] is not a call: the caller
    makes an object the only one of a circular list by pointing it to itself,
    as POSIX asks for. *)
Inductive qop : Type :=
| QAlone (e : nat)
| QAfter (p e : nat)
| QRemove (e : nat)
| QClose (e : nat).

(** One of them (musl-insque.c:14-39), and all in order. *)
Definition qstep (m : qmem) (o : qop) : outcome qmem :=
  match o with
  | QAlone e => insque m e None
  | QAfter p e => insque m e (Some p)
  | QRemove e => remque m e
  | QClose e => let* m := set_next m e (Some e) in set_prev m e (Some e)
  end.

Fixpoint qrun (m : qmem) (os : list qop) : outcome qmem :=
  match os with
  | [] => Ok m
  | o :: os => let* m := qstep m o in qrun m os
  end.
