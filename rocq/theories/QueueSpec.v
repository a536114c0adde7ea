(** What the linked lists of musl-insque.c stand for. *)
From Coq Require Import List PeanoNat.
From Verif Require Import Base QueueModel.
Import ListNotations.

(** The pointers of the object at [a]. *)
Definition points (m : qmem) (a : nat) (next prev : link) : Prop :=
  nth_error m a = Some (QNode (Some next) (Some prev)).

(** [l] is a list with two ends: the object at position [i] points to those at
    the positions beside it, and to NULL where there is none. *)
Definition line (m : qmem) (l : list nat) : Prop :=
  forall i a, nth_error l i = Some a ->
    points m a (nth_error l (S i))
               (match i with O => None | S j => nth_error l j end).

(** [l] is a circular list: positions count modulo the length. *)
Definition ring (m : qmem) (l : list nat) : Prop :=
  forall i a, nth_error l i = Some a ->
    points m a (nth_error l ((i + 1) mod length l))
               (nth_error l ((i + length l - 1) mod length l)).

(** The lists of a program. *)
Inductive queue : Type :=
| Line (l : list nat)
| Ring (l : list nat).

Definition elements (q : queue) : list nat := match q with Line l | Ring l => l end.

Definition in_memory (m : qmem) (q : queue) : Prop :=
  match q with Line l => line m l | Ring l => ring m l end.

Definition on_elements (f : list nat -> list nat) (q : queue) : queue :=
  match q with Line l => Line (f l) | Ring l => Ring (f l) end.

Definition used (qs : list queue) : list nat := flat_map elements qs.

(** [e] comes right behind [p]; [e] is left out. *)
Definition behind (p e : nat) (l : list nat) : list nat :=
  flat_map (fun x => if x =? p then [x; e] else [x]) l.
Definition without (e : nat) (l : list nat) : list nat :=
  filter (fun x => negb (x =? e)) l.

Definition qeffect (qs : list queue) (o : qop) : list queue :=
  match o with
  | QAlone e => Line [e] :: qs
  | QAfter p e => map (on_elements (behind p e)) qs
  | QRemove e => map (on_elements (without e)) qs
  | QClose e => Ring [e] :: qs
  end.

(** What a caller may do: an object goes into one list only, is put behind one
    that is in a list, and only what is in a list is taken out.  [n] is the
    number of objects that exist. *)
Definition qallowed (n : nat) (qs : list queue) (o : qop) : Prop :=
  match o with
  | QAlone e | QClose e => e < n /\ ~ In e (used qs)
  | QAfter p e => e < n /\ ~ In e (used qs) /\ In p (used qs)
  | QRemove e => In e (used qs)
  end.

Fixpoint qeffects (qs : list queue) (os : list qop) : list queue :=
  match os with [] => qs | o :: os => qeffects (qeffect qs o) os end.
Fixpoint qallallowed (n : nat) (qs : list queue) (os : list qop) : Prop :=
  match os with
  | [] => True
  | o :: os => qallowed n qs o /\ qallallowed n (qeffect qs o) os
  end.

(** The objects that an operation names. *)
Definition names (o : qop) : list nat :=
  match o with QAlone e | QRemove e | QClose e => [e] | QAfter p e => [p; e] end.

(** All lists are in memory and no object is in two places. *)
Definition qinv (m : qmem) (qs : list queue) : Prop :=
  NoDup (used qs) /\ Forall (in_memory m) qs.
