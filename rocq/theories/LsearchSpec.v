(** What the tables of musl-lsearch.c stand for. *)
From Coq Require Import ZArith List Bool.
From Verif Require Import Base LsearchModel.
Import ListNotations.
Open Scope Z_scope.

(** The bytes [cs] are in memory from [p] on. *)
Definition bytes_at (m : lmem) (p : ptr) (cs : list cell) : Prop :=
  0 <= snd p /\
  exists a, nth_error m (fst p) = Some a /\
    forall i c, nth_error cs i = Some c ->
      nth_error a (Z.to_nat (snd p) + i) = Some (Some c).

(** There are [n] bytes from [p] on, written or not. *)
Definition room_at (m : lmem) (p : ptr) (n : nat) : Prop :=
  0 <= snd p /\
  exists a, nth_error m (fst p) = Some a /\ (Z.to_nat (snd p) + n <= length a)%nat.

(** [n] bytes from [p] on and [k] bytes from [q] on do not overlap. *)
Definition apart (p : ptr) (n : nat) (q : ptr) (k : nat) : Prop :=
  fst p <> fst q \/ snd p + Z.of_nat n <= snd q \/ snd q + Z.of_nat k <= snd p.

Definition pointer_bytes (r : ptr) : list cell :=
  [Part r 0; Part r 1; Part r 2; Part r 3; Part r 4; Part r 5; Part r 6; Part r 7].

(** The table: an array of pointers to the rows, at [base]. *)
Definition table_at (m : lmem) (base : ptr) (rows : list ptr) : Prop :=
  bytes_at m base (flat_map pointer_bytes rows).

(** The first rows hold the entries. *)
Definition entries_at (m : lmem) (rows : list ptr) (xs : list (list cell)) : Prop :=
  forall j r x, nth_error rows j = Some r -> nth_error xs j = Some x -> bytes_at m r x.

Section Lookup.
Variable alike : list cell -> list cell -> bool.

(** The position of the first entry that is like the key, or the end. *)
Fixpoint place (xs : list (list cell)) (k : list cell) : nat :=
  match xs with
  | [] => 0
  | x :: xs => if alike x k then 0 else S (place xs k)
  end.

(** The entries when the key was looked up: it is added if none is like it. *)
Definition enter (xs : list (list cell)) (k : list cell) : list (list cell) :=
  if existsb (fun x => alike x k) xs then xs else xs ++ [k].

Definition entered (xs : list (list cell)) (ks : list (list cell)) : list (list cell) :=
  fold_left enter ks xs.

Fixpoint places (xs : list (list cell)) (ks : list (list cell)) : list nat :=
  match ks with
  | [] => []
  | k :: ks => place xs k :: places (enter xs k) ks
  end.
End Lookup.

(** A function that compares the contents of two objects of [w] bytes. *)
Definition compares (compar : lmem -> ptr -> ptr -> outcome Z) (w : nat)
    (alike : list cell -> list cell -> bool) : Prop :=
  forall m p q x y, length x = w -> length y = w -> bytes_at m p x -> bytes_at m q y ->
    exists c, compar m p q = Ok c /\ (c = 0 <-> alike x y = true).

(** Rows of [w] bytes that overlap neither each other nor the table. *)
Definition laid_out (base : ptr) (rows : list ptr) (w : nat) : Prop :=
  (forall i j r s, nth_error rows i = Some r -> nth_error rows j = Some s -> i <> j ->
     apart r w s w) /\
  (forall r, In r rows -> apart r w base (8 * length rows)).

(** A key lies outside the rows that have been given for the table. *)
Definition outside (k : ptr) (rows : list ptr) (w : nat) : Prop :=
  forall r, In r rows -> apart r w k w.
