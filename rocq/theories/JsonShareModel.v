(** Model of programs that put one JSON value into several places: the operations
    of JsonEditModel on pointers the program keeps. *)
From Coq Require Import ZArith List Bool.
From Verif Require Import Base Json HeapModel JsonMemModel JsonEditModel.
Import ListNotations.
Open Scope outcome_scope.

(** cee-json/value.c:615-625 [cee_json_array_concat].  The size of [src] is read
    again before every step; if both are the same array, which is not empty, the
    loop does not end. *)
Definition array_concat (h : heap) (dest src : val) : outcome heap :=
  let* d := to_array h dest in
  let* s := to_array h src in
  let* d := not_null d in
  let* s := not_null s in
  let* d := target d in
  let* s := target s in
  let* (_, vs) := get_obj h s in
  if (d =? s)%nat then match vs with [] => Ok h | _ => Bad OutOfFuel end
  else foldm (fun h e => list_append h d e) h vs.

(** The program has a list of pointers, which only grows; [i] and [j] are places in
    that list.  Nothing is said of who owns what: the same pointer may be used any
    number of times. *)
Inductive share : Type :=
| SNew (x : json)
| SPart (i : nat) (s : step)              (* the pointer to a part is kept as well *)
| SSet (i : nat) (key : text) (j : nat)
| SAppend (i j : nat)
| SInsert (i k j : nat)
| SConcat (i j : nat)
| SRemoveAt (i k : nat)
| SRemove (i : nat) (key : text)
| SDelete (i : nat).

Section Program.
Variables (st : addr) (ss : statics) (place : heap -> addr -> nat) (deep : nat).
Variable mk_str : text -> outcome text.

(** One call of the program.  The registers keep the pointers it got from the
    constructors. *)
Definition sstep (s : heap * contents * list val) (o : share) : outcome (heap * contents * list val) :=
  let '(h, c, vs) := s in
  let reg i := of_option OutOfBounds (nth_error vs i) in
  match o with
  | SNew x =>
    let* (h, c, v) := new_value st ss mk_str h c x in Ok (h, c, vs ++ [v])
  | SPart i s =>
    let* a := reg i in
    let* v := walk h c a [s] in
    Ok (h, c, vs ++ [v])
  | SSet i key j =>
    let* a := reg i in
    let* b := reg j in
    let* (h, c) := object_set st place deep mk_str h c a key b in
    Ok (h, c, vs)
  | SAppend i j =>
    let* a := reg i in
    let* b := reg j in
    let* h := array_append h a b in
    Ok (h, c, vs)
  | SInsert i k j =>
    let* a := reg i in
    let* b := reg j in
    let* h := array_insert h a k b in
    Ok (h, c, vs)
  | SConcat i j =>
    let* a := reg i in
    let* b := reg j in
    let* h := array_concat h a b in
    Ok (h, c, vs)
  | SRemoveAt i k =>
    let* a := reg i in
    let* h := array_remove h a k in
    Ok (h, c, vs)
  | SRemove i key =>
    let* a := reg i in
    let* h := object_remove deep h c a key in
    Ok (h, c, vs)
  | SDelete i =>
    let* a := reg i in
    let* h := cee_del deep h a in
    Ok (h, c, vs)
  end.
(** All calls, in order. *)
Fixpoint splay (ops : list share) (s : heap * contents * list val) : outcome (heap * contents * list val) :=
  match ops with
  | [] => Ok s
  | o :: r => let* s := sstep s o in splay r s
  end.
End Program.
