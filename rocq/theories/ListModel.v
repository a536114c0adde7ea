(** Model of list.c: growable arrays of pointers.

    Only the element array is modelled here (reference counts of the elements
    are in the heap model).  Pointers are an abstract type [A].  Array accesses
    are checked ([Bad OutOfBounds]); fresh array cells are indeterminate.
    Loop counters of C type int are unbounded integers, except for the
    conversion [int i = m->size] in cee_list_insert. *)
From Coq Require Import ZArith List Bool.
From Verif Require Import Base.
Import ListNotations.
Open Scope Z_scope.
Open Scope outcome_scope.

Section List.
Variable A : Type.

(** list.c:14-20 [struct header]: size, capacity and the array [_.a]. *)
Record clist : Type := CList { l_size : Z; l_capacity : Z; l_a : list (option A) }.

(** list.c:50-71 [cee_list_mk_e], [cee_list_mk]: [malloc(cap * sizeof(void* ))]. *)
Definition list_mk (cap : Z) : clist := CList 0 cap (repeat None (Z.to_nat cap)).

(** list.c:75-81 and :89-95: double the array when it is full. *)
Definition list_reserve (l : clist) : clist :=
  let extra_cap := if l_capacity l =? 0 then 1 else l_capacity l in
  if l_size l =? l_capacity l then
    let c := l_capacity l + extra_cap in
    CList (l_size l) c (agrow (l_a l) c)
  else l.

(** list.c:73-85 [cee_list_append] *)
Definition list_append (l : clist) (e : A) : outcome clist :=
  let l := list_reserve l in
  let* a := aset (l_a l) (l_size l) (Some e) in
  Ok (CList (l_size l + 1) (l_capacity l) a).

(** list.c:97-98 [for (i = m->size; i > index; i--) v->a[i] = v->a[i-1];]
    with [n] iterations to go. *)
Fixpoint shift_up (n : nat) (i : Z) (a : list (option A))
  : outcome (list (option A)) :=
  match n with
  | O => Ok a
  | S n' =>
    let* x := aget a (i - 1) in
    let* a' := aset a i x in
    shift_up n' (i - 1) a'
  end.

(** list.c:87-103 [cee_list_insert] *)
Definition list_insert (l : clist) (index : Z) (e : A) : outcome clist :=
  let l := list_reserve l in
  let i := to_int32 (l_size l) in
  let* a := shift_up (Z.to_nat (i - index)) i (l_a l) in
  let* a := aset a index (Some e) in
  Ok (CList (l_size l + 1) (l_capacity l) a).

(** list.c:113-114 [for (i = index; i < m->size-1; i++) v->a[i] = v->a[i+1];] *)
Fixpoint shift_down (n : nat) (i : Z) (a : list (option A))
  : outcome (list (option A)) :=
  match n with
  | O => Ok a
  | S n' =>
    let* x := aget a (i + 1) in
    let* a' := aset a i x in
    shift_down n' (i + 1) a'
  end.

(** list.c:105-119 [cee_list_remove].  [index >= m->size] compares an int with
    an unsigned 64-bit integer, so the int is converted to unsigned.  The
    argument is [None] for a NULL list.  [a[index] = 0] writes NULL; the value
    is overwritten by the loop or ends up outside the list, [None] stands for
    it. *)
Definition list_remove (l : option clist) (index : Z)
  : outcome (bool * option clist) :=
  match l with
  | None => Ok (false, None)
  | Some l =>
    if wrap 64 index >=? l_size l then Ok (false, Some l)
    else
      let* _ := aget (l_a l) index in
      let* a := aset (l_a l) index None in
      let* a := shift_down (Z.to_nat (l_size l - 1 - index)) index a in
      Ok (true, Some (CList (l_size l - 1) (l_capacity l) a))
  end.

(** list.c:122-132 [cee_list_size], [cee_list_capacity] (NULL gives 0). *)
Definition list_size (l : option clist) : Z :=
  match l with None => 0 | Some l => l_size l end.
Definition list_capacity (l : option clist) : Z :=
  match l with None => 0 | Some l => l_capacity l end.

(** list.c:134-144 [cee_list_iterate].  The callback may change the world [S];
    the list is looked up in the world in every iteration, since the callback
    may modify it.  The result [None] is the indeterminate value of the
    uninitialised local [ret] that is returned when the loop body never runs. *)
Section Iterate.
Variable S : Type.
Variable the_list : S -> clist.
Variable f : S -> A -> Z -> outcome (S * Z).

(** list.c:138-142, the loop *)
Fixpoint iterate_from (fuel : nat) (s : S) (i : Z) (ret : option Z)
  : outcome (S * option Z) :=
  match fuel with
  | O => Bad OutOfFuel
  | Datatypes.S fuel' =>
    if i <? l_size (the_list s) then
      let* x := aread (l_a (the_list s)) i in
      let* (s', r) := f s x i in
      if r =? 0 then iterate_from fuel' s' (i + 1) (Some r)
      else Ok (s', Some r)
    else Ok (s, ret)
  end.

(** the whole function; NULL gives 0 *)
Definition list_iterate (fuel : nat) (null : bool) (s : S)
  : outcome (S * option Z) :=
  if null then Ok (s, Some 0) else iterate_from fuel s 0 None.
End Iterate.

(** list.c:146-155 [_add_v], [cee_list_merge] for two different lists: the
    world is (dest, src) and the callback appends to dest. *)
Definition list_merge (fuel : nat) (dest src : clist)
  : outcome (clist * clist) :=
  let* (s, _) := list_iterate (clist * clist) snd
       (fun s e _ => let* d := list_append (fst s) e in Ok ((d, snd s), 0))
       fuel false (dest, src) in
  Ok s.

(** The same call with dest == src: there is only one list. *)
Definition list_merge_self (fuel : nat) (l : clist) : outcome clist :=
  let* (s, _) := list_iterate clist (fun s => s)
       (fun s e _ => let* d := list_append s e in Ok (d, 0))
       fuel false l in
  Ok s.

End List.

Arguments CList {A} _ _ _.
Arguments l_size {A} _.
Arguments l_capacity {A} _.
Arguments l_a {A} _.
Arguments list_mk {A} cap.
Arguments list_append {A} l e.
Arguments list_insert {A} l index e.
Arguments list_remove {A} l index.
Arguments list_size {A} l.
Arguments list_capacity {A} l.
Arguments list_merge {A} fuel dest src.
Arguments list_merge_self {A} fuel l.
Arguments list_iterate {A S} the_list f fuel null s.
