(** Model of stack.c: bounded stacks of pointers.  [used] and [top] are 64-bit
    unsigned; wraparound is written out. *)
From Coq Require Import ZArith List Bool.
From Verif Require Import Base.
Import ListNotations.
Open Scope Z_scope.
Open Scope outcome_scope.

Section Stack.
Variable A : Type.

(** stack.c:14-21 [struct header] with the flexible array [_]. *)
Record cstack : Type := CStack {
  k_used : Z; k_top : Z; k_capacity : Z; k_a : list (option A)
}.

(** stack.c:49-67 [cee_stack_mk_e], [cee_stack_mk]: [m->top = (0-1)] converts
    the int -1 to an unsigned 64-bit integer. *)
Definition stack_mk (size : Z) : cstack :=
  CStack 0 (wrap 64 (0 - 1)) size (repeat None (Z.to_nat size)).

(** stack.c:69-79 [cee_stack_push] *)
Definition stack_push (s : cstack) (e : A) : outcome (Z * cstack) :=
  if k_used s =? k_capacity s then Ok (0, s)
  else
    let top := wrap 64 (k_top s + 1) in
    let used := wrap 64 (k_used s + 1) in
    let* a := aset (k_a s) top (Some e) in
    Ok (1, CStack used top (k_capacity s) a).

(** stack.c:81-93 [cee_stack_pop]; [None] is NULL. *)
Definition stack_pop (s : cstack) : outcome (option A * cstack) :=
  if k_used s =? 0 then Ok (None, s)
  else
    let* p := aread (k_a s) (k_top s) in
    Ok (Some p, CStack (wrap 64 (k_used s - 1)) (wrap 64 (k_top s - 1))
                       (k_capacity s) (k_a s)).

(** stack.c:99-105 [cee_stack_top] with [nth] unsigned *)
Definition stack_top (s : cstack) (nth : Z) : outcome (option A) :=
  if (k_used s =? 0) || (nth >=? k_used s) then Ok None
  else let* p := aread (k_a s) (wrap 64 (k_top s - nth)) in Ok (Some p).

(** stack.c:107-110, 119-127 [cee_stack_size], [cee_stack_empty],
    [cee_stack_full] *)
Definition stack_size (s : cstack) : Z := k_used s.
Definition stack_empty (s : cstack) : bool := k_used s =? 0.
Definition stack_full (s : cstack) : bool := k_used s >=? k_capacity s.
End Stack.

Arguments CStack {A} _ _ _ _.
Arguments k_used {A} _.
Arguments k_top {A} _.
Arguments k_capacity {A} _.
Arguments k_a {A} _.
Arguments stack_mk {A} size.
Arguments stack_push {A} s e.
Arguments stack_pop {A} s.
Arguments stack_top {A} s nth.
Arguments stack_size {A} s.
Arguments stack_empty {A} s.
Arguments stack_full {A} s.
