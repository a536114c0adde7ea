(** Model of set.c on top of TsearchModel.v.

    Elements are pointers of an abstract type [E]; [eqb] is pointer equality
    and [cmp] the user's comparison, which must not change its mind while an
    element is in a set.  Reference counting of elements is in the heap model;
    here a set is its size field and its tree. *)
From Coq Require Import ZArith List Bool.
From Verif Require Import Base TsearchModel.
Import ListNotations.
Open Scope Z_scope.
Open Scope outcome_scope.

Section Set_.
Variable E : Type.
Variable eqb : E -> E -> bool.
Variable cmp : E -> E -> Z.

(** set.c:14-21 [struct header] (size and root [_[0]]). *)
Record cset : Type := CSet { s_size : Z; s_root : tree E }.

(** set.c:77-96 [cee_set_mk_e], [cee_set_mk] *)
Definition set_mk : cset := CSet 0 Nil.

(** set.c:98-106 [cee_set_size], [cee_set_empty]: [FIND_HEADER(NULL)] is
    dereferenced for a NULL set. *)
Definition set_size (s : option cset) : outcome Z :=
  match s with None => Bad NullDeref | Some s => Ok (s_size s) end.
Definition set_empty (s : option cset) : outcome bool :=
  match s with None => Bad NullDeref | Some s => Ok (s_size s =? 0) end.

(** set.c:112-127 [cee_set_add]: [*oldp != val] compares pointers. *)
Definition set_add (s : cset) (val : E) : outcome cset :=
  let* (root, old, _) := tsearch E cmp val (s_root s) in
  if negb (eqb old val) then Ok (CSet (s_size s) root)
  else Ok (CSet (s_size s + 1) root).

(** set.c:142-147 [cee_set_clear]: the elements handed to the deletion
    callback, and the emptied set. *)
Definition set_clear (s : cset) : list E * cset :=
  (tdestroy E (s_root s), CSet 0 Nil).

(** set.c:149-156 [cee_set_find] *)
Definition set_find (s : option cset) (key : E) : outcome (option E) :=
  match s with
  | None => Bad NullDeref
  | Some s => Ok (tfind E cmp key (s_root s))
  end.

(** set.c:158-179 [get_value], [cee_set_values]: contents of the new list. *)
Definition set_values (s : cset) : list E := visited E (s_root s).

(** set.c:181-192 [cee_set_remove] *)
Definition set_remove (s : option cset) (key : E) : outcome (option E * cset) :=
  match s with
  | None => Bad NullDeref
  | Some s =>
    match tfind E cmp key (s_root s) with
    | None => Ok (None, s)
    | Some k =>
      let* (root, _) := tdelete E cmp key (s_root s) in
      Ok (Some k, CSet (s_size s - 1) root)
    end
  end.

(** set.c:228-253 [apply_each], [cee_set_iterate]: NULL is the empty set. *)
Definition set_iterate {S} (s : option cset) (f : S -> E -> outcome S) (ctx : S)
  : outcome S :=
  match s with
  | None => Ok ctx
  | Some s =>
    fold_left (fun o e => let* c := o in f c e) (visited E (s_root s)) (Ok ctx)
  end.

(** Adding a list of elements one after the other. *)
Fixpoint add_all (s : cset) (vs : list E) : outcome cset :=
  match vs with
  | [] => Ok s
  | v :: vs' => let* s' := set_add s v in add_all s' vs'
  end.

(** set.c:194-214 [cee_set_union_set] for sets with the same comparison
    function (otherwise it aborts, [same_cmp] = false). *)
Definition set_union (same_cmp : bool) (s1 s2 : cset) : outcome cset :=
  if same_cmp then
    let* s0 := add_all set_mk (set_values s1) in
    add_all s0 (set_values s2)
  else Bad Abort.

(** set.c:256-273 [_add_v], [cee_set_clone] *)
Definition set_clone (s : cset) : outcome cset :=
  set_iterate (Some s) set_add set_mk.

End Set_.

Arguments CSet {E} _ _.
Arguments s_size {E} _.
Arguments s_root {E} _.
