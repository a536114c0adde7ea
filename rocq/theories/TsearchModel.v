(** Model of musl-tsearch.c: the AVL tree behind cee_set and cee_map.

    Nodes are values instead of heap cells; the array [a] of pointers to child
    slots that the C code collects while descending is an explicit list of
    frames (a zipper), so the bound of that array is part of the model
    ([Bad OutOfBounds] when it is exceeded) and the early exit of the
    rebalancing loop is modelled as it is written.  malloc never fails. *)
From Coq Require Import ZArith List Bool.
From Verif Require Import Base.
Import ListNotations.
Open Scope Z_scope.
Open Scope outcome_scope.

Section Tsearch.
Variable E : Type.

(** musl-tsearch.c:13-17 [struct tnode]: key, a[0], a[1], h.  [Nil] is NULL. *)
Inductive tree : Type :=
| Nil
| Node (key : E) (a0 a1 : tree) (h : Z).

(** musl-tsearch.c:11 [MAXH]: sizeof(void* )*8*3/2 on a 64-bit machine. *)
Definition MAXH : Z := 8 * 8 * 3 / 2.

(** musl-tsearch.c:20 [height]: the recorded height. *)
Definition height (n : tree) : Z :=
  match n with Nil => 0 | Node _ _ _ h => h end.

(** [n->a[dir]] *)
Definition child (a0 a1 : tree) (dir : bool) : tree := if dir then a1 else a0.

(** A node with [x] in slot [dir] and [y] in slot [!dir]. *)
Definition mknode (dir : bool) (k : E) (x y : tree) (h : Z) : tree :=
  if dir then Node k y x h else Node k x y h.

(** musl-tsearch.c:22-61 [rot]: rotation at a node x (key [xk], children [a0]
    [a1], recorded height [hx]) whose side [dir] is too deep.  Returns the new
    content of [*p] and [z->h - hx]. *)
Definition rot (xk : E) (a0 a1 : tree) (hx : Z) (dir : bool) : outcome (tree * Z) :=
  let A := child a0 a1 (negb dir) in
  match child a0 a1 dir with
  | Nil => Bad NullDeref
  | Node yk y0 y1 hy =>
    let z := child y0 y1 (negb dir) in
    let D := child y0 y1 dir in
    let hz := height z in
    if hz >? height D then
      match z with
      | Nil => Bad NullDeref
      | Node zk z0 z1 _ =>
        let x' := mknode dir xk (child z0 z1 (negb dir)) A hz in
        let y' := mknode dir yk D (child z0 z1 dir) hz in
        Ok (mknode dir zk y' x' (hz + 1), hz + 1 - hx)
      end
    else
      let x' := mknode dir xk z A (hz + 1) in
      Ok (mknode dir yk D x' (hz + 2), hz + 2 - hx)
  end.

(** musl-tsearch.c:64-75 [__tsearch_balance]: the test
    [h0 - h1 + 1u < 3u] is in 32-bit unsigned arithmetic. *)
Definition balance (n : tree) : outcome (tree * Z) :=
  match n with
  | Nil => Bad NullDeref
  | Node k a0 a1 old =>
    let h0 := height a0 in
    let h1 := height a1 in
    if wrap 32 (h0 - h1 + 1) <? 3 then
      let h := if h0 <? h1 then h1 + 1 else h0 + 1 in
      Ok (Node k a0 a1 h, h - old)
    else rot k a0 a1 old (h0 <? h1)
  end.

(** One entry of the path array: the slot [dir] of a node with the given key,
    other child and recorded height. *)
Record frame : Type := Frame {
  f_dir : bool; f_key : E; f_other : tree; f_h : Z
}.

(** Store [t] in the slot described by the frame. *)
Definition fill (f : frame) (t : tree) : tree :=
  mknode (f_dir f) (f_key f) t (f_other f) (f_h f).

(** The root after storing [t] in the innermost slot and leaving everything
    above as it is. *)
Fixpoint plug (path : list frame) (t : tree) : tree :=
  match path with
  | [] => t
  | f :: path' => plug path' (fill f t)
  end.

(** musl-tsearch.c:105 and :207 [while (i && balance(a[--i]));] with the
    slots above [t] in [path], innermost first. *)
Fixpoint rebalance (path : list frame) (t : tree) : outcome tree :=
  match path with
  | [] => Ok t
  | f :: path' =>
    let* (t', d) := balance (fill f t) in
    if d =? 0 then Ok (plug path' t') else rebalance path' t'
  end.

(** Pushing one more entry on a path array with room for [cap] entries of
    which [used] are taken already. *)
Definition push (cap used : Z) (f : frame) (path : list frame)
  : outcome (list frame) :=
  if used <? cap then Ok (f :: path) else Bad OutOfBounds.

Variable cmp : E -> E -> Z.

(** What the search loop of tsearch/tdelete ends with. *)
Inductive sought : Type :=
| NotThere                                  (* fell off the tree *)
| There (k : E) (a0 a1 : tree) (h : Z).     (* node comparing equal *)

(** musl-tsearch.c:88-96 and :177-185: descend, recording the path.  [used]
    is the number of array entries already taken, [cap] the array size. *)
Fixpoint descend (cap : Z) (key : E) (n : tree) (used : Z) (path : list frame)
  : outcome (sought * list frame * Z) :=
  match n with
  | Nil => Ok (NotThere, path, used)
  | Node k a0 a1 h =>
    let c := cmp key k in
    if c =? 0 then Ok (There k a0 a1 h, path, used)
    else
      let d := c >? 0 in
      let* path' := push cap used (Frame d k (child a0 a1 (negb d)) h) path in
      descend cap key (child a0 a1 d) (used + 1) path'
  end.

(** musl-tsearch.c:77-107 [musl_tsearch]: returns the new root, the key of the
    node the returned pointer designates, and whether that node is new. *)
Definition tsearch (key : E) (root : tree) : outcome (tree * E * bool) :=
  let* (s, path, used) := descend MAXH key root 1 [] in
  match s with
  | There k _ _ _ => Ok (root, k, false)
  | NotThere =>
    let* t := rebalance path (Node key Nil Nil 1) in
    Ok (t, key, true)
  end.

(** musl-tsearch.c:121-137 [musl_tfind]: the key of the node found, if any. *)
Fixpoint tfind (key : E) (n : tree) : option E :=
  match n with
  | Nil => None
  | Node k a0 a1 _ =>
    let c := cmp key k in
    if c =? 0 then Some k else tfind key (child a0 a1 (c >? 0))
  end.

(** musl-tsearch.c:190-195: descend to the preceding node: from the left child
    as far right as possible.  Returns its key and its left child. *)
Fixpoint predecessor (cap : Z) (n : tree) (used : Z) (path : list frame)
  : outcome (E * tree * list frame) :=
  match n with
  | Nil => Bad NullDeref
  | Node k a0 a1 h =>
    match a1 with
    | Nil => Ok (k, a0, path)
    | Node _ _ _ _ =>
      let* path' := push cap used (Frame true k a0 h) path in
      predecessor cap a1 (used + 1) path'
    end
  end.

(** musl-tsearch.c:162-209 [musl_tdelete]: returns the new root and whether a
    node was found (the C function returns the parent node, which no caller in
    cee uses).  The overwritten key of the deleted node ([deleted->key =
    n->key], line 196) appears in the frame of that node. *)
Definition tdelete (key : E) (root : tree) : outcome (tree * bool) :=
  let* (s, path, used) := descend (MAXH + 1) key root 2 [] in
  match s with
  | NotThere => Ok (root, false)
  | There _ a0 a1 h =>
    match a0 with
    | Node k0 _ _ _ =>
      (* a[i++] = &n->a[0]; the frame's key is the predecessor's *)
      let* (pk, ch, path1) :=
        (let* _ := push (MAXH + 1) used (Frame false k0 a1 h) path in
         predecessor (MAXH + 1) a0 (used + 1) []) in
      let* t := rebalance (path1 ++ Frame false pk a1 h :: path) ch in
      Ok (t, true)
    | Nil =>
      let* t := rebalance path a1 in
      Ok (t, true)
    end
  end.

(** The visits of musl-search.h [VISIT]. *)
Inductive visit : Type := preorder | postorder | endorder | leaf.

(** musl-tsearch.c:139-159 [walk], [musl_twalk]: the sequence of calls of the
    action, with the node's key, the kind of visit and the depth. *)
Fixpoint walk (r : tree) (d : Z) : list (E * visit * Z) :=
  match r with
  | Nil => []
  | Node k a0 a1 h =>
    if h =? 1 then [(k, leaf, d)]
    else (k, preorder, d) :: walk a0 (d + 1)
         ++ (k, postorder, d) :: walk a1 (d + 1) ++ [(k, endorder, d)]
  end.
Definition twalk (r : tree) : list (E * visit * Z) := walk r 0.

(** musl-tsearch.c:109-119 [musl_tdestroy]: the keys handed to [freekey], in
    order; every node is freed right after its key. *)
Fixpoint tdestroy (r : tree) : list E :=
  match r with
  | Nil => []
  | Node k a0 a1 _ => tdestroy a0 ++ tdestroy a1 ++ [k]
  end.

(** The keys on which a callback that reacts to [preorder] and [leaf] only
    (as all callbacks in set.c and map.c do) acts, in order. *)
Definition visited (r : tree) : list E :=
  flat_map (fun '(k, v, _) =>
              match v with preorder | leaf => [k] | _ => [] end) (twalk r).

End Tsearch.

Arguments Nil {E}.
Arguments Node {E} key a0 a1 h.
Arguments height {E} n.
Arguments Frame {E} _ _ _ _.
