(** Model of the object heap: cee-common.c, cee-resize.h, state.c and the
    [S(trace)] function, constructors and element operations of every container.

    An address stands for one allocation of a library object (header, [cee_sect]
    and data together); memory that is private to one object and freed in the
    same [S(trace)] case as the object (the array of a list, tree nodes of sets
    and maps, the hash table of a dictionary) is part of that object.  malloc
    never fails and never returns an address used before, so every access to a
    freed object is seen as such.  The contents of strings, boxes and raw blocks
    are not represented here. *)
From Coq Require Import ZArith List Bool.
From Verif Require Import Base.
Import ListNotations.
Open Scope Z_scope.
Open Scope outcome_scope.

(** An object of the library: the pointers [cee_del] and the containers work with,
    as numbers in the order of allocation (cee.h:86-104). *)
Definition addr : Type := nat.

(** A pointer stored in or passed to a container: NULL, a library object, or
    something else (for instance a string literal). *)
Inductive val : Type := VNull | VPtr (a : addr) | VForeign.

(** cee.h:71-75 [enum cee_del_policy] *)
Inductive policy : Type := DEL_RC | DEL | NOOP.

(** cee.h:33-37 [enum cee_resize_method] *)
Inductive rmeth : Type := M_IDENTITY | M_MALLOC | M_REALLOC.

(** Which [S(trace)] an object has, with the policies in its header.
    KLeaf: boxed.c, str.c, block.c.  KStatic: singleton.c.  KProd: tuple.c,
    triple.c, quadruple.c, n_tuple.c, tagged.c (a single component). *)
Inductive kind : Type :=
| KLeaf | KStatic | KClosure
| KList (p : policy)
| KStack (p : policy) (cap : Z)
| KProd (ps : list policy)
| KEnv (p_outer p_vars : policy)
| KDict (p : policy)
| KSet (p : policy)
| KMap (p_key p_val : policy).

(** What an object holds.  BState: state.c, cee.h:706-724.  BObj: the pointers
    in the object: closure [env]; environment [outer; vars]; dictionary
    [keys; vals]; map: the list of keys followed by the key/value tuples, in an
    arbitrary order (of the tree); set: the elements in an arbitrary order. *)
Inductive body : Type :=
| BState (tail roots stack contexts : addr) (next_mark : Z)
| BObj (k : kind) (vs : list val).

(** cee.h:86-104 [struct cee_sect] *)
Record block : Type := Block {
  b_body : body;
  b_rc : Z;                (* in_degree, uint16_t *)
  b_ret : bool;            (* retained *)
  b_mark : Z;              (* gc_mark *)
  b_state : addr;
  b_prev : option addr;    (* trace_prev *)
  b_next : option addr;    (* trace_next *)
  b_meth : rmeth           (* resize_method *)
}.

(** [h_next]: addresses below it have been allocated; [h_freed]: the addresses
    passed to free so far, in order. *)
Record heap : Type := Heap {
  h_mem : addr -> option block; h_next : addr; h_freed : list addr
}.

(** The heap with another block at [a] (helper). *)
Definition set_mem (h : heap) (a : addr) (b : option block) : heap :=
  Heap (fun x => if (x =? a)%nat then b else h_mem h x) (h_next h) (h_freed h).

(** Dereferencing *)
Definition get (h : heap) (a : addr) : outcome block :=
  match h_mem h a with
  | Some b => Ok b
  | None => Bad (if (a <? h_next h)%nat then UseAfterFree else BadPointer)
  end.
Definition modify (h : heap) (a : addr) (f : block -> block) : outcome heap :=
  let* b := get h a in Ok (set_mem h a (Some (f b))).
Definition free (h : heap) (a : addr) : outcome heap :=
  match h_mem h a with
  | Some _ => Ok (Heap (fun x => if (x =? a)%nat then None else h_mem h x) (h_next h) (h_freed h ++ [a]))
  | None => Bad DoubleFree
  end.
Definition malloc (h : heap) (b : block) : heap * addr :=
  (Heap (fun x => if (x =? h_next h)%nat then Some b else h_mem h x) (S (h_next h)) (h_freed h), h_next h).

(** One field of a block replaced: the fields of [struct cee_sect] (cee.h:86-104),
    and the contents (helpers). *)
Definition set_body (v : body) (b : block) : block :=
  Block v (b_rc b) (b_ret b) (b_mark b) (b_state b) (b_prev b) (b_next b) (b_meth b).
Definition set_rc (v : Z) (b : block) : block :=
  Block (b_body b) v (b_ret b) (b_mark b) (b_state b) (b_prev b) (b_next b) (b_meth b).
Definition set_ret (v : bool) (b : block) : block :=
  Block (b_body b) (b_rc b) v (b_mark b) (b_state b) (b_prev b) (b_next b) (b_meth b).
Definition set_mark (v : Z) (b : block) : block :=
  Block (b_body b) (b_rc b) (b_ret b) v (b_state b) (b_prev b) (b_next b) (b_meth b).
Definition set_state (v : addr) (b : block) : block :=
  Block (b_body b) (b_rc b) (b_ret b) (b_mark b) v (b_prev b) (b_next b) (b_meth b).
Definition set_prev (v : option addr) (b : block) : block :=
  Block (b_body b) (b_rc b) (b_ret b) (b_mark b) (b_state b) v (b_next b) (b_meth b).
Definition set_next (v : option addr) (b : block) : block :=
  Block (b_body b) (b_rc b) (b_ret b) (b_mark b) (b_state b) (b_prev b) v (b_meth b).
Definition set_meth (v : rmeth) (b : block) : block :=
  Block (b_body b) (b_rc b) (b_ret b) (b_mark b) (b_state b) (b_prev b) (b_next b) v.

(** * The allocation chain *)
(** [st->trace_tail]; [st] must be a state *)
Definition get_tail (h : heap) (st : addr) : outcome addr :=
  let* b := get h st in
  match b_body b with BState t _ _ _ _ => Ok t | BObj _ _ => Bad BadPointer end.
Definition set_tail (h : heap) (st : addr) (t : addr) : outcome heap :=
  let* b := get h st in
  match b_body b with
  | BState _ r s c m => Ok (set_mem h st (Some (set_body (BState t r s c m) b)))
  | BObj _ _ => Bad BadPointer
  end.

(** cee-resize.h:5-12 [S(chain)] *)
Definition chain (h : heap) (a st : addr) : outcome heap :=
  let* h := modify h a (set_state st) in
  let* t := get_tail h st in
  let* h := modify h a (set_prev (Some t)) in
  let* h := modify h t (set_next (Some a)) in
  set_tail h st a.

(** cee-resize.h:19-34 [S(de_chain)] *)
Definition de_chain (h : heap) (a : addr) : outcome heap :=
  let* b := get h a in
  let st := b_state b in
  let* t := get_tail h st in
  if (t =? a)%nat then
    let* p := of_option NullDeref (b_prev b) in
    let* h := modify h p (set_next None) in
    set_tail h st p
  else
    let* p := of_option NullDeref (b_prev b) in
    let* h := modify h p (set_next (b_next b)) in
    match b_next b with
    | None => Ok h
    | Some n => modify h n (set_prev (Some p))
    end.

(** cee-resize.h:39-63 [S(resize)]: the new address.  realloc and memcpy copy
    the whole header, [trace_next] included.  realloc always moves the block. *)
Definition resize (h : heap) (a : addr) : outcome (heap * addr) :=
  let* b := get h a in
  match b_meth b with
  | M_REALLOC =>
    let* h := de_chain h a in
    let* b := get h a in
    let* h := free h a in
    let (h, a') := malloc h b in
    let* h := chain h a' (b_state b) in
    Ok (h, a')
  | M_MALLOC =>
    let (h, a') := malloc h b in
    let* h := chain h a' (b_state b) in
    Ok (h, a')
  | M_IDENTITY => Ok (h, a)
  end.

(** * Reference counts, cee-common.c *)
Definition target (v : val) : outcome addr :=
  match v with VNull => Bad NullDeref | VForeign => Bad BadPointer | VPtr a => Ok a end.

(** cee-common.c:68-73, :91-94, :106-117 [incr_rc], [retain], [cee_incr_indegree] *)
Definition incr_indegree (h : heap) (p : policy) (v : val) : outcome heap :=
  match p with
  | DEL_RC =>
    let* a := target v in
    modify h a (fun b => if b_ret b then b else set_rc (wrap 16 (b_rc b + 1)) b)
  | DEL => let* a := target v in modify h a (set_ret true)
  | NOOP => Ok h
  end.

(** cee-common.c:75-84, :96-104, :119-130 [decr_rc], [release], [cee_decr_indegree] *)
Definition decr_indegree (h : heap) (p : policy) (v : val) : outcome heap :=
  match p with
  | DEL_RC =>
    let* a := target v in
    modify h a (fun b => if b_ret b then b else if b_rc b =? 0 then b else set_rc (b_rc b - 1) b)
  | DEL =>
    let* a := target v in
    let* b := get h a in
    if b_ret b then modify h a (set_ret false) else Bad Abort
  | NOOP => Ok h
  end.

(** * Deletion and tracing *)
Fixpoint foldm {A} (f : heap -> A -> outcome heap) (h : heap) (l : list A) : outcome heap :=
  match l with
  | [] => Ok h
  | x :: l' => let* h' := f h x in foldm f h' l'
  end.

(** The pointers an object's [S(trace)] deletes under CEE_TRACE_DEL_FOLLOW, with
    the policy: list.c:35-36, stack.c:34-35, tuple.c:30-31, triple.c:30-31,
    quadruple.c:30-31, n_tuple.c:33-34, tagged.c:28, env.c:30-31, dict.c:38-39,
    map.c:62-63 with :33-35. *)
Definition del_fields (k : kind) (vs : list val) : list (policy * val) :=
  match k with
  | KLeaf | KStatic | KClosure | KSet _ => []
  | KList p | KStack p _ | KDict p => map (pair p) vs
  | KProd ps => combine ps vs
  | KEnv p1 p2 => combine [p1; p2] vs
  | KMap _ _ => map (pair DEL) vs
  end.

(** The pointers it traces under CEE_TRACE_MARK: list.c:44-45, stack.c:43-44,
    tuple.c:38-39, triple.c:38-39, quadruple.c:38-39, n_tuple.c:42-43,
    tagged.c:35, env.c:38-39, dict.c:47-48, map.c:71 (not the list of keys),
    set.c:62; nothing for closures (closure.c:29-31). *)
Definition mark_fields (k : kind) (vs : list val) : list val :=
  match k with
  | KLeaf | KStatic | KClosure => []
  | KMap _ _ => tl vs
  | _ => vs
  end.

(** CEE_TRACE_DEL_NO_FOLLOW of every [S(trace)]; singleton.c:25 *)
Definition del_nofollow (h : heap) (a : addr) : outcome heap :=
  let* b := get h a in
  match b_body b with
  | BState _ _ _ _ _ => free h a
  | BObj KStatic _ => Ok h
  | BObj _ _ => let* h := de_chain h a in free h a
  end.

(** state.c:21-36: CEE_TRACE_DEL_FOLLOW of a state *)
Fixpoint del_state (fuel : nat) (h : heap) (st : addr) : outcome heap :=
  match fuel with
  | O => Bad OutOfFuel
  | S f =>
    let* t := get_tail h st in
    if (t =? st)%nat then free h st
    else let* h := del_nofollow h t in del_state f h st
  end.

(** cee-common.c:133-144 [cee_del_e] with :24-29 [cee_del] and :37-54
    [cee_del_ref], where [tr] is [cs->trace(p, CEE_TRACE_DEL_FOLLOW)] *)
Definition del_e (tr : heap -> addr -> outcome heap) (h : heap) (f : policy * val) : outcome heap :=
  match f with
  | (NOOP, _) => Ok h
  | (_, VNull) => Ok h
  | (_, VForeign) => Bad BadPointer
  | (DEL, VPtr a) => tr h a
  | (DEL_RC, VPtr a) =>
    let* h := modify h a (fun b => if b_rc b =? 0 then b else set_rc (b_rc b - 1) b) in
    let* b := get h a in
    if b_ret b then Ok h
    else if b_rc b =? 0 then tr h a else Ok h
  end.

(** CEE_TRACE_DEL_FOLLOW of every [S(trace)].  set.c:54 passes NULL as the
    context that set.c:26 dereferences. *)
Fixpoint trace_del (fuel : nat) (h : heap) (a : addr) : outcome heap :=
  match fuel with
  | O => Bad OutOfFuel
  | S f =>
    let* b := get h a in
    match b_body b with
    | BState _ _ _ _ _ => del_state f h a
    | BObj KStatic _ => Ok h
    | BObj (KSet _) (_ :: _) => Bad NullDeref
    | BObj k vs =>
      let* h := foldm (del_e (trace_del f)) h (del_fields k vs) in
      let* h := de_chain h a in
      free h a
    end
  end.

(** cee-common.c:24-29 [cee_del] *)
Definition cee_del (fuel : nat) (h : heap) (v : val) : outcome heap :=
  del_e (trace_del fuel) h (DEL, v).

(** cee-common.c:14-19 [cee_trace] with CEE_TRACE_MARK + [m], of every
    [S(trace)]; state.c:47-60 for a state. *)
Definition mark_val (tr : heap -> addr -> outcome heap) (h : heap) (v : val) : outcome heap :=
  match v with VNull => Ok h | VForeign => Bad BadPointer | VPtr a => tr h a end.
Fixpoint trace_mark (fuel : nat) (m : Z) (h : heap) (a : addr) : outcome heap :=
  match fuel with
  | O => Bad OutOfFuel
  | S f =>
    let* b := get h a in
    match b_body b with
    | BState _ r s c _ =>
      let* h := modify h a (set_mark m) in
      foldm (mark_val (trace_mark f m)) h [VPtr r; VPtr s; VPtr c]
    | BObj KStatic _ | BObj KClosure _ => Ok h
    | BObj k vs =>
      let* h := modify h a (set_mark m) in
      foldm (mark_val (trace_mark f m)) h (mark_fields k vs)
    end
  end.

(** state.c:67-79 [S(sweep)] from block [head] on *)
Fixpoint sweep (fuel : nat) (m : Z) (h : heap) (head : option addr) : outcome heap :=
  match fuel with
  | O => Bad OutOfFuel
  | S f =>
    match head with
    | None => Ok h
    | Some a =>
      let* b := get h a in
      let next := b_next b in
      let* h := if b_mark b =? m then Ok h else del_nofollow h a in
      sweep f m h next
    end
  end.

(** state.c:140-156 [cee_state_gc] *)
Definition gc (fuel : nat) (h : heap) (st : addr) : outcome heap :=
  let* b := get h st in
  match b_body b with
  | BState _ _ _ _ m =>
    let* h := trace_mark fuel m h st in
    let* h := sweep fuel m h (Some st) in
    let* b := get h st in
    match b_body b with
    | BState t r s c m => Ok (set_mem h st (Some (set_body (BState t r s c (if m =? 0 then 1 else 0)) b)))
    | BObj _ _ => Bad BadPointer
    end
  | BObj _ _ => Bad BadPointer
  end.

(** * Constructors *)
(** malloc, ZERO_CEE_SECT, [S(chain)], fill in: boxed.c:46-61, str.c:45-68 and
    :86-103, block.c:48-66, list.c:50-67, stack.c:49-63, closure.c:35-48,
    set.c:77-92, ... *)
Definition zero_block (v : body) (m : rmeth) : block := Block v 0 false 0 0%nat None None m.
Definition mk_obj (h : heap) (st : addr) (k : kind) (vs : list val) (m : rmeth) : outcome (heap * addr) :=
  let (h, a) := malloc h (zero_block (BObj k vs) m) in
  let* h := chain h a st in
  Ok (h, a).

(** tuple.c:45-63, triple.c:44-63, quadruple.c:44-66, n_tuple.c:48-70: the
    object is built, then every component is counted. *)
Definition mk_prod (h : heap) (st : addr) (ps : list policy) (vs : list val) : outcome (heap * addr) :=
  let* (h, a) := mk_obj h st (KProd ps) vs M_IDENTITY in
  let* h := foldm (fun h pv => incr_indegree h (fst pv) (snd pv)) h (combine ps vs) in
  Ok (h, a).

(** tagged.c:40-56: a NULL component is not counted. *)
Definition mk_tagged (h : heap) (st : addr) (p : policy) (v : val) : outcome (heap * addr) :=
  let* (h, a) := mk_obj h st (KProd [p]) [v] M_IDENTITY in
  match v with
  | VNull => Ok (h, a)
  | _ => let* h := incr_indegree h p v in Ok (h, a)
  end.

(** env.c:44-63: nothing is counted. *)
Definition mk_env (h : heap) (st : addr) (p1 p2 : policy) (outer vars : val) : outcome (heap * addr) :=
  mk_obj h st (KEnv p1 p2) [outer; vars] M_IDENTITY.

(** closure.c:35-48 *)
Definition mk_closure (h : heap) (st : addr) (env : val) : outcome (heap * addr) :=
  mk_obj h st KClosure [env] M_IDENTITY.

(** list.c:50-71 *)
Definition mk_list (h : heap) (st : addr) (p : policy) : outcome (heap * addr) :=
  mk_obj h st (KList p) [] M_MALLOC.
(** stack.c:49-67 *)
Definition mk_stack (h : heap) (st : addr) (p : policy) (cap : Z) : outcome (heap * addr) :=
  mk_obj h st (KStack p cap) [] M_IDENTITY.
(** set.c:77-96 *)
Definition mk_set (h : heap) (st : addr) (p : policy) : outcome (heap * addr) :=
  mk_obj h st (KSet p) [] M_IDENTITY.
(** map.c:83-109: the list of keys is an ordinary reference-counting list. *)
Definition mk_map (h : heap) (st : addr) (pk pv : policy) : outcome (heap * addr) :=
  let* (h, keys) := mk_list h st DEL_RC in
  mk_obj h st (KMap pk pv) [VPtr keys] M_IDENTITY.
(** dict.c:53-86, table creation succeeding *)
Definition mk_dict (h : heap) (st : addr) (p : policy) : outcome (heap * addr) :=
  let* (h, keys) := mk_list h st DEL_RC in
  let* (h, vals) := mk_list h st DEL_RC in
  mk_obj h st (KDict p) [VPtr keys; VPtr vals] M_IDENTITY.

(** singleton.c:27-37; the block is static memory, outside every chain *)
Definition mk_static (h : heap) : heap * addr :=
  malloc h (zero_block (BObj KStatic []) M_IDENTITY).

(** state.c:90-103 [cee_state_mk] *)
Definition state_mk (h : heap) (n : Z) : outcome (heap * addr) :=
  let (h, st) := malloc h (zero_block (BState (h_next h) 0%nat 0%nat 0%nat 1) M_IDENTITY) in
  let* (h, roots) := mk_set h st NOOP in
  let* (h, stack) := mk_stack h st DEL_RC n in
  let* (h, ctx) := mk_map h st DEL_RC DEL_RC in
  let* b := get h st in
  match b_body b with
  | BState t _ _ _ m => Ok (set_mem h st (Some (set_body (BState t roots stack ctx m) b)), st)
  | BObj _ _ => Bad BadPointer
  end.

(** * Element operations *)
(** The object at [v] *)
Definition get_obj (h : heap) (a : addr) : outcome (kind * list val) :=
  let* b := get h a in
  match b_body b with BObj k vs => Ok (k, vs) | BState _ _ _ _ _ => Bad BadPointer end.
Definition put_vals (h : heap) (a : addr) (k : kind) (vs : list val) : outcome heap :=
  modify h a (set_body (BObj k vs)).

(** list.c:73-85 [cee_list_append] *)
Definition list_append (h : heap) (l : addr) (e : val) : outcome heap :=
  let* (k, vs) := get_obj h l in
  match k with
  | KList p => let* h := put_vals h l k (vs ++ [e]) in incr_indegree h p e
  | _ => Bad BadPointer
  end.
(** list.c:87-103 [cee_list_insert] at an index inside the list *)
Definition list_insert (h : heap) (l : addr) (i : nat) (e : val) : outcome heap :=
  let* (k, vs) := get_obj h l in
  match k with
  | KList p =>
    if (i <=? length vs)%nat then
      let* h := put_vals h l k (firstn i vs ++ e :: skipn i vs) in incr_indegree h p e
    else Bad OutOfBounds
  | _ => Bad BadPointer
  end.
(** list.c:105-119 [cee_list_remove] *)
Definition list_remove (h : heap) (l : addr) (i : nat) : outcome heap :=
  let* (k, vs) := get_obj h l in
  match k with
  | KList p =>
    match nth_error vs i with
    | None => Ok h
    | Some e => let* h := put_vals h l k (firstn i vs ++ skipn (S i) vs) in decr_indegree h p e
    end
  | _ => Bad BadPointer
  end.
(** stack.c:69-79 [cee_stack_push] *)
Definition stack_push (h : heap) (s : addr) (e : val) : outcome heap :=
  let* (k, vs) := get_obj h s in
  match k with
  | KStack p cap =>
    if Z.of_nat (length vs) =? cap then Ok h
    else let* h := put_vals h s k (vs ++ [e]) in incr_indegree h p e
  | _ => Bad BadPointer
  end.
(** stack.c:81-93 [cee_stack_pop] *)
Definition stack_pop (h : heap) (s : addr) : outcome (heap * val) :=
  let* (k, vs) := get_obj h s in
  match k with
  | KStack p _ =>
    match rev vs with
    | [] => Ok (h, VNull)
    | e :: r => let* h := put_vals h s k (rev r) in let* h := decr_indegree h p e in Ok (h, e)
    end
  | _ => Bad BadPointer
  end.

(** ** Sets and maps.  [keq a b] tells whether the comparison function finds the
    two keys equal; [pos] is where the tree puts a new element in its order. *)
Section Keys.
Variable keq : val -> val -> bool.

(** Pointer equality *)
Definition val_eqb (v w : val) : bool :=
  match v, w with
  | VNull, VNull => true
  | VPtr a, VPtr b => (a =? b)%nat
  | VForeign, VForeign => true
  | _, _ => false
  end.

(** set.c:112-127 [cee_set_add] *)
Definition set_add (h : heap) (s : addr) (v : val) (pos : nat) : outcome heap :=
  let* (k, vs) := get_obj h s in
  match k with
  | KSet p =>
    match find (keq v) vs with
    | Some w => if val_eqb w v then incr_indegree h p v else Ok h
    | None => let* h := put_vals h s k (firstn pos vs ++ v :: skipn pos vs) in incr_indegree h p v
    end
  | _ => Bad BadPointer
  end.
(** set.c:181-192 [cee_set_remove] *)
Definition set_remove (h : heap) (s : addr) (v : val) : outcome heap :=
  let* (k, vs) := get_obj h s in
  match k with
  | KSet p => put_vals h s k (filter (fun w => negb (keq v w)) vs)
  | _ => Bad BadPointer
  end.
(** set.c:142-147 [cee_set_clear] with :129-141 *)
Definition set_clear (fuel : nat) (h : heap) (s : addr) : outcome heap :=
  let* (k, vs) := get_obj h s in
  match k with
  | KSet p =>
    let* h := foldm (del_e (trace_del fuel)) h (map (pair p) vs) in
    put_vals h s k []
  | _ => Bad BadPointer
  end.

(** Reading a component of the tuple a map entry points to *)
Definition tuple_get (h : heap) (t : val) (i : nat) : outcome val :=
  let* a := target t in
  let* (_, vs) := get_obj h a in
  of_option OutOfBounds (nth_error vs i).
Fixpoint find_entry (h : heap) (key : val) (ts : list val) : outcome (option val) :=
  match ts with
  | [] => Ok None
  | t :: ts' =>
    let* k := tuple_get h t 0 in
    if keq key k then Ok (Some t) else find_entry h key ts'
  end.

(** tuple.c:71-75 [cee_tuple_update_del_policy] *)
Definition update_policy (h : heap) (t : addr) (i : nat) (p : policy) : outcome heap :=
  let* (k, vs) := get_obj h t in
  match k with
  | KProd ps => modify h t (set_body (BObj (KProd (update ps i p)) vs))
  | _ => Bad BadPointer
  end.

(** map.c:117-148 [cee_map_add_e] without a merge function, and map.c:150-152
    [cee_map_add]: the heap and the value returned.  The comparisons during the
    search are only made with the entries met; here the first matching entry is
    looked up in the whole list. *)
Definition map_add (fuel : nat) (h : heap) (m : addr) (key value : val) (pos : nat)
  : outcome (heap * val) :=
  match key with
  | VNull => Ok (h, VNull)
  | _ =>
    let* b := get h m in
    match b_body b with
    | BObj (KMap pk pv) (keys :: _) =>
      let* (h, t) := mk_prod h (b_state b) [pk; pv] [key; value] in
      let* (_, vs) := get_obj h m in
      let* e := find_entry h key (tl vs) in
      match e with
      | Some t1 =>
        let* t1a := target t1 in
        let* (k1, vs1) := get_obj h t1a in
        let* old := of_option OutOfBounds (nth_error vs1 1) in
        let* h :=
          if val_eqb value old then Ok h
          else
            let* h := put_vals h t1a k1 (update vs1 1 value) in
            decr_indegree h pv old in
        let* h := update_policy h t 1 NOOP in
        let* h := cee_del fuel h (VPtr t) in
        Ok (h, old)
      | None =>
        let* h := put_vals h m (KMap pk pv) (keys :: firstn pos (tl vs) ++ VPtr t :: skipn pos (tl vs)) in
        let* ka := target keys in
        let* h := list_append h ka key in
        Ok (h, VNull)
      end
    | _ => Bad BadPointer
    end
  end.

(** map.c:167-178 [cee_map_ordered_key_delete] *)
Definition key_delete (h : heap) (keys : addr) (key : val) : outcome heap :=
  let* (k, vs) := get_obj h keys in
  (fix go i l := match l with
                 | [] => Bad Abort
                 | x :: l' => if keq key x then list_remove h keys i else go (S i) l'
                 end) O vs.

(** map.c:180-200 [cee_map_remove] *)
Definition map_remove (fuel : nat) (h : heap) (m : addr) (key : val) : outcome (heap * val) :=
  match key with
  | VNull => Ok (h, VNull)
  | _ =>
    let* b := get h m in
    match b_body b with
    | BObj (KMap pk pv) (keys :: ts) =>
      let* e := find_entry h key ts in
      match e with
      | None => Ok (h, VNull)
      | Some t =>
        let* h := put_vals h m (KMap pk pv) (keys :: filter (fun x => negb (val_eqb x t)) ts) in
        let* old_key := tuple_get h t 0 in
        let* old := tuple_get h t 1 in
        let* h := decr_indegree h pk old_key in
        let* h := decr_indegree h pv old in
        let* ta := target t in
        let* h := update_policy h ta 0 NOOP in
        let* h := update_policy h ta 1 NOOP in
        let* h := cee_del fuel h t in
        let* ka := target keys in
        let* h := key_delete h ka key in
        Ok (h, old)
      end
    | _ => Bad BadPointer
    end
  end.
End Keys.

(** state.c:110-119, the roots are a set compared by pointer *)
Definition add_gc_root (h : heap) (st : addr) (v : val) (pos : nat) : outcome heap :=
  let* b := get h st in
  match b_body b with BState _ r _ _ _ => set_add val_eqb h r v pos | BObj _ _ => Bad BadPointer end.
Definition remove_gc_root (h : heap) (st : addr) (v : val) : outcome heap :=
  let* b := get h st in
  match b_body b with BState _ r _ _ _ => set_remove val_eqb h r v | BObj _ _ => Bad BadPointer end.
(** state.c:125-127 [cee_state_add_context] *)
Definition add_context (keq : val -> val -> bool) (fuel : nat) (h : heap) (st : addr) (key value : val) (pos : nat)
  : outcome heap :=
  let* b := get h st in
  match b_body b with
  | BState _ _ _ c _ => let* (h, _) := map_add keq fuel h c key value pos in Ok h
  | BObj _ _ => Bad BadPointer
  end.
(** state.c:132-134 [cee_state_remove_context] *)
Definition remove_context (keq : val -> val -> bool) (fuel : nat) (h : heap) (st : addr) (key : val) : outcome heap :=
  let* b := get h st in
  match b_body b with
  | BState _ _ _ c _ => let* (h, _) := map_remove keq fuel h c key in Ok h
  | BObj _ _ => Bad BadPointer
  end.

(** dict.c:88-97 [cee_dict_add], the part that touches other objects *)
Definition dict_add (h : heap) (d : addr) (key value : val) : outcome heap :=
  let* (k, vs) := get_obj h d in
  match k, vs with
  | KDict _, [ks; xs] =>
    let* ka := target ks in
    let* h := list_append h ka key in
    let* xa := target xs in
    list_append h xa value
  | _, _ => Bad BadPointer
  end.

(** cee-common.c:56-66 [cee_use_realloc], [cee_use_malloc] *)
Definition use_realloc (h : heap) (a : addr) : outcome heap :=
  modify h a (fun b => match b_meth b with M_IDENTITY => b | _ => set_meth M_REALLOC b end).
Definition use_malloc (h : heap) (a : addr) : outcome heap :=
  modify h a (fun b => match b_meth b with M_IDENTITY => b | _ => set_meth M_MALLOC b end).

(** The heap before the first allocation. *)
Definition empty_heap : heap := Heap (fun _ => None) 0%nat [].
