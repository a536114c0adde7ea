(** Model of cee-json/value.c: JSON values in memory.

    A value (struct cee_json) is a node at an address; arrays and objects point to
    further values, so values can be shared and cyclic.  An object is the map of
    MapModel.v, an array the list of ListModel.v; each belongs to one node
    (cee_list_to_json and cee_map_to_json could make two).  The two booleans, null
    and undefined are each one static object in C; that the nodes here can be
    several does not matter, as nothing is stored in them.  Reference counts
    and freeing are in the heap model: of the functions here only
    cee_json_object_convert_to_i64 frees a value. *)
From Coq Require Import ZArith List Bool.
From Verif Require StrModel.
From Verif Require Import Base TsearchModel MapModel ListModel Json.
Import ListNotations.
Open Scope Z_scope.
Open Scope outcome_scope.

(** strcmp, the comparison function of objects (cee-json/value.c:295); the texts
    are the bytes before the NUL. *)
Fixpoint strcmp (a b : text) : Z :=
  match a, b with
  | [], [] => 0
  | [], _ :: _ => -1
  | _ :: _, [] => 1
  | x :: a', y :: b' => if x =? y then strcmp a' b' else if x <? y then -1 else 1
  end.

(** cee-json/cee-json.h:32-46 [struct cee_json].  [None] as an element is NULL. *)
Inductive node : Type :=
| NUndefined | NNull
| NBool (b : bool)
| NDouble (bits : Z)
| NI64 (z : Z) | NU64 (z : Z)
| NStr (s : text) | NStrn (s : text)
| NBlob (bytes : Z)
| NArr (l : clist (option nat))
| NObj (m : cmap text nat).

(** The values by their address, reading through a pointer and writing.  Values are
    not released in this model; JsonMemModel.v is about memory. *)
Definition heap : Type := list node.
Definition load (h : heap) (p : option nat) : outcome node :=
  match p with None => Bad NullDeref | Some a => of_option BadPointer (nth_error h a) end.
Definition store (h : heap) (a : nat) (n : node) : heap := update h a n.
(** a new value: cee_tagged_mk (tagged.c:40-60) *)
Definition alloc (h : heap) (n : node) : heap * nat := (h ++ [n], length h).

Local Notation pair_ := (text * option nat)%type.
Local Notation cmp := (pcmp text nat strcmp).

(** cee-json/value.c:112-118 [cee_json_to_object], [cee_json_to_array] *)
Definition to_object (h : heap) (p : option nat) : outcome (option (cmap text nat)) :=
  let* n := load h p in
  match n with NObj m => Ok (Some m) | _ => Ok None end.
Definition to_array (h : heap) (p : option nat) : outcome (option (clist (option nat))) :=
  let* n := load h p in
  match n with NArr l => Ok (Some l) | _ => Ok None end.
(** with cee_segfault() when it is something else *)
Definition object_at (h : heap) (p : option nat) : outcome (cmap text nat) :=
  let* o := to_object h p in of_option Abort o.
Definition array_at (h : heap) (p : option nat) : outcome (clist (option nat)) :=
  let* o := to_array h p in of_option Abort o.

(** * Lookup *)

(** cee-json/value.c:365-371 [cee_json_object_get] *)
Definition object_get (h : heap) (j : option nat) (key : option text) : outcome (option nat) :=
  let* m := object_at h j in
  map_find text nat strcmp (Some m) key.

(** cee-json/value.c:587-595 [cee_json_array_get] *)
Definition array_get (h : heap) (j : option nat) (i : Z) : outcome (option nat) :=
  let* l := array_at h j in
  if (0 <=? i) && (i <? l_size l) then aread (l_a l) i else Ok None.

(** cee-json/value.c:580-585 [cee_json_array_length] *)
Definition array_length (h : heap) (j : option nat) : outcome Z :=
  let* l := array_at h j in Ok (l_size l).

(** cee-json/value.c:150-159 [cee_json_empty] *)
Definition is_empty (h : heap) (j : option nat) : outcome bool :=
  let* n := load h j in
  match n with
  | NObj m => Ok (map_size text nat (Some m) =? 0)
  | NArr l => Ok (l_size l =? 0)
  | _ => Ok false
  end.

(** cee-json/value.c:72-110 [cee_json_has], [find_in_elem], [match_key].  The
    context is the member found; what cee_list_iterate returns is not used. *)
Fixpoint has (fuel : nat) (h : heap) (j : option nat) (key : text) : outcome (option nat) :=
  match fuel with
  | O => Bad OutOfFuel
  | S n =>
    let* v := load h j in
    match v with
    | NArr l =>
      let* (found, _) :=
        list_iterate (fun _ => l)
          (fun (_ : option nat) e _ =>
             let* f := has n h e key in
             Ok (f, match f with Some _ => 1 | None => 0 end))
          n false None in
      Ok found
    | NObj m =>
      let* (found, _) :=
        map_iterate text nat (Some m)
          (fun (_ : option nat) k v =>
             if strcmp k key =? 0 then Ok (v, 1)
             else
               let* f := has n h v key in
               Ok (f, match f with Some _ => 1 | None => 0 end))
          None in
      Ok found
    | _ => Ok None
    end
  end.

(** * Change *)

(** cee-json/value.c:373-379 [cee_json_object_remove] *)
Definition object_remove (h : heap) (j : nat) (key : option text) : outcome heap :=
  let* m := object_at h (Some j) in
  let* (_, m') := map_remove text nat strcmp (Some m) key in
  let* m' := of_option NullDeref m' in
  Ok (store h j (NObj m')).

(** cee-json/value.c:529-538 [cee_json_array_append] *)
Definition array_append (h : heap) (j : nat) (v : option nat) : outcome heap :=
  let* l := array_at h (Some j) in
  let* l' := list_append l v in
  Ok (store h j (NArr l')).

(** cee-json/value.c:518-527 [cee_json_array_insert] *)
Definition array_insert (h : heap) (j : nat) (idx : Z) (v : option nat) : outcome heap :=
  let* l := array_at h (Some j) in
  let* l' := list_insert l idx v in
  Ok (store h j (NArr l')).

(** cee-json/value.c:597-603 [cee_json_array_remove] *)
Definition array_remove (h : heap) (j : nat) (i : Z) : outcome heap :=
  let* l := array_at h (Some j) in
  if (0 <=? i) && (i <? l_size l) then
    let* (_, l') := list_remove (Some l) i in
    let* l' := of_option NullDeref l' in
    Ok (store h j (NArr l'))
  else Ok h.

(** cee-json/value.c:622-624, the loop of [cee_json_array_concat]; the two arrays
    may be the same. *)
Fixpoint concat_loop (fuel : nat) (h : heap) (dest src : nat) (i : Z) : outcome heap :=
  match fuel with
  | O => Bad OutOfFuel
  | S n =>
    let* s := array_at h (Some src) in
    if i <? l_size s then
      let* e := aread (l_a s) i in
      let* h := array_append h dest e in
      concat_loop n h dest src (i + 1)
    else Ok h
  end.
(** cee-json/value.c:615-625 [cee_json_array_concat] *)
Definition array_concat (fuel : nat) (h : heap) (dest src : nat) : outcome heap :=
  let* _ := array_at h (Some dest) in
  let* _ := array_at h (Some src) in
  concat_loop fuel h dest src 0.

(** cee-json/value.c:50-70 [cee_json_listify].  For an object cee_json_to_str
    gives NULL, which cee_get_state (cee-common.c:32-35) reads through. *)
Definition listify (h : heap) (j : nat) : outcome (heap * nat) :=
  let* n := load h (Some j) in
  match n with
  | NArr _ => Ok (h, j)
  | NObj _ => Bad NullDeref
  | NStr _ =>
    let (h, l) := alloc h (NArr (list_mk 1)) in
    let* h := array_append h l (Some j) in
    Ok (h, l)
  | _ => Bad Abort
  end.

Section Strings.
(** cee_str_mk(st, "%s", s): the text of the string made *)
Variable mk_str : text -> outcome text.

(** cee-json/value.c:413 and the like: cee_map_add(o, cee_str_mk(st, "%s", key), v) *)
Definition add_field (h : heap) (j : nat) (key : text) (v : option nat) : outcome heap :=
  let* m := object_at h (Some j) in
  let* k := mk_str key in
  let* (_, m') := map_add text nat strcmp (Some m) (Some k) v in
  let* m' := of_option NullDeref m' in
  Ok (store h j (NObj m')).

(** cee-json/value.c:405-414 [cee_json_object_set]; is_json (:399-403) reads the
    value, and holds for all kinds. *)
Definition object_set (h : heap) (j : option nat) (key : text) (v : option nat) : outcome heap :=
  match j with
  | None => Ok h
  | Some j =>
    let* _ := object_at h (Some j) in
    let* _ := load h v in
    add_field h j key v
  end.

(** cee-json/value.c:439-506 [cee_json_object_set_null], [_bool], [_double],
    [_i64], [_u64]: a new value for the field *)
Definition object_set_new (h : heap) (j : option nat) (key : text) (n : node) : outcome heap :=
  match j with
  | None => Ok h
  | Some j =>
    let* _ := object_at h (Some j) in
    let (h, v) := alloc h n in
    add_field h j key (Some v)
  end.
(** cee-json/value.c:457-464 [cee_json_object_set_str] *)
Definition object_set_str (h : heap) (j : option nat) (key s : text) : outcome heap :=
  match j with
  | None => Ok h
  | Some _ =>
    let* _ := object_at h j in
    let* s := mk_str s in
    object_set_new h j key (NStr s)
  end.

(** cee-json/value.c:321-331 [cee_json_object_rename] *)
Definition object_rename (h : heap) (j : nat) (old_key new_key : text) : outcome (bool * heap) :=
  let* o := to_object h (Some j) in
  match o with
  | None => Ok (false, h)
  | Some m =>
    let* old_str := mk_str old_key in
    let* new_str := mk_str new_key in
    let* (t, m') := map_rename text nat strcmp (Some m) (Some old_str) (Some new_str) in
    let* m' := of_option NullDeref m' in
    Ok (t, store h j (NObj m'))
  end.

(** cee-json/value.c:416-437 [cee_json_object_append] *)
Definition object_append (fuel : nat) (h : heap) (j : option nat) (key : text) (v : option nat) : outcome heap :=
  match j, v with
  | Some _, Some a =>
    let* old := object_get h j (Some key) in
    match old with
    | Some o =>
      let* isarr := to_array h (Some o) in
      match isarr with
      | Some _ =>
        let* varr := to_array h v in
        match varr with
        | Some _ => array_concat fuel h o a
        | None => array_append h o v
        end
      | None =>
        let* (h, llist) := listify h o in
        let* varr := to_array h v in
        let* h := match varr with
                  | Some _ => array_concat fuel h llist a
                  | None => array_append h llist v
                  end in
        object_set h j key (Some llist)
      end
    | None => object_set h j key v
    end
  | _, _ => Ok h
  end.
End Strings.

(** The string maker as the C standard has it (StrModel.v, property C12) *)
Definition c_str_mk (s : text) : outcome text :=
  let* b := StrModel.str_mk (Some [StrModel.PDir]) [s] in
  let* l := StrModel.c_strlen (StrModel.c_data b) in
  Ok (map (fun c => match c with Some c => c | None => 0 end) (firstn (Z.to_nat l) (StrModel.c_data b))).
(** and on machines on which a va_list is passed by value (32-bit x86): there
    the second use in cee_str_mkv starts from the first argument again. *)
Definition byval_str_mk (s : text) : outcome text := Ok s.

(** * Merging *)

(** The node of a tree that a search for [key] ends at *)
Fixpoint subtree (key : text) (n : tree pair_) : tree pair_ :=
  match n with
  | Nil => Nil
  | Node (k, v) a0 a1 h =>
    let c := strcmp key k in
    if c =? 0 then n else subtree key (if c >? 0 then a1 else a0)
  end.
Definition key_of (n : tree pair_) : option text :=
  match n with Nil => None | Node (k, _) _ _ _ => Some k end.
Definition left_of (n : tree pair_) : option text :=
  match n with Nil => None | Node _ a0 _ _ => key_of a0 end.
Definition right_of (n : tree pair_) : option text :=
  match n with Nil => None | Node _ _ a1 _ => key_of a1 end.

(** musl-tsearch.c:139-159 [walk], [musl_twalk], for actions that change the tree
    while it is walked by adding nodes.  A node is known by its key, which stays
    in it, so its children can be looked up when the C code reads them.  [act] is
    the action for preorder and leaf; the other visits do nothing
    (map.c:279-295). *)
Section Walk.
Variable W : Type.
Variable the_tree : W -> tree pair_.
Variable act : W -> text -> option nat -> outcome W.
Fixpoint live_walk (fuel : nat) (w : W) (r : option text) : outcome W :=
  match r with
  | None => Ok w
  | Some key =>
    match fuel with
    | O => Bad OutOfFuel
    | S n =>
      match subtree key (the_tree w) with
      | Nil => Bad BadPointer
      | Node (k, v) _ _ h =>
        let* w := act w k v in
        if h =? 1 then Ok w
        else
          let* w := live_walk n w (left_of (subtree key (the_tree w))) in
          live_walk n w (right_of (subtree key (the_tree w)))
      end
    end
  end.
End Walk.

(** The tree of the object and the array stored at [a], as cee-json/value.c reads
    them through the pointer in every step of an iteration (map.c:268-313,
    list.c:134-144). *)
Definition tree_at (h : heap) (a : nat) : tree pair_ :=
  match nth_error h a with Some (NObj m) => m_root m | _ => Nil end.
Definition list_at (h : heap) (a : nat) : clist (option nat) :=
  match nth_error h a with Some (NArr l) => l | _ => list_mk 0 end.

Section Merge.
(** cee_json_merge, for the values below *)
Variable merge_below : heap -> option nat -> option nat -> outcome (bool * heap).

(** cee-json/value.c:211-218 [merge_json_value], map.c:316-320 [_add_kv] and
    map.c:117-148 [cee_map_add_e] with that callback: the key is looked up or
    added first, then the callback is called. *)
Definition add_kv (d : nat) (h : heap) (k : text) (v : option nat) : outcome heap :=
  let* m := object_at h (Some d) in
  let* (root, e, isnew) := tsearch pair_ cmp (k, v) (m_root m) in
  if negb isnew then
    let* (merged, h) := merge_below h (snd e) v in
    if merged then Ok h
    else
      let* m := object_at h (Some d) in
      Ok (store h d (NObj (CMap (m_size m) (tupdate text nat strcmp (k, v) (fst e, v) (m_root m)) (m_keys m))))
  else Ok (store h d (NObj (CMap (m_size m + 1) root (m_keys m ++ [k])))).
End Merge.

(** cee-json/value.c:231-250 [cee_json_merge]; map.c:326-330 [cee_map_merge],
    list.c:152-155 [cee_list_merge] *)
Fixpoint merge (fuel : nat) (h : heap) (dest src : option nat) : outcome (bool * heap) :=
  match fuel with
  | O => Bad OutOfFuel
  | S n =>
    match dest, src with
    | Some d, Some s =>
      let* dn := load h dest in
      let* sn := load h src in
      match dn, sn with
      | NObj _, NObj m =>
        let* h := live_walk heap (fun h => tree_at h s) (add_kv (merge n) d) n h (key_of (m_root m)) in
        Ok (true, h)
      | NArr _, NArr _ =>
        let* (h, _) :=
          list_iterate (fun h => list_at h s)
            (fun h e _ => let* h := array_append h d e in Ok (h, 0))
            n false h in
        Ok (true, h)
      | _, _ => Ok (false, h)
      end
    | _, _ => Ok (false, h)
    end
  end.

(** cee-json/value.c:252-259 [cee_json_merge_or_return]: [dest_p] is the pointer
    that dest_p points to; the result contains its new value. *)
Definition merge_or_return (fuel : nat) (h : heap) (dest_p : option (option nat)) (src : option nat)
  : outcome (bool * option (option nat) * heap) :=
  match src, dest_p with
  | Some _, Some None => Ok (true, Some src, h)
  | Some _, Some dest =>
    let* (b, h) := merge fuel h dest src in
    Ok (b, Some dest, h)
  | _, _ => Ok (false, dest_p, h)
  end.
