(** Model of map.c on top of TsearchModel.v.

    A map is its size field, its tree of (key, value) tuples and its list of
    keys in insertion order.  [None] as a value is the NULL pointer.  The tuple
    objects are represented by their contents; that a freshly made tuple is
    never pointer-equal to one in the tree makes the test [*oldp != t]
    equivalent to "the node was there before".  Reference counting of keys and
    values is in the heap model. *)
From Coq Require Import ZArith List Bool.
From Verif Require Import Base TsearchModel.
Import ListNotations.
Open Scope Z_scope.
Open Scope outcome_scope.

Section Map.
Variable K V : Type.
Variable kcmp : K -> K -> Z.

Local Notation value := (option V).
Local Notation pair_ := (K * option V)%type.

(** map.c:76-81 [cmp]: compares the first components. *)
Definition pcmp (t1 t2 : pair_) : Z := kcmp (fst t1) (fst t2).

(** map.c:14-29 [struct header] *)
Record cmap : Type := CMap { m_size : Z; m_root : tree pair_; m_keys : list K }.

(** map.c:83-109 [cee_map_mk_e], [cee_map_mk] *)
Definition map_mk : cmap := CMap 0 Nil [].

(** map.c:111-115 [cee_map_size] *)
Definition map_size (m : option cmap) : Z :=
  match m with None => 0 | Some m => m_size m end.

(** map.c:137 [t1->_[1] = new_value]: overwrite the tuple in the node that a
    search for [key] ends at. *)
Fixpoint tupdate (key e' : pair_) (n : tree pair_) : tree pair_ :=
  match n with
  | Nil => Nil
  | Node k a0 a1 h =>
    let c := pcmp key k in
    if c =? 0 then Node e' a0 a1 h
    else if c >? 0 then Node k a0 (tupdate key e' a1) h
    else Node k (tupdate key e' a0) a1 h
  end.

(** map.c:117-148 [cee_map_add_e]; [merge] = None is a NULL callback.  A NULL
    key returns NULL at once; a NULL map is then dereferenced. *)
Definition map_add_e (m : option cmap) (key : option K) (v : value)
  (merge : option (value -> value -> value)) : outcome (value * option cmap) :=
  match key with
  | None => Ok (None, m)
  | Some k =>
    match m with
    | None => Bad NullDeref
    | Some m =>
      let* (root, e, isnew) := tsearch pair_ pcmp (k, v) (m_root m) in
      if negb isnew then
        let old_value := snd e in
        let new_value :=
          match merge with None => v | Some f => f old_value v end in
        Ok (old_value,
            Some (CMap (m_size m) (tupdate (k, v) (fst e, new_value) root) (m_keys m)))
      else
        Ok (None, Some (CMap (m_size m + 1) root (m_keys m ++ [k])))
    end
  end.

(** map.c:150-152 [cee_map_add] *)
Definition map_add (m : option cmap) (key : option K) (v : value) :=
  map_add_e m key v None.

(** map.c:154-165 [cee_map_find] *)
Definition map_find (m : option cmap) (key : option K) : outcome value :=
  match key with
  | None => Ok None
  | Some k =>
    match m with
    | None => Bad NullDeref
    | Some m =>
      match tfind pair_ pcmp (k, None) (m_root m) with
      | None => Ok None
      | Some p => Ok (snd p)
      end
    end
  end.

(** map.c:167-178 [cee_map_ordered_key_delete]: scan the first [n] entries of
    the key list; [n] is the list size converted to int. *)
Fixpoint okd_scan (n : nat) (keys : list K) (k : K) : outcome (list K) :=
  match n with
  | O => Bad Abort
  | S n' =>
    match keys with
    | [] => Bad OutOfBounds
    | x :: t =>
      if kcmp k x =? 0 then Ok t
      else let* t' := okd_scan n' t k in Ok (x :: t')
    end
  end.
Definition ordered_key_delete (keys : list K) (k : K) : outcome (list K) :=
  okd_scan (Z.to_nat (to_int32 (Z.of_nat (length keys)))) keys k.

(** map.c:180-200 [cee_map_remove] *)
Definition map_remove (m : option cmap) (key : option K)
  : outcome (value * option cmap) :=
  match key with
  | None => Ok (None, m)
  | Some k =>
    match m with
    | None => Bad NullDeref
    | Some m =>
      match tfind pair_ pcmp (k, None) (m_root m) with
      | None => Ok (None, Some m)
      | Some old_t =>
        let* (root, _) := tdelete pair_ pcmp (k, None) (m_root m) in
        let* keys := ordered_key_delete (m_keys m) k in
        Ok (snd old_t, Some (CMap (m_size m - 1) root keys))
      end
    end
  end.

(** map.c:202-210 [cee_map_rename] *)
Definition map_rename (m : option cmap) (old_key new_key : option K)
  : outcome (bool * option cmap) :=
  match old_key, new_key with
  | Some _, Some _ =>
    let* (v, m1) := map_remove m old_key in
    match v with
    | Some _ => let* (_, m2) := map_add m1 new_key v in Ok (true, m2)
    | None => Ok (false, m1)
    end
  | _, _ => Ok (false, m)
  end.

(** map.c:212-264 [cee_map_keys], [cee_map_insertion_ordered_keys],
    [cee_map_values]: contents of the new lists. *)
Definition map_keys (m : cmap) : list K := map fst (visited pair_ (m_root m)).
Definition map_insertion_ordered_keys (m : cmap) : list K := m_keys m.
Definition map_values (m : cmap) : list value := map snd (visited pair_ (m_root m)).

(** map.c:279-307 [apply_each], [cee_map_iterate]: once the callback returned
    non-zero the remaining visits do nothing. *)
Definition map_iterate {S} (m : option cmap)
  (f : S -> K -> value -> outcome (S * Z)) (ctx : S) : outcome (S * Z) :=
  match m with
  | None => Ok (ctx, 0)
  | Some m =>
    fold_left (fun o '(k, v) =>
                 let* (c, ret) := o in
                 if negb (ret =? 0) then Ok (c, ret) else f c k v)
              (visited pair_ (m_root m)) (Ok (ctx, 0))
  end.

(** map.c:316-330 [_add_kv], [cee_map_merge] for two different maps *)
Definition map_merge (dest : cmap) (src : option cmap)
  (merge : option (value -> value -> value)) : outcome cmap :=
  let* (d, _) :=
    map_iterate src
      (fun (d : option cmap) k v =>
         let* (_, d') := map_add_e d (Some k) v merge in Ok (d', 0))
      (Some dest) in
  of_option NullDeref d.

(** map.c:332-337 [cee_map_clone] *)
Definition map_clone (src : cmap) : outcome cmap :=
  map_merge map_mk (Some src) None.

End Map.

Arguments CMap {K V} _ _ _.
Arguments m_size {K V} _.
Arguments m_root {K V} _.
Arguments m_keys {K V} _.
Arguments map_mk {K V}.
