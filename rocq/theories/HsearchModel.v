(** Model of musl-hsearch.c (open addressing hash table) and of the table part
    of dict.c.

    Keys are NUL-free byte strings, stored by value (the C code stores the
    pointer; the user must not modify a key while it is in a dictionary).
    [data] is a pointer of abstract type [V], [None] being NULL.  calloc always
    succeeds.  size_t arithmetic is modulo 2^64. *)
From Coq Require Import ZArith List Bool.
From Verif Require Import Base.
Import ListNotations.
Open Scope Z_scope.
Open Scope outcome_scope.

Section Hsearch.
Variable V : Type.

(** musl-search.h:11-14 [MUSL_ENTRY]: the key, as its bytes up to the NUL, and the
    data, NULL or a pointer. *)
Definition hkey : Type := list Z.
Definition hentry : Type := hkey * option V.

(** strcmp(a, b) == 0 *)
Fixpoint bytes_eqb (a b : hkey) : bool :=
  match a, b with
  | [], [] => true
  | x :: a', y :: b' => (x =? y) && bytes_eqb a' b'
  | _, _ => false
  end.

(** musl-hsearch.c:24-28 [struct __tab]; an entry without key is [None]. *)
Record htab : Type := HTab {
  h_entries : list (option hentry); h_mask : Z; h_used : Z
}.

(** musl-hsearch.c:38-46 [keyhash] *)
Definition keyhash (k : hkey) : Z :=
  fold_left (fun h p => wrap 64 (31 * h + p)) k 0.

(** musl-hsearch.c:21-22 *)
Definition MINSIZE : Z := 8.
Definition MAXSIZE : Z := wrap 64 (-1) / 2 + 1.

(** musl-hsearch.c:58 [for (newsize = MINSIZE; newsize < nel; newsize *= 2);] *)
Fixpoint grow_size (fuel : nat) (newsize nel : Z) : outcome Z :=
  match fuel with
  | O => Bad OutOfFuel
  | S f => if newsize <? nel then grow_size f (wrap 64 (newsize * 2)) nel
           else Ok newsize
  end.

(** The probing loops (musl-hsearch.c:68-72 and :95-99): starting at hash [i]
    with step [j], the index of the first slot satisfying [stop]. *)
Fixpoint probe (fuel : nat) (entries : list (option hentry)) (mask i j : Z)
  (stop : option hentry -> bool) : outcome Z :=
  match fuel with
  | O => Bad OutOfFuel
  | S f =>
    let idx := Z.land i mask in
    let* e := of_option OutOfBounds (nth_error entries (Z.to_nat idx)) in
    if stop e then Ok idx
    else probe f entries mask (wrap 64 (i + j)) (wrap 64 (j + 1)) stop
  end.

(** musl-hsearch.c:66-75: rehash the old entries into the new table. *)
Fixpoint rehash (fuel : nat) (old : list (option hentry))
  (entries : list (option hentry)) (mask : Z)
  : outcome (list (option hentry)) :=
  match old with
  | [] => Ok entries
  | None :: old' => rehash fuel old' entries mask
  | Some e :: old' =>
    let* idx := probe fuel entries mask (keyhash (fst e)) 1
                  (fun s => match s with None => true | Some _ => false end) in
    rehash fuel old' (update entries (Z.to_nat idx) (Some e)) mask
  end.

(** Fuel for the probing loops: the number of slots. *)
Definition slots (mask : Z) : nat := Z.to_nat (mask + 1).

(** musl-hsearch.c:48-78 [resize] *)
Definition resize (nel : Z) (t : htab) : outcome htab :=
  let nel := if nel >? MAXSIZE then MAXSIZE else nel in
  let* newsize := grow_size 64 MINSIZE nel in
  let mask := newsize - 1 in
  let* entries := rehash (slots mask) (h_entries t)
                    (repeat None (Z.to_nat newsize)) mask in
  Ok (HTab entries mask (h_used t)).

(** musl-hsearch.c:90-101 [lookup]: the slot where the search ends. *)
Definition lookup (key : hkey) (hash : Z) (t : htab) : outcome Z :=
  probe (slots (h_mask t)) (h_entries t) (h_mask t) hash 1
    (fun s => match s with None => true | Some e => bytes_eqb (fst e) key end).

(** musl-hsearch.c:110-123 [hcreate_r]: calloc'ed [__tab] (no entries), then
    [resize]. *)
Definition hcreate (nel : Z) : outcome htab := resize nel (HTab [] 0 0).

(** musl-hsearch.c:132-158 [hsearch_r] with action FIND. *)
Definition hfind (key : hkey) (t : htab) : outcome (option hentry) :=
  let* i := lookup key (keyhash key) t in
  of_option OutOfBounds (nth_error (h_entries t) (Z.to_nat i)).

(** musl-hsearch.c:132-158 [hsearch_r] with action ENTER: the table and the
    entry [*retval] points to. *)
Definition henter (item : hentry) (t : htab) : outcome (htab * option hentry) :=
  let hash := keyhash (fst item) in
  let* i := lookup (fst item) hash t in
  let* e := of_option OutOfBounds (nth_error (h_entries t) (Z.to_nat i)) in
  match e with
  | Some _ => Ok (t, e)
  | None =>
    let entries := update (h_entries t) (Z.to_nat i) (Some item) in
    let used := wrap 64 (h_used t + 1) in
    let t1 := HTab entries (h_mask t) used in
    if used >? h_mask t - h_mask t / 4 then
      let* t2 := resize (wrap 64 (2 * used)) t1 in
      let* i2 := lookup (fst item) hash t2 in
      let* e2 := of_option OutOfBounds (nth_error (h_entries t2) (Z.to_nat i2)) in
      Ok (t2, e2)
    else Ok (t1, Some item)
  end.

(** dict.c:18-25 [struct header]: table plus the lists of all keys and values
    ever added. *)
Record cdict : Type := CDict {
  d_tab : htab; d_keys : list hkey; d_vals : list (option V)
}.

(** dict.c:53-86 [cee_dict_mk_e], [cee_dict_mk].  The requested table size is
    [(size_t)((float)size * 1.25)]; the float arithmetic is not modelled, the
    table size is a parameter here. *)
Definition dict_mk (hsize : Z) : outcome cdict :=
  let* t := hcreate hsize in Ok (CDict t [] []).

(** dict.c:88-97 [cee_dict_add] *)
Definition dict_add (d : cdict) (key : hkey) (value : option V) : outcome cdict :=
  let* (t, _) := henter (key, value) (d_tab d) in
  Ok (CDict t (d_keys d ++ [key]) (d_vals d ++ [value])).

(** dict.c:99-108 [cee_dict_find] *)
Definition dict_find (d : cdict) (key : hkey) : outcome (option V) :=
  let* e := hfind key (d_tab d) in
  match e with Some e => Ok (snd e) | None => Ok None end.

End Hsearch.

Arguments HTab {V} _ _ _.
Arguments h_entries {V} _.
Arguments h_mask {V} _.
Arguments h_used {V} _.
Arguments CDict {V} _ _ _.
Arguments d_tab {V} _.
Arguments d_keys {V} _.
Arguments d_vals {V} _.
