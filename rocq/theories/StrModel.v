(** Model of str.c.

    Bytes are integers 0..255, 0 being NUL (char is only compared for equality
    here, so its signedness does not matter).  A C string argument that the code
    only reads is given by its NUL-free content.  malloc never fails. *)
From Coq Require Import ZArith List Bool.
From Verif Require Import Base.
Import ListNotations.
Open Scope Z_scope.
Open Scope outcome_scope.

(** * Formats and va_list *)

(** A printf format: literal text, or a directive consuming one argument.  An
    argument is represented by the text its directive prints. *)
Inductive piece : Type := PLit (bs : list Z) | PDir.
Definition fmt : Type := list piece.

(** A va_list: [Some args] are the arguments left, [None] is the indeterminate
    value it has after a function invoked va_arg on it (C11 7.16p3). *)
Definition va_list : Type := option (list (list Z)).

(** The text printf prints for a format and its arguments; [None] when there are
    not enough of them (C11 7.21.6.1). *)
Fixpoint fmt_text (f : fmt) (args : list (list Z)) : option (list Z) :=
  match f with
  | [] => Some []
  | PLit bs :: f' => match fmt_text f' args with Some t => Some (bs ++ t) | None => None end
  | PDir :: f' =>
    match args with
    | [] => None
    | a :: args' => match fmt_text f' args' with Some t => Some (a ++ t) | None => None end
    end
  end.

(** Whether printing reads arguments at all: only then va_arg is invoked. *)
Definition has_directive (f : fmt) : bool :=
  existsb (fun p => match p with PDir => true | PLit _ => false end) f.

(** vsnprintf as a reader of its va_list: the complete text and the va_list
    afterwards.  Without a directive va_arg is not invoked.  Texts longer than
    INT_MAX bytes, on which vsnprintf fails, are not modelled. *)
Definition vformat (f : fmt) (ap : va_list) : outcome (list Z * va_list) :=
  if has_directive f then
    match ap with
    | None => Bad BadVaList
    | Some args => match fmt_text f args with Some t => Ok (t, None) | None => Bad BadVaList end
    end
  else match fmt_text f [] with Some t => Ok (t, ap) | None => Bad BadVaList end.

(** Storing bytes [l] from index [off] on. *)
Fixpoint put (a : list (option Z)) (off : Z) (l : list Z) : outcome (list (option Z)) :=
  match l with
  | [] => Ok a
  | c :: l' => let* a' := aset a off (Some c) in put a' (off + 1) l'
  end.

(** The writing side of vsnprintf(a + off, n, ...): at most [n - 1] bytes of the
    text and a NUL. *)
Definition snput (a : list (option Z)) (off n : Z) (t : list Z) : outcome (list (option Z)) :=
  if n =? 0 then Ok a else put a off (firstn (Z.to_nat (n - 1)) t ++ [0]).

(** strlen *)
Fixpoint c_strlen (a : list (option Z)) : outcome Z :=
  match a with
  | [] => Bad OutOfBounds
  | None :: _ => Bad Uninit
  | Some c :: a' => if c =? 0 then Ok 0 else let* n := c_strlen a' in Ok (n + 1)
  end.

(** * String blocks *)

(** cee.h:33-37 [enum cee_resize_method] *)
Inductive rmethod : Type := RealLoc | MalLoc | Identity.

(** str.c:18-22 [struct S(header)]: [c_data] are all the bytes from [_] to the
    end of the allocation.  sizeof(struct S(header)) = 72, [_] is at offset 64. *)
Record cstr : Type := CStr {
  c_cap : Z; c_mem : Z; c_meth : rmethod; c_data : list (option Z)
}.

(** sizeof(struct S(header)) and DATA_OFFSET (cee-header.h:3), on x86-64 *)
Definition HDR : Z := 72.
Definition DATA_OFF : Z := 64.
(** str.c:14-16 *)
Definition CEE_BLOCK : Z := 64.

(** The block allocated for [s] bytes: str.c:57-71, :86-99, :133-145 *)
Definition block_for (s : Z) : cstr :=
  let s := wrap 64 (s + HDR) in
  let mem := wrap 64 ((s / CEE_BLOCK + 1) * CEE_BLOCK) in
  CStr (mem - HDR) mem MalLoc (repeat None (Z.to_nat (mem - DATA_OFF))).

(** The block with other bytes (helper) *)
Definition set_data (b : cstr) (d : list (option Z)) : cstr :=
  CStr (c_cap b) (c_mem b) (c_meth b) d.

(** str.c:45-68 [cee_str_strn] *)
Definition str_strn (s : list Z) : outcome cstr :=
  let b := block_for (Z.of_nat (length s) + 1) in
  let* d := put (c_data b) 0 s in
  Ok (set_data b d).

(** str.c:70-103 [cee_str_mkv]: the copy [prob_ap] is made but [ap] itself is
    used for measuring, and then again for printing. *)
Definition str_mkv (f : option fmt) (ap : va_list) : outcome cstr :=
  match f with
  | None => Bad Abort
  | Some f =>
    let* (t, ap') := vformat f ap in
    let b := block_for (Z.of_nat (length t) + 1) in
    let* (t2, _) := vformat f ap' in
    let* d := snput (c_data b) 0 (c_mem b) t2 in
    Ok (set_data b d)
  end.

(** str.c:105-118 [cee_str_mk] *)
Definition str_mk (f : option fmt) (args : list (list Z)) : outcome cstr :=
  str_mkv f (Some args).

(** str.c:120-153 [cee_str_mk_e].  va_start is called twice without va_end in
    between; this is taken to restart the argument list. *)
Definition str_mk_e (n : Z) (f : option fmt) (args : list (list Z)) : outcome cstr :=
  match f with
  | Some f =>
    let* (t, _) := vformat f (Some args) in
    let b := block_for (Z.of_nat (length t) + 1) in
    let* (t2, _) := vformat f (Some args) in
    let* d := snput (c_data b) 0 (c_cap b) t2 in
    Ok (set_data b d)
  | None =>
    let b := block_for n in
    let* d := aset (c_data b) 0 (Some 0) in
    Ok (set_data b d)
  end.

(** cee-resize.h:39-63 [S(resize)], and the new capacity set by every caller.
    The chain bookkeeping is in the heap model.  The malloc method copies
    [mem_block_size] bytes, header included. *)
Definition str_resize (b : cstr) (n : Z) : outcome cstr :=
  match c_meth b with
  | Identity => Ok (CStr (c_mem b - HDR) (c_mem b) Identity (c_data b))
  | m =>
    if n <? c_mem b then Bad OutOfBounds
    else Ok (CStr (n - HDR) n m (agrow (c_data b) (n - DATA_OFF)))
  end.

(** str.c:27-28 [_CEE_NEWSIZE] *)
Definition newsize (c extra : Z) : Z := wrap 64 (2 * (if c >? extra then c else extra)).

(** str.c:186-200 [cee_str_add].  [slen] is a uint32_t.  In the growing branch
    [b->capacity] is read after the resize, when the realloc method has freed
    [b]; with the malloc method [b] is still the old block. *)
Definition str_add (b : cstr) (c : Z) : outcome cstr :=
  let* l := c_strlen (c_data b) in
  let slen := wrap 32 l in
  if slen <? c_cap b then
    let* d := aset (c_data b) slen (Some c) in
    let* d := aset d (slen + 1) (Some 0) in
    Ok (set_data b d)
  else
    let* b1 := str_resize b (newsize (c_mem b) CEE_BLOCK) in
    let* cap := match c_meth b with
                | RealLoc => Bad UseAfterFree
                | MalLoc => Ok (c_cap b)
                | Identity => Ok (c_cap b1)
                end in
    let* d := aset (c_data b1) cap (Some c) in
    let* d := aset d (cap + 1) (Some 0) in
    Ok (set_data b1 d).

(** str.c:202-227 [cee_str_catf] *)
Definition str_catf (b : cstr) (f : option fmt) (args : list (list Z)) : outcome cstr :=
  match f with
  | None => Ok b
  | Some f =>
    let* slen := c_strlen (c_data b) in
    let* (t, _) := vformat f (Some args) in
    let s := Z.of_nat (length t) + 1 in
    let* (t2, _) := vformat f (Some args) in
    if slen + s <? c_cap b then
      let* d := snput (c_data b) slen s t2 in Ok (set_data b d)
    else
      let* b1 := str_resize b (newsize (c_mem b) s) in
      let* d := snput (c_data b1) slen s t2 in Ok (set_data b1 d)
  end.

(** str.c:233-253 [cee_str_replace] *)
Definition str_replace (b : cstr) (f : option fmt) (args : list (list Z)) : outcome cstr :=
  match f with
  | None => Ok b
  | Some f =>
    let* (t, _) := vformat f (Some args) in
    let s := Z.of_nat (length t) + 1 in
    let* (t2, _) := vformat f (Some args) in
    if s <? c_cap b then
      let* d := snput (c_data b) 0 s t2 in Ok (set_data b d)
    else
      let* b1 := str_resize b (newsize (c_mem b) s) in
      let* d := snput (c_data b1) 0 s t2 in Ok (set_data b1 d)
  end.

(** * Trimming *)

(** str.c:260, :272 *)
Definition is_blank (c : Z) : bool :=
  (c =? 32) || (c =? 10) || (c =? 13) || (c =? 9).

(** str.c:258-264, the loop at index [i] *)
Fixpoint rtrim_loop (i : nat) (a : list (option Z)) : outcome (list (option Z)) :=
  match i with
  | O => Ok a
  | S i' =>
    let* c := aread a (Z.of_nat i) in
    if is_blank c then
      let* a' := aset a (Z.of_nat i) (Some 0) in rtrim_loop i' a'
    else Ok a
  end.

(** str.c:256-266 [cee_str_rtrim] *)
Definition str_rtrim (a : list (option Z)) : outcome (list (option Z)) :=
  let* l := c_strlen a in
  let slen := to_int32 l in
  rtrim_loop (Z.to_nat (slen - 1)) a.

(** str.c:270-276, the loop at index [i] *)
Fixpoint ltrim_start (fuel : nat) (i start : Z) (a : list (option Z)) : outcome Z :=
  match fuel with
  | O => Bad OutOfFuel
  | S f =>
    let* c := aread a i in
    if c =? 0 then Ok start
    else if is_blank c then ltrim_start f (i + 1) i a
    else Ok start
  end.

(** memmove within one block *)
Definition memmove (a : list (option Z)) (dst src n : Z) : outcome (list (option Z)) :=
  if (0 <=? n) && (0 <=? dst) && (0 <=? src)
     && (src + n <=? Z.of_nat (length a)) && (dst + n <=? Z.of_nat (length a))
  then Ok (firstn (Z.to_nat dst) a ++ firstn (Z.to_nat n) (skipn (Z.to_nat src) a)
           ++ skipn (Z.to_nat (dst + n)) a)
  else Bad OutOfBounds.

(** str.c:268-281 [cee_str_ltrim]; loop counters are int, strings are shorter
    than 2^31 (longer ones are not modelled: fuel is the block size). *)
Definition str_ltrim (a : list (option Z)) : outcome (list (option Z)) :=
  let* start := ltrim_start (S (length a)) 0 0 a in
  let* l := c_strlen a in
  let new_len := to_int32 (l - start) in
  let* a' := memmove a 0 start new_len in
  aset a' new_len (Some 0).

(** * Replacing substrings *)

(** [str[i]] of a C string: its bytes, then the NUL. *)
Definition cread (s : list Z) (i : Z) : outcome Z :=
  if i <? 0 then Bad OutOfBounds
  else if i =? Z.of_nat (length s) then Ok 0
  else of_option OutOfBounds (nth_error s (Z.to_nat i)).

(** A copying loop of [n] steps. *)
Fixpoint copy (n : nat) (s : list Z) (i : Z) (d : list (option Z)) (j : Z)
  : outcome (list (option Z)) :=
  match n with
  | O => Ok d
  | S n' =>
    let* c := cread s i in
    let* d' := aset d j (Some c) in
    copy n' s (i + 1) d' (j + 1)
  end.

(** str.c:288-312 [str_replace_at_offset] *)
Definition str_replace_at_offset (str : list Z) (offset len : Z) (new_substr : list Z)
  : outcome (list (option Z)) :=
  let orig_len := Z.of_nat (length str) in
  let new_len := Z.of_nat (length new_substr) in
  let d := repeat None (Z.to_nat (wrap 64 (orig_len - len + new_len + 1))) in
  let* d := copy (Z.to_nat offset) str 0 d 0 in
  let* d := copy (Z.to_nat new_len) new_substr 0 d offset in
  let i := wrap 64 (offset + len) in
  let i_dest := new_len + offset in
  let* d := copy (Z.to_nat (orig_len - i)) str i d i_dest in
  aset d (i_dest + Z.max 0 (orig_len - i)) (Some 0).

(** strncmp(s + i, p, strlen(p)) == 0 *)
Fixpoint is_prefix (p s : list Z) : bool :=
  match p, s with
  | [], _ => true
  | x :: p', y :: s' => (x =? y) && is_prefix p' s'
  | _ :: _, [] => false
  end.
Definition matches_at (s : list Z) (i : Z) (p : list Z) : bool :=
  is_prefix p (skipn (Z.to_nat i) s).

(** str.c:326-338, the loop; counters are int. *)
Fixpoint replace_loop (fuel : nat) (str old new : list Z) (i_src i_dest : Z)
  (d : list (option Z)) : outcome (list (option Z) * Z) :=
  match fuel with
  | O => Bad OutOfFuel
  | S f =>
    if wrap 64 i_src <? Z.of_nat (length str) then
      if matches_at str i_src old then
        let* d' := put d i_dest new in
        replace_loop f str old new (to_int32 (i_src + Z.of_nat (length old)))
          (to_int32 (i_dest + Z.of_nat (length new))) d'
      else
        let* c := cread str i_src in
        let* d' := aset d i_dest (Some c) in
        replace_loop f str old new (i_src + 1) (i_dest + 1) d'
    else Ok (d, i_dest)
  end.

(** str.c:319-340 [str_replace_all].  [ratio] is a double holding an integer;
    products are exact below 2^53, larger ones are not modelled. *)
Definition str_replace_all (str old new : list Z) : outcome (list (option Z)) :=
  let old_len := Z.of_nat (length old) in
  let new_len := Z.of_nat (length new) in
  let orig_len := Z.of_nat (length str) in
  if old_len =? 0 then Bad DivByZero
  else
    let ratio := new_len / old_len + 1 in
    let d := repeat None (Z.to_nat (orig_len * ratio)) in
    let* (d, i_dest) := replace_loop (S (length str)) str old new 0 0 d in
    aset d i_dest (Some 0).

(** str.c:375-386 *)
Definition min_old (pairs : list (list Z * list Z)) : Z :=
  fold_left (fun m p => if Z.of_nat (length (fst p)) <? m then Z.of_nat (length (fst p)) else m) pairs 1000.
Definition max_new (pairs : list (list Z * list Z)) : Z :=
  fold_left (fun m p => if Z.of_nat (length (snd p)) >? m then Z.of_nat (length (snd p)) else m) pairs 0.

(** str.c:379-388, the inner loop: the first pair matching at [i] *)
Definition used_pair (str : list Z) (i : Z) (pairs : list (list Z * list Z)) : option (list Z * list Z) :=
  find (fun p => (i + Z.of_nat (length (fst p)) <=? Z.of_nat (length str)) && matches_at str i (fst p)) pairs.

(** str.c:377-401, the loop *)
Fixpoint replace_ext_loop (fuel : nat) (str : list Z) (pairs : list (list Z * list Z))
  (i_src i_dest : Z) (d : list (option Z)) : outcome (list (option Z) * Z) :=
  match fuel with
  | O => Bad OutOfFuel
  | S f =>
    if i_src <? Z.of_nat (length str) then
      match used_pair str i_src pairs with
      | Some (old, new) =>
        let* d' := put d i_dest new in
        replace_ext_loop f str pairs (i_src + Z.of_nat (length old))
          (i_dest + Z.of_nat (length new)) d'
      | None =>
        let* c := of_option OutOfBounds (nth_error str (Z.to_nat i_src)) in
        let* d' := aset d i_dest (Some c) in
        replace_ext_loop f str pairs (i_src + 1) (i_dest + 1) d'
      end
    else Ok (d, i_dest)
  end.

(** str.c:344-408 [str_replace_all_ext]: result and [*out_size].  [str] is given
    by its first [str_len] bytes, which may contain NULs; needles are NUL-free.
    Lengths fit an int. *)
Definition str_replace_all_ext (str : list Z) (pairs : list (list Z * list Z))
  : outcome (list (option Z) * Z) :=
  let min_old_len := min_old pairs in
  let max_new_len := max_new pairs in
  let max_len := if max_new_len >? min_old_len then max_new_len else min_old_len in
  let min_len := if max_new_len >? min_old_len then min_old_len else max_new_len in
  if min_len =? 0 then Bad DivByZero
  else
    let new_strlen := wrap 64 ((Z.of_nat (length str) / min_len) * max_len) in
    let d := repeat None (Z.to_nat (wrap 64 (new_strlen + 1))) in
    let* (d, i_dest) := replace_ext_loop (S (length str)) str pairs 0 0 d in
    let* d := aset d i_dest (Some 0) in
    Ok (d, i_dest).
