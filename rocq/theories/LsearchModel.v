(** Model of musl-lsearch.c: linear search in a table.  The memory is a list of
    blocks of bytes; a pointer stored in memory takes eight bytes that only make
    sense together. *)
From Coq Require Import ZArith List Bool.
From Verif Require Import Base.
Import ListNotations.
Open Scope Z_scope.
Open Scope outcome_scope.

(** A block and an offset into it. *)
Definition ptr : Type := (nat * Z)%type.

(** What a byte of memory holds: a number, or one of the eight bytes of a pointer. *)
Inductive cell : Type :=
| Byte (b : Z)
| Part (p : ptr) (i : Z).    (* byte [i] of the pointer [p] *)

(** Memory: blocks of bytes; [None] is a byte that was never written. *)
Definition lmem : Type := list (list (option cell)).

Definition block_of (m : lmem) (b : nat) : outcome (list (option cell)) :=
  of_option BadPointer (nth_error m b).

(** [n] bytes from [p] on *)
Fixpoint read_bytes (a : list (option cell)) (off : Z) (n : nat)
  : outcome (list cell) :=
  match n with
  | O => Ok []
  | S n =>
      let* c := aread a off in
      let* cs := read_bytes a (off + 1) n in
      Ok (c :: cs)
  end.

(** [cs] to [off] on; the memcpy of musl-lsearch.c:22 *)
Fixpoint write_bytes (a : list (option cell)) (off : Z) (cs : list cell)
  : outcome (list (option cell)) :=
  match cs with
  | [] => Ok a
  | c :: cs =>
      let* a := aset a off (Some c) in
      write_bytes a (off + 1) cs
  end.

(** The same through a pointer *)
Definition load_bytes (m : lmem) (p : ptr) (n : nat) : outcome (list cell) :=
  let* a := block_of m (fst p) in read_bytes a (snd p) n.

Definition store_bytes (m : lmem) (p : ptr) (cs : list cell) : outcome lmem :=
  let* a := block_of m (fst p) in
  let* a := write_bytes a (snd p) cs in
  Ok (update m (fst p) a).

(** Equality of pointers (helper) *)
Definition ptr_eqb (p q : ptr) : bool :=
  Nat.eqb (fst p) (fst q) && (snd p =? snd q).

(** Eight bytes as a pointer: they must be the bytes of one pointer, in order.
    Any other bytes give a pointer to no object. *)
Fixpoint is_parts (p : ptr) (i : Z) (cs : list cell) : bool :=
  match cs with
  | [] => true
  | Part q j :: cs => ptr_eqb p q && (i =? j) && is_parts p (i + 1) cs
  | Byte _ :: _ => false
  end.

(** [p[i]] in musl-lsearch.c:18 and :32: the bytes read are used as a pointer. *)
Definition as_pointer (cs : list cell) : outcome ptr :=
  match cs with
  | Part p _ :: _ => if is_parts p 0 cs then Ok p else Bad BadPointer
  | _ => Bad BadPointer
  end.

(** [p[i]] where [p] is a [char **] *)
Definition slot (m : lmem) (base : ptr) (i : Z) : outcome ptr :=
  let* cs := load_bytes m (fst base, snd base + 8 * i) 8 in
  as_pointer cs.

(** [memcpy(d, s, n)]; it returns [d].  That the two do not overlap is up to the
    caller and is not checked. *)
Definition memcpy (m : lmem) (d s : ptr) (n : nat) : outcome (ptr * lmem) :=
  let* cs := load_bytes m s n in
  let* m := store_bytes m d cs in
  Ok (d, m).

Section Search.
(** The function of the caller; it does not change the memory. *)
Variable compar : lmem -> ptr -> ptr -> outcome Z.

(** The loops of musl-lsearch.c:17-19 and 32-34, from [i] on with [k] rounds left *)
Fixpoint scan (m : lmem) (key base : ptr) (i : Z) (k : nat) : outcome (option ptr) :=
  match k with
  | O => Ok None
  | S k =>
      let* p := slot m base i in
      let* c := compar m p key in
      if c =? 0 then Ok (Some p) else scan m key base (i + 1) k
  end.

(** musl-lsearch.c:10-23 [musl_lsearch]: the pointer, the new [*nelp] and the
    memory.  [n+1] is computed modulo 2^64. *)
Definition lsearch (m : lmem) (key base : ptr) (nel : nat) (width : nat)
  : outcome (ptr * Z * lmem) :=
  let* r := scan m key base 0 nel in
  match r with
  | Some p => Ok (p, Z.of_nat nel, m)
  | None =>
      let* d := slot m base (Z.of_nat nel) in
      let* (p, m) := memcpy m d key width in
      Ok (p, wrap 64 (Z.of_nat nel + 1), m)
  end.

(** musl-lsearch.c:25-36 [musl_lfind]; [None] is NULL. *)
Definition lfind (m : lmem) (key base : ptr) (nel : nat) : outcome (option ptr) :=
  scan m key base 0 nel.

(** Looking up several keys in turn in the same table. *)
Fixpoint lsearches (m : lmem) (base : ptr) (nel : Z) (width : nat) (keys : list ptr)
  : outcome (list ptr * Z * lmem) :=
  match keys with
  | [] => Ok ([], nel, m)
  | k :: keys =>
      let* (pn, m) := lsearch m k base (Z.to_nat nel) width in
      let '(p, n) := pn in
      let* (psn, m) := lsearches m base n width keys in
      let '(ps, n) := psn in
      Ok (p :: ps, n, m)
  end.
End Search.
