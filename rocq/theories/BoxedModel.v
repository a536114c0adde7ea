(** Model of boxed.c. *)
From Coq Require Import ZArith List Bool.
From Verif Require Import Base Numeral.
Import ListNotations.
Open Scope Z_scope.
Open Scope outcome_scope.

(** cee.h:565-576 [enum cee_boxed_primitive_type] *)
Inductive prim : Type := F64 | F32 | U64 | U32 | U16 | U8 | I64 | I32 | I16 | I8.
Definition prim_eqb (a b : prim) : bool :=
  match a, b with
  | F64, F64 | F32, F32 | U64, U64 | U32, U32 | U16, U16 | U8, U8
  | I64, I64 | I32, I32 | I16, I16 | I8, I8 => true
  | _, _ => false
  end.

(** sizeof of the member of the union and whether it is a signed integer.  A
    value of a floating type is its bit pattern. *)
Definition bytes_of (t : prim) : nat :=
  match t with F64 | U64 | I64 => 8 | F32 | U32 | I32 => 4 | U16 | I16 => 2 | U8 | I8 => 1 end.
Definition is_signed (t : prim) : bool :=
  match t with I64 | I32 | I16 | I8 => true | _ => false end.

(** boxed.c:12-16 [struct header]: the tag and the eight bytes of the union *)
Record box : Type := Box { bx_type : prim; bx_mem : list Z }.

(** Little-endian stores and loads of [n] bytes at the start of the union; signed
    numbers in two's complement. *)
Fixpoint le_bytes (n : nat) (v : Z) : list Z :=
  match n with O => [] | S n' => v mod 256 :: le_bytes n' (v / 256) end.
Fixpoint le_value (bs : list Z) : Z :=
  match bs with [] => 0 | b :: r => b + 256 * le_value r end.
Definition store (mem : list Z) (t : prim) (v : Z) : list Z :=
  le_bytes (bytes_of t) v ++ skipn (bytes_of t) mem.
Definition load (mem : list Z) (t : prim) : Z :=
  let u := le_value (firstn (bytes_of t) mem) in
  let w := 8 * Z.of_nat (bytes_of t) in
  if is_signed t && (2 ^ (w - 1) <=? u) then u - 2 ^ w else u.

(** boxed.c:46-61 [mk_header] *)
Definition mk_header (t : prim) : box := Box t (le_bytes 8 0).

(** boxed.c:72-233 [cee_boxed_from_double] ... [cee_boxed_from_i8] *)
Definition boxed_from (t : prim) (v : Z) : box :=
  let b := mk_header t in Box (bx_type b) (store (bx_mem b) t v).

(** boxed.c:280-359 [cee_boxed_to_double] ... [cee_boxed_to_i8] *)
Definition boxed_to (t : prim) (b : box) : outcome Z :=
  if prim_eqb (bx_type b) t then Ok (load (bx_mem b) t) else Bad Abort.

(** snprintf (library): what is stored in the buffer, and the returned length. *)
Definition snprintf (size : nat) (text : list Z) : list Z * Z :=
  (match size with O => [] | S n => firstn n text ++ [0] end, Z.of_nat (length text)).

(** boxed.c:235-278 [cee_boxed_snprint].  [fmt_g] is what printf "%g" and "%lg"
    print for a bit pattern. *)
Definition boxed_snprint (fmt_g : prim -> Z -> list Z) (size : nat) (b : box) : outcome (list Z * Z) :=
  let t := bx_type b in
  let v := load (bx_mem b) t in
  let (w, s) :=
    match t with
    | F64 | F32 => snprintf size (fmt_g t v)
    | _ => snprintf size (decimal_of v)
    end in
  if s >? 0 then Ok (w, s) else Bad Abort.
