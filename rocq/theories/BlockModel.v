(** Model of block.c, and of the parts of str.c that make strings of given bytes. *)
From Coq Require Import ZArith List Bool.
From Verif Require Import Base StrModel.
Import ListNotations.
Open Scope Z_scope.
Open Scope outcome_scope.

(** An allocated object of [k_size] bytes.  Its data is at [k_off]; the capacity, 8
    bytes, is at [k_cap_at].  The other fields of the header are in the heap model. *)
Record chunk : Type := Chunk { k_size : Z; k_off : Z; k_cap_at : Z; k_cap : Z; k_data : list (option Z) }.

(** block.c:18-23 [struct S(header)]: capacity, del_policy, cs (56 bytes), and the
    data at 72; its size is 80. *)
Definition BLOCK_OFF : Z := 72.
Definition BLOCK_HDR : Z := 80.

(** block.c:48-66 [cee_block_mk_nonzero].  The fields before the data are written. *)
Definition block_mk_nonzero (n : Z) : outcome chunk :=
  let size := wrap 64 (n + BLOCK_HDR) in
  if size <? BLOCK_OFF then Bad OutOfBounds
  else Ok (Chunk size BLOCK_OFF 0 n (repeat None (Z.to_nat (size - BLOCK_OFF)))).

(** block.c:68-72 [cee_block_mk]; memset of [n] bytes *)
Definition block_mk (n : Z) : outcome chunk :=
  let* b := block_mk_nonzero n in
  if n <=? Z.of_nat (length (k_data b)) then
    Ok (Chunk (k_size b) (k_off b) (k_cap_at b) (k_cap b)
          (repeat (Some 0) (Z.to_nat n) ++ skipn (Z.to_nat n) (k_data b)))
  else Bad OutOfBounds.

(** block.c:77-81 [cee_block_mk_e]; [init_f] changes the bytes of the block. *)
Definition block_mk_e (n : Z) (init_f : list (option Z) -> outcome (list (option Z))) : outcome chunk :=
  let* b := block_mk_nonzero n in
  let* d := init_f (k_data b) in
  Ok (Chunk (k_size b) (k_off b) (k_cap_at b) (k_cap b) d).

(** block.c:84-88 [cee_block_size]: FIND_HEADER goes back by the offset of the data
    in the header of a block. *)
Definition block_size (b : chunk) : outcome Z :=
  let at_ := k_off b - BLOCK_OFF in
  if at_ <? 0 then Bad OutOfBounds
  else if at_ =? k_cap_at b then Ok (k_cap b) else Bad BadPointer.

(** A string (str.c:18-22) cast to struct cee_block *: there is no del_policy in its
    header, so its data is at 64. *)
Definition as_block (b : cstr) : chunk := Chunk (c_mem b) DATA_OFF 0 (c_cap b) (c_data b).

(** str.c:156-164 [cee_block_empty]: the static object, with the header of a string;
    sizeof(struct S(header)) is 72, so there are 8 bytes from its data to its end.  Static memory is 0. *)
Definition block_empty : chunk := Chunk HDR DATA_OFF 0 1 (repeat (Some 0) 8).

(** str.c:169-182 [cee_str_end]: the offset of the result in the string *)
Definition str_end (b : cstr) : outcome (option Z) := let* n := c_strlen (c_data b) in Ok (Some n).

(** str.c:229-231 [cee_str_ncat]: [None] is NULL. *)
Definition str_ncat (b : cstr) (s : list Z) (n : Z) : option cstr := None.
