(** Model of cee_json_escape_string (cee-json/value.c:855-886). *)
From Coq Require Import ZArith List Bool.
From Verif Require Import Base Json.
Import ListNotations.
Open Scope Z_scope.
Open Scope outcome_scope.

(** [dest[j] = c0, dest[j+1] = c1, ...] *)
Fixpoint put_bytes (dest : list (option Z)) (j : Z) (cs : text) : outcome (list (option Z)) :=
  match cs with
  | [] => Ok dest
  | c :: r => let* dest := aset dest j (Some c) in put_bytes dest (j + 1) r
  end.

(** snprintf(p, n, "%04x", c) for [0 <= c < 32]: at most [n] bytes with the NUL *)
Definition hex_lower (d : Z) : Z := if d <? 10 then 48 + d else 87 + d.
Definition snprintf_04x (n : Z) (c : Z) : text :=
  let t := [48; 48; hex_lower (c / 16); hex_lower (c mod 16)] in
  if n =? 0 then [] else firstn (Z.to_nat (Z.min (n - 1) 4)) t ++ [0].

(** cee-json/value.c:860-878, one character: [char] is signed, so that c is
    negative for bytes from 128 on; what is stored is the byte.  [dest_size] is the
    length of the array.  [j] is an int. *)
Definition escape_char (dest : list (option Z)) (j : Z) (b : Z) : outcome (list (option Z) * Z) :=
  let c := if b <? 128 then b else b - 256 in
  let two x := let* dest := put_bytes dest j [92; x] in Ok (dest, j + 2) in
  if c =? 34 then two 34
  else if c =? 92 then two 92
  else if c =? 8 then two 98
  else if c =? 12 then two 102
  else if c =? 10 then two 110
  else if c =? 13 then two 114
  else if c =? 9 then two 116
  else if (0 <=? c) && (c <=? 31) then
    let* dest := put_bytes dest j [92; 117] in
    let* dest := put_bytes dest (j + 2) (snprintf_04x (wrap 64 (Z.of_nat (length dest) - j - 2)) c) in
    Ok (dest, j + 4)
  else
    let* dest := put_bytes dest j [b] in
    Ok (dest, j + 1).

(** cee-json/value.c:858-859, the loop; i and j are ints, an overflow of j is
    undefined (that of i comes later, as j is not less). *)
Fixpoint escape_loop (dest : list (option Z)) (j : Z) (s : text) : outcome (list (option Z) * Z) :=
  match s with
  | [] => Ok (dest, j)
  | b :: s =>
    let* (dest, j) := escape_char dest j b in
    if j <? 2 ^ 31 then escape_loop dest j s else Bad Overflow
  end.

(** cee-json/value.c:855-886 [cee_json_escape_string]: the array, the result, and
    what is stored for the rest of the array: its offset and its size *)
Record escaped_to : Type := EscapedTo { e_dest : list (option Z); e_result : Z; e_next : Z; e_next_size : Z }.
Definition escape_string (s : text) (dest : list (option Z)) : outcome escaped_to :=
  let* (d, j) := escape_loop dest 0 s in
  Ok (EscapedTo d j j (wrap 64 (Z.of_nat (length dest) - j))).
