(** Model of the UTF-8 and UTF-16 functions of cee-json/tokenizer.c.  Bytes are
    numbers 0..255; a pointer pair [p, e) is the list of bytes between them. *)
From Coq Require Import ZArith List Bool.
From Verif Require Import Base.
Import ListNotations.
Open Scope Z_scope.
Open Scope outcome_scope.

(** cee-json/tokenizer.c:9 *)
Definition utf_illegal : Z := 4294967295.

(** cee-json/tokenizer.c:10-17 [utf_valid] *)
Definition utf_valid (v : Z) : bool :=
  if v >? 1114111 then false
  else if (55296 <=? v) && (v <=? 57343) then false
  else true.

(** cee-json/tokenizer.c:20-24 [utf8_is_trail] *)
Definition utf8_is_trail (c : Z) : bool := Z.land c 192 =? 128.

(** cee-json/tokenizer.c:27-40 [utf8_trail_length] *)
Definition utf8_trail_length (c : Z) : Z :=
  if c <? 128 then 0
  else if c <? 194 then -1
  else if c <? 224 then 1
  else if c <? 240 then 2
  else if c <=? 244 then 3
  else -1.

(** cee-json/tokenizer.c:42-56 [utf8_width] *)
Definition utf8_width (v : Z) : Z :=
  if v <=? 127 then 1 else if v <=? 2047 then 2 else if v <=? 65535 then 3 else 4.

(** cee-json/tokenizer.c:88-115: the cases of the switch fall through, one trail
    byte each; [None] is [return utf_illegal]. *)
Fixpoint utf8_trails (n : nat) (c : Z) (p : list Z) : option (Z * list Z) :=
  match n with
  | O => Some (c, p)
  | S n' =>
    match p with
    | [] => None
    | tmp :: p' =>
      if utf8_is_trail tmp then utf8_trails n' (Z.lor (Z.shiftl c 6) (Z.land tmp 63)) p'
      else None
    end
  end.

(** cee-json/tokenizer.c:60-127 [next]: the code point or [utf_illegal], and the
    bytes left (irrelevant after [utf_illegal]: the callers stop). *)
Definition utf8_next (p : list Z) (html : bool) : Z * list Z :=
  match p with
  | [] => (utf_illegal, [])
  | lead :: p1 =>
    let trail_size := utf8_trail_length lead in
    if trail_size <? 0 then (utf_illegal, p1)
    else if trail_size =? 0 then
      if negb html || ((32 <=? lead) && negb (lead =? 127)) || (lead =? 9) || (lead =? 10) || (lead =? 13)
      then (lead, p1) else (utf_illegal, p1)
    else
      let c := Z.land lead (Z.shiftl 1 (6 - trail_size) - 1) in
      match utf8_trails (Z.to_nat trail_size) c p1 with
      | None => (utf_illegal, p1)
      | Some (c, p2) =>
        if negb (utf_valid c) then (utf_illegal, p2)
        else if negb (utf8_width c =? trail_size + 1) then (utf_illegal, p2)
        else if html && (c <? 160) then (utf_illegal, p2)
        else (c, p2)
      end
  end.

(** cee-json/tokenizer.c:142-148 [utf8_validate] *)
Fixpoint utf8_validate_loop (fuel : nat) (p : list Z) : outcome bool :=
  match fuel with
  | O => Bad OutOfFuel
  | S f =>
    match p with
    | [] => Ok true
    | _ => let (c, p') := utf8_next p false in
           if c =? utf_illegal then Ok false else utf8_validate_loop f p'
    end
  end.
Definition utf8_validate (p : list Z) : outcome bool := utf8_validate_loop (S (length p)) p.

(** cee-json/tokenizer.c:156-180 [utf8_encode]: the bytes out->c[0 .. len-1]; the
    assignment to a char keeps the low eight bits. *)
Definition utf8_encode (v : Z) : list Z :=
  let byte x := Z.land x 255 in
  if v <=? 127 then [byte v]
  else if v <=? 2047 then
    [byte (Z.lor (Z.shiftr v 6) 192); byte (Z.lor (Z.land v 63) 128)]
  else if v <=? 65535 then
    [byte (Z.lor (Z.shiftr v 12) 224); byte (Z.lor (Z.land (Z.shiftr v 6) 63) 128);
     byte (Z.lor (Z.land v 63) 128)]
  else
    [byte (Z.lor (Z.shiftr v 18) 240); byte (Z.lor (Z.land (Z.shiftr v 12) 63) 128);
     byte (Z.lor (Z.land (Z.shiftr v 6) 63) 128); byte (Z.lor (Z.land v 63) 128)].

(** cee-json/tokenizer.c:221-234 *)
Definition utf16_is_first_surrogate (x : Z) : bool := (55296 <=? x) && (x <=? 56319).
Definition utf16_is_second_surrogate (x : Z) : bool := (56320 <=? x) && (x <=? 57343).
Definition utf16_combine_surrogate (w1 w2 : Z) : Z :=
  Z.lor (Z.shiftl (Z.land w1 1023) 10) (Z.land w2 1023) + 65536.
