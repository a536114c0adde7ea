(** Model of the tokenizer of cee-json (tokenizer.c).

    A char pointer into the input is the list of bytes from it to the end of the
    allocated block; reading at the empty list is reading outside the block. *)
From Coq Require Import ZArith List Bool.
From Verif Require Import Base Json Utf8Model.
Import ListNotations.
Open Scope Z_scope.
Open Scope outcome_scope.

(** [*p] of a pointer into the buffer (cee-json/tokenizer.c); reading beyond the
    allocation is undefined behaviour. *)
Definition rd (p : text) : outcome Z := match p with [] => Bad OutOfBounds | c :: _ => Ok c end.

(** <ctype.h> in the C locale *)
Definition isdigit (c : Z) : bool := (48 <=? c) && (c <=? 57).
Definition hexval (c : Z) : option Z :=
  if (48 <=? c) && (c <=? 57) then Some (c - 48)
  else if (97 <=? c) && (c <=? 102) then Some (c - 87)
  else if (65 <=? c) && (c <=? 70) then Some (c - 55)
  else None.

(** cee-json/tokenizer.c:182-196 [check]: the position behind the keyword *)
Fixpoint check (buf s : text) : outcome (option text) :=
  match s with
  | [] => Ok (Some buf)
  | x :: s' => let* c := rd buf in if c =? x then check (tl buf) s' else Ok None
  end.

(** * Strings *)
(** cee-json/tokenizer.c:198-219 [read_4_digits] of [str, buf_end): the value and
    the bytes left.  sscanf "%x" of four hexadecimal digits is their value. *)
Definition read_4_digits (str : text) : option (Z * text) :=
  match str with
  | a :: b :: c :: d :: r =>
    match hexval a, hexval b, hexval c, hexval d with
    | Some a, Some b, Some c, Some d => Some (((a * 16 + b) * 16 + c) * 16 + d, r)
    | _, _, _, _ => None
    end
  | _ => None
  end.

(** Writing [*d = c; d++] into the block of [cap] bytes of which [out] are written *)
Definition put (cap : nat) (out : text) (c : Z) : outcome text :=
  if (length out <? cap)%nat then Ok (out ++ [c]) else Bad OutOfBounds.
(** cee-json/tokenizer.c:236-245 [append] *)
Fixpoint put_all (cap : nat) (out cs : text) : outcome text :=
  match cs with
  | [] => Ok out
  | c :: r => let* out := put cap out c in put_all cap out r
  end.

(** cee-json/tokenizer.c:297-306 *)
Definition simple_escape (c : Z) : option Z :=
  if c =? 34 then Some 34 else if c =? 92 then Some 92 else if c =? 47 then Some 47
  else if c =? 98 then Some 8 else if c =? 102 then Some 12 else if c =? 110 then Some 10
  else if c =? 114 then Some 13 else if c =? 116 then Some 9 else None.

(** cee-json/tokenizer.c:265-333, the loop in state TESTING: [None] is an error,
    [Some true] leaves it at a backslash (state ALLOCATING), [Some false] at the end. *)
Fixpoint unescape_test (s : text) : option bool :=
  match s with
  | [] => Some false
  | c :: s' =>
    if c <=? 31 then None
    else if c =? 92 then Some true
    else unescape_test s'
  end.

(** The same loop in state UNESCAPING; [first] is first_surrogate while
    second_surrogate_expected is set.  [Ok None] is [goto return_err]. *)
Fixpoint unescape_loop (fuel cap : nat) (s : text) (first : option Z) (out : text) : outcome (option text) :=
  match fuel with
  | O => Bad OutOfFuel
  | S f =>
    match s with
    | [] => Ok (Some out)
    | c :: s1 =>
      let expected := match first with Some _ => true | None => false end in
      if expected && negb (c =? 92) then Ok None
      else if c <=? 31 then Ok None
      else if c =? 92 then
        match s1 with
        | [] => Ok None
        | c :: s2 =>
          if expected && negb (c =? 117) then Ok None
          else
            match simple_escape c with
            | Some b => let* out := put cap out b in unescape_loop f cap s2 first out
            | None =>
              if c =? 117 then
                match read_4_digits s2 with
                | None => Ok None
                | Some (x, s3) =>
                  match first with
                  | Some w =>
                    if negb (utf16_is_second_surrogate x) then Ok None
                    else let* out := put_all cap out (utf8_encode (utf16_combine_surrogate w x)) in
                         unescape_loop f cap s3 None out
                  | None =>
                    if utf16_is_first_surrogate x then unescape_loop f cap s3 (Some x) out
                    else let* out := put_all cap out (utf8_encode x) in
                         unescape_loop f cap s3 None out
                  end
                end
              else Ok None
            end
        end
      else let* out := put cap out c in unescape_loop f cap s1 first out
    end
  end.

(** What json_string_unescape (cee-json/tokenizer.c:247-357) gives: an error, the
    input itself, or a new block and the number of bytes written in it. *)
Inductive unescaped : Type := UErr | USame | UNew (block : text) (len : nat).
Definition json_string_unescape (input : text) : outcome unescaped :=
  match unescape_test input with
  | None => Ok UErr
  | Some false => Ok USame
  | Some true =>
    let cap := length input in
    let* r := unescape_loop (S cap) cap input None [] in
    match r with
    | None => Ok UErr
    | Some out =>
      let* v := utf8_validate out in
      if v then Ok (UNew (out ++ repeat 0 (cap - length out)) (length out)) else Ok UErr
    end
  end.

(** The text printed by "%s" for a block: up to the first NUL. *)
Fixpoint c_string (p : text) : outcome text :=
  match p with
  | [] => Bad OutOfBounds
  | c :: r => if c =? 0 then Ok [] else let* s := c_string r in Ok (c :: s)
  end.
(** "%.*s": at most the given bytes *)
Fixpoint c_string_n (p : text) : text :=
  match p with [] => [] | c :: r => if c =? 0 then [] else c :: c_string_n r end.

(** cee-json/tokenizer.c:363-368: from [p] to the closing quote or the NUL: the
    bytes passed and the position. *)
Fixpoint string_end (p : text) : outcome (text * text) :=
  match p with
  | [] => Bad OutOfBounds
  | c :: p1 =>
    if (c =? 0) || (c =? 34) then Ok ([], p)
    else if c =? 92 then
      match p1 with
      | [] => Bad OutOfBounds
      | c2 :: p2 =>
        if c2 =? 0 then Ok ([c], p1)
        else let* (b, e) := string_end p2 in Ok (c :: c2 :: b, e)
      end
    else let* (b, e) := string_end p1 in Ok (c :: b, e)
  end.

(** cee-json/tokenizer.c:359-386 [parse_string] with [p] behind the opening quote:
    the string and the position behind the closing quote.  What cee_str_mk_e
    prints is property C12. *)
Definition parse_string (p : text) : outcome (option (text * text)) :=
  let* (body, e) := string_end p in
  let* q := rd e in
  if negb (q =? 34) then Ok None
  else
    let* u := json_string_unescape body in
    match u with
    | UErr => Ok None
    | USame => Ok (Some (c_string_n body, tl e))
    | UNew block _ => let* s := c_string block in Ok (Some (s, tl e))
    end.

(** * Numbers *)
(** [while (isdigit( *++end ))]: the digits from [p] on, and the position *)
Fixpoint digits_from (p : text) : outcome (text * text) :=
  match p with
  | [] => Bad OutOfBounds
  | c :: r => if isdigit c then let* (ds, e) := digits_from r in Ok (c :: ds, e) else Ok ([], p)
  end.

(** strtoll, base 10, of an optional minus sign and digits: out of range values
    saturate (library) *)
Definition digits_number (ds : text) : Z := fold_left (fun v c => 10 * v + (c - 48)) ds 0.
Definition strtoll (neg : bool) (ds : text) : Z :=
  let v := if neg then - digits_number ds else digits_number ds in
  Z.max (- 2 ^ 63) (Z.min v (2 ^ 63 - 1)).

(** The tokens of cee-json/tokenizer.c with the value left in [struct tokenizer]
    (cee-json/tokenizer.h) *)
Inductive token : Type :=
| TEof | TErr | TStr (s : text) | TI64 (z : Z) | TDouble (bits : Z)
| TTrue | TFalse | TNull | TPunct (c : Z).

Section Tok.
(** strtod (library) of a decimal literal: the bit pattern of the double *)
Variable strtod : text -> Z.

(** cee-json/tokenizer.c:408-414: a fraction, if there is one, and the position
    behind it *)
Definition fraction (p : text) : outcome (option (text * text)) :=
  let* c := rd p in
  if c =? 46 then
    let* d := rd (tl p) in
    if negb (isdigit d) then Ok None
    else let* (fs, e) := digits_from (tl (tl p)) in Ok (Some (46 :: d :: fs, e))
  else Ok (Some ([], p)).
(** cee-json/tokenizer.c:418-426: the same for an exponent *)
Definition exponent (p : text) : outcome (option (text * text)) :=
  let* c := rd p in
  if (c =? 101) || (c =? 69) then
    let p := tl p in
    let* s := rd p in
    let signed := (s =? 43) || (s =? 45) in
    let q := if signed then tl p else p in
    let* d := rd q in
    if negb (isdigit d) then Ok None
    else let* (es, e) := digits_from (tl q) in
         Ok (Some (c :: (if signed then [s] else []) ++ d :: es, e))
  else Ok (Some ([], p)).
Definition is_nil (w : text) : bool := match w with [] => true | _ => false end.

(** cee-json/tokenizer.c:388-446 [parse_number]: the number and the position
    behind it.  strtod and strtoll read exactly the literal found, because the
    byte behind it cannot continue it. *)
Definition parse_number (start : text) : outcome (option (token * text)) :=
  let* c := rd start in
  let neg := c =? 45 in
  let p := if neg then tl start else start in
  let* c := rd p in
  if negb (isdigit c) then Ok None
  else
    let* (ds, p) := digits_from (tl p) in
    let int_part := c :: ds in
    let* frac := fraction p in
    match frac with
    | None => Ok None
    | Some (frac, p) =>
      let* expo := exponent p in
      match expo with
      | None => Ok None
      | Some (expo, p) =>
        if is_nil expo && (is_nil frac && negb (length int_part =? 1)%nat && (hd 0 int_part =? 48))
        then Ok None
        else if negb (is_nil expo) || negb (is_nil frac)
        then Ok (Some (TDouble (strtod ((if neg then [45] else []) ++ int_part ++ frac ++ expo)), p))
        else Ok (Some (TI64 (strtoll neg int_part), p))
      end
    end.

(** cee-json/tokenizer.h:13-28 [struct tokenizer]: line, buf, and the distance
    from buf to buf_end *)
Record tokenizer : Type := Tok { t_line : Z; t_buf : text; t_left : Z }.
(** Set [buf] to a later position *)
Definition t_move (t : tokenizer) (p : text) : tokenizer :=
  Tok (t_line t) p (t_left t - (Z.of_nat (length (t_buf t)) - Z.of_nat (length p))).

(** cee-json/tokenizer.c:501-511: after a slash *)
Fixpoint skip_comment (p : text) (left : Z) : outcome token :=
  if left <=? 0 then Ok TErr
  else match p with
       | [] => Bad OutOfBounds
       | c :: r => if c =? 0 then Ok TEof else if c =? 10 then Ok TErr else skip_comment r (left - 1)
       end.

(** cee-json/tokenizer.c:448-517 [cee_json_next_token]; after an error the
    position is irrelevant, as the callers stop. *)
Fixpoint next_token_from (buf : text) (line left : Z) : outcome (token * tokenizer) :=
  if left <=? 0 then Ok (TEof, Tok line buf left)
  else
    match buf with
    | [] => Bad OutOfBounds
    | c :: r =>
      let here := Tok line buf left in
      if (c =? 91) || (c =? 123) || (c =? 58) || (c =? 44) || (c =? 125) || (c =? 93)
      then Ok (TPunct c, t_move here r)
      else if (c =? 10) || (c =? 13) then next_token_from r (line + 1) (left - 1)
      else if (c =? 32) || (c =? 9) then next_token_from r line (left - 1)
      else if c =? 34 then
        let* x := parse_string r in
        match x with Some (s, p) => Ok (TStr s, t_move here p) | None => Ok (TErr, here) end
      else if c =? 116 then
        let* x := check r [114; 117; 101] in
        match x with Some p => Ok (TTrue, t_move here p) | None => Ok (TErr, here) end
      else if c =? 110 then
        let* x := check r [117; 108; 108] in
        match x with Some p => Ok (TNull, t_move here p) | None => Ok (TErr, here) end
      else if c =? 102 then
        let* x := check r [97; 108; 115; 101] in
        match x with Some p => Ok (TFalse, t_move here p) | None => Ok (TErr, here) end
      else if (c =? 45) || isdigit c then
        let* x := parse_number buf in
        match x with Some (n, p) => Ok (n, t_move here p) | None => Ok (TErr, here) end
      else if c =? 47 then
        let* x := check r [47] in
        match x with
        | Some p => let* k := skip_comment p (left - 2) in Ok (k, here)
        | None => Ok (TErr, here)
        end
      else Ok (TErr, here)
    end.
Definition next_token (t : tokenizer) : outcome (token * tokenizer) :=
  next_token_from (t_buf t) (t_line t) (t_left t).
End Tok.
