(** Model of cee_json_select (cee-json/value.c:747-845).

    The selector is its bytes before the NUL.  A pointer into it is the list of
    the bytes from there on, the NUL included; the pointer behind the NUL is [].
    A variable argument is an int or a char*; reading one of the wrong type, or
    more than there are, is undefined. *)
From Coq Require Import ZArith List Bool.
From Verif Require Import Base TsearchModel MapModel ListModel Json JsonHeapModel Numeral.
Import ListNotations.
Open Scope Z_scope.
Open Scope outcome_scope.

(** The variable arguments of cee_json_select, read by [va_arg(ap,int)] and
    [va_arg] for strings (cee-json/value.c:810, :814).  Reading one that is not there
    or has another type is undefined behaviour (C11 7.16.1.1). *)
Inductive va_arg : Type := AInt (z : Z) | AStr (s : text).
Definition arg_int (args : list va_arg) : outcome (Z * list va_arg) :=
  match args with AInt z :: r => Ok (z, r) | _ => Bad BadVaList end.
Definition arg_str (args : list va_arg) : outcome (text * list va_arg) :=
  match args with AStr s :: r => Ok (s, r) | _ => Bad BadVaList end.

(** [*p] of a pointer into a byte string *)
Definition deref (p : list Z) : outcome Z := match p with [] => Bad OutOfBounds | c :: _ => Ok c end.

(** cee-json/value.c:750-756 [enum next_selector_token] *)
Inductive jsel : Type := JSEL_INVALID | JSEL_OBJ | JSEL_ARRAY | JSEL_TYPECHECK.
Definition JSEL_MAX_TOKEN : Z := 256.

(** [token] is the first [tlen] bytes of the array of JSEL_MAX_TOKEN+1 chars, of
    which some can be indeterminate. *)
Definition token : Type := list (option Z).
Definition tlen (t : token) : Z := Z.of_nat (length t).
Definition room (t : token) (n : Z) : outcome unit :=
  if tlen t + n <=? JSEL_MAX_TOKEN + 1 then Ok tt else Bad OutOfBounds.

(** strchr(".[]:", c) for a char that is not NUL *)
Definition special (c : Z) : bool := (c =? 46) || (c =? 91) || (c =? 93) || (c =? 58).

(** atoi: white space, a sign, digits; a value that is not an int is undefined
    (C11 7.22.1). *)
Definition isspace (c : Z) : bool := (c =? 32) || ((9 <=? c) && (c <=? 13)).
Definition digit_of (c : Z) : option Z := if (48 <=? c) && (c <=? 57) then Some (c - 48) else None.
Fixpoint atoi_digits (acc : Z) (t : token) : outcome Z :=
  match t with
  | [] => Ok acc
  | None :: _ => Bad Uninit
  | Some c :: r => match digit_of c with Some d => atoi_digits (10 * acc + d) r | None => Ok acc end
  end.
Fixpoint atoi_spaces (t : token) : outcome (bool * token) :=
  match t with
  | [] => Ok (false, [])
  | None :: _ => Bad Uninit
  | Some c :: r =>
    if isspace c then atoi_spaces r
    else if c =? 45 then Ok (true, r)
    else if c =? 43 then Ok (false, r)
    else Ok (false, t)
  end.
Definition atoi (t : token) : outcome Z :=
  let* (neg, ds) := atoi_spaces t in
  let* v := atoi_digits 0 ds in
  let z := if neg : bool then - v else v in
  if (- 2 ^ 31 <=? z) && (z <? 2 ^ 31) then Ok z else Bad Overflow.

(** strcmp of the token with a key, and musl_tfind (musl-tsearch.c:121-137) with it:
    JsonHeapModel.strcmp and TsearchModel.tfind where all bytes are known *)
Fixpoint strcmp_token (t : token) (b : text) : outcome Z :=
  match t, b with
  | [], [] => Ok 0
  | [], _ :: _ => Ok (-1)
  | None :: _, _ => Bad Uninit
  | Some _ :: _, [] => Ok 1
  | Some x :: t', y :: b' => if x =? y then strcmp_token t' b' else Ok (if x <? y then -1 else 1)
  end.
Fixpoint find_token (t : token) (n : tree (text * option nat)) : outcome (option nat) :=
  match n with
  | Nil => Ok None
  | Node (k, v) a0 a1 _ =>
    let* c := strcmp_token t k in
    if c =? 0 then Ok v else find_token t (if c >? 0 then a1 else a0)
  end.

(** cee-json/value.c:767-787: the token is complete; [None] is notfound. *)
Definition apply_token (h : heap) (o : nat) (next : jsel) (t : token) : outcome (option nat) :=
  let* _ := room t 1 in
  match next with
  | JSEL_INVALID => Ok None
  | JSEL_ARRAY =>
    let* n := load h (Some o) in
    match n with
    | NArr _ => let* idx := atoi t in array_get h (Some o) idx
    | _ => Ok None
    end
  | JSEL_OBJ =>
    let* n := load h (Some o) in
    match n with
    | NObj m => find_token t (m_root m)
    | _ => Ok None
    end
  | JSEL_TYPECHECK =>
    let* c := match t with [] => Bad OutOfBounds | None :: _ => Bad Uninit | Some c :: _ => Ok c end in
    let* n := load h (Some o) in
    let bad :=
      ((c =? 115) && match n with NStr _ => false | _ => true end)
      || ((c =? 110) && match n with NI64 _ => false | _ => true end)
      || ((c =? 111) && match n with NObj _ => false | _ => true end)
      || ((c =? 97) && match n with NArr _ => false | _ => true end)
      || ((c =? 98) && match n with NBool _ => false | _ => true end)
      || ((c =? 33) && match n with NNull => false | _ => true end) in
    Ok (if bad then None else Some o)
  end.

(** cee-json/value.c:805-824, [*] in the selector: [None] is notfound.  Both kinds
    copy from [buf], which only snprintf wrote to. *)
Definition star (next : jsel) (t : token) (args : list va_arg) : outcome (option (token * list va_arg)) :=
  match next with
  | JSEL_ARRAY =>
    let* (idx, args) := arg_int args in
    let buf := decimal_of idx in
    let len := Z.of_nat (length buf) in
    if tlen t + len >? JSEL_MAX_TOKEN then Ok None
    else let* _ := room t len in Ok (Some (t ++ map Some buf, args))
  | JSEL_OBJ =>
    let* (s, args) := arg_str args in
    let len := to_int32 (Z.of_nat (length s)) in
    if tlen t + len >? JSEL_MAX_TOKEN then Ok None
    else if (len <? 0) || (64 <? len) then Bad OutOfBounds
    else let* _ := room t len in Ok (Some (t ++ repeat None (Z.to_nat len), args))
  | _ => Ok None
  end.

(** cee-json/value.c:827-835: after a token *)
Inductive begin : Type := BBreak | BNotfound | BToken (next : jsel) (p : list Z).
Definition begin_token (p : list Z) : outcome begin :=
  let* c := deref p in
  let p := if c =? 93 then tl p else p in
  let* c := deref p in
  if c =? 0 then Ok BBreak
  else if c =? 46 then Ok (BToken JSEL_OBJ (tl p))
  else if c =? 91 then Ok (BToken JSEL_ARRAY (tl p))
  else if c =? 58 then Ok (BToken JSEL_TYPECHECK (tl p))
  else Ok BNotfound.

(** cee-json/value.c:764-836, the loop *)
Fixpoint select_loop (fuel : nat) (h : heap) (o : nat) (next : jsel) (t : token) (p : list Z) (args : list va_arg)
  : outcome (option nat) :=
  match fuel with
  | O => Bad OutOfFuel
  | S n =>
    let go_on o :=
      let* b := begin_token p in
      match b with
      | BBreak => Ok (Some o)
      | BNotfound => Ok None
      | BToken next p => select_loop n h o next [] p args
      end in
    let* c := deref p in
    if negb (tlen t =? 0) && ((c =? 0) || special c) then
      let* r := apply_token h o next t in
      match r with
      | None => Ok None
      | Some o => go_on o
      end
    else
      match next with
      | JSEL_INVALID => go_on o
      | _ =>
        if negb (c =? 42) then
          let* _ := room t 1 in
          let t := t ++ [Some c] in
          if tlen t >? JSEL_MAX_TOKEN then Ok None
          else select_loop n h o next t (tl p) args
        else
          let* r := star next t args in
          match r with
          | None => Ok None
          | Some (t, args) => select_loop n h o next t (tl p) args
          end
      end
  end.

(** cee-json/value.c:747-845 [cee_json_select] *)
Definition select (fuel : nat) (h : heap) (o : option nat) (fmt : text) (args : list va_arg) : outcome (option nat) :=
  match o with
  | None => Ok None
  | Some a => select_loop fuel h a JSEL_INVALID [] (fmt ++ [0]) args
  end.

(** cee-json/value.c:848-853 [cee_json_select_as_int] with cee_json_to_intx
    (cee-json/value.c:171-178): the int, where the C function returns 0.  The cast
    of an int64_t to int keeps the low 32 bits. *)
Definition select_as_int (fuel : nat) (h : heap) (o : option nat) (fmt : text) : outcome (option Z) :=
  let* r := select fuel h o fmt [] in
  match r with
  | None => Ok None
  | Some a =>
    let* n := load h (Some a) in
    Ok (match n with NI64 z => Some (to_int32 z) | _ => None end)
  end.
