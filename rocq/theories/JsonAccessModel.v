(** Model of cee-json/value.c: reading values by their type, and turning a field
    into an integer. *)
From Coq Require Import ZArith List Bool.
From Verif Require Import Base TsearchModel MapModel ListModel Json JsonHeapModel JsonSelectModel.
Import ListNotations.
Open Scope Z_scope.
Open Scope outcome_scope.

(** cee-json/value.c:120-132, :141-146 [cee_json_to_str], [cee_json_to_strn],
    [cee_json_to_blob]: NULL or false is [None]; of a blob there is only its size. *)
Definition to_str (h : heap) (p : option nat) : outcome (option text) :=
  let* n := load h p in
  match n with NStr s => Ok (Some s) | _ => Ok None end.
Definition to_strn (h : heap) (p : option nat) : outcome (option text) :=
  let* n := load h p in
  match n with NStrn s => Ok (Some s) | _ => Ok None end.
Definition to_blob (h : heap) (p : option nat) : outcome (option Z) :=
  let* n := load h p in
  match n with NBlob z => Ok (Some z) | _ => Ok None end.

(** <errno.h>, on Linux; returned in cee-json/value.c:168, :177, :186, :195 *)
Definition EINVAL : Z := 22.
(** cee-json/value.c:162-196 [cee_json_to_doublex], [cee_json_to_intx],
    [cee_json_to_i64x], [cee_json_to_u64x]: the code returned, and what [*r] is
    afterwards.  [r] is what it was before.  The cast to int keeps the low bits. *)
Definition to_doublex (h : heap) (p : option nat) (r : Z) : outcome (Z * Z) :=
  let* n := load h p in
  match n with NDouble z => Ok (0, z) | _ => Ok (EINVAL, r) end.
Definition to_intx (h : heap) (p : option nat) (r : Z) : outcome (Z * Z) :=
  let* n := load h p in
  match n with NI64 z => Ok (0, to_int32 z) | _ => Ok (EINVAL, r) end.
Definition to_i64x (h : heap) (p : option nat) (r : Z) : outcome (Z * Z) :=
  let* n := load h p in
  match n with NI64 z => Ok (0, z) | _ => Ok (EINVAL, r) end.
Definition to_u64x (h : heap) (p : option nat) (r : Z) : outcome (Z * Z) :=
  let* n := load h p in
  match n with NU64 z => Ok (0, z) | _ => Ok (EINVAL, r) end.
(** cee-json/value.c:198-209 [cee_json_to_boolx].  The pointer is compared with the
    two static objects, which are the only booleans there are (:15-27); it is not
    followed. *)
Definition to_boolx (h : heap) (p : option nat) (r : bool) : outcome (Z * bool) :=
  match p with
  | None => Ok (EINVAL, r)
  | Some _ =>
    let* n := load h p in
    match n with NBool b => Ok (0, b) | _ => Ok (EINVAL, r) end
  end.

(** sscanf with "%" SCNd64 (library): white space, a sign, digits; [None] is a
    matching failure.  A value that is not in the range is undefined (C11 7.21.6.2
    10). *)
Fixpoint scan_digits (acc : Z) (s : text) : Z * text :=
  match s with
  | [] => (acc, [])
  | c :: r => match digit_of c with Some d => scan_digits (10 * acc + d) r | None => (acc, s) end
  end.
Fixpoint scan_spaces (s : text) : text :=
  match s with
  | [] => []
  | c :: r => if isspace c then scan_spaces r else s
  end.
Definition scan_sign (s : text) : bool * text :=
  match s with
  | c :: r => if c =? 45 then (true, r) else if c =? 43 then (false, r) else (false, s)
  | [] => (false, [])
  end.
Definition scan_i64 (s : text) : outcome (option (Z * text)) :=
  let (neg, s) := scan_sign (scan_spaces s) in
  match s with
  | [] => Ok None
  | c :: _ =>
    match digit_of c with
    | None => Ok None
    | Some _ =>
      let (v, rest) := scan_digits 0 s in
      let z := if neg : bool then - v else v in
      if (- 2 ^ 63 <=? z) && (z <? 2 ^ 63) then Ok (Some (z, rest)) else Bad Overflow
    end
  end.
(** cee-json/value.c:333-345 [str2i64]: the integer, if it returns 0.  "%c" takes any
    byte that is left. *)
Definition str2i64 (s : text) : outcome (option Z) :=
  let* r := scan_i64 s in
  match r with
  | Some (i, []) => Ok (Some i)
  | _ => Ok None
  end.

Section Convert.
Variable mk_str : text -> outcome text.
(** cee-json/value.c:347-363 [cee_json_object_convert_to_i64].  The test in :357 is for
    the object, not for the field.  cee_del of the old value is not modelled. *)
Definition convert_to_i64 (h : heap) (j : option nat) (key : text) : outcome (bool * heap) :=
  let* o := to_object h j in
  match o with
  | None => Ok (false, h)
  | Some _ =>
    let* old_val := object_get h j (Some key) in
    let* (code, i64) := to_i64x h old_val 0 in
    if code =? 0 then Ok (true, h)
    else
      let* t := to_str h j in
      match t with
      | None => Ok (false, h)
      | Some s =>
        let* r := str2i64 s in
        match r with
        | None => Ok (false, h)
        | Some i64 =>
          let* h := object_set_new mk_str h j key (NI64 i64) in
          Ok (true, h)
        end
      end
  end.
End Convert.
