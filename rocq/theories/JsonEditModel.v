(** Model of the operations of cee-json/value.c that build and change JSON values,
    on the object heap: which objects they create, link, count and delete. *)
From Coq Require Import ZArith List Bool.
From Verif Require Import Base Json JsonTokModel JsonParseModel HeapModel JsonMemModel.
Import ListNotations.
Open Scope Z_scope.
Open Scope outcome_scope.

(** strcmp of a C string with a key of the map; the C string is no library object *)
Definition named (c : contents) (key : text) (_ w : val) : bool :=
  match w with
  | VPtr b => match c b with JStr s => text_eqb key s | _ => false end
  | _ => false
  end.

(** cee_segfault() if the value has the wrong type *)
Definition not_null (v : val) : outcome val := match v with VNull => Bad Abort | _ => Ok v end.

(** Reading: cee-json/value.c:365-371 [cee_json_object_get] with map.c:154-165, and
    cee-json/value.c:587-595 [cee_json_array_get] *)
Definition object_get (h : heap) (c : contents) (j : val) (key : text) : outcome val :=
  let* o := to_object h j in
  let* o := not_null o in
  let* m := target o in
  let* (_, vs) := get_obj h m in
  let* e := find_entry (named c key) h VForeign (tl vs) in
  match e with
  | None => Ok VNull
  | Some t => tuple_get h t 1
  end.
Definition array_get (h : heap) (j : val) (i : nat) : outcome val :=
  let* o := to_array h j in
  let* o := not_null o in
  let* l := target o in
  let* (_, vs) := get_obj h l in
  Ok (nth i vs VNull).

(** The value found by calling these one after the other *)
Inductive step : Type := AtIndex (i : nat) | AtName (key : text).
Fixpoint walk (h : heap) (c : contents) (j : val) (p : list step) : outcome val :=
  match p with
  | [] => Ok j
  | AtIndex i :: p => let* j := array_get h j i in walk h c j p
  | AtName key :: p => let* j := object_get h c j key in walk h c j p
  end.

Section Edit.
Variables (st : addr) (ss : statics) (place : heap -> addr -> nat) (deep : nat).
(** What cee_str_mk(st, "%s", s) writes (C12) *)
Variable mk_str : text -> outcome text.

(** cee_str_mk(st, "%s", s) *)
Definition string_mk (h : heap) (c : contents) (s : text) : outcome (heap * contents * val) :=
  let* s := mk_str s in
  let* (h, b) := mk_obj h st KLeaf [] M_MALLOC in
  Ok (h, set_at c b (JStr s), VPtr b).

(** cee-json/value.c:15-37 (the constants), :262-313 (the other values); a string
    is made by cee_json_str_mk(st, cee_str_mk(st, "%s", s)), as in :463 and :556 *)
Definition new_value (h : heap) (c : contents) (x : json) : outcome (heap * contents * val) :=
  match x with
  | JArr [] => let* (h, v) := array_mk st h in Ok (h, c, v)
  | JObj [] => let* (h, v) := object_mk st h in Ok (h, c, v)
  | JStr s => let* (h, c, b) := string_mk h c s in let* (h, v) := str_mk st h b in Ok (h, c, v)
  | JI64 _ | JU64 _ | JDouble _ | JBlob _ => boxed_mk st h c x
  | JBool true => let* h := singleton_init h (s_true ss) in Ok (h, c, VPtr (s_true ss))
  | JBool false => let* h := singleton_init h (s_false ss) in Ok (h, c, VPtr (s_false ss))
  | JNull => let* h := singleton_init h (s_null ss) in Ok (h, c, VPtr (s_null ss))
  | _ => Bad Abort
  end.

(** cee-json/value.c:405-414 [cee_json_object_set] *)
Definition object_set (h : heap) (c : contents) (j : val) (key : text) (v : val) : outcome (heap * contents) :=
  let* o := to_object h j in
  let* o := not_null o in
  let* (h, c, k) := string_mk h c key in
  let* h := add_to_object place deep h c o k v in
  Ok (h, c).

(** cee-json/value.c:438-470, :488-507 [cee_json_object_set_null], [_bool], [_str],
    [_double], [_i64], [_u64]: like cee_json_object_set, with a value made for it.
    C leaves open which argument of cee_map_add is made first; here it is the value. *)
Definition object_put (h : heap) (c : contents) (j : val) (key : text) (x : json) : outcome (heap * contents) :=
  let* o := to_object h j in
  let* o := not_null o in
  let* (h, c, v) :=
    match x with
    | JNull | JBool _ | JStr _ | JDouble _ | JI64 _ | JU64 _ => new_value h c x
    | _ => Bad Abort
    end in
  let* (h, c, k) := string_mk h c key in
  let* h := add_to_object place deep h c o k v in
  Ok (h, c).

(** cee-json/value.c:300-305 [cee_json_object_kv] *)
Definition object_kv (h : heap) (c : contents) (key : text) (v : val) : outcome (heap * contents * val) :=
  let* (h, j) := object_mk st h in
  let* (h, c) := object_set h c j key v in
  Ok (h, c, j).

(** cee-json/value.c:373-379 [cee_json_object_remove] *)
Definition object_remove (h : heap) (c : contents) (j : val) (key : text) : outcome heap :=
  let* o := to_object h j in
  let* o := not_null o in
  let* m := target o in
  let* (h, _) := map_remove (named c key) deep h m VForeign in
  Ok h.

(** cee-json/value.c:321-331 [cee_json_object_rename] with map.c:202-210
    [cee_map_rename] *)
Definition object_rename (h : heap) (c : contents) (j : val) (old new : text) : outcome (heap * contents * bool) :=
  let* o := to_object h j in
  match o with
  | VNull => Ok (h, c, false)
  | _ =>
    let* m := target o in
    let* (h, c, old_str) := string_mk h c old in
    let* (h, c, new_str) := string_mk h c new in
    let* (h, v) := map_remove (same_text c) deep h m old_str in
    let* (h, t) :=
      match v with
      | VNull => Ok (h, false)
      | _ => let* h := add_to_object place deep h c o new_str v in Ok (h, true)
      end in
    let* h := cee_del deep h old_str in
    Ok (h, c, t)
  end.

(** cee-json/value.c:529-537 [cee_json_array_append], :518-527
    [cee_json_array_insert] at an index inside the array, :597-603
    [cee_json_array_remove] *)
Definition array_append (h : heap) (j v : val) : outcome heap :=
  let* o := to_array h j in
  let* o := not_null o in
  add_to_array h o v.
Definition array_insert (h : heap) (j : val) (i : nat) (v : val) : outcome heap :=
  let* o := to_array h j in
  let* o := not_null o in
  let* l := target o in
  list_insert h l i v.
Definition array_remove (h : heap) (j : val) (i : nat) : outcome heap :=
  let* o := to_array h j in
  let* o := not_null o in
  let* l := target o in
  list_remove h l i.
End Edit.

(** * Programs that own JSON values *)
(** A program has pointers to some values, each of which it owns: no value is a
    part of two values.  [i] and [j] choose a value by its place in that list, [p]
    a part of it. *)
Inductive edit : Type :=
| ENew (x : json)
| EParse (t junk : text)                              (* a text, the bytes behind its NUL *)
| ESet (i : nat) (p : list step) (key : text) (j : nat)
| EPut (i : nat) (p : list step) (key : text) (x : json)
| EField (key : text) (j : nat)                       (* a new object with one field *)
| EAppend (i : nat) (p : list step) (j : nat)
| EInsert (i : nat) (p : list step) (k j : nat)
| ERemoveAt (i : nat) (p : list step) (k : nat)
| ERemove (i : nat) (p : list step) (key : text)
| ERename (i : nat) (p : list step) (old new : text)
| EDelete (i : nat).

(** The pointers the program holds: without the [i]-th one, and with the pointer
    it got, if it is not NULL (part of the program, not of the library). *)
Definition without {A} (i : nat) (l : list A) : list A := firstn i l ++ skipn (S i) l.
Definition keep (v : val) : list val := match v with VNull => [] | _ => [v] end.

Section Program.
Variable strtod : text -> Z.
Variables (st : addr) (ss : statics) (place : heap -> addr -> nat) (deep : nat).
Variable mk_str : text -> outcome text.

(** Before a value is replaced or removed, the program gets the pointer to it
    and keeps it.  A value put into another is no longer kept. *)
Definition estep (s : heap * contents * list val) (o : edit) : outcome (heap * contents * list val) :=
  let '(h, c, vs) := s in
  let root i := of_option OutOfBounds (nth_error vs i) in
  match o with
  | ENew x =>
    let* (h, c, v) := new_value st ss mk_str h c x in Ok (h, c, vs ++ [v])
  | EParse t junk =>
    let* (h, c, r) := mparsex strtod st ss place deep (S (length t)) h c (t ++ 0 :: junk) (Z.of_nat (length t)) true in
    Ok (h, c, match r with inl p => vs ++ [p] | inr _ => vs end)
  | ESet i p key j =>
    let* a := root i in
    let* b := root j in
    let* a := walk h c a p in
    let* old := object_get h c a key in
    let* (h, c) := object_set st place deep mk_str h c a key b in
    Ok (h, c, without j vs ++ keep old)
  | EPut i p key x =>
    let* a := root i in
    let* a := walk h c a p in
    let* old := object_get h c a key in
    let* (h, c) := object_put st ss place deep mk_str h c a key x in
    Ok (h, c, vs ++ keep old)
  | EField key j =>
    let* b := root j in
    let* (h, c, a) := object_kv st place deep mk_str h c key b in
    Ok (h, c, without j vs ++ [a])
  | EAppend i p j =>
    let* a := root i in
    let* b := root j in
    let* a := walk h c a p in
    let* h := array_append h a b in
    Ok (h, c, without j vs)
  | EInsert i p k j =>
    let* a := root i in
    let* b := root j in
    let* a := walk h c a p in
    let* h := array_insert h a k b in
    Ok (h, c, without j vs)
  | ERemoveAt i p k =>
    let* a := root i in
    let* a := walk h c a p in
    let* old := array_get h a k in
    let* h := array_remove h a k in
    Ok (h, c, vs ++ keep old)
  | ERemove i p key =>
    let* a := root i in
    let* a := walk h c a p in
    let* old := object_get h c a key in
    let* h := object_remove deep h c a key in
    Ok (h, c, vs ++ keep old)
  | ERename i p old new =>
    let* a := root i in
    let* a := walk h c a p in
    let* over := object_get h c a new in
    let* (h, c, done) := object_rename st place deep mk_str h c a old new in
    Ok (h, c, vs ++ (if done && negb (text_eqb old new) then keep over else []))
  | EDelete i =>
    let* a := root i in
    let* h := cee_del deep h a in
    Ok (h, c, without i vs)
  end.
Fixpoint eplay (ops : list edit) (s : heap * contents * list val) : outcome (heap * contents * list val) :=
  match ops with
  | [] => Ok s
  | o :: r => let* s := estep s o in eplay r s
  end.
End Program.
