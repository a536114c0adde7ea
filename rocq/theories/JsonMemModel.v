(** Model of cee_json_parsex (cee-json/parser.c) on the object heap: which
    objects the parser creates, links, counts and deletes.  The tokenizer is the
    one of JsonTokModel, the heap that of HeapModel. *)
From Coq Require Import ZArith List Bool.
From Verif Require Import Base Json JsonTokModel JsonParseModel HeapModel.
Import ListNotations.
Open Scope Z_scope.
Open Scope outcome_scope.

(** What a string or a boxed number contains: [JStr], [JI64] or [JDouble].
    HeapModel does not represent the contents of such objects. *)
Definition contents : Type := addr -> json.
Definition set_at {A} (f : addr -> A) (a : addr) (x : A) : addr -> A :=
  fun y => if (y =? a)%nat then x else f y.

(** The static blocks of cee_json_true, cee_json_false and cee_json_null
    (cee-json/value.c:15-37) *)
Record statics : Type := Statics { s_true : addr; s_false : addr; s_null : addr }.

(** singleton.c:27-37 [cee_singleton_init]: the header of the static block is
    written anew at every call.  The tag and the value are not represented. *)
Definition singleton_init (h : heap) (a : addr) : outcome heap :=
  modify h a (fun _ => zero_block (BObj KStatic []) M_IDENTITY).

(** strcmp on keys, which are strings (cee-json/value.c:295) *)
Definition same_text (c : contents) (v w : val) : bool :=
  match v, w with
  | VPtr a, VPtr b => match c a, c b with JStr s, JStr t => text_eqb s t | _, _ => false end
  | _, _ => false
  end.

(** stack.c:99-105 [cee_stack_top](s, 0) *)
Definition stack_top (h : heap) (s : addr) : outcome val :=
  let* (_, vs) := get_obj h s in Ok (last vs VNull).

(** cee-json/value.c:117-123 [cee_json_to_object], [cee_json_to_array]: the map
    or list that a value points to, NULL for other values *)
Definition to_object (h : heap) (v : val) : outcome val :=
  let* p := tuple_get h v 0 in
  let* a := target p in
  let* (k, _) := get_obj h a in
  Ok (match k with KMap _ _ => p | _ => VNull end).
Definition to_array (h : heap) (v : val) : outcome val :=
  let* p := tuple_get h v 0 in
  let* a := target p in
  let* (k, _) := get_obj h a in
  Ok (match k with KList _ => p | _ => VNull end).

Section Mem.
Variable strtod : text -> Z.
(** The state; the static blocks; where the tree of a map puts a new entry
    (anywhere); how many nested calls a deletion may make *)
Variables (st : addr) (ss : statics) (place : heap -> addr -> nat) (deep : nat).

(** cee-json/value.c:290-299 [cee_json_array_mk], [cee_json_object_mk]: cee_list_mk
    and cee_map_mk use the policy CEE_DP_DEL_RC, and so does cee_tagged_mk *)
Definition array_mk (h : heap) : outcome (heap * val) :=
  let* (h, l) := mk_list h st DEL_RC in
  let* (h, a) := mk_tagged h st DEL_RC (VPtr l) in Ok (h, VPtr a).
Definition object_mk (h : heap) : outcome (heap * val) :=
  let* (h, m) := mk_map h st DEL_RC DEL_RC in
  let* (h, a) := mk_tagged h st DEL_RC (VPtr m) in Ok (h, VPtr a).
(** cee-json/value.c:263-281 [cee_json_double_mk], [cee_json_i64_mk],
    [cee_json_u64_mk], [cee_json_str_mk], and :307-312 [cee_json_blob_mk], whose inner
    block has another resize method; it is never resized. *)
Definition boxed_mk (h : heap) (c : contents) (x : json) : outcome (heap * contents * val) :=
  let* (h, b) := mk_obj h st KLeaf [] M_IDENTITY in
  let* (h, a) := mk_tagged h st DEL_RC (VPtr b) in Ok (h, set_at c b x, VPtr a).
Definition str_mk (h : heap) (s : val) : outcome (heap * val) :=
  let* (h, a) := mk_tagged h st DEL_RC s in Ok (h, VPtr a).

(** The value made for a token that is a complete value; [str] is tock.str.
    Unsigned numbers do not occur (JsonTokModel). *)
Definition scalar_mk (h : heap) (c : contents) (str : val) (t : token) : outcome (option (heap * contents * val)) :=
  match t with
  | TStr _ => let* (h, v) := str_mk h str in Ok (Some (h, c, v))
  | TTrue => let* h := singleton_init h (s_true ss) in Ok (Some (h, c, VPtr (s_true ss)))
  | TFalse => let* h := singleton_init h (s_false ss) in Ok (Some (h, c, VPtr (s_false ss)))
  | TNull => let* h := singleton_init h (s_null ss) in Ok (Some (h, c, VPtr (s_null ss)))
  | TI64 z => let* r := boxed_mk h c (JI64 z) in Ok (Some r)
  | TDouble d => let* r := boxed_mk h c (JDouble d) in Ok (Some r)
  | _ => Ok None
  end.

(** cee-json/tokenizer.c:359-385: the string created for a token (nothing for
    other tokens, or if the string is ill formed) *)
Definition token_str (h : heap) (c : contents) (t : token) : outcome (heap * contents * val) :=
  match t with
  | TStr s => let* (h, b) := mk_obj h st KLeaf [] M_MALLOC in Ok (h, set_at c b (JStr s), VPtr b)
  | _ => Ok (h, c, VNull)
  end.

(** The local variables of cee_json_parsex.  [q_ret]: component 0 of the tuples
    on the stack, a state converted to a pointer. *)
Record mem : Type := Mem {
  q_heap : heap; q_cont : contents; q_ret : addr -> pstate;
  q_state : pstate; q_key : val; q_result : val; q_tok : tokenizer
}.

(** cee_map_add(obj, key, v), the result being ignored *)
Definition add_to_object (h : heap) (c : contents) (obj key v : val) : outcome heap :=
  let* m := target obj in
  let* (h, _) := map_add (same_text c) deep h m key v (place h m) in Ok h.
(** cee_list_append(ar, v) *)
Definition add_to_array (h : heap) (ar v : val) : outcome heap :=
  let* l := target ar in list_append h l v.

(** cee-json/parser.c:29 [SPI] and cee_stack_push(sp, SPI(st, r, v)) *)
Definition push_frame (h : heap) (ret : addr -> pstate) (sp : addr) (r : pstate) (v : val)
  : outcome (heap * (addr -> pstate)) :=
  let* (h, t) := mk_prod h st [NOOP; NOOP] [VForeign; v] in
  let* h := stack_push h sp (VPtr t) in
  Ok (h, set_at ret t r).

(** cee-json/parser.c:66-243: what the token [t] does, [top] being the tuple on
    top of the stack [sp] and [cur] its component 1.  cee_del(result) has been
    done. *)
Definition mtransition (sp : addr) (h : heap) (c : contents) (str : val) (q : mem) (t : token) (tok : tokenizer)
  : outcome mem :=
  let* top := stack_top h sp in
  let* cur := tuple_get h top 1 in
  let* topa := target top in
  let ret := q_ret q in
  let goto h c ret s := Ok (Mem h c ret s (q_key q) VNull tok) in
  let error := goto h c ret ERROR in
  (* state=TOPS; POP(sp) *)
  let leave h c := let* (h, r) := stack_pop h sp in Ok (Mem h c ret (ret topa) (q_key q) r tok) in
  (* top->_[1]=v *)
  let set_top h v := put_vals h topa (KProd [NOOP; NOOP]) [VForeign; v] in
  match q_state q with
  | VALUE =>
    if is_punct t 91 then let* (h, v) := array_mk h in let* h := set_top h v in goto h c ret AVALUE
    else if is_punct t 123 then let* (h, v) := object_mk h in let* h := set_top h v in goto h c ret OKEY
    else
      let* s := scalar_mk h c str t in
      match s with
      | Some (h, c, v) => let* h := set_top h v in leave h c
      | None => error
      end
  | OKEY =>
    if is_punct t 125 then leave h c
    else match t with
         | TStr _ => Ok (Mem h c ret OCOLON str VNull tok)
         | _ => error
         end
  | OCOLON => if is_punct t 58 then goto h c ret OVALUE else error
  | OVALUE =>
    let* obj := to_object h cur in
    let* s := scalar_mk h c str t in
    match s with
    | Some (h, c, v) => let* h := add_to_object h c obj (q_key q) v in goto h c ret OCOMMA
    | None =>
      if is_punct t 91 then
        let* (h, v) := array_mk h in
        let* h := add_to_object h c obj (q_key q) v in
        let* (h, ret) := push_frame h ret sp OCOMMA v in goto h c ret AVALUE
      else if is_punct t 123 then
        let* (h, v) := object_mk h in
        let* h := add_to_object h c obj (q_key q) v in
        let* (h, ret) := push_frame h ret sp OCOMMA v in goto h c ret OKEY
      else error
    end
  | OCOMMA =>
    if is_punct t 44 then goto h c ret OKEY
    else if is_punct t 125 then leave h c
    else error
  | AVALUE =>
    if is_punct t 93 then leave h c
    else
      let* ar := to_array h cur in
      let* s := scalar_mk h c str t in
      match s with
      | Some (h, c, v) => let* h := add_to_array h ar v in goto h c ret ACOMMA
      | None =>
        if is_punct t 91 then
          let* (h, v) := array_mk h in
          let* h := add_to_array h ar v in
          let* (h, ret) := push_frame h ret sp ACOMMA v in goto h c ret AVALUE
        else if is_punct t 123 then
          let* (h, v) := object_mk h in
          let* h := add_to_array h ar v in
          let* (h, ret) := push_frame h ret sp ACOMMA v in goto h c ret OKEY
        else error
      end
  | ACOMMA =>
    if is_punct t 93 then leave h c
    else if is_punct t 44 then goto h c ret AVALUE
    else error
  | ERROR | DONE => goto h c ret (q_state q)
  end.

(** cee-json/parser.c:55-244, one iteration *)
Definition mstep (sp : addr) (q : mem) : outcome mem :=
  let* h := cee_del deep (q_heap q) (q_result q) in
  let* (t, tok) := next_token strtod (q_tok q) in
  let* (h, c, str) := token_str h (q_cont q) t in
  mtransition sp h c str q t tok.

(** cee-json/parser.c:53-54, the loop condition, with stack.c:119-127 *)
Definition mrunning (sp : addr) (q : mem) : outcome bool :=
  let* (k, vs) := get_obj (q_heap q) sp in
  match k with
  | KStack _ cap =>
    Ok (negb (length vs =? 0)%nat && negb (cap <=? Z.of_nat (length vs)) &&
        match q_state q with ERROR | DONE => false | _ => true end)
  | _ => Bad BadPointer
  end.

(** cee-json/parser.c:53-245, the loop *)
Fixpoint mrun (fuel : nat) (sp : addr) (q : mem) : outcome mem :=
  let* r := mrunning sp q in
  if r then
    match fuel with
    | O => Bad OutOfFuel
    | S f => let* q' := mstep sp q in mrun f sp q'
    end
  else Ok q.

(** cee-json/parser.c:246-260, behind the loop: the heap, the contents and
    the value ([inr]: the line of an error) *)
Definition mfinish (sp : addr) (q : mem) (force_eof : bool) : outcome (heap * contents * (val + Z)) :=
  let* h := cee_del deep (q_heap q) (VPtr sp) in
  let c := q_cont q in
  match q_state q with
  | DONE =>
    let* (h, c, bad) :=
      (if force_eof then
         let* (t, tok) := next_token strtod (q_tok q) in
         let* (h, c, _) := token_str h c t in
         Ok (h, c, match t with TEof => None | _ => Some (t_line tok) end)
       else Ok (h, c, None)) in
    match bad with
    | Some line => Ok (h, c, inr line)
    | None =>
      let* v := tuple_get h (q_result q) 1 in
      let* h := cee_del deep h (q_result q) in
      Ok (h, c, inl v)
    end
  | _ => Ok (h, c, inr (t_line (q_tok q)))
  end.

(** cee-json/parser.c:32-261 [cee_json_parsex] on the heap [h], whose strings and
    numbers have the contents [c] *)
Definition mparsex (fuel : nat) (h : heap) (c : contents) (buf : text) (len : Z) (force_eof : bool)
  : outcome (heap * contents * (val + Z)) :=
  let* (h, sp) := mk_stack h st NOOP 512 in
  let* (h, ret) := push_frame h (fun _ => DONE) sp DONE VNull in
  let* q := mrun fuel sp (Mem h c ret VALUE VNull VNull (Tok 0 buf len)) in
  mfinish sp q force_eof.
End Mem.
