(** Model of cee_json_snprint and cee_json_asprint (cee-json/snprint.c) on the
    object heap: which objects the printer creates, links, counts and deletes.
    What it writes is as in JsonPrintModel, how values lie in memory as in
    JsonMemModel. *)
From Coq Require Import ZArith List Bool.
From Verif Require Import Base BoxedModel Json JsonTokModel HeapModel JsonMemModel JsonPrintModel.
Import ListNotations.
Open Scope Z_scope.
Open Scope outcome_scope.

(** What the type of a value and the pointer in it tell: a value that is not a
    container (with its contents), a list, or a map.  The static values are told
    by their addresses, as their tags are not represented. *)
Inductive seen : Type := SScalar (x : json) | SArray (l : addr) | SObject (m : addr).
Definition view_of (h : heap) (c : contents) (ss : statics) (j : val) : outcome seen :=
  let* a := target j in
  let* (k, vs) := get_obj h a in
  match k with
  | KStatic =>
    if (a =? s_null ss)%nat then Ok (SScalar JNull)
    else if (a =? s_true ss)%nat then Ok (SScalar (JBool true))
    else if (a =? s_false ss)%nat then Ok (SScalar (JBool false))
    else Bad BadPointer
  | _ =>
    let* p := of_option OutOfBounds (nth_error vs 0) in
    let* b := target p in
    let* (kb, _) := get_obj h b in
    match kb with
    | KLeaf => Ok (SScalar (c b))
    | KList _ => Ok (SArray b)
    | KMap _ _ => Ok (SObject b)
    | _ => Bad BadPointer
    end
  end.

(** cee-json/snprint.c:11-17 [struct counter], the contents of a block.  Members
    that are not set (object in most cases) are never read. *)
Record counter : Type := Counter { k_next : nat; k_array : val; k_object : val; k_tabs : Z; k_more : bool }.

(** map.c:233-243 [cee_map_insertion_ordered_keys]: a new list, which counts on
    the keys, in the state of the map *)
Definition ordered_keys (h : heap) (m : addr) : outcome (heap * addr) :=
  let* b := get h m in
  match b_body b with
  | BObj (KMap _ _) (ks :: _) =>
    let* ka := target ks in
    let* (_, keys) := get_obj h ka in
    let* (h, l) := mk_list h (b_state b) DEL_RC in
    let* h := foldm (fun h k => list_append h l k) h keys in
    Ok (h, l)
  | _ => Bad BadPointer
  end.

(** map.c:154-165 [cee_map_find] with a key that is a string of the library *)
Definition map_find (h : heap) (c : contents) (m : addr) (key : val) : outcome val :=
  let* (_, vs) := get_obj h m in
  let* e := find_entry (same_text c) h key (tl vs) in
  match e with None => Ok VNull | Some t => tuple_get h t 1 end.

(** The characters of a key *)
Definition key_text (h : heap) (c : contents) (key : val) : outcome text :=
  let* a := target key in
  let* _ := get h a in
  match c a with JStr s => Ok s | _ => Bad BadPointer end.

Section Print.
Variable fmt_g : prim -> Z -> text.
Variables (st : addr) (ss : statics) (deep : nat).

(** cee-json/snprint.c:19-63 [push]; [kn] are the contents of the counters *)
Definition mpush (h : heap) (c : contents) (kn : addr -> counter) (sp : addr) (tabs : Z) (more : bool) (j : val)
  : outcome (heap * (addr -> counter)) :=
  let* (h, p) := mk_obj h st KLeaf [] M_MALLOC in
  let* (h, n) :=
    match j with
    | VNull => Ok (h, Counter 0 VNull VNull 0 false)
    | _ =>
      let* v := view_of h c ss j in
      match v with
      | SObject m => let* (h, l) := ordered_keys h m in Ok (h, Counter 0 (VPtr l) (VPtr m) (to_char tabs) more)
      | SArray l => Ok (h, Counter 0 (VPtr l) VNull (to_char tabs) more)
      | SScalar _ => Ok (h, Counter 0 VNull VNull (to_char tabs) more)
      end
    end in
  let* (h, t) := mk_prod h st [DEL; NOOP] [VPtr p; j] in
  let* h := stack_push h sp (VPtr t) in
  Ok (h, set_at kn p n).

(** cee_del(cee_stack_pop(sp)) *)
Definition del_top (h : heap) (sp : addr) : outcome heap :=
  let* (h, t) := stack_pop h sp in cee_del deep h t.

(** cee-json/snprint.c:265: the string that describes a blob is made in the
    state and never deleted *)
Definition blob_string (h : heap) (x : json) : outcome heap :=
  match x with
  | JBlob _ => let* (h, _) := mk_obj h st KLeaf [] M_MALLOC in Ok h
  | _ => Ok h
  end.

(** cee-json/snprint.c:195-342, one iteration *)
Definition mstep (f : fmt) (c : contents) (sp : addr) (h : heap) (kn : addr -> counter) (o : output)
  : outcome (heap * (addr -> counter) * output) :=
  let* top := stack_top h sp in
  let* j := tuple_get h top 1 in
  let* pv := tuple_get h top 0 in
  let* p := target pv in
  let* _ := get h p in
  let n := kn p in
  let i := k_next n in
  let comma o := if k_more n then delimiter o f (k_tabs n) 44 else Ok o in
  let kn' := set_at kn p (Counter (i + 1) (k_array n) (k_object n) (k_tabs n) (k_more n)) in
  let* v := view_of h c ss j in
  match v with
  | SArray _ =>
    let* o := (if (i =? 0)%nat then delimiter o f (k_tabs n) 91 else Ok o) in
    let* l := target (k_array n) in
    let* (_, es) := get_obj h l in
    let size := length es in
    match nth_error es i with
    | Some e =>
      let* (h, kn) := mpush h c kn' sp (k_tabs n + 1) ((1 <? size)%nat && (i + 1 <? size)%nat) e in
      Ok (h, kn, o)
    | None =>
      let* o := delimiter o f (k_tabs n) 93 in
      let* o := comma o in
      let* h := del_top h sp in
      Ok (h, kn, o)
    end
  | SObject _ =>
    let* o := (if (i =? 0)%nat then delimiter o f (k_tabs n) 123 else Ok o) in
    let* l := target (k_array n) in
    let* (_, ks) := get_obj h l in
    let size := length ks in
    match nth_error ks i with
    | Some key =>
      let* m := target (k_object n) in
      let* e := map_find h c m key in
      let* name := key_text h c key in
      let* o := pad o (k_tabs n) f in
      let* o := str_append o (c_string_n name) in
      let* o := delimiter o f (k_tabs n) 58 in
      let* (h, kn) := mpush h c kn' sp (k_tabs n + 1) ((1 <? size)%nat && (i + 1 <? size)%nat) e in
      Ok (h, kn, o)
    | None =>
      let* o := delimiter o f (k_tabs n) 125 in
      let* o := comma o in
      let* h := cee_del deep h (k_array n) in
      let* h := del_top h sp in
      Ok (h, kn, o)
    end
  | SScalar x =>
    let* h := blob_string h x in
    let* o := pad o (k_tabs n) f in
    let* o := print_scalar fmt_g o x in
    let* o := comma o in
    let* h := del_top h sp in
    Ok (h, kn, o)
  end.

(** cee-json/snprint.c:194-343, the loop, with stack.c:119-127 *)
Fixpoint mrun (fuel : nat) (f : fmt) (c : contents) (sp : addr) (h : heap) (kn : addr -> counter) (o : output)
  : outcome (heap * output) :=
  let* (k, ts) := get_obj h sp in
  match k with
  | KStack _ cap =>
    if (length ts =? 0)%nat || (cap <=? Z.of_nat (length ts)) then Ok (h, o)
    else
      match fuel with
      | O => Bad OutOfFuel
      | S n => let* (h, kn, o) := mstep f c sp h kn o in mrun n f c sp h kn o
      end
  | _ => Bad BadPointer
  end.

(** cee-json/snprint.c:183-348 [cee_json_snprint] *)
Definition msnprint (fuel : nat) (f : fmt) (h : heap) (c : contents) (buf : option text) (j : val)
  : outcome (heap * (Z * option text)) :=
  let* (h, sp) := mk_stack h st NOOP 500 in
  let* (h, kn) := mpush h c (fun _ => Counter 0 VNull VNull 0 false) sp 0 false j in
  let* (h, o) := mrun fuel f c sp h kn (Output 0 buf) in
  let* h := cee_del deep h (VPtr sp) in
  let* b := write_at (o_buf o) (o_off o) [0] in
  Ok (h, (o_off o, b)).

(** cee-json/snprint.c:354-363 [cee_json_asprint] (see JsonPrintModel): the heap,
    the new block, the number of bytes, and what is in the block *)
Definition masprint (fuel : nat) (f : fmt) (init : nat -> Z) (h : heap) (c : contents) (j : val)
  : outcome (heap * val * (Z * text)) :=
  let* (h, r) := msnprint fuel f h c None j in
  let* (h, b) := mk_obj h st KLeaf [] M_MALLOC in
  let* (h, r) := msnprint fuel f h c (Some (map init (seq 0 (Z.to_nat (fst r) + 1)))) j in
  let* t := of_option NullDeref (snd r) in
  Ok (h, VPtr b, (fst r, t)).
End Print.
