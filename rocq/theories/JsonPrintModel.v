(** Model of cee_json_snprint and cee_json_asprint (cee-json/snprint.c). *)
From Coq Require Import ZArith List Bool.
From Verif Require StrModel.
From Verif Require Import Base Numeral BoxedModel Json JsonTokModel.
Import ListNotations.
Open Scope Z_scope.
Open Scope outcome_scope.

(** cee-json/cee-json.h:48-51 [enum cee_json_fmt] *)
Inductive fmt : Type := COMPACT | PRETTY.

(** cee-json/snprint.c:11-17 [struct counter] and the json it belongs to, an entry
    of the stack.  Its members array and object are those of the json. *)
Record entry : Type := Entry { e_next : nat; e_tabs : Z; e_more : bool; e_json : json }.

(** Conversion to char (signed, 8 bits) *)
Definition to_char (z : Z) : Z := (z + 128) mod 256 - 128.

(** cee-json/snprint.c:19-63 [push]: the new entry *)
Definition mk_entry (tabs : Z) (more : bool) (j : json) : entry := Entry 0 (to_char tabs) more j.

(** The offset and the buffer, if there is one.  The offset (uintptr_t) is not
    wrapped: a negative one stands for an address before the buffer. *)
Record output : Type := Output { o_off : Z; o_buf : option text }.

(** Writing bytes at the given place of the buffer, if there is one *)
Definition write_at (b : option text) (off : Z) (cs : text) : outcome (option text) :=
  match b, cs with
  | None, _ => Ok None
  | _, [] => Ok b
  | Some l, _ =>
    if (0 <=? off) && (off + Z.of_nat (length cs) <=? Z.of_nat (length l))
    then Ok (Some (firstn (Z.to_nat off) l ++ cs ++ skipn (Z.to_nat off + length cs) l))
    else Bad OutOfBounds
  end.
Definition emit (o : output) (cs : text) : outcome output :=
  let* b := write_at (o_buf o) (o_off o) cs in
  Ok (Output (o_off o + Z.of_nat (length cs)) b).

(** cee-json/snprint.c:65-78 [pad] *)
Definition pad (o : output) (tabs : Z) (f : fmt) : outcome output :=
  match f with
  | COMPACT => Ok o
  | PRETTY =>
    let* b := write_at (o_buf o) (o_off o) (repeat 9 (Z.to_nat tabs)) in
    Ok (Output (o_off o + tabs) b)
  end.

(** cee-json/snprint.c:80-128 [delimiter].  The offset that pad computes for an
    opening bracket is not kept. *)
Definition delimiter (o : output) (f : fmt) (tabs : Z) (c : Z) : outcome output :=
  match f with
  | COMPACT => emit o [c]
  | PRETTY =>
    if (c =? 91) || (c =? 123) then
      let* p := pad o tabs f in
      emit (Output (o_off o) (o_buf p)) [c; 10]
    else if (c =? 93) || (c =? 125) then
      let* o := emit o [10] in
      let* o := pad o tabs f in
      let* o := emit o [c] in
      emit o [10]
    else if c =? 58 then emit o [32; 58; 9]
    else if c =? 44 then emit o [44; 10]
    else Ok o
  end.

(** cee-json/snprint.c:142-158: what replaces the character *)
Definition tohex (d : Z) : Z := if d <? 10 then 48 + d else 87 + d.
Definition addon (c : Z) : option text :=
  if c =? 34 then Some [92; 34] else if c =? 92 then Some [92; 92]
  else if c =? 8 then Some [92; 98] else if c =? 12 then Some [92; 102]
  else if c =? 10 then Some [92; 110] else if c =? 13 then Some [92; 114]
  else if c =? 9 then Some [92; 116]
  else if c <=? 31 then Some [92; 117; 48; 48; tohex (Z.shiftr c 4); tohex (Z.land c 15)]
  else None.
(** cee-json/snprint.c:139-174, the loop; [run] are the bytes from [last] to [i]. *)
Fixpoint str_loop (o : output) (run : text) (s : text) : outcome output :=
  match s with
  | [] => emit o run
  | c :: s' =>
    match addon c with
    | Some a => let* o := emit o run in let* o := emit o a in str_loop o [] s'
    | None => str_loop o (run ++ [c]) s'
    end
  end.
(** cee-json/snprint.c:131-178 [str_append] of [len] bytes; [len] is an unsigned. *)
Definition str_append (o : output) (s : text) : outcome output :=
  let* o := emit o [34] in
  let* o := str_loop o [] (firstn (Z.to_nat (wrap 32 (Z.of_nat (length s)))) s) in
  emit o [34].

Section Print.
(** What "%lg" prints (library) *)
Variable fmt_g : prim -> Z -> text.

(** cee-json/snprint.c:277-285: the number is printed with its terminating NUL. *)
Definition print_boxed (o : output) (b : box) : outcome output :=
  let* (_, incr) := boxed_snprint fmt_g 0 b in
  let* (w, _) := boxed_snprint fmt_g (Z.to_nat incr + 1) b in
  let* buf := write_at (o_buf o) (o_off o) w in
  Ok (Output (o_off o + incr) buf).

(** cee-json/snprint.c:265: cee_str_mk(st, "blob:%d bytes", size), and the text of
    the string that it makes *)
Definition blob_format : StrModel.fmt :=
  [StrModel.PLit [98; 108; 111; 98; 58]; StrModel.PDir; StrModel.PLit [32; 98; 121; 116; 101; 115]].
Definition blob_text (n : Z) : outcome text :=
  let* s := StrModel.str_mk (Some blob_format) [decimal_of (to_int32 n)] in
  let* l := StrModel.c_strlen (StrModel.c_data s) in
  Ok (map (fun c => match c with Some c => c | None => 0 end) (firstn (Z.to_nat l) (StrModel.c_data s))).

(** cee-json/snprint.c:200-286: a value that is not an array or object.  For a
    string strlen stops at a NUL. *)
Definition print_scalar (o : output) (j : json) : outcome output :=
  match j with
  | JNull => emit o [110; 117; 108; 108]
  | JBool true => emit o [116; 114; 117; 101]
  | JBool false => emit o [102; 97; 108; 115; 101]
  | JUndefined => emit o [117; 110; 100; 101; 102; 105; 110; 101; 100]
  | JStr s => str_append o (c_string_n s)
  | JStrn s => str_append o s
  | JBlob n => let* s := blob_text n in str_append o s
  | JDouble d => print_boxed o (boxed_from F64 d)
  | JI64 z => print_boxed o (boxed_from I64 z)
  | JU64 z => print_boxed o (boxed_from U64 z)
  | JArr _ | JObj _ => Bad Abort
  end.

(** The comma behind a value that has further siblings *)
Definition comma_if (o : output) (f : fmt) (e : entry) : outcome output :=
  if e_more e then delimiter o f (e_tabs e) 44 else Ok o.

(** cee-json/snprint.c:195-342, one iteration: [e] is the top of the stack.  The
    keys of an object are those that cee_map_insertion_ordered_keys gives
    (property C02), and their values are looked up. *)
Definition step (f : fmt) (o : output) (e : entry) (below : list entry) : outcome (output * list entry) :=
  let i := e_next e in
  let next := Entry (i + 1) (e_tabs e) (e_more e) (e_json e) in
  match e_json e with
  | JArr l =>
    let* o := (if (i =? 0)%nat then delimiter o f (e_tabs e) 91 else Ok o) in
    let n := length l in
    match nth_error l i with
    | Some x => Ok (o, mk_entry (e_tabs e + 1) ((1 <? n)%nat && (i + 1 <? n)%nat) x :: next :: below)
    | None =>
      let* o := delimiter o f (e_tabs e) 93 in
      let* o := comma_if o f e in
      Ok (o, below)
    end
  | JObj kvs =>
    let* o := (if (i =? 0)%nat then delimiter o f (e_tabs e) 123 else Ok o) in
    let n := length kvs in
    match nth_error kvs i with
    | Some (k, _) =>
      let* x := of_option NullDeref (obj_find kvs k) in
      let* o := pad o (e_tabs e) f in
      let* o := str_append o (c_string_n k) in
      let* o := delimiter o f (e_tabs e) 58 in
      Ok (o, mk_entry (e_tabs e + 1) ((1 <? n)%nat && (i + 1 <? n)%nat) x :: next :: below)
    | None =>
      let* o := delimiter o f (e_tabs e) 125 in
      let* o := comma_if o f e in
      Ok (o, below)
    end
  | j =>
    let* o := pad o (e_tabs e) f in
    let* o := print_scalar o j in
    let* o := comma_if o f e in
    Ok (o, below)
  end.

(** cee-json/snprint.c:190: the capacity of the stack *)
Definition stack_capacity : nat := 500.

(** cee-json/snprint.c:194-343, the loop *)
Fixpoint run (fuel : nat) (f : fmt) (o : output) (stack : list entry) : outcome output :=
  match stack with
  | [] => Ok o
  | e :: below =>
    if (length stack =? stack_capacity)%nat then Ok o
    else
      match fuel with
      | O => Bad OutOfFuel
      | S n => let* (o, stack) := step f o e below in run n f o stack
      end
  end.

(** cee-json/snprint.c:183-348 [cee_json_snprint]: the number of bytes and the
    buffer (the parameter size is not used) *)
Definition snprint (fuel : nat) (f : fmt) (buf : option text) (j : json) : outcome (Z * option text) :=
  let* o := run fuel f (Output 0 buf) [mk_entry 0 false j] in
  let* b := write_at (o_buf o) (o_off o) [0] in
  Ok (o_off o, b).

(** cee-json/snprint.c:354-363 [cee_json_asprint].  cee_block_mk_nonzero (block.c:48-66)
    allocates sizeof(struct header) more than asked for, of which the array [_]
    of at least one byte belongs to the data; [init] is what is in the memory. *)
Definition asprint (fuel : nat) (f : fmt) (init : nat -> Z) (j : json) : outcome (Z * text) :=
  let* (n, _) := snprint fuel f None j in
  let* (n, b) := snprint fuel f (Some (map init (seq 0 (Z.to_nat n + 1)))) j in
  let* b := of_option NullDeref b in
  Ok (n, b).

(** What %s takes from memory: the bytes before the first NUL *)
Fixpoint c_string (m : text) : outcome text :=
  match m with
  | [] => Bad OutOfBounds
  | c :: r => if c =? 0 then Ok [] else let* s := c_string r in Ok (c :: s)
  end.

(** cee-json/snprint.c:366-382 [cee_json_dprintf]: what is written to the file.
    [said] is what vdprintf makes of the format and the arguments, if there is a
    format; writing does not fail. *)
Definition json_dprintf (fuel : nat) (init : nat -> Z) (j : option json) (said : option text) : outcome text :=
  let* s :=
    match j with
    | None => Ok [110; 117; 108; 108]
    | Some j => let* (_, b) := asprint fuel COMPACT init j in c_string b
    end in
  Ok (match said with Some t => t | None => [] end ++ s ++ [10]).
End Print.
