(** Model of loading JSON values from files and saving them to files
    (cee-json/value.c:627-703).

    A file is the bytes in it; a descriptor that is read is at the start of its
    file, as the comments of the C functions ask for (value.c:627-629), and the
    file does not change between fstat and read.  [strtod] and [fmt_g] are as in
    JsonTokModel.v and JsonPrintModel.v; [fuel] bounds the loops of the parser and
    the printer. *)
From Coq Require Import ZArith List Bool.
From Verif Require Import Base BoxedModel Json JsonTokModel JsonParseModel JsonPrintModel.
Import ListNotations.
Open Scope Z_scope.
Open Scope outcome_scope.

(** What the caller gets: the value, or NULL; and what is stored in
    [*error_at_line] ([None]: nothing). *)
Definition loaded : Type := option json * option Z.

Section File.
Variable strtod : text -> Z.
Variable fmt_g : prim -> Z -> text.

(** cee-json/value.c:630-650 [cee_json_load_from_fileno]: the block of st_size
    bytes has the bytes of the file and nothing behind them; [force_eof] is not
    passed on.  [want_line]: error_at_line is not NULL.  What goes to stderr is not
    modelled.  cee-json/value.c:654-658 [cee_json_load_from_FILE] is the same. *)
Definition load_from_fileno (fuel : nat) (file : text) (force_eof want_line : bool) : outcome loaded :=
  let* r := parsex strtod fuel file (Z.of_nat (length file)) true in
  match r with
  | POk j => Ok (Some j, None)
  | PErr line => Ok (None, if want_line then Some line else None)
  end.

(** cee-json/value.c:663-674 [cee_json_load_from_file_path]: [None] is a file that
    fopen does not open; then cee_segfault() *)
Definition load_from_file_path (fuel : nat) (file : option text) (force_eof want_line : bool) : outcome loaded :=
  match file with
  | None => Bad Abort
  | Some file => load_from_fileno fuel file force_eof want_line
  end.

(** cee-json/value.c:677-686 [cee_json_load_from_buffer]: [buf] is the block, of
    which the first [buf_size] bytes are to be parsed *)
Definition load_from_buffer (fuel : nat) (buf : text) (buf_size : Z) : outcome (option json) :=
  let* r := parsex strtod fuel buf buf_size true in
  match r with
  | POk j => Ok (Some j)
  | PErr _ => Ok None
  end.

(** A descriptor that is written: the bytes before the position, and the number
    of bytes that there is room for ([None]: any number).  write (library) stores
    what there is room for and returns the number; without any room that is -1. *)
Record wfile : Type := WFile { w_bytes : text; w_room : option nat }.
Definition c_write (f : wfile) (p : text) : Z * wfile :=
  match w_room f with
  | None => (Z.of_nat (length p), WFile (w_bytes f ++ p) None)
  | Some r =>
    let n := Nat.min r (length p) in
    (if (n =? 0)%nat && negb (length p =? 0)%nat then -1 else Z.of_nat n, WFile (w_bytes f ++ firstn n p) (Some (r - n)%nat))
  end.

(** cee-json/value.c:688-699 [cee_json_save_fileno], :701-703 [cee_json_save]: [init]
    is what the block from malloc contains.  The comparison converts -1 to size_t,
    which is never the size of a block. *)
Definition save_fileno (fuel : nat) (init : nat -> Z) (j : json) (f : wfile) (how : fmt) : outcome (bool * wfile) :=
  let* (s, _) := snprint fmt_g fuel how None j in
  let* (_, b) := snprint fmt_g fuel how (Some (map init (seq 0 (Z.to_nat s + 1)))) j in
  let* b := of_option NullDeref b in
  let (n, f) := c_write f (firstn (Z.to_nat s) b) in
  Ok (n =? s, f).
End File.
