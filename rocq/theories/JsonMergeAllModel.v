(** Model of cee-json/cee_json_merge.c: merging JSON files into one.

    The state of the file system is a function from paths to the bytes of the files
    that fopen opens; [can_write] says which paths it opens for writing, and writing
    does not fail.  Error messages and descriptors that stay open are not modelled. *)
From Coq Require Import ZArith List Bool.
From Verif Require Import Base TsearchModel MapModel ListModel BoxedModel Json JsonTokModel JsonParseModel JsonPrintModel JsonHeapModel JsonFileModel.
Import ListNotations.
Open Scope Z_scope.
Open Scope outcome_scope.

(** * Values between text and memory *)
(** cee-json/parser.c:69-230: how the parser puts a value in memory, with
    [cee_json_array_mk], [cee_json_object_mk], [cee_list_append], [cee_map_add].
    The parser stores a nested array or object in its parent before it fills it;
    here it is filled first, which leaves the same memory, as objects have distinct
    keys here (what a repeated key leaves behind is not represented). *)
Fixpoint build (h : heap) (j : json) {struct j} : outcome (heap * nat) :=
  match j with
  | JArr l =>
    let (h, a) := alloc h (NArr (list_mk 20)) in
    let* h := (fix elements (h : heap) (l : list json) : outcome heap :=
      match l with
      | [] => Ok h
      | x :: r => let* (h, b) := build h x in let* h := array_append h a (Some b) in elements h r
      end) h l in
    Ok (h, a)
  | JObj kvs =>
    let (h, a) := alloc h (NObj map_mk) in
    let* h := (fix members (h : heap) (l : list (text * json)) : outcome heap :=
      match l with
      | [] => Ok h
      | (k, x) :: r => let* (h, b) := build h x in let* h := add_field byval_str_mk h a k (Some b) in members h r
      end) h kvs in
    Ok (h, a)
  | JUndefined => Ok (alloc h NUndefined)
  | JNull => Ok (alloc h NNull)
  | JBool b => Ok (alloc h (NBool b))
  | JDouble z => Ok (alloc h (NDouble z))
  | JI64 z => Ok (alloc h (NI64 z))
  | JU64 z => Ok (alloc h (NU64 z))
  | JStr s => Ok (alloc h (NStr s))
  | JStrn s => Ok (alloc h (NStrn s))
  | JBlob z => Ok (alloc h (NBlob z))
  end.

(** The value that the printer finds at an address: cee-json/snprint.c:26-38, 290-335
    reads the elements of an array up to its size, and for an object the keys in the
    order of insertion and the value of each. *)
Fixpoint value_at (fuel : nat) (h : heap) (a : option nat) : outcome json :=
  match fuel with
  | O => Bad OutOfFuel
  | S n =>
    let* nd := load h a in
    match nd with
    | NArr l =>
      let* js := (fix elements (k : nat) (i : Z) : outcome (list json) :=
        match k with
        | O => Ok []
        | S k => let* e := aread (l_a l) i in let* j := value_at n h e in let* r := elements k (i + 1) in Ok (j :: r)
        end) (Z.to_nat (l_size l)) 0 in
      Ok (JArr js)
    | NObj m =>
      let* kjs := (fix members (ks : list text) : outcome (list (text * json)) :=
        match ks with
        | [] => Ok []
        | k :: r => let* e := map_find text nat strcmp (Some m) (Some k) in let* j := value_at n h e in let* r := members r in Ok ((k, j) :: r)
        end) (m_keys m) in
      Ok (JObj kjs)
    | NUndefined => Ok JUndefined | NNull => Ok JNull | NBool b => Ok (JBool b)
    | NDouble z => Ok (JDouble z) | NI64 z => Ok (JI64 z) | NU64 z => Ok (JU64 z)
    | NStr s => Ok (JStr s) | NStrn s => Ok (JStrn s) | NBlob z => Ok (JBlob z)
    end
  end.

(** The files by name; [None] is a file that does not exist.  fopen with "w" and
    writing (cee-json/cee_json_merge.c:42-53) replace the contents. *)
Definition files : Type := text -> option text.
Definition write_file (fs : files) (path bytes : text) : files :=
  fun p => if text_eqb p path then Some bytes else fs p.
(** cee_json_merge.c:48, the key "originals" *)
Definition originals : text := [111; 114; 105; 103; 105; 110; 97; 108; 115].

Section MergeAll.
Variable strtod : text -> Z.
Variable fmt_g : prim -> Z -> text.
(** cee_str_mk, cee_str_mkv of "%s" *)
Variable mk_str : text -> outcome text.
(** what memory from malloc contains *)
Variable init : nat -> Z.
Variable can_write : text -> bool.
Variable fuel : nat.

(** cee_json_merge.c:10-23 and :26-37: [None] is [return 1] *)
Definition load_file (fs : files) (h : heap) (path : text) : outcome (option (heap * nat)) :=
  match fs path with
  | None => Ok None
  | Some bytes =>
    let* (j, _) := load_from_fileno strtod fuel bytes true true in
    match j with
    | None => Ok None
    | Some j => let* r := build h j in Ok (Some r)
    end
  end.

(** cee_json_merge.c:25-40; the result of cee_json_merge is not looked at. *)
Fixpoint merge_files (fs : files) (h : heap) (j0 : nat) (paths : list text) : outcome (option heap) :=
  match paths with
  | [] => Ok (Some h)
  | p :: r =>
    let* x := load_file fs h p in
    match x with
    | None => Ok None
    | Some (h, jn) => let* (_, h) := merge fuel h (Some j0) (Some jn) in merge_files fs h j0 r
    end
  end.

(** cee_json_merge.c:49-52; cee-json/value.c:275-281 [cee_json_str_mkf] *)
Fixpoint append_names (h : heap) (inputs : nat) (paths : list text) : outcome heap :=
  match paths with
  | [] => Ok h
  | p :: r =>
    let* s := mk_str p in
    let (h, a) := alloc h (NStr s) in
    let* h := array_append h inputs (Some a) in
    append_names h inputs r
  end.

(** cee_json_merge.c:7-59 [cee_json_merge_all]: the result and the files; with no
    path at all json_files[0] is read all the same. *)
Definition merge_all (fs : files) (paths : list text) (merged : text) : outcome (Z * files) :=
  match paths with
  | [] => Bad OutOfBounds
  | p0 :: rest =>
    let* x := load_file fs [] p0 in
    match x with
    | None => Ok (1, fs)
    | Some (h, j0) =>
      let* y := merge_files fs h j0 rest in
      match y with
      | None => Ok (1, fs)
      | Some h =>
        if can_write merged then
          let (h, inputs) := alloc h (NArr (list_mk (Z.of_nat (length paths)))) in
          let* h := object_set mk_str h (Some j0) originals (Some inputs) in
          let* h := append_names h inputs paths in
          let* j := value_at fuel h (Some j0) in
          let* (_, f) := save_fileno fmt_g fuel init j (WFile [] None) PRETTY in
          Ok (0, write_file fs merged (w_bytes f))
        else Ok (1, fs)
      end
    end
  end.
End MergeAll.
