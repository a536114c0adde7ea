(** Model of the hash tables of musl-hsearch.c as programs use them: several tables
    ([musl_hcreate_r] and so on with a [struct musl_hsearch_data] each; the functions
    without [_r] use one of their own), the memory they take, and the pointers to
    entries that a search returns.

    calloc does not fail.  Keys are not copied by the table; they are their bytes
    here, so a program must not change a key that is in a table. *)
From Coq Require Import ZArith List Bool.
From Verif Require Import Base HsearchModel.
Import ListNotations.
Open Scope Z_scope.
Open Scope outcome_scope.

Section Htable.
Variable V : Type.

(** musl-hsearch.c:24-28 [struct __tab]: its own block, the block of the entries,
    [mask] and [used] *)
Record htable : Type := HTable { t_self : nat; t_arr : nat; t_mask : Z; t_used : Z }.

(** Blocks are numbered in the order of allocation: arrays of entries, and the
    [struct __tab]s.  [w_tab i] is the i-th [struct musl_hsearch_data], which holds
    NULL or a table. *)
Record hworld : Type := HWorld {
  w_next : nat; w_arrays : nat -> option (list (option (hentry V))); w_structs : list nat; w_tab : nat -> option htable
}.
(** A pointer to an entry: the array and the place in it *)
Definition eptr : Type := (nat * Z)%type.

(** One place of a function changed (helper) *)
Definition put_at {A} (f : nat -> A) (i : nat) (x : A) : nat -> A := fun j => if (j =? i)%nat then x else f j.

(** The table as HsearchModel.v describes it *)
Definition contents (w : hworld) (t : htable) : outcome (htab V) :=
  let* es := of_option UseAfterFree (w_arrays w (t_arr t)) in Ok (HTab es (t_mask t) (t_used t)).

(** musl-hsearch.c:110-123 [musl_hcreate_r], :80-83 [musl_hcreate] *)
Definition create (w : hworld) (i : nat) (nel : Z) : outcome (hworld * Z) :=
  let* h := hcreate V nel in
  let s := w_next w in
  Ok (HWorld (S (S s)) (put_at (w_arrays w) (S s) (Some (h_entries h))) (s :: w_structs w)
        (put_at (w_tab w) i (Some (HTable s (S s) (h_mask h) (h_used h)))), 1).

(** musl-hsearch.c:125-130 [musl_hdestroy_r], :85-88 [musl_hdestroy]; free(NULL) does
    nothing *)
Definition destroy (w : hworld) (i : nat) : outcome hworld :=
  match w_tab w i with
  | None => Ok w
  | Some t =>
    let* _ := of_option DoubleFree (w_arrays w (t_arr t)) in
    Ok (HWorld (w_next w) (put_at (w_arrays w) (t_arr t) None)
          (filter (fun s => negb (s =? t_self t)%nat) (w_structs w)) (put_at (w_tab w) i None))
  end.

(** musl-hsearch.c:132-158 [musl_hsearch_r], :103-108 [musl_hsearch], with FIND: NULL
    or a pointer.  A table that was not created is a NULL pointer. *)
Definition find_in (w : hworld) (i : nat) (key : hkey) : outcome (option eptr) :=
  let* t := of_option NullDeref (w_tab w i) in
  let* h := contents w t in
  let* p := lookup V key (keyhash key) h in
  let* e := of_option OutOfBounds (nth_error (h_entries h) (Z.to_nat p)) in
  match e with Some _ => Ok (Some (t_arr t, p)) | None => Ok None end.

(** ... with ENTER.  [resize] (:48-78) allocates another array and releases the old
    one. *)
Definition enter_in (w : hworld) (i : nat) (item : hentry V) : outcome (hworld * eptr) :=
  let* t := of_option NullDeref (w_tab w i) in
  let* h := contents w t in
  let hash := keyhash (fst item) in
  let* p := lookup V (fst item) hash h in
  let* e := of_option OutOfBounds (nth_error (h_entries h) (Z.to_nat p)) in
  match e with
  | Some _ => Ok (w, (t_arr t, p))
  | None =>
    let entries := update (h_entries h) (Z.to_nat p) (Some item) in
    let used := wrap 64 (h_used h + 1) in
    if used >? h_mask h - h_mask h / 4 then
      let* h2 := resize V (wrap 64 (2 * used)) (HTab entries (h_mask h) used) in
      let a := w_next w in
      let w2 := HWorld (S a) (put_at (put_at (w_arrays w) a (Some (h_entries h2))) (t_arr t) None) (w_structs w)
                  (put_at (w_tab w) i (Some (HTable (t_self t) a (h_mask h2) (h_used h2)))) in
      let* p2 := lookup V (fst item) hash h2 in
      Ok (w2, (a, p2))
    else
      Ok (HWorld (w_next w) (put_at (w_arrays w) (t_arr t) (Some entries)) (w_structs w)
            (put_at (w_tab w) i (Some (HTable (t_self t) (t_arr t) (h_mask h) used))), (t_arr t, p))
  end.

(** [*p] and [p->data = v], by the program.  Memory of the table that is no entry was
    set to zero by calloc: its key is NULL. *)
Definition read_entry (w : hworld) (p : eptr) : outcome (option (hentry V)) :=
  let* es := of_option UseAfterFree (w_arrays w (fst p)) in
  of_option OutOfBounds (nth_error es (Z.to_nat (snd p))).
Definition write_data (w : hworld) (p : eptr) (v : option V) : outcome hworld :=
  let* es := of_option UseAfterFree (w_arrays w (fst p)) in
  let* e := of_option OutOfBounds (nth_error es (Z.to_nat (snd p))) in
  let* e := of_option NullDeref e in
  Ok (HWorld (w_next w) (put_at (w_arrays w) (fst p) (Some (update es (Z.to_nat (snd p)) (Some (fst e, v))))) (w_structs w) (w_tab w)).

(** What a program does.  It keeps the pointers it gets, the [r]-th one is used by
    [OGet] and [OPut]. *)
Inductive hop : Type :=
| OCreate (i : nat) (nel : Z)
| ODestroy (i : nat)
| OEnter (i : nat) (key : hkey) (v : option V)
| OFind (i : nat) (key : hkey)
| OGet (r : nat)
| OPut (r : nat) (v : option V).
(** What it sees: for a search, the entry that the pointer points to *)
Inductive hres : Type := RDone | RCode (z : Z) | REntry (e : option (hentry V)).

(** One operation, and all of them *)
Definition hstep (s : hworld * list (option eptr)) (o : hop) : outcome (hworld * list (option eptr) * hres) :=
  let (w, ps) := s in
  match o with
  | OCreate i nel => let* (w, z) := create w i nel in Ok (w, ps, RCode z)
  | ODestroy i => let* w := destroy w i in Ok (w, ps, RDone)
  | OEnter i key v =>
    let* (w, p) := enter_in w i (key, v) in
    let* e := read_entry w p in Ok (w, ps ++ [Some p], REntry e)
  | OFind i key =>
    let* p := find_in w i key in
    match p with
    | None => Ok (w, ps ++ [None], REntry None)
    | Some p => let* e := read_entry w p in Ok (w, ps ++ [Some p], REntry e)
    end
  | OGet r =>
    let* p := of_option OutOfBounds (nth_error ps r) in
    let* p := of_option NullDeref p in
    let* e := read_entry w p in Ok (w, ps, REntry e)
  | OPut r v =>
    let* p := of_option OutOfBounds (nth_error ps r) in
    let* p := of_option NullDeref p in
    let* w := write_data w p v in Ok (w, ps, RDone)
  end.
Fixpoint hplay (s : hworld * list (option eptr)) (ops : list hop) : outcome (hworld * list (option eptr) * list hres) :=
  match ops with
  | [] => let (w, ps) := s in Ok (w, ps, [])
  | o :: ops =>
    let* (w, ps, r) := hstep s o in
    let* (w, ps, rs) := hplay (w, ps) ops in
    Ok (w, ps, r :: rs)
  end.
(** No table yet *)
Definition no_tables : hworld := HWorld 0 (fun _ => None) [] (fun _ => None).
End Htable.

Arguments HWorld {V} _ _ _ _.
Arguments w_next {V} _.
Arguments w_arrays {V} _ _.
Arguments w_structs {V} _.
Arguments w_tab {V} _ _.
Arguments OCreate {V} _ _.
Arguments ODestroy {V} _.
Arguments OEnter {V} _ _ _.
Arguments OFind {V} _ _.
Arguments OGet {V} _.
Arguments OPut {V} _ _.
Arguments RDone {V}.
Arguments RCode {V} _.
Arguments REntry {V} _.
