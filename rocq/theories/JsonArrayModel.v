(** Model of cee-json/value.c: appending new values to arrays.  The other operations are in
    JsonHeapModel.v. *)
From Coq Require Import ZArith List Bool.
From Verif Require Import Base ListModel Json JsonHeapModel.
Import ListNotations.
Open Scope Z_scope.
Open Scope outcome_scope.

(** cee-json/value.c:540-549 [cee_json_array_append_bool].  The bools are two static values in C;
    here a new node, since nothing can be told from its address but that it is a bool. *)
Definition array_append_bool (h : heap) (j : nat) (b : bool) : outcome heap :=
  let* _ := array_at h (Some j) in
  let (h, v) := alloc h (NBool b) in
  array_append h j (Some v).

(** cee-json/value.c:551-561 [cee_json_array_append_str]; [mk_str] is cee_str_mk(st, "%s", x). *)
Definition array_append_str (mk_str : text -> outcome text) (h : heap) (j : nat) (x : text) : outcome heap :=
  let* _ := array_at h (Some j) in
  let* s := mk_str x in
  let (h, v) := alloc h (NStr s) in
  array_append h j (Some v).

(** cee-json/value.c:563-577 [cee_json_array_append_strf].  The string is built by cee_str_mkv
    from the va_list of this function, which [text] stands for; cee_str_mkv reads the list twice
    (C12), so it is undefined if the format has a directive. *)
Definition array_append_strf (mk_strv : outcome text) (h : heap) (j : nat) : outcome heap :=
  let* _ := array_at h (Some j) in
  let* s := mk_strv in
  let (h, v) := alloc h (NStr s) in
  array_append h j (Some v).

(** cee-json/value.c:605-613 [cee_json_array_iterate].  The callback changes a context [S] and
    may not change the array. *)
Definition array_iterate {S : Type} (fuel : nat) (h : heap) (j : option nat) (ctx : S)
  (f : S -> option nat -> Z -> outcome (S * Z)) : outcome (S * option Z) :=
  let* l := array_at h j in
  list_iterate (fun _ => l) f fuel false ctx.
