(** Model of strview.c.

    A view points into one text [mem] (a list of bytes 0..255, the allocation it
    points into); [v_off] is the distance of [data] from its start.  Counts are
    size_t (modulo 2^64).  The two views of a binary operation point into the
    same [mem] (two texts can always be put into one list).  isspace/isdigit are those of the C locale. *)
From Coq Require Import ZArith List Bool.
From Verif Require Import Base.
Import ListNotations.
Open Scope Z_scope.
Open Scope outcome_scope.

(** strview.c:35-38 *)
Record view : Type := View { v_off : Z; v_cnt : Z }.

Section Mem.
Variable mem : list Z.

(** [sv.data[i]] *)
Definition vread (v : view) (i : Z) : outcome Z :=
  if v_off v + i <? 0 then Bad OutOfBounds
  else of_option OutOfBounds (nth_error mem (Z.to_nat (v_off v + i))).

(** isspace, isdigit *)
Definition isspace (c : Z) : bool := (c =? 32) || ((9 <=? c) && (c <=? 13)).
Definition isdigit (c : Z) : bool := (48 <=? c) && (c <=? 57).

(** The scanning loops [while (i < sv.count && p(sv.data[i])) i += 1]
    (strview.c:94-97, :146-149, :163-166, :184-187, :302-305, :311-314). *)
Fixpoint scan (fuel : nat) (v : view) (p : Z -> bool) (i : Z) : outcome Z :=
  match fuel with
  | O => Bad OutOfFuel
  | S f =>
    if i <? v_cnt v then
      let* c := vread v i in
      if p c then scan f v p (i + 1) else Ok i
    else Ok i
  end.
Definition scan0 (v : view) (p : Z -> bool) : outcome Z := scan (S (Z.to_nat (v_cnt v))) v p 0.

(** strview.c:92-100 [sv_trim_left] *)
Definition sv_trim_left (v : view) : outcome view :=
  let* i := scan0 v isspace in Ok (View (v_off v + i) (v_cnt v - i)).

(** strview.c:104-107, the loop *)
Fixpoint scan_right (fuel : nat) (v : view) (p : Z -> bool) (i : Z) : outcome Z :=
  match fuel with
  | O => Bad OutOfFuel
  | S f =>
    if i <? v_cnt v then
      let* c := vread v (v_cnt v - 1 - i) in
      if p c then scan_right f v p (i + 1) else Ok i
    else Ok i
  end.
(** strview.c:102-110 [sv_trim_right] *)
Definition sv_trim_right (v : view) : outcome view :=
  let* i := scan_right (S (Z.to_nat (v_cnt v))) v isspace 0 in Ok (View (v_off v) (v_cnt v - i)).

(** strview.c:112-115 [sv_trim] *)
Definition sv_trim (v : view) : outcome view :=
  let* l := sv_trim_left v in sv_trim_right l.

(** strview.c:117-129 [sv_chop_left]: result and the view left over *)
Definition sv_chop_left (v : view) (n : Z) : view * view :=
  let n := if n >? v_cnt v then v_cnt v else n in
  (View (v_off v) n, View (v_off v + n) (wrap 64 (v_cnt v - n))).

(** strview.c:131-142 [sv_chop_right] *)
Definition sv_chop_right (v : view) (n : Z) : view * view :=
  let n := if n >? v_cnt v then v_cnt v else n in
  (View (v_off v + v_cnt v - n) n, View (v_off v) (wrap 64 (v_cnt v - n))).

(** strview.c:144-159 [sv_index_of]; [Some i]: true with [*index = i] *)
Definition sv_index_of (v : view) (c : Z) : outcome (option Z) :=
  let* i := scan0 v (fun x => negb (x =? c)) in
  Ok (if i <? v_cnt v then Some i else None).

(** strview.c:161-180 [sv_try_chop_by_delim]: [Some chunk] and the rest *)
Definition sv_try_chop_by_delim (v : view) (delim : Z) : outcome (option view * view) :=
  let* i := scan0 v (fun x => negb (x =? delim)) in
  if i <? v_cnt v
  then Ok (Some (View (v_off v) i), View (v_off v + (i + 1)) (wrap 64 (v_cnt v - (i + 1))))
  else Ok (None, v).

(** strview.c:182-200 [sv_chop_by_delim] *)
Definition sv_chop_by_delim (v : view) (delim : Z) : outcome (view * view) :=
  let* i := scan0 v (fun x => negb (x =? delim)) in
  let result := View (v_off v) i in
  if i <? v_cnt v
  then Ok (result, View (v_off v + (i + 1)) (wrap 64 (v_cnt v - (i + 1))))
  else Ok (result, View (v_off v + i) (wrap 64 (v_cnt v - i))).

(** memcmp(a, b, n) == 0 *)
Fixpoint mem_eq (n : nat) (a b : view) (i : Z) : outcome bool :=
  match n with
  | O => Ok true
  | S n' =>
    let* x := vread a i in
    let* y := vread b i in
    if x =? y then mem_eq n' a b (i + 1) else Ok false
  end.

(** strview.c:248-255 [sv_eq] *)
Definition sv_eq (a b : view) : outcome bool :=
  if v_cnt a =? v_cnt b then mem_eq (Z.to_nat (v_cnt a)) a b 0 else Ok false.

(** strview.c:204-211, the search for the delimiter text (size_t additions wrap) *)
Fixpoint find_sv (fuel : nat) (v d : view) (i : Z) : outcome Z :=
  match fuel with
  | O => Bad OutOfFuel
  | S f =>
    if wrap 64 (i + v_cnt d) <? v_cnt v then
      let* e := sv_eq (View (v_off v + i) (v_cnt d)) d in
      if e then Ok i else find_sv f v d (i + 1)
    else Ok i
  end.

(** strview.c:202-226 [sv_chop_by_sv] *)
Definition sv_chop_by_sv (v d : view) : outcome (view * view) :=
  let* i := find_sv (S (Z.to_nat (v_cnt v))) v d 0 in
  let rc := if wrap 64 (i + v_cnt d) =? v_cnt v then wrap 64 (i + v_cnt d) else i in
  Ok (View (v_off v) rc,
      View (v_off v + (i + v_cnt d)) (wrap 64 (v_cnt v - (i + v_cnt d)))).

(** strview.c:228-236 [sv_starts_with] *)
Definition sv_starts_with (v p : view) : outcome bool :=
  if v_cnt p <=? v_cnt v then sv_eq p (View (v_off v) (v_cnt p)) else Ok false.

(** strview.c:238-246 [sv_ends_with] *)
Definition sv_ends_with (v s : view) : outcome bool :=
  if v_cnt s <=? v_cnt v then sv_eq s (View (v_off v + v_cnt v - v_cnt s) (v_cnt s)) else Ok false.

(** strview.c:265-271 *)
Definition lower (c : Z) : Z := if (65 <=? c) && (c <=? 90) then c + 32 else c.

(** strview.c:257-276 [sv_eq_ignorecase] *)
Fixpoint eq_nocase (n : nat) (a b : view) (i : Z) : outcome bool :=
  match n with
  | O => Ok true
  | S n' =>
    let* x := vread a i in
    let* y := vread b i in
    if lower x =? lower y then eq_nocase n' a b (i + 1) else Ok false
  end.
Definition sv_eq_ignorecase (a b : view) : outcome bool :=
  if v_cnt a =? v_cnt b then eq_nocase (Z.to_nat (v_cnt a)) a b 0 else Ok false.

(** strview.c:278-287 [sv_to_u64] *)
Fixpoint to_u64_loop (n : nat) (v : view) (i result : Z) : outcome Z :=
  match n with
  | O => Ok result
  | S n' =>
    let* c := vread v i in
    if isdigit c then to_u64_loop n' v (i + 1) (wrap 64 (result * 10 + c - 48))
    else Ok result
  end.
Definition sv_to_u64 (v : view) : outcome Z := to_u64_loop (Z.to_nat (v_cnt v)) v 0 0.

(** strview.c:289-298 [sv_chop_u64]: result and the rest *)
Fixpoint chop_u64_loop (n : nat) (v : view) (result : Z) : outcome (Z * view) :=
  match n with
  | O => Ok (result, v)
  | S n' =>
    let* c := vread v 0 in
    if isdigit c
    then chop_u64_loop n' (View (v_off v + 1) (v_cnt v - 1)) (wrap 64 (result * 10 + c - 48))
    else Ok (result, v)
  end.
Definition sv_chop_u64 (v : view) : outcome (Z * view) := chop_u64_loop (Z.to_nat (v_cnt v)) v 0.

(** strview.c:300-307 [sv_chop_left_while] *)
Definition sv_chop_left_while (v : view) (p : Z -> bool) : outcome (view * view) :=
  let* i := scan0 v p in Ok (sv_chop_left v i).

(** strview.c:309-316 [sv_take_left_while] *)
Definition sv_take_left_while (v : view) (p : Z -> bool) : outcome view :=
  let* i := scan0 v p in Ok (View (v_off v) i).

End Mem.

(** strview.c:87-90 [sv_from_cstr]: [mem] holds the string and its NUL *)
Fixpoint cstrlen (l : list Z) : outcome Z :=
  match l with
  | [] => Bad OutOfBounds
  | c :: l' => if c =? 0 then Ok 0 else let* n := cstrlen l' in Ok (n + 1)
  end.
Definition sv_from_cstr (mem : list Z) : outcome view :=
  let* n := cstrlen mem in Ok (View 0 n).
