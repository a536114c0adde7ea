(** What programs that edit and print JSON values should do; nothing here speaks
    of memory. *)
From Coq Require Import ZArith List Bool.
From Verif Require Import Base BoxedModel Json JsonSpec JsonPrintModel JsonPrintSpec JsonEditModel JsonEditSpec JsonWriteModel.
Import ListNotations.
Open Scope nat_scope.

(** [y] is the part of [x] at [p]. *)
Inductive part : list step -> json -> json -> Prop :=
| pa_here x : part [] x x
| pa_index l1 x l2 p y : part p x y -> part (AtIndex (length l1) :: p) (JArr (l1 ++ x :: l2)) y
| pa_name kvs1 k x kvs2 p y : part p x y -> part (AtName k :: p) (JObj (kvs1 ++ (k, x) :: kvs2)) y.

(** The formats, and how many levels below the outermost value they support *)
Definition readable (f : fmt) : bool := match f with PRETTY => true | COMPACT => false end.
Definition levels (f : fmt) : nat := match f with PRETTY => 127 | COMPACT => 498 end.

Section Writes.
Variable strtod : text -> Z.
Variable fmt_g : prim -> Z -> text.
Variable deep : nat.
(** [writes_of ops js js' n ts]: if the program has the values [js], then [js']
    after [ops]; [n] strings are left that no value needs; the texts printed are
    [ts], each with a NUL behind it. *)
Inductive writes_of : list write -> list json -> list json -> nat -> list text -> Prop :=
| wo_nil js : writes_of [] js js 0 []
| wo_edit o ops js js1 js' n m ts : edit_of strtod deep o js js1 n -> writes_of ops js1 js' m ts ->
    writes_of (WEdit o :: ops) js js' (n + m) ts
| wo_print i p f ops x y js js' m ts : nth_error js i = Some x -> part p x y ->
    everywhere (ordinary fmt_g) y -> height y <= levels f -> writes_of ops js js' m ts ->
    writes_of (WPrint i p f :: ops) js js' m ((text_of fmt_g (readable f) 0 y ++ [0%Z]) :: ts).
End Writes.
