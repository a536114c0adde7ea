(** What the operations of JsonEditModel should do to the values of a program;
    nothing here speaks of memory. *)
From Coq Require Import ZArith List Bool.
From Verif Require Import Base Json JsonSpec JsonNamesSpec JsonEditModel.
From Verif Require JsonLangProofs.
Import ListNotations.
Open Scope nat_scope.

(** The part of [x] at [p] is changed as [R] says, giving [y]. *)
Inductive changed (R : json -> json -> Prop) : list step -> json -> json -> Prop :=
| ch_here x y : R x y -> changed R [] x y
| ch_index l1 x l2 y p : changed R p x y ->
    changed R (AtIndex (length l1) :: p) (JArr (l1 ++ x :: l2)) (JArr (l1 ++ y :: l2))
| ch_name kvs1 k x kvs2 y p : changed R p x y ->
    changed R (AtName k :: p) (JObj (kvs1 ++ (k, x) :: kvs2)) (JObj (kvs1 ++ (k, y) :: kvs2)).

(** The changes; [out] are the values taken out. *)
Inductive set_field (k : text) (v : json) (out : list json) : json -> json -> Prop :=
| sf_new kvs : ~ In k (map fst kvs) -> out = [] ->
    set_field k v out (JObj kvs) (JObj (kvs ++ [(k, v)]))
| sf_old kvs1 w kvs2 : out = [w] ->
    set_field k v out (JObj (kvs1 ++ (k, w) :: kvs2)) (JObj (kvs1 ++ (k, v) :: kvs2)).
Inductive put_element (at_end : bool) (i : nat) (v : json) : json -> json -> Prop :=
| pe l1 l2 : (if at_end then l2 = [] else length l1 = i) ->
    put_element at_end i v (JArr (l1 ++ l2)) (JArr (l1 ++ v :: l2)).
Inductive take_element (i : nat) (out : list json) : json -> json -> Prop :=
| te_in l1 w l2 : length l1 = i -> out = [w] -> take_element i out (JArr (l1 ++ w :: l2)) (JArr (l1 ++ l2))
| te_out l : length l <= i -> out = [] -> take_element i out (JArr l) (JArr l).
Inductive take_field (k : text) (out : list json) : json -> json -> Prop :=
| tf_in kvs1 w kvs2 : out = [w] -> take_field k out (JObj (kvs1 ++ (k, w) :: kvs2)) (JObj (kvs1 ++ kvs2))
| tf_out kvs : ~ In k (map fst kvs) -> out = [] -> take_field k out (JObj kvs) (JObj kvs).
Inductive rename_field (old new : text) (out : list json) : json -> json -> Prop :=
| rf_in kvs1 v kvs2 y : set_field new v out (JObj (kvs1 ++ kvs2)) y ->
    rename_field old new out (JObj (kvs1 ++ (old, v) :: kvs2)) y
| rf_out kvs : ~ In old (map fst kvs) -> out = [] -> rename_field old new out (JObj kvs) (JObj kvs).

(** Values that can be made directly *)
Definition simple (x : json) : Prop :=
  match x with
  | JNull | JBool _ | JStr _ | JI64 _ | JU64 _ | JDouble _ | JBlob _ | JArr [] | JObj [] => True
  | _ => False
  end.

(** Values that can be put into a field directly *)
Definition scalar (x : json) : Prop :=
  match x with
  | JNull | JBool _ | JStr _ | JI64 _ | JU64 _ | JDouble _ => True
  | _ => False
  end.

Section Edits.
Variable strtod : text -> Z.
Variable deep : nat.
(** [edit_of o js js' n]: if the program has the values [js], then [js'] after
    [o]; [n] strings are left that no value needs. *)
Inductive edit_of : edit -> list json -> list json -> nat -> Prop :=
| eo_new x js : simple x -> edit_of (ENew x) js (js ++ [x]) 0
| eo_parse n a w b v junk js : spaces a -> spaces b ->
    dvalue loose_string (loose_number strtod) true n w v -> n <= 511 ->
    edit_of (EParse (a ++ w ++ b) junk) js (js ++ [v]) 0
| eo_set i p k j x y v out js : nth_error js i = Some x -> nth_error js j = Some v -> i <> j ->
    changed (set_field k v out) p x y ->
    edit_of (ESet i p k j) js (without j (update js i y) ++ out) 0
| eo_put i p k v x y out js : nth_error js i = Some x -> scalar v -> changed (set_field k v out) p x y ->
    edit_of (EPut i p k v) js (update js i y ++ out) 0
| eo_field k j v js : nth_error js j = Some v -> edit_of (EField k j) js (without j js ++ [JObj [(k, v)]]) 0
| eo_append i p j x y v js : nth_error js i = Some x -> nth_error js j = Some v -> i <> j ->
    changed (put_element true 0 v) p x y ->
    edit_of (EAppend i p j) js (without j (update js i y)) 0
| eo_insert i p k j x y v js : nth_error js i = Some x -> nth_error js j = Some v -> i <> j ->
    changed (put_element false k v) p x y ->
    edit_of (EInsert i p k j) js (without j (update js i y)) 0
| eo_remove_at i p k x y out js : nth_error js i = Some x -> changed (take_element k out) p x y ->
    edit_of (ERemoveAt i p k) js (update js i y ++ out) 0
| eo_remove i p k x y out js : nth_error js i = Some x -> changed (take_field k out) p x y ->
    edit_of (ERemove i p k) js (update js i y ++ out) (length out)
| eo_rename i p old new x y out js : nth_error js i = Some x -> changed (rename_field old new out) p x y ->
    edit_of (ERename i p old new) js (update js i y ++ out) 1
| eo_delete i x js : nth_error js i = Some x -> 5 * JsonLangProofs.depth x + 2 <= deep ->
    edit_of (EDelete i) js (without i js) 0.
Inductive edits_of : list edit -> list json -> list json -> nat -> Prop :=
| es_nil js : edits_of [] js js 0
| es_cons o ops js js1 js' n m : edit_of o js js1 n -> edits_of ops js1 js' m -> edits_of (o :: ops) js js' (n + m).
End Edits.
