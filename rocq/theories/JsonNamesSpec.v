(** JSON texts in which no object repeats a name; independent of the model of the
    parser.  The same grammar as in JsonSpec except for [dm_more]. *)
From Coq Require Import ZArith List Bool.
From Verif Require Import Base Json JsonSpec.
Import ListNotations.
Open Scope Z_scope.

Section Grammar.
(** String literals, number literals, and whether a comma may follow the last
    element or member *)
Variables (str : text -> text -> Prop) (num : text -> json -> Prop) (trailing_comma : bool).
(** [dvalue n w v]: the text [w], nested at most [n] deep, denotes [v], and the
    names of the members of an object in [w] differ from each other. *)
Inductive dvalue : nat -> text -> json -> Prop :=
| dv_null n : dvalue n [110; 117; 108; 108] JNull
| dv_true n : dvalue n [116; 114; 117; 101] (JBool true)
| dv_false n : dvalue n [102; 97; 108; 115; 101] (JBool false)
| dv_str n w s : str w s -> dvalue n (34 :: w ++ [34]) (JStr s)
| dv_num n w v : num w v -> dvalue n w v
| dv_arr0 n b : spaces b -> dvalue (S n) (91 :: b ++ [93]) (JArr [])
| dv_arr n w l : delements n w l -> dvalue (S n) (91 :: w ++ [93]) (JArr l)
| dv_arr_comma n w l b : trailing_comma = true -> delements n w l -> spaces b ->
    dvalue (S n) (91 :: w ++ 44 :: b ++ [93]) (JArr l)
| dv_obj0 n b : spaces b -> dvalue (S n) (123 :: b ++ [125]) (JObj [])
| dv_obj n w kvs : dmembers n w kvs -> dvalue (S n) (123 :: w ++ [125]) (JObj kvs)
| dv_obj_comma n w kvs b : trailing_comma = true -> dmembers n w kvs -> spaces b ->
    dvalue (S n) (123 :: w ++ 44 :: b ++ [125]) (JObj kvs)
with delements : nat -> text -> list json -> Prop :=
| de_one n a w b v : spaces a -> dvalue n w v -> spaces b -> delements n (a ++ w ++ b) [v]
| de_more n w0 l a w b v : delements n w0 l -> spaces a -> dvalue n w v -> spaces b ->
    delements n (w0 ++ 44 :: a ++ w ++ b) (l ++ [v])
with dmembers : nat -> text -> list (text * json) -> Prop :=
| dm_one n w k v : dmember n w k v -> dmembers n w [(k, v)]
| dm_more n w0 kvs w k v : dmembers n w0 kvs -> dmember n w k v -> ~ In k (map fst kvs) ->
    dmembers n (w0 ++ 44 :: w) (kvs ++ [(k, v)])
with dmember : nat -> text -> text -> json -> Prop :=
| dm n a k s b c w d v : spaces a -> str k s -> spaces b -> spaces c -> dvalue n w v -> spaces d ->
    dmember n (a ++ (34 :: k ++ [34]) ++ b ++ 58 :: c ++ w ++ d) s v.
End Grammar.
