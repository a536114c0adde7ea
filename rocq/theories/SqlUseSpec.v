(** What becomes of each member of an object that data is bound from, whatever the
    member, the column and the data. *)
From Coq Require Import String Ascii ZArith List Bool Sorting.Permutation.
From Verif Require Import Base Json IntSpec SqlModel.
Import ListNotations.
Open Scope Z_scope.

Definition said (s : string) : text := map (fun c => Z.of_nat (nat_of_ascii c)) (list_ascii_of_string s).

Section Use.
Variable infos : list bind_info.
(** The first entry for the column *)
Definition column_of (k : text) (i : nat) (info : bind_info) : Prop :=
  nth_error infos i = Some info /\ i_col info = k /\ forall j x, (j < i)%nat -> nth_error infos j = Some x -> i_col x <> k.
(** Only the data of one column changes, in the way [how]. *)
Definition changed (i : nat) (how : bind_data -> bind_data -> Prop) (data data' : list bind_data) : Prop :=
  length data' = length data /\ (forall j, j <> i -> nth_error data' j = nth_error data j) /\
  exists d d', nth_error data i = Some d /\ nth_error data' i = Some d' /\ how d d' /\ d_has_value d' = true.

(** Data that stays null once it is null *)
Inductive set_to (ty : sqltype) : json -> bind_data -> bind_data -> Prop :=
| set_int z d d' : ty = T_INT -> low_int z (d_i d') -> d_i64 d' = d_i64 d -> d_value d' = d_value d -> d_size d' = d_size d -> d_is_null d' = d_is_null d ->
    set_to ty (JI64 z) d d'
| set_int64 z d d' : ty = T_INT64 -> d_i64 d' = z -> d_i d' = d_i d -> d_value d' = d_value d -> d_size d' = d_size d -> d_is_null d' = d_is_null d ->
    set_to ty (JI64 z) d d'
| set_text s d d' : ty = T_TEXT -> d_value d' = Some (s ++ [0]) -> d_i d' = d_i d -> d_i64 d' = d_i64 d -> d_size d' = d_size d -> d_is_null d' = d_is_null d ->
    set_to ty (JStr s) d d'
| set_null d d' : d_is_null d' = true -> d_i d' = d_i d -> d_i64 d' = d_i64 d -> d_value d' = d_value d -> d_size d' = d_size d ->
    set_to ty JNull d d'.

(** [treats k v data data' used unused] *)
Inductive treats : text -> json -> list bind_data -> list bind_data -> list text -> list text -> Prop :=
| treats_unknown k v data : ~ In k (map i_col infos) -> treats k v data data [] [k]
| treats_dropped k data i info : column_of k i info -> i_not_null info = true -> treats k JNull data data [] []
| treats_used k v data data' i info : column_of k i info -> (v = JNull -> i_not_null info = false) -> changed i (set_to (i_type info) v) data data' ->
    treats k v data data' [k] [].
(** A complaint that ends the work *)
Inductive complains : text -> json -> text -> Prop :=
| complains_int k v i info : column_of k i info -> i_type info = T_INT -> v <> JNull -> (forall z, v <> JI64 z) ->
    complains k v (said "'" ++ k ++ said "' should be int")
| complains_int64 k v i info : column_of k i info -> i_type info = T_INT64 -> v <> JNull -> (forall z, v <> JI64 z) ->
    complains k v (said "'" ++ k ++ said "' should be int64")
| complains_blob k v i info : column_of k i info -> i_type info = T_BLOB -> v <> JNull ->
    complains k v (said "'" ++ k ++ said "' should be blob and is not supported yet").
(** What is not defined: a text column with another value, a blob column when no
    errors are asked for, a column without a type. *)
Inductive undefined_for (asked : bool) : text -> json -> Prop :=
| undefined_text k v i info : column_of k i info -> i_type info = T_TEXT -> v <> JNull -> (forall s, v <> JStr s) -> undefined_for asked k v
| undefined_blob k v i info : column_of k i info -> i_type info = T_BLOB -> v <> JNull -> asked = false -> undefined_for asked k v
| undefined_type k v i info : column_of k i info -> i_type info = T_UNDEF -> v <> JNull -> undefined_for asked k v.

(** [uses asked members data r]: the members in turn. *)
Inductive used_up : Type := Used (data : list bind_data) (used unused errors : list text) | Undefined.
Definition before (u n : list text) (r : used_up) : used_up :=
  match r with Used d us ns es => Used d (u ++ us) (n ++ ns) es | Undefined => Undefined end.
Inductive uses (asked : bool) : list (text * json) -> list bind_data -> used_up -> Prop :=
| uses_end data : uses asked [] data (Used data [] [] [])
| uses_next k v l data data' u n r : treats k v data data' u n -> uses asked l data' r -> uses asked ((k, v) :: l) data (before u n r)
| uses_error k v l data e : complains k v e -> ~ undefined_for asked k v -> uses asked ((k, v) :: l) data (Used data [] [] [e])
| uses_undefined k v l data : undefined_for asked k v -> uses asked ((k, v) :: l) data Undefined.
End Use.
