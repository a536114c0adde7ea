(** What binding data from JSON objects is meant to do. *)
From Coq Require Import ZArith List Bool Sorting.Permutation.
From Verif Require Import Base Json JsonHeapModel JsonHeapSpec SqlModel SqlSpec.
Import ListNotations.
Open Scope Z_scope.

(** The values that a column takes: null unless it is not null, an integer of its
    size, a text. *)
Inductive takes (info : bind_info) : json -> Prop :=
| takes_null : i_not_null info = false -> takes info JNull
| takes_int z : i_type info = T_INT -> - 2 ^ 31 <= z < 2 ^ 31 -> takes info (JI64 z)
| takes_int64 z : i_type info = T_INT64 -> takes info (JI64 z)
| takes_text s : i_type info = T_TEXT -> ~ In 0 s -> takes info (JStr s).
(** The data [d] of a column is the JSON value (SqlSpec.denotes: what binding makes
    of it). *)
Definition data_is (info : bind_info) (v : json) (d : bind_data) : Prop :=
  d_has_value d = true /\
  match v with
  | JNull => d_is_null d = true
  | JI64 z => d_is_null d = false /\ forall limit, denotes limit d (i_type info) (V_INT z)
  | JStr s => d_is_null d = false /\ forall limit, Z.of_nat (length s) <= limit -> denotes limit d (i_type info) (V_TEXT s)
  | _ => False
  end.
(** [sorted infos members used unused wrong]: the keys of an object, sorted by what is
    to happen to them, in their order *)
Inductive sorted (infos : list bind_info) : list (text * json) -> list text -> list text -> list text -> Prop :=
| sorted_nil : sorted infos [] [] [] []
| sorted_used k v info l us ns ws : In info infos -> i_col info = k -> takes info v -> sorted infos l us ns ws -> sorted infos ((k, v) :: l) (k :: us) ns ws
| sorted_unused k v l us ns ws : ~ In k (map i_col infos) -> sorted infos l us ns ws -> sorted infos ((k, v) :: l) us (k :: ns) ws
| sorted_wrong k v info l us ns ws : In info infos -> i_col info = k -> ~ takes info v -> sorted infos l us ns ws -> sorted infos ((k, v) :: l) us ns (k :: ws).

(** An integer column is given something that is not an integer. *)
Definition not_an_integer (info : bind_info) (v : json) : Prop :=
  (i_type info = T_INT \/ i_type info = T_INT64) /\ v <> JNull /\ forall z, v <> JI64 z.

(** Lists of texts that a caller may ask for *)
Definition text_list (h : heap) (p : option (option nat)) (l : list text) : Prop :=
  match p with None => True | Some None => l = [] | Some (Some a) => holds h (JArr (map JStr l)) a end.
Definition given_at (p : option (option nat)) : list nat := match p with Some (Some a) => [a] | _ => [] end.
Definition asked (p p' : option (option nat)) : Prop :=
  match p with None => p' = None | Some None => exists a, p' = Some (Some a) | Some (Some _) => p' = p end.
(** Data that has not been used *)
Definition fresh (d : bind_data) : Prop := d_is_null d = false /\ d_size d = 0.

(** The data of all columns after an object was bound *)
Definition data_from (infos : list bind_info) (members : list (text * json)) (data data' : list bind_data) : Prop :=
  length data' = length data /\
  forall i info, nth_error infos i = Some info ->
    match lookup (i_col info) members with
    | Some v => exists d, nth_error data' i = Some d /\ data_is info v d
    | None => nth_error data' i = nth_error data i
    end.

(** An entry made for a member of an object *)
Definition entry_is (key : text) (v : json) (info : bind_info) : Prop :=
  i_col info = key /\ i_var info = 64 :: key /\ data_is info v (i_data info) /\ i_no_update info = false /\ i_not_null info = false.

(** * Lists of columns *)
Fixpoint joined (l : list text) : text :=
  match l with
  | [] => []
  | [x] => x
  | x :: r => x ++ 44 :: joined r
  end.
(** There is a value for an entry. *)
Definition has_value_for (data : option (list bind_data)) (i : nat) (info : bind_info) : Prop :=
  (exists d, given data i = Some d /\ d_has_value d = true) \/ d_has_value (i_data info) = true.
(** [picked P i infos l]: [l] are those of the entries, numbered from [i], that satisfy
    [P]. *)
Inductive picked (P : nat -> bind_info -> Prop) : nat -> list bind_info -> list bind_info -> Prop :=
| picked_nil i : picked P i [] []
| picked_yes i info infos l : P i info -> picked P (S i) infos l -> picked P i (info :: infos) (info :: l)
| picked_no i info infos l : ~ P i info -> picked P (S i) infos l -> picked P i (info :: infos) l.
(** What an update sets: the columns that the object has and that may be updated.
    What an insert gives: the columns that have a value or must have one. *)
Definition to_set (kvs : list (text * json)) (data : option (list bind_data)) (i : nat) (info : bind_info) : Prop :=
  In (i_col info) (map fst kvs) /\ i_no_update info = false /\ has_value_for data i info.
Definition to_insert (data : option (list bind_data)) (i : nat) (info : bind_info) : Prop :=
  has_value_for data i info \/ i_not_null info = true.
Definition assignment (info : bind_info) : text := i_col info ++ 61 :: i_var info.
