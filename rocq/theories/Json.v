(** JSON values of cee-json. *)
From Coq Require Import ZArith List Bool.
Import ListNotations.
Open Scope Z_scope.

(** Text: bytes 0..255, as in a C string without its terminator *)
Definition text := list Z.

(** cee-json/cee-json.h:18-30 [enum cee_json_type], :32-46 [struct cee_json].  A
    double is its bit pattern; a blob is its size; an object is its entries in
    insertion order, with distinct keys (what cee_map keeps: properties C01 and
    C02). Sharing of values is not represented. *)
Inductive json : Type :=
| JUndefined | JNull
| JBool (b : bool)
| JDouble (bits : Z)
| JI64 (z : Z) | JU64 (z : Z)
| JStr (s : text) | JStrn (s : text)
| JBlob (bytes : Z)
| JArr (l : list json)
| JObj (kvs : list (text * json)).

Definition text_eqb (a b : text) : bool := if list_eq_dec Z.eq_dec a b then true else false.

(** [cee_map_add] on an object: overwrite in place or append (map.c:117-148;
    keys are compared by strcmp, str.c) *)
Fixpoint obj_put (kvs : list (text * json)) (k : text) (v : json) : list (text * json) :=
  match kvs with
  | [] => [(k, v)]
  | (k', v') :: r => if text_eqb k k' then (k', v) :: r else (k', v') :: obj_put r k v
  end.
(** [cee_map_find] (map.c:154-165) *)
Fixpoint obj_find (kvs : list (text * json)) (k : text) : option json :=
  match kvs with
  | [] => None
  | (k', v') :: r => if text_eqb k k' then Some v' else obj_find r k
  end.
(** [cee_map_remove] (map.c:180-200) *)
Fixpoint obj_remove (kvs : list (text * json)) (k : text) : list (text * json) :=
  match kvs with
  | [] => []
  | (k', v') :: r => if text_eqb k k' then r else (k', v') :: obj_remove r k
  end.

(** Induction over nested values *)
Section Ind.
Variable P : json -> Prop.
Hypothesis HU : P JUndefined.
Hypothesis HN : P JNull.
Hypothesis HB : forall b, P (JBool b).
Hypothesis HD : forall z, P (JDouble z).
Hypothesis HI : forall z, P (JI64 z).
Hypothesis HU64 : forall z, P (JU64 z).
Hypothesis HS : forall s, P (JStr s).
Hypothesis HSn : forall s, P (JStrn s).
Hypothesis HBl : forall z, P (JBlob z).
Hypothesis HA : forall l, Forall P l -> P (JArr l).
Hypothesis HO : forall kvs, Forall (fun kv => P (snd kv)) kvs -> P (JObj kvs).
Fixpoint json_ind' (j : json) : P j :=
  match j with
  | JUndefined => HU | JNull => HN | JBool b => HB b | JDouble z => HD z
  | JI64 z => HI z | JU64 z => HU64 z | JStr s => HS s | JStrn s => HSn s | JBlob z => HBl z
  | JArr l => HA l ((fix go l := match l return Forall P l with
                                 | [] => Forall_nil _
                                 | x :: r => Forall_cons _ (json_ind' x) (go r) end) l)
  | JObj l => HO l ((fix go l := match l return Forall (fun kv => P (snd kv)) l with
                                 | [] => Forall_nil _
                                 | x :: r => Forall_cons _ (json_ind' (snd x)) (go r) end) l)
  end.
End Ind.
