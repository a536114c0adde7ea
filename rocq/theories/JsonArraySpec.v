(** JSON arrays as sequences (C61). *)
From Coq Require Import ZArith List Bool.
From Verif Require Import Base Json JsonHeapModel JsonHeapSpec JsonArrayModel.
Import ListNotations.
Open Scope Z_scope.

(** An element is an existing value, or a new one (JsonHeapSpec.field). *)
Inductive elem_op : Type :=
| EAppend (v : nat) | EBool (b : bool) | EStr (s : text) | EStrf (s : text)
| EConcat (src : nat)
| EInsert (i : Z) (v : nat)
| ERemove (i : Z)
| EGet (i : Z)
| ELength.
Inductive elem_res (A : Type) : Type := EDone | EGot (v : option A) | ELen (n : Z).
Arguments EDone {A}. Arguments EGot {A} v. Arguments ELen {A} n.

Definition at_index {A} (l : list A) (i : Z) : option A := if i <? 0 then None else nth_error l (Z.to_nat i).
(** [h0]: the memory at the start, for the elements of other arrays *)
Definition elems_step (h0 : heap) (l : list field) (op : elem_op) : list field * elem_res field :=
  match op with
  | EAppend v => (l ++ [FieldAt v], EDone)
  | EBool b => (l ++ [FieldIs (JBool b)], EDone)
  | EStr s => (l ++ [FieldIs (JStr s)], EDone)
  | EStrf s => (l ++ [FieldIs (JStr s)], EDone)
  | EConcat src => (l ++ map FieldAt (kids h0 src), EDone)
  | EInsert i v => (firstn (Z.to_nat i) l ++ FieldAt v :: skipn (Z.to_nat i) l, EDone)
  | ERemove i => (match at_index l i with Some _ => firstn (Z.to_nat i) l ++ skipn (S (Z.to_nat i)) l | None => l end, EDone)
  | EGet i => (l, EGot (at_index l i))
  | ELength => (l, ELen (Z.of_nat (length l)))
  end.
Fixpoint elems_run (h0 : heap) (l : list field) (ops : list elem_op) : list field * list (elem_res field) :=
  match ops with
  | [] => (l, [])
  | op :: ops =>
    let (l, r) := elems_step h0 l op in
    let (l, rs) := elems_run h0 l ops in (l, r :: rs)
  end.

(** The same calls on the array at [j] *)
Section Run.
Variable mk_str : text -> outcome text.
Variable fuel : nat.
Definition array_step (j : nat) (h : heap) (op : elem_op) : outcome (heap * elem_res nat) :=
  let done o := bind o (fun h => Ok (h, EDone)) in
  match op with
  | EAppend v => done (array_append h j (Some v))
  | EBool b => done (array_append_bool h j b)
  | EStr s => done (array_append_str mk_str h j s)
  | EStrf s => done (array_append_strf (mk_str s) h j)
  | EConcat src => done (array_concat fuel h j src)
  | EInsert i v => done (array_insert h j i (Some v))
  | ERemove i => done (array_remove h j i)
  | EGet i => bind (array_get h (Some j) i) (fun r => Ok (h, EGot r))
  | ELength => bind (array_length h (Some j)) (fun n => Ok (h, ELen n))
  end.
Fixpoint array_run (j : nat) (h : heap) (ops : list elem_op) : outcome (heap * list (elem_res nat)) :=
  match ops with
  | [] => Ok (h, [])
  | op :: ops =>
    bind (array_step j h op) (fun '(h, r) =>
    bind (array_run j h ops) (fun '(h, rs) => Ok (h, r :: rs)))
  end.
End Run.

Definition same_elem (h : heap) (r : elem_res nat) (s : elem_res field) : Prop :=
  match r, s with
  | EDone, EDone => True
  | EGot (Some a), EGot (Some f) => field_shows h f a
  | EGot None, EGot None => True
  | ELen n, ELen n' => n = n'
  | _, _ => False
  end.

(** How many elements an operation can add, and which are meant: only values that exist are
    stored, another array is appended, and what is inserted has a place. *)
Definition adds (h0 : heap) (op : elem_op) : nat :=
  match op with
  | EAppend _ | EBool _ | EStr _ | EStrf _ | EInsert _ _ => 1
  | EConcat src => length (kids h0 src)
  | _ => 0
  end.
Definition ok_elem (h0 : heap) (j : nat) (n : nat) (op : elem_op) : Prop :=
  match op with
  | EAppend v => (v < length h0)%nat
  | EConcat src => src <> j /\ exists js, holds h0 (JArr js) src
  | EInsert i v => (v < length h0)%nat /\ 0 <= i <= Z.of_nat n
  | _ => True
  end.
Fixpoint all_ok (h0 : heap) (j : nat) (l : list field) (ops : list elem_op) : Prop :=
  match ops with
  | [] => True
  | op :: ops => ok_elem h0 j (length l) op /\ all_ok h0 j (fst (elems_step h0 l op)) ops
  end.
Definition all_added (h0 : heap) (ops : list elem_op) : nat := list_sum (map (adds h0) ops).
(** The value of an element, when [val] gives those of the existing ones *)
Definition value_of (val : nat -> json) (f : field) : json := match f with FieldAt a => val a | FieldIs j => j end.
(** The existing values that the operations store *)
Definition stored (h0 : heap) (op : elem_op) : list nat :=
  match op with EAppend v | EInsert _ v => [v] | EConcat src => kids h0 src | _ => [] end.
