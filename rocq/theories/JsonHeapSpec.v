(** What values in memory stand for, and what the operations on them are meant to
    do, in terms of JSON values. *)
From Coq Require Import ZArith List Bool Sorting.Permutation.
From Verif Require Import Base TsearchModel TsearchProofs MapModel MapProofs ListModel ListProofs Json JsonHeapModel.
Import ListNotations.
Open Scope Z_scope.

(** * Values in memory *)
Section All2.
Context {A B : Type}.
Variable R : A -> B -> Prop.
Fixpoint all2 (l : list A) (l' : list B) : Prop :=
  match l, l' with
  | [], [] => True
  | x :: l, y :: l' => R x y /\ all2 l l'
  | _, _ => False
  end.
End All2.
Section Zip.
Context {A B C : Type}.
Variable f : A -> B -> C.
Fixpoint zip (l : list A) (l' : list B) : list C :=
  match l, l' with
  | x :: l, y :: l' => f x y :: zip l l'
  | _, _ => []
  end.
End Zip.

(** The node of a value that is not an array or object *)
Definition leaf_node (j : json) : option node :=
  match j with
  | JUndefined => Some NUndefined | JNull => Some NNull | JBool b => Some (NBool b)
  | JDouble z => Some (NDouble z) | JI64 z => Some (NI64 z) | JU64 z => Some (NU64 z)
  | JStr s => Some (NStr s) | JStrn s => Some (NStrn s) | JBlob z => Some (NBlob z)
  | JArr _ | JObj _ => None
  end.

(** [holds h j a]: the value at address [a] is [j]: the list and the map are in
    the states that the operations of the library lead to (ListProofs.rep,
    MapProofs.mrep; properties C01 to C05), with the elements and, in insertion
    order, the members that [j] has.  Nodes may be shared. *)
Fixpoint holds (h : heap) (j : json) (a : nat) : Prop :=
  match j with
  | JArr js => exists l xs, nth_error h a = Some (NArr l) /\ rep l (map Some xs) /\ all2 (fun j x => holds h j x) js xs
  | JObj kjs => exists m kas, nth_error h a = Some (NObj m) /\
      mrep strcmp m (map (fun ka => (fst ka, Some (snd ka))) kas) /\
      all2 (fun kj ka => fst kj = fst ka /\ holds h (snd kj) (snd ka)) kjs kas
  | _ => exists n, leaf_node j = Some n /\ nth_error h a = Some n
  end.

(** The values that an array or object points to, in order *)
Definition kids (h : heap) (a : nat) : list nat :=
  match nth_error h a with
  | Some (NArr l) => flat_map (fun c => match c with Some (Some x) => [x] | _ => [] end) (firstn (Z.to_nat (l_size l)) (l_a l))
  | Some (NObj m) => flat_map (fun k => match map_find text nat strcmp (Some m) (Some k) with Ok (Some x) => [x] | _ => [] end) (m_keys m)
  | _ => []
  end.
(** The addresses of the arrays and objects in a value, once for each place that
    they appear in *)
Fixpoint containers (h : heap) (j : json) (a : nat) : list nat :=
  match j with
  | JArr js => a :: concat (zip (fun j x => containers h j x) js (kids h a))
  | JObj kjs => a :: concat (zip (fun kj x => containers h (snd kj) x) kjs (kids h a))
  | _ => []
  end.
Definition disjoint (l l' : list nat) : Prop := forall x, In x l -> In x l' -> False.

(** The number of values nested in a value, itself included *)
Fixpoint size (j : json) : nat :=
  match j with
  | JArr l => S (list_sum (map size l))
  | JObj kvs => S (list_sum (map (fun kv => size (snd kv)) kvs))
  | _ => 1%nat
  end.

(** * Operations on JSON values *)
Fixpoint lookup {A} (k : text) (l : list (text * A)) : option A :=
  match l with
  | [] => None
  | (k', v) :: r => if list_eq_dec Z.eq_dec k k' then Some v else lookup k r
  end.

(** [nested k v j]: some object in [j] has the member [k] : [v]. *)
Inductive nested (k : text) (v : json) : json -> Prop :=
| nested_here kvs : In (k, v) kvs -> nested k v (JObj kvs)
| nested_obj kvs k' x : In (k', x) kvs -> nested k v x -> nested k v (JObj kvs)
| nested_arr l x : In x l -> nested k v x -> nested k v (JArr l).

(** [merged d s r]: [r] is [d] with [s] merged into it.  Arrays are concatenated;
    an object has the members of [d], followed by those of [s] that [d] does not
    have, in some order.  A member that both have [becomes] what merging gives,
    or that of [s] if the two cannot be merged. *)
Definition mergeable (d s : json) : bool :=
  match d, s with JObj _, JObj _ | JArr _, JArr _ => true | _, _ => false end.
Inductive merged : json -> json -> json -> Prop :=
| merged_arr d s : merged (JArr d) (JArr s) (JArr (d ++ s))
| merged_obj d s r new :
    map fst r = map fst d ++ new ->
    (forall k, In k new <-> In k (map fst s) /\ ~ In k (map fst d)) -> NoDup new ->
    (forall k x, lookup k d = Some x -> lookup k s = None -> lookup k r = Some x) ->
    (forall k y, lookup k d = None -> lookup k s = Some y -> lookup k r = Some y) ->
    (forall k x y, lookup k d = Some x -> lookup k s = Some y -> exists z, lookup k r = Some z /\ becomes x y z) ->
    merged (JObj d) (JObj s) (JObj r)
with becomes : json -> json -> json -> Prop :=
| becomes_merged x y z : merged x y z -> becomes x y z
| becomes_new x y : mergeable x y = false -> becomes x y y.

(** Appending: arrays count as their elements, other values as one. *)
Definition items (j : json) : list json := match j with JArr l => l | _ => [j] end.

(** Distinct keys in all objects *)
Fixpoint distinct (j : json) : Prop :=
  match j with
  | JArr l => fold_right (fun x Q => distinct x /\ Q) True l
  | JObj kvs => NoDup (map fst kvs) /\ fold_right (fun kv Q => distinct (snd kv) /\ Q) True kvs
  | _ => True
  end.

(** * Histories of one object *)
(** A field is an existing value, or a new one that has the given content. *)
Inductive field : Type := FieldAt (a : nat) | FieldIs (j : json).
Definition field_shows (h : heap) (f : field) (a : nat) : Prop :=
  match f with FieldAt x => a = x | FieldIs j => holds h j a end.

Inductive field_op : Type :=
| FSet (k : text) (v : nat)
| FNull (k : text) | FBool (k : text) (b : bool) | FDouble (k : text) (z : Z) | FI64 (k : text) (z : Z) | FU64 (k : text) (z : Z)
| FStr (k s : text)
| FRemove (k : text)
| FRename (old new : text)
| FGet (k : text).
Inductive field_res (A : Type) : Type := RDone | RRenamed (b : bool) | RGot (v : option A).
Arguments RDone {A}. Arguments RRenamed {A} b. Arguments RGot {A} v.

(** The fields are a function from names. *)
Definition fields : Type := text -> option field.
Definition with_field (m : fields) (k : text) (f : option field) : fields :=
  fun k' => if list_eq_dec Z.eq_dec k' k then f else m k'.
Definition fields_step (m : fields) (op : field_op) : fields * field_res field :=
  match op with
  | FSet k v => (with_field m k (Some (FieldAt v)), RDone)
  | FNull k => (with_field m k (Some (FieldIs JNull)), RDone)
  | FBool k b => (with_field m k (Some (FieldIs (JBool b))), RDone)
  | FDouble k z => (with_field m k (Some (FieldIs (JDouble z))), RDone)
  | FI64 k z => (with_field m k (Some (FieldIs (JI64 z))), RDone)
  | FU64 k z => (with_field m k (Some (FieldIs (JU64 z))), RDone)
  | FStr k s => (with_field m k (Some (FieldIs (JStr s))), RDone)
  | FRemove k => (with_field m k None, RDone)
  | FRename old new =>
    match m old with
    | Some f => (with_field (with_field m old None) new (Some f), RRenamed true)
    | None => (m, RRenamed false)
    end
  | FGet k => (m, RGot (m k))
  end.
Fixpoint fields_run (m : fields) (ops : list field_op) : fields * list (field_res field) :=
  match ops with
  | [] => (m, [])
  | op :: ops =>
    let (m, r) := fields_step m op in
    let (m, rs) := fields_run m ops in (m, r :: rs)
  end.

(** The same calls on the object at [j] in memory *)
Section RunFields.
Variable mk_str : text -> outcome text.
Definition object_step (j : nat) (h : heap) (op : field_op) : outcome (heap * field_res nat) :=
  let done o := bind o (fun h => Ok (h, RDone)) in
  match op with
  | FSet k v => done (object_set mk_str h (Some j) k (Some v))
  | FNull k => done (object_set_new mk_str h (Some j) k NNull)
  | FBool k b => done (object_set_new mk_str h (Some j) k (NBool b))
  | FDouble k z => done (object_set_new mk_str h (Some j) k (NDouble z))
  | FI64 k z => done (object_set_new mk_str h (Some j) k (NI64 z))
  | FU64 k z => done (object_set_new mk_str h (Some j) k (NU64 z))
  | FStr k s => done (object_set_str mk_str h (Some j) k s)
  | FRemove k => done (object_remove h j (Some k))
  | FRename old new => bind (object_rename mk_str h j old new) (fun '(b, h) => Ok (h, RRenamed b))
  | FGet k => bind (object_get h (Some j) (Some k)) (fun r => Ok (h, RGot r))
  end.
Fixpoint object_run (j : nat) (h : heap) (ops : list field_op) : outcome (heap * list (field_res nat)) :=
  match ops with
  | [] => Ok (h, [])
  | op :: ops =>
    bind (object_step j h op) (fun '(h, r) =>
    bind (object_run j h ops) (fun '(h, rs) => Ok (h, r :: rs)))
  end.
End RunFields.

(** The results agree, with the values as they are in [h]. *)
Definition same_res (h : heap) (r : field_res nat) (s : field_res field) : Prop :=
  match r, s with
  | RDone, RDone => True
  | RRenamed b, RRenamed b' => b = b'
  | RGot (Some a), RGot (Some f) => field_shows h f a
  | RGot None, RGot None => True
  | _, _ => False
  end.
(** Only values that exist are stored. *)
Definition op_fits (h : heap) (op : field_op) : Prop :=
  match op with FSet _ v => (v < length h)%nat | _ => True end.

(** A member replaced by another value *)
Definition replaced (k : text) (v : json) (l : list (text * json)) : list (text * json) :=
  map (fun kx => if list_eq_dec Z.eq_dec k (fst kx) then (fst kx, v) else kx) l.
