(** What programs with hash tables should see: association lists. *)
From Coq Require Import ZArith List Bool.
From Verif Require Import Base HsearchModel HtableModel.
Import ListNotations.
Open Scope Z_scope.

Section Spec.
Variable V : Type.

(** A table: which one it is, of all that were created, the size asked for, the
    entries, oldest first, and how often it may have been moved *)
Record ideal : Type := Ideal { i_id : nat; i_nel : Z; i_list : list (list Z * option V); i_moved : nat }.
(** A pointer to an entry: the table, which one it is, how often it was moved then, and
    the key *)
Record pointer : Type := Pointer { p_tab : nat; p_id : nat; p_moved : nat; p_key : list Z }.
Record istate : Type := IState { s_tabs : nat -> option ideal; s_made : nat; s_ptrs : list (option pointer) }.

Definition entry_of (key : list Z) (l : list (list Z * option V)) : option (list Z * option V) :=
  find (fun e => if list_eq_dec Z.eq_dec (fst e) key then true else false) l.
(** A table has room for six entries, and for three quarters of the size asked for. *)
Definition room (nel : Z) : Z := Z.max 6 (3 * nel / 4).
Definition with_tab (f : nat -> option ideal) (i : nat) (t : option ideal) : nat -> option ideal :=
  fun j => if Nat.eq_dec j i then t else f j.
Definition change (key : list Z) (v : option V) (l : list (list Z * option V)) : list (list Z * option V) :=
  map (fun e => if list_eq_dec Z.eq_dec (fst e) key then (key, v) else e) l.

(** The entry a pointer points to: it must belong to a table that is there and was not
    moved since. *)
Definition points_to (s : istate) (p : pointer) : option (ideal * (list Z * option V)) :=
  match s_tabs s (p_tab p) with
  | Some t =>
    if Nat.eq_dec (i_id t) (p_id p) then if Nat.eq_dec (i_moved t) (p_moved p) then
      match entry_of (p_key p) (i_list t) with Some e => Some (t, e) | None => None end
    else None else None
  | None => None
  end.

(** One operation.  [None]: the program must not do this. *)
Definition istep (s : istate) (o : hop V) : option (istate * hres V) :=
  match o with
  | OCreate i nel =>
    match s_tabs s i with
    | Some _ => None
    | None =>
      if (0 <=? nel) && (nel <=? 2 ^ 63)
      then Some (IState (with_tab (s_tabs s) i (Some (Ideal (s_made s) nel [] 0))) (S (s_made s)) (s_ptrs s), RCode 1)
      else None
    end
  | ODestroy i => Some (IState (with_tab (s_tabs s) i None) (s_made s) (s_ptrs s), RDone)
  | OEnter i key v =>
    match s_tabs s i with
    | None => None
    | Some t =>
      match entry_of key (i_list t) with
      | Some e => Some (IState (s_tabs s) (s_made s) (s_ptrs s ++ [Some (Pointer i (i_id t) (i_moved t) key)]), REntry (Some e))
      | None =>
        let moved := if Z.of_nat (length (i_list t)) <? room (i_nel t) then i_moved t else S (i_moved t) in
        Some (IState (with_tab (s_tabs s) i (Some (Ideal (i_id t) (i_nel t) (i_list t ++ [(key, v)]) moved))) (s_made s)
                (s_ptrs s ++ [Some (Pointer i (i_id t) moved key)]), REntry (Some (key, v)))
      end
    end
  | OFind i key =>
    match s_tabs s i with
    | None => None
    | Some t =>
      let e := entry_of key (i_list t) in
      Some (IState (s_tabs s) (s_made s)
              (s_ptrs s ++ [match e with Some _ => Some (Pointer i (i_id t) (i_moved t) key) | None => None end]), REntry e)
    end
  | OGet r =>
    match nth_error (s_ptrs s) r with
    | Some (Some p) => match points_to s p with Some (_, e) => Some (s, REntry (Some e)) | None => None end
    | _ => None
    end
  | OPut r v =>
    match nth_error (s_ptrs s) r with
    | Some (Some p) =>
      match points_to s p with
      | Some (t, _) =>
        Some (IState (with_tab (s_tabs s) (p_tab p) (Some (Ideal (i_id t) (i_nel t) (change (p_key p) v (i_list t)) (i_moved t)))) (s_made s) (s_ptrs s), RDone)
      | None => None
      end
    | _ => None
    end
  end.
Fixpoint iplay (s : istate) (ops : list (hop V)) : option (istate * list (hres V)) :=
  match ops with
  | [] => Some (s, [])
  | o :: ops =>
    match istep s o with
    | Some (s, r) => match iplay s ops with Some (s, rs) => Some (s, r :: rs) | None => None end
    | None => None
    end
  end.
Definition nothing : istate := IState (fun _ => None) 0 [].
End Spec.

Arguments IState {V} _ _ _.
Arguments Ideal {V} _ _ _ _.
Arguments s_tabs {V} _ _.
Arguments s_made {V} _.
Arguments s_ptrs {V} _.
Arguments i_id {V} _.
Arguments i_nel {V} _.
Arguments i_list {V} _.
Arguments i_moved {V} _.
