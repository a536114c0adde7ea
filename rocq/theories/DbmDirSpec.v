(** What mkdir -p is meant to do (sqlite3/cee_dbm.c:18-23). *)
From Coq Require Import ZArith List Bool.
From Verif Require Import Base Json DbmDirModel.
Import ListNotations.
Open Scope Z_scope.

(** From left to right: a directory that is not there is made.  [None]: there is a file in the
    way.  [.] is the directory itself and [..] the one above it. *)
Fixpoint made (fs : fsys) (cur : list text) (ns : list text) : option (fsys * list text) :=
  match ns with
  | [] => Some (fs, cur)
  | n :: ns =>
    if list_eq_dec Z.eq_dec n [46] then made fs cur ns
    else if list_eq_dec Z.eq_dec n [46; 46] then made fs (removelast cur) ns
    else
      match entry fs (cur ++ [n]) with
      | Some Dir => made fs (cur ++ [n]) ns
      | Some File => None
      | None => made (fs ++ [(cur ++ [n], Dir)]) (cur ++ [n]) ns
      end
  end.
(** What is there is in directories. *)
Definition tree (fs : fsys) : Prop := forall p n k, entry fs (p ++ [n]) = Some k -> entry fs p = Some Dir.
Definition ordinary (n : text) : Prop := n <> [46] /\ n <> [46; 46].
(** The path begins with directories that are there, and goes on with ordinary names; no file is
    in the way.  [fs'] has the directory [p] and those on the way. *)
Definition makes (fs : fsys) (cur : list text) (ms : list text) (fs' : fsys) (p : list text) : Prop :=
  exists pre ns d, ms = pre ++ ns /\ made fs cur pre = Some (fs, d) /\ Forall ordinary ns /\ made fs cur ms = Some (fs', p).
