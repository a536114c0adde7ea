(** What selecting under a name is meant to give (sqlite3/cee-sqlite3.h:175-210). *)
From Coq Require Import ZArith List Bool.
From Verif Require Import Base Json JsonHeapModel JsonHeapSpec.
Import ListNotations.
Open Scope Z_scope.

(** The members of the status when the rows were put under the name [key]: a new
    member, or the rows behind what is there.  A text counts as a list of one;
    [None]: other values are not extended. *)
Definition gathered (kjs : list (text * json)) (key : text) (rows : list json) : option (list (text * json)) :=
  match lookup key kjs with
  | None => Some (kjs ++ [(key, JArr rows)])
  | Some (JArr old) => Some (replaced key (JArr (old ++ rows)) kjs)
  | Some (JStr s) => Some (replaced key (JArr (JStr s :: rows)) kjs)
  | Some _ => None
  end.

(** The members when one row was put under [key]: a new member, or the row merged
    into what is there if that can be done. *)
Definition row_under (kjs : list (text * json)) (key : text) (row : json) (kjs' : list (text * json)) : Prop :=
  match lookup key kjs with
  | None => kjs' = kjs ++ [(key, row)]
  | Some old => exists z, kjs' = replaced key z kjs /\ (if mergeable old row then merged old row z else z = old)
  end.
