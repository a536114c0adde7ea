(** The status after an operation on an object, with complaints. *)
From Coq Require Import String ZArith List Bool.
From Verif Require Import Base Json JsonHeapModel JsonHeapSpec SqlSpec SqlGenericSpec SqlUseSpec.
Import ListNotations.
Open Scope Z_scope.

(** The complaints are there under error, if there are any. *)
Definition with_report (h h' : heap) (s : option (option nat)) (d : json) (es : list text) : Prop :=
  match s with
  | Some (Some r) => exists kas kas' x, object_fields h r kas /\ object_fields h' r kas' /\
      lookup (said "debug") kas' = Some x /\ holds h' d x /\
      match es with
      | [] => lookup (said "error") kas' = lookup (said "error") kas
      | _ => exists y, lookup (said "error") kas' = Some y /\ holds h' (JArr (map JStr es)) y
      end /\
      forall k, k <> said "debug" -> k <> said "error" -> lookup k kas' = lookup k kas
  | _ => True
  end.
