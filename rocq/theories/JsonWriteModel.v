(** Programs that edit JSON values (JsonEditModel) and print them or parts of
    them (JsonPrintMemModel). *)
From Coq Require Import ZArith List Bool.
From Verif Require Import Base BoxedModel Json HeapModel JsonMemModel JsonPrintModel JsonPrintMemModel JsonEditModel.
Import ListNotations.
Open Scope outcome_scope.

(** [WPrint i p f]: cee_json_asprint (cee-json/snprint.c:354-363) of the part at
    [p] of value [i] in the format [f]; the program copies the text and deletes the
    block with cee_del (cee-common.c:24-29). *)
Inductive write : Type := WEdit (o : edit) | WPrint (i : nat) (p : list step) (f : fmt).

Section Program.
Variable strtod : text -> Z.
Variable fmt_g : prim -> Z -> text.
Variables (st : addr) (ss : statics) (place : heap -> addr -> nat) (deep : nat).
Variable mk_str : text -> outcome text.
(** the fuel of the printer, and what new blocks contain *)
Variable fuel : nat.
Variable init : nat -> Z.

(** One call of the program, and all calls. *)
Definition wstep (s : heap * contents * list val * list text) (o : write) : outcome (heap * contents * list val * list text) :=
  let '(h, c, vs, ts) := s in
  match o with
  | WEdit o => let* (h, c, vs) := estep strtod st ss place deep mk_str (h, c, vs) o in Ok (h, c, vs, ts)
  | WPrint i p f =>
    let* j := of_option OutOfBounds (nth_error vs i) in
    let* j := walk h c j p in
    let* (h, b, (_, t)) := masprint fmt_g st ss deep fuel f init h c j in
    let* h := cee_del deep h b in
    Ok (h, c, vs, ts ++ [t])
  end.
Fixpoint wplay (ops : list write) (s : heap * contents * list val * list text) : outcome (heap * contents * list val * list text) :=
  match ops with
  | [] => Ok s
  | o :: r => let* s := wstep s o in wplay r s
  end.
End Program.
