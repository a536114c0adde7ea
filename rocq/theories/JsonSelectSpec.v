(** What a selector means: a path into a JSON value (cee-json/value.c:715-746). *)
From Coq Require Import ZArith List Bool.
From Verif Require Import Base Json JsonHeapSpec JsonSelectModel Numeral NumeralProofs.
Import ListNotations.
Open Scope Z_scope.

(** The types that a path can ask for, and their letters *)
Inductive kind : Type := KString | KNumber | KArray | KObject | KBoolean | KNull.
Definition letter (k : kind) : Z :=
  match k with KString => 115 | KNumber => 110 | KArray => 97 | KObject => 111 | KBoolean => 98 | KNull => 33 end.
(** As documented *)
Definition is_kind (k : kind) (j : json) : bool :=
  match k, j with
  | KString, (JStr _ | JStrn _) | KNumber, (JDouble _ | JI64 _ | JU64 _)
  | KArray, JArr _ | KObject, JObj _ | KBoolean, JBool _ | KNull, JNull => true
  | _, _ => false
  end.
(** Only one of the representations of strings and numbers *)
Definition is_kind_strict (k : kind) (j : json) : bool :=
  match k, j with
  | KString, JStr _ | KNumber, JI64 _
  | KArray, JArr _ | KObject, JObj _ | KBoolean, JBool _ | KNull, JNull => true
  | _, _ => false
  end.

(** A name is given in pieces, each in the selector or as an argument for a [*];
    an index is a numeral in the selector or an argument. *)
Inductive piece : Type := Lit (t : text) | Star (t : text).
Definition piece_text (p : piece) : text := match p with Lit t | Star t => t end.
Inductive step : Type :=
| SKey (name : list piece)
| SIdx (digits : text) | SIdxArg (i : Z)
| SType (k : kind).
Definition name_of (ps : list piece) : text := flat_map piece_text ps.

(** * The selector and the arguments *)
Definition show_step (s : step) : text :=
  match s with
  | SKey ps => 46 :: flat_map (fun p => match p with Lit t => t | Star _ => [42] end) ps
  | SIdx ds => 91 :: ds ++ [93]
  | SIdxArg _ => [91; 42; 93]
  | SType k => [58; letter k]
  end.
Definition show (steps : list step) : text := flat_map show_step steps.
Definition step_args (s : step) : list va_arg :=
  match s with
  | SKey ps => flat_map (fun p => match p with Lit _ => [] | Star t => [AStr t] end) ps
  | SIdxArg i => [AInt i]
  | _ => []
  end.
Definition args_of (steps : list step) : list va_arg := flat_map step_args steps.

(** * Its value *)
Section Follow.
Variable has_kind : kind -> json -> bool.
Fixpoint follow (j : json) (steps : list step) : option json :=
  match steps with
  | [] => Some j
  | s :: r =>
    match (match s, j with
           | SKey ps, JObj kvs => lookup (name_of ps) kvs
           | SIdx ds, JArr l => nth_error l (Z.to_nat (digits_value ds))
           | SIdxArg i, JArr l => if i <? 0 then None else nth_error l (Z.to_nat i)
           | SType k, _ => if has_kind k j then Some j else None
           | _, _ => None
           end) with
    | Some v => follow v r
    | None => None
    end
  end.
End Follow.

(** * Well formed paths *)
Definition plain (c : Z) : Prop := 0 < c < 256 /\ ~ In c [46; 91; 93; 58; 42].
Definition digit (c : Z) : Prop := 48 <= c <= 57.
Definition step_fits (s : step) : Prop :=
  match s with
  | SKey ps => name_of ps <> [] /\ (length (name_of ps) <= 256)%nat /\
      Forall (fun p => match p with Lit t => Forall plain t | Star t => Forall (fun c => 0 < c < 256) t end) ps
  | SIdx ds => ds <> [] /\ Forall digit ds /\ (length ds <= 256)%nat /\ digits_value ds < 2 ^ 31
  | SIdxArg i => - 2 ^ 31 <= i < 2 ^ 31
  | SType _ => True
  end.
(** The names are in the selector. *)
Definition no_star_name (s : step) : Prop :=
  match s with SKey ps => Forall (fun p => match p with Lit _ => True | Star _ => False end) ps | _ => True end.

(** [part j v]: [v] is [j] or nested in it. *)
Inductive part (v : json) : json -> Prop :=
| part_here : part v v
| part_obj kvs k x : In (k, x) kvs -> part v x -> part v (JObj kvs)
| part_arr l x : In x l -> part v x -> part v (JArr l).
