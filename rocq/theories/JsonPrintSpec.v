(** The text of a JSON value, compact and readable, independent of the model of
    the printer. *)
From Coq Require Import ZArith List Bool.
From Verif Require Import Base Numeral BoxedModel Utf8Proofs Json JsonSpec.
Import ListNotations.
Open Scope Z_scope.

(** * Predicates on all values nested in a value *)
Fixpoint everywhere (P : json -> Prop) (j : json) : Prop :=
  P j /\
  match j with
  | JArr l => fold_right (fun x Q => everywhere P x /\ Q) True l
  | JObj kvs => fold_right (fun kv Q => everywhere P (snd kv) /\ Q) True kvs
  | _ => True
  end.
(** The number of steps from the value down to the deepest value in it *)
Fixpoint height (j : json) : nat :=
  match j with
  | JArr l => list_max (map (fun x => S (height x)) l)
  | JObj kvs => list_max (map (fun kv => S (height (snd kv))) kvs)
  | _ => 0%nat
  end.

(** * Strings *)
Definition hex_char (d : Z) : Z := nth (Z.to_nat d) [48; 49; 50; 51; 52; 53; 54; 55; 56; 57; 97; 98; 99; 100; 101; 102] 0.
Definition escaped (c : Z) : text :=
  if c =? 34 then [92; 34] else if c =? 92 then [92; 92]
  else if c =? 8 then [92; 98] else if c =? 9 then [92; 116] else if c =? 10 then [92; 110]
  else if c =? 12 then [92; 102] else if c =? 13 then [92; 114]
  else if c <? 32 then [92; 117; 48; 48; hex_char (c / 16); hex_char (c mod 16)]
  else [c].
Definition quote (s : text) : text := [34] ++ flat_map escaped s ++ [34].

(** * Values *)
Section Text.
Variable fmt_g : prim -> Z -> text.
(** [pretty]: each value on its own line, indented by [t] tabs *)
Variable pretty : bool.

Definition if_pretty (w : text) : text := if pretty then w else [].
Definition indent (t : nat) : text := if_pretty (repeat 9 t).
Definition opening (c : Z) : text := [c] ++ if_pretty [10].
Definition closing (t : nat) (c : Z) : text := if_pretty [10] ++ indent t ++ [c] ++ if_pretty [10].
Definition colon : text := if_pretty [32] ++ [58] ++ if_pretty [9].
Definition comma : text := [44] ++ if_pretty [10].
Fixpoint separated (ws : list text) : text :=
  match ws with
  | [] => []
  | [w] => w
  | w :: r => w ++ comma ++ separated r
  end.

Fixpoint text_of (t : nat) (j : json) : text :=
  match j with
  | JUndefined => indent t ++ [117; 110; 100; 101; 102; 105; 110; 101; 100]
  | JNull => indent t ++ [110; 117; 108; 108]
  | JBool true => indent t ++ [116; 114; 117; 101]
  | JBool false => indent t ++ [102; 97; 108; 115; 101]
  | JDouble d => indent t ++ fmt_g F64 d
  | JI64 z | JU64 z => indent t ++ decimal_of z
  | JStr s => indent t ++ quote (before_nul s)
  | JStrn s => indent t ++ quote s
  | JBlob n => indent t ++ quote ([98; 108; 111; 98; 58] ++ decimal_of n ++ [32; 98; 121; 116; 101; 115])
  | JArr l => opening 91 ++ separated (map (text_of (S t)) l) ++ closing t 93
  | JObj kvs =>
    opening 123 ++
    separated (map (fun kv => indent t ++ quote (before_nul (fst kv)) ++ colon ++ text_of (S t) (snd kv)) kvs) ++
    closing t 125
  end.

(** What the printer can be expected to print: numbers in the range of their
    types, no blobs, strings of less than 4 GiB, distinct keys *)
Definition ordinary (j : json) : Prop :=
  match j with
  | JDouble d => 0 <= d < 2 ^ 64 /\ fmt_g F64 d <> []
  | JI64 z => - 2 ^ 63 <= z < 2 ^ 63
  | JU64 z => 0 <= z < 2 ^ 64
  | JStr s | JStrn s => Forall byte s /\ Z.of_nat (length s) < 2 ^ 32
  | JBlob _ => False
  | JObj kvs => NoDup (map fst kvs) /\ Forall (fun kv => Forall byte (fst kv) /\ Z.of_nat (length (fst kv)) < 2 ^ 32) kvs
  | _ => True
  end.
(** Less: doubles print as something, there are no blobs, and keys are distinct *)
Definition printable (j : json) : Prop :=
  match j with
  | JDouble d => 0 <= d < 2 ^ 64 /\ fmt_g F64 d <> []
  | JBlob _ => False
  | JObj kvs => NoDup (map fst kvs)
  | _ => True
  end.
End Text.

(** Each double replaced by what its text denotes *)
Fixpoint with_doubles (dv : Z -> json) (j : json) : json :=
  match j with
  | JDouble d => dv d
  | JArr l => JArr (map (with_doubles dv) l)
  | JObj kvs => JObj (map (fun kv => (fst kv, with_doubles dv (snd kv))) kvs)
  | _ => j
  end.
