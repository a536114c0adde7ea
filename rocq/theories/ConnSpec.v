(** How statements read that attach and detach databases, and pragmas. *)
From Coq Require Import String Ascii ZArith List Bool.
From Verif Require Import Base Json.
Import ListNotations.
Open Scope Z_scope.

Inductive stmt : Type := Attach (file name : text) | Detach (name : text) | Pragma (name : text).

Definition chars (s : string) : text := map (fun c => Z.of_nat (nat_of_ascii c)) (list_ascii_of_string s).
(** The rest of [t] after the word [w] *)
Fixpoint after (w t : text) : option text :=
  match w, t with
  | [], t => Some t
  | c :: w, d :: t => if Z.eq_dec c d then after w t else None
  | _, [] => None
  end.
(** A quoted text, behind the first quote: it ends at a single quote; two of them are
    one. *)
Fixpoint quoted (q : Z) (t : text) : option (text * text) :=
  match t with
  | [] => None
  | c :: t =>
    if Z.eq_dec c q then
      match t with
      | d :: t' => if Z.eq_dec d q then match quoted q t' with Some (s, r) => Some (q :: s, r) | None => None end else Some ([], t)
      | [] => Some ([], [])
      end
    else match quoted q t with Some (s, r) => Some (c :: s, r) | None => None end
  end.
(** Names without quotes: letters, digits and underscores *)
Definition name_char (c : Z) : bool :=
  ((65 <=? c) && (c <=? 90)) || ((97 <=? c) && (c <=? 122)) || ((48 <=? c) && (c <=? 57)) || (c =? 95).
Fixpoint word (t : text) : text * text :=
  match t with
  | c :: t' => if name_char c then let (w, r) := word t' in (c :: w, r) else ([], t)
  | [] => ([], [])
  end.
(** The end of a statement: a semicolon, or the end of the text *)
Definition at_end (t : text) : bool := match t with [] => true | [c] => c =? 59 | _ => false end.

Definition read_attach (t : text) : option stmt :=
  match after (chars "attach database """) t with
  | Some t =>
    match quoted 34 t with
    | Some (file, t) =>
      match after (chars " as ") t with
      | Some t => let (n, t) := word t in match n with [] => None | _ => if at_end t then Some (Attach file n) else None end
      | None => None
      end
    | None => None
    end
  | None => None
  end.
Definition read_detach (t : text) : option stmt :=
  match after (chars "detach database '") t with
  | Some t => match quoted 39 t with Some (n, t) => if at_end t then Some (Detach n) else None | None => None end
  | None => None
  end.
Definition read_pragma (t : text) : option stmt :=
  match after (chars "PRAGMA ") t with
  | Some t => let (n, t) := word t in match n with [] => None | _ => if at_end t then Some (Pragma n) else None end
  | None => None
  end.
Definition reads (t : text) : option stmt :=
  match read_attach t with
  | Some s => Some s
  | None => match read_detach t with Some s => Some s | None => read_pragma t end
  end.

(** A name that can be written without quotes *)
Definition plain_name (n : text) : Prop := n <> [] /\ Forall (fun c => name_char c = true) n.
(** A text without NUL that has no [q] *)
Definition without (q : Z) (t : text) : Prop := Forall (fun c => c <> 0 /\ c <> q) t.
