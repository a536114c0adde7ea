(** What the texts of the settings are meant to be (sqlite3/cee_dbm.h). *)
From Coq Require Import String Ascii ZArith List Bool.
From Verif Require Import Base Numeral Json.
Import ListNotations.
Open Scope Z_scope.

(** * A list of names and values, as text *)
Definition code (s : string) : text := map (fun c => Z.of_N (N_of_ascii c)) (list_ascii_of_string s).
Definition item (nv : string * text) : text := code (fst nv) ++ 58 :: snd nv.
(** With a comma and a blank behind each, and with them in between *)
Definition ended (l : list (string * text)) : text := flat_map (fun nv => item nv ++ [44; 32]) l.
Fixpoint joined (l : list (string * text)) : text :=
  match l with
  | [] => []
  | [nv] => item nv
  | nv :: l => item nv ++ 44 :: 32 :: joined l
  end.
Definition yes_no (b : bool) : text := code (if b then "true" else "false").

(** The text is in the buffer, cut so that there is place for the NUL.  The rest of the buffer
    is as before.  A buffer without any place stays as it is. *)
Definition in_buffer (before after : list (option Z)) (t : text) : Prop :=
  match before with
  | [] => after = []
  | _ :: _ => let s := firstn (length before - 1) t in after = map Some s ++ Some 0 :: skipn (length s + 1) before
  end.

(** * Paths *)
(** A C string in an array *)
Definition string_in (a : list (option Z)) (t : text) : Prop :=
  Forall (fun c => c <> 0) t /\ exists rest, a = map Some t ++ Some 0 :: rest.
(** $HOME at the start of a path is the home directory. *)
Definition expands (home p p' : text) : Prop :=
  (exists rest, p = code "$HOME" ++ rest /\ p' = home ++ rest) \/ ((forall rest, p <> code "$HOME" ++ rest) /\ p' = p).
Definition occurs (sub t : text) : Prop := exists a b, t = a ++ sub ++ b.
(** What a path becomes when the first five bytes, whatever they are, are taken for
    $HOME as soon as $HOME is anywhere in the path *)
Definition becomes (home p p' : text) : Prop :=
  (occurs (code "$HOME") p /\ exists start rest, p = start ++ rest /\ length start = 5%nat /\ p' = home ++ rest) \/
  (~ occurs (code "$HOME") p /\ p' = p).
