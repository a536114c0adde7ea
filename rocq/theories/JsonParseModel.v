(** Model of cee_json_parsex (cee-json/parser.c). *)
From Coq Require Import ZArith List Bool.
From Verif Require Import Base Json JsonTokModel.
Import ListNotations.
Open Scope Z_scope.
Open Scope outcome_scope.

(** cee-json/parser.c:13-24 [enum state_type] *)
Inductive pstate : Type :=
| VALUE          (* st_object_or_array_or_value_expected, st_init *)
| OKEY           (* st_object_key_or_close_expected *)
| OCOLON         (* st_object_colon_expected *)
| OVALUE         (* st_object_value_expected *)
| OCOMMA         (* st_object_close_or_comma_expected *)
| AVALUE         (* st_array_value_or_close_expected *)
| ACOMMA         (* st_array_close_or_comma_expected *)
| ERROR | DONE.

(** cee-json/parser.c:27 *)
Definition max_depth : nat := 512.

(** An entry of the stack: the state to go back to and the array or object being
    filled ([None]: NULL, nothing yet).  In C a new array or object is put into
    its parent when it is opened, and filled afterwards; here it is put there
    when it is closed, under the key [f_key] kept for that (an object parent).
    The parent is not read or written in between. *)
Record frame : Type := Frame { f_ret : pstate; f_key : option text; f_val : option json }.

(** The local variables of cee_json_parsex; [m_result] is result->_[1]. *)
Record machine : Type := Machine {
  m_state : pstate; m_stack : list frame; m_key : option text;
  m_tok : tokenizer; m_result : option json
}.

(** cee_map_add(obj, key, v) and cee_list_append(ar, v) on the container of a
    frame (cee_json_to_object and cee_json_to_array of another kind are NULL) *)
Definition add_member (f : frame) (key : option text) (v : json) : outcome frame :=
  match key with
  | None => Ok f
  | Some k =>
    match f_val f with
    | Some (JObj kvs) => Ok (Frame (f_ret f) (f_key f) (Some (JObj (obj_put kvs k v))))
    | _ => Bad NullDeref
    end
  end.
Definition add_element (f : frame) (v : json) : outcome frame :=
  match f_val f with
  | Some (JArr l) => Ok (Frame (f_ret f) (f_key f) (Some (JArr (l ++ [v]))))
  | _ => Bad NullDeref
  end.

(** [state=TOPS; POP(sp)]: leave the top frame, putting its value into the frame
    below, if there is one *)
Definition pop (m : machine) (tok : tokenizer) (top : frame) (below : list frame) : outcome machine :=
  match below, f_val top with
  | [], v => Ok (Machine (f_ret top) [] (m_key m) tok v)
  | f :: fs, Some v =>
    let* f' := (match f_key top with Some k => add_member f (Some k) v | None => add_element f v end) in
    Ok (Machine (f_ret top) (f' :: fs) (m_key m) tok (Some v))
  | _ :: _, None => Bad NullDeref
  end.

(** The value of a token that is a complete value *)
Definition scalar (t : token) : option json :=
  match t with
  | TStr s => Some (JStr s)
  | TTrue => Some (JBool true) | TFalse => Some (JBool false) | TNull => Some JNull
  | TI64 z => Some (JI64 z) | TDouble d => Some (JDouble d)
  | _ => None
  end.
Definition is_punct (t : token) (c : Z) : bool := match t with TPunct x => x =? c | _ => false end.

(** cee-json/parser.c:66-243: what the token [c] does *)
Definition transition (m : machine) (c : token) (tok : tokenizer) : outcome machine :=
  match m_stack m with
  | [] => Bad NullDeref
  | top :: below =>
    let goto s := Ok (Machine s (m_stack m) (m_key m) tok None) in
    let error := goto ERROR in
    match m_state m with
    | VALUE =>
      if is_punct c 91 then Ok (Machine AVALUE (Frame (f_ret top) (f_key top) (Some (JArr [])) :: below) (m_key m) tok None)
      else if is_punct c 123 then Ok (Machine OKEY (Frame (f_ret top) (f_key top) (Some (JObj [])) :: below) (m_key m) tok None)
      else match scalar c with
           | Some v => pop m tok (Frame (f_ret top) (f_key top) (Some v)) below
           | None => error
           end
    | OKEY =>
      if is_punct c 125 then pop m tok top below
      else match c with
           | TStr s => Ok (Machine OCOLON (m_stack m) (Some s) tok None)
           | _ => error
           end
    | OCOLON => if is_punct c 58 then goto OVALUE else error
    | OVALUE =>
      match scalar c with
      | Some v => let* f := add_member top (m_key m) v in Ok (Machine OCOMMA (f :: below) (m_key m) tok None)
      | None =>
        if is_punct c 91 then Ok (Machine AVALUE (Frame OCOMMA (m_key m) (Some (JArr [])) :: m_stack m) (m_key m) tok None)
        else if is_punct c 123 then Ok (Machine OKEY (Frame OCOMMA (m_key m) (Some (JObj [])) :: m_stack m) (m_key m) tok None)
        else error
      end
    | OCOMMA =>
      if is_punct c 44 then goto OKEY
      else if is_punct c 125 then pop m tok top below
      else error
    | AVALUE =>
      if is_punct c 93 then pop m tok top below
      else
        match scalar c with
        | Some v => let* f := add_element top v in Ok (Machine ACOMMA (f :: below) (m_key m) tok None)
        | None =>
          if is_punct c 91 then Ok (Machine AVALUE (Frame ACOMMA None (Some (JArr [])) :: m_stack m) (m_key m) tok None)
          else if is_punct c 123 then Ok (Machine OKEY (Frame ACOMMA None (Some (JObj [])) :: m_stack m) (m_key m) tok None)
          else error
        end
    | ACOMMA =>
      if is_punct c 93 then pop m tok top below
      else if is_punct c 44 then goto AVALUE
      else error
    | ERROR | DONE => goto (m_state m)
    end
  end.

Section Parse.
Variable strtod : text -> Z.

(** cee-json/parser.c:55-244, one iteration *)
Definition step (m : machine) : outcome machine :=
  let* (c, tok) := next_token strtod (m_tok m) in transition m c tok.

(** cee-json/parser.c:53-54, the loop condition *)
Definition running (m : machine) : bool :=
  match m_stack m with
  | [] => false
  | _ => negb (length (m_stack m) =? max_depth)%nat &&
         match m_state m with ERROR | DONE => false | _ => true end
  end.

(** cee-json/parser.c:53-245, the loop *)
Fixpoint run (fuel : nat) (m : machine) : outcome machine :=
  if running m then
    match fuel with
    | O => Bad OutOfFuel
    | S f => let* m' := step m in run f m'
    end
  else Ok m.

(** What cee_json_parsex reports: a value, or an error and its line
    (cee-json/parser.c:246-260) *)
Inductive parsed : Type := POk (v : json) | PErr (line : Z).

(** cee-json/parser.c:32-261 [cee_json_parsex]: [buf] is the block, of which the
    first [len] bytes are to be parsed *)
Definition parsex (fuel : nat) (buf : text) (len : Z) (force_eof : bool) : outcome parsed :=
  let* m := run fuel (Machine VALUE [Frame DONE None None] None (Tok 0 buf len) None) in
  match m_state m with
  | DONE =>
    let* r := of_option NullDeref (m_result m) in
    if force_eof then
      let* (c, tok) := next_token strtod (m_tok m) in
      match c with
      | TEof => Ok (POk r)
      | _ => Ok (PErr (t_line tok))
      end
    else Ok (POk r)
  | _ => Ok (PErr (t_line (m_tok m)))
  end.
End Parse.
