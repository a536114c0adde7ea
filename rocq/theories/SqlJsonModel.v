(** Model of sqlite3/cee-sqlite3.c: binding data from JSON objects, and composing
    statements.

    Strings that cee_str_catf extends are texts here (StrModel.v has the buffers). *)
From Coq Require Import ZArith List Bool.
From Verif Require Import Base TsearchModel MapModel ListModel Json JsonHeapModel JsonSelectModel SqlModel.
Import ListNotations.
Open Scope Z_scope.
Open Scope outcome_scope.

(** A byte string in C: the text and the NUL *)
Definition with_nul (s : text) : text := s ++ [0].

(** sqlite3/cee-sqlite3.c:957: data that is zeroed (cee_block_mk, block.c:68-72) *)
Definition zero_data : bind_data := BindData 0 0 None 0 false false.

(** sqlite3/cee-sqlite3.c:650, :662, :674, :681: the column in quotes, then the
    complaint *)
Definition msg_quote (col rest : text) : text := [39] ++ col ++ [39; 32] ++ rest.
(** "should be int", "should be int64", "should be blob and is not supported yet" *)
Definition should_be_int : text := [115; 104; 111; 117; 108; 100; 32; 98; 101; 32; 105; 110; 116].
Definition should_be_int64 : text := should_be_int ++ [54; 52].
Definition should_be_blob : text :=
  [115; 104; 111; 117; 108; 100; 32; 98; 101; 32; 98; 108; 111; 98; 32; 97; 110; 100; 32; 105; 115; 32; 110; 111; 116; 32;
   115; 117; 112; 112; 111; 114; 116; 101; 100; 32; 121; 101; 116].

Section SqlJson.
(** cee_str_mk and cee_str_mkv: the text of the string made (JsonHeapModel.v) *)
Variable mk_str : text -> outcome text.

(** cee-json/value.c:563-577 [cee_json_array_append_strf], and :550-561: the text is
    what the format gives *)
Definition array_append_strf (h : heap) (arr : nat) (s : text) : outcome heap :=
  let* _ := array_at h (Some arr) in
  let* s := mk_str s in
  let (h, v) := alloc h (NStr s) in
  array_append h arr (Some v).
(** ... if there is an array *)
Definition note (h : heap) (arr : option nat) (s : text) : outcome heap :=
  match arr with Some a => array_append_strf h a s | None => Ok h end.

(** * From an object to data *)

(** sqlite3/cee-sqlite3.c:624-625: the first entry for a column *)
Fixpoint find_col (i : nat) (infos : list bind_info) (key : text) : option (nat * bind_info) :=
  match infos with
  | [] => None
  | info :: r => if strcmp key (i_col info) =? 0 then Some (i, info) else find_col (S i) r key
  end.
Definition data_get (data : option (list bind_data)) (i : nat) : outcome bind_data :=
  match data with None => Bad NullDeref | Some l => of_option OutOfBounds (nth_error l i) end.
Definition data_put (data : option (list bind_data)) (i : nat) (d : bind_data) : option (list bind_data) :=
  match data with None => None | Some l => Some (update l i d) end.

(** sqlite3/cee-sqlite3.c:617-692 [populate_usage]; the state is the memory and the
    data.  The text of a value that is not a string: NULL->_ is undefined. *)
Definition populate_usage (infos : list bind_info) (used unused errors : option nat)
  (s : heap * option (list bind_data)) (key : text) (value : option nat) : outcome ((heap * option (list bind_data)) * Z) :=
  let (h, data) := s in
  match find_col 0 infos key with
  | None => let* h := note h unused key in Ok ((h, data), 0)
  | Some (i, info) =>
    let col := i_col info in
    let* v := load h value in
    match v with
    | NNull =>
      if i_not_null info then Ok ((h, data), 0)
      else
        let* h := note h used col in
        let* d := data_get data i in
        Ok ((h, data_put data i (BindData (d_i d) (d_i64 d) (d_value d) (d_size d) true true)), 0)
    | _ =>
      match i_type info with
      | T_UNDEF => Bad Abort
      | T_INT =>
        match v with
        | NI64 z =>
          let* d := data_get data i in
          let* h := note h used col in
          Ok ((h, data_put data i (BindData (to_int32 z) (d_i64 d) (d_value d) (d_size d) true (d_is_null d))), 0)
        | _ => let* h := note h errors (msg_quote col should_be_int) in Ok ((h, data), 1)
        end
      | T_INT64 =>
        match v with
        | NI64 z =>
          let* d := data_get data i in
          let* h := note h used col in
          Ok ((h, data_put data i (BindData (d_i d) z (d_value d) (d_size d) true (d_is_null d))), 0)
        | _ => let* h := note h errors (msg_quote col should_be_int64) in Ok ((h, data), 1)
        end
      | T_TEXT =>
        match v with
        | NStr s =>
          let* d := data_get data i in
          let* h := note h used col in
          Ok ((h, data_put data i (BindData (d_i d) (d_i64 d) (Some (with_nul s)) (d_size d) true (d_is_null d))), 0)
        | _ => Bad NullDeref
        end
      | T_BLOB =>
        let* e := of_option NullDeref errors in
        let* h := array_append_strf h e (msg_quote col should_be_blob) in Ok ((h, data), 1)
      end
    end
  end.

(** cee-json/value.c:508-516 [cee_json_object_iterate] with it.  The callback does not
    change the object. *)
Definition populate (h : heap) (json : option nat) (infos : list bind_info) (data : option (list bind_data)) (used unused errors : option nat)
  : outcome (heap * option (list bind_data)) :=
  let* m := object_at h json in
  let* (s, _) := map_iterate text nat (Some m) (populate_usage infos used unused errors) (h, data) in
  Ok s.

(** sqlite3/cee-sqlite3.c:744-767: an array that the caller wants: the memory, the
    array, and what the argument points to *)
Definition wanted (h : heap) (p : option (option nat)) : heap * option nat * option (option nat) :=
  match p with
  | None => (h, None, None)
  | Some (Some a) => (h, Some a, p)
  | Some None => let (h, a) := alloc h (NArr (list_mk 10)) in (h, Some a, Some (Some a))
  end.
(** sqlite3/cee-sqlite3.c:727-771 [cee_sqlite3_bind_data_from_json].  The state of the
    object is read first, which must be one. *)
Definition bind_data_from_json (h : heap) (infos : list bind_info) (data : option (list bind_data)) (json : option nat)
  (used unused errors : option (option nat))
  : outcome (Z * heap * option (list bind_data) * option (option nat) * option (option nat) * option (option nat)) :=
  let* o := to_object h json in
  let* _ := of_option NullDeref o in
  let '(h, u, used) := wanted h used in
  let '(h, n, unused) := wanted h unused in
  let '(h, e, errors) := wanted h errors in
  let* (h, data) := populate h json infos data u n e in
  Ok (0, h, data, used, unused, errors).

(** * Binding information from an object *)

(** sqlite3/cee-sqlite3.c:1025-1051 [f]: for each slot that has no name.  [return 0]
    ends the loop. *)
Fixpoint fill_slots (n : nat) (slots : list (option bind_info)) (key : text) (v : node) : outcome (list (option bind_info)) :=
  match n, slots with
  | O, _ => Ok slots
  | S _, [] => Bad OutOfBounds
  | S n, Some i :: r => let* r := fill_slots n r key v in Ok (Some i :: r)
  | S n, None :: r =>
    let entry ty d :=
      let* col := mk_str key in
      let* var := mk_str (64 :: key) in
      let* r := fill_slots n r key v in
      Ok (Some (BindInfo var col ty d false false false false) :: r) in
    match v with
    | NI64 z => entry T_INT (BindData (to_int32 z) 0 None 0 true false)
    | NStr s => entry T_TEXT (BindData 0 0 (Some (with_nul s)) 0 true false)
    | NNull => Ok slots
    | _ => Bad Abort
    end
  end.
(** The entries before the first that has no name *)
Fixpoint entries (slots : list (option bind_info)) : list bind_info :=
  match slots with Some i :: r => i :: entries r | _ => [] end.
(** sqlite3/cee-sqlite3.c:1053-1064 [cee_json_to_bind_info]; [size] is an int.  The
    array has one entry more, which stays zero. *)
Definition json_to_bind_info (h : heap) (input : option nat) : outcome (list bind_info) :=
  let* m := object_at h input in
  let size := map_size text nat (Some m) in
  let n := Z.to_nat (to_int32 size) in
  let* (slots, _) :=
    map_iterate text nat (Some m)
      (fun slots k v =>
         (* the value is read only if there is an empty slot *)
         if forallb (fun s => match s with Some _ => true | None => false end) (firstn n slots) then Ok (slots, 0)
         else let* v := load h v in let* slots := fill_slots n slots k v in Ok (slots, 0))
      (repeat None (Z.to_nat size + 1)) in
  Ok (entries slots).

(** * Statements *)
(** sqlite3/cee-sqlite3.c:694-725 [compose_dyn_stmts]: the three strings *)
Definition has_data (data : option (list bind_data)) (i : nat) : outcome bool :=
  match data with
  | None => Ok false
  | Some l => let* d := of_option OutOfBounds (nth_error l i) in Ok (d_has_value d)
  end.
Definition cat (s item : text) : text := match s with [] => s ++ item | _ => s ++ 44 :: item end.
Fixpoint compose (h : heap) (input : option nat) (infos : list bind_info) (data : option (list bind_data)) (i : nat)
  (set : option text) (ins : option (text * text)) : outcome (option text * option (text * text)) :=
  match infos with
  | [] => Ok (set, ins)
  | info :: r =>
    let* v := object_get h input (Some (i_col info)) in
    let* set :=
      match v, set with
      | Some _, Some s =>
        if i_no_update info then Ok (Some s)
        else
          let* b := has_data data i in
          Ok (Some (if b || d_has_value (i_data info) then cat s (i_col info ++ 61 :: i_var info) else s))
      | _, _ => Ok set
      end in
    let* ins :=
      match ins with
      | Some (cols, vars) =>
        let* b := has_data data i in
        Ok (Some (if b || d_has_value (i_data info) || i_not_null info then
                    match cols with
                    | [] => (cols ++ i_col info, vars ++ i_var info)
                    | _ => (cols ++ 44 :: i_col info, vars ++ 44 :: i_var info)
                    end
                  else (cols, vars)))
      | None => Ok None
      end in
    compose h input r data (S i) set ins
  end.

(** cee_str_mk(state, template, set): a template with one %s, anything else is not
    modelled *)
Fixpoint fill_template (template set : text) : option text :=
  match template with
  | [] => None
  | 37 :: 115 :: r => if existsb (fun c => c =? 37) r then None else Some (set ++ r)
  | 37 :: _ => None
  | c :: r => match fill_template r set with Some t => Some (c :: t) | None => None end
  end.
(** "insert into %s (%s) values (%s)" *)
Definition insert_text (table cols vars : text) : text :=
  [105; 110; 115; 101; 114; 116; 32; 105; 110; 116; 111; 32] ++ table ++ [32; 40] ++ cols ++
  [41; 32; 118; 97; 108; 117; 101; 115; 32; 40] ++ vars ++ [41].

(** sqlite3/cee-sqlite3.c:839, :845, :852, :855, :859: "update", "insert",
    "used_keys", "unused_keys", "debug" *)
Definition key_update : text := [117; 112; 100; 97; 116; 101].
Definition key_insert : text := [105; 110; 115; 101; 114; 116].
Definition key_used : text := [117; 115; 101; 100; 95; 107; 101; 121; 115].
Definition key_unused : text := [117; 110; 117; 115; 101; 100; 95; 107; 101; 121; 115].
Definition key_debug : text := [100; 101; 98; 117; 103].

Variable DB : Type.
Notation world := (world DB).
(** The operation: one of the functions of SqlModel.v *)
Variable op : world -> option (list bind_info) -> option (list bind_data) -> stmts -> option (option nat) -> outcome (Z * world * option (option nat)).
Definition on_heap (w : world) (h : heap) : world := World DB (w_db DB w) (w_open DB w) h.

(** sqlite3/cee-sqlite3.c:776-866 [cee_sqlite3_generic_opcode].  The statements that it
    composes are gone afterwards.  %s with NULL is undefined (:837).  What cee_del
    frees is not used any more. *)
Definition generic_opcode (w : world) (json : option nat) (info : option (list bind_info)) (data : option (list bind_data)) (t : stmts)
  (status : option (option nat)) : outcome (Z * world * option (list bind_data) * option (option nat)) :=
  let (h, status) := accept_result (w_heap DB w) status in
  let result := status in
  let (h, errors) := alloc h (NArr (list_mk 1)) in
  let (h, unused) := alloc h (NArr (list_mk 10)) in
  let (h, used) := alloc h (NArr (list_mk 10)) in
  let set := match t_update_template t with Some _ => Some [] | None => None end in
  let ins := if t_insert_dynamic t then Some ([], []) else None in
  let* (h, data, infos) :=
    match info with
    | Some infos =>
      let* (h, data) := populate h json infos data (Some used) (Some unused) (Some errors) in Ok (h, data, infos)
    | None =>
      match data with
      | Some _ => Bad Abort
      | None => let* infos := json_to_bind_info h json in Ok (h, None, infos)
      end
    end in
  let* (set, ins) := compose h json infos data 0 set ins in
  let* update_x :=
    match t_update_template t, set with
    | Some tp, Some (c :: r) => let* x := of_option BadVaList (fill_template tp (c :: r)) in let* x := mk_str x in Ok (Some x)
    | Some _, _ => Ok None
    | None, _ => Ok (t_update_x t)
    end in
  let* insert_x :=
    match ins with
    | Some (cols, vars) => mk_str (insert_text (t_table t) cols vars)
    | None => Ok (t_insert_x t)
    end in
  let t' := Stmts (t_table t) (t_select t) (t_insert t) (t_insert_dynamic t) insert_x (t_delete t) (t_update t) (t_update_template t) update_x in
  let* (rc, w, status) := op (on_heap w h) (Some infos) data t' status in
  let (h, debug) := alloc (w_heap DB w) (NObj map_mk) in
  let* h :=
    match t_update_template t with
    | Some _ => let* x := of_option NullDeref update_x in object_set_str mk_str h (Some debug) key_update x
    | None => Ok h
    end in
  let* h := if t_insert_dynamic t then object_set_str mk_str h (Some debug) key_insert insert_x else Ok h in
  match result with
  | Some (Some result) =>
    let* h := object_set mk_str h (Some debug) key_used (Some used) in
    let* x := select 10 h (Some unused) [91; 48; 93] [] in
    let* h := match x with Some _ => object_set mk_str h (Some debug) key_unused (Some unused) | None => Ok h end in
    let* h := object_set mk_str h (Some result) key_debug (Some debug) in
    let* x := select 10 h (Some errors) [91; 48; 93] [] in
    let* h := match x with Some _ => object_set mk_str h (Some result) key_error (Some errors) | None => Ok h end in
    Ok (rc, on_heap w h, data, status)
  | _ => Ok (rc, on_heap w h, data, status)
  end.
End SqlJson.
