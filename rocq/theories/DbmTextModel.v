(** Model of the settings of sqlite3/cee_dbm.c: printing them into a buffer, and paths that
    start with $HOME. *)
From Coq Require Import String Ascii ZArith List Bool.
From Verif Require Import Base Numeral Json StrModel.
Import ListNotations.
Open Scope Z_scope.
Open Scope outcome_scope.

(** A string literal *)
Definition bytes (s : string) : text := map (fun c => Z.of_nat (nat_of_ascii c)) (list_ascii_of_string s).

(** sqlite3/cee_dbm.h:9-13 [struct cee_dbm_path_info]: three arrays of 128 bytes *)
Record path_info : Type := PathInfo { schema_script_path : list (option Z); data_script_path : list (option Z); db_file_path : list (option Z) }.
(** sqlite3/cee_dbm.h:18-26 [struct cee_dbm_db_info]; [kind] and [file] are C strings in
    arrays of 16 and 32 bytes, given by their content. *)
Record db_info : Type := DbInfo {
  kind : text; file : text; recreate_db : bool; restore_db : bool; customize_db : bool; create_version : Z; final_version : Z
}.

(** * Printing *)

(** The C string at the beginning of an array *)
Fixpoint c_string (a : list (option Z)) : outcome text :=
  match a with
  | [] => Bad OutOfBounds
  | None :: _ => Bad Uninit
  | Some c :: a => if c =? 0 then Ok [] else let* t := c_string a in Ok (c :: t)
  end.

(** snprintf(buf + off, n, ...) (library) of the complete text [t].  A pointer behind the end
    of the array must not even be formed.  Texts of more than INT_MAX bytes are not modelled. *)
Definition snprintf_at (buf : list (option Z)) (off n : Z) (t : text) : outcome (list (option Z)) :=
  if Z.of_nat (length buf) <? off then Bad OutOfBounds else snput buf off n t.

(** sqlite3/cee_dbm.c:88-90, 96-99: offset += snprintf(buf+offset, size-offset, ...) for each
    text; sizes are unsigned. *)
Fixpoint snprint_all (buf : list (option Z)) (size offset : Z) (ts : list text) : outcome (list (option Z) * Z) :=
  match ts with
  | [] => Ok (buf, offset)
  | t :: ts =>
    let* buf := snprintf_at buf offset (wrap 64 (size - offset)) t in
    snprint_all buf size (wrap 64 (offset + Z.of_nat (length t))) ts
  end.
(** sqlite3/cee_dbm.c:331-341, 347-373: n = snprintf(next, remaining_size, ...);
    remaining_size -= n; next += n *)
Fixpoint print_all (buf : list (option Z)) (next remaining_size : Z) (ts : list text) : outcome (list (option Z)) :=
  match ts with
  | [] => Ok buf
  | t :: ts =>
    let* buf := snprintf_at buf next remaining_size t in
    let n := Z.of_nat (length t) in
    print_all buf (next + n) (wrap 64 (remaining_size - n)) ts
  end.

(** The conversion of a bool *)
Definition bool_text (b : bool) : text := if b then bytes "true" else bytes "false".

(** sqlite3/cee_dbm.c:86-92 [cee_dbm_path_info_snprint] *)
Definition path_info_snprint (buf : list (option Z)) (size : Z) (s : path_info) : outcome (list (option Z) * Z) :=
  let* a := c_string (schema_script_path s) in
  let* b := c_string (data_script_path s) in
  let* c := c_string (db_file_path s) in
  snprint_all buf size 0
    [bytes "schema_script_path:" ++ a ++ bytes ", "; bytes "data_script_path:" ++ b ++ bytes ", "; bytes "db_file_path:" ++ c ++ bytes ", "].
(** sqlite3/cee_dbm.c:94-101 [cee_dbm_settings_snprint] *)
Definition settings_snprint (buf : list (option Z)) (size : Z) (s : db_info) : outcome (list (option Z) * Z) :=
  snprint_all buf size 0
    [bytes "db_kind:" ++ kind s ++ bytes ", "; bytes "create_version:" ++ decimal_of (create_version s) ++ bytes ", ";
     bytes "recreate_db:" ++ bool_text (recreate_db s) ++ bytes ", "; bytes "restore_db:" ++ bool_text (restore_db s) ++ bytes ", "].
(** sqlite3/cee_dbm.c:328-342 [cee_dbm_path_info2str] *)
Definition path_info2str (info : path_info) (buf_size : Z) (buf : list (option Z)) : outcome (list (option Z)) :=
  let* a := c_string (schema_script_path info) in
  let* b := c_string (data_script_path info) in
  let* c := c_string (db_file_path info) in
  print_all buf 0 buf_size
    [bytes "schema_script_path:" ++ a ++ bytes ", "; bytes "data_script_path:" ++ b ++ bytes ", "; bytes "db_file_path:" ++ c].
(** sqlite3/cee_dbm.c:344-374 [cee_dbm_db_info2str] *)
Definition db_info2str (info : db_info) (buf_size : Z) (buf : list (option Z)) : outcome (list (option Z)) :=
  print_all buf 0 buf_size
    [bytes "kind:" ++ kind info ++ bytes ", "; bytes "file:" ++ file info ++ bytes ", ";
     bytes "recreate_db:" ++ bool_text (recreate_db info) ++ bytes ", "; bytes "restore_db:" ++ bool_text (restore_db info) ++ bytes ", ";
     bytes "create_version:" ++ decimal_of (create_version info) ++ bytes ", "; bytes "final_version:" ++ decimal_of (final_version info)].

(** * The home directory *)

(** strstr (library): is [sub] somewhere in [t]? *)
Fixpoint is_prefix (sub t : text) : bool :=
  match sub, t with
  | [], _ => true
  | a :: sub, b :: t => (a =? b) && is_prefix sub t
  | _ :: _, [] => false
  end.
Fixpoint c_strstr (t sub : text) : bool :=
  is_prefix sub t || match t with [] => false | _ :: t => c_strstr t sub end.

(** memcpy(dest, src, n) for two arrays *)
Definition copy_cells (dest src : list (option Z)) (n : Z) : outcome (list (option Z)) :=
  if (n <=? Z.of_nat (length src)) && (n <=? Z.of_nat (length dest)) then Ok (firstn (Z.to_nat n) src ++ skipn (Z.to_nat n) dest)
  else Bad OutOfBounds.
(** sqlite3/cee_dbm.c:103-109 [replace_home_env]; when $HOME is found, the path has at least
    five bytes. *)
Definition replace_home_env (path : list (option Z)) (home_dir : text) : outcome (list (option Z)) :=
  let* p := c_string path in
  if c_strstr p (bytes "$HOME") then
    let t := home_dir ++ skipn 5 p in
    let* buf := snput (repeat None 128) 0 128 t in
    let n := Z.of_nat (length t) in
    copy_cells path buf (n + 1)
  else Ok path.
(** sqlite3/cee_dbm.c:111-115 [cee_dbm_path_info_normalize] *)
Definition path_info_normalize (db : path_info) (home_dir : text) : outcome path_info :=
  let* a := replace_home_env (schema_script_path db) home_dir in
  let* b := replace_home_env (data_script_path db) home_dir in
  let* c := replace_home_env (db_file_path db) home_dir in
  Ok (PathInfo a b c).
