(** Model of mkdir_p (sqlite3/cee_dbm.c:17-55) and of the file system below it. *)
From Coq Require Import ZArith List Bool.
From Verif Require Import Base Json.
Import ListNotations.
Open Scope Z_scope.
Open Scope outcome_scope.

(** * The file system (the operating system)
    Directories and other files by the names on the way from the root.  Permissions, modes,
    links, and limits for the length of paths are not modelled. *)
Inductive fkind : Type := Dir | File.
Definition fsys : Type := list (list text * fkind).
Definition path_dec : forall a b : list text, {a = b} + {a <> b} := list_eq_dec (list_eq_dec Z.eq_dec).
Fixpoint find_entry (fs : fsys) (p : list text) : option fkind :=
  match fs with
  | [] => None
  | (q, k) :: fs => if path_dec q p then Some k else find_entry fs p
  end.
Definition entry (fs : fsys) (p : list text) : option fkind :=
  match p with [] => Some Dir | _ => find_entry fs p end.

(** The names in a path: between slashes, empty ones do not count. *)
Definition slash : Z := 47.
Fixpoint fields (t : text) : list text :=
  match t with
  | [] => [[]]
  | c :: t => if c =? slash then [] :: fields t else match fields t with f :: fs => (c :: f) :: fs | [] => [[c]] end
  end.
Definition names_of (t : text) : list text := filter (fun f => match f with [] => false | _ => true end) (fields t).
Definition absolute (t : text) : bool := match t with c :: _ => c =? slash | [] => false end.
Definition start (cwd : list text) (t : text) : list text := if absolute t then [] else cwd.

(** The names "." and "..", which every directory has (POSIX), and equality of
    names.  Not in the repository; used by the lookups of sqlite3/cee_dbm.c. *)
Definition dot : text := [46].
Definition dotdot : text := [46; 46].
Definition is_name (a b : text) : bool := if list_eq_dec Z.eq_dec a b then true else false.
(** Following names from a place; all but the last must be directories. *)
Fixpoint walk (fs : fsys) (cur : list text) (ns : list text) : option (list text) :=
  match ns with
  | [] => Some cur
  | n :: ns =>
    match entry fs cur with
    | Some Dir =>
      if is_name n dot then walk fs cur ns
      else if is_name n dotdot then walk fs (removelast cur) ns
      else match entry fs (cur ++ [n]) with Some _ => walk fs (cur ++ [n]) ns | None => None end
    | _ => None
    end
  end.
(** stat(2): does the path exist?  With a slash at the end it must be a directory. *)
Definition c_stat (fs : fsys) (cwd : list text) (t : text) : bool :=
  match t with
  | [] => false
  | _ =>
    match walk fs (start cwd t) (names_of t) with
    | Some p => match entry fs p with Some Dir => true | Some File => negb (last t 0 =? slash) | None => false end
    | None => false
    end
  end.
(** mkdir(2): the new file system and the new directory; [None]: -1 *)
Definition c_mkdir (fs : fsys) (cwd : list text) (t : text) : option (fsys * list text) :=
  match rev (names_of t) with
  | [] => None
  | n :: r =>
    match walk fs (start cwd t) (rev r) with
    | None => None
    | Some d =>
      match entry fs d with
      | Some Dir =>
        if is_name n dot || is_name n dotdot then None
        else match entry fs (d ++ [n]) with Some _ => None | None => Some (fs ++ [(d ++ [n], Dir)], d ++ [n]) end
      | _ => None
      end
    end
  end.

(** dirname(3) of glibc *)
Fixpoint drop_slashes (l : text) : text := match l with c :: r => if c =? slash then drop_slashes r else l | [] => [] end.
Fixpoint drop_name (l : text) : text := match l with c :: r => if c =? slash then l else drop_name r | [] => [] end.
(** Only slashes: two are kept *)
Definition root_of (l : text) : text := match l with [_; _] => l | _ => [slash] end.
Definition c_dirname (t : text) : text :=
  match t with
  | [] => dot
  | _ =>
    match drop_slashes (rev t) with
    | [] => root_of t
    | r =>
      match drop_name r with
      | [] => dot
      | r => match drop_slashes r with [] => root_of r | r => rev r end
      end
    end
  end.

(** * mkdir_p *)

(** sqlite3/cee_dbm.c:24-45 [mkdir_p_ext]: the result, the file system, and the directory of
    the descriptor that was stored in [*dir_p].  [want]: dir_p is not NULL. *)
Fixpoint mkdir_p_ext (fuel : nat) (fs : fsys) (cwd : list text) (dir : option text) (want : bool) : outcome (Z * fsys * option (list text)) :=
  match fuel with
  | O => Bad OutOfFuel
  | S n =>
    match dir with
    | None => Ok (1, fs, None)
    | Some d =>
      if c_stat fs cwd d then Ok (0, fs, None)
      else
        let* (_, fs, _) := mkdir_p_ext n fs cwd (Some (c_dirname d)) false in
        match c_mkdir fs cwd d with
        | None => Bad Abort
        | Some (fs, p) => Ok (0, fs, if want then Some p else None)
        end
    end
  end.
(** sqlite3/cee_dbm.c:53-55 [mkdir_p] *)
Definition mkdir_p (fuel : nat) (fs : fsys) (cwd : list text) (dir : option text) : outcome (Z * fsys) :=
  let* (r, fs, _) := mkdir_p_ext fuel fs cwd dir false in Ok (r, fs).
