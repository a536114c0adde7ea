(** How a JSON value lies in memory; independent of the parser. *)
From Coq Require Import ZArith List Bool Permutation.
From Verif Require Import Base Json HeapModel JsonMemModel.
Import ListNotations.
Open Scope Z_scope.

(** A value with the addresses of all its objects.  [LConst]: true, false and
    null, which are static and shared.  [LBox a b x]: a number or string [x] in
    the object [b], tagged by [a].  [LArr a l es]: a list [l], tagged by [a].
    [LObj a m ks es]: a map [m] with its list of keys [ks], tagged by [a]; an
    entry is the name, its string, the pair of string and value, and the value. *)
Inductive layout : Type :=
| LConst (x : json)
| LBox (a b : addr) (x : json)
| LArr (a l : addr) (es : list layout)
| LObj (a m ks : addr) (es : list (text * addr * addr * layout)).

Section Entry.
Variable e : text * addr * addr * layout.
Definition e_name : text := fst (fst (fst e)).
Definition e_key : addr := snd (fst (fst e)).
Definition e_pair : addr := snd (fst e).
Definition e_val : layout := snd e.
End Entry.

(** The value *)
Fixpoint json_of (L : layout) : json :=
  match L with
  | LConst x | LBox _ _ x => x
  | LArr _ _ es => JArr (map json_of es)
  | LObj _ _ _ es => JObj (map (fun e => (fst (fst (fst e)), json_of (snd e))) es)
  end.

(** The pointer to the value *)
Definition ptr (ss : statics) (L : layout) : val :=
  match L with
  | LConst JNull => VPtr (s_null ss)
  | LConst (JBool true) => VPtr (s_true ss)
  | LConst (JBool false) => VPtr (s_false ss)
  | LConst _ => VNull
  | LBox a _ _ | LArr a _ _ | LObj a _ _ _ => VPtr a
  end.

(** All objects of the value *)
Fixpoint blocks (L : layout) : list addr :=
  match L with
  | LConst _ => []
  | LBox a b _ => [a; b]
  | LArr a l es => a :: l :: flat_map blocks es
  | LObj a m ks es => a :: m :: ks :: flat_map (fun e => snd (fst (fst e)) :: snd (fst e) :: blocks (snd e)) es
  end.

(** Object [x] is of kind [k], points to [vs], and [n] others count on it. *)
Definition obj (h : heap) (x : addr) (k : kind) (vs : list val) (n : Z) : Prop :=
  exists b, h_mem h x = Some b /\ b_body b = BObj k vs /\ b_rc b = n /\ b_ret b = false.

Definition is_const (x : json) : Prop := x = JNull \/ x = JBool true \/ x = JBool false.
Definition is_boxed (x : json) : Prop := match x with JStr _ | JI64 _ | JU64 _ | JDouble _ | JBlob _ => True | _ => False end.

(** The heap [h], with contents [c], holds the value as [L] says; [n] others
    count on it.  A container counts on its elements; the list of keys and the
    pair count on a key; the map owns the list of keys and the pairs, which lie
    in the order of the tree. *)
Fixpoint laid (h : heap) (c : contents) (ss : statics) (n : Z) (L : layout) {struct L} : Prop :=
  match L with
  | LConst x => is_const x
  | LBox a b x => obj h a (KProd [DEL_RC]) [VPtr b] n /\ obj h b KLeaf [] 1 /\ c b = x /\ is_boxed x
  | LArr a l es =>
    obj h a (KProd [DEL_RC]) [VPtr l] n /\ obj h l (KList DEL_RC) (map (ptr ss) es) 1 /\
    (fix all (es : list layout) : Prop := match es with [] => True | e :: r => laid h c ss 1 e /\ all r end) es
  | LObj a m ks es =>
    obj h a (KProd [DEL_RC]) [VPtr m] n /\
    (exists ts, obj h m (KMap DEL_RC DEL_RC) (VPtr ks :: ts) 1 /\ Permutation ts (map (fun e => VPtr (snd (fst e))) es)) /\
    obj h ks (KList DEL_RC) (map (fun e => VPtr (snd (fst (fst e)))) es) 0 /\
    NoDup (map (fun e => fst (fst (fst e))) es) /\
    (fix all (es : list (text * addr * addr * layout)) : Prop :=
       match es with
       | [] => True
       | (name, k, t, L) :: r =>
         obj h k KLeaf [] 2 /\ c k = JStr name /\
         obj h t (KProd [DEL_RC; DEL_RC]) [VPtr k; ptr ss L] 0 /\ laid h c ss 1 L /\ all r
       end) es
  end.

(** The value [x] is stored at [v]: nobody else has a part of it, nobody counts
    on it, and its objects are exactly [xs]. *)
Definition stored (h : heap) (c : contents) (ss : statics) (v : val) (x : json) (xs : list addr) : Prop :=
  exists L, laid h c ss 0 L /\ ptr ss L = v /\ json_of L = x /\ blocks L = xs /\ NoDup xs.

(** The three static blocks *)
Definition static_ok (h : heap) (ss : statics) : Prop :=
  forall a, In a [s_true ss; s_false ss; s_null ss] -> exists n, obj h a KStatic [] n.

(** The same object, where it matters to its users: everything but its place in
    the chain of the state; of a static block only that it is there; of the
    state everything but the end of the chain. *)
Definition core (b : block) : block :=
  match b_body b with
  | BState _ r s c m => Block (BState 0%nat r s c m) (b_rc b) (b_ret b) (b_mark b) 0%nat None None (b_meth b)
  | BObj KStatic vs => Block (BObj KStatic vs) 0 (b_ret b) 0 0%nat None None M_IDENTITY
  | BObj k vs => Block (BObj k vs) (b_rc b) (b_ret b) (b_mark b) 0%nat None None (b_meth b)
  end.
Definition look (h : heap) (x : addr) : option block := option_map core (h_mem h x).
