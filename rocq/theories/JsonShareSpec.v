(** What the programs of JsonShareModel should do: JSON values that are parts of any
    number of others, as a graph; and how such a graph lies in memory. *)
From Coq Require Import ZArith List Bool Permutation.
From Verif Require Import Base Json HeapModel JsonMemModel JsonMemSpec JsonEditModel JsonShareModel.
Import ListNotations.
Open Scope nat_scope.

(** Values are numbered in the order in which they are made; the constants have no
    number. *)
Inductive ref : Type := RNull | RBool (b : bool) | RAt (i : nat).
Inductive gnode : Type :=
| GSimple (x : json)
| GArr (rs : list ref)
| GObj (kvs : list (text * ref)).
Definition graph : Type := list (nat * gnode).

Definition held (n : gnode) : list ref :=
  match n with GSimple _ => [] | GArr rs => rs | GObj kvs => map snd kvs end.
Definition ids (rs : list ref) : list nat := flat_map (fun r => match r with RAt i => [i] | _ => [] end) rs.
Definition kids (n : gnode) : list nat := ids (held n).
(** In how many places is value [i]? *)
Definition places (g : graph) (i : nat) : nat := count_occ Nat.eq_dec (flat_map (fun p => kids (snd p)) g) i.
Definition known (g : graph) (r : ref) : Prop := match r with RAt i => In i (map fst g) | _ => True end.

(** If value [a] goes, value [x] goes: all values it is a part of go. *)
Inductive falls (g : graph) (a : nat) : nat -> Prop :=
| falls_self : falls g a a
| falls_held x : In x (map fst g) -> (exists y n, In (y, n) g /\ In x (kids n)) ->
    (forall y n, In (y, n) g -> In x (kids n) -> falls g a y) -> falls g a x.

Inductive makes : json -> gnode -> Prop :=
| mk_simple x : is_boxed x -> makes x (GSimple x)
| mk_arr : makes (JArr []) (GArr [])
| mk_obj : makes (JObj []) (GObj []).

Section Shares.
Variables (vs : list ref) (g : graph).
(** [change o i a n n' put k]: [o] changes the value [a] that the pointer [i] points
    to from [n] into [n']; [put] are the values put into it, [k] strings are left
    that no value needs.  A value is not put under a name where it is already. *)
Inductive change : share -> nat -> nat -> gnode -> gnode -> list ref -> nat -> Prop :=
| ch_set_new i a key q r kvs : nth_error vs q = Some r -> ~ In key (map fst kvs) ->
    change (SSet i key q) i a (GObj kvs) (GObj (kvs ++ [(key, r)])) [r] 0
| ch_set_old i a key q r kvs1 w kvs2 : nth_error vs q = Some r -> (forall b, r = RAt b -> w <> r) ->
    change (SSet i key q) i a (GObj (kvs1 ++ (key, w) :: kvs2)) (GObj (kvs1 ++ (key, r) :: kvs2)) [r] 0
| ch_append i a q r rs : nth_error vs q = Some r ->
    change (SAppend i q) i a (GArr rs) (GArr (rs ++ [r])) [r] 0
| ch_insert i a q r rs1 rs2 : nth_error vs q = Some r ->
    change (SInsert i (length rs1) q) i a (GArr (rs1 ++ rs2)) (GArr (rs1 ++ r :: rs2)) [r] 0
| ch_concat i a q b rs rs' : nth_error vs q = Some (RAt b) -> b <> a -> In (b, GArr rs') g ->
    change (SConcat i q) i a (GArr rs) (GArr (rs ++ rs')) rs' 0
| ch_remove_at i a rs1 w rs2 :
    change (SRemoveAt i (length rs1)) i a (GArr (rs1 ++ w :: rs2)) (GArr (rs1 ++ rs2)) [] 0
| ch_remove i a key kvs1 w kvs2 :
    change (SRemove i key) i a (GObj (kvs1 ++ (key, w) :: kvs2)) (GObj (kvs1 ++ kvs2)) [] 1.
End Shares.

Definition gone_from (D : list nat) (g : graph) : graph := filter (fun p => negb (existsb (Nat.eqb (fst p)) D)) g.

Section Programs.
Variable deep : nat.
(** [share_of o s s' k]: the pointers, the graph and the next number before and
    after [o]; [k] strings are left over.  Only what is not in a place may be
    deleted, and no count may reach 65536. *)
Inductive share_of : share -> list ref * graph * nat -> list ref * graph * nat -> nat -> Prop :=
| so_null vs g nx : share_of (SNew JNull) (vs, g, nx) (vs ++ [RNull], g, nx) 0
| so_bool b vs g nx : share_of (SNew (JBool b)) (vs, g, nx) (vs ++ [RBool b], g, nx) 0
| so_new x n vs g nx : makes x n -> share_of (SNew x) (vs, g, nx) (vs ++ [RAt nx], g ++ [(nx, n)], S nx) 0
| so_index i a k rs r vs g nx : nth_error vs i = Some (RAt a) -> In (a, GArr rs) g -> nth_error rs k = Some r ->
    share_of (SPart i (AtIndex k)) (vs, g, nx) (vs ++ [r], g, nx) 0
| so_name i a key kvs r vs g nx : nth_error vs i = Some (RAt a) -> In (a, GObj kvs) g -> In (key, r) kvs ->
    share_of (SPart i (AtName key)) (vs, g, nx) (vs ++ [r], g, nx) 0
| so_change o i a n n' put k g1 g2 vs nx : nth_error vs i = Some (RAt a) ->
    change vs (g1 ++ (a, n) :: g2) o i a n n' put k -> Forall (known (g1 ++ (a, n) :: g2)) put ->
    (forall x, In x (ids put) -> (Z.of_nat (places (g1 ++ (a, n') :: g2) x) < 65536)%Z) ->
    share_of o (vs, g1 ++ (a, n) :: g2, nx) (vs, g1 ++ (a, n') :: g2, nx) k
| so_delete i a D vs g nx : nth_error vs i = Some (RAt a) -> In a (map fst g) -> places g a = 0 ->
    (forall x, In x D <-> falls g a x) -> 3 * length g + 1 <= deep ->
    share_of (SDelete i) (vs, g, nx) (vs, gone_from D g, nx) 0
| so_delete_const i r vs g nx : nth_error vs i = Some r -> (forall a, r <> RAt a) ->
    share_of (SDelete i) (vs, g, nx) (vs, g, nx) 0.
Inductive shares_of : list share -> list ref * graph * nat -> list ref * graph * nat -> nat -> Prop :=
| ss_nil s : shares_of [] s s 0
| ss_cons o ops s s1 s' n m : share_of o s s1 n -> shares_of ops s1 s' m -> shares_of (o :: ops) s s' (n + m).
End Programs.

(** * In memory *)
(** [at i] is the address of value [i]. *)
Definition pointer (ss : statics) (at_ : nat -> addr) (r : ref) : val :=
  match r with
  | RNull => VPtr (s_null ss)
  | RBool true => VPtr (s_true ss)
  | RBool false => VPtr (s_false ss)
  | RAt i => VPtr (at_ i)
  end.
(** Value [i] is [n], the objects of its own are [xs], and [cnt] others count on it. *)
Definition node_at (h : heap) (c : contents) (ss : statics) (at_ : nat -> addr) (i : nat) (n : gnode) (cnt : nat) (xs : list addr) : Prop :=
  exists b, obj h (at_ i) (KProd [DEL_RC]) [VPtr b] (Z.of_nat cnt) /\
  match n with
  | GSimple x => xs = [at_ i; b] /\ obj h b KLeaf [] 1 /\ c b = x
  | GArr rs => xs = [at_ i; b] /\ obj h b (KList DEL_RC) (map (pointer ss at_) rs) 1
  | GObj kvs => exists ks ts kts,
      xs = at_ i :: b :: ks :: flat_map (fun kt => [fst kt; snd kt]) kts /\
      obj h b (KMap DEL_RC DEL_RC) (VPtr ks :: map VPtr ts) 1 /\ Permutation ts (map snd kts) /\
      obj h ks (KList DEL_RC) (map (fun kt => VPtr (fst kt)) kts) 0 /\ NoDup (map fst kvs) /\
      Forall2 (fun kt kv => obj h (fst kt) KLeaf [] 2 /\ c (fst kt) = JStr (fst kv) /\
        obj h (snd kt) (KProd [DEL_RC; DEL_RC]) [VPtr (fst kt); pointer ss at_ (snd kv)] 0) kts kvs
  end.
