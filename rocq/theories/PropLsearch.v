(** C72: linear search (musl-lsearch.c). *)
From Coq Require Import ZArith List Bool Lia.
From Verif Require Import Base LsearchModel LsearchSpec LsearchProofs.
Import ListNotations.
Open Scope Z_scope.

(** The contract of lsearch: the table has its elements one behind the other;
    the key is found or put at the end. *)
Definition C72_statement : Prop :=
  forall compar w alike m base xs key k,
    compares compar w alike -> Forall (fun x => length x = w) xs ->
    bytes_at m base (concat xs) -> room_at m base (w * S (length xs)) ->
    bytes_at m key k -> length k = w -> fst key <> fst base ->
    Z.of_nat (length xs) + 1 < 2 ^ 64 ->
    exists m',
      lsearch compar m key base (length xs) w =
        Ok ((fst base, snd base + Z.of_nat (w * place alike xs k)),
            Z.of_nat (length (enter alike xs k)), m') /\
      bytes_at m' base (concat (enter alike xs k)).

(** What holds instead.  The table is an array of pointers to rows, and there are
    rows for the keys that are new.  After any number of searches the rows hold
    the entries in the order in which they were first looked up, each search
    gave the row of the first entry that is like its key, and nothing outside
    the rows changed.  Missing: tables of elements, see [C72_flat_refuted]. *)
Theorem C72_pointers_partial : forall compar w alike, compares compar w alike ->
  forall m base rows xs keys ks,
    laid_out base rows w -> Z.of_nat (length rows) < 2 ^ 64 ->
    table_at m base rows -> entries_at m rows xs ->
    Forall (fun x => length x = w) xs -> (forall r, In r rows -> room_at m r w) ->
    Forall2 (fun p k => bytes_at m p k /\ length k = w /\ outside p rows w) keys ks ->
    (length (entered alike xs ks) <= length rows)%nat ->
    exists ps m',
      lsearches compar m base (Z.of_nat (length xs)) w keys =
        Ok (ps, Z.of_nat (length (entered alike xs ks)), m') /\
      Forall2 (fun p j => nth_error rows j = Some p) ps (places alike xs ks) /\
      table_at m' base rows /\ entries_at m' rows (entered alike xs ks) /\
      (forall q ds, (forall r, In r rows -> apart r w q (length ds)) ->
         bytes_at m q ds -> bytes_at m' q ds).
Proof.
  intros compar w alike Cm m base rows xs keys ks LO Big T En F Rm Ks Fits.
  apply (lsearches_ok compar w alike Cm base rows LO Big keys ks m xs); [|exact Fits].
  split; [exact T|]. split; [exact En|]. split; [exact F|]. split; [exact Rm | exact Ks].
Qed.

(** Searching without adding: the row of the first entry that is like the key,
    or NULL. *)
Theorem C72_find : forall compar w alike, compares compar w alike ->
  forall m key base rows k xs,
    table_at m base rows -> length k = w -> bytes_at m key k ->
    Forall (fun x => length x = w) xs -> entries_at m rows xs ->
    (length xs <= length rows)%nat ->
    lfind compar m key base (length xs) =
      Ok (if existsb (fun x => alike x k) xs
          then nth_error rows (place alike xs k) else None).
Proof. intros compar w alike Cm m key base rows k xs. apply lfind_ok. exact Cm. Qed.

(** * A function that compares bytes *)
Definition cell_eqb (a b : cell) : bool :=
  match a, b with
  | Byte x, Byte y => x =? y
  | Part p i, Part q j => ptr_eqb p q && (i =? j)
  | _, _ => false
  end.

Fixpoint cells_eqb (xs ys : list cell) : bool :=
  match xs, ys with
  | [], [] => true
  | x :: xs, y :: ys => cell_eqb x y && cells_eqb xs ys
  | _, _ => false
  end.

Definition compare_bytes (w : nat) (m : lmem) (p q : ptr) : outcome Z :=
  bind (load_bytes m p w) (fun x =>
  bind (load_bytes m q w) (fun y =>
  Ok (if cells_eqb x y then 0 else 1))).

Lemma compare_bytes_compares w : compares (compare_bytes w) w cells_eqb.
Proof.
  intros m p q x y Lx Ly Bx By. unfold compare_bytes.
  pose proof (load_ok m p x Bx) as E. rewrite Lx in E. rewrite E. cbn [bind].
  pose proof (load_ok m q y By) as E'. rewrite Ly in E'. rewrite E'. cbn [bind].
  eexists. split; [reflexivity|]. destruct (cells_eqb x y); split; congruence.
Qed.

Definition full (l : list Z) : list (option cell) := map (fun b => Some (Byte b)) l.

(** Block 0: the table; blocks 1 to 3: rows of two bytes, the last of them not
    written yet; block 4: keys. *)
Definition rows3 : list ptr := [(1%nat, 0); (2%nat, 0); (3%nat, 0)].
Definition start : lmem :=
  [map Some (flat_map pointer_bytes rows3); full [7; 8]; full [5; 6]; [None; None];
   full [5; 6; 1; 2]].

Example C72_example :
  lsearches (compare_bytes 2) start (0%nat, 0) 2 2 [(4%nat, 0); (4%nat, 2); (4%nat, 2)] =
    Ok ([(2%nat, 0); (3%nat, 0); (3%nat, 0)], 3,
        [map Some (flat_map pointer_bytes rows3); full [7; 8]; full [5; 6]; full [1; 2];
         full [5; 6; 1; 2]]) /\
  entered cells_eqb [[Byte 7; Byte 8]; [Byte 5; Byte 6]]
    [[Byte 5; Byte 6]; [Byte 1; Byte 2]; [Byte 1; Byte 2]] =
    [[Byte 7; Byte 8]; [Byte 5; Byte 6]; [Byte 1; Byte 2]] /\
  places cells_eqb [[Byte 7; Byte 8]; [Byte 5; Byte 6]]
    [[Byte 5; Byte 6]; [Byte 1; Byte 2]; [Byte 1; Byte 2]] = [1; 2; 2]%nat /\
  laid_out (0%nat, 0) rows3 2.
Proof.
  split; [vm_compute; reflexivity|]. split; [vm_compute; reflexivity|].
  split; [vm_compute; reflexivity|]. split.
  - intros i j r s Hr Hs N.
    assert (Q : fst r = S i /\ fst s = S j).
    { destruct i as [|[|[|[|i]]]]; try discriminate Hr;
      destruct j as [|[|[|[|j]]]]; try discriminate Hs;
      injection Hr as <-; injection Hs as <-; split; reflexivity. }
    left. lia.
  - intros r [<-|[<-|[<-|[]]]]; left; cbn; discriminate.
Qed.

Example C72_find_example :
  lfind (compare_bytes 2) start (4%nat, 0) (0%nat, 0) 2 = Ok (Some (2%nat, 0)) /\
  lfind (compare_bytes 2) start (4%nat, 2) (0%nat, 0) 2 = Ok None.
Proof. split; vm_compute; reflexivity. Qed.

(** With a table of elements, the bytes of the elements are taken for a pointer:
    ten elements of one byte, and the first of them is asked for. *)
Theorem C72_flat_refuted : ~ C72_statement.
Proof.
  intros H.
  pose (xs := map (fun b => [Byte b]) [1; 2; 3; 4; 5; 6; 7; 8; 9; 10]).
  pose (m := [full [1; 2; 3; 4; 5; 6; 7; 8; 9; 10; 11]; full [1]]).
  destruct (H (compare_bytes 1) 1%nat cells_eqb m (0%nat, 0) xs (1%nat, 0) [Byte 1]
              (compare_bytes_compares 1)) as (m' & E & _).
  - unfold xs. cbn [map]. repeat (constructor; [reflexivity|]). constructor.
  - split; [cbn; lia|]. eexists. split; [reflexivity|].
    intros i c Hi. cbn [snd Z.to_nat Nat.add].
    do 10 (destruct i as [|i]; [cbn in Hi |- *; congruence|]).
    exfalso. cbn in Hi. destruct i; discriminate.
  - split; [cbn; lia|]. eexists. split; [reflexivity|]. cbn. lia.
  - split; [cbn; lia|]. eexists. split; [reflexivity|].
    intros i c Hi. destruct i as [|i]; [cbn in Hi |- *; congruence|].
    exfalso. cbn in Hi. destruct i; discriminate.
  - reflexivity.
  - cbn. discriminate.
  - cbn. lia.
  - vm_compute in E. discriminate E.
Qed.

(** It is so for every table of elements, unless the first element begins with a pointer: whatever is looked
    up and however bytes are compared, there is no result. *)
Theorem C72_flat_all_refuted : forall compar m base b rest key nel w,
  bytes_at m base (Byte b :: rest) ->
  (exists e, lsearch compar m key base nel w = Bad e) /\ ((0 < nel)%nat -> exists e, lfind compar m key base nel = Bad e).
Proof.
  intros compar m base b rest key nel w B.
  assert (Sl : exists e, slot m base 0 = Bad e).
  { assert (B1 : bytes_at m base [Byte b]).
    { destruct B as (Z0 & a & A & R). split; [exact Z0|]. exists a. split; [exact A|]. intros i c Hi. destruct i as [|i]; [exact (R 0%nat c Hi)|destruct i; discriminate Hi]. }
    apply load_ok in B1. cbn [length] in B1. unfold slot, load_bytes in *. cbn [fst snd]. replace (snd base + 8 * 0) with (snd base) by lia.
    destruct (block_of m (fst base)) as [a|e]; [|discriminate B1]. cbn [bind] in *.
    change 8%nat with (S 7). cbn [read_bytes] in B1. generalize 7%nat. intros k. cbn [read_bytes].
    destruct (aread a (snd base)) as [c|e]; [|discriminate B1]. cbn [bind] in *. injection B1 as ->.
    destruct (read_bytes a (snd base + 1) k) as [cs|e]; cbn [bind]; [exists BadPointer; reflexivity|exists e; reflexivity]. }
  destruct Sl as (e & E). unfold lsearch, lfind. destruct nel as [|nel].
  - cbn [scan bind]. change (Z.of_nat 0) with 0. rewrite E. split; [exists e; reflexivity|lia].
  - cbn [scan]. rewrite E. cbn [bind]. split; [|intros _]; exists e; reflexivity.
Qed.
Example C72_flat_all_example :
  lsearch (compare_bytes 1) [full [1; 2; 3; 4; 5; 6; 7; 8; 9; 10; 11]; full [1]] (1%nat, 0) (0%nat, 0) 10 1 = Bad BadPointer /\
  lfind (compare_bytes 1) [full [1; 2]; full [1]] (1%nat, 0) (0%nat, 0) 2 = Bad OutOfBounds.
Proof. split; vm_compute; reflexivity. Qed.

(** A key that is new needs a row that is there already: the pointer behind the
    last one is followed although nothing was put there. *)
Theorem C72_row_refuted :
  let m : lmem :=
    [map Some (pointer_bytes (1%nat, 0)) ++ repeat None 8; full [7]; full [5]] in
  table_at m (0%nat, 0) [(1%nat, 0)] /\ entries_at m [(1%nat, 0)] [[Byte 7]] /\
  room_at m (0%nat, 0) 16 /\ bytes_at m (2%nat, 0) [Byte 5] /\
  lsearch (compare_bytes 1) m (2%nat, 0) (0%nat, 0) 1 1 = Bad Uninit.
Proof.
  intros m. split; [|split; [|split; [|split]]].
  - split; [cbn; lia|]. eexists. split; [reflexivity|]. intros i c Hi.
    do 8 (destruct i as [|i]; [cbn in Hi |- *; congruence|]).
    exfalso. cbn in Hi. destruct i; discriminate.
  - intros j r x Hr Hx. destruct j as [|j]; [|destruct j; discriminate].
    injection Hr as <-. injection Hx as <-.
    split; [cbn; lia|]. eexists. split; [reflexivity|]. intros i c Hi.
    destruct i as [|i]; [cbn in Hi |- *; congruence|].
    exfalso. cbn in Hi. destruct i; discriminate.
  - split; [cbn; lia|]. eexists. split; [reflexivity|]. cbn. lia.
  - split; [cbn; lia|]. eexists. split; [reflexivity|]. intros i c Hi.
    destruct i as [|i]; [cbn in Hi |- *; congruence|].
    exfalso. cbn in Hi. destruct i; discriminate.
  - vm_compute. reflexivity.
Qed.

Print Assumptions C72_pointers_partial.
Print Assumptions C72_find.
Print Assumptions C72_flat_refuted.
Print Assumptions C72_flat_all_refuted.
Print Assumptions C72_row_refuted.
