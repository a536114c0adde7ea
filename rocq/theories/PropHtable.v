(** C88: programs that use the hash tables of musl-hsearch.c, several of them, keep
    pointers to entries and destroy the tables. *)
From Coq Require Import ZArith List Bool Lia.
From Verif Require Import Base HsearchModel HtableModel HtableSpec HtableProofs HtableLost.
Import ListNotations.
Open Scope Z_scope.

(** C88 (partial): a program sees what association lists give it (HtableSpec.v): every
    search finds the entry first entered under the key, with the data last put there
    through any pointer to it, and tables do not influence each other.  Full property:
    also if it creates a table again before it was destroyed, and uses a pointer after
    more entries were made than there is room for (six, or three quarters of the size
    asked for). *)
Theorem C88_programs_partial : forall V (ops : list (hop V)) s rs,
  Z.of_nat (length ops) <= 2 ^ 61 -> iplay V (nothing V) ops = Some (s, rs) ->
  exists w ps, hplay V (no_tables V, []) ops = Ok (w, ps, rs).
Proof. intros V ops s rs HN H. destruct (programs_ok ops s rs HN H) as (w & ps & E & _). eauto. Qed.

(** C88: when all tables are destroyed, no block remains, however often tables were
    moved. *)
Theorem C88_all_released : forall V (ops : list (hop V)) s rs w ps rs',
  Z.of_nat (length ops) <= 2 ^ 61 -> iplay V (nothing V) ops = Some (s, rs) ->
  hplay V (no_tables V, []) ops = Ok (w, ps, rs') ->
  (forall i, s_tabs s i = None) ->
  (forall a, w_arrays w a = None) /\ w_structs w = [] /\ forall i, w_tab w i = None.
Proof.
  intros V ops s rs w ps rs' HN H E A. destruct (programs_ok ops s rs HN H) as (w2 & ps2 & E2 & R & N).
  rewrite E in E2. injection E2 as <- <- <-. destruct (R A). split; auto. split; auto. intros i. apply N. auto.
Qed.

(** Two tables with the same key, the second of which is moved; data is changed through
    two pointers to one entry; the entry keeps the data when the table is moved. *)
Definition two_tables : list (hop Z) :=
  [OCreate 0 8; OCreate 1 2; OEnter 0 [97] (Some 1); OEnter 1 [97] (Some 2); OFind 1 [97]; OPut 0 (Some 3); OGet 1;
   OPut 2 (Some 4); OGet 1; OEnter 1 [97] (Some 9); OEnter 1 [1] None; OEnter 1 [2] None; OEnter 1 [3] None;
   OEnter 1 [4] None; OEnter 1 [5] None; OGet 1; OEnter 1 [6] None; OFind 1 [97]; OGet 10; OFind 0 [1]; OGet 0;
   ODestroy 1; OGet 0; ODestroy 0; ODestroy 0].
Definition e (k : Z) (v : Z) : hres Z := REntry (Some ([k], Some v)).
Definition e0 (k : Z) : hres Z := REntry (Some ([k], None)).
Definition two_results : list (hres Z) :=
  [RCode 1; RCode 1; e 97 1; e 97 2; e 97 2; RDone; e 97 2;
   RDone; e 97 4; e 97 4; e0 1; e0 2; e0 3;
   e0 4; e0 5; e 97 4; e0 6; e 97 4; e 97 4; REntry None; e 97 3;
   RDone; e 97 3; RDone; RDone].
Example C88_example : exists w ps s,
  iplay Z (nothing Z) two_tables = Some (s, two_results) /\ hplay Z (no_tables Z, []) two_tables = Ok (w, ps, two_results) /\
  w_structs w = [] /\ map (w_arrays w) [0; 1; 2; 3; 4; 5]%nat = [None; None; None; None; None; None] /\ w_next w = 5%nat.
Proof.
  do 3 eexists. split; [vm_compute; reflexivity|]. split; [vm_compute; reflexivity|]. repeat split.
Qed.
(** A table created for 100 entries has room for 75. *)
Example C88_room_example : exists w ps rs s,
  let ops := OCreate 0 100 :: map (fun n => OEnter 0 [Z.of_nat n] (Some (Z.of_nat n))) (seq 1 75) ++ [OGet 0] in
  iplay Z (nothing Z) ops = Some (s, rs) /\ hplay Z (no_tables Z, []) ops = Ok (w, ps, rs) /\ last rs RDone = e 1 1.
Proof. do 4 eexists. cbn zeta. split; [vm_compute; reflexivity|]. split; [vm_compute; reflexivity|]. reflexivity. Qed.

(** C88 (refuted): a pointer to an entry of a table that is not destroyed can be used.
    Entering the seventh key moves the entries and releases the array the pointer
    points into.  After every program: a new key in a table that is full to three quarters
    ends the use of all pointers to its entries, for good. *)
Definition seven : list (hop Z) :=
  OCreate 0 8 :: map (fun n => OEnter 0 [Z.of_nat n] (Some (Z.of_nat n))) (seq 1 7).
Theorem C88_pointer_refuted :
  ~ forall (ops : list (hop Z)) s rs w ps rs' r p t en, iplay Z (nothing Z) ops = Some (s, rs) ->
    hplay Z (no_tables Z, []) ops = Ok (w, ps, rs') ->
    nth_error (s_ptrs s) r = Some (Some p) -> s_tabs s (p_tab p) = Some t -> i_id t = p_id p ->
    entry_of Z (p_key p) (i_list t) = Some en ->
    exists w' ps', hplay Z (w, ps) [OGet r] = Ok (w', ps', [REntry (Some en)]).
Proof.
  intros H. specialize (H seven). destruct (iplay Z (nothing Z) seven) as [[s rs]|] eqn:E; [|vm_compute in E; discriminate].
  destruct (hplay Z (no_tables Z, []) seven) as [[[w ps] rs']|] eqn:E2; [|vm_compute in E2; discriminate].
  vm_compute in E. injection E as <- <-. vm_compute in E2. injection E2 as <- <- <-.
  destruct (H _ _ _ _ _ 0%nat _ _ _ eq_refl eq_refl eq_refl eq_refl eq_refl eq_refl) as (w' & ps' & X).
  vm_compute in X. discriminate.
Qed.

Theorem C88_moved_refuted : forall V ops i key v more w ps rs t r p w' ps' rs',
  hplay V (no_tables V, []) ops = Ok (w, ps, rs) -> w_tab w i = Some t -> wrap 64 (t_used t + 1) > t_mask t - t_mask t / 4 ->
  find_in V w i key = Ok None -> nth_error ps r = Some (Some (t_arr t, p)) ->
  hplay V (w, ps) (OEnter i key v :: more) = Ok (w', ps', rs') ->
  hplay V (w', ps') [OGet r] = Bad UseAfterFree /\ forall x, hplay V (w', ps') [OPut r x] = Bad UseAfterFree.
Proof. exact moved. Qed.
Example C88_moved_example : exists w ps rs t w' ps' rs',
  let ops := OCreate 0 8 :: map (fun n => OEnter 0 [Z.of_nat n] (Some (Z.of_nat n))) (seq 1 6) in
  hplay Z (no_tables Z, []) ops = Ok (w, ps, rs) /\ w_tab w 0 = Some t /\ wrap 64 (t_used t + 1) > t_mask t - t_mask t / 4 /\
  find_in Z w 0 [7] = Ok None /\ nth_error ps 2 = Some (Some (t_arr t, 3)) /\
  hplay Z (w, ps) [OEnter 0 [7] None; OFind 0 [3]; OGet 7; OCreate 1 8] = Ok (w', ps', rs') /\ rs' = [e0 7; e 3 3; e 3 3; RCode 1].
Proof. do 7 eexists. cbn zeta. split; [vm_compute; reflexivity|]. split; [vm_compute; reflexivity|]. split; [vm_compute; reflexivity|]. repeat (split; [vm_compute; reflexivity|]). vm_compute. reflexivity. Qed.

(** C88 (refuted): after hcreate has been called again, hdestroy releases everything.
    The first table is lost: after every program, whatever is done then, both of its blocks stay. *)
Theorem C88_create_again_refuted : forall V ops i nel more w ps rs t w' ps' rs',
  hplay V (no_tables V, []) ops = Ok (w, ps, rs) -> w_tab w i = Some t ->
  hplay V (w, ps) (OCreate i nel :: more) = Ok (w', ps', rs') -> In (t_self t) (w_structs w') /\ w_arrays w' (t_arr t) <> None.
Proof. exact create_again. Qed.
Example C88_create_again_example : exists w ps rs t w' ps' rs',
  hplay Z (no_tables Z, []) [OCreate 0 8; OEnter 0 [97] (Some 1)] = Ok (w, ps, rs) /\ w_tab w 0 = Some t /\
  hplay Z (w, ps) [OCreate 0 8; OFind 0 [97]; ODestroy 0] = Ok (w', ps', rs') /\ rs' = [RCode 1; REntry None; RDone] /\
  w_tab w' 0 = None /\ w_structs w' = [t_self t].
Proof. do 7 eexists. split; [vm_compute; reflexivity|]. repeat (split; [vm_compute; reflexivity|]). vm_compute. reflexivity. Qed.

(** C88 (refuted): a table can be searched before it was created, or after it was destroyed;
    [musl_hsearch] does not test whether [htab.__tab] is NULL. *)
Theorem C88_search_first_refuted : forall V w ps i key v, w_tab w i = None ->
  hplay V (w, ps) [OFind i key] = Bad NullDeref /\ hplay V (w, ps) [OEnter i key v] = Bad NullDeref.
Proof. intros V w ps i key v T. cbn [hplay hstep]. unfold find_in, enter_in. rewrite T. split; reflexivity. Qed.

Print Assumptions C88_programs_partial.
Print Assumptions C88_all_released.
Print Assumptions C88_pointer_refuted.
Print Assumptions C88_moved_refuted.
Print Assumptions C88_create_again_refuted.
Print Assumptions C88_search_first_refuted.
