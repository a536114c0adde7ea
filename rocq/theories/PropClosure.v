(** C83: closures. *)
From Coq Require Import ZArith List Bool Lia.
From Verif Require Import Base TsearchModel TsearchProofs MapModel MapProofs ClosureModel ClosureSpec ClosureProofs Samples.
Import ListNotations.
Open Scope Z_scope.

(** For every table of functions, every program, every arguments: if under
    lexical scoping the program computes an integer (or nothing), running it with
    the library's maps, environments and closures ends with that integer (or
    NULL).  What is missing: programs that bind a name to nothing (refuted
    below; C83_nothing_partial says what they give). *)
Theorem C83_lexical_partial : forall K (kcmp : K -> K -> Z), total_cmp kcmp ->
  forall (code : list (prog K)) p args,
  (forall z, computes kcmp code false true p args (Some (SInt z)) ->
   exists k, forall k', (k <= k')%nat -> exists m, run_main K kcmp code k' p args = Ok (m, Some (VInt z))) /\
  (computes kcmp code false true p args None ->
   exists k, forall k', (k <= k')%nat -> exists m, run_main K kcmp code k' p args = Ok (m, None)).
Proof.
  intros K kcmp T code p args. split.
  - intros z C. destruct (computes_ok kcmp T code false true (or_introl eq_refl) p args _ C) as (k & H). exists k. intros k' LE.
    destruct (H k' LE) as (m & v & E & Q). exists m. rewrite E. destruct v as [[]|]; cbn in Q; try tauto. congruence.
  - intros C. destruct (computes_ok kcmp T code false true (or_introl eq_refl) p args _ C) as (k & H). exists k. intros k' LE.
    destruct (H k' LE) as (m & v & E & Q). exists m. rewrite E. destruct v as [[]|]; cbn in Q; try tauto.
Qed.

(** Finding the derivation of a concrete program *)
Ltac go_find := first
  [ apply scoped_none
  | eapply scoped_here; [reflexivity|reflexivity|first [left; reflexivity|right; split; discriminate]]
  | eapply scoped_out; [reflexivity|reflexivity|go_find]
  | eapply scoped_past; [reflexivity|reflexivity|reflexivity|intros (N1 & N2); congruence|go_find] ].
Ltac go_op := first
  [ eapply does_num; unfold is_int32; lia
  | eapply does_arg
  | eapply does_count; unfold is_int32; cbn; lia
  | eapply does_add; [reflexivity|reflexivity|unfold is_int32; lia]
  | eapply does_mul; [reflexivity|reflexivity|unfold is_int32; lia]
  | eapply does_map
  | eapply does_bind; [reflexivity|reflexivity|reflexivity|right; split; discriminate|cbn; lia]
  | eapply does_bind; [reflexivity|reflexivity|reflexivity|left; reflexivity|cbn; lia]
  | eapply does_env; [reflexivity|reflexivity]
  | eapply does_closure; reflexivity
  | eapply does_find; [reflexivity|go_find] ].
Ltac go := cbn [app update length bound]; first
  [ eapply runs_return; reflexivity
  | eapply runs_zero; [reflexivity|]; go
  | eapply runs_nonzero; [reflexivity|discriminate|]; go
  | eapply runs_call; [reflexivity|repeat (constructor; [reflexivity|]); constructor|reflexivity|go|go]
  | eapply runs_do; [go_op|go] ].

(** A list of calls *)
Definition block (l : list (op Z)) (i : nat) : prog Z := fold_right Do (Return i) l.
Definition result {K} (o : outcome (mem K * option val)) : outcome (option val) := bind o (fun r => Ok (snd r)).

(** The program of test/test-func.c:341-392; names are single letters. *)
Definition baz : prog Z := block
  [OArg; OArg; OArg; OFind 0 109; OFind 0 110; OFind 0 120; OFind 0 121;
   OAdd 1 4; OAdd 8 6; OMul 2 5; OMul 10 7; OAdd 9 11; OAdd 12 3] 13.
Definition bar : prog Z := block
  [OArg; OArg; OArg; OMap; ONum 2; OBind 4 120 5; ONum 5; OBind 4 121 7; OEnv 0 4; OClosure 9 1;
   ONum 1; ONum 2; ONum 3; OCall 10 3 [11; 12; 13]%nat; OAdd 1 2; OAdd 15 3; OMul 16 14] 17.
Definition test_main : prog Z := block
  [OMap; ONum 2; OBind 1 109 2; ONum 1; OBind 1 110 4; OEnv 0 1; OClosure 6 0; ONum 1; OCall 7 3 [8; 8; 8]%nat] 9.
Example C83_test_example :
  computes zcmp [bar; baz] false true test_main [] (Some (SInt 54)) /\
  result (run_main Z zcmp [bar; baz] 2 test_main []) = Ok (Some (VInt 54)).
Proof. split; [eexists; unfold test_main, bar, baz, block; cbn [fold_right]; go|vm_compute; reflexivity]. Qed.

(** Lexical, not dynamic: a function that reads x, made where x is 1, gives 1 when
    called from a function in whose scope x is 2. *)
Definition read_x : prog Z := block [OFind 0 120] 1.
Definition caller : prog Z := block [OArg; OMap; ONum 2; OBind 2 120 3; OEnv 0 2; OCall 1 0 []] 6.
Definition two_x : prog Z := block [OMap; ONum 1; OBind 1 120 2; OEnv 0 1; OClosure 4 0; OClosure 4 1; OCall 6 1 [5]%nat] 7.
Example C83_scope_example :
  computes zcmp [read_x; caller] false true two_x [] (Some (SInt 1)) /\
  result (run_main Z zcmp [read_x; caller] 2 two_x []) = Ok (Some (VInt 1)).
Proof. split; [eexists; unfold two_x, caller, read_x, block; cbn [fold_right]; go|vm_compute; reflexivity]. Qed.

(** State that lasts: counters.  [count] adds its argument to the variable c of
    the scope it was made in (f is the frame itself); two counters do not
    disturb each other. *)
Definition count : prog Z := block [OArg; OFind 0 102; OFind 0 99; OAdd 3 1; OBind 2 99 4] 4.
Definition counter : prog Z := block [OMap; OBind 1 102 1; OCount; OBind 1 99 3; OEnv 0 1; OClosure 5 0] 6.
Definition two_counters : prog Z := block
  [OArg; OClosure 0 1; OCall 2 0 []; OCall 2 100 []; OCall 3 1 [1]%nat; OCall 4 1 [1]%nat; OCall 3 1 [1]%nat; OCall 3 1 [1]%nat;
   OCall 4 1 [1]%nat; ONum 1000; OMul 8 10; OAdd 11 9] 12.
Example C83_counter_example :
  computes zcmp [count; counter] false true two_counters [7] (Some (SInt 21114)) /\
  result (run_main Z zcmp [count; counter] 2 two_counters [7]) = Ok (Some (VInt 21114)).
Proof. split; [eexists; unfold two_counters, counter, count, block; cbn [fold_right]; go|vm_compute; reflexivity]. Qed.

(** A function that calls itself by its name: factorial.  A name that is bound
    nowhere is nothing. *)
Definition fact : prog Z := Do OArg (IfZero 1 (Do (ONum 1) (Return 2))
  (block [ONum (-1); OAdd 1 2; OFind 0 102; OCall 4 1 [3]%nat; OMul 1 5] 6)).
Definition fact_main : prog Z := block [OArg; OMap; OEnv 0 2; OClosure 3 0; OBind 2 102 4; OCall 4 1 [1]%nat] 6.
Example C83_recursion_example :
  computes zcmp [fact] false true fact_main [6] (Some (SInt 720)) /\
  result (run_main Z zcmp [fact] 7 fact_main [6]) = Ok (Some (VInt 720)) /\
  computes zcmp [] false true (block [OMap; OEnv 0 1; OFind 2 120] 3) [] None /\
  result (run_main Z zcmp [] 0 (block [OMap; OEnv 0 1; OFind 2 120] 3) []) = Ok None.
Proof.
  split; [eexists; unfold fact_main, fact, block; cbn [fold_right]; go|]. split; [vm_compute; reflexivity|].
  split; [eexists; unfold block; cbn [fold_right]; go|vm_compute; reflexivity].
Qed.

(** A name bound to nothing in an inner scope: the outer one is seen. *)
Theorem C83_nothing_refuted : exists (p : prog Z), computes zcmp [] true true p [] None /\
  forall k, result (run_main Z zcmp [] k p []) = Ok (Some (VInt 5)).
Proof.
  exists (block [OMap; ONum 5; OBind 1 120 2; OEnv 0 1; OMap; OBind 5 120 3; OEnv 4 5; OFind 7 120] 8). split.
  - eexists; unfold block; cbn [fold_right]; go.
  - intros k. vm_compute. reflexivity.
Qed.

(** For every program, those that bind names to nothing included: it gives what
    it computes when a name bound to nothing does not hide what the name is bound
    to further out. *)
Theorem C83_nothing_partial : forall K (kcmp : K -> K -> Z), total_cmp kcmp ->
  forall (code : list (prog K)) p args,
  (forall z, computes kcmp code true false p args (Some (SInt z)) ->
   exists k, forall k', (k <= k')%nat -> exists m, run_main K kcmp code k' p args = Ok (m, Some (VInt z))) /\
  (computes kcmp code true false p args None ->
   exists k, forall k', (k <= k')%nat -> exists m, run_main K kcmp code k' p args = Ok (m, None)).
Proof.
  intros K kcmp T code p args. split.
  - intros z C. destruct (computes_ok kcmp T code true false (or_intror eq_refl) p args _ C) as (k & H). exists k. intros k' LE.
    destruct (H k' LE) as (m & v & E & Q). exists m. rewrite E. destruct v as [[]|]; cbn in Q; try tauto. congruence.
  - intros C. destruct (computes_ok kcmp T code true false (or_intror eq_refl) p args _ C) as (k & H). exists k. intros k' LE.
    destruct (H k' LE) as (m & v & E & Q). exists m. rewrite E. destruct v as [[]|]; cbn in Q; try tauto.
Qed.

(** A variable that is taken back: [mask] binds x to its argument and calls a
    reader made in its scope.  With nothing (what binding a new name gives) the
    reader sees the outer 5; the binding remains a binding: setting it again gives
    back nothing, and then it hides the outer one. *)
Definition mask : prog Z := block [OArg; OMap; OBind 2 120 1; OEnv 0 2; OClosure 4 0; OCall 5 0 []] 6.
Definition mask_main : prog Z := block
  [OMap; ONum 5; OBind 1 120 2; OEnv 0 1; OClosure 4 1; OCall 5 1 [3]%nat; OCall 5 1 [6]%nat; ONum 8; OCall 5 1 [8]%nat;
   OMap; OBind 10 120 3; OBind 10 120 8; OEnv 4 10; OFind 13 120;
   OMul 6 9; OAdd 15 14] 16.
Example C83_nothing_example :
  computes zcmp [read_x; mask] true false mask_main [] (Some (SInt 48)) /\
  result (run_main Z zcmp [read_x; mask] 3 mask_main []) = Ok (Some (VInt 48)).
Proof. split; [eexists; unfold mask_main, mask, read_x, block; cbn [fold_right]; go|vm_compute; reflexivity]. Qed.

Print Assumptions C83_lexical_partial.
Print Assumptions C83_nothing_partial.
Print Assumptions C83_nothing_refuted.
