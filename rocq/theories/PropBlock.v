(** C85: blocks of bytes (block.c).  C86: strings made of given bytes (str.c). *)
From Coq Require Import ZArith List Bool Lia.
From Verif Require Import Base ArrayLemmas StrModel StrProofs BlockModel.
Import ListNotations.
Open Scope Z_scope.
Local Arguments Z.of_nat : simpl never.
Local Arguments Z.to_nat : simpl never.
Local Arguments Z.pow : simpl never.
Local Arguments Z.add : simpl never.
Local Arguments Z.sub : simpl never.

(** * C85: blocks *)
(** [n] bytes of a block may be used: each index is inside. *)
Definition usable (d : list (option Z)) (n : Z) : Prop := forall i, 0 <= i < n -> exists c, nth_error d (Z.to_nat i) = Some c.

Lemma nonzero_ok n : 0 <= n < 2 ^ 64 - 80 -> block_mk_nonzero n = Ok (Chunk (n + 80) 72 0 n (repeat None (Z.to_nat (n + 8)))).
Proof.
  intros N. unfold block_mk_nonzero, BLOCK_HDR, BLOCK_OFF. unfold wrap. rewrite Z.mod_small by lia.
  replace (n + 80 <? 72) with false by (symmetry; apply Z.ltb_ge; lia). do 3 f_equal. lia.
Qed.
Lemma usable_of d n : n <= Z.of_nat (length d) -> usable d n.
Proof. intros L i I. destruct (nth_error d (Z.to_nat i)) as [c|] eqn:E; [eauto|]. apply nth_error_None in E. lia. Qed.

(** Full statement: a block made for [n] bytes has [n] bytes that may be used, which
    are 0 for cee_block_mk and what [init_f] makes of them for cee_block_mk_e, and
    cee_block_size gives [n].  That is false for sizes close to 2^64 (below).
    Proved: for all others. *)
Theorem C85_block_mk_partial : forall n, 0 <= n < 2 ^ 64 - 80 ->
  (exists b, block_mk_nonzero n = Ok b /\ usable (k_data b) n /\ block_size b = Ok n) /\
  (exists b, block_mk n = Ok b /\ usable (k_data b) n /\ (forall i, 0 <= i < n -> nth_error (k_data b) (Z.to_nat i) = Some (Some 0)) /\ block_size b = Ok n).
Proof.
  intros n N. assert (E := nonzero_ok n N). split.
  - eexists. split; [exact E|]. split; [|reflexivity]. apply usable_of. cbn [k_data]. rewrite repeat_length. lia.
  - unfold block_mk. rewrite E. cbn [bind k_data k_size k_off k_cap_at k_cap]. rewrite repeat_length.
    replace (n <=? Z.of_nat (Z.to_nat (n + 8))) with true by (symmetry; apply Z.leb_le; lia). eexists. split; [reflexivity|]. cbn [k_data].
    split; [|split; [|reflexivity]].
    + apply usable_of. rewrite app_length, repeat_length. lia.
    + intros i I. rewrite nth_error_app1 by (rewrite repeat_length; lia). apply nth_error_repeat. lia.
Qed.
Theorem C85_block_mk_e_partial : forall n init_f, 0 <= n < 2 ^ 64 - 80 ->
  (forall d, n <= Z.of_nat (length d) -> exists d', init_f d = Ok d' /\ length d' = length d) ->
  exists d d' b, n <= Z.of_nat (length d) /\ init_f d = Ok d' /\ block_mk_e n init_f = Ok b /\ k_data b = d' /\ usable (k_data b) n /\ block_size b = Ok n.
Proof.
  intros n f N F. assert (E := nonzero_ok n N). destruct (F (repeat None (Z.to_nat (n + 8)))) as (d' & Ed & L); [rewrite repeat_length; lia|].
  exists (repeat None (Z.to_nat (n + 8))), d'. eexists. split; [rewrite repeat_length; lia|]. split; [exact Ed|]. unfold block_mk_e. rewrite E. cbn [bind k_data]. rewrite Ed. split; [reflexivity|].
  split; [reflexivity|]. split; [|reflexivity]. apply usable_of. cbn [k_data]. rewrite L, repeat_length. lia.
Qed.
Example C85_example : block_mk 3 = Ok (Chunk 83 72 0 3 (repeat (Some 0) 3 ++ repeat None 8)) /\
  block_mk_e 2 (fun d => aset d 1 (Some 7)) = Ok (Chunk 82 72 0 2 (None :: Some 7 :: repeat None 8)).
Proof. vm_compute. auto. Qed.

(** The size of the allocation wraps around. *)
Theorem C85_block_mk_refuted : exists n, 0 <= n < 2 ^ 64 /\ block_mk n = Bad OutOfBounds /\ block_mk_nonzero (n - 10) = Bad OutOfBounds.
Proof. exists (2 ^ 64 - 1). split; [lia|]. vm_compute. auto. Qed.

(** So it does for each of the other sizes: memset leaves the allocation; without
    memset either the header does not fit or there is a block that says it has [n]
    bytes and has less than 8. *)
Theorem C85_wrap_all_refuted : forall n, 2 ^ 64 - 80 <= n < 2 ^ 64 ->
  block_mk n = Bad OutOfBounds /\
  (n < 2 ^ 64 - 8 -> block_mk_nonzero n = Bad OutOfBounds) /\
  (2 ^ 64 - 8 <= n -> exists b, block_mk_nonzero n = Ok b /\ block_size b = Ok n /\ forall m, usable (k_data b) m <-> m <= n - (2 ^ 64 - 8)).
Proof.
  intros n N. assert (W : wrap 64 (n + BLOCK_HDR) = n + 80 - 2 ^ 64).
  { unfold wrap, BLOCK_HDR. symmetry. apply (Z.mod_unique _ _ 1); lia. }
  unfold block_mk, block_mk_nonzero. rewrite W. unfold BLOCK_OFF. destruct (Z.ltb_spec (n + 80 - 2 ^ 64) 72) as [L|L]; cbn [bind k_data].
  - split; [reflexivity|]. split; [reflexivity|]. lia.
  - rewrite repeat_length. split; [|split; [lia|]].
    + destruct (Z.leb_spec n (Z.of_nat (Z.to_nat (n + 80 - 2 ^ 64 - 72)))); [lia|reflexivity].
    + intros _. eexists. split; [reflexivity|]. split; [reflexivity|]. intros m. cbn [k_data]. split.
      * intros U. destruct (Z.le_gt_cases m (n - (2 ^ 64 - 8))) as [|G]; [assumption|]. exfalso.
        destruct (U (n - (2 ^ 64 - 8))) as (c & E); [lia|]. assert (X : nth_error (repeat (@None Z) (Z.to_nat (n + 80 - 2 ^ 64 - 72))) (Z.to_nat (n - (2 ^ 64 - 8))) <> None) by (rewrite E; discriminate).
        apply nth_error_Some in X. rewrite repeat_length in X. lia.
      * intros M. apply usable_of. rewrite repeat_length. lia.
Qed.

Example C85_wrap_example : block_mk_nonzero (2 ^ 64 - 3) = Ok (Chunk 77 72 0 (2 ^ 64 - 3) (repeat None 5)) /\
  block_mk (2 ^ 64 - 3) = Bad OutOfBounds /\ block_mk_nonzero (2 ^ 64 - 9) = Bad OutOfBounds.
Proof. vm_compute. auto. Qed.
(** The pointer to a string "can be safely casted to struct cee_block *" (cee.h:160 and
    :181): then cee_block_size should give a number of bytes that may be used.  It is
    false of every string: the header of a string is shorter than that of a block,
    so the size is read from before the allocation. *)
Theorem C85_string_as_block_refuted : forall n f args b, str_mk_e n f args = Ok b -> block_size (as_block b) = Bad OutOfBounds.
Proof. reflexivity. Qed.
Example C85_example_string : exists b, str_mk_e 100 (Some [PLit [97]]) [] = Ok b /\ block_size (as_block b) = Bad OutOfBounds.
Proof. eexists. split; [vm_compute; reflexivity|reflexivity]. Qed.
(** The same for the block that cee_block_empty gives, which should have the size 0. *)
Theorem C85_empty_refuted : block_size block_empty = Bad OutOfBounds.
Proof. reflexivity. Qed.

(** * C86: strings of given bytes *)
(** Full statement: for all bytes [s] without a NUL, cee_str_strn(st, s, n) for [n]
    the length of [s] gives the string [s], on which the other operations work.
    This is never so (below).  Proved: if the NUL is among the bytes given, it is a
    string on which any sequence of operations works (as in C13). *)
Theorem C86_strn_partial : forall t m ops, nonzero t ->
  (m = MalLoc \/ (m = RealLoc /\ existsb is_add ops = false)) ->
  Forall op_ok ops -> Z.of_nat (length t) + ops_size ops < 2 ^ 31 ->
  exists b0, str_strn (t ++ [0]) = Ok b0 /\ content (c_data b0) t /\ str_end b0 = Ok (Some (Z.of_nat (length t))) /\
  exists b, str_run (CStr (c_cap b0) (c_mem b0) m (c_data b0)) ops = Ok b /\
    content (c_data b) (text_run t ops) /\ Z.of_nat (length (c_data b)) = c_mem b - 64.
Proof.
  intros t m ops NT ME FO HS. pose proof (ops_size_nonneg ops). unfold str_strn.
  assert (LT : Z.of_nat (length (t ++ [0])) + 1 = Z.of_nat (length t) + 2) by (rewrite app_length; cbn [length]; lia). rewrite LT.
  destruct (block_for_spec (Z.of_nat (length t) + 2) ltac:(lia)) as (B1 & B2 & B3 & B4). rewrite B4.
  set (bb := block_for (Z.of_nat (length t) + 2)) in *.
  destruct (put_text t [] (repeat None (Z.to_nat (c_mem bb - 64))) 0) as (q' & E & L); [rewrite repeat_length; lia|reflexivity|]. cbn [app length] in E, L. rewrite repeat_length in L. rewrite E. cbn [bind].
  assert (C : content (c_data (set_data bb (map Some t ++ Some 0 :: q'))) t) by (split; [auto|eexists; reflexivity]).
  eexists. split; [reflexivity|]. split; [exact C|]. split; [unfold str_end; rewrite (strlen_content _ _ C); reflexivity|].
  destruct (str_run_ok ops (CStr (c_cap bb) (c_mem bb) m (map Some t ++ Some 0 :: q')) t) as (b & E1 & OK1 & _); auto.
  - split; [exact C|]. cbn [c_mem c_cap c_data]. split; [lia|]. split; [auto|]. split; [|lia]. rewrite app_length, map_length. cbn [length]. lia.
  - cbn [c_mem]. lia.
  - exists b. split; [exact E1|]. destruct OK1 as (A & _ & _ & B & _). auto.
Qed.
(** The bytes given are in any case the first bytes of the result, and there is room
    for a NUL; but what follows them has not been written, so strlen, and every
    operation that needs the length, reads indeterminate memory. *)
Theorem C86_strn_bytes : forall s, Z.of_nat (length s) < 2 ^ 62 ->
  exists b rest, str_strn s = Ok b /\ c_data b = map Some s ++ None :: rest /\ (nonzero s -> c_strlen (c_data b) = Bad Uninit).
Proof.
  intros s L. unfold str_strn. destruct (block_for_spec (Z.of_nat (length s) + 1) ltac:(lia)) as (B1 & B2 & B3 & B4). rewrite B4.
  set (bb := block_for (Z.of_nat (length s) + 1)) in *. set (k := (Z.to_nat (c_mem bb - 64) - length s - 1)%nat).
  replace (repeat None (Z.to_nat (c_mem bb - 64))) with ([] ++ repeat (@None Z) (length s) ++ None :: repeat None k).
  2:{ cbn [app]. change (None :: repeat (@None Z) k) with (repeat (@None Z) (S k)). rewrite <- repeat_app. f_equal. lia. }
  rewrite put_spec by (rewrite ?repeat_length; reflexivity). cbn [bind app]. eexists _, (repeat None k). split; [reflexivity|]. split; [reflexivity|].
  cbn [set_data c_data]. generalize (repeat (@None Z) k). clear. intros q NZ. induction NZ as [|c s C NZ IH]; cbn [map app c_strlen]; [reflexivity|].
  replace (c =? 0) with false by (symmetry; apply Z.eqb_neq; auto). rewrite IH. reflexivity.
Qed.
Theorem C86_strn_refuted : exists s b, nonzero s /\ s = [97; 98] /\ str_strn s = Ok b /\ (forall t, ~ content (c_data b) t) /\ str_end b = Bad Uninit /\ str_add b 99 = Bad Uninit.
Proof.
  exists [97; 98]. eexists. split; [repeat constructor; discriminate|]. split; [reflexivity|]. split; [vm_compute; reflexivity|]. split; [|vm_compute; auto].
  intros t C. apply strlen_content in C. vm_compute in C. discriminate.
Qed.
(** cee_str_end "if the array is not null terminated, NULL is returned": it runs over
    the end instead. *)
Theorem C86_end_refuted : exists b, Forall (fun c => exists x, c = Some x) (c_data b) /\ (forall t, ~ content (c_data b) t) /\ str_end b = Bad OutOfBounds.
Proof.
  exists (CStr 56 128 MalLoc (repeat (Some 97) 64)). split; [apply Forall_forall; intros x I; apply repeat_spec in I; eauto|]. split; [|vm_compute; auto].
  intros t C. apply strlen_content in C. vm_compute in C. discriminate.
Qed.
(** For all arrays with every byte set: the end, if there is a NUL, and otherwise
    it runs over the end, always. *)
Theorem C86_end_exact : forall b d, c_data b = map Some d ->
  (forall t, content (c_data b) t -> str_end b = Ok (Some (Z.of_nat (length t)))) /\
  ((forall t, ~ content (c_data b) t) -> str_end b = Bad OutOfBounds).
Proof.
  intros b d E. unfold str_end. split.
  - intros t C. rewrite (strlen_content _ _ C). reflexivity.
  - rewrite E. intros N. assert (NZ : nonzero d).
    { destruct (in_dec Z.eq_dec 0 d) as [I|I].
      - exfalso. clear E. revert N. induction d as [|c d IH]; [destruct I|]. intros N. destruct (Z.eq_dec c 0) as [->|Nc].
        + apply (N []). split; [constructor|]. exists (map Some d). reflexivity.
        + destruct I as [->|I]; [congruence|]. apply (IH I). intros t (Z1 & r & Er). apply (N (c :: t)). split; [constructor; auto|]. exists r. cbn [map app]. rewrite Er. reflexivity.
      - apply Forall_forall. intros x Ix ->. auto. }
    clear N E. assert (X : c_strlen (map Some d) = Bad OutOfBounds).
    { induction NZ as [|c d Nc NZ IH]; cbn [map c_strlen]; [reflexivity|]. destruct (Z.eqb_spec c 0); [congruence|]. rewrite IH. reflexivity. }
    rewrite X. reflexivity.
Qed.
Example C86_end_exact_example : str_end (CStr 56 128 MalLoc (map Some [97; 0; 98])) = Ok (Some 1) /\
  str_end (CStr 56 128 MalLoc (map Some [97; 98])) = Bad OutOfBounds.
Proof. vm_compute. auto. Qed.
(** cee_str_ncat appends nothing. *)
Theorem C86_ncat_refuted : exists b s n, content (c_data b) [97] /\ s = [98] /\ n = 1 /\ str_ncat b s n = None.
Proof. exists (CStr 56 128 MalLoc (Some 97 :: Some 0 :: repeat None 62)), [98], 1. repeat split; [repeat constructor; discriminate|]. exists (repeat None 62). reflexivity. Qed.
Example C86_example : exists b0 b, str_strn [97; 98; 0] = Ok b0 /\ str_end b0 = Ok (Some 2) /\ str_run b0 [SAdd 99; SCatf (Some [PDir]) [[100]]] = Ok b /\
  firstn 5 (c_data b) = map Some [97; 98; 99; 100; 0].
Proof. do 2 eexists. split; [vm_compute; reflexivity|]. split; [reflexivity|]. split; [vm_compute; reflexivity|reflexivity]. Qed.

Print Assumptions C85_block_mk_partial.
Print Assumptions C85_block_mk_e_partial.
Print Assumptions C85_block_mk_refuted.
Print Assumptions C85_wrap_all_refuted.
Print Assumptions C85_string_as_block_refuted.
Print Assumptions C85_empty_refuted.
Print Assumptions C86_strn_partial.
Print Assumptions C86_strn_bytes.
Print Assumptions C86_strn_refuted.
Print Assumptions C86_end_refuted.
Print Assumptions C86_end_exact.
Print Assumptions C86_ncat_refuted.
