(** Properties of string views: C17 (views stay inside, pieces partition) and
    C51 (comparisons, searching, number parsing). *)
From Coq Require Import ZArith List Bool Lia.
From Verif Require Import Base StrViewModel StrViewProofs.
Import ListNotations.
Open Scope Z_scope.

(** ** C17 *)
(** Trimming removes exactly the blanks at the chosen end(s). *)
Theorem C17_trim : forall mem v w, viewed mem v w ->
  (exists l a b, sv_trim_left mem v = Ok l /\ viewed mem l b /\ inside l v /\ w = a ++ b /\
     Forall blank a /\ (forall c b', b = c :: b' -> ~ blank c)) /\
  (exists r a b, sv_trim_right mem v = Ok r /\ viewed mem r a /\ inside r v /\ w = a ++ b /\
     Forall blank b /\ (forall a' c, a = a' ++ [c] -> ~ blank c)) /\
  (exists t a b c, sv_trim mem v = Ok t /\ viewed mem t b /\ inside t v /\ w = a ++ b ++ c /\
     Forall blank a /\ Forall blank c /\
     (forall x b', b = x :: b' -> ~ blank x) /\ (forall b' x, b = b' ++ [x] -> ~ blank x)).
Proof.
  intros mem v w V.
  assert (B : forall a, Forall (fun c => isspace c = true) a -> Forall blank a).
  { intros a. apply Forall_impl. intros c. apply isspace_blank. }
  split; [|split].
  - destruct (trim_left_ok mem v w V) as (l & a & b & E & (F & N) & R & V' & I).
    exists l, a, b. split; auto. split; auto. split; auto. split; auto. split; auto.
    intros c b' Eb. apply isspace_not. eauto.
  - destruct (trim_right_ok mem v w V) as (r & b & a & E & (F & N) & R & V' & I).
    exists r, a, b. split; auto. split; auto. split; auto. split; auto. split; auto.
    intros a' c Eb. apply isspace_not. eauto.
  - destruct (trim_ok mem v w V) as (t & a & b & c & E & (F & N) & (F2 & N2) & R & V' & I).
    exists t, a, b, c. split; auto. split; auto. split; auto. split; auto. split; auto. split; auto. split.
    + intros x b' ->. apply isspace_not. apply (N x (b' ++ c)). auto.
    + intros b' x Eb. apply isspace_not. eauto.
Qed.
Print Assumptions C17_trim.

(** Chopping n bytes off either end. *)
Theorem C17_chop_sides : forall mem v w n, fits mem -> viewed mem v w -> 0 <= n ->
  (let (l, rest) := sv_chop_left v n in
   exists a b, w = a ++ b /\ Z.of_nat (length a) = Z.min n (Z.of_nat (length w)) /\
     viewed mem l a /\ viewed mem rest b /\ inside l v /\ inside rest v) /\
  (let (r, rest) := sv_chop_right v n in
   exists a b, w = b ++ a /\ Z.of_nat (length a) = Z.min n (Z.of_nat (length w)) /\
     viewed mem r a /\ viewed mem rest b /\ inside r v /\ inside rest v).
Proof.
  intros mem v w n F V N. pose proof (chop_left_ok mem F v w n V N) as A. pose proof (chop_right_ok mem F v w n V N) as B.
  destruct (sv_chop_left v n). destruct (sv_chop_right v n). auto.
Qed.
Print Assumptions C17_chop_sides.

(** Chopping at the first delimiter byte. *)
Theorem C17_chop_by_delim : forall mem v w d, fits mem -> viewed mem v w ->
  exists r rest a, sv_chop_by_delim mem v d = Ok (r, rest) /\ viewed mem r a /\ ~ In d a /\
    inside r v /\ inside rest v /\
    ((w = a /\ viewed mem rest []) \/ exists b, w = a ++ d :: b /\ viewed mem rest b).
Proof. intros mem v w d F V. exact (chop_by_delim_ok mem F v w d V). Qed.
Print Assumptions C17_chop_by_delim.

Theorem C17_try_chop_by_delim : forall mem v w d, fits mem -> viewed mem v w ->
  exists r rest, sv_try_chop_by_delim mem v d = Ok (r, rest) /\ inside rest v /\
    match r with
    | None => rest = v /\ ~ In d w
    | Some r => inside r v /\ exists a b, w = a ++ d :: b /\ ~ In d a /\ viewed mem r a /\ viewed mem rest b
    end.
Proof. intros mem v w d F V. exact (try_chop_ok mem F v w d V). Qed.
Print Assumptions C17_try_chop_by_delim.

(** Chopping and taking the longest prefix satisfying a predicate. *)
Theorem C17_while : forall mem v w p, fits mem -> viewed mem v w ->
  (exists r a b, sv_take_left_while mem v p = Ok r /\ w = a ++ b /\ longest p a b /\ viewed mem r a /\ inside r v) /\
  (exists r rest a b, sv_chop_left_while mem v p = Ok (r, rest) /\ w = a ++ b /\ longest p a b /\
     viewed mem r a /\ viewed mem rest b /\ inside r v /\ inside rest v).
Proof.
  intros mem v w p F V. split.
  - destruct (take_while_ok mem v w p V) as (r & a & b & E & L & R & V1 & I). exists r, a, b. auto.
  - destruct (chop_while_ok mem F v w p V) as (r & v' & a & b & E & L & R & V1 & V2 & I1 & I2).
    exists r, v', a, b. auto 10.
Qed.
Print Assumptions C17_while.

(** Chopping at the first occurrence of a text.  Missing from the full property:
    a view that ends with the delimiter, and a delimiter longer than the view;
    both are false, see the two refutations below. *)
Theorem C17_chop_by_sv_partial : forall mem v d w wd, fits mem -> viewed mem v w -> viewed mem d wd ->
  (length wd <= length w)%nat -> (forall a, w <> a ++ wd) ->
  exists r rest a, sv_chop_by_sv mem v d = Ok (r, rest) /\ viewed mem r a /\ inside r v /\ inside rest v /\
   ((w = a /\ viewed mem rest [] /\ forall x y, w <> x ++ wd ++ y) \/
    (exists b, w = a ++ wd ++ b /\ viewed mem rest b /\ first_occ wd a b)).
Proof. intros mem v d w wd F V D L N. exact (chop_by_sv_ok mem F v d w wd V D L N). Qed.
Print Assumptions C17_chop_by_sv_partial.

(** For all views and delimiters: an occurrence that ends the view is not seen (then the
    whole view is chopped off); with a longer delimiter nothing is chopped off and
    what remains starts behind the view and has almost 2^64 bytes. *)
Theorem C17_chop_by_sv_exact : forall mem v d w wd, fits mem -> viewed mem v w -> viewed mem d wd ->
  exists r rest, sv_chop_by_sv mem v d = Ok (r, rest) /\ inside r v /\
  (((length wd <= length w)%nat /\ inside rest v /\
    ((viewed mem r w /\ viewed mem rest [] /\ forall x y, w = x ++ wd ++ y -> y = []) \/
     (exists a b, b <> [] /\ w = a ++ wd ++ b /\ viewed mem r a /\ viewed mem rest b /\ first_occ wd a b))) \/
   ((length w < length wd)%nat /\ viewed mem r [] /\ v_off rest = v_off v + Z.of_nat (length wd) /\
    v_cnt rest = 2 ^ 64 - Z.of_nat (length wd - length w))).
Proof.
  intros mem v d w wd F V D. destruct (Nat.le_gt_cases (length wd) (length w)) as [L|L].
  - destruct (chop_by_sv_all mem F v d w wd V D L) as (r & rest & a & E & V1 & I1 & I2 & H). exists r, rest. split; auto. split; auto. left.
    split; auto. split; auto. destruct H as [(-> & H2 & H3)|(b & NB & H1 & H2 & H3)]; [left; auto|right; exists a, b; auto].
  - destruct (chop_by_sv_longer mem F v d w wd V D L) as (r & rest & E & V1 & I1 & O & C). exists r, rest. split; auto. split; auto. right.
    split; auto. split; auto. split; auto. rewrite C. lia.
Qed.
(** "--ab--" at "--", then the rest "ab--" at "--" *)
Example C17_chop_by_sv_exact_example : let m := [45; 45; 97; 98; 45; 45] in
  sv_chop_by_sv m (View 0 6) (View 0 2) = Ok (View 0 0, View 2 4) /\ sv_chop_by_sv m (View 2 4) (View 0 2) = Ok (View 2 4, View 6 0) /\
  sv_chop_by_sv m (View 2 1) (View 0 4) = Ok (View 2 0, View 6 (2 ^ 64 - 3)).
Proof. vm_compute. auto. Qed.
Print Assumptions C17_chop_by_sv_exact.

(** "ab--" chopped at "--" gives "ab--": the delimiter is not removed. *)
Theorem C17_chop_by_sv_end_refuted : exists mem v d w wd r rest, fits mem /\ viewed mem v w /\ viewed mem d wd /\
  (exists a, w = a ++ wd /\ wd <> []) /\ sv_chop_by_sv mem v d = Ok (r, rest) /\ viewed mem r w.
Proof.
  exists [97; 98; 45; 45], (View 0 4), (View 2 2), [97; 98; 45; 45], [45; 45], (View 0 4), (View 4 0).
  split; [reflexivity|]. split; [exists [], []; auto|]. split; [exists [97; 98], []; auto|].
  split; [exists [97; 98]; split; [auto|discriminate]|]. split; [reflexivity|]. exists [], []; auto.
Qed.
Print Assumptions C17_chop_by_sv_end_refuted.

(** A delimiter longer than the view: both views returned reach outside it (the
    remaining count wraps to almost 2^64). *)
Theorem C17_chop_by_sv_long_refuted : exists mem v d w wd r rest, fits mem /\ viewed mem v w /\ viewed mem d wd /\
  sv_chop_by_sv mem v d = Ok (r, rest) /\ ~ inside rest v /\ v_cnt rest = 2 ^ 64 - 1.
Proof.
  exists [97; 45; 45], (View 0 1), (View 1 2), [97], [45; 45], (View 0 0), (View 2 (2 ^ 64 - 1)).
  split; [reflexivity|]. split; [exists [], [45; 45]; auto|]. split; [exists [97], []; auto|].
  split; [reflexivity|]. split; [|reflexivity]. unfold inside. cbn. lia.
Qed.
Print Assumptions C17_chop_by_sv_long_refuted.

(** A view of a C string. *)
Theorem C17_from_cstr : forall s rest, Forall (fun c => c <> 0) s ->
  exists v, sv_from_cstr (s ++ 0 :: rest) = Ok v /\ viewed (s ++ 0 :: rest) v s.
Proof. exact from_cstr_ok. Qed.
Print Assumptions C17_from_cstr.

(** Concrete cases: " a b " inside a larger text. *)
Example C17_sample : let mem := [120; 32; 97; 44; 98; 32; 0] in let v := View 1 5 in
  fits mem /\ viewed mem v [32; 97; 44; 98; 32] /\
  sv_trim mem v = Ok (View 2 3) /\ sv_chop_by_delim mem v 44 = Ok (View 1 2, View 4 2) /\
  sv_chop_left v 2 = (View 1 2, View 3 3) /\ sv_chop_right v 9 = (View 1 5, View 1 0) /\
  sv_chop_by_sv mem v (View 3 1) = Ok (View 1 2, View 4 2) /\
  sv_take_left_while mem v (fun c => c <? 90) = Ok (View 1 1).
Proof. split; [reflexivity|]. split; [exists [120], [0]; auto|]. repeat split. Qed.

(** ** C51 *)
Theorem C51_compare : forall mem a b wa wb, viewed mem a wa -> viewed mem b wb ->
  (exists r, sv_eq mem a b = Ok r /\ (r = true <-> wa = wb)) /\
  (exists r, sv_eq_ignorecase mem a b = Ok r /\ (r = true <-> Forall2 same_letter wa wb)) /\
  (exists r, sv_starts_with mem a b = Ok r /\ (r = true <-> exists y, wa = wb ++ y)) /\
  (exists r, sv_ends_with mem a b = Ok r /\ (r = true <-> exists x, wa = x ++ wb)).
Proof.
  intros mem a b wa wb A B. split; [exact (sv_eq_ok mem a b wa wb A B)|]. split.
  - destruct (eq_ignorecase_ok mem a b wa wb A B) as (r & E & R). exists r. split; auto. rewrite R. apply lower_map.
  - split; [exact (starts_with_ok mem a b wa wb A B)|exact (ends_with_ok mem a b wa wb A B)].
Qed.
Print Assumptions C51_compare.

Theorem C51_index_of : forall mem v w c, viewed mem v w ->
  exists r, sv_index_of mem v c = Ok r /\
    match r with
    | None => ~ In c w
    | Some i => exists a b, w = a ++ c :: b /\ ~ In c a /\ i = Z.of_nat (length a)
    end.
Proof. exact index_of_ok. Qed.
Print Assumptions C51_index_of.

(** Parsing gives the number written by the leading digits when it is below 2^64
    (and its residue otherwise); the chopping variant leaves the rest. *)
Theorem C51_to_u64 : forall mem v w, viewed mem v w ->
  exists ds rest v', w = ds ++ rest /\ Forall digit ds /\ (forall c r, rest = c :: r -> ~ digit c) /\
    sv_to_u64 mem v = Ok (decimal ds mod 2 ^ 64) /\
    sv_chop_u64 mem v = Ok (decimal ds mod 2 ^ 64, v') /\ viewed mem v' rest /\ inside v' v /\
    (decimal ds < 2 ^ 64 -> decimal ds mod 2 ^ 64 = decimal ds).
Proof.
  intros mem v w V. destruct (to_u64_ok mem v w V) as (ds & rest & E & L & R).
  destruct (chop_u64_ok mem v w V) as (ds' & rest' & v' & E' & L' & R' & V' & I).
  assert (X : ds' = ds /\ rest' = rest).
  { rewrite E in E'. clear -E' L L'. revert ds' E' L L'. induction ds as [|c ds IH]; intros ds' E (F & N) (F' & N').
    - destruct ds' as [|c ds']; auto. exfalso. inversion F'; subst. cbn [app] in E. rewrite (N c _ E) in H1. discriminate.
    - inversion F; subst. destruct ds' as [|c' ds'].
      + exfalso. cbn [app] in E. rewrite (N' c _ (eq_sym E)) in H1. discriminate.
      + cbn [app] in E. injection E as <- E. inversion F'; subst.
        destruct (IH ds' E) as (-> & ->); [split; auto|split; auto|auto]. }
  destruct X as (-> & ->). destruct L as (F & N). exists ds, rest, v'.
  split; [exact E|]. split; [revert F; apply Forall_impl; intros c; apply isdigit_digit|].
  split; [intros c r Er; apply isdigit_not; eauto|]. split; [exact R|]. split; [exact R'|]. split; [exact V'|]. split; [exact I|].
  intros H. apply Z.mod_small. split; [apply decimal_nonneg; auto|auto].
Qed.
Print Assumptions C51_to_u64.

Example C51_sample : let mem := [49; 50; 55; 32; 65; 98; 97; 66] in
  viewed mem (View 0 4) [49; 50; 55; 32] /\ sv_to_u64 mem (View 0 4) = Ok 127 /\ sv_chop_u64 mem (View 0 4) = Ok (127, View 3 1) /\
  decimal [49; 50; 55] = 127 /\
  sv_eq_ignorecase mem (View 4 2) (View 6 2) = Ok true /\ sv_eq mem (View 4 2) (View 6 2) = Ok false /\
  sv_starts_with mem (View 0 4) (View 0 2) = Ok true /\ sv_ends_with mem (View 0 4) (View 3 1) = Ok true /\
  sv_index_of mem (View 0 8) 55 = Ok (Some 2).
Proof. split; [exists [], [65; 98; 97; 66]; auto|]. repeat split. Qed.
