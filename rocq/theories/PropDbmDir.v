(** Property C76: mkdir_p makes a directory and those above it. *)
From Coq Require Import String ZArith List Bool Lia.
From Verif Require Import Base Json DbmTextModel DbmDirModel DbmDirSpec DbmDirProofs.
Import ListNotations.
Open Scope Z_scope.

(** The full property: as mkdir -p.  All directories of the path are made that are not there, from
    left to right, and nothing else changes.  If there is a file in the way, this is an error. *)
Definition C76_statement : Prop :=
  forall cwd fs t, tree fs -> entry fs cwd = Some Dir -> t <> [] ->
  forall fuel, (length t < fuel)%nat ->
  match made fs (start cwd t) (names_of t) with
  | Some (fs', p) => mkdir_p fuel fs cwd (Some t) = Ok (0, fs')
  | None => exists r fs', mkdir_p fuel fs cwd (Some t) = Ok (r, fs') /\ r <> 0
  end.

(** It holds for paths that begin with directories that are there, and then have ordinary names
    only; with any number of slashes. *)
Theorem C76_made_partial :
  forall cwd fs t pre ns d fs' p, tree fs -> entry fs cwd = Some Dir -> t <> [] ->
  names_of t = pre ++ ns -> made fs (start cwd t) pre = Some (fs, d) -> Forall ordinary ns -> made fs (start cwd t) (names_of t) = Some (fs', p) ->
  forall fuel, (length t < fuel)%nat ->
  mkdir_p fuel fs cwd (Some t) = Ok (0, fs') /\
  entry fs' p = Some Dir /\ tree fs' /\ (forall q k, entry fs q = Some k -> entry fs' q = Some k).
Proof.
  intros cwd fs t pre ns d fs' p T Dc Nt En Mp O M fuel Lf. pose proof (names_length t) as Ln. rewrite En, app_length in Ln.
  assert (D0 : entry fs (start cwd t) = Some Dir) by (unfold start; destruct (absolute t); [reflexivity|exact Dc]).
  split.
  - unfold mkdir_p. rewrite (mkdir_p_ok cwd fs T Dc ns t pre d fs' p fuel false Nt En Mp O M) by lia. reflexivity.
  - destruct (made_ok _ _ _ _ _ T D0 M) as (A & B & C & _). auto.
Qed.
(** In particular for a path of ordinary names. *)
Theorem C76_plain_partial :
  forall cwd fs t fs' p, tree fs -> entry fs cwd = Some Dir -> t <> [] -> Forall ordinary (names_of t) -> made fs (start cwd t) (names_of t) = Some (fs', p) ->
  forall fuel, (length t < fuel)%nat -> mkdir_p fuel fs cwd (Some t) = Ok (0, fs').
Proof.
  intros cwd fs t fs' p T Dc Nt O M fuel Lf. exact (proj1 (C76_made_partial cwd fs t [] (names_of t) (start cwd t) fs' p T Dc Nt eq_refl eq_refl O M fuel Lf)).
Qed.
(** A descriptor of the new directory is stored, if one is asked for. *)
Theorem C76_descriptor_partial :
  forall cwd fs t fs' p, tree fs -> entry fs cwd = Some Dir -> t <> [] -> Forall ordinary (names_of t) -> made fs (start cwd t) (names_of t) = Some (fs', p) ->
  entry fs p = None -> forall fuel, (length t < fuel)%nat -> mkdir_p_ext fuel fs cwd (Some t) true = Ok (0, fs', Some p).
Proof.
  intros cwd fs t fs' p T Dc Nt O M E fuel Lf. pose proof (names_length t) as Ln.
  rewrite (mkdir_p_ok cwd fs T Dc (names_of t) t [] (start cwd t) fs' p fuel true Nt eq_refl eq_refl O M) by lia.
  destruct (c_stat fs cwd t) eqn:St; [|reflexivity]. exfalso. destruct (stat_walk _ _ _ St) as (q & W). destruct (walk_made _ _ _ _ _ _ W M) as (-> & ->).
  unfold c_stat in St. destruct t; [contradiction|]. rewrite W, E in St. discriminate.
Qed.
(** For every path: it is there, or it can be made in this way, or the program ends. *)
Theorem C76_exact :
  forall cwd fs t want, tree fs -> entry fs cwd = Some Dir -> t <> [] -> forall fuel, (length t < fuel)%nat ->
  (c_stat fs cwd t = true -> mkdir_p_ext fuel fs cwd (Some t) want = Ok (0, fs, None)) /\
  (forall fs' p, c_stat fs cwd t = false -> makes fs (start cwd t) (names_of t) fs' p ->
     mkdir_p_ext fuel fs cwd (Some t) want = Ok (0, fs', if want then Some p else None)) /\
  (c_stat fs cwd t = false -> (forall fs' p, ~ makes fs (start cwd t) (names_of t) fs' p) -> mkdir_p_ext fuel fs cwd (Some t) want = Bad Abort).
Proof.
  intros cwd fs t want T Dc Nt fuel Lf. pose proof (names_length t) as Ln. split; [|split].
  - intros St. destruct fuel as [|f]; [lia|]. cbn [mkdir_p_ext]. rewrite St. reflexivity.
  - intros fs' p St (pre & ns & d & En & Mp & O & M). rewrite En, app_length in Ln.
    rewrite (mkdir_p_ok cwd fs T Dc ns t pre d fs' p fuel want Nt En Mp O M) by lia. rewrite St. reflexivity.
  - intros St No. destruct (mkdir_p_total cwd fs T Dc (names_of t) t fuel eq_refl Nt) as [Q|[(fs' & p & Q)|Q]]; [lia|congruence|destruct (No _ _ Q)|apply Q].
Qed.
(** The directories /a and /a/h, which is the working directory, and the file /a/f *)
Definition some_fs : fsys := [([bytes "a"], Dir); ([bytes "a"; bytes "h"], Dir); ([bytes "a"; bytes "f"], File)].
Definition here : list text := [bytes "a"; bytes "h"].
Example C76_example :
  mkdir_p 30 some_fs here (Some (bytes "/a/b//c/")) = Ok (0, some_fs ++ [([bytes "a"; bytes "b"], Dir); ([bytes "a"; bytes "b"; bytes "c"], Dir)]) /\
  mkdir_p 30 some_fs here (Some (bytes "x")) = Ok (0, some_fs ++ [(here ++ [bytes "x"], Dir)]) /\
  mkdir_p 30 some_fs here (Some (bytes "./../x/y")) = Ok (0, some_fs ++ [([bytes "a"; bytes "x"], Dir); ([bytes "a"; bytes "x"; bytes "y"], Dir)]) /\
  mkdir_p 30 some_fs here (Some (bytes "//a/h")) = Ok (0, some_fs) /\ mkdir_p 30 some_fs here None = Ok (1, some_fs) /\
  mkdir_p_ext 30 some_fs here (Some (bytes "x/y")) true = Ok (0, some_fs ++ [(here ++ [bytes "x"], Dir); (here ++ [bytes "x"; bytes "y"], Dir)], Some (here ++ [bytes "x"; bytes "y"])).
Proof. vm_compute. repeat split. Qed.

Lemma some_tree : tree some_fs.
Proof.
  intros p n k E. destruct p as [|a p]; [reflexivity|].
  assert (X : exists q j, In (q, j) some_fs /\ q = (a :: p) ++ [n]).
  { revert E. unfold some_fs. cbn [entry app find_entry].
    destruct (path_dec [bytes "a"] (a :: p ++ [n])) as [Q|_]; [intros _; do 2 eexists; split; [left; reflexivity|exact Q]|].
    destruct (path_dec [bytes "a"; bytes "h"] (a :: p ++ [n])) as [Q|_]; [intros _; do 2 eexists; split; [right; left; reflexivity|exact Q]|].
    destruct (path_dec [bytes "a"; bytes "f"] (a :: p ++ [n])) as [Q|_]; [intros _; do 2 eexists; split; [right; right; left; reflexivity|exact Q]|discriminate]. }
  destruct X as (q & j & I & ->). assert (L : a = bytes "a" /\ p = []).
  { destruct I as [Q|[Q|[Q|[]]]]; injection Q as <- Q _; destruct p as [|b [|c p]]; try discriminate Q; auto. }
  destruct L as (-> & ->). reflexivity.
Qed.
(** A path with . or .. behind a directory that is not there: the program ends. *)
Theorem C76_dots_refuted :
  mkdir_p 30 some_fs here (Some (bytes "x/.")) = Bad Abort /\ mkdir_p 30 some_fs here (Some (bytes "x/../y")) = Bad Abort /\ ~ C76_statement.
Proof.
  split; [vm_compute; reflexivity|]. split; [vm_compute; reflexivity|]. intros S.
  specialize (S here some_fs (bytes "x/.") some_tree eq_refl ltac:(discriminate) 30%nat ltac:(cbn; lia)). vm_compute in S. discriminate.
Qed.
(** A file where the directory is to be: no error.  A file above it: the program ends. *)
Theorem C76_file_refuted :
  mkdir_p 30 some_fs here (Some (bytes "/a/f")) = Ok (0, some_fs) /\ made some_fs (start here (bytes "/a/f")) (names_of (bytes "/a/f")) = None /\
  mkdir_p 30 some_fs here (Some (bytes "/a/f/g")) = Bad Abort.
Proof. vm_compute. auto. Qed.
(** No descriptor is stored for a directory that is there already. *)
Theorem C76_descriptor_refuted : mkdir_p_ext 30 some_fs here (Some (bytes "/a")) true = Ok (0, some_fs, None).
Proof. vm_compute. auto. Qed.

(** A file above; a dot behind a directory that is not there; both cases of the theorem have such paths. *)
Example C76_exact_example :
  c_stat some_fs here (bytes "/a/f/g") = false /\ (forall fs' p, ~ makes some_fs (start here (bytes "/a/f/g")) (names_of (bytes "/a/f/g")) fs' p) /\
  c_stat some_fs here (bytes "x/.") = false /\ (forall fs' p, ~ makes some_fs (start here (bytes "x/.")) (names_of (bytes "x/.")) fs' p) /\
  c_stat some_fs here (bytes "../x") = false /\ makes some_fs (start here (bytes "../x")) (names_of (bytes "../x")) (some_fs ++ [([bytes "a"; bytes "x"], Dir)]) [bytes "a"; bytes "x"].
Proof.
  split; [reflexivity|]. split.
  { intros fs' p (pre & ns & d & _ & _ & _ & M). vm_compute in M. discriminate. }
  split; [reflexivity|]. split.
  { intros fs' p (pre & ns & d & E & Mp & O & _). destruct pre as [|a [|b pre]].
    - cbn [app] in E. rewrite <- E in O. change (names_of (bytes "x/.")) with [bytes "x"; [46]] in O. inversion O as [|? ? _ O2]. inversion O2 as [|? ? (N & _) _]. contradiction.
    - injection E as <- E. vm_compute in Mp. discriminate.
    - injection E as <- <- E. destruct pre; [|discriminate]. vm_compute in Mp. discriminate. }
  split; [reflexivity|]. exists [bytes ".."], [bytes "x"], [bytes "a"]. split; [reflexivity|]. split; [reflexivity|]. split; [repeat constructor; discriminate|reflexivity].
Qed.

Print Assumptions C76_exact.
Print Assumptions C76_made_partial.
Print Assumptions C76_descriptor_partial.
