(** Proofs about mkdir_p. *)
From Coq Require Import ZArith List Bool Lia Arith.
From Verif Require Import Base Json DbmDirModel DbmDirSpec.
Import ListNotations.
Open Scope Z_scope.

(** * Entries *)
Lemma find_app fs q k p : find_entry (fs ++ [(q, k)]) p = match find_entry fs p with Some x => Some x | None => if path_dec q p then Some k else None end.
Proof.
  induction fs as [|(r, j) fs IH]; cbn [find_entry app]; [destruct (path_dec q p); reflexivity|]. destruct (path_dec r p); [reflexivity|exact IH].
Qed.
Lemma entry_add fs q p : entry (fs ++ [(q, Dir)]) p = match entry fs p with Some x => Some x | None => if path_dec q p then Some Dir else None end.
Proof. destruct p as [|a p]; [reflexivity|]. apply find_app. Qed.
Lemma tree_add fs cur n : tree fs -> entry fs cur = Some Dir -> tree (fs ++ [(cur ++ [n], Dir)]).
Proof.
  intros T D p m k. rewrite !entry_add. destruct (entry fs (p ++ [m])) as [x|] eqn:E.
  - intros _. rewrite (T p m x E). reflexivity.
  - destruct (path_dec (cur ++ [n]) (p ++ [m])) as [Q|]; [|discriminate]. apply app_inj_tail in Q as (-> & ->). intros _. rewrite D. reflexivity.
Qed.
Lemma tree_prefix fs r : tree fs -> forall p k, entry fs (p ++ r) = Some k -> r <> [] -> entry fs p = Some Dir.
Proof.
  intros T. induction r as [|n r IH] using rev_ind; intros p k E N; [contradiction|]. rewrite app_assoc in E. apply T in E.
  destruct r as [|a r]; [rewrite app_nil_r in E; exact E|]. apply (IH p Dir E). discriminate.
Qed.
Lemma tree_up fs cur : tree fs -> entry fs cur = Some Dir -> entry fs (removelast cur) = Some Dir.
Proof.
  intros T E. destruct cur as [|a cur] using rev_ind; [reflexivity|]. rewrite removelast_last. exact (T cur a Dir E).
Qed.

(** * Making and walking *)
Lemma made_app a : forall fs cur b, made fs cur (a ++ b) = match made fs cur a with Some (fs', p) => made fs' p b | None => None end.
Proof.
  induction a as [|n a IH]; intros fs cur b; [reflexivity|]. cbn [made app].
  destruct (list_eq_dec Z.eq_dec n [46]); [apply IH|]. destruct (list_eq_dec Z.eq_dec n [46; 46]); [apply IH|].
  destruct (entry fs (cur ++ [n])) as [[]|]; [apply IH|reflexivity|apply IH].
Qed.
Lemma made_ok ns : forall fs cur fs' p, tree fs -> entry fs cur = Some Dir -> made fs cur ns = Some (fs', p) ->
  tree fs' /\ entry fs' p = Some Dir /\ (forall q k, entry fs q = Some k -> entry fs' q = Some k) /\ walk fs' cur ns = Some p.
Proof.
  induction ns as [|n ns IH]; intros fs cur fs' p T D M; cbn [made] in M.
  - injection M as <- <-. auto.
  - cbn [walk]. unfold is_name, dot, dotdot. destruct (list_eq_dec Z.eq_dec n [46]).
    { destruct (IH _ _ _ _ T D M) as (A & B & C & W). rewrite (C _ _ D). auto. }
    destruct (list_eq_dec Z.eq_dec n [46; 46]).
    { destruct (IH _ _ _ _ T (tree_up _ _ T D) M) as (A & B & C & W). rewrite (C _ _ D). auto. }
    destruct (entry fs (cur ++ [n])) as [[]|] eqn:E; [|discriminate|].
    + destruct (IH _ _ _ _ T E M) as (A & B & C & W). rewrite (C _ _ D), (C _ _ E). auto.
    + assert (E1 : entry (fs ++ [(cur ++ [n], Dir)]) (cur ++ [n]) = Some Dir) by (rewrite entry_add, E; destruct (path_dec (cur ++ [n]) (cur ++ [n])); [reflexivity|contradiction]).
      destruct (IH _ _ _ _ (tree_add fs cur n T D) E1 M) as (A & B & C & W).
      assert (C1 : forall q k, entry fs q = Some k -> entry fs' q = Some k) by (intros q k Q; apply C; rewrite entry_add, Q; reflexivity).
      rewrite (C1 _ _ D), (C _ _ E1). auto.
Qed.
Lemma walk_made ns : forall fs cur q fs' p, walk fs cur ns = Some q -> made fs cur ns = Some (fs', p) -> fs' = fs /\ p = q.
Proof.
  induction ns as [|n ns IH]; intros fs cur q fs' p W M; cbn [made walk] in *.
  - injection M as <- <-. injection W as <-. auto.
  - unfold is_name, dot, dotdot in W. destruct (entry fs cur) as [[]|]; try discriminate W.
    destruct (list_eq_dec Z.eq_dec n [46]); [eapply IH; eauto|]. destruct (list_eq_dec Z.eq_dec n [46; 46]); [eapply IH; eauto|].
    destruct (entry fs (cur ++ [n])) as [[]|] eqn:E; try discriminate. eapply IH; eauto.
Qed.
Lemma made_names ns : forall fs d fs' p, Forall ordinary ns -> made fs d ns = Some (fs', p) ->
  p = d ++ ns /\ forall q, (length d + length ns < length q)%nat -> entry fs' q = entry fs q.
Proof.
  induction ns as [|n ns IH]; intros fs d fs' p O M; cbn [made] in M.
  - injection M as <- <-. rewrite app_nil_r. auto.
  - inversion O as [|x l (N1 & N2) O2]; subst. destruct (list_eq_dec Z.eq_dec n [46]); [contradiction|]. destruct (list_eq_dec Z.eq_dec n [46; 46]); [contradiction|].
    assert (A : forall x : text, (d ++ [x]) ++ ns = d ++ x :: ns) by (intros x; rewrite <- app_assoc; reflexivity).
    destruct (entry fs (d ++ [n])) as [[]|] eqn:E; [|discriminate|]; destruct (IH _ _ _ _ O2 M) as (-> & K); (split; [apply A|]); intros q L; cbn [length] in L.
    + apply K. rewrite app_length. cbn [length]. lia.
    + rewrite K by (rewrite app_length; cbn [length]; lia). rewrite entry_add. destruct (entry fs q); [reflexivity|]. destruct (path_dec (d ++ [n]) q) as [Q|]; [|reflexivity].
      subst q. rewrite app_length in L. cbn [length] in L. lia.
Qed.
Lemma walk_names fs ns : tree fs -> Forall ordinary ns -> forall d k, entry fs d = Some Dir -> entry fs (d ++ ns) = Some k -> walk fs d ns = Some (d ++ ns).
Proof.
  intros T O. induction O as [|n ns (N1 & N2) O IH]; intros d k D E; cbn [walk]; [rewrite app_nil_r; reflexivity|].
  rewrite D. unfold is_name, dot, dotdot. destruct (list_eq_dec Z.eq_dec n [46]); [contradiction|]. destruct (list_eq_dec Z.eq_dec n [46; 46]); [contradiction|].
  replace (d ++ n :: ns) with ((d ++ [n]) ++ ns) in * by (rewrite <- app_assoc; reflexivity).
  destruct ns as [|m ns]; [rewrite app_nil_r in *; rewrite E; reflexivity|].
  pose proof (tree_prefix fs (m :: ns) T (d ++ [n]) k E ltac:(discriminate)) as E1. rewrite E1. exact (IH _ k E1 E).
Qed.
Lemma walk_app fs a : forall cur b, walk fs cur (a ++ b) = match walk fs cur a with Some p => walk fs p b | None => None end.
Proof.
  induction a as [|n a IH]; intros cur b; [reflexivity|]. cbn [walk app]. destruct (entry fs cur) as [[]|]; try reflexivity.
  destruct (is_name n dot); [apply IH|]. destruct (is_name n dotdot); [apply IH|]. destruct (entry fs (cur ++ [n])); [apply IH|reflexivity].
Qed.

(** * Names in a path *)
Lemma fields_not_nil t : fields t <> [].
Proof. induction t as [|c t IH]; cbn [fields]; [discriminate|]. destruct (c =? slash); [discriminate|]. destruct (fields t); discriminate. Qed.
Lemma fields_app a b : fields (a ++ slash :: b) = fields a ++ fields b.
Proof.
  induction a as [|c a IH]; cbn [app fields]; [reflexivity|]. destruct (c =? slash); [rewrite IH; reflexivity|].
  rewrite IH. destruct (fields a) eqn:F; [destruct (fields_not_nil a F)|]. reflexivity.
Qed.
Lemma names_slash a b : names_of (a ++ slash :: b) = names_of a ++ names_of b.
Proof. unfold names_of. rewrite fields_app. apply filter_app. Qed.
Definition all_slashes (s : text) : Prop := Forall (fun c => c = slash) s.
Lemma names_slashes a s : all_slashes s -> names_of (a ++ s) = names_of a.
Proof.
  intros A. revert a. induction A as [|c s -> A IH]; intros a; [rewrite app_nil_r; reflexivity|].
  rewrite names_slash. change (names_of s) with (names_of ([] ++ s)). rewrite IH. cbn. apply app_nil_r.
Qed.
Lemma names_name c : c <> [] -> Forall (fun x => x <> slash) c -> names_of c = [c].
Proof.
  intros N F. unfold names_of. assert (E : fields c = [c]).
  { clear N. induction F as [|x c H F IH]; [reflexivity|]. cbn [fields]. destruct (Z.eqb_spec x slash); [contradiction|]. rewrite IH. reflexivity. }
  rewrite E. destruct c; [contradiction|]. reflexivity.
Qed.
Lemma drop_slashes_ok l : exists s, all_slashes s /\ l = s ++ drop_slashes l /\ (drop_slashes l = [] \/ exists c r, drop_slashes l = c :: r /\ c <> slash).
Proof.
  induction l as [|c l (s & A & E & D)]; cbn [drop_slashes]; [exists []; split; [constructor|]; auto|].
  destruct (Z.eqb_spec c slash) as [->|N].
  - exists (slash :: s). split; [constructor; auto|]. split; [cbn [app]; f_equal; exact E|exact D].
  - exists []. split; [constructor|]. split; [reflexivity|]. right. exists c, l. auto.
Qed.
Lemma drop_name_ok l : exists s, Forall (fun x => x <> slash) s /\ l = s ++ drop_name l /\ (drop_name l = [] \/ exists r, drop_name l = slash :: r).
Proof.
  induction l as [|c l (s & A & E & D)]; cbn [drop_name]; [exists []; split; [constructor|]; auto|].
  destruct (Z.eqb_spec c slash) as [->|N].
  - exists []. split; [constructor|]. split; [reflexivity|]. right. exists l. auto.
  - exists (c :: s). split; [constructor; auto|]. split; [cbn [app]; f_equal; exact E|exact D].
Qed.
Lemma slashes_rev s : all_slashes s -> all_slashes (rev s).
Proof. intros A. apply Forall_rev, A. Qed.
Lemma root_ok s : all_slashes s -> s <> [] -> names_of (root_of s) = [] /\ absolute (root_of s) = true /\ root_of s <> [].
Proof.
  intros A N. destruct s as [|a [|b [|c s]]]; [contradiction|cbn; repeat split; discriminate| |cbn; repeat split; discriminate].
  inversion A as [|x l -> A2]; subst. inversion A2 as [|x l -> A3]; subst. cbn. repeat split. discriminate.
Qed.

(** Above the last name of a path *)
Lemma dirname_ok t cs c : names_of t = cs ++ [c] ->
  c_dirname t <> [] /\ absolute (c_dirname t) = absolute t /\
  (names_of (c_dirname t) = cs \/ (cs = [] /\ names_of (c_dirname t) = [dot])).
Proof.
  intros E. destruct t as [|t0 t1] eqn:Et; [destruct cs; discriminate E|]. rewrite <- Et in *. unfold c_dirname. rewrite Et. rewrite <- Et.
  destruct (drop_slashes_ok (rev t)) as (s & As & Es & Ds). set (r := drop_slashes (rev t)) in *.
  apply (f_equal (@rev Z)) in Es. rewrite rev_involutive, rev_app_distr in Es.
  destruct Ds as [Dr|(x & r' & Dr & Nx)].
  { rewrite Dr in Es. cbn [rev app] in Es. rewrite Es in E. change (rev s) with ([] ++ rev s) in E. rewrite names_slashes in E by (apply slashes_rev, As). destruct cs; discriminate E. }
  destruct r as [|r0 r1] eqn:Er; [discriminate Dr|]. rewrite <- Er in *. 
  destruct (drop_name_ok r) as (m & Am & Em & Dm). set (y := drop_name r) in *.
  assert (Nm : m <> []).
  { intros ->. cbn [app] in Em. destruct Dm as [Q|(z & Q)]; rewrite Q in Em; rewrite Em in Er; [discriminate Er|]. rewrite Em in Dr. injection Dr as <- _. contradiction. }
  assert (Nt : names_of t = names_of (rev y) ++ [rev m]).
  { rewrite Es, names_slashes by (apply slashes_rev, As). rewrite Em at 1. rewrite rev_app_distr.
    destruct Dm as [Q|(z & Q)]; rewrite Q.
    - cbn [rev app]. rewrite names_name; [reflexivity| |apply Forall_rev, Am]. intros Z0. apply (f_equal (@length Z)) in Z0. rewrite rev_length in Z0. destruct m; [contradiction|discriminate Z0].
    - cbn [rev]. rewrite <- app_assoc. cbn [app]. rewrite names_slash.
      replace (names_of (rev z ++ [slash])) with (names_of (rev z)) by (rewrite (names_slashes (rev z) [slash]); [reflexivity|constructor; auto; constructor]).
      f_equal. apply names_name; [|apply Forall_rev, Am]. intros Z0. apply (f_equal (@length Z)) in Z0. rewrite rev_length in Z0. destruct m; [contradiction|discriminate Z0]. }
  rewrite Nt in E. apply app_inj_tail in E as (E & _).
  assert (Ab : absolute t = absolute (rev r)).
  { rewrite Es. rewrite Er. destruct (rev (r0 :: r1)) as [|h l] eqn:Q; [|reflexivity]. apply (f_equal (@length Z)) in Q. rewrite rev_length in Q. discriminate Q. }
  destruct y as [|y0 y1] eqn:Ey.
  { split; [discriminate|]. split.
    - rewrite Ab, Em, app_nil_r. cbn [absolute dot]. destruct (rev m) as [|h l] eqn:Q; [reflexivity|]. assert (H : In h m) by (apply in_rev; rewrite Q; left; auto).
      cbn [absolute]. rewrite Forall_forall in Am. specialize (Am h H). destruct (Z.eqb_spec h slash); [contradiction|reflexivity].
    - right. cbn [rev] in E. rewrite <- E. split; reflexivity. }
  rewrite <- Ey in *. destruct Dm as [Q|(z & Q)]; [rewrite Ey in Q; discriminate Q|].
  destruct (drop_slashes_ok y) as (s2 & As2 & Es2 & Ds2). set (u := drop_slashes y) in *.
  assert (Ny : names_of (rev y) = names_of (rev u)) by (rewrite Es2, rev_app_distr; apply names_slashes, slashes_rev, As2).
  assert (Ab2 : absolute t = absolute (rev y)).
  { rewrite Ab, Em, rev_app_distr. rewrite Ey. destruct (rev (y0 :: y1)) as [|h l] eqn:Q2; [|reflexivity]. apply (f_equal (@length Z)) in Q2. rewrite rev_length in Q2. discriminate Q2. }
  destruct u as [|u0 u1] eqn:Eu.
  - rewrite app_nil_r in Es2. assert (Ay : all_slashes y) by (rewrite Es2; exact As2). 
    destruct (root_ok y Ay) as (R1 & R2 & R3); [rewrite Ey; discriminate|]. split; [exact R3|]. split.
    + rewrite R2, Ab2. apply slashes_rev in Ay. destruct (rev y) as [|h l] eqn:Q2; [apply (f_equal (@length Z)) in Q2; rewrite rev_length, Ey in Q2; discriminate Q2|].
      inversion Ay; subst. reflexivity.
    + left. rewrite R1, <- E, Ny. reflexivity.
  - rewrite <- Eu in *. assert (Nu : rev u <> []) by (intros Q2; apply (f_equal (@length Z)) in Q2; rewrite rev_length, Eu in Q2; discriminate Q2).
    split; [exact Nu|]. split.
    + rewrite Ab2, Es2, rev_app_distr. destruct (rev u); [contradiction|reflexivity].
    + left. rewrite <- E, Ny. reflexivity.
Qed.
Lemma names_length t : (length (names_of t) <= length t)%nat.
Proof.
  assert (L : (length (fields t) <= S (length t))%nat).
  { induction t as [|c t IH]; cbn [fields length]; [lia|]. destruct (c =? slash); [cbn [length]; lia|]. destruct (fields t); cbn [length] in *; lia. }
  revert L. unfold names_of. assert (X : forall t, (length (filter (fun f : text => match f with [] => false | _ => true end) (fields t)) <= length t)%nat).
  { clear t. intros t. induction t as [|c t IH]; cbn [fields]; [cbn; lia|]. destruct (c =? slash); [cbn [filter length]; lia|].
    destruct (fields t) as [|f fs] eqn:F; [destruct (fields_not_nil t F)|]. cbn [filter length] in *. destruct f; cbn [length] in *; lia. }
  intros _. apply X.
Qed.

(** * mkdir_p *)
Lemma stat_dir fs cwd t p : t <> [] -> walk fs (start cwd t) (names_of t) = Some p -> entry fs p = Some Dir -> c_stat fs cwd t = true.
Proof. intros N W E. unfold c_stat. destruct t as [|c t]; [contradiction|]. rewrite W, E. reflexivity. Qed.
Lemma stat_walk fs cwd t : c_stat fs cwd t = true -> exists p, walk fs (start cwd t) (names_of t) = Some p.
Proof. unfold c_stat. destruct t; [discriminate|]. destruct (walk _ _ _) as [p|]; [exists p; reflexivity|discriminate]. Qed.

Lemma mkdir_p_ok cwd fs : tree fs -> entry fs cwd = Some Dir -> forall ns t pre d fs' p fuel want,
  t <> [] -> names_of t = pre ++ ns -> made fs (start cwd t) pre = Some (fs, d) -> Forall ordinary ns ->
  made fs (start cwd t) (names_of t) = Some (fs', p) -> (length ns < fuel)%nat ->
  mkdir_p_ext fuel fs cwd (Some t) want = Ok (0, fs', if c_stat fs cwd t then None else if want then Some p else None).
Proof.
  intros T Dc. induction ns as [|n ns IH] using rev_ind; intros t pre d fs' p fuel want Nt En Mp O M Lf; (destruct fuel as [|fuel]; [lia|]); cbn [mkdir_p_ext].
  - rewrite app_nil_r in En. rewrite En, Mp in M. injection M as <- <-.
    assert (D0 : entry fs (start cwd t) = Some Dir) by (unfold start; destruct (absolute t); [reflexivity|exact Dc]).
    destruct (made_ok _ _ _ _ _ T D0 Mp) as (_ & Dd & _ & W). rewrite (stat_dir fs cwd t d); auto. rewrite En. exact W.
  - assert (D0 : entry fs (start cwd t) = Some Dir) by (unfold start; destruct (absolute t); [reflexivity|exact Dc]).
    destruct (c_stat fs cwd t) eqn:St.
    { destruct (stat_walk _ _ _ St) as (q & W). destruct (walk_made _ _ _ _ _ _ W M) as (-> & _). reflexivity. }
    rewrite app_assoc in En. destruct (dirname_ok t (pre ++ ns) n En) as (Nd & Ab & Nm).
    assert (Sd : start cwd (c_dirname t) = start cwd t) by (unfold start; rewrite Ab; reflexivity).
    rewrite En, made_app in M. destruct (made fs (start cwd t) (pre ++ ns)) as [(fs1, c1)|] eqn:M1; [|discriminate].
    apply Forall_app in O as (O1 & O2). apply Forall_inv in O2 as (N1 & N2). rewrite app_length in Lf. cbn [length] in Lf.
    assert (R : mkdir_p_ext fuel fs cwd (Some (c_dirname t)) false = Ok (0, fs1, None)).
    { destruct Nm as [Nm|(E0 & Nm)].
      - refine (eq_trans (IH (c_dirname t) pre d fs1 c1 fuel false Nd Nm _ O1 _ _) _); [rewrite Sd; exact Mp|rewrite Sd, Nm; exact M1|lia|].
        destruct (c_stat fs cwd (c_dirname t)); reflexivity.
      - apply app_eq_nil in E0 as (-> & ->). cbn [made app] in M1. injection M1 as <- <-.
        destruct fuel as [|fuel]; [cbn [length] in Lf; lia|]. cbn [mkdir_p_ext].
        replace (c_stat fs cwd (c_dirname t)) with true; [reflexivity|]. symmetry. apply (stat_dir fs cwd (c_dirname t) (start cwd t)); [exact Nd| |exact D0]. rewrite Sd, Nm. cbn [walk]. rewrite D0. reflexivity. }
    match goal with |- bind ?x _ = _ => replace x with (Ok (0, fs1, None) : outcome (Z * fsys * option (list text))) by (symmetry; exact R) end. cbn [bind].
    destruct (made_ok _ _ _ _ _ T D0 M1) as (T1 & D1 & K1 & W1).
    unfold c_mkdir. rewrite En, rev_app_distr. cbn [rev app]. rewrite rev_involutive, W1, D1.
    unfold is_name. destruct (list_eq_dec Z.eq_dec n dot); [contradiction|]. destruct (list_eq_dec Z.eq_dec n dotdot); [contradiction|]. cbn [orb].
    cbn [made] in M. destruct (list_eq_dec Z.eq_dec n [46]); [contradiction|]. destruct (list_eq_dec Z.eq_dec n [46; 46]); [contradiction|].
    rewrite made_app, Mp in M1. destruct (made_names ns fs d fs1 c1 O1 M1) as (Ec & Kl).
    destruct (made_ok _ _ _ _ _ T D0 Mp) as (_ & Dd & _ & Wp).
    destruct (entry fs1 (c1 ++ [n])) as [k|] eqn:E1.
    { exfalso. rewrite Kl in E1 by (rewrite Ec, !app_length; cbn [length]; lia). rewrite Ec, <- app_assoc in E1.
      assert (On : Forall ordinary (ns ++ [n])) by (apply Forall_app; split; [exact O1|constructor; [split; auto|constructor]]).
      pose proof (walk_names fs (ns ++ [n]) T On d k Dd E1) as Wn.
      destruct k; [|discriminate M]. rewrite (stat_dir fs cwd t (d ++ ns ++ [n])) in St; [discriminate|auto| |auto].
      rewrite En, <- app_assoc, walk_app, Wp. exact Wn. }
    injection M as <- <-. reflexivity.
Qed.

(** * Any path *)
Lemma walk_dirs fs : tree fs -> forall ns cur p, entry fs cur = Some Dir -> walk fs cur ns = Some p -> entry fs p = Some Dir -> made fs cur ns = Some (fs, p).
Proof.
  intros T. induction ns as [|n ns IH]; intros cur p D W E; cbn [walk made] in *; [injection W as <-; reflexivity|].
  rewrite D in W. unfold is_name, dot, dotdot in W. destruct (list_eq_dec Z.eq_dec n [46]); [apply IH; auto|].
  destruct (list_eq_dec Z.eq_dec n [46; 46]); [apply IH; auto; apply tree_up; auto|].
  destruct (entry fs (cur ++ [n])) as [[]|] eqn:En; [apply IH; auto| |discriminate].
  exfalso. destruct ns as [|m ns]; cbn [walk] in W; [injection W as <-; congruence|]. rewrite En in W. discriminate.
Qed.
Lemma mkdir_p_total cwd fs : tree fs -> entry fs cwd = Some Dir -> forall ms t fuel, names_of t = ms -> t <> [] -> (length ms < fuel)%nat ->
  c_stat fs cwd t = true \/ (exists fs' p, makes fs (start cwd t) ms fs' p) \/ forall want, mkdir_p_ext fuel fs cwd (Some t) want = Bad Abort.
Proof.
  intros T Dc. induction ms as [|c cs IH] using rev_ind; intros t fuel En Nt Lf; (destruct fuel as [|fuel]; [lia|]);
    (assert (D0 : entry fs (start cwd t) = Some Dir) by (unfold start; destruct (absolute t); [reflexivity|exact Dc])).
  - left. apply (stat_dir fs cwd t (start cwd t)); auto. rewrite En. reflexivity.
  - destruct (c_stat fs cwd t) eqn:St; [auto|]. right. rewrite app_length in Lf. cbn [length] in Lf.
    destruct (dirname_ok t cs c En) as (Nd & Ab & Nm).
    assert (Sd : start cwd (c_dirname t) = start cwd t) by (unfold start; rewrite Ab; reflexivity).
    (* the directory above is at [c1] *)
    assert (Up : forall fs1 c1, (forall w, mkdir_p_ext fuel fs cwd (Some (c_dirname t)) w = Ok (0, fs1, if w then if c_stat fs cwd (c_dirname t) then None else Some c1 else None)) ->
      (exists pre ns d, cs = pre ++ ns /\ made fs (start cwd t) pre = Some (fs, d) /\ Forall ordinary ns) -> made fs (start cwd t) cs = Some (fs1, c1) ->
      (exists fs' p, makes fs (start cwd t) (cs ++ [c]) fs' p) \/ forall want, mkdir_p_ext (S fuel) fs cwd (Some t) want = Bad Abort).
    { intros fs1 c1 R (pre & ns & d & Ec & Mp & O) M1. destruct (made_ok _ _ _ _ _ T D0 M1) as (T1 & D1 & K1 & W1).
      assert (G : forall want, mkdir_p_ext (S fuel) fs cwd (Some t) want =
        match c_mkdir fs1 cwd t with None => Bad Abort | Some (fs2, p) => Ok (0, fs2, if want then Some p else None) end).
      { intros want. cbn [mkdir_p_ext]. rewrite St, (R false). reflexivity. }
      unfold c_mkdir in G. rewrite En, rev_app_distr in G. cbn [rev app] in G. rewrite rev_involutive, W1, D1 in G. unfold is_name, dot, dotdot in G.
      destruct (list_eq_dec Z.eq_dec c [46]) as [|N1]; [right; exact G|]. destruct (list_eq_dec Z.eq_dec c [46; 46]) as [|N2]; [right; exact G|]. cbn [orb] in G.
      assert (Yes : forall fs' p, made fs1 c1 [c] = Some (fs', p) -> exists fs' p, makes fs (start cwd t) (cs ++ [c]) fs' p).
      { intros fs' p M. exists fs', p, pre, (ns ++ [c]), d. split; [rewrite Ec, app_assoc; reflexivity|]. split; [exact Mp|].
        split; [apply Forall_app; split; [exact O|constructor; [split; auto|constructor]]|]. rewrite made_app, M1. exact M. }
      cbn [made] in Yes. destruct (list_eq_dec Z.eq_dec c [46]); [contradiction|]. destruct (list_eq_dec Z.eq_dec c [46; 46]); [contradiction|].
      destruct (entry fs1 (c1 ++ [c])) as [[]|]; [left; eapply Yes; reflexivity|right; exact G|left; eapply Yes; reflexivity]. }
    destruct Nm as [Nm|(-> & Nm)].
    + destruct (IH (c_dirname t) fuel Nm Nd ltac:(lia)) as [Sd1|[(fs1 & c1 & Mk)|B]].
      * (* it is there *)
        destruct (stat_walk _ _ _ Sd1) as (q & W). rewrite Sd, Nm in W.
        assert (R : forall w, mkdir_p_ext fuel fs cwd (Some (c_dirname t)) w = Ok (0, fs, None)) by (intros w; destruct fuel as [|f]; [lia|]; cbn [mkdir_p_ext]; rewrite Sd1; reflexivity).
        destruct (entry fs q) as [[]|] eqn:Eq.
        -- apply (Up fs q); [intros w; rewrite R, Sd1; destruct w; reflexivity| |].
           ++ exists cs, [], q. rewrite app_nil_r. split; [auto|]. split; [apply walk_dirs; auto|constructor].
           ++ apply walk_dirs; auto.
        -- right. intros want. cbn [mkdir_p_ext]. rewrite St, (R false). cbn [bind]. unfold c_mkdir. rewrite En, rev_app_distr. cbn [rev app]. rewrite rev_involutive, W, Eq. reflexivity.
        -- right. intros want. cbn [mkdir_p_ext]. rewrite St, (R false). cbn [bind]. unfold c_mkdir. rewrite En, rev_app_distr. cbn [rev app]. rewrite rev_involutive, W, Eq. reflexivity.
      * destruct Mk as (pre & ns & d & Ec & Mp & O & M1). rewrite Sd in Mp, M1. apply (Up fs1 c1); [|exists pre, ns, d; auto|exact M1].
        intros w. eapply eq_trans; [apply (mkdir_p_ok cwd fs T Dc ns (c_dirname t) pre d fs1 c1 fuel w Nd); [congruence|rewrite Sd; exact Mp|exact O|rewrite Sd, Nm; exact M1|rewrite Ec, app_length in Lf; lia]|].
        destruct w, (c_stat fs cwd (c_dirname t)); reflexivity.
      * right. intros want. cbn [mkdir_p_ext]. rewrite St. rewrite (B false). reflexivity.
    + assert (Sd1 : c_stat fs cwd (c_dirname t) = true).
      { apply (stat_dir fs cwd (c_dirname t) (start cwd t)); [exact Nd| |exact D0]. rewrite Sd, Nm. cbn [walk]. rewrite D0. reflexivity. }
      apply (Up fs (start cwd t)); [|exists [], [], (start cwd t); cbn [app made]; auto|reflexivity].
      intros w. destruct fuel as [|f]; [cbn [length] in Lf; lia|]. cbn [mkdir_p_ext]. rewrite Sd1. destruct w; reflexivity.
Qed.
