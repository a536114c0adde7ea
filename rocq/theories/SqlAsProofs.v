(** Proofs about selecting under a name. *)
From Coq Require Import ZArith List Bool Lia.
From Verif Require Import Base ArrayLemmas TsearchModel MapModel MapProofs ListModel ListProofs Json JsonTokModel JsonHeapModel JsonHeapSpec JsonHeapProofs JsonFrame
  JsonMergeProofs JsonFieldProofs JsonSelectModel JsonSelectSpec JsonSelectProofs SqlModel SqlSpec SqlProofs SqlSelectModel SqlSelectSpec SqlSelectProofs SqlAsSpec.
Import ListNotations.
Open Scope Z_scope.

(** cee_sqlite3_select1_as:978-986: the member is merged with the row, or is the row. *)
Definition put_row (fuel : nat) (h : heap) (a : nat) (key : text) (v : nat) : outcome heap :=
  bind (object_get h (Some a) (Some key)) (fun old =>
  bind (match old with
        | Some o => bind (merge fuel h (Some o) (Some v)) (fun '(_, h) => Ok (h, Some o))
        | None => Ok (h, Some v)
        end) (fun '(h, x) => object_set byval_str_mk h (Some a) key x)).

Lemma set_ok h a cm kas key v n : nth_error h a = Some (NObj cm) -> mrep strcmp cm (wrapped kas) -> Z.of_nat (length kas) <= 2 ^ 64 -> nth_error h v = Some n ->
  exists cm', object_set byval_str_mk h (Some a) key (Some v) = Ok (store h a (NObj cm')) /\ mrep strcmp cm' (wrapped (put key v kas)).
Proof.
  intros E R B En. destruct (add_field_ok h a cm kas key v E R B) as (cm' & Ea & R'). exists cm'. split; [|auto].
  unfold object_set. rewrite (object_at_ok h a cm E). cbn [bind]. unfold load. rewrite En. exact Ea.
Qed.

Lemma put_row_ok fuel h a kjs key v jv : holds h (JObj kjs) a -> holds h jv v -> NoDup (containers h (JObj kjs) a) ->
  disjoint (containers h (JObj kjs) a) (containers h jv v) -> (size (JObj kjs) + size jv < fuel)%nat -> Z.of_nat (size (JObj kjs) + size jv) < 2 ^ 64 ->
  exists h' kjs', put_row fuel h a key v = Ok h' /\ row_under kjs key jv kjs' /\ holds h' (JObj kjs') a /\ length h' = length h /\
    forall c, ~ In c (containers h (JObj kjs) a) -> nth_error h' c = nth_error h c.
Proof.
  intros Hj Hv N D Lf B. pose proof Hj as Hj0. apply holds_obj in Hj0 as (cm & kas & E & R & F). rewrite (containers_obj h a cm kas kjs E R) in *.
  inversion N as [|? ? N1 N2]; subst. pose proof (size_obj_len kjs) as Sl. pose proof (forall2_len F) as Fl.
  assert (Nj : ~ In a (containers h jv v)) by (intros I; apply (D a); [left; auto|auto]).
  destruct (holds_node h jv v Hv) as (n & En & _).
  unfold put_row, object_get, row_under. rewrite (object_at_ok h a cm E). cbn [bind]. rewrite (mrep_find cm kas key R). cbn [bind].
  pose proof (members_lookup key F) as ML. destruct (lookup key kjs) as [old|] eqn:Lk, (lookup key kas) as [o|] eqn:Lo; try contradiction.
  - destruct (members_split h key kjs kas old F Lk) as (o' & q1 & q2 & s1 & s2 & Lo' & Ho & Er & Ea & Lq & M1 & M2 & P).
    rewrite Lo in Lo'. injection Lo' as <-. destruct (nodup_parts N2 Er Ea Lq) as (No & Dj).
    assert (Inc : forall c, In c (containers h old o) -> In c (mconts h kjs kas)).
    { intros c I. eapply lookup_incl; eauto. }
    assert (Sz : (size old < size (JObj kjs))%nat).
    { pose proof (lookup_in _ _ _ Lk) as I. exact (size_obj_in (key, old) kjs I). }
    destruct (merge_ok fuel h old jv o v Ho Hv No) as (h1 & Em & L1 & O1 & P1); [intros c I J; apply (D c); [right; auto|auto]|lia|lia|].
    rewrite Em. cbn [bind].
    assert (E1 : nth_error h1 a = Some (NObj cm)) by (rewrite O1; [auto|intros I; auto]).
    assert (Hz : exists z, holds h1 z o /\ (if mergeable old jv then merged old jv z else z = old) /\ leaves_kept h h1 /\
      (forall c, In c (containers h1 z o) -> In c (containers h old o) \/ In c (containers h jv v))).
    { assert (LK : leaves_kept h h1).
      { apply (leaves_off h h1 (containers h old o)); [|exact O1]. intros c I. exact (container_node h (size old) old o c (le_n _) Ho I). }
      destruct (mergeable old jv); [|subst h1; exists old; auto].
      destruct P1 as (z & Mz & Hz & C1). exists z. split; [auto|]. split; [auto|]. split; [auto|]. intros c I. apply cnt_in in I. specialize (C1 c).
      destruct (cnt (containers h old o) c) eqn:Q; [right|left]; apply cnt_in; lia. }
    destruct Hz as (z & Hz & Mz & LK1 & Cz). destruct (holds_node h1 z o Hz) as (nz & Enz & _).
    destruct (set_ok h1 a cm kas key o nz E1 R ltac:(lia) Enz) as (cm' & Es & R'). rewrite Es.
    exists (store h1 a (NObj cm')), (replaced key z kjs). split; [reflexivity|]. split; [exists z; auto|].
    assert (LK2 : leaves_kept h1 (store h1 a (NObj cm'))) by (eapply store_leaves; eauto).
    split; [|split].
    + rewrite replaced_put; [|rewrite (members_fst F); apply (mrep_nodup cm kas R)|apply lookup_in in Lk; apply (in_map fst) in Lk; auto].
      apply (member_changed h (store h1 a (NObj cm')) kjs kas cm' a key old o z o); auto.
      * eapply store_same; eauto.
      * intros c nd Ec Ln. apply LK2; [apply LK1; auto|auto].
      * intros c Nc Ic. rewrite store_other; [apply O1; auto|]. intros ->; auto.
      * apply (frame_holds h1); auto. intros c I. apply store_other. intros ->. 
        destruct (Cz a I) as [J|J]; auto.
    + rewrite store_length. exact L1.
    + intros c Nc. rewrite store_other; [apply O1; intros I; apply Nc; right; auto|]. intros ->. apply Nc. left; auto.
  - cbn [bind]. destruct (set_ok h a cm kas key v n E R ltac:(lia) En) as (cm' & Es & R'). rewrite Es.
    exists (store h a (NObj cm')), (kjs ++ [(key, jv)]). split; [reflexivity|]. split; [reflexivity|].
    assert (LK : leaves_kept h (store h a (NObj cm'))) by (eapply store_leaves; eauto).
    split; [|split].
    + apply holds_obj. exists cm', (put key v kas). split; [eapply store_same; eauto|]. split; [auto|]. rewrite (put_fresh key v kas Lo). apply Forall2_app.
      * apply (frame_members h _ kjs kas LK F). intros c I. apply store_other. intros ->; auto.
      * constructor; [|constructor]. split; [auto|]. cbn [snd]. apply (frame_holds h); auto. intros c I. apply store_other. intros ->; auto.
    + apply store_length.
    + intros c Nc. apply store_other. intros ->. apply Nc. left; auto.
Qed.

(** Appending never makes the memory smaller. *)
Lemma array_append_len h a v h' : array_append h a v = Ok h' -> length h' = length h.
Proof.
  unfold array_append. intros E. apply bind_ok in E as (l & _ & E). apply bind_ok in E as (l' & _ & E). injection E as <-. apply store_length.
Qed.
Lemma concat_len fuel : forall h d s i h', concat_loop fuel h d s i = Ok h' -> length h' = length h.
Proof.
  induction fuel as [|n IH]; intros h d s i h' E; cbn [concat_loop] in E; [discriminate|].
  apply bind_ok in E as (l & _ & E). destruct (_ <? _); [|injection E as <-; auto].
  apply bind_ok in E as (e & _ & E). apply bind_ok in E as (h1 & E1 & E). rewrite (IH _ _ _ _ _ E). exact (array_append_len _ _ _ _ E1).
Qed.
Lemma object_set_len h j k v h' : object_set byval_str_mk h j k v = Ok h' -> length h' = length h.
Proof.
  unfold object_set. destruct j as [j|]; [|intros E; injection E as <-; auto]. intros E. apply bind_ok in E as (m & _ & E). apply bind_ok in E as (n & _ & E).
  unfold add_field in E. apply bind_ok in E as (m1 & _ & E). apply bind_ok in E as (k1 & _ & E). apply bind_ok in E as ((q, m2) & _ & E). apply bind_ok in E as (m3 & _ & E).
  injection E as <-. apply store_length.
Qed.
Lemma append_len fuel h j k v h' : object_append byval_str_mk fuel h j k v = Ok h' -> (length h <= length h')%nat.
Proof.
  unfold object_append. destruct j as [j|]; [|intros E; injection E as <-; auto]. destruct v as [v|]; [|intros E; injection E as <-; auto].
  intros E. apply bind_ok in E as (old & _ & E). destruct old as [o|]; [|apply object_set_len in E; lia].
  apply bind_ok in E as (ia & _ & E). 
  assert (X : forall g d h2, (bind (to_array g (Some v)) (fun varr => match varr with Some _ => array_concat fuel g d v | None => array_append g d (Some v) end)) = Ok h2 -> length h2 = length g).
  { intros g d h2 E2. apply bind_ok in E2 as (va & _ & E2). destruct va; [|exact (array_append_len _ _ _ _ E2)].
    unfold array_concat in E2. apply bind_ok in E2 as (x1 & _ & E2). apply bind_ok in E2 as (x2 & _ & E2). exact (concat_len _ _ _ _ _ _ E2). }
  destruct ia as [ia|]; [rewrite (X _ _ _ E); auto|].
  apply bind_ok in E as ((g, ll) & El & E).
  assert (Lg : (length h <= length g)%nat).
  { unfold listify in El. apply bind_ok in El as (n & _ & El). destruct n; try discriminate El; [|injection El as <- <-; auto].
    cbn [alloc] in El. apply bind_ok in El as (g1 & E1 & El). injection El as <- <-. apply array_append_len in E1. rewrite app_length in E1. lia. }
  apply bind_ok in E as (va & Ev & E). apply bind_ok in E as (g2 & E2 & E).
  assert (L2 : length g2 = length g) by (apply (X g ll g2); rewrite Ev; exact E2).
  apply object_set_len in E. lia.
Qed.

Section As.
Variable DB : Type.
Variable prepare : DB -> text -> Z * list (option text).
Variable exec : DB -> text -> list sqlv -> DB * list (list sqlv) * Z.
Variable columns : DB -> text -> list text.
Variable limit : Z.
Variable msg_unbound : text -> Z -> text -> text.
Variable msg_failed : Z -> text -> text.
Hypothesis limit_small : limit < 2 ^ 31.
Notation World := (World DB).
Notation can_run := (can_run DB prepare limit).
Notation runs_with := (runs_with DB prepare limit).
Notation select_as := (select_as DB prepare exec columns limit msg_unbound msg_failed byval_str_mk).
Notation select1_as := (select1_as DB prepare exec columns limit msg_unbound msg_failed byval_str_mk).

Lemma quiet_holds h h' j a : quiet h h' -> holds h j a ->
  holds h' j a /\ containers h' j a = containers h j a /\ forall c, In c (containers h j a) -> (c < length h)%nat.
Proof.
  intros (L & O) H.
  assert (Lc : forall c, In c (containers h j a) -> (c < length h)%nat).
  { intros c I. destruct (container_node h (size j) j a c (le_n _) H I) as (nd & En & _). apply nth_error_Some. congruence. }
  assert (K : leaves_kept h h') by (intros c n Ec _; rewrite O; [auto|apply nth_error_Some; congruence]).
  destruct (frame h h' K (size j) j a (le_n _) H) as (H1 & Ec); [intros c I; apply O, Lc, I|]. auto.
Qed.

Lemma select_as_ok w info data sql key a kjs : can_run info data (w_db DB w) sql ->
  holds (w_heap DB w) (JObj kjs) a -> NoDup (containers (w_heap DB w) (JObj kjs) a) ->
  exists vals, runs_with info data (w_db DB w) sql vals /\
    forall db' rows, exec (w_db DB w) sql vals = (db', rows, SQLITE_DONE) ->
    let names := columns db' sql in
    Forall (fun r => length r = length names) rows -> Z.of_nat (length names) <= 2 ^ 64 ->
    Z.of_nat (size (JObj kjs) + size (JArr (rows_value info names rows))) < 2 ^ 64 ->
    forall fuel, (size (JObj kjs) + size (JArr (rows_value info names rows)) < fuel)%nat ->
    forall kjs', gathered kjs key (rows_value info names rows) = Some kjs' ->
    exists h', select_as fuel w info data sql (Some (Some a)) key = Ok (SQLITE_DONE, World db' (w_open DB w) h', Some (Some a)) /\
      holds h' (JObj kjs') a /\ only_value (w_heap DB w) h' (Some (Some a)) (JObj kjs).
Proof.
  intros Cr Ho Nd. destruct (select_ok DB prepare exec columns limit msg_unbound msg_failed limit_small w info data sql (Some None) [] Cr eq_refl) as (vals & Rw & Run).
  exists vals. split; [exact Rw|]. intros db' rows Ex names Fr B Bs fuel Lf kjs' G.
  set (js := rows_value info names rows) in *.
  assert (S1 : size (JArr []) = 1%nat) by reflexivity. pose proof (size_pos (JObj kjs)) as Sp.
  destruct (Run db' rows Ex Fr B ltac:(rewrite S1; fold names js; lia) fuel ltac:(rewrite S1; fold names js; lia)) as (h1 & s1 & E1 & (x & -> & Hx & Nx) & (L1 & O1)).
  fold names js in Hx, Nx. cbn [app] in Hx, Nx.
  unfold select_as, SqlSelectModel.select_as. rewrite E1. cbn [bind pointee w_heap w_db w_open].
  pose proof Hx as Hx'. apply holds_arr in Hx' as (l & xs & En & _). rewrite (no_error_arr h1 x l En). cbn [bind].
  assert (Q1 : quiet (w_heap DB w) h1) by (split; [auto|]; intros c Lc; apply O1; auto).
  destruct (quiet_holds _ _ _ _ Q1 Ho) as (Ho1 & Ec & Lc). 
  assert (D : disjoint (containers h1 (JObj kjs) a) (containers h1 (JArr js) x)).
  { intros c I J. rewrite Ec in I. apply Lc in I. apply Nx in J. lia. }
  assert (Nd1 : NoDup (containers h1 (JObj kjs) a)) by (rewrite Ec; exact Nd).
  assert (Fin : forall h2, holds h2 (JObj kjs') a ->
    (forall c, (c < length h1)%nat -> ~ In c (containers h1 (JObj kjs) a) -> nth_error h2 c = nth_error h1 c) -> (length h1 <= length h2)%nat ->
    holds h2 (JObj kjs') a /\ only_value (w_heap DB w) h2 (Some (Some a)) (JObj kjs)).
  { intros h2 H2 O2 L2. split; [auto|]. split; [lia|]. intros c Lc' Nc. rewrite O2; [apply Q1, Lc'|lia|rewrite Ec; exact Nc]. }
  unfold gathered in G. destruct (lookup key kjs) as [old|] eqn:Lk.
  - destruct old as [| | | | | | s | | | old | ]; try discriminate G; injection G as <-.
    + destruct (append_to_string fuel h1 a kjs key s x (JArr js) Ho1 Hx Nd1 D Lk ltac:(lia) ltac:(lia)) as (h2 & E2 & H2 & Hv2 & O2).
      rewrite E2. cbn [bind]. exists h2. split; [reflexivity|]. apply Fin; [exact H2| |exact (append_len _ _ _ _ _ _ E2)].
      intros c Lc' Nc. apply O2; [|auto]. intros ->. apply Nc. apply holds_obj in Ho1 as (cm & kas & E & R & F).
      rewrite (containers_obj h1 a cm kas kjs E R). left; auto.
    + destruct (append_to_array byval_str_mk fuel h1 a kjs key old x (JArr js) Ho1 Hx Nd1 D Lk ltac:(lia)) as (h2 & E2 & H2 & Hv2 & O2).
      rewrite E2. cbn [bind]. exists h2. split; [reflexivity|]. apply Fin; [exact H2|intros c _ Nc; apply O2, Nc|exact (append_len _ _ _ _ _ _ E2)].
  - injection G as <-.
    destruct (append_absent fuel h1 a kjs key x (JArr js) Ho1 Hx Nd1 D Lk ltac:(lia)) as (h2 & E2 & H2 & Hv2 & O2).
    rewrite E2. cbn [bind]. exists h2. split; [reflexivity|]. apply Fin; [exact H2| |exact (append_len _ _ _ _ _ _ E2)].
    intros c Lc' Nc. apply O2. intros ->. apply Nc. apply holds_obj in Ho1 as (cm & kas & E & R & F).
    rewrite (containers_obj h1 a cm kas kjs E R). left; auto.
Qed.

(** The row is put under the name. *)
Lemma select1_as_ok w info data sql key s kjs : can_run info data (w_db DB w) sql ->
  match s with Some a => holds (w_heap DB w) (JObj kjs) a /\ NoDup (containers (w_heap DB w) (JObj kjs) a) | None => kjs = [] end ->
  exists vals, runs_with info data (w_db DB w) sql vals /\
    forall db' row rows, exec (w_db DB w) sql vals = (db', row :: rows, SQLITE_DONE) ->
    let names := columns db' sql in
    Forall (fun r => length r = length names) (row :: rows) -> Z.of_nat (length names) <= 2 ^ 64 ->
    (match row_value info names row with JObj k => lookup error_key k = None | _ => True end) ->
    Z.of_nat (size (JObj kjs) + size (JArr (rows_value info names (row :: rows)))) < 2 ^ 64 ->
    forall fuel, (size (JObj kjs) + size (JArr (rows_value info names (row :: rows))) < fuel)%nat ->
    exists h' a kjs', select1_as fuel w info data sql (Some s) key = Ok (SQLITE_DONE, World db' (w_open DB w) h', Some (Some a)) /\
      same_or_new (w_heap DB w) (Some s) (Some (Some a)) /\
      row_under kjs key (row_value info names row) kjs' /\ holds h' (JObj kjs') a /\ only_value (w_heap DB w) h' (Some s) (JObj kjs).
Proof.
  intros Cr Ho. destruct (select1_ok DB prepare exec columns limit msg_unbound msg_failed limit_small w info data sql (Some None) JNull Cr eq_refl) as (vals & Rw & Run).
  exists vals. split; [exact Rw|]. intros db' row rows Ex names Fr B Ne Bs fuel Lf.
  assert (S1 : size JNull = 1%nat) by reflexivity. pose proof (size_pos (JObj kjs)) as Sp.
  destruct (Run db' (row :: rows) Ex Fr B ltac:(rewrite S1; fold names; lia) fuel ltac:(rewrite S1; fold names; lia)) as (h1 & s1 & E1 & _ & _ & X).
  destruct (X eq_refl) as (Q1 & x & -> & Hx & Nx). fold names in Hx, Nx. clear X Run.
  assert (Sz : (size (row_value info names row) < size (JArr (rows_value info names (row :: rows))))%nat) by (apply size_arr_in; left; auto).
  unfold select1_as, SqlSelectModel.select1_as. rewrite E1. cbn [bind pointee w_heap w_db w_open].
  assert (Er : error_of h1 (Some x) = Ok None).
  { destruct (row_value info names row) as [| | | | | | | | | l | k] eqn:Rv.
    11:{ destruct (error_obj h1 k x Hx) as (r & Ee & Q). change key_error with error_key in Q. rewrite Ne in Q. subst r. exact Ee. }
    10:{ apply holds_arr in Hx as (cl & xs & En & _). exact (no_error_arr h1 x cl En). }
    all: destruct (holds_node h1 _ x Hx) as (n & En & K); apply (no_error_node h1 x n En); intros m ->;
      match type of Hx with holds _ ?j _ => destruct (leaf_cases j) as [(nd & Ld)|[(dl & Q)|(kd & Q)]] end; try discriminate Q;
      apply (holds_leaf h1 _ x nd Ld) in Hx; rewrite Hx in En; injection En as ->; cbn in Ld; discriminate Ld. }
  rewrite Er. cbn [bind].
  assert (Put : forall h a, quiet h1 h -> holds h (JObj kjs) a -> NoDup (containers h (JObj kjs) a) ->
    disjoint (containers h (JObj kjs) a) (containers h (row_value info names row) x) ->
    exists h' kjs', put_row fuel h a key x = Ok h' /\ row_under kjs key (row_value info names row) kjs' /\ holds h' (JObj kjs') a /\ length h' = length h /\
      forall c, ~ In c (containers h (JObj kjs) a) -> nth_error h' c = nth_error h c).
  { intros h a Q H N D. apply put_row_ok; auto; [apply (quiet_holds h1 h); auto|lia|lia]. }
  assert (Shape : forall h a h', put_row fuel h a key x = Ok h' ->
    bind (object_get h (Some a) (Some key)) (fun old =>
      bind (match old with Some o => bind (merge fuel h (Some o) (Some x)) (fun '(_, h) => Ok (h, Some o)) | None => Ok (h, Some x) end)
        (fun '(h, v) => bind (object_set byval_str_mk h (Some a) key v) (fun h => Ok (SQLITE_DONE, World db' (w_open DB w) h, Some (Some a))))) =
    Ok (SQLITE_DONE, World db' (w_open DB w) h', Some (Some a))).
  { intros h a h' E. unfold put_row in E. destruct (object_get h (Some a) (Some key)) as [old|]; cbn [bind] in *; [|discriminate].
    destruct (match old with Some o => _ | None => _ end) as [(g, v)|]; cbn [bind] in *; [|discriminate]. rewrite E. reflexivity. }
  destruct s as [a|].
  - destruct Ho as (Ho & Nd). cbn [accept_result pointee].
    destruct (quiet_holds _ _ _ _ Q1 Ho) as (Ho1 & Ec & Lc).
    destruct (Put h1 a) as (h' & kjs' & E' & Ru & H' & L' & O'); [split; auto|exact Ho1|rewrite Ec; exact Nd| |].
    { intros c I J. rewrite Ec in I. apply Lc in I. apply Nx in J. lia. }
    exists h', a, kjs'. split; [exact (Shape h1 a h' E')|]. split; [reflexivity|]. split; [auto|]. split; [auto|].
    destruct Q1 as (L1 & O1). split; [lia|]. intros c Lc' Nc. rewrite O' by (rewrite Ec; exact Nc). auto.
  - subst kjs. cbn [accept_result alloc pointee].
    set (h := h1 ++ [NObj map_mk]). set (a := length h1).
    assert (Qh : quiet h1 h) by (split; [unfold h; rewrite app_length; lia|intros c Lc; apply alloc_other, Lc]).
    assert (Ea : nth_error h a = Some (NObj map_mk)) by apply alloc_new.
    assert (Ha : holds h (JObj []) a).
    { apply holds_obj. exists map_mk, []. split; [exact Ea|]. split; [|constructor]. destruct (mk_fields h1) as (m & Em & Rm). unfold h, a in Ea. rewrite Ea in Em. injection Em as <-. exact Rm. }
    assert (Ca : containers h (JObj []) a = [a]).
    { pose proof Ha as Hc. apply holds_obj in Hc as (cm & kas & E & R & F). rewrite (containers_obj h a cm kas [] E R). inversion F; subst. reflexivity. }
    destruct (quiet_holds _ _ _ _ Qh Hx) as (_ & Ex2 & Lx).
    destruct (Put h a) as (h' & kjs' & E' & Ru & H' & L' & O'); [exact Qh|exact Ha|rewrite Ca; constructor; [intros []|constructor]| |].
    { intros c I J. rewrite Ca in I. destruct I as [<-|[]]. rewrite Ex2 in J. apply Lx in J. unfold a in J. lia. }
    exists h', a, kjs'. split; [exact (Shape h a h' E')|]. split; [exists a; split; [auto|apply Q1]|]. split; [auto|]. split; [auto|].
    destruct Q1 as (L1 & O1). destruct Qh as (L2 & O2). split; [lia|]. intros c Lc' _. rewrite O', O2; [auto|lia|]. rewrite Ca. intros [<-|[]]. unfold a in Lc'. lia.
Qed.

(** Errors *)
Lemma select_as_fails w infos data sql key s : NoDup (map i_var infos) -> covers data (length infos) -> good_sql DB prepare limit infos data sql -> no_error_yet (w_heap DB w) s ->
  exists rc db', performs DB prepare exec limit infos data (w_db DB w) sql rc db' /\
    (rc <> SQLITE_ROW -> rc <> SQLITE_DONE -> forall fuel, (0 < fuel)%nat -> exists w' s', select_as fuel w (Some infos) data sql s key = Ok (rc, w', s') /\ w_db DB w' = db' /\
      same_or_new (w_heap DB w) s s' /\ error_text (w_heap DB w') s' /\ only_status (w_heap DB w) (w_heap DB w') s).
Proof.
  intros N C G Ne. destruct (select_fails DB prepare exec columns limit msg_unbound msg_failed limit_small w infos data sql (Some None) N C G (or_intror eq_refl)) as (rc & db' & P & F). exists rc, db'. split; [auto|].
  intros Nr Nd fuel Lf. destruct (F Nr Nd fuel Lf) as (w1 & s1 & E & Ed & Q & _ & Qu). destruct (Q eq_refl) as (r & -> & Lr & Et).
  destruct (pass_error fuel (w_heap DB w) (w_heap DB w1) s r Qu Ne Lr Et) as (e & Ee & A & _).
  unfold select_as, SqlSelectModel.select_as. rewrite E. cbn [bind pointee]. rewrite Ee. cbn [bind]. destruct s as [[a|]|].
  - destruct (A a eq_refl) as (h' & E' & Te & Oo). rewrite E'. cbn [bind]. eexists _, _. split; [reflexivity|]. cbn [w_db w_heap same_or_new]. auto.
  - eexists _, _. split; [reflexivity|]. split; [auto|]. split; [exists r; auto|]. split; [auto|]. destruct Qu as (L & O). split; [auto|]. intros c Lc _. auto.
  - eexists _, _. split; [reflexivity|]. split; [auto|]. split; [reflexivity|]. split; [exact I|]. destruct Qu as (L & O). split; [auto|]. intros c Lc _. auto.
Qed.

(** The error of select1_as is a new object, whatever the status was. *)
Lemma select1_as_fails w infos data sql key s : NoDup (map i_var infos) -> covers data (length infos) -> good_sql DB prepare limit infos data sql ->
  exists rc db', performs DB prepare exec limit infos data (w_db DB w) sql rc db' /\
    (rc <> SQLITE_ROW -> rc <> SQLITE_DONE -> forall fuel, (0 < fuel)%nat -> exists w' r, select1_as fuel w (Some infos) data sql (Some s) key = Ok (rc, w', Some (Some r)) /\ w_db DB w' = db' /\
      (length (w_heap DB w) <= r)%nat /\ error_text (w_heap DB w') (Some (Some r)) /\ quiet (w_heap DB w) (w_heap DB w')).
Proof.
  intros N C G. destruct (select1_fails DB prepare exec columns limit msg_unbound msg_failed limit_small w infos data sql (Some None) N C G I) as (rc & db' & P & F). exists rc, db'. split; [auto|].
  intros Nr Nd fuel Lf. destruct (F Nr Nd fuel Lf) as (w1 & s1 & E & Ed & (r & -> & Lr) & Et & (L & O)).
  destruct (error_there (w_heap DB w1) r Et) as (e & m & Ee & Em).
  unfold select1_as, SqlSelectModel.select1_as. rewrite E. cbn [bind pointee]. rewrite Ee. cbn [bind].
  exists w1, r. split; [reflexivity|]. split; [auto|]. split; [auto|]. split; [auto|]. split; [auto|]. intros c Lc. apply O; [auto|discriminate].
Qed.
End As.
