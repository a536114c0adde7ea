(** The operations on any object: the report with complaints. *)
From Coq Require Import String ZArith List Bool Lia Sorting.Permutation.
From Verif Require Import Base ArrayLemmas TsearchModel MapModel MapProofs ListModel ListProofs Json IntSpec JsonHeapModel JsonHeapSpec JsonHeapProofs JsonFrame JsonMergeProofs JsonFieldProofs JsonSelectModel SqlModel SqlSpec SqlProofs SqlJsonModel SqlJsonSpec SqlJsonProofs
  SqlSelectModel SqlSelectProofs SqlGenericModel SqlGenericSpec SqlGenericProofs SqlUseSpec SqlUseProofs SqlReportSpec.
Import ListNotations.
Open Scope Z_scope.

Lemma uses_length infos asks : forall l data r, uses infos asks l data r -> match r with Used data' _ _ _ => length data' = length data | Undefined => True end.
Proof.
  intros l data r U. induction U as [data|k v l data data' u n r T U IH| |]; auto.
  destruct r as [d us ns es|]; cbn [before]; auto. rewrite IH. inversion T; subst; auto. match goal with C : changed _ _ _ _ |- _ => destruct C; auto end.
Qed.
Lemma report_more h s n (t t' : stmts) used unused errors us ns es : st h s n -> Z.of_nat n <= 2 ^ 40 -> (s <> Some None) ->
  (t_update_template t <> None -> t_update_x t' <> None) ->
  holds h (JArr (map JStr us)) used -> holds h (JArr (map JStr ns)) unused -> holds h (JArr (map JStr es)) errors ->
  exists h', (let (h, debug) := alloc h (NObj map_mk) in
    let* h := match t_update_template t with
      | Some _ => let* x := of_option NullDeref (t_update_x t') in object_set_str byval_str_mk h (Some debug) key_update x
      | None => Ok h end in
    let* h := if t_insert_dynamic t then object_set_str byval_str_mk h (Some debug) key_insert (t_insert_x t') else Ok h in
    match s with
    | Some (Some result) =>
      let* h := object_set byval_str_mk h (Some debug) key_used (Some used) in
      let* x := select 10 h (Some unused) [91; 48; 93] [] in
      let* h := match x with Some _ => object_set byval_str_mk h (Some debug) key_unused (Some unused) | None => Ok h end in
      let* h := object_set byval_str_mk h (Some result) key_debug (Some debug) in
      let* x := select 10 h (Some errors) [91; 48; 93] [] in
      match x with Some _ => object_set byval_str_mk h (Some result) key_error (Some errors) | None => Ok h end
    | _ => Ok h
    end)%outcome = Ok h' /\ only_status h h' s /\ st h' s (S (S n)) /\ with_report h h' s (debug_value t t' us ns) es.
Proof.
  intros St Bn Ns Hu Hus Hns Hes. cbn [alloc].
  set (d := length h). pose proof (plain_mk h) as P0. fold d in P0. set (h0 := h ++ [NObj map_mk]) in *.
  assert (O0 : only_status h h0 (Some (Some d))).
  { split; [unfold h0; rewrite app_length; lia|]. intros c Lc _. apply alloc_other. auto. }
  assert (Str : forall h1 l a, only_status h h1 (Some (Some d)) -> holds h (JArr (map JStr l)) a -> holds h1 (JArr (map JStr l)) a).
  { intros h1 l a (L1 & O1). apply holds_below; [auto|]. intros c Lc. apply O1; [auto|]. intros Q. injection Q as Q. unfold d in Q. lia. }
  set (j1 := match t_update_template t, t_update_x t' with Some _, Some x => [(k_update, JStr x)] | _, _ => [] end).
  assert (S1 : exists h1, (match t_update_template t with
      | Some _ => let* x := of_option NullDeref (t_update_x t') in object_set_str byval_str_mk h0 (Some d) key_update x
      | None => Ok h0 end)%outcome = Ok h1 /\ plain_object h1 d j1 /\ only_status h0 h1 (Some (Some d))).
  { unfold j1. destruct (t_update_template t) as [tp|]; [|exists h0; split; [auto|]; split; [auto|apply only_refl]].
    destruct (t_update_x t') as [x|] eqn:Ex; [|exfalso; apply Hu; congruence]. cbn [of_option bind].
    destruct (plain_set_str h0 d [] key_update x P0) as (h1 & E1 & P1 & O1); [cbn; lia|auto|]. exists h1. auto. }
  destruct S1 as (h1 & E1 & P1 & O1). step E1.
  set (j2 := j1 ++ if t_insert_dynamic t then [(k_insert, JStr (t_insert_x t'))] else []).
  assert (S2 : exists h2, (if t_insert_dynamic t then object_set_str byval_str_mk h1 (Some d) key_insert (t_insert_x t') else Ok h1) = Ok h2 /\
    plain_object h2 d j2 /\ only_status h1 h2 (Some (Some d))).
  { unfold j2. destruct (t_insert_dynamic t); [|exists h1; rewrite app_nil_r; split; [auto|]; split; [auto|apply only_refl]].
    apply plain_set_str; [auto| |].
    - unfold j1. destruct (t_update_template t); [destruct (t_update_x t')|]; cbn [length]; lia.
    - unfold j1. destruct (t_update_template t); [destruct (t_update_x t')|]; cbn [map fst In]; intros I; try tauto. destruct I as [I|[]]. discriminate. }
  destruct S2 as (h2 & E2 & P2 & O2). step E2.
  assert (L2 : (length j2 <= 2)%nat /\ (forall k, In k (map fst j2) -> k = k_update \/ k = k_insert)).
  { unfold j2, j1. destruct (t_update_template t); [destruct (t_update_x t')|]; destruct (t_insert_dynamic t); cbn [length app map fst In]; (split; [lia|]);
      intros k I; repeat (destruct I as [<-|I]; [auto|]); destruct I. }
  pose proof (only_trans _ _ _ _ O0 (only_trans _ _ _ _ O1 O2)) as O02.
  destruct s as [[r|]|]; [|congruence|].
  2: { exists h2. split; [auto|]. split; [eapply only_some; [exact O02|unfold d; lia]|]. split; exact I. }
  destruct St as (kas & Fr & Lk). assert (Lr : (r < length h)%nat) by (destruct Fr as (m & Er & _); apply nth_error_Some; congruence).
  assert (Nrd : r <> d) by (unfold d; lia).
  destruct (plain_set h2 d j2 key_used (JArr (map JStr us)) used P2) as (h3 & E3 & P3 & O3); [lia| |right; eauto|apply Str; auto|].
  { intros I. apply (proj2 L2) in I as [I|I]; discriminate. }
  step E3. pose proof (only_trans _ _ _ _ O02 O3) as O03.
  destruct (first_ok h3 (map JStr ns) unused) as (x & Ex & Qx); [apply Str; auto|]. step Ex.
  set (j3 := j2 ++ [(key_used, JArr (map JStr us))]) in *.
  set (j4 := j3 ++ match ns with [] => [] | _ => [(k_unused, JArr (map JStr ns))] end).
  assert (S4 : exists h4, (match x with Some _ => object_set byval_str_mk h3 (Some d) key_unused (Some unused) | None => Ok h3 end) = Ok h4 /\ plain_object h4 d j4 /\ only_status h3 h4 (Some (Some d))).
  { unfold j4. destruct ns as [|n0 ns]; cbn [map] in Qx.
    - subst x. exists h3. rewrite app_nil_r. split; [auto|]. split; [auto|apply only_refl].
    - destruct Qx as (x0 & -> & _). apply (plain_set h3 d j3 key_unused (JArr (map JStr (n0 :: ns)))); [auto| | |right; eauto|apply Str; auto].
      + unfold j3. rewrite app_length. cbn [length]. lia.
      + unfold j3. rewrite map_app. intros I. apply in_app_or in I as [I|I]; [apply (proj2 L2) in I as [I|I]; discriminate|]. cbn [map fst In] in I. destruct I as [I|[]]. discriminate. }
  destruct S4 as (h4 & E4 & P4 & O4). step E4. pose proof (only_trans _ _ _ _ O03 O4) as O04.
  assert (Fr4 : object_fields h4 r kas) by (eapply fields_other; eauto).
  assert (Ld : (d < length h4)%nat) by (destruct P4 as (? & (md & Ed & _) & _); apply nth_error_Some; congruence).
  destruct (set_ok h4 r kas key_debug d Fr4) as (h5 & E5 & F5 & L5 & O5); [lia|auto|]. step E5.
  assert (O05 : only_status h h5 (Some (Some r))) by (eapply only_trans; [eapply only_some; [exact O04|unfold d; lia]|exact O5]).
  pose proof Fr4 as (mr & Er4 & _).
  assert (He5 : holds h5 (JArr (map JStr es)) errors).
  { apply (simple_stable h4 h5 r mr); [right; exists es; auto|auto|auto|]. apply (Str h4 es); auto. }
  assert (Pd5 : plain_object h5 d j4) by (eapply plain_other; eauto).
  assert (Ej : debug_value t t' us ns = JObj j4).
  { unfold debug_value, j4, j3, j2. rewrite <- !app_assoc. reflexivity. }
  assert (Dk : said "debug" = key_debug) by reflexivity. assert (Ek : said "error" = key_error) by reflexivity.
  assert (Nde : key_error <> key_debug) by discriminate.
  pose proof (put_length_le key_debug d kas) as Pl.
  destruct (first_ok h5 (map JStr es) errors He5) as (y & Ey & Qy). step Ey. destruct es as [|e0 es]; cbn [map] in Qy.
  - subst y. exists h5. split; [auto|]. split; [auto|].
    split; [exists (put key_debug d kas); split; [auto|lia]|].
    exists kas, (put key_debug d kas), d. rewrite Dk, Ek, Ej. split; [auto|]. split; [auto|].
    split; [rewrite lookup_put; destruct (list_eq_dec Z.eq_dec key_debug key_debug); congruence|].
    split; [apply plain_holds; auto|]. split; [rewrite lookup_put; destruct (list_eq_dec Z.eq_dec key_error key_debug); congruence|].
    intros k Nk _. rewrite lookup_put. destruct (list_eq_dec Z.eq_dec k key_debug); congruence.
  - destruct Qy as (y0 & -> & _).
    assert (Le : (errors < length h5)%nat) by (apply holds_node in He5 as (nd & Ev & _); apply nth_error_Some; congruence).
    destruct (set_ok h5 r (put key_debug d kas) key_error errors F5) as (h6 & E6 & F6 & L6 & O6); [lia|auto|].
    pose proof F5 as (mr5 & Er5 & _).
    exists h6. split; [exact E6|]. split; [eapply only_trans; [exact O05|exact O6]|].
    pose proof (put_length_le key_error errors (put key_debug d kas)) as Pl2.
    split; [exists (put key_error errors (put key_debug d kas)); split; [auto|lia]|].
    exists kas, (put key_error errors (put key_debug d kas)), d. rewrite Dk, Ek, Ej. split; [auto|]. split; [auto|].
    split; [rewrite !lookup_put; destruct (list_eq_dec Z.eq_dec key_debug key_error); [congruence|]; destruct (list_eq_dec Z.eq_dec key_debug key_debug); congruence|].
    split; [apply plain_holds; eapply plain_other; eauto|].
    split; [exists errors; split; [rewrite lookup_put; destruct (list_eq_dec Z.eq_dec key_error key_error); congruence|apply (simple_stable h5 h6 r mr5); [right; exists (e0 :: es); auto|auto|auto|exact He5]]|].
    intros k N1 N2. rewrite !lookup_put. destruct (list_eq_dec Z.eq_dec k key_error); [congruence|]. destruct (list_eq_dec Z.eq_dec k key_debug); congruence.
Qed.
Section Op.
Variable DB : Type.
Variable op : world DB -> option (list bind_info) -> option (list bind_data) -> stmts -> option (option nat) -> outcome (Z * world DB * option (option nat)).

Lemma generic_more (w : world DB) a kvs infos data t s n :
  holds (w_heap DB w) (JObj kvs) a -> st (w_heap DB w) s n -> Forall (fun info => i_col info <> []) infos ->
  (length infos <= length data)%nat ->
  (forall tp, t_update_template t = Some tp -> exists before behind, template tp before behind) ->
  exists order r, Permutation order kvs /\ uses infos true order data r /\
  match r with
  | Undefined => exists b, generic_opcode byval_str_mk DB op w (Some a) (Some infos) (Some data) t s = Bad b
  | Used data' us ns es => exists h1 s1 t',
    same_status (w_heap DB w) s s1 /\ extends (w_heap DB w) h1 /\ s1 <> Some None /\ st h1 s1 n /\ composed kvs infos (Some data') t t' /\
    (forall b, op (on_heap DB w h1) (Some infos) (Some data') t' s1 = Bad b -> generic_opcode byval_str_mk DB op w (Some a) (Some infos) (Some data) t s = Bad b) /\
    (forall rc w2, op (on_heap DB w h1) (Some infos) (Some data') t' s1 = Ok (rc, w2, s1) -> t_update_template t <> None -> t_update_x t' = None ->
       generic_opcode byval_str_mk DB op w (Some a) (Some infos) (Some data) t s = Bad NullDeref) /\
    (forall rc w2 m, op (on_heap DB w h1) (Some infos) (Some data') t' s1 = Ok (rc, w2, s1) -> only_status h1 (w_heap DB w2) s1 -> st (w_heap DB w2) s1 m ->
       Z.of_nat m <= 2 ^ 40 -> (t_update_template t <> None -> t_update_x t' <> None) ->
       exists h', generic_opcode byval_str_mk DB op w (Some a) (Some infos) (Some data) t s = Ok (rc, on_heap DB w2 h', Some data', s1) /\
         only_status (w_heap DB w2) h' s1 /\ st h' s1 (S (S m)) /\ with_report (w_heap DB w2) h' s1 (debug_value t t' us ns) es)
  end.
Proof.
  intros H St Fc Ld Htp.
  destruct (accept_more _ _ _ St) as (h0 & s1 & Ea & X0 & St0 & Ns & Ss).
  set (e := length h0). set (g1 := h0 ++ [NArr (list_mk 1)]). set (u := length g1). set (g2 := g1 ++ [NArr (list_mk 10)]). set (v := length g2). set (g3 := g2 ++ [NArr (list_mk 10)]).
  assert (X1 : extends h0 g1) by (eexists; reflexivity). assert (X2 : extends g1 g2) by (eexists; reflexivity). assert (X3 : extends g2 g3) by (eexists; reflexivity).
  assert (Lu : u = S e) by (unfold u, g1, e; rewrite app_length; cbn [length]; lia). assert (Lv : v = S u) by (unfold v, g2, u; rewrite app_length; cbn [length]; lia).
  assert (He : listed g3 (Some e) []).
  { cbn [listed]. apply (strings_extends g1); [eapply extends_trans; eauto|]. apply new_array. lia. }
  assert (Hu : listed g3 (Some u) []). { cbn [listed]. apply (strings_extends g2); [auto|]. apply new_array. lia. }
  assert (Hv : listed g3 (Some v) []). { cbn [listed]. apply new_array. lia. }
  assert (Xg : extends (w_heap DB w) g3). { eapply extends_trans; [exact X0|]. eapply extends_trans; [exact X1|]. eapply extends_trans; eauto. }
  assert (Hg : holds g3 (JObj kvs) a). { eapply holds_extends; [exact Xg|apply le_n|exact H]. }
  destruct (populate_exact infos g3 a kvs data (Some v) (Some u) (Some e) [] [] [] Hg) as (order & r & Pm & Us & R);
    [cbn [addrs app]; repeat constructor; cbn [In]; lia|split; [auto|split; auto]|auto|].
  exists order, r. split; [exact Pm|]. split; [exact Us|].
  destruct r as [data' us ns es|].
  2: { destruct R as (b & Ep). exists b. unfold generic_opcode. rewrite Ea. cbn [alloc]. fold e g1. fold u g2. fold v g3. rewrite Ep. reflexivity. }
  destruct R as (h1 & Ep & (Sv & Su & Se) & K). cbn [app] in Sv, Su, Se.
  assert (Ld' : length data' = length data) by exact (uses_length _ _ _ _ _ Us).
  assert (X4 : extends h0 h1).
  { destruct K as (Lk & K). assert (L03 : (length h0 <= length g3)%nat) by (apply extends_len; eapply extends_trans; [exact X1|]; eapply extends_trans; eauto).
    apply agree_extends; [lia|]. intros c Lc. destruct (K c) as (A & _); [lia|]. rewrite A.
    - apply extends_get; [eapply extends_trans; [exact X1|]; eapply extends_trans; eauto|auto].
    - cbn [addrs app In]. unfold e in *. lia. }
  pose proof (extends_trans _ _ _ X0 X4) as X. assert (H1 : holds h1 (JObj kvs) a) by (eapply holds_extends; [exact X|apply le_n|exact H]).
  destruct (compose_made h1 a kvs infos data' t H1) as (set & ins & ux & ix & Ec & Eu & Ei & Co);
    [cbn [covers]; rewrite Ld'; auto|auto|auto|].
  set (t' := Stmts (t_table t) (t_select t) (t_insert t) (t_insert_dynamic t) ix (t_delete t) (t_update t) (t_update_template t) ux) in *.
  exists h1, s1, t'. split; [exact Ss|]. split; [exact X|]. split; [exact Ns|]. split; [exact (st_extends _ _ _ _ X4 St0)|]. split; [exact Co|].
  set (P := op (on_heap DB w h1) (Some infos) (Some data') t' s1).
  assert (G : generic_opcode byval_str_mk DB op w (Some a) (Some infos) (Some data) t s =
    (let* (rc, w, status) := P in
     let* h := (let (h, debug) := alloc (w_heap DB w) (NObj map_mk) in
       let* h := match t_update_template t with
         | Some _ => let* x := of_option NullDeref (t_update_x t') in object_set_str byval_str_mk h (Some debug) key_update x
         | None => Ok h end in
       let* h := if t_insert_dynamic t then object_set_str byval_str_mk h (Some debug) key_insert (t_insert_x t') else Ok h in
       match s1 with
       | Some (Some result) =>
         let* h := object_set byval_str_mk h (Some debug) key_used (Some v) in
         let* x := select 10 h (Some u) [91; 48; 93] [] in
         let* h := match x with Some _ => object_set byval_str_mk h (Some debug) key_unused (Some u) | None => Ok h end in
         let* h := object_set byval_str_mk h (Some result) key_debug (Some debug) in
         let* x := select 10 h (Some e) [91; 48; 93] [] in
         match x with Some _ => object_set byval_str_mk h (Some result) key_error (Some e) | None => Ok h end
       | _ => Ok h
       end) in
     Ok (rc, on_heap DB w h, Some data', status))%outcome).
  { unfold generic_opcode. rewrite Ea. cbn [alloc]. fold e g1. fold u g2. fold v g3. rewrite Ep. cbn [bind].
    match goal with |- bind ?A _ = _ => replace A with (Ok (set, ins)) by (symmetry; exact Ec) end. cbn [bind].
    match goal with |- bind ?A _ = _ => replace A with (Ok ux) by (symmetry; exact Eu) end. cbn [bind].
    match goal with |- bind ?A _ = _ => replace A with (Ok ix) by (symmetry; exact Ei) end. cbn [bind]. fold t'. fold P.
    destruct P as [((rc & w2) & s2)|b]; [|reflexivity]. cbn [bind].
    change (t_update_x t') with ux. change (t_insert_x t') with ix.
    match goal with |- bind ?A _ = _ => destruct A; [|reflexivity] end. cbn [bind].
    match goal with |- bind ?A _ = _ => destruct A; [|reflexivity] end. cbn [bind].
    destruct s1 as [[r|]|]; [|reflexivity|reflexivity].
    match goal with |- bind ?A _ = _ => destruct A; [|reflexivity] end. cbn [bind].
    match goal with |- bind ?A _ = _ => destruct A as [x|]; [|reflexivity] end. cbn [bind].
    match goal with |- bind ?A _ = _ => destruct A; [|reflexivity] end. cbn [bind].
    match goal with |- bind ?A _ = _ => destruct A; [|reflexivity] end. cbn [bind].
    match goal with |- bind ?A _ = _ => destruct A as [y|]; [|reflexivity] end. cbn [bind]. reflexivity. }
  split; [|split].
  - intros b Eb. fold P in Eb. rewrite G, Eb. reflexivity.
  - intros rc w2 Eo Nt Nu. fold P in Eo. rewrite G, Eo. cbn [bind alloc]. destruct (t_update_template t) as [tp|]; [|congruence]. rewrite Nu. reflexivity.
  - intros rc w2 m Eo O St2 Bm Hx. fold P in Eo.
    pose proof (st_extends _ _ _ _ X4 St0) as St1.
    destruct (report_more (w_heap DB w2) s1 m t t' v u e us ns es St2 Bm Ns Hx) as (h' & Er & Or & Sr & Wd).
    { eapply strings_only; eauto. } { eapply strings_only; eauto. } { eapply strings_only; eauto. }
    exists h'. split; [|auto]. rewrite G, Eo. cbn [bind]. rewrite Er. reflexivity.
Qed.
End Op.

