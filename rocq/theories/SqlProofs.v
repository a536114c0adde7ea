(** Proofs about the binding and running of SQL statements (SqlModel.v). *)
From Coq Require Import ZArith List Bool Lia Arith.
From Verif Require Import Base ArrayLemmas TsearchModel MapModel MapProofs Json JsonHeapModel JsonHeapSpec JsonHeapProofs JsonFrame JsonMergeProofs JsonFieldProofs
  JsonSelectModel JsonSelectProofs SqlModel SqlSpec.
Import ListNotations.
Open Scope Z_scope.
Open Scope outcome_scope.
Lemma select_error h o m : nth_error h o = Some (NObj m) -> select 10 h (Some o) (46 :: key_error) [] = map_find text nat strcmp (Some m) (Some key_error).
Proof.
  intros E. unfold select, key_error. cbn - [map_find find_token]. rewrite E. cbn [of_option bind].
  change [Some 101; Some 114; Some 114; Some 111; Some 114] with (tk [101; 114; 114; 111; 114]).
  rewrite find_token_map. unfold map_find. destruct (tfind _ _ _ _) as [(k, [v|])|]; auto.
Qed.

Local Arguments Z.add : simpl never.
Local Arguments Z.sub : simpl never.
Local Arguments Z.of_nat : simpl never.
Local Arguments Z.to_nat : simpl never.

(** * The kind of a statement *)
Lemma lower_same c w : 97 <= w <= 122 -> (lower c =? w) = true <-> same_letter c w.
Proof.
  intros W. unfold lower, same_letter. destruct (Z.leb_spec 65 c), (Z.leb_spec c 90); cbn [andb]; rewrite Z.eqb_eq; lia.
Qed.
Lemma starts_iff p word : Forall (fun w => 97 <= w <= 122) word ->
  starts_nocase p word = true <-> exists w rest, p = w ++ rest /\ Forall2 same_letter w word.
Proof.
  revert p. induction word as [|x word IH]; intros p F; cbn [starts_nocase].
  - split; [|auto]. intros _. exists [], p. split; [auto|constructor].
  - destruct p as [|c p].
    + split; [discriminate|]. intros (w & rest & E & G). inversion G; subst. discriminate.
    + rewrite andb_true_iff, lower_same, IH by (try apply (Forall_inv_tail F); apply (Forall_inv F)). split.
      * intros (S & w & rest & -> & G). exists (c :: w), rest. split; [auto|constructor; auto].
      * intros (w & rest & E & G). inversion G as [|a b w' word' S G']; subst. cbn [app] in E. injection E as -> ->. split; [auto|]. exists w', rest. auto.
Qed.
Lemma space_iff c : isspace c = true <-> In c [9; 10; 11; 12; 13; 32].
Proof.
  unfold isspace. rewrite orb_true_iff, andb_true_iff, Z.eqb_eq, !Z.leb_le. cbn [In]. split; [|lia].
  intros [->|H]; [auto 8|]. assert (c = 9 \/ c = 10 \/ c = 11 \/ c = 12 \/ c = 13) by lia. intuition.
Qed.
Lemma skip_iff sql word : Forall (fun w => 97 <= w <= 122) word -> word <> [] ->
  starts_nocase (skip_spaces sql) word = true <-> begins_with word sql.
Proof.
  intros F Nw. unfold begins_with. induction sql as [|c sql IH]; cbn [skip_spaces].
  - rewrite starts_iff by auto. split.
    + intros (w & rest & E & G). exists [], w, rest. auto.
    + intros (sp & w & rest & E & _ & G). symmetry in E. apply app_eq_nil in E as (-> & E). exists w, rest. auto.
  - destruct (isspace c) eqn:Sp.
    + rewrite IH. split.
      * intros (sp & w & rest & -> & Fs & G). exists (c :: sp), w, rest. split; [auto|]. split; [constructor; [apply space_iff; auto|auto]|auto].
      * intros (sp & w & rest & E & Fs & G). destruct sp as [|c' sp].
        -- exfalso. destruct G as [|a b w' word' S G]; [auto|]. cbn [app] in E. injection E as <- _.
           apply space_iff in Sp. pose proof (Forall_inv F) as B. cbn beta in B. unfold same_letter in S. cbn [In] in Sp. lia.
        -- cbn [app] in E. injection E as <- ->. exists sp, w, rest. split; [auto|]. split; [apply (Forall_inv_tail Fs)|auto].
    + rewrite starts_iff by auto. split.
      * intros (w & rest & E & G). exists [], w, rest. auto.
      * intros (sp & w & rest & E & Fs & G). destruct sp as [|c' sp]; [exists w, rest; auto|]. exfalso. cbn [app] in E. injection E as <- _.
        pose proof (Forall_inv Fs) as B. apply space_iff in B. congruence.
Qed.

Lemma letters_of l : forallb (fun w => (97 <=? w) && (w <=? 122)) l = true -> Forall (fun w => 97 <= w <= 122) l.
Proof. intros H. apply Forall_forall. intros x I. rewrite forallb_forall in H. specialize (H x I). apply andb_true_iff in H. lia. Qed.
Lemma begins_unique x y wx wy sql : 97 <= x <= 122 -> 97 <= y <= 122 -> begins_with (x :: wx) sql -> begins_with (y :: wy) sql -> x = y.
Proof.
  intros Bx By (sp & w & r & E & F & G) (sp' & w' & r' & E' & F' & G'). inversion G as [|a b ? ? Sa _]; subst. inversion G' as [|a' b' ? ? Sb _]; subst.
  clear G G'. revert sp' E' F'. induction sp as [|c sp IH]; intros [|c' sp'] E' F'; cbn [app] in E'; injection E' as ? E'; subst.
  - unfold same_letter in *. lia.
  - exfalso. pose proof (Forall_inv F') as B. cbn [In] in B. unfold same_letter in *. lia.
  - exfalso. pose proof (Forall_inv F) as B. cbn [In] in B. unfold same_letter in *. lia.
  - apply (IH (Forall_inv_tail F) sp'); auto. apply (Forall_inv_tail F').
Qed.
Lemma insert_iff sql : get_stmt_type sql = INSERT <-> is_insert sql.
Proof.
  unfold get_stmt_type, is_insert.
  assert (S1 := skip_iff sql [115; 101; 108; 101; 99; 116]). specialize (S1 ltac:(apply letters_of; reflexivity) ltac:(discriminate)).
  assert (S2 := skip_iff sql [105; 110; 115; 101; 114; 116]). specialize (S2 ltac:(apply letters_of; reflexivity) ltac:(discriminate)).
  assert (S3 := skip_iff sql [117; 112; 100; 97; 116; 101]). 
  destruct (starts_nocase (skip_spaces sql) [115; 101; 108; 101; 99; 116]).
  - split; [discriminate|]. intros B. assert (115 = 105); [|lia]. apply (begins_unique 115 105 [101; 108; 101; 99; 116] [110; 115; 101; 114; 116] sql); try lia; tauto.
  - destruct (starts_nocase (skip_spaces sql) [105; 110; 115; 101; 114; 116]); [tauto|].
    split; [|intros B; exfalso; apply S2 in B; discriminate].
    destruct (starts_nocase _ _); [discriminate|]. destruct (starts_nocase _ _); discriminate.
Qed.

(** * Binding one entry *)
Lemma c_string_ok s rest : ~ In 0 s -> c_string (s ++ 0 :: rest) = Ok s.
Proof.
  induction s as [|c s IH]; intros N; cbn [app c_string]; [auto|]. cbn [In] in N.
  destruct (Z.eqb_spec c 0); [exfalso; apply N; auto|]. rewrite IH by tauto. auto.
Qed.
Lemma bytes_ok s rest : bytes (s ++ rest) (Z.of_nat (length s)) = Ok s.
Proof.
  unfold bytes. rewrite app_length. destruct (Z.leb_spec (Z.of_nat (length s)) (Z.of_nat (length s + length rest))); [|lia].
  rewrite Nat2Z.id, firstn_app, firstn_all, Nat.sub_diag, firstn_O, app_nil_r. auto.
Qed.

Section Sql.
Variable DB : Type.
Variable prepare : DB -> text -> Z * list (option text).
Variable exec : DB -> text -> list sqlv -> DB * list (list sqlv) * Z.
Variable limit : Z.
Variable counters : DB -> counts.
Variable msg_unbound : text -> Z -> text -> text.
Variable msg_failed : Z -> text -> text.
Hypothesis limit_small : limit < 2 ^ 31.

Lemma value_ok info d v : denotes limit d (i_type info) v -> d_is_null d = false \/ i_not_null info = true -> bind_value limit info d = Ok (Some v).
Proof.
  intros D N. unfold bind_value. replace (d_is_null d && negb (i_not_null info)) with false by (destruct N as [-> | ->]; [auto|rewrite andb_comm; auto]).
  remember (i_type info) as ty. clear Heqty. destruct D as [| |E|s rest E N0 E0 L|s rest E E0 L|E B|s rest E E0 L]; auto.
  - rewrite E. destruct (d_size d =? 0); auto.
  - rewrite E, E0. cbn [Z.eqb bind_text bind]. change (-1 <? 0) with true. cbn iota. rewrite c_string_ok by auto. cbn [bind].
    unfold within_limit. destruct (Z.leb_spec (Z.of_nat (length s)) limit); [auto|lia].
  - rewrite E, E0. destruct (Z.eqb_spec (Z.of_nat (length s)) 0); [lia|]. rewrite to_int32_id by lia. cbn [bind_text].
    destruct (Z.ltb_spec (Z.of_nat (length s)) 0); [lia|]. rewrite bytes_ok. cbn [bind]. unfold within_limit.
    destruct (Z.leb_spec (Z.of_nat (length s)) limit); [auto|lia].
  - rewrite E. rewrite to_int32_id by lia. unfold bind_blob. destruct (Z.ltb_spec (d_size d) 0); [lia|auto].
  - rewrite E, E0. rewrite to_int32_id by lia. unfold bind_blob. destruct (Z.ltb_spec (Z.of_nat (length s)) 0); [lia|]. rewrite bytes_ok. cbn [bind]. unfold within_limit.
    destruct (Z.leb_spec (Z.of_nat (length s)) limit); [auto|lia].
Qed.
Lemma entry_ok (Q : Prop) ty info data i v : (Q -> ty = INSERT) -> (match data with Some l => (i < length l)%nat | None => True end) ->
  supplied limit Q info (given data i) v -> bind_entry limit ty info data i = Ok (Some v).
Proof.
  intros HQ C Sp. unfold bind_entry.
  assert (Da : data_at data i = Ok (match given data i with Some d => if d_has_value d then Some d else None | None => None end)).
  { unfold data_at, given. destruct data as [l|]; [|auto]. destruct (nth_error l i) eqn:E; [auto|]. apply nth_error_None in E. lia. }
  rewrite Da. cbn [bind].
  set (d0 := match given data i with Some d => if d_has_value d then Some d else None | None => None end).
  assert (Es : source info (given data i) = match d0 with Some d => Some d | None => if d_has_value (i_data info) then Some (i_data info) else None end).
  { unfold source, d0. destruct (given data i) as [d|]; [destruct (d_has_value d)|]; auto. }
  destruct Sp as [d E Nu Nn|d v E N D|v E Ins Nn Zv]; rewrite Es in E.
  - assert (V : bind_value limit info d = Ok (Some V_NULL)) by (unfold bind_value; rewrite Nu, Nn; auto).
    destruct d0 as [d'|]; [injection E as ->; auto|]. destruct (d_has_value (i_data info)); [injection E as <-; auto|discriminate].
  - pose proof (value_ok info d v D N) as V. destruct d0 as [d'|]; [injection E as ->; auto|]. destruct (d_has_value (i_data info)); [injection E as <-; auto|discriminate].
  - destruct d0 as [d'|]; [discriminate|]. destruct (d_has_value (i_data info)); [discriminate|]. rewrite (HQ Ins), Nn.
    destruct Zv; auto.
Qed.

(** * Parameters *)
Lemma index_from params name : forall i, 0 < i ->
  let r := parameter_index_from i params name in
  (r = 0 /\ ~ In (Some name) params) \/
  (i <= r < i + Z.of_nat (length params) /\ nth_error params (Z.to_nat (r - i)) = Some (Some name)).
Proof.
  induction params as [|p params IH]; intros i Hi r; subst r; cbn [parameter_index_from length]; [left; auto|].
  assert (Skip : p <> Some name -> (parameter_index_from (i + 1) params name = 0 /\ ~ In (Some name) (p :: params)) \/
     (i <= parameter_index_from (i + 1) params name < i + Z.of_nat (S (length params)) /\
      nth_error (p :: params) (Z.to_nat (parameter_index_from (i + 1) params name - i)) = Some (Some name))).
  { intros Ne. destruct (IH (i + 1)) as [(E & N)|(B & E)]; [lia| |].
    - left. split; [auto|]. intros [|]; auto.
    - right. split; [lia|]. replace (Z.to_nat (parameter_index_from (i + 1) params name - i)) with (S (Z.to_nat (parameter_index_from (i + 1) params name - (i + 1)))) by lia. auto. }
  destruct p as [n|]; [|apply Skip; discriminate]. destruct (list_eq_dec Z.eq_dec n name) as [->|Ne]; [|apply Skip; congruence].
  right. split; [lia|]. replace (Z.to_nat (i - i)) with 0%nat by lia. auto.
Qed.
(** the position of a parameter *)
Definition position (params : list (option text)) (name : text) : option nat :=
  let r := parameter_index params name in if r <=? 0 then None else Some (Z.to_nat (r - 1)).
Lemma position_some params name k : position params name = Some k -> nth_error params k = Some (Some name).
Proof.
  unfold position, parameter_index. destruct (index_from params name 1) as [(E & _)|(B & E)]; [lia|rewrite E; discriminate|].
  cbv zeta. destruct (Z.leb_spec (parameter_index_from 1 params name) 0); [lia|]. intros H'. injection H' as <-. auto.
Qed.
Lemma position_none params name : position params name = None -> ~ In (Some name) params.
Proof.
  unfold position, parameter_index. destruct (index_from params name 1) as [(E & N)|(B & E)]; [lia|auto|].
  cbv zeta. destruct (Z.leb_spec (parameter_index_from 1 params name) 0); [lia|discriminate].
Qed.
Lemma position_nodup params name k : NoDup params -> nth_error params k = Some (Some name) -> position params name = Some k.
Proof.
  intros N E. destruct (position params name) as [i|] eqn:P.
  - apply position_some in P. f_equal. rewrite NoDup_nth_error in N. apply N; [apply nth_error_Some; congruence|congruence].
  - exfalso. apply (position_none _ _ P). eapply nth_error_In; eauto.
Qed.
Lemma position_lt params name k : position params name = Some k -> (k < length params)%nat.
Proof. intros E. apply position_some in E. apply nth_error_Some. congruence. Qed.

Lemma nth_update_same {A} (l : list A) k x : (k < length l)%nat -> nth_error (update l k x) k = Some x.
Proof. apply nth_error_update_eq. Qed.

Lemma loop_ok (Q : Prop) ty params data : (Q -> ty = INSERT) -> forall infos i vals bound,
  length vals = length params -> length bound = length params ->
  NoDup (map i_var infos) -> covers data (i + length infos) ->
  (forall j info, nth_error infos j = Some info -> In (Some (i_var info)) params ->
     exists v, supplied limit Q info (given data (i + j)) v) ->
  exists vals' bound', bind_loop limit ty params infos data i vals bound = Ok (vals', bound') /\
    length vals' = length params /\ length bound' = length params /\
    (forall k, nth_error bound' k = Some true <-> nth_error bound k = Some true \/ exists info, In info infos /\ position params (i_var info) = Some k) /\
    (forall k, (forall info, In info infos -> position params (i_var info) <> Some k) -> nth_error vals' k = nth_error vals k) /\
    (forall j info k, nth_error infos j = Some info -> position params (i_var info) = Some k ->
       exists v, nth_error vals' k = Some v /\ supplied limit Q info (given data (i + j)) v).
Proof.
  intros HQ. induction infos as [|info infos IH]; intros i vals bound Lv Lb N C Sp.
  - cbn [bind_loop]. exists vals, bound. split; [auto|]. split; [auto|]. split; [auto|]. split; [|split; [auto|]].
    + intros k. split; [auto|]. intros [|(x & [] & _)]; auto.
    + intros [|j] x k E; discriminate.
  - cbn [bind_loop]. cbn [map] in N. inversion N as [|? ? N1 N2]; subst.
    assert (Pe : position params (i_var info) = if parameter_index params (i_var info) <=? 0 then None else Some (Z.to_nat (parameter_index params (i_var info) - 1))) by reflexivity.
    assert (Sp' : forall j x, nth_error infos j = Some x -> In (Some (i_var x)) params ->
       exists v, supplied limit Q x (given data (S i + j)) v).
    { intros j x E I. replace (S i + j)%nat with (i + S j)%nat by lia. apply (Sp (S j)); auto. }
    assert (C' : covers data (S i + length infos)) by (cbn [length] in C; replace (S i + length infos)%nat with (i + S (length infos))%nat by lia; auto).
    cbv zeta. destruct (parameter_index params (i_var info) <=? 0).
    + destruct (IH (S i) vals bound Lv Lb N2 C' Sp') as (vals' & bound' & E & L1 & L2 & B & K & V). exists vals', bound'. split; [auto|].
      split; [auto|]. split; [auto|]. split; [|split].
      * intros k. rewrite B. split; intros [|(x & I & P)]; auto; right; exists x; [split; [right; auto|auto]|]. destruct I as [<-|I]; [congruence|auto].
      * intros k H. apply K. intros x I. apply H. right; auto.
      * intros [|j] x k Ex P; cbn [nth_error] in Ex; [injection Ex as <-; congruence|]. replace (i + S j)%nat with (S i + j)%nat by lia. apply (V j); auto.
    + set (n := Z.to_nat (parameter_index params (i_var info) - 1)) in *.
      assert (Ln : (n < length params)%nat) by (eapply position_lt; eauto).
      destruct (Sp 0%nat info eq_refl) as (v & Sv); [apply position_some in Pe; eapply nth_error_In; eauto|].
      rewrite Nat.add_0_r in Sv.
      assert (Ci : match data with Some l => (i < length l)%nat | None => True end) by (clear - C; unfold covers in C; destruct data; [cbn [length] in C; lia|auto]).
      rewrite (entry_ok Q ty info data i v HQ Ci Sv). cbn [bind].
      destruct (IH (S i) (update vals n v) (update bound n true)) as (vals' & bound' & E & L1 & L2 & B & K & V); try (rewrite update_length; auto); auto.
      assert (Fresh : forall x, In x infos -> position params (i_var x) <> Some n).
      { intros x I P. apply position_some in P, Pe. rewrite Pe in P. injection P as P. apply N1. rewrite P. apply in_map; auto. }
      exists vals', bound'. split; [auto|]. split; [auto|]. split; [auto|]. split; [|split].
      * intros k. rewrite B. destruct (Nat.eq_dec k n) as [->|Ne].
        -- rewrite nth_error_update_eq by lia. split; [|auto]. intros _. right. exists info. split; [left; auto|auto].
        -- rewrite nth_error_update_neq by auto. split; intros [|(x & I & P)]; auto; right; exists x; [split; [right; auto|auto]|]. destruct I as [<-|I]; [congruence|auto].
      * intros k H. rewrite K by (intros x I; apply H; right; auto). apply nth_error_update_neq. intros ->. apply (H info); [left; auto|auto].
      * intros [|j] x k Ex P; cbn [nth_error] in Ex.
        -- injection Ex as <-. assert (k = n) by congruence. subst k. rewrite Nat.add_0_r. exists v. split; [|auto]. rewrite K by auto. apply nth_error_update_eq. lia.
        -- replace (i + S j)%nat with (S i + j)%nat by lia. apply (V j); auto.
Qed.

Lemma first_unbound_none bound : forall i, first_unbound i bound = None <-> forall b, In b bound -> b = true.
Proof.
  induction bound as [|b bound IH]; intros i; cbn [first_unbound]; [split; [intros _ b []|auto]|]. destruct b.
  - rewrite IH. split; [intros H b [<-|I]; auto|intros H b I; apply H; right; auto].
  - split; [discriminate|]. intros H. specialize (H false). discriminate H. left; auto.
Qed.
Lemma first_unbound_some bound : forall i k, first_unbound i bound = Some k -> (i <= k)%nat /\ nth_error bound (k - i) = Some false.
Proof.
  induction bound as [|b bound IH]; intros i k; cbn [first_unbound]; [discriminate|]. destruct b.
  - intros E. apply IH in E as (L & E). split; [lia|]. replace (k - i)%nat with (S (k - S i)) by lia. auto.
  - intros E. injection E as <-. split; [auto|]. rewrite Nat.sub_diag. auto.
Qed.

(** * The status *)
Definition st (h : heap) (s : option (option nat)) (n : nat) : Prop :=
  match s with Some (Some a) => exists kas, object_fields h a kas /\ (length kas <= n)%nat | _ => True end.
Lemma only_refl h s : only_status h h s.
Proof. split; auto. Qed.
Lemma only_trans h1 h2 h3 s : only_status h1 h2 s -> only_status h2 h3 s -> only_status h1 h3 s.
Proof. intros (L1 & O1) (L2 & O2). split; [lia|]. intros c Lc N. rewrite O2, O1 by (auto; lia). auto. Qed.

(** Setting a field of an object to a new value *)
Lemma set_new_ok h a kas k nd : object_fields h a kas -> Z.of_nat (length kas) <= 2 ^ 64 ->
  exists h', object_set_new byval_str_mk h (Some a) k nd = Ok h' /\ object_fields h' a (put k (length h) kas) /\ nth_error h' (length h) = Some nd /\
    length h' = S (length h) /\ forall c, (c < length h)%nat -> c <> a -> nth_error h' c = nth_error h c.
Proof.
  intros (m & E & R) B. unfold object_set_new. rewrite (object_at_ok h a m E). cbn [bind alloc].
  assert (La : (a < length h)%nat) by (apply nth_error_Some; congruence).
  destruct (add_field_ok (h ++ [nd]) a m kas k (length h)) as (m' & Ea & R'); [rewrite alloc_other; auto|auto|auto|]. rewrite Ea.
  eexists. split; [reflexivity|]. split; [exists m'; split; [eapply store_same; rewrite alloc_other; eauto|auto]|].
  split; [rewrite store_other by lia; apply alloc_new|]. split; [rewrite store_length, app_length; cbn [length]; lia|].
  intros c Lc Nc. rewrite store_other, alloc_other; auto.
Qed.
Lemma set_error_ok h s n m : st h s n -> Z.of_nat n <= 2 ^ 64 ->
  exists h', set_error byval_str_mk h s (Ok m) = Ok h' /\ st h' s (S n) /\ (s <> Some None -> has_error h' s) /\ only_status h h' s.
Proof.
  intros St B. destruct s as [[a|]|]; cbn [set_error]; try (exists h; split; [auto|]; split; [exact I|]; split; [intros; try congruence; exact I|apply only_refl]).
  destruct St as (kas & (mp & E & R) & Ln). rewrite (object_at_ok h a mp E). cbn [bind]. rewrite (select_error h a mp E), (mrep_find mp kas key_error R). cbn [bind].
  destruct (lookup key_error kas) as [v|] eqn:L.
  - exists h. split; [auto|]. split; [exists kas; split; [exists mp; auto|lia]|]. split; [|apply only_refl]. intros _. exists kas, v. split; [exists mp; auto|auto].
  - cbn [byval_str_mk bind alloc].
    destruct (set_new_ok h a kas key_error (NStr m)) as (h' & Es & F & N & Lh & O); [exists mp; auto|lia|].
    exists h'. split.
    + rewrite <- Es. unfold object_set_new, object_set. rewrite (object_at_ok h a mp E). cbn [bind alloc].
      rewrite (object_at_ok (h ++ [NStr m]) a mp) by (rewrite alloc_other; [auto|apply nth_error_Some; congruence]). cbn [bind load]. rewrite alloc_new. reflexivity.
    + split; [exists (put key_error (length h) kas); split; [auto|pose proof (put_length_le key_error (length h) kas); lia]|].
      split; [intros _; exists (put key_error (length h) kas), (length h); split; [auto|]; rewrite lookup_put; destruct (list_eq_dec Z.eq_dec error_key key_error); [auto|exfalso; auto]|].
      split; [lia|]. intros c Lc Nc. apply O; [auto|]. intros ->. auto.
Qed.
(** The message of an error that is not reported is not made. *)
Lemma set_error_any h s n msg : st h s n -> has_error h s -> set_error byval_str_mk h s msg = Ok h.
Proof.
  intros St. destruct s as [[a|]|]; cbn [set_error]; auto. intros (kas & v & (mp & E & R) & L).
  rewrite (object_at_ok h a mp E). cbn [bind]. rewrite (select_error h a mp E), (mrep_find mp kas key_error R). change error_key with key_error in L. rewrite L. auto.
Qed.
Lemma mk_fields h : object_fields (h ++ [NObj map_mk]) (length h) [].
Proof. exists map_mk. split; [apply alloc_new|apply (mrep_mk (V := nat) strcmp)]. Qed.
Lemma accept_ok h s n : st h s n -> let (h', s') := accept_result h s in
  same_status h s s' /\ st h' s' n /\ only_status h h' s /\ (s' = Some None -> False) /\ same_status h' s' s'.
Proof.
  intros St. destruct s as [[a|]|]; cbn [accept_result].
  - split; [reflexivity|]. split; [auto|]. split; [apply only_refl|]. split; [discriminate|reflexivity].
  - cbn [alloc]. split; [reflexivity|]. split; [exists []; split; [apply mk_fields|cbn [length]; lia]|].
    split; [split; [rewrite app_length; lia|intros c Lc _; apply alloc_other; auto]|]. split; [discriminate|reflexivity].
  - split; [reflexivity|]. split; [exact I|]. split; [apply only_refl|]. split; [discriminate|reflexivity].
Qed.

(** * Running a statement *)
Lemma in_pos {A} (l : list A) x : In x l -> exists j, nth_error l j = Some x.
Proof. apply In_nth_error. Qed.

Lemma map_false {A} (l : list A) k : nth_error (map (fun _ => false) l) k <> Some true.
Proof. rewrite nth_error_map. destruct (nth_error l k); cbn; discriminate. Qed.

Notation bind_run_sql := (bind_run_sql DB prepare exec limit msg_unbound msg_failed byval_str_mk).

Lemma run_ok w infos data sql take ret rc0 params n : st (w_heap DB w) ret n -> Z.of_nat n <= 2 ^ 64 ->
  prepare (w_db DB w) sql = (rc0, params) -> (forall p, In p params -> p <> None) -> NoDup params ->
  NoDup (map i_var infos) -> covers data (length infos) ->
  (forall j info, nth_error infos j = Some info -> In (Some (i_var info)) params ->
     exists v, supplied limit (is_insert sql) info (given data j) v) ->
  exists rc w' ret' stm, bind_run_sql w (Some infos) data sql take ret = Ok (rc, w', ret', stm) /\
    same_status (w_heap DB w) ret ret' /\ st (w_heap DB w') ret' (S n) /\ only_status (w_heap DB w) (w_heap DB w') ret /\
    ((rc0 = SQLITE_OK /\ Forall (named infos) params /\
      exists vals, all_right limit infos data sql params vals /\ ran DB exec (w_db DB w) sql vals rc (w_db DB w') /\
        w_open DB w' = (if take then w_open DB w + 1 else w_open DB w) /\ w_heap DB w' = fst (accept_result (w_heap DB w) ret) /\
        (forall rows fin, exec (w_db DB w) sql vals = (w_db DB w', rows, fin) -> stm = if take then Some (Stmt sql vals rows fin) else None))
     \/ ((rc0 <> SQLITE_OK \/ ~ Forall (named infos) params) /\ w_db DB w' = w_db DB w /\ rc = (if rc0 =? SQLITE_OK then SQLITE_ERROR else rc0) /\
         has_error (w_heap DB w') ret' /\ w_open DB w' = (if rc0 =? SQLITE_OK then w_open DB w + 1 else w_open DB w) /\
         exists m, set_error byval_str_mk (fst (accept_result (w_heap DB w) ret)) ret' (Ok m) = Ok (w_heap DB w'))).
Proof.
  intros St B P NN Np N C Sp. unfold bind_run_sql. rewrite P. pose proof (accept_ok (w_heap DB w) ret n St) as A.
  destruct (accept_result (w_heap DB w) ret) as (h, ret'). destruct A as (Ss & St' & Os & NNone & _).
  assert (SubO : forall h', only_status h h' ret' -> only_status (w_heap DB w) h' ret).
  { intros h' (L2 & O2). destruct Os as (L1 & O1). split; [lia|]. intros c Lc Nc. rewrite O2; [auto|lia|].
    unfold same_status in Ss. destruct ret as [[a|]|]; subst ret'; try congruence. intros Eq. injection Eq as Eq. lia. }
  destruct (Z.eqb_spec rc0 SQLITE_OK) as [->|Ne].
  - cbn [w_db w_open w_heap]. set (unset := map (fun _ => V_NULL) params). set (fb := map (fun _ : option text => false) params).
    destruct (loop_ok (is_insert sql) (get_stmt_type sql) params data (fun H => proj2 (insert_iff sql) H) infos 0 unset fb) as (vals & bound & E & L1 & L2 & Bd & _ & V); auto;
      try (unfold unset, fb; rewrite map_length; auto).
    rewrite E. cbn [bind].
    assert (Bk : forall k, nth_error bound k = Some true <-> exists info, In info infos /\ position params (i_var info) = Some k).
    { intros k. rewrite Bd. split; [|auto]. intros [Bad|]; [|auto]. exfalso. eapply map_false; eauto. }
    destruct (first_unbound 0 bound) as [i|] eqn:U.
    + apply first_unbound_some in U as (_ & U). rewrite Nat.sub_0_r in U.
      assert (Li : (i < length params)%nat) by (rewrite <- L2; apply nth_error_Some; congruence).
      destruct (nth_error params i) as [p|] eqn:Ep; [|apply nth_error_None in Ep; lia].
      rewrite (nth_error_nth _ _ _ Ep). destruct p as [name|]; [|exfalso; apply (NN None); [eapply nth_error_In; eauto|auto]]. cbn [of_option bind].
      destruct (set_error_ok h ret' n (msg_unbound sql (Z.of_nat i + 1) name) St' B) as (h' & Es & S1 & He & O). rewrite Es. cbn [bind].
      do 4 eexists. split; [reflexivity|]. cbn [w_heap w_db w_open]. split; [auto|]. split; [auto|]. split; [auto|]. right.
      split; [|split; [auto|split; [auto|split; [apply He; intros X; apply NNone, X|split; [auto|eexists; exact Es]]]]].
      right. intros F. rewrite Forall_forall in F. destruct (F (Some name)) as (info & I & En); [eapply nth_error_In; eauto|]. injection En as ->.
      assert (Pi : position params (i_var info) = Some i) by (apply position_nodup; auto).
      assert (nth_error bound i = Some true) by (apply Bk; eauto). congruence.
    + pose proof (proj1 (first_unbound_none bound 0) U) as Tr.
      assert (Al : forall k p, nth_error params k = Some p -> exists info, In info infos /\ position params (i_var info) = Some k).
      { intros k p Ek. apply Bk. destruct (nth_error bound k) as [b|] eqn:Eb; [rewrite (Tr b); [auto|eapply nth_error_In; eauto]|].
        apply nth_error_None in Eb. assert (k < length params)%nat by (apply nth_error_Some; congruence). lia. }
      unfold step_once. cbn [w_db w_open w_heap]. destruct (exec (w_db DB w) sql vals) as ((db', rows), fin) eqn:Ex.
      do 4 eexists. split; [reflexivity|]. cbn [w_heap w_db w_open]. split; [auto|].
      split; [destruct ret' as [[a|]|]; auto; destruct St' as (kas & F & L); exists kas; split; [auto|lia]|]. split; [auto|]. left.
      split; [auto|]. split.
      * apply Forall_forall. intros p I. apply In_nth_error in I as (k & Ek). destruct (Al k p Ek) as (info & I & Pk).
        exists info. split; [auto|]. apply position_some in Pk. congruence.
      * exists vals. split; [|split; [exists rows, fin; auto|split; [destruct take; lia|split; [auto|]]]]; [|intros rows' fin' Ex'; rewrite Ex in Ex'; injection Ex' as <- <-; destruct take; auto]. split; [auto|]. intros k p Ek.
        destruct (Al k p Ek) as (info & I & Pk). apply In_nth_error in I as (j & Ej). destruct (V j info k Ej Pk) as (v & Ev & Sv).
        exists j, info, v. split; [auto|]. split; [apply position_some in Pk; congruence|]. auto.
  - destruct (set_error_ok h ret' n (msg_failed rc0 sql) St' B) as (h' & Es & S1 & He & O). rewrite Es. cbn [bind].
    do 4 eexists. split; [reflexivity|]. cbn [w_heap w_db w_open]. split; [auto|]. split; [auto|]. split; [auto|]. right.
    split; [auto|]. split; [auto|]. split; [auto|]. split; [apply He; intros X; apply NNone, X|split; [auto|eexists; exact Es]].
Qed.

(** * The operations *)
Notation good_sql := (good_sql DB prepare limit).
Notation performs := (performs DB prepare exec limit).
Notation updates := (updates DB prepare exec limit).
Notation after := (after DB).
Lemma run_good w infos data sql ret n : st (w_heap DB w) ret n -> Z.of_nat n <= 2 ^ 64 -> NoDup (map i_var infos) -> covers data (length infos) ->
  good_sql infos data sql ->
  exists rc w' ret', bind_run_sql w (Some infos) data sql false ret = Ok (rc, w', ret', None) /\
    same_status (w_heap DB w) ret ret' /\ st (w_heap DB w') ret' (S n) /\ only_status (w_heap DB w) (w_heap DB w') ret /\
    performs infos data (w_db DB w) sql rc (w_db DB w').
Proof.
  intros St B N C G. specialize (G (w_db DB w)). destruct (prepare (w_db DB w) sql) as (rc0, params) eqn:P. cbn [snd] in G. cbv zeta in G. destruct G as (NN & Np & Sp).
  destruct (run_ok w infos data sql false ret rc0 params n St B P NN Np N C Sp) as (rc & w' & ret' & stm & E & Ss & St' & Os & D).
  assert (stm = None).
  { revert E. unfold bind_run_sql. rewrite P. destruct (accept_result _ _) as (h, r). destruct (rc0 =? SQLITE_OK).
    - destruct (bind_loop _ _ _ _ _ _ _ _) as [(v, b)|]; cbn [bind]; [|discriminate]. destruct (first_unbound 0 b).
      + destruct (set_error _ _ _ _); cbn [bind]; [|discriminate]. intros E; injection E as <- <- <- <-; auto.
      + unfold step_once. destruct (exec _ _ _) as ((a, b'), c). intros E; injection E as <- <- <- <-; auto.
    - destruct (set_error _ _ _ _); cbn [bind]; [|discriminate]. intros E; injection E as <- <- <- <-; auto. }
  subst stm. exists rc, w', ret'. split; [auto|]. split; [auto|]. split; [auto|]. split; [auto|].
  destruct D as [(-> & F & vals & A & R & _)|(X & Ed & Er & _)]; [eapply performs_runs; eauto|rewrite Ed; eapply performs_fails; eauto].
Qed.

Lemma same_trans h h' s s1 s2 : same_status h s s1 -> same_status h' s1 s2 -> same_status h s s2.
Proof. unfold same_status. destruct s as [[a|]|]; intros ->; auto. Qed.
Lemma only_same h h1 h2 s s1 : same_status h s s1 -> only_status h h1 s -> only_status h1 h2 s1 -> only_status h h2 s.
Proof.
  intros Ss (L1 & O1) (L2 & O2). split; [lia|]. intros c Lc Nc. rewrite O2; [auto|lia|]. unfold same_status in Ss. destruct s as [[a|]|]; subst s1; try congruence.
  intros Eq. injection Eq as Eq. lia.
Qed.
Lemma same_after h h' s s1 : same_status h s s1 -> s1 <> Some None -> same_status h' s1 s1.
Proof. unfold same_status. destruct s1 as [[a|]|]; congruence. Qed.
Lemma same_some h s s1 : same_status h s s1 -> s1 <> Some None.
Proof. unfold same_status. destruct s as [[a|]|]; intros ->; discriminate. Qed.

Lemma report_ok w s n rc sql : st (w_heap DB w) s n -> Z.of_nat n <= 2 ^ 64 -> s <> Some None ->
  exists w', report DB msg_failed byval_str_mk w s rc sql = Ok w' /\ w_db DB w' = w_db DB w /\ w_open DB w' = w_open DB w /\
    st (w_heap DB w') s (S n) /\ has_error (w_heap DB w') s /\ only_status (w_heap DB w) (w_heap DB w') s.
Proof.
  intros St B N. unfold report. destruct (set_error_ok (w_heap DB w) s n (msg_failed rc sql) St B) as (h' & E & S' & He & O). rewrite E. cbn [bind].
  eexists. split; [reflexivity|]. cbn [w_db w_open w_heap]. auto 8.
Qed.
Lemma fields_lookup h a kas kas2 k : object_fields h a kas -> object_fields h a kas2 -> lookup k kas = lookup k kas2.
Proof.
  intros (m & E1 & R1) (m2 & E2 & R2). assert (m2 = m) by congruence. subst m2.
  pose proof (mrep_find m kas k R1). pose proof (mrep_find m kas2 k R2). congruence.
Qed.
Lemma set_field_ok w s n k nd : st (w_heap DB w) s n -> Z.of_nat n <= 2 ^ 64 ->
  exists w', set_field DB byval_str_mk w s k nd = Ok w' /\ w_db DB w' = w_db DB w /\ w_open DB w' = w_open DB w /\
    st (w_heap DB w') s (S n) /\ reports (w_heap DB w') s k nd /\ only_status (w_heap DB w) (w_heap DB w') s /\
    (has_error (w_heap DB w) s -> has_error (w_heap DB w') s).
Proof.
  intros St B. unfold set_field. destruct s as [[a|]|];
    try (cbn [object_set_new bind]; eexists; split; [reflexivity|]; cbn [w_db w_open w_heap]; split; [auto|]; split; [auto|]; split; [exact I|]; split; [exact I|]; split; [apply only_refl|auto]).
  destruct St as (kas & F & L). destruct (set_new_ok (w_heap DB w) a kas k nd F) as (h' & E & F' & Nn & Lh & O); [lia|]. rewrite E. cbn [bind].
  eexists. split; [reflexivity|]. cbn [w_db w_open w_heap]. split; [auto|]. split; [auto|].
  split; [exists (put k (length (w_heap DB w)) kas); split; [auto|pose proof (put_length_le k (length (w_heap DB w)) kas); lia]|].
  split; [|split; [split; [lia|intros c Lc Nc; apply O; [auto|intros ->; auto]]|]].
  - exists (put k (length (w_heap DB w)) kas), (length (w_heap DB w)). split; [auto|]. split; [|auto]. rewrite lookup_put. destruct (list_eq_dec Z.eq_dec k k); congruence.
  - intros (kas2 & v & F2 & L2). cbn [has_error]. destruct (list_eq_dec Z.eq_dec error_key k) as [<-|Ne].
    + exists (put error_key (length (w_heap DB w)) kas), (length (w_heap DB w)). split; [auto|]. rewrite lookup_put. destruct (list_eq_dec Z.eq_dec error_key error_key); congruence.
    + exists (put k (length (w_heap DB w)) kas), v. split; [auto|]. rewrite lookup_put. destruct (list_eq_dec Z.eq_dec error_key k); [congruence|].
      rewrite <- L2. eapply fields_lookup; eauto.
Qed.

Lemma run_first w infos data sql s n h s1 : st (w_heap DB w) s n -> Z.of_nat n <= 2 ^ 64 -> NoDup (map i_var infos) -> covers data (length infos) ->
  good_sql infos data sql -> accept_result (w_heap DB w) s = (h, s1) ->
  exists rc w', bind_run_sql (World DB (w_db DB w) (w_open DB w) h) (Some infos) data sql false s1 = Ok (rc, w', s1, None) /\
    same_status (w_heap DB w) s s1 /\ s1 <> Some None /\ st (w_heap DB w') s1 (S n) /\ only_status (w_heap DB w) (w_heap DB w') s /\
    performs infos data (w_db DB w) sql rc (w_db DB w').
Proof.
  intros St B N C G A. pose proof (accept_ok (w_heap DB w) s n St) as X. rewrite A in X. destruct X as (Ss & St1 & O1 & NN & _).
  destruct (run_good (World DB (w_db DB w) (w_open DB w) h) infos data sql s1 n St1 B N C G) as (rc & w' & s2 & E & S2 & St2 & O2 & P). cbn [w_db w_heap w_open] in *.
  assert (s2 = s1) by (unfold same_status in S2; destruct s1 as [[a|]|]; auto; exfalso; auto). subst s2.
  exists rc, w'. split; [auto|]. split; [auto|]. split; [auto|]. split; [auto|]. split; [eapply only_same; eauto|auto].
Qed.
Lemma run_next w infos data sql s n : st (w_heap DB w) s n -> Z.of_nat n <= 2 ^ 64 -> NoDup (map i_var infos) -> covers data (length infos) ->
  good_sql infos data sql -> s <> Some None ->
  exists rc w', bind_run_sql w (Some infos) data sql false s = Ok (rc, w', s, None) /\
    st (w_heap DB w') s (S n) /\ only_status (w_heap DB w) (w_heap DB w') s /\ performs infos data (w_db DB w) sql rc (w_db DB w').
Proof.
  intros St B N C G NN. destruct (run_good w infos data sql s n St B N C G) as (rc & w' & s2 & E & S2 & St2 & O2 & P).
  assert (s2 = s) by (unfold same_status in S2; destruct s as [[a|]|]; auto; exfalso; auto). subst s2.
  exists rc, w'. auto.
Qed.
Lemma st_le h s n m : st h s n -> (n <= m)%nat -> st h s m.
Proof. unfold st. destruct s as [[a|]|]; auto. intros (kas & F & L) H. exists kas. split; [auto|lia]. Qed.

Ltac st_done := match goal with H : st ?h ?s _ |- st ?h ?s _ => eapply st_le; [exact H|lia] end.
Lemma insert_ok w infos data sql s key n : st (w_heap DB w) s n -> Z.of_nat n < 2 ^ 32 -> NoDup (map i_var infos) -> covers data (length infos) ->
  good_sql infos data sql ->
  exists rc w' s' id, sql_insert DB prepare exec limit counters msg_unbound msg_failed byval_str_mk w (Some infos) data sql s key = Ok (rc, w', s', id) /\
    (after w s w' s' /\ st (w_heap DB w') s' (n + 5)) /\ performs infos data (w_db DB w) sql rc (w_db DB w') /\
    (rc <> SQLITE_DONE -> has_error (w_heap DB w') s' /\ id = None) /\
    (rc = SQLITE_DONE -> 
       reports (w_heap DB w') s' (match key with Some k => k | None => key_rowid end) (NI64 (to_int32 (last_insert_rowid (counters (w_db DB w'))))) /\
       (s <> None -> id = Some (to_int32 (last_insert_rowid (counters (w_db DB w')))))).
Proof.
  intros St B N C G. unfold sql_insert. destruct (accept_result (w_heap DB w) s) as (h, s1) eqn:A.
  destruct (run_first w infos data sql s n h s1) as (rc & w1 & E & Ss & NN & St1 & O1 & P); auto; [lia|]. rewrite E. cbn [bind].
  destruct (Z.eqb_spec rc SQLITE_DONE) as [->|Ne]; cbn [negb].
  - destruct s1 as [[a|]|]; [|congruence|].
    + destruct (set_field_ok w1 (Some (Some a)) (S n) (match key with Some k => k | None => key_rowid end) (NI64 (to_int32 (last_insert_rowid (counters (w_db DB w1))))) St1) as (w2 & E2 & D2 & _ & St2 & R2 & O2 & _); [lia|].
      rewrite E2. cbn [bind]. do 4 eexists. split; [reflexivity|]. split; [split; [split; [auto|eapply only_same; eauto]|st_done]|]. rewrite D2. split; [auto|]. split; [congruence|]. auto.
    + do 4 eexists. split; [reflexivity|]. split; [split; [split; auto|st_done]|]. split; [auto|]. split; [congruence|]. intros _. split; [exact I|].
      unfold same_status in Ss. destruct s as [[a|]|]; congruence.
  - destruct (report_ok w1 s1 (S n) rc sql St1) as (w2 & E2 & D2 & _ & St2 & He & O2); [lia|auto|]. rewrite E2. cbn [bind].
    do 4 eexists. split; [reflexivity|]. split; [split; [split; [auto|eapply only_same; eauto]|st_done]|]. rewrite D2. split; [auto|]. split; [auto|]. congruence.
Qed.

Lemma delete_ok w infos data sql s key n : st (w_heap DB w) s n -> Z.of_nat n < 2 ^ 32 -> NoDup (map i_var infos) -> covers data (length infos) ->
  good_sql infos data sql ->
  exists rc w' s', sql_delete DB prepare exec limit counters msg_unbound msg_failed byval_str_mk w (Some infos) data sql s key = Ok (rc, w', s') /\
    after w s w' s' /\ performs infos data (w_db DB w) sql rc (w_db DB w') /\
    (rc <> SQLITE_DONE -> has_error (w_heap DB w') s') /\
    reports (w_heap DB w') s' (match key with Some k => k | None => key_deleted end) (NI64 (changes (counters (w_db DB w')))).
Proof.
  intros St B N C G. unfold sql_delete. destruct (accept_result (w_heap DB w) s) as (h, s1) eqn:A.
  destruct (run_first w infos data sql s n h s1) as (rc & w1 & E & Ss & NN & St1 & O1 & P); auto; [lia|]. rewrite E. cbn [bind].
  assert (X : exists w2, (if negb (rc =? SQLITE_DONE) then report DB msg_failed byval_str_mk w1 s1 rc sql else Ok w1) = Ok w2 /\ w_db DB w2 = w_db DB w1 /\
     st (w_heap DB w2) s1 (S (S n)) /\ (rc <> SQLITE_DONE -> has_error (w_heap DB w2) s1) /\ only_status (w_heap DB w1) (w_heap DB w2) s1).
  { destruct (Z.eqb_spec rc SQLITE_DONE) as [->|Ne]; cbn [negb].
    - exists w1. split; [auto|]. split; [auto|]. split; [eapply st_le; eauto|]. split; [congruence|apply only_refl].
    - destruct (report_ok w1 s1 (S n) rc sql St1) as (w2 & E2 & D2 & _ & St2 & He & O2); [lia|auto|]. exists w2. auto 8. }
  destruct X as (w2 & E2 & D2 & St2 & He & O2). rewrite E2. cbn [bind].
  destruct (set_field_ok w2 s1 (S (S n)) (match key with Some k => k | None => key_deleted end) (NI64 (changes (counters (w_db DB w2)))) St2) as (w3 & E3 & D3 & _ & St3 & R3 & O3 & He3); [lia|].
  rewrite E3. cbn [bind]. do 3 eexists. split; [reflexivity|]. split; [split; [auto|]|].
  { eapply only_same; [exact Ss|exact O1|]. eapply only_trans; eauto. }
  rewrite D3, D2. split; [auto|]. split; [auto|]. rewrite D2 in R3. auto.
Qed.

Lemma no_update_ok w t s n : st (w_heap DB w) s n -> Z.of_nat n <= 2 ^ 64 -> s <> None -> s <> Some None ->
  exists w', no_update DB byval_str_mk w t s = Ok w' /\ w_db DB w' = w_db DB w /\ only_status (w_heap DB w) (w_heap DB w') s /\ st (w_heap DB w') s (S n) /\ reports (w_heap DB w') s key_warning (NStr (msg_nothing (t_table t))).
Proof.
  intros St B N1 N2. unfold no_update. destruct s as [[a|]|]; [|congruence|congruence]. destruct St as (kas & F & L).
  unfold object_set_str. pose proof F as (m & E & _). rewrite (object_at_ok _ _ _ E). cbn [bind byval_str_mk].
  destruct (set_new_ok (w_heap DB w) a kas key_warning (NStr (msg_nothing (t_table t))) F) as (h' & E' & F' & Nn & Lh & O); [lia|]. rewrite E'. cbn [bind].
  eexists. split; [reflexivity|]. cbn [w_db w_heap]. split; [auto|].
  split; [split; [lia|]; intros c Lc Nc; apply O; [auto|]; intros ->; auto|]. split.
  - exists (put key_warning (length (w_heap DB w)) kas). split; [auto|]. pose proof (put_length_le key_warning (length (w_heap DB w)) kas). lia.
  - exists (put key_warning (length (w_heap DB w)) kas), (length (w_heap DB w)). split; [auto|]. split; [|auto]. rewrite lookup_put. destruct (list_eq_dec Z.eq_dec key_warning key_warning); congruence.
Qed.

Lemma update_or_insert_ok w infos data t s n : st (w_heap DB w) s n -> Z.of_nat n < 2 ^ 32 -> NoDup (map i_var infos) -> covers data (length infos) ->
  good_sql infos data (t_select t) -> good_sql infos data (insert_of t) ->
  (match update_of t with Some u => good_sql infos data u | None => s <> None end) ->
  exists rc w' s' rc1 db1, update_or_insert DB prepare exec limit counters msg_unbound msg_failed byval_str_mk w (Some infos) data t s = Ok (rc, w', s') /\
    (after w s w' s' /\ st (w_heap DB w') s' (n + 5)) /\ performs infos data (w_db DB w) (t_select t) rc1 db1 /\
    (rc1 = SQLITE_ROW -> updates infos data db1 t rc (w_db DB w')) /\
    (rc1 <> SQLITE_ROW -> performs infos data db1 (insert_of t) rc (w_db DB w') /\
       (rc = SQLITE_DONE -> reports (w_heap DB w') s' key_rowid (NI64 (to_int32 (last_insert_rowid (counters (w_db DB w'))))))) /\
    (rc <> SQLITE_DONE -> has_error (w_heap DB w') s').
Proof.
  intros St B N C Gs Gi Gu. unfold update_or_insert. destruct (accept_result (w_heap DB w) s) as (h, s1) eqn:A.
  destruct (run_first w infos data (t_select t) s n h s1) as (rc1 & w1 & E & Ss & NN & St1 & O1 & P); auto; [lia|]. rewrite E. cbn [bind].
  destruct (Z.eqb_spec rc1 SQLITE_ROW) as [->|Ne].
  - unfold updates. fold (update_of t). destruct (update_of t) as [u|].
    + destruct (run_next w1 infos data u s1 (S n)) as (rc & w2 & E2 & St2 & O2 & P2); auto; [lia|]. rewrite E2. cbn [bind].
      destruct (Z.eqb_spec rc SQLITE_DONE) as [->|Ne]; cbn [negb].
      * cbn [bind]. do 5 eexists. split; [reflexivity|]. split; [split; [split; [auto|eapply only_same; eauto]|st_done]|]. split; [exact P|]. split; [auto|]. split; congruence.
      * destruct (report_ok w2 s1 (S (S n)) rc u St2) as (w3 & E3 & D3 & _ & St3 & He & O3); [lia|auto|]. rewrite E3. cbn [bind].
        do 5 eexists. split; [reflexivity|]. split; [split; [split; [auto|]|st_done]|].
        { eapply only_same; [exact Ss|exact O1|]. eapply only_trans; eauto. }
        split; [exact P|]. rewrite D3. split; [auto|]. split; [congruence|auto].
    + assert (Ns : s1 <> None) by (unfold same_status in Ss; destruct s as [[a|]|]; congruence).
      destruct (no_update_ok w1 t s1 (S n) St1) as (w2 & E2 & D2 & O2 & St2 & _); [lia|auto|auto|]. rewrite E2. cbn [bind].
      do 5 eexists. split; [reflexivity|]. split; [split; [split; [auto|eapply only_same; eauto]|st_done]|]. split; [exact P|]. split; [auto|]. split; congruence.
  - destruct (run_next w1 infos data (insert_of t) s1 (S n)) as (rc & w2 & E2 & St2 & O2 & P2); auto; [lia|]. rewrite E2. cbn [bind].
    destruct (Z.eqb_spec rc SQLITE_DONE) as [->|Ne2]; cbn [negb].
    + destruct s1 as [[a|]|]; [|congruence|].
      * destruct (set_field_ok w2 (Some (Some a)) (S (S n)) key_rowid (NI64 (to_int32 (last_insert_rowid (counters (w_db DB w2))))) St2) as (w3 & E3 & D3 & _ & St3 & R3 & O3 & _); [lia|].
        rewrite E3. cbn [bind]. do 5 eexists. split; [reflexivity|]. split; [split; [split; [auto|]|st_done]|].
        { eapply only_same; [exact Ss|exact O1|]. eapply only_trans; eauto. }
        split; [exact P|]. rewrite D3. split; [congruence|]. split; [auto|congruence].
      * cbn [bind]. do 5 eexists. split; [reflexivity|]. split; [split; [split; [auto|eapply only_same; eauto]|st_done]|]. split; [exact P|]. split; [congruence|]. split; [|congruence]. split; [auto|]. intros _. exact I.
    + destruct (report_ok w2 s1 (S (S n)) rc (insert_of t) St2) as (w3 & E3 & D3 & _ & St3 & He & O3); [lia|auto|]. rewrite E3. cbn [bind].
      do 5 eexists. split; [reflexivity|]. split; [split; [split; [auto|]|st_done]|].
      { eapply only_same; [exact Ss|exact O1|]. eapply only_trans; eauto. }
      split; [exact P|]. rewrite D3. split; [congruence|]. split; [|auto]. split; [auto|congruence].
Qed.

Lemma update_if_ok w infos data t s n : st (w_heap DB w) s n -> Z.of_nat n < 2 ^ 32 -> NoDup (map i_var infos) -> covers data (length infos) ->
  good_sql infos data (t_select t) -> (match update_of t with Some u => good_sql infos data u | None => s <> None end) ->
  exists rc w' s' rc1 db1, update_if_exists DB prepare exec limit counters msg_unbound msg_failed byval_str_mk w (Some infos) data t s = Ok (rc, w', s') /\
    (after w s w' s' /\ st (w_heap DB w') s' (n + 5)) /\ performs infos data (w_db DB w) (t_select t) rc1 db1 /\
    (rc1 = SQLITE_ROW -> updates infos data db1 t rc (w_db DB w') /\
       (update_of t <> None -> rc = SQLITE_DONE -> reports (w_heap DB w') s' key_updated (NI64 (total_changes (counters (w_db DB w'))))) /\
       (rc <> SQLITE_DONE -> has_error (w_heap DB w') s')) /\
    (rc1 <> SQLITE_ROW -> rc = rc1 /\ w_db DB w' = db1).
Proof.
  intros St B N C Gs Gu. unfold update_if_exists. destruct (accept_result (w_heap DB w) s) as (h, s1) eqn:A.
  destruct (run_first w infos data (t_select t) s n h s1) as (rc1 & w1 & E & Ss & NN & St1 & O1 & P); auto; [lia|]. rewrite E. cbn [bind].
  destruct (Z.eqb_spec rc1 SQLITE_ROW) as [->|Ne].
  - unfold updates. fold (update_of t). destruct (update_of t) as [u|].
    + destruct (run_next w1 infos data u s1 (S n)) as (rc & w2 & E2 & St2 & O2 & P2); auto; [lia|]. rewrite E2. cbn [bind].
      destruct (Z.eqb_spec rc SQLITE_DONE) as [->|Ne]; cbn [negb].
      * assert (X : exists w3, match s1 with Some _ => set_field DB byval_str_mk w2 s1 key_updated (NI64 (total_changes (counters (w_db DB w2)))) | None => Ok w2 end = Ok w3 /\
          w_db DB w3 = w_db DB w2 /\ reports (w_heap DB w3) s1 key_updated (NI64 (total_changes (counters (w_db DB w2)))) /\ only_status (w_heap DB w2) (w_heap DB w3) s1 /\ st (w_heap DB w3) s1 (S (S (S n)))).
        { destruct s1 as [x|].
          - destruct (set_field_ok w2 (Some x) (S (S n)) key_updated (NI64 (total_changes (counters (w_db DB w2)))) St2) as (w3 & E3 & D3 & _ & St3 & R3 & O3 & _); [lia|]. exists w3. auto.
          - exists w2. split; [auto|]. split; [auto|]. split; [exact I|]. split; [apply only_refl|exact I]. }
        destruct X as (w3 & E3 & D3 & R3 & O3 & St3). rewrite E3. cbn [bind]. do 5 eexists. split; [reflexivity|]. split; [split; [split; [auto|]|st_done]|].
        { eapply only_same; [exact Ss|exact O1|]. eapply only_trans; eauto. }
        split; [exact P|]. rewrite D3. split; [|congruence]. split; [auto|]. split; [auto|congruence].
      * destruct (report_ok w2 s1 (S (S n)) rc u St2) as (w3 & E3 & D3 & _ & St3 & He & O3); [lia|auto|]. rewrite E3. cbn [bind].
        do 5 eexists. split; [reflexivity|]. split; [split; [split; [auto|]|st_done]|].
        { eapply only_same; [exact Ss|exact O1|]. eapply only_trans; eauto. }
        split; [exact P|]. rewrite D3. split; [|congruence]. split; [auto|]. split; [congruence|auto].
    + assert (Ns : s1 <> None) by (unfold same_status in Ss; destruct s as [[a|]|]; congruence).
      destruct (no_update_ok w1 t s1 (S n) St1) as (w2 & E2 & D2 & O2 & St2 & _); [lia|auto|auto|]. rewrite E2. cbn [bind].
      do 5 eexists. split; [reflexivity|]. split; [split; [split; [auto|eapply only_same; eauto]|st_done]|]. split; [exact P|]. split; [|congruence]. split; [auto|]. split; congruence.
  - do 5 eexists. split; [reflexivity|]. split; [split; [split; auto|st_done]|]. split; [exact P|]. split; [congruence|auto].
Qed.
Lemma update_ok w infos data t s n : st (w_heap DB w) s n -> Z.of_nat n < 2 ^ 32 -> NoDup (map i_var infos) -> covers data (length infos) ->
  good_sql infos data (t_select t) -> (match update_of t with Some u => good_sql infos data u | None => s <> None end) ->
  exists rc w' s' rc1 db1, sql_update DB prepare exec limit counters msg_unbound msg_failed byval_str_mk w (Some infos) data t s = Ok (rc, w', s') /\
    (after w s w' s' /\ st (w_heap DB w') s' (n + 6)) /\ performs infos data (w_db DB w) (t_select t) rc1 db1 /\
    (rc = SQLITE_OK -> has_error (w_heap DB w') s') /\
    (rc1 = SQLITE_ROW -> updates infos data db1 t rc (w_db DB w') /\
       (update_of t <> None -> rc = SQLITE_DONE -> reports (w_heap DB w') s' key_updated (NI64 (total_changes (counters (w_db DB w'))))) /\
       (rc <> SQLITE_DONE -> has_error (w_heap DB w') s')) /\
    (rc1 <> SQLITE_ROW -> rc = rc1 /\ w_db DB w' = db1).
Proof.
  intros St B N C Gs Gu. destruct (update_if_ok w infos data t s n St B N C Gs Gu) as (rc & w1 & s1 & rc1 & db1 & E & ((Ss & O) & St1) & P & U & I).
  unfold sql_update. rewrite E. cbn [bind]. destruct (Z.eqb_spec rc SQLITE_OK) as [->|Ne].
  - assert (N1 : s1 <> Some None) by (unfold same_status in Ss; destruct s as [[x|]|]; congruence).
    destruct (report_ok w1 s1 (n + 5) SQLITE_OK (t_select t) St1) as (w2 & E2 & D2 & _ & St2 & He & O2); [lia|auto|]. rewrite E2. cbn [bind].
    exists SQLITE_OK, w2, s1, rc1, db1. split; [reflexivity|]. split; [split; [split; [auto|eapply only_same; eauto]|replace (n + 6)%nat with (S (n + 5)) by lia; auto]|]. rewrite D2.
    split; [auto|]. split; [auto|]. split; [|auto]. intros R. destruct (U R) as (U1 & _). split; [auto|]. split; [discriminate|auto].
  - exists rc, w1, s1, rc1, db1. split; [reflexivity|]. split; [split; [split; auto|]|]; [st_done|]. split; [auto|]. split; [contradiction|]. auto.
Qed.

Lemma nothing_ok w infos data t s n : st (w_heap DB w) s n -> Z.of_nat n < 2 ^ 32 -> NoDup (map i_var infos) -> covers data (length infos) ->
  good_sql infos data (t_select t) -> update_of t = None -> s <> None ->
  exists rc1 db1, performs infos data (w_db DB w) (t_select t) rc1 db1 /\
    (rc1 = SQLITE_ROW -> exists w' s',
       update_or_insert DB prepare exec limit counters msg_unbound msg_failed byval_str_mk w (Some infos) data t s = Ok (SQLITE_DONE, w', s') /\
       update_if_exists DB prepare exec limit counters msg_unbound msg_failed byval_str_mk w (Some infos) data t s = Ok (SQLITE_DONE, w', s') /\
       w_db DB w' = db1 /\ after w s w' s' /\ reports (w_heap DB w') s' key_warning (NStr (msg_nothing (t_table t))) /\ exists a, s' = Some (Some a)).
Proof.
  intros St B N C Gs U Ns. unfold update_or_insert, update_if_exists. destruct (accept_result (w_heap DB w) s) as (h, s1) eqn:A.
  destruct (run_first w infos data (t_select t) s n h s1) as (rc1 & w1 & E & Ss & NN & St1 & O1 & P); auto; [lia|].
  exists rc1, (w_db DB w1). split; [exact P|]. intros ->. rewrite E. cbn [bind]. change (SQLITE_ROW =? SQLITE_ROW) with true. cbn [bind]. rewrite U.
  assert (N1 : s1 <> None) by (unfold same_status in Ss; destruct s as [[a|]|]; congruence).
  destruct (no_update_ok w1 t s1 (S n) St1) as (w2 & E2 & D2 & O2 & St2 & R2); [lia|auto|auto|]. rewrite E2. cbn [bind].
  exists w2, s1. split; [reflexivity|]. split; [reflexivity|]. split; [auto|]. split; [split; [auto|eapply only_same; eauto]|]. split; [auto|].
  destruct s1 as [[a|]|]; [eauto|congruence|congruence].
Qed.
End Sql.

(** * Statements that are open *)
Section Open.
Variable DB : Type.
Variable prepare : DB -> text -> Z * list (option text).
Variable exec : DB -> text -> list sqlv -> DB * list (list sqlv) * Z.
Variable limit : Z.
Variable counters : DB -> counts.
Variable msg_unbound : text -> Z -> text -> text.
Variable msg_failed : Z -> text -> text.
Variable mk_str : text -> outcome text.
Notation all_named := (all_named DB prepare).

Lemma loop_bound ty params data : forall infos i vals bound vals' bound', bind_loop limit ty params infos data i vals bound = Ok (vals', bound') ->
  length bound = length params ->
  length bound' = length params /\
  (forall k, nth_error bound k = Some true -> nth_error bound' k = Some true) /\
  (forall info k, In info infos -> position params (i_var info) = Some k -> nth_error bound' k = Some true).
Proof.
  induction infos as [|info infos IH]; intros i vals bound vals' bound' E L; cbn [bind_loop] in E.
  { injection E as <- <-. split; [auto|]. split; [auto|intros info k []]. }
  assert (Ps : position params (i_var info) = if parameter_index params (i_var info) <=? 0 then None else Some (Z.to_nat (parameter_index params (i_var info) - 1))) by reflexivity.
  destruct (parameter_index params (i_var info) <=? 0).
  - apply IH in E as (L' & M & A); auto. split; [auto|]. split; [auto|]. intros x k [<-|Ix] Px; [congruence|eauto].
  - destruct (bind_entry _ _ _ _ _) as [v|]; cbn [bind] in E; [|discriminate]. apply IH in E as (L' & M & A); [|rewrite update_length; auto].
    pose proof (position_lt _ _ _ Ps) as Lt. split; [auto|]. split.
    + intros k Ek. apply M. destruct (Nat.eq_dec k (Z.to_nat (parameter_index params (i_var info) - 1))) as [->|Ne].
      * apply nth_update_same. lia.
      * rewrite nth_error_update_neq by auto. auto.
    + intros x k [<-|Ix] Px; [|eauto]. rewrite Ps in Px. injection Px as <-. apply M. apply nth_update_same. lia.
Qed.

Lemma step_open w sql vals code w' stm : step_once DB exec w sql vals false = (code, w', stm) -> w_open DB w' = w_open DB w - 1.
Proof. unfold step_once. destruct (exec _ _ _) as ((db, rows), rc). intros E. injection E as _ <- _. reflexivity. Qed.
Lemma run_open w info data sql ret rc w' ret' stm : all_named info sql ->
  bind_run_sql DB prepare exec limit msg_unbound msg_failed mk_str w info data sql false ret = Ok (rc, w', ret', stm) -> w_open DB w' = w_open DB w.
Proof.
  intros A. unfold bind_run_sql. destruct (prepare (w_db DB w) sql) as (rc0, params) eqn:P. destruct (accept_result (w_heap DB w) ret) as (h, r).
  destruct (rc0 =? SQLITE_OK).
  - destruct info as [infos|].
    + destruct (bind_loop _ _ _ _ _ _ _ _) as [(vals, bound)|] eqn:L; cbn [bind]; [|discriminate].
      destruct (A (w_db DB w)) as (Nd & F). rewrite P in Nd, F. cbn [snd] in Nd, F.
      apply loop_bound in L as (Lb & _ & Al); [|apply map_length].
      destruct (first_unbound 0 bound) as [k|] eqn:U.
      * exfalso. apply first_unbound_some in U as (_ & U). rewrite Nat.sub_0_r in U.
        assert (Lk : (k < length params)%nat) by (rewrite <- Lb; apply nth_error_Some; congruence).
        destruct (nth_error params k) as [p|] eqn:Ep; [|apply nth_error_None in Ep; lia].
        rewrite Forall_forall in F. destruct (F p (nth_error_In _ _ Ep)) as (i & Ii & ->).
        rewrite (Al i k Ii (position_nodup _ _ _ Nd Ep)) in U. discriminate.
      * destruct (step_once _ _ _ _ _ _) as ((code, w1), s1) eqn:Es. apply step_open in Es. cbn [w_open] in Es. intros E. injection E as _ <- _ _. lia.
    + destruct (step_once _ _ _ _ _ _) as ((code, w1), s1) eqn:Es. apply step_open in Es. cbn [w_open] in Es. intros E. injection E as _ <- _ _. lia.
  - destruct (set_error _ _ _ _) as [h2|]; cbn [bind]; [|discriminate]. intros E. injection E as _ <- _ _. reflexivity.
Qed.
Lemma report_open w s rc sql w' : report DB msg_failed mk_str w s rc sql = Ok w' -> w_open DB w' = w_open DB w.
Proof. unfold report. destruct (set_error _ _ _ _); cbn [bind]; [|discriminate]. intros E. injection E as <-. reflexivity. Qed.
Lemma set_field_open w s k n w' : set_field DB mk_str w s k n = Ok w' -> w_open DB w' = w_open DB w.
Proof. unfold set_field. destruct (object_set_new _ _ _ _ _); cbn [bind]; [|discriminate]. intros E. injection E as <-. reflexivity. Qed.
Lemma no_update_open w t s w' : no_update DB mk_str w t s = Ok w' -> w_open DB w' = w_open DB w.
Proof. unfold no_update. destruct s; [|discriminate]. destruct (object_set_str _ _ _ _ _); cbn [bind]; [|discriminate]. intros E. injection E as <-. reflexivity. Qed.

Ltac run_step A :=
  match goal with
  | |- context [bind_run_sql ?a ?b ?c ?d ?e ?f ?g ?w ?i ?dt ?sql false ?s] =>
    let E := fresh "E" in destruct (bind_run_sql a b c d e f g w i dt sql false s) as [(((?, ?), ?), ?)|] eqn:E; cbn [bind]; [|discriminate];
    apply run_open in E; [|exact A]; cbn [w_open] in E
  end.
Ltac opens := repeat (match goal with
  | |- context [if ?b then _ else _] => destruct b
  | |- context [match ?s with Some _ => _ | None => _ end] => destruct s
  | |- context [report ?a ?b ?c ?w ?s ?r ?q] => let E := fresh "E" in destruct (report a b c w s r q) eqn:E; cbn [bind]; [apply report_open in E|discriminate]
  | |- context [set_field ?a ?b ?w ?s ?r ?q] => let E := fresh "E" in destruct (set_field a b w s r q) eqn:E; cbn [bind]; [apply set_field_open in E|discriminate]
  | |- context [no_update ?a ?b ?w ?s ?r] => let E := fresh "E" in destruct (no_update a b w s r) eqn:E; cbn [bind]; [apply no_update_open in E|discriminate]
  | |- _ => progress cbn [bind]
  end); let E := fresh "E" in intros E; injection E; intros; subst; cbn [w_open]; congruence.

Lemma insert_open w info data sql s key rc w' s' id : all_named info sql ->
  sql_insert DB prepare exec limit counters msg_unbound msg_failed mk_str w info data sql s key = Ok (rc, w', s', id) -> w_open DB w' = w_open DB w.
Proof. intros A. unfold sql_insert. destruct (accept_result _ _) as (h, r). run_step A. opens. Qed.
Lemma delete_open w info data sql s key rc w' s' : all_named info sql ->
  sql_delete DB prepare exec limit counters msg_unbound msg_failed mk_str w info data sql s key = Ok (rc, w', s') -> w_open DB w' = w_open DB w.
Proof. intros A. unfold sql_delete. destruct (accept_result _ _) as (h, r). run_step A. opens. Qed.
Lemma update_if_open w info data t s rc w' s' : all_named info (t_select t) -> (forall u, update_of t = Some u -> all_named info u) ->
  update_if_exists DB prepare exec limit counters msg_unbound msg_failed mk_str w info data t s = Ok (rc, w', s') -> w_open DB w' = w_open DB w.
Proof.
  intros A B. unfold update_if_exists. destruct (accept_result _ _) as (h, r). run_step A. destruct (_ =? SQLITE_ROW); [|opens].
  destruct (update_of t) as [u|]; [|opens]. run_step (B u eq_refl). opens.
Qed.
Lemma update_or_insert_open w info data t s rc w' s' : all_named info (t_select t) -> (forall u, update_of t = Some u -> all_named info u) -> all_named info (insert_of t) ->
  update_or_insert DB prepare exec limit counters msg_unbound msg_failed mk_str w info data t s = Ok (rc, w', s') -> w_open DB w' = w_open DB w.
Proof.
  intros A B C. unfold update_or_insert. destruct (accept_result _ _) as (h, r). run_step A. destruct (_ =? SQLITE_ROW).
  - destruct (update_of t) as [u|]; [|opens]. run_step (B u eq_refl). opens.
  - run_step C. opens.
Qed.
End Open.
