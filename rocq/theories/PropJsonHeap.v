(** Properties C38, C40, C41, C42: JSON values in memory. *)
From Coq Require Import ZArith List Bool Lia Arith.
From Verif Require Import Base ArrayLemmas TsearchModel MapModel MapProofs MapHistory ListModel ListProofs
  Json JsonHeapModel JsonHeapSpec JsonHeapProofs JsonFrame JsonMergeProofs JsonFieldProofs JsonStored.
Import ListNotations.
Open Scope Z_scope.

(** The theorems below are about values that are in memory ([holds]): every value
    with distinct keys can be there, in new nodes that are not shared. *)
Theorem C38_stored : forall j h, distinct j -> Z.of_nat (size j) <= 2 ^ 64 ->
  exists e a, holds (h ++ e) j a /\ NoDup (containers (h ++ e) j a) /\ forall c, In c (containers (h ++ e) j a) -> (length h <= c)%nat.
Proof. intros. eapply stored; eauto. Qed.

(** An example memory: 0 is an object {a: 1, b: [true, 3]}, with 1 = null, 2 the
    array, 3 a string, 4 true; 5 an empty object, 6 {k: 3}. *)
Definition ka : text := [97].
Definition kb : text := [98].
Definition kk : text := [107].
Definition ky : text := [121].
Definition nulls : heap := [NObj map_mk; NNull; NArr (list_mk 1); NStr [104; 105]; NBool true; NObj map_mk; NObj map_mk].
Definition get_heap (o : outcome heap) : heap := match o with Ok h => h | Bad _ => [] end.
Definition small : heap :=
  get_heap (bind (object_set byval_str_mk nulls (Some 0%nat) ka (Some 1%nat)) (fun h =>
            bind (object_set byval_str_mk h (Some 0%nat) kb (Some 2%nat)) (fun h =>
            bind (array_append h 2 (Some 4%nat)) (fun h =>
            bind (array_append h 2 (Some 3%nat)) (fun h => object_set byval_str_mk h (Some 6%nat) kk (Some 3%nat)))))).

(** * C38: fields *)

(** Reading a field of an object gives its value. *)
Theorem C38_get : forall h kjs a k, holds h (JObj kjs) a ->
  exists r, object_get h (Some a) (Some k) = Ok r /\
  match lookup k kjs with Some j => exists b, r = Some b /\ holds h j b | None => r = None end.
Proof. exact object_get_ok. Qed.

(** Removing a field makes it absent, and leaves the others and all other values. *)
Theorem C38_remove : forall h kjs a k, holds h (JObj kjs) a -> Z.of_nat (length kjs) < 2 ^ 31 ->
  exists h', object_remove h a (Some k) = Ok h' /\
    (forall k', object_get h' (Some a) (Some k') = if list_eq_dec Z.eq_dec k' k then Ok None else object_get h (Some a) (Some k')) /\
    length h' = length h /\ forall c, c <> a -> nth_error h' c = nth_error h c.
Proof.
  intros h kjs a k H B. apply holds_obj in H as (m & kas & E & R & F). unfold object_remove. rewrite (object_at_ok h a m E). cbn [bind].
  pose proof (forall2_len F).
  destruct (MapProofs.remove_rep strcmp strcmp_total m (wrapped kas) k R) as (m' & Er & R'); [unfold wrapped; rewrite map_length; lia|].
  rewrite Er. cbn [bind of_option]. rewrite del_wrapped in R'. eexists. split; [reflexivity|].
  split; [|split; [apply store_length|intros; apply store_other; auto]].
  intros k'. unfold object_get. rewrite (object_at_ok _ a m') by (eapply store_same; eauto). rewrite (object_at_ok h a m E). cbn [bind].
  rewrite (mrep_find m' (del k kas) k' R'), (mrep_find m kas k' R), lookup_del. destruct (list_eq_dec Z.eq_dec k' k); auto.
Qed.

(** The full property: every history of sets, removals, renamings and reads of the
    fields of an object behaves like a function from names to values. *)
Definition C38_statement (mk_str : text -> outcome text) : Prop :=
  forall h0 kjs j ops, holds h0 (JObj kjs) j -> Z.of_nat (length kjs + length ops) < 2 ^ 31 -> Forall (op_fits h0) ops ->
  let init k := match object_get h0 (Some j) (Some k) with Ok (Some a) => Some (FieldAt a) | _ => None end in
  exists h rs, object_run mk_str j h0 ops = Ok (h, rs) /\ Forall2 (same_res h) rs (snd (fields_run init ops)) /\
    (forall k, exists r, object_get h (Some j) (Some k) = Ok r /\
       match fst (fields_run init ops) k, r with Some f, Some a => field_shows h f a | None, None => True | _, _ => False end) /\
    forall c, c <> j -> (c < length h0)%nat -> nth_error h c = nth_error h0 c.

(** It holds if cee_str_mk(st, "%s", key) gives the string [key].  What is missing:
    by the C standard it does not (C12, C38_set_refuted). *)
Theorem C38_history_partial : C38_statement byval_str_mk.
Proof.
  intros h0 kjs j ops H B Fit init. apply holds_obj in H as (m & kas & E & R & F). pose proof (forall2_len F) as Lk.
  assert (Hi : forall k, init k = option_map FieldAt (lookup k kas)).
  { intros k. unfold init, object_get. rewrite (object_at_ok h0 j m E). cbn [bind]. rewrite (mrep_find m kas k R). destruct (lookup k kas); auto. }
  destruct (run_shown h0 j ops h0 init (length kjs)) as (h & rs & Er & Sh & LK & Rs); [| |lia|auto|].
  - split; [auto|]. split; [auto|]. exists m, kas. split; [auto|]. split; [auto|]. split; [lia|]. intros k. rewrite Hi. destruct (lookup k kas); cbn; auto.
  - intros k jj. rewrite Hi. destruct (lookup k kas); discriminate.
  - exists h, rs. split; [auto|]. split; [apply Rs; intros c nd; auto|]. destruct Sh as (_ & O & m' & kas' & E' & R' & _ & Hf).
    split; [|auto]. intros k. unfold object_get. rewrite (object_at_ok h j m' E'). cbn [bind]. rewrite (mrep_find m' kas' k R').
    eexists. split; [reflexivity|]. apply Hf.
Qed.
Example C38_history_example :
  match object_run byval_str_mk 0 small
    [FI64 kk 7; FGet kk; FStr ka [120]; FGet ka; FGet kb; FRename ka ky; FGet ka; FGet ky; FRemove kb; FGet kb; FRename kb kk; FSet kk 0; FGet kk] with
  | Ok (h, rs) =>
    rs = [RDone; RGot (Some 7%nat); RDone; RGot (Some 8%nat); RGot (Some 2%nat); RRenamed true; RGot None; RGot (Some 8%nat); RDone; RGot None; RRenamed false; RDone; RGot (Some 0%nat)]
    /\ nth_error h 7 = Some (NI64 7) /\ nth_error h 8 = Some (NStr [120])
  | Bad _ => False
  end.
Proof. vm_compute. auto. Qed.

(** With cee_str_mk as it is, no field can be set and none renamed. *)
Lemma c_str_mk_bad s : c_str_mk s = Bad BadVaList.
Proof. reflexivity. Qed.
Theorem C38_set_refuted :
  (forall h kjs j k nd, holds h (JObj kjs) j -> object_set_new c_str_mk h (Some j) k nd = Bad BadVaList) /\
  (forall h kjs j k1 k2, holds h (JObj kjs) j -> object_rename c_str_mk h j k1 k2 = Bad BadVaList) /\
  ~ C38_statement c_str_mk.
Proof.
  assert (A : forall h kjs j k nd, holds h (JObj kjs) j -> object_set_new c_str_mk h (Some j) k nd = Bad BadVaList).
  { intros h kjs j k nd H. apply holds_obj in H as (m & kas & E & _). unfold object_set_new. rewrite (object_at_ok h j m E). cbn [bind alloc].
    unfold add_field. rewrite (object_at_ok _ j m) by (rewrite nth_error_app1; [auto|apply nth_error_Some; congruence]). reflexivity. }
  split; [exact A|]. split.
  - intros h kjs j k1 k2 H. apply holds_obj in H as (m & kas & E & _). unfold object_rename, to_object, load. rewrite E. reflexivity.
  - intros S. assert (H : holds [NObj map_mk] (JObj []) 0).
    { apply holds_obj. exists map_mk, []. split; [auto|]. split; [apply mrep_mk|constructor]. }
    destruct (S [NObj map_mk] [] 0%nat [FNull ka] H) as (h & rs & E & _); [reflexivity|repeat constructor|]. vm_compute in E. discriminate.
Qed.

(** * C41: deep search *)
Theorem C41_search : forall h j a key fuel, holds h j a -> (size j < fuel)%nat ->
  exists r, has fuel h (Some a) key = Ok r /\
  match r with Some b => exists v, holds h v b /\ nested key v j | None => forall v, ~ nested key v j end.
Proof. intros. apply has_ok; auto. Qed.
(** The same in one direction each: found if and only if it is there. *)
Theorem C41_iff : forall h j a key fuel, holds h j a -> (size j < fuel)%nat ->
  (exists b, has fuel h (Some a) key = Ok (Some b)) <-> (exists v, nested key v j).
Proof.
  intros h j a key fuel H L. destruct (has_ok h key fuel j a H L) as (r & E & Q). rewrite E. split.
  - intros (b & Eb). injection Eb as ->. destruct Q as (v & _ & N). eauto.
  - intros (v & N). destruct r as [b|]; [eauto|]. exfalso. exact (Q v N).
Qed.
Example C41_example : 
  let h := get_heap (array_append small 2 (Some 6%nat)) in
  has 20 h (Some 0%nat) kk = Ok (Some 3%nat) /\ has 20 h (Some 0%nat) ky = Ok None /\ has 20 small (Some 0%nat) kk = Ok None.
Proof. vm_compute. auto. Qed.

(** * C40: merging *)

(** The full property *)
Definition C40_statement : Prop :=
  forall h jd js d s, holds h jd d -> holds h js s -> exists n, forall fuel, (n < fuel)%nat ->
  exists h', merge fuel h (Some d) (Some s) = Ok (mergeable jd js, h') /\ holds h' js s /\
    (mergeable jd js = true -> exists z, merged jd js z /\ holds h' z d).
(** It holds when no array or object is in the destination twice or in both; the
    source may have values that are in it more than once, and scalars can be
    anywhere.  Of the memory only arrays and objects of the destination change.
    What is missing: sharing (C40_self_refuted, C40_shared_refuted). *)
Theorem C40_merge_partial : forall h jd js d s, holds h jd d -> holds h js s ->
  NoDup (containers h jd d) -> disjoint (containers h jd d) (containers h js s) -> Z.of_nat (size jd + size js) < 2 ^ 64 ->
  forall fuel, (size jd + size js < fuel)%nat ->
  exists h', merge fuel h (Some d) (Some s) = Ok (mergeable jd js, h') /\ holds h' js s /\
    (mergeable jd js = true -> exists z, merged jd js z /\ holds h' z d /\ 
       (forall c, In c (containers h' z d) -> In c (containers h jd d) \/ In c (containers h js s)) /\
       (NoDup (containers h js s) -> NoDup (containers h' z d))) /\
    (mergeable jd js = false -> h' = h) /\
    length h' = length h /\ forall c, ~ In c (containers h jd d) -> nth_error h' c = nth_error h c.
Proof.
  intros h jd js d s Hd Hs N D B fuel Lf. destruct (merge_ok fuel h jd js d s Hd Hs N D Lf B) as (h' & E & Ln & O & P).
  exists h'. split; [exact E|]. split; [|split; [|split; [|auto]]].
  - apply (frame_holds h h'); [|auto|intros c I; apply O; intros I'; apply (D c); auto].
    apply (leaves_off h h' (containers h jd d)); [intros c I; apply (container_node h (size jd) jd d); auto|auto].
  - intros M. rewrite M in P. destruct P as (z & Mz & Hz & Cz). exists z. split; [auto|]. split; [auto|]. split.
    + intros c I. apply cnt_in in I. specialize (Cz c). destruct (in_dec Nat.eq_dec c (containers h jd d)); [auto|]. right. apply cnt_in.
      rewrite (count_occ_not_In Nat.eq_dec) in n. lia.
    + intros Ns. apply NoDup_count_occ with (decA := Nat.eq_dec). intros c. specialize (Cz c).
      pose proof (cnt_nodup _ c N). pose proof (cnt_nodup _ c Ns).
      destruct (in_dec Nat.eq_dec c (containers h jd d)) as [I|I].
      * assert (I' : ~ In c (containers h js s)) by (intros I'; apply (D c); auto). rewrite (count_occ_not_In Nat.eq_dec) in I'. lia.
      * rewrite (count_occ_not_In Nat.eq_dec) in I. lia.
  - intros M. rewrite M in P. auto.
Qed.
(** {a: null, b: [true, "hi"]} merged with {b: [{k: "hi"}], k: "hi", a: true} *)
Example C40_example :
  let h0 := small ++ [NObj map_mk; NArr (list_mk 1)] in
  let h1 := get_heap (bind (object_run byval_str_mk 7 h0 [FSet kb 8; FSet kk 3; FSet ka 4]) (fun '(h, _) => array_append h 8 (Some 6%nat))) in
  match merge 50 h1 (Some 0%nat) (Some 7%nat) with
  | Ok (true, h) =>
    map (fun k => object_get h (Some 0%nat) (Some k)) [ka; kb; kk] = [Ok (Some 4%nat); Ok (Some 2%nat); Ok (Some 3%nat)] /\
    kids h 2 = [4%nat; 3%nat; 6%nat] /\ kids h 7 = kids h1 7 /\ kids h 8 = [6%nat]
  | _ => False
  end.
Proof. vm_compute. auto. Qed.

(** cee_json_merge_or_return: nothing to merge with, and the source is the result;
    no source or no place for the result, and nothing happens; otherwise it merges. *)
Theorem C40_merge_or_return_partial : forall h js s, holds h js s ->
  (forall fuel, merge_or_return fuel h (Some None) (Some s) = Ok (true, Some (Some s), h)) /\
  (forall fuel p, merge_or_return fuel h p None = Ok (false, p, h) /\ merge_or_return fuel h None (Some s) = Ok (false, None, h)) /\
  forall jd d, holds h jd d -> NoDup (containers h jd d) -> disjoint (containers h jd d) (containers h js s) -> Z.of_nat (size jd + size js) < 2 ^ 64 ->
  forall fuel, (size jd + size js < fuel)%nat ->
  exists h', merge_or_return fuel h (Some (Some d)) (Some s) = Ok (mergeable jd js, Some (Some d), h') /\ holds h' js s /\
    (mergeable jd js = true -> exists z, merged jd js z /\ holds h' z d) /\ (mergeable jd js = false -> h' = h) /\
    forall c, ~ In c (containers h jd d) -> nth_error h' c = nth_error h c.
Proof.
  intros h js s Hs. split; [reflexivity|]. split; [intros fuel [[d|]|]; auto|]. intros jd d Hd N D B fuel Lf.
  destruct (C40_merge_partial h jd js d s Hd Hs N D B fuel Lf) as (h' & E & Hs' & M & M' & _ & O). exists h'. unfold merge_or_return. rewrite E. cbn [bind].
  split; [auto|]. split; [auto|]. split; [|auto]. intros T. destruct (M T) as (z & Mz & Hz & _). eauto.
Qed.
Example C40_merge_or_return_example :
  match merge_or_return 50 small (Some (Some 2%nat)) (Some 2%nat), merge_or_return 50 small (Some None) (Some 2%nat), merge_or_return 50 small (Some (Some 0%nat)) (Some 3%nat) with
  | Bad OutOfFuel, Ok (true, Some (Some 2%nat), _), Ok (false, Some (Some 0%nat), h) => kids h 0 = kids small 0
  | _, _, _ => False
  end.
Proof. vm_compute. auto. Qed.

(** An array that is not empty cannot be merged with itself: the call does not end. *)
Lemma self_loop n : forall l xs i ret h a, nth_error h a = Some (NArr l) -> rep l (map Some xs) -> 0 <= i < Z.of_nat (length xs) ->
  iterate_from (option nat) heap (fun h => list_at h a) (fun h e _ => bind (array_append h a e) (fun h => Ok (h, 0))) n h i ret = Bad OutOfFuel.
Proof.
  induction n as [|n IH]; intros l xs i ret h a E R B; cbn [iterate_from]; [auto|].
  assert (El : list_at h a = l) by (unfold list_at; rewrite E; auto). rewrite El.
  assert (Sz : l_size l = Z.of_nat (length xs)) by (destruct R as (Sz & _); rewrite map_length in Sz; auto). rewrite Sz.
  destruct (Z.ltb_spec i (Z.of_nat (length xs))); [|lia]. destruct (nth_error xs (Z.to_nat i)) as [y|] eqn:Ey; [|apply nth_error_None in Ey; lia].
  rewrite (rep_read l (map Some xs) i (Some y) R); [|rewrite nth_error_map, Ey; auto|lia]. cbn [bind].
  destruct (array_append_ok h a l xs y E R) as (l2 & Ea & R2). rewrite Ea. cbn [bind]. change (0 =? 0) with true. cbn iota.
  apply (IH l2 (xs ++ [y])); [eapply store_same; eauto|auto|rewrite app_length; cbn [length]; lia].
Qed.
Theorem C40_self_refuted :
  (forall h x js a fuel, holds h (JArr (x :: js)) a -> merge fuel h (Some a) (Some a) = Bad OutOfFuel) /\
  ~ C40_statement.
Proof.
  assert (A : forall h x js a fuel, holds h (JArr (x :: js)) a -> merge fuel h (Some a) (Some a) = Bad OutOfFuel).
  { intros h x js a fuel H. apply holds_arr in H as (l & xs & E & R & F). destruct fuel as [|n]; [auto|]. cbn [merge load]. rewrite E. cbn [of_option bind].
    unfold list_iterate. rewrite (self_loop n l xs 0 None h a E R); [auto|]. pose proof (forall2_len F) as L. cbn [length] in L. lia. }
  split; [exact A|]. intros S.
  destruct (stored 3 (JArr [JNull]) []) as (e & a & H & _); [cbn; lia|cbn; auto|vm_compute; discriminate|].
  destruct (S _ _ _ _ _ H H) as (n & G). destruct (G (Datatypes.S n)) as (h' & E & _); [lia|]. rewrite (A _ _ _ _ _ H) in E. discriminate.
Qed.

(** A destination that has a value in two places changes the source: with
    d = {a: D, b: D}, D = {}, s = {a: {k: S}, b: {k: T}}, S = {}, T = {y: null} the
    value S, which is in the source, gets the member y. *)
Theorem C40_shared_refuted :
  exists h h' d s sa S, object_get h (Some s) (Some ka) = Ok (Some sa) /\ object_get h (Some sa) (Some kk) = Ok (Some S) /\
    (forall k dv, In k [ka; kb] -> object_get h (Some d) (Some k) = Ok (Some dv) -> kids h dv = []) /\
    ~ In d (kids h s) /\ 
    (exists fuel, merge fuel h (Some d) (Some s) = Ok (true, h')) /\
    object_get h (Some S) (Some ky) = Ok None /\ exists y, object_get h' (Some S) (Some ky) = Ok (Some y).
Proof.
  pose (h0 := [NObj map_mk; NObj map_mk; NObj map_mk; NObj map_mk; NObj map_mk; NObj map_mk; NObj map_mk; NNull] : heap).
  pose (set h j k v := get_heap (object_set byval_str_mk h (Some j) k (Some v))).
  pose (h := set (set (set (set (set (set (set h0 1%nat ka 0%nat) 1%nat kb 0%nat) 2%nat ka 3%nat) 2%nat kb 4%nat) 3%nat kk 5%nat) 4%nat kk 6%nat) 6%nat ky 7%nat).
  pose (h' := match merge 30 h (Some 1%nat) (Some 2%nat) with Ok (_, h') => h' | Bad _ => [] end).
  exists h, h', 1%nat, 2%nat, 3%nat, 5%nat.
  split; [vm_compute; reflexivity|]. split; [vm_compute; reflexivity|].
  split. { intros k dv [<-|[<-|[]]] E; vm_compute in E; injection E as <-; vm_compute; reflexivity. }
  split. { intros I. vm_compute in I. intuition discriminate. }
  split; [exists 30%nat; vm_compute; reflexivity|]. split; [vm_compute; reflexivity|]. exists 7%nat. vm_compute. reflexivity.
Qed.

(** * C42: appending to a field *)

(** The full property *)
Definition C42_statement (mk_str : text -> outcome text) : Prop :=
  forall h j kjs k x v jv, holds h (JObj kjs) j -> holds h jv v -> NoDup (containers h (JObj kjs) j) ->
  disjoint (containers h (JObj kjs) j) (containers h jv v) -> Z.of_nat (size (JObj kjs)) < 2 ^ 64 -> lookup k kjs = Some x -> exists n, forall fuel, (n < fuel)%nat ->
  exists h', object_append mk_str fuel h (Some j) k (Some v) = Ok h' /\ holds h' (JObj (replaced k (JArr (items x ++ items jv)) kjs)) j /\ holds h' jv v.

(** It holds for fields that are arrays.  What is missing: the other kinds. *)
Theorem C42_array_partial : forall mk_str h j kjs k old v jv, holds h (JObj kjs) j -> holds h jv v -> NoDup (containers h (JObj kjs) j) ->
  disjoint (containers h (JObj kjs) j) (containers h jv v) -> lookup k kjs = Some (JArr old) -> forall fuel, (size jv < fuel)%nat ->
  exists h', object_append mk_str fuel h (Some j) k (Some v) = Ok h' /\ holds h' (JObj (replaced k (JArr (old ++ items jv)) kjs)) j /\ holds h' jv v /\
    forall c, ~ In c (containers h (JObj kjs) j) -> nth_error h' c = nth_error h c.
Proof. intros. eapply append_to_array; eauto. Qed.
(** And, if cee_str_mk works, for strings.  What is missing: numbers, booleans,
    null, objects (C42_kinds_refuted), and cee_str_mk as it is (C42_string_refuted). *)
Theorem C42_string_partial : forall h j kjs k s v jv, holds h (JObj kjs) j -> holds h jv v -> NoDup (containers h (JObj kjs) j) ->
  disjoint (containers h (JObj kjs) j) (containers h jv v) -> Z.of_nat (size (JObj kjs)) < 2 ^ 64 -> lookup k kjs = Some (JStr s) -> forall fuel, (size jv < fuel)%nat ->
  exists h', object_append byval_str_mk fuel h (Some j) k (Some v) = Ok h' /\ holds h' (JObj (replaced k (JArr (JStr s :: items jv)) kjs)) j /\ holds h' jv v.
Proof.
  intros h j kjs k s v jv Hj Hv N D B L fuel Lf. destruct (append_to_string fuel h j kjs k s v jv Hj Hv N D L Lf B) as (h' & A & A' & A'' & _). eauto.
Qed.
(** A field that does not exist becomes the value itself. *)
Theorem C42_absent_partial : forall h j kjs k v jv, holds h (JObj kjs) j -> holds h jv v -> NoDup (containers h (JObj kjs) j) ->
  disjoint (containers h (JObj kjs) j) (containers h jv v) -> Z.of_nat (size (JObj kjs)) < 2 ^ 64 -> lookup k kjs = None -> forall fuel,
  exists h', object_append byval_str_mk fuel h (Some j) k (Some v) = Ok h' /\ holds h' (JObj (kjs ++ [(k, jv)])) j /\ holds h' jv v.
Proof.
  intros h j kjs k v jv Hj Hv N D B L fuel. destruct (append_absent fuel h j kjs k v jv Hj Hv N D L B) as (h' & A & A' & A'' & _). eauto.
Qed.
Example C42_example :
  match object_append c_str_mk 20 small (Some 0%nat) kb (Some 1%nat), object_append byval_str_mk 20 small (Some 6%nat) kk (Some 2%nat) with
  | Ok h, Ok h' => kids h 2 = [4%nat; 3%nat; 1%nat] /\ kids h 0 = [1%nat; 2%nat] /\ object_get h' (Some 6%nat) (Some kk) = Ok (Some 7%nat) /\ kids h' 7 = [3%nat; 4%nat; 3%nat]
  | _, _ => False
  end.
Proof. vm_compute. auto. Qed.

(** A field that is an object, null, a boolean or a number: the call crashes. *)
Theorem C42_kinds_refuted :
  (forall mk_str fuel h j kjs k x v jv, holds h (JObj kjs) j -> holds h jv v -> lookup k kjs = Some x ->
     match x with
     | JObj _ => object_append mk_str fuel h (Some j) k (Some v) = Bad NullDeref
     | JArr _ | JStr _ => True
     | _ => object_append mk_str fuel h (Some j) k (Some v) = Bad Abort
     end) /\
  ~ C42_statement byval_str_mk.
Proof.
  assert (A : forall mk_str fuel h j kjs k x v jv, holds h (JObj kjs) j -> holds h jv v -> lookup k kjs = Some x ->
     match x with
     | JObj _ => object_append mk_str fuel h (Some j) k (Some v) = Bad NullDeref
     | JArr _ | JStr _ => True
     | _ => object_append mk_str fuel h (Some j) k (Some v) = Bad Abort
     end).
  { intros mk_str fuel h j kjs k x v jv Hj Hv L. destruct (object_get_ok h kjs j k Hj) as (r & E & Q). rewrite L in Q. destruct Q as (o & -> & Ho).
    unfold object_append. rewrite E. cbn [bind]. unfold to_array, listify, load.
    destruct x; auto; try (cbn [holds leaf_node] in Ho; destruct Ho as (n & En & Eo); injection En as <-; rewrite Eo; reflexivity).
    apply holds_obj in Ho as (m & kas & Eo & _). rewrite Eo. reflexivity. }
  split; [exact A|]. intros S.
  destruct (stored 3 (JObj [(ka, JNull)]) []) as (e & a & H & N & _); [cbn; lia|cbn; split; [repeat constructor; intros []|auto]|vm_compute; discriminate|].
  destruct (stored 3 JNull e) as (e' & b & H' & _); [cbn; lia|cbn; auto|vm_compute; discriminate|]. cbn [app] in *.
  destruct (extend e e' _ a H) as (H1 & H2). rewrite <- H2 in N.
  destruct (S (e ++ e') a _ ka JNull b JNull H1 H' N) as (n & G); [intros c _ []|reflexivity|reflexivity|].
  destruct (G (Datatypes.S n)) as (h' & E & _); [lia|]. rewrite (A byval_str_mk _ _ _ _ ka JNull b JNull H1 H' eq_refl) in E. discriminate.
Qed.
(** A field that is a string, with cee_str_mk as it is: undefined behaviour. *)
Theorem C42_string_refuted : exists h j k v, object_get h (Some j) (Some k) = Ok (Some 3%nat) /\ nth_error h 3 = Some (NStr [104; 105]) /\
  forall fuel, object_append c_str_mk fuel h (Some j) k (Some v) = Bad BadVaList.
Proof. exists small, 6%nat, kk, 1%nat. split; [vm_compute; reflexivity|]. split; [vm_compute; reflexivity|]. intros [|fuel]; reflexivity. Qed.
(** An array appended to itself: the call does not end. *)
Theorem C42_self_refuted : forall mk_str h j kjs k x l, holds h (JObj kjs) j -> lookup k kjs = Some (JArr (x :: l)) ->
  exists v, holds h (JArr (x :: l)) v /\ forall fuel, object_append mk_str fuel h (Some j) k (Some v) = Bad OutOfFuel.
Proof.
  intros mk_str h j kjs k x l Hj L. destruct (object_get_ok h kjs j k Hj) as (r & E & Q). rewrite L in Q. destruct Q as (o & -> & Ho).
  exists o. split; [auto|]. intros fuel. unfold object_append. rewrite E. cbn [bind]. apply holds_arr in Ho as (cl & xs & Eo & R & F).
  unfold to_array, load. rewrite Eo. cbn [of_option bind]. unfold array_concat. rewrite (array_at_ok h o cl Eo). cbn [bind].
  apply (array_concat_self fuel h o cl xs 0 Eo R). pose proof (forall2_len F) as Ln. cbn [length] in Ln. lia.
Qed.

Print Assumptions C38_stored.
Print Assumptions C38_history_partial.
Print Assumptions C38_set_refuted.
Print Assumptions C41_search.
Print Assumptions C40_merge_partial.
Print Assumptions C40_shared_refuted.
Print Assumptions C42_string_partial.
Print Assumptions C42_kinds_refuted.
Print Assumptions C40_merge_or_return_partial.
