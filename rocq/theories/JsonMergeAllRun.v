(** Merging the files one after the other. *)
From Coq Require Import ZArith List Bool Lia Arith.
From Verif Require Import Base ArrayLemmas BoxedModel Utf8Proofs Json JsonSpec JsonTokModel JsonPrintModel JsonPrintSpec JsonPrintProofs JsonPrintLang PropJsonPrint
  JsonHeapModel JsonHeapSpec JsonHeapProofs JsonFrame JsonMergeProofs JsonFieldProofs JsonStored JsonFileModel JsonFileProofs PropJsonFile PropJsonHeap
  JsonMergeAllModel JsonMergeAllProofs.
Import ListNotations.
Open Scope Z_scope.
Local Arguments Z.add : simpl never.
Local Arguments Z.of_nat : simpl never.

(** * What it is meant to do *)
(** The file at [p] has a JSON text with the value [v] (and, for a number alone,
    white space behind it: C67_number_refuted). *)
Definition has_json (strtod : text -> Z) (fs : files) (p : text) (v : json) : Prop :=
  exists bytes n, fs p = Some bytes /\ rfc_json strtod n bytes v /\ (n < 512)%nat /\ (number v -> ends_with ws bytes).
(** All of [vs] merged into [v] one after the other; what cannot be merged is left out. *)
Inductive folded : json -> list json -> json -> Prop :=
| folded_nil v : folded v [] v
| folded_merged v x y r z : merged v x y -> folded y r z -> folded v (x :: r) z
| folded_skipped v x r z : mergeable v x = false -> folded v r z -> folded v (x :: r) z.
Definition total_size (vs : list json) : nat := list_sum (map size vs).

(** * That it does *)
Section Run.
Variable strtod : text -> Z.
Variable fmt_g : prim -> Z -> text.
Variable fs : files.
Variable fuel : nat.

Definition short (p : text) : Prop := forall b, fs p = Some b -> (length b < fuel)%nat.
Definition good (v : json) : Prop := everywhere (ordinary fmt_g) v /\ (height v <= 127)%nat.

Lemma load_file_ok h p v : has_json strtod fs p v -> short p -> distinct v -> Z.of_nat (size v) <= 2 ^ 64 ->
  exists e a, load_file strtod fuel fs h p = Ok (Some (h ++ e, a)) /\ holds (h ++ e) v a /\ NoDup (containers (h ++ e) v a) /\
    forall c, In c (containers (h ++ e) v a) -> (length h <= c)%nat.
Proof.
  intros (bytes & n & E & J & Ln & W) Sh D B. unfold load_file. rewrite E.
  destruct (C67_load_partial strtod bytes n v true true fuel J W Ln (Sh _ E)) as (-> & _). cbn [bind].
  destruct (build_ok v h D B) as (e & a & -> & R). cbn [bind]. exists e, a. auto.
Qed.

Lemma merge_files_ok T : Z.of_nat T < 2 ^ 64 -> (T < fuel)%nat -> forall paths vs, Forall2 (has_json strtod fs) paths vs -> Forall short paths -> Forall good vs ->
  forall h v a, holds h v a -> NoDup (containers h v a) -> good v -> (size v + total_size vs <= T)%nat ->
  exists h' z, merge_files strtod fuel fs h a paths = Ok (Some h') /\ folded v vs z /\ holds h' z a /\ NoDup (containers h' z a) /\ good z /\ (size z <= size v + total_size vs)%nat.
Proof.
  intros BT LT paths vs F. induction F as [|p x paths vs Hp F IH]; intros Sh Gs h v a H N G Sz.
  - exists h, v. cbn [merge_files]. split; [auto|]. split; [constructor|]. split; [auto|]. split; [auto|]. split; [auto|]. lia.
  - cbn [merge_files]. change (total_size (x :: vs)) with (size x + total_size vs)%nat in *. pose proof (Forall_inv Gs) as Gx.
    destruct (load_file_ok h p x Hp (Forall_inv Sh)) as (e & b & -> & Hb & Nb & Bb); [eapply ordinary_distinct; apply Gx|lia|]. cbn [bind].
    destruct (extend h e v a H) as (H1 & C1).
    assert (Dj : disjoint (containers (h ++ e) v a) (containers (h ++ e) x b)).
    { intros c J J'. rewrite C1 in J. apply Bb in J'. pose proof (containers_bound _ _ _ _ H J). lia. }
    assert (N1 : NoDup (containers (h ++ e) v a)) by (rewrite C1; auto).
    destruct (C40_merge_partial (h ++ e) v x a b H1 Hb N1 Dj ltac:(lia) fuel ltac:(lia)) as (h' & -> & _ & My & Mn & _ & _).
    cbn [bind]. destruct (mergeable v x) eqn:M.
    + destruct (My eq_refl) as (y & Mv & Hy & _ & Ny). pose proof (merged_size _ v x y (Nat.le_refl _) Mv) as Sy. destruct G as (G1 & G2). destruct Gx as (X1 & X2).
      pose proof (ordinary_distinct _ _ G1) as Dv. pose proof (ordinary_distinct _ _ X1) as Dx. specialize (Sy Dv Dx).
      destruct (IH (Forall_inv_tail Sh) (Forall_inv_tail Gs) h' y a Hy (Ny Nb)) as (h2 & z & E2 & Fz & Hz & Nz & Gz & Lz); [|lia|].
      { split; [eapply merged_ordinary; eauto|]. apply (merged_height (size v) 127 v x y); auto. }
      exists h2, z. split; [auto|]. split; [eapply folded_merged; eauto|]. split; [auto|]. split; [auto|]. split; [auto|]. lia.
    + rewrite (Mn eq_refl). destruct (IH (Forall_inv_tail Sh) (Forall_inv_tail Gs) (h ++ e) v a H1) as (h2 & z & E2 & Fz & Hz & Nz & Gz & Lz); [auto|auto|lia|].
      exists h2, z. split; [auto|]. split; [apply folded_skipped; auto|]. split; [auto|]. split; [auto|]. split; [auto|]. lia.
Qed.
Lemma merge_files_app : forall ok rest h a h', merge_files strtod fuel fs h a ok = Ok (Some h') -> merge_files strtod fuel fs h a (ok ++ rest) = merge_files strtod fuel fs h' a rest.
Proof.
  induction ok as [|p ok IH]; intros rest h a h' E; cbn [merge_files app] in *; [injection E as ->; auto|].
  destruct (load_file strtod fuel fs h p) as [[(h1, jn)|]|]; try discriminate. cbn [bind] in *.
  destruct (merge fuel h1 (Some a) (Some jn)) as [(b, h2)|]; try discriminate. cbn [bind] in *. auto.
Qed.
End Run.

Lemma folded_object : forall vs v z, folded v vs z -> forall kv, v = JObj kv -> exists kz, z = JObj kz.
Proof. induction 1 as [v|v x y r z M F IH|v x r z M F IH]; intros kv E; subst; eauto. inversion M; subst. eauto. Qed.
Lemma some_bound (fs : files) paths : exists N, forall fuel, (N <= fuel)%nat -> Forall (short fs fuel) paths.
Proof.
  induction paths as [|p paths (N & IH)]; [exists 0%nat; constructor|]. exists (N + S (match fs p with Some b => length b | None => 0 end))%nat.
  intros fuel L. constructor; [|apply IH; lia]. intros b E. rewrite E in L. lia.
Qed.

Lemma merged_plain d s r : merged d s r -> everywhere PropJsonPrint.plain d -> everywhere PropJsonPrint.plain s -> everywhere PropJsonPrint.plain r.
Proof.
  apply (merged_members (everywhere PropJsonPrint.plain)); clear.
  - intros d s Hd Hs. apply arr_everywhere; [exact I|]. apply everywhere_arr in Hd, Hs. apply Forall_app. auto.
  - intros d s r Hd Hs N K C. pose proof (everywhere_here _ _ Hd) as (_ & Kd). pose proof (everywhere_here _ _ Hs) as (_ & Ks).
    apply everywhere_obj in Hd, Hs. apply obj_everywhere; [|exact (all_members _ d s r N Hd Hs C)]. split; [auto|].
    rewrite Forall_forall in *. intros (k, x) I. cbn [fst]. destruct (K k) as [J|J]; [apply in_map_iff; exists (k, x); auto| |];
      apply in_map_iff in J as ((k', y) & E & J); cbn [fst] in E; subst k'; [apply (Kd (k, y) J)|apply (Ks (k, y) J)].
  - intros d Hd. pose proof (everywhere_here _ _ Hd) as (N & _). apply everywhere_obj in Hd. auto.
Qed.
Lemma folded_plain : forall vs v z, folded v vs z -> everywhere PropJsonPrint.plain v -> Forall (everywhere PropJsonPrint.plain) vs -> everywhere PropJsonPrint.plain z.
Proof.
  induction 1 as [v|v x y r z M F IH|v x r z M F IH]; intros Pv Ps; [auto| |]; pose proof (Forall_inv Ps); pose proof (Forall_inv_tail Ps); auto.
  apply IH; auto. eapply merged_plain; eauto.
Qed.

(** The object with the names *)
Lemma put_forall (P : text * json -> Prop) k v kvs : Forall P kvs -> P (k, v) -> (forall k' v', P (k', v') -> k' = k -> P (k', v)) -> Forall P (put k v kvs).
Proof.
  intros F H X. induction F as [|(k', v') kvs Hx F IH]; cbn [put]; [auto|]. destruct (list_eq_dec Z.eq_dec k k') as [->|]; constructor; eauto.
Qed.
Lemma put_nodup {A} k (v : A) kvs : NoDup (map fst kvs) -> NoDup (map fst (put k v kvs)).
Proof.
  intros N. rewrite put_keys. destruct (lookup k kvs) eqn:E; [rewrite app_nil_r; auto|]. apply nodup_both; [auto|repeat constructor; auto|].
  intros x [<-|[]]. apply lookup_none. auto.
Qed.
Lemma put_size k v kvs : (size (JObj (put k v kvs)) <= size (JObj kvs) + size v)%nat.
Proof.
  cbn [size]. induction kvs as [|(k', v') kvs IH]; cbn [put]; [cbn; lia|]. 
  change (list_sum (map (fun kv : text * json => size (snd kv)) ((k', v') :: kvs))) with (size v' + list_sum (map (fun kv : text * json => size (snd kv)) kvs))%nat.
  destruct (list_eq_dec Z.eq_dec k k').
  - change (list_sum (map (fun kv : text * json => size (snd kv)) ((k', v) :: kvs))) with (size v + list_sum (map (fun kv : text * json => size (snd kv)) kvs))%nat. lia.
  - change (list_sum (map (fun kv : text * json => size (snd kv)) ((k', v') :: put k v kvs))) with (size v' + list_sum (map (fun kv : text * json => size (snd kv)) (put k v kvs)))%nat. lia.
Qed.
Lemma originals_bytes : Forall byte originals.
Proof. unfold originals. repeat constructor; unfold byte; lia. Qed.
Definition names (paths : list text) : json := JArr (map JStr paths).
Lemma names_good fmt_g paths : Forall (fun p => Forall byte p /\ Z.of_nat (length p) < 2 ^ 32) paths -> everywhere (ordinary fmt_g) (names paths).
Proof.
  intros F. apply arr_everywhere; [exact I|]. rewrite Forall_map. eapply Forall_impl; [|exact F]. intros p H. split; [exact H|exact I].
Qed.
Lemma named_good fmt_g kz paths : good fmt_g (JObj kz) -> Forall (fun p => Forall byte p /\ Z.of_nat (length p) < 2 ^ 32) paths ->
  good fmt_g (JObj (put originals (names paths) kz)).
Proof.
  intros (G1 & G2) F. pose proof (everywhere_here _ _ G1) as (N & K). split.
  - apply obj_everywhere; [split; [apply put_nodup; auto|]|].
    + apply put_forall; [auto| |intros k' v' H _; exact H]. split; [apply originals_bytes|vm_compute; auto].
    + apply everywhere_obj in G1. apply put_forall; [auto|apply names_good; auto|]. intros; apply names_good; auto.
  - apply height_obj in G2. assert (H : (height (names paths) <= 1)%nat).
    { apply height_arr_le. rewrite Forall_map. apply Forall_forall. intros p _. cbn. lia. }
    apply height_obj_le. apply put_forall; [auto|cbn [snd]; lia|]. intros; cbn [snd]; lia.
Qed.
Lemma names_size paths : size (names paths) = S (length paths).
Proof.
  cbn [size names]. f_equal. rewrite map_map. induction paths as [|p paths IH]; [auto|].
  change (1 + list_sum (map (fun x => size (JStr x)) paths) = S (length paths))%nat. lia.
Qed.
Lemma named_plain kz paths : everywhere PropJsonPrint.plain (JObj kz) -> Forall good_string paths -> everywhere PropJsonPrint.plain (JObj (put originals (names paths) kz)).
Proof.
  intros G F. pose proof (everywhere_here _ _ G) as (N & K).
  assert (Nm : everywhere PropJsonPrint.plain (names paths)).
  { apply arr_everywhere; [exact I|]. rewrite Forall_map. eapply Forall_impl; [|exact F]. intros p H. split; [exact H|exact I]. }
  apply obj_everywhere; [split; [apply put_nodup; auto|]|].
  - apply put_forall; [auto| |intros k' v' H _; exact H]. cbn [fst]. split; [|split; [|vm_compute; auto]].
    + exists originals. split; [repeat (constructor; [unfold scalar_value; lia|]); constructor|reflexivity].
    + unfold originals. cbn. lia.
  - apply everywhere_obj in G. apply put_forall; auto.
Qed.
