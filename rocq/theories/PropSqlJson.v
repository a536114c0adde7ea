(** Properties C45 and C56: JSON objects as SQL data. *)
From Coq Require Import String Ascii ZArith List Bool Lia Sorting.Permutation.
From Verif Require Import Base TsearchModel MapModel MapProofs ListModel Json JsonHeapModel JsonHeapSpec JsonHeapProofs SqlModel SqlSpec SqlJsonModel SqlJsonSpec SqlJsonProofs.
Import ListNotations.
Open Scope string_scope.
Open Scope list_scope.
Open Scope Z_scope.

Definition ascii (s : string) : text := map (fun c => Z.of_nat (nat_of_ascii c)) (list_ascii_of_string s).

(** * C45: data from an object *)
(** The full property: each member of a declared column that takes it is used once,
    those of other columns are reported as unused, wrong values as errors, and the data
    of each column is the value of the object, if it has one. *)
Definition C45_data_statement : Prop :=
  forall infos h a kvs data used unused errors us ns es,
  holds h (JObj kvs) a -> NoDup (given_at used ++ given_at unused ++ given_at errors) -> NoDup (map i_col infos) ->
  text_list h used us -> text_list h unused ns -> text_list h errors es -> (length infos <= length data)%nat ->
  exists h' data' used' unused' errors' us' ns' ws' es' order,
    bind_data_from_json byval_str_mk h infos (Some data) (Some a) used unused errors = Ok (0, h', Some data', used', unused', errors') /\
    asked used used' /\ asked unused unused' /\ asked errors errors' /\
    text_list h' used' (us ++ us') /\ text_list h' unused' (ns ++ ns') /\ text_list h' errors' (es ++ es') /\ length es' = length ws' /\
    Permutation order kvs /\ sorted infos order us' ns' ws' /\
    forall i info, nth_error infos i = Some info ->
      match lookup (i_col info) kvs with
      | Some v => takes info v -> exists d, nth_error data' i = Some d /\ data_is info v d
      | None => nth_error data' i = nth_error data i
      end.
(** It holds for data that is not used already, if the columns take all values.  What
    is missing: see the refutations below. *)
Theorem C45_data_partial :
  forall infos h a kvs data used unused errors us ns es,
  holds h (JObj kvs) a -> NoDup (given_at used ++ given_at unused ++ given_at errors) -> NoDup (map i_col infos) ->
  text_list h used us -> text_list h unused ns -> text_list h errors es -> (length infos <= length data)%nat ->
  (forall i info d, nth_error infos i = Some info -> nth_error data i = Some d -> In (i_col info) (map fst kvs) -> fresh d) ->
  (forall k v info, In (k, v) kvs -> In info infos -> i_col info = k -> takes info v) ->
  exists h' data' used' unused' errors' us' ns' order,
    bind_data_from_json byval_str_mk h infos (Some data) (Some a) used unused errors = Ok (0, h', Some data', used', unused', errors') /\
    asked used used' /\ asked unused unused' /\ asked errors errors' /\
    text_list h' used' (us ++ us') /\ text_list h' unused' (ns ++ ns') /\ text_list h' errors' es /\
    (forall c, (c < length h)%nat -> ~ In c (given_at used ++ given_at unused ++ given_at errors) -> nth_error h' c = nth_error h c) /\
    Permutation order kvs /\ sorted infos order us' ns' [] /\ data_from infos order data data'.
Proof.
  intros infos h a kvs data used unused errors us ns es H Ap Co Tu Tn Te Ld Fr Hok.
  destruct (bind_data_ok infos h a kvs data used unused errors us ns es H Ap Co Tu Tn Te Ld Fr) as (h' & data' & u' & n' & e' & us' & ns' & es' & pre & post & E & A1 & A2 & A3 & T1 & T2 & T3 & K & P & So & Df & Po).
  { intros. left. eauto. }
  destruct post as [|(k, v) post].
  - subst es'. rewrite app_nil_r in *. exists h', data', u', n', e', us', ns', pre. auto 12.
  - exfalso. destruct Po as (info & Ii & Ec & (Ty & Nn & Ni) & _).
    assert (T : takes info v). { apply (Hok k v info); auto. eapply Permutation_in; [exact P|]. apply in_or_app. right. left. auto. }
    destruct T; [congruence|eapply Ni; eauto|eapply Ni; eauto|destruct Ty; congruence].
Qed.
(** A value that is not an integer for an integer column is reported, and nothing that
    comes after it is looked at. *)
Theorem C45_error_partial :
  forall infos h a kvs data used unused errors us ns es,
  holds h (JObj kvs) a -> NoDup (given_at used ++ given_at unused ++ given_at errors) -> NoDup (map i_col infos) ->
  text_list h used us -> text_list h unused ns -> text_list h errors es -> (length infos <= length data)%nat ->
  (forall i info d, nth_error infos i = Some info -> nth_error data i = Some d -> In (i_col info) (map fst kvs) -> fresh d) ->
  (forall k v info, In (k, v) kvs -> In info infos -> i_col info = k -> takes info v \/ not_an_integer info v) ->
  (exists k v info, In (k, v) kvs /\ In info infos /\ i_col info = k /\ not_an_integer info v) ->
  exists h' data' used' unused' errors' us' ns' e pre k v post info,
    bind_data_from_json byval_str_mk h infos (Some data) (Some a) used unused errors = Ok (0, h', Some data', used', unused', errors') /\
    asked used used' /\ asked unused unused' /\ asked errors errors' /\
    text_list h' used' (us ++ us') /\ text_list h' unused' (ns ++ ns') /\ text_list h' errors' (es ++ [e]) /\
    Permutation (pre ++ (k, v) :: post) kvs /\ sorted infos pre us' ns' [] /\ data_from infos pre data data' /\
    In info infos /\ i_col info = k /\ not_an_integer info v /\
    e = [39] ++ k ++ ascii "' should be int" ++ (match i_type info with T_INT64 => ascii "64" | _ => [] end).
Proof.
  intros infos h a kvs data used unused errors us ns es H Ap Co Tu Tn Te Ld Fr Hok (k0 & v0 & info0 & I0 & J0 & C0 & N0).
  destruct (bind_data_ok infos h a kvs data used unused errors us ns es H Ap Co Tu Tn Te Ld Fr Hok) as (h' & data' & u' & n' & e' & us' & ns' & es' & pre & post & E & A1 & A2 & A3 & T1 & T2 & T3 & K & P & So & Df & Po).
  destruct post as [|(k, v) post].
  - exfalso. rewrite app_nil_r in P. apply (Permutation_in _ (Permutation_sym P)) in I0.
    assert (X : exists info, In info infos /\ i_col info = k0 /\ takes info v0).
    { clear -So I0 J0 C0. remember [] as ws in So. induction So as [|k v info l us ns ws I C T So IH|k v l us ns ws N So IH|k v info l us ns ws I C T So IH]; [destruct I0| | |discriminate].
      - destruct I0 as [Eq|I0]; [injection Eq as <- <-; eauto|auto].
      - destruct I0 as [Eq|I0]; [|auto]. injection Eq as <- <-. exfalso. apply N. rewrite <- C0. apply in_map. auto. }
    destruct X as (info & Ii & Ci & T). apply In_nth_error in Ii as (i & Ei). apply In_nth_error in J0 as (j & Ej).
    assert (i = j) by (eapply column_unique; [exact Co|exact Ei|exact Ej|congruence]). subst j. assert (info0 = info) by congruence. subst info0.
    destruct N0 as (Ty & Nn & Ni). destruct T; [congruence|eapply Ni; eauto|eapply Ni; eauto|destruct Ty; congruence].
  - destruct Po as (info & Ii & Ec & Nt & ->). exists h', data', u', n', e', us', ns', (complaint info), pre, k, v, post, info. do 12 (split; [auto|]). split; [auto|]. subst k. unfold complaint. destruct (i_type info); reflexivity.
Qed.

(** An object in memory, made with the library *)
Definition put_field (h : heap) (k : text) (n : node) : heap :=
  match object_set_new byval_str_mk h (Some 0%nat) k n with Ok h' => h' | Bad _ => h end.
Definition object_with (l : list (text * node)) : heap := fold_left (fun h kn => put_field h (fst kn) (snd kn)) l [NObj map_mk].
Definition column (c : Z) (ty : sqltype) (nn : bool) : bind_info := BindInfo [64; c] [c] ty zero_data false nn false false.
Definition texts (h : heap) (p : option (option nat)) : list node :=
  match p with
  | Some (Some a) => match nth_error h a with Some (NArr l) => flat_map (fun c => match c with Some (Some x) => match nth_error h x with Some n => [n] | None => [] end | _ => [] end) (firstn (Z.to_nat (l_size l)) (l_a l)) | _ => [] end
  | _ => []
  end.
Example C45_data_example :
  let infos := [column 97 T_INT false; column 98 T_TEXT false; column 99 T_INT64 true; column 100 T_TEXT false] in
  match bind_data_from_json byval_str_mk (object_with [([97], NI64 7); ([122], NNull); ([98], NStr [120; 121]); ([100], NNull)]) infos (Some (repeat zero_data 4)) (Some 0%nat) (Some None) (Some None) (Some None) with
  | Ok (rc, h, data, u, n, e) => texts h u = [NStr [98]; NStr [97]; NStr [100]] /\ texts h n = [NStr [122]] /\ texts h e = [] /\
      data = Some [BindData 7 0 None 0 true false; BindData 0 0 (Some [120; 121; 0]) 0 true false; zero_data; BindData 0 0 None 0 true true]
  | Bad _ => False
  end.
Proof. vm_compute. auto. Qed.

(** The keys are put in the lists with cee_str_mkv. *)
Theorem C45_usage_refuted :
  bind_data_from_json c_str_mk (object_with [([97], NI64 7)]) [column 97 T_INT false] (Some [zero_data]) (Some 0%nat) (Some None) (Some None) (Some None) = Bad BadVaList.
Proof. vm_compute. auto. Qed.
(** A null for a column that is not null is neither used, nor unused, nor an error. *)
Theorem C45_null_refuted :
  match bind_data_from_json byval_str_mk (object_with [([97], NNull)]) [column 97 T_INT true] (Some [zero_data]) (Some 0%nat) (Some None) (Some None) (Some None) with
  | Ok (rc, h, data, u, n, e) => rc = 0 /\ texts h u = [] /\ texts h n = [] /\ texts h e = [] /\ data = Some [zero_data]
  | Bad _ => False
  end.
Proof. vm_compute. auto 8. Qed.
(** The data of a column that was null before stays null: the value 7 is not bound
    (SqlModel.bind_value). *)
Theorem C45_stale_refuted :
  match bind_data_from_json byval_str_mk (object_with [([97], NNull)]) [column 97 T_INT false] (Some [zero_data]) (Some 0%nat) None None None with
  | Ok (_, _, data, _, _, _) =>
    match bind_data_from_json byval_str_mk (object_with [([97], NI64 7)]) [column 97 T_INT false] data (Some 0%nat) None None None with
    | Ok (_, _, Some [d], _, _, _) => d = BindData 7 0 None 0 true true /\ bind_value 1000 (column 97 T_INT false) d = Ok (Some V_NULL)
    | _ => False
    end
  | Bad _ => False
  end.
Proof. vm_compute. auto. Qed.
(** After an error the other members are ignored; the result is 0 nevertheless. *)
Theorem C45_stops_refuted :
  match bind_data_from_json byval_str_mk (object_with [([97], NBool true); ([98], NI64 7); ([99], NI64 8)]) [column 97 T_INT false; column 98 T_INT false] (Some [zero_data; zero_data]) (Some 0%nat) (Some None) (Some None) (Some None) with
  | Ok (rc, h, data, u, n, e) => rc = 0 /\ (length (texts h e) = 1)%nat /\ (length (texts h u ++ texts h n) < 2)%nat
  | Bad _ => False
  end.
Proof. vm_compute. repeat constructor. Qed.
(** A text column with anything but a string, an integer that is no int, a blob *)
Theorem C45_kinds_refuted :
  bind_data_from_json byval_str_mk (object_with [([97], NI64 7)]) [column 97 T_TEXT false] (Some [zero_data]) (Some 0%nat) None None None = Bad NullDeref /\
  match bind_data_from_json byval_str_mk (object_with [([97], NI64 (2 ^ 32))]) [column 97 T_INT false] (Some [zero_data]) (Some 0%nat) None None None with
  | Ok (_, _, Some [d], _, _, _) => bind_value 1000 (column 97 T_INT false) d = Ok (Some (V_INT 0)) | _ => False end /\
  bind_data_from_json byval_str_mk (object_with [([97], NStr [120])]) [column 97 T_BLOB false] (Some [zero_data]) (Some 0%nat) None None None = Bad NullDeref.
Proof. vm_compute. auto. Qed.

Lemma one_member : holds (object_with [([97], NI64 7)]) (JObj [([97], JI64 7)]) 0%nat.
Proof.
  apply holds_obj. eexists. exists [([97], 1%nat)]. split; [vm_compute; reflexivity|]. split.
  - split; [|split; [|split; [|split]]]; vm_compute; repeat constructor; try discriminate.
  - constructor; [|constructor]. split; [reflexivity|]. eexists. split; [reflexivity|]. vm_compute. reflexivity.
Qed.
Theorem C45_data_refuted : ~ C45_data_statement.
Proof.
  intros S. destruct (S [column 97 T_TEXT false] _ 0%nat _ [zero_data] None None None [] [] [] one_member) as (h' & d & u & n & e & us & ns & ws & es & o & E & _);
    try exact I; try (repeat constructor; fail).
  - repeat constructor. intros [].
  - destruct C45_kinds_refuted as (K & _). rewrite K in E. discriminate.
Qed.

(** * C45: entries from an object *)
(** The full property: one entry for each member. *)
Definition good_member (v : json) : Prop := (exists z, v = JI64 z /\ - 2 ^ 31 <= z < 2 ^ 31) \/ (exists s, v = JStr s /\ ~ In 0 s).
Definition C45_info_statement : Prop :=
  forall h a kvs, holds h (JObj kvs) a -> Forall (fun kv => good_member (snd kv)) kvs ->
  exists infos order, json_to_bind_info byval_str_mk h (Some a) = Ok infos /\ Permutation order kvs /\ Forall2 (fun kv info => entry_is (fst kv) (snd kv) info) order infos.
(** What is missing: objects with more than one member. *)
Theorem C45_info_partial : forall h a k v, holds h (JObj [(k, v)]) a -> good_member v ->
  exists info, json_to_bind_info byval_str_mk h (Some a) = Ok [info] /\ entry_is k v info.
Proof. intros h a k v. apply info_one. Qed.
Example C45_info_example :
  json_to_bind_info byval_str_mk (object_with [([97], NI64 7)]) (Some 0%nat) = Ok [BindInfo [64; 97] [97] T_INT (BindData 7 0 None 0 true false) false false false false].
Proof. reflexivity. Qed.
(** With two members all entries are those of one. *)
Lemma two_members : json_to_bind_info byval_str_mk (object_with [([97], NI64 7); ([98], NI64 8)]) (Some 0%nat) =
  Ok (repeat (BindInfo [64; 97] [97] T_INT (BindData 7 0 None 0 true false) false false false false) 2).
Proof. vm_compute. auto. Qed.
Theorem C45_info_refuted : ~ C45_info_statement.
Proof.
  intros S. destruct (S (object_with [([97], NI64 7); ([98], NI64 8)]) 0%nat [([97], JI64 7); ([98], JI64 8)]) as (infos & order & E & P & F).
  - apply holds_obj. eexists. exists [([97], 1%nat); ([98], 2%nat)]. split; [vm_compute; reflexivity|]. split.
    + split; [|split; [|split; [|split]]].
      * vm_compute. repeat constructor; try discriminate.
      * vm_compute. repeat constructor; try discriminate.
      * vm_compute. apply Permutation_refl || apply perm_swap.
      * vm_compute. reflexivity.
      * vm_compute. reflexivity.
    + constructor; [|constructor; [|constructor]]; (split; [reflexivity|]); eexists; (split; [reflexivity|]); vm_compute; reflexivity.
  - constructor; [|constructor; [|constructor]]; left; eexists; (split; [reflexivity|]); lia.
  - rewrite two_members in E. injection E as <-. assert (I : In [98] (map fst order)).
    { eapply Permutation_in; [apply Permutation_map, Permutation_sym, P|]. right. left. auto. }
    inversion F as [|kv ? order1 ? (C1 & _) F1]; subst. inversion F1 as [|kv2 ? order2 ? (C2 & _) F2]; subst. inversion F2; subst.
    cbn [i_col] in C1, C2. cbn [map In] in I. rewrite <- C1, <- C2 in I. destruct I as [|[|[]]]; discriminate.
Qed.

(** * C56: statements made from an object *)
(** The update sets those columns that the object has, that may be updated and that have
    a value; the insert names those that have a value or must have one, each with its
    own parameter. *)
Theorem C56_compose : forall h a kvs data infos update insert, holds h (JObj kvs) a -> covers data (length infos) -> Forall (fun info => i_col info <> []) infos ->
  exists s c, picked (to_set kvs data) 0 infos s /\ picked (to_insert data) 0 infos c /\
    compose h (Some a) infos data 0 (if update : bool then Some [] else None) (if insert : bool then Some ([], []) else None) =
    Ok (if update then Some (joined (map (fun info => i_col info ++ 61 :: i_var info) s)) else None,
        if insert then Some (joined (map i_col c), joined (map i_var c)) else None).
Proof.
  intros h a kvs data infos update insert H C F. destruct (compose_loop h a kvs data H infos 0 (length infos) [] []) as (s & c & Ps & Pc & E); try (constructor; fail); auto; try constructor.
  exists s, c. split; [auto|]. split; [auto|]. exact (E update insert).
Qed.
Example C56_compose_example :
  compose (object_with [([97], NI64 7); ([98], NStr [120])]) (Some 0%nat) [column 97 T_INT false; column 98 T_TEXT false; column 99 T_INT true; column 100 T_INT false]
    (Some [BindData 7 0 None 0 true false; BindData 0 0 (Some [120; 0]) 0 true false; zero_data; zero_data]) 0 (Some []) (Some ([], [])) =
  (* a=@a,b=@b and a,b,c / @a,@b,@c *)
  Ok (Some [97; 61; 64; 97; 44; 98; 61; 64; 98], Some ([97; 44; 98; 44; 99], [64; 97; 44; 64; 98; 44; 64; 99])).
Proof. vm_compute. auto. Qed.

Print Assumptions C45_data_partial.
Print Assumptions C45_error_partial.
Print Assumptions C45_data_refuted.
Print Assumptions C45_info_partial.
Print Assumptions C45_info_refuted.
Print Assumptions C56_compose.
