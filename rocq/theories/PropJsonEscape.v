(** Property C43: escaping a string for JSON. *)
From Coq Require Import ZArith List Bool Lia.
From Verif Require Import Base ArrayLemmas Utf8Proofs Json JsonSpec JsonPrintSpec JsonPrintLang JsonEscapeModel.
Import ListNotations.
Open Scope Z_scope.
Local Arguments Z.add : simpl never.
Local Arguments Z.of_nat : simpl never.
Local Arguments Z.to_nat : simpl never.

(** The full property: the result is the length of a text at the beginning of dest
    that between quotes denotes the string, and the rest of dest is free. *)
Definition denotes_in (s : text) (size : nat) (r : escaped_to) : Prop :=
  exists w rest, e_dest r = map Some w ++ rest /\ loose_chars w s /\ (valid_utf8 s -> chars w s) /\
    e_result r = Z.of_nat (length w) /\ e_next r = Z.of_nat (length w) /\ e_next_size r = Z.of_nat (length rest) /\
    (length w + length rest = size)%nat.
Definition C43_statement : Prop :=
  forall s dest, Forall (fun c => 0 <= c < 256) s -> (6 * length s <= length dest)%nat -> 6 * Z.of_nat (length s) < 2 ^ 31 ->
  Z.of_nat (length dest) < 2 ^ 64 ->
  exists r, escape_string s dest = Ok r /\ denotes_in s (length dest) r.

(** Strings without other control characters than \b \t \n \f \r *)
Definition mild (c : Z) : Prop := 0 <= c < 256 /\ (32 <= c \/ In c [8; 9; 10; 12; 13]).

Lemma put_ok : forall cs (pre rest : list (option Z)), (length cs <= length rest)%nat ->
  put_bytes (pre ++ rest) (Z.of_nat (length pre)) cs = Ok (pre ++ map Some cs ++ skipn (length cs) rest).
Proof.
  induction cs as [|c cs IH]; intros pre rest L; cbn [put_bytes map length skipn app]; [auto|]. destruct rest as [|x rest]; [cbn [length] in L; lia|].
  rewrite (aset_mid pre rest x (Some c)) by auto. cbn [bind].
  replace (pre ++ Some c :: rest) with ((pre ++ [Some c]) ++ rest) by (rewrite <- app_assoc; auto).
  replace (Z.of_nat (length pre) + 1) with (Z.of_nat (length (pre ++ [Some c]))) by (rewrite app_length; cbn [length]; lia).
  rewrite IH by (cbn [length] in L; lia). rewrite <- app_assoc. reflexivity.
Qed.
Lemma escaped_mild c : mild c -> (1 <= length (escaped c) <= 2)%nat.
Proof.
  intros (B & M). unfold escaped. repeat match goal with |- context [?a =? ?b] => destruct (Z.eqb_spec a b); [cbn [length]; lia|] end.
  destruct (Z.ltb_spec c 32); [|cbn [length]; lia]. destruct M as [M|M]; [lia|]. cbn [In] in M. lia.
Qed.
Lemma char_ok c pre rest : mild c -> (length (escaped c) <= length rest)%nat ->
  escape_char (map Some pre ++ rest) (Z.of_nat (length pre)) c =
  Ok (map Some (pre ++ escaped c) ++ skipn (length (escaped c)) rest, Z.of_nat (length (pre ++ escaped c))).
Proof.
  intros M L. pose proof M as (B & D).
  assert (P : forall cs, cs = escaped c -> put_bytes (map Some pre ++ rest) (Z.of_nat (length pre)) cs = Ok (map Some (pre ++ escaped c) ++ skipn (length (escaped c)) rest)).
  { intros cs ->. pose proof (put_ok (escaped c) (map Some pre) rest L) as X. rewrite map_length in X. rewrite X. rewrite map_app, <- app_assoc. auto. }
  assert (E2 : forall x, escaped c = [92; x] -> Z.of_nat (length (pre ++ escaped c)) = Z.of_nat (length pre) + 2) by (intros x E; rewrite E, app_length; cbn [length]; lia).
  assert (E1 : escaped c = [c] -> Z.of_nat (length (pre ++ escaped c)) = Z.of_nat (length pre) + 1) by (intros E; rewrite E, app_length; cbn [length]; lia).
  assert (G : forall x, escaped c = [92; x] -> bind (put_bytes (map Some pre ++ rest) (Z.of_nat (length pre)) [92; x]) (fun d => Ok (d, Z.of_nat (length pre) + 2)) =
    Ok (map Some (pre ++ escaped c) ++ skipn (length (escaped c)) rest, Z.of_nat (length (pre ++ escaped c)))).
  { intros x E. rewrite (P [92; x]) by auto. cbn [bind]. rewrite (E2 x) by auto. auto. }
  unfold escape_char. destruct (Z.ltb_spec c 128) as [Lc|Lc].
  - destruct (Z.eqb_spec c 34) as [->|N1]; [apply G; auto|]. destruct (Z.eqb_spec c 92) as [->|N2]; [apply G; auto|].
    destruct (Z.eqb_spec c 8) as [->|N3]; [apply G; auto|]. destruct (Z.eqb_spec c 12) as [->|N4]; [apply G; auto|].
    destruct (Z.eqb_spec c 10) as [->|N5]; [apply G; auto|]. destruct (Z.eqb_spec c 13) as [->|N6]; [apply G; auto|].
    destruct (Z.eqb_spec c 9) as [->|N7]; [apply G; auto|]. assert (L32 : 32 <= c) by (destruct D as [D|D]; [auto|cbn [In] in D; lia]).
    destruct (Z.leb_spec c 31); [lia|]. rewrite andb_false_r. pose proof (escaped_plain c L32 N1 N2) as E. rewrite (P [c]) by auto. cbn [bind]. rewrite E1 by auto. auto.
  - repeat match goal with |- context [?a - 256 =? ?b] => destruct (Z.eqb_spec (a - 256) b); [lia|] end.
    destruct (Z.leb_spec 0 (c - 256)); [lia|]. cbn [andb]. assert (E : escaped c = [c]) by (apply escaped_plain; lia). rewrite (P [c]) by auto. cbn [bind]. rewrite E1 by auto. auto.
Qed.
Lemma loop_ok : forall s pre rest, Forall mild s -> (length (flat_map escaped s) <= length rest)%nat -> Z.of_nat (length (pre ++ flat_map escaped s)) < 2 ^ 31 ->
  escape_loop (map Some pre ++ rest) (Z.of_nat (length pre)) s =
  Ok (map Some (pre ++ flat_map escaped s) ++ skipn (length (flat_map escaped s)) rest, Z.of_nat (length (pre ++ flat_map escaped s))).
Proof.
  induction s as [|c s IH]; intros pre rest F L B; cbn [escape_loop flat_map length skipn]; [rewrite app_nil_r; reflexivity|]. cbn [flat_map] in L, B. rewrite app_length in L.
  rewrite char_ok; [|exact (Forall_inv F)|lia]. cbn [bind]. assert (B' := B). rewrite app_assoc, app_length in B'.
  destruct (Z.ltb_spec (Z.of_nat (length (pre ++ escaped c))) (2 ^ 31)) as [_|]; [|lia].
  rewrite IH; [|exact (Forall_inv_tail F)|rewrite skipn_length; lia|rewrite <- app_assoc; auto].
  rewrite <- !app_assoc, ArrayLemmas.skipn_skipn, (app_length (escaped c)), (Nat.add_comm (length (flat_map escaped s))). reflexivity.
Qed.
Lemma escaped_loose s : Forall mild s -> loose_chars (flat_map escaped s) s.
Proof.
  induction 1 as [|c s (B & M) F IH]; [constructor|]. cbn [flat_map].
  assert (G : forall e, escaped c = [92; e] -> In (e, c) escapes -> loose_chars (escaped c ++ flat_map escaped s) (c :: s)).
  { intros e E I. rewrite E. cbn [app]. apply lc_escape; auto. }
  destruct (Z.eq_dec c 34) as [->|N1]; [apply (G 34); cbn; auto 10|]. destruct (Z.eq_dec c 92) as [->|N2]; [apply (G 92); cbn; auto 10|].
  destruct M as [M|M]; [rewrite escaped_plain by auto; cbn [app]; apply lc_plain; auto; lia|].
  cbn [In] in M. destruct M as [<-|[<-|[<-|[<-|[<-|[]]]]]]; [apply (G 98)|apply (G 116)|apply (G 110)|apply (G 102)|apply (G 114)]; cbn; auto 10.
Qed.

(** What is missing: the other control characters (C43_control_refuted). *)
Theorem C43_escape_partial : forall s dest, Forall mild s ->
  (2 * length s <= length dest)%nat -> 2 * Z.of_nat (length s) < 2 ^ 31 -> Z.of_nat (length dest) < 2 ^ 64 ->
  exists r, escape_string s dest = Ok r /\ denotes_in s (length dest) r.
Proof.
  intros s dest F L B B2. assert (Ls : (length (flat_map escaped s) <= 2 * length s)%nat).
  { clear -F. induction F as [|c s M F IH]; [cbn; lia|]. cbn [flat_map]. rewrite app_length. pose proof (escaped_mild c M). cbn [length]. lia. }
  pose proof (loop_ok s [] dest F) as X. cbn [map app length] in X. change (Z.of_nat 0) with 0 in X. unfold escape_string. rewrite X by lia. cbn [bind].
  eexists. split; [reflexivity|]. exists (flat_map escaped s), (skipn (length (flat_map escaped s)) dest). cbn [e_dest e_result e_next e_next_size].
  split; [auto|]. split; [apply escaped_loose; auto|]. split; [apply chars_escaped|]. split; [auto|]. split; [auto|]. rewrite skipn_length.
  split; [|lia]. unfold wrap. rewrite Z.mod_small by lia. lia.
Qed.
(** a, quote, newline, backslash, a character of two bytes *)
Example C43_example : escape_string [97; 34; 10; 92; 195; 188] (repeat None 12) =
  Ok (EscapedTo (map Some [97; 92; 34; 92; 110; 92; 92; 195; 188] ++ [None; None; None]) 9 9 3).
Proof. reflexivity. Qed.

(** A control character is written as \u00 and two digits that are overwritten: the
    text of one alone is no string body. *)
Theorem C43_control_refuted : forall c dest, 0 <= c < 32 -> ~ In c [8; 9; 10; 12; 13] -> (7 <= length dest)%nat -> Z.of_nat (length dest) < 2 ^ 64 ->
  exists r rest, escape_string [c] dest = Ok r /\ e_result r = 4 /\ e_dest r = map Some [92; 117; 48; 48] ++ rest /\
    forall s, ~ loose_chars [92; 117; 48; 48] s.
Proof.
  intros c dest B N L B2. do 7 (destruct dest as [|? dest]; [cbn [length] in L; lia|]). cbn [In] in N.
  unfold escape_string, escape_loop, escape_char. destruct (Z.ltb_spec c 128); [|lia].
  repeat match goal with |- context [c =? ?b] => destruct (Z.eqb_spec c b); [lia|] end.
  destruct (Z.leb_spec 0 c); [|lia]. destruct (Z.leb_spec c 31); [|lia]. cbn [andb].
  match goal with |- context [put_bytes ?d 0 [92; 117]] => pose proof (put_ok [92; 117] [] d) as P0 end.
  cbn [length app] in P0. change (Z.of_nat 0) with 0 in P0. rewrite P0 by lia. clear P0. cbn [bind app map skipn length].
  assert (El : Z.of_nat (S (S (S (S (S (S (S (length dest)))))))) - 0 - 2 = Z.of_nat (length dest) + 5) by lia.
  rewrite El. unfold wrap. cbn [length] in B2. rewrite Z.mod_small by lia. unfold snprintf_04x. destruct (Z.eqb_spec (Z.of_nat (length dest) + 5) 0); [lia|].
  replace (Z.min (Z.of_nat (length dest) + 5 - 1) 4) with 4 by lia. change (Z.to_nat 4) with 4%nat. cbn [firstn app].
  match goal with |- context [put_bytes (Some 92 :: Some 117 :: ?r) _ ?cs] => pose proof (put_ok cs [Some 92; Some 117] r) as P end.
  cbn [length app] in P. change (Z.of_nat 2) with (0 + 2) in P. rewrite P by lia. cbn [bind map app skipn].
  change (0 + 4 <? 2 ^ 31) with true. cbn iota. cbn [bind]. eexists. eexists. split; [reflexivity|]. split; [reflexivity|]. split; [reflexivity|].
  clear. intros s Lc.
  assert (H4 : forall h x w, hex4 h x -> [48; 48] <> h ++ w).
  { intros h x w (a & b & c' & d & va & vb & vc & vd & -> & _). destruct w; discriminate. }
  remember [92; 117; 48; 48] as v eqn:Ev. destruct Lc as [|c0 w s0 R1 R2 R3 R4|e c0 w s0 I R4|h x w s0 H1 H2 H3 R4|h1 h2 hi lo w s0 H1 H2 H3 H4' R4|h x H1 H2].
  - discriminate.
  - congruence.
  - injection Ev as -> _. cbn [In escapes] in I. repeat (destruct I as [I|I]; [discriminate|]). destruct I.
  - apply (H4 h x w H1). congruence.
  - apply (H4 h1 hi (92 :: 117 :: h2 ++ w) H1). congruence.
  - apply (H4 h x [] H1). rewrite app_nil_r. congruence.
Qed.
(** So for any string the text is right except that each \u00xx is cut to four bytes; the
    digits need room all the same. *)
Definition cut (c : Z) : text := firstn 4 (escaped c).
Lemma char_exact c pre rest : 0 <= c < 256 -> (7 <= length rest)%nat -> Z.of_nat (length pre + length rest) < 2 ^ 64 ->
  exists rest', escape_char (map Some pre ++ rest) (Z.of_nat (length pre)) c = Ok (map Some (pre ++ cut c) ++ rest', Z.of_nat (length (pre ++ cut c))) /\
    (length (cut c) + length rest' = length rest)%nat.
Proof.
  intros B L B2. destruct (Z_lt_dec c 32) as [Lc|Lc]; [destruct (in_dec Z.eq_dec c [8; 9; 10; 12; 13]) as [I|N]|].
  1, 3: assert (M : mild c) by (split; [lia|auto; left; lia]); pose proof (escaped_mild c M) as E; exists (skipn (length (escaped c)) rest);
    unfold cut; rewrite firstn_all2 by lia; split; [apply char_ok; [auto|lia]|rewrite skipn_length; lia].
  cbn [In] in N. assert (EC : cut c = [92; 117; 48; 48]).
  { unfold cut, escaped. repeat match goal with |- context [c =? ?b] => destruct (Z.eqb_spec c b); [lia|] end. destruct (Z.ltb_spec c 32); [reflexivity|lia]. }
  rewrite EC. do 7 (destruct rest as [|? rest]; [cbn [length] in L; lia|]). unfold escape_char. destruct (Z.ltb_spec c 128); [|lia].
  repeat match goal with |- context [c =? ?b] => destruct (Z.eqb_spec c b); [lia|] end.
  destruct (Z.leb_spec 0 c); [|lia]. destruct (Z.leb_spec c 31); [|lia]. cbn [andb].
  match goal with |- context [put_bytes (_ ++ ?d) _ [92; 117]] => pose proof (put_ok [92; 117] (map Some pre) d) as P0 end.
  rewrite map_length in P0. cbn [length] in P0. rewrite P0 by lia. clear P0. cbn [bind app map skipn].
  assert (El : wrap 64 (Z.of_nat (length (map Some pre ++ Some 92 :: Some 117 :: o1 :: o2 :: o3 :: o4 :: o5 :: rest)) - Z.of_nat (length pre) - 2) = Z.of_nat (length rest) + 5).
  { rewrite app_length, map_length. cbn [length] in *. unfold wrap. rewrite Z.mod_small; lia. }
  rewrite El. unfold snprintf_04x. destruct (Z.eqb_spec (Z.of_nat (length rest) + 5) 0); [lia|].
  replace (Z.min (Z.of_nat (length rest) + 5 - 1) 4) with 4 by lia. change (Z.to_nat 4) with 4%nat. cbn [firstn app].
  match goal with |- context [put_bytes _ _ ?cs] => pose proof (put_ok cs (map Some pre ++ [Some 92; Some 117]) (o1 :: o2 :: o3 :: o4 :: o5 :: rest)) as P end.
  rewrite app_length, map_length, <- app_assoc in P. cbn [length app] in P. replace (Z.of_nat (length pre) + 2) with (Z.of_nat (length pre + 2)) by lia.
  rewrite P by lia. cbn [bind map app skipn]. eexists. split.
  - rewrite <- app_assoc, map_app, <- app_assoc, app_length. cbn [map app length]. do 2 f_equal. lia.
  - cbn [length]. lia.
Qed.
Lemma cut_short c : (length (cut c) <= 4)%nat.
Proof. unfold cut. rewrite firstn_length. lia. Qed.
Lemma loop_exact : forall s pre rest, Forall (fun c => 0 <= c < 256) s -> (4 * length s + 3 <= length rest)%nat -> Z.of_nat (length pre) + 4 * Z.of_nat (length s) < 2 ^ 31 ->
  Z.of_nat (length pre + length rest) < 2 ^ 64 ->
  exists rest', escape_loop (map Some pre ++ rest) (Z.of_nat (length pre)) s = Ok (map Some (pre ++ flat_map cut s) ++ rest', Z.of_nat (length (pre ++ flat_map cut s))) /\
    (length (flat_map cut s) + length rest' = length rest)%nat.
Proof.
  induction s as [|c s IH]; intros pre rest F L B B2; cbn [escape_loop flat_map]; [exists rest; rewrite app_nil_r; auto|]. cbn [length] in L, B.
  destruct (char_exact c pre rest (Forall_inv F)) as (r1 & -> & L1); [lia|auto|]. cbn [bind]. pose proof (cut_short c) as C4.
  destruct (Z.ltb_spec (Z.of_nat (length (pre ++ cut c))) (2 ^ 31)) as [_|X]; [|rewrite app_length in X; lia].
  destruct (IH (pre ++ cut c) r1 (Forall_inv_tail F)) as (r2 & E2 & L2); [lia|rewrite app_length; lia|rewrite app_length; lia|].
  exists r2. rewrite <- app_assoc in E2. split; [exact E2|rewrite app_length; lia].
Qed.
Theorem C43_exact : forall s dest, Forall (fun c => 0 <= c < 256) s ->
  (4 * length s + 3 <= length dest)%nat -> 4 * Z.of_nat (length s) < 2 ^ 31 -> Z.of_nat (length dest) < 2 ^ 64 ->
  exists r rest, escape_string s dest = Ok r /\ e_dest r = map Some (flat_map cut s) ++ rest /\
    e_result r = Z.of_nat (length (flat_map cut s)) /\ e_next r = e_result r /\ e_next_size r = Z.of_nat (length rest) /\ (length (e_dest r) = length dest)%nat.
Proof.
  intros s dest F L B B2. destruct (loop_exact s [] dest F) as (rest & E & Lr); [auto|cbn [length]; lia|auto|]. cbn [map app length] in E. change (Z.of_nat 0) with 0 in E.
  unfold escape_string. rewrite E. cbn [bind]. eexists. exists rest. split; [reflexivity|]. cbn [e_dest e_result e_next e_next_size].
  split; [auto|]. split; [auto|]. split; [auto|]. split; [unfold wrap; rewrite Z.mod_small; lia|rewrite app_length, map_length; auto].
Qed.
(** a, the character 1, a newline, b *)
Example C43_exact_example : exists rest, escape_string [97; 1; 10; 98] (repeat None 19) =
  Ok (EscapedTo (map Some [97; 92; 117; 48; 48; 92; 110; 98] ++ rest) 8 8 11).
Proof. eexists. vm_compute. reflexivity. Qed.
Theorem C43_statement_refuted : ~ C43_statement.
Proof.
  intros S. destruct (S [1] (repeat None 8)) as (r & E & w & rest & Ed & Lc & _ & Er & _ & _ & _); [apply Forall_forall; intros x [<-|[]]; lia|cbn [length repeat In]; lia|cbn [length repeat In]; lia|cbn [length repeat In]; lia|].
  destruct (C43_control_refuted 1 (repeat None 8)) as (r' & rest' & E' & Er' & Ed' & N); [lia|cbn [length repeat In]; lia|cbn [length repeat In]; lia|cbn [length repeat In]; lia|].
  rewrite E in E'. injection E' as <-. rewrite Er in Er'. assert (Lw : length w = 4%nat) by lia. rewrite Ed in Ed'.
  do 4 (destruct w as [|? w]; [discriminate|]). destruct w; [|discriminate]. cbn in Ed'. injection Ed' as -> -> -> -> _. exact (N _ Lc).
Qed.
(** The size of dest is not respected: one quote does not fit in one byte. *)
Theorem C43_small_refuted : exists s dest, escape_string s dest = Bad OutOfBounds /\ dest <> [].
Proof. exists [34], [None]. split; [reflexivity|discriminate]. Qed.

Print Assumptions C43_escape_partial.
Print Assumptions C43_exact.
Print Assumptions C43_control_refuted.
