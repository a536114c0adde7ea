(** C10, C11: cee_dict on the musl hash table. *)
From Coq Require Import ZArith List Bool Lia.
From Verif Require Import Base HsearchModel HsearchProofs.
Import ListNotations.
Open Scope Z_scope.

(** C10: a dictionary made with any table size and filled by any list of adds
    answers every lookup with the value of the first add of that key, NULL if
    there was none.  Key and value lists record every add, in order. *)
Theorem C10_dict_first_add_wins : forall V (n : Z) (adds : list (hkey * option V)),
  0 <= n < 2 ^ 64 -> Z.of_nat (length adds) <= 2 ^ 61 ->
  exists d0 d, dict_mk V n = Ok d0 /\ dict_adds d0 adds = Ok d /\
    (forall key pre v rest, adds = pre ++ (key, v) :: rest -> ~ In key (map fst pre) ->
       dict_find V d key = Ok v) /\
    (forall key, ~ In key (map fst adds) -> dict_find V d key = Ok None) /\
    d_keys d = map fst adds /\ d_vals d = map snd adds.
Proof. exact (fun V n adds => dict_history n adds). Qed.

(** Ten adds into an 8-slot table: the table grows; [8], [16] and [24] collide;
    the second add of [8] is ignored by lookups. *)
Example C10_example :
  exists d0 d, dict_mk Z 0 = Ok d0 /\
  dict_adds d0 [([8], Some 1); ([16], Some 2); ([24], Some 3); ([1; 2], Some 4); ([8], Some 5);
                ([], Some 6); ([9], Some 7); ([17], Some 8); ([25], Some 9); ([26], None)] = Ok d /\
  h_mask (d_tab d0) = 7 /\ h_mask (d_tab d) = 15 /\
  dict_find Z d [8] = Ok (Some 1) /\ dict_find Z d [24] = Ok (Some 3) /\ dict_find Z d [] = Ok (Some 6) /\
  dict_find Z d [25] = Ok (Some 9) /\ dict_find Z d [33] = Ok None.
Proof. do 2 eexists. split; [vm_compute; reflexivity|]. split; [vm_compute; reflexivity|]. repeat split. Qed.

(** C11: the probe sequence meets every slot of a table whatever its contents:
    if some slot can stop the search, the search stops. *)
Theorem C11_probe_covers_table : forall V k (es : list (option (hentry V))) h s x stop,
  3 <= k <= 63 -> Z.of_nat (length es) = 2 ^ k -> 0 <= h < 2 ^ 64 ->
  nth_error es s = Some x -> stop x = true ->
  exists i y, probe V (slots (2 ^ k - 1)) es (2 ^ k - 1) h 1 stop = Ok i /\
    nth_error es (Z.to_nat i) = Some y /\ stop y = true.
Proof. exact (fun V => probe_covers (V := V)). Qed.

(** C11: every reachable table has a power-of-two size and is at most three
    quarters full, so every lookup, of any key, ends. *)
Theorem C11_lookup_terminates : forall V n (adds : list (hkey * option V)) d0 d,
  0 <= n < 2 ^ 64 -> Z.of_nat (length adds) <= 2 ^ 61 ->
  dict_mk V n = Ok d0 -> dict_adds d0 adds = Ok d ->
  let t := d_tab d in
  (exists k, 3 <= k <= 63 /\ Z.of_nat (length (h_entries t)) = 2 ^ k) /\
  4 * Z.of_nat (length (somes (h_entries t))) <= 3 * Z.of_nat (length (h_entries t)) /\
  In None (h_entries t) /\
  forall key, exists i, lookup V key (keyhash key) t = Ok i.
Proof. exact (fun V => dict_load (V := V)). Qed.

(** The only free slot of a table of 8 is found from a far away hash: probing
    with a wrong step (here every second slot) would never meet it. *)
Example C11_example :
  probe Z (slots 7) [Some ([1], None); Some ([1], None); Some ([1], None); None;
     Some ([1], None); Some ([1], None); Some ([1], None); Some ([1], None)] 7 12 1
     (fun s => match s with None => true | Some _ => false end) = Ok 3.
Proof. vm_compute. reflexivity. Qed.

Print Assumptions C10_dict_first_add_wins.
Print Assumptions C11_probe_covers_table.
Print Assumptions C11_lookup_terminates.
