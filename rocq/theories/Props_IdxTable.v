(** Generated by tools/genprops.py from IdxTableFinal.v; only statements,
    each closed by the lemma of the same name with suffix _pf. *)
From Verif Require Import IdxTableSpec IdxTableFinal.

Theorem C01_single_ops_are_a_bounded_map :
  forall (T : Type) (sz : N) (r : table T) (os : list (op T)),
    1 <= sz < 2 ^ 64 -> reachable sz r -> forallb single_op os = true ->
    snd (run r os) = snd (spec_run sz (claimed r) os) /\
    claimed (fst (run r os)) = fst (spec_run sz (claimed r) os).
Proof. exact C01_single_ops_are_a_bounded_map_pf. Qed.
Print Assumptions C01_single_ops_are_a_bounded_map.

(** A table with three claimed ids meets the hypotheses, and both sides agree on
    a non-trivial list of calls with successes and failures. *)
Definition ex_table : table N :=
  fst (run (new_table 8) [OClaim 5 50; OClaimSize 2 7; ORelease 0]).
Definition ex_ops : list (op N) :=
  [OClaim 5 1; OClaim 2 22; OUpdate 2 23; OGet 2; OGet 0; OClaim 8 1; ORelease 5; OHas 5; OSize].
Example C01_example :
  (1 <= 8 < 2 ^ 64) /\ reachable 8 ex_table /\ forallb single_op ex_ops = true /\
  snd (run ex_table ex_ops) =
    [RUnit (Err EExists); RUnit (Ok tt); RUnit (Ok tt); REntry (Ok (NewEntry 2 23));
     REntry (Err ENoEntry); RUnit (Err EIdTooBig); RUnit (Ok tt); RBool false; RInt 2].
Proof. split; [split; [discriminate|reflexivity]|]. split; [by eexists|]. split; reflexivity. Qed.

(** NewTable(0) is the exception the quantifier of C01 leaves out: it behaves
    like a map over all uint64 ids. *)
Theorem C01_size_zero_accepts_every_uint64 :
  forall (T : Type) (r : table T) (os : list (op T)),
    reachable 0 r -> forallb single_op os = true ->
    snd (run r os) = snd (spec_run (2 ^ 64) (claimed r) os) /\
    claimed (fst (run r os)) = fst (spec_run (2 ^ 64) (claimed r) os).
Proof. exact C01_size_zero_accepts_every_uint64_pf. Qed.
Print Assumptions C01_size_zero_accepts_every_uint64.

Example C01_size_zero_example :
  snd (run (new_table 0 : table N) [OClaim 9 1; OGet 9]) = [RUnit (Ok tt); REntry (Ok (NewEntry 9 1))].
Proof. reflexivity. Qed.

(** Whatever the call, an error or crash means nothing changed; and no call of a
    sequential history crashes. *)
Theorem C01_failing_call_changes_nothing :
  forall (T : Type) (sz : N) (r : table T) (o : op T),
    sz < 2 ^ 64 -> reachable sz r ->
    failed (snd (step r o)) = true -> fst (step r o) = r.
Proof. exact C01_failing_call_changes_nothing_pf. Qed.
Print Assumptions C01_failing_call_changes_nothing.

Example C01_failing_example :
  failed (snd (step ex_table (OClaimSize 7 1))) = true /\
  failed (snd (step ex_table (OClaimRange 4 4 1))) = true.
Proof. split; reflexivity. Qed.

Theorem C01_no_call_crashes :
  forall (T : Type) (sz : N) (r : table T) (o : op T),
    1 <= sz < 2 ^ 64 -> reachable sz r -> crashed (snd (step r o)) = false.
Proof. exact C01_no_call_crashes_pf. Qed.
Print Assumptions C01_no_call_crashes.

Example C01_crash_example :
  map (fun o => crashed (snd (step ex_table o))) [OClaim (2 ^ 64 - 1) 1; OClaimRange 7 (2 ^ 64 - 1) 1; OClaimSize (2 ^ 64 - 1) 1; OUpdate 9 1; OGetAll] =
    [false; false; false; false; false].
Proof. vm_compute. reflexivity. Qed.

Theorem C02_claim_takes_a_free_id :
  forall (T : Type) (sz : N) (r : table T) (o : op T) (id : N),
    sz < 2 ^ 64 -> reachable sz r -> hands_out r o id ->
    claimed r !! id = None /\ claimed (fst (step r o)) !! id = claim_data o.
Proof. exact C02_claim_takes_a_free_id_pf. Qed.
Print Assumptions C02_claim_takes_a_free_id.

Example C02_hands_out_example :
  hands_out ex_table (OClaimSize 2 9) 0 /\ hands_out ex_table (OClaimSize 2 9) 2 /\
  hands_out ex_table (OClaimRange 2 2 9) 3 /\ hands_out ex_table (OClaimDynamic 9) 0.
Proof.
  split; [vm_compute; left|]. split; [vm_compute; right; left|].
  split; [vm_compute; by eauto|vm_compute; reflexivity].
Qed.

Theorem C02_claims_never_touch_claimed_ids :
  forall (T : Type) (sz : N) (r : table T) (o : op T) (id : N) (d : T),
    sz < 2 ^ 64 -> reachable sz r -> is_claim o = true ->
    claimed r !! id = Some d -> claimed (fst (step r o)) !! id = Some d.
Proof. exact C02_claims_never_touch_claimed_ids_pf. Qed.
Print Assumptions C02_claims_never_touch_claimed_ids.

Example C02_frame_example :
  claimed ex_table !! 5 = Some 50 /\ is_claim (OClaimSize 3 (9 : N)) = true.
Proof. split; reflexivity. Qed.

Theorem C02_id_never_handed_out_twice :
  forall (T : Type) (sz : N) (os1 os2 : list (op T)) (o1 o2 : op T) (id : N),
    sz < 2 ^ 64 ->
    hands_out (fst (run (new_table sz) os1)) o1 id ->
    hands_out (fst (run (new_table sz) (os1 ++ [o1] ++ os2))) o2 id ->
    ORelease id ∈ os2.
Proof. exact C02_id_never_handed_out_twice_pf. Qed.
Print Assumptions C02_id_never_handed_out_twice.

Example C02_twice_example :
  let os1 : list (op N) := [OClaim 1 1] in
  hands_out (fst (run (new_table 4) os1)) (OClaimDynamic 2) 0 /\
  hands_out (fst (run (new_table 4) (os1 ++ [OClaimDynamic 2] ++ [OSize; ORelease 0]))) (OClaimSize 1 3) 0.
Proof. split; vm_compute; [reflexivity|left]. Qed.

Theorem C03_claimed_ids_in_range_partial :
  forall (T : Type) (sz : N) (r : table T) (id : N),
    1 <= sz < 2 ^ 64 -> reachable sz r -> is_Some (claimed r !! id) ->
    id < sz /\ N.of_nat (size (claimed r)) <= sz.
Proof. exact C03_claimed_ids_in_range_partial_pf. Qed.
Print Assumptions C03_claimed_ids_in_range_partial.

Example C03_example : is_Some (claimed ex_table !! 5) /\ size (claimed ex_table) = 2%nat.
Proof. split; [vm_compute; eauto|reflexivity]. Qed.

Theorem C03_claimed_ids_in_range_refuted :
  exists (sz : N) (r : table unit) (id : N),
    sz < 2 ^ 64 /\ reachable sz r /\ is_Some (claimed r !! id) /\ ~ id < sz.
Proof. exact C03_claimed_ids_in_range_refuted_pf. Qed.
Print Assumptions C03_claimed_ids_in_range_refuted.

Theorem C04_claim_dynamic_takes_lowest_free :
  forall (T : Type) (sz : N) (r : table T) (d : T),
    sz < 2 ^ 64 -> reachable sz r ->
    (exists id r', lowest_unclaimed sz (claimed r) id /\
       step r (OClaimDynamic d) = (r', REntry (Ok (NewEntry id d))) /\
       claimed r' = <[id := d]> (claimed r) /\
       step r OFindFree = (r, RId (Ok id))) \/
    ((forall id, ~ unclaimed sz (claimed r) id) /\
       step r (OClaimDynamic d) = (r, REntry (Err ENoFree)) /\
       step r OFindFree = (r, RId (Err ENoFree))).
Proof. exact C04_claim_dynamic_takes_lowest_free_pf. Qed.
Print Assumptions C04_claim_dynamic_takes_lowest_free.

Example C04_example :
  snd (step (fst (run (new_table 3) [OClaim 0 1; OClaim 2 1])) (OClaimDynamic 5)) =
    REntry (Ok (NewEntry 1 5)) /\
  snd (step (fst (run (new_table 2) [OClaim 0 1; OClaim 1 1])) (OClaimDynamic 5)) = REntry (Err ENoFree).
Proof. split; reflexivity. Qed.

Theorem C05_claim_size_takes_n_lowest :
  forall (T : Type) (sz : N) (r : table T) (n : N) (d : T),
    sz < 2 ^ 64 -> reachable sz r -> 1 <= n ->
    (exists ids r', at_least_free sz (claimed r) n /\
       lowest_n sz (claimed r) n ids /\
       step r (OClaimSize n d) = (r', REntries (Ok (map (fun i => NewEntry i d) ids))) /\
       claimed r' = claim_all (claimed r) ids d /\
       step r (OFindFreeSize n) = (r, RIds (Ok ids))) \/
    (~ at_least_free sz (claimed r) n /\
       (exists e, step r (OClaimSize n d) = (r, REntries (Err e))) /\
       (exists e, step r (OFindFreeSize n) = (r, RIds (Err e)))).
Proof. exact C05_claim_size_takes_n_lowest_pf. Qed.
Print Assumptions C05_claim_size_takes_n_lowest.

Example C05_example :
  snd (step ex_table (OClaimSize 3 9)) =
    REntries (Ok [NewEntry 0 9; NewEntry 2 9; NewEntry 3 9]) /\
  snd (step ex_table (OClaimSize 7 9)) = REntries (Err ENoSize).
Proof. split; reflexivity. Qed.

Theorem C05_claim_size_zero_is_an_error :
  forall (T : Type) (sz : N) (r : table T) (d : T),
    sz < 2 ^ 64 -> reachable sz r ->
    exists e, step r (OClaimSize 0 d) = (r, REntries (Err e)).
Proof. exact C05_claim_size_zero_is_an_error_pf. Qed.
Print Assumptions C05_claim_size_zero_is_an_error.

Example C05_zero_example : snd (step ex_table (OClaimSize 0 9)) = REntries (Err ENoSize).
Proof. vm_compute. reflexivity. Qed.

Theorem C06_claim_range_all_or_nothing :
  forall (T : Type) (sz : N) (r : table T) (start n : N) (d : T),
    sz < 2 ^ 64 -> reachable sz r ->
    (exists e, step r (OClaimRange start n d) = (r, RUnit (Err e))) \/
    (exists ids r', step r (OClaimRange start n d) = (r', RUnit (Ok tt)) /\
       step r (OFindFreeRange start n) = (r, RIds (Ok ids)) /\
       ascending ids /\ (forall id, id ∈ ids -> unclaimed sz (claimed r) id) /\
       claimed r' = claim_all (claimed r) ids d).
Proof. exact C06_claim_range_all_or_nothing_pf. Qed.
Print Assumptions C06_claim_range_all_or_nothing.

Example C06_example :
  snd (step ex_table (OClaimRange 2 3 9)) = RUnit (Ok tt) /\
  snd (step ex_table (OClaimRange (2 ^ 64 - 1) 3 9)) = RUnit (Err EStartTooBig).
Proof. split; reflexivity. Qed.

Theorem C06_claim_size_all_or_nothing :
  forall (T : Type) (sz : N) (r : table T) (n : N) (d : T),
    sz < 2 ^ 64 -> reachable sz r ->
    (exists e, step r (OClaimSize n d) = (r, REntries (Err e))) \/
    (exists ids r', step r (OClaimSize n d) = (r', REntries (Ok (map (fun i => NewEntry i d) ids))) /\
       ascending ids /\ (forall id, id ∈ ids -> unclaimed sz (claimed r) id) /\
       claimed r' = claim_all (claimed r) ids d).
Proof. exact C06_claim_size_all_or_nothing_pf. Qed.
Print Assumptions C06_claim_size_all_or_nothing.

Example C06_size_example :
  claimed (fst (step ex_table (OClaimSize 6 9))) = claim_all (claimed ex_table) [0; 2; 3; 4; 6; 7] 9 /\
  step ex_table (OClaimSize 7 9) = (ex_table, REntries (Err ENoSize)).
Proof. split; [apply (bool_decide_unpack _); vm_compute; exact I|vm_compute; reflexivity]. Qed.

(** Exactly what the code does.  Let E be the larger of start+n-1 (computed
    modulo 2^64) and start+1.  The call succeeds iff start and start+n-1 pass the
    range checks, the unclaimed ids of [start,E) are an initial segment of it, and
    some id at or above E is unclaimed; it then claims that segment and the first
    unclaimed id at or above E. *)
Theorem C07_claim_range_exact_behaviour :
  forall (T : Type) (sz : N) (r : table T) (start n : N) (d : T) (ids : list N),
    1 <= sz < 2 ^ 64 -> reachable sz r -> start < 2 ^ 64 -> n < 2 ^ 64 ->
    let last := (start + n + (2 ^ 64 - 1)) mod 2 ^ 64 in
    let E := N.max last (start + 1) in
    step r (OFindFreeRange start n) = (r, RIds (Ok ids)) <->
    start < sz /\ last < sz /\
    exists k f, start + N.of_nat k <= E /\
      (forall x, start <= x < E -> (unclaimed sz (claimed r) x <-> x < start + N.of_nat k)) /\
      E <= f /\ unclaimed sz (claimed r) f /\
      (forall j, E <= j < f -> ~ unclaimed sz (claimed r) j) /\
      ids = ids_from start k ++ [f].
Proof. exact C07_claim_range_exact_behaviour_pf. Qed.
Print Assumptions C07_claim_range_exact_behaviour.

Example C07_exact_example :
  snd (step ex_table (OFindFreeRange 2 3)) = RIds (Ok [2; 3; 4]) /\
  snd (step ex_table (OFindFreeRange 2 4)) = RIds (Ok [2; 3; 4; 6]) /\
  snd (step ex_table (OFindFreeRange 4 4)) = RIds (Err EInUse).
Proof. repeat split; reflexivity. Qed.

(** The part of C07 that holds: a request of at least two ids that are all free
    is served exactly. *)
Theorem C07_claim_range_served_exactly_partial :
  forall (T : Type) (sz : N) (r : table T) (start n : N) (d : T),
    1 <= sz < 2 ^ 64 -> reachable sz r -> 2 <= n -> start + n <= sz ->
    (forall id, start <= id < start + n -> unclaimed sz (claimed r) id) ->
    exists r', step r (OClaimRange start n d) = (r', RUnit (Ok tt)) /\
      step r (OFindFreeRange start n) = (r, RIds (Ok (ids_from start (N.to_nat n)))) /\
      forall id, claimed r' !! id =
        if decide (start <= id < start + n) then Some d else claimed r !! id.
Proof. exact C07_claim_range_served_exactly_partial_pf. Qed.
Print Assumptions C07_claim_range_served_exactly_partial.

Example C07_served_example :
  2 <= 3 /\ 2 + 3 <= 8 /\ forall id, 2 <= id < 2 + 3 -> unclaimed 8 (claimed ex_table) id.
Proof.
  split; [discriminate|]. split; [discriminate|]. intros id [H1 H2].
  assert (id = 2 \/ id = 3 \/ id = 4) as [->|[->| ->]]; [|split; reflexivity..].
  destruct (N.eq_dec id 2); [by left|]. destruct (N.eq_dec id 3); [right; by left|]. right; right.
  apply N.le_antisymm; [by apply N.lt_succ_r|].
  assert (3 <= id) by (apply (N.le_succ_l 2), N.le_neq; split; [done|congruence]).
  apply (N.le_succ_l 3), N.le_neq. split; [done|congruence].
Qed.

(** ... and a request that does not fit the table is always refused. *)
Theorem C07_oversized_request_refused_partial :
  forall (T : Type) (sz : N) (r : table T) (start n : N) (d : T),
    1 <= sz < 2 ^ 64 -> reachable sz r -> start + n < 2 ^ 64 -> sz < start + n ->
    exists e, step r (OClaimRange start n d) = (r, RUnit (Err e)).
Proof. exact C07_oversized_request_refused_partial_pf. Qed.
Print Assumptions C07_oversized_request_refused_partial.

Example C07_oversized_example : snd (step ex_table (OClaimRange 6 3 9)) = RUnit (Err EEndTooBig).
Proof. reflexivity. Qed.

(** C07 as stated is false: the last requested id is in use and the call claims
    another id instead; a request for one id claims two. *)
Theorem C07_claim_range_refuted :
  (exists (r : table unit) start n, reachable 10 r /\ 1 <= n /\ start + n <= 10 /\
     ~ (forall id, start <= id < start + n -> unclaimed 10 (claimed r) id) /\
     snd (step r (OClaimRange start n tt)) = RUnit (Ok tt)) /\
  (exists (r : table unit) start n id, reachable 10 r /\ 1 <= n /\ start + n <= 10 /\
     (forall id, start <= id < start + n -> unclaimed 10 (claimed r) id) /\
     hands_out r (OClaimRange start n tt) id /\ ~ (start <= id < start + n)) /\
  (exists (r : table unit) start n, reachable 10 r /\ 1 <= n /\ start + n <= 10 /\
     (forall id, start <= id < start + n -> unclaimed 10 (claimed r) id) /\
     failed (snd (step r (OClaimRange start n tt))) = true) /\
  (exists (r : table unit) start, reachable 10 r /\
     snd (step r (OClaimRange start 0 tt)) = RUnit (Ok tt)).
Proof. exact C07_claim_range_refuted_pf. Qed.
Print Assumptions C07_claim_range_refuted.

Theorem C08_iterate_enumerates_claimed_ids :
  forall (T : Type) (sz : N) (r : table T),
    sz < 2 ^ 64 -> reachable sz r -> (sz = 0 -> N.of_nat (size (claimed r)) < 2 ^ 64) ->
    exists l, step r OIterate = (r, RIds (Ok l)) /\
      ascending l /\ (forall id, id ∈ l <-> is_Some (claimed r !! id)) /\
      exists es, step r OGetAll = (r, RValues (Ok es)) /\
        length es = length l /\
        forall i id, l !! i = Some id ->
          exists d, claimed r !! id = Some d /\ es !! i = Some (Some (NewEntry id d)).
Proof. exact C08_iterate_enumerates_claimed_ids_pf. Qed.
Print Assumptions C08_iterate_enumerates_claimed_ids.

Example C08_example :
  snd (step ex_table OIterate) = RIds (Ok [1; 5]) /\
  snd (step ex_table OGetAll) = RValues (Ok [Some (NewEntry 1 7); Some (NewEntry 5 50)]).
Proof. split; reflexivity. Qed.

Theorem C08_iterate_free_enumerates_unclaimed_ids :
  forall (T : Type) (sz : N) (r : table T),
    sz < 2 ^ 64 -> reachable sz r ->
    exists l, step r OIterateFree = (r, RIds (Ok l)) /\
      ascending l /\ (forall id, id ∈ l <-> unclaimed sz (claimed r) id).
Proof. exact C08_iterate_free_enumerates_unclaimed_ids_pf. Qed.
Print Assumptions C08_iterate_free_enumerates_unclaimed_ids.

Example C08_free_example : snd (step ex_table OIterateFree) = RIds (Ok [0; 2; 3; 4; 6; 7]).
Proof. reflexivity. Qed.

Theorem C09_claimed_plus_free_is_everything :
  forall (T : Type) (sz : N) (r : table T),
    1 <= sz < 2 ^ 64 -> reachable sz r ->
    exists n used free, step r OSize = (r, RInt n) /\
      step r OIterate = (r, RIds (Ok used)) /\
      step r OIterateFree = (r, RIds (Ok free)) /\
      N.of_nat n + N.of_nat (length free) = sz /\ length used = n /\
      forall id, id < sz -> (id ∈ used <-> id ∉ free).
Proof. exact C09_claimed_plus_free_is_everything_pf. Qed.
Print Assumptions C09_claimed_plus_free_is_everything.

Example C09_everything_example :
  map (fun o => snd (step ex_table o)) [OSize; OIterate; OIterateFree] = [RInt 2; RIds (Ok [1; 5]); RIds (Ok [0; 2; 3; 4; 6; 7])].
Proof. vm_compute. reflexivity. Qed.

Theorem C10_released_id_can_be_claimed_again :
  forall (T : Type) (sz : N) (r : table T) (id : N) (d : T),
    1 <= sz < 2 ^ 64 -> reachable sz r -> id < sz ->
    exists r1 r2, step r (ORelease id) = (r1, RUnit (Ok tt)) /\
      step r1 (OIsFree id) = (r1, RBool true) /\
      step r1 (OClaim id d) = (r2, RUnit (Ok tt)) /\
      step r2 (OGet id) = (r2, REntry (Ok (NewEntry id d))) /\
      (claimed r !! id = None -> claimed r1 = claimed r) /\
      (forall j, j <> id -> claimed r1 !! j = claimed r !! j /\ claimed r2 !! j = claimed r !! j).
Proof. exact C10_released_id_can_be_claimed_again_pf. Qed.
Print Assumptions C10_released_id_can_be_claimed_again.

Example C10_again_example :
  snd (run ex_table [ORelease 5; OIsFree 5; OClaim 5 9; OGet 5; OGet 1; ORelease 4; OClaim 4 8]) =
    [RUnit (Ok tt); RBool true; RUnit (Ok tt); REntry (Ok (NewEntry 5 9)); REntry (Ok (NewEntry 1 7)); RUnit (Ok tt); RUnit (Ok tt)].
Proof. vm_compute. reflexivity. Qed.

Theorem C10_claim_then_release_restores :
  forall (T : Type) (sz : N) (r : table T) (id : N) (d : T),
    1 <= sz < 2 ^ 64 -> reachable sz r -> id < sz -> claimed r !! id = None ->
    exists r1 r2, step r (OClaim id d) = (r1, RUnit (Ok tt)) /\
      step r1 (ORelease id) = (r2, RUnit (Ok tt)) /\ r2 = r.
Proof. exact C10_claim_then_release_restores_pf. Qed.
Print Assumptions C10_claim_then_release_restores.

Example C10_example : claimed ex_table !! 4 = None /\ 4 < 8.
Proof. split; reflexivity. Qed.

Theorem C11_open_iterator :
  forall (T : Type) (sz : N) (r : table T) (oss : list (list (op T))),
    sz < 2 ^ 64 -> reachable sz r -> (sz = 0 -> N.of_nat (size (claimed r)) < 2 ^ 64) ->
    exists ks ps,
      ascending ks /\ (forall id, id ∈ ks <-> is_Some (claimed r !! id)) /\
      walk r (iterate r) oss = Ok ps /\
      map fst ps = take (length oss) ks /\
      forall i id v, ps !! i = Some (id, v) ->
        v = (fun d => NewEntry id d) <$> claimed (fst (run r (concat (take (S i) oss)))) !! id.
Proof. exact C11_open_iterator_pf. Qed.
Print Assumptions C11_open_iterator.

(** Ids 1 and 5 are claimed when the iterator is opened; before the second Next,
    5 is released and 6 claimed: the iterator still yields 5, with a nil value. *)
Example C11_example :
  walk ex_table (iterate ex_table) [[OUpdate 1 8]; [ORelease 5; OClaim 6 6]; []] =
    Ok [(1, Some (NewEntry 1 8)); (5, None)].
Proof. reflexivity. Qed.

(** IsConsecutive of both iterators, before and after every call of Next. *)
Theorem C75_is_consecutive :
  forall (T : Type) (sz : N) (r : table T) (it : iterator) (ids : N -> Prop),
    sz < 2 ^ 64 -> reachable sz r -> (sz = 0 -> N.of_nat (size (claimed r)) < 2 ^ 64) ->
    it = iterate r /\ ids = (fun id => is_Some (claimed r !! id)) \/
    it = iterate_free r /\ ids = unclaimed sz (claimed r) ->
    iter_is_consecutive it = Panic /\
    exists ks, ascending ks /\ (forall id, id ∈ ks <-> ids id) /\
      forall k, N.of_nat k < 2 ^ 64 ->
        snd (iter_next (nexts k it)) = (k <? length ks)%nat /\
        match ks !! k with
        | Some y => iter_id (nexts (S k) it) = Ok y /\
            exists b, iter_is_consecutive (nexts (S k) it) = Ok b /\ (b = true <-> exists x, ids x /\ x + 1 = y)
        | None => iter_id (nexts (S k) it) = Panic /\
            iter_is_consecutive (nexts (S k) it) = if (k =? 0)%nat then Ok false else Panic
        end.
Proof. exact C75_is_consecutive_pf. Qed.
Print Assumptions C75_is_consecutive.

(** Unclaimed are 0, 2, 3, 4, 6, 7. *)
Example C75_example :
  map (fun k => iter_is_consecutive (nexts k (iterate_free ex_table))) (seq 1 7) =
    [Ok false; Ok false; Ok true; Ok true; Ok false; Ok true; Panic].
Proof. reflexivity. Qed.
