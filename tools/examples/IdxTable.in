(*@ C01_single_ops_are_a_bounded_map *)
(** A table with three claimed ids meets the hypotheses, and both sides agree on
    a non-trivial list of calls with successes and failures. *)
Definition ex_table : table N :=
  fst (run (new_table 8) [OClaim 5 50; OClaimSize 2 7; ORelease 0]).
Definition ex_ops : list (op N) :=
  [OClaim 5 1; OClaim 2 22; OUpdate 2 23; OGet 2; OGet 0; OClaim 8 1; ORelease 5; OHas 5; OSize].
Example C01_example :
  (1 <= 8 < 2 ^ 64) /\ reachable 8 ex_table /\ forallb single_op ex_ops = true /\
  snd (run ex_table ex_ops) =
    [RUnit (Err EExists); RUnit (Ok tt); RUnit (Ok tt); REntry (Ok (NewEntry 2 23));
     REntry (Err ENoEntry); RUnit (Err EIdTooBig); RUnit (Ok tt); RBool false; RInt 2].
Proof. split; [split; [discriminate|reflexivity]|]. split; [by eexists|]. split; reflexivity. Qed.
(*@ C01_size_zero_accepts_every_uint64 *)
Example C01_size_zero_example :
  snd (run (new_table 0 : table N) [OClaim 9 1; OGet 9]) = [RUnit (Ok tt); REntry (Ok (NewEntry 9 1))].
Proof. reflexivity. Qed.
(*@ C01_failing_call_changes_nothing *)
Example C01_failing_example :
  failed (snd (step ex_table (OClaimSize 7 1))) = true /\
  failed (snd (step ex_table (OClaimRange 4 4 1))) = true.
Proof. split; reflexivity. Qed.
(*@ C02_claim_takes_a_free_id *)
Example C02_hands_out_example :
  hands_out ex_table (OClaimSize 2 9) 0 /\ hands_out ex_table (OClaimSize 2 9) 2 /\
  hands_out ex_table (OClaimRange 2 2 9) 3 /\ hands_out ex_table (OClaimDynamic 9) 0.
Proof.
  split; [vm_compute; left|]. split; [vm_compute; right; left|].
  split; [vm_compute; by eauto|vm_compute; reflexivity].
Qed.
(*@ C02_claims_never_touch_claimed_ids *)
Example C02_frame_example :
  claimed ex_table !! 5 = Some 50 /\ is_claim (OClaimSize 3 (9 : N)) = true.
Proof. split; reflexivity. Qed.
(*@ C02_id_never_handed_out_twice *)
Example C02_twice_example :
  let os1 : list (op N) := [OClaim 1 1] in
  hands_out (fst (run (new_table 4) os1)) (OClaimDynamic 2) 0 /\
  hands_out (fst (run (new_table 4) (os1 ++ [OClaimDynamic 2] ++ [OSize; ORelease 0]))) (OClaimSize 1 3) 0.
Proof. split; vm_compute; [reflexivity|left]. Qed.
(*@ C03_claimed_ids_in_range_partial *)
Example C03_example : is_Some (claimed ex_table !! 5) /\ size (claimed ex_table) = 2%nat.
Proof. split; [vm_compute; eauto|reflexivity]. Qed.
(*@ C04_claim_dynamic_takes_lowest_free *)
Example C04_example :
  snd (step (fst (run (new_table 3) [OClaim 0 1; OClaim 2 1])) (OClaimDynamic 5)) =
    REntry (Ok (NewEntry 1 5)) /\
  snd (step (fst (run (new_table 2) [OClaim 0 1; OClaim 1 1])) (OClaimDynamic 5)) = REntry (Err ENoFree).
Proof. split; reflexivity. Qed.
(*@ C05_claim_size_takes_n_lowest *)
Example C05_example :
  snd (step ex_table (OClaimSize 3 9)) =
    REntries (Ok [NewEntry 0 9; NewEntry 2 9; NewEntry 3 9]) /\
  snd (step ex_table (OClaimSize 7 9)) = REntries (Err ENoSize).
Proof. split; reflexivity. Qed.
(*@ C06_claim_range_all_or_nothing *)
Example C06_example :
  snd (step ex_table (OClaimRange 2 3 9)) = RUnit (Ok tt) /\
  snd (step ex_table (OClaimRange (2 ^ 64 - 1) 3 9)) = RUnit (Err EStartTooBig).
Proof. split; reflexivity. Qed.
(*@ C07_claim_range_exact_behaviour *)
Example C07_exact_example :
  snd (step ex_table (OFindFreeRange 2 3)) = RIds (Ok [2; 3; 4]) /\
  snd (step ex_table (OFindFreeRange 2 4)) = RIds (Ok [2; 3; 4; 6]) /\
  snd (step ex_table (OFindFreeRange 4 4)) = RIds (Err EInUse).
Proof. repeat split; reflexivity. Qed.
(*@ C07_claim_range_served_exactly_partial *)
Example C07_served_example :
  2 <= 3 /\ 2 + 3 <= 8 /\ forall id, 2 <= id < 2 + 3 -> unclaimed 8 (claimed ex_table) id.
Proof.
  split; [discriminate|]. split; [discriminate|]. intros id [H1 H2].
  assert (id = 2 \/ id = 3 \/ id = 4) as [->|[->| ->]]; [|split; reflexivity..].
  destruct (N.eq_dec id 2); [by left|]. destruct (N.eq_dec id 3); [right; by left|]. right; right.
  apply N.le_antisymm; [by apply N.lt_succ_r|].
  assert (3 <= id) by (apply (N.le_succ_l 2), N.le_neq; split; [done|congruence]).
  apply (N.le_succ_l 3), N.le_neq. split; [done|congruence].
Qed.
(*@ C07_oversized_request_refused_partial *)
Example C07_oversized_example : snd (step ex_table (OClaimRange 6 3 9)) = RUnit (Err EEndTooBig).
Proof. reflexivity. Qed.
(*@ C08_iterate_enumerates_claimed_ids *)
Example C08_example :
  snd (step ex_table OIterate) = RIds (Ok [1; 5]) /\
  snd (step ex_table OGetAll) = RValues (Ok [Some (NewEntry 1 7); Some (NewEntry 5 50)]).
Proof. split; reflexivity. Qed.
(*@ C08_iterate_free_enumerates_unclaimed_ids *)
Example C08_free_example : snd (step ex_table OIterateFree) = RIds (Ok [0; 2; 3; 4; 6; 7]).
Proof. reflexivity. Qed.
(*@ C10_claim_then_release_restores *)
Example C10_example : claimed ex_table !! 4 = None /\ 4 < 8.
Proof. split; reflexivity. Qed.
(*@ C11_open_iterator *)
(** Ids 1 and 5 are claimed when the iterator is opened; before the second Next,
    5 is released and 6 claimed: the iterator still yields 5, with a nil value. *)
Example C11_example :
  walk ex_table (iterate ex_table) [[OUpdate 1 8]; [ORelease 5; OClaim 6 6]; []] =
    Ok [(1, Some (NewEntry 1 8)); (5, None)].
Proof. reflexivity. Qed.
(*@ C75_is_consecutive *)
(** Unclaimed are 0, 2, 3, 4, 6, 7. *)
Example C75_example :
  map (fun k => iter_is_consecutive (nexts k (iterate_free ex_table))) (seq 1 7) =
    [Ok false; Ok false; Ok true; Ok true; Ok false; Ok true; Panic].
Proof. reflexivity. Qed.
(*@ C01_no_call_crashes *)
Example C01_crash_example :
  map (fun o => crashed (snd (step ex_table o))) [OClaim (2 ^ 64 - 1) 1; OClaimRange 7 (2 ^ 64 - 1) 1; OClaimSize (2 ^ 64 - 1) 1; OUpdate 9 1; OGetAll] =
    [false; false; false; false; false].
Proof. vm_compute. reflexivity. Qed.
(*@ C05_claim_size_zero_is_an_error *)
Example C05_zero_example : snd (step ex_table (OClaimSize 0 9)) = REntries (Err ENoSize).
Proof. vm_compute. reflexivity. Qed.
(*@ C06_claim_size_all_or_nothing *)
Example C06_size_example :
  claimed (fst (step ex_table (OClaimSize 6 9))) = claim_all (claimed ex_table) [0; 2; 3; 4; 6; 7] 9 /\
  step ex_table (OClaimSize 7 9) = (ex_table, REntries (Err ENoSize)).
Proof. split; [apply (bool_decide_unpack _); vm_compute; exact I|vm_compute; reflexivity]. Qed.
(*@ C09_claimed_plus_free_is_everything *)
Example C09_everything_example :
  map (fun o => snd (step ex_table o)) [OSize; OIterate; OIterateFree] = [RInt 2; RIds (Ok [1; 5]); RIds (Ok [0; 2; 3; 4; 6; 7])].
Proof. vm_compute. reflexivity. Qed.
(*@ C10_released_id_can_be_claimed_again *)
Example C10_again_example :
  snd (run ex_table [ORelease 5; OIsFree 5; OClaim 5 9; OGet 5; OGet 1; ORelease 4; OClaim 4 8]) =
    [RUnit (Ok tt); RBool true; RUnit (Ok tt); REntry (Ok (NewEntry 5 9)); REntry (Ok (NewEntry 1 7)); RUnit (Ok tt); RUnit (Ok tt)].
Proof. vm_compute. reflexivity. Qed.
