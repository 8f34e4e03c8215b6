(*@ C12_tableN_is_a_map_over_the_interval *)
Definition ex16 : tableN N :=
  fst (tn_run (tn_new cfg_table16 1000 1007) [TClaim 1003 3; TClaimFree 0; TUpdate 1003 4]).
Example C12_example :
  (cfg_table16 ∈ tn_packages) /\ (1000 <= 1007 < 2 ^ tn_w cfg_table16) /\
  tn_reachable cfg_table16 1000 1007 ex16 /\
  snd (tn_run ex16 [TClaim 1003 9; TClaim 1008 9; TClaim 1001 1; TRelease 1003; THas 1003; TSize; TUpdate 1005 1; TClaim 66536 1])
  = [TRUnit (Err EAlreadyClaimed); TRUnit (Err EOutsideRange); TRUnit (Ok tt); TRUnit (Ok tt);
     TRBool false; TRInt 2; TRUnit (Err ENotCreated); TRUnit (Err EOutsideRange)].
Proof.
  split; [left|]. split; [split; [discriminate|reflexivity]|].
  split; [eexists; split; [|reflexivity]; reflexivity|]. vm_compute. reflexivity.
Qed.
(*@ C12_get_reports_the_labels *)
Example C12_get_example : tn_claimed ex16 !! 1003 = Some 4 /\ tn_claimed ex16 !! 1001 = None.
Proof. split; reflexivity. Qed.
(*@ C13_claim_free_takes_lowest_partial *)
Example C13_example :
  snd (tn_step ex16 (TClaimFree 7)) = TREntry (Ok (TEntry 1001 16 7)) /\
  snd (tn_step (fst (tn_run (tn_new cfg_table64 (2 ^ 64 - 1) (2 ^ 64 - 1)) [TClaim (2 ^ 64 - 1) 1])) (TClaimFree 7))
    = TREntry (Err ENoFree).
Proof. split; vm_compute; reflexivity. Qed.
(*@ C13_full_range_never_free *)
Example C13_full_example :
  0 <= 65535 < 2 ^ tn_w cfg_table16 /\ 65535 - 0 + 1 = 2 ^ tn_w cfg_table16 /\
  tn_reachable cfg_table16 0 65535 (tn_new cfg_table16 0 65535 : tableN N).
Proof. split; [split; [discriminate|reflexivity]|]. split; [reflexivity|]. exists []. split; reflexivity. Qed.
(*@ C14_get_all_reports_external_ids *)
Example C14_example :
  snd (tn_step ex16 TGetAll) = TREntries (Ok [TEntry 1000 32 0; TEntry 1003 32 4]) /\
  snd (tn_step ex16 (TGetByLabel (N.leb 2))) = TREntries (Ok [TEntry 1003 32 4]).
Proof. split; vm_compute; reflexivity. Qed.
(*@ C15_get_returns_the_offset *)
Example C15_example : snd (tn_step ex16 (TGet 1003)) = TREntry (Ok (TEntry 3 16 4)).
Proof. reflexivity. Qed.
(*@ C15_get_returns_the_id_partial *)
Example C15_partial_example :
  snd (tn_step (fst (tn_run (tn_new cfg_table32 0 7) [TClaim 3 4])) (TGet 3)) = TREntry (Ok (TEntry 3 32 4)).
Proof. vm_compute. reflexivity. Qed.
(*@ C15_get_returns_the_id_refuted *)
Example C15_refuted_hypotheses : 1 <= 1000 <= 2000 /\ 2000 < 2 ^ tn_w cfg_table16.
Proof. split; [split; discriminate|reflexivity]. Qed.
(*@ C16_reversed_interval_is_inert *)
Example C16_example :
  5 < 9 < 2 ^ tn_w cfg_table16 /\
  snd (tn_run (tn_new cfg_table16 65530 65520) [TClaim 65530 1; TClaimFree 2; TFindFree; TSize]) =
    [TRUnit (Err EOutsideRange); TREntry (Err EOutsideRange); TRId (Ok 65530); TRInt 0].
Proof. split; [split; reflexivity|]. vm_compute. reflexivity. Qed.
(*@ C13_claim_free_refuted *)
(** Every package has a full range: here all 65536 ids of table16. *)
Example C13_refuted_example :
  snd (tn_run (tn_new cfg_table16 0 65535) [TClaimFree 1; TIsFree 7; TClaim 7 2; TClaimFree 3]) =
    [TREntry (Err ENoFree); TRBool true; TRUnit (Ok tt); TREntry (Err ENoFree)].
Proof. vm_compute. reflexivity. Qed.
(*@ C16_find_free_reports_start *)
Example C16_start_example :
  snd (tn_step (tn_new cfg_table16 9 8 : tableN N) TFindFree) = TRId (Err ENoFree) /\
  snd (tn_step (tn_new cfg_table16 9 7 : tableN N) TFindFree) = TRId (Ok 9).
Proof. split; vm_compute; reflexivity. Qed.
