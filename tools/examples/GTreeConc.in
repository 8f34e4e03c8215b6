(*@ C54_same_id_refuted *)
(** A schedule that lets the goroutines take turns after [pre], as far as they can go on. *)
Fixpoint g_turns (fuel n i : nat) (s : sys (gtree N) (gout N) (gmeth N) (gcout N)) : list nat :=
  match fuel with
  | O => []
  | S fuel' =>
      let j := Nat.modulo (S i) n in
      match sys_step (gmethod dec cfg_tree16) s i with
      | Some s' => i :: g_turns fuel' n j s'
      | None => g_turns fuel' n j s
      end
  end.
Definition ex_sched (n : nat) (pre : list nat) (s : sys (gtree N) (gout N) (gmeth N) (gcout N)) : list nat :=
  match sys_run (gmethod dec cfg_tree16) s pre with Some s' => pre ++ g_turns 400 n 1 s' | None => [] end.
Definition ex_hist (s : sys (gtree N) (gout N) (gmeth N) (gcout N)) (sched : list nat) : option (list (event (gcout N))) :=
  option_map sy_hist (sys_run (gmethod dec cfg_tree16) s sched).
(** A new tree16 of length 4. *)
Definition ex_tree : gtree N := GTree (tree_zero cfg_id16) 15 4.
Definition ex_calls : list (list (gcall N)) :=
  [[CClaimFree 1; CClaimFree 2]; [CClaimID (MyId 3 16) 5; CChildren (MyId 0 14)]].
Definition ex_run := g_system cfg_tree16 ex_tree ex_calls.
Example ex_tree_new : g_new cfg_tree16 4 = Ok ex_tree.
Proof. vm_compute. reflexivity. Qed.
(*@ C54_one_after_another_partial *)
(** The hypotheses are met: a new tree, ClaimFree, ClaimID and Children calls, two
    ClaimFree one after the other. *)
Example C54_hypotheses :
  cfg_tree16 ∈ g_packages_16_32 /\ g_hist any_op cfg_tree16 4 ∅ ex_tree /\ gc_root cfg_tree16 4 < gw cfg_tree16 /\
  (forall k o, call_of ex_calls k = Some o -> g_ranges o = false /\ g_releases o = false /\ g_args_ok cfg_tree16 o).
Proof.
  split; [left|]. split; [apply hist_new; vm_compute; reflexivity|]. split; [vm_compute; reflexivity|].
  intros [[|[|i]] [|[|j]]] o H; cbv in H; try discriminate H; injection H as <-; (split; [reflexivity|]); (split; [reflexivity|]);
    vm_compute; try exact I; split; (reflexivity || discriminate).
Qed.
Example C54_example : ex_hist ex_run (ex_sched 2 (replicate 4 0%nat) ex_run) =
  Some [EStart (0, 0)%nat; EStart (1, 0)%nat; EEnd (1, 0)%nat (GRUnit (Ok tt)); EStart (1, 1)%nat;
        EEnd (0, 0)%nat (GREntry (Ok (TEntry 0 16 1))); EStart (0, 1)%nat;
        EEnd (1, 1)%nat (GRVals (Ok [Some (TEntry 0 16 1); Some (TEntry 3 16 5)]));
        EEnd (0, 1)%nat (GREntry (Ok (TEntry 1 16 2)))].
Proof. vm_compute. reflexivity. Qed.
(*@ C54_was_free_partial *)
(** The hypotheses are met with a ReleaseID too: 0 is released while a
    ClaimFree that saw it claimed is going on. *)
Definition ex_calls1 : list (list (gcall N)) := [[CClaimFree 1; CReleaseID (MyId 0 16)]; [CClaimFree 2; CReleaseID (MyId 1 16)]].
Definition ex_run1 := g_system cfg_tree16 ex_tree ex_calls1.
Example C54_free_example :
  (forall k o, call_of ex_calls1 k = Some o -> g_ranges o = false /\ g_args_ok cfg_tree16 o /\
     (g_releases o = true -> exists x, o = CReleaseID x /\ gid_ok cfg_tree16 x)) /\
  ex_hist ex_run1 (replicate 15 0 ++ replicate 9 1 ++ replicate 19 0 ++ replicate 26 1)%nat =
  Some [EStart (0, 0)%nat; EStart (1, 0)%nat; EEnd (0, 0)%nat (GREntry (Ok (TEntry 0 16 1))); EStart (0, 1)%nat;
        EEnd (0, 1)%nat (GRUnit (Ok tt)); EEnd (1, 0)%nat (GREntry (Ok (TEntry 1 16 2))); EStart (1, 1)%nat;
        EEnd (1, 1)%nat (GRUnit (Ok tt))].
Proof.
  split; [|vm_compute; reflexivity].
  intros [[|[|i]] [|[|j]]] o H; cbv in H; try discriminate H; injection H as <-; (split; [reflexivity|]); (split; [exact I|]);
    intros Hr; try discriminate Hr; eexists; (split; [reflexivity|]); vm_compute; split; (reflexivity || discriminate).
Qed.
(*@ C54_stays_claimed_partial *)
Example C54_stays_example : exists s, sys_run (gmethod dec cfg_tree16) ex_run (ex_sched 2 (replicate 4 0%nat) ex_run) = Some s /\ quiet s /\
  g_get (sy_data s) (MyId 0 16) = Ok (TEntry 0 16 1).
Proof.
  eexists. split; [vm_compute; reflexivity|]. split; [|vm_compute; reflexivity].
  intros [|[|i]] th H; try discriminate H; injection H as <-; exact I.
Qed.
(*@ C61_get_and_claim_deadlock_refuted *)
(** ids the tree admits *)
Example C61_refuted_example : i_id (MyId 3 16) <= g_size ex_tree.
Proof. vm_compute. discriminate. Qed.
(*@ C61_every_call_returns_partial *)
(** Calls that do not lock twice, some of which write; one of them is a ClaimRange. *)
Definition ex_calls2 : list (list (gcall N)) :=
  [[CClaimID (MyId 3 16) 1; CGetAll]; [CUpdate (MyId 3 16) 5; CReleaseByLabel (N.eqb 1)];
   [CClaimRange (range_string (range_from cfg_id16 5 6)) 2]].
Definition ex_run2 := g_system cfg_tree16 ex_tree ex_calls2.
Example C61_example :
  (forall k o, call_of ex_calls2 k = Some o -> g_nests o = false) /\
  exists s, sys_run (gmethod dec cfg_tree16) ex_run2 (ex_sched 3 [0%nat] ex_run2) = Some s /\ (forall i, sys_step (gmethod dec cfg_tree16) s i = None).
Proof.
  split.
  - intros [[|[|[|i]]] [|[|j]]] o H; cbv in H; try discriminate H; injection H as <-; reflexivity.
  - eexists. split; [vm_compute; reflexivity|]. intros [|[|[|[|i]]]]; reflexivity.
Qed.
(*@ C62_claim_range_race_refuted *)
Example C62_range_example : exists x xs,
  (do r <- parse_range cfg_id16 (range_string (range_from cfg_id16 1 6)); range_ids cfg_id16 r) = Ok (x :: xs).
Proof. eexists _, _. vm_compute. reflexivity. Qed.
(*@ C62_tree_race_free_partial *)
Example C62_tree_example : (forall k o, call_of ex_calls k = Some o -> g_locked o = true) /\
  exists s, sys_run (gmethod dec cfg_tree16) ex_run (ex_sched 2 (replicate 4 0%nat) ex_run) = Some s.
Proof.
  split.
  - intros [[|[|i]] [|[|j]]] o H; cbv in H; try discriminate H; injection H as <-; reflexivity.
  - eexists. vm_compute. reflexivity.
Qed.
(*@ C63_linearizable *)
(** Five calls that overlap, one of them refused. *)
Definition ex_calls3 : list (list (gcall N)) :=
  [[CClaimID (MyId 3 16) 1; CUpdate (MyId 3 16) 3]; [CClaimID (MyId 3 16) 5; CUpdate (MyId 99 16) 5];
   [CGet (MyId 3 16); CParents (MyId 3 16)]].
Definition ex_run3 := g_system cfg_tree16 ex_tree ex_calls3.
Example C63_example :
  (forall k o, call_of ex_calls3 k = Some o -> g_atomic o = true) /\
  ex_hist ex_run3 (ex_sched 3 ([0; 1] ++ replicate 6 0 ++ replicate 6 1)%nat ex_run3) =
  Some [EStart (0, 0)%nat; EStart (1, 0)%nat; EStart (2, 0)%nat; EEnd (1, 0)%nat (GRUnit (Ok tt));
        EEnd (0, 0)%nat (GRUnit (Ok tt)); EStart (1, 1)%nat; EStart (0, 1)%nat; EEnd (1, 1)%nat (GRUnit (Err EMaxId));
        EEnd (2, 0)%nat (GREntry (Ok (TEntry 3 16 5))); EStart (2, 1)%nat; EEnd (0, 1)%nat (GRUnit (Ok tt));
        EEnd (2, 1)%nat (GRVals (Ok []))].
Proof.
  split; [|vm_compute; reflexivity].
  intros [[|[|[|i]]] [|[|j]]] o H; cbv in H; try discriminate H; injection H as <-; reflexivity.
Qed.
(*@ C64_tree_call_alone *)
Example C64_tree_example :
  snd (client_alone (gmethod dec cfg_tree16) (gcall_client cfg_tree16 ex_tree (CClaimFree 1)) ex_tree) = GREntry (Ok (TEntry 0 16 1)).
Proof. vm_compute. reflexivity. Qed.
(*@ C67_overwriting_partial *)
(** A tree with two entries; GetAll, GetByLabel and Size while both are claimed
    again, the first by ClaimID and the second by ClaimRange, and an id that is not
    stored is released.  GetAll sees the new labels of one of them. *)
Definition ex_tree3 : gtree N := match g_claim_id cfg_tree16 ex_tree (MyId 3 16) 5 with Ok g => g | _ => ex_tree end.
Definition ex_tree4 : gtree N := match g_claim_id cfg_tree16 ex_tree3 (MyId 8 15) 6 with Ok g => g | _ => ex_tree end.
Definition ex_map4 : record N := <[prefix 16 (MyId 8 15) := TEntry 8 15 6]> (<[prefix 16 (MyId 3 16) := TEntry 3 16 5]> ∅).
Definition ex_calls5 : list (list (gcall N)) :=
  [[CGetAll; CGetByLabel (N.eqb 7); CSize];
   [CClaimID (MyId 3 16) 9; CReleaseID (MyId 1 16); CClaimRange (range_string (range_from cfg_id16 8 9)) 7; CGet (MyId 8 15)]].
Definition ex_run5 := g_system cfg_tree16 ex_tree4 ex_calls5.
Example ex_hist4 : g_hist any_op cfg_tree16 4 ex_map4 ex_tree4.
Proof.
  unfold ex_map4.
  apply (hist_step any_op cfg_tree16 4 dec (<[prefix 16 (MyId 3 16) := TEntry 3 16 5]> ∅) ex_tree3 (GClaimID (MyId 8 15) 6) ex_tree4 GDone);
    [|exact I|vm_compute; split; (reflexivity || discriminate)|by left|vm_compute; reflexivity].
  apply (hist_step any_op cfg_tree16 4 dec ∅ ex_tree (GClaimID (MyId 3 16) 5) ex_tree3 GDone);
    [|exact I|vm_compute; split; (reflexivity || discriminate)|by left|vm_compute; reflexivity].
  apply hist_new. vm_compute. reflexivity.
Qed.
Example C67_overwriting_example :
  g_hist any_op cfg_tree16 4 ex_map4 ex_tree4 /\
  (forall k o, call_of ex_calls5 k = Some o -> g_overwrites cfg_tree16 4 ex_map4 o) /\
  ex_hist ex_run5 (ex_sched 2 [0%nat] ex_run5) =
  Some [EStart (0, 0)%nat; EStart (1, 0)%nat; EEnd (1, 0)%nat (GRUnit (Ok tt)); EStart (1, 1)%nat;
        EEnd (0, 0)%nat (GRVals (Ok [Some (TEntry 3 16 9); Some (TEntry 8 15 6)]));
        EStart (0, 1)%nat; EEnd (1, 1)%nat (GRUnit (Ok tt)); EStart (1, 2)%nat; EEnd (0, 1)%nat (GRVals (Ok []));
        EStart (0, 2)%nat; EEnd (1, 2)%nat (GRUnit (Ok tt)); EStart (1, 3)%nat; EEnd (0, 2)%nat (GRSize (Ok 2));
        EEnd (1, 3)%nat (GREntry (Ok (TEntry 8 15 7)))].
Proof.
  split; [|split; [|vm_compute; reflexivity]].
  - apply ex_hist4.
  - intros [[|[|i]] [|[|[|[|j]]]]] o H; cbv in H; try discriminate H; injection H as <-; cbn [g_overwrites]; try exact I.
    + split; [vm_compute; split; (reflexivity || discriminate)|]. right. vm_compute. discriminate.
    + split; [vm_compute; split; (reflexivity || discriminate)|]. right. vm_compute. reflexivity.
    + intros x Hx. vm_compute in Hx. apply elem_of_list_singleton in Hx as ->. vm_compute. discriminate.
    + vm_compute. split; (reflexivity || discriminate).
Qed.
(*@ C67_without_writers_partial *)
(** Listings at the same time, of a tree with two entries. *)
Definition ex_calls4 : list (list (gcall N)) := [[CGetAll; CSize]; [CGetByLabel (N.eqb 6); CGet (MyId 3 16)]].
Definition ex_run4 := g_system cfg_tree16 ex_tree4 ex_calls4.
Example C67_example :
  (forall k o, call_of ex_calls4 k = Some o -> g_writes o = false) /\
  ex_hist ex_run4 (ex_sched 2 [0%nat] ex_run4) =
  Some [EStart (0, 0)%nat; EStart (1, 0)%nat; EEnd (0, 0)%nat (GRVals (Ok [Some (TEntry 3 16 5); Some (TEntry 8 15 6)]));
        EStart (0, 1)%nat; EEnd (1, 0)%nat (GRVals (Ok [Some (TEntry 8 15 6)])); EStart (1, 1)%nat;
        EEnd (0, 1)%nat (GRSize (Ok 2)); EEnd (1, 1)%nat (GREntry (Ok (TEntry 3 16 5)))].
Proof.
  split; [|vm_compute; reflexivity].
  intros [[|[|i]] [|[|j]]] o H; cbv in H; try discriminate H; injection H as <-; reflexivity.
Qed.
(*@ C78_release_atomic *)
(** A release of 3 has looked 3 up, is overtaken by an Update of 3 and deletes
    nothing: as if it had come before the Update.  ClaimFree returns 2 at the same time. *)
Definition ex_calls6 : list (list (gcall N)) :=
  [[CReleaseID (MyId 3 16); CGet (MyId 3 16)]; [CUpdate (MyId 3 16) 9; CReleaseID (MyId 8 15)]; [CClaimFree 1]].
Definition ex_run6 := g_system cfg_tree16 ex_tree4 ex_calls6.
Example C78_example :
  g_hist any_op cfg_tree16 4 ex_map4 ex_tree4 /\
  (forall k o, call_of ex_calls6 k = Some o -> g_locked o = true /\ g_ids_ok cfg_tree16 o) /\
  ex_hist ex_run6 (replicate 9 0 ++ replicate 10 2 ++ replicate 9 1 ++ replicate 18 0 ++ replicate 18 1 ++ replicate 9 2)%nat =
  Some [EStart (0, 0)%nat; EStart (2, 0)%nat; EStart (1, 0)%nat; EEnd (1, 0)%nat (GRUnit (Ok tt)); EEnd (0, 0)%nat (GRUnit (Ok tt));
        EStart (0, 1)%nat; EEnd (0, 1)%nat (GREntry (Ok (TEntry 3 16 9))); EStart (1, 1)%nat; EEnd (1, 1)%nat (GRUnit (Ok tt));
        EEnd (2, 0)%nat (GREntry (Ok (TEntry 2 16 1)))].
Proof.
  split; [apply ex_hist4|]. split; [|vm_compute; reflexivity].
  intros [[|[|[|i]]] [|[|j]]] o H; cbv in H; try discriminate H; injection H as <-; (split; [reflexivity|]);
    vm_compute; try exact I; split; (reflexivity || discriminate).
Qed.
(*@ C61_no_endless_execution *)
Example C61_ends_example : length (g_turns 400 3 0 ex_run2) = length (g_turns 1000 3 0 ex_run2) /\ (20 <= length (g_turns 400 3 0 ex_run2))%nat.
Proof. split; [vm_compute; reflexivity|]. vm_compute. lia. Qed.
(*@ C62_tree_get_all_race_refuted *)
Example C62_get_all_example : i_id (MyId 3 16) <= g_size ex_tree /\ ~ i_id (MyId 16 16) <= g_size ex_tree.
Proof. split; vm_compute; [discriminate|]. intros H. by apply H. Qed.
