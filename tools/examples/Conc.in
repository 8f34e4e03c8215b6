(*@ C50_linearizable *)
(** A schedule that lets the goroutines take turns, as far as they can go on. *)
Fixpoint turns {D R Op A : Type} (m : Op -> prog D R) (fuel n i : nat) (s : sys D R Op A) : list nat :=
  match fuel with
  | O => []
  | S fuel' =>
      let j := Nat.modulo (S i) n in
      match sys_step m s i with
      | Some s' => i :: turns m fuel' n j s'
      | None => turns m fuel' n j s
      end
  end.
Definition hist_of {D R Op A : Type} (m : Op -> prog D R) (s : sys D R Op A) (sched : list nat) : option (list (event A)) :=
  option_map sy_hist (sys_run m s sched).
Definition ex_idx : sys (table N) (out N) (op N) (out N) :=
  start (new_table 3) (map (map direct) [[OClaim 1 7; OGet 1]; [OGet 1; OClaim 1 8]]).
(** The two first calls overlap, and so do the two last. *)
Example C50_example : hist_of method ex_idx (turns method 60 2 0 ex_idx) =
  Some [EStart (0, 0)%nat; EStart (1, 0)%nat; EEnd (0, 0)%nat (RUnit (Ok tt)); EStart (0, 1)%nat;
        EEnd (1, 0)%nat (REntry (Ok (NewEntry 1 7))); EStart (1, 1)%nat;
        EEnd (0, 1)%nat (REntry (Ok (NewEntry 1 7))); EEnd (1, 1)%nat (RUnit (Err EExists))].
Proof. vm_compute. reflexivity. Qed.
(*@ C51_every_call_returns_partial *)
Example C51_example :
  let todo := [[OClaim 1 7; OGet 1]; [OGet 1; OClaim 1 8]] in
  (forall c o, call_of todo c = Some o -> nests o = false) /\
  exists s, sys_run method ex_idx (turns method 60 2 0 ex_idx) = Some s /\ (forall i, sys_step method s i = None).
Proof.
  split.
  - intros [[|[|i]] [|[|j]]] o H; cbv in H; try discriminate H; injection H as <-; reflexivity.
  - eexists. split; [vm_compute; reflexivity|]. intros [|[|[|i]]]; reflexivity.
Qed.
(*@ C52_claimed_once *)
Definition ex_tn :=
  tn_system (tn_new cfg_table16 0 1) [[TClaimFree 1; TGet 1]; [TClaim 1 2; TGetByLabel (N.eqb 2)]].
Definition ex_tn2 :=
  tn_system (tn_new cfg_table16 0 1) [[TClaimFree 1]; [TClaimFree 2]].
(** Two ClaimFree at the same time: both look for a free id and find 0, one gets it. *)
Example C52_example : hist_of method ex_tn2 (turns method 200 2 0 ex_tn2) =
  Some [EStart (0, 0)%nat; EStart (1, 0)%nat; EEnd (0, 0)%nat (TREntry (Ok (TEntry 0 16 1)));
        EEnd (1, 0)%nat (TREntry (Err EExists))].
Proof. vm_compute. reflexivity. Qed.
(*@ C52_labels_kept *)
Example C52_labels_example : hist_of method ex_tn (turns method 200 2 0 ex_tn) =
  Some [EStart (0, 0)%nat; EStart (1, 0)%nat; EEnd (1, 0)%nat (TRUnit (Ok tt)); EStart (1, 1)%nat;
        EEnd (0, 0)%nat (TREntry (Ok (TEntry 0 16 1))); EStart (0, 1)%nat;
        EEnd (1, 1)%nat (TREntries (Ok [TEntry 1 32 2]));
        EEnd (0, 1)%nat (TREntry (Ok (TEntry 1 16 2)))] /\
  precedes [EStart (0, 0)%nat; EStart (1, 0)%nat; EEnd (1, 0)%nat (TRUnit (Ok tt)); EStart (1, 1)%nat;
        EEnd (0, 0)%nat (TREntry (Ok (TEntry 0 16 1))); EStart (0, 1)%nat;
        EEnd (1, 1)%nat (TREntries (Ok [TEntry 1 32 2]));
        EEnd (0, 1)%nat (TREntry (Ok (TEntry 1 16 2)))] (1, 0)%nat (0, 1)%nat.
Proof.
  split; [vm_compute; reflexivity|].
  exists 2%nat, 5%nat, (TRUnit (Ok tt)). repeat split; auto with lia.
Qed.
(*@ C53_why_claim_free_fails_partial *)
(** One id free, two callers. *)
Definition ex_tn3 :=
  tn_system (tn_new cfg_table16 5 5) [[TClaimFree 1]; [TClaimFree 2; TClaimFree 3]].
Example C53_example : hist_of method ex_tn3 (turns method 200 2 0 ex_tn3) =
  Some [EStart (0, 0)%nat; EStart (1, 0)%nat; EEnd (0, 0)%nat (TREntry (Ok (TEntry 5 16 1)));
        EEnd (1, 0)%nat (TREntry (Err EExists)); EStart (1, 1)%nat; EEnd (1, 1)%nat (TREntry (Err ENoFree))].
Proof. vm_compute. reflexivity. Qed.
(*@ C53_full_range_always_fails *)
(** All 65536 ids of table16: the table is empty, and both ClaimFree calls fail. *)
Definition ex_tn3f :=
  tn_system (tn_new cfg_table16 0 65535) [[TClaimFree 1; TClaim 7 1]; [TClaimFree 2]].
Example C53_full_example : tn_reachable cfg_table16 0 65535 (tn_new (L:=N) cfg_table16 0 65535) /\
  hist_of method ex_tn3f (turns method 200 2 0 ex_tn3f) =
  Some [EStart (0, 0)%nat; EStart (1, 0)%nat; EEnd (0, 0)%nat (TREntry (Err ENoFree));
        EEnd (1, 0)%nat (TREntry (Err ENoFree)); EStart (0, 1)%nat; EEnd (0, 1)%nat (TRUnit (Ok tt))].
Proof. split; [exists []; done|]. vm_compute. reflexivity. Qed.
(*@ C55_no_panic_partial *)
(** A GetByLabel during claims and an update. *)
Definition ex_tn4 :=
  tn_system (tn_new cfg_table32 0 3) [[TClaim 0 1; TGetByLabel (N.leb 1)]; [TClaim 2 2; TUpdate 0 3]].
Example C55_example : hist_of method ex_tn4 (turns method 200 2 0 ex_tn4) =
  Some [EStart (0, 0)%nat; EStart (1, 0)%nat; EEnd (0, 0)%nat (TRUnit (Ok tt)); EStart (0, 1)%nat;
        EEnd (1, 0)%nat (TRUnit (Ok tt)); EStart (1, 1)%nat; EEnd (1, 1)%nat (TRUnit (Ok tt));
        EEnd (0, 1)%nat (TREntries (Ok [TEntry 0 32 3; TEntry 2 32 2]))].
Proof. vm_compute. reflexivity. Qed.
(** The table of all uint64 ids. *)
Definition ex_tn4w :=
  tn_system (tn_new cfg_table64 0 (2 ^ 64 - 1)) [[TClaim 0 1; TGetByLabel (N.leb 1)]; [TClaim (2 ^ 64 - 1) 2; TUpdate 0 3]].
Example C55_wide_example : hist_of method ex_tn4w (turns method 200 2 0 ex_tn4w) =
  Some [EStart (0, 0)%nat; EStart (1, 0)%nat; EEnd (0, 0)%nat (TRUnit (Ok tt)); EStart (0, 1)%nat;
        EEnd (1, 0)%nat (TRUnit (Ok tt)); EStart (1, 1)%nat; EEnd (1, 1)%nat (TRUnit (Ok tt));
        EEnd (0, 1)%nat (TREntries (Ok [TEntry 0 64 3; TEntry (2 ^ 64 - 1) 64 2]))].
Proof. vm_compute. reflexivity. Qed.
Definition ex_tn4f :=
  tn_system (tn_new cfg_table64 0 (2 ^ 64 - 1)) [[TClaimFree 1; TGetByLabel (N.leb 1)]; [TClaim 7 2]].
Example C55_full_example : hist_of method ex_tn4f (turns method 200 2 0 ex_tn4f) =
  Some [EStart (0, 0)%nat; EStart (1, 0)%nat; EEnd (0, 0)%nat (TREntry (Err ENoFree)); EStart (0, 1)%nat;
        EEnd (1, 0)%nat (TRUnit (Ok tt)); EEnd (0, 1)%nat (TREntries (Ok [TEntry 7 64 2]))].
Proof. vm_compute. reflexivity. Qed.
(*@ C55_iptable_no_panic_partial *)
Definition ex_from : addr := Addr K4 (v4_base + 0x0a0000fa) 0.
Definition ex_to : addr := Addr K4 (v4_base + 0x0a00010a) 0.
Definition ex_ip :=
  ip_system Some (ip_new ex_from ex_to) [[IClaim ex_from 1; IGetByLabel (N.leb 1)]; [IClaim ex_to 2; IClaim ex_from 3]].
Example C55_ip_example : ip_range ex_from ex_to /\ hist_of method ex_ip (turns method 200 2 0 ex_ip) =
  Some [EStart (0, 0)%nat; EStart (1, 0)%nat; EEnd (0, 0)%nat (IRUnit (Ok tt)); EStart (0, 1)%nat;
        EEnd (1, 0)%nat (IRUnit (Ok tt)); EStart (1, 1)%nat; EEnd (0, 1)%nat (IRDatas (Ok [1; 2]));
        EEnd (1, 1)%nat (IRUnit (Err EAlreadyClaimed))].
Proof. split; [vm_compute; repeat split; congruence|]. vm_compute. reflexivity. Qed.
(** 2^80 IPv6 addresses. *)
Definition ex_from6 : addr := Addr K6 0x20010db8000000000000000000000000 0.
Definition ex_to6 : addr := Addr K6 0x20010db80000ffffffffffffffffffff 0.
Definition ex_ip6 :=
  ip_system Some (ip_new ex_from6 ex_to6) [[IClaim ex_from6 1; IGetByLabel (N.leb 1)]; [IClaim ex_to6 2; IClaim ex_from6 3]].
Example C55_ip6_example : ip_range ex_from6 ex_to6 /\ exists h, hist_of method ex_ip6 (turns method 200 2 0 ex_ip6) =
  Some (h ++ [EEnd (0, 1)%nat (IRDatas (Ok [1; 2])); EEnd (1, 1)%nat (IRUnit (Err EAlreadyClaimed))]).
Proof. split; [vm_compute; repeat split; congruence|]. eexists [_; _; _; _; _; _]. vm_compute. reflexivity. Qed.
(*@ C62_idxtable_race_free *)
Example C62_example : exists s, sys_run method ex_idx (turns method 60 2 0 ex_idx) = Some s.
Proof. eexists. vm_compute. reflexivity. Qed.
(*@ C62_tables_race_free_partial *)
Example C62_tables_example : exists s,
  sys_run method ex_tn2 (turns method 200 2 0 ex_tn2) = Some s /\
  forall k o, call_of [[TClaimFree 1]; [TClaimFree 2]] k = Some o -> t_by_label o = false.
Proof.
  eexists. split; [vm_compute; reflexivity|].
  intros [[|[|i]] [|j]] o H; cbv in H; try discriminate H; injection H as <-; reflexivity.
Qed.
(*@ C62_iptable_race_free_partial *)
(** Addresses as their own text. *)
Definition ex_a (n : N) : addr := Addr K4 (v4_base + n) 0.
Definition ex_ipcalls : list (list (iop addr N)) := [[IClaim (ex_a 1) 1; IUpdate (ex_a 2) 4]; [IClaim (ex_a 1) 2; IGet (ex_a 1); IHas (ex_a 9)]].
Definition ex_ip3 := ip_system Some (ip_new (D := N) (ex_a 0) (ex_a 5)) ex_ipcalls.
Example C62_iptable_example :
  (forall k o, call_of ex_ipcalls k = Some o -> i_by_label o = false /\ i_gets_all o = false /\ i_composite o = false) /\
  hist_of method ex_ip3 (turns method 200 2 0 ex_ip3) =
  Some [EStart (0, 0)%nat; EStart (1, 0)%nat; EEnd (0, 0)%nat (IRUnit (Ok tt)); EStart (0, 1)%nat;
        EEnd (1, 0)%nat (IRUnit (Err EExists)); EStart (1, 1)%nat; EEnd (0, 1)%nat (IRUnit (Err ENotClaimed));
        EEnd (1, 1)%nat (IRData (Ok 1)); EStart (1, 2)%nat; EEnd (1, 2)%nat (IRBool false)].
Proof.
  split; [|vm_compute; reflexivity].
  intros [[|[|i]] [|[|[|j]]]] o H; cbv in H; try discriminate H; injection H as <-; repeat split.
Qed.
(*@ C65_get_all_deadlocks_refuted *)
Example C65_refuted_example : tn_validate (tn_new (L := N) cfg_table32 10 20) 15 = Ok tt.
Proof. vm_compute. reflexivity. Qed.
(*@ C65_iptable_get_all_deadlocks_refuted *)
Example C65_iptable_refuted_example : ip_validate Some (ip_new (D := N) (ex_a 0) (ex_a 5)) (ex_a 2) = Ok (ex_a 2).
Proof. vm_compute. reflexivity. Qed.
(*@ C65_tables_every_call_returns_partial *)
Example C65_example : exists s,
  sys_run method ex_tn2 (turns method 200 2 0 ex_tn2) = Some s /\ (forall i, sys_step method s i = None) /\
  forall k o, call_of [[TClaimFree 1]; [TClaimFree 2]] k = Some o -> t_gets_all o = false.
Proof.
  eexists. split; [vm_compute; reflexivity|]. split; [intros [|[|[|i]]]; reflexivity|].
  intros [[|[|i]] [|j]] o H; cbv in H; try discriminate H; injection H as <-; reflexivity.
Qed.
(*@ C66_tables_linearizable *)
(** Two Claims of one id that overlap: one gets an error of the table underneath,
    which is another than the error of a Claim by itself. *)
Definition ex_tncalls : list (list (top N)) := [[TClaim 11 1; TUpdate 11 3]; [TClaim 11 2; TGet 11; THas 99]].
Definition ex_tn9 := tn_system (tn_new cfg_table32 10 20) ex_tncalls.
Example C66_example :
  (forall k o, call_of ex_tncalls k = Some o -> t_composite o = false) /\
  hist_of method ex_tn9 (turns method 200 2 0 ex_tn9) =
  Some [EStart (0, 0)%nat; EStart (1, 0)%nat; EEnd (0, 0)%nat (TRUnit (Ok tt)); EStart (0, 1)%nat;
        EEnd (1, 0)%nat (TRUnit (Err EExists)); EStart (1, 1)%nat; EEnd (0, 1)%nat (TRUnit (Ok tt));
        EEnd (1, 1)%nat (TREntry (Ok (TEntry 1 32 3))); EStart (1, 2)%nat; EEnd (1, 2)%nat (TRBool false)].
Proof.
  split; [|vm_compute; reflexivity].
  intros [[|[|i]] [|[|[|j]]]] o H; cbv in H; try discriminate H; injection H as <-; reflexivity.
Qed.
(*@ C80_tables_with_claim_free *)
(** Two ClaimFree that find the same id: one claims it, the other fails. *)
Definition ex_tn10 := tn_system (tn_new cfg_table32 0 1) [[TClaimFree 1]; [TClaimFree 2]].
Example C80_example :
  (forall k o, call_of [[TClaimFree 1]; [TClaimFree 2]] k = Some o -> t_by_label o = false) /\
  hist_of method ex_tn10 (replicate 8 0%nat ++ replicate 22 1%nat ++ replicate 6 0%nat) =
  Some [EStart (0, 0)%nat; EStart (1, 0)%nat; EEnd (1, 0)%nat (TREntry (Ok (TEntry 0 32 2)));
        EEnd (0, 0)%nat (TREntry (Err EAlreadyClaimed))] /\
  omap t_counts [(TClaimFree 2, TREntry (Ok (TEntry 0 32 2))); (TClaimFree 1, TREntry (Err EAlreadyClaimed))]
    = [(TClaim 0 2, TRUnit (Ok tt))].
Proof.
  split; [|split; vm_compute; reflexivity].
  intros [[|[|i]] [|j]] o H; cbv in H; try discriminate H; injection H as <-; reflexivity.
Qed.
(*@ C83_get_by_label_moments *)
(** The second id is updated after the listing, before it is looked up. *)
Definition ex_r83 : tableN N := fst (tn_run (tn_new cfg_table32 10 20) [TClaim 11 1; TClaim 13 2]).
Definition ex_calls83 : list (list (top N)) := [[TGetByLabel (fun l => 2 <=? l)]; [TUpdate 11 7; TUpdate 13 9]].
Definition ex_tn83 := tn_system ex_r83 ex_calls83.
Definition ex_sched83 := replicate 12 0%nat ++ replicate 20 1%nat ++ replicate 2 0%nat.
Example C83_example : tn_reachable cfg_table32 10 20 ex_r83 /\
  hist_of method ex_tn83 ex_sched83 =
  Some [EStart (0, 0)%nat; EStart (1, 0)%nat; EEnd (1, 0)%nat (TRUnit (Ok tt)); EStart (1, 1)%nat; EEnd (1, 1)%nat (TRUnit (Ok tt));
        EEnd (0, 0)%nat (TREntries (Ok [TEntry 13 32 9]))].
Proof. split; [by exists [TClaim 11 1; TClaim 13 2]|vm_compute; reflexivity]. Qed.
(** The panic. *)
Example C83_panic_example :
  hist_of method (tn_system ex_r83 [[TGetByLabel (fun l => 2 <=? l)]; [TRelease 13]]) (replicate 12 0%nat ++ replicate 9 1%nat ++ replicate 2 0%nat) =
  Some [EStart (0, 0)%nat; EStart (1, 0)%nat; EEnd (1, 0)%nat (TRUnit (Ok tt)); EEnd (0, 0)%nat (TREntries Panic)].
Proof. vm_compute. reflexivity. Qed.
(*@ C83_get_by_label_entries *)
Example C83_entries_example :
  hist_of method (tn_system ex_r83 [[TGetByLabel (fun l => 2 <=? l)]; [TRelease 11]]) (replicate 12 0%nat ++ replicate 9 1%nat ++ replicate 2 0%nat) =
  Some [EStart (0, 0)%nat; EStart (1, 0)%nat; EEnd (1, 0)%nat (TRUnit (Ok tt)); EEnd (0, 0)%nat (TREntries (Ok [TEntry 13 32 2]))].
Proof. vm_compute. reflexivity. Qed.
(*@ C84_iptable_get_by_label_moments_partial *)
Definition ex_ip84 : iptable N := fst (ip_run Some (ip_new (ex_a 0) (ex_a 5)) [IClaim (ex_a 1) 1; IClaim (ex_a 3) 2; IClaim (ex_a 4) 1]).
Example C84_example : ip_reachable Some (ex_a 0) (ex_a 5) ex_ip84 /\
  hist_of method (ip_system Some ex_ip84 [[IGetByLabel (fun l => l =? 1)]; [IUpdate (ex_a 1) 7; IUpdate (ex_a 4) 8]])
    (replicate 7 0%nat ++ replicate 30 1%nat ++ replicate 4 0%nat) =
  Some [EStart (0, 0)%nat; EStart (1, 0)%nat; EEnd (1, 0)%nat (IRUnit (Ok tt)); EStart (1, 1)%nat; EEnd (1, 1)%nat (IRUnit (Ok tt));
        EEnd (0, 0)%nat (IRDatas (Ok [7]))].
Proof. split; [by exists [IClaim (ex_a 1) 1; IClaim (ex_a 3) 2; IClaim (ex_a 4) 1]|vm_compute; reflexivity]. Qed.
(*@ C84_iptable_returns_only_matching_refuted *)
Example C84_refuted_example : ip_validate Some (ip_new (D := bool) (ex_a 0) (ex_a 1)) (ex_a 0) = Ok (ex_a 0).
Proof. vm_compute. reflexivity. Qed.
(*@ C85_iterator_values_moments *)
Definition ex_d85 : table N := fst (run (new_table 10) [OClaim 3 1; OClaim 5 2]).
Example C85_example : reachable 10 ex_d85 /\
  hist_of method (idx_system ex_d85 [[None]; [Some (ORelease 5)]]) (replicate 7 0%nat ++ replicate 9 1%nat ++ replicate 2 0%nat) =
  Some [EStart (0, 0)%nat; EStart (1, 0)%nat; EEnd (1, 0)%nat (RUnit (Ok tt)); EEnd (0, 0)%nat (RValues (Ok [Some (NewEntry 3 1); None]))].
Proof. split; [by exists [OClaim 3 1; OClaim 5 2]|vm_compute; reflexivity]. Qed.
(*@ C51_get_all_deadlocks_refuted *)
(** The GetAll holds the lock for reading, the Claim waits, and the GetAll asks for
    the lock again. *)
Example C51_deadlock_example :
  let s0 : sys (table N) (out N) (op N) (out N) := start (new_table 3) (map (map direct) [[OGetAll]; [OClaim 1 7]]) in
  exists s, sys_run method s0 (turns method 60 2 0 s0) = Some s /\ (forall i, sys_step method s i = None) /\
    sy_hist s = [EStart (0, 0)%nat; EStart (1, 0)%nat].
Proof. eexists. split; [vm_compute; reflexivity|]. split; [|reflexivity]. intros [|[|[|i]]]; reflexivity. Qed.
(*@ C51_no_endless_execution *)
(** An execution goes on for a while, and then no goroutine has a step. *)
Example C51_ends_example : length (turns method 60 2 0 ex_idx) = length (turns method 600 2 0 ex_idx) /\ (20 <= length (turns method 60 2 0 ex_idx))%nat.
Proof. split; [vm_compute; reflexivity|]. vm_compute. lia. Qed.
(*@ C53_claim_free_fails_refuted *)
(** Id 1 is never claimed, and a ClaimFree fails. *)
Example C53_fails_example :
  let s0 := tn_system (tn_new cfg_table32 0 1) [[TClaimFree 1]; [TClaimFree 2]] in
  (exists s, sys_run method s0 (turns method 200 2 0 s0) = Some s /\ tn_claimed (tn_with (tn_new cfg_table32 0 1) (sy_data s)) !! 1 = None) /\
  hist_of method s0 (turns method 200 2 0 s0) =
  Some [EStart (0, 0)%nat; EStart (1, 0)%nat; EEnd (0, 0)%nat (TREntry (Ok (TEntry 0 32 1)));
        EEnd (1, 0)%nat (TREntry (Err EExists))].
Proof. split; [|vm_compute; reflexivity]. eexists. split; [vm_compute; reflexivity|]. vm_compute. reflexivity. Qed.
(*@ C55_get_by_label_panics_refuted *)
Example C55_panics_example :
  let r := fst (tn_run (tn_new cfg_table32 0 1) [TClaim 0 5]) in
  tn_reachable cfg_table32 0 1 r /\
  hist_of method (tn_system r [[TGetByLabel (N.eqb 5)]; [TRelease 0]]) (replicate 10 0%nat ++ replicate 9 1%nat ++ replicate 3 0%nat) =
  Some [EStart (0, 0)%nat; EStart (1, 0)%nat; EEnd (1, 0)%nat (TRUnit (Ok tt)); EEnd (0, 0)%nat (TREntries Panic)].
Proof. split; [by exists [TClaim 0 5]|vm_compute; reflexivity]. Qed.
(*@ C64_tables_call_alone *)
Example C64_tables_example :
  snd (client_alone method (tn_call (tn_new cfg_table32 10 20) (TClaimFree 4)) (tn_table (tn_new cfg_table32 10 20))) = TREntry (Ok (TEntry 10 32 4)).
Proof. vm_compute. reflexivity. Qed.
(*@ C64_iptable_call_alone *)
Example C64_iptable_example :
  snd (client_alone method (ip_call Some (ip_new (D := N) (ex_a 3) (ex_a 5)) IFindFree) (ip_table (ip_new (D := N) (ex_a 3) (ex_a 5)))) = IRAddr (Ok (ex_a 3)).
Proof. vm_compute. reflexivity. Qed.
(*@ C65_iptable_every_call_returns_partial *)
Example C65_iptable_example : exists s,
  sys_run method ex_ip3 (turns method 200 2 0 ex_ip3) = Some s /\ (forall i, sys_step method s i = None) /\
  forall k o, call_of ex_ipcalls k = Some o -> i_gets_all o = false.
Proof.
  eexists. split; [vm_compute; reflexivity|]. split; [intros [|[|[|i]]]; reflexivity|].
  intros [[|[|i]] [|[|[|j]]]] o H; cbv in H; try discriminate H; injection H as <-; reflexivity.
Qed.
(*@ C66_iptable_linearizable *)
(** The order in which the calls of the two goroutines took effect, and what they
    return in that order. *)
Example C66_iptable_example :
  (forall k o, call_of ex_ipcalls k = Some o -> i_composite o = false) /\
  snd (ip_run Some (ip_new (D := N) (ex_a 0) (ex_a 5)) [IClaim (ex_a 1) 1; IClaim (ex_a 1) 2; IUpdate (ex_a 2) 4; IGet (ex_a 1); IHas (ex_a 9)]) =
  [IRUnit (Ok tt); IRUnit (Err EAlreadyClaimed); IRUnit (Err ENotClaimed); IRData (Ok 1); IRBool false].
Proof.
  split; [|vm_compute; reflexivity].
  intros [[|[|i]] [|[|[|j]]]] o H; cbv in H; try discriminate H; injection H as <-; reflexivity.
Qed.
