(*@ C17_address_index_bijection_partial *)
Definition v4 (x : N) : addr := Addr K4 (v4_base + x) 0.
(** 10.0.0.250 .. 10.0.1.10 *)
Definition ex_from : addr := v4 0x0a0000fa.
Definition ex_to : addr := v4 0x0a00010a.
Example ex_range : ip_range ex_from ex_to.
Proof. vm_compute. repeat split; congruence. Qed.
Example C17_example :
  in_ip_range ex_from ex_to (v4 0x0a000100) /\
  calculate_index (v4 0x0a000100) ex_from = 6 /\
  calculate_ip_from_index ex_from 6 = Ok (v4 0x0a000100) /\
  calculate_ip_from_index (Addr K6 (2 ^ 128 - 2) 0) 1 = Ok (Addr K6 (2 ^ 128 - 1) 0).
Proof. vm_compute. repeat split; congruence. Qed.
(*@ C17_ipv4_ranges_qualify *)
Example C17_ipv4_example : a_kind ex_from = K4 /\ a_val ex_to - a_val ex_from = 16.
Proof. split; reflexivity. Qed.
(*@ C17_wide_ranges_refuted *)
Definition wide_from : addr := Addr K6 (0x20010db8 * 2 ^ 96) 0.
Definition wide_to : addr := Addr K6 (0x20010db8 * 2 ^ 96 + 2 ^ 80 - 1) 0.
Example C17_wide_example : ip_range wide_from wide_to /\ 2 ^ 64 <= a_val wide_to - a_val wide_from.
Proof. vm_compute. repeat split; congruence. Qed.
(*@ C18_iptable_is_a_map_over_addresses_partial *)
(** Strings are numbers here: [n < 2^32] stands for the IPv4 address, everything
    else does not parse. *)
Definition ex_parse (n : N) : option addr := if n <? 2 ^ 32 then Some (v4 n) else None.
Definition ex_ip : iptable N :=
  fst (ip_run ex_parse (ip_new ex_from ex_to) [IClaim 0x0a0000fa 1; IClaim 0x0a000100 2; IUpdate 0x0a000100 3]).
Example C18_example :
  ip_reachable ex_parse ex_from ex_to ex_ip /\
  snd (ip_run ex_parse ex_ip
    [IClaim 0x0a000100 9; IGet 0x0a000100; IClaim 0x0a0000f9 1; IClaim (2 ^ 40) 1; IRelease 0x0a0000fa; ISize;
     IHas 0x0a0000fa; IIsFree 0x0a0000fa; IUpdate 0x0a0000fa 4])
  = [IRUnit (Err EAlreadyClaimed); IRData (Ok 3); IRUnit (Err EOutsideRange); IRUnit (Err EBadAddr);
     IRUnit (Ok tt); IRInt 1; IRBool false; IRBool true; IRUnit (Err ENotClaimed)].
Proof. split; [eexists; reflexivity|]. vm_compute. reflexivity. Qed.
(*@ C18_wide_ranges_refuted *)
Example C18_wide_example :
  in_ip_range wide_from wide_to (Addr K6 (a_val wide_from + 2 ^ 64) 0).
Proof. vm_compute. repeat split; congruence. Qed.
(*@ C19_find_free_lowest_partial *)
Example C19_example :
  snd (ip_step ex_parse ex_ip IFindFree) = IRAddr (Ok (v4 0x0a0000fb)) /\
  snd (ip_step ex_parse (fst (ip_run ex_parse (ip_new ex_from ex_from) [IClaim 0x0a0000fa 1])) IFindFree)
    = IRAddr (Err ENoFree).
Proof. split; vm_compute; reflexivity. Qed.
(*@ C19_slash64_refuted *)
Example C19_slash64_example :
  let to := Addr K6 (a_val wide_from + 2 ^ 64 - 1) 0 in
  ip_range wide_from to /\ a_val to - a_val wide_from = 2 ^ 64 - 1 /\
  ip_unclaimed wide_from to (∅ : gmap N N) (a_val wide_from).
Proof. vm_compute. repeat split; congruence. Qed.
(*@ C56_iptable_listing *)
Example C56_example :
  snd (ip_step ex_parse ex_ip IGetAll) = IRDatas (Ok [1; 3]) /\
  snd (ip_step ex_parse ex_ip (IGetByLabel (N.leb 2))) = IRDatas (Ok [3]).
Proof. split; vm_compute; reflexivity. Qed.
(*@ C81_no_range_refuses_all *)
Example C81_no_range_example :
  no_ip_range (Addr K6 5 1) (Addr K6 9 2) /\ no_ip_range ex_to ex_from /\ no_ip_range (Addr KZero 0 0) ex_to /\
  snd (ip_run ex_parse (ip_new ex_to ex_from) [IClaim 0x0a0000fa 1; IClaim (2 ^ 40) 1; IIsFree 0x0a0000fa; IGetAll])
  = [IRUnit (Err EOutsideRange); IRUnit (Err EBadAddr); IRBool false; IRDatas (Ok [])].
Proof.
  split; [do 2 right; left; discriminate|]. split; [do 3 right; vm_compute; reflexivity|].
  split; [left; reflexivity|]. vm_compute. reflexivity.
Qed.
(*@ C81_no_range_find_free *)
Example C81_find_free_example :
  snd (ip_step ex_parse (ip_new ex_to ex_from : iptable N) IFindFree) = IRAddr (Ok ex_to) /\
  snd (ip_step ex_parse (ip_new (v4 1) (v4 0) : iptable N) IFindFree) = IRAddr (Err ENoFree) /\
  addr_wf ex_from /\ addr_wf ex_to /\ no_ip_range ex_to ex_from.
Proof.
  assert (H : addr_wf ex_from /\ addr_wf ex_to) by (vm_compute; repeat split; congruence).
  split; [|split; [vm_compute; reflexivity|split; [apply H|split; [apply H|do 3 right; vm_compute; reflexivity]]]].
  rewrite (C81_no_range_find_free N N ex_parse ex_to ex_from);
    [reflexivity|apply H|apply H|do 3 right; vm_compute; reflexivity|exists []; reflexivity].
Qed.
(*@ C81_zoned_range *)
(** Strings are numbers here, for the IPv6 address without a zone. *)
Definition ex_zfrom : addr := Addr K6 5 1.
Definition ex_zto : addr := Addr K6 9 1.
Definition ex_parse6 (n : N) : option addr := Some (Addr K6 n 0).
Example C81_zoned_example :
  zoned_ip_range ex_zfrom ex_zto /\
  snd (ip_run ex_parse6 (ip_new ex_zfrom ex_zto) [IFindFree; IClaim 5 1; IClaim 6 2; IFindFree; IClaim 6 3; IClaim 9 4; IClaim 10 5])
  = [IRAddr (Ok (Addr K6 5 0)); IRUnit (Err EOutsideRange); IRUnit (Ok tt); IRAddr (Ok (Addr K6 5 0));
     IRUnit (Err EAlreadyClaimed); IRUnit (Ok tt); IRUnit (Err EOutsideRange)].
Proof. split; [vm_compute; repeat split; congruence|vm_compute; reflexivity]. Qed.
(*@ C82_any_width_calls *)
(** A range of 2^64 + 3 addresses has 3 slots. *)
Definition ex_wto : addr := Addr K6 (5 + 2 ^ 64 + 2) 0.
Definition ex_wfrom : addr := Addr K6 5 0.
Example C82_example :
  ip_range ex_wfrom ex_wto /\ ip_slots ex_wfrom ex_wto = 3 /\
  snd (ip_run ex_parse6 (ip_new ex_wfrom ex_wto)
    [IClaim 6 1; IGet (6 + 2 ^ 64); IClaim (6 + 2 ^ 64) 2; IClaim 8 3; IIsFree 8; IRelease (6 + 2 ^ 64); IHas 6; IClaim 4 1])
  = [IRUnit (Ok tt); IRData (Ok 1); IRUnit (Err EAlreadyClaimed); IRUnit (Err EIdTooBig); IRBool true;
     IRUnit (Ok tt); IRBool false; IRUnit (Err EOutsideRange)] /\
  map_to_list (ip_slot_run ex_parse6 ex_wfrom ex_wto [IClaim 6 1; IClaim 8 3; IClaim (7 + 2 ^ 64) 4]) = [(1, 1); (2, 4)].
Proof.
  split; [vm_compute; repeat split; congruence|]. split; [vm_compute; reflexivity|].
  split; vm_compute; reflexivity.
Qed.
(*@ C82_any_width_find_free *)
Example C82_find_free_example :
  snd (ip_run ex_parse6 (ip_new ex_wfrom ex_wto : iptable N)
    [IFindFree; IClaim (5 + 2 ^ 64) 1; IFindFree; IClaim 6 2; IClaim 7 3; IFindFree; IGetAll])
  = [IRAddr (Ok (Addr K6 5 0)); IRUnit (Ok tt); IRAddr (Ok (Addr K6 6 0)); IRUnit (Ok tt); IRUnit (Ok tt);
     IRAddr (Err ENoFree); IRDatas (Ok [1; 2; 3])].
Proof. vm_compute. reflexivity. Qed.
(*@ C18_new_table_is_empty *)
Example C18_new_example :
  snd (ip_run ex_parse (ip_new ex_from ex_to : iptable N) [IHas 0; ISize; IGetAll]) = [IRBool false; IRInt 0; IRDatas (Ok [])].
Proof. vm_compute. reflexivity. Qed.
(*@ C82_any_width_listing *)
Example C82_listing_example :
  snd (ip_run ex_parse6 (ip_new ex_wfrom ex_wto) [IClaim (7 + 2 ^ 64) 4; IClaim 6 1; IGetAll; IGetByLabel (N.eqb 4)])
  = [IRUnit (Ok tt); IRUnit (Ok tt); IRDatas (Ok [1; 4]); IRDatas (Ok [4])].
Proof. vm_compute. reflexivity. Qed.
