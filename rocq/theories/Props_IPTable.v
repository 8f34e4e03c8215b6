(** Generated by tools/genprops.py from IPTableFinal.v; only statements,
    each closed by the lemma of the same name with suffix _pf. *)
From Verif Require Import IPTableSpec IPTableFinal.

(** For ranges of at most 2^64 addresses the index is the distance from the
    first address, and converting back gives the address. *)
Theorem C17_address_index_bijection_partial :
  forall from to : addr, ip_range from to -> a_val to - a_val from < 2 ^ 64 ->
    (forall a, in_ip_range from to a ->
       calculate_index a from = a_val a - a_val from /\
       calculate_ip_from_index from (calculate_index a from) = Ok a) /\
    (forall a b, in_ip_range from to a -> in_ip_range from to b ->
       calculate_index a from = calculate_index b from -> a = b) /\
    (forall k, k <= a_val to - a_val from ->
       exists a, calculate_ip_from_index from k = Ok a /\ in_ip_range from to a /\
                 calculate_index a from = k).
Proof. exact C17_address_index_bijection_partial_pf. Qed.
Print Assumptions C17_address_index_bijection_partial.

Definition v4 (x : N) : addr := Addr K4 (v4_base + x) 0.
(** 10.0.0.250 .. 10.0.1.10 *)
Definition ex_from : addr := v4 0x0a0000fa.
Definition ex_to : addr := v4 0x0a00010a.
Example ex_range : ip_range ex_from ex_to.
Proof. vm_compute. repeat split; congruence. Qed.
Example C17_example :
  in_ip_range ex_from ex_to (v4 0x0a000100) /\
  calculate_index (v4 0x0a000100) ex_from = 6 /\
  calculate_ip_from_index ex_from 6 = Ok (v4 0x0a000100) /\
  calculate_ip_from_index (Addr K6 (2 ^ 128 - 2) 0) 1 = Ok (Addr K6 (2 ^ 128 - 1) 0).
Proof. vm_compute. repeat split; congruence. Qed.

(** Every IPv4 range qualifies. *)
Theorem C17_ipv4_ranges_qualify :
  forall from to : addr, ip_range from to -> a_kind from = K4 -> a_val to - a_val from < 2 ^ 32.
Proof. exact C17_ipv4_ranges_qualify_pf. Qed.
Print Assumptions C17_ipv4_ranges_qualify.

Example C17_ipv4_example : a_kind ex_from = K4 /\ a_val ex_to - a_val ex_from = 16.
Proof. split; reflexivity. Qed.

(** Every wider (hence IPv6) range has two addresses with one index. *)
Theorem C17_wide_ranges_refuted :
  forall from to : addr, ip_range from to -> 2 ^ 64 <= a_val to - a_val from ->
    exists a b, a <> b /\ in_ip_range from to a /\ in_ip_range from to b /\
      calculate_index a from = calculate_index b from.
Proof. exact C17_wide_ranges_refuted_pf. Qed.
Print Assumptions C17_wide_ranges_refuted.

Definition wide_from : addr := Addr K6 (0x20010db8 * 2 ^ 96) 0.
Definition wide_to : addr := Addr K6 (0x20010db8 * 2 ^ 96 + 2 ^ 80 - 1) 0.
Example C17_wide_example : ip_range wide_from wide_to /\ 2 ^ 64 <= a_val wide_to - a_val wide_from.
Proof. vm_compute. repeat split; congruence. Qed.

Theorem C18_iptable_is_a_map_over_addresses_partial :
  forall (S D : Type) (parse : S -> option addr) (from to : addr) (r : iptable D) (os : list (iop S D)),
    ip_range from to -> a_val to - a_val from < 2 ^ 64 -> ip_reachable parse from to r ->
    forallb ip_single os = true ->
    snd (ip_run parse r os) = snd (ip_spec_run parse from to (ip_claimed r) os) /\
    ip_claimed (fst (ip_run parse r os)) = fst (ip_spec_run parse from to (ip_claimed r) os).
Proof. exact C18_iptable_is_a_map_over_addresses_partial_pf. Qed.
Print Assumptions C18_iptable_is_a_map_over_addresses_partial.

(** Strings are numbers here: [n < 2^32] stands for the IPv4 address, everything
    else does not parse. *)
Definition ex_parse (n : N) : option addr := if n <? 2 ^ 32 then Some (v4 n) else None.
Definition ex_ip : iptable N :=
  fst (ip_run ex_parse (ip_new ex_from ex_to) [IClaim 0x0a0000fa 1; IClaim 0x0a000100 2; IUpdate 0x0a000100 3]).
Example C18_example :
  ip_reachable ex_parse ex_from ex_to ex_ip /\
  snd (ip_run ex_parse ex_ip
    [IClaim 0x0a000100 9; IGet 0x0a000100; IClaim 0x0a0000f9 1; IClaim (2 ^ 40) 1; IRelease 0x0a0000fa; ISize;
     IHas 0x0a0000fa; IIsFree 0x0a0000fa; IUpdate 0x0a0000fa 4])
  = [IRUnit (Err EAlreadyClaimed); IRData (Ok 3); IRUnit (Err EOutsideRange); IRUnit (Err EBadAddr);
     IRUnit (Ok tt); IRInt 1; IRBool false; IRBool true; IRUnit (Err ENotClaimed)].
Proof. split; [eexists; reflexivity|]. vm_compute. reflexivity. Qed.

Theorem C18_new_table_is_empty :
  forall (D : Type) (from to : addr), ip_claimed (ip_new from to : iptable D) = ∅.
Proof. exact C18_new_table_is_empty_pf. Qed.
Print Assumptions C18_new_table_is_empty.

Example C18_new_example :
  snd (ip_run ex_parse (ip_new ex_from ex_to : iptable N) [IHas 0; ISize; IGetAll]) = [IRBool false; IRInt 0; IRDatas (Ok [])].
Proof. vm_compute. reflexivity. Qed.

(** In every wider range two different addresses interfere: after claiming the
    first address, the one 2^64 further is reported as claimed, with its data. *)
Theorem C18_wide_ranges_refuted :
  forall (S D : Type) (parse : S -> option addr) (from to a : addr) (s1 s2 : S) (d d' : D),
    ip_range from to -> in_ip_range from to a -> a_val a = a_val from + 2 ^ 64 ->
    parse s1 = Some from -> parse s2 = Some a ->
    snd (ip_run parse (ip_new from to) [IClaim s1 d; IGet s2; IClaim s2 d']) =
    [IRUnit (Ok tt); IRData (Ok d); IRUnit (Err EAlreadyClaimed)].
Proof. exact C18_wide_ranges_refuted_pf. Qed.
Print Assumptions C18_wide_ranges_refuted.

Example C18_wide_example :
  in_ip_range wide_from wide_to (Addr K6 (a_val wide_from + 2 ^ 64) 0).
Proof. vm_compute. repeat split; congruence. Qed.

Theorem C19_find_free_lowest_partial :
  forall (S D : Type) (parse : S -> option addr) (from to : addr) (r : iptable D),
    ip_range from to -> a_val to - a_val from < 2 ^ 64 - 1 -> ip_reachable parse from to r ->
    (exists a, ip_step parse r IFindFree = (r, IRAddr (Ok a)) /\ in_ip_range from to a /\
       ip_unclaimed from to (ip_claimed r) (a_val a) /\
       (forall v, ip_unclaimed from to (ip_claimed r) v -> a_val a <= v) /\
       (forall s d, parse s = Some a -> snd (ip_step parse r (IClaim s d)) = IRUnit (Ok tt))) \/
    (ip_step parse r IFindFree = (r, IRAddr (Err ENoFree)) /\
       forall v, ~ ip_unclaimed from to (ip_claimed r) v).
Proof. exact C19_find_free_lowest_partial_pf. Qed.
Print Assumptions C19_find_free_lowest_partial.

Example C19_example :
  snd (ip_step ex_parse ex_ip IFindFree) = IRAddr (Ok (v4 0x0a0000fb)) /\
  snd (ip_step ex_parse (fst (ip_run ex_parse (ip_new ex_from ex_from) [IClaim 0x0a0000fa 1])) IFindFree)
    = IRAddr (Err ENoFree).
Proof. split; vm_compute; reflexivity. Qed.

(** A range of exactly 2^64 addresses (an IPv6 /64): the computed size wraps to
    0 and FindFree always fails, even on the empty table. *)
Theorem C19_slash64_refuted :
  forall (S D : Type) (parse : S -> option addr) (from to : addr) (r : iptable D),
    ip_range from to -> a_val to - a_val from = 2 ^ 64 - 1 -> ip_reachable parse from to r ->
    ip_step parse r IFindFree = (r, IRAddr (Err ENoFree)).
Proof. exact C19_slash64_refuted_pf. Qed.
Print Assumptions C19_slash64_refuted.

Example C19_slash64_example :
  let to := Addr K6 (a_val wide_from + 2 ^ 64 - 1) 0 in
  ip_range wide_from to /\ a_val to - a_val wide_from = 2 ^ 64 - 1 /\
  ip_unclaimed wide_from to (∅ : gmap N N) (a_val wide_from).
Proof. vm_compute. repeat split; congruence. Qed.

(** GetAll returns the data of the claimed addresses in ascending address
    order, GetByLabel the matching ones of that list. *)
Theorem C56_iptable_listing :
  forall (S D : Type) (parse : S -> option addr) (from to : addr) (r : iptable D) (sel : D -> bool),
    ip_range from to -> a_val to - a_val from < 2 ^ 64 -> ip_reachable parse from to r ->
    N.of_nat (size (ip_claimed r)) < 2 ^ 64 ->
    exists vds : list (N * D),
      ascending (map fst vds) /\
      (forall v d, (v, d) ∈ vds <-> ip_claimed r !! v = Some d) /\
      ip_step parse r IGetAll = (r, IRDatas (Ok (map snd vds))) /\
      ip_step parse r (IGetByLabel sel) = (r, IRDatas (Ok (List.filter sel (map snd vds)))).
Proof. exact C56_iptable_listing_pf. Qed.
Print Assumptions C56_iptable_listing.

Example C56_example :
  snd (ip_step ex_parse ex_ip IGetAll) = IRDatas (Ok [1; 3]) /\
  snd (ip_step ex_parse ex_ip (IGetByLabel (N.leb 2))) = IRDatas (Ok [3]).
Proof. split; vm_compute; reflexivity. Qed.

(** Bounds that are no range: every call that takes an address fails, and nothing
    is ever claimed. *)
Theorem C81_no_range_refuses_all :
  forall (S D : Type) (parse : S -> option addr) (from to : addr) (r : iptable D) (s : S) (d : D) (sel : D -> bool),
    no_ip_range from to -> ip_reachable parse from to r ->
    let e := match parse s with None => EBadAddr | Some _ => EOutsideRange end in
    ip_step parse r (IGet s) = (r, IRData (Err e)) /\
    ip_step parse r (IClaim s d) = (r, IRUnit (Err e)) /\
    ip_step parse r (IUpdate s d) = (r, IRUnit (Err e)) /\
    ip_step parse r (IRelease s) = (r, IRUnit (Err e)) /\
    ip_step parse r (IHas s) = (r, IRBool false) /\
    ip_step parse r (IIsFree s) = (r, IRBool false) /\
    ip_step parse r ISize = (r, IRInt 0) /\
    ip_step parse r IGetAll = (r, IRDatas (Ok [])) /\
    ip_step parse r (IGetByLabel sel) = (r, IRDatas (Ok [])).
Proof. exact C81_no_range_refuses_all_pf. Qed.
Print Assumptions C81_no_range_refuses_all.

Example C81_no_range_example :
  no_ip_range (Addr K6 5 1) (Addr K6 9 2) /\ no_ip_range ex_to ex_from /\ no_ip_range (Addr KZero 0 0) ex_to /\
  snd (ip_run ex_parse (ip_new ex_to ex_from) [IClaim 0x0a0000fa 1; IClaim (2 ^ 40) 1; IIsFree 0x0a0000fa; IGetAll])
  = [IRUnit (Err EOutsideRange); IRUnit (Err EBadAddr); IRBool false; IRDatas (Ok [])].
Proof.
  split; [do 2 right; left; discriminate|]. split; [do 3 right; vm_compute; reflexivity|].
  split; [left; reflexivity|]. vm_compute. reflexivity.
Qed.

(** FindFree on such a table always returns the first bound (without its zone, as
    an IPv6 address if it is not set), unless the distance of the bounds plus 1 is a
    multiple of 2^64. *)
Theorem C81_no_range_find_free :
  forall (S D : Type) (parse : S -> option addr) (from to : addr) (r : iptable D),
    addr_wf from -> addr_wf to -> no_ip_range from to -> ip_reachable parse from to r ->
    ip_step parse r IFindFree =
      (r, IRAddr (if ((Z.of_N (a_val to) - Z.of_N (a_val from) + 1) mod 2 ^ 64 =? 0)%Z then Err ENoFree
                  else Ok (Addr (match a_kind from with K4 => K4 | _ => K6 end) (a_val from) 0))).
Proof. exact C81_no_range_find_free_pf. Qed.
Print Assumptions C81_no_range_find_free.

Example C81_find_free_example :
  snd (ip_step ex_parse (ip_new ex_to ex_from : iptable N) IFindFree) = IRAddr (Ok ex_to) /\
  snd (ip_step ex_parse (ip_new (v4 1) (v4 0) : iptable N) IFindFree) = IRAddr (Err ENoFree) /\
  addr_wf ex_from /\ addr_wf ex_to /\ no_ip_range ex_to ex_from.
Proof.
  assert (H : addr_wf ex_from /\ addr_wf ex_to) by (vm_compute; repeat split; congruence).
  split; [|split; [vm_compute; reflexivity|split; [apply H|split; [apply H|do 3 right; vm_compute; reflexivity]]]].
  rewrite (C81_no_range_find_free N N ex_parse ex_to ex_from);
    [reflexivity|apply H|apply H|do 3 right; vm_compute; reflexivity|exists []; reflexivity].
Qed.

(** An IPv6 range with a zone: Claim takes the addresses without a zone above the
    first bound and no others; FindFree always returns the first bound without its
    zone, which Claim refuses. *)
Theorem C81_zoned_range :
  forall (S D : Type) (parse : S -> option addr) (from to : addr) (r : iptable D),
    zoned_ip_range from to -> a_val to - a_val from + 1 < 2 ^ 64 -> ip_reachable parse from to r ->
    ip_step parse r IFindFree = (r, IRAddr (Ok (Addr K6 (a_val from) 0))) /\
    (forall s d, parse s = Some (Addr K6 (a_val from) 0) ->
       ip_step parse r (IClaim s d) = (r, IRUnit (Err EOutsideRange))) /\
    (forall s a d, parse s = Some a ->
       let '(r', x) := ip_step parse r (IClaim s d) in
       above_zoned from to a /\ ip_claimed r !! a_val a = None /\
         x = IRUnit (Ok tt) /\ ip_claimed r' = <[a_val a := d]> (ip_claimed r) \/
       above_zoned from to a /\ is_Some (ip_claimed r !! a_val a) /\
         x = IRUnit (Err EAlreadyClaimed) /\ r' = r \/
       ~ above_zoned from to a /\ x = IRUnit (Err EOutsideRange) /\ r' = r).
Proof. exact C81_zoned_range_pf. Qed.
Print Assumptions C81_zoned_range.

(** Strings are numbers here, for the IPv6 address without a zone. *)
Definition ex_zfrom : addr := Addr K6 5 1.
Definition ex_zto : addr := Addr K6 9 1.
Definition ex_parse6 (n : N) : option addr := Some (Addr K6 n 0).
Example C81_zoned_example :
  zoned_ip_range ex_zfrom ex_zto /\
  snd (ip_run ex_parse6 (ip_new ex_zfrom ex_zto) [IFindFree; IClaim 5 1; IClaim 6 2; IFindFree; IClaim 6 3; IClaim 9 4; IClaim 10 5])
  = [IRAddr (Ok (Addr K6 5 0)); IRUnit (Err EOutsideRange); IRUnit (Ok tt); IRAddr (Ok (Addr K6 5 0));
     IRUnit (Err EAlreadyClaimed); IRUnit (Ok tt); IRUnit (Err EOutsideRange)].
Proof. split; [vm_compute; repeat split; congruence|vm_compute; reflexivity]. Qed.

(** So FindFree can return an address that Claim refuses. *)
Theorem C81_found_is_claimable_refuted :
  exists from to : addr, addr_wf from /\ addr_wf to /\ a_kind from = a_kind to /\ a_kind from = K4 /\
    forall (S D : Type) (parse : S -> option addr) (r : iptable D), ip_reachable parse from to r ->
      ip_step parse r IFindFree = (r, IRAddr (Ok from)) /\
      forall s d, parse s = Some from -> ip_step parse r (IClaim s d) = (r, IRUnit (Err EOutsideRange)).
Proof. exact C81_found_is_claimable_refuted_pf. Qed.
Print Assumptions C81_found_is_claimable_refuted.

(** Over a range of any width, after any calls: addresses a multiple of 2^64 apart
    share a slot, and slots from [ip_slots] on cannot be claimed. *)
Theorem C82_any_width_calls :
  forall (S D : Type) (parse : S -> option addr) (from to : addr) (os : list (iop S D)) (o : iop S D),
    ip_range from to -> ip_single o = true ->
    snd (ip_step parse (fst (ip_run parse (ip_new from to) os)) o)
    = snd (ip_slot_spec parse from to (ip_slot_run parse from to os) o).
Proof. exact C82_any_width_calls_pf. Qed.
Print Assumptions C82_any_width_calls.

(** A range of 2^64 + 3 addresses has 3 slots. *)
Definition ex_wto : addr := Addr K6 (5 + 2 ^ 64 + 2) 0.
Definition ex_wfrom : addr := Addr K6 5 0.
Example C82_example :
  ip_range ex_wfrom ex_wto /\ ip_slots ex_wfrom ex_wto = 3 /\
  snd (ip_run ex_parse6 (ip_new ex_wfrom ex_wto)
    [IClaim 6 1; IGet (6 + 2 ^ 64); IClaim (6 + 2 ^ 64) 2; IClaim 8 3; IIsFree 8; IRelease (6 + 2 ^ 64); IHas 6; IClaim 4 1])
  = [IRUnit (Ok tt); IRData (Ok 1); IRUnit (Err EAlreadyClaimed); IRUnit (Err EIdTooBig); IRBool true;
     IRUnit (Ok tt); IRBool false; IRUnit (Err EOutsideRange)] /\
  map_to_list (ip_slot_run ex_parse6 ex_wfrom ex_wto [IClaim 6 1; IClaim 8 3; IClaim (7 + 2 ^ 64) 4]) = [(1, 1); (2, 4)].
Proof.
  split; [vm_compute; repeat split; congruence|]. split; [vm_compute; reflexivity|].
  split; vm_compute; reflexivity.
Qed.

(** FindFree returns the address of the lowest unclaimed slot; it finds none if all
    are claimed, or if the number of addresses is a multiple of 2^64. *)
Theorem C82_any_width_find_free :
  forall (S D : Type) (parse : S -> option addr) (from to : addr) (os : list (iop S D)),
    ip_range from to ->
    let m := ip_slot_run parse from to os in
    let x := snd (ip_step parse (fst (ip_run parse (ip_new from to) os)) IFindFree) in
    (exists k, x = IRAddr (Ok (Addr (a_kind from) (a_val from + k) 0)) /\
       ip_slots from to <> 2 ^ 64 /\ k < ip_slots from to /\ m !! k = None /\
       (forall j, j < k -> is_Some (m !! j)) /\ in_ip_range from to (Addr (a_kind from) (a_val from + k) 0)) \/
    (x = IRAddr (Err ENoFree) /\ (ip_slots from to = 2 ^ 64 \/ forall k, k < ip_slots from to -> is_Some (m !! k))).
Proof. exact C82_any_width_find_free_pf. Qed.
Print Assumptions C82_any_width_find_free.

Example C82_find_free_example :
  snd (ip_run ex_parse6 (ip_new ex_wfrom ex_wto : iptable N)
    [IFindFree; IClaim (5 + 2 ^ 64) 1; IFindFree; IClaim 6 2; IClaim 7 3; IFindFree; IGetAll])
  = [IRAddr (Ok (Addr K6 5 0)); IRUnit (Ok tt); IRAddr (Ok (Addr K6 6 0)); IRUnit (Ok tt); IRUnit (Ok tt);
     IRAddr (Err ENoFree); IRDatas (Ok [1; 2; 3])].
Proof. vm_compute. reflexivity. Qed.

(** GetAll and GetByLabel list the slots in ascending order. *)
Theorem C82_any_width_listing :
  forall (S D : Type) (parse : S -> option addr) (from to : addr) (os : list (iop S D)) (sel : D -> bool),
    ip_range from to ->
    let m := ip_slot_run parse from to os in
    let r := fst (ip_run parse (ip_new from to) os) in
    N.of_nat (size m) < 2 ^ 64 ->
    exists kds : list (N * D),
      ascending (map fst kds) /\ (forall k d, (k, d) ∈ kds <-> m !! k = Some d) /\
      snd (ip_step parse r IGetAll) = IRDatas (Ok (map snd kds)) /\
      snd (ip_step parse r (IGetByLabel sel)) = IRDatas (Ok (List.filter sel (map snd kds))).
Proof. exact C82_any_width_listing_pf. Qed.
Print Assumptions C82_any_width_listing.

Example C82_listing_example :
  snd (ip_run ex_parse6 (ip_new ex_wfrom ex_wto) [IClaim (7 + 2 ^ 64) 4; IClaim 6 1; IGetAll; IGetByLabel (N.eqb 4)])
  = [IRUnit (Ok tt); IRUnit (Ok tt); IRDatas (Ok [1; 4]); IRDatas (Ok [4])].
Proof. vm_compute. reflexivity. Qed.
