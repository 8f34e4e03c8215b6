(** Proofs of the property statements of pkg/iptable. *)
From Verif Require Import IPTableSpec IdxTableProofs TableNProofs IPTableProofs.
From Coq Require Import Lia ZifyBool ZifyNat ZifyN.

(* ------------------------------------------------------------------ C17 *)
(** For ranges of at most 2^64 addresses the index is the distance from the
    first address, and converting back gives the address. *)
Lemma C17_address_index_bijection_partial_pf :
  forall from to : addr, ip_range from to -> a_val to - a_val from < 2 ^ 64 ->
    (forall a, in_ip_range from to a ->
       calculate_index a from = a_val a - a_val from /\
       calculate_ip_from_index from (calculate_index a from) = Ok a) /\
    (forall a b, in_ip_range from to a -> in_ip_range from to b ->
       calculate_index a from = calculate_index b from -> a = b) /\
    (forall k, k <= a_val to - a_val from ->
       exists a, calculate_ip_from_index from k = Ok a /\ in_ip_range from to a /\
                 calculate_index a from = k).
Proof.
  intros from to Hr Hn.
  assert (H1 : forall a, in_ip_range from to a ->
       calculate_index a from = a_val a - a_val from /\
       calculate_ip_from_index from (calculate_index a from) = Ok a).
  { intros a Ha. assert (Hi : calculate_index a from = a_val a - a_val from).
    { apply (calculate_index_small from to); [done..|]. destruct Ha as (_ & _ & ?). lia. }
    split; [done|]. rewrite Hi. destruct Ha as (Hk & Hz & Hv).
    rewrite (from_index_spec from to) by (done || lia). f_equal.
    destruct a as [k v z]. cbn in *. subst. f_equal. lia. }
  split; [done|]. split.
  - intros a b Ha Hb Heq. destruct (H1 a Ha) as [_ Ea], (H1 b Hb) as [_ Eb].
    rewrite Heq in Ea. congruence.
  - intros k Hk. eexists. rewrite (from_index_spec from to) by done. split; [done|].
    assert (Hin : in_ip_range from to (Addr (a_kind from) (a_val from + k) 0)).
    { split; [done|]. split; [done|]. destruct Hr as (_ & _ & _ & _ & _ & _ & Hle). cbn. lia. }
    split; [done|]. destruct (H1 _ Hin) as [-> _]. cbn. lia.
Qed.

(** Every IPv4 range qualifies. *)
Lemma C17_ipv4_ranges_qualify_pf :
  forall from to : addr, ip_range from to -> a_kind from = K4 -> a_val to - a_val from < 2 ^ 32.
Proof.
  intros from to (Hf & Ht & _ & _ & Hk & _) Hk4. unfold addr_wf in *. rewrite <- Hk, Hk4 in *. lia.
Qed.

(** Every wider (hence IPv6) range has two addresses with one index. *)
Lemma C17_wide_ranges_refuted_pf :
  forall from to : addr, ip_range from to -> 2 ^ 64 <= a_val to - a_val from ->
    exists a b, a <> b /\ in_ip_range from to a /\ in_ip_range from to b /\
      calculate_index a from = calculate_index b from.
Proof.
  intros from to Hr Hw. pose proof (ip_range_bounds _ _ Hr) as (Hb & _).
  pose proof Hr as (_ & _ & Hz & _ & _ & _ & Hle).
  assert (Ha : in_ip_range from to from) by (split; [done|]; split; [done|lia]).
  assert (Hb' : in_ip_range from to (Addr (a_kind from) (a_val from + 2 ^ 64) 0)).
  { split; [done|]. split; [done|]. cbn [a_val]. lia. }
  exists from, (Addr (a_kind from) (a_val from + 2 ^ 64) 0).
  split. { intros He. apply (f_equal a_val) in He. cbn [a_val] in He. lia. }
  split; [done|]. split; [done|].
  rewrite !(calculate_index_spec from to) by done. cbn [a_val].
  replace (a_val from + 2 ^ 64 - a_val from) with (0 + 1 * 2 ^ 64) by lia.
  rewrite N.mod_add by done. f_equal. lia.
Qed.

(* ------------------------------------------------------------------ C18 *)
Lemma C18_iptable_is_a_map_over_addresses_partial_pf :
  forall (S D : Type) (parse : S -> option addr) (from to : addr) (r : iptable D) (os : list (iop S D)),
    ip_range from to -> a_val to - a_val from < 2 ^ 64 -> ip_reachable parse from to r ->
    forallb ip_single os = true ->
    snd (ip_run parse r os) = snd (ip_spec_run parse from to (ip_claimed r) os) /\
    ip_claimed (fst (ip_run parse r os)) = fst (ip_spec_run parse from to (ip_claimed r) os).
Proof.
  intros S D parse from to r os Hr Hn Hre Hs. apply ip_reachable_wf in Hre; [|done].
  revert r Hre. induction os as [|o os IH]; intros r Hwf; [done|].
  cbn [forallb] in Hs. apply andb_true_iff in Hs as [Hs Hss].
  pose proof (ip_step_wf parse from to r o Hr Hwf) as Hw1.
  pose proof (ip_single_step parse from to r o Hr Hn Hwf Hs) as Hstep.
  cbn [ip_run ip_spec_run]. destruct (ip_step parse r o) as [r1 x].
  destruct (ip_spec parse from to (ip_claimed r) o) as [m1 y]. cbn [fst snd] in *.
  destruct Hstep as [<- <-]. specialize (IH Hss r1 Hw1).
  destruct (ip_run parse r1 os) as [r2 xs].
  destruct (ip_spec_run parse from to (ip_claimed r1) os) as [m2 ys]. cbn [fst snd] in *.
  destruct IH as [-> ->]. done.
Qed.

Lemma C18_new_table_is_empty_pf :
  forall (D : Type) (from to : addr), ip_claimed (ip_new from to : iptable D) = ∅.
Proof.
  intros D from to. unfold ip_claimed, claimed. cbn [ip_new ip_table new_table t_map].
  by rewrite fmap_empty, kmap_empty.
Qed.

(** In every wider range two different addresses interfere: after claiming the
    first address, the one 2^64 further is reported as claimed, with its data. *)
Lemma C18_wide_ranges_refuted_pf :
  forall (S D : Type) (parse : S -> option addr) (from to a : addr) (s1 s2 : S) (d d' : D),
    ip_range from to -> in_ip_range from to a -> a_val a = a_val from + 2 ^ 64 ->
    parse s1 = Some from -> parse s2 = Some a ->
    snd (ip_run parse (ip_new from to) [IClaim s1 d; IGet s2; IClaim s2 d']) =
    [IRUnit (Ok tt); IRData (Ok d); IRUnit (Err EAlreadyClaimed)].
Proof.
  intros S D parse from to a s1 s2 d d' Hr Ha Hv H1 H2.
  pose proof (ip_range_bounds _ _ Hr) as (Hb & _).
  pose proof Hr as (_ & _ & Hz & _ & _ & _ & Hle).
  assert (Hf : in_ip_range from to from) by (split; [done|]; split; [done|lia]).
  assert (Hi1 : calculate_index from from = 0).
  { rewrite (calculate_index_spec from to) by done. replace (a_val from - a_val from) with 0 by lia. done. }
  assert (Hi2 : calculate_index a from = 0).
  { rewrite (calculate_index_spec from to) by done. rewrite Hv.
    replace (a_val from + 2 ^ 64 - a_val from) with (2 ^ 64) by lia. done. }
  assert (Hval : forall t : table D, forall s x, parse s = Some x -> in_ip_range from to x ->
    ip_validate parse (IPTable t from to) s = Ok x).
  { intros t s x Hp Hx. unfold ip_validate. rewrite Hp. cbn [ip_from ip_to].
    rewrite contains_spec by done. by apply in_ip_rangeb_spec in Hx as ->. }
  pose proof (num_ips_lt _ _ Hr) as Hlt. pose proof (capacity_pos (num_ips from to)) as Hcp.
  assert (Hw : wf (num_ips from to) (new_table (num_ips from to) : table D)) by apply wf_new.
  change (ip_new from to) with (IPTable (new_table (num_ips from to) : table D) from to).
  cbn [ip_run ip_step]. unfold ip_claim. rewrite (Hval _ s1 from) by done.
  cbn [ip_from ip_table]. rewrite Hi1. unfold is_free_op at 1, is_free. cbn [new_table t_map].
  rewrite lookup_empty. cbn [negb]. unfold claim. rewrite (add_spec (num_ips from to)) by done.
  destruct (N.ltb_spec 0 (capacity (num_ips from to))); [|lia].
  replace (claimed (new_table (num_ips from to)) !! 0) with (@None D) by done.
  unfold ip_with. cbn [ip_from ip_to ip_table new_table t_size t_map].
  unfold ip_get. rewrite (Hval _ s2 a) by done. cbn [rbind ip_table ip_from]. rewrite Hi2.
  unfold get. rewrite (validate_spec (num_ips from to)) by done.
  destruct (N.ltb_spec 0 (capacity (num_ips from to))); [|lia]. cbn [rbind t_map].
  rewrite lookup_insert. cbn [rbind e_data].
  unfold is_free_op, is_free. cbn [t_map]. rewrite lookup_insert. done.
Qed.

(* ------------------------------------------------------------------ C19 *)
Lemma C19_find_free_lowest_partial_pf :
  forall (S D : Type) (parse : S -> option addr) (from to : addr) (r : iptable D),
    ip_range from to -> a_val to - a_val from < 2 ^ 64 - 1 -> ip_reachable parse from to r ->
    (exists a, ip_step parse r IFindFree = (r, IRAddr (Ok a)) /\ in_ip_range from to a /\
       ip_unclaimed from to (ip_claimed r) (a_val a) /\
       (forall v, ip_unclaimed from to (ip_claimed r) v -> a_val a <= v) /\
       (forall s d, parse s = Some a -> snd (ip_step parse r (IClaim s d)) = IRUnit (Ok tt))) \/
    (ip_step parse r IFindFree = (r, IRAddr (Err ENoFree)) /\
       forall v, ~ ip_unclaimed from to (ip_claimed r) v).
Proof.
  intros S D parse from to r Hr Hn Hre. apply ip_reachable_wf in Hre as Hwf; [|done].
  pose proof Hwf as (Hf & Ht & Hw). pose proof (num_ips_lt _ _ Hr) as Hlt.
  pose proof (ip_range_bounds _ _ Hr) as (Hb & _).
  assert (Hsz : num_ips from to = a_val to - a_val from + 1).
  { rewrite num_ips_spec by done. apply N.mod_small. lia. }
  pose proof (find_free_cases _ _ Hw Hlt) as Hff.
  assert (Huc : forall v, ip_unclaimed from to (ip_claimed r) v <->
    a_val from <= v /\ unclaimed (num_ips from to) (claimed (ip_table r)) (v - a_val from)).
  { intros v. unfold ip_unclaimed, unclaimed. rewrite (ip_claimed_lookup from to) by done.
    destruct (N.leb_spec (a_val from) v); rewrite Hsz; split; intros Hh; intuition lia. }
  cbn [ip_step]. unfold ip_find_free.
  destruct (it_keys (iterate_free (ip_table r))) as [|x l] eqn:Hkeys; rewrite Hff; cbn [rbind].
  - right. split; [done|]. intros v [_ Hv]%Huc. by apply (keys_nil _ _ Hw) with (j := v - a_val from) in Hkeys.
  - left. destruct (lowest_head _ _ _ _ Hw Hkeys) as [Hu Hmin].
    assert (Hx : x <= a_val to - a_val from) by (destruct Hu; lia).
    exists (Addr (a_kind from) (a_val from + x) 0).
    rewrite Hf, (from_index_spec from to) by done. split; [done|].
    assert (Hin : in_ip_range from to (Addr (a_kind from) (a_val from + x) 0)).
    { split; [done|]. split; [done|]. cbn [a_val]. lia. }
    assert (Hun : ip_unclaimed from to (ip_claimed r) (a_val from + x)).
    { apply Huc. split; [lia|]. replace (a_val from + x - a_val from) with x by lia. done. }
    split; [done|]. split; [done|]. split.
    + intros v Hv. apply Huc in Hv as [? Hv]. apply Hmin in Hv. cbn [a_val]. lia.
    + intros s d Hp. change (snd (ip_step parse r (IClaim s d)) = IRUnit (Ok tt)).
      destruct (ip_single_step parse from to r (IClaim s d) Hr) as [_ ->]; [unfold narrow; lia|done..|].
      cbn [ip_spec]. unfold ip_arg. rewrite Hp.
      pose proof Hin as Hin'. apply in_ip_rangeb_spec in Hin' as ->; [|done]. cbn [a_val].
      destruct Hun as [_ ->]. done.
Qed.

(** A range of exactly 2^64 addresses (an IPv6 /64): the computed size wraps to
    0 and FindFree always fails, even on the empty table. *)
Lemma C19_slash64_refuted_pf :
  forall (S D : Type) (parse : S -> option addr) (from to : addr) (r : iptable D),
    ip_range from to -> a_val to - a_val from = 2 ^ 64 - 1 -> ip_reachable parse from to r ->
    ip_step parse r IFindFree = (r, IRAddr (Err ENoFree)).
Proof.
  intros S D parse from to r Hr Hn Hre. apply ip_reachable_wf in Hre as Hwf; [|done].
  pose proof Hwf as (Hf & Ht & Hw). pose proof (num_ips_lt _ _ Hr) as Hlt.
  assert (Hsz : num_ips from to = 0) by (rewrite num_ips_spec, Hn by done; done).
  pose proof (find_free_cases _ _ Hw Hlt) as Hff. cbn [ip_step]. unfold ip_find_free.
  destruct (it_keys (iterate_free (ip_table r))) as [|x l] eqn:Hkeys; rewrite Hff; cbn [rbind]; [done|].
  exfalso. destruct (lowest_head _ _ _ _ Hw Hkeys) as [[? _] _]. lia.
Qed.

(* ------------------------------------------------------------------ C56 *)
Lemma ip_listing :
  forall (S D : Type) (parse : S -> option addr) (from to : addr) (r : iptable D) (sel : D -> bool),
    ip_range from to -> ip_reachable parse from to r ->
    N.of_nat (size (ip_claimed r)) < 2 ^ 64 ->
    exists vds : list (N * D),
      ascending (map fst vds) /\
      (forall v d, (v, d) ∈ vds <-> ip_claimed r !! v = Some d) /\
      ip_step parse r IGetAll = (r, IRDatas (Ok (map snd vds))) /\
      ip_step parse r (IGetByLabel sel) = (r, IRDatas (Ok (List.filter sel (map snd vds)))).
Proof.
  intros S D parse from to r sel Hr Hre Hsz. apply ip_reachable_wf in Hre as Hwf; [|done].
  pose proof Hwf as (Hf & Ht & Hw).
  destruct (iter_keys_spec (ip_table r)) as [Hasc Hin].
  set (ks := it_keys (iterate (ip_table r))) in *.
  assert (Hlen : N.of_nat (length ks) < 2 ^ 64).
  { unfold ks. rewrite iter_keys_length. unfold ip_claimed in Hsz. rewrite size_kmap in Hsz.
    unfold claimed in Hsz. by rewrite map_size_fmap in Hsz. }
  assert (Hga : get_all (ip_table r) = Ok ((fun k => t_map (ip_table r) !! k) <$> ks)).
  { unfold get_all. rewrite (drain_values_spec _ _ _ 0); [done|done|lia|done|lia]. }
  assert (Hloop : forall ks', (forall k, k ∈ ks' -> k ∈ ks) -> exists vds,
     map fst vds = map (N.add (a_val from)) ks' /\
     (forall v d, (v, d) ∈ vds -> ip_claimed r !! v = Some d) /\
     ip_data ((fun k => t_map (ip_table r) !! k) <$> ks') = Ok (map snd vds) /\
     ip_by_label sel ((fun k => t_map (ip_table r) !! k) <$> ks') = Ok (List.filter sel (map snd vds))).
  { induction ks' as [|k ks' IH]; intros Hsub.
    - exists []. split; [done|]. split; [|done]. intros v d H. by apply elem_of_nil in H.
    - destruct IH as (vds & H1 & H2 & H3 & H4); [intros j Hj; apply Hsub; by right|].
      assert (Hkk : k ∈ ks) by (apply Hsub; left).
      apply Hin, claimed_Some in Hkk as [e He].
      exists ((a_val from + k, e_data e) :: vds). split; [cbn; by rewrite H1|]. split.
      + intros v d Hvd. apply elem_of_cons in Hvd as [Hvd|Hvd]; [|by apply H2].
        injection Hvd as -> ->. rewrite (ip_claimed_lookup from to) by done.
        destruct (N.leb_spec (a_val from) (a_val from + k)); [|lia].
        replace (a_val from + k - a_val from) with k by lia. by rewrite claimed_lookup, He.
      + cbn [fmap list_fmap]. rewrite He. cbn [ip_data ip_by_label].
        change (list_fmap _ _ (fun k0 => t_map (ip_table r) !! k0) ks') with
          ((fun k0 => t_map (ip_table r) !! k0) <$> ks').
        rewrite H3, H4. cbn [rbind map snd List.filter]. split; [done|]. by destruct (sel _). }
  destruct (Hloop ks) as (vds & H1 & H2 & H3 & H4); [done|].
  exists vds. split.
  { rewrite H1. clear -Hasc. induction Hasc as [|x l Hs IH HF]; cbn; constructor; [done|].
    apply Forall_forall. intros y Hy. apply elem_of_list_fmap in Hy as (z & -> & Hz).
    rewrite Forall_forall in HF. specialize (HF _ Hz). lia. }
  split.
  { intros v d. split; [apply H2|]. intros Hv.
    assert (Hvv : v ∈ map fst vds).
    { rewrite H1. rewrite (ip_claimed_lookup from to) in Hv by done.
      destruct (N.leb_spec (a_val from) v); [|done]. apply elem_of_list_fmap.
      exists (v - a_val from). split; [lia|]. apply Hin. eauto. }
    apply elem_of_list_fmap in Hvv as ([v' d'] & -> & Hm). cbn [fst] in *.
    assert (Hd := H2 _ _ Hm). congruence. }
  cbn [ip_step]. unfold ip_get_all, ip_get_by_label. cbv zeta. unfold get_all in *.
  rewrite Hga. cbn [rbind]. rewrite H3, H4. done.
Qed.

(** GetAll returns the data of the claimed addresses in ascending address
    order, GetByLabel the matching ones of that list. *)
Lemma C56_iptable_listing_pf :
  forall (S D : Type) (parse : S -> option addr) (from to : addr) (r : iptable D) (sel : D -> bool),
    ip_range from to -> a_val to - a_val from < 2 ^ 64 -> ip_reachable parse from to r ->
    N.of_nat (size (ip_claimed r)) < 2 ^ 64 ->
    exists vds : list (N * D),
      ascending (map fst vds) /\
      (forall v d, (v, d) ∈ vds <-> ip_claimed r !! v = Some d) /\
      ip_step parse r IGetAll = (r, IRDatas (Ok (map snd vds))) /\
      ip_step parse r (IGetByLabel sel) = (r, IRDatas (Ok (List.filter sel (map snd vds)))).
Proof. intros S D parse from to r sel Hr _. by apply ip_listing. Qed.

(* ------------------------------------------------------------------ C81 *)
Lemma int_val a : addr_wf a -> ip_to_int a = a_val a.
Proof. unfold addr_wf, ip_to_int. destruct (a_kind a); [intros [-> _]|..]; done. Qed.

Lemma num_ips_any from to : addr_wf from -> addr_wf to ->
  Z.of_N (num_ips from to) = ((Z.of_N (a_val to) - Z.of_N (a_val from) + 1) mod 2 ^ 64)%Z.
Proof.
  intros Hf Ht. unfold num_ips. rewrite (int_val from), (int_val to) by done.
  generalize (Z.of_N (a_val to) - Z.of_N (a_val from))%Z as d. intros d.
  assert (Hl : Z.of_N (low64 d) = (Z.abs d mod 2 ^ 64)%Z).
  { unfold low64. rewrite N2Z.inj_mod, Z2N.id by apply Z.abs_nonneg. done. }
  rewrite Hl. clear Hl. cbv zeta. change (2 ^ 64)%Z with 18446744073709551616%Z.
  rewrite Z2N.id by (apply Z.mod_pos_bound; done).
  destruct (Z.ltb_spec d 0) as [Hd|Hd].
  - rewrite Z.abs_neq by lia. rewrite <- (Z.add_mod_idemp_l (- _)) by done.
    assert (E : (- (- d mod 18446744073709551616) mod 18446744073709551616 = d mod 18446744073709551616)%Z).
    { rewrite <- (Z.sub_0_l (_ mod _)), Zminus_mod_idemp_r. f_equal. lia. }
    rewrite E. by rewrite Z.add_mod_idemp_l by done.
  - rewrite Z.abs_eq by lia. by rewrite Z.add_mod_idemp_l by done.
Qed.

Lemma num_ips_any_lt from to : addr_wf from -> addr_wf to -> num_ips from to < 2 ^ 64.
Proof.
  intros Hf Ht. pose proof (num_ips_any _ _ Hf Ht) as H.
  pose proof (Z.mod_pos_bound (Z.of_N (a_val to) - Z.of_N (a_val from) + 1) (2 ^ 64) ltac:(done)) as Hb.
  rewrite <- H in Hb. change (2 ^ 64)%Z with (Z.of_N (2 ^ 64)) in Hb. lia.
Qed.

Lemma no_range_contains from to a : no_ip_range from to -> iprange_contains from to a = false.
Proof.
  intros Hno. assert (Hv : iprange_valid from to = false).
  { unfold iprange_valid. destruct Hno as [H|[H|[H|H]]].
    - by rewrite H.
    - unfold bit_len. by destruct (a_kind from), (a_kind to).
    - apply N.eqb_neq in H as ->. by rewrite andb_false_r.
    - unfold addr_compare, bit_len. assert (Hc : (a_val to ?= a_val from) = Lt) by done. rewrite Hc.
      by destruct (a_kind from), (a_kind to), (a_zone from =? a_zone to). }
  unfold iprange_contains. by rewrite Hv.
Qed.

Lemma no_range_refuses {S D} (parse : S -> option addr) (r : iptable D) s :
  no_ip_range (ip_from r) (ip_to r) ->
  ip_validate parse r s = Err match parse s with None => EBadAddr | Some _ => EOutsideRange end.
Proof. intros Hno. unfold ip_validate. destruct (parse s) as [a|]; [|done]. by rewrite no_range_contains. Qed.

Lemma no_range_state {S D} (parse : S -> option addr) (from to : addr) (r : iptable D) :
  no_ip_range from to -> ip_reachable parse from to r -> r = ip_new from to.
Proof.
  intros Hno [os <-]. remember (ip_new from to) as r0 eqn:E0.
  assert (H : forall o, fst (ip_step parse r0 o) = r0).
  { assert (Hv : forall s, exists e, ip_validate parse r0 s = Err e).
    { intros s. rewrite no_range_refuses by (subst; done). eauto. }
    intros o. destruct o as [s|s d|s|s d| |s|s| | |sel]; try done; cbn [ip_step];
      unfold ip_claim, ip_release, ip_update; destruct (Hv s) as [e ->]; done. }
  clear E0. induction os as [|o os IH]; [done|]. cbn [ip_run]. specialize (H o).
  destruct (ip_step parse r0 o) as [r1 x]. cbn [fst] in H. subst r1. by destruct (ip_run parse r0 os).
Qed.

(** Bounds that are no range: every call that takes an address fails, and nothing
    is ever claimed. *)
Lemma C81_no_range_refuses_all_pf :
  forall (S D : Type) (parse : S -> option addr) (from to : addr) (r : iptable D) (s : S) (d : D) (sel : D -> bool),
    no_ip_range from to -> ip_reachable parse from to r ->
    let e := match parse s with None => EBadAddr | Some _ => EOutsideRange end in
    ip_step parse r (IGet s) = (r, IRData (Err e)) /\
    ip_step parse r (IClaim s d) = (r, IRUnit (Err e)) /\
    ip_step parse r (IUpdate s d) = (r, IRUnit (Err e)) /\
    ip_step parse r (IRelease s) = (r, IRUnit (Err e)) /\
    ip_step parse r (IHas s) = (r, IRBool false) /\
    ip_step parse r (IIsFree s) = (r, IRBool false) /\
    ip_step parse r ISize = (r, IRInt 0) /\
    ip_step parse r IGetAll = (r, IRDatas (Ok [])) /\
    ip_step parse r (IGetByLabel sel) = (r, IRDatas (Ok [])).
Proof.
  intros S D parse from to r s d sel Hno Hre e. apply no_range_state in Hre; [|done].
  assert (Hv : ip_validate parse r s = Err e) by (apply no_range_refuses; subst; done).
  cbn [ip_step]. unfold ip_get, ip_claim, ip_update, ip_release, ip_has, ip_is_free. rewrite Hv. cbn [rbind].
  do 6 (split; [done|]). clear Hv. subst r. unfold ip_new, ip_size, ip_get_all, ip_get_by_label.
  cbn [ip_table ip_from ip_to]. generalize (num_ips from to). intros sz.
  assert (Hk : it_keys (iterate (new_table sz : table D)) = []).
  { apply length_zero_iff_nil. by rewrite iter_keys_length. }
  split; [done|]. unfold get_all. rewrite Hk. split; f_equal.
Qed.

Lemma free_at_zero {D} (sz : N) (t : table D) :
  wf sz t -> sz < 2 ^ 64 -> claimed t !! 0 = None -> find_free t = if sz =? 0 then Err ENoFree else Ok 0.
Proof.
  intros Hw Hsz H0. pose proof (find_free_cases _ _ Hw Hsz) as Hff.
  destruct (it_keys (iterate_free t)) as [|x l] eqn:Hkeys; rewrite Hff.
  - destruct (N.eqb_spec sz 0); [done|]. exfalso.
    apply (proj1 (keys_nil _ _ Hw) Hkeys 0). split; [lia|done].
  - destruct (lowest_head _ _ _ _ Hw Hkeys) as [[Hu _] Hmin]. destruct (N.eqb_spec sz 0); [lia|].
    f_equal. assert (x <= 0) by (apply Hmin; split; [lia|done]). lia.
Qed.

Lemma from_index_zero from : addr_wf from ->
  calculate_ip_from_index from 0 = Ok (Addr (match a_kind from with K4 => K4 | _ => K6 end) (a_val from) 0).
Proof.
  intros Hf. assert (Hlt : a_val from < 2 ^ 128).
  { unfold addr_wf, v4_base in Hf. destruct (a_kind from); [destruct Hf as [-> _]; done| |done].
    change (2 ^ 128) with 340282366920938463463374607431768211456. lia. }
  unfold calculate_ip_from_index. rewrite int_val, N.add_0_r, bytes16_small by done.
  unfold addr_wf in Hf. destruct (a_kind from); [done| |done].
  unfold is_4in6, v4_base in *. destruct Hf as [Hf _].
  assert (E : a_val from / 2 ^ 32 = 0xffff).
  { symmetry. apply (N.div_unique _ _ _ (a_val from - 0xffff00000000)); lia. }
  by rewrite E.
Qed.

(** FindFree on such a table always returns the first bound (without its zone, as
    an IPv6 address if it is not set), unless the distance of the bounds plus 1 is a
    multiple of 2^64. *)
Lemma C81_no_range_find_free_pf :
  forall (S D : Type) (parse : S -> option addr) (from to : addr) (r : iptable D),
    addr_wf from -> addr_wf to -> no_ip_range from to -> ip_reachable parse from to r ->
    ip_step parse r IFindFree =
      (r, IRAddr (if ((Z.of_N (a_val to) - Z.of_N (a_val from) + 1) mod 2 ^ 64 =? 0)%Z then Err ENoFree
                  else Ok (Addr (match a_kind from with K4 => K4 | _ => K6 end) (a_val from) 0))).
Proof.
  intros S D parse from to r Hf Ht Hno Hre. apply no_range_state in Hre as ->; [|done].
  cbn [ip_step]. f_equal. f_equal. unfold ip_find_free, ip_new. cbn [ip_table ip_from].
  rewrite <- num_ips_any by done.
  rewrite (free_at_zero (num_ips from to)); [|apply wf_new|by apply num_ips_any_lt|done].
  destruct (N.eqb_spec (num_ips from to) 0) as [->|Hne]; [done|].
  destruct (Z.eqb_spec (Z.of_N (num_ips from to)) 0); [lia|]. cbn [rbind]. by apply from_index_zero.
Qed.

Lemma zoned_contains from to a :
  zoned_ip_range from to -> iprange_contains from to a = true <-> above_zoned from to a.
Proof.
  intros (Hk1 & Hk2 & Hz1 & Hz2 & _ & _ & Hle). unfold above_zoned, iprange_contains, iprange_valid, addr_compare, bit_len.
  rewrite Hk1, Hk2, Hz2, !N.eqb_refl.
  destruct (N.eqb_spec (a_zone a) 0) as [->|Hza].
  2:{ rewrite !andb_false_r. cbn [andb]. split; [done|]. by intros (_ & ? & _). }
  rewrite N.compare_refl. cbn [andb].
  assert (Hcmp : match match a_val to ?= a_val from with Eq => a_zone from ?= a_zone from | c => c end with
    Lt => false | _ => true end = true).
  { destruct (N.compare_spec (a_val to) (a_val from)); [by rewrite N.compare_refl|lia|done]. }
  rewrite Hcmp. clear Hcmp. cbn [andb].
  assert (Hz : (a_zone from ?= 0) = Gt) by (apply N.compare_gt_iff; lia). rewrite Hz.
  destruct (a_kind a); cbn [N.compare Pos.compare Pos.compare_cont andb];
    [split; [done|by intros (? & _)]..|].
  destruct (N.compare_spec (a_val from) (a_val a)), (N.compare_spec (a_val to) (a_val a)); cbn [andb];
    (split; [intros ?; (done || (split; [done|]; split; [done|lia]))|intros (_ & _ & ?); (done || lia)]).
Qed.

Lemma zoned_index from to a : zoned_ip_range from to -> above_zoned from to a ->
  a_val to - a_val from + 1 < 2 ^ 64 ->
  calculate_index a from = a_val a - a_val from /\ 0 < a_val a - a_val from <= a_val to - a_val from.
Proof.
  intros (Hk1 & _ & _ & _ & Hf & _ & _) (Hk & _ & Hv) Hn. split; [|lia].
  unfold calculate_index, low64. rewrite (int_val from) by done. unfold ip_to_int. rewrite Hk.
  rewrite N.mod_small; [lia|]. clear -Hn Hv. lia.
Qed.

Definition zinv {D} (from to : addr) (r : iptable D) : Prop :=
  wfI from to r /\ claimed (ip_table r) !! 0 = None.

Lemma zoned_wf from to : zoned_ip_range from to -> addr_wf from /\ addr_wf to.
Proof. intros (_ & _ & _ & _ & ? & ? & _). done. Qed.

Lemma zinv_step {S D} (parse : S -> option addr) from to (r : iptable D) o :
  zoned_ip_range from to -> a_val to - a_val from + 1 < 2 ^ 64 -> zinv from to r ->
  zinv from to (fst (ip_step parse r o)).
Proof.
  intros Hr Hn [Hwf H0]. pose proof (zoned_wf _ _ Hr) as [Hwfr Hwt].
  split; [apply ip_step_wfI; [by apply num_ips_any_lt|done]|]. pose proof Hwf as (Hf & Ht & Hw).
  assert (Hv : forall s a, ip_validate parse r s = Ok a -> 0 < calculate_index a (ip_from r)).
  { intros s a. unfold ip_validate. destruct (parse s) as [b|]; [|done]. rewrite Hf, Ht.
    destruct (iprange_contains from to b) eqn:Hc; [|done]. intros [= ->].
    apply zoned_contains in Hc; [|done]. destruct (zoned_index from to a Hr Hc Hn) as [-> ?]. lia. }
  destruct o as [s|s d|s|s d| |s|s| | |sel]; try done; cbn [ip_step].
  - unfold ip_claim. specialize (Hv s). destruct (ip_validate parse r s) as [a| |]; [|done..].
    specialize (Hv _ eq_refl). generalize dependent (calculate_index a (ip_from r)). intros i Hi.
    destruct (negb _); [done|]. unfold claim. rewrite (add_spec (num_ips from to)) by (done || by apply num_ips_any_lt).
    destruct (i <? _); [|done]. destruct (claimed (ip_table r) !! i); [done|].
    cbn [fst ip_with ip_table]. rewrite claimed_insert, lookup_insert_ne by lia. done.
  - unfold ip_release. specialize (Hv s). destruct (ip_validate parse r s) as [a| |]; [|done..].
    specialize (Hv _ eq_refl). generalize dependent (calculate_index a (ip_from r)). intros i Hi.
    unfold release, delete_. destruct (validate _ _); [|done..].
    cbn [fst ip_with ip_table]. rewrite claimed_delete, lookup_delete_ne by lia. done.
  - unfold ip_update. specialize (Hv s). destruct (ip_validate parse r s) as [a| |]; [|done..].
    specialize (Hv _ eq_refl). generalize dependent (calculate_index a (ip_from r)). intros i Hi.
    destruct (is_free_op _ _); [done|]. unfold update_op, update. cbn [e_id].
    destruct (validate _ _); [|done..]. destruct (is_free _ _); [done|].
    cbn [fst ip_with ip_table]. rewrite claimed_insert, lookup_insert_ne by lia. done.
Qed.

Lemma zinv_reachable {S D} (parse : S -> option addr) from to (r : iptable D) :
  zoned_ip_range from to -> a_val to - a_val from + 1 < 2 ^ 64 -> ip_reachable parse from to r -> zinv from to r.
Proof.
  intros Hr Hn [os <-]. assert (H0 : zinv from to (ip_new from to : iptable D)).
  { split; [apply wfI_new|done]. }
  revert H0. generalize (ip_new from to : iptable D). induction os as [|o os IH]; intros r H0; [done|]. cbn [ip_run].
  pose proof (zinv_step parse from to r o Hr Hn H0) as H1. destruct (ip_step parse r o) as [r1 x].
  specialize (IH r1 H1). by destruct (ip_run parse r1 os).
Qed.

(** An IPv6 range with a zone: Claim takes the addresses without a zone above the
    first bound and no others; FindFree always returns the first bound without its
    zone, which Claim refuses. *)
Lemma C81_zoned_range_pf :
  forall (S D : Type) (parse : S -> option addr) (from to : addr) (r : iptable D),
    zoned_ip_range from to -> a_val to - a_val from + 1 < 2 ^ 64 -> ip_reachable parse from to r ->
    ip_step parse r IFindFree = (r, IRAddr (Ok (Addr K6 (a_val from) 0))) /\
    (forall s d, parse s = Some (Addr K6 (a_val from) 0) ->
       ip_step parse r (IClaim s d) = (r, IRUnit (Err EOutsideRange))) /\
    (forall s a d, parse s = Some a ->
       let '(r', x) := ip_step parse r (IClaim s d) in
       above_zoned from to a /\ ip_claimed r !! a_val a = None /\
         x = IRUnit (Ok tt) /\ ip_claimed r' = <[a_val a := d]> (ip_claimed r) \/
       above_zoned from to a /\ is_Some (ip_claimed r !! a_val a) /\
         x = IRUnit (Err EAlreadyClaimed) /\ r' = r \/
       ~ above_zoned from to a /\ x = IRUnit (Err EOutsideRange) /\ r' = r).
Proof.
  intros S D parse from to r Hr Hn Hre. apply zinv_reachable in Hre as [Hwf H0]; [|done..].
  pose proof (zoned_wf _ _ Hr) as [Hwfr Hwt]. pose proof Hwf as (Hf & Ht & Hw).
  pose proof (num_ips_any_lt _ _ Hwfr Hwt) as Hlt.
  assert (Hsz : num_ips from to = a_val to - a_val from + 1).
  { apply N2Z.inj. rewrite num_ips_any by done. destruct Hr as (_ & _ & _ & _ & _ & _ & Hle).
    rewrite Z.mod_small; [lia|]. change (2 ^ 64)%Z with (Z.of_N (2 ^ 64)). lia. }
  assert (Hcl : forall s a d, parse s = Some a ->
       let '(r', x) := ip_step parse r (IClaim s d) in
       above_zoned from to a /\ ip_claimed r !! a_val a = None /\
         x = IRUnit (Ok tt) /\ ip_claimed r' = <[a_val a := d]> (ip_claimed r) \/
       above_zoned from to a /\ is_Some (ip_claimed r !! a_val a) /\
         x = IRUnit (Err EAlreadyClaimed) /\ r' = r \/
       ~ above_zoned from to a /\ x = IRUnit (Err EOutsideRange) /\ r' = r).
  { intros s a d Hs. cbn [ip_step]. unfold ip_claim, ip_validate. rewrite Hs, Hf, Ht.
    destruct (iprange_contains from to a) eqn:Hc.
    2:{ right. right. split; [|done]. intros Ha. apply (zoned_contains from to a Hr) in Ha. congruence. }
    apply zoned_contains in Hc as Ha; [|done]. destruct (zoned_index from to a Hr Ha Hn) as [-> Hi].
    assert (Hv : ip_claimed r !! a_val a = claimed (ip_table r) !! (a_val a - a_val from)).
    { rewrite (ip_claimed_lookup from to) by done. destruct (N.leb_spec (a_val from) (a_val a)); [done|lia]. }
    unfold is_free_op. rewrite is_free_claimed, Hv.
    destruct (claimed (ip_table r) !! (a_val a - a_val from)) eqn:E.
    - rewrite bool_decide_eq_false_2 by done. right. left. eauto.
    - rewrite bool_decide_eq_true_2 by done. cbn [negb]. unfold claim.
      rewrite (add_spec (num_ips from to)) by done. rewrite E.
      destruct (N.ltb_spec (a_val a - a_val from) (capacity (num_ips from to))) as [_|Hge].
      2:{ pose proof (capacity_ge (num_ips from to)). lia. }
      left. split; [done|]. split; [done|]. split; [done|]. apply (ip_claimed_insert from to); [done|lia]. }
  split; [|split; [|done]].
  - cbn [ip_step]. f_equal. f_equal. unfold ip_find_free.
    rewrite (free_at_zero (num_ips from to)) by done. rewrite Hf.
    destruct (N.eqb_spec (num_ips from to) 0); [lia|]. cbn [rbind]. rewrite from_index_zero by done.
    destruct Hr as (-> & _). done.
  - intros s d Hs. specialize (Hcl s _ d Hs). destruct (ip_step parse r (IClaim s d)) as [r' x].
    cbn [a_val] in Hcl. destruct Hcl as [[(_ & _ & ?) _]|[[(_ & _ & ?) _]|(_ & -> & ->)]]; [cbn [a_val] in *; lia..|done].
Qed.

(** So FindFree can return an address that Claim refuses. *)
Lemma C81_found_is_claimable_refuted_pf :
  exists from to : addr, addr_wf from /\ addr_wf to /\ a_kind from = a_kind to /\ a_kind from = K4 /\
    forall (S D : Type) (parse : S -> option addr) (r : iptable D), ip_reachable parse from to r ->
      ip_step parse r IFindFree = (r, IRAddr (Ok from)) /\
      forall s d, parse s = Some from -> ip_step parse r (IClaim s d) = (r, IRUnit (Err EOutsideRange)).
Proof.
  exists (Addr K4 (v4_base + 0x0a00000a) 0), (Addr K4 (v4_base + 0x0a000001) 0).
  split; [vm_compute; repeat split; congruence|]. split; [vm_compute; repeat split; congruence|].
  split; [done|]. split; [done|]. intros S D parse r Hre.
  assert (Hno : no_ip_range (Addr K4 (v4_base + 0x0a00000a) 0) (Addr K4 (v4_base + 0x0a000001) 0)).
  { do 3 right. vm_compute. done. }
  split.
  - rewrite (C81_no_range_find_free_pf S D parse _ _ r) with (3 := Hno) (4 := Hre);
      [|vm_compute; repeat split; congruence..]. done.
  - intros s d Hs. destruct (C81_no_range_refuses_all_pf S D parse _ _ r s d (fun _ => true) Hno Hre) as (_ & Hc & _).
    rewrite Hc. by rewrite Hs.
Qed.

(* ------------------------------------------------------------------ C82 *)
Lemma slots_capacity from to : ip_range from to -> ip_slots from to = capacity (num_ips from to).
Proof. intros Hr. rewrite num_ips_spec by done. unfold ip_slots, capacity. by destruct (_ mod _). Qed.

Lemma slot_validate {S D} (parse : S -> option addr) from to (r : iptable D) s :
  ip_range from to -> wfI from to r ->
  match ip_validate parse r s with
  | Ok a => ip_slot_arg parse from to s = Ok (calculate_index a (ip_from r))
  | Err e => ip_slot_arg parse from to s = Err e
  | Panic => False
  end.
Proof.
  intros Hr (Hf & Ht & _). unfold ip_validate, ip_slot_arg. destruct (parse s) as [a|]; [|done].
  rewrite Hf, Ht, contains_spec by done. destruct (in_ip_rangeb from to a) eqn:Hin; [|done].
  apply in_ip_rangeb_spec in Hin; [|done]. by rewrite (calculate_index_spec from to).
Qed.

Lemma slot_step {S D} (parse : S -> option addr) from to (r : iptable D) o :
  ip_range from to -> wfI from to r ->
  claimed (ip_table (fst (ip_step parse r o))) = fst (ip_slot_spec parse from to (claimed (ip_table r)) o) /\
  (ip_single o = true -> snd (ip_step parse r o) = snd (ip_slot_spec parse from to (claimed (ip_table r)) o)).
Proof.
  intros Hr Hwf. pose proof Hwf as (Hf & Ht & Hw). pose proof (num_ips_lt _ _ Hr) as Hlt.
  assert (Hts : t_size (ip_table r) = num_ips from to) by (by destruct Hw).
  destruct o as [s|s d|s|s d| |s|s| | |sel]; try done; cbn [ip_step ip_slot_spec ip_single]; rewrite ?slots_capacity by done.
  - split; [done|]. intros _. cbn [snd]. f_equal. unfold ip_get. pose proof (slot_validate parse from to r s Hr Hwf) as Hv.
    destruct (ip_validate parse r s) as [a|e|]; [rewrite Hv|rewrite Hv; done|done]. cbn [rbind]. unfold get.
    rewrite (validate_spec (num_ips from to)) by done. destruct (_ <? _); [|done]. cbn [rbind].
    rewrite claimed_lookup. by destruct (t_map (ip_table r) !! _).
  - unfold ip_claim. pose proof (slot_validate parse from to r s Hr Hwf) as Hv.
    destruct (ip_validate parse r s) as [a|e|]; [rewrite Hv|rewrite Hv; done|done].
    unfold is_free_op. rewrite is_free_claimed. generalize (calculate_index a (ip_from r)). intros k.
    destruct (claimed (ip_table r) !! k) eqn:Hcl.
    + rewrite bool_decide_eq_false_2 by done. done.
    + rewrite bool_decide_eq_true_2 by done. cbn [negb]. unfold claim.
      rewrite (add_spec (num_ips from to)), Hcl by done. destruct (_ <? _); [|done].
      cbn [fst snd ip_with ip_table]. split; [by rewrite claimed_insert|done].
  - unfold ip_release. pose proof (slot_validate parse from to r s Hr Hwf) as Hv.
    destruct (ip_validate parse r s) as [a|e|]; [rewrite Hv|rewrite Hv; done|done].
    generalize (calculate_index a (ip_from r)). intros k. unfold release, delete_.
    rewrite (validate_spec (num_ips from to)) by done. destruct (_ <? _); [|done].
    cbn [fst snd ip_with ip_table]. split; [by rewrite claimed_delete|done].
  - unfold ip_update. pose proof (slot_validate parse from to r s Hr Hwf) as Hv.
    destruct (ip_validate parse r s) as [a|e|]; [rewrite Hv|rewrite Hv; done|done].
    unfold is_free_op. rewrite is_free_claimed. generalize (calculate_index a (ip_from r)). intros k.
    destruct (claimed (ip_table r) !! k) eqn:Hcl.
    + rewrite bool_decide_eq_false_2 by done. unfold update_op, update. cbn [e_id].
      rewrite (validate_spec (num_ips from to)) by done.
      assert (Hk : (k <? capacity (num_ips from to)) = true).
      { assert (Hs : is_Some (claimed (ip_table r) !! k)) by eauto. apply claimed_Some in Hs as [e He].
        destruct Hw as (_ & _ & Hlow). apply Hlow in He. by apply N.ltb_lt. }
      rewrite Hk, is_free_claimed, Hcl, bool_decide_eq_false_2 by done. cbn [fst snd ip_with ip_table].
      split; [by rewrite claimed_insert|done].
    + rewrite bool_decide_eq_true_2 by done. done.
  - split; [done|]. intros _. cbn [snd]. f_equal. unfold ip_size, size_op, claimed. symmetry. apply map_size_fmap.
  - split; [done|]. intros _. cbn [snd]. f_equal. unfold ip_has. pose proof (slot_validate parse from to r s Hr Hwf) as Hv.
    destruct (ip_validate parse r s) as [a|e|]; [rewrite Hv|rewrite Hv; done|done].
    rewrite claimed_lookup. unfold has. by destruct (t_map (ip_table r) !! _).
  - split; [done|]. intros _. cbn [snd]. f_equal. unfold ip_is_free. pose proof (slot_validate parse from to r s Hr Hwf) as Hv.
    destruct (ip_validate parse r s) as [a|e|]; [rewrite Hv|rewrite Hv; done|done]. apply is_free_claimed.
Qed.

Lemma slot_run {S D} (parse : S -> option addr) from to (os : list (iop S D)) :
  ip_range from to ->
  wfI from to (fst (ip_run parse (ip_new from to) os)) /\
  claimed (ip_table (fst (ip_run parse (ip_new from to) os))) = ip_slot_run parse from to os.
Proof.
  intros Hr. split; [apply ip_run_wf; [done|apply wfI_new]|]. unfold ip_slot_run.
  assert (E : claimed (ip_table (ip_new from to : iptable D)) = ∅).
  { unfold claimed. cbn [ip_new ip_table new_table t_map]. apply fmap_empty. }
  rewrite <- E. clear E. pose proof (wfI_new (D := D) from to) as Hwf. revert Hwf.
  generalize (ip_new from to : iptable D). induction os as [|o os IH]; intros r Hwf; [done|]. cbn [ip_run foldl].
  destruct (slot_step parse from to r o Hr Hwf) as [<- _]. pose proof (ip_step_wf parse from to r o Hr Hwf) as H1.
  destruct (ip_step parse r o) as [r1 x]. cbn [fst] in *. rewrite <- (IH r1 H1).
  by destruct (ip_run parse r1 os).
Qed.

(** Over a range of any width, after any calls: addresses a multiple of 2^64 apart
    share a slot, and slots from [ip_slots] on cannot be claimed. *)
Lemma C82_any_width_calls_pf :
  forall (S D : Type) (parse : S -> option addr) (from to : addr) (os : list (iop S D)) (o : iop S D),
    ip_range from to -> ip_single o = true ->
    snd (ip_step parse (fst (ip_run parse (ip_new from to) os)) o)
    = snd (ip_slot_spec parse from to (ip_slot_run parse from to os) o).
Proof.
  intros S D parse from to os o Hr Ho. destruct (slot_run parse from to os Hr) as [Hwf <-].
  by apply slot_step.
Qed.

(** FindFree returns the address of the lowest unclaimed slot; it finds none if all
    are claimed, or if the number of addresses is a multiple of 2^64. *)
Lemma C82_any_width_find_free_pf :
  forall (S D : Type) (parse : S -> option addr) (from to : addr) (os : list (iop S D)),
    ip_range from to ->
    let m := ip_slot_run parse from to os in
    let x := snd (ip_step parse (fst (ip_run parse (ip_new from to) os)) IFindFree) in
    (exists k, x = IRAddr (Ok (Addr (a_kind from) (a_val from + k) 0)) /\
       ip_slots from to <> 2 ^ 64 /\ k < ip_slots from to /\ m !! k = None /\
       (forall j, j < k -> is_Some (m !! j)) /\ in_ip_range from to (Addr (a_kind from) (a_val from + k) 0)) \/
    (x = IRAddr (Err ENoFree) /\ (ip_slots from to = 2 ^ 64 \/ forall k, k < ip_slots from to -> is_Some (m !! k))).
Proof.
  intros S D parse from to os Hr m x. destruct (slot_run parse from to os Hr) as [Hwf Hm]. fold m in Hm.
  set (r := fst (ip_run parse (ip_new from to) os)) in *. pose proof Hwf as (Hf & Ht & Hw).
  pose proof (num_ips_lt _ _ Hr) as Hlt. pose proof (find_free_cases _ _ Hw Hlt) as Hff.
  pose proof (slots_capacity _ _ Hr) as Hsl.
  assert (Hle : num_ips from to <= a_val to - a_val from + 1).
  { rewrite num_ips_spec by done. apply N.mod_le. done. }
  unfold x. cbn [ip_step snd]. unfold ip_find_free.
  destruct (it_keys (iterate_free (ip_table r))) as [|k l] eqn:Hkeys; rewrite Hff; cbn [rbind].
  - right. split; [done|]. destruct (N.eq_dec (num_ips from to) 0) as [E|E].
    { left. by rewrite Hsl, E. }
    right. intros k Hk. rewrite Hsl, capacity_nz in Hk by lia.
    pose proof (proj1 (keys_nil _ _ Hw) Hkeys k) as Hnu. rewrite <- Hm.
    destruct (claimed (ip_table r) !! k) eqn:E'; [eauto|]. exfalso. by apply Hnu.
  - left. destruct (lowest_head _ _ _ _ Hw Hkeys) as [[Hu Hu'] Hmin]. exists k.
    rewrite Hsl, capacity_nz, <- Hm by lia. rewrite Hf, (from_index_spec from to) by (done || lia).
    split; [done|]. split; [lia|]. split; [done|]. split; [done|]. split.
    + intros j Hj. destruct (claimed (ip_table r) !! j) eqn:E'; [eauto|]. exfalso.
      assert (k <= j) by (apply Hmin; split; [lia|done]). lia.
    + split; [done|]. split; [done|]. destruct Hr as (_ & _ & _ & _ & _ & _ & ?). cbn [a_val]. lia.
Qed.

(** GetAll and GetByLabel list the slots in ascending order. *)
Lemma C82_any_width_listing_pf :
  forall (S D : Type) (parse : S -> option addr) (from to : addr) (os : list (iop S D)) (sel : D -> bool),
    ip_range from to ->
    let m := ip_slot_run parse from to os in
    let r := fst (ip_run parse (ip_new from to) os) in
    N.of_nat (size m) < 2 ^ 64 ->
    exists kds : list (N * D),
      ascending (map fst kds) /\ (forall k d, (k, d) ∈ kds <-> m !! k = Some d) /\
      snd (ip_step parse r IGetAll) = IRDatas (Ok (map snd kds)) /\
      snd (ip_step parse r (IGetByLabel sel)) = IRDatas (Ok (List.filter sel (map snd kds))).
Proof.
  intros S D parse from to os sel Hr m r Hsz. destruct (slot_run parse from to os Hr) as [Hwf Hm]. fold m r in Hm, Hwf.
  destruct (ip_listing S D parse from to r sel Hr) as (vds & H1 & H2 & H3 & H4).
  { by exists os. } { unfold ip_claimed. by rewrite size_kmap, Hm. }
  assert (Hge : forall v d, (v, d) ∈ vds -> a_val from <= v).
  { intros v d Hv. apply H2 in Hv. rewrite (ip_claimed_lookup from to) in Hv by done.
    destruct (N.leb_spec (a_val from) v); done. }
  exists (map (fun vd => (vd.1 - a_val from, vd.2)) vds).
  assert (Hsnd : map snd (map (fun vd : N * D => (vd.1 - a_val from, vd.2)) vds) = map snd vds).
  { rewrite map_map. by apply map_ext. }
  rewrite Hsnd, H3, H4. split; [|split; [|done]].
  - rewrite map_map. cbn [fst]. clear -H1 Hge. induction vds as [|[v d] vds IH]; cbn in *; [constructor|].
    apply StronglySorted_inv in H1 as [Hs HF]. constructor; [apply IH; [done|intros; eapply Hge; right; done]|].
    apply Forall_forall. intros y Hy. apply elem_of_list_fmap in Hy as ([v' d'] & -> & Hz). cbn [fst].
    rewrite Forall_forall in HF. assert (v < v') by (apply HF, elem_of_list_fmap; exists (v', d'); done).
    assert (a_val from <= v) by (eapply Hge; left). lia.
  - intros k d. rewrite <- Hm. split.
    + intros Hk. apply elem_of_list_fmap in Hk as ([v d'] & E & Hv). injection E as -> ->. cbn [fst snd].
      apply H2 in Hv. rewrite (ip_claimed_lookup from to) in Hv by done. by destruct (N.leb_spec (a_val from) v).
    + intros Hk. apply elem_of_list_fmap. exists (a_val from + k, d). cbn [fst snd]. split; [f_equal; lia|].
      apply H2. rewrite (ip_claimed_lookup from to) by done. destruct (N.leb_spec (a_val from) (a_val from + k)); [|lia].
      by replace (a_val from + k - a_val from) with k by lia.
Qed.
