From Verif Require Import IPTableSpec IdxTableProofs TableNProofs.
From Coq Require Import Lia ZifyBool ZifyNat ZifyN.
Ltac Zify.zify_post_hook ::= Z.div_mod_to_equations.

Lemma pow64 : 2 ^ 64 = 18446744073709551616. Proof. reflexivity. Qed.
Lemma pow128 : 2 ^ 128 = 340282366920938463463374607431768211456. Proof. reflexivity. Qed.

Lemma ip_range_bounds from to : ip_range from to ->
  a_val from <= a_val to < 2 ^ 128 /\ ip_to_int from = a_val from /\ ip_to_int to = a_val to.
Proof.
  intros (Hf & Ht & _ & _ & Hk & Hz & Hle). unfold addr_wf, ip_to_int in *. rewrite <- Hk in *.
  unfold v4_base in *. rewrite pow128, ?pow32 in *.
  destruct (a_kind from); try done; split; try done; lia.
Qed.

Lemma in_range_int from to a : ip_range from to -> in_ip_range from to a -> ip_to_int a = a_val a.
Proof.
  intros (_ & _ & _ & _ & _ & Hz & _) (Hk & _). unfold ip_to_int. rewrite Hk.
  by destruct (a_kind from).
Qed.

Lemma calculate_index_spec from to a :
  ip_range from to -> in_ip_range from to a ->
  calculate_index a from = (a_val a - a_val from) mod 2 ^ 64.
Proof.
  intros Hr Ha. destruct (ip_range_bounds _ _ Hr) as (Hb & Hf & _).
  unfold calculate_index, low64. rewrite Hf, (in_range_int from to a) by done.
  destruct Ha as (_ & _ & Hv). f_equal. lia.
Qed.

Lemma calculate_index_small from to a :
  ip_range from to -> in_ip_range from to a -> a_val a - a_val from < 2 ^ 64 ->
  calculate_index a from = a_val a - a_val from.
Proof. intros Hr Ha Hs. rewrite (calculate_index_spec from to) by done. by apply N.mod_small. Qed.

Lemma num_ips_spec from to :
  ip_range from to -> num_ips from to = (a_val to - a_val from + 1) mod 2 ^ 64.
Proof.
  intros Hr. destruct (ip_range_bounds _ _ Hr) as (Hb & Hf & Ht).
  unfold num_ips, low64. rewrite Hf, Ht.
  set (d := a_val to - a_val from).
  replace (Z.of_N (a_val to) - Z.of_N (a_val from))%Z with (Z.of_N d) by lia.
  destruct (Z.ltb_spec (Z.of_N d) 0); [lia|].
  rewrite Z.abs_eq, N2Z.id by lia.
  rewrite N2Z.inj_mod. change (Z.of_N (2 ^ 64)) with (2 ^ 64)%Z.
  rewrite Z.add_mod_idemp_l by lia.
  change (2 ^ 64)%Z with (Z.of_N (2 ^ 64)). change 1%Z with (Z.of_N 1). rewrite <- N2Z.inj_add, <- N2Z.inj_mod, N2Z.id. done.
Qed.

Lemma num_ips_lt from to : ip_range from to -> num_ips from to < 2 ^ 64.
Proof. intros Hr. rewrite num_ips_spec by done. apply N.mod_lt. done. Qed.

Lemma num_ips_capacity from to :
  ip_range from to -> a_val to - a_val from < 2 ^ 64 ->
  capacity (num_ips from to) = a_val to - a_val from + 1.
Proof.
  intros Hr Hs. rewrite num_ips_spec by done. unfold capacity.
  set (d := a_val to - a_val from) in *.
  destruct (N.eq_dec (d + 1) (2 ^ 64)) as [He|Hne].
  - rewrite He. rewrite N.mod_same by done. done.
  - rewrite N.mod_small by lia. destruct (N.eqb_spec (d + 1) 0); lia.
Qed.

Lemma bytes16_small v : v < 2 ^ 128 -> bytes16 v = v.
Proof. intros H. unfold bytes16. destruct (N.ltb_spec v (2 ^ 128)); [done|lia]. Qed.

Lemma from_index_spec from to k :
  ip_range from to -> k <= a_val to - a_val from ->
  calculate_ip_from_index from k = Ok (Addr (a_kind from) (a_val from + k) 0).
Proof.
  intros Hr Hk. pose proof (ip_range_bounds _ _ Hr) as (Hb & Hf & _).
  destruct Hr as (Hwf & Hwt & _ & _ & Hkind & Hz & Hle).
  unfold calculate_ip_from_index. rewrite Hf, bytes16_small by lia.
  unfold addr_wf in *. rewrite <- Hkind in *. destruct (a_kind from); [done| |done].
  unfold is_4in6. unfold v4_base in *. rewrite pow32 in *.
  destruct (N.eqb_spec ((a_val from + k) / 4294967296) 65535); [done|lia].
Qed.

Lemma contains_spec from to a :
  ip_range from to -> iprange_contains from to a = in_ip_rangeb from to a.
Proof.
  intros Hr. pose proof (ip_range_bounds _ _ Hr) as (Hb & _).
  destruct Hr as (_ & _ & Hzf & Hzt & Hk & Hz & Hle).
  assert (Hv : iprange_valid from to = true).
  { unfold iprange_valid, addr_compare, bit_len. rewrite Hzf, Hzt, <- Hk.
    destruct (a_kind from); [done|..]; cbn [andb N.eqb N.compare Pos.compare Pos.compare_cont];
    destruct (N.compare_spec (a_val to) (a_val from)); try done; lia. }
  unfold iprange_contains, in_ip_rangeb. rewrite Hv. cbn [andb].
  unfold addr_compare, bit_len. rewrite <- Hk, Hzf, Hzt.
  destruct (N.eqb_spec (a_zone a) 0) as [->|Hza];
    [|by destruct (a_kind a), (a_kind from)].
  destruct (a_kind from); [done|..]; destruct (a_kind a); cbn; try done;
    destruct (N.compare_spec (a_val from) (a_val a)), (N.compare_spec (a_val to) (a_val a)),
      (N.leb_spec (a_val from) (a_val a)), (N.leb_spec (a_val a) (a_val to)); cbn; try done; lia.
Qed.

Lemma in_ip_rangeb_spec from to a :
  ip_range from to -> in_ip_rangeb from to a = true <-> in_ip_range from to a.
Proof.
  intros (_ & _ & _ & _ & _ & Hz & _). unfold in_ip_rangeb, in_ip_range.
  destruct (a_kind a), (a_kind from); cbn; try done;
    rewrite ?andb_true_iff, ?N.eqb_eq, ?N.leb_le; intuition congruence.
Qed.

Section proofs.
Context {S D : Type} (parse : S -> option addr).
Implicit Types (r : iptable D).

Definition wfI (from to : addr) r : Prop :=
  ip_from r = from /\ ip_to r = to /\ wf (num_ips from to) (ip_table r).

Definition narrow (from to : addr) : Prop := a_val to - a_val from < 2 ^ 64.

Lemma wfI_key from to r k e :
  ip_range from to -> narrow from to -> wfI from to r ->
  t_map (ip_table r) !! k = Some e -> k <= a_val to - a_val from /\ e_id e = k.
Proof.
  intros Hr Hn (_ & _ & Hw) Hk. destruct Hw as (_ & Hid & Hlt).
  specialize (Hlt _ _ Hk). rewrite num_ips_capacity in Hlt by done.
  split; [lia|]. by apply Hid.
Qed.

Lemma validate_arg from to r s :
  ip_range from to -> wfI from to r ->
  match ip_validate parse r s with
  | Ok a => ip_arg parse from to s = Ok (a_val a) /\ in_ip_range from to a
  | Err e => ip_arg parse from to s = Err e
  | Panic => False
  end.
Proof.
  intros Hr (Hf & Ht & _). unfold ip_validate, ip_arg. destruct (parse s) as [a|]; [|done].
  rewrite Hf, Ht, contains_spec by done. destruct (in_ip_rangeb from to a) eqn:Hin; [|done].
  by apply in_ip_rangeb_spec in Hin.
Qed.

Lemma ip_claimed_lookup from to r v :
  wfI from to r -> ip_claimed r !! v =
    if a_val from <=? v then claimed (ip_table r) !! (v - a_val from) else None.
Proof.
  intros (<- & _). unfold ip_claimed. destruct (N.leb_spec (a_val (ip_from r)) v) as [Hle|Hgt].
  - replace v with (a_val (ip_from r) + (v - a_val (ip_from r))) at 1 by lia.
    by rewrite lookup_kmap by apply _.
  - apply lookup_kmap_None; [apply _|]. intros k ->. lia.
Qed.

Lemma ip_claimed_in from to r a :
  in_ip_range from to a -> wfI from to r ->
  ip_claimed r !! a_val a = claimed (ip_table r) !! (a_val a - a_val from).
Proof.
  intros (_ & _ & Hin) Hwf. rewrite (ip_claimed_lookup from to) by done.
  destruct (N.leb_spec (a_val from) (a_val a)); [done|lia].
Qed.

Lemma ip_claimed_insert from to r v d :
  wfI from to r -> a_val from <= v ->
  ip_claimed (ip_with r (Table (t_size (ip_table r))
    (<[v - a_val from := NewEntry (v - a_val from) d]> (t_map (ip_table r))))) = <[v := d]> (ip_claimed r).
Proof.
  intros (<- & _) Hv. unfold ip_claimed, ip_with. cbn [ip_from ip_table].
  rewrite claimed_insert, kmap_insert by apply _. f_equal. lia.
Qed.

Lemma ip_claimed_delete from to r v :
  wfI from to r -> a_val from <= v ->
  ip_claimed (ip_with r (Table (t_size (ip_table r)) (delete (v - a_val from) (t_map (ip_table r))))) =
  delete v (ip_claimed r).
Proof.
  intros (<- & _) Hv. unfold ip_claimed, ip_with. cbn [ip_from ip_table].
  rewrite claimed_delete, kmap_delete by apply _. f_equal. lia.
Qed.

Lemma wfI_new from to : wfI from to (ip_new from to).
Proof. split; [done|]. split; [done|]. apply wf_new. Qed.

Lemma wfI_with from to r t : wfI from to r -> wf (num_ips from to) t -> wfI from to (ip_with r t).
Proof. intros (? & ? & _) Hw. done. Qed.

Lemma ip_step_wfI from to r o :
  num_ips from to < 2 ^ 64 -> wfI from to r -> wfI from to (fst (ip_step parse r o)).
Proof.
  intros Hlt Hwf. pose proof Hwf as (Hf & Ht & Hw).
  destruct o as [s|s d|s|s d| |s|s| | |sel]; try done; cbn [ip_step].
  - unfold ip_claim. destruct (ip_validate parse r s) as [a| |]; [|done..].
    destruct (negb _); [done|]. unfold claim.
    pose proof (step_wf _ _ (OClaim (calculate_index a (ip_from r)) d) Hw Hlt) as Hs.
    cbn [step] in Hs. unfold claim in Hs. destruct (add _ _) as [t x]. by apply wfI_with.
  - unfold ip_release. destruct (ip_validate parse r s) as [a| |]; [|done..].
    pose proof (step_wf _ _ (ORelease (calculate_index a (ip_from r))) Hw Hlt) as Hs.
    cbn [step] in Hs. destruct (release _ _) as [t x]. by apply wfI_with.
  - unfold ip_update. destruct (ip_validate parse r s) as [a| |]; [|done..].
    destruct (is_free_op _ _); [done|].
    pose proof (step_wf _ _ (OUpdate (calculate_index a (ip_from r)) d) Hw Hlt) as Hs.
    cbn [step] in Hs. destruct (update_op _ _ _) as [t x]. by apply wfI_with.
Qed.

Lemma ip_run_wfI from to r os :
  num_ips from to < 2 ^ 64 -> wfI from to r -> wfI from to (fst (ip_run parse r os)).
Proof.
  intros Hr. revert r. induction os as [|o os IH]; intros r Hwf; [done|]. cbn [ip_run].
  pose proof (ip_step_wfI from to r o Hr Hwf) as H1. destruct (ip_step parse r o) as [r1 x].
  specialize (IH r1 H1). by destruct (ip_run parse r1 os).
Qed.

Lemma ip_step_wf from to r o :
  ip_range from to -> wfI from to r -> wfI from to (fst (ip_step parse r o)).
Proof. intros Hr. apply ip_step_wfI. by apply num_ips_lt. Qed.

Lemma ip_run_wf from to r os :
  ip_range from to -> wfI from to r -> wfI from to (fst (ip_run parse r os)).
Proof. intros Hr. apply ip_run_wfI. by apply num_ips_lt. Qed.

Lemma ip_reachable_wf from to r :
  ip_range from to -> ip_reachable parse from to r -> wfI from to r.
Proof. intros Hr (os & <-). apply ip_run_wf; [done|]. apply wfI_new. Qed.

(** One call of the map-like part of the interface. *)
Lemma ip_single_step from to r o :
  ip_range from to -> narrow from to -> wfI from to r -> ip_single o = true ->
  ip_claimed (fst (ip_step parse r o)) = fst (ip_spec parse from to (ip_claimed r) o) /\
  snd (ip_step parse r o) = snd (ip_spec parse from to (ip_claimed r) o).
Proof.
  intros Hr Hn Hwf Ho. pose proof Hwf as (Hf & Ht & Hw). pose proof (num_ips_lt _ _ Hr) as Hlt.
  pose proof (num_ips_capacity _ _ Hr Hn) as Hcap.
  assert (Hidx : forall a, in_ip_range from to a ->
    calculate_index a (ip_from r) = a_val a - a_val from /\
    (a_val a - a_val from <? capacity (num_ips from to)) = true /\ a_val from <= a_val a).
  { intros a Ha. unfold narrow in Hn. rewrite Hf. split.
    - apply (calculate_index_small from to); [done..|]. destruct Ha as (_ & _ & ?). lia.
    - destruct Ha as (_ & _ & ?). lia. }
  assert (Hsz : t_size (ip_table r) = num_ips from to) by (by destruct Hw).
  destruct o as [s|s d|s|s d| |s|s| | |sel]; try done; cbn [ip_step ip_spec].
  - split; [done|]. cbn [snd]. f_equal. unfold ip_get.
    pose proof (validate_arg from to r s Hr Hwf) as Hv.
    destruct (ip_validate parse r s) as [a|e|]; [destruct Hv as [-> Ha]|rewrite Hv; done|done].
    cbn [rbind]. destruct (Hidx a Ha) as (-> & Hc & _). unfold get.
    rewrite (validate_spec (num_ips from to)), Hc by done. cbn [rbind].
    rewrite (ip_claimed_in from to) by done. rewrite claimed_lookup.
    by destruct (t_map (ip_table r) !! _).
  - unfold ip_claim. pose proof (validate_arg from to r s Hr Hwf) as Hv.
    destruct (ip_validate parse r s) as [a|e|]; [destruct Hv as [-> Ha]|rewrite Hv; done|done].
    destruct (Hidx a Ha) as (-> & Hc & Hle). unfold is_free_op. rewrite is_free_claimed.
    rewrite (ip_claimed_in from to) by done.
    destruct (claimed (ip_table r) !! (a_val a - a_val from)) eqn:Hcl.
    + rewrite bool_decide_eq_false_2 by done. done.
    + rewrite bool_decide_eq_true_2 by done. cbn [negb]. unfold claim.
      rewrite (add_spec (num_ips from to)), Hc, Hcl by done. cbn [fst snd].
      split; [|done]. by apply (ip_claimed_insert from to).
  - unfold ip_release. pose proof (validate_arg from to r s Hr Hwf) as Hv.
    destruct (ip_validate parse r s) as [a|e|]; [destruct Hv as [-> Ha]|rewrite Hv; done|done].
    destruct (Hidx a Ha) as (-> & Hc & Hle). unfold release, delete_.
    rewrite (validate_spec (num_ips from to)), Hc by done. cbn [fst snd].
    split; [|done]. by apply (ip_claimed_delete from to).
  - unfold ip_update. pose proof (validate_arg from to r s Hr Hwf) as Hv.
    destruct (ip_validate parse r s) as [a|e|]; [destruct Hv as [-> Ha]|rewrite Hv; done|done].
    destruct (Hidx a Ha) as (-> & Hc & Hle). unfold is_free_op. rewrite is_free_claimed.
    rewrite (ip_claimed_in from to) by done.
    destruct (claimed (ip_table r) !! (a_val a - a_val from)) eqn:Hcl.
    + rewrite bool_decide_eq_false_2 by done. unfold update_op, update. cbn [e_id].
      rewrite (validate_spec (num_ips from to)), Hc by done. rewrite is_free_claimed, Hcl.
      rewrite bool_decide_eq_false_2 by done. cbn [fst snd].
      split; [|done]. by apply (ip_claimed_insert from to).
    + rewrite bool_decide_eq_true_2 by done. done.
  - split; [done|]. cbn [snd]. f_equal. unfold ip_size, size_op, ip_claimed.
    rewrite size_kmap. unfold claimed. by rewrite map_size_fmap.
  - split; [done|]. cbn [snd]. f_equal. unfold ip_has.
    pose proof (validate_arg from to r s Hr Hwf) as Hv.
    destruct (ip_validate parse r s) as [a|e|]; [destruct Hv as [-> Ha]|rewrite Hv; done|done].
    destruct (Hidx a Ha) as (-> & _). rewrite (ip_claimed_in from to), claimed_lookup by done.
    unfold has. by destruct (t_map (ip_table r) !! _).
  - split; [done|]. cbn [snd]. f_equal. unfold ip_is_free.
    pose proof (validate_arg from to r s Hr Hwf) as Hv.
    destruct (ip_validate parse r s) as [a|e|]; [destruct Hv as [-> Ha]|rewrite Hv; done|done].
    destruct (Hidx a Ha) as (-> & _). rewrite (ip_claimed_in from to) by done.
    unfold is_free_op. apply is_free_claimed.
Qed.
End proofs.
