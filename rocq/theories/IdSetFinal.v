(** Proofs of the property statements about IDSetBuilder and IDSet of
    pkg/tree/id16, id32, id64. *)
From Verif Require Import IdSetSpec TableNProofs IdProofs IdFinal IdSetProofs.
From Coq Require Import Lia ZifyBool ZifyNat ZifyN.
Ltac Zify.zify_post_hook ::= idtac.

Lemma block_top w k x : k <= w -> x < 2 ^ w -> x / 2 ^ k * 2 ^ k + (2 ^ k - 1) < 2 ^ w.
Proof.
  intros Hk Hx. rewrite (pow_split w k Hk).
  assert (Hq : x / 2 ^ k < 2 ^ (w - k)).
  { apply N.div_lt_upper_bound; [done|]. by rewrite N.mul_comm, <- pow_split. }
  pose proof (pow_pos k) as Hp. clear -Hq Hp. set (p := 2 ^ k) in *. clearbody p.
  set (q := x / p) in *. clearbody q. set (r := 2 ^ (w - k)) in *. clearbody r. nia.
Qed.

Lemma idg_of_mask c lim x :
  i_len x <= id_w c -> i_id x < 2 ^ id_w c ->
  id_mask c x (i_len x) =
    Ok (MyId (i_id x / 2 ^ (id_w c - i_len x) * 2 ^ (id_w c - i_len x)) (i_len x)) ->
  (forall v, covers (id_w c) x v -> v < 2 ^ id_w c -> v < lim) -> idg c lim x.
Proof.
  intros Hl Hx Hm Hlim. eexists. split; [by apply range_of_id_from_mask|].
  assert (Hle : id_w c - i_len x <= id_w c) by (clear; lia).
  pose proof (block_top (id_w c) (id_w c - i_len x) (i_id x) Hle Hx) as Htop.
  split; [|intros v; cbn [range_from in_range r_from r_to i_id]; apply range_from_covers].
  split; [done|]. split; [done|]. cbn [range_from r_from r_to i_id].
  split; [clear; lia|]. apply Hlim; [|done]. apply range_from_covers. split; [clear; lia|done].
Qed.

Lemma idg_idg_low c lim x : idg c lim x -> idg_low c lim lim x.
Proof. intros (r & H1 & H2 & H3). exists r. split; [done|]. split; [done|]. split; [by eapply vr_low|done]. Qed.
Lemma op_good_full c o : cfg_full c -> op_wf c o -> op_len c o -> op_good c (2 ^ id_w c) (2 ^ id_w c) o.
Proof.
  intros Hc Hw Hl. assert (Hr : forall r, range_ok c r -> rg c (2 ^ id_w c) r).
  { intros r (H1 & H2 & H3 & H4). by repeat split. }
  destruct o; cbn [op_wf op_len op_good] in *; auto.
  - destruct Hw as [Hx _]. apply idg_of_mask; [done|done|by apply id_mask_full|auto].
  - destruct Hw as [Hx _]. apply idg_idg_low, idg_of_mask; [done|done|by apply id_mask_full|auto].
  - split; [by apply Hr|]. intros Hrev. eapply vr_low, rg_vr; [by apply Hr|done].
  - eapply Forall_impl; [done|]. auto.
Qed.

Lemma gop_of_guard c lim plim (g : bool) os :
  Forall (op_good c lim plim) os -> (if g then guard_high c os else guard_low c os) -> Forall (gop c g) os.
Proof.
  intros Hgood Hg. rewrite Forall_forall in Hgood. apply Forall_forall. intros o Ho.
  specialize (Hgood o Ho).
  assert (Hint : forall r, (nonempty r -> op_interval c o (fr r) (to_ r)) -> gsem c g (in_range r)).
  { intros r Hr. unfold gsem. destruct g.
    - intros Hin. assert (Hne : nonempty r) by (unfold nonempty, in_range in *; lia).
      specialize (Hg o _ _ Ho (Hr Hne)). unfold in_range in Hin. lia.
    - assert (Hne : in_range r 0 \/ in_range r 1 -> fr r <> 1 /\ to_ r <> 0).
      { intros H. assert (nonempty r) by (unfold nonempty, in_range in *; lia).
        by apply (Hg o _ _ Ho), Hr. }
      unfold in_range in *. lia. }
  destruct o as [x|x|r|r|l|]; cbn [op_good gop] in *.
  - destruct Hgood as (r & _ & Hvr & Hcov). eapply gsem_ext; [exact Hcov|]. apply Hint. intros Hne.
    by split.
  - destruct Hgood as (r & _ & Hvr & _ & Hcov). eapply gsem_ext; [exact Hcov|]. apply Hint. intros Hne.
    by split.
  - apply Hint. intros Hne. by split.
  - apply Hint. intros Hne. by split.
  - apply Forall_forall. intros r Hr. apply Hint. intros Hne. split; [done|]. by exists r.
  - done.
Qed.

Lemma errors_valid os : Forall op_valid os -> errors os = [].
Proof.
  unfold errors. intros H. assert (Hg : forall e, e = [] ->
    fold_left (fun e o => match o with BIPSet => [] | _ => e ++ op_errs o end) os e = []); [|by apply Hg].
  induction H as [|o os Ho Hos IH]; intros e ->; [done|]. cbn [fold_left]. apply IH.
  assert (Hne : forall r, nonempty r -> reversed r = false).
  { intros r Hr. unfold reversed. by apply N.ltb_ge. }
  destruct o; cbn [op_errs op_valid app] in *; try done; try (by rewrite Hne).
  induction Ho as [|r l Hr Hl IHl]; [done|]. cbn [List.filter]. by rewrite Hne.
Qed.

Lemma vr_canonical c s : Forall (vr c (2 ^ id_w c)) s -> sep s -> canonical_set c s.
Proof.
  intros Hv Hs. split; [|done]. eapply Forall_impl; [done|]. intros r (H1 & H2 & H3 & H4).
  split; [|done]. split; [done|]. split; [done|]. lia.
Qed.
Lemma canonical_vr c s : canonical_set c s -> Forall (vr c (2 ^ id_w c)) s /\ sep s.
Proof.
  intros [H1 H2]. split; [|done]. eapply Forall_impl; [done|]. intros r ((? & ? & ? & ?) & ?).
  by repeat split.
Qed.

(* ------------------------------------------------------------------ C27 *)
(** id16 and id32, for calls whose intervals (of ids and ranges) all stay below
    the largest value, or none of which starts at 1 or ends at 0.  Missing:
    sequences that do both, see [C27_builder_refuted]. *)
Lemma C27_builder_computes_union_and_difference_partial_pf :
  forall c os, c ∈ id_packages_16_32 ->
    Forall (op_wf c) os -> Forall (op_len c) os -> Forall op_valid os ->
    guard_high c os \/ guard_low c os ->
    exists s, build c os = Ok (s, []) /\ forall v, members s v <-> history c os v.
Proof.
  intros c os Hc Hwf Hlen Hval Hg. apply packages_full in Hc.
  assert (Hgood : Forall (op_good c (2 ^ id_w c) (2 ^ id_w c)) os).
  { rewrite Forall_forall in Hwf, Hlen. apply Forall_forall. intros o Ho. apply op_good_full; auto. }
  destruct (build_spec c _ _ (setcfg_full c Hc) os Hgood) as (s & H1 & _ & _ & H4).
  rewrite errors_valid in H1 by done. exists s. split; [done|].
  destruct Hg as [Hg|Hg].
  - by apply (H4 true), (gop_of_guard c (2 ^ id_w c) (2 ^ id_w c) true).
  - by apply (H4 false), (gop_of_guard c (2 ^ id_w c) (2 ^ id_w c) false).
Qed.

Lemma op_good_64 os : Forall (op_wf cfg_id64) os ->
  Forall (fun o => match o with BAddId x | BRemoveId x => 1 <= i_len x <= 32 | _ => True end) os ->
  (forall (o : bop) (a b : N), o ∈ os -> removes o -> op_interval cfg_id64 o a b -> a < 2 ^ 32) ->
  Forall (op_good cfg_id64 (2 ^ 64) (2 ^ 32)) os.
Proof.
  intros Hwf Hlen Hlim.
  assert (Hm : cfg_masks cfg_id64) by (apply packages_masks; unfold id_packages; set_solver).
  rewrite Forall_forall in Hwf, Hlen. apply Forall_forall. intros o Ho.
  specialize (Hwf o Ho). specialize (Hlen o Ho). specialize (Hlim o).
  assert (Hid : forall x, id_ok cfg_id64 x -> 1 <= i_len x <= 32 -> idg cfg_id64 (2 ^ 64) x).
  { intros x [Hx _] Hl. change (id_w cfg_id64) with 64 in Hx.
    assert (Hmask : id_mask cfg_id64 x (i_len x) =
      Ok (MyId (i_id x / 2 ^ (64 - i_len x) * 2 ^ (64 - i_len x)) (i_len x))).
    { apply (id_mask_spec cfg_id64); [done|done|lia|change (id_w cfg_id64) with 64; lia|
        change (id_masklim cfg_id64) with 32; lia]. }
    apply idg_of_mask; [change (id_w cfg_id64) with 64; lia|done|done|done]. }
  assert (Hrange : forall r, range_ok cfg_id64 r -> rg cfg_id64 (2 ^ 64) r).
  { intros r (H1 & H2 & _ & H4). by repeat split. }
  destruct o as [x|x|r|r|l|]; cbn [op_good op_wf op_interval] in *.
  - by apply Hid.
  - destruct (Hid x Hwf Hlen) as (r & H1 & H2 & H3). exists r. split; [done|]. split; [done|]. split; [|done].
    apply (Hlim (fr r) (to_ r) Ho I). split; [apply H2|exact H3].
  - by apply Hrange.
  - split; [by apply Hrange|]. intros Hrev. apply (Hlim (fr r) (to_ r) Ho I). split; [|done].
    unfold reversed in Hrev. by apply N.ltb_ge in Hrev.
  - eapply Forall_impl; [exact Hwf|]. exact Hrange.
  - done.
Qed.

(** id64: for ids of length 1 to 32 and removals that start below 2^32. *)
Lemma C27_id64_partial_pf :
  forall os, Forall (op_wf cfg_id64) os -> Forall op_valid os ->
    Forall (fun o => match o with BAddId x | BRemoveId x => 1 <= i_len x <= 32 | _ => True end) os ->
    (forall (o : bop) (a b : N), o ∈ os -> removes o -> op_interval cfg_id64 o a b -> a < 2 ^ 32) ->
    guard_high cfg_id64 os \/ guard_low cfg_id64 os ->
    exists s, build cfg_id64 os = Ok (s, []) /\ forall v, members s v <-> history cfg_id64 os v.
Proof.
  intros os Hwf Hval Hlen Hlim Hg.
  pose proof (op_good_64 os Hwf Hlen Hlim) as Hgood.
  destruct (build_spec cfg_id64 _ _ setcfg_64 os Hgood) as (s & H1 & _ & _ & H4).
  rewrite errors_valid in H1 by done. exists s. split; [done|].
  destruct Hg as [Hg|Hg].
  - by apply (H4 true), (gop_of_guard cfg_id64 (2 ^ 64) (2 ^ 32) true).
  - by apply (H4 false), (gop_of_guard cfg_id64 (2 ^ 64) (2 ^ 32) false).
Qed.

(** id64: a removal that starts at 2^32 or above, inside of an added range, always
    goes wrong: the value before it is lost too. *)
Lemma C27_id64_high_removal_refuted_pf :
  forall a b x y, a < x -> x <= b -> b < 2 ^ 64 -> x <= y -> y < 2 ^ 64 -> 2 ^ 32 <= x ->
    let os := [BAddRange (range_from cfg_id64 a b); BRemoveRange (range_from cfg_id64 x y)] in
    exists s p, build cfg_id64 os = Ok (s, []) /\ p < 2 ^ 32 - 1 /\
      s = range_from cfg_id64 a p :: (if y <? b then [range_from cfg_id64 (y + 1) b] else []) /\
      history cfg_id64 os (x - 1) /\ ~ members s (x - 1).
Proof.
  intros a b x y Hax Hxb Hb Hxy Hy Hx os.
  set (rin := range_from cfg_id64 a b). set (rout := range_from cfg_id64 x y).
  set (p := if x mod 2 ^ 32 =? 0 then 2 ^ 32 - 2 else x mod 2 ^ 32 - 1).
  set (s := range_from cfg_id64 a p :: (if y <? b then [range_from cfg_id64 (y + 1) b] else [])).
  assert (Hi : vr cfg_id64 (2 ^ 64) rin).
  { split; [done|]. split; [done|]. cbn [rin range_from r_from r_to i_id]. split; [clear -Hax Hxb; lia|done]. }
  assert (Ho : vr cfg_id64 (2 ^ 64) rout).
  { split; [done|]. split; [done|]. cbn [rout range_from r_from r_to i_id]. split; [done|done]. }
  assert (Hp : p < 2 ^ 32 - 1).
  { unfold p. assert (Hr : x mod 2 ^ 32 < 2 ^ 32) by (by apply N.mod_lt).
    destruct (N.eqb_spec (x mod 2 ^ 32) 0); [done|]. clear -Hr n. lia. }
  assert (Hprev : id_prev cfg_id64 (r_from rout) = MyId p 64).
  { apply C21_id64_prev_exact_pf; [|cbn; clear -Hax; lia]. split; [cbn; clear -Hxy Hy; lia|done]. }
  exists s, p. split; [|split; [done|split; [done|split]]].
  - unfold build, os. cbn [b_run b_step]. unfold add_range.
    fold rin rout. rewrite (vr_valid cfg_id64 (2 ^ 64) rin Hi). cbn [negb builder_zero b_in b_out b_errs app length Nat.ltb Nat.leb rbind].
    unfold remove_range. rewrite (vr_valid cfg_id64 (2 ^ 64) rout Ho). cbn [b_in b_out b_errs app].
    unfold ip_set, normalize. cbn [b_in b_out b_errs merge_ranges length Nat.add rbind].
    cbn [normalize_loop]. rewrite (vr_valid cfg_id64 (2 ^ 64) rin Hi), (vr_valid cfg_id64 (2 ^ 64) rout Ho). cbn [negb orb].
    unfold entirely_before, covered_by, in_middle_of, overlaps_start_of, overlaps_end_of.
    rewrite !(less_tf cfg_id64 (2 ^ 64)), !(less_ff cfg_id64 (2 ^ 64)), !(less_tt cfg_id64 (2 ^ 64)),
      !(leq_ff cfg_id64 (2 ^ 64)), !(leq_tt cfg_id64 (2 ^ 64)) by done.
    rewrite Hprev.
    assert (Hnext : y < b -> id_next cfg_id64 (r_to rout) = MyId (y + 1) 64).
    { intros H. apply (next_vr cfg_id64 (2 ^ 64) (2 ^ 32) setcfg_64 rout Ho).
      cbn [rout range_from r_to i_id]. clear -H Hb. lia. }
    set (nx := id_next cfg_id64 (r_to rout)) in *. clearbody nx. unfold s. cbn [rin rout range_from r_from r_to i_id].
    destruct (N.ltb_spec y a) as [H|_]; [clear -H Hax Hxy; lia|].
    destruct (N.ltb_spec b x) as [H|_]; [clear -H Hxb; lia|].
    destruct (N.leb_spec x a) as [H|_]; [clear -H Hax; lia|]. cbn [andb].
    destruct (N.ltb_spec a x) as [_|H]; [|clear -H Hax; lia]. cbn [andb].
    destruct (N.ltb_spec y b) as [H|H].
    + rewrite (Hnext H). reflexivity.
    + destruct (N.leb_spec b y) as [_|H']; [reflexivity|clear -H H'; lia].
  - cbn [history os fold_left op_apply]. split; [right|]; unfold in_range; cbn [range_from r_from r_to i_id];
      clear -Hax Hxb Hxy; lia.
  - unfold s. rewrite members_cons. intros [H|H].
    + unfold in_range in H. cbn [range_from r_from r_to i_id] in H. clear -H Hp Hx. lia.
    + destruct (y <? b); [|by apply members_nil in H]. rewrite members_cons, members_nil in H.
      destruct H as [H|[]]. unfold in_range in H. cbn [range_from r_from r_to i_id] in H. clear -H Hxy Hax. lia.
Qed.

(** Every width: adding [1,5] to the full set leaves [0,5]. *)
Lemma C27_builder_refuted_pf :
  forall c, c ∈ id_packages ->
    build c [BAddRange (range_from c 0 (2 ^ id_w c - 1)); BAddRange (range_from c 1 5)] =
      Ok ([range_from c 0 5], []) /\
    history c [BAddRange (range_from c 0 (2 ^ id_w c - 1)); BAddRange (range_from c 1 5)] 6.
Proof.
  intros c Hc. split.
  - unfold id_packages in Hc.
    apply elem_of_cons in Hc as [->|Hc]; [reflexivity|].
    apply elem_of_cons in Hc as [->|Hc]; [reflexivity|].
    apply elem_of_cons in Hc as [->|Hc]; [reflexivity|].
    by apply elem_of_nil in Hc.
  - cbn. left. right. unfold in_range. cbn [range_from r_from r_to i_id].
    apply packages_masks in Hc as Hm.
    assert (2 ^ 3 <= 2 ^ id_w c); [|lia].
    apply pow_le. unfold id_packages in Hc.
    apply elem_of_cons in Hc as [->|Hc]; [done|].
    apply elem_of_cons in Hc as [->|Hc]; [done|].
    apply elem_of_cons in Hc as [->|Hc]; [done|]. by apply elem_of_nil in Hc.
Qed.

(* ------------------------------------------------------------------ C28 *)
(** id16 and id32: every built set is canonical, whatever the calls. *)
Lemma C28_ranges_are_canonical_partial_pf :
  forall c os s e, c ∈ id_packages_16_32 -> Forall (op_wf c) os -> Forall (op_len c) os ->
    build c os = Ok (s, e) -> canonical_set c (set_ranges s).
Proof.
  intros c os s e Hc Hwf Hlen Hb. apply packages_full in Hc.
  assert (Hgood : Forall (op_good c (2 ^ id_w c) (2 ^ id_w c)) os).
  { rewrite Forall_forall in Hwf, Hlen. apply Forall_forall. intros o Ho. apply op_good_full; auto. }
  destruct (build_spec c _ _ (setcfg_full c Hc) os Hgood) as (s' & H1 & H2 & H3 & _).
  rewrite Hb in H1. injection H1 as -> ->. by apply vr_canonical.
Qed.

(** id64: for ids of length 1 to 32 and removals that start below 2^32. *)
Lemma C28_id64_partial_pf :
  forall os, Forall (op_wf cfg_id64) os ->
    Forall (fun o => match o with BAddId x | BRemoveId x => 1 <= i_len x <= 32 | _ => True end) os ->
    (forall (o : bop) (a b : N), o ∈ os -> removes o -> op_interval cfg_id64 o a b -> a < 2 ^ 32) ->
    forall s e, build cfg_id64 os = Ok (s, e) -> canonical_set cfg_id64 (set_ranges s).
Proof.
  intros os Hwf Hlen Hlim s e Hb. pose proof (op_good_64 os Hwf Hlen Hlim) as Hgood.
  destruct (build_spec cfg_id64 _ _ setcfg_64 os Hgood) as (s' & H1 & H2 & H3 & _).
  rewrite Hb in H1. injection H1 as -> ->. by apply vr_canonical.
Qed.

(** All widths: a set has one canonical representation. *)
Lemma C28_canonical_representation_is_unique_pf :
  forall c s1 s2, canonical_set c s1 -> canonical_set c s2 ->
    (forall v, members s1 v <-> members s2 v) -> s1 = s2.
Proof.
  intros c s1 s2 H1 H2. apply canonical_vr in H1 as [V1 S1]. apply canonical_vr in H2 as [V2 S2].
  revert s2 V2 S2. induction s1 as [|r1 s1 IH]; intros s2 V2 S2 Hm.
  - destruct s2 as [|r2 s2]; [done|]. exfalso. apply Forall_cons in V2 as [Hr _].
    apply (members_nil (fr r2)). apply Hm. apply members_cons. left. by eapply vr_from.
  - destruct s2 as [|r2 s2].
    { exfalso. apply Forall_cons in V1 as [Hr _].
      apply (members_nil (fr r1)). apply Hm. apply members_cons. left. by eapply vr_from. }
    apply Forall_cons in V1 as [Hr1 V1]. apply Forall_cons in V2 as [Hr2 V2].
    assert (A1 : forall v, members s1 v -> to_ r1 + 1 < v) by (intros v; by eapply sep_above).
    assert (A2 : forall v, members s2 v -> to_ r2 + 1 < v) by (intros v; by eapply sep_above).
    assert (M : forall v, in_range r1 v \/ members s1 v <-> in_range r2 v \/ members s2 v).
    { intros v. rewrite <- !members_cons. apply Hm. }
    pose proof Hr1 as (L1 & L1' & N1 & _). pose proof Hr2 as (L2 & L2' & N2 & _).
    unfold in_range in M.
    assert (Hf : fr r1 = fr r2).
    { pose proof (proj1 (M (fr r1))) as Ma. pose proof (proj2 (M (fr r2))) as Mb.
      destruct Ma as [Ma|Ma]; [left; lia| |].
      - destruct Mb as [Mb|Mb]; [left; lia|lia|]. apply A1 in Mb. lia.
      - apply A2 in Ma. destruct Mb as [Mb|Mb]; [left; lia|lia|]. apply A1 in Mb. lia. }
    assert (Ht : to_ r1 = to_ r2).
    { destruct (N.lt_trichotomy (to_ r1) (to_ r2)) as [H|[H|H]]; [exfalso|done|exfalso].
      - destruct (proj2 (M (to_ r1 + 1))) as [Ma|Ma]; [left; lia|lia|]. apply A1 in Ma. lia.
      - destruct (proj1 (M (to_ r2 + 1))) as [Ma|Ma]; [left; lia|lia|]. apply A2 in Ma. lia. }
    assert (r1 = r2) as <-.
    { destruct r1 as [[f1 lf1] [t1 lt1]], r2 as [[f2 lf2] [t2 lt2]]. cbn in *. by subst. }
    f_equal. apply IH; [done|by eapply sep_tail|done|by eapply sep_tail|].
    intros v. specialize (M v). split; intros Hv.
    + destruct (proj1 M) as [Ma|Ma]; [by right| |done]. apply A1 in Hv. lia.
    + destruct (proj2 M) as [Ma|Ma]; [by right| |done]. apply A2 in Hv. lia.
Qed.

(** id64: removing an interval above 2^32 leaves a reversed range. *)
Lemma C28_id64_refuted_pf :
  build cfg_id64 [BAddRange (range_from cfg_id64 (2 ^ 32) (2 ^ 33));
                  BRemoveRange (range_from cfg_id64 (2 ^ 32 + 5) (2 ^ 32 + 6))] =
  Ok ([range_from cfg_id64 (2 ^ 32) 4; range_from cfg_id64 (2 ^ 32 + 7) (2 ^ 33)], []).
Proof. reflexivity. Qed.

(* ------------------------------------------------------------------ C29 *)
(** id16 and id32: with ids of length at most the width nothing panics, and the
    errors are exactly one for every reversed range since the last IPSet(). *)
Lemma C29_building_never_panics_partial_pf :
  forall c os, c ∈ id_packages_16_32 -> Forall (op_wf c) os -> Forall (op_len c) os ->
    exists s, build c os = Ok (s, errors os).
Proof.
  intros c os Hc Hwf Hlen. apply packages_full in Hc.
  assert (Hgood : Forall (op_good c (2 ^ id_w c) (2 ^ id_w c)) os).
  { rewrite Forall_forall in Hwf, Hlen. apply Forall_forall. intros o Ho. apply op_good_full; auto. }
  destruct (build_spec c _ _ (setcfg_full c Hc) os Hgood) as (s' & H1 & _). by exists s'.
Qed.

(** id64: for ids of length 1 to 32 and removals that start below 2^32. *)
Lemma C29_id64_partial_pf :
  forall os, Forall (op_wf cfg_id64) os ->
    Forall (fun o => match o with BAddId x | BRemoveId x => 1 <= i_len x <= 32 | _ => True end) os ->
    (forall (o : bop) (a b : N), o ∈ os -> removes o -> op_interval cfg_id64 o a b -> a < 2 ^ 32) ->
    exists s, build cfg_id64 os = Ok (s, errors os).
Proof.
  intros os Hwf Hlen Hlim. pose proof (op_good_64 os Hwf Hlen Hlim) as Hgood.
  destruct (build_spec cfg_id64 _ _ setcfg_64 os Hgood) as (s' & H1 & _). by exists s'.
Qed.

(** Every width: an id longer than Mask allows makes AddId and RemoveId panic. *)
Lemma C29_long_id_panics_refuted_pf :
  forall c x s, c ∈ id_packages -> id_masklim c < i_len x ->
    b_step c s (BAddId x) = Panic /\ b_step c s (BRemoveId x) = Panic.
Proof.
  intros c x s _ Hl.
  assert (Hr : range_of_id c x = Ok None).
  { unfold range_of_id, id_masked, id_mask. by rewrite (proj2 (N.ltb_lt _ _) Hl). }
  cbn [b_step]. unfold add_id, remove_id. rewrite Hr. done.
Qed.

(** id64: valid ranges alone can panic. *)
Lemma C29_id64_ranges_panic_refuted_pf :
  build cfg_id64 [BAddRange (range_from cfg_id64 (2 ^ 32) (2 ^ 33));
                  BRemoveRange (range_from cfg_id64 (2 ^ 32 + 5) (2 ^ 32 + 6)); BIPSet;
                  BRemoveRange (range_from cfg_id64 7 8)] = Panic.
Proof. reflexivity. Qed.

(* ------------------------------------------------------------------ C30 *)
Lemma best_fit_spec bitlen ids : forall best,
  match best_fit bitlen best ids with
  | None => best = None /\ Forall (fun x => bitlen < i_len x) ids
  | Some b => (b ∈ ids /\ i_len b <= bitlen) \/ best = Some b
  end.
Proof.
  induction ids as [|x ids IH]; intros best; cbn [best_fit].
  - destruct best; [by right|done].
  - assert (Hweak : forall bst, match best_fit bitlen bst ids with
        | None => bst = None /\ Forall (fun x => bitlen < i_len x) ids
        | Some b => (b ∈ x :: ids /\ i_len b <= bitlen) \/ bst = Some b end).
    { intros bst. specialize (IH bst). destruct (best_fit bitlen bst ids); [|done].
      destruct IH as [[H1 H2]|H]; [left; split; [by right|done]|by right]. }
    destruct (N.ltb_spec bitlen (i_len x)) as [Hlt|Hge].
    + specialize (Hweak best). destruct (best_fit bitlen best ids); [done|].
      destruct Hweak as [-> H]. split; [done|]. by constructor.
    + destruct (match best with Some b => i_len b <? i_len x | None => true end) eqn:Hb.
      * destruct (i_len x =? bitlen); [left; split; [left|done]|].
        specialize (Hweak (Some x)). destruct (best_fit bitlen (Some x) ids); [|by destruct Hweak].
        destruct Hweak as [H|[= <-]]; [by left|]. left. split; [left|done].
      * specialize (Hweak best). destruct (best_fit bitlen best ids); [done|].
        destruct Hweak as [-> _]. done.
Qed.

Lemma best_fit_set_spec c bitlen s : cfg_full c -> Forall (vr c (2 ^ id_w c)) s -> forall best,
  exists o, best_fit_set c bitlen best s = Ok o /\
  match o with
  | None => best = None /\ forall r, r ∈ s -> exists l, range_ids c r = Ok l /\ Forall (fun x => bitlen < i_len x) l
  | Some b => (i_len b <= bitlen /\ exists r l, r ∈ s /\ range_ids c r = Ok l /\ b ∈ l) \/ best = Some b
  end.
Proof.
  intros Hc Hv. induction s as [|r s IH]; intros best; cbn [best_fit_set].
  - exists best. split; [done|]. destruct best; [by right|]. split; [done|].
    intros r Hr. by apply elem_of_nil in Hr.
  - apply Forall_cons in Hv as [Hr Hv]. specialize (IH Hv).
    assert (Hre : r = range_from c (fr r) (to_ r)).
    { destruct Hr as (L1 & L2 & _). destruct r as [[f lf] [t lt]]. cbn in *. by subst. }
    destruct (range_ids_full c (fr r) (to_ r)) as (l & Hl & _); [done|apply Hr|apply Hr|].
    rewrite <- Hre in Hl. rewrite Hl. cbn [rbind].
    destruct (IH (best_fit bitlen best l)) as (o & Ho & Hspec). exists o. split; [done|].
    pose proof (best_fit_spec bitlen l best) as Hb.
    destruct o as [b|].
    + destruct Hspec as [[H1 (r' & l' & H2 & H3)]|Hspec].
      * left. split; [done|]. exists r', l'. split; [by right|done].
      * rewrite Hspec in Hb. destruct Hb as [[H1 H2]|Hb]; [|by right].
        left. split; [done|]. exists r, l. split; [left|done].
    + destruct Hspec as [H1 H2]. rewrite H1 in Hb. destruct Hb as [-> Hb]. split; [done|].
      intros r' Hr'. apply elem_of_cons in Hr' as [->|Hr']; [by exists l|]. by apply H2.
Qed.

(** A block lies inside one range of a canonical set or not inside the set. *)
Lemma block_in_one_range c s p lo hi :
  sep s -> (forall v, lo <= v <= hi <-> covers (id_w c) p v) -> lo <= hi ->
  (forall v, covers (id_w c) p v -> members s v) ->
  exists r, r ∈ s /\ fr r <= lo /\ hi <= to_ r.
Proof.
  intros Hs Hp Hle Hin.
  destruct (Hin lo) as (r & Hr & Hlo); [apply Hp; lia|]. exists r. split; [done|].
  split; [apply Hlo|].
  destruct (N.le_gt_cases hi (to_ r)) as [|Hgt]; [done|]. exfalso.
  destruct (Hin (to_ r + 1)) as (r' & Hr' & Hv'); [apply Hp; unfold in_range in *; lia|].
  assert (r = r') as <-.
  { apply (sep_adjacent c s r r' (to_ r)); [done..| |done]. unfold in_range in *. lia. }
  unfold in_range in Hv'. lia.
Qed.

Lemma safe_sep c s : Forall (vr c (2 ^ id_w c)) s -> sep s -> safe c s.
Proof.
  intros Hv Hs r1 r2 H1 H2 Hmax Hle H1'. rewrite Forall_forall in Hv.
  destruct (Hv r1 H1) as (_ & _ & N1 & M1), (Hv r2 H2) as (_ & _ & N2 & M2).
  unfold sep in Hs. clear Hv. induction Hs as [|r l Hs IH Hf]; [by apply elem_of_nil in H1|].
  rewrite Forall_forall in Hf.
  apply elem_of_cons in H1 as [->|H1]; apply elem_of_cons in H2 as [->|H2]; [done| | |by apply IH].
  - apply Hf in H2. exfalso. lia.
  - apply Hf in H1. exfalso. lia.
Qed.

Lemma add_set_zero c s : Forall (vr c (2 ^ id_w c)) s -> forall i e,
  add_set c (Builder i [] e) s = Ok (Builder (i ++ s) [] e).
Proof.
  induction 1 as [|r s Hr Hs IH]; intros i e; cbn [add_set]; [by rewrite app_nil_r|].
  unfold add_range. rewrite (vr_valid c (2 ^ id_w c)) by done. cbn [negb b_out length Nat.ltb Nat.leb rbind b_in b_errs].
  rewrite IH. by rewrite <- app_assoc.
Qed.

(** id16 and id32, every canonical set (every built set is one), every length up
    to the width. *)
Lemma C30_remove_free_prefix_partial_pf :
  forall c s l, c ∈ id_packages_16_32 -> canonical_set c s -> l <= id_w c ->
    exists o, remove_free_prefix c s l = Ok o /\
      match o with
      | None => ~ exists p, i_len p = l /\ i_id p < 2 ^ id_w c /\
                            forall v, covers (id_w c) p v -> members s v
      | Some (p, s') =>
          i_len p = l /\ canonical (id_w c) p /\
          (forall v, covers (id_w c) p v -> members s v) /\
          canonical_set c s' /\
          forall v, members s' v <-> members s v /\ ~ covers (id_w c) p v
      end.
Proof.
  intros c s l Hc Hs Hl. apply packages_full in Hc. apply canonical_vr in Hs as [Hv Hsep].
  unfold remove_free_prefix.
  destruct (best_fit_set_spec c l s Hc Hv None) as (o & Ho & Hspec). rewrite Ho. cbn [rbind].
  set (w := id_w c) in *.
  assert (Hids : forall r, r ∈ s -> exists l0, range_ids c r = Ok l0 /\ Forall (canonical w) l0 /\
     chain w l0 (fr r) (to_ r + 1) /\ Forall (maximal w (fr r) (to_ r)) l0).
  { intros r Hr. rewrite Forall_forall in Hv. pose proof (Hv r Hr) as Hvr.
    assert (Hre : r = range_from c (fr r) (to_ r)).
    { destruct Hvr as (L1 & L2 & _). destruct r as [[f lf] [t lt]]. cbn in *. by subst. }
    destruct (range_ids_full c (fr r) (to_ r)) as (l0 & Hl0 & Hrest); [done|apply Hvr|apply Hvr|].
    rewrite <- Hre in Hl0. by exists l0. }
  destruct o as [b|].
  - destruct Hspec as [[Hbl (r & l0 & Hr & Hl0 & Hb)]|Hspec]; [|done].
    destruct (Hids r Hr) as (l1 & Hl1 & Hcan & Hch & _). rewrite Hl0 in Hl1. injection Hl1 as <-.
    rewrite Forall_forall in Hcan. specialize (Hcan b Hb) as (Hb1 & Hb2 & Hb3).
    fold w. unfold uwrap. rewrite (N.mod_small (i_id b)) by done.
    set (p := MyId (i_id b) l).
    assert (Hpcan : canonical w p).
    { split; [done|]. split; [done|]. cbn [p i_id i_len]. apply N.mod_divide; [done|].
      apply N.mod_divide in Hb3; [|done]. etransitivity; [|exact Hb3].
      exists (2 ^ (w - i_len b - (w - l))). rewrite <- N.pow_add_r. f_equal. clear -Hl Hbl Hb1. lia. }
    assert (Hsub : forall v, covers w p v -> members s v).
    { intros v Hcv. exists r. split; [done|].
      assert (Hbv : covers w b v).
      { apply (covers_finer w b p (i_id b) v); [done|done|done|apply covers_self]. }
      assert (Hcan' : canonical w b) by done.
      apply (covers_canonical w b v Hcan') in Hbv.
      apply (chain_elem _ _ _ _ _ Hch) in Hb. unfold in_range. clear -Hbv Hb. lia. }
    unfold builder_zero. rewrite (add_set_zero c s Hv). cbn [rbind app].
    assert (Hg : idg c (2 ^ w) p).
    { apply idg_of_mask; [done|done| |done]. by apply id_mask_full. }
    destruct Hg as (pr & Hpr & Hvpr & Hcov).
    unfold remove_id. rewrite Hpr. cbn [rbind]. rewrite (vr_valid c (2 ^ w)) by done.
    unfold remove_range. rewrite (vr_valid c (2 ^ w)) by done. cbn [rbind b_in b_out b_errs app].
    set (bl := Builder s [pr] []).
    assert (Hbinv : binv c (2 ^ w) (2 ^ w) bl) by (apply binv_full; [done|by constructor]).
    destruct (normalize_spec c _ _ (setcfg_full c Hc) bl Hbinv) as (x & H1 & H2 & H3 & H4).
    unfold ip_set. fold bl. rewrite H1. cbn [rbind b_in b_out b_errs fst snd].
    eexists. split; [done|]. cbn beta iota. split; [done|]. split; [done|]. split; [done|].
    split; [by apply vr_canonical|]. intros v. rewrite H4.
    + cbn [bl b_in b_out]. rewrite members_cons, members_nil, Hcov. tauto.
    + cbn [bl b_in]. by apply safe_sep.
    + cbn [bl b_out]. apply safe_sep; [by constructor|]. repeat constructor.
  - destruct Hspec as [_ Hspec]. exists None. split; [done|].
    intros (p & Hpl & Hpw & Hsub).
    pose proof (fun v => range_from_covers c p v) as Hblk.
    set (lo := i_id p / 2 ^ (id_w c - i_len p) * 2 ^ (id_w c - i_len p)) in *.
    set (hi := lo + (2 ^ (id_w c - i_len p) - 1)) in *.
    destruct (block_in_one_range c s p lo hi) as (r & Hr & Hlo & Hhi); [done|done|unfold hi; clear; lia|done|].
    destruct (Hids r Hr) as (l1 & Hl1 & Hcan & Hch & Hmax).
    destruct (Hspec r Hr) as (l2 & Hl2 & Hlong). rewrite Hl1 in Hl2. injection Hl2 as <-.
    assert (Hin : fr r <= i_id p < to_ r + 1).
    { assert (lo <= i_id p <= hi) by (apply Hblk; apply covers_self). clear -H Hlo Hhi. lia. }
    apply (chain_union w l1 (fr r) (to_ r + 1) (i_id p) Hcan Hch) in Hin as (x & Hx & Hxp).
    rewrite Forall_forall in Hmax, Hlong, Hcan.
    assert (Hlx : i_len x <= i_len p).
    { destruct (N.le_gt_cases (i_len x) (i_len p)) as [|Hgt]; [done|].
      apply (Hmax x Hx p); [lia| |].
      - unfold covers in *. symmetry.
        apply (div_coarser _ _ (w - i_len x)); [clear -Hgt; lia|done].
      - intros v Hcv. apply Hblk in Hcv. clear -Hcv Hlo Hhi. lia. }
    specialize (Hlong x Hx). clear -Hlx Hlong Hpl. lia.
Qed.

(* ------------------------------------------------------------------ C57 *)
Lemma maximal_minimal w l (P : N -> Prop) l' :
  StronglySorted (before w) l -> Forall (maximal_in w P) l ->
  (forall v, P v <-> exists x, x ∈ l /\ covers w x v) ->
  Forall (fun x => i_len x <= w) l' -> (forall v, P v <-> exists x, x ∈ l' /\ covers w x v) ->
  (length l <= length l')%nat.
Proof.
  intros Hs Hm Hu Hl' Hu'. rewrite Forall_forall in Hl'. rewrite Forall_forall in Hm.
  assert (Hcov : forall y v, y ∈ l' -> covers w y v -> P v).
  { intros y v Hy Hv. apply Hu'. eauto. }
  apply (pigeon (fun x y => y ∈ l' /\ covers w y (i_id x) /\ i_len x <= i_len y)).
  - by eapply sorted_nodup.
  - intros x Hx. assert (Hin : P (i_id x)) by (apply Hu; exists x; split; [done|apply covers_self]).
    apply Hu' in Hin as (y & Hy & Hyx). exists y. split; [done|]. split; [done|]. split; [done|].
    apply (Hm x Hx y); [by apply Hl'|done|]. intros v Hv. by eapply Hcov.
  - intros x1 x2 y H1 H2 (_ & Hy1 & Hl1) (_ & Hy2 & Hl2).
    eapply (sorted_disjoint w l x1 x2 (i_id x2)); [done..| |apply covers_self].
    by eapply (covers_finer w x1 y (i_id x1) (i_id x2)).
Qed.

Definition ids_right (c : idcfg) (r : range) : Prop :=
  exists l, range_ids c (range_from c (fr r) (to_ r)) = Ok l /\ Forall (canonical (id_w c)) l /\
    chain (id_w c) l (fr r) (to_ r + 1) /\ Forall (maximal (id_w c) (fr r) (to_ r)) l.
Lemma ids_right_full c s : cfg_full c -> Forall (vr c (2 ^ id_w c)) s -> Forall (ids_right c) s.
Proof. intros Hc Hv. eapply Forall_impl; [exact Hv|]. intros r Hr. apply range_ids_full; [done|apply Hr|apply Hr]. Qed.
Lemma set_ids_gen c s : Forall (ids_right c) s -> Forall (vr c (2 ^ id_w c)) s -> sep s ->
  exists l, set_ids c s = Ok l /\ Forall (canonical (id_w c)) l /\ StronglySorted (before (id_w c)) l /\
    (forall v, members s v <-> exists x, x ∈ l /\ covers (id_w c) x v) /\
    (forall x, x ∈ l -> exists r lr, r ∈ s /\ range_ids c r = Ok lr /\ x ∈ lr /\ maximal (id_w c) (fr r) (to_ r) x).
Proof.
  intros Hids Hv Hs. set (w := id_w c) in *. induction s as [|r s IH]; cbn [set_ids].
  - exists []. split; [done|]. split; [done|]. split; [constructor|]. split.
    + intros v. rewrite members_nil. split; [done|]. intros (x & Hx & _). by apply elem_of_nil in Hx.
    + intros x Hx. by apply elem_of_nil in Hx.
  - apply Forall_cons in Hv as [Hr Hv]. apply Forall_cons in Hids as [(l1 & Hl1 & Hcan & Hch & Hmax) Hids].
    assert (Habove : forall v, members s v -> to_ r + 1 < v) by (intros v; by eapply sep_above).
    destruct (IH Hids Hv) as (l2 & H1 & H2 & H3 & H4 & H5); [by eapply sep_tail|].
    assert (Hre : r = range_from c (fr r) (to_ r)).
    { destruct Hr as (L1 & L2 & _). destruct r as [[f lf] [t lt]]. cbn in *. by subst. }
    rewrite <- Hre in Hl1. rewrite Hl1, H1. cbn [rbind].
    exists (l1 ++ l2). split; [done|]. split; [by apply Forall_app|].
    pose proof (chain_sorted _ _ _ _ Hcan Hch) as Hs1.
    assert (Hu1 : forall v, in_range r v <-> exists x, x ∈ l1 /\ covers w x v).
    { intros v. rewrite <- (chain_union w l1 (fr r) (to_ r + 1) v) by done. unfold in_range. clear. lia. }
    split; [|split].
    + assert (Hcross : forall x y u v, x ∈ l1 -> y ∈ l2 -> covers w x u -> covers w y v -> u < v).
      { intros x y u v Hx Hy Hxu Hyv. assert (in_range r u) by (apply Hu1; eauto).
        assert (members s v) as Hm by (apply H4; eauto). apply Habove in Hm. unfold in_range in *. lia. }
      clear -Hs1 H3 Hcross. induction Hs1 as [|x l1 Hs1 IH Hf]; cbn [app]; [done|]. constructor.
      * apply IH. intros x' y u v Hx'. apply Hcross. by right.
      * apply Forall_app. split; [done|]. apply Forall_forall. intros y Hy u v. apply Hcross; [left|done].
    + intros v. rewrite members_cons, Hu1, H4. split.
      * intros [(x & Hx & Hxv)|(x & Hx & Hxv)]; exists x; rewrite elem_of_app; auto.
      * intros (x & Hx & Hxv). apply elem_of_app in Hx as [Hx|Hx]; eauto.
    + intros x Hx. apply elem_of_app in Hx as [Hx|Hx].
      * exists r, l1. split; [left|]. split; [done|]. split; [done|]. rewrite Forall_forall in Hmax. by apply Hmax.
      * destruct (H5 x Hx) as (r' & lr & ? & ? & ? & ?). exists r', lr. split; [by right|done].
Qed.

Lemma set_ids_spec c s : cfg_full c -> Forall (vr c (2 ^ id_w c)) s -> sep s ->
  exists l, set_ids c s = Ok l /\ Forall (canonical (id_w c)) l /\ StronglySorted (before (id_w c)) l /\
    (forall v, members s v <-> exists x, x ∈ l /\ covers (id_w c) x v) /\
    (forall x, x ∈ l -> exists r lr, r ∈ s /\ range_ids c r = Ok lr /\ x ∈ lr /\ maximal (id_w c) (fr r) (to_ r) x).
Proof. intros Hc Hv Hs. apply set_ids_gen; [by apply ids_right_full|done|done]. Qed.

Lemma set_ids_maximal_gen c s : Forall (ids_right c) s -> Forall (vr c (2 ^ id_w c)) s -> sep s ->
  forall l, set_ids c s = Ok l -> Forall (maximal_in (id_w c) (members s)) l.
Proof.
  intros Hids Hv Hs l Hl. destruct (set_ids_gen c s Hids Hv Hs) as (l' & Hl' & _ & _ & _ & H).
  rewrite Hl in Hl'. injection Hl' as <-. apply Forall_forall. intros x Hx y Hyl Hy Hin.
  destruct (H x Hx) as (r & lr & Hr & Hlr & Hxr & Hmax). apply Hmax; [done|done|].
  pose proof (fun v => range_from_covers c y v) as Hblk.
  set (lo := i_id y / 2 ^ (id_w c - i_len y) * 2 ^ (id_w c - i_len y)) in *.
  set (hi := lo + (2 ^ (id_w c - i_len y) - 1)) in *.
  destruct (block_in_one_range c s y lo hi) as (r' & Hr' & Hlo & Hhi); [done|done|unfold hi; clear; lia|done|].
  (* the range containing y is the range of x *)
  rewrite Forall_forall in Hv. pose proof (Hv r Hr) as Hvr.
  assert (Hre : r = range_from c (fr r) (to_ r)).
  { destruct Hvr as (L1 & L2 & _). destruct r as [[f lf] [t lt]]. cbn in *. by subst. }
  rewrite Forall_forall in Hids. destruct (Hids r Hr) as (l1 & Hl1 & Hcan & Hch & _).
  rewrite <- Hre in Hl1. rewrite Hlr in Hl1. injection Hl1 as <-.
  assert (Hxin : in_range r (i_id x)).
  { apply (chain_elem _ _ _ _ _ Hch) in Hxr. pose proof (pow_pos (id_w c - i_len x)). unfold in_range.
    set (P := 2 ^ _) in *. clearbody P. lia. }
  assert (Hxin' : in_range r' (i_id x)).
  { apply Hblk in Hy. unfold in_range. clear -Hy Hlo Hhi. lia. }
  assert (r = r') as <-.
  { clear -Hs Hr Hr' Hxin Hxin'. unfold sep, in_range in *. induction Hs as [|z l Hs IH Hf]; [by apply elem_of_nil in Hr|].
    rewrite Forall_forall in Hf.
    apply elem_of_cons in Hr as [->|Hr]; apply elem_of_cons in Hr' as [->|Hr']; [done| | |by apply IH].
    - apply Hf in Hr'. lia.
    - apply Hf in Hr. lia. }
  intros v Hcv. apply Hblk in Hcv. clear -Hcv Hlo Hhi. lia.
Qed.

Lemma set_ids_maximal c s : cfg_full c -> Forall (vr c (2 ^ id_w c)) s -> sep s ->
  forall l, set_ids c s = Ok l -> Forall (maximal_in (id_w c) (members s)) l.
Proof. intros Hc Hv Hs. apply set_ids_maximal_gen; [by apply ids_right_full|done|done]. Qed.

(** id16 and id32: IDs() of every canonical set. *)
Lemma C57_ids_of_a_set_partial_pf :
  forall c s, c ∈ id_packages_16_32 -> canonical_set c s ->
    exists l, set_ids c s = Ok l /\ Forall (canonical (id_w c)) l /\ StronglySorted (before (id_w c)) l /\
      (forall v, members s v <-> exists x, x ∈ l /\ covers (id_w c) x v) /\
      (forall l', Forall (fun x => i_len x <= id_w c) l' ->
         (forall v, members s v <-> exists x, x ∈ l' /\ covers (id_w c) x v) -> (length l <= length l')%nat).
Proof.
  intros c s Hc Hs. apply packages_full in Hc. apply canonical_vr in Hs as [Hv Hsep].
  destruct (set_ids_spec c s Hc Hv Hsep) as (l & H1 & H2 & H3 & H4 & _).
  exists l. split; [done|]. split; [done|]. split; [done|]. split; [done|].
  intros l' Hl' Hu'. apply (maximal_minimal (id_w c) l (members s)); try done.
  by apply set_ids_maximal.
Qed.

Lemma set_ids_elem c s r lr x : r ∈ s -> range_ids c r = Ok lr -> x ∈ lr -> forall l, set_ids c s = Ok l -> x ∈ l.
Proof.
  intros Hr Hlr Hx. induction s as [|r1 s IH]; intros l; [by apply elem_of_nil in Hr|]. cbn [set_ids].
  destruct (range_ids c r1) as [l1|e|] eqn:E1; [|done..]. cbn [rbind].
  destruct (set_ids c s) as [l2|e|]; [|done..]. cbn [rbind]. intros [= <-]. apply elem_of_app.
  apply elem_of_cons in Hr as [<-|Hr]; [left; congruence|right; by apply IH].
Qed.
Lemma ids_right_64 s : Forall (vr cfg_id64 (2 ^ 64)) s ->
  (forall r, r ∈ s -> ~ id64_bad_range (i_id (r_from r)) (i_id (r_to r))) -> Forall (ids_right cfg_id64) s.
Proof.
  intros Hv Hgood. rewrite Forall_forall in Hv |- *. intros r Hr. pose proof (Hv r Hr) as Hvr.
  apply range_ids_spec; [apply packages_masks; unfold id_packages; set_solver|apply Hvr|apply Hvr|].
  apply compare_ids_64; [apply Hvr|apply Hvr|by apply Hgood].
Qed.
(** id64: IDs() of a canonical set is right exactly if it is right for each of
    its ranges (see C24). *)
Lemma C57_id64_exactly_outside_bad_ranges_partial_pf :
  forall s, canonical_set cfg_id64 s ->
    ((exists l, set_ids cfg_id64 s = Ok l /\ Forall (canonical 64) l /\ StronglySorted (before 64) l /\
       (forall v, members s v <-> exists x, x ∈ l /\ covers 64 x v) /\
       (forall l', Forall (fun x => i_len x <= 64) l' ->
          (forall v, members s v <-> exists x, x ∈ l' /\ covers 64 x v) -> (length l <= length l')%nat))
     <-> forall r, r ∈ s -> ~ id64_bad_range (i_id (r_from r)) (i_id (r_to r))).
Proof.
  intros s Hs. apply canonical_vr in Hs as [Hv Hsep].
  assert (Hm : cfg_masks cfg_id64) by (apply packages_masks; unfold id_packages; set_solver).
  assert (Hre : forall r, r ∈ s -> r = range_from cfg_id64 (fr r) (to_ r)).
  { intros r Hr. rewrite Forall_forall in Hv. destruct (Hv r Hr) as (L1 & L2 & _).
    destruct r as [[f lf] [t lt]]. cbn in *. by subst. }
  split.
  - intros (l & Hl & _ & _ & Hu & _) r Hr Hbad. rewrite Forall_forall in Hv. pose proof (Hv r Hr) as Hvr.
    assert (Hids : range_ids cfg_id64 r = Ok [MyId (fr r) 0]).
    { rewrite (Hre r Hr). apply bad_range_ids; [apply Hvr|apply Hvr|done]. }
    assert (Hin : MyId (fr r) 0 ∈ l) by (by eapply set_ids_elem; [..|left|]).
    destruct (block_in_one_range cfg_id64 s (MyId (fr r) 0) 0 (2 ^ 64 - 1)) as (r' & Hr' & Hlo & Hhi).
    + done.
    + intros v. unfold covers. cbn [i_id i_len]. change (id_w cfg_id64) with 64. rewrite N.sub_0_r.
      destruct Hvr as (_ & _ & Hle & Hto). change (id_w cfg_id64) with 64 in Hto.
      rewrite (N.div_small (fr r)) by lia. rewrite N.div_small_iff by done. lia.
    + done.
    + intros v Hcov. apply Hu. by exists (MyId (fr r) 0).
    + assert (r = r') as <-.
      { apply (sep_adjacent cfg_id64 s r r' (fr r)); [done..| |].
        - destruct Hvr as (_ & _ & Hle & _). unfold in_range. clear -Hle. lia.
        - destruct Hvr as (_ & _ & Hle & Hto), Hbad as (Hhalf & _). change (id_w cfg_id64) with 64 in Hto.
          unfold in_range. clear -Hle Hto Hhalf Hlo Hhi. lia. }
      destruct Hvr as (_ & _ & Hle & Hto), Hbad as (_ & _ & _ & Hnot). change (id_w cfg_id64) with 64 in Hto.
      clear -Hle Hto Hlo Hhi Hnot. lia.
  - intros Hgood. pose proof (ids_right_64 s Hv Hgood) as Hids.
    destruct (set_ids_gen cfg_id64 s Hids Hv Hsep) as (l & H1 & H2 & H3 & H4 & _).
    exists l. split; [done|]. split; [done|]. split; [done|]. split; [done|].
    intros l' Hl' Hu'. apply (maximal_minimal 64 l (members s)); try done.
    by apply (set_ids_maximal_gen cfg_id64 s).
Qed.

(** id64: IDs() of the set of the values up to 2^63 + 2^32 - 1 covers every value. *)
Lemma C57_id64_refuted_pf :
  canonical_set cfg_id64 [range_from cfg_id64 0 (2 ^ 63 + 2 ^ 32 - 1)] /\
  set_ids cfg_id64 [range_from cfg_id64 0 (2 ^ 63 + 2 ^ 32 - 1)] = Ok [MyId 0 0] /\
  covers 64 (MyId 0 0) (2 ^ 64 - 1).
Proof.
  split; [|split; reflexivity]. split; [|by repeat constructor]. constructor; [|done]. by repeat split.
Qed.

(* ------------------------------------------------------------------ C58 *)
(** [o] is the first of the longest elements of [l] that are not longer than bitlen. *)
Definition first_longest (bitlen : N) (l : list id) (o : option id) : Prop :=
  match o with
  | None => Forall (fun q => bitlen < i_len q) l
  | Some b => exists l1 l2, l = l1 ++ b :: l2 /\ i_len b <= bitlen /\
      Forall (fun q => bitlen < i_len q \/ i_len q < i_len b) l1 /\
      Forall (fun q => bitlen < i_len q \/ i_len q <= i_len b) l2
  end.

Lemma best_fit_first bitlen ids : forall l0 best,
  first_longest bitlen l0 best -> first_longest bitlen (l0 ++ ids) (best_fit bitlen best ids).
Proof.
  induction ids as [|x ids IH]; intros l0 best Hb; cbn [best_fit].
  - by rewrite app_nil_r.
  - assert (Hskip : bitlen < i_len x \/ (exists b, best = Some b /\ i_len x <= i_len b) ->
      first_longest bitlen (l0 ++ [x]) best).
    { intros Hx. destruct best as [b|]; cbn [first_longest] in *.
      - destruct Hb as (l1 & l2 & -> & H1 & H2 & H3). exists l1, (l2 ++ [x]).
        split; [by rewrite <- app_assoc|]. split; [done|]. split; [done|]. apply Forall_app. split; [done|].
        constructor; [|done]. destruct Hx as [Hx|(b' & [= <-] & Hx)]; [by left|by right].
      - apply Forall_app. split; [done|]. constructor; [|done]. destruct Hx as [Hx|(b' & ? & _)]; done. }
    replace (l0 ++ x :: ids) with ((l0 ++ [x]) ++ ids) by (by rewrite <- app_assoc).
    destruct (N.ltb_spec bitlen (i_len x)) as [Hlt|Hge]; [by apply IH, Hskip; left|].
    destruct (match best with None => true | Some b => i_len b <? i_len x end) eqn:Hnew.
    + assert (Hl0 : Forall (fun q => bitlen < i_len q \/ i_len q < i_len x) l0).
      { destruct best as [b|]; cbn [first_longest] in *.
        - destruct Hb as (l1 & l2 & -> & H1 & H2 & H3). apply N.ltb_lt in Hnew.
          apply Forall_app. split; [eapply Forall_impl; [done|]; cbn; intros; lia|].
          constructor; [by right|]. eapply Forall_impl; [done|]; cbn; intros; lia.
        - eapply Forall_impl; [done|]. cbn. by left. }
      destruct (N.eqb_spec (i_len x) bitlen) as [He|He].
      * exists l0, ids. split; [by rewrite <- app_assoc|]. split; [done|]. split; [done|].
        apply Forall_forall. intros q _. rewrite He. lia.
      * apply IH. exists l0, []. done.
    + apply IH, Hskip. right. destruct best as [b|]; [|done]. exists b. split; [done|]. by apply N.ltb_ge.
Qed.

Lemma best_fit_set_first c bitlen s : forall l0 best ids,
  set_ids c s = Ok ids -> first_longest bitlen l0 best ->
  exists o, best_fit_set c bitlen best s = Ok o /\ first_longest bitlen (l0 ++ ids) o.
Proof.
  induction s as [|r s IH]; intros l0 best ids Hids Hf; cbn [set_ids best_fit_set] in *.
  - injection Hids as <-. exists best. by rewrite app_nil_r.
  - destruct (range_ids c r) as [l| |] eqn:Hr; cbn [rbind] in *; [|done|done].
    destruct (set_ids c s) as [rest| |] eqn:Hs; cbn [rbind] in *; [|done|done]. injection Hids as <-.
    destruct (IH (l0 ++ l) (best_fit bitlen best l) rest eq_refl) as (o & Ho & Fo); [by apply best_fit_first|].
    exists o. by rewrite app_assoc.
Qed.

(** Every maximal block is one of the prefixes of IDs(). *)
Lemma maximal_elem c s l q : Forall (ids_right c) s -> Forall (vr c (2 ^ id_w c)) s -> sep s ->
  set_ids c s = Ok l -> canonical (id_w c) q -> (forall v, covers (id_w c) q v -> members s v) ->
  maximal_in (id_w c) (members s) q -> q ∈ l.
Proof.
  intros Hc Hv Hs Hl Hq Hin Hmax. set (w := id_w c) in *.
  pose proof (set_ids_maximal_gen c s Hc Hv Hs l Hl) as Hml.
  destruct (set_ids_gen c s Hc Hv Hs) as (l' & Hl' & Hcan & _ & Hu & _). fold w in Hml, Hcan, Hu.
  rewrite Hl in Hl'. injection Hl' as <-. rewrite Forall_forall in Hml, Hcan.
  assert (Hqm : members s (i_id q)) by (apply Hin, covers_self).
  apply Hu in Hqm as (x & Hx & Hxq). pose proof (Hcan x Hx) as Hxc. pose proof (Hml x Hx) as Hxm.
  assert (Heq : i_len x = i_len q).
  { destruct (N.le_gt_cases (i_len q) (i_len x)) as [H|H].
    - assert (i_len x <= i_len q); [|lia]. apply Hxm; [apply Hq| |done].
      unfold covers in *. symmetry. apply (div_coarser (i_id q) (i_id x) (w - i_len x)); [lia|done].
    - assert (i_len q <= i_len x); [|lia]. apply Hmax; [apply Hxc|done|].
      intros v Hcv. apply Hu. by exists x. }
  assert (x = q) as <-; [|done].
  destruct Hxc as (_ & _ & Hx0), Hq as (_ & _ & Hq0). destruct x as [xi xl], q as [qi ql]. cbn [i_id i_len] in *.
  subst xl. f_equal. unfold covers in Hxq. cbn [i_id i_len] in Hxq.
  rewrite (N.div_mod xi (2 ^ (w - ql))), (N.div_mod qi (2 ^ (w - ql))) by done. by rewrite Hx0, Hq0, Hxq.
Qed.

Lemma best_fit_gen c s l p s' : Forall (ids_right c) s -> Forall (vr c (2 ^ id_w c)) s -> sep s ->
    remove_free_prefix c s l = Ok (Some (p, s')) ->
    exists b, canonical (id_w c) b /\ (forall v, covers (id_w c) b v -> members s v) /\
      maximal_in (id_w c) (members s) b /\ i_len b <= l /\ i_id p = i_id b /\
      forall q, canonical (id_w c) q -> (forall v, covers (id_w c) q v -> members s v) ->
        maximal_in (id_w c) (members s) q -> i_len q <= l ->
        i_len q < i_len b \/ (i_len q = i_len b /\ i_id b <= i_id q).
Proof.
  intros Hright Hv Hsep Hrun.
  destruct (set_ids_gen c s Hright Hv Hsep) as (ids & Hids & Hcan & Hsort & Hu & _).
  pose proof (set_ids_maximal_gen c s Hright Hv Hsep ids Hids) as Hmax.
  destruct (best_fit_set_first c l s [] None ids Hids) as (o & Ho & Hbest); [constructor|].
  cbn [app] in Hbest.
  unfold remove_free_prefix in Hrun. rewrite Ho in Hrun. cbn [rbind] in Hrun.
  destruct o as [b|]; [|done].
  assert (b ∈ ids /\ i_len b <= l) as [Hb Hbl].
  { destruct Hbest as (l1 & l2 & -> & Hbl & _). split; [|done]. apply elem_of_app. right. left. }
  rewrite Forall_forall in Hcan, Hmax. pose proof (Hcan b Hb) as Hbc.
  exists b. split; [done|]. split; [intros v Hcv; apply Hu; by exists b|]. split; [by apply Hmax|].
  split; [done|]. split.
  - destruct (add_set _ _ _) as [bl| |]; cbn [rbind] in Hrun; [|done|done].
    destruct (remove_id _ _ _) as [bl'| |]; cbn [rbind] in Hrun; [|done|done].
    destruct (ip_set _ _) as [r| |]; cbn [rbind] in Hrun; [|done|done]. injection Hrun as <- _. cbn [i_id].
    apply N.mod_small. apply Hbc.
  - intros q Hq Hin Hqm Hql.
    pose proof (maximal_elem c s ids q Hright Hv Hsep Hids Hq Hin Hqm) as Hqi.
    destruct Hbest as (l1 & l2 & -> & _ & H1 & H2). rewrite Forall_forall in H1, H2.
    apply elem_of_app in Hqi as [Hqi|Hqi].
    + left. destruct (H1 q Hqi); [lia|done].
    + apply elem_of_cons in Hqi as [->|Hqi]; [by right|].
      assert (Hbq : i_id b < i_id q).
      { clear -Hsort Hqi. induction l1 as [|x l1 IH]; cbn [app] in Hsort; apply StronglySorted_inv in Hsort as [Hs Hf].
        - rewrite Forall_forall in Hf. apply (Hf q Hqi); apply covers_self.
        - by apply IH. }
      destruct (H2 q Hqi); lia.
Qed.
(** id16 and id32, every canonical set, every length up to the width. *)
Lemma C58_remove_free_prefix_is_best_fit_partial_pf :
  forall c s l p s', c ∈ id_packages_16_32 -> canonical_set c s -> l <= id_w c ->
    remove_free_prefix c s l = Ok (Some (p, s')) ->
    exists b, canonical (id_w c) b /\ (forall v, covers (id_w c) b v -> members s v) /\
      maximal_in (id_w c) (members s) b /\ i_len b <= l /\ i_id p = i_id b /\
      forall q, canonical (id_w c) q -> (forall v, covers (id_w c) q v -> members s v) ->
        maximal_in (id_w c) (members s) q -> i_len q <= l ->
        i_len q < i_len b \/ (i_len q = i_len b /\ i_id b <= i_id q).
Proof.
  intros c s l p s' Hc Hs _ Hrun. apply packages_full in Hc. apply canonical_vr in Hs as [Hv Hsep].
  apply (best_fit_gen c s l p s'); [by apply ids_right_full|done..].
Qed.

(** id64, every canonical set without bad ranges (see C24). *)
Lemma C58_id64_is_best_fit_partial_pf :
  forall s l p s', canonical_set cfg_id64 s ->
    (forall r, r ∈ s -> ~ id64_bad_range (i_id (r_from r)) (i_id (r_to r))) ->
    remove_free_prefix cfg_id64 s l = Ok (Some (p, s')) ->
    exists b, canonical 64 b /\ (forall v, covers 64 b v -> members s v) /\
      maximal_in 64 (members s) b /\ i_len b <= l /\ i_id p = i_id b /\
      forall q, canonical 64 q -> (forall v, covers 64 q v -> members s v) ->
        maximal_in 64 (members s) q -> i_len q <= l ->
        i_len q < i_len b \/ (i_len q = i_len b /\ i_id b <= i_id q).
Proof.
  intros s l p s' Hs Hgood Hrun. apply canonical_vr in Hs as [Hv Hsep].
  apply (best_fit_gen cfg_id64 s l p s'); [by apply ids_right_64|done..].
Qed.

(** id64: for every length above 32 RemoveFreePrefix panics exactly if there is a
    block to return. *)
Lemma C30_id64_long_prefixes_refuted_pf :
  forall s l, canonical_set cfg_id64 s ->
    (forall r, r ∈ s -> ~ id64_bad_range (i_id (r_from r)) (i_id (r_to r))) -> 32 < l <= 64 ->
    let free p := i_len p = l /\ canonical 64 p /\ forall v, covers 64 p v -> members s v in
    ((exists p, free p) -> remove_free_prefix cfg_id64 s l = Panic) /\
    (~ (exists p, free p) -> remove_free_prefix cfg_id64 s l = Ok None).
Proof.
  intros s l Hs Hgood Hl free. apply canonical_vr in Hs as [Hv Hsep].
  pose proof (ids_right_64 s Hv Hgood) as Hids.
  destruct (set_ids_gen cfg_id64 s Hids Hv Hsep) as (ids & H1 & H2 & H3 & H4 & _).
  pose proof (set_ids_maximal_gen cfg_id64 s Hids Hv Hsep ids H1) as Hmax.
  change (id_w cfg_id64) with 64 in *.
  destruct (best_fit_set_first cfg_id64 l s [] None ids H1) as (o & Ho & Hf); [constructor|]. cbn [app] in Hf.
  unfold remove_free_prefix. rewrite Ho. cbn [rbind].
  destruct o as [b|]; cbn [first_longest] in Hf.
  - destruct Hf as (l1 & l2 & -> & Hbl & _). rewrite Forall_forall in H2.
    assert (Hb : b ∈ l1 ++ b :: l2) by (apply elem_of_app; right; left).
    destruct (H2 b Hb) as (Hb1 & Hb2 & Hb3).
    assert (Hp : free (MyId (i_id b) l)).
    { split; [done|]. split.
      - split; [apply Hl|]. split; [done|]. cbn [i_id i_len]. apply N.mod_divide; [done|].
        apply N.mod_divide in Hb3; [|done]. etransitivity; [|exact Hb3].
        exists (2 ^ (64 - i_len b - (64 - l))). rewrite <- N.pow_add_r. f_equal. clear -Hl Hbl Hb1. lia.
      - intros v Hcv. apply H4. exists b. split; [done|].
        apply (covers_finer 64 b (MyId (i_id b) l) (i_id b) v); [done|done|done|apply covers_self]. }
    split; [|intros Hno; exfalso; apply Hno; by eexists]. intros _.
    unfold builder_zero. rewrite (add_set_zero cfg_id64 s Hv). cbn [rbind].
    unfold remove_id, range_of_id, id_masked, id_mask. cbn [i_len].
    change (id_masklim cfg_id64) with 32. by rewrite (proj2 (N.ltb_lt _ _) (proj1 Hl)).
  - split; [|done]. intros (p & Hpl & Hpc & Hp). exfalso.
    assert (Hm : members s (i_id p)) by (apply Hp, covers_self).
    apply H4 in Hm as (x & Hx & Hxp). rewrite Forall_forall in Hf, Hmax.
    specialize (Hf x Hx). assert (i_len x <= i_len p); [|lia].
    destruct (N.le_gt_cases (i_len x) (i_len p)) as [|Hgt]; [done|].
    apply (Hmax x Hx p); [apply Hpc| |done].
    unfold covers in *. symmetry. apply (div_coarser _ _ (64 - i_len x)); [clear -Hgt; lia|done].
Qed.

Lemma merge_canonical c plim s : setcfg c (2 ^ id_w c) plim -> Forall (vr c (2 ^ id_w c)) s -> sep s ->
  merge_ranges c s = Some s.
Proof.
  intros Hsc Hv Hs. destruct (merge_ranges_spec c _ plim Hsc s Hv) as (out & -> & H2 & H3 & _ & H5).
  f_equal. apply (C28_canonical_representation_is_unique_pf c); [by apply vr_canonical|by apply vr_canonical|].
  apply H5. by apply safe_sep.
Qed.

Lemma loop_skip c lim fuel s1 : forall in_ rout out, Forall (vr c lim) s1 -> vr c lim rout ->
  (forall r, r ∈ s1 -> to_ r < fr rout) ->
  normalize_loop c (length s1 + fuel) (s1 ++ in_) (rout :: out) [] = res_app s1 (normalize_loop c fuel in_ (rout :: out) []).
Proof.
  induction s1 as [|r s1 IH]; intros in_ rout out Hv Ho Hlt.
  - cbn [length Nat.add app]. by destruct (normalize_loop _ _ _ _ _).
  - apply Forall_cons in Hv as [Hr Hv]. cbn [length Nat.add app normalize_loop].
    rewrite (vr_valid c lim r Hr), (vr_valid c lim rout Ho). cbn [negb orb]. unfold entirely_before.
    rewrite !(less_tf c lim) by done.
    assert (H1 : to_ r < fr rout) by (apply Hlt; left). pose proof Hr as (_ & _ & Hr3 & _). pose proof Ho as (_ & _ & Ho3 & _).
    destruct (N.ltb_spec (to_ rout) (fr r)) as [H|_]; [clear -H H1 Hr3 Ho3; lia|].
    destruct (N.ltb_spec (to_ r) (fr rout)) as [_|H]; [|clear -H H1; lia].
    rewrite normalize_loop_acc, IH; [|done|done|intros x Hx; apply Hlt; by right].
    rewrite <- (res_app_app [r] s1). done.
Qed.

(** id64, lengths 0 to 32: if there is a free block, one is returned; the set
    returned with it is right exactly if the block is the first one of all ids or
    a range of the set starts with it.  Otherwise the value before the block is lost. *)
Lemma C30_id64_short_prefixes_partial_pf :
  forall s l, canonical_set cfg_id64 s ->
    (forall r, r ∈ s -> ~ id64_bad_range (i_id (r_from r)) (i_id (r_to r))) -> l <= 32 ->
    let free p := i_len p = l /\ canonical 64 p /\ forall v, covers 64 p v -> members s v in
    (~ (exists p, free p) -> remove_free_prefix cfg_id64 s l = Ok None) /\
    ((exists p, free p) -> exists p s', remove_free_prefix cfg_id64 s l = Ok (Some (p, s')) /\ free p /\
       let right := forall v, members s' v <-> members s v /\ ~ covers 64 p v in
       (right <-> i_id p = 0 \/ exists r, r ∈ s /\ i_id (r_from r) = i_id p) /\
       (right -> canonical_set cfg_id64 s') /\
       (~ right -> members s (i_id p - 1) /\ ~ covers 64 p (i_id p - 1) /\ ~ members s' (i_id p - 1))).
Proof.
  intros s l Hs Hgood Hl free. pose proof Hs as Hcs. apply canonical_vr in Hs as [Hv Hsep].
  pose proof (ids_right_64 s Hv Hgood) as Hids.
  destruct (set_ids_gen cfg_id64 s Hids Hv Hsep) as (ids & H1 & H2 & H3 & H4 & _).
  pose proof (set_ids_maximal_gen cfg_id64 s Hids Hv Hsep ids H1) as Hmax.
  change (id_w cfg_id64) with 64 in *.
  destruct (best_fit_set_first cfg_id64 l s [] None ids H1) as (o & Ho & Hf); [constructor|]. cbn [app] in Hf.
  unfold remove_free_prefix. rewrite Ho. cbn [rbind].
  destruct o as [b|]; cbn [first_longest] in Hf.
  2:{ split; [done|]. intros (p & Hpl & Hpc & Hp). exfalso.
      assert (Hm : members s (i_id p)) by (apply Hp, covers_self).
      apply H4 in Hm as (x & Hx & Hxp). rewrite Forall_forall in Hf, Hmax.
      specialize (Hf x Hx). assert (i_len x <= i_len p); [|clear -Hf Hpl H; lia].
      destruct (N.le_gt_cases (i_len x) (i_len p)) as [|Hgt]; [done|].
      apply (Hmax x Hx p); [apply Hpc| |done].
      unfold covers in *. symmetry. apply (div_coarser _ _ (64 - i_len x)); [clear -Hgt; lia|done]. }
  destruct Hf as (l1 & l2 & -> & Hbl & _). rewrite Forall_forall in H2.
  assert (Hb : b ∈ l1 ++ b :: l2) by (apply elem_of_app; right; left).
  destruct (H2 b Hb) as (Hb1 & Hb2 & Hb3).
  unfold uwrap. change (id_w cfg_id64) with 64. rewrite (N.mod_small (i_id b)) by done.
  set (p := MyId (i_id b) l).
  assert (Hpcan : canonical 64 p).
  { split; [cbn; clear -Hl; lia|]. split; [done|]. cbn [p i_id i_len]. apply N.mod_divide; [done|].
    apply N.mod_divide in Hb3; [|done]. etransitivity; [|exact Hb3].
    exists (2 ^ (64 - i_len b - (64 - l))). rewrite <- N.pow_add_r. f_equal. clear -Hl Hbl Hb1. lia. }
  assert (Hp : free p).
  { split; [done|]. split; [done|].
    intros v Hcv. apply H4. exists b. split; [done|].
    apply (covers_finer 64 b p (i_id b) v); [done|done|done|apply covers_self]. }
  split; [intros Hno; exfalso; apply Hno; by eexists|]. intros _.
  destruct (N.eq_dec l 0) as [Hl0|Hl0].
  { (* the block of all ids: the set is full *)
    subst l. assert (Hb0 : i_id b = 0).
    { destruct Hpcan as (_ & Hlt & Hmod). cbn [p i_id i_len] in Hlt, Hmod. rewrite N.sub_0_r in Hmod.
      by rewrite N.mod_small in Hmod. }
    assert (Hsf : s = [range_from cfg_id64 0 (2 ^ 64 - 1)]).
    { apply (C28_canonical_representation_is_unique_pf cfg_id64); [done|split; repeat constructor; done|].
      intros v. split.
      - intros (r & Hr & Hin). exists (range_from cfg_id64 0 (2 ^ 64 - 1)). split; [left|].
        rewrite Forall_forall in Hv. specialize (Hv r Hr). destruct Hv as (_ & _ & _ & Hto).
        unfold in_range in *. cbn [range_from r_from r_to i_id]. clear -Hin Hto. lia.
      - intros (r & Hr & Hin). apply elem_of_list_singleton in Hr as ->. apply Hp. unfold covers, p. cbn [i_id i_len].
        rewrite Hb0, N.sub_0_r. unfold in_range in Hin. cbn [range_from r_from r_to i_id] in Hin.
        rewrite !N.div_small by (clear -Hin; lia). done. }
    exists p, []. unfold p in *. rewrite Hb0 in *. clear Hids Hmax Ho H1 H2 H3 H4 Hb Hv Hsep Hgood. subst s.
    split; [vm_compute; reflexivity|]. split; [done|]. cbv zeta.
    assert (Hr : forall v, members [] v <-> members [range_from cfg_id64 0 (2 ^ 64 - 1)] v /\ ~ covers 64 (MyId 0 0) v).
    { intros v. split.
      - intros (r & Hr & _). by apply elem_of_nil in Hr.
      - intros [(r & Hr & Hin) Hn]. exfalso. apply Hn. apply elem_of_list_singleton in Hr as ->.
        unfold covers. cbn [i_id i_len]. unfold in_range in Hin. cbn [range_from r_from r_to i_id] in Hin.
        rewrite N.sub_0_r, !N.div_small by (clear -Hin; lia). done. }
    split; [|split; [|done]].
    - split; [by left|done].
    - intros _. split; constructor. }
  assert (Hl1 : 1 <= l <= 32) by (clear -Hl Hl0; lia). clear Hl Hl0. rename Hl1 into Hl.
  unfold builder_zero. rewrite (add_set_zero cfg_id64 s Hv). cbn [rbind app].
  assert (Hm64 : cfg_masks cfg_id64) by (apply packages_masks; unfold id_packages; set_solver).
  assert (Hmask : id_mask cfg_id64 p (i_len p) =
    Ok (MyId (i_id p / 2 ^ (64 - i_len p) * 2 ^ (64 - i_len p)) (i_len p))).
  { apply (id_mask_spec cfg_id64); [done|done|cbn; clear -Hl; lia|change (id_w cfg_id64) with 64; cbn; clear -Hl; lia|
      change (id_masklim cfg_id64) with 32; cbn; clear -Hl; lia]. }
  assert (Hg : idg cfg_id64 (2 ^ 64) p).
  { apply idg_of_mask; [change (id_w cfg_id64) with 64; cbn; clear -Hl; lia|done|done|done]. }
  destruct Hg as (pr & Hpr & Hvpr & Hcov). change (id_w cfg_id64) with 64 in Hcov.
  assert (Hprf : fr pr = i_id p).
  { assert (Hself : in_range pr (i_id p)) by (apply Hcov, covers_self). unfold in_range in Hself.
    assert (Hc2 : in_range pr (fr pr)) by (by apply (vr_from cfg_id64 (2 ^ 64))).
    apply Hcov, (covers_canonical 64 p _ Hpcan) in Hc2. clear -Hself Hc2. lia. }
  (* the block lies in one range *)
  destruct (block_in_one_range cfg_id64 s p (fr pr) (to_ pr)) as (r & Hr & Hlo & Hhi);
    [done|exact Hcov|apply Hvpr|apply Hp|].
  unfold remove_id. rewrite Hpr. cbn [rbind]. rewrite (vr_valid cfg_id64 (2 ^ 64)) by done.
  unfold remove_range. rewrite (vr_valid cfg_id64 (2 ^ 64)) by done. cbn [rbind b_in b_out b_errs app].
  unfold ip_set, normalize. cbn [b_in b_out b_errs].
  rewrite (merge_canonical cfg_id64 (2 ^ 32) s setcfg_64 Hv Hsep). cbn [merge_ranges].
  assert (Huniq : forall r', r' ∈ s -> in_range r' (fr pr) -> r' = r).
  { intros r' Hr' Hin'. destruct (elem_of_list_split _ _ Hr) as (s1 & s2 & ->).
    apply elem_of_app in Hr' as [Hr'|Hr'].
    - exfalso. assert (Hlt : to_ r' + 1 < fr r).
      { unfold sep in Hsep. clear -Hsep Hr'. induction s1 as [|y s1 IH]; [by apply elem_of_nil in Hr'|].
        cbn [app] in Hsep. apply StronglySorted_inv in Hsep as [Hsep Hf].
        apply elem_of_cons in Hr' as [->|Hr']; [|by apply IH]. rewrite Forall_forall in Hf. apply Hf.
        apply elem_of_app. right. left. }
      unfold in_range in Hin'. clear -Hin' Hlt Hlo. lia.
    - apply elem_of_cons in Hr' as [->|Hr']; [done|]. exfalso. assert (Hlt : to_ r + 1 < fr r').
      { unfold sep in Hsep. clear -Hsep Hr'. induction s1 as [|y s1 IH]; cbn [app] in Hsep;
          apply StronglySorted_inv in Hsep as [Hsep Hf]; [|by apply IH]. rewrite Forall_forall in Hf. by apply Hf. }
      unfold in_range in Hin'. pose proof Hvpr as (_ & _ & Hpr3 & _). clear -Hin' Hlt Hhi Hpr3. lia. }
  destruct (decide (fr pr = 0 \/ fr r = fr pr)) as [Hcase|Hcase].
  - destruct (normalize_loop_spec cfg_id64 (2 ^ 64) (2 ^ 32) setcfg_64 (S (length s + length [pr])) s [pr])
      as (x & E1 & E2 & E3 & E4); [done|by constructor| |done|by repeat constructor|clear; lia|].
    { intros i o Hi Hoo Hlt Hle. apply elem_of_list_singleton in Hoo as ->.
      destruct Hcase as [Hz|He]; [unfold low; by rewrite Hz|]. exfalso.
      rewrite (Huniq i Hi) in Hlt; [clear -Hlt He; lia|]. split; [clear -Hlt; lia|done]. }
    rewrite E1. cbn [rbind b_in b_out b_errs fst snd]. exists p, x. split; [done|]. split; [done|].
    assert (Hright : forall v, members x v <-> members s v /\ ~ covers 64 p v).
    { intros v. rewrite E4, members_cons, members_nil, Hcov. tauto. }
    cbn zeta. split; [|split; [intros _; by apply vr_canonical|done]].
    split; [|done]. intros _. rewrite <- Hprf. destruct Hcase as [Hz|He]; [by left|]. right. by exists r.
  - assert (Hlt : fr r < fr pr) by (clear -Hcase Hlo; lia).
    assert (Hp32 : 2 ^ 32 <= fr pr).
    { rewrite Hprf. destruct Hpcan as (_ & _ & Hp3). apply N.mod_divide in Hp3 as [q Hq]; [|done].
      destruct (N.eq_dec q 0) as [->|Hq0]; [exfalso; clear -Hcase Hq Hprf; lia|].
      etransitivity; [|rewrite Hq; apply (N.mul_le_mono_r 1); clear -Hq0; lia]. rewrite N.mul_1_l.
      apply N.pow_le_mono_r; [done|]. cbn [p i_len]. clear -Hl. lia. }
    destruct (elem_of_list_split _ _ Hr) as (s1 & s2 & ->).
    set (q := if fr pr mod 2 ^ 32 =? 0 then 2 ^ 32 - 2 else fr pr mod 2 ^ 32 - 1).
    assert (Hq : q < 2 ^ 32 - 1).
    { unfold q. assert (Hm : fr pr mod 2 ^ 32 < 2 ^ 32) by (by apply N.mod_lt).
      destruct (N.eqb_spec (fr pr mod 2 ^ 32) 0); [done|]. clear -Hm n. lia. }
    assert (Hprev : id_prev cfg_id64 (r_from pr) = MyId q 64).
    { destruct Hvpr as (L1 & L2 & L3 & L4). rewrite C21_id64_prev_exact_pf.
      - fold q. by rewrite L1.
      - split; [change (id_w cfg_id64) with 64; clear -L3 L4; lia|by rewrite L1].
      - clear -Hlt. lia. }
    pose proof Hv as Hv'. apply Forall_app in Hv' as [Hv1 Hv2]. apply Forall_cons in Hv2 as [Hvr Hv2].
    assert (Hbefore : forall y, y ∈ s1 -> to_ y + 1 < fr r).
    { unfold sep in Hsep. clear -Hsep. intros y Hy. induction s1 as [|z s1 IH]; [by apply elem_of_nil in Hy|].
      cbn [app] in Hsep. apply StronglySorted_inv in Hsep as [Hsep Hf].
      apply elem_of_cons in Hy as [->|Hy]; [|by apply IH]. rewrite Forall_forall in Hf. apply Hf.
      apply elem_of_app. right. left. }
    assert (Hafter : forall y, y ∈ s2 -> to_ r + 1 < fr y).
    { unfold sep in Hsep. clear -Hsep. intros y Hy. induction s1 as [|z s1 IH]; cbn [app] in Hsep;
        apply StronglySorted_inv in Hsep as [Hsep Hf]; [|by apply IH]. rewrite Forall_forall in Hf. by apply Hf. }
    pose proof Hvpr as (P1 & P2 & P3 & P4). pose proof Hvr as (R1 & R2 & R3 & R4).
    assert (Hloop : exists tl, normalize_loop cfg_id64 (S (length (s1 ++ r :: s2) + length [pr])) (s1 ++ r :: s2) [pr] [] =
      Ok (s1 ++ Range (r_from r) (MyId q 64) :: tl) /\ forall y, y ∈ tl -> to_ pr < fr y).
    { replace (S (length (s1 ++ r :: s2) + length [pr]))%nat with (length s1 + S (S (S (length s2))))%nat
        by (rewrite app_length; cbn [length]; clear; lia).
      rewrite (loop_skip cfg_id64 (2 ^ 64)); [|done|done|intros y Hy; apply Hbefore in Hy; clear -Hy Hlt; lia].
      cbn [normalize_loop]. rewrite (vr_valid cfg_id64 (2 ^ 64) r Hvr), (vr_valid cfg_id64 (2 ^ 64) pr Hvpr). cbn [negb orb].
      unfold entirely_before, covered_by, in_middle_of, overlaps_start_of, overlaps_end_of.
      rewrite !(less_tf cfg_id64 (2 ^ 64)), !(less_ff cfg_id64 (2 ^ 64)), !(less_tt cfg_id64 (2 ^ 64)),
        !(leq_ff cfg_id64 (2 ^ 64)), !(leq_tt cfg_id64 (2 ^ 64)) by done.
      rewrite Hprev.
      destruct (N.ltb_spec (to_ pr) (fr r)) as [H|_]; [clear -H Hlt P3; lia|].
      destruct (N.ltb_spec (to_ r) (fr pr)) as [H|_]; [clear -H Hhi P3; lia|].
      destruct (N.leb_spec (fr pr) (fr r)) as [H|_]; [clear -H Hlt; lia|]. cbn [andb].
      destruct (N.ltb_spec (fr r) (fr pr)) as [_|H]; [|clear -H Hlt; lia]. cbn [andb].
      destruct (N.ltb_spec (to_ pr) (to_ r)) as [H|H].
      - rewrite (next_vr cfg_id64 (2 ^ 64) (2 ^ 32) setcfg_64 pr Hvpr) by (clear -H R4; lia).
        eexists (set_from r (MyId (to_ pr + 1) 64) :: s2). split; [done|].
        intros y Hy. apply elem_of_cons in Hy as [->|Hy]; [cbn; clear; lia|]. apply Hafter in Hy. clear -Hy H. lia.
      - destruct (N.leb_spec (to_ r) (to_ pr)) as [_|H']; [|clear -H H'; lia].
        exists s2. assert (Hs2 : forall y, y ∈ s2 -> to_ pr < fr y).
        { intros y Hy. apply Hafter in Hy. clear -Hy Hhi. lia. }
        split; [|done]. cbn [app]. destruct s2 as [|y s2]; [done|].
        apply Forall_cons in Hv2 as [Hy _].
        rewrite (vr_valid cfg_id64 (2 ^ 64) y Hy). cbn [negb orb].
        rewrite (less_tf cfg_id64 (2 ^ 64) pr y Hvpr Hy).
        destruct (N.ltb_spec (to_ pr) (fr y)) as [_|H']; [done|].
        assert (to_ pr < fr y) by (apply Hs2; left). clear -H0 H'. lia. }
    destruct Hloop as (tl & -> & Htl). cbn [rbind b_in b_out b_errs fst snd].
    eexists p, _. split; [done|]. split; [done|].
    assert (Hin : members (s1 ++ r :: s2) (i_id p - 1)).
    { exists r. split; [apply elem_of_app; right; left|]. unfold in_range. rewrite <- Hprf. clear -Hlt Hhi P3. lia. }
    assert (Hnc : ~ covers 64 p (i_id p - 1)).
    { intros H. apply (covers_canonical 64 p _ Hpcan) in H. rewrite <- Hprf in H. clear -H Hlt. lia. }
    assert (Hno : ~ members (s1 ++ Range (r_from r) (MyId q 64) :: tl) (i_id p - 1)).
    { rewrite <- Hprf, members_app, members_cons. intros [(y & Hy & Hyv)|[H|(y & Hy & Hyv)]].
      - apply Hbefore in Hy. unfold in_range in Hyv. clear -Hy Hyv Hlt. lia.
      - unfold in_range in H. cbn [r_from r_to i_id] in H. clear -H Hq Hp32. lia.
      - apply Htl in Hy. unfold in_range in Hyv. clear -Hy Hyv P3 Hlt. lia. }
    assert (Hwrong : ~ forall v, members (s1 ++ Range (r_from r) (MyId q 64) :: tl) v <->
        members (s1 ++ r :: s2) v /\ ~ covers 64 p v).
    { intros H. apply Hno, H. done. }
    cbn zeta. split; [|split; [done|done]]. split; [done|].
    intros Hz. exfalso. destruct Hz as [Hz|(r' & Hr' & He)].
    + rewrite Hprf in Hp32. clear -Hz Hp32. lia.
    + assert (r' = r) as -> by (apply Huniq; [done|]; split; [clear -He Hprf; lia|];
        rewrite Forall_forall in Hv; destruct (Hv r' Hr') as (_ & _ & Hr3 & _); clear -He Hprf Hr3; lia).
      clear -He Hprf Hlt. lia.
Qed.

(** id64: on a one-element set RemoveFreePrefix(64) panics. *)
Lemma C30_id64_refuted_pf :
  canonical_set cfg_id64 [range_from cfg_id64 7 7] /\
  remove_free_prefix cfg_id64 [range_from cfg_id64 7 7] 64 = Panic.
Proof.
  split; [|reflexivity]. split; [|by repeat constructor].
  constructor; [|done]. by repeat split.
Qed.

(** id64: of a set that is one range of the kind C24 describes, RemoveFreePrefix
    takes a prefix that starts at the lower bound, aligned or not: an unaligned one
    has values that are not in the set. *)
Lemma C30_id64_bad_range_refuted_pf :
  forall a b l, a <= b -> b < 2 ^ 64 -> id64_bad_range a b -> 1 <= l <= 32 ->
    exists s', remove_free_prefix cfg_id64 [range_from cfg_id64 a b] l = Ok (Some (MyId a l, s')) /\
      (forall v, members s' v <-> a <= v <= b /\ ~ covers 64 (MyId a l) v) /\
      (a mod 2 ^ (64 - l) <> 0 -> exists v, covers 64 (MyId a l) v /\ ~ members [range_from cfg_id64 a b] v).
Proof.
  intros a b l Hab Hb Hbad Hl. set (s := [range_from cfg_id64 a b]).
  assert (Ha : a < 2 ^ 64) by (clear -Hab Hb; lia).
  assert (Hv : Forall (vr cfg_id64 (2 ^ 64)) s) by (constructor; [|done]; by repeat split).
  assert (Hsep : sep s) by (by repeat constructor).
  assert (Hin : forall v, members s v <-> a <= v <= b).
  { intros v. unfold s. rewrite members_cons, members_nil. unfold in_range. cbn [range_from r_from r_to i_id]. tauto. }
  set (p := MyId a l).
  assert (Hm64 : cfg_masks cfg_id64) by (apply packages_masks; unfold id_packages; set_solver).
  assert (Hmask : id_mask cfg_id64 p (i_len p) =
    Ok (MyId (i_id p / 2 ^ (64 - i_len p) * 2 ^ (64 - i_len p)) (i_len p))).
  { apply (id_mask_spec cfg_id64); [done|done|cbn; clear -Hl; lia|change (id_w cfg_id64) with 64; cbn; clear -Hl; lia|
      change (id_masklim cfg_id64) with 32; cbn; clear -Hl; lia]. }
  assert (Hg : idg cfg_id64 (2 ^ 64) p).
  { apply idg_of_mask; [change (id_w cfg_id64) with 64; cbn; clear -Hl; lia|done|done|done]. }
  destruct Hg as (pr & Hpr & Hvpr & Hcov). change (id_w cfg_id64) with 64 in Hcov.
  assert (Hself : in_range pr a) by (apply Hcov, (covers_self 64 p)).
  destruct (normalize_loop_spec cfg_id64 (2 ^ 64) (2 ^ 32) setcfg_64 (S (length s + length [pr])) s [pr])
    as (x & E1 & E2 & E3 & E4); [done|by constructor| |done|by repeat constructor|clear; lia|].
  { intros i o Hi Hoo Hlt Hle. apply elem_of_list_singleton in Hoo as ->. apply elem_of_list_singleton in Hi as ->.
    exfalso. unfold in_range in Hself. cbn [range_from r_from r_to i_id] in Hlt. clear -Hlt Hself. lia. }
  exists x. split; [|split].
  - unfold remove_free_prefix, s. cbn [best_fit_set]. rewrite (bad_range_ids a b Hab Hb Hbad). cbn [rbind best_fit i_len i_id].
    rewrite (proj2 (N.ltb_ge l 0)) by (clear; lia). rewrite (proj2 (N.eqb_neq 0 l)) by (clear -Hl; lia). cbn [rbind best_fit_set i_id].
    unfold uwrap. change (id_w cfg_id64) with 64. rewrite (N.mod_small a) by done. fold p. fold s.
    unfold builder_zero. rewrite (add_set_zero cfg_id64 s Hv). cbn [rbind app].
    unfold remove_id. rewrite Hpr. cbn [rbind]. rewrite (vr_valid cfg_id64 (2 ^ 64)) by done.
    unfold remove_range. rewrite (vr_valid cfg_id64 (2 ^ 64)) by done. cbn [rbind b_in b_out b_errs app].
    unfold ip_set, normalize. cbn [b_in b_out b_errs].
    rewrite (merge_canonical cfg_id64 (2 ^ 32) s setcfg_64 Hv Hsep). cbn [merge_ranges]. rewrite E1. done.
  - intros v. rewrite E4, Hin, members_cons, members_nil, Hcov. tauto.
  - intros Hmod. exists (a / 2 ^ (64 - l) * 2 ^ (64 - l)). rewrite Hin. unfold covers. cbn [p i_id i_len].
    rewrite N.div_mul by (apply N.pow_nonzero; done). split; [done|].
    pose proof (N.div_mod a (2 ^ (64 - l)) (N.pow_nonzero 2 (64 - l) ltac:(done))) as D. clear -D Hmod.
    set (q := a / 2 ^ (64 - l)) in *. set (r := a mod 2 ^ (64 - l)) in *. set (z := 2 ^ (64 - l)) in *. clearbody q r z. nia.
Qed.

(** id64: of such a set RemoveFreePrefix(0) returns a prefix, although no block of
    all ids is free. *)
Lemma C58_id64_refuted_pf :
  forall a b, a <= b -> b < 2 ^ 64 -> id64_bad_range a b ->
    remove_free_prefix cfg_id64 [range_from cfg_id64 a b] 0 = Ok (Some (MyId a 0, [])) /\
    ~ exists q, canonical 64 q /\ i_len q <= 0 /\ forall v, covers 64 q v -> members [range_from cfg_id64 a b] v.
Proof.
  intros a b Hab Hb Hbad. assert (Ha : a < 2 ^ 64) by (clear -Hab Hb; lia). set (s := [range_from cfg_id64 a b]).
  assert (Hv : Forall (vr cfg_id64 (2 ^ 64)) s) by (constructor; [|done]; by repeat split).
  assert (Hsep : sep s) by (by repeat constructor).
  assert (Hm64 : cfg_masks cfg_id64) by (apply packages_masks; unfold id_packages; set_solver).
  split.
  - set (pr := range_from cfg_id64 a (2 ^ 64 - 1)).
    assert (Hpr : range_of_id cfg_id64 (MyId a 0) = Ok (Some pr)).
    { unfold range_of_id, id_masked, id_mask. cbn [i_len i_id]. change (id_masklim cfg_id64 <? 0) with false.
      change (mask6 cfg_id64 0) with (Ok (2 ^ 64 - 2 ^ 32)). cbn [rbind].
      assert (Hla : N.land a (2 ^ 64 - 2 ^ 32) = a).
      { destruct Hbad as (_ & Hmod & _). rewrite (IdProofs.land_mask 64 32 a) by done.
        pose proof (N.div_mod a (2 ^ 32) ltac:(done)) as D. clear -D Hmod. rewrite Hmod in D. lia. }
      rewrite Hla. f_equal. f_equal. unfold pr, range_from. f_equal. rewrite last_id_spec by done.
      cbn [i_id i_len]. change (id_w cfg_id64) with 64. rewrite N.sub_0_r, N.div_small by done. done. }
    assert (Hvpr : vr cfg_id64 (2 ^ 64) pr) by (split; [done|]; split; [done|]; split; [|done]; change (a <= 2 ^ 64 - 1); clear -Ha; lia).
    destruct (normalize_loop_spec cfg_id64 (2 ^ 64) (2 ^ 32) setcfg_64 (S (length s + length [pr])) s [pr])
      as (x & E1 & E2 & E3 & E4); [done|by constructor| |done|by repeat constructor|clear; lia|].
    { intros i o Hi Hoo Hlt Hle. apply elem_of_list_singleton in Hoo as ->. apply elem_of_list_singleton in Hi as ->.
      exfalso. cbn [pr range_from r_from r_to i_id] in Hlt. clear -Hlt. lia. }
    assert (x = []) as ->.
    { destruct x as [|r x]; [done|]. exfalso. apply Forall_cons in E2 as [Hr _].
      assert (Hmem : members (r :: x) (fr r)) by (exists r; split; [left|by apply (vr_from cfg_id64 (2 ^ 64))]).
      apply E4 in Hmem as [H1 H2]. apply H2. rewrite members_cons. left. unfold s in H1.
      rewrite members_cons, members_nil in H1. unfold in_range in *. cbn [pr range_from r_from r_to i_id] in *.
      clear -H1 Hb. lia. }
    unfold remove_free_prefix, s. cbn [best_fit_set]. rewrite (bad_range_ids a b Hab Hb Hbad). cbn [rbind best_fit i_len i_id].
    change (0 <? 0) with false. change (0 =? 0) with true. cbn [rbind best_fit_set i_id].
    unfold uwrap. change (id_w cfg_id64) with 64. rewrite (N.mod_small a) by done. fold s.
    unfold builder_zero. rewrite (add_set_zero cfg_id64 s Hv). cbn [rbind app].
    unfold remove_id. rewrite Hpr. cbn [rbind]. rewrite (vr_valid cfg_id64 (2 ^ 64)) by done.
    unfold remove_range. rewrite (vr_valid cfg_id64 (2 ^ 64)) by done. cbn [rbind b_in b_out b_errs app].
    unfold ip_set, normalize. cbn [b_in b_out b_errs].
    rewrite (merge_canonical cfg_id64 (2 ^ 32) s setcfg_64 Hv Hsep). cbn [merge_ranges]. rewrite E1. done.
  - intros (q & (_ & Hq & _) & Hq0 & Hall). destruct Hbad as (_ & _ & _ & Hnot). apply Hnot.
    assert (H : forall v, v < 2 ^ 64 -> a <= v <= b).
    { intros v Hvv. assert (Hm : members s v).
      { apply Hall. unfold covers. replace (64 - i_len q) with 64 by (clear -Hq0; lia). by rewrite !N.div_small. }
      unfold s in Hm. rewrite members_cons, members_nil in Hm. unfold in_range in Hm. cbn [range_from r_from r_to i_id] in Hm. tauto. }
    pose proof (H 0 ltac:(done)). pose proof (H (2 ^ 64 - 1) ltac:(done)). clear -H0 H1 Hb. lia.
Qed.
