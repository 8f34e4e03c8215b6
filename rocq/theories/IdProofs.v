From Verif Require Import IdSpec TableNProofs.
From Coq Require Import Lia ZifyBool ZifyNat ZifyN.
Ltac Zify.zify_post_hook ::= Z.div_mod_to_equations.

(* ------------------------------------------------ bit-level arithmetic *)
Lemma pow_pos k : 0 < 2 ^ k.
Proof. apply N.neq_0_lt_0, N.pow_nonzero. done. Qed.
Global Hint Resolve pow_pos : core.
Lemma pow_nz k : 2 ^ k <> 0.
Proof. apply N.pow_nonzero. done. Qed.
Global Hint Resolve pow_nz : core.
Lemma pow_split w k : k <= w -> 2 ^ w = 2 ^ (w - k) * 2 ^ k.
Proof. intros H. rewrite <- N.pow_add_r. f_equal. lia. Qed.
Lemma pow_le a b : a <= b -> 2 ^ a <= 2 ^ b.
Proof. intros. by apply N.pow_le_mono_r. Qed.
Lemma pow_lt a b : a < b -> 2 ^ a < 2 ^ b.
Proof. intros. by apply N.pow_lt_mono_r. Qed.
Lemma pow_S k : 2 ^ (k + 1) = 2 * 2 ^ k.
Proof. rewrite N.add_1_r. apply N.pow_succ_r'. Qed.

Lemma mask_shift w k : k <= w -> 2 ^ w - 2 ^ k = N.shiftl (N.ones (w - k)) k.
Proof.
  intros H. rewrite N.shiftl_mul_pow2, N.ones_equiv, (pow_split w k) by done.
  pose proof (pow_pos (w - k)). pose proof (pow_pos k). nia.
Qed.

Lemma testbit_high x w n : x < 2 ^ w -> w <= n -> N.testbit x n = false.
Proof.
  intros Hx Hn. rewrite N.testbit_eqb. rewrite N.div_small; [done|].
  eapply N.lt_le_trans; [exact Hx|]. by apply pow_le.
Qed.

Lemma land_mask w k x : k <= w -> x < 2 ^ w -> N.land x (2 ^ w - 2 ^ k) = x / 2 ^ k * 2 ^ k.
Proof.
  intros Hk Hx. rewrite mask_shift by done.
  rewrite <- N.shiftr_div_pow2, <- N.shiftl_mul_pow2. apply N.bits_inj. intros n.
  rewrite N.land_spec. destruct (N.lt_ge_cases n k) as [Hn|Hn].
  - rewrite !N.shiftl_spec_low by done. by rewrite andb_false_r.
  - rewrite !N.shiftl_spec_high' by done. rewrite N.shiftr_spec'.
    replace (n - k + k) with n by lia.
    destruct (N.lt_ge_cases n w) as [Hnw|Hnw].
    + rewrite N.ones_spec_low by lia. by rewrite andb_true_r.
    + rewrite (testbit_high x w n) by done. done.
Qed.

Lemma land_disjoint_add x y : N.land x y = 0 -> N.lor x y = x + y.
Proof.
  intros H. rewrite N.add_nocarry_lxor by done. symmetry. by apply N.lxor_lor.
Qed.

Lemma lor_ones x k : N.lor x (N.ones k) = x / 2 ^ k * 2 ^ k + (2 ^ k - 1).
Proof.
  replace (2 ^ k - 1) with (N.ones k) by (rewrite N.ones_equiv; lia).
  rewrite <- land_disjoint_add.
  - rewrite <- N.shiftr_div_pow2, <- N.shiftl_mul_pow2. apply N.bits_inj. intros n.
    rewrite !N.lor_spec. destruct (N.lt_ge_cases n k) as [Hn|Hn].
    + rewrite N.ones_spec_low by done. by rewrite !orb_true_r.
    + rewrite N.ones_spec_high by done. rewrite N.shiftl_spec_high', N.shiftr_spec' by done.
      by replace (n - k + k) with n by lia.
  - rewrite <- N.shiftl_mul_pow2. apply N.bits_inj. intros n. rewrite N.land_spec, N.bits_0.
    destruct (N.lt_ge_cases n k) as [Hn|Hn].
    + by rewrite N.shiftl_spec_low.
    + rewrite N.ones_spec_high by done. by rewrite andb_false_r.
Qed.

Lemma unot_mask w k : k <= w -> unot w (2 ^ w - 2 ^ k) = N.ones k.
Proof.
  intros Hk. unfold unot. rewrite mask_shift by done. apply N.bits_inj. intros n.
  rewrite N.lxor_spec. destruct (N.lt_ge_cases n k) as [Hn|Hn].
  - rewrite N.shiftl_spec_low, !N.ones_spec_low by lia. done.
  - rewrite N.shiftl_spec_high' by done. rewrite (N.ones_spec_high k) by done.
    destruct (N.lt_ge_cases n w) as [Hnw|Hnw].
    + rewrite !N.ones_spec_low by lia. done.
    + rewrite !N.ones_spec_high by lia. done.
Qed.

Lemma lxor_land_mask w k x :
  k <= w -> x < 2 ^ w -> N.lxor x (N.land x (2 ^ w - 2 ^ k)) = x mod 2 ^ k.
Proof.
  intros Hk Hx. rewrite mask_shift by done. rewrite <- N.land_ones. apply N.bits_inj. intros n.
  rewrite N.lxor_spec, !N.land_spec. destruct (N.lt_ge_cases n k) as [Hn|Hn].
  - rewrite N.shiftl_spec_low, N.ones_spec_low by lia.
    by rewrite andb_false_r, andb_true_r, xorb_false_r.
  - rewrite N.shiftl_spec_high' by done. rewrite (N.ones_spec_high k) by done.
    destruct (N.lt_ge_cases n w) as [Hnw|Hnw].
    + rewrite N.ones_spec_low by lia. by rewrite andb_true_r, andb_false_r, xorb_nilpotent.
    + rewrite (testbit_high x w n) by done. done.
Qed.

Lemma lor_mask w k x :
  k <= w -> x < 2 ^ w -> N.lor x (2 ^ w - 2 ^ k) = 2 ^ w - 2 ^ k + x mod 2 ^ k.
Proof.
  intros Hk Hx. rewrite N.add_comm. rewrite <- land_disjoint_add.
  - rewrite mask_shift by done. rewrite <- N.land_ones. apply N.bits_inj. intros n.
    rewrite !N.lor_spec, N.land_spec. destruct (N.lt_ge_cases n k) as [Hn|Hn].
    + rewrite N.shiftl_spec_low, N.ones_spec_low by lia. by rewrite andb_true_r.
    + rewrite N.shiftl_spec_high' by done. rewrite (N.ones_spec_high k) by done.
      destruct (N.lt_ge_cases n w) as [Hnw|Hnw].
      * rewrite N.ones_spec_low by lia. by rewrite !orb_true_r.
      * rewrite (testbit_high x w n) by done. by rewrite andb_false_l.
  - rewrite mask_shift by done. rewrite <- N.land_ones. apply N.bits_inj. intros n.
    rewrite !N.land_spec, N.bits_0. destruct (N.lt_ge_cases n k) as [Hn|Hn].
    + rewrite N.shiftl_spec_low by lia. by rewrite andb_false_r.
    + rewrite (N.ones_spec_high k) by done. by rewrite andb_false_r.
Qed.

Lemma unot_0 w : unot w 0 = 2 ^ w - 1.
Proof. unfold unot. rewrite N.lxor_0_l, N.ones_equiv. lia. Qed.

(** [N.size (a xor b)] locates the highest differing bit. *)
Lemma xor_size_div a b : a / 2 ^ N.size (N.lxor a b) = b / 2 ^ N.size (N.lxor a b).
Proof.
  set (m := N.size (N.lxor a b)).
  rewrite <- !N.shiftr_div_pow2. apply N.lxor_eq.
  rewrite <- N.shiftr_lxor, N.shiftr_div_pow2. apply N.div_small. apply N.size_gt.
Qed.

Lemma xor_size_le a b m : a / 2 ^ m = b / 2 ^ m -> N.size (N.lxor a b) <= m.
Proof.
  intros H. rewrite <- !N.shiftr_div_pow2 in H.
  assert (Hz : N.lxor a b / 2 ^ m = 0).
  { rewrite <- N.shiftr_div_pow2, N.shiftr_lxor, H. apply N.lxor_nilpotent. }
  destruct (N.eq_dec (N.lxor a b) 0) as [->|Hne]; [cbn; lia|].
  apply N.div_small_iff in Hz; [|done].
  rewrite N.size_log2 by done. apply N.le_succ_l. apply N.log2_lt_pow2; [lia|done].
Qed.

Lemma xor_size_bound w a b : a < 2 ^ w -> b < 2 ^ w -> N.size (N.lxor a b) <= w.
Proof. intros Ha Hb. apply xor_size_le. rewrite !N.div_small by done. done. Qed.

Lemma xor_size_0 a b : N.size (N.lxor a b) = 0 <-> a = b.
Proof.
  split.
  - intros H. apply N.lxor_eq. by destruct (N.lxor a b).
  - intros ->. by rewrite N.lxor_nilpotent.
Qed.

Lemma xor_size_half a b m :
  N.size (N.lxor a b) = m + 1 ->
  a / 2 ^ m <> b / 2 ^ m /\ a / 2 ^ m / 2 = b / 2 ^ m / 2.
Proof.
  intros Hm. split.
  - intros H. apply xor_size_le in H. lia.
  - pose proof (xor_size_div a b) as H. rewrite Hm, N.pow_add_r in H.
    rewrite !N.div_div by done. exact H.
Qed.

(** Nested blocks. *)
Lemma div_coarser u v k j : k <= j -> u / 2 ^ k = v / 2 ^ k -> u / 2 ^ j = v / 2 ^ j.
Proof.
  intros Hkj H. replace (2 ^ j) with (2 ^ k * 2 ^ (j - k)).
  - rewrite <- !N.div_div by done. by rewrite H.
  - rewrite <- N.pow_add_r. f_equal. lia.
Qed.

Lemma block_bounds v s k : v / 2 ^ k = s / 2 ^ k <-> s / 2 ^ k * 2 ^ k <= v < s / 2 ^ k * 2 ^ k + 2 ^ k.
Proof.
  pose proof (pow_pos k) as Hp.
  pose proof (N.div_mod v (2 ^ k) (pow_nz k)) as Hv. pose proof (N.mod_lt v (2 ^ k) (pow_nz k)) as Hr.
  set (q := s / 2 ^ k). set (p := v / 2 ^ k) in *. set (r := v mod 2 ^ k) in *. set (P := 2 ^ k) in *.
  split; intros H.
  - subst p. rewrite <- H. lia.
  - assert (p < q + 1 /\ q < p + 1); [|lia]. nia.
Qed.

(* ------------------------------------------------ configurations *)
(** The mask table is right, except possibly at index 0. *)
Record cfg_masks (c : idcfg) : Prop := {
  cm_w : 2 <= id_w c;
  cm_mask : forall l, 1 <= l -> l <= id_w c -> mask6 c l = Ok (2 ^ id_w c - 2 ^ (id_w c - l));
  cm_len : forall l, id_w c < l -> mask6 c l = Panic;
  cm_add : id_addone c = add_one (id_w c) }.

Record cfg_full (c : idcfg) : Prop := {
  cf_masks : cfg_masks c;
  cf_mask0 : mask6 c 0 = Ok 0;
  cf_lim : id_masklim c = id_w c;
  cf_sub : id_subone c = sub_one (id_w c) }.

Lemma nth_check (w : N) (ms : list N) :
  forallb (fun i => match ms !! i with
                    | Some m => m =? 2 ^ w - 2 ^ (w - N.of_nat i)
                    | None => false end) (seq 1 (N.to_nat w)) = true ->
  forall l, 1 <= l -> l <= w -> ms !! N.to_nat l = Some (2 ^ w - 2 ^ (w - l)).
Proof.
  intros H l H1 H2. rewrite forallb_forall in H. specialize (H (N.to_nat l)).
  assert (Hin : In (N.to_nat l) (seq 1 (N.to_nat w))) by (apply in_seq; lia).
  specialize (H Hin). destruct (ms !! N.to_nat l); [|done].
  apply N.eqb_eq in H. rewrite N2Nat.id in H. congruence.
Qed.

Lemma masks_of w ms lim sub :
  2 <= w -> length ms = S (N.to_nat w) ->
  forallb (fun i => match ms !! i with
                    | Some m => m =? 2 ^ w - 2 ^ (w - N.of_nat i)
                    | None => false end) (seq 1 (N.to_nat w)) = true ->
  cfg_masks (IdCfg w ms lim sub (add_one w)).
Proof.
  intros Hw Hlen Hn. split; cbn [id_w id_addone]; [done| | |done].
  - intros l H1 H2. unfold mask6. cbn [id_mask6]. by rewrite (nth_check w ms Hn).
  - intros l Hl. unfold mask6. cbn [id_mask6]. rewrite lookup_ge_None_2; [done|]. lia.
Qed.

Lemma packages_masks c : c ∈ id_packages -> cfg_masks c.
Proof.
  intros H. unfold id_packages in H.
  apply elem_of_cons in H as [->|H]; [apply masks_of; [done|reflexivity|vm_compute; reflexivity]|].
  apply elem_of_cons in H as [->|H]; [apply masks_of; [done|reflexivity|vm_compute; reflexivity]|].
  apply elem_of_cons in H as [->|H]; [apply masks_of; [done|reflexivity|vm_compute; reflexivity]|].
  by apply elem_of_nil in H.
Qed.

Lemma packages_full c : c ∈ id_packages_16_32 -> cfg_full c.
Proof.
  intros H. assert (Hm : cfg_masks c).
  { apply packages_masks. unfold id_packages_16_32, id_packages in *. set_solver. }
  unfold id_packages_16_32 in H.
  apply elem_of_cons in H as [->|H]; [split; [done|reflexivity..]|].
  apply elem_of_cons in H as [->|H]; [split; [done|reflexivity..]|].
  by apply elem_of_nil in H.
Qed.

Lemma cf_mask c : cfg_full c -> forall l, l <= id_w c -> mask6 c l = Ok (2 ^ id_w c - 2 ^ (id_w c - l)).
Proof.
  intros Hc l Hl. destruct (N.eq_dec l 0) as [->|Hne].
  - rewrite cf_mask0 by done. f_equal. rewrite N.sub_0_r. lia.
  - apply cm_mask; [by destruct Hc|lia|done].
Qed.

(* ------------------------------------------------ next and prev *)
Lemma add_one_small w x : 1 < 2 ^ w -> x + 1 < 2 ^ w -> add_one w x = x + 1.
Proof.
  intros Hw Hx. unfold add_one, uadd. rewrite (N.mod_small (x + 1)), N.div_small, N.add_0_r by done.
  by apply N.mod_small.
Qed.

Lemma add_one_max w : 1 < 2 ^ w -> add_one w (2 ^ w - 1) = 1.
Proof.
  intros Hw. unfold add_one, uadd. replace (2 ^ w - 1 + 1) with (2 ^ w) by lia.
  rewrite N.mod_same, N.div_same, N.add_0_l by done. by apply N.mod_small.
Qed.

Lemma sub_one_spec w x : 2 <= w -> 1 <= x < 2 ^ w -> sub_one w x = x - 1.
Proof.
  intros Hw Hx. unfold sub_one.
  rewrite (usub_small w x 1) by lia.
  assert (Hb : N.shiftr (N.lor (N.land (unot w x) 1)
     (N.land (unot w (N.lxor x 1)) (x - 1))) (w - 1) = 0).
  { apply N.bits_inj. intros n. rewrite N.shiftr_spec', N.bits_0, N.lor_spec, !N.land_spec.
    unfold unot. rewrite !N.lxor_spec.
    assert (H1 : N.testbit 1 (n + (w - 1)) = false).
    { apply (testbit_high 1 1); [done|lia]. }
    rewrite H1, andb_false_r, orb_false_l, xorb_false_r.
    destruct (N.eq_dec n 0) as [->|Hn].
    - rewrite N.add_0_l, N.ones_spec_low by lia.
      destruct (N.testbit x (w - 1)) eqn:Hxt; [done|]. cbn [xorb andb].
      apply (testbit_high _ (w - 1)); [|lia].
      assert (x < 2 ^ (w - 1)); [|lia].
      destruct (N.lt_ge_cases x (2 ^ (w - 1))) as [|Hge]; [done|].
      exfalso. assert (Hq : x / 2 ^ (w - 1) = 1).
      { assert (2 ^ w = 2 * 2 ^ (w - 1)) as Hpw by (rewrite <- pow_S; f_equal; lia).
        symmetry. apply (N.div_unique x (2 ^ (w - 1)) 1 (x - 2 ^ (w - 1))); lia. }
      rewrite N.testbit_eqb, Hq in Hxt. done.
    - rewrite (testbit_high (x - 1) w) by lia. by rewrite andb_false_r. }
  rewrite Hb. rewrite usub_small by lia. lia.
Qed.

(* ------------------------------------------------ compare *)
Lemma id_compare_spec a b :
  match id_compare a b with
  | Lt => i_len a < i_len b \/ (i_len a = i_len b /\ i_id a < i_id b)
  | Gt => i_len b < i_len a \/ (i_len a = i_len b /\ i_id b < i_id a)
  | Eq => a = b
  end.
Proof.
  unfold id_compare. destruct (N.ltb_spec (i_len a) (i_len b)); [lia|].
  destruct (N.ltb_spec (i_len b) (i_len a)); [lia|].
  destruct (N.ltb_spec (i_id a) (i_id b)); [lia|].
  destruct (N.ltb_spec (i_id b) (i_id a)); [lia|].
  destruct a, b; cbn in *. f_equal; lia.
Qed.

(** On ids of one length the order is the order of the values. *)
Lemma id_less_same l a b : i_len a = l -> i_len b = l -> id_less a b = (i_id a <? i_id b).
Proof.
  intros Ha Hb. unfold id_less. pose proof (id_compare_spec a b) as H.
  destruct (id_compare a b); destruct (N.ltb_spec (i_id a) (i_id b)); try done; subst; lia.
Qed.
Lemma less_or_eq_same l a b : i_len a = l -> i_len b = l -> less_or_eq a b = (i_id a <=? i_id b).
Proof.
  intros Ha Hb. unfold less_or_eq. pose proof (id_compare_spec a b) as H.
  destruct (id_compare a b); destruct (N.leb_spec (i_id a) (i_id b)); try done; subst; lia.
Qed.

(* ------------------------------------------------ masks and prefix ranges *)
Lemma last_loop_spec w n b v : b + N.of_nat n = w -> last_loop w n b v = N.lor v (N.ones (N.of_nat n)).
Proof.
  revert b v. induction n as [|n IH]; intros b v Hb; cbn [last_loop].
  - rewrite N.lor_0_r. done.
  - rewrite IH by lia. replace (w - 1 - b) with (N.of_nat n) by lia.
    apply N.bits_inj. intros k. rewrite !N.lor_spec.
    destruct (N.lt_trichotomy k (N.of_nat n)) as [Hk|[->|Hk]].
    + rewrite !N.ones_spec_low by lia. by rewrite !orb_true_r.
    + rewrite (N.ones_spec_low (N.of_nat (S n))) by lia. rewrite N.shiftl_spec_high' by lia.
      rewrite N.sub_diag. cbn [N.testbit]. by rewrite !orb_true_r.
    + rewrite !N.ones_spec_high by lia. rewrite N.shiftl_spec_high' by lia.
      rewrite (testbit_high 1 1); [by rewrite !orb_false_r|done|lia].
Qed.

Lemma last_id_spec c x :
  i_len x <= id_w c -> i_id (last_id c x) =
    i_id x / 2 ^ (id_w c - i_len x) * 2 ^ (id_w c - i_len x) + (2 ^ (id_w c - i_len x) - 1).
Proof.
  intros Hl. unfold last_id. cbn [i_id]. rewrite last_loop_spec by lia.
  rewrite N2Nat.id. apply lor_ones.
Qed.

Lemma id_mask_spec c x l :
  cfg_masks c -> i_id x < 2 ^ id_w c -> 1 <= l -> l <= id_w c -> l <= id_masklim c ->
  id_mask c x l = Ok (MyId (i_id x / 2 ^ (id_w c - l) * 2 ^ (id_w c - l)) l).
Proof.
  intros Hc Hx H1 H2 H3. unfold id_mask. destruct (N.ltb_spec (id_masklim c) l); [lia|].
  rewrite cm_mask by done. cbn [rbind]. rewrite land_mask by (done || lia). done.
Qed.

Lemma id_mask_full c x l :
  cfg_full c -> i_id x < 2 ^ id_w c -> l <= id_w c ->
  id_mask c x l = Ok (MyId (i_id x / 2 ^ (id_w c - l) * 2 ^ (id_w c - l)) l).
Proof.
  intros Hc Hx H2. unfold id_mask. rewrite cf_lim by done.
  destruct (N.ltb_spec (id_w c) l); [lia|].
  rewrite cf_mask by done. cbn [rbind]. rewrite land_mask by (done || lia). done.
Qed.

Lemma range_of_id_from_mask c x :
  i_len x <= id_w c ->
  id_mask c x (i_len x) =
    Ok (MyId (i_id x / 2 ^ (id_w c - i_len x) * 2 ^ (id_w c - i_len x)) (i_len x)) ->
  range_of_id c x = Ok (Some (range_from c (i_id x / 2 ^ (id_w c - i_len x) * 2 ^ (id_w c - i_len x))
     (i_id x / 2 ^ (id_w c - i_len x) * 2 ^ (id_w c - i_len x) + (2 ^ (id_w c - i_len x) - 1)))).
Proof.
  intros Hl Hm. unfold range_of_id, id_masked. rewrite Hm. cbn [rbind]. f_equal. f_equal. f_equal.
  rewrite last_id_spec by done. cbn [i_id i_len]. rewrite N.div_mul by done. done.
Qed.

(* ------------------------------------------------ decomposition of a range *)
Lemma compare_ids_spec c a b :
  cfg_masks c -> a < 2 ^ id_w c -> b < 2 ^ id_w c ->
  let m := N.size (N.lxor a b) in
  m < id_w c \/ mask6 c 0 = Ok 0 ->
  compare_ids c a b = Ok (id_w c - m, (a mod 2 ^ m =? 0) && (b mod 2 ^ m =? 2 ^ m - 1)).
Proof.
  intros Hc Ha Hb m Hm0. pose proof (xor_size_bound _ _ _ Ha Hb) as Hm. fold m in Hm.
  unfold compare_ids, common_mask, lz. fold m.
  destruct (N.eqb_spec (id_w c - m) (id_w c)) as [He|Hne].
  - pose proof (cm_w c Hc). assert (m = 0) by lia. assert (Hab : a = b) by (by apply (proj1 (xor_size_0 a b))).
    replace m with 0 by done. rewrite N.pow_0_r, !N.mod_1_r. by f_equal.
  - assert (Hmask : mask6 c (id_w c - m) = Ok (2 ^ id_w c - 2 ^ m)).
    { destruct Hm0 as [Hlt|H0].
      - rewrite cm_mask by (done || lia). f_equal. f_equal. f_equal. lia.
      - destruct (N.eq_dec m (id_w c)) as [->|Hmne].
        + rewrite N.sub_diag, H0. f_equal. lia.
        + rewrite cm_mask by (done || lia). f_equal. f_equal. f_equal. lia. }
    rewrite Hmask. cbn [rbind]. f_equal. f_equal.
    rewrite lxor_land_mask, lor_mask, unot_0 by done. f_equal.
    pose proof (N.mod_lt b (2 ^ m) (pow_nz m)). pose proof (pow_le _ _ Hm).
    pose proof (pow_pos (id_w c)).
    destruct (N.eqb_spec (2 ^ id_w c - 2 ^ m + b mod 2 ^ m) (2 ^ id_w c - 1)),
      (N.eqb_spec (b mod 2 ^ m) (2 ^ m - 1)); try done; lia.
Qed.

(** The two halves of the recursion. *)
Lemma half_set c a m :
  cfg_masks c -> a < 2 ^ id_w c -> m < id_w c ->
  bits_set_from c a (id_w c - (m + 1) + 1) = Ok (a / 2 ^ m * 2 ^ m + (2 ^ m - 1)).
Proof.
  intros Hc Ha Hm. unfold bits_set_from.
  rewrite cm_mask by (done || lia). cbn [rbind].
  replace (id_w c - (id_w c - (m + 1) + 1)) with m by lia.
  rewrite unot_mask by lia. by rewrite lor_ones.
Qed.
Lemma half_cleared c b m :
  cfg_masks c -> b < 2 ^ id_w c -> m < id_w c ->
  bits_cleared_from c b (id_w c - (m + 1) + 1) = Ok (b / 2 ^ m * 2 ^ m).
Proof.
  intros Hc Hb Hm. unfold bits_cleared_from.
  rewrite cm_mask by (done || lia). cbn [rbind].
  replace (id_w c - (id_w c - (m + 1) + 1)) with m by lia.
  by rewrite land_mask by (done || lia).
Qed.

(** A list of blocks laid end to end from [lo] to [hi] (exclusive). *)
Fixpoint chain (w : N) (l : list id) (lo hi : N) : Prop :=
  match l with
  | [] => lo = hi
  | x :: l' => i_id x = lo /\ chain w l' (lo + 2 ^ (w - i_len x)) hi
  end.

Lemma chain_app w l1 l2 lo mid hi : chain w l1 lo mid -> chain w l2 mid hi -> chain w (l1 ++ l2) lo hi.
Proof.
  revert lo. induction l1 as [|x l1 IH]; intros lo H1 H2; cbn in *; [by subst|].
  destruct H1 as [H1 H1']. split; [done|]. by apply IH.
Qed.

Lemma chain_le w l lo hi : chain w l lo hi -> lo <= hi.
Proof.
  revert lo. induction l as [|x l IH]; intros lo; cbn; [lia|].
  intros [_ H]. apply IH in H. pose proof (pow_pos (w - i_len x)). lia.
Qed.

Lemma covers_canonical w x v :
  canonical w x -> covers w x v <-> i_id x <= v < i_id x + 2 ^ (w - i_len x).
Proof.
  intros (_ & _ & Hm). unfold covers. rewrite block_bounds.
  assert (Hd : i_id x / 2 ^ (w - i_len x) * 2 ^ (w - i_len x) = i_id x).
  { pose proof (N.div_mod (i_id x) (2 ^ (w - i_len x)) (pow_nz _)) as H. lia. }
  by rewrite Hd.
Qed.

Lemma chain_elem w l lo hi x :
  chain w l lo hi -> x ∈ l -> lo <= i_id x /\ i_id x + 2 ^ (w - i_len x) <= hi.
Proof.
  revert lo. induction l as [|y l IH]; intros lo Hc Hx; [by apply elem_of_nil in Hx|].
  cbn in Hc. destruct Hc as [Hy Hc]. pose proof (pow_pos (w - i_len y)).
  apply elem_of_cons in Hx as [->|Hx].
  - apply chain_le in Hc. lia.
  - apply (IH _ Hc) in Hx. lia.
Qed.

Lemma chain_union w l lo hi v :
  Forall (canonical w) l -> chain w l lo hi ->
  (lo <= v < hi <-> exists x, x ∈ l /\ covers w x v).
Proof.
  revert lo. induction l as [|y l IH]; intros lo Hf Hc; cbn in Hc.
  - split; [lia|]. intros (x & Hx & _). by apply elem_of_nil in Hx.
  - destruct Hc as [Hy Hc]. apply Forall_cons in Hf as [Hcy Hf].
    specialize (IH _ Hf Hc). pose proof (chain_le _ _ _ _ Hc) as Hle.
    pose proof (covers_canonical w y v Hcy) as Hcv.
    pose proof (pow_pos (w - i_len y)). split.
    + intros Hv. destruct (N.lt_ge_cases v (lo + 2 ^ (w - i_len y))) as [Hlt|Hge].
      * exists y. split; [left|]. apply Hcv. lia.
      * destruct IH as [IH _]. destruct IH as (x & Hx & Hxv); [lia|].
        exists x. split; [by right|done].
    + intros (x & Hx & Hxv). apply elem_of_cons in Hx as [->|Hx].
      * apply Hcv in Hxv. lia.
      * assert (lo + 2 ^ (w - i_len y) <= v < hi) by (apply IH; eauto). lia.
Qed.

Lemma chain_sorted w l lo hi :
  Forall (canonical w) l -> chain w l lo hi -> StronglySorted (before w) l.
Proof.
  revert lo. induction l as [|y l IH]; intros lo Hf Hc; [constructor|].
  cbn in Hc. destruct Hc as [Hy Hc]. apply Forall_cons in Hf as [Hcy Hf].
  constructor; [by eapply IH|]. apply Forall_forall. intros x Hx u v Hu Hv.
  apply covers_canonical in Hu; [|done].
  rewrite Forall_forall in Hf. apply covers_canonical in Hv; [|by apply Hf].
  apply (chain_elem _ _ _ _ _ Hc) in Hx. lia.
Qed.

(** No prefix inside [a,b] strictly contains [x]. *)
Definition maximal (w a b : N) (x : id) : Prop :=
  forall y, i_len y <= w -> covers w y (i_id x) ->
    (forall v, covers w y v -> a <= v <= b) -> i_len x <= i_len y.

Lemma halves qa qb : qa <> qb -> qa / 2 = qb / 2 -> qa <= qb ->
  exists h, qa = 2 * h /\ qb = 2 * h + 1 /\ qa / 2 = h /\ qb / 2 = h.
Proof. intros. exists (qa / 2). lia. Qed.
Lemma mod_of_div a P h : P <> 0 -> a / P = h ->
  (a mod P =? 0) = (a =? h * P) /\ (a mod P =? P - 1) = (a + 1 =? h * P + P) /\
  h * P <= a < h * P + P.
Proof.
  intros HP <-. pose proof (N.div_mod a P HP). pose proof (N.mod_lt a P HP).
  set (q := a / P) in *. set (r := a mod P) in *. clearbody q r. rewrite (N.mul_comm P q) in *.
  set (z := q * P) in *. clearbody z.
  destruct (N.eqb_spec r 0), (N.eqb_spec a z), (N.eqb_spec r (P - 1)), (N.eqb_spec (a + 1) (z + P));
    repeat split; lia.
Qed.

Ltac Zify.zify_post_hook ::= idtac.
(** lia after dropping the hypotheses about quotients and powers *)
Ltac lin :=
  repeat match goal with
         | H : context [_ / _] |- _ => clear H
         | H : context [_ mod _] |- _ => clear H
         | H : context [2 ^ (_ + 1)] |- _ => clear H
         | H : 2 ^ _ = _ |- _ => clear H
         | H : N.size _ <= _ |- _ => clear H
         end; lia.
Lemma append_range_ids_spec c fuel m a b :
  cfg_masks c -> a <= b -> b < 2 ^ id_w c -> a / 2 ^ m = b / 2 ^ m -> m <= id_w c ->
  (N.to_nat m < fuel)%nat ->
  m < id_w c \/ compare_ids c a b = Ok (id_w c - N.size (N.lxor a b),
    (a mod 2 ^ N.size (N.lxor a b) =? 0) &&
    (b mod 2 ^ N.size (N.lxor a b) =? 2 ^ N.size (N.lxor a b) - 1)) ->
  exists l, append_range_ids c fuel a b = Ok l /\ Forall (canonical (id_w c)) l /\
    chain (id_w c) l a (b + 1) /\ Forall (maximal (id_w c) a b) l.
Proof.
  intros Hc. revert m a b. induction fuel as [|fuel IH]; intros m a b Hab Hb Hm Hmw Hf H0; [lia|].
  set (w := id_w c) in *. assert (Ha : a < 2 ^ w) by lia.
  cbn [append_range_ids]. pose proof (xor_size_le _ _ _ Hm) as Hsz.
  assert (Hcmp : compare_ids c a b = Ok (w - N.size (N.lxor a b),
    (a mod 2 ^ N.size (N.lxor a b) =? 0) &&
    (b mod 2 ^ N.size (N.lxor a b) =? 2 ^ N.size (N.lxor a b) - 1))).
  { destruct H0 as [H0|H0]; [|exact H0]. apply compare_ids_spec; [done|done|done|].
    left. fold w. lia. }
  clear H0. rewrite Hcmp. clear Hcmp.
  cbn [rbind snd fst]. destruct (N.eq_dec (N.size (N.lxor a b)) 0) as [Hz|Hnz].
  { rewrite Hz. pose proof (proj1 (xor_size_0 a b) Hz) as Heq. subst b. rewrite N.pow_0_r, !N.mod_1_r. cbn [andb N.eqb].
    replace (1 - 1) with 0 by lia. cbn [N.eqb]. rewrite N.sub_0_r.
    eexists. split; [done|]. split.
    { apply Forall_singleton. unfold canonical; cbn [i_len i_id]. split; [lia|]. split; [done|].
      rewrite N.sub_diag, N.pow_0_r. apply N.mod_1_r. }
    split. { cbn [chain i_id i_len]. rewrite N.sub_diag, N.pow_0_r. done. }
    apply Forall_singleton. intros y Hyl Hy Hin. cbn [i_len].
    destruct (N.le_gt_cases w (i_len y)) as [|Hlt]; [done|]. exfalso.
    assert (Hk : exists k, w - i_len y = k + 1) by (exists (w - i_len y - 1); lia).
    destruct Hk as [k Hk]. unfold covers in *. rewrite Hk in *. cbn [i_id] in Hy.
    rewrite pow_S in *. set (q := i_id y / (2 * 2 ^ k)) in *. pose proof (pow_pos k).
    assert (H1 : q * (2 * 2 ^ k) / (2 * 2 ^ k) = q) by (apply N.div_mul; lia).
    assert (H2 : (q * (2 * 2 ^ k) + 1) / (2 * 2 ^ k) = q).
    { symmetry. apply (N.div_unique _ _ q 1); lia. }
    apply Hin in H1, H2. lia. }
  assert (Hm' : exists m', N.size (N.lxor a b) = m' + 1) by (exists (N.size (N.lxor a b) - 1); lia).
  destruct Hm' as [m' Hsz']. rewrite Hsz' in *. clear Hnz.
  destruct (xor_size_half a b m' Hsz') as [Hneq Hhalf].
  assert (Hqle : a / 2 ^ m' <= b / 2 ^ m') by (by apply N.div_le_mono).
  destruct (halves _ _ Hneq Hhalf Hqle) as (h & Hqa & Hqb & Hha & Hhb).
  assert (Hba : a / 2 ^ (m' + 1) = h) by (rewrite N.pow_add_r, <- N.div_div by done; done).
  assert (Hbb : b / 2 ^ (m' + 1) = h) by (rewrite N.pow_add_r, <- N.div_div by done; done).
  destruct (mod_of_div _ _ _ (pow_nz (m' + 1)) Hba) as (Hamod & _ & _).
  destruct (mod_of_div _ _ _ (pow_nz (m' + 1)) Hbb) as (_ & Hbmod & _).
  rewrite Hamod, Hbmod.
  pose proof (proj1 (block_bounds a a m') eq_refl) as Ha1. rewrite Hqa in Ha1.
  pose proof (proj1 (block_bounds b b m') eq_refl) as Hb1. rewrite Hqb in Hb1.
  assert (Hblk_a : forall v, v / 2 ^ m' = 2 * h <-> 2 * h * 2 ^ m' <= v < 2 * h * 2 ^ m' + 2 ^ m').
  { intros v. rewrite <- Hqa. apply block_bounds. }
  assert (Hblk_b : forall v, v / 2 ^ m' = 2 * h + 1 <-> (2 * h + 1) * 2 ^ m' <= v < (2 * h + 1) * 2 ^ m' + 2 ^ m').
  { intros v. rewrite <- Hqb. apply block_bounds. }
  assert (Hblk_h : forall v, v / 2 ^ (m' + 1) = h <-> h * 2 ^ (m' + 1) <= v < h * 2 ^ (m' + 1) + 2 ^ (m' + 1)).
  { intros v. rewrite <- Hba. apply block_bounds. }
  assert (HP : 2 ^ (m' + 1) = 2 ^ m' + 2 ^ m') by (rewrite pow_S; lia).
  assert (Hlo1 : h * 2 ^ (m' + 1) = 2 * h * 2 ^ m') by (rewrite pow_S; lia).
  assert (Hlo2 : (2 * h + 1) * 2 ^ m' = 2 * h * 2 ^ m' + 2 ^ m') by lia.
  rewrite Hlo1, Hlo2, ?HP in *. clear Hamod Hbmod Hhalf Hha Hhb Hneq Hqle Hlo1 Hlo2 Hsz'.
  pose proof (pow_pos m') as Hp.
  assert (Hk1 : w - (w - (m' + 1)) = m' + 1) by (clear -Hsz Hmw; lia).
  assert (Hk2 : w - (m' + 1) <= w) by (clear; lia).
  assert (Hmlt : m' < w) by (clear -Hsz Hmw; lia).
  assert (Hfu : (N.to_nat m' < fuel)%nat) by (clear -Hsz Hf; lia).
  clear Hf Hmw Hm.
  set (p := 2 ^ m') in *. set (lo := 2 * h * p) in *.
  assert (Hlomod : lo mod (p + p) = 0).
  { apply N.mod_divide; [clear -Hp; lia|]. exists h. unfold lo. clear. lia. }
  assert (Hlo2 : (2 * h + 1) * p = lo + p) by (unfold lo; clear; lia).
  assert (Hlo1 : 2 * h * p = lo) by done.
  assert (Hpp : 2 ^ m' = p) by done.
  clearbody lo. clearbody p.
  destruct ((a =? lo) && (b + 1 =? lo + (p + p))) eqn:Hok.
  - apply andb_true_iff in Hok as [Ho1 Ho2]. apply N.eqb_eq in Ho1, Ho2.
    eexists. split; [done|]. split.
    { apply Forall_singleton. unfold canonical; cbn [i_len i_id]. split; [done|]. split; [done|].
      rewrite Hk1, HP. rewrite Ho1. done. }
    split.
    { cbn [chain i_id i_len]. rewrite Hk1, HP. split; [done|]. clear -Ho1 Ho2. lia. }
    apply Forall_singleton. intros y Hyl Hy Hin. cbn [i_len i_id] in *.
    destruct (N.le_gt_cases (w - (m' + 1)) (i_len y)) as [|Hlt]; [done|]. exfalso.
    assert (Hk : exists k, w - i_len y = k + 1 /\ m' + 1 <= k).
    { clear -Hlt Hsz. exists (w - i_len y - 1). lia. }
    destruct Hk as (k & Hk & Hkm). unfold covers in *. rewrite Hk in *.
    pose proof (pow_le _ _ Hkm) as Hpk. rewrite HP in Hpk. rewrite (pow_S k) in *.
    set (q := i_id y / (2 * 2 ^ k)) in *.
    assert (H1 : q * (2 * 2 ^ k) / (2 * 2 ^ k) = q) by (apply N.div_mul; clear -Hpk Hp; lia).
    assert (H2 : (q * (2 * 2 ^ k) + (2 * 2 ^ k - 1)) / (2 * 2 ^ k) = q).
    { symmetry. apply (N.div_unique _ _ q (2 * 2 ^ k - 1)); clear -Hpk Hp; lia. }
    apply Hin in H1, H2. clear -H1 H2 Ho1 Ho2 Hpk Hp. lia.
  - rewrite half_set by done. cbn [rbind]. rewrite Hpp, Hqa, Hlo1. clear Hlo1.
    destruct (IH m' a (lo + (p - 1))) as (l1 & Hl1 & Hf1 & Hc1 & Hx1); [lin|lin| |lin|done|by left|].
    { rewrite Hpp. rewrite Hqa. symmetry. apply Hblk_a. lin. }
    rewrite Hl1. cbn [rbind]. rewrite half_cleared by done. cbn [rbind]. rewrite Hpp. rewrite Hqb.
    rewrite Hlo2. clear Hlo2.
    destruct (IH m' (lo + p) b) as (l2 & Hl2 & Hf2 & Hc2 & Hx2); [lin|lin| |lin|done|by left|].
    { rewrite Hpp. rewrite Hqb. apply Hblk_b. lin. }
    rewrite Hl2. cbn [rbind]. eexists. split; [done|].
    split; [by apply Forall_app|]. split.
    { eapply chain_app; [exact Hc1|].
      replace (lo + (p - 1) + 1) with (lo + p) by lin. exact Hc2. }
    assert (Hfull : forall y, i_len y <= w -> m' < w - i_len y ->
      (exists u, a <= u <= b /\ covers w y u) ->
      (forall v, covers w y v -> a <= v <= b) -> False).
    { intros y Hyl Hyk (u & Hu & Hyu) Hin.
      assert (Hub : u / 2 ^ (m' + 1) = h) by (rewrite HP; apply Hblk_h; lin).
      assert (Hall : forall v, v / 2 ^ (m' + 1) = h -> a <= v <= b).
      { intros v Hv. apply Hin. unfold covers in *. rewrite <- Hyu.
        apply (div_coarser _ _ (m' + 1)); [lin|congruence]. }
      rewrite HP in Hall.
      assert (H1 : a <= lo <= b) by (apply Hall, Hblk_h; lin).
      assert (H2 : a <= lo + (p + p) - 1 <= b) by (apply Hall, Hblk_h; lin).
      apply andb_false_iff in Hok as [Hok|Hok]; apply N.eqb_neq in Hok; lin. }
    apply Forall_app. split; apply Forall_forall; intros x Hx y Hyl Hy Hin.
    + destruct (chain_elem _ _ _ _ _ Hc1 Hx) as [Hx_lo Hx_hi].
      pose proof (pow_pos (w - i_len x)).
      destruct (N.le_gt_cases (w - i_len y) m') as [Hk|Hk].
      * rewrite Forall_forall in Hx1. apply (Hx1 x Hx y Hyl Hy). intros v Hv.
        specialize (Hin v Hv). split; [lin|].
        assert (Hvq : v / p = 2 * h).
        { assert (Hxq : i_id x / p = 2 * h) by (apply Hblk_a; lin).
          rewrite <- Hxq, <- Hpp. apply (div_coarser _ _ (w - i_len y)); [done|].
          unfold covers in Hy, Hv. congruence. }
        apply Hblk_a in Hvq. lin.
      * exfalso. apply (Hfull y Hyl Hk); [|done]. exists (i_id x). split; [|done]. lin.
    + destruct (chain_elem _ _ _ _ _ Hc2 Hx) as [Hx_lo Hx_hi].
      pose proof (pow_pos (w - i_len x)).
      destruct (N.le_gt_cases (w - i_len y) m') as [Hk|Hk].
      * rewrite Forall_forall in Hx2. apply (Hx2 x Hx y Hyl Hy). intros v Hv.
        specialize (Hin v Hv). split; [|lin].
        assert (Hvq : v / p = 2 * h + 1).
        { assert (Hxq : i_id x / p = 2 * h + 1) by (apply Hblk_b; lin).
          rewrite <- Hxq, <- Hpp. apply (div_coarser _ _ (w - i_len y)); [done|].
          unfold covers in Hy, Hv. congruence. }
        apply Hblk_b in Hvq. lin.
      * exfalso. apply (Hfull y Hyl Hk); [|done]. exists (i_id x). split; [|done]. lin.
Qed.

(* ------------------------------------------------ minimality *)
Lemma pigeon {A B} (R : A -> B -> Prop) (l : list A) (l' : list B) :
  NoDup l -> (forall x, x ∈ l -> exists y, y ∈ l' /\ R x y) ->
  (forall x1 x2 y, x1 ∈ l -> x2 ∈ l -> R x1 y -> R x2 y -> x1 = x2) ->
  (length l <= length l')%nat.
Proof.
  intros Hnd. revert l'. induction Hnd as [|x l Hx Hnd IH]; intros l' Hex Hinj; [cbn; lia|].
  destruct (Hex x (elem_of_list_here _ _)) as (y & Hy & Hxy).
  apply elem_of_list_split in Hy as (l1 & l2 & ->).
  rewrite app_length. cbn [length].
  cut (length l <= length (l1 ++ l2))%nat; [rewrite app_length; lia|].
  apply IH.
  - intros x' Hx'. destruct (Hex x' (elem_of_list_further _ _ _ Hx')) as (y' & Hy' & Hxy').
    exists y'. split; [|done]. rewrite elem_of_app, elem_of_cons in Hy'.
    rewrite elem_of_app. destruct Hy' as [?|[->|?]]; [by left| |by right].
    exfalso. apply Hx. assert (x = x') as ->; [|done].
    eapply Hinj; [left|by right|done|done].
  - intros x1 x2 z H1 H2. apply Hinj; by right.
Qed.

Lemma covers_self w x : covers w x (i_id x).
Proof. done. Qed.

Lemma covers_finer w x y u v :
  i_len x <= i_len y -> covers w y u -> covers w y v -> covers w x u -> covers w x v.
Proof.
  unfold covers. intros Hl Hu Hv Hx. rewrite <- Hx.
  apply (div_coarser _ _ (w - i_len y)); [clear -Hl; lia|by rewrite Hu, Hv].
Qed.

Lemma sorted_nodup w l : StronglySorted (before w) l -> NoDup l.
Proof.
  induction 1 as [|x l Hs IH Hf]; [constructor|]. constructor; [|done].
  intros Hx. rewrite Forall_forall in Hf.
  pose proof (Hf x Hx (i_id x) (i_id x) eq_refl eq_refl). lia.
Qed.

Lemma sorted_disjoint w l x y v :
  StronglySorted (before w) l -> x ∈ l -> y ∈ l -> covers w x v -> covers w y v -> x = y.
Proof.
  induction 1 as [|z l Hs IH Hf]; intros Hx Hy Hxv Hyv; [by apply elem_of_nil in Hx|].
  rewrite Forall_forall in Hf.
  apply elem_of_cons in Hx as [->|Hx]; apply elem_of_cons in Hy as [->|Hy]; [done| | |by apply IH].
  - pose proof (Hf y Hy v v Hxv Hyv). lia.
  - pose proof (Hf x Hx v v Hyv Hxv). lia.
Qed.

Lemma chain_maximal_decomposition w l a b :
  Forall (canonical w) l -> chain w l a (b + 1) -> Forall (maximal w a b) l ->
  is_decomposition w l a b.
Proof.
  intros Hf Hc Hm. pose proof (chain_sorted _ _ _ _ Hf Hc) as Hs.
  assert (Hu : union_is w l a b).
  { intros v. rewrite <- (chain_union w l a (b + 1) v) by done. lia. }
  split; [done|]. split; [done|]. split; [done|].
  intros l' Hl' Hu'.
  rewrite Forall_forall in Hl'. rewrite Forall_forall in Hm.
  assert (Hcov : forall y v, y ∈ l' -> covers w y v -> a <= v <= b).
  { intros y v Hy Hv. apply Hu'. eauto. }
  apply (pigeon (fun x y => y ∈ l' /\ covers w y (i_id x) /\ i_len x <= i_len y)).
  - by eapply sorted_nodup.
  - intros x Hx. assert (Hin : a <= i_id x <= b) by (apply Hu; exists x; split; [done|apply covers_self]).
    apply Hu' in Hin as (y & Hy & Hyx). exists y. split; [done|]. split; [done|]. split; [done|].
    apply (Hm x Hx y); [by apply Hl'|done|]. intros v Hv. by eapply Hcov.
  - intros x1 x2 y H1 H2 (_ & Hy1 & Hl1) (_ & Hy2 & Hl2).
    eapply (sorted_disjoint w l x1 x2 (i_id x2)); [done..| |apply covers_self].
    by eapply (covers_finer w x1 y (i_id x1) (i_id x2)).
Qed.

(** IDs() on a valid range. *)
Lemma range_ids_spec c a b :
  cfg_masks c -> a <= b -> b < 2 ^ id_w c ->
  compare_ids c a b = Ok (id_w c - N.size (N.lxor a b),
    (a mod 2 ^ N.size (N.lxor a b) =? 0) &&
    (b mod 2 ^ N.size (N.lxor a b) =? 2 ^ N.size (N.lxor a b) - 1)) ->
  exists l, range_ids c (range_from c a b) = Ok l /\ Forall (canonical (id_w c)) l /\
    chain (id_w c) l a (b + 1) /\ Forall (maximal (id_w c) a b) l.
Proof.
  intros Hc Hab Hb Hcmp. unfold range_ids, range_from. cbn [r_from r_to i_id].
  apply (append_range_ids_spec c _ (id_w c)); try done.
  - rewrite !N.div_small; [done|lia|lia].
  - lia.
  - by right.
Qed.

Lemma range_ids_full c a b :
  cfg_full c -> a <= b -> b < 2 ^ id_w c ->
  exists l, range_ids c (range_from c a b) = Ok l /\ Forall (canonical (id_w c)) l /\
    chain (id_w c) l a (b + 1) /\ Forall (maximal (id_w c) a b) l.
Proof.
  intros Hc Hab Hb. apply range_ids_spec; [by destruct Hc|done|done|].
  apply compare_ids_spec; [by destruct Hc|lia|done|]. right. by apply cf_mask0.
Qed.
