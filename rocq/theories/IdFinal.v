(** Proofs of the property statements about ids and ranges of pkg/tree/id16,
    id32, id64. *)
From Verif Require Import IdSpec TableNProofs IdProofs.
From Coq Require Import Lia ZifyBool ZifyNat ZifyN.
From Coq Require DecimalString DecimalN DecimalPos.
Ltac Zify.zify_post_hook ::= idtac.

(* ------------------------------------------------------------------ C20 *)
Lemma compare_lt a b : id_compare a b = Lt <-> i_len a < i_len b \/ (i_len a = i_len b /\ i_id a < i_id b).
Proof.
  pose proof (id_compare_spec a b) as H. destruct (id_compare a b); split; intros H'; try done.
  - subst. lia.
  - lia.
Qed.
Lemma compare_eq a b : id_compare a b = Eq <-> a = b.
Proof.
  pose proof (id_compare_spec a b) as H. destruct (id_compare a b); split; intros H'; try done; subst; lia.
Qed.
Lemma compare_gt a b : id_compare a b = Gt <-> id_compare b a = Lt.
Proof.
  rewrite compare_lt.
  pose proof (id_compare_spec a b) as H. destruct (id_compare a b); split; intros H'; try done; subst; lia.
Qed.
Lemma less_lt a b : id_less a b = true <-> id_compare a b = Lt.
Proof. unfold id_less. by destruct (id_compare a b). Qed.

(** Compare orders ids by length, then value; Less is Compare = -1. *)
Lemma C20_compare_is_a_total_order_pf :
  (forall a b : id,
     (id_compare a b = Lt <-> i_len a < i_len b \/ (i_len a = i_len b /\ i_id a < i_id b)) /\
     (id_compare a b = Eq <-> a = b) /\
     (id_compare a b = Gt <-> id_compare b a = Lt) /\
     (id_less a b = true <-> id_compare a b = Lt)) /\
  (forall a b d : id, id_compare a b = Lt -> id_compare b d = Lt -> id_compare a d = Lt).
Proof.
  split.
  - intros a b. auto using compare_lt, compare_eq, compare_gt, less_lt.
  - intros a b d. rewrite !compare_lt. lia.
Qed.

(** Range.Less: by the lower bounds, ranges with one lower bound by descending
    upper bound; a strict total order. *)
Lemma C20_range_less_is_a_strict_total_order_pf :
  (forall r o : range, range_less r o = true <->
     id_compare (r_from r) (r_from o) = Lt \/
     (r_from r = r_from o /\ id_compare (r_to o) (r_to r) = Lt)) /\
  (forall r : range, range_less r r = false) /\
  (forall r o s : range, range_less r o = true -> range_less o s = true -> range_less r s = true) /\
  (forall r o : range, range_less r o = true \/ r = o \/ range_less o r = true).
Proof.
  assert (Hiff : forall r o : range, range_less r o = true <->
     id_compare (r_from r) (r_from o) = Lt \/
     (r_from r = r_from o /\ id_compare (r_to o) (r_to r) = Lt)).
  { intros r o. unfold range_less. rewrite <- (less_lt (r_to o)), <- compare_eq.
    destruct (id_compare (r_from r) (r_from o)); naive_solver. }
  split; [done|]. split.
  { intros r. apply not_true_is_false. rewrite Hiff, !compare_lt. lia. }
  split.
  { intros r o s. rewrite !Hiff, !compare_lt. intros [H1|[H1 H1']] [H2|[H2 H2']];
      [left; lia|rewrite <- H2; by left|rewrite H1; by left|].
    right. rewrite H1. split; [done|]. lia. }
  intros r o. rewrite !Hiff.
  destruct (id_compare (r_from r) (r_from o)) eqn:H1.
  - apply compare_eq in H1. destruct (id_compare (r_to r) (r_to o)) eqn:H2.
    + apply compare_eq in H2. destruct r, o; cbn in *; subst. auto.
    + right. right. right. done.
    + apply compare_gt in H2. left. right. done.
  - auto.
  - apply compare_gt in H1. auto.
Qed.

(* ------------------------------------------------------------------ C21 *)
Lemma w_bound c : cfg_masks c -> 1 < 2 ^ id_w c.
Proof.
  intros Hc. pose proof (cm_w c Hc). change 1 with (2 ^ 0). apply pow_lt. lia.
Qed.

Lemma next_small c x : cfg_masks c -> i_id x + 1 < 2 ^ id_w c -> id_next c x = MyId (i_id x + 1) (i_len x).
Proof.
  intros Hc Hx. unfold id_next. rewrite cm_add by done.
  rewrite add_one_small by (done || by apply w_bound).
  destruct (N.eqb_spec (i_id x + 1) 0); [lia|done].
Qed.
Lemma next_max c x : cfg_masks c -> i_id x = 2 ^ id_w c - 1 -> id_next c x = MyId 1 (i_len x).
Proof.
  intros Hc Hx. unfold id_next. rewrite cm_add, Hx by done. rewrite add_one_max by (by apply w_bound). done.
Qed.

(** id16 and id32; the case Next of the largest value is missing, see
    [C21_next_of_largest_refuted]. *)
Lemma C21_next_and_prev_step_by_one_partial_pf :
  forall c x, c ∈ id_packages_16_32 -> id_ok c x ->
    (i_id x < 2 ^ id_w c - 1 ->
       id_next c x = MyId (i_id x + 1) (i_len x) /\ id_prev c (id_next c x) = x) /\
    (0 < i_id x ->
       id_prev c x = MyId (i_id x - 1) (i_len x) /\ id_next c (id_prev c x) = x) /\
    (i_id x = 0 -> id_prev c x = MyId 0 0).
Proof.
  intros c x Hc [Hx Hl]. apply packages_full in Hc.
  pose proof (cf_masks c Hc) as Hm. pose proof (cm_w c Hm) as Hw.
  assert (Hprev : forall v n, 1 <= v < 2 ^ id_w c -> id_prev c (MyId v n) = MyId (v - 1) n).
  { intros v n Hv. unfold id_prev. cbn [i_id i_len]. destruct (N.eqb_spec v 0); [lia|].
    rewrite cf_sub by done. by rewrite sub_one_spec. }
  destruct x as [v n]. cbn [i_id i_len] in *. split; [|split].
  - intros Hv. rewrite next_small by (cbn [i_id]; done || lia). cbn [i_id i_len]. split; [done|].
    rewrite Hprev by lia. f_equal. lia.
  - intros Hv. rewrite Hprev by lia. split; [done|].
    rewrite next_small by (cbn [i_id]; done || lia). cbn [i_id i_len]. f_equal. lia.
  - intros ->. done.
Qed.

(** On every width Next of the largest value has value 1 (the carry is added to
    the wrapped sum), not the zero ID. *)
Lemma C21_next_of_largest_refuted_pf :
  forall c x, c ∈ id_packages -> i_id x = 2 ^ id_w c - 1 ->
    id_next c x = MyId 1 (i_len x) /\ id_next c x <> MyId 0 0.
Proof.
  intros c x Hc Hx. apply packages_masks in Hc. rewrite next_max by done. done.
Qed.

(** id64: Next is right below the largest value; Prev is right exactly for
    values below 2^32. *)
Lemma C21_id64_partial_pf :
  forall x, id_ok cfg_id64 x ->
    (i_id x < 2 ^ 64 - 1 -> id_next cfg_id64 x = MyId (i_id x + 1) (i_len x)) /\
    (i_id x = 0 -> id_prev cfg_id64 x = MyId 0 0) /\
    (0 < i_id x -> (id_prev cfg_id64 x = MyId (i_id x - 1) (i_len x) <-> i_id x < 2 ^ 32)).
Proof.
  intros [v n] [Hx Hl]. cbn [i_id i_len] in *.
  assert (Hm : cfg_masks cfg_id64) by (apply packages_masks; unfold id_packages; set_solver).
  split; [|split].
  - intros Hv. apply (next_small cfg_id64 (MyId v n)); [done|]. change (id_w cfg_id64) with 64.
    cbn [i_id]. lia.
  - intros ->. done.
  - intros Hv. unfold id_prev. cbn [i_id i_len]. destruct (N.eqb_spec v 0); [lia|].
    change (id_subone cfg_id64 v) with (sub_one 32 (uwrap 32 v)).
    assert (Hlt : forall y, sub_one 32 y < 2 ^ 32).
    { intros y. unfold sub_one, usub. apply N.mod_lt. done. }
    split.
    + intros H. apply (f_equal i_id) in H. cbn [i_id] in H.
      destruct (N.lt_ge_cases v (2 ^ 32)) as [|Hge]; [done|]. exfalso.
      pose proof (Hlt (uwrap 32 v)) as Hb. rewrite H in Hb.
      assert (v = 2 ^ 32) as -> by lia. vm_compute in H. done.
    + intros Hlt32. unfold uwrap. rewrite N.mod_small by done. rewrite sub_one_spec by lia. done.
Qed.

(** id64: what Prev computes for every value above 0. *)
Lemma C21_id64_prev_exact_pf :
  forall x, id_ok cfg_id64 x -> 0 < i_id x ->
    id_prev cfg_id64 x =
      MyId (if i_id x mod 2 ^ 32 =? 0 then 2 ^ 32 - 2 else i_id x mod 2 ^ 32 - 1) (i_len x).
Proof.
  intros [v n] [Hx Hl] Hv. cbn [i_id i_len] in *. unfold id_prev. cbn [i_id i_len].
  destruct (N.eqb_spec v 0) as [->|_]; [done|].
  change (id_subone cfg_id64 v) with (sub_one 32 (v mod 2 ^ 32)).
  assert (Hr : v mod 2 ^ 32 < 2 ^ 32) by (by apply N.mod_lt).
  destruct (N.eqb_spec (v mod 2 ^ 32) 0) as [->|Hne]; [reflexivity|].
  rewrite sub_one_spec; [done|done|]. split; [|done]. clear -Hne. lia.
Qed.

Lemma C21_id64_prev_refuted_pf :
  id_prev cfg_id64 (MyId (2 ^ 40) 64) = MyId (2 ^ 32 - 2) 64.
Proof. reflexivity. Qed.

(* ------------------------------------------------------------------ C22 *)
Lemma floor_bits x k i : N.testbit (x / 2 ^ k * 2 ^ k) i = (k <=? i) && N.testbit x i.
Proof.
  rewrite <- N.shiftr_div_pow2, <- N.shiftl_mul_pow2.
  destruct (N.leb_spec k i).
  - rewrite N.shiftl_spec_high' by done. rewrite N.shiftr_spec'.
    by replace (i - k + k) with i by (clear -H; lia).
  - by rewrite N.shiftl_spec_low.
Qed.

Lemma range_from_covers c x v :
  i_id x / 2 ^ (id_w c - i_len x) * 2 ^ (id_w c - i_len x) <= v <=
  i_id x / 2 ^ (id_w c - i_len x) * 2 ^ (id_w c - i_len x) + (2 ^ (id_w c - i_len x) - 1)
  <-> covers (id_w c) x v.
Proof.
  unfold covers. rewrite block_bounds. pose proof (pow_pos (id_w c - i_len x)) as Hp. clear -Hp.
  set (p := 2 ^ _) in *. clearbody p. set (q := _ * p). clearbody q. lia.
Qed.

Lemma range_of_id_prefix c x :
  i_len x <= id_w c ->
  id_mask c x (i_len x) =
    Ok (MyId (i_id x / 2 ^ (id_w c - i_len x) * 2 ^ (id_w c - i_len x)) (i_len x)) ->
  exists r, range_of_id c x = Ok (Some r) /\ prefix_range c x r.
Proof.
  intros Hl Hm. eexists. split; [by apply range_of_id_from_mask|].
  split; [done|]. split; [done|]. intros v. cbn [range_from r_from r_to i_id]. apply range_from_covers.
Qed.

(** id16 and id32: the property as stated. *)
Lemma C22_mask_and_prefix_range_partial_pf :
  forall c x, c ∈ id_packages_16_32 -> id_ok c x ->
    (forall l, l <= id_w c -> exists y, id_mask c x l = Ok y /\ i_len y = l /\
       forall i, N.testbit (i_id y) i = (id_w c - l <=? i) && N.testbit (i_id x) i) /\
    (forall l, id_w c < l -> id_mask c x l = Err EMaskTooLong) /\
    (i_len x <= id_w c -> exists r, range_of_id c x = Ok (Some r) /\ prefix_range c x r).
Proof.
  intros c x Hc [Hx Hl]. apply packages_full in Hc. split; [|split].
  - intros l Hlw. eexists. rewrite id_mask_full by done. split; [done|]. split; [done|].
    intros i. cbn [i_id]. apply floor_bits.
  - intros l Hlw. unfold id_mask. rewrite cf_lim by done. destruct (N.ltb_spec (id_w c) l); [done|lia].
  - intros Hlw. apply range_of_id_prefix; [done|]. by rewrite id_mask_full.
Qed.

(** id64: right for lengths 1 to 32. *)
Lemma C22_id64_partial_pf :
  forall x l, id_ok cfg_id64 x -> 1 <= l <= 32 ->
    (exists y, id_mask cfg_id64 x l = Ok y /\ i_len y = l /\
       forall i, N.testbit (i_id y) i = (64 - l <=? i) && N.testbit (i_id x) i) /\
    (i_len x = l -> exists r, range_of_id cfg_id64 x = Ok (Some r) /\ prefix_range cfg_id64 x r).
Proof.
  intros x l [Hx _] Hl.
  assert (Hm : cfg_masks cfg_id64) by (apply packages_masks; unfold id_packages; set_solver).
  assert (Hmask : id_mask cfg_id64 x l = Ok (MyId (i_id x / 2 ^ (64 - l) * 2 ^ (64 - l)) l)).
  { apply (id_mask_spec cfg_id64); [done|done|lia|change (id_w cfg_id64) with 64; lia|
      change (id_masklim cfg_id64) with 32; lia]. }
  split.
  - eexists. split; [exact Hmask|]. split; [done|]. intros i. cbn [i_id]. apply floor_bits.
  - intros <-. apply (range_of_id_prefix cfg_id64); [|done]. change (id_w cfg_id64) with 64. lia.
Qed.

(** id64 on every other length: an id of length 0 keeps its upper 32 bits, and
    every length above 32 is refused, RangeOfID giving the zero range. *)
Lemma C22_id64_refuted_pf :
  (forall x, id_ok cfg_id64 x -> exists y, id_mask cfg_id64 x 0 = Ok y /\
     forall i, N.testbit (i_id y) i = (32 <=? i) && N.testbit (i_id x) i) /\
  (forall x l, 32 < l <= 64 -> id_mask cfg_id64 x l = Err EMaskTooLong) /\
  (forall x, 32 < i_len x <= 64 -> range_of_id cfg_id64 x = Ok None).
Proof.
  assert (H2 : forall x l, 32 < l <= 64 -> id_mask cfg_id64 x l = Err EMaskTooLong).
  { intros x l Hl. unfold id_mask. change (id_masklim cfg_id64) with 32.
    destruct (N.ltb_spec 32 l); [done|lia]. }
  split; [|split; [done|]].
  - intros x [Hx _]. change (id_w cfg_id64) with 64 in Hx. eexists. split; [reflexivity|]. intros i. cbn [i_id].
    change 18446744069414584320 with (2 ^ 64 - 2 ^ 32).
    rewrite land_mask by done. apply floor_bits.
  - intros x Hl. unfold range_of_id, id_masked. rewrite H2 by done. done.
Qed.

(* ------------------------------------------------------------------ C23 *)
Lemma land_mask_eq w k x y : k <= w -> x < 2 ^ w -> y < 2 ^ w ->
  (N.land x (2 ^ w - 2 ^ k) =? N.land y (2 ^ w - 2 ^ k)) = true <-> x / 2 ^ k = y / 2 ^ k.
Proof.
  intros Hk Hx Hy. rewrite !land_mask by done. rewrite N.eqb_eq. split; [|by intros ->].
  apply N.mul_cancel_r. done.
Qed.

(** All widths: for lengths up to the width, Overlaps = true iff the prefixes
    have a common value, iff one contains the other. *)
Lemma C23_overlaps_decides_intersection_pf :
  forall c a b, c ∈ id_packages -> id_ok c a -> id_ok c b ->
    i_len a <= id_w c -> i_len b <= id_w c ->
    exists r, overlaps c a b = Ok r /\
      (r = true <-> exists v, covers (id_w c) a v /\ covers (id_w c) b v) /\
      (r = true <-> (forall v, covers (id_w c) a v -> covers (id_w c) b v) \/
                    (forall v, covers (id_w c) b v -> covers (id_w c) a v)).
Proof.
  intros c a b Hc [Ha _] [Hb _] Hla Hlb. apply packages_masks in Hc.
  set (w := id_w c) in *.
  set (m := if i_len a <? i_len b then i_len a else i_len b).
  assert (Hmm : m <= w) by (unfold m; destruct (i_len a <? i_len b); done).
  assert (Hr : exists r, overlaps c a b = Ok r /\ (r = true <-> i_id a / 2 ^ (w - m) = i_id b / 2 ^ (w - m))).
  { unfold overlaps. fold m. destruct (N.eqb_spec m 0) as [->|Hne].
    - exists true. split; [done|]. split; [|done]. intros _. rewrite N.sub_0_r.
      rewrite !N.div_small by done. done.
    - rewrite cm_mask by (done || lia). cbn [rbind]. eexists. split; [done|].
      fold w. unfold uwrap. fold w. rewrite (N.mod_small (i_id b)) by done.
      apply land_mask_eq; [clear; lia|done|done]. }
  destruct Hr as (r & Hr & Hiff). exists r. split; [done|].
  assert (Hgen : forall x y, i_len x <= i_len y -> i_len y <= w ->
     (i_id x / 2 ^ (w - i_len x) = i_id y / 2 ^ (w - i_len x) <->
      exists v, covers w x v /\ covers w y v) /\
     (i_id x / 2 ^ (w - i_len x) = i_id y / 2 ^ (w - i_len x) <->
      (forall v, covers w y v -> covers w x v))).
  { intros x y Hxy Hyw. split; split.
    - intros H. exists (i_id y). split; [by unfold covers|done].
    - intros (v & Hv1 & Hv2). unfold covers in *. rewrite <- Hv1.
      apply (div_coarser _ _ (w - i_len y)); [clear -Hxy Hyw; lia|done].
    - intros H v Hv. unfold covers in *. rewrite H.
      apply (div_coarser _ _ (w - i_len y)); [clear -Hxy Hyw; lia|done].
    - intros H. symmetry. apply (H (i_id y)). apply covers_self. }
  assert (Hself : forall x y, i_len x <= i_len y -> i_len y <= w ->
     (forall v, covers w x v -> covers w y v) -> i_id x / 2 ^ (w - i_len x) = i_id y / 2 ^ (w - i_len x)).
  { intros x y Hxy Hyw H. specialize (H (i_id x) (covers_self _ _)). unfold covers in H.
    apply (div_coarser _ _ (w - i_len y)); [clear -Hxy Hyw; lia|done]. }
  rewrite Hiff. unfold m in *. destruct (N.ltb_spec (i_len a) (i_len b)) as [Hlt|Hge].
  - destruct (Hgen a b) as [G1 G2]; [by apply N.lt_le_incl|done|]. split; [done|]. split.
    + intros H. right. by apply G2.
    + intros [H|H]; [|by apply G2]. apply Hself; [by apply N.lt_le_incl|done|done].
  - destruct (Hgen b a) as [G1 G2]; [done|done|]. split.
    + rewrite (N.eq_sym_iff (i_id a / _)). rewrite G1. split; intros (v & ? & ?); by exists v.
    + rewrite (N.eq_sym_iff (i_id a / _)). split.
      * intros H. left. by apply G2.
      * intros [H|H]; [by apply G2|]. by apply Hself.
Qed.

(* ------------------------------------------------------------------ C24 *)
(** id16 and id32: the property as stated. *)
Lemma C24_ids_decomposes_range_partial_pf :
  forall c a b, c ∈ id_packages_16_32 -> a <= b -> b < 2 ^ id_w c ->
    exists l, range_ids c (range_from c a b) = Ok l /\ is_decomposition (id_w c) l a b.
Proof.
  intros c a b Hc Hab Hb. apply packages_full in Hc.
  destruct (range_ids_full c a b) as (l & Hl & Hf & Hch & Hm); [done..|].
  exists l. split; [done|]. by apply chain_maximal_decomposition.
Qed.

Lemma size_64 a b : a <= b -> b < 2 ^ 64 -> (N.size (N.lxor a b) = 64 <-> a < 2 ^ 63 <= b).
Proof.
  intros Hab Hb. split.
  - intros Hs. destruct (xor_size_half a b 63 Hs) as [Hne _].
    assert (Hd : forall x, x < 2 ^ 64 -> x / 2 ^ 63 = if x <? 2 ^ 63 then 0 else 1).
    { intros x Hx. destruct (N.ltb_spec x (2 ^ 63)); [by apply N.div_small|].
      symmetry. apply (N.div_unique _ _ 1 (x - 2 ^ 63)); lia. }
    rewrite !Hd in Hne by lia.
    destruct (N.ltb_spec a (2 ^ 63)), (N.ltb_spec b (2 ^ 63)); lia.
  - intros H. pose proof (xor_size_bound 64 a b) as Hs.
    destruct (N.le_gt_cases 64 (N.size (N.lxor a b))); [lia|]. exfalso.
    assert (Hq : a / 2 ^ 63 = b / 2 ^ 63).
    { apply (div_coarser _ _ (N.size (N.lxor a b))); [lia|apply xor_size_div]. }
    rewrite (N.div_small a) in Hq by lia.
    symmetry in Hq. apply N.div_small_iff in Hq; [lia|done].
Qed.

Lemma compare_ids_64 a b : a <= b -> b < 2 ^ 64 -> ~ id64_bad_range a b ->
  compare_ids cfg_id64 a b = Ok (64 - N.size (N.lxor a b),
    (a mod 2 ^ N.size (N.lxor a b) =? 0) &&
    (b mod 2 ^ N.size (N.lxor a b) =? 2 ^ N.size (N.lxor a b) - 1)).
Proof.
  intros Hab Hb Hbad.
  assert (Hm : cfg_masks cfg_id64) by (apply packages_masks; unfold id_packages; set_solver).
  assert (Hs : N.size (N.lxor a b) <= 64) by (apply xor_size_bound; lia).
  destruct (N.eq_dec (N.size (N.lxor a b)) 64) as [He|Hne].
  - pose proof (proj1 (size_64 a b Hab Hb) He) as Hhalf.
    unfold compare_ids, common_mask, lz. change (id_w cfg_id64) with 64. rewrite He, N.sub_diag.
    change (0 =? 64) with false. cbn [rbind]. change (mask6 cfg_id64 0) with (Ok (2 ^ 64 - 2 ^ 32)).
    cbn [rbind]. f_equal. f_equal.
    rewrite lxor_land_mask, lor_mask, unot_0 by (done || lia).
    rewrite (N.mod_small a (2 ^ 64)), (N.mod_small b (2 ^ 64)) by lia.
    pose proof (N.mod_lt b (2 ^ 32) (pow_nz _)).
    destruct (N.eqb_spec (a mod 2 ^ 32) 0) as [E1|E1];
      destruct (N.eqb_spec (2 ^ 64 - 2 ^ 32 + b mod 2 ^ 32) (2 ^ 64 - 1)) as [E2|E2]; cbn [andb];
      destruct (N.eqb_spec a 0) as [E3|E3]; destruct (N.eqb_spec b (2 ^ 64 - 1)) as [E4|E4]; cbn [andb];
      try done; exfalso.
    + apply Hbad. split; [done|]. split; [done|]. split; [lia|]. tauto.
    + apply Hbad. split; [done|]. split; [done|]. split; [lia|]. tauto.
    + apply Hbad. split; [done|]. split; [done|]. split; [lia|]. tauto.
    + subst b. apply E2. reflexivity.
    + subst a. by apply E1.
    + subst a. by apply E1.
  - apply compare_ids_spec; [done|change (id_w cfg_id64) with 64; lia|done|].
    left. change (id_w cfg_id64) with 64. lia.
Qed.

Lemma bad_range_ids a b : a <= b -> b < 2 ^ 64 -> id64_bad_range a b ->
  range_ids cfg_id64 (range_from cfg_id64 a b) = Ok [MyId a 0].
Proof.
  intros Hab Hb (Hhalf & Ha & Hbm & Hnot).
  assert (Hm : cfg_masks cfg_id64) by (apply packages_masks; unfold id_packages; set_solver).
  unfold range_ids, range_from. cbn [r_from r_to i_id].
  generalize (N.to_nat (id_w cfg_id64)). intros k. cbn [append_range_ids].
  assert (Hcmp : compare_ids cfg_id64 a b = Ok (0, true)).
  { unfold compare_ids, common_mask, lz. change (id_w cfg_id64) with 64.
    rewrite (proj2 (size_64 a b Hab Hb) Hhalf), N.sub_diag.
    change (0 =? 64) with false. cbn [rbind]. change (mask6 cfg_id64 0) with (Ok (2 ^ 64 - 2 ^ 32)).
    cbn [rbind]. rewrite lxor_land_mask, lor_mask, unot_0 by (done || lia). rewrite Ha, Hbm. reflexivity. }
  rewrite Hcmp. reflexivity.
Qed.
Lemma C24_id64_exactly_outside_bad_ranges_partial_pf :
  forall a b, a <= b -> b < 2 ^ 64 ->
    ((exists l, range_ids cfg_id64 (range_from cfg_id64 a b) = Ok l /\ is_decomposition 64 l a b)
     <-> ~ id64_bad_range a b).
Proof.
  intros a b Hab Hb.
  assert (Hm : cfg_masks cfg_id64) by (apply packages_masks; unfold id_packages; set_solver).
  split.
  - intros (l & Hl & Hf & Hs & Hu & _) (Hhalf & Ha & Hbm & Hnot).
    rewrite (bad_range_ids a b Hab Hb) in Hl by done. injection Hl as <-.
    assert (Hall : forall v, v < 2 ^ 64 -> a <= v <= b).
    { intros v Hv. apply Hu. exists (MyId a 0). split; [left|]. unfold covers. cbn [i_id i_len].
      rewrite N.sub_0_r. rewrite !N.div_small by lia. done. }
    apply Hnot. pose proof (Hall 0). pose proof (Hall (2 ^ 64 - 1)). lia.
  - intros Hbad. destruct (range_ids_spec cfg_id64 a b) as (l & Hl & Hf & Hch & Hmx); [done..| |].
    + by apply compare_ids_64.
    + exists l. split; [done|]. by apply chain_maximal_decomposition.
Qed.

(** id64: a range of 2^63 values whose IDs() is one prefix of length 0. *)
Lemma C24_id64_refuted_pf :
  id64_bad_range (2 ^ 32) (2 ^ 63 + 2 ^ 32 - 1) /\
  range_ids cfg_id64 (range_from cfg_id64 (2 ^ 32) (2 ^ 63 + 2 ^ 32 - 1)) = Ok [MyId (2 ^ 32) 0].
Proof.
  split; [|reflexivity]. unfold id64_bad_range. vm_compute. intuition congruence.
Qed.

(* ------------------------------------------------------------------ C25 *)
(** The part that holds, on every width. *)
Lemma C25_reversed_range_is_invalid_partial_pf :
  forall c a b, c ∈ id_packages -> b < a -> is_valid (range_from c a b) = false.
Proof.
  intros c a b _ Hab. unfold is_valid, range_from. cbn [r_from r_to i_id i_len]. rewrite N.eqb_refl.
  destruct (N.ltb_spec b a); [done|lia].
Qed.

Lemma reversed_not_one a b : b < a ->
  (a mod 2 ^ N.size (N.lxor a b) =? 0) && (b mod 2 ^ N.size (N.lxor a b) =? 2 ^ N.size (N.lxor a b) - 1) = false.
Proof.
  intros Hab. apply not_true_is_false. intros H. apply andb_true_iff in H as [H1 H2]. apply N.eqb_eq in H1, H2.
  pose proof (xor_size_div a b) as Hd. set (k := N.size (N.lxor a b)) in *. clearbody k.
  pose proof (N.div_mod a (2 ^ k) (pow_nz _)) as Da.
  pose proof (N.div_mod b (2 ^ k) (pow_nz _)) as Db.
  rewrite H1 in Da. rewrite H2, <- Hd in Db. clear -Da Db Hab.
  set (z := 2 ^ k * _) in *. clearbody z. lia.
Qed.

Lemma reversed_ids_gen c a b : cfg_masks c -> b < a -> a < 2 ^ id_w c ->
    compare_ids c a b = Ok (id_w c - N.size (N.lxor a b), false) ->
    exists l, range_ids c (range_from c a b) = Ok l /\ Forall (canonical (id_w c)) l /\
      forall v, ((exists x, x ∈ l /\ covers (id_w c) x v) <->
       (a <= v /\ v / half_size a b = a / half_size a b) \/
       (v <= b /\ v / half_size a b = b / half_size a b)).
Proof.
  intros Hm Hab Ha Hcmp.
  set (w := id_w c) in *.
  assert (Hb : b < 2 ^ w) by (clear -Hab Ha; lia).
  pose proof (xor_size_bound w a b Ha Hb) as Hsz.
  assert (Hnz : N.size (N.lxor a b) <> 0).
  { intros H. apply (proj1 (xor_size_0 a b)) in H. clear -H Hab. lia. }
  assert (Hm' : exists m', N.size (N.lxor a b) = m' + 1)
    by (exists (N.size (N.lxor a b) - 1); clear -Hnz; lia).
  destruct Hm' as [m' Hsz'].
  unfold half_size. rewrite Hsz'. replace (m' + 1 - 1) with m' by (clear; lia).
  assert (Hmw : m' < w) by (clear -Hsz Hsz'; lia).
  unfold range_ids, range_from. cbn [r_from r_to i_id append_range_ids]. fold w.
  rewrite Hcmp. fold w. rewrite Hsz'.
  cbn [rbind fst snd].
  rewrite half_set by done. cbn [rbind].
  destruct (append_range_ids_spec c (N.to_nat w) m' a (a / 2 ^ m' * 2 ^ m' + (2 ^ m' - 1)))
    as (l1 & Hl1 & Hf1 & Hc1 & _); [done|..].
  { pose proof (proj1 (block_bounds a a m') eq_refl) as H. pose proof (pow_pos m') as Hp. clear -H Hp.
    set (p := 2 ^ m') in *. clearbody p. set (z := _ * p) in *. clearbody z. lia. }
  { fold w. rewrite (pow_split w m') by (clear -Hmw; lia).
    assert (Hq : a / 2 ^ m' < 2 ^ (w - m')).
    { apply N.div_lt_upper_bound; [done|]. rewrite N.mul_comm, <- pow_split; [done|clear -Hmw; lia]. }
    pose proof (pow_pos m') as Hp. clear -Hq Hp. set (p := 2 ^ m') in *. clearbody p.
    set (q := a / p) in *. clearbody q. set (r := 2 ^ (w - m')) in *. clearbody r. nia. }
  { symmetry. rewrite N.div_add_l by done. rewrite (N.div_small (2 ^ m' - 1)); [apply N.add_0_r|].
    pose proof (pow_pos m') as Hp. clear -Hp. lia. }
  { fold w. clear -Hmw. lia. }
  { clear -Hmw. lia. }
  { by left. }
  rewrite Hl1. cbn [rbind]. rewrite half_cleared by done. cbn [rbind].
  destruct (append_range_ids_spec c (N.to_nat w) m' (b / 2 ^ m' * 2 ^ m') b)
    as (l2 & Hl2 & Hf2 & Hc2 & _); [done|..].
  { pose proof (proj1 (block_bounds b b m') eq_refl) as H. apply H. }
  { done. }
  { by rewrite N.div_mul. }
  { fold w. clear -Hmw. lia. }
  { clear -Hmw. lia. }
  { by left. }
  rewrite Hl2. cbn [rbind]. eexists. split; [done|]. split; [by apply Forall_app|]. intros v.
  pose proof (chain_union _ _ _ _ v Hf1 Hc1) as U1. pose proof (chain_union _ _ _ _ v Hf2 Hc2) as U2.
  pose proof (block_bounds v a m') as Ba. pose proof (block_bounds v b m') as Bb.
  pose proof (proj1 (block_bounds a a m') eq_refl) as Ha'.
  pose proof (proj1 (block_bounds b b m') eq_refl) as Hb'.
  rewrite Ba, Bb.
  assert (Hsplit : (exists x, x ∈ l1 ++ l2 /\ covers (id_w c) x v) <->
    (exists x, x ∈ l1 /\ covers (id_w c) x v) \/ (exists x, x ∈ l2 /\ covers (id_w c) x v)).
  { split.
    - intros (x & Hx & Hv). apply elem_of_app in Hx as [Hx|Hx]; eauto.
    - intros [(x & Hx & Hv)|(x & Hx & Hv)]; exists x; rewrite elem_of_app; auto. }
  fold w in Hsplit. rewrite Hsplit. fold w in U1, U2. rewrite <- U1, <- U2.
  pose proof (pow_pos m') as Hp. clear -Hp Ha' Hb'.
  set (p := 2 ^ m') in *. clearbody p. set (za := a / p * p) in *. set (zb := b / p * p) in *.
  clearbody za zb. lia.
Qed.

Lemma reversed_ids_full c a b : c ∈ id_packages_16_32 -> b < a -> a < 2 ^ id_w c ->
    exists l, range_ids c (range_from c a b) = Ok l /\ Forall (canonical (id_w c)) l /\
      forall v, ((exists x, x ∈ l /\ covers (id_w c) x v) <->
       (a <= v /\ v / half_size a b = a / half_size a b) \/
       (v <= b /\ v / half_size a b = b / half_size a b)).
Proof.
  intros Hc Hab Ha. apply packages_full in Hc. apply reversed_ids_gen; [by apply cf_masks|done|done|].
  rewrite compare_ids_spec; [|by apply cf_masks|done|clear -Hab Ha; lia|right; by apply cf_mask0].
  by rewrite reversed_not_one.
Qed.

(** What IDs() of a reversed range covers: from [a] to the end of its half block,
    and from the start of the half block of [b] to [b]. *)
Lemma C25_reversed_ids_characterised_pf :
  forall c a b v, c ∈ id_packages_16_32 -> b < a -> a < 2 ^ id_w c ->
    exists l, range_ids c (range_from c a b) = Ok l /\
      ((exists x, x ∈ l /\ covers (id_w c) x v) <->
       (a <= v /\ v / half_size a b = a / half_size a b) \/
       (v <= b /\ v / half_size a b = b / half_size a b)).
Proof.
  intros c a b v Hc Hab Ha. destruct (reversed_ids_full c a b Hc Hab Ha) as (l & Hl & _ & Hv). by exists l.
Qed.

(** id64: the same, unless the bounds are in different halves, [a] ends in 32 zero
    bits and [b] in 32 one bits: then everything is covered. *)
Lemma C25_id64_characterised_pf :
  forall a b v, b < a -> a < 2 ^ 64 ->
    exists l, range_ids cfg_id64 (range_from cfg_id64 a b) = Ok l /\
      ((exists x, x ∈ l /\ covers 64 x v) <->
       (b < 2 ^ 63 <= a /\ a mod 2 ^ 32 = 0 /\ b mod 2 ^ 32 = 2 ^ 32 - 1 /\ v < 2 ^ 64) \/
       (a <= v /\ v / half_size a b = a / half_size a b) \/
       (v <= b /\ v / half_size a b = b / half_size a b)).
Proof.
  intros a b v Hab Ha.
  assert (Hm : cfg_masks cfg_id64) by (apply packages_masks; unfold id_packages; set_solver).
  assert (Hs : N.size (N.lxor a b) <= 64) by (apply xor_size_bound; lia).
  assert (H64 : N.size (N.lxor a b) = 64 <-> b < 2 ^ 63 <= a).
  { rewrite N.lxor_comm. apply size_64; [lia|done]. }
  assert (Hgen : compare_ids cfg_id64 a b = Ok (64 - N.size (N.lxor a b), false) ->
    ~ (b < 2 ^ 63 <= a /\ a mod 2 ^ 32 = 0 /\ b mod 2 ^ 32 = 2 ^ 32 - 1) ->
    exists l, range_ids cfg_id64 (range_from cfg_id64 a b) = Ok l /\
      ((exists x, x ∈ l /\ covers 64 x v) <->
       (b < 2 ^ 63 <= a /\ a mod 2 ^ 32 = 0 /\ b mod 2 ^ 32 = 2 ^ 32 - 1 /\ v < 2 ^ 64) \/
       (a <= v /\ v / half_size a b = a / half_size a b) \/
       (v <= b /\ v / half_size a b = b / half_size a b))).
  { intros Hcmp Hnot. destruct (reversed_ids_gen cfg_id64 a b Hm Hab Ha Hcmp) as (l & Hl & _ & Hv).
    exists l. split; [done|]. change (id_w cfg_id64) with 64 in Hv. rewrite Hv. tauto. }
  destruct (N.eq_dec (N.size (N.lxor a b)) 64) as [He|Hne].
  - assert (Hcmp : compare_ids cfg_id64 a b = Ok (0, (a mod 2 ^ 32 =? 0) && (b mod 2 ^ 32 =? 2 ^ 32 - 1))).
    { unfold compare_ids, common_mask, lz. change (id_w cfg_id64) with 64. rewrite He, N.sub_diag.
      change (0 =? 64) with false. cbn [rbind]. change (mask6 cfg_id64 0) with (Ok (2 ^ 64 - 2 ^ 32)).
      cbn [rbind]. f_equal. f_equal. rewrite lxor_land_mask, lor_mask, unot_0 by (done || lia). f_equal.
      clear. destruct (N.eqb_spec (b mod 2 ^ 32) (2 ^ 32 - 1)) as [E|E];
        destruct (N.eqb_spec (2 ^ 64 - 2 ^ 32 + b mod 2 ^ 32) (2 ^ 64 - 1)) as [E'|E']; try done; exfalso; lia. }
    destruct ((a mod 2 ^ 32 =? 0) && (b mod 2 ^ 32 =? 2 ^ 32 - 1)) eqn:Hbad.
    + apply andb_true_iff in Hbad as [E1 E2]. apply N.eqb_eq in E1, E2.
      exists [MyId a 0]. split.
      * unfold range_ids, range_from. cbn [r_from r_to i_id].
        generalize (N.to_nat (id_w cfg_id64)). intros k. cbn [append_range_ids]. by rewrite Hcmp.
      * assert (Hcov : (exists x, x ∈ [MyId a 0] /\ covers 64 x v) <-> v < 2 ^ 64).
        { unfold covers. split.
          - intros (x & Hx & Hv). apply elem_of_list_singleton in Hx as ->. cbn [i_id i_len] in Hv.
            rewrite N.sub_0_r, (N.div_small a) in Hv by done. by apply N.div_small_iff in Hv.
          - intros Hv. exists (MyId a 0). split; [left|]. cbn [i_id i_len]. rewrite N.sub_0_r, !N.div_small by done. done. }
        rewrite Hcov. apply H64 in He. split; [by left|].
        intros [(_ & _ & _ & Hv)|[[_ Hv]|[Hv _]]]; [done| |lia].
        assert (Hh : half_size a b = 2 ^ 63) by (unfold half_size; apply H64 in He; by rewrite He).
        rewrite Hh in Hv. clear -Hv Ha.
        pose proof (N.div_mod v (2 ^ 63) (pow_nz _)) as Dv. pose proof (N.mod_lt v (2 ^ 63) (pow_nz _)).
        assert (a / 2 ^ 63 < 2) by (apply N.div_lt_upper_bound; [done|lia]).
        rewrite Hv in Dv. lia.
    + apply Hgen; [by rewrite Hcmp, He|]. intros (_ & E1 & E2). rewrite E1, E2 in Hbad. done.
  - apply Hgen; [|intros (Hh & _); by apply Hne, H64].
    rewrite compare_ids_spec; [|done|done|change (id_w cfg_id64) with 64; lia|left; change (id_w cfg_id64) with 64; lia].
    by rewrite reversed_not_one.
Qed.

(** All widths: every reversed range covers both its bounds. *)
Lemma C25_reversed_ids_refuted_pf :
  forall c a b, c ∈ id_packages -> b < a -> a < 2 ^ id_w c ->
    exists l, range_ids c (range_from c a b) = Ok l /\
      (exists x, x ∈ l /\ covers (id_w c) x a) /\ (exists x, x ∈ l /\ covers (id_w c) x b).
Proof.
  intros c a b Hc Hab Ha.
  assert (Hcs : c ∈ id_packages_16_32 \/ c = cfg_id64) by (unfold id_packages, id_packages_16_32 in *; set_solver).
  destruct Hcs as [Hc'| ->].
  - destruct (C25_reversed_ids_characterised_pf c a b a Hc' Hab Ha) as (l & Hl & H1).
    destruct (C25_reversed_ids_characterised_pf c a b b Hc' Hab Ha) as (l' & Hl' & H2).
    rewrite Hl in Hl'. injection Hl' as <-.
    exists l. split; [done|]. split; [apply H1|apply H2]; [left|right]; split; done.
  - destruct (C25_id64_characterised_pf a b a Hab Ha) as (l & Hl & H1).
    destruct (C25_id64_characterised_pf a b b Hab Ha) as (l' & Hl' & H2).
    rewrite Hl in Hl'. injection Hl' as <-.
    exists l. split; [done|]. split; [apply H1|apply H2]; right; [left|right]; split; done.
Qed.

(* ------------------------------------------------------------------ C26 *)
Lemma digit_spec a d : digit a = Some d <-> is_digit a /\ d = N_of_ascii a - 48.
Proof.
  unfold digit, is_digit. destruct (N.leb_spec 48 (N_of_ascii a)), (N.leb_spec (N_of_ascii a) 57); cbn [andb];
    split; intros H'; try done; try (injection H' as <-; lia); destruct H' as [? ->]; done || lia.
Qed.

Lemma parse_digits_spec s acc v :
  parse_digits s acc = Some v <->
  all_digits s /\ v = acc * 10 ^ N.of_nat (String.length s) + decimal_value s.
Proof.
  revert acc. induction s as [|a s IH]; intros acc; cbn [parse_digits all_digits decimal_value String.length].
  - rewrite N.pow_0_r. split; [intros [= <-]; split; [done|lia]|]. intros [_ ->]. f_equal. lia.
  - destruct (digit a) as [d|] eqn:Hd.
    + apply digit_spec in Hd as [Hd ->]. rewrite IH.
      replace (N.of_nat (S (String.length s))) with (N.of_nat (String.length s) + 1) by lia.
      rewrite N.pow_add_r, N.pow_1_r. split; intros [H1 ->].
      * split; [done|]. lia.
      * split; [by destruct H1|]. lia.
    + split; [done|]. intros [[H _] _]. exfalso.
      assert (digit a = Some (N_of_ascii a - 48)) by (by apply digit_spec). congruence.
Qed.

Lemma parse_uint_spec w s v :
  parse_uint w s = Some v <->
  s <> String.EmptyString /\ all_digits s /\ decimal_value s < 2 ^ w /\ v = decimal_value s.
Proof.
  unfold parse_uint. destruct s as [|a s]; [naive_solver|].
  destruct (parse_digits (String.String a s) 0) as [u|] eqn:Hu.
  - apply parse_digits_spec in Hu as [Hd ->]. rewrite N.mul_0_l, N.add_0_l.
    destruct (N.ltb_spec (decimal_value (String.String a s)) (2 ^ w)); split.
    + intros [= <-]. done.
    + intros (_ & _ & _ & ->). done.
    + done.
    + intros (_ & _ & ? & _). lia.
  - split; [done|]. intros (_ & Hd & _). exfalso.
    assert (parse_digits (String.String a s) 0 =
      Some (0 * 10 ^ N.of_nat (String.length (String.String a s)) + decimal_value (String.String a s))) as H
      by (by apply parse_digits_spec).
    congruence.
Qed.

Lemma split_hyphen_spec s f t :
  split_hyphen s = Some (f, t) <-> has_no_hyphen f /\ s = String.append f (String.String "-"%char t).
Proof.
  revert f. induction s as [|a s IH]; intros f; cbn [split_hyphen].
  - split; [done|]. intros [_ H]. by destruct f.
  - destruct (Ascii.eqb_spec a "-"%char) as [->|Hne].
    + split.
      * intros [= <- <-]. done.
      * intros [Hf H]. destruct f as [|b f]; [by injection H as ->|].
        cbn in H. injection H as <- _. by destruct Hf.
    + destruct (split_hyphen s) as [[x y]|] eqn:Hs; split.
      * intros [= <- <-]. destruct (proj1 (IH x) eq_refl) as [H1 ->]. done.
      * intros [Hf H]. destruct f as [|b f]; [injection H as -> _; done|].
        cbn in H, Hf. injection H as <- H.
        assert (Some (x, y) = Some (f, t)) as [= <- <-] by (apply IH; by destruct Hf). done.
      * done.
      * intros [Hf H]. destruct f as [|b f]; [injection H as -> _; done|].
        cbn in H, Hf. injection H as <- H.
        assert (None = Some (f, t)) by (apply IH; by destruct Hf). done.
Qed.

Lemma digits_no_hyphen s : all_digits s -> has_no_hyphen s.
Proof.
  induction s as [|a s IH]; cbn; [done|]. intros [Ha Hs]. split; [|by apply IH].
  intros ->. destruct Ha as [Ha _]. by apply Ha.
Qed.

(** All widths.  An unsigned decimal pair: non-empty, digits only, both values
    below 2^width. *)
Lemma C26_parse_range_pf :
  forall c s r, c ∈ id_packages ->
    (parse_range c s = Ok r <->
     exists f t, s = String.append f (String.String "-"%char t) /\
       f <> String.EmptyString /\ t <> String.EmptyString /\ all_digits f /\ all_digits t /\
       decimal_value f < 2 ^ id_w c /\ decimal_value t < 2 ^ id_w c /\
       r = range_from c (decimal_value f) (decimal_value t)) /\
    parse_range c s <> Panic.
Proof.
  intros c s r _. split.
  - unfold parse_range. split.
    + destruct (split_hyphen s) as [[f t]|] eqn:Hs; [|done].
      apply split_hyphen_spec in Hs as [_ ->].
      destruct (parse_uint (id_w c) f) as [a|] eqn:Hf; [|done].
      destruct (parse_uint (id_w c) t) as [b|] eqn:Ht; [|done]. intros [= <-].
      apply parse_uint_spec in Hf as (? & ? & ? & ->). apply parse_uint_spec in Ht as (? & ? & ? & ->).
      exists f, t. do 7 (split; [done|]). unfold range_from, uwrap. rewrite !N.mod_small by done. done.
    + intros (f & t & -> & Hf & Ht & Hdf & Hdt & Hvf & Hvt & ->).
      rewrite (proj2 (split_hyphen_spec _ f t)) by (split; [by apply digits_no_hyphen|done]).
      rewrite (proj2 (parse_uint_spec _ f _)) by done.
      rewrite (proj2 (parse_uint_spec _ t _)) by done.
      unfold range_from, uwrap. rewrite !N.mod_small by done. done.
  - unfold parse_range. destruct (split_hyphen s) as [[f t]|]; [|done].
    destruct (parse_uint (id_w c) f); [|done]. by destruct (parse_uint (id_w c) t).
Qed.

Lemma parse_string_of_uint_acc d acc :
  parse_digits (DecimalString.NilEmpty.string_of_uint d) (N.pos acc) = Some (N.pos (Pos.of_uint_acc d acc)).
Proof.
  revert acc. induction d; intros acc; cbn [DecimalString.NilEmpty.string_of_uint parse_digits Pos.of_uint_acc];
    [done|..];
    match goal with |- context [digit ?a] => change (digit a) with (Some (N_of_ascii a - 48)) end;
    rewrite <- IHd; f_equal; cbn [N_of_ascii N_of_digits]; lia.
Qed.
Lemma parse_string_of_uint d :
  parse_digits (DecimalString.NilEmpty.string_of_uint d) 0 = Some (N.of_uint d).
Proof.
  induction d; cbn [DecimalString.NilEmpty.string_of_uint parse_digits];
    [done|..];
    match goal with |- context [digit ?a] => change (digit a) with (Some (N_of_ascii a - 48)) end;
    [exact IHd|..]; apply parse_string_of_uint_acc.
Qed.

Lemma dec_spec n : dec n <> String.EmptyString /\ all_digits (dec n) /\ decimal_value (dec n) = n.
Proof.
  assert (Hp : parse_digits (dec n) 0 = Some n).
  { unfold dec. rewrite parse_string_of_uint. f_equal. apply DecimalN.Unsigned.of_to. }
  apply parse_digits_spec in Hp as [H1 H2]. split; [|split; [done|lia]].
  unfold dec. destruct n as [|p]; [done|]. cbn [N.to_uint].
  pose proof (DecimalPos.Unsigned.to_uint_nonnil p) as H. by destruct (Pos.to_uint p).
Qed.

(** ParseRange(r.String()) = r for every range of every width. *)
Lemma C26_parse_range_of_string_pf :
  forall c a b, c ∈ id_packages -> a < 2 ^ id_w c -> b < 2 ^ id_w c ->
    parse_range c (range_string (range_from c a b)) = Ok (range_from c a b).
Proof.
  intros c a b Hc Ha Hb. apply (C26_parse_range_pf c); [done|].
  destruct (dec_spec a) as (A1 & A2 & A3), (dec_spec b) as (B1 & B2 & B3).
  exists (dec a), (dec b). rewrite A3, B3. done.
Qed.

(* ------------------------------------------------------------------ C68 *)
Lemma id_package_width c : c ∈ id_packages -> 0 < id_w c <= 64.
Proof.
  intros Hc. unfold id_packages in Hc. repeat (apply elem_of_cons in Hc as [->|Hc]; [cbn; lia|]). by apply elem_of_nil in Hc.
Qed.
(** ShiftLeft(s): bit k of the result is bit k+s of the id, zeros come in from the
    right, and the length is s less (as long as there are s bits). *)
Lemma C68_shift_left_pf :
  forall c x s, c ∈ id_packages -> id_ok c x ->
    (forall k, k < id_w c -> left_bit (id_w c) (i_id (shift_left c x s)) k =
       if k + s <? id_w c then left_bit (id_w c) (i_id x) (k + s) else false) /\
    i_id (shift_left c x s) < 2 ^ id_w c /\
    (s <= i_len x -> i_len (shift_left c x s) = i_len x - s).
Proof.
  intros c x s Hc [Hx Hl]. apply id_package_width in Hc. unfold shift_left, left_bit, ushl. cbn [i_id i_len]. split; [|split].
  - intros k Hk. rewrite N.mod_pow2_bits_low by lia. destruct (N.ltb_spec (k + s) (id_w c)).
    + rewrite N.shiftl_spec_high' by lia. f_equal. lia.
    + apply N.shiftl_spec_low. lia.
  - apply N.mod_lt. by apply N.pow_nonzero.
  - intros Hs. unfold usub. change (2 ^ 8) with 256. rewrite (N.mod_small s) by lia.
    replace (i_len x + 256 - s) with (i_len x - s + 1 * 256) by lia. rewrite N.mod_add by done. apply N.mod_small. lia.
Qed.
(** Shifted by more than its length, an id gets a length it cannot have. *)
Lemma C68_shift_past_the_end_pf :
  forall c x s, c ∈ id_packages -> id_ok c x -> i_len x < s < 256 ->
    i_len (shift_left c x s) = 256 - (s - i_len x).
Proof.
  intros c x s _ [_ Hl] Hs. unfold shift_left. cbn [i_len]. unfold usub. change (2 ^ 8) with 256.
  rewrite (N.mod_small s) by lia. rewrite N.mod_small by lia. lia.
Qed.
Lemma first_bit_set w v : 0 < w -> v < 2 ^ w -> (2 ^ (w - 1) <=? v) = left_bit w v 0.
Proof.
  intros Hw Hv. unfold left_bit. rewrite N.sub_0_r, N.testbit_odd, N.shiftr_div_pow2.
  assert (H2 : 2 ^ w = 2 * 2 ^ (w - 1)).
  { rewrite <- (N.pow_succ_r 2 (w - 1)) by apply N.le_0_l. f_equal. lia. }
  assert (Hp : 2 ^ (w - 1) <> 0) by (apply N.pow_nonzero; done).
  set (P := 2 ^ (w - 1)) in *. clearbody P.
  destruct (N.leb_spec P v) as [H|H].
  - assert (v / P = 1) as ->; [|done]. symmetry. apply (N.div_unique v P 1 (v - P)); lia.
  - rewrite N.div_small by done. done.
Qed.
(** IsLeftBitSet, the method and the function, read the first bit. *)
Lemma C68_is_left_bit_set_pf :
  forall c, c ∈ id_packages ->
    (forall x, id_ok c x -> is_left_bit_set c x = left_bit (id_w c) (i_id x) 0) /\
    (forall v, is_left_bit_set_fn c v = left_bit (id_w c) v 0).
Proof.
  intros c Hc. apply id_package_width in Hc. split.
  - intros x [Hx _]. unfold is_left_bit_set. apply first_bit_set; [lia|done].
  - intros v. unfold is_left_bit_set_fn. rewrite first_bit_set; [|lia|unfold uwrap; apply N.mod_lt; by apply N.pow_nonzero].
    unfold left_bit, uwrap. apply N.mod_pow2_bits_low. lia.
Qed.
(** Matches: the number of bits from the left that agree. *)
Lemma C68_matches_pf :
  forall c x v, c ∈ id_packages -> id_ok c x ->
    matches c x v <= id_w c /\
    (forall k, k < matches c x v -> left_bit (id_w c) v k = left_bit (id_w c) (i_id x) k) /\
    (matches c x v < id_w c -> left_bit (id_w c) v (matches c x v) <> left_bit (id_w c) (i_id x) (matches c x v)) /\
    (matches c x v = id_w c <-> v mod 2 ^ id_w c = i_id x).
Proof.
  intros c x v Hc [Hx _]. apply id_package_width in Hc.
  assert (Hu : v mod 2 ^ id_w c < 2 ^ id_w c) by (apply N.mod_lt; by apply N.pow_nonzero).
  assert (Hlb : forall k, left_bit (id_w c) v k = left_bit (id_w c) (v mod 2 ^ id_w c) k).
  { intros k. unfold left_bit. symmetry. apply N.mod_pow2_bits_low. lia. }
  setoid_rewrite Hlb. clear Hlb. unfold matches, uwrap. set (u := v mod 2 ^ id_w c) in *. clearbody u. clear v.
  unfold lz, left_bit.
  assert (Hbit : forall i, N.testbit (N.lxor u (i_id x)) i = xorb (N.testbit u i) (N.testbit (i_id x) i)) by (intros i; apply N.lxor_spec).
  destruct (N.eq_dec (N.lxor u (i_id x)) 0) as [E|E].
  - rewrite E. cbn [N.size]. rewrite N.sub_0_r. apply N.lxor_eq in E as ->. split; [lia|]. split; [done|]. split; [lia|done].
  - pose proof (xor_size_bound _ _ _ Hu Hx) as Hlog.
    rewrite N.size_log2 in * by done. split; [lia|]. split; [|split].
    + intros k Hk. specialize (Hbit (id_w c - 1 - k)). rewrite N.bits_above_log2 in Hbit by lia.
      by destruct (N.testbit u _), (N.testbit (i_id x) _).
    + intros _. replace (id_w c - 1 - (id_w c - N.succ (N.log2 (N.lxor u (i_id x))))) with (N.log2 (N.lxor u (i_id x))) by lia.
      specialize (Hbit (N.log2 (N.lxor u (i_id x)))). rewrite N.bit_log2 in Hbit by done.
      by destruct (N.testbit u _), (N.testbit (i_id x) _).
    + split; [lia|]. intros ->. by rewrite N.lxor_nilpotent in E.
Qed.

(* ------------------------------------------------------------------ C69 *)
Lemma bounds_less a b : i_len a = i_len b -> id_less a b = (i_id a <? i_id b).
Proof.
  intros H. unfold id_less, id_compare. rewrite H, N.ltb_irrefl.
  destruct (N.ltb_spec (i_id a) (i_id b)); [done|]. by destruct (N.ltb_spec (i_id b) (i_id a)).
Qed.
Lemma bounds_le a b : i_len a = i_len b -> less_or_eq a b = (i_id a <=? i_id b).
Proof.
  intros H. unfold less_or_eq, id_compare. rewrite H, N.ltb_irrefl.
  destruct (N.ltb_spec (i_id a) (i_id b)); [by destruct (N.leb_spec (i_id a) (i_id b)); [|lia]|].
  destruct (N.ltb_spec (i_id b) (i_id a)), (N.leb_spec (i_id a) (i_id b)); (done || lia).
Qed.
(** EntirelyBefore, CoveredBy and InMiddleOf decide the relation of the two sets
    of values that their names say. *)
Lemma C69_set_relations_partial_pf :
  forall n r o, valid_range n r -> valid_range n o ->
    (entirely_before r o = true <-> forall u v, has_value r u -> has_value o v -> u < v) /\
    (covered_by r o = true <-> forall u, has_value r u -> has_value o u) /\
    (in_middle_of r o = true <->
       forall u, has_value r u -> has_value o u /\ u <> i_id (r_from o) /\ u <> i_id (r_to o)).
Proof.
  intros n [[a la] [b lb]] [[x lx] [y ly]] (H1 & H2 & H3) (H4 & H5 & H6). cbn [r_from r_to i_id i_len] in *. subst.
  unfold entirely_before, covered_by, in_middle_of, has_value. cbn [r_from r_to].
  rewrite !bounds_less, !bounds_le by done. cbn [i_id]. rewrite !andb_true_iff, !N.ltb_lt, !N.leb_le. split; [|split].
  - split; [lia|]. intros H. apply H; lia.
  - split; [lia|]. intros H. pose proof (H a ltac:(lia)). pose proof (H b ltac:(lia)). lia.
  - split; [lia|]. intros H. pose proof (H a ltac:(lia)). pose proof (H b ltac:(lia)). lia.
Qed.
(** OverlapsStartOf and OverlapsEndOf, for ranges that have a value in common: the
    first (last) value of the other range is in the range, and not all values are. *)
Lemma C69_overlaps_partial_pf :
  forall n r o, valid_range n r -> valid_range n o -> (exists v, has_value r v /\ has_value o v) ->
    (overlaps_start_of r o = true <-> has_value r (i_id (r_from o)) /\ exists v, has_value o v /\ ~ has_value r v) /\
    (overlaps_end_of r o = true <-> has_value r (i_id (r_to o)) /\ exists v, has_value o v /\ ~ has_value r v).
Proof.
  intros n [[a la] [b lb]] [[x lx] [y ly]] (H1 & H2 & H3) (H4 & H5 & H6) [v [Hv1 Hv2]]. cbn [r_from r_to i_id i_len] in *. subst.
  unfold overlaps_start_of, overlaps_end_of, has_value in *. cbn [r_from r_to i_id] in *.
  rewrite !bounds_less, !bounds_le by done. cbn [i_id]. rewrite !andb_true_iff, !N.ltb_lt, !N.leb_le. split.
  - split; [intros H; split; [lia|]; exists y; lia|]. intros [H [u Hu]]. lia.
  - split; [intros H; split; [lia|]; exists x; lia|]. intros [H [u Hu]]. lia.
Qed.
(** They are also true of ranges that have no value in common. *)
Lemma C69_disjoint_ranges_refuted_pf :
  forall n r o, valid_range n r -> valid_range n o -> (forall u v, has_value r u -> has_value o v -> u < v) ->
    overlaps_start_of r o = true /\ overlaps_end_of o r = true /\
    (forall v, ~ (has_value r v /\ has_value o v)).
Proof.
  intros n [[a la] [b lb]] [[x lx] [y ly]] (H1 & H2 & H3) (H4 & H5 & H6) H. cbn [r_from r_to i_id i_len] in *. subst.
  unfold overlaps_start_of, overlaps_end_of, has_value in *. cbn [r_from r_to i_id] in *.
  assert (b < x) by (apply H; lia).
  rewrite !bounds_less, !bounds_le by done. cbn [i_id]. rewrite !andb_true_iff, !N.ltb_lt, !N.leb_le.
  split; [lia|]. split; [lia|]. intros v. lia.
Qed.
(** IsValid: the bounds have the same length and are not reversed. *)
Lemma C69_is_valid_pf :
  forall r, is_valid r = true <-> valid_range (i_len (r_from r)) r.
Proof.
  intros r. unfold is_valid, valid_range. rewrite andb_true_iff, N.eqb_eq, negb_true_iff, N.ltb_ge.
  split; [intros [H1 H2]; by rewrite H1|]. intros (_ & H1 & H2). by rewrite H1.
Qed.

(* ------------------------------------------------------------------ C70 *)
Lemma digits_split (a b : string) (s t : ascii) (x y : string) :
  all_digits a -> all_digits b -> ~ is_digit s -> ~ is_digit t ->
  String.append a (String.String s x) = String.append b (String.String t y) -> a = b /\ x = y.
Proof.
  intros Ha Hb Hs Ht. revert b Hb. induction a as [|d a IH]; intros [|e b] Hb H; cbn in H.
  - by injection H as _ ->.
  - injection H as -> _. by destruct Hb.
  - injection H as -> _. by destruct Ha.
  - injection H as -> H. destruct Ha as [Hd Ha], Hb as [He Hb]. destruct (IH Ha b Hb H) as [-> ->]. done.
Qed.
(** Different ids have different strings, and so have different ranges with
    bounds of full length. *)
Lemma C70_strings_identify_pf :
  (forall x y : id, id_string x = id_string y -> x = y) /\
  (forall c a b a' b', range_string (range_from c a b) = range_string (range_from c a' b') ->
     range_from c a b = range_from c a' b').
Proof.
  assert (Hinj : forall a b : N, dec a = dec b -> a = b).
  { intros a b H. destruct (dec_spec a) as (_ & _ & <-), (dec_spec b) as (_ & _ & <-). by rewrite H. }
  split.
  - intros [a la] [b lb] H. unfold id_string in H. cbn [i_id i_len] in H. apply digits_split in H as [H1 H2].
    + by rewrite (Hinj _ _ H1), (Hinj _ _ H2).
    + apply dec_spec.
    + apply dec_spec.
    + unfold is_digit. vm_compute. intros [H1 H2]. by apply H1.
    + unfold is_digit. vm_compute. intros [H1 H2]. by apply H1.
  - intros c a b a' b' H. unfold range_string, range_from in *. cbn [r_from r_to i_id] in H. apply digits_split in H as [H1 H2].
    + by rewrite (Hinj _ _ H1), (Hinj _ _ H2).
    + apply dec_spec.
    + apply dec_spec.
    + unfold is_digit. vm_compute. intros [H1 H2]. by apply H1.
    + unfold is_digit. vm_compute. intros [H1 H2]. by apply H1.
Qed.
Lemma dec_plain (v : N) : plain_decimal (dec v) v.
Proof.
  destruct (dec_spec v) as (H1 & H2 & H3). split_and!; try done. intros rest H. unfold dec in H.
  assert (Hn : N.to_uint v = Decimal.unorm (N.to_uint v)).
  { rewrite <- DecimalN.Unsigned.to_of, DecimalN.Unsigned.of_to. done. }
  assert (Hnz : forall d d', Decimal.nzhead d <> Decimal.D0 d').
  { induction d; intros d'; cbn [Decimal.nzhead]; done || apply IHd. }
  destruct (N.to_uint v) as [|d|d|d|d|d|d|d|d|d|d] eqn:E; cbn in H; try discriminate.
  injection H as <-. unfold Decimal.unorm in Hn. cbn [Decimal.nzhead] in Hn.
  specialize (Hnz d). destruct (Decimal.nzhead d); try discriminate; [by injection Hn as ->|].
  by destruct (Hnz u).
Qed.
(** String of an id is its value, a slash and its length, and String of a range
    its two bounds with a hyphen in between; all in decimal without leading zeros. *)
Lemma C70_strings_text_pf :
  (forall x : id, exists v l, plain_decimal v (i_id x) /\ plain_decimal l (i_len x) /\
     id_string x = String.append v (String.String "/"%char l)) /\
  (forall r : range, exists a b, plain_decimal a (i_id (r_from r)) /\ plain_decimal b (i_id (r_to r)) /\
     range_string r = String.append a (String.String "-"%char b)).
Proof.
  split.
  - intros x. exists (dec (i_id x)), (dec (i_len x)). split_and!; try apply dec_plain. done.
  - intros r. exists (dec (i_id (r_from r))), (dec (i_id (r_to r))). split_and!; try apply dec_plain. done.
Qed.
