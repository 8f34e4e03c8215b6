(** Bit lists: the operations of the radix tree on node ids as operations on
    prefixes. *)
From Verif Require Export TreeSpec.
From Coq Require Import Lia ZifyBool ZifyNat ZifyN.
Local Open Scope N_scope.

Lemma bits_length w v n : length (bits w v n) = n.
Proof. unfold bits. by rewrite fmap_length, seq_length. Qed.

Lemma bits_lookup w v n k : (k < n)%nat -> bits w v n !! k = Some (N.testbit v (w - 1 - N.of_nat k)).
Proof. intros H. unfold bits. rewrite list_lookup_fmap, lookup_seq_lt by done. done. Qed.

Lemma bits_lookup_inv w v n k b : bits w v n !! k = Some b ->
  (k < n)%nat /\ b = N.testbit v (w - 1 - N.of_nat k).
Proof.
  intros H. assert (Hk : (k < n)%nat).
  { apply lookup_lt_Some in H. by rewrite bits_length in H. }
  rewrite bits_lookup in H by done. by injection H as <-.
Qed.

Lemma bits_eq w u v n :
  (forall k, (k < n)%nat -> N.testbit u (w - 1 - N.of_nat k) = N.testbit v (w - 1 - N.of_nat k)) ->
  bits w u n = bits w v n.
Proof.
  intros H. apply list_eq_same_length with (n := n); [by rewrite bits_length..|].
  intros k x y Hk Hx Hy. apply bits_lookup_inv in Hx as [_ ->]. apply bits_lookup_inv in Hy as [_ ->].
  by apply H.
Qed.

Lemma bits_eq_inv w u v n k : bits w u n = bits w v n -> (k < n)%nat ->
  N.testbit u (w - 1 - N.of_nat k) = N.testbit v (w - 1 - N.of_nat k).
Proof.
  intros H Hk. pose proof (bits_lookup w u n k Hk) as H1. rewrite H, bits_lookup in H1 by done.
  by injection H1.
Qed.

Lemma bits_take w v n m : take m (bits w v n) = bits w v (m `min` n)%nat.
Proof.
  apply list_eq_same_length with (n := (m `min` n)%nat).
  1,2: by rewrite ?drop_length, ?take_length, ?app_length, ?bits_length.
  intros k x y Hk Hx Hy. rewrite lookup_take in Hx by lia.
  apply bits_lookup_inv in Hx as [_ ->]. by apply bits_lookup_inv in Hy as [_ ->].
Qed.

Lemma bits_S w v n : bits w v (S n) = N.testbit v (w - 1) :: drop 1 (bits w v (S n)).
Proof. unfold bits. cbn [seq fmap list_fmap drop]. by rewrite N.sub_0_r. Qed.

(** <<, on any width that keeps the low w bits. *)
Lemma bits_shift w v s n W : N.of_nat n <= w -> w <= W ->
  bits w (ushl W v (N.of_nat s)) (n - s) = drop s (bits w v n).
Proof.
  intros Hn HW. apply list_eq_same_length with (n := (n - s)%nat).
  1,2: by rewrite ?drop_length, ?take_length, ?app_length, ?bits_length.
  intros k x y Hk Hx Hy. rewrite lookup_drop in Hy.
  apply bits_lookup_inv in Hx as [_ ->]. apply bits_lookup_inv in Hy as [Hk' ->].
  unfold ushl. rewrite N.mod_pow2_bits_low by lia. rewrite N.shiftl_spec_high' by lia. f_equal. lia.
Qed.

Lemma bits_wrap w v n W : N.of_nat n <= w -> w <= W -> bits w (uwrap W v) n = bits w v n.
Proof.
  intros Hn HW. apply bits_eq. intros k Hk. unfold uwrap. apply N.mod_pow2_bits_low. lia.
Qed.

Lemma left_bit_testbit w v : 0 < w -> v < 2 ^ w -> (2 ^ (w - 1) <=? v) = N.testbit v (w - 1).
Proof.
  intros Hw Hv. rewrite N.testbit_odd, N.shiftr_div_pow2.
  assert (H2 : 2 ^ w = 2 * 2 ^ (w - 1)).
  { rewrite <- (N.pow_succ_r 2 (w - 1)) by apply N.le_0_l. f_equal. lia. }
  assert (Hp : 2 ^ (w - 1) <> 0) by (apply N.pow_nonzero; done).
  set (P := 2 ^ (w - 1)) in *. clearbody P.
  destruct (N.leb_spec P v) as [H|H].
  - assert (v / P = 1) as ->; [|done]. symmetry. apply (N.div_unique v P 1 (v - P)); lia.
  - rewrite N.div_small by done. done.
Qed.

Lemma size_le w y : y < 2 ^ w -> N.size y <= w.
Proof.
  intros H. destruct (N.eq_dec y 0) as [->|Hy]; [cbn; lia|].
  rewrite N.size_log2 by done. apply N.log2_lt_pow2 in H; lia.
Qed.

Lemma lz_le w y : lz w y <= w.
Proof. unfold lz. lia. Qed.

Lemma lz_below w y k : y < 2 ^ w -> k < lz w y -> N.testbit y (w - 1 - k) = false.
Proof.
  intros Hy Hk. unfold lz in Hk. destruct (N.eq_dec y 0) as [->|Hn]; [apply N.bits_0|].
  rewrite N.size_log2 in Hk by done. apply N.bits_above_log2. lia.
Qed.

Lemma lz_at w y : y < 2 ^ w -> lz w y < w -> N.testbit y (w - 1 - lz w y) = true.
Proof.
  intros Hy Hk. pose proof (size_le w y Hy) as Hs. unfold lz in *.
  assert (Hn : y <> 0). { intros ->. cbn in Hk. lia. }
  rewrite N.size_log2 in * by done.
  replace (w - 1 - (w - N.succ (N.log2 y))) with (N.log2 y) by lia. by apply N.bit_log2.
Qed.

(** The longest common prefix. *)
Fixpoint lcp (p q : list bool) : nat :=
  match p, q with
  | a :: p', b :: q' => if Bool.eqb a b then S (lcp p' q') else O
  | _, _ => O
  end.

Lemma lcp_split p q : exists r p' q', p = r ++ p' /\ q = r ++ q' /\ length r = lcp p q /\
  match p', q' with a :: _, b :: _ => a <> b | _, _ => True end.
Proof.
  revert q. induction p as [|a p IH]; intros [|b q]; cbn [lcp].
  - by exists [], [], [].
  - by exists [], [], (b :: q).
  - by exists [], (a :: p), [].
  - destruct (Bool.eqb_spec a b) as [->|Hab].
    + destruct (IH q) as (r & p' & q' & -> & -> & Hl & Hd).
      exists (b :: r), p', q'. cbn [app length]. by rewrite Hl.
    + by exists [], (a :: p), (b :: q).
Qed.

Lemma lcp_unique p q n : (n <= length p)%nat -> (n <= length q)%nat -> take n p = take n q ->
  n = length p \/ n = length q \/ p !! n <> q !! n -> n = lcp p q.
Proof.
  revert q n. induction p as [|a p IH]; intros q n Hp Hq Ht Hd; cbn [length] in *.
  - destruct n; [|lia]. destruct q; done.
  - destruct q as [|b q]; cbn [length] in *; [destruct n; [done|lia]|].
    cbn [lcp]. destruct n as [|n].
    + destruct Hd as [Hd|[Hd|Hd]]; [done|done|]. cbn in Hd. destruct (Bool.eqb_spec a b) as [->|]; done.
    + cbn [take] in Ht. injection Ht as -> Ht.
      destruct (Bool.eqb_spec b b) as [_|]; [|done]. f_equal. apply IH; [lia|lia|done|].
      destruct Hd as [Hd|[Hd|Hd]]; [lia|lia|by right; right].
Qed.

Lemma match_count_lcp c n x :
  n_len n <= id_w c -> i_len x <= id_w c -> i_id x < 2 ^ id_w c ->
  N.to_nat (match_count c n x) =
  lcp (bits (id_w c) (n_id n) (N.to_nat (n_len n))) (bits (id_w c) (i_id x) (N.to_nat (i_len x))).
Proof.
  intros Hn Hl Hx. set (w := id_w c) in *. unfold match_count, matches. fold w.
  set (y := N.lxor (uwrap w (n_id n)) (i_id x)).
  assert (Hy : y < 2 ^ w).
  { unfold y. assert (Hz : (N.lxor (uwrap w (n_id n)) (i_id x)) mod 2 ^ w = N.lxor (uwrap w (n_id n)) (i_id x)).
    { apply N.bits_inj. intros k. destruct (N.lt_ge_cases k w) as [Hk|Hk].
      - by rewrite N.mod_pow2_bits_low.
      - rewrite N.mod_pow2_bits_high by done. rewrite N.lxor_spec. unfold uwrap.
        rewrite N.mod_pow2_bits_high by done.
        rewrite <- (N.mod_small _ _ Hx), N.mod_pow2_bits_high by done. done. }
    rewrite <- Hz. apply N.mod_lt. by apply N.pow_nonzero. }
  assert (Hbit : forall k, k < w -> N.testbit y (w - 1 - k) =
     xorb (N.testbit (n_id n) (w - 1 - k)) (N.testbit (i_id x) (w - 1 - k))).
  { intros k Hk. unfold y, uwrap. rewrite N.lxor_spec, N.mod_pow2_bits_low; [done|lia]. }
  pose proof (lz_le w y) as Hlz. pose proof (lz_below w y) as Hbelow. pose proof (lz_at w y Hy) as Hat.
  set (z := lz w y) in *. clearbody z y.
  assert (Hmin : (if n_len n <? i_len x then n_len n else i_len x) = N.min (n_len n) (i_len x)).
  { destruct (N.ltb_spec (n_len n) (i_len x)); lia. }
  rewrite Hmin.
  assert (Hm : (if N.min (n_len n) (i_len x) <? z then N.min (n_len n) (i_len x) else z) =
     N.min (N.min (n_len n) (i_len x)) z).
  { destruct (N.ltb_spec (N.min (n_len n) (i_len x)) z); lia. }
  rewrite Hm. apply lcp_unique.
  - rewrite bits_length. lia.
  - rewrite bits_length. lia.
  - rewrite !bits_take.
    rewrite !Nat.min_l by lia. apply bits_eq. intros k Hk.
    specialize (Hbelow (N.of_nat k) Hy ltac:(lia)). rewrite Hbit in Hbelow by lia.
    by destruct (N.testbit (n_id n) _), (N.testbit (i_id x) _).
  - rewrite !bits_length.
    destruct (decide (N.to_nat (N.min (N.min (n_len n) (i_len x)) z) = N.to_nat (n_len n))) as [|H1]; [by left|].
    destruct (decide (N.to_nat (N.min (N.min (n_len n) (i_len x)) z) = N.to_nat (i_len x))) as [|H2]; [by right; left|].
    right. right. assert (Hz : N.min (N.min (n_len n) (i_len x)) z = z) by lia. rewrite Hz in *.
    rewrite !bits_lookup by lia. rewrite N2Nat.id. specialize (Hat ltac:(lia)). rewrite Hbit in Hat by lia.
    destruct (N.testbit (n_id n) _), (N.testbit (i_id x) _); done.
Qed.

(** MergeID: concatenation. *)
Lemma left_mask_bit w l j : N.of_nat l <= w ->
  N.testbit (left_mask w l) j = (w - N.of_nat l <=? j) && (j <? w).
Proof.
  induction l as [|l IH]; intros Hl; cbn [left_mask].
  - rewrite N.bits_0. lia.
  - rewrite N.lor_spec, IH by lia.
    assert (H1 : N.testbit (N.shiftl 1 (w - N.of_nat (S l))) j = (j =? w - N.of_nat (S l))).
    { rewrite N.shiftl_1_l. rewrite N.pow2_bits_eqb. apply N.eqb_sym. }
    rewrite H1. lia.
Qed.

Lemma bits_merge w l r a b : N.of_nat a + N.of_nat b <= w ->
  bits w (N.lor (N.land l (left_mask w a)) (N.shiftr (N.land r (left_mask w b)) (N.of_nat a))) (a + b) =
  bits w l a ++ bits w r b.
Proof.
  intros Hab. apply list_eq_same_length with (n := (a + b)%nat).
  1,2: by rewrite ?drop_length, ?take_length, ?app_length, ?bits_length.
  intros k x y Hk Hx Hy. apply bits_lookup_inv in Hx as [_ ->].
  rewrite N.lor_spec, N.land_spec, N.shiftr_spec', N.land_spec, !left_mask_bit by lia.
  destruct (decide (k < a)%nat) as [Hka|Hka].
  - rewrite lookup_app_l in Hy by (by rewrite bits_length). apply bits_lookup_inv in Hy as [_ ->].
    assert (H1 : (w - N.of_nat a <=? w - 1 - N.of_nat k) && (w - 1 - N.of_nat k <? w) = true) by lia.
    assert (H2 : (w - 1 - N.of_nat k + N.of_nat a <? w) = false) by lia.
    rewrite H1, H2, andb_true_r, !andb_false_r, orb_false_r. done.
  - rewrite lookup_app_r in Hy by (rewrite bits_length; lia). rewrite bits_length in Hy.
    apply bits_lookup_inv in Hy as [_ ->].
    assert (H1 : (w - N.of_nat a <=? w - 1 - N.of_nat k) = false) by lia.
    assert (H2 : (w - N.of_nat b <=? w - 1 - N.of_nat k + N.of_nat a) && (w - 1 - N.of_nat k + N.of_nat a <? w) = true) by lia.
    rewrite H1, H2, andb_false_l, andb_false_r, orb_false_l, andb_true_r. f_equal. lia.
Qed.

Lemma merge_nodes_bits w a b la lb : w ∈ [16; 32; 64] ->
  n_len a = N.of_nat la -> n_len b = N.of_nat lb -> N.of_nat la + N.of_nat lb <= w ->
  exists i, merge_from_nodes w a b = Ok (i, N.of_nat (la + lb)) /\
    bits w i (la + lb) = bits w (n_id a) la ++ bits w (n_id b) lb.
Proof.
  intros Hw Ha Hb Hl.
  assert (Hw64 : w <= 64).
  { apply elem_of_cons in Hw as [->|Hw]; [lia|]. apply elem_of_cons in Hw as [->|Hw]; [lia|].
    apply elem_of_cons in Hw as [->|Hw]; [lia|]. by apply elem_of_nil in Hw. }
  unfold merge_from_nodes.
  assert ((w =? 16) || (w =? 32) || (w =? 64) = true) as ->.
  { apply elem_of_cons in Hw as [->|Hw]; [done|]. apply elem_of_cons in Hw as [->|Hw]; [done|].
    apply elem_of_cons in Hw as [->|Hw]; [done|]. by apply elem_of_nil in Hw. }
  unfold merge_id. assert ((w <? n_len a) || (w <? n_len b) = false) as -> by lia.
  eexists. split.
  - f_equal. f_equal. rewrite Ha, Hb. unfold uadd. rewrite Nat2N.inj_add. apply N.mod_small.
    change (2 ^ 8) with 256. lia.
  - rewrite Ha, Hb, !Nat2N.id. rewrite bits_merge by done. by rewrite !bits_wrap by lia.
Qed.

Lemma prefix_length w x : length (prefix w x) = N.to_nat (i_len x).
Proof. apply bits_length. Qed.

(** ids of the package, and the operations on them. *)
Definition idok (c : idcfg) (x : id) : Prop := i_id x < 2 ^ id_w c /\ i_len x <= id_w c.

Lemma shift_left_prefix c x s : idok c x -> id_w c <= 64 -> N.of_nat s <= i_len x ->
  idok c (shift_left c x (N.of_nat s)) /\
  prefix (id_w c) (shift_left c x (N.of_nat s)) = drop s (prefix (id_w c) x) /\
  i_len (shift_left c x (N.of_nat s)) = i_len x - N.of_nat s.
Proof.
  intros [Hx Hl] Hw Hs.
  assert (Hlen : usub 8 (i_len x) (N.of_nat s) = i_len x - N.of_nat s).
  { unfold usub. change (2 ^ 8) with 256. rewrite (N.mod_small (N.of_nat s)) by lia.
    replace (i_len x + 256 - N.of_nat s) with (i_len x - N.of_nat s + 1 * 256) by lia.
    rewrite N.mod_add by done. apply N.mod_small. lia. }
  unfold shift_left, prefix, idok. cbn [i_id i_len]. rewrite Hlen. split; [split|split].
  - unfold ushl. apply N.mod_lt. by apply N.pow_nonzero.
  - lia.
  - replace (N.to_nat (i_len x - N.of_nat s)) with (N.to_nat (i_len x) - s)%nat by lia.
    apply bits_shift; lia.
  - done.
Qed.

Lemma is_left_prefix c x : idok c x -> 0 < i_len x -> 
  head (prefix (id_w c) x) = Some (is_left_bit_set c x).
Proof.
  intros [Hx Hl] H0. unfold prefix. destruct (N.to_nat (i_len x)) as [|n] eqn:Hn; [lia|].
  rewrite bits_S. cbn [head]. unfold is_left_bit_set. rewrite left_bit_testbit by lia. done.
Qed.

Lemma is_left_fn_bits c v n : 0 < id_w c ->
  head (bits (id_w c) v (S n)) = Some (is_left_bit_set_fn c v).
Proof.
  intros Hw. rewrite bits_S. cbn [head]. unfold is_left_bit_set_fn.
  assert (Hlt : uwrap (id_w c) v < 2 ^ id_w c) by (unfold uwrap; apply N.mod_lt; by apply N.pow_nonzero).
  rewrite left_bit_testbit by done. unfold uwrap. rewrite N.mod_pow2_bits_low by lia. done.
Qed.

Lemma shift_length_fields s n : N.of_nat s <= n_len n -> n_len n <= 64 ->
  shift_length (N.of_nat s) n = Node (n_left n) (n_right n) (ushl 64 (n_id n) (N.of_nat s)) (n_len n - N.of_nat s) (n_cnt n).
Proof.
  intros Hs Hl. unfold shift_length, set_id. f_equal. unfold usub. change (2 ^ 8) with 256.
  rewrite (N.mod_small (N.of_nat s)) by lia.
  replace (n_len n + 256 - N.of_nat s) with (n_len n - N.of_nat s + 1 * 256) by lia.
  rewrite N.mod_add by done. apply N.mod_small. lia.
Qed.
