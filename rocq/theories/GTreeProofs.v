(** The calls of tree16 and tree32 against the record of the calls. *)
From Verif Require Export GTreeLoop.
From Verif Require Import IdProofs IdFinal IdSetSpec IdSetProofs IdSetFinal TreeFinal.
From Verif Require Import TreeSpec GTreeSpec GTreeLoop.
From Coq Require Import Lia ZifyBool ZifyNat ZifyN.
Ltac Zify.zify_post_hook ::= idtac.
Local Open Scope N_scope.

(* ------------------------------------------------------- prefixes and blocks *)
Lemma testbit_above w v j : v < 2 ^ w -> w <= j -> N.testbit v j = false.
Proof.
  intros Hv Hj. destruct (N.eq_dec v 0) as [->|Hz]; [apply N.bits_0|]. apply N.bits_above_log2.
  apply N.log2_lt_pow2 in Hv; lia.
Qed.

Lemma bits_div w u v k : N.of_nat k <= w -> u < 2 ^ w -> v < 2 ^ w ->
  (bits w u k = bits w v k <-> u / 2 ^ (w - N.of_nat k) = v / 2 ^ (w - N.of_nat k)).
Proof.
  intros Hk Hu Hv. split.
  - intros H. apply N.bits_inj. intros j. rewrite !N.div_pow2_bits.
    destruct (N.ltb_spec (j + (w - N.of_nat k)) w) as [Hj|Hj].
    + set (i := N.to_nat (w - 1 - (j + (w - N.of_nat k)))).
      pose proof (bits_eq_inv w u v k i H) as Hi.
      replace (w - 1 - N.of_nat i) with (j + (w - N.of_nat k)) in Hi by (unfold i; clear -Hj Hk; lia). apply Hi. unfold i. clear -Hj Hk. lia.
    + by rewrite !(testbit_above w).
  - intros H. apply bits_eq. intros i Hi.
    replace (w - 1 - N.of_nat i) with ((N.of_nat k - 1 - N.of_nat i) + (w - N.of_nat k)) by (clear -Hi Hk; lia).
    rewrite <- !N.div_pow2_bits. by rewrite H.
Qed.

Lemma covers_bits w x v : i_len x <= w -> i_id x < 2 ^ w -> v < 2 ^ w ->
  (covers w x v <-> bits w v (N.to_nat (i_len x)) = prefix w x).
Proof.
  intros Hl Hx Hv. unfold prefix. rewrite bits_div by (done || lia). by rewrite N2Nat.id.
Qed.

Lemma prefix_of_covers w x y : i_len x <= w -> i_len y <= w -> i_id x < 2 ^ w -> i_id y < 2 ^ w ->
  (prefix w x `prefix_of` prefix w y <-> i_len x <= i_len y /\ covers w x (i_id y)).
Proof.
  intros Hlx Hly Hx Hy. rewrite covers_bits by done. split.
  - intros [r Hr]. assert (Hlen : i_len x <= i_len y).
    { apply (f_equal length) in Hr. rewrite app_length, !prefix_length in Hr. lia. }
    split; [done|]. apply (f_equal (take (N.to_nat (i_len x)))) in Hr.
    rewrite take_app_alt in Hr by (by rewrite prefix_length). rewrite <- Hr.
    unfold prefix. rewrite bits_take. f_equal. lia.
  - intros [Hlen H]. rewrite <- H. exists (drop (N.to_nat (i_len x)) (prefix w y)).
    rewrite <- (take_drop (N.to_nat (i_len x)) (prefix w y)) at 1. f_equal. unfold prefix. rewrite bits_take.
    f_equal. lia.
Qed.


Lemma gpack_all c : c ∈ g_packages_16_32 -> gc_id c ∈ id_packages.
Proof. intros Hc. apply gpack in Hc. unfold id_packages, id_packages_16_32 in *. set_solver. Qed.

Section Calls.
Context {L : Type} (lstr : L -> string) (c : gcfg) (Hc : c ∈ g_packages_16_32).
Notation w := (gw c).
Notation zero := (@None (tentry L)).
Let Hcc := gpack c Hc.
Let Hwide : wide (option (tentry L)) (gc_id c) := proj1 (wide_16_32 _ _ Hcc).
Let Hw : w ∈ [16; 32; 64] := proj2 (wide_16_32 (option (tentry L)) _ Hcc).
Local Existing Instance Hwide.
Let Hall : gc_id c ∈ id_packages := gpack_all c Hc.
Let Hfull : cfg_full (gc_id c) := packages_full _ Hcc.

Lemma gid_id_ok x : gid_ok c x -> id_ok (gc_id c) x.
Proof. intros [H1 H2]. split; [done|]. destruct (gw_cases c Hc) as [E|E]; rewrite E in H2; lia. Qed.

(** Overlap of two prefixes of the width. *)
Lemma overlaps_spec x y : gid_ok c x -> gid_ok c y ->
  exists o, overlaps (gc_id c) x y = Ok o /\
    (o = true <-> prefix w x `prefix_of` prefix w y \/ prefix w y `prefix_of` prefix w x).
Proof.
  intros Hx Hy. destruct (C23_overlaps_decides_intersection_pf (gc_id c) x y Hall (gid_id_ok x Hx) (gid_id_ok y Hy))
    as (o & Ho & H1 & _); [apply Hx|apply Hy|].
  exists o. split; [done|]. rewrite H1. destruct Hx as [Hx Hlx], Hy as [Hy Hly].
  rewrite !prefix_of_covers by done. split.
  - intros (v & Hv1 & Hv2). destruct (N.le_ge_cases (i_len x) (i_len y)) as [Hl|Hl]; [left|right].
    + split; [done|]. by apply (covers_finer w x y v (i_id y)).
    + split; [done|]. by apply (covers_finer w y x v (i_id x)).
  - intros [[Hl H]|[Hl H]]; [exists (i_id y)|exists (i_id x)]; done.
Qed.

(** Two entries or ids at one prefix cover the same values. *)
Lemma covers_prefix x y v : gid_ok c x -> gid_ok c y -> prefix w x = prefix w y -> (covers w x v <-> covers w y v).
Proof.
  intros [Hx Hlx] [Hy Hly] H.
  assert (Hl : i_len x = i_len y) by (apply (f_equal length) in H; rewrite !prefix_length in H; lia).
  assert (Hxy : covers w x (i_id y)) by (by apply prefix_of_covers; [..|rewrite H]).
  unfold covers in *. rewrite <- Hl. by rewrite Hxy.
Qed.

(* ------------------------------------------------------------- set and del *)
Lemma room_vmap (m : record L) : (forall q e, m !! q = Some e -> q = prefix w (eid e) /\ gid_ok c (eid e)) ->
  w = 16 \/ N.of_nat (size m) + 2 <= 2 ^ 31 -> room w (vmap m).
Proof.
  intros Hok Hr. split.
  - destruct (gw_cases c Hc) as [E|E].
    + pose proof (keys_size 16 (vmap m)) as H. rewrite E. change (2 ^ (kbits 16 - 1)) with 140737488355328.
      change (2 ^ N.of_nat 17) with 131072 in H.
      assert (forall q l, vmap m !! q = Some l -> (length q <= 16)%nat) as H'; [|specialize (H H'); lia].
      intros q l Hl. rewrite vmap_lookup in Hl. destruct (m !! q) as [e|] eqn:He; [|done].
      destruct (Hok q e He) as [-> [_ Hlen]]. rewrite prefix_length. lia.
    + rewrite vmap_size, E. destruct Hr as [Hr|Hr]; [rewrite E in Hr; done|]. exact Hr.
  - intros q l Hl. rewrite vmap_lookup in Hl. destruct (m !! q); [|done]. injection Hl as <-. cbn [length].
    destruct (gw_cases c Hc) as [E|E]; rewrite E; [change (2 ^ 16) with 65536|change (2 ^ 32) with 4294967296]; lia.
Qed.

Definition fits (m : record L) (k : nat) : Prop := w = 16 \/ N.of_nat (size m + k) + 2 <= 2 ^ 31.

Lemma size_insert (m : record L) q e : (size (<[q := e]> m) <= S (size m))%nat.
Proof.
  destruct (m !! q) as [e'|] eqn:H.
  - rewrite map_size_insert_Some by eauto. lia.
  - by rewrite map_size_insert_None.
Qed.
Lemma size_delete (m : record L) q : (size (delete q m) <= size m)%nat.
Proof.
  destruct (m !! q) as [e'|] eqn:H.
  - rewrite (map_size_delete_Some q m) by eauto. lia.
  - by rewrite delete_notin.
Qed.

Lemma set_spec n m g x l : GInv c n m g -> gid_ok c x -> fits m 1 ->
  exists g', g_set c g x (new_entry x l) = Ok g' /\ GInv c n (<[prefix w x := new_entry x l]> m) g'.
Proof.
  intros [H1 H2 H3 [t Ht] Hok] Hx Hf.
  assert (Hok' : forall q e, <[prefix w x := new_entry x l]> m !! q = Some e -> q = prefix w (eid e) /\ gid_ok c (eid e)).
  { intros q e He. apply lookup_insert_Some in He as [[<- <-]|[_ He]]; [|by apply Hok].
    replace (eid (new_entry x l)) with x by (by destruct x). done. }
  assert (Hput : put (vmap m) (prefix w x) (set_list (Some (new_entry x l)) (held (vmap m) (prefix w x))) =
                 vmap (<[prefix w x := new_entry x l]> m)).
  { rewrite vmap_insert, held_vmap. by destruct (m !! _). }
  destruct (step_spec zero (gc_id c) Hw (g_tree g) (vmap m) t (TSet x (Some (new_entry x l))) Ht)
    as (s' & t' & He & Ht' & _).
  - apply room_vmap; [done|]. destruct Hf as [Hf|Hf]; [by left|right]. lia.
  - cbn [spec_step fst]. rewrite Hput. apply room_vmap; [done|]. destruct Hf as [Hf|Hf]; [by left|right].
    pose proof (size_insert m (prefix w x) (new_entry x l)). lia.
  - done.
  - cbn [spec_step fst snd t_step] in He, Ht'. rewrite Hput in Ht'. unfold g_set.
    destruct (tree_Set zero (gc_id c) (g_tree g) x (Some (new_entry x l))) as [[s1 r1]| |]; cbn [rbind fst snd] in *;
      [|done..].
    injection He as -> _. eexists. split; [done|]. constructor; cbn [with_tree g_size g_length g_tree]; eauto.
Qed.

Lemma match_entry_refl (e : tentry L) : match_entry lstr (Some e) (Some e) = true.
Proof.
  cbn. unfold entry_equal. rewrite !N.eqb_refl, String.eqb_refl. done.
Qed.

Lemma del_spec n m g e : GInv c n m g -> m !! prefix w (eid e) = Some e -> fits m 0 ->
  exists g', g_del lstr c g (eid e) (Some e) = Ok g' /\ GInv c n (delete (prefix w (eid e)) m) g'.
Proof.
  intros [H1 H2 H3 [t Ht] Hok] Hx Hf. destruct (Hok _ _ Hx) as [_ Hx'].
  assert (Hok' : forall q e', delete (prefix w (eid e)) m !! q = Some e' -> q = prefix w (eid e') /\ gid_ok c (eid e')).
  { intros q e' He. apply lookup_delete_Some in He as [_ He]. by apply Hok. }
  assert (Hput : put (vmap m) (prefix w (eid e)) (delete_list (match_entry lstr) (Some e) (held (vmap m) (prefix w (eid e)))) =
                 vmap (delete (prefix w (eid e)) m)).
  { rewrite vmap_delete, held_vmap, Hx. unfold delete_list. cbn [List.filter]. by rewrite match_entry_refl. }
  destruct (step_spec zero (gc_id c) Hw (g_tree g) (vmap m) t (TDelete (eid e) (match_entry lstr) (Some e)) Ht)
    as (s' & t' & He & Ht' & _).
  - apply room_vmap; [done|]. destruct Hf as [Hf|Hf]; [by left|right]. lia.
  - cbn [spec_step fst]. rewrite Hput. apply room_vmap; [done|]. destruct Hf as [Hf|Hf]; [by left|right].
    pose proof (size_delete m (prefix w (eid e))). lia.
  - done.
  - cbn [spec_step fst snd t_step] in He, Ht'. rewrite Hput in Ht'. unfold g_del.
    destruct (tree_Delete zero (gc_id c) (g_tree g) (eid e) (match_entry lstr) (Some e)) as [[s1 r1]| |];
      cbn [rbind fst snd] in *; [|done..].
    injection He as -> _. eexists. split; [done|]. constructor; cbn [with_tree g_size g_length g_tree]; eauto.
Qed.

Lemma set_all_spec n l ids : forall m g, GInv c n m g -> Forall (gid_ok c) ids -> fits m (length ids) ->
  exists g', set_all c g ids l = Ok g' /\ GInv c n (claim_all c m ids l) g'.
Proof.
  induction ids as [|x ids IH]; intros m g HG Hids Hf; cbn [set_all claim_all fold_left].
  - by exists g.
  - apply Forall_cons in Hids as [Hx Hids]. cbn [length] in Hf.
    destruct (set_spec n m g x l HG Hx) as (g1 & -> & HG1).
    { destruct Hf as [Hf|Hf]; [by left|right; lia]. }
    cbn [rbind]. apply (IH _ g1 HG1 Hids). destruct Hf as [Hf|Hf]; [by left|right].
    pose proof (size_insert m (prefix w x) (new_entry x l)). lia.
Qed.

Lemma del_all_spec n ds : forall m g, GInv c n m g -> NoDup ((fun e => prefix w (eid e)) <$> ds) ->
  (forall e, e ∈ ds -> m !! prefix w (eid e) = Some e) -> fits m 0 ->
  exists g', del_all lstr c g (Some <$> ds) = Ok g' /\
    GInv c n (filter (fun qe => qe.1 ∉ ((fun e => prefix w (eid e)) <$> ds)) m) g'.
Proof.
  induction ds as [|e ds IH]; intros m g HG Hnd Hin Hf; cbn [fmap list_fmap del_all].
  - exists g. split; [done|]. rewrite map_filter_id; [done|]. intros q e _. cbn. apply not_elem_of_nil.
  - cbn [fmap list_fmap] in Hnd. apply NoDup_cons in Hnd as [Hnin Hnd]. cbn [non_nil rbind].
    destruct (del_spec n m g e HG) as (g1 & -> & HG1); [apply Hin; left|done|]. cbn [rbind].
    destruct (IH _ g1 HG1 Hnd) as (g' & Hg' & HG').
    + intros e' He'. rewrite lookup_delete_ne; [apply Hin; by right|]. intros Heq. apply Hnin. rewrite Heq.
      apply elem_of_list_fmap. by exists e'.
    + destruct Hf as [Hf|Hf]; [by left|right]. pose proof (size_delete m (prefix w (eid e))). lia.
    + exists g'. split; [done|].
      enough (filter (fun qe : list bool * tentry L => qe.1 ∉ prefix w (eid e) :: ((fun e => prefix w (eid e)) <$> ds)) m =
              filter (fun qe : list bool * tentry L => qe.1 ∉ ((fun e => prefix w (eid e)) <$> ds)) (delete (prefix w (eid e)) m)) as ->; [done|].
      apply map_eq. intros q. apply option_eq. intros e'. rewrite !map_filter_lookup_Some, lookup_delete_Some.
      cbn. rewrite not_elem_of_cons. naive_solver.
Qed.
(* ------------------------------------------------------------------ findFree *)
Lemma root_le n : n <= w -> gc_root c n <= w.
Proof.
  intros Hn. unfold g_packages_16_32 in Hc. clear -Hn Hc.
  apply elem_of_cons in Hc as [->|H].
  - change (gw cfg_tree16) with 16 in *. cbn [cfg_tree16 gc_root]. unfold usub, uwrap.
    change (2 ^ 8) with 256. rewrite (N.mod_small n) by lia.
    replace (16 + 256 - n) with ((16 - n) + 1 * 256) by lia. rewrite N.mod_add by done. rewrite N.mod_small; lia.
  - apply elem_of_cons in H as [->|H]; [done|by apply elem_of_nil in H].
Qed.

Lemma gid_idg x : gid_ok c x -> idg (gc_id c) (2 ^ w) x.
Proof.
  intros [H1 H2]. apply idg_of_mask; [done|done|by apply id_mask_full|]. auto.
Qed.

Lemma covers_lt x v : gid_ok c x -> covers w x v -> v < 2 ^ w.
Proof.
  intros Hx Hv. destruct (gid_idg x Hx) as (r & _ & (_ & _ & _ & Ht) & Hr). apply Hr in Hv. unfold in_range in Hv.
  lia.
Qed.

Lemma remove_all_spec (es : list (tentry L)) : Forall (fun e => gid_ok c (eid e)) es -> forall b,
  exists rs, remove_all c b (Some <$> es) = Ok (Builder (b_in b) (b_out b ++ rs) (b_errs b)) /\
    Forall2 (fun e r => vr (gc_id c) (2 ^ w) r /\ forall v, in_range r v <-> covers w (eid e) v) es rs.
Proof.
  induction 1 as [|e es He Hes IH]; intros b; cbn [fmap list_fmap remove_all].
  - exists []. rewrite app_nil_r. destruct b. by split.
  - cbn [non_nil rbind]. destruct (gid_idg _ He) as (r & Hr & Hv & Hcov). unfold remove_id. rewrite Hr. cbn [rbind].
    rewrite (vr_valid (gc_id c) (2 ^ w)) by done. cbn [rbind]. unfold remove_range.
    rewrite (vr_valid (gc_id c) (2 ^ w)) by done.
    destruct (IH (Builder (b_in b) (b_out b ++ [r]) (b_errs b))) as (rs & -> & Hrs). cbn [b_in b_out b_errs].
    exists (r :: rs). split; [by rewrite <- app_assoc|]. by constructor.
Qed.

Lemma Forall2_members (es : list (tentry L)) rs v :
  Forall2 (fun e r => vr (gc_id c) (2 ^ w) r /\ forall v, in_range r v <-> covers w (eid e) v) es rs ->
  (members rs v <-> exists e, e ∈ es /\ covers w (eid e) v).
Proof.
  induction 1 as [|e r es rs [_ H] _ IH].
  - rewrite members_nil. split; [done|]. intros (e & He & _). by apply elem_of_nil in He.
  - rewrite members_cons, H, IH. split.
    + intros [Hv|(e' & He' & Hv)]; [exists e; split; [left|done]|exists e'; split; [by right|done]].
    + intros (e' & He' & Hv). apply elem_of_cons in He' as [->|He']; [by left|right; by exists e'].
Qed.

(** A block of a prefix of at least one bit does not both contain the largest
    value and start at 0 or 1. *)
Lemma block_safe x : gid_ok c x -> 0 < i_len x -> ~ (covers w x 1 /\ covers w x (2 ^ w - 1)).
Proof.
  intros Hx Hl [H1 H2]. unfold covers in *. rewrite <- H1 in H2. clear H1. destruct Hx as [_ Hlen].
  assert (E : w - i_len x <= w - 1) by lia.
  assert (Hw1 : 2 <= w) by (destruct (gw_cases c Hc) as [->| ->]; lia).
  assert (Hd : forall k, k <= w - 1 -> (2 ^ w - 1) / 2 ^ k = 1 / 2 ^ k -> False); [|by apply (Hd _ E)].
  clear -Hw1. intros k Hk H.
  assert (H' : (2 ^ w - 1) / 2 ^ (w - 1) = 1 / 2 ^ (w - 1)).
  { replace (w - 1) with (k + (w - 1 - k)) by lia. rewrite N.pow_add_r.
    rewrite <- !N.div_div by (apply N.pow_nonzero; lia). by rewrite H. }
  clear -Hw1 H'. assert (Hp : 2 ^ w = 2 * 2 ^ (w - 1)) by (rewrite <- N.pow_succ_r'; f_equal; lia).
  assert (Hq : 2 <= 2 ^ (w - 1)).
  { change 2 with (2 ^ 1) at 1. clear -Hw1. apply N.pow_le_mono_r; lia. }
  rewrite (N.div_small 1) in H' by lia. rewrite Hp in H'.
  set (p := 2 ^ (w - 1)) in *. clearbody p.
  assert (1 <= (2 * p - 1) / p) by (apply N.div_le_lower_bound; lia). lia.
Qed.

Lemma maximal_in_ext W P Q x : (forall v, P v <-> Q v) -> maximal_in W P x -> maximal_in W Q x.
Proof. intros H Hm y Hy Hc1 Hc2. apply Hm; [done|done|]. intros v Hv. by apply H, Hc2. Qed.

Definition child_of (x : id) (e : tentry L) : bool :=
  bool_decide (prefix w x `prefix_of` prefix w (eid e)) && (i_len x <? te_len e).
Definition near_of (x : id) (e : tentry L) : bool :=
  bool_decide (prefix w x `prefix_of` prefix w (eid e) \/ prefix w (eid e) `prefix_of` prefix w x) &&
  (te_len e <? w).

Lemma children_spec n m g x : GInv c n m g -> gid_ok c x ->
  exists es, entries c m es /\ g_children c g x = Ok (Some <$> List.filter (child_of x) es).
Proof.
  intros HG Hx. unfold g_children. apply (related_spec c n m g HG x (child_of x) (fun e => i_len x <? te_len e)).
  intros e He. destruct (overlaps_spec (eid e) x He Hx) as (o & Ho & Hov). exists o. split; [done|].
  unfold child_of. destruct (N.ltb_spec (i_len x) (te_len e)) as [Hl|Hl]; [|by rewrite !andb_false_r].
  rewrite !andb_true_r. apply eq_bool_prop_intro. rewrite bool_decide_spec.
  rewrite Is_true_true, Hov. split; [|by right]. intros [[r Hr]|H]; [|done].
  exfalso. apply (f_equal length) in Hr. rewrite app_length, !prefix_length in Hr. cbn in Hr. lia.
Qed.

Lemma parents_spec n m g x : GInv c n m g -> gid_ok c x ->
  exists es, entries c m es /\ g_parents c g x = Ok (Some <$> List.filter (near_of x) es).
Proof.
  intros HG Hx. unfold g_parents. apply (related_spec c n m g HG x (near_of x) (fun e => te_len e <? w)).
  intros e He. destruct (overlaps_spec (eid e) x He Hx) as (o & Ho & Hov). exists o. split; [done|].
  unfold near_of. f_equal. apply eq_bool_prop_intro. rewrite bool_decide_spec.
  rewrite Is_true_true, Hov. tauto.
Qed.

Lemma validate_spec (n : N) (m : record L) (g : gtree L) x : GInv c n m g ->
  g_validate g x = if 2 ^ n <=? i_id x then Err EMaxId else Ok tt.
Proof.
  intros HG. unfold g_validate. rewrite (gi_size _ _ _ _ HG). pose proof (IdProofs.pow_pos n) as Hp.
  destruct (N.ltb_spec (2 ^ n - 1) (i_id x)), (N.leb_spec (2 ^ n) (i_id x)); lia || done.
Qed.

Lemma find_free_spec (n : N) (m : record L) (g : gtree L) : GInv c n m g ->
  (exists v, chosen c n m v /\ g_find_free c g = if 2 ^ n <=? v then Err EMaxId else Ok v) \/
  ((forall v, ~ open_id c n m v) /\ g_find_free c g = Err ENoFreeId).
Proof.
  intros HG. pose proof (gi_n _ _ _ _ HG) as Hn. unfold g_find_free. rewrite (gi_length _ _ _ _ HG).
  fold (root_id c n).
  assert (Hroot : gid_ok c (root_id c n)) by (split; [apply IdProofs.pow_pos|by apply root_le]).
  destruct (gid_idg _ Hroot) as (r & Hr & Hvr & Hcov). unfold add_id. rewrite Hr. cbn [rbind].
  rewrite (vr_valid (gc_id c) (2 ^ w)) by done. unfold add_range. rewrite (vr_valid (gc_id c) (2 ^ w)) by done.
  cbn [negb b_out b_in b_errs builder_zero length Nat.ltb Nat.leb rbind app].
  destruct (children_spec n m g (root_id c n) HG Hroot) as (es & He & ->). cbn [rbind].
  set (ds := List.filter (child_of (root_id c n)) es).
  assert (Hds : forall e, e ∈ ds <-> m !! prefix w (eid e) = Some e /\ child_of (root_id c n) e = true).
  { intros e. unfold ds. rewrite elem_of_list_In, filter_In, <- elem_of_list_In. by rewrite (proj2 He). }
  assert (Hgid : Forall (fun e => gid_ok c (eid e)) ds).
  { apply Forall_forall. intros e Hin. apply Hds in Hin as [Hin _]. by destruct (gi_ok _ _ _ _ HG _ _ Hin). }
  destruct (remove_all_spec ds Hgid (Builder [r] [] [])) as (rs & -> & Hrs).
  cbn [rbind b_in b_out b_errs app].
  destruct (normalize_spec (gc_id c) (2 ^ w) (2 ^ w) (setcfg_full _ Hfull) (Builder [r] rs [])) as (s & Hs & Hsv & Hsep & Hmem).
  { apply binv_full; cbn [b_in b_out]; [by constructor|]. clear -Hrs. induction Hrs as [|e r' ds' rs [H _] _ IH]; by constructor. }
  cbn [b_in b_out b_errs] in *.
  assert (Hopen : forall v, members s v <-> open_id c n m v).
  { intros v. rewrite Hmem.
    - rewrite members_cons, members_nil, Hcov, (Forall2_members ds rs v Hrs). unfold open_id. split.
      + intros [[H1|[]] H2]. split; [by eapply covers_lt|]. split; [done|].
        intros (q & e & Hq & Hlen & Hev). apply H2. exists e. destruct (gi_ok _ _ _ _ HG _ _ Hq) as [-> Hge].
        split; [|done]. apply Hds. split; [done|]. unfold child_of. cbn [root_id i_len].
        rewrite (proj2 (N.ltb_lt _ _) Hlen), andb_true_r. apply bool_decide_eq_true.
        apply prefix_of_covers; [apply Hroot|apply Hge|apply Hroot|apply Hge|]. split; [cbn; lia|].
        apply (covers_finer w (root_id c n) (eid e) v (i_id (eid e))); [cbn; lia|done|done|done].
      + intros (_ & H1 & H2). split; [by left|]. intros (e & He' & Hev). apply H2.
        apply Hds in He' as [Hq Hch]. exists (prefix w (eid e)), e. split; [done|]. split; [|done].
        unfold child_of in Hch. apply andb_true_iff in Hch as [_ Hch]. by apply N.ltb_lt in Hch.
    - intros r1 r2 H1 H2. apply elem_of_list_singleton in H1 as ->, H2 as ->. done.
    - intros r1 r2 H1 H2 Ht Hf _. exfalso.
      assert (Hx : exists e, e ∈ ds /\ forall v, in_range r1 v <-> covers w (eid e) v).
      { clear -Hrs H1. induction Hrs as [|e r' ds' rs [_ Hv] _ IH]; [by apply elem_of_nil in H1|].
        apply elem_of_cons in H1 as [->|H1]; [exists e; split; [left|done]|].
        destruct (IH H1) as (e' & He' & Hv'). exists e'. split; [by right|done]. }
      destruct Hx as (e & Hein & Hev). apply Hds in Hein as [Hq Hch].
      destruct (gi_ok _ _ _ _ HG _ _ Hq) as [_ Hge].
      apply (block_safe (eid e) Hge).
      + unfold child_of in Hch. apply andb_true_iff in Hch as [_ Hch]. apply N.ltb_lt in Hch. cbn. lia.
      + rewrite <- !Hev. unfold in_range. rewrite Ht.
        assert (4 <= 2 ^ w) by (destruct (gw_cases c Hc) as [->| ->]; [change (2 ^ 16) with 65536|change (2 ^ 32) with 4294967296]; lia).
        lia. }
  unfold ip_set. rewrite Hs. cbn [rbind fst snd b_in b_errs].
  pose proof (vr_canonical _ _ Hsv Hsep) as Hcan.
  destruct (C30_remove_free_prefix_partial_pf (gc_id c) s w Hcc Hcan (N.le_refl _)) as (o & Ho & Hspec).
  rewrite Ho. cbn [rbind]. destruct o as [[p s']|].
  - left. exists (i_id p). destruct Hspec as (Hpl & Hpc & _).
    destruct (C58_remove_free_prefix_is_best_fit_partial_pf (gc_id c) s w p s' Hcc Hcan (N.le_refl _) Ho)
      as (b & Hb1 & Hb2 & Hb3 & Hb4 & Hb5 & Hb6).
    split.
    + exists b. split; [done|]. split; [done|]. split; [intros u Hu; by apply Hopen, Hb2|].
      split; [by apply (maximal_in_ext w (members s)); [apply Hopen|]|].
      intros q Hq1 Hq2 Hq3. apply Hb6; [done|intros u Hu; by apply Hopen, Hq2| |apply Hq1].
      apply (maximal_in_ext w (open_id c n m)); [intros v; by rewrite Hopen|done].
    + rewrite (validate_spec n m g p HG). destruct (2 ^ n <=? i_id p); cbn [rbind]; [done|]. f_equal.
      apply N.mod_small, Hpc.
  - right. split; [|done]. intros v Hv. apply Hspec. exists (MyId v w). split; [done|]. split; [apply Hv|].
    intros u Hu. unfold covers in Hu. cbn [i_len i_id] in Hu. rewrite N.sub_diag, !N.div_1_r in Hu. subst u.
    by apply Hopen.
Qed.
(* ---------------------------------------------------------------- the calls *)
Lemma parsed_ids s r : parse_range (gc_id c) s = Ok r ->
  exists ids, range_ids (gc_id c) r = Ok ids /\ Forall (gid_ok c) ids.
Proof.
  intros Hp. apply (C26_parse_range_pf (gc_id c) s r Hall) in Hp as (f & t & _ & _ & _ & _ & _ & Hf & Ht & ->).
  set (a := decimal_value f) in *. set (b := decimal_value t) in *. clearbody a b.
  assert (Hcan : forall l, Forall (canonical w) l -> Forall (gid_ok c) l).
  { intros l Hl. eapply Forall_impl; [done|]. intros x (H1 & H2 & _). done. }
  destruct (N.le_gt_cases a b) as [Hab|Hab].
  - destruct (C24_ids_decomposes_range_partial_pf (gc_id c) a b Hcc Hab Ht) as (l & Hl & H & _). exists l. auto.
  - destruct (reversed_ids_full (gc_id c) a b Hcc Hab Hf) as (l & Hl & H & _). exists l. auto.
Qed.

Lemma same_id_eid (e : tentry L) x : same_id e x = true <-> eid e = x.
Proof.
  unfold same_id, eid. destruct x as [i l]. cbn. rewrite andb_true_iff, !N.eqb_eq. split; [by intros [-> ->]|].
  by intros [= -> ->].
Qed.

Lemma entries_prefix_NoDup (m : record L) es : entries c m es -> NoDup ((fun e => prefix w (eid e)) <$> es).
Proof.
  intros [S _]. induction S as [|e es S IH F]; cbn; [constructor|]. constructor; [|done].
  intros H. apply elem_of_list_fmap in H as (e' & Heq & He'). rewrite Forall_forall in F.
  apply (pbefore_irrefl (prefix w (eid e))). rewrite Heq at 2. by apply F.
Qed.

Lemma step_G n m g o : GInv c n m g -> gop_ok c o -> g_room c m o ->
  exists g' r, g_step lstr c g o = Ok (g', r) /\ returns c n m o r /\ GInv c n (after c m o r) g'.
Proof.
  intros HG Ho Hr. destruct o as [x l|x l|l|s l|x|sel]; cbn [g_step gop_ok returns] in *.
  - unfold g_claim_id. rewrite (validate_spec n m g x HG). destruct (2 ^ n <=? i_id x); cbn [rbind done_or_err].
    + eexists _, _. by split; [|split].
    + destruct (set_spec n m g x l HG Ho Hr) as (g' & -> & HG'). eexists _, _. by split; [|split].
  - unfold g_update. rewrite (validate_spec n m g x HG). destruct (2 ^ n <=? i_id x); cbn [rbind done_or_err].
    + eexists _, _. by split; [|split].
    + destruct (set_spec n m g x l HG Ho Hr) as (g' & -> & HG'). eexists _, _. by split; [|split].
  - unfold g_claim_free. destruct (find_free_spec n m g HG) as [(v & Hv & ->)|[Hno ->]]; cbn [rbind].
    + destruct (2 ^ n <=? v) eqn:Hvn; cbn [rbind].
      * eexists _, _. split; [done|]. split; [|done]. left. exists v. by rewrite Hvn.
      * assert (Hx : gid_ok c (MyId v w)).
        { split; [|done]. destruct Hv as (b & <- & Hb & _). apply Hb. }
        destruct (set_spec n m g (MyId v w) l HG Hx Hr) as (g' & -> & HG'). cbn [rbind].
        eexists _, _. split; [done|]. split; [left; exists v; by rewrite Hvn|done].
    + eexists _, _. split; [done|]. split; [by right|done].
  - unfold g_claim_range. destruct (parse_range (gc_id c) s) as [r|e|] eqn:Hp; cbn [rbind done_or_err].
    + destruct (parsed_ids s r Hp) as (ids & Hids & Hok). rewrite Hids. cbn [rbind].
      assert (Hrp : range_prefixes c s = ids) by (unfold range_prefixes; by rewrite Hp, Hids).
      destruct (set_all_spec n l ids m g HG Hok) as (g' & -> & HG').
      { unfold g_room in Hr. cbn [growth] in Hr. by rewrite Hrp in Hr. }
      eexists _, _. split; [done|]. split; [done|]. cbn [after]. by rewrite Hrp.
    + eexists _, _. by split; [|split].
    + by destruct (C26_parse_range_pf (gc_id c) s (Range (MyId 0 0) (MyId 0 0)) Hall) as [_ H].
  - unfold g_release_id. rewrite (validate_spec n m g x HG). destruct (2 ^ n <=? i_id x); cbn [rbind done_or_err].
    + eexists _, _. by split; [|split].
    + rewrite (get_spec c n m g HG x Ho).
      destruct (lookup_id c m x) as [e|] eqn:Hl; cbn [done_or_err].
      * pose proof Hl as Hl'. unfold lookup_id in Hl'. destruct (m !! prefix w x) as [e'|] eqn:He; [|done].
        destruct (same_id e' x) eqn:Hs; [|done]. injection Hl' as ->. apply same_id_eid in Hs. subst x.
        destruct (del_spec n m g e HG He) as (g' & -> & HG').
        { destruct Hr as [Hr|Hr]; [by left|right]. cbn [growth] in Hr. lia. }
        eexists _, _. split; [done|]. split; [done|]. cbn [after]. by rewrite Hl.
      * eexists _, _. split; [done|]. split; [done|]. cbn [after]. by rewrite Hl.
  - unfold g_release_by_label. destruct (get_by_label_spec c n m g HG sel) as (es & He & ->). cbn [rbind].
    set (ds := List.filter (fun e => sel (te_labels e)) es).
    assert (Hds : forall e, e ∈ ds <-> m !! prefix w (eid e) = Some e /\ sel (te_labels e) = true).
    { intros e. unfold ds. rewrite elem_of_list_In, filter_In, <- elem_of_list_In. by rewrite (proj2 He). }
    destruct (del_all_spec n ds m g HG) as (g' & -> & HG').
    + apply (entries_prefix_NoDup (filter (fun qe : list bool * tentry L => sel (te_labels qe.2) = true) m)).
      by apply (entries_filter c m es (fun e => sel (te_labels e))).
    + intros e Hin. by apply Hds in Hin as [Hin _].
    + destruct Hr as [Hr|Hr]; [by left|right]. cbn [growth] in Hr. lia.
    + eexists _, _. split; [done|]. split; [done|]. cbn [after].
      enough (filter (fun qe : list bool * tentry L => sel (te_labels qe.2) = false) m =
              filter (fun qe : list bool * tentry L => qe.1 ∉ ((fun e => prefix w (eid e)) <$> ds)) m) as ->; [done|].
      apply map_filter_ext. intros q e Hq. cbn. destruct (gi_ok _ _ _ _ HG _ _ Hq) as [-> Hge]. split.
      * intros Hsel Hin. apply elem_of_list_fmap in Hin as (e' & Heq & He'). apply Hds in He' as [Hq' Hs'].
        rewrite <- Heq, Hq in Hq'. injection Hq' as ->. by rewrite Hsel in Hs'.
      * intros Hnin. destruct (sel (te_labels e)) eqn:Hs; [|done]. exfalso. apply Hnin.
        apply elem_of_list_fmap. exists e. split; [done|]. by apply Hds.
Qed.

Lemma new_G n g : g_new c n = Ok g -> GInv (L := L) c n ∅ g.
Proof.
  unfold g_new. destruct (N.ltb_spec w n) as [H|H]; [done|]. intros [= <-]. constructor; cbn [g_size g_length g_tree].
  - done.
  - unfold usub, ushl, uwrap. rewrite N.shiftl_mul_pow2, N.mul_1_l.
    assert (Hw1 : 1 < 2 ^ w) by (destruct (gw_cases c Hc) as [->| ->]; done).
    rewrite (N.mod_small 1) by done. destruct (N.eq_dec n w) as [->|Hne].
    + rewrite N.mod_same by lia. rewrite N.add_0_l. apply N.mod_small. lia.
    + assert (Hlt : 2 ^ n < 2 ^ w) by (apply N.pow_lt_mono_r; lia). pose proof (IdProofs.pow_pos n) as Hp.
      rewrite (N.mod_small (2 ^ n)) by done.
      replace (2 ^ n + 2 ^ w - 1) with ((2 ^ n - 1) + 1 * 2 ^ w) by lia. rewrite N.mod_add by lia.
      apply N.mod_small. lia.
  - done.
  - eexists. unfold vmap, pmap. rewrite (fmap_empty (M := gmap (list bool))). by apply Inv_zero.
  - intros q e He. by rewrite lookup_empty in He.
Qed.

End Calls.

Lemma hist_G {L} (c : gcfg) (Hc : c ∈ g_packages_16_32) (P : gop L -> Prop) (n : N) (m : record L) (g : gtree L) : g_hist P c n m g -> GInv c n m g.
Proof.
  induction 1 as [g Hg|lstr m g o g' r Hh IH HP Ho Hr Hstep]; [by apply new_G|].
  destruct (step_G lstr c Hc n m g o IH Ho Hr) as (g1 & r1 & H1 & _ & H2). rewrite Hstep in H1. by injection H1 as <- <-.
Qed.

