From Verif Require Import TableNSpec IdxTableProofs.
From Coq Require Import Lia ZifyBool ZifyNat ZifyN.
Ltac Zify.zify_post_hook ::= Z.div_mod_to_equations.

Lemma pow16 : 2 ^ 16 = 65536. Proof. reflexivity. Qed.
Lemma pow32 : 2 ^ 32 = 4294967296. Proof. reflexivity. Qed.

Lemma uwrap_small w x : x < 2 ^ w -> uwrap w x = x.
Proof. apply N.mod_small. Qed.
Lemma usub_small w x y : y <= x -> x < 2 ^ w -> usub w x y = x - y.
Proof.
  intros H1 H2. unfold usub. rewrite (N.mod_small y) by lia.
  replace (x + 2 ^ w - y) with (x - y + 1 * 2 ^ w) by lia.
  rewrite N.mod_add by lia. apply N.mod_small. lia.
Qed.
Lemma uadd_small w x y : x + y < 2 ^ w -> uadd w x y = x + y.
Proof. apply N.mod_small. Qed.

Definition tn_good (c : tn_cfg) : Prop :=
  1 < 2 ^ tn_w c /\ 2 ^ tn_w c <= 2 ^ 64 /\ 2 ^ tn_w c <= 2 ^ tn_outw c /\
  (match tn_limit c with Some lim => lim = 2 ^ tn_w c - 1 | None => 2 ^ tn_w c = 2 ^ 64 end).

Lemma tn_packages_good c : c ∈ tn_packages -> tn_good c.
Proof.
  unfold tn_packages, tn_good. intros H.
  repeat (apply elem_of_cons in H as [->|H]; [vm_compute; repeat split; discriminate|]).
  by apply elem_of_nil in H.
Qed.

Section proofs.
Context {L : Type}.
Implicit Types (r : tableN L).

Global Instance add_inj a : Inj (=) (=) (N.add a).
Proof. intros x y H. lia. Qed.

Lemma size_kmap {A} a (m : gmap N A) : size (kmap (N.add a) m : gmap N A) = size m.
Proof.
  induction m as [|k x m Hk IH] using map_ind.
  - by rewrite kmap_empty, !map_size_empty.
  - rewrite kmap_insert by apply _. rewrite !map_size_insert_None; [by rewrite IH|done|].
    rewrite lookup_kmap by apply _. done.
Qed.

(** The size the underlying table gets. *)
Definition tn_sz (c : tn_cfg) (a b : N) : N := uadd (tn_w c) (usub (tn_w c) b a) 1.

Lemma tn_sz_eq c a b :
  tn_good c -> a <= b < 2 ^ tn_w c ->
  tn_sz c a b = if b - a + 1 =? 2 ^ tn_w c then 0 else b - a + 1.
Proof.
  intros (Hg & _) Hab. unfold tn_sz. rewrite usub_small by lia. unfold uadd.
  destruct (N.eqb_spec (b - a + 1) (2 ^ tn_w c)) as [->|Hne].
  - apply N.mod_same. lia.
  - apply N.mod_small. lia.
Qed.

Lemma tn_sz_lt c a b : tn_good c -> tn_sz c a b < 2 ^ 64.
Proof.
  intros (Hg & Hg2 & _). unfold tn_sz, uadd.
  eapply N.lt_le_trans; [apply N.mod_lt; lia|done].
Qed.

Lemma tn_sz_capacity c a b :
  tn_good c -> a <= b < 2 ^ tn_w c -> b - a < capacity (tn_sz c a b).
Proof.
  intros Hg Hab. rewrite tn_sz_eq by done. unfold capacity. destruct Hg as (? & ? & _).
  destruct (N.eqb_spec (b - a + 1) (2 ^ tn_w c)) as [He|Hne].
  - rewrite N.eqb_refl. lia.
  - destruct (N.eqb_spec (b - a + 1) 0); lia.
Qed.

Definition wfN (c : tn_cfg) (a b : N) r : Prop :=
  tn_c r = c /\ tn_start r = a /\ tn_end r = b /\
  wf (tn_sz c a b) (tn_table r) /\
  (forall k e, t_map (tn_table r) !! k = Some e ->
     te_id (e_data e) = k /\ te_len (e_data e) = tn_idlen c /\ k <= b - a /\ a <= b).

Lemma tn_validate_spec c a b r id :
  tn_good c -> a < 2 ^ tn_w c -> b < 2 ^ tn_w c -> wfN c a b r -> id < 2 ^ 64 ->
  tn_validate r id = if (a <=? id) && (id <=? b) then Ok tt else Err EOutsideRange.
Proof.
  intros (Hg1 & Hg2 & Hg3 & Hg4) Ha Hb (Hc & Hs & He & _) Hid. unfold tn_validate.
  rewrite Hc, Hs, He.
  destruct (tn_limit c) as [lim|] eqn:Hl.
  - destruct (N.ltb_spec lim id) as [Hlt|Hge].
    + destruct (N.leb_spec a id), (N.leb_spec id b); cbn [andb]; try done; lia.
    + rewrite uwrap_small by lia.
      destruct (N.ltb_spec id a), (N.ltb_spec b id), (N.leb_spec a id), (N.leb_spec id b);
        cbn [andb]; try done; lia.
  - rewrite uwrap_small by lia.
    destruct (N.ltb_spec id a), (N.ltb_spec b id), (N.leb_spec a id), (N.leb_spec id b);
      cbn [andb]; try done; lia.
Qed.

Lemma tn_index_spec c a b r id :
  a <= id -> id < 2 ^ tn_w c -> wfN c a b r -> tn_index r id = id - a.
Proof.
  intros Ha Hid (Hc & Hs & _). unfold tn_index. rewrite Hc, Hs.
  rewrite uwrap_small, usub_small by lia. done.
Qed.

Lemma tn_from_index_spec c a b r k :
  tn_good c -> wfN c a b r -> a <= b < 2 ^ tn_w c -> k <= b - a -> tn_from_index r k = a + k.
Proof.
  intros (? & _) (Hc & Hs & _) Hb Hk. unfold tn_from_index. rewrite Hc, Hs.
  rewrite uwrap_small, uadd_small by lia. done.
Qed.

Lemma tn_claimed_lookup c a b r id :
  wfN c a b r -> tn_claimed r !! id =
    if a <=? id then te_labels <$> (claimed (tn_table r) !! (id - a)) else None.
Proof.
  intros (_ & <- & _). unfold tn_claimed. destruct (N.leb_spec (tn_start r) id) as [Hle|Hgt].
  - replace id with (tn_start r + (id - tn_start r)) at 1 by lia.
    rewrite lookup_kmap by apply _. by rewrite lookup_fmap.
  - apply lookup_kmap_None; [apply _|]. intros k ->. lia.
Qed.

Lemma tn_claimed_inside c a b r id :
  wfN c a b r -> is_Some (tn_claimed r !! id) -> a <= id <= b.
Proof.
  intros Hwf Hs. rewrite (tn_claimed_lookup c a b) in Hs by done.
  destruct (N.leb_spec a id); [|by destruct Hs].
  apply fmap_is_Some, claimed_Some in Hs as [e He].
  destruct Hwf as (_ & _ & _ & _ & Hk). destruct (Hk _ _ He) as (_ & _ & ? & ?). lia.
Qed.

Lemma wfN_new c a b : wfN c a b (tn_new c a b).
Proof.
  split; [done|]. split; [done|]. split; [done|]. split; [apply wf_new|].
  intros k e. cbn. by rewrite lookup_empty.
Qed.

Lemma wfN_insert c a b r id l :
  tn_good c -> a <= id <= b -> b < 2 ^ tn_w c -> wfN c a b r ->
  wfN c a b (tn_with r (Table (t_size (tn_table r))
     (<[id - a := NewEntry (id - a) (tn_stored r (id - a) l)]> (t_map (tn_table r))))).
Proof.
  intros Hg Hid Hb (Hc & Ha & Hbb & Hw & Hk).
  split; [done|]. split; [done|]. split; [done|]. split.
  - cbn [tn_with tn_table]. apply wf_insert; [done|].
    pose proof (tn_sz_capacity c a b Hg). lia.
  - cbn [tn_with tn_table t_map]. intros k e. destruct (decide (k = id - a)) as [->|Hne].
    + rewrite lookup_insert. intros [= <-]. cbn. rewrite Hc. destruct Hg as (? & _).
      rewrite uwrap_small by lia. split; [done|]. split; [done|]. lia.
    + rewrite lookup_insert_ne by done. apply Hk.
Qed.

Lemma tn_claimed_insert r id a l :
  tn_start r = a -> a <= id ->
  tn_claimed (tn_with r (Table (t_size (tn_table r))
     (<[id - a := NewEntry (id - a) (tn_stored r (id - a) l)]> (t_map (tn_table r))))) =
  <[id := l]> (tn_claimed r).
Proof.
  intros <- Hid. unfold tn_claimed, tn_with. cbn [tn_start tn_table].
  rewrite claimed_insert, fmap_insert, kmap_insert by apply _.
  cbn. f_equal. lia.
Qed.

Lemma wfN_delete c a b r k :
  wfN c a b r -> wfN c a b (tn_with r (Table (t_size (tn_table r)) (delete k (t_map (tn_table r))))).
Proof.
  intros (Hc & Ha & Hbb & Hw & Hk).
  split; [done|]. split; [done|]. split; [done|]. split.
  - cbn [tn_with tn_table]. by apply wf_delete.
  - cbn [tn_with tn_table t_map]. intros j e [_ H]%lookup_delete_Some. by apply Hk.
Qed.

Lemma tn_claimed_delete r id a :
  tn_start r = a -> a <= id ->
  tn_claimed (tn_with r (Table (t_size (tn_table r)) (delete (id - a) (t_map (tn_table r))))) =
  delete id (tn_claimed r).
Proof.
  intros <- Hid. unfold tn_claimed, tn_with. cbn [tn_start tn_table].
  rewrite claimed_delete, fmap_delete, kmap_delete by apply _.
  f_equal. lia.
Qed.

(** Claim in full. *)
Lemma tn_claim_spec c a b r id l :
  tn_good c -> a < 2 ^ tn_w c -> b < 2 ^ tn_w c -> wfN c a b r -> id < 2 ^ 64 ->
  tn_claim r id l =
    if (a <=? id) && (id <=? b) then
      match tn_claimed r !! id with
      | None => (tn_with r (Table (t_size (tn_table r))
          (<[id - a := NewEntry (id - a) (tn_stored r (id - a) l)]> (t_map (tn_table r)))), Ok tt)
      | Some _ => (r, Err EAlreadyClaimed)
      end
    else (r, Err EOutsideRange).
Proof.
  intros Hg Ha Hb Hwf Hid. unfold tn_claim. rewrite (tn_validate_spec c a b) by done.
  destruct (N.leb_spec a id), (N.leb_spec id b); cbn [andb]; try done.
  rewrite (tn_index_spec c a b) by (done || lia).
  rewrite (tn_claimed_lookup c a b) by done.
  destruct (N.leb_spec a id); [|lia].
  unfold is_free_op. rewrite is_free_claimed.
  destruct (claimed (tn_table r) !! (id - a)) eqn:Hcl.
  - rewrite bool_decide_eq_false_2 by done. done.
  - rewrite bool_decide_eq_true_2 by done. cbn [negb fmap option_fmap option_map].
    destruct Hwf as (Hc & Hs & He & Hw & Hk).
    unfold claim. rewrite (add_spec (tn_sz c a b)); [|done|by apply tn_sz_lt].
    rewrite Hcl. pose proof (tn_sz_capacity c a b Hg) as Hcap.
    destruct (N.ltb_spec (id - a) (capacity (tn_sz c a b))); [done|lia].
Qed.

Lemma tn_release_spec c a b r id :
  tn_good c -> a < 2 ^ tn_w c -> b < 2 ^ tn_w c -> wfN c a b r -> id < 2 ^ 64 ->
  tn_release r id =
    if (a <=? id) && (id <=? b) then
      (tn_with r (Table (t_size (tn_table r)) (delete (id - a) (t_map (tn_table r)))), Ok tt)
    else (r, Err EOutsideRange).
Proof.
  intros Hg Ha Hb Hwf Hid. unfold tn_release. rewrite (tn_validate_spec c a b) by done.
  destruct (N.leb_spec a id), (N.leb_spec id b); cbn [andb]; try done.
  rewrite (tn_index_spec c a b) by (done || lia).
  destruct Hwf as (Hc & Hs & He & Hw & Hk).
  unfold release, delete_. rewrite (validate_spec (tn_sz c a b)); [|by destruct Hw|by apply tn_sz_lt].
  pose proof (tn_sz_capacity c a b Hg) as Hcap.
  destruct (N.ltb_spec (id - a) (capacity (tn_sz c a b))); [done|lia].
Qed.

Lemma tn_update_spec c a b r id l :
  tn_good c -> a < 2 ^ tn_w c -> b < 2 ^ tn_w c -> wfN c a b r -> id < 2 ^ 64 ->
  tn_update r id l =
    if (a <=? id) && (id <=? b) then
      match tn_claimed r !! id with
      | Some _ => (tn_with r (Table (t_size (tn_table r))
          (<[id - a := NewEntry (id - a) (tn_stored r (id - a) l)]> (t_map (tn_table r)))), Ok tt)
      | None => (tn_with r (tn_table r), Err ENotCreated)
      end
    else (r, Err EOutsideRange).
Proof.
  intros Hg Ha Hb Hwf Hid. unfold tn_update. rewrite (tn_validate_spec c a b) by done.
  destruct (N.leb_spec a id), (N.leb_spec id b); cbn [andb]; try done.
  rewrite (tn_index_spec c a b) by (done || lia).
  rewrite (tn_claimed_lookup c a b) by done.
  destruct (N.leb_spec a id); [|lia].
  destruct Hwf as (Hc & Hs & He & Hw & Hk).
  unfold update_op, update. cbn [e_id].
  rewrite (validate_spec (tn_sz c a b)); [|by destruct Hw|by apply tn_sz_lt].
  pose proof (tn_sz_capacity c a b Hg) as Hcap.
  destruct (N.ltb_spec (id - a) (capacity (tn_sz c a b))); [|lia].
  rewrite is_free_claimed.
  destruct (claimed (tn_table r) !! (id - a)) eqn:Hcl.
  - rewrite bool_decide_eq_false_2 by done. done.
  - rewrite bool_decide_eq_true_2 by done. done.
Qed.

Lemma tn_with_same r : tn_with r (tn_table r) = r.
Proof. by destruct r. Qed.

(** FindFree in terms of the external ids, when the underlying size is not 0. *)
Lemma tn_find_free_spec c a b r :
  tn_good c -> a <= b < 2 ^ tn_w c -> wfN c a b r ->
  (b - a + 1 = 2 ^ tn_w c /\ tn_find_free r = Err ENoFree) \/
  (b - a + 1 < 2 ^ tn_w c /\
   ((exists id, tn_lowest a b (tn_claimed r) id /\ tn_find_free r = Ok id) \/
    ((forall id, ~ tn_unclaimed a b (tn_claimed r) id) /\ tn_find_free r = Err ENoFree))).
Proof.
  intros Hg Hab Hwf. pose proof Hwf as (Hc & Hs & He & Hw & Hk).
  pose proof (tn_sz_eq c a b Hg Hab) as Hsz.
  pose proof (tn_sz_lt c a b Hg) as Hlt.
  pose proof (find_free_cases (tn_sz c a b) (tn_table r) Hw Hlt) as Hff.
  unfold tn_find_free.
  assert (Huc : forall id, tn_unclaimed a b (tn_claimed r) id <->
    a <= id /\ id - a <= b - a /\ claimed (tn_table r) !! (id - a) = None).
  { intros id. unfold tn_unclaimed. rewrite (tn_claimed_lookup c a b) by done.
    destruct (N.leb_spec a id).
    - rewrite fmap_None. intuition lia.
    - intuition lia. }
  destruct (N.eqb_spec (b - a + 1) (2 ^ tn_w c)) as [Hfull|Hnf].
  - left. split; [done|].
    destruct (it_keys (iterate_free (tn_table r))) as [|x l] eqn:Hkeys; rewrite Hff; [done|].
    exfalso. destruct (lowest_head _ _ _ _ Hw Hkeys) as [[? _] _]. lia.
  - right. split; [lia|].
    destruct (it_keys (iterate_free (tn_table r))) as [|x l] eqn:Hkeys; rewrite Hff.
    + right. split; [|done]. intros id Hid. apply Huc in Hid as (? & ? & Hn).
      apply (keys_nil _ _ Hw) with (j := id - a) in Hkeys. apply Hkeys.
      split; [lia|done].
    + left. destruct (lowest_head _ _ _ _ Hw Hkeys) as [[Hx Hxn] Hmin].
      exists (a + x). cbn [rbind]. rewrite (tn_from_index_spec c a b) by (done || lia).
      split; [|done]. split.
      * apply Huc. split; [lia|]. replace (a + x - a) with x by lia. split; [lia|done].
      * intros j Hj. apply Huc in Hj as (? & ? & ?).
        assert (x <= j - a); [|lia]. apply Hmin. split; [lia|done].
Qed.

Lemma tn_step_wf c a b r o :
  tn_good c -> a < 2 ^ tn_w c -> b < 2 ^ tn_w c -> top_uint64 o = true ->
  wfN c a b r -> wfN c a b (fst (tn_step r o)).
Proof.
  intros Hg Ha Hb Ho Hwf. pose proof Hwf as (Hc & Hs & He & Hw & Hk).
  assert (Hclaim : forall id l, id < 2 ^ 64 -> wfN c a b (fst (tn_claim r id l))).
  { intros id l Hid. rewrite (tn_claim_spec c a b) by done.
    destruct (N.leb_spec a id), (N.leb_spec id b); cbn [andb]; try done.
    destruct (tn_claimed r !! id); [done|]. cbn [fst]. apply wfN_insert; (done || lia). }
  destruct o as [id|id l|l|id|id l| |id|id| | |sel]; try done; cbn [tn_step top_uint64] in *;
    try apply N.ltb_lt in Ho.
  - specialize (Hclaim id l Ho). by destruct (tn_claim r id l).
  - unfold tn_claim_free. destruct (tn_find_free r) as [id|e|] eqn:Hff; [|done..].
    assert (Hid : id < 2 ^ 64).
    { unfold tn_find_free in Hff. destruct (find_free (tn_table r)); cbn in Hff; try done.
      injection Hff as <-. unfold tn_from_index, uadd. destruct Hg as (? & Hg & _). rewrite Hc.
      eapply N.lt_le_trans; [apply N.mod_lt; lia|done]. }
    specialize (Hclaim id l Hid). destruct (tn_claim r id l) as [r' [?|?|]]; done.
  - rewrite (tn_release_spec c a b) by done.
    destruct ((a <=? id) && (id <=? b)); [|done]. cbn [fst]. by apply wfN_delete.
  - rewrite (tn_update_spec c a b) by done.
    destruct (N.leb_spec a id), (N.leb_spec id b); cbn [andb]; try done.
    destruct (tn_claimed r !! id); cbn [fst].
    + apply wfN_insert; (done || lia).
    + by rewrite tn_with_same.
Qed.

Lemma tn_run_wf c a b r os :
  tn_good c -> a < 2 ^ tn_w c -> b < 2 ^ tn_w c -> forallb top_uint64 os = true ->
  wfN c a b r -> wfN c a b (fst (tn_run r os)).
Proof.
  intros Hg Ha Hb. revert r. induction os as [|o os IH]; intros r Ho Hwf; [done|].
  cbn [forallb] in Ho. apply andb_true_iff in Ho as [Ho Hos]. cbn [tn_run].
  pose proof (tn_step_wf c a b r o Hg Ha Hb Ho Hwf) as H1. destruct (tn_step r o) as [r1 x].
  specialize (IH r1 Hos H1). by destruct (tn_run r1 os).
Qed.

Lemma tn_reachable_wf c a b r :
  c ∈ tn_packages -> a < 2 ^ tn_w c -> b < 2 ^ tn_w c -> tn_reachable c a b r -> wfN c a b r.
Proof.
  intros Hc Ha Hb (os & Hos & <-). apply tn_run_wf; auto using tn_packages_good, wfN_new.
Qed.

End proofs.
