From Verif Require Import IdxTableSpec.
From Coq Require Import Lia ZifyBool ZifyNat ZifyN.
Ltac Zify.zify_post_hook ::= Z.div_mod_to_equations.

(** ** Arithmetic *)
Lemma pow64 : 2 ^ 64 = 18446744073709551616. Proof. reflexivity. Qed.

Lemma usub64_1 x : 1 <= x -> x < 2 ^ 64 -> usub 64 x 1 = x - 1.
Proof.
  intros H1 H2. unfold usub. rewrite pow64 in *.
  rewrite (N.mod_small 1) by lia.
  replace (x + 18446744073709551616 - 1) with ((x - 1) + 1 * 18446744073709551616) by lia.
  rewrite N.mod_add by lia. apply N.mod_small. lia.
Qed.

Lemma uadd64_small x y : x + y < 2 ^ 64 -> uadd 64 x y = x + y.
Proof. intros. unfold uadd. apply N.mod_small. lia. Qed.

Section proofs.
Context {T : Type}.
Implicit Types (r : table T) (m : gmap N (entry T)).

(** ** The invariant: keys agree with entry ids, and are in range *)
Definition wf (sz : N) r : Prop :=
  t_size r = sz /\
  (forall k e, t_map r !! k = Some e -> e_id e = k) /\
  (forall k e, t_map r !! k = Some e -> k < capacity sz).

Lemma claimed_lookup r k : claimed r !! k = e_data <$> t_map r !! k.
Proof. unfold claimed. apply lookup_fmap. Qed.

Lemma claimed_None r k : claimed r !! k = None <-> t_map r !! k = None.
Proof. rewrite claimed_lookup, fmap_None. done. Qed.

Lemma claimed_Some r k : is_Some (claimed r !! k) <-> is_Some (t_map r !! k).
Proof. rewrite claimed_lookup, fmap_is_Some. done. Qed.

Lemma usub_capacity sz : sz < 2 ^ 64 -> usub 64 sz 1 = capacity sz - 1.
Proof.
  intros H. unfold capacity. destruct (N.eqb_spec sz 0) as [->|]; [reflexivity|].
  apply usub64_1; lia.
Qed.
Lemma capacity_pos sz : 1 <= capacity sz.
Proof. unfold capacity. destruct (N.eqb_spec sz 0); [|lia]. rewrite pow64. lia. Qed.
Lemma capacity_ge sz : sz <= capacity sz.
Proof. unfold capacity. destruct (N.eqb_spec sz 0); lia. Qed.
Lemma capacity_le sz : sz < 2 ^ 64 -> capacity sz <= 2 ^ 64.
Proof. unfold capacity. destruct (N.eqb_spec sz 0); lia. Qed.
Lemma capacity_nz sz : 1 <= sz -> capacity sz = sz.
Proof. unfold capacity. destruct (N.eqb_spec sz 0); lia. Qed.

Lemma validate_spec sz r id :
  t_size r = sz -> sz < 2 ^ 64 ->
  validate r id = if id <? capacity sz then Ok tt else Err EIdTooBig.
Proof.
  intros <- H. unfold validate. rewrite usub_capacity by done.
  pose proof (capacity_pos (t_size r)).
  destruct (N.ltb_spec (capacity (t_size r) - 1) id), (N.ltb_spec id (capacity (t_size r))); try done; lia.
Qed.

(** ** Ascending lists and sorting *)
Lemma ascending_le l : ascending l -> StronglySorted N.le l.
Proof.
  induction 1 as [|x l Hs IH HF]; constructor; [done|].
  eapply Forall_impl; [exact HF|]. simpl; lia.
Qed.

Lemma sort_keys_ascending l : ascending l -> sort_keys l = l.
Proof.
  intros Hs. unfold sort_keys.
  refine (StronglySorted_unique N.le _ _ _ _ _).
  - apply (StronglySorted_merge_sort N.le); apply _.
  - by apply ascending_le.
  - apply merge_sort_Permutation.
Qed.

Lemma sort_keys_spec l : NoDup l -> ascending (sort_keys l) /\ sort_keys l ≡ₚ l.
Proof.
  intros Hnd. unfold sort_keys.
  assert (Hp : merge_sort N.le l ≡ₚ l) by apply merge_sort_Permutation.
  split; [|done].
  assert (Hs : StronglySorted N.le (merge_sort N.le l))
    by (apply (StronglySorted_merge_sort N.le); apply _).
  assert (Hnd' : NoDup (merge_sort N.le l)) by (by rewrite Hp).
  clear Hp Hnd. unfold ascending. revert Hs Hnd'.
  generalize (merge_sort N.le l). intros l' Hs.
  induction Hs as [|x l' Hs IH HF]; intros Hnd; [constructor|].
  apply NoDup_cons in Hnd as [Hx Hnd]. constructor; [by apply IH|].
  rewrite Forall_forall in HF |- *. intros y Hy.
  specialize (HF y Hy). assert (x <> y) by (intros ->; done). lia.
Qed.

Lemma ascending_NoDup l : ascending l -> NoDup l.
Proof.
  induction 1 as [|x l Hs IH HF]; constructor; [|done].
  intros Hx. rewrite Forall_forall in HF. specialize (HF x Hx). lia.
Qed.

Lemma ascending_unique l1 l2 :
  ascending l1 -> ascending l2 -> (forall x, x ∈ l1 <-> x ∈ l2) -> l1 = l2.
Proof.
  intros H1 H2 H.
  refine (StronglySorted_unique N.le _ _ _ _ _).
  - by apply ascending_le.
  - by apply ascending_le.
  - apply NoDup_Permutation; by try apply ascending_NoDup.
Qed.

(** ** The free-id loop *)
Lemma free_loop_elem m n a x :
  x ∈ free_loop m n a <-> a <= x < a + N.of_nat n /\ m !! x = None.
Proof.
  revert a. induction n as [|n IH]; intros a; cbn [free_loop].
  - rewrite elem_of_nil. lia.
  - destruct (m !! a) as [e|] eqn:Ha.
    + rewrite IH. split; [intros [? ?]; split; [lia|done]|].
      intros [? Hx]. split; [|done]. assert (x <> a) by congruence. lia.
    + rewrite elem_of_cons, IH. split.
      * intros [->|[? ?]]; split; try done; lia.
      * intros [? Hx]. destruct (decide (x = a)) as [->|]; [by left|right].
        split; [lia|done].
Qed.

Lemma free_loop_ascending m n a : ascending (free_loop m n a).
Proof.
  revert a. induction n as [|n IH]; intros a; cbn [free_loop]; [constructor|].
  destruct (m !! a); [apply IH|]. constructor; [apply IH|].
  apply Forall_forall. intros x Hx. apply free_loop_elem in Hx. lia.
Qed.

Lemma free_keys_spec r :
  it_keys (iterate_free r) = free_loop (t_map r) (N.to_nat (t_size r)) 0.
Proof. apply sort_keys_ascending, free_loop_ascending. Qed.

Lemma free_keys_elem r x :
  x ∈ it_keys (iterate_free r) <-> unclaimed (t_size r) (claimed r) x.
Proof.
  rewrite free_keys_spec, free_loop_elem. unfold unclaimed.
  rewrite claimed_None. rewrite N2Nat.id. intuition lia.
Qed.

Lemma free_keys_ascending r : ascending (it_keys (iterate_free r)).
Proof. rewrite free_keys_spec. apply free_loop_ascending. Qed.

Lemma free_loop_length m n a : (length (free_loop m n a) <= n)%nat.
Proof.
  revert a. induction n as [|n IH]; intros a; cbn [free_loop]; [simpl; lia|].
  destruct (m !! a); cbn [length]; specialize (IH (a + 1)); lia.
Qed.

Lemma free_keys_length r : N.of_nat (length (it_keys (iterate_free r))) <= t_size r.
Proof. rewrite free_keys_spec. pose proof (free_loop_length (t_map r) (N.to_nat (t_size r)) 0). lia. Qed.

(** ** Iterators *)
(** [at_pos it k]: the next call to Next moves to index [k]. *)
Definition at_pos (it : iterator) (k : nat) : Prop :=
  it_current it = (N.of_nat k + (2 ^ 64 - 1)) mod 2 ^ 64.

Lemma iter_next_pos it k :
  N.of_nat (length (it_keys it)) < 2 ^ 64 -> (k <= length (it_keys it))%nat ->
  at_pos it k ->
  iter_next it = (Iterator (N.of_nat k) (it_keys it), bool_decide (k < length (it_keys it))%nat).
Proof.
  intros Hlen Hk Hp. unfold iter_next. rewrite Hp. unfold uadd.
  rewrite pow64 in *.
  assert (Heq : ((N.of_nat k + (18446744073709551616 - 1)) mod 18446744073709551616 + 1)
            mod 18446744073709551616 = N.of_nat k) by lia.
  rewrite Heq. f_equal.
  case_bool_decide; [apply N.ltb_lt|apply N.ltb_ge]; lia.
Qed.

Lemma at_pos_S keys k :
  N.of_nat (S k) < 2 ^ 64 -> at_pos (Iterator (N.of_nat k) keys) (S k).
Proof. intros H. unfold at_pos. cbn [it_current]. rewrite pow64 in *. lia. Qed.

Lemma at_pos_0 keys : at_pos (Iterator (2 ^ 64 - 1) keys) 0.
Proof. unfold at_pos. reflexivity. Qed.

Lemma drain_spec fuel it k :
  N.of_nat (length (it_keys it)) < 2 ^ 64 ->
  (k <= length (it_keys it))%nat -> at_pos it k ->
  (length (it_keys it) - k < fuel)%nat ->
  drain fuel it = Ok (drop k (it_keys it)).
Proof.
  revert it k. induction fuel as [|fuel IH]; intros it k Hl Hk Hp Hf; [lia|].
  cbn [drain]. rewrite (iter_next_pos it k) by done.
  case_bool_decide as Hlt.
  - unfold iter_id. cbn [it_keys it_current]. rewrite Nat2N.id.
    destruct (lookup_lt_is_Some_2 _ _ Hlt) as [x Hx]. rewrite Hx. cbn [rbind].
    rewrite (IH _ (S k)); cbn [it_keys]; try done; try lia.
    + cbn [rbind]. by rewrite (drop_S _ x k).
    + apply at_pos_S. lia.
  - rewrite drop_ge by lia. done.
Qed.

Lemma iter_all_start keys :
  N.of_nat (length keys) < 2 ^ 64 ->
  iter_all (Iterator (2 ^ 64 - 1) keys) = Ok keys.
Proof.
  intros Hl. unfold iter_all.
  rewrite (drain_spec _ _ 0); cbn [it_keys]; try done; try lia.
Qed.

Lemma drain_values_spec fuel live it k :
  N.of_nat (length (it_keys it)) < 2 ^ 64 ->
  (k <= length (it_keys it))%nat -> at_pos it k ->
  (length (it_keys it) - k < fuel)%nat ->
  drain_values fuel live it = Ok ((fun x => live !! x : option (entry T)) <$> drop k (it_keys it)).
Proof.
  revert it k. induction fuel as [|fuel IH]; intros it k Hl Hk Hp Hf; [lia|].
  cbn [drain_values]. rewrite (iter_next_pos it k) by done.
  case_bool_decide as Hlt.
  - unfold iter_value, iter_id. cbn [it_keys it_current]. rewrite Nat2N.id.
    destruct (lookup_lt_is_Some_2 _ _ Hlt) as [x Hx]. rewrite Hx. cbn [rbind].
    rewrite (IH _ (S k)); cbn [it_keys]; try done; try lia.
    + cbn [rbind]. by rewrite (drop_S _ x k).
    + apply at_pos_S. lia.
  - rewrite drop_ge by lia. done.
Qed.

(** ** Claimed keys *)
Lemma iter_keys_spec r :
  ascending (it_keys (iterate r)) /\
  (forall x, x ∈ it_keys (iterate r) <-> is_Some (claimed r !! x)).
Proof.
  unfold iterate. cbn [it_keys].
  destruct (sort_keys_spec (map fst (map_to_list (t_map r)))) as [Hs Hp].
  - apply (NoDup_fst_map_to_list (t_map r)).
  - split; [done|]. intros x. rewrite Hp, claimed_Some.
    rewrite elem_of_list_fmap. split.
    + intros ([k e] & -> & He). apply elem_of_map_to_list in He. cbn. eauto.
    + intros [e He]. exists (x, e). split; [done|]. by apply elem_of_map_to_list.
Qed.

Lemma iter_keys_length r : length (it_keys (iterate r)) = size (t_map r).
Proof.
  unfold iterate, sort_keys. cbn [it_keys].
  rewrite merge_sort_Permutation, map_length. done.
Qed.

(** Counting: claimed plus free. *)
Lemma size_bound sz r : wf sz r -> N.of_nat (size (t_map r)) <= capacity sz.
Proof.
  intros (_ & _ & Hin).
  generalize dependent (capacity sz). clear sz. intros sz Hin.
  assert (Hsub : dom (t_map r) ⊆ (list_to_set (N.of_nat <$> seq 0 (N.to_nat sz)) : gset N)).
  { intros x Hx. apply elem_of_dom in Hx as [e He]. specialize (Hin _ _ He).
    apply elem_of_list_to_set, elem_of_list_fmap. exists (N.to_nat x).
    split; [lia|]. apply elem_of_seq. lia. }
  apply subseteq_size in Hsub. rewrite size_dom in Hsub.
  rewrite size_list_to_set in Hsub.
  - rewrite fmap_length, seq_length in Hsub. lia.
  - apply NoDup_fmap_2; [|apply NoDup_seq]. intros ???; lia.
Qed.

Lemma count_partition sz r :
  1 <= sz -> wf sz r ->
  N.of_nat (size (t_map r)) + N.of_nat (length (it_keys (iterate_free r))) = sz.
Proof.
  intros Hsz1 (Hsz & Hid & Hin). rewrite capacity_nz in Hin by done.
  set (A := dom (t_map r) : gset N).
  set (B := list_to_set (it_keys (iterate_free r)) : gset N).
  assert (HU : A ∪ B = list_to_set (N.of_nat <$> seq 0 (N.to_nat sz))).
  { apply set_eq. intros x. rewrite elem_of_union. unfold A, B.
    rewrite elem_of_dom, !elem_of_list_to_set, free_keys_elem, elem_of_list_fmap.
    unfold unclaimed. rewrite claimed_None, Hsz. split.
    - intros Hx. exists (N.to_nat x). rewrite N2Nat.id. split; [done|].
      rewrite elem_of_seq. destruct Hx as [[e He]|[? ?]].
      + specialize (Hin _ _ He). lia.
      + lia.
    - intros (y & -> & Hy). rewrite elem_of_seq in Hy.
      destruct (t_map r !! N.of_nat y) eqn:Hl; [left; eauto|right]. split; [lia|done]. }
  assert (HD : A ## B).
  { intros x HA HB. unfold A in HA. unfold B in HB.
    apply elem_of_dom in HA as [e He]. apply elem_of_list_to_set, free_keys_elem in HB as [_ HB].
    apply claimed_None in HB. congruence. }
  assert (Hs := f_equal size HU). rewrite size_union in Hs by done.
  unfold A, B in Hs. rewrite size_dom, !size_list_to_set in Hs.
  - rewrite fmap_length, seq_length in Hs. lia.
  - apply NoDup_fmap_2; [|apply NoDup_seq]. intros ???; lia.
  - apply ascending_NoDup, free_keys_ascending.
Qed.

(** ** Single-id calls *)
Lemma claimed_insert r id d :
  claimed (Table (t_size r) (<[id := NewEntry id d]> (t_map r))) = <[id := d]> (claimed r).
Proof. unfold claimed. cbn. by rewrite fmap_insert. Qed.

Lemma claimed_delete r id :
  claimed (Table (t_size r) (delete id (t_map r))) = delete id (claimed r).
Proof. unfold claimed. cbn. by rewrite fmap_delete. Qed.

Lemma is_free_claimed r id : is_free r id = bool_decide (claimed r !! id = None).
Proof.
  unfold is_free. case_bool_decide as H; rewrite claimed_None in H.
  - by rewrite H.
  - destruct (t_map r !! id); done.
Qed.

Lemma wf_new sz : wf sz (new_table sz : table T).
Proof. split; [done|]. split; intros k e; cbn; by rewrite lookup_empty. Qed.

Lemma wf_insert sz r id d :
  wf sz r -> id < capacity sz -> wf sz (Table (t_size r) (<[id := NewEntry id d]> (t_map r))).
Proof.
  intros (Hsz & Hid & Hin) Hlt. split; [done|]. split; cbn [t_map]; intros k e.
  - destruct (decide (k = id)) as [->|Hne].
    + rewrite lookup_insert. intros [= <-]. done.
    + rewrite lookup_insert_ne by done. apply Hid.
  - destruct (decide (k = id)) as [->|Hne]; [done|].
    rewrite lookup_insert_ne by done. apply Hin.
Qed.

Lemma wf_delete sz r id :
  wf sz r -> wf sz (Table (t_size r) (delete id (t_map r))).
Proof.
  intros (Hsz & Hid & Hin). split; [done|].
  split; cbn [t_map]; intros k e [_ H]%lookup_delete_Some; eauto.
Qed.

Lemma add_spec sz r id d :
  wf sz r -> sz < 2 ^ 64 ->
  add r (NewEntry id d) =
    if id <? capacity sz then
      match claimed r !! id with
      | None => (Table (t_size r) (<[id := NewEntry id d]> (t_map r)), Ok tt)
      | Some _ => (r, Err EExists)
      end
    else (r, Err EIdTooBig).
Proof.
  intros (Hsz & _ & _) Hb. unfold add. cbn [e_id].
  rewrite (validate_spec sz) by done.
  destruct (id <? capacity sz); [|done]. rewrite is_free_claimed.
  destruct (claimed r !! id) eqn:Hc; case_bool_decide; done.
Qed.

Lemma single_step sz r o :
  wf sz r -> sz < 2 ^ 64 -> single_op o = true ->
  claimed (fst (step r o)) = fst (spec_single (capacity sz) (claimed r) o) /\
  snd (step r o) = snd (spec_single (capacity sz) (claimed r) o) /\
  wf sz (fst (step r o)).
Proof.
  intros Hwf Hb Ho. assert (Hwf' := Hwf). destruct Hwf' as (Hsz & Hid & Hin).
  destruct o as [id|id d| | | |id|id d| | | |id|id| | | |]; try discriminate; clear Ho;
    cbn [step spec_single].
  - (* Get *) split; [done|]. split; [|done]. cbn [snd]. f_equal. unfold get.
    rewrite (validate_spec sz) by done. destruct (id <? capacity sz); [|done]. cbn [rbind].
    rewrite claimed_lookup. destruct (t_map r !! id) as [[i d]|] eqn:Hl; [|done].
    cbn. f_equal. specialize (Hid _ _ Hl). cbn in Hid. by subst i.
  - (* Claim *) unfold claim. rewrite (add_spec sz) by done.
    destruct (N.ltb_spec id (capacity sz)); [|done].
    destruct (claimed r !! id) eqn:Hc; [done|].
    cbn [fst snd]. rewrite claimed_insert. split; [done|]. split; [done|].
    by apply wf_insert.
  - (* Release *) unfold release, delete_. rewrite (validate_spec sz) by done.
    destruct (id <? capacity sz); [|done]. cbn [fst snd]. rewrite claimed_delete.
    split; [done|]. split; [done|]. by apply wf_delete.
  - (* Update *) unfold update_op, update. cbn [e_id]. rewrite (validate_spec sz) by done.
    destruct (N.ltb_spec id (capacity sz)); [|done]. rewrite is_free_claimed.
    destruct (claimed r !! id) eqn:Hc; case_bool_decide; try done.
    cbn [fst snd]. rewrite claimed_insert. split; [done|]. split; [done|]. by apply wf_insert.
  - (* Size *) split; [done|]. split; [|done]. cbn. f_equal. unfold size_op, claimed.
    by rewrite map_size_fmap.
  - (* Has *) split; [done|]. split; [|done]. cbn. f_equal. unfold has.
    rewrite claimed_lookup. destruct (t_map r !! id); reflexivity.
  - (* IsFree *) split; [done|]. split; [|done]. cbn. f_equal. apply is_free_claimed.
Qed.

(** ** Adding a list of free ids *)
Lemma add_all_spec sz r ids d :
  wf sz r -> sz < 2 ^ 64 -> NoDup ids ->
  (forall x, x ∈ ids -> unclaimed sz (claimed r) x) ->
  exists r', add_all r ids d = (r', Ok tt) /\ wf sz r' /\
    (forall x, claimed r' !! x = if decide (x ∈ ids) then Some d else claimed r !! x).
Proof.
  intros Hwf Hb. revert r Hwf. induction ids as [|id ids IH]; intros r Hwf Hnd Hfree.
  - exists r. split; [done|]. split; [done|]. intros x. by rewrite decide_False by (by apply not_elem_of_nil).
  - apply NoDup_cons in Hnd as [Hni Hnd].
    assert (Hu : unclaimed sz (claimed r) id) by (apply Hfree; left).
    destruct Hu as [Hlt Hn]. cbn [add_all]. rewrite (add_spec sz) by done.
    assert (Hb1 : (id <? capacity sz) = true)
      by (apply N.ltb_lt; pose proof (capacity_ge sz); lia). rewrite Hb1, Hn.
    set (r1 := Table _ _).
    assert (Hc1 : claimed r1 = <[id := d]> (claimed r)) by apply claimed_insert.
    destruct (IH r1) as (r' & Heq & Hwf' & Hl).
    + apply wf_insert; [done|]. pose proof (capacity_ge sz); lia.
    + done.
    + intros x Hx. destruct (Hfree x) as [? ?]; [by right|]. split; [done|].
      rewrite Hc1, lookup_insert_ne; [done|]. intros ->. done.
    + exists r'. split; [done|]. split; [done|]. intros x. rewrite Hl, Hc1.
      destruct (decide (x ∈ ids)) as [Hin|Hnin].
      * by rewrite decide_True by (by right).
      * destruct (decide (x = id)) as [->|Hne].
        -- rewrite lookup_insert, decide_True by left. done.
        -- rewrite lookup_insert_ne by done. rewrite decide_False; [done|].
           rewrite elem_of_cons. intros [?|?]; done.
Qed.

Lemma add_all_entries_spec r ids d acc :
  add_all_entries r ids d acc =
  match add_all r ids d with
  | (r', Ok _) => (r', Ok (acc ++ map (fun i => NewEntry i d) ids))
  | (r', Err x) => (r', Err x)
  | (r', Panic) => (r', Panic)
  end.
Proof.
  revert r acc. induction ids as [|id ids IH]; intros r acc; cbn [add_all_entries add_all].
  - by rewrite app_nil_r.
  - destruct (add r (NewEntry id d)) as [r1 [u|x|]]; [|done|done].
    rewrite IH. destruct (add_all r1 ids d) as [r2 [?|?|]]; [|done|done].
    f_equal. f_equal. rewrite <- app_assoc. done.
Qed.

(** ** FindFreeSize *)
Lemma find_free_size_loop_spec fuel it k size acc :
  N.of_nat (length (it_keys it)) < 2 ^ 64 -> 1 <= size < 2 ^ 64 ->
  (k <= length (it_keys it))%nat -> at_pos it k -> N.of_nat k < size ->
  (length (it_keys it) - k < fuel)%nat ->
  find_free_size_loop fuel it (N.of_nat k) size acc =
    if (N.to_nat size <=? length (it_keys it))%nat
    then Ok (acc ++ take (N.to_nat size - k) (drop k (it_keys it)))
    else Err ENoSize.
Proof.
  revert it k acc. induction fuel as [|fuel IH]; intros it k acc Hl Hs Hk Hp Hks Hf; [lia|].
  cbn [find_free_size_loop]. rewrite (iter_next_pos it k) by done.
  case_bool_decide as Hlt.
  - rewrite uadd64_small by lia. unfold iter_id. cbn [it_keys it_current]. rewrite Nat2N.id.
    destruct (lookup_lt_is_Some_2 _ _ Hlt) as [x Hx]. rewrite Hx. cbn [rbind].
    rewrite usub64_1 by lia.
    destruct (N.ltb_spec (size - 1) (N.of_nat k + 1)) as [Hd|Hd].
    + assert (Hle : (N.to_nat size <=? length (it_keys it))%nat = true) by (apply Nat.leb_le; lia).
      rewrite Hle. replace (N.to_nat size - k)%nat with 1%nat by lia.
      by rewrite (drop_S _ x k) by done.
    + replace (N.of_nat k + 1) with (N.of_nat (S k)) by lia.
      rewrite (IH _ (S k)); cbn [it_keys]; try done; try lia; [|apply at_pos_S; lia].
      destruct (N.to_nat size <=? length (it_keys it))%nat; [|done].
      rewrite (drop_S _ x k) by done.
      replace (N.to_nat size - k)%nat with (S (N.to_nat size - S k)) by lia.
      cbn [take]. by rewrite <- app_assoc.
  - assert (Hle : (N.to_nat size <=? length (it_keys it))%nat = false) by (apply Nat.leb_gt; lia).
    by rewrite Hle.
Qed.

Lemma find_free_size_loop_zero fuel it k acc :
  N.of_nat (length (it_keys it)) < 2 ^ 64 ->
  (k <= length (it_keys it))%nat -> at_pos it k ->
  (length (it_keys it) - k < fuel)%nat ->
  find_free_size_loop fuel it (N.of_nat k) 0 acc = Err ENoSize.
Proof.
  revert it k acc. induction fuel as [|fuel IH]; intros it k acc Hl Hk Hp Hf; [lia|].
  cbn [find_free_size_loop]. rewrite (iter_next_pos it k) by done.
  case_bool_decide as Hlt; [|done].
  rewrite uadd64_small by lia. unfold iter_id. cbn [it_keys it_current]. rewrite Nat2N.id.
  destruct (lookup_lt_is_Some_2 _ _ Hlt) as [x Hx]. rewrite Hx. cbn [rbind].
  replace (usub 64 0 1) with (2 ^ 64 - 1) by reflexivity.
  destruct (N.ltb_spec (2 ^ 64 - 1) (N.of_nat k + 1)) as [Hd|Hd]; [rewrite pow64 in *; lia|].
  replace (N.of_nat k + 1) with (N.of_nat (S k)) by lia.
  apply IH; cbn [it_keys]; try done; try lia. apply at_pos_S; lia.
Qed.

Lemma find_free_size_spec sz r n :
  wf sz r -> sz < 2 ^ 64 -> 1 <= n ->
  find_free_size r n =
    if sz <? n then Err ESizeTooBig
    else if (N.to_nat n <=? length (it_keys (iterate_free r)))%nat
    then Ok (take (N.to_nat n) (it_keys (iterate_free r)))
    else Err ENoSize.
Proof.
  intros (Hsz & _) Hb Hn. unfold find_free_size. rewrite Hsz.
  destruct (N.ltb_spec sz n) as [|Hle]; [done|].
  pose proof (free_keys_length r) as Hlen. rewrite Hsz in Hlen.
  rewrite (find_free_size_loop_spec _ _ 0); try lia; [|apply at_pos_0].
  rewrite Nat.sub_0_r. done.
Qed.

Lemma find_free_size_zero sz r :
  wf sz r -> sz < 2 ^ 64 -> find_free_size r 0 = Err ENoSize.
Proof.
  intros (Hsz & _) Hb. unfold find_free_size. rewrite Hsz.
  destruct (N.ltb_spec sz 0) as [|Hle]; [lia|].
  pose proof (free_keys_length r) as Hlen. rewrite Hsz in Hlen.
  apply (find_free_size_loop_zero _ _ 0); try lia. apply at_pos_0.
Qed.

(** ** FindFree / ClaimDynamic *)
Lemma first_free sz r :
  wf sz r -> sz < 2 ^ 64 ->
  iter_next (iterate_free r) =
    (Iterator 0 (it_keys (iterate_free r)),
     bool_decide (0 < length (it_keys (iterate_free r)))%nat).
Proof.
  intros (Hsz & _) Hb. pose proof (free_keys_length r) as Hlen. rewrite Hsz in Hlen.
  rewrite (iter_next_pos _ 0); [done|lia|lia|apply at_pos_0].
Qed.

Lemma find_free_cases sz r :
  wf sz r -> sz < 2 ^ 64 ->
  match it_keys (iterate_free r) with
  | [] => find_free r = Err ENoFree
  | x :: _ => find_free r = Ok x
  end.
Proof.
  intros Hwf Hb. unfold find_free. rewrite (first_free sz) by done.
  destruct (it_keys (iterate_free r)); done.
Qed.

Lemma lowest_head sz r x l :
  wf sz r -> it_keys (iterate_free r) = x :: l -> lowest_unclaimed sz (claimed r) x.
Proof.
  intros (Hsz & _) Hk. pose proof (free_keys_ascending r) as Ha. rewrite Hk in Ha.
  split.
  - rewrite <- Hsz. apply free_keys_elem. rewrite Hk. left.
  - intros j Hj. rewrite <- Hsz in Hj. apply free_keys_elem in Hj. rewrite Hk in Hj.
    apply elem_of_cons in Hj as [->|Hj]; [lia|].
    inversion Ha as [|? ? ? HF]; subst. rewrite Forall_forall in HF.
    specialize (HF _ Hj). lia.
Qed.

Lemma keys_nil sz r : wf sz r -> it_keys (iterate_free r) = [] <-> forall j, ~ unclaimed sz (claimed r) j.
Proof.
  intros (Hsz & _). rewrite <- Hsz. split.
  - intros Hk j Hj. apply free_keys_elem in Hj. rewrite Hk in Hj. by apply elem_of_nil in Hj.
  - intros H. destruct (it_keys (iterate_free r)) as [|x l] eqn:Hk; [done|].
    exfalso. apply (H x). apply free_keys_elem. rewrite Hk. left.
Qed.

Lemma claim_dynamic_cases sz r d :
  wf sz r -> sz < 2 ^ 64 ->
  match it_keys (iterate_free r) with
  | [] => claim_dynamic r d = (r, Err ENoFree)
  | x :: _ => claim_dynamic r d =
      (Table (t_size r) (<[x := NewEntry x d]> (t_map r)), Ok (NewEntry x d))
  end.
Proof.
  intros Hwf Hb. unfold claim_dynamic. rewrite (first_free sz) by (done || lia).
  destruct (it_keys (iterate_free r)) as [|x l] eqn:Hk; [done|].
  unfold iter_id. cbn [it_keys it_current length]. rewrite bool_decide_eq_true_2 by lia.
  cbn [N.to_nat lookup list_lookup].
  destruct (lowest_head sz r x l Hwf Hk) as [[Hlt Hn] _].
  rewrite (add_spec sz) by done.
  assert (Hlt' : (x <? capacity sz) = true)
    by (apply N.ltb_lt; pose proof (capacity_ge sz); lia).
  by rewrite Hlt', Hn.
Qed.

(** ** FindFreeRange *)
(** The loop over a list instead of an iterator; [prev] is the key before. *)
Fixpoint ffr (prev : option N) (keys : list N) (start end_ : N) (acc : list N) : res (list N) :=
  match keys with
  | [] => Err ENoRange
  | x :: keys' =>
      if x <? start then ffr (Some x) keys' start end_ acc
      else if x =? start then ffr (Some x) keys' start end_ (acc ++ [x])
      else if (start <? x) && (x <? end_) then
        if match prev with Some p => p + 1 =? x | None => false end
        then ffr (Some x) keys' start end_ (acc ++ [x])
        else Err EInUse
      else Ok (acc ++ [x])
  end.

Lemma find_free_range_loop_spec fuel it k start end_ acc :
  N.of_nat (length (it_keys it)) < 2 ^ 64 ->
  (forall x, x ∈ it_keys it -> x < 2 ^ 64) ->
  (k <= length (it_keys it))%nat -> at_pos it k ->
  (length (it_keys it) - k < fuel)%nat ->
  find_free_range_loop fuel it start end_ acc =
    ffr (match k with O => None | S k' => it_keys it !! k' end) (drop k (it_keys it)) start end_ acc.
Proof.
  revert it k acc. induction fuel as [|fuel IH]; intros it k acc Hl Hb Hk Hp Hf; [lia|].
  cbn [find_free_range_loop]. rewrite (iter_next_pos it k) by done.
  case_bool_decide as Hlt.
  - unfold iter_id. cbn [it_keys it_current]. rewrite Nat2N.id.
    destruct (lookup_lt_is_Some_2 _ _ Hlt) as [x Hx]. rewrite Hx. cbn [rbind].
    assert (Hrec : forall acc', find_free_range_loop fuel {| it_current := N.of_nat k; it_keys := it_keys it |} start end_ acc' =
      ffr (Some x) (drop (S k) (it_keys it)) start end_ acc').
    { intros acc'. rewrite (IH _ (S k)); cbn [it_keys]; try done; try lia; [|apply at_pos_S; lia].
      by rewrite Hx. }
    rewrite !Hrec. rewrite (drop_S _ x k) by done. cbn [ffr].
    destruct (N.ltb_spec x start) as [|Hxs]; [done|].
    destruct (N.eqb_spec x start) as [|Hne]; [done|].
    destruct ((start <? x) && (x <? end_)) eqn:Hin; [|done].
    assert (Hxb : x < 2 ^ 64) by (apply Hb; by eapply elem_of_list_lookup_2).
    assert (Hcons : iter_is_consecutive {| it_current := N.of_nat k; it_keys := it_keys it |} =
       Ok match (match k with O => None | S k' => it_keys it !! k' end) with
          | Some p => p + 1 =? x | None => false end).
    { unfold iter_is_consecutive. cbn [it_current it_keys].
      destruct k as [|k']; [done|].
      destruct (N.ltb_spec (N.of_nat (S k')) 1) as [|_]; [lia|].
      rewrite usub64_1 by lia.
      replace (N.to_nat (N.of_nat (S k') - 1)) with k' by lia.
      rewrite Nat2N.id, Hx.
      destruct (lookup_lt_is_Some_2 (it_keys it) k') as [p Hpk]; [lia|].
      rewrite Hpk. rewrite usub64_1 by lia. f_equal.
      destruct (N.eqb_spec p (x - 1)), (N.eqb_spec (p + 1) x); try done; lia. }
    rewrite Hcons. cbn [rbind].
    destruct (match k with O => None | S k' => it_keys it !! k' end) as [p|]; [|done].
    destruct (p + 1 =? x); done.
  - rewrite drop_ge by lia. done.
Qed.

Lemma find_free_range_ffr sz r start n :
  wf sz r -> sz < 2 ^ 64 ->
  find_free_range r start n =
    let end_ := usub 64 (uadd 64 start n) 1 in
    if capacity sz <=? start then Err EStartTooBig
    else if capacity sz <=? end_ then Err EEndTooBig
    else ffr None (it_keys (iterate_free r)) start end_ [].
Proof.
  intros Hwf Hb. assert (Hwf' := Hwf). destruct Hwf' as (Hsz & _ & _).
  unfold find_free_range. rewrite Hsz, usub_capacity by lia.
  set (end_ := usub 64 (uadd 64 start n) 1). cbv zeta.
  pose proof (capacity_pos sz) as Hc. 
  replace (capacity sz - 1 <? start) with (capacity sz <=? start)
    by (destruct (N.leb_spec (capacity sz) start), (N.ltb_spec (capacity sz - 1) start); try done; lia).
  replace (capacity sz - 1 <? end_) with (capacity sz <=? end_)
    by (destruct (N.leb_spec (capacity sz) end_), (N.ltb_spec (capacity sz - 1) end_); try done; lia).
  destruct (capacity sz <=? start); [done|]. destruct (capacity sz <=? end_); [done|].
  pose proof (free_keys_length r) as Hlen. rewrite Hsz in Hlen.
  rewrite (find_free_range_loop_spec _ _ 0); try lia; [done| |apply at_pos_0].
  intros x Hx. apply free_keys_elem in Hx as [Hx _]. lia.
Qed.

Lemma ids_from_elem a n x : x ∈ ids_from a n <-> a <= x < a + N.of_nat n.
Proof.
  revert a. induction n as [|n IH]; intros a; cbn [ids_from].
  - rewrite elem_of_nil. lia.
  - rewrite elem_of_cons, IH. lia.
Qed.
Lemma ids_from_app a n k : ids_from a (n + k) = ids_from a n ++ ids_from (a + N.of_nat n) k.
Proof.
  revert a. induction n as [|n IH]; intros a; cbn [ids_from Nat.add app].
  - f_equal; lia.
  - f_equal. rewrite IH. f_equal. f_equal. lia.
Qed.
Lemma ids_from_snoc a n : ids_from a (S n) = ids_from a n ++ [a + N.of_nat n].
Proof. replace (S n) with (n + 1)%nat by lia. rewrite ids_from_app. done. Qed.
Lemma ids_from_ascending a n : ascending (ids_from a n).
Proof.
  revert a. induction n as [|n IH]; intros a; cbn [ids_from]; constructor; [apply IH|].
  apply Forall_forall. intros x Hx. apply ids_from_elem in Hx. lia.
Qed.

(** Phase 3 of the loop: ids start..start+k-1 have been collected. *)
Lemma ffr_mid keys start e k acc :
  ascending keys -> (forall x, x ∈ keys -> start + N.of_nat k <= x) ->
  (1 <= k)%nat ->
  let E := N.max e (start + 1) in
  start + N.of_nat k <= E ->
  acc = ids_from start k ->
  (exists ids, ffr (Some (start + N.of_nat k - 1)) keys start e acc = Ok ids /\
     exists k' f, (k <= k')%nat /\ start + N.of_nat k' <= E /\
       (forall x, start + N.of_nat k <= x < E -> (x ∈ keys <-> x < start + N.of_nat k')) /\
       E <= f /\ f ∈ keys /\ (forall j, E <= j < f -> j ∉ keys) /\
       ids = ids_from start k' ++ [f]) \/
  (exists x, ffr (Some (start + N.of_nat k - 1)) keys start e acc = Err x /\
     ~ exists k' f, (k <= k')%nat /\ start + N.of_nat k' <= E /\
       (forall x, start + N.of_nat k <= x < E -> (x ∈ keys <-> x < start + N.of_nat k')) /\
       E <= f /\ f ∈ keys).
Proof.
  revert k acc. induction keys as [|x keys IH]; intros k acc Ha Hge Hk1 E HE ->.
  - right. exists ENoRange. split; [done|]. intros (k' & f & _ & _ & _ & _ & Hf).
    by apply elem_of_nil in Hf.
  - inversion Ha as [|? ? Ha' HF]; subst. rewrite Forall_forall in HF.
    assert (Hx : start + N.of_nat k <= x) by (apply Hge; left).
    cbn [ffr]. destruct (N.ltb_spec x start) as [|_]; [lia|].
    destruct (N.eqb_spec x start) as [|_]; [lia|].
    destruct (N.ltb_spec start x) as [_|]; [|lia]. cbn [andb].
    destruct (N.ltb_spec x e) as [Hxe|Hxe].
    + destruct (N.eqb_spec (start + N.of_nat k - 1 + 1) x) as [Hcons|Hncons].
      * assert (Hxk : x = start + N.of_nat k) by lia. clear Hcons. subst x.
        replace (Some (start + N.of_nat k)) with (Some (start + N.of_nat (S k) - 1)) by (f_equal; lia).
        rewrite <- (ids_from_snoc start k).
        destruct (IH (S k) (ids_from start (S k))) as [(ids & Heq & k' & f & H1 & H2 & H3 & H4 & H5 & H6 & H7)|(er & Heq & Hno)];
          try done; try lia.
        { intros y Hy. specialize (HF y Hy). lia. }
        -- left. exists ids. split; [done|]. exists k', f.
           split; [lia|]. split; [done|]. split.
           { intros y Hy. rewrite elem_of_cons.
             destruct (decide (y = start + N.of_nat k)) as [->|Hne].
             - split; [lia|]. intros _. by left.
             - rewrite <- H3 by (unfold E in *; lia). split; [intros [?|?]; done|by right]. }
           split; [done|]. split; [by right|]. split; [|done].
           intros j Hj. rewrite elem_of_cons. intros [->|Hj2]; [unfold E in *; lia|].
           by apply (H6 j).
        -- right. exists er. split; [done|]. intros (k' & f & H1 & H2 & H3 & H4 & H5).
           apply Hno. exists k', f.
           assert (Hk' : start + N.of_nat k < start + N.of_nat k').
           { apply H3; [unfold E; lia|]. left. }
           split; [lia|]. split; [done|]. split.
           { intros y Hy. rewrite <- H3 by (unfold E in *; lia). rewrite elem_of_cons.
             split; [by right|]. intros [->|?]; [lia|done]. }
           split; [done|]. apply elem_of_cons in H5 as [->|?]; [unfold E in *; lia|done].
      * right. exists EInUse. split; [done|]. intros (k' & f & H1 & H2 & H3 & H4 & H5).
        assert (Hxk : x < start + N.of_nat k').
        { apply H3; [unfold E; lia|]. left. }
        assert (Hin : start + N.of_nat k ∈ x :: keys).
        { apply H3; unfold E in *; lia. }
        apply elem_of_cons in Hin as [?|Hin]; [lia|]. specialize (HF _ Hin). lia.
    + (* default branch *)
      left. eexists. split; [done|]. exists k, x.
      split; [lia|]. split; [done|]. split.
      { intros y Hy. split; [|lia]. rewrite elem_of_cons. intros [->|Hy2].
        - unfold E in *; lia.
        - specialize (HF _ Hy2). unfold E in *; lia. }
      split; [unfold E; lia|]. split; [left|]. split; [|done].
      intros j Hj. rewrite elem_of_cons. intros [->|Hj2]; [lia|]. specialize (HF _ Hj2). lia.
Qed.

(** The exact behaviour of the search over the list of all free ids. *)
Definition range_hit (keys : list N) (start E : N) (ids : list N) : Prop :=
  exists k f, start + N.of_nat k <= E /\
    (forall x, start <= x < E -> (x ∈ keys <-> x < start + N.of_nat k)) /\
    E <= f /\ f ∈ keys /\ (forall j, E <= j < f -> j ∉ keys) /\
    ids = ids_from start k ++ [f].

Lemma ffr_spec keys prev start e :
  ascending keys -> (forall p, prev = Some p -> p < start) ->
  let E := N.max e (start + 1) in
  (exists ids, ffr prev keys start e [] = Ok ids /\ range_hit keys start E ids) \/
  (exists x, ffr prev keys start e [] = Err x /\ forall ids, ~ range_hit keys start E ids).
Proof.
  intros Ha. revert prev. induction keys as [|x keys IH]; intros prev Hp E.
  - right. exists ENoRange. split; [done|]. intros ids (k & f & _ & _ & _ & Hf & _).
    by apply elem_of_nil in Hf.
  - inversion Ha as [|? ? Ha' HF]; subst. rewrite Forall_forall in HF.
    cbn [ffr]. destruct (N.ltb_spec x start) as [Hlt|Hge].
    + destruct (IH Ha' (Some x)) as [(ids & Heq & k & f & H1 & H2 & H3 & H4 & H5 & H6)|(er & Heq & Hno)].
      { intros p [= <-]. done. }
      * left. exists ids. split; [done|]. exists k, f. split; [done|]. split.
        { intros y Hy. rewrite <- H2 by done. rewrite elem_of_cons.
          split; [intros [->|?]; [lia|done]|by right]. }
        split; [done|]. split; [by right|]. split; [|done].
        intros j Hj. rewrite elem_of_cons. intros [->|?]; [unfold E in *; lia|]. by apply (H5 j).
      * right. exists er. split; [done|]. intros ids (k & f & H1 & H2 & H3 & H4 & H5 & H6).
        apply (Hno ids). exists k, f. split; [done|]. split.
        { intros y Hy. rewrite <- H2 by done. rewrite elem_of_cons.
          split; [by right|intros [->|?]; [lia|done]]. }
        split; [done|]. apply elem_of_cons in H4 as [->|H4]; [unfold E in *; lia|].
        split; [done|]. split; [|done]. intros j Hj Hj2. apply (H5 j); [done|by right].
    + destruct (N.eqb_spec x start) as [->|Hne].
      * (* start itself is free *)
        cbn [app]. replace (Some start) with (Some (start + N.of_nat 1 - 1)) by (f_equal; lia).
        destruct (ffr_mid keys start e 1 [start]) as [(ids & Heq & k' & f & H1 & H2 & H3 & H4 & H5 & H6 & H7)|(er & Heq & Hno)];
          try done; try (unfold E; lia).
        { intros y Hy. specialize (HF y Hy). lia. }
        -- left. exists ids. split; [done|]. exists k', f. split; [done|]. split.
           { intros y Hy. rewrite elem_of_cons. destruct (decide (y = start)) as [->|Hys].
             - split; [lia|]. by left.
             - rewrite <- H3 by (unfold E in *; lia). split; [intros [?|?]; done|by right]. }
           split; [done|]. split; [by right|]. split; [|done].
           intros j Hj. rewrite elem_of_cons. intros [->|?]; [unfold E in *; lia|]. by apply (H6 j).
        -- right. exists er. split; [done|]. intros ids (k' & f & H1 & H2 & H3 & H4 & H5 & H6).
           apply Hno. exists k', f.
           assert (start < start + N.of_nat k') by (apply H2; [unfold E; lia|left]).
           split; [lia|]. split; [done|]. split.
           { intros y Hy. rewrite <- H2 by (unfold E in *; lia). rewrite elem_of_cons.
             split; [by right|intros [->|?]; [lia|done]]. }
           split; [done|]. apply elem_of_cons in H4 as [->|?]; [unfold E in *; lia|done].
      * destruct (N.ltb_spec start x) as [Hsx|]; [|lia]. cbn [andb].
        destruct (N.ltb_spec x e) as [Hxe|Hxe].
        -- assert (Hpf : (match prev with Some p => p + 1 =? x | None => false end) = false).
           { destruct prev as [p|]; [|done]. specialize (Hp p eq_refl). apply N.eqb_neq. lia. }
           rewrite Hpf. right. exists EInUse. split; [done|].
           intros ids (k & f & H1 & H2 & H3 & H4 & H5 & H6).
           assert (Hxk : x < start + N.of_nat k) by (apply H2; [unfold E; lia|left]).
           assert (Hs : start ∈ x :: keys) by (apply H2; unfold E; lia).
           apply elem_of_cons in Hs as [?|Hs]; [lia|]. specialize (HF _ Hs). lia.
        -- left. eexists. split; [done|]. exists 0%nat, x. split; [unfold E; lia|]. split.
           { intros y Hy. split; [|lia]. rewrite elem_of_cons. intros [->|Hy2].
             - unfold E in *; lia.
             - specialize (HF _ Hy2). unfold E in *; lia. }
           split; [unfold E; lia|]. split; [left|]. split; [|done].
           intros j Hj. rewrite elem_of_cons. intros [->|Hj2]; [lia|]. specialize (HF _ Hj2). lia.
Qed.

Lemma range_hit_elems keys start E ids :
  ascending keys -> range_hit keys start E ids -> ascending ids /\ (forall x, x ∈ ids -> x ∈ keys).
Proof.
  intros Ha (k & f & H1 & H2 & H3 & H4 & H5 & ->). split.
  - unfold ascending. assert (Hs := ids_from_ascending start k). unfold ascending in Hs.
    assert (HF : Forall (fun x => x < f) (ids_from start k)).
    { apply Forall_forall. intros x Hx. apply ids_from_elem in Hx. lia. }
    revert Hs HF. generalize (ids_from start k). intros l Hs.
    induction Hs as [|x l Hs IH HF']; intros HF; cbn; [repeat constructor|].
    apply Forall_cons in HF as [Hx HF]. constructor; [by apply IH|].
    apply Forall_app. split; [done|]. by constructor.
  - intros x Hx. apply elem_of_app in Hx as [Hx|Hx].
    + apply ids_from_elem in Hx. apply H2; lia.
    + apply elem_of_list_singleton in Hx as ->. done.
Qed.

Lemma find_free_range_sound sz r start n ids :
  wf sz r -> sz < 2 ^ 64 ->
  find_free_range r start n = Ok ids ->
  ascending ids /\ (forall x, x ∈ ids -> unclaimed sz (claimed r) x).
Proof.
  intros Hwf Hb. rewrite (find_free_range_ffr sz) by done. cbv zeta.
  destruct (capacity sz <=? start); [done|].
  destruct (capacity sz <=? usub 64 (uadd 64 start n) 1); [done|]. intros Hok.
  destruct (ffr_spec (it_keys (iterate_free r)) None start (usub 64 (uadd 64 start n) 1))
    as [(ids' & Heq & Hhit)|(er & Heq & _)].
  - apply free_keys_ascending.
  - done.
  - rewrite Heq in Hok. injection Hok as ->.
    apply range_hit_elems in Hhit as [H1 H2]; [|apply free_keys_ascending].
    split; [done|]. intros x Hx. destruct Hwf as (<- & _). by apply free_keys_elem, H2.
  - congruence.
Qed.

Lemma find_free_range_no_panic sz r start n :
  wf sz r -> sz < 2 ^ 64 -> find_free_range r start n <> Panic.
Proof.
  intros Hwf Hb. rewrite (find_free_range_ffr sz) by done. cbv zeta.
  destruct (capacity sz <=? start); [done|].
  destruct (capacity sz <=? usub 64 (uadd 64 start n) 1); [done|].
  destruct (ffr_spec (it_keys (iterate_free r)) None start (usub 64 (uadd 64 start n) 1))
    as [(ids' & Heq & _)|(er & Heq & _)]; [apply free_keys_ascending|done| |]; congruence.
Qed.

(** ** Bulk claims *)
Lemma claim_range_cases sz r start n d :
  wf sz r -> sz < 2 ^ 64 ->
  (exists ids r', find_free_range r start n = Ok ids /\ claim_range r start n d = (r', Ok tt) /\
     wf sz r' /\
     forall x, claimed r' !! x = if decide (x ∈ ids) then Some d else claimed r !! x) \/
  (exists e, find_free_range r start n = Err e /\ claim_range r start n d = (r, Err e)).
Proof.
  intros Hwf Hb. unfold claim_range. destruct (find_free_range r start n) as [ids|e|] eqn:Hf.
  - left. destruct (find_free_range_sound sz r start n ids) as [Ha Hu]; try done.
    destruct (add_all_spec sz r ids d) as (r' & Heq & Hwf' & Hl); try done.
    { by apply ascending_NoDup. }
    exists ids, r'. done.
  - right. by exists e.
  - exfalso. by eapply find_free_range_no_panic.
Qed.

Lemma ascending_take k l : ascending l -> ascending (take k l).
Proof.
  intros H. revert k. induction H as [|x l Hs IH HF]; intros [|k]; cbn; try constructor.
  - apply IH.
  - by apply Forall_take.
Qed.

Lemma claim_size_cases sz r n d :
  wf sz r -> sz < 2 ^ 64 ->
  (exists ids r', 1 <= n /\ (N.to_nat n <= length (it_keys (iterate_free r)))%nat /\
     ids = take (N.to_nat n) (it_keys (iterate_free r)) /\
     claim_size r n d = (r', Ok (map (fun i => NewEntry i d) ids)) /\
     wf sz r' /\
     forall x, claimed r' !! x = if decide (x ∈ ids) then Some d else claimed r !! x) \/
  ((n = 0 \/ (length (it_keys (iterate_free r)) < N.to_nat n)%nat) /\
   exists e, claim_size r n d = (r, Err e)).
Proof.
  intros Hwf Hb. unfold claim_size.
  destruct (decide (n = 0)) as [->|Hn].
  { right. split; [by left|]. exists ENoSize. rewrite (find_free_size_zero sz) by (done || lia). done. }
  rewrite (find_free_size_spec sz) by (done || lia).
  pose proof (free_keys_length r) as Hlen. destruct Hwf as (Hsz & Hw) eqn:Hwfe. clear Hwfe.
  destruct (N.ltb_spec sz n) as [Hsn|Hsn].
  { right. split; [right; lia|]. by eexists. }
  destruct (Nat.leb_spec (N.to_nat n) (length (it_keys (iterate_free r)))) as [Hle|Hgt].
  - left. set (ids := take (N.to_nat n) (it_keys (iterate_free r))).
    destruct (add_all_spec sz r ids d) as (r' & Heq & Hwf' & Hl); try done.
    { apply ascending_NoDup, ascending_take, free_keys_ascending. }
    { intros x Hx. rewrite <- Hsz. apply free_keys_elem.
      apply elem_of_take in Hx as (i & Hi & _). by eapply elem_of_list_lookup_2. }
    exists ids, r'. split; [lia|]. split; [done|]. split; [done|].
    rewrite add_all_entries_spec, Heq. done.
  - right. split; [right; lia|]. by eexists.
Qed.

(** ** Every call preserves the invariant *)
Lemma step_wf sz r o : wf sz r -> sz < 2 ^ 64 -> wf sz (fst (step r o)).
Proof.
  intros Hwf Hb. destruct (single_op o) eqn:Ho.
  { by apply (single_step sz r o). }
  destruct o; try discriminate; try exact Hwf; cbn [step].
  - pose proof (claim_dynamic_cases sz r d Hwf Hb) as Hc.
    destruct (it_keys (iterate_free r)) as [|x l] eqn:Hk; rewrite Hc; [exact Hwf|].
    cbn [fst]. apply wf_insert; [done|].
    destruct (lowest_head sz r x l Hwf Hk) as [[? _] _]. pose proof (capacity_ge sz). lia.
  - destruct (claim_range_cases sz r start size d Hwf Hb) as [(ids & r' & _ & -> & H & _)|(e & _ & ->)]; done.
  - destruct (claim_size_cases sz r size d Hwf Hb) as [(ids & r' & _ & _ & _ & -> & H & _)|(_ & e & ->)]; done.
Qed.

Lemma run_wf sz r os : wf sz r -> sz < 2 ^ 64 -> wf sz (fst (run r os)).
Proof.
  intros Hwf Hb. revert r Hwf. induction os as [|o os IH]; intros r Hwf; cbn [run]; [done|].
  pose proof (step_wf sz r o Hwf Hb) as H1. destruct (step r o) as [r1 x].
  specialize (IH r1 H1). destruct (run r1 os) as [r2 xs]. done.
Qed.

Lemma reachable_wf sz r : sz < 2 ^ 64 -> reachable sz r -> wf sz r.
Proof. intros Hb [os <-]. apply run_wf; [apply wf_new|done]. Qed.

Lemma run_app r os1 os2 :
  run r (os1 ++ os2) =
  let '(r1, xs) := run r os1 in let '(r2, ys) := run r1 os2 in (r2, xs ++ ys).
Proof.
  revert r. induction os1 as [|o os1 IH]; intros r; cbn [run app].
  - destruct (run r os2); done.
  - destruct (step r o) as [r1 x]. rewrite IH. destruct (run r1 os1) as [r2 xs].
    destruct (run r2 os2); done.
Qed.

Lemma reachable_step sz r o : reachable sz r -> reachable sz (fst (step r o)).
Proof.
  intros [os <-]. exists (os ++ [o]). rewrite run_app.
  destruct (run (new_table sz) os) as [r1 xs]. cbn [run fst]. by destruct (step r1 o).
Qed.

End proofs.
