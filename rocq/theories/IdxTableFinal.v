(** Proofs of the property statements of pkg/idxtable; the statements are
    repeated in Props_IdxTable.v. *)
From Verif Require Import IdxTableSpec IdxTableProofs.
From Coq Require Import Lia ZifyBool ZifyNat ZifyN.

Local Lemma claim_all_lookup {T} (m : gmap N T) l d x :
  claim_all m l d !! x = if decide (x ∈ l) then Some d else m !! x.
Proof.
  induction l as [|y l IH]; cbn [claim_all foldr].
  - rewrite decide_False; [done|]. apply not_elem_of_nil.
  - fold (claim_all m l d). destruct (decide (x = y)) as [->|Hne].
    + rewrite lookup_insert, decide_True; [done|]. left.
    + rewrite lookup_insert_ne by done. rewrite IH.
      destruct (decide (x ∈ l)).
      * by rewrite decide_True by (by right).
      * rewrite decide_False; [done|]. rewrite elem_of_cons. intros [?|?]; done.
Qed.

Local Lemma claim_all_eq {T} (m m' : gmap N T) l d :
  (forall x, m' !! x = if decide (x ∈ l) then Some d else m !! x) -> m' = claim_all m l d.
Proof. intros H. apply map_eq. intros x. by rewrite H, claim_all_lookup. Qed.

(* ------------------------------------------------------------------ C01 *)
Lemma C01_single_ops_are_a_bounded_map_pf :
  forall (T : Type) (sz : N) (r : table T) (os : list (op T)),
    1 <= sz < 2 ^ 64 -> reachable sz r -> forallb single_op os = true ->
    snd (run r os) = snd (spec_run sz (claimed r) os) /\
    claimed (fst (run r os)) = fst (spec_run sz (claimed r) os).
Proof.
  intros T sz r os Hb Hr Ho. apply reachable_wf in Hr; [|lia].
  rewrite <- (capacity_nz sz) by lia.
  revert r Hr. induction os as [|o os IH]; intros r Hwf; [done|].
  cbn [forallb] in Ho. apply andb_true_iff in Ho as [Ho Hos].
  cbn [run spec_run].
  destruct (single_step sz r o Hwf) as (H1 & H2 & H3); [lia|done|].
  destruct (step r o) as [r1 x]. cbn [fst snd] in H1, H2, H3.
  destruct (spec_single (capacity sz) (claimed r) o) as [m1 y]. cbn [fst snd] in H1, H2. subst y m1.
  specialize (IH Hos r1 H3). destruct (run r1 os) as [r2 xs].
  destruct (spec_run (capacity sz) (claimed r1) os) as [m2 ys]. cbn [fst snd] in *.
  destruct IH as [-> ->]. done.
Qed.

(** NewTable(0) is the exception the quantifier of C01 leaves out: it behaves
    like a map over all uint64 ids. *)
Lemma C01_size_zero_accepts_every_uint64_pf :
  forall (T : Type) (r : table T) (os : list (op T)),
    reachable 0 r -> forallb single_op os = true ->
    snd (run r os) = snd (spec_run (2 ^ 64) (claimed r) os) /\
    claimed (fst (run r os)) = fst (spec_run (2 ^ 64) (claimed r) os).
Proof.
  intros T r os Hr Ho. apply reachable_wf in Hr; [|lia].
  change (2 ^ 64) with (capacity 0).
  revert r Hr. induction os as [|o os IH]; intros r Hwf; [done|].
  cbn [forallb] in Ho. apply andb_true_iff in Ho as [Ho Hos].
  cbn [run spec_run].
  destruct (single_step 0 r o Hwf) as (H1 & H2 & H3); [lia|done|].
  destruct (step r o) as [r1 x]. cbn [fst snd] in H1, H2, H3.
  destruct (spec_single (capacity 0) (claimed r) o) as [m1 y]. cbn [fst snd] in H1, H2. subst y m1.
  specialize (IH Hos r1 H3). destruct (run r1 os) as [r2 xs].
  destruct (spec_run (capacity 0) (claimed r1) os) as [m2 ys]. cbn [fst snd] in *.
  destruct IH as [-> ->]. done.
Qed.

Local Lemma iterate_length {T} sz (r : table T) :
  wf sz r -> (sz = 0 -> N.of_nat (size (claimed r)) < 2 ^ 64) -> sz < 2 ^ 64 ->
  N.of_nat (length (it_keys (iterate r))) < 2 ^ 64.
Proof.
  intros Hwf H0 Hb. rewrite iter_keys_length. destruct (decide (sz = 0)) as [->|Hne].
  - specialize (H0 eq_refl). unfold claimed in H0. by rewrite map_size_fmap in H0.
  - pose proof (size_bound sz r Hwf) as Hs. rewrite capacity_nz in Hs by lia. lia.
Qed.

(** Whatever the call, an error or crash means nothing changed; and no call of a
    sequential history crashes. *)
Lemma C01_failing_call_changes_nothing_pf :
  forall (T : Type) (sz : N) (r : table T) (o : op T),
    sz < 2 ^ 64 -> reachable sz r ->
    failed (snd (step r o)) = true -> fst (step r o) = r.
Proof.
  intros T sz r o Hb Hr Hf. apply reachable_wf in Hr as Hwf; [|lia].
  destruct o as [id|id d|d|s n d|n d|id|id d| | | |id|id| |s n|n|]; try done; cbn [step] in *.
  - unfold claim in *. rewrite (add_spec sz) in * by done.
    destruct (id <? capacity sz); [|done]. destruct (claimed r !! id); done.
  - pose proof (claim_dynamic_cases sz r d Hwf Hb) as Hc.
    destruct (it_keys (iterate_free r)) as [|x l] eqn:Hk; rewrite Hc in *; done.
  - destruct (claim_range_cases sz r s n d Hwf Hb) as [(ids & r' & _ & Hc & _)|(e & _ & Hc)];
      rewrite Hc in *; done.
  - destruct (claim_size_cases sz r n d Hwf Hb) as [(ids & r' & _ & _ & _ & Hc & _)|(_ & e & Hc)];
      rewrite Hc in *; done.
  - unfold release, delete_ in *. destruct (validate r id); done.
  - unfold update_op, update in *. destruct (validate r _); try done.
    destruct (is_free r _); done.
Qed.

Lemma C01_no_call_crashes_pf :
  forall (T : Type) (sz : N) (r : table T) (o : op T),
    1 <= sz < 2 ^ 64 -> reachable sz r -> crashed (snd (step r o)) = false.
Proof.
  intros T sz r o Hb Hr. apply reachable_wf in Hr as Hwf; [|lia].
  destruct o as [id|id d|d|s n d|n d|id|id d| | | |id|id| |s n|n|]; try done; cbn [step] in *.
  - unfold get. rewrite (validate_spec sz); [|by destruct Hwf|lia].
    destruct (id <? capacity sz); cbn; [|done]. by destruct (t_map r !! id).
  - unfold claim. rewrite (add_spec sz) by (done || lia).
    destruct (id <? capacity sz); [|done]. destruct (claimed r !! id); done.
  - pose proof (claim_dynamic_cases sz r d Hwf) as Hc.
    destruct (it_keys (iterate_free r)) as [|x l] eqn:Hk; rewrite Hc by lia; done.
  - destruct (claim_range_cases sz r s n d Hwf) as [(ids & r' & _ & Hc & _)|(e & _ & Hc)];
      try lia; rewrite Hc; done.
  - destruct (claim_size_cases sz r n d Hwf) as [(ids & r' & _ & _ & _ & Hc & _)|(_ & e & Hc)];
      try lia; rewrite Hc; done.
  - unfold release, delete_. rewrite (validate_spec sz); [|by destruct Hwf|lia].
    by destruct (id <? capacity sz).
  - unfold update_op, update. cbn [e_id]. rewrite (validate_spec sz); [|by destruct Hwf|lia].
    destruct (id <? capacity sz); [|done]. by destruct (is_free r id).
  - unfold iterate. rewrite iter_all_start; [done|].
    apply (iterate_length sz r Hwf); lia.
  - unfold iterate_free. rewrite iter_all_start; [done|].
    pose proof (free_keys_length r) as Hl. unfold iterate_free in Hl. cbn [it_keys] in Hl.
    destruct Hwf as (Hsz & _). lia.
  - pose proof (find_free_cases sz r Hwf) as Hc.
    destruct (it_keys (iterate_free r)); rewrite Hc by lia; done.
  - destruct (find_free_range r s n) eqn:Hf; [done..|].
    exfalso. revert Hf. apply (find_free_range_no_panic sz); [done|lia].
  - cbn [snd crashed]. destruct (decide (n = 0)) as [->|].
    + rewrite (find_free_size_zero sz) by (done || lia). done.
    + rewrite (find_free_size_spec sz) by (done || lia).
      destruct (sz <? n); [done|]. by destruct (_ <=? _)%nat.
  - unfold get_all. rewrite (drain_values_spec _ _ _ 0); [done| |lia|done|lia].
    apply (iterate_length sz r Hwf); lia.
Qed.

(* ------------------------------------------------------------------ C02 *)
Lemma C02_claim_takes_a_free_id_pf :
  forall (T : Type) (sz : N) (r : table T) (o : op T) (id : N),
    sz < 2 ^ 64 -> reachable sz r -> hands_out r o id ->
    claimed r !! id = None /\ claimed (fst (step r o)) !! id = claim_data o.
Proof.
  intros T sz r o id Hb Hr Ho. apply reachable_wf in Hr as Hwf; [|lia].
  unfold hands_out in Ho.
  destruct o as [i|i d|d|s n d|n d|i|i d| | | |i|i| |s n|n|]; try done; cbn [step] in *.
  - unfold claim in *. rewrite (add_spec sz) in * by done.
    destruct (i <? capacity sz); [|done]. destruct (claimed r !! i) eqn:Hc; [done|].
    cbn [snd] in Ho. subst i. split; [done|]. cbn [fst].
    rewrite claimed_insert, lookup_insert. done.
  - pose proof (claim_dynamic_cases sz r d Hwf Hb) as Hc.
    destruct (it_keys (iterate_free r)) as [|x l] eqn:Hk; rewrite Hc in *; [done|].
    cbn [snd e_id] in Ho. subst x. destruct (lowest_head sz r id l Hwf Hk) as [[_ Hn] _].
    split; [done|]. cbn [fst]. rewrite claimed_insert, lookup_insert. done.
  - destruct (claim_range_cases sz r s n d Hwf Hb) as [(ids & r' & Hf & Hc & Hw & Hl)|(e & _ & Hc)];
      rewrite Hc in *; [|done].
    cbn [fst snd] in *. destruct Ho as [Hn Hs]. split; [done|].
    rewrite Hl in Hs |- *. destruct (decide (id ∈ ids)); [done|].
    rewrite Hn in Hs. by destruct Hs.
  - destruct (claim_size_cases sz r n d Hwf Hb) as [(ids & r' & _ & Hlen & Hids & Hc & Hw & Hl)|(_ & e & Hc)];
      rewrite Hc in *; [|done].
    cbn [fst snd] in *. rewrite map_map in Ho. cbn [e_id] in Ho. rewrite map_id in Ho.
    split.
    + assert (Hk : id ∈ it_keys (iterate_free r)).
      { rewrite Hids in Ho. apply elem_of_take in Ho as (j & Hj & _). by eapply elem_of_list_lookup_2. }
      apply free_keys_elem in Hk. by destruct Hk.
    + rewrite Hl, decide_True; done.
Qed.

Lemma C02_claims_never_touch_claimed_ids_pf :
  forall (T : Type) (sz : N) (r : table T) (o : op T) (id : N) (d : T),
    sz < 2 ^ 64 -> reachable sz r -> is_claim o = true ->
    claimed r !! id = Some d -> claimed (fst (step r o)) !! id = Some d.
Proof.
  intros T sz r o id d Hb Hr Ho Hd. apply reachable_wf in Hr as Hwf; [|lia].
  destruct o as [i|i d'|d'|s n d'|n d'|i|i d'| | | |i|i| |s n|n|]; try done; cbn [step] in *.
  - unfold claim. rewrite (add_spec sz) by done.
    destruct (i <? capacity sz); [|done]. destruct (claimed r !! i) eqn:Hc; [done|].
    cbn [fst]. rewrite claimed_insert, lookup_insert_ne; congruence.
  - pose proof (claim_dynamic_cases sz r d' Hwf Hb) as Hc.
    destruct (it_keys (iterate_free r)) as [|x l] eqn:Hk; rewrite Hc in *; [done|].
    destruct (lowest_head sz r x l Hwf Hk) as [[_ Hn] _].
    cbn [fst]. rewrite claimed_insert, lookup_insert_ne; congruence.
  - destruct (claim_range_cases sz r s n d' Hwf Hb) as [(ids & r' & Hf & Hc & Hw & Hl)|(e & _ & Hc)];
      rewrite Hc; [|done]. cbn [fst]. rewrite Hl.
    destruct (decide (id ∈ ids)) as [Hin|]; [|done].
    destruct (find_free_range_sound sz r s n ids Hwf Hb Hf) as [_ Hu].
    destruct (Hu _ Hin) as [_ ?]. congruence.
  - destruct (claim_size_cases sz r n d' Hwf Hb) as [(ids & r' & _ & Hlen & Hids & Hc & Hw & Hl)|(_ & e & Hc)];
      rewrite Hc in *; [|done]. cbn [fst]. rewrite Hl.
    destruct (decide (id ∈ ids)) as [Hin|]; [|done].
    assert (Hk : id ∈ it_keys (iterate_free r)).
    { rewrite Hids in Hin. apply elem_of_take in Hin as (j & Hj & _). by eapply elem_of_list_lookup_2. }
    apply free_keys_elem in Hk as [_ ?]. congruence.
Qed.

(** The only call that can turn a claimed id into an unclaimed one. *)
Local Lemma stays_claimed {T} sz (r : table T) o id :
  sz < 2 ^ 64 -> reachable sz r -> o <> ORelease id ->
  is_Some (claimed r !! id) -> is_Some (claimed (fst (step r o)) !! id).
Proof.
  intros Hb Hr Ho [d Hd]. destruct (is_claim o) eqn:Hc.
  { exists d. by eapply C02_claims_never_touch_claimed_ids_pf. }
  apply reachable_wf in Hr as Hwf; [|lia].
  destruct o as [i|i d'|d'|s n d'|n d'|i|i d'| | | |i|i| |s n|n|]; try done; cbn [step] in *.
  - unfold release, delete_. destruct (validate r i); try done. cbn [fst].
    rewrite claimed_delete, lookup_delete_ne; [done|]. congruence.
  - unfold update_op, update. cbn [e_id]. destruct (validate r i); try done.
    destruct (is_free r i); try done. cbn [fst]. rewrite claimed_insert.
    destruct (decide (i = id)) as [->|]; [rewrite lookup_insert; eauto|].
    rewrite lookup_insert_ne by done. eauto.
Qed.

Local Lemma run_stays_claimed {T} sz (r : table T) os id :
  sz < 2 ^ 64 -> reachable sz r -> ORelease id ∉ os ->
  is_Some (claimed r !! id) -> is_Some (claimed (fst (run r os)) !! id).
Proof.
  intros Hb. revert r. induction os as [|o os IH]; intros r Hr Ho Hs; [done|].
  apply not_elem_of_cons in Ho as [Ho1 Ho2]. cbn [run].
  assert (Hr1 := reachable_step sz r o Hr).
  assert (Hs1 : is_Some (claimed (fst (step r o)) !! id)).
  { eapply stays_claimed; eauto. }
  destruct (step r o) as [r1 x]. cbn [fst] in *. specialize (IH r1 Hr1 Ho2 Hs1).
  destruct (run r1 os). done.
Qed.

Local Lemma hands_out_data {T} (r : table T) o id :
  hands_out r o id -> exists d, claim_data o = Some d.
Proof. unfold hands_out. destruct o; cbn [claim_data]; try done; eauto. Qed.

Local Lemma reachable_run {T} sz (r : table T) os : reachable sz r -> reachable sz (fst (run r os)).
Proof.
  intros [os0 <-]. exists (os0 ++ os). rewrite run_app.
  destruct (run (new_table sz) os0) as [ra xs]. cbn [fst]. by destruct (run ra os).
Qed.

Lemma C02_id_never_handed_out_twice_pf :
  forall (T : Type) (sz : N) (os1 os2 : list (op T)) (o1 o2 : op T) (id : N),
    sz < 2 ^ 64 ->
    hands_out (fst (run (new_table sz) os1)) o1 id ->
    hands_out (fst (run (new_table sz) (os1 ++ [o1] ++ os2))) o2 id ->
    ORelease id ∈ os2.
Proof.
  intros T sz os1 os2 o1 o2 id Hb H1 H2.
  assert (Hdec : forall o : op T, {o = ORelease id} + {o <> ORelease id}).
  { intros o. destruct o as [i|i d'|d'|s n d'|n d'|i|i d'| | | |i|i| |s n|n|]; try (right; discriminate).
    destruct (decide (i = id)) as [->|]; [by left|right; congruence]. }
  destruct (@Exists_dec _ (fun o => o = ORelease id) Hdec os2) as [He|Hn].
  { apply Exists_exists in He as (o & Ho & ->). done. }
  exfalso. set (r1 := fst (run (new_table sz) os1)) in *.
  assert (Hr1 : reachable sz r1) by (by exists os1).
  destruct (hands_out_data _ _ _ H1) as [d Hd].
  apply (C02_claim_takes_a_free_id_pf T sz) in H1 as [_ Hc1]; [|done|done].
  assert (Heq : fst (run (new_table sz) (os1 ++ [o1] ++ os2)) = fst (run (fst (step r1 o1)) os2)).
  { rewrite run_app. unfold r1. destruct (run (new_table sz) os1) as [ra xs]. cbn [fst app run].
    destruct (step ra o1) as [rb y]. cbn [fst]. by destruct (run rb os2). }
  assert (Hr2 : reachable sz (fst (step r1 o1))) by (by apply reachable_step).
  assert (Hs : is_Some (claimed (fst (run (fst (step r1 o1)) os2)) !! id)).
  { apply (run_stays_claimed sz); try done.
    - intros Hin. apply Hn. apply Exists_exists. eauto.
    - rewrite Hc1, Hd. eauto. }
  rewrite Heq in H2. apply (C02_claim_takes_a_free_id_pf T sz) in H2 as [Hc2 _]; [|done|].
  - rewrite Hc2 in Hs. by destruct Hs.
  - by apply reachable_run.
Qed.

(* ------------------------------------------------------------------ C03 *)
Lemma C03_claimed_ids_in_range_partial_pf :
  forall (T : Type) (sz : N) (r : table T) (id : N),
    1 <= sz < 2 ^ 64 -> reachable sz r -> is_Some (claimed r !! id) ->
    id < sz /\ N.of_nat (size (claimed r)) <= sz.
Proof.
  intros T sz r id Hb Hr Hs. apply reachable_wf in Hr as Hwf; [|lia].
  pose proof (size_bound sz r Hwf) as Hsz. rewrite capacity_nz in Hsz by lia.
  unfold claimed at 1. rewrite map_size_fmap. split; [|done].
  apply claimed_Some in Hs as [e He]. destruct Hwf as (_ & _ & Hin).
  specialize (Hin _ _ He). by rewrite capacity_nz in Hin by lia.
Qed.

Lemma C03_claimed_ids_in_range_refuted_pf :
  exists (sz : N) (r : table unit) (id : N),
    sz < 2 ^ 64 /\ reachable sz r /\ is_Some (claimed r !! id) /\ ~ id < sz.
Proof.
  exists 0, (fst (run (new_table 0) [OClaim 5 tt])), 5.
  split; [lia|]. split; [by eexists|]. split; [|lia]. vm_compute. eauto.
Qed.

(* ------------------------------------------------------------------ C04 *)
Lemma C04_claim_dynamic_takes_lowest_free_pf :
  forall (T : Type) (sz : N) (r : table T) (d : T),
    sz < 2 ^ 64 -> reachable sz r ->
    (exists id r', lowest_unclaimed sz (claimed r) id /\
       step r (OClaimDynamic d) = (r', REntry (Ok (NewEntry id d))) /\
       claimed r' = <[id := d]> (claimed r) /\
       step r OFindFree = (r, RId (Ok id))) \/
    ((forall id, ~ unclaimed sz (claimed r) id) /\
       step r (OClaimDynamic d) = (r, REntry (Err ENoFree)) /\
       step r OFindFree = (r, RId (Err ENoFree))).
Proof.
  intros T sz r d Hb Hr. apply reachable_wf in Hr as Hwf; [|lia].
  pose proof (claim_dynamic_cases sz r d Hwf Hb) as Hc.
  pose proof (find_free_cases sz r Hwf Hb) as Hf. cbn [step].
  destruct (it_keys (iterate_free r)) as [|x l] eqn:Hk; rewrite Hc, Hf.
  - right. split; [|done]. by apply (keys_nil sz r).
  - left. eexists x, _. split; [by eapply lowest_head|]. split; [done|].
    split; [apply claimed_insert|done].
Qed.

(* ------------------------------------------------------------------ C05 *)
Local Lemma NoDup_incl_length_N (l1 l2 : list N) :
  NoDup l1 -> (forall x, x ∈ l1 -> x ∈ l2) -> (length l1 <= length l2)%nat.
Proof.
  intros H1 H2. apply submseteq_length, NoDup_submseteq; done.
Qed.

Lemma C05_claim_size_takes_n_lowest_pf :
  forall (T : Type) (sz : N) (r : table T) (n : N) (d : T),
    sz < 2 ^ 64 -> reachable sz r -> 1 <= n ->
    (exists ids r', at_least_free sz (claimed r) n /\
       lowest_n sz (claimed r) n ids /\
       step r (OClaimSize n d) = (r', REntries (Ok (map (fun i => NewEntry i d) ids))) /\
       claimed r' = claim_all (claimed r) ids d /\
       step r (OFindFreeSize n) = (r, RIds (Ok ids))) \/
    (~ at_least_free sz (claimed r) n /\
       (exists e, step r (OClaimSize n d) = (r, REntries (Err e))) /\
       (exists e, step r (OFindFreeSize n) = (r, RIds (Err e)))).
Proof.
  intros T sz r n d Hb Hr Hn. apply reachable_wf in Hr as Hwf; [|lia].
  assert (Hsz : t_size r = sz) by (by destruct Hwf).
  cbn [step]. rewrite (find_free_size_spec sz) by (done || lia).
  destruct (claim_size_cases sz r n d Hwf Hb) as [(ids & r' & _ & Hlen & Hids & Hc & Hw & Hl)|(Hno & e & Hc)];
    rewrite Hc.
  - left. exists ids, r'.
    assert (Hil : N.of_nat (length ids) = n) by (rewrite Hids, take_length; lia).
    assert (Hif : forall x, x ∈ ids -> unclaimed sz (claimed r) x).
    { intros x Hx. rewrite <- Hsz. apply free_keys_elem. rewrite Hids in Hx.
      apply elem_of_take in Hx as (j & Hj & _). by eapply elem_of_list_lookup_2. }
    assert (Hia : ascending ids) by (rewrite Hids; apply ascending_take, free_keys_ascending).
    split. { exists ids. split; [by apply ascending_NoDup|]. done. }
    split.
    { split; [done|]. split; [done|]. split; [done|].
      intros x j Hx Hj Hnj. rewrite <- Hsz in Hj. apply free_keys_elem in Hj.
      pose proof (free_keys_ascending r) as Ha. unfold ascending in Ha.
      rewrite <- (take_drop (N.to_nat n) (it_keys (iterate_free r))) in Ha, Hj.
      rewrite <- Hids in Ha, Hj. apply elem_of_app in Hj as [|Hj]; [done|].
      clear -Ha Hx Hj. induction ids as [|y ids IH]; [by apply elem_of_nil in Hx|].
      cbn [app] in Ha. inversion Ha as [|? ? Ha' HF]; subst.
      apply elem_of_cons in Hx as [->|Hx]; [|by apply IH].
      rewrite Forall_forall in HF. apply HF. apply elem_of_app. by right. }
    split; [done|]. split; [by apply claim_all_eq|].
    pose proof (free_keys_length r). rewrite Hsz in *.
    destruct (N.ltb_spec sz n); [lia|].
    destruct (Nat.leb_spec (N.to_nat n) (length (it_keys (iterate_free r)))); [|lia].
    by rewrite <- Hids.
  - right. destruct Hno as [->|Hno]; [lia|]. split.
    { intros (l & Hnd & Hll & Hlf).
      assert ((length l <= length (it_keys (iterate_free r)))%nat); [|lia].
      apply NoDup_incl_length_N; [done|]. intros x Hx. apply free_keys_elem. rewrite Hsz. by apply Hlf. }
    split; [by eexists|].
    destruct (sz <? n); [by eexists|].
    destruct (Nat.leb_spec (N.to_nat n) (length (it_keys (iterate_free r)))); [lia|by eexists].
Qed.

Lemma C05_claim_size_zero_is_an_error_pf :
  forall (T : Type) (sz : N) (r : table T) (d : T),
    sz < 2 ^ 64 -> reachable sz r ->
    exists e, step r (OClaimSize 0 d) = (r, REntries (Err e)).
Proof.
  intros T sz r d Hb Hr. apply reachable_wf in Hr as Hwf; [|lia].
  cbn [step]. destruct (claim_size_cases sz r 0 d Hwf Hb) as [(ids & r' & ? & _)|(_ & e & ->)]; [lia|].
  by eexists.
Qed.

(* ------------------------------------------------------------------ C06 *)
Lemma C06_claim_range_all_or_nothing_pf :
  forall (T : Type) (sz : N) (r : table T) (start n : N) (d : T),
    sz < 2 ^ 64 -> reachable sz r ->
    (exists e, step r (OClaimRange start n d) = (r, RUnit (Err e))) \/
    (exists ids r', step r (OClaimRange start n d) = (r', RUnit (Ok tt)) /\
       step r (OFindFreeRange start n) = (r, RIds (Ok ids)) /\
       ascending ids /\ (forall id, id ∈ ids -> unclaimed sz (claimed r) id) /\
       claimed r' = claim_all (claimed r) ids d).
Proof.
  intros T sz r start n d Hb Hr. apply reachable_wf in Hr as Hwf; [|lia]. cbn [step].
  destruct (claim_range_cases sz r start n d Hwf Hb) as [(ids & r' & Hf & Hc & Hw & Hl)|(e & _ & Hc)];
    rewrite Hc; [right|left; by eexists].
  exists ids, r'. destruct (find_free_range_sound sz r start n ids Hwf Hb Hf) as [Ha Hu].
  rewrite Hf. split; [done|]. split; [done|]. split; [done|]. split; [done|]. by apply claim_all_eq.
Qed.

Lemma C06_claim_size_all_or_nothing_pf :
  forall (T : Type) (sz : N) (r : table T) (n : N) (d : T),
    sz < 2 ^ 64 -> reachable sz r ->
    (exists e, step r (OClaimSize n d) = (r, REntries (Err e))) \/
    (exists ids r', step r (OClaimSize n d) = (r', REntries (Ok (map (fun i => NewEntry i d) ids))) /\
       ascending ids /\ (forall id, id ∈ ids -> unclaimed sz (claimed r) id) /\
       claimed r' = claim_all (claimed r) ids d).
Proof.
  intros T sz r n d Hb Hr. destruct (decide (n = 0)) as [->|Hn].
  { left. by apply (C05_claim_size_zero_is_an_error_pf T sz). }
  destruct (C05_claim_size_takes_n_lowest_pf T sz r n d) as [(ids & r' & _ & Hlow & Hs & Hc & _)|(_ & [e He] & _)];
    try done; try lia.
  - right. exists ids, r'. destruct Hlow as (Ha & _ & Hu & _). done.
  - left. by exists e.
Qed.

(* ------------------------------------------------------------------ C07 *)
(** Exactly what the code does.  Let E be the larger of start+n-1 (computed
    modulo 2^64) and start+1.  The call succeeds iff start and start+n-1 pass the
    range checks, the unclaimed ids of [start,E) are an initial segment of it, and
    some id at or above E is unclaimed; it then claims that segment and the first
    unclaimed id at or above E. *)
Lemma C07_claim_range_exact_behaviour_pf :
  forall (T : Type) (sz : N) (r : table T) (start n : N) (d : T) (ids : list N),
    1 <= sz < 2 ^ 64 -> reachable sz r -> start < 2 ^ 64 -> n < 2 ^ 64 ->
    let last := (start + n + (2 ^ 64 - 1)) mod 2 ^ 64 in
    let E := N.max last (start + 1) in
    step r (OFindFreeRange start n) = (r, RIds (Ok ids)) <->
    start < sz /\ last < sz /\
    exists k f, start + N.of_nat k <= E /\
      (forall x, start <= x < E -> (unclaimed sz (claimed r) x <-> x < start + N.of_nat k)) /\
      E <= f /\ unclaimed sz (claimed r) f /\
      (forall j, E <= j < f -> ~ unclaimed sz (claimed r) j) /\
      ids = ids_from start k ++ [f].
Proof.
  intros T sz r start n d ids Hb Hr Hst Hnn last E. apply reachable_wf in Hr as Hwf; [|lia].
  cbn [step]. rewrite (find_free_range_ffr sz) by (done || lia). rewrite capacity_nz by lia.
  assert (Hlast : usub 64 (uadd 64 start n) 1 = last).
  { unfold last, usub, uadd. change (1 mod 2 ^ 64) with 1. rewrite pow64. 
    replace ((start + n) mod 18446744073709551616 + 18446744073709551616 - 1)
      with ((start + n) mod 18446744073709551616 + (18446744073709551616 - 1)) by lia.
    rewrite N.add_mod_idemp_l by lia. done. }
  rewrite Hlast. cbv zeta.
  assert (Hel : forall x, x ∈ it_keys (iterate_free r) <-> unclaimed sz (claimed r) x).
  { intros x. destruct Hwf as (<- & _). apply free_keys_elem. }
  assert (Hiff : range_hit (it_keys (iterate_free r)) start E ids <->
    exists k f, start + N.of_nat k <= E /\
      (forall x, start <= x < E -> (unclaimed sz (claimed r) x <-> x < start + N.of_nat k)) /\
      E <= f /\ unclaimed sz (claimed r) f /\
      (forall j, E <= j < f -> ~ unclaimed sz (claimed r) j) /\
      ids = ids_from start k ++ [f]).
  { unfold range_hit. setoid_rewrite Hel. done. }
  rewrite <- Hiff. clear Hiff.
  destruct (N.leb_spec sz start). { split; [done|]. intros [? _]; lia. }
  destruct (N.leb_spec sz last). { split; [done|]. intros (_ & ? & _); lia. }
  destruct (ffr_spec (it_keys (iterate_free r)) None start last) as [(ids' & Heq & Hhit)|(er & Heq & Hno)];
    [apply free_keys_ascending|done| |].
  - rewrite Heq. split.
    + intros [= ->]. done.
    + intros (_ & _ & Hh). f_equal. f_equal. f_equal.
      destruct Hhit as (k & f & H1 & H2 & H3 & H4 & H5 & ->).
      destruct Hh as (k' & f' & H1' & H2' & H3' & H4' & H5' & ->).
      fold E in H1, H2, H3, H5.
      assert (f = f').
      { destruct (N.lt_trichotomy f f') as [Hlt|[?|Hlt]]; [|done|].
        - exfalso. apply (H5' f); [lia|done].
        - exfalso. apply (H5 f'); [lia|done]. }
      assert (k = k').
      { destruct (Nat.lt_trichotomy k k') as [Hlt|[?|Hlt]]; [|done|].
        - exfalso. assert (Hx : start + N.of_nat k < start + N.of_nat k) by (apply H2; [lia|]; apply H2'; lia). lia.
        - exfalso. assert (Hx : start + N.of_nat k' < start + N.of_nat k') by (apply H2'; [lia|]; apply H2; lia). lia. }
      by subst.
  - rewrite Heq. split; [done|]. intros (_ & _ & Hh). exfalso. by eapply Hno.
Qed.

(** The part of C07 that holds: a request of at least two ids that are all free
    is served exactly. *)
Lemma C07_claim_range_served_exactly_partial_pf :
  forall (T : Type) (sz : N) (r : table T) (start n : N) (d : T),
    1 <= sz < 2 ^ 64 -> reachable sz r -> 2 <= n -> start + n <= sz ->
    (forall id, start <= id < start + n -> unclaimed sz (claimed r) id) ->
    exists r', step r (OClaimRange start n d) = (r', RUnit (Ok tt)) /\
      step r (OFindFreeRange start n) = (r, RIds (Ok (ids_from start (N.to_nat n)))) /\
      forall id, claimed r' !! id =
        if decide (start <= id < start + n) then Some d else claimed r !! id.
Proof.
  intros T sz r start n d Hb Hr Hn Hle Hfree.
  assert (Hff : step r (OFindFreeRange start n) = (r, RIds (Ok (ids_from start (N.to_nat n))))).
  { apply (C07_claim_range_exact_behaviour_pf T sz r start n d); [done|done|lia|lia|].
    assert (Hlast : (start + n + (2 ^ 64 - 1)) mod 2 ^ 64 = start + n - 1).
    { replace (start + n + (2 ^ 64 - 1)) with (start + n - 1 + 1 * 2 ^ 64) by lia.
      rewrite N.mod_add by lia. apply N.mod_small. lia. }
    cbv zeta. rewrite Hlast. split; [lia|]. split; [lia|].
    exists (N.to_nat (n - 1)), (start + n - 1).
    split; [lia|]. split.
    { intros x Hx. split; [lia|]. intros _. apply Hfree. lia. }
    split; [lia|]. split; [apply Hfree; lia|]. split; [lia|].
    replace (N.to_nat n) with (S (N.to_nat (n - 1))) by lia. rewrite ids_from_snoc.
    f_equal. f_equal. lia. }
  destruct (C06_claim_range_all_or_nothing_pf T sz r start n d) as [[e He]|(ids & r' & H1 & H2 & H3 & H4 & H5)];
    [lia|done| |].
  - exfalso. cbn [step] in He, Hff. apply reachable_wf in Hr as Hwf; [|lia].
    destruct (claim_range_cases sz r start n d Hwf) as [(ids & r' & Hf & Hc & _)|(e' & Hf & Hc)]; [lia| |].
    + rewrite Hc in He. congruence.
    + rewrite Hf in Hff. congruence.
  - exists r'. split; [done|]. split; [done|]. rewrite H2 in Hff. injection Hff as ->.
    intros id. rewrite H5, claim_all_lookup.
    destruct (decide (id ∈ _)) as [Hin|Hin]; rewrite ids_from_elem in Hin.
    + rewrite decide_True by lia. done.
    + rewrite decide_False by lia. done.
Qed.

(** ... and a request that does not fit the table is always refused. *)
Lemma C07_oversized_request_refused_partial_pf :
  forall (T : Type) (sz : N) (r : table T) (start n : N) (d : T),
    1 <= sz < 2 ^ 64 -> reachable sz r -> start + n < 2 ^ 64 -> sz < start + n ->
    exists e, step r (OClaimRange start n d) = (r, RUnit (Err e)).
Proof.
  intros T sz r start n d Hb Hr Hnw Hgt. apply reachable_wf in Hr as Hwf; [|lia].
  cbn [step]. destruct (claim_range_cases sz r start n d Hwf) as [(ids & r' & Hf & _)|(e & _ & ->)]; [lia| |by eexists].
  exfalso. rewrite (find_free_range_ffr sz) in Hf by (done || lia). rewrite capacity_nz in Hf by lia.
  rewrite uadd64_small, usub64_1 in Hf by lia. cbv zeta in Hf.
  destruct (N.leb_spec sz start); [done|]. destruct (N.leb_spec sz (start + n - 1)); [done|lia].
Qed.

(** C07 as stated is false: the last requested id is in use and the call claims
    another id instead; a request for one id claims two. *)
Lemma C07_claim_range_refuted_pf :
  (exists (r : table unit) start n, reachable 10 r /\ 1 <= n /\ start + n <= 10 /\
     ~ (forall id, start <= id < start + n -> unclaimed 10 (claimed r) id) /\
     snd (step r (OClaimRange start n tt)) = RUnit (Ok tt)) /\
  (exists (r : table unit) start n id, reachable 10 r /\ 1 <= n /\ start + n <= 10 /\
     (forall id, start <= id < start + n -> unclaimed 10 (claimed r) id) /\
     hands_out r (OClaimRange start n tt) id /\ ~ (start <= id < start + n)) /\
  (exists (r : table unit) start n, reachable 10 r /\ 1 <= n /\ start + n <= 10 /\
     (forall id, start <= id < start + n -> unclaimed 10 (claimed r) id) /\
     failed (snd (step r (OClaimRange start n tt))) = true) /\
  (exists (r : table unit) start, reachable 10 r /\
     snd (step r (OClaimRange start 0 tt)) = RUnit (Ok tt)).
Proof.
  split; [|split; [|split]].
  - exists (fst (run (new_table 10) [OClaim 5 tt])), 3, 3. split; [by eexists|].
    split; [lia|]. split; [lia|]. split; [|by vm_compute].
    intros H. destruct (H 5) as [_ H5]; [lia|]. vm_compute in H5. discriminate.
  - exists (new_table 10), 3, 1, 4. split; [by exists []|]. split; [lia|]. split; [lia|].
    split; [intros id ?; split; [lia|done]|]. split; [|lia]. vm_compute. eauto.
  - exists (new_table 10), 9, 1. split; [by exists []|]. split; [lia|]. split; [lia|].
    split; [intros id ?; split; [lia|done]|]. by vm_compute.
  - exists (new_table 10), 3. split; [by exists []|]. by vm_compute.
Qed.

(* ------------------------------------------------------------------ C08 *)
Lemma C08_iterate_enumerates_claimed_ids_pf :
  forall (T : Type) (sz : N) (r : table T),
    sz < 2 ^ 64 -> reachable sz r -> (sz = 0 -> N.of_nat (size (claimed r)) < 2 ^ 64) ->
    exists l, step r OIterate = (r, RIds (Ok l)) /\
      ascending l /\ (forall id, id ∈ l <-> is_Some (claimed r !! id)) /\
      exists es, step r OGetAll = (r, RValues (Ok es)) /\
        length es = length l /\
        forall i id, l !! i = Some id ->
          exists d, claimed r !! id = Some d /\ es !! i = Some (Some (NewEntry id d)).
Proof.
  intros T sz r Hb Hr H0. apply reachable_wf in Hr as Hwf; [|lia].
  assert (Hlen : N.of_nat (length (it_keys (iterate r))) < 2 ^ 64) by (by apply (iterate_length sz)).
  exists (it_keys (iterate r)). destruct (iter_keys_spec r) as [Ha He].
  split. { cbn [step]. unfold iterate. by rewrite iter_all_start. }
  split; [done|]. split; [done|].
  eexists. split. { cbn [step]. unfold get_all. rewrite (drain_values_spec _ _ _ 0); [done|done|lia|done|lia]. }
  rewrite drop_0. split; [by rewrite fmap_length|].
  intros i id Hi. assert (Hin : id ∈ it_keys (iterate r)) by (by eapply elem_of_list_lookup_2).
  apply He in Hin as [d Hd]. exists d. split; [done|].
  rewrite list_lookup_fmap, Hi. cbn. f_equal.
  rewrite claimed_lookup in Hd. destruct (t_map r !! id) as [[j d']|] eqn:Hl; [|done].
  destruct Hwf as (_ & Hid & _). specialize (Hid _ _ Hl). cbn in Hid, Hd. by simplify_eq.
Qed.

Lemma C08_iterate_free_enumerates_unclaimed_ids_pf :
  forall (T : Type) (sz : N) (r : table T),
    sz < 2 ^ 64 -> reachable sz r ->
    exists l, step r OIterateFree = (r, RIds (Ok l)) /\
      ascending l /\ (forall id, id ∈ l <-> unclaimed sz (claimed r) id).
Proof.
  intros T sz r Hb Hr. apply reachable_wf in Hr as Hwf; [|lia].
  exists (it_keys (iterate_free r)). split.
  { cbn [step]. unfold iterate_free. rewrite iter_all_start; [done|].
    pose proof (free_keys_length r) as Hl. unfold iterate_free in Hl. cbn [it_keys] in Hl.
    destruct Hwf as (Hsz & _). lia. }
  split; [apply free_keys_ascending|]. destruct Hwf as (<- & _). apply free_keys_elem.
Qed.

(* ------------------------------------------------------------------ C09 *)
Lemma C09_claimed_plus_free_is_everything_pf :
  forall (T : Type) (sz : N) (r : table T),
    1 <= sz < 2 ^ 64 -> reachable sz r ->
    exists n used free, step r OSize = (r, RInt n) /\
      step r OIterate = (r, RIds (Ok used)) /\
      step r OIterateFree = (r, RIds (Ok free)) /\
      N.of_nat n + N.of_nat (length free) = sz /\ length used = n /\
      forall id, id < sz -> (id ∈ used <-> id ∉ free).
Proof.
  intros T sz r Hb Hr.
  destruct (C08_iterate_enumerates_claimed_ids_pf T sz r) as (used & Hu1 & Hu2 & Hu3 & _); [lia|done|lia|].
  destruct (C08_iterate_free_enumerates_unclaimed_ids_pf T sz r) as (free & Hf1 & Hf2 & Hf3); [lia|done|].
  apply reachable_wf in Hr as Hwf; [|lia].
  exists (size (t_map r)), used, free. split; [done|]. split; [done|]. split; [done|].
  assert (used = it_keys (iterate r)) as ->.
  { destruct (iter_keys_spec r) as [Ha He]. apply ascending_unique; [done|done|]. intros x. by rewrite Hu3, He. }
  assert (free = it_keys (iterate_free r)) as ->.
  { apply ascending_unique; [done|apply free_keys_ascending|]. intros x.
    rewrite Hf3, free_keys_elem. by destruct Hwf as (-> & _). }
  split; [apply count_partition; [lia|done]|]. split; [apply iter_keys_length|].
  intros id Hid. rewrite Hu3, Hf3. unfold unclaimed.
  destruct (claimed r !! id) eqn:Hc.
  - split; [intros _ [_ ?]; done|eauto].
  - split; [intros [? ?]; done|]. intros Hn. exfalso. by apply Hn.
Qed.

(* ------------------------------------------------------------------ C10 *)
Lemma C10_released_id_can_be_claimed_again_pf :
  forall (T : Type) (sz : N) (r : table T) (id : N) (d : T),
    1 <= sz < 2 ^ 64 -> reachable sz r -> id < sz ->
    exists r1 r2, step r (ORelease id) = (r1, RUnit (Ok tt)) /\
      step r1 (OIsFree id) = (r1, RBool true) /\
      step r1 (OClaim id d) = (r2, RUnit (Ok tt)) /\
      step r2 (OGet id) = (r2, REntry (Ok (NewEntry id d))) /\
      (claimed r !! id = None -> claimed r1 = claimed r) /\
      (forall j, j <> id -> claimed r1 !! j = claimed r !! j /\ claimed r2 !! j = claimed r !! j).
Proof.
  intros T sz r id d Hb Hr Hid. apply reachable_wf in Hr as Hwf; [|lia].
  destruct (single_step sz r (ORelease id) Hwf) as (H1 & H2 & H3); [lia|done|].
  destruct (step r (ORelease id)) as [r1 x1]. cbn [fst snd] in *.
  destruct (single_step sz r1 (OClaim id d) H3) as (H4 & H5 & H6); [lia|done|].
  destruct (single_step sz r1 (OIsFree id) H3) as (H7 & H8 & H9); [lia|done|].
  destruct (step r1 (OClaim id d)) as [r2 x2] eqn:Hst. cbn [fst snd] in *.
  destruct (single_step sz r2 (OGet id) H6) as (H10 & H11 & H12); [lia|done|].
  cbn [spec_single] in *. rewrite capacity_nz in * by lia.
  assert (Hlt : (id <? sz) = true) by (by apply N.ltb_lt). rewrite Hlt in *. cbn [fst snd] in *.
  assert (Hc1 : claimed r1 !! id = None) by (rewrite H1; apply lookup_delete).
  rewrite Hc1 in H4, H5, H8. cbn [fst snd] in *. subst x1 x2.
  exists r1, r2. split; [done|].
  split. { rewrite (surjective_pairing (step r1 (OIsFree id))), H8. f_equal. }
  split; [done|].
  split. { rewrite (surjective_pairing (step r2 (OGet id))), H11, H4, lookup_insert. f_equal. }
  split. { intros Hn. by rewrite H1, delete_notin. }
  intros j Hj. rewrite H4, H1, lookup_insert_ne by done.
  rewrite lookup_delete_ne by done. done.
Qed.

Lemma C10_claim_then_release_restores_pf :
  forall (T : Type) (sz : N) (r : table T) (id : N) (d : T),
    1 <= sz < 2 ^ 64 -> reachable sz r -> id < sz -> claimed r !! id = None ->
    exists r1 r2, step r (OClaim id d) = (r1, RUnit (Ok tt)) /\
      step r1 (ORelease id) = (r2, RUnit (Ok tt)) /\ r2 = r.
Proof.
  intros T sz r id d Hb Hr Hid Hn. apply reachable_wf in Hr as Hwf; [|lia].
  cbn [step]. unfold claim. rewrite (add_spec sz) by (done || lia).
  rewrite capacity_nz by lia.
  assert (Hlt : (id <? sz) = true) by (by apply N.ltb_lt). rewrite Hlt, Hn.
  eexists _, _. split; [done|].
  unfold release, delete_. rewrite (validate_spec sz); [|by destruct Hwf|lia].
  rewrite capacity_nz, Hlt by lia. split; [done|]. cbn [t_map t_size].
  apply claimed_None in Hn. rewrite delete_insert by done. by destruct r.
Qed.

(* ------------------------------------------------------------------ C11 *)
Local Lemma walk_spec {T} (r : table T) it k oss :
  N.of_nat (length (it_keys it)) < 2 ^ 64 -> (k <= length (it_keys it))%nat -> at_pos it k ->
  exists ps, walk r it oss = Ok ps /\
    map fst ps = take (length oss) (drop k (it_keys it)) /\
    forall i id v, ps !! i = Some (id, v) ->
      v = t_map (fst (run r (concat (take (S i) oss)))) !! id.
Proof.
  revert r it k. induction oss as [|os oss IH]; intros r it k Hl Hk Hp.
  - exists []. split; [done|]. split; [done|]. done.
  - cbn [walk]. rewrite (iter_next_pos it k) by done. case_bool_decide as Hlt.
    + unfold iter_value, iter_id. cbn [it_keys it_current]. rewrite Nat2N.id.
      destruct (lookup_lt_is_Some_2 _ _ Hlt) as [x Hx]. rewrite Hx. cbn [rbind].
      destruct (IH (fst (run r os)) (Iterator (N.of_nat k) (it_keys it)) (S k)) as (ps & H1 & H2 & H3);
        cbn [it_keys]; [done|lia|apply at_pos_S; lia|].
      rewrite H1. cbn [rbind]. eexists. split; [done|]. split.
      * cbn [map fst length]. rewrite (drop_S _ x k) by done. cbn [take]. by rewrite H2.
      * intros [|i] id v; cbn [lookup list_lookup].
        -- intros [= <- <-]. cbn [take concat]. by rewrite app_nil_r.
        -- intros Hi. apply H3 in Hi. cbn [take concat] in *. rewrite run_app.
           destruct (run r os) as [ra xs]. cbn [fst] in *.
           rewrite Hi. by destruct (run ra _).
    + exists []. split; [done|]. split; [|done]. rewrite drop_ge by lia. by rewrite take_nil.
Qed.

Lemma C11_open_iterator_pf :
  forall (T : Type) (sz : N) (r : table T) (oss : list (list (op T))),
    sz < 2 ^ 64 -> reachable sz r -> (sz = 0 -> N.of_nat (size (claimed r)) < 2 ^ 64) ->
    exists ks ps,
      ascending ks /\ (forall id, id ∈ ks <-> is_Some (claimed r !! id)) /\
      walk r (iterate r) oss = Ok ps /\
      map fst ps = take (length oss) ks /\
      forall i id v, ps !! i = Some (id, v) ->
        v = (fun d => NewEntry id d) <$> claimed (fst (run r (concat (take (S i) oss)))) !! id.
Proof.
  intros T sz r oss Hb Hr H0. apply reachable_wf in Hr as Hwf; [|lia].
  destruct (iter_keys_spec r) as [Ha He].
  destruct (walk_spec r (iterate r) 0 oss) as (ps & H1 & H2 & H3); [by apply (iterate_length sz)|lia|done|].
  exists (it_keys (iterate r)), ps. split; [done|]. split; [done|]. split; [done|]. split; [done|].
  intros i id v Hi. rewrite (H3 i id v Hi), claimed_lookup.
  assert (Hw : wf sz (fst (run r (concat (take (S i) oss))))) by (apply run_wf; [done|lia]).
  destruct (t_map (fst (run r _)) !! id) as [[j d]|] eqn:Hl; [|done].
  destruct Hw as (_ & Hid & _). specialize (Hid _ _ Hl). cbn in *. by subst.
Qed.

(* ------------------------------------------------------------------ C75 *)
Local Lemma nexts_spec keys k : N.of_nat k < 2 ^ 64 ->
  nexts (S k) (Iterator (2 ^ 64 - 1) keys) = Iterator (N.of_nat k) keys.
Proof.
  unfold nexts. rewrite pow64. induction k as [|k IH]; intros Hk; [reflexivity|].
  rewrite Nat.iter_succ, IH by lia. unfold iter_next. cbn [fst it_keys it_current]. f_equal.
  unfold uadd. rewrite pow64, N.mod_small by lia. lia.
Qed.
Local Lemma next_again keys k : N.of_nat k < 2 ^ 64 ->
  snd (iter_next (nexts k (Iterator (2 ^ 64 - 1) keys))) = (k <? length keys)%nat.
Proof.
  intros Hk. pose proof (nexts_spec keys k Hk) as H. unfold nexts in *. rewrite Nat.iter_succ in H.
  set (it := Nat.iter k _ _) in *. clearbody it. unfold iter_next in *. cbn [fst snd] in *.
  injection H as Hc Hl. rewrite Hc, Hl. clear. destruct (N.ltb_spec (N.of_nat k) (N.of_nat (length keys))), (Nat.ltb_spec k (length keys)); lia.
Qed.

Local Lemma consecutive keys k y : ascending keys -> keys !! S k = Some y ->
  exists x, keys !! k = Some x /\ x < y /\ forall z, z ∈ keys -> x < z -> z < y -> False.
Proof.
  intros Ha. revert k. induction Ha as [|a l Hl IH Hf]; intros k Hk; [done|]. cbn [lookup list_lookup] in Hk.
  destruct k as [|k].
  - exists a. split; [done|]. rewrite Forall_forall in Hf. split; [apply Hf; by eapply elem_of_list_lookup_2|].
    intros z Hz Hlo Hhi. apply elem_of_cons in Hz as [->|Hz]; [lia|].
    destruct l as [|b l]; [done|]. injection Hk as ->. apply elem_of_cons in Hz as [->|Hz]; [lia|].
    inversion Hl as [|? ? _ Hf2]. subst. rewrite Forall_forall in Hf2. apply Hf2 in Hz. lia.
  - destruct (IH k Hk) as (x & Hx & Hxy & Hno). exists x. split; [done|]. split; [done|].
    intros z Hz Hlo Hhi. apply elem_of_cons in Hz as [->|Hz]; [|by eapply Hno].
    rewrite Forall_forall in Hf. apply elem_of_list_lookup_2 in Hx. apply Hf in Hx. lia.
Qed.

Local Lemma is_consecutive_spec keys : ascending keys -> N.of_nat (length keys) < 2 ^ 64 ->
  (forall x, x ∈ keys -> x < 2 ^ 64) ->
  let it := Iterator (2 ^ 64 - 1) keys in
  iter_is_consecutive it = Panic /\
  forall k, N.of_nat k < 2 ^ 64 ->
    snd (iter_next (nexts k it)) = (k <? length keys)%nat /\
    match keys !! k with
    | Some y => iter_id (nexts (S k) it) = Ok y /\
        exists b, iter_is_consecutive (nexts (S k) it) = Ok b /\ (b = true <-> exists x, x ∈ keys /\ x + 1 = y)
    | None => iter_id (nexts (S k) it) = Panic /\
        iter_is_consecutive (nexts (S k) it) = if (k =? 0)%nat then Ok false else Panic
    end.
Proof.
  intros Ha Hl Hb it. split.
  { unfold iter_is_consecutive, it. cbn [it_current it_keys].
    replace (2 ^ 64 - 1 <? 1) with false by reflexivity.
    assert (Hn : keys !! N.to_nat (2 ^ 64 - 1) = None) by (apply lookup_ge_None; rewrite pow64 in *; lia).
    rewrite Hn. clear. match goal with |- context [keys !! ?i] => generalize (keys !! i) end.
    intros [?|]; reflexivity. }
  intros k Hk. split; [by apply next_again|]. unfold it. rewrite nexts_spec by done. clear it.
  unfold iter_id, iter_is_consecutive. cbn [it_current it_keys]. rewrite Nat2N.id.
  destruct k as [|k].
  { change (N.of_nat 0 <? 1) with true. cbn [Nat.eqb]. destruct (keys !! 0%nat) as [y|] eqn:Hy; [|done].
    split; [done|]. exists false. split; [done|]. split; [done|]. intros (x & Hx & Hxy). exfalso.
    destruct keys as [|a keys]; [done|]. injection Hy as ->. apply elem_of_cons in Hx as [->|Hx]; [lia|].
    inversion Ha as [|? ? _ Hf]. subst. rewrite Forall_forall in Hf. apply Hf in Hx. lia. }
  replace (N.of_nat (S k) <? 1) with false by lia. unfold usub. rewrite pow64 in *.
  change (1 mod 18446744073709551616) with 1.
  replace ((N.of_nat (S k) + 18446744073709551616 - 1) mod 18446744073709551616) with (N.of_nat k); cycle 1.
  { replace (N.of_nat (S k) + 18446744073709551616 - 1) with (N.of_nat k + 1 * 18446744073709551616) by lia.
    rewrite N.mod_add by lia. rewrite N.mod_small by lia. done. }
  rewrite Nat2N.id. cbn [Nat.eqb]. destruct (keys !! S k) as [y|] eqn:Hy.
  - split; [done|]. destruct (consecutive keys k y Ha Hy) as (x & Hx & Hxy & Hno). rewrite Hx.
    eexists. split; [done|].
    pose proof (Hb y (elem_of_list_lookup_2 _ _ _ Hy)) as Hy64.
    replace ((y + 18446744073709551616 - 1) mod 18446744073709551616) with (y - 1); cycle 1.
    { replace (y + 18446744073709551616 - 1) with (y - 1 + 1 * 18446744073709551616) by lia.
      rewrite N.mod_add by lia. rewrite N.mod_small by lia. done. }
    rewrite N.eqb_eq. split.
    + intros ->. exists (y - 1). split; [by eapply elem_of_list_lookup_2|lia].
    + intros (z & Hz & Hzy). destruct (N.lt_trichotomy x z) as [H|[H|H]]; [exfalso; apply (Hno z Hz H); lia|lia|].
      lia.
  - split; [done|]. by destruct (keys !! k).
Qed.

(** IsConsecutive of both iterators, before and after every call of Next. *)
Lemma C75_is_consecutive_pf :
  forall (T : Type) (sz : N) (r : table T) (it : iterator) (ids : N -> Prop),
    sz < 2 ^ 64 -> reachable sz r -> (sz = 0 -> N.of_nat (size (claimed r)) < 2 ^ 64) ->
    it = iterate r /\ ids = (fun id => is_Some (claimed r !! id)) \/
    it = iterate_free r /\ ids = unclaimed sz (claimed r) ->
    iter_is_consecutive it = Panic /\
    exists ks, ascending ks /\ (forall id, id ∈ ks <-> ids id) /\
      forall k, N.of_nat k < 2 ^ 64 ->
        snd (iter_next (nexts k it)) = (k <? length ks)%nat /\
        match ks !! k with
        | Some y => iter_id (nexts (S k) it) = Ok y /\
            exists b, iter_is_consecutive (nexts (S k) it) = Ok b /\ (b = true <-> exists x, ids x /\ x + 1 = y)
        | None => iter_id (nexts (S k) it) = Panic /\
            iter_is_consecutive (nexts (S k) it) = if (k =? 0)%nat then Ok false else Panic
        end.
Proof.
  intros T sz r it ids Hb Hr H0 Hit. apply reachable_wf in Hr as Hwf; [|lia].
  assert (H : exists ks, it = Iterator (2 ^ 64 - 1) ks /\ ascending ks /\ (forall id, id ∈ ks <-> ids id) /\
    N.of_nat (length ks) < 2 ^ 64 /\ forall x, x ∈ ks -> x < 2 ^ 64).
  { destruct Hit as [[-> ->]|[-> ->]].
    - destruct (iter_keys_spec r) as [Ha He]. exists (it_keys (iterate r)). split; [done|]. split; [done|].
      split; [done|]. split; [by apply (iterate_length sz)|]. intros x Hx. apply He in Hx.
      destruct Hx as [d Hx]. rewrite claimed_lookup in Hx. destruct (t_map r !! x) as [e|] eqn:Ex; [|done].
      destruct Hwf as (_ & _ & Hc). apply Hc in Ex. unfold capacity in Ex. destruct (sz =? 0); lia.
    - exists (it_keys (iterate_free r)). split; [done|]. split; [apply free_keys_ascending|].
      assert (Hsz : t_size r = sz) by apply Hwf.
      split; [intros id; rewrite free_keys_elem, Hsz; done|].
      pose proof (free_keys_length r) as Hfl. rewrite Hsz in Hfl. split; [lia|].
      intros x Hx. apply free_keys_elem in Hx as [Hx _]. lia. }
  destruct H as (ks & -> & Ha & He & Hl & H64).
  destruct (is_consecutive_spec ks Ha Hl H64) as [H1 H2]. split; [done|]. exists ks. split; [done|]. split; [done|].
  intros k Hk. destruct (H2 k Hk) as [H3 H4]. split; [done|]. destruct (ks !! k) as [y|]; [|done].
  destruct H4 as (H4 & b & H5 & H6). split; [done|]. exists b. split; [done|]. rewrite H6.
  split; intros (x & Hx & Hy); exists x; (split; [by apply He|done]).
Qed.
