(** Proofs of the property statements of table16, table32, table64. *)
From Verif Require Import TableNSpec IdxTableProofs TableNProofs.
From Coq Require Import Lia ZifyBool ZifyNat ZifyN.

(* ------------------------------------------------------------------ C12 *)
Lemma C12_tableN_is_a_map_over_the_interval_pf :
  forall (L : Type) (c : tn_cfg) (start end_ : N) (r : tableN L) (os : list (top L)),
    c ∈ tn_packages -> start <= end_ < 2 ^ tn_w c -> tn_reachable c start end_ r ->
    forallb tn_single os = true -> forallb top_uint64 os = true ->
    snd (tn_run r os) = snd (tn_spec_run start end_ (tn_claimed r) os) /\
    tn_claimed (fst (tn_run r os)) = fst (tn_spec_run start end_ (tn_claimed r) os).
Proof.
  intros L c a b r os Hc Hab Hr Hs Hu. apply tn_reachable_wf in Hr; [|done|lia|lia].
  apply tn_packages_good in Hc as Hg.
  revert r Hr. induction os as [|o os IH]; intros r Hwf; [done|].
  cbn [forallb] in Hs, Hu. apply andb_true_iff in Hs as [Hs Hss], Hu as [Hu Huu].
  assert (Hw1 : wfN c a b (fst (tn_step r o))) by (apply tn_step_wf; (done || lia)).
  assert (Hstep : tn_claimed (fst (tn_step r o)) = fst (tn_spec a b (tn_claimed r) o) /\
                  snd (tn_step r o) = snd (tn_spec a b (tn_claimed r) o)).
  { pose proof Hwf as (Hcc & Hst & _).
    destruct o as [id|id l|l|id|id l| |id|id| | |sel]; try done; cbn [tn_step tn_spec top_uint64] in *;
      try apply N.ltb_lt in Hu.
    - rewrite (tn_claim_spec c a b) by (done || lia).
      destruct (N.leb_spec a id), (N.leb_spec id b); cbn [andb]; try done.
      destruct (tn_claimed r !! id) eqn:Hcl; [done|]. cbn [fst snd].
      split; [by apply tn_claimed_insert|done].
    - rewrite (tn_release_spec c a b) by (done || lia).
      destruct (N.leb_spec a id), (N.leb_spec id b); cbn [andb]; try done.
      cbn [fst snd]. split; [by apply tn_claimed_delete|done].
    - rewrite (tn_update_spec c a b) by (done || lia).
      destruct (N.leb_spec a id), (N.leb_spec id b); cbn [andb]; try done.
      destruct (tn_claimed r !! id) eqn:Hcl; cbn [fst snd].
      + split; [by apply tn_claimed_insert|done].
      + by rewrite tn_with_same.
    - split; [done|]. cbn [fst snd]. f_equal. unfold tn_size, size_op, tn_claimed.
      rewrite size_kmap. unfold claimed. by rewrite !map_size_fmap.
    - split; [done|]. cbn [fst snd]. f_equal. unfold tn_has.
      rewrite (tn_validate_spec c a b) by (done || lia).
      destruct (N.leb_spec a id), (N.leb_spec id b); cbn [andb]; try done.
      rewrite (tn_index_spec c a b) by (done || lia).
      rewrite (tn_claimed_lookup c a b) by done. destruct (N.leb_spec a id); [|lia].
      unfold has. rewrite claimed_lookup. by destruct (t_map (tn_table r) !! (id - a)).
    - split; [done|]. cbn [fst snd]. f_equal. unfold tn_is_free.
      rewrite (tn_validate_spec c a b) by (done || lia).
      destruct (N.leb_spec a id), (N.leb_spec id b); cbn [andb]; try done.
      rewrite (tn_index_spec c a b) by (done || lia).
      rewrite (tn_claimed_lookup c a b) by done. destruct (N.leb_spec a id); [|lia].
      unfold is_free_op. rewrite is_free_claimed. by destruct (claimed (tn_table r) !! (id - a)). }
  cbn [tn_run tn_spec_run]. destruct (tn_step r o) as [r1 x].
  destruct (tn_spec a b (tn_claimed r) o) as [m1 y]. cbn [fst snd] in *. destruct Hstep as [<- <-].
  specialize (IH Hss Huu r1 Hw1). destruct (tn_run r1 os) as [r2 xs].
  destruct (tn_spec_run a b (tn_claimed r1) os) as [m2 ys]. cbn [fst snd] in *.
  destruct IH as [-> ->]. done.
Qed.

(** Get succeeds exactly on claimed ids and then reports the labels last written. *)
Lemma C12_get_reports_the_labels_pf :
  forall (L : Type) (c : tn_cfg) (start end_ : N) (r : tableN L) (id : N),
    c ∈ tn_packages -> start <= end_ < 2 ^ tn_w c -> tn_reachable c start end_ r -> id < 2 ^ 64 ->
    match tn_claimed r !! id with
    | Some l => exists e, snd (tn_step r (TGet id)) = TREntry (Ok e) /\ te_labels e = l
    | None => exists x, snd (tn_step r (TGet id)) = TREntry (Err x)
    end.
Proof.
  intros L c a b r id Hc Hab Hr Hid. apply tn_reachable_wf in Hr as Hwf; [|done|lia|lia].
  apply tn_packages_good in Hc as Hg. cbn [tn_step snd]. unfold tn_get.
  rewrite (tn_validate_spec c a b) by (done || lia).
  destruct (N.leb_spec a id), (N.leb_spec id b); cbn [andb rbind]; swap 1 2.
  { rewrite (tn_claimed_lookup c a b) by done. destruct (N.leb_spec a id); [|lia].
    destruct (_ <$> _) eqn:Hs; [|eauto].
    exfalso. assert (a <= id <= b); [|lia]. apply (tn_claimed_inside c a b r); [done|].
    rewrite (tn_claimed_lookup c a b) by done. destruct (N.leb_spec a id); [|lia]. eauto. }
  2,3: rewrite (tn_claimed_lookup c a b) by done; destruct (N.leb_spec a id); [lia|]; eauto.
  rewrite (tn_index_spec c a b) by (done || lia).
  rewrite (tn_claimed_lookup c a b) by done. destruct (N.leb_spec a id); [|lia].
  pose proof Hwf as (_ & _ & _ & Hw & _). unfold get.
  rewrite (validate_spec (tn_sz c a b)); [|by destruct Hw|by apply tn_sz_lt].
  pose proof (tn_sz_capacity c a b Hg Hab).
  destruct (N.ltb_spec (id - a) (capacity (tn_sz c a b))); [|lia]. cbn [rbind].
  rewrite claimed_lookup. destruct (t_map (tn_table r) !! (id - a)); cbn; eauto.
Qed.

(* ------------------------------------------------------------------ C13 *)
(** Every interval that is not the whole range of the width. *)
Lemma C13_claim_free_takes_lowest_partial_pf :
  forall (L : Type) (c : tn_cfg) (start end_ : N) (r : tableN L) (l : L),
    c ∈ tn_packages -> start <= end_ < 2 ^ tn_w c -> end_ - start + 1 < 2 ^ tn_w c ->
    tn_reachable c start end_ r ->
    (exists id r', tn_lowest start end_ (tn_claimed r) id /\
       tn_step r TFindFree = (r, TRId (Ok id)) /\
       tn_step r (TClaimFree l) = (r', TREntry (Ok (TEntry id (tn_idlen c) l))) /\
       tn_claimed r' = <[id := l]> (tn_claimed r)) \/
    ((forall id, ~ tn_unclaimed start end_ (tn_claimed r) id) /\
       tn_step r TFindFree = (r, TRId (Err ENoFree)) /\
       tn_step r (TClaimFree l) = (r, TREntry (Err ENoFree))).
Proof.
  intros L c a b r l Hc Hab Hnf Hr. apply tn_reachable_wf in Hr as Hwf; [|done|lia|lia].
  apply tn_packages_good in Hc as Hg. cbn [tn_step]. unfold tn_claim_free.
  destruct (tn_find_free_spec c a b r Hg Hab Hwf) as [[? _]|[_ [(id & Hlow & Hff)|(Hno & Hff)]]]; [lia| |].
  - left. rewrite Hff. destruct Hlow as [[Hin Hn] Hmin]. pose proof Hg as (? & ? & _).
    rewrite (tn_claim_spec c a b) by (done || lia). rewrite Hn.
    destruct (N.leb_spec a id), (N.leb_spec id b); try lia. cbn [andb].
    eexists id, _. split; [done|]. split; [done|].
    pose proof Hwf as (-> & Hst & _). rewrite uwrap_small by lia. split; [done|].
    apply tn_claimed_insert; (done || lia).
  - right. rewrite Hff. done.
Qed.

(** The whole range of the width: end-start+1 wraps to 0 and no id is ever
    considered free. *)
Lemma C13_full_range_never_free_pf :
  forall (L : Type) (c : tn_cfg) (start end_ : N) (r : tableN L) (l : L),
    c ∈ tn_packages -> start <= end_ < 2 ^ tn_w c -> end_ - start + 1 = 2 ^ tn_w c ->
    tn_reachable c start end_ r ->
    tn_step r TFindFree = (r, TRId (Err ENoFree)) /\
    tn_step r (TClaimFree l) = (r, TREntry (Err ENoFree)).
Proof.
  intros L c a b r l Hc Hab Hnf Hr. apply tn_reachable_wf in Hr as Hwf; [|done|lia|lia].
  apply tn_packages_good in Hc as Hg. cbn [tn_step]. unfold tn_claim_free.
  destruct (tn_find_free_spec c a b r Hg Hab Hwf) as [[_ ->]|[? _]]; [|lia]. done.
Qed.

Lemma C13_claim_free_refuted_pf :
  forall c, c ∈ tn_packages ->
  exists (start end_ : N) (r : tableN unit) (id : N),
    start <= end_ < 2 ^ tn_w c /\ tn_reachable c start end_ r /\
    tn_unclaimed start end_ (tn_claimed r) id /\
    tn_step r (TClaimFree tt) = (r, TREntry (Err ENoFree)) /\
    snd (tn_step r (TClaim id tt)) = TRUnit (Ok tt).
Proof.
  intros c Hc. pose proof (tn_packages_good c Hc) as Hg. pose proof Hg as (Hg1 & Hg2 & _).
  exists 0, (2 ^ tn_w c - 1), (tn_new c 0 (2 ^ tn_w c - 1)), 0.
  assert (Hr : tn_reachable c 0 (2 ^ tn_w c - 1) (tn_new c 0 (2 ^ tn_w c - 1) : tableN unit)) by (by exists []).
  split; [lia|]. split; [done|]. split.
  { split; [lia|]. done. }
  split. { eapply C13_full_range_never_free_pf; [done|..|done]; lia. }
  cbn [tn_step]. rewrite (tn_claim_spec c 0 (2 ^ tn_w c - 1)); [|done|lia|lia|apply wfN_new|done].
  destruct (N.leb_spec 0 0), (N.leb_spec 0 (2 ^ tn_w c - 1)); try lia. done.
Qed.

(* ------------------------------------------------------------------ C14 *)
Local Lemma tn_keys c a b {L} (r : tableN L) :
  tn_good c -> a <= b < 2 ^ tn_w c -> wfN c a b r ->
  (b - a + 1 = 2 ^ 64 -> N.of_nat (size (tn_claimed r)) < 2 ^ 64) ->
  let ks := it_keys (iterate (tn_table r)) in
  get_all (tn_table r) = Ok ((fun k => t_map (tn_table r) !! k) <$> ks) /\
  ascending ks /\ (forall k, k ∈ ks <-> is_Some (t_map (tn_table r) !! k)) /\
  (forall k, k ∈ ks -> k <= b - a).
Proof.
  intros Hg Hab Hwf H64 ks. pose proof Hwf as (Hc & Hs & He & Hw & Hk).
  destruct (iter_keys_spec (tn_table r)) as [Ha Hin].
  assert (Hks : forall k, k ∈ ks -> k <= b - a).
  { intros k Hkk. apply Hin, claimed_Some in Hkk as [e Hkk]. by destruct (Hk _ _ Hkk) as (_ & _ & ? & _). }
  assert (Hlen : N.of_nat (length ks) < 2 ^ 64).
  { unfold ks. rewrite iter_keys_length.
    destruct (N.eq_dec (b - a + 1) (2 ^ 64)) as [Hf|Hf].
    - specialize (H64 Hf). unfold tn_claimed in H64. rewrite size_kmap in H64.
      unfold claimed in H64. by rewrite !map_size_fmap in H64.
    - pose proof (size_bound (N.succ (b - a)) (Table (N.succ (b - a)) (t_map (tn_table r)))) as Hsb.
      destruct Hg as (Hg1 & Hg2 & _). cbn [t_map] in Hsb.
      assert (capacity (N.succ (b - a)) = N.succ (b - a)) as Hcap by (apply capacity_nz; lia).
      rewrite Hcap in Hsb. eapply N.le_lt_trans; [apply Hsb|lia].
      split; [done|]. cbn [t_map]. split.
      + intros k e Hke. destruct Hw as (_ & Hid & _). by apply Hid.
      + intros k e Hke. destruct (Hk _ _ Hke) as (_ & _ & ? & _). rewrite Hcap. lia. }
  split. { unfold get_all. rewrite (drain_values_spec _ _ _ 0); [done|done|lia|done|lia]. }
  split; [done|]. split; [|done]. intros k. unfold ks. by rewrite Hin, claimed_Some.
Qed.

Local Lemma ascending_map_add a l : ascending l -> ascending (map (N.add a) l).
Proof.
  induction 1 as [|x l Hs IH HF]; cbn; constructor; [done|].
  apply Forall_forall. intros y Hy. apply elem_of_list_fmap in Hy as (z & -> & Hz).
  rewrite Forall_forall in HF. specialize (HF _ Hz). lia.
Qed.

(** GetAll: one entry per claimed id in ascending order, with the external id
    and the current labels; GetByLabel: the matching entries of that list. *)
Lemma C14_get_all_reports_external_ids_pf :
  forall (L : Type) (c : tn_cfg) (start end_ : N) (r : tableN L) (sel : L -> bool),
    c ∈ tn_packages -> start <= end_ < 2 ^ tn_w c -> tn_reachable c start end_ r ->
    (end_ - start + 1 = 2 ^ 64 -> N.of_nat (size (tn_claimed r)) < 2 ^ 64) ->
    exists es,
      tn_step r TGetAll = (r, TREntries (Ok es)) /\
      ascending (map te_id es) /\
      (forall id l, tn_claimed r !! id = Some l <-> TEntry id (tn_outlen c) l ∈ es) /\
      (forall e, e ∈ es -> te_len e = tn_outlen c) /\
      tn_step r (TGetByLabel sel) = (r, TREntries (Ok (List.filter (fun e => sel (te_labels e)) es))).
Proof.
  intros L c a b r sel Hc Hab Hr H64. apply tn_reachable_wf in Hr as Hwf; [|done|lia|lia].
  apply tn_packages_good in Hc as Hg.
  destruct (tn_keys c a b r Hg Hab Hwf H64) as (Hga & Hasc & Hin & Hle).
  set (ks := it_keys (iterate (tn_table r))) in *.
  pose proof Hwf as (Hcc & Hs & He & Hw & Hk).
  assert (Hloop : forall ks', (forall k, k ∈ ks' -> k ∈ ks) ->
    exists es, tn_get_all_loop r ((fun k => t_map (tn_table r) !! k) <$> ks') = Ok es /\
      tn_get_by_label_loop r sel ((fun k => t_map (tn_table r) !! k) <$> ks') =
        Ok (List.filter (fun e => sel (te_labels e)) es) /\
      map te_id es = map (N.add a) ks' /\
      (forall e, e ∈ es -> te_len e = tn_outlen c /\ tn_claimed r !! te_id e = Some (te_labels e))).
  { induction ks' as [|k ks' IH]; intros Hsub.
    - exists []. split; [done|]. split; [done|]. split; [done|]. intros e Hnil. by apply elem_of_nil in Hnil.
    - destruct IH as (es & H1 & H2 & H3 & H4); [intros j Hj; apply Hsub; by right|].
      assert (Hkk : k ∈ ks) by (apply Hsub; left).
      assert (Hkb := Hle _ Hkk). apply Hin in Hkk as [e Hke].
      destruct (Hk _ _ Hke) as (Hid & Hlen & _ & _).
      assert (Hidk : e_id e = k) by (destruct Hw as (_ & Hw2 & _); by apply Hw2).
      pose proof Hg as (Hg1 & Hg2 & Hg3 & _).
      assert (Hf : forall kk, kk = k -> uwrap (tn_outw (tn_c r)) (tn_from_index r kk) = a + k).
      { intros kk ->. rewrite (tn_from_index_spec c a b) by (done || lia).
        rewrite Hcc. apply uwrap_small. lia. }
      exists (TEntry (a + k) (tn_outlen c) (te_labels (e_data e)) :: es).
      cbn [fmap list_fmap tn_get_all_loop tn_get_by_label_loop]. rewrite Hke. cbn.
      change (list_fmap _ _ (fun k0 => t_map (tn_table r) !! k0) ks') with
        ((fun k0 => t_map (tn_table r) !! k0) <$> ks').
      rewrite H1, H2. cbn [rbind]. rewrite (Hf (e_id e) Hidk), (Hf (te_id (e_data e)) Hid), Hcc.
      split; [done|]. split; [cbn; by destruct (sel _)|]. split; [by rewrite H3|].
      intros e' He'. apply elem_of_cons in He' as [->|He']; [|by apply H4].
      split; [done|]. cbn. rewrite (tn_claimed_lookup c a b) by done.
      destruct (N.leb_spec a (a + k)); [|lia]. replace (a + k - a) with k by lia.
      rewrite claimed_lookup, Hke. done. }
  destruct (Hloop ks) as (es & H1 & H2 & H3 & H4); [done|].
  exists es. cbn [tn_step].
  split. { f_equal. f_equal. unfold tn_get_all. rewrite Hga. cbn [rbind]. done. }
  split. { rewrite H3. by apply ascending_map_add. }
  split.
  { intros id l. split.
    - intros Hl. assert (Hio : a <= id <= b) by (apply (tn_claimed_inside c a b r); eauto).
      assert (Hik : id ∈ map te_id es).
      { rewrite H3. apply elem_of_list_fmap. exists (id - a). split; [lia|].
        apply Hin. rewrite (tn_claimed_lookup c a b) in Hl by done.
        destruct (N.leb_spec a id); [|lia].
        apply claimed_Some. destruct (claimed (tn_table r) !! (id - a)); [eauto|done]. }
      apply elem_of_list_fmap in Hik as ([i len l'] & -> & Hine).
      destruct (H4 _ Hine) as [Hlen Hl']. cbn [te_id te_len te_labels] in *. simplify_eq. done.
    - intros Hine. by destruct (H4 _ Hine) as [_ ?]. }
  split. { intros e Hine. by destruct (H4 _ Hine). }
  f_equal. f_equal. unfold tn_get_by_label.
  unfold get_all in Hga. cbv zeta. rewrite Hga. cbn [rbind]. done.
Qed.

(* ------------------------------------------------------------------ C15 *)
(** The id of the entry returned by Get is the offset from start ... *)
Lemma C15_get_returns_the_offset_pf :
  forall (L : Type) (c : tn_cfg) (start end_ : N) (r : tableN L) (id : N) (e : tentry L),
    c ∈ tn_packages -> start <= end_ < 2 ^ tn_w c -> tn_reachable c start end_ r -> id < 2 ^ 64 ->
    snd (tn_step r (TGet id)) = TREntry (Ok e) ->
    te_id e = id - start /\ te_len e = tn_idlen c /\ tn_claimed r !! id = Some (te_labels e).
Proof.
  intros L c a b r id e Hc Hab Hr Hid Hget. apply tn_reachable_wf in Hr as Hwf; [|done|lia|lia].
  apply tn_packages_good in Hc as Hg. cbn [tn_step snd] in Hget. unfold tn_get in Hget.
  rewrite (tn_validate_spec c a b) in Hget by (done || lia).
  destruct (N.leb_spec a id), (N.leb_spec id b); cbn [andb rbind] in Hget; try done.
  rewrite (tn_index_spec c a b) in Hget by (done || lia).
  pose proof Hwf as (_ & _ & _ & Hw & Hk). unfold get in Hget.
  destruct (validate _ _); cbn [rbind] in Hget; [|done..].
  destruct (t_map (tn_table r) !! (id - a)) as [e0|] eqn:Hl; cbn [rbind] in Hget; [|done].
  injection Hget as <-. destruct (Hk _ _ Hl) as (-> & -> & _). split; [done|]. split; [done|].
  rewrite (tn_claimed_lookup c a b) by done. destruct (N.leb_spec a id); [|lia].
  rewrite claimed_lookup, Hl. done.
Qed.

(** ... so C15 holds for tables that start at 0 ... *)
Lemma C15_get_returns_the_id_partial_pf :
  forall (L : Type) (c : tn_cfg) (end_ : N) (r : tableN L) (id : N) (e : tentry L),
    c ∈ tn_packages -> end_ < 2 ^ tn_w c -> tn_reachable c 0 end_ r -> id < 2 ^ 64 ->
    snd (tn_step r (TGet id)) = TREntry (Ok e) ->
    te_id e = id /\ tn_claimed r !! id = Some (te_labels e).
Proof.
  intros L c b r id e Hc Hb Hr Hid Hget.
  destruct (C15_get_returns_the_offset_pf L c 0 b r id e) as (-> & _ & ?); try done; [lia|].
  split; [lia|done].
Qed.

(** ... and for no other table. *)
Lemma C15_get_returns_the_id_refuted_pf :
  forall c start end_, c ∈ tn_packages -> 1 <= start <= end_ -> end_ < 2 ^ tn_w c ->
  exists (r : tableN unit) (e : tentry unit), tn_reachable c start end_ r /\
    snd (tn_step r (TGet start)) = TREntry (Ok e) /\ te_id e <> start.
Proof.
  intros c a b Hc Hab Hb. pose proof (tn_packages_good c Hc) as Hg. pose proof Hg as (Hg1 & Hg2 & _).
  set (r := fst (tn_run (tn_new c a b) [TClaim a tt]) : tableN unit).
  assert (Hr : tn_reachable c a b r).
  { exists [TClaim a tt]. split; [|done]. cbn. rewrite andb_true_r. apply N.ltb_lt. lia. }
  assert (Hcl : tn_claimed r !! a = Some tt).
  { unfold r. cbn [tn_run tn_step]. rewrite (tn_claim_spec c a b); [|done|lia|lia|apply wfN_new|lia].
    destruct (N.leb_spec a a), (N.leb_spec a b); try lia. cbn [andb].
    replace (tn_claimed (tn_new c a b) !! a) with (@None unit).
    2:{ symmetry. rewrite (tn_claimed_lookup c a b) by apply wfN_new.
        destruct (N.leb_spec a a); [|lia]. done. }
    cbn [fst]. rewrite tn_claimed_insert; [|done|lia]. by rewrite lookup_insert. }
  pose proof (C12_get_reports_the_labels_pf unit c a b r a Hc) as Hget.
  rewrite Hcl in Hget. destruct Hget as (e & He & _); [lia|done|lia|].
  exists r, e. split; [done|]. split; [done|].
  destruct (C15_get_returns_the_offset_pf unit c a b r a e) as (-> & _ & _); try done; lia.
Qed.

(* ------------------------------------------------------------------ C16 *)
Lemma C16_reversed_interval_is_inert_pf :
  forall (L : Type) (c : tn_cfg) (start end_ : N) (r : tableN L) (o : top L),
    c ∈ tn_packages -> end_ < start < 2 ^ tn_w c -> tn_reachable c start end_ r ->
    top_uint64 o = true ->
    refused o (snd (tn_step r o)) /\ tn_claimed (fst (tn_step r o)) = ∅.
Proof.
  intros L c a b r o Hc Hab Hr Ho. apply tn_reachable_wf in Hr as Hwf; [|done|lia|lia].
  apply tn_packages_good in Hc as Hg.
  assert (Hin : forall id, (a <=? id) && (id <=? b) = false).
  { intros id. destruct (N.leb_spec a id), (N.leb_spec id b); cbn; try done; lia. }
  pose proof Hwf as (Hcc & Hs & He & Hw & Hk).
  assert (Hem : t_map (tn_table r) = ∅).
  { apply map_empty. intros k. destruct (t_map (tn_table r) !! k) eqn:Hl; [|done].
    destruct (Hk _ _ Hl) as (_ & _ & _ & ?). lia. }
  assert (Hcl : tn_claimed r = ∅).
  { unfold tn_claimed, claimed. by rewrite Hem, !fmap_empty, kmap_empty. }
  assert (Hit : it_keys (iterate (tn_table r)) = []) by (unfold iterate; by rewrite Hem).
  assert (Hga : get_all (tn_table r) = Ok []).
  { unfold get_all. rewrite (drain_values_spec _ _ _ 0); [by rewrite Hit|rewrite Hit; done|lia|done|lia]. }
  destruct o as [id|id l|l|id|id l| |id|id| | |sel]; cbn [tn_step top_uint64] in *;
    try apply N.ltb_lt in Ho.
  - split; [|done]. cbn [snd]. unfold tn_get. rewrite (tn_validate_spec c a b) by (done || lia).
    by rewrite Hin.
  - rewrite (tn_claim_spec c a b) by (done || lia). by rewrite Hin.
  - unfold tn_claim_free. destruct (tn_find_free r) as [id|e|] eqn:Hff.
    + assert (Hid : id < 2 ^ 64).
      { unfold tn_find_free in Hff. destruct (find_free (tn_table r)); cbn in Hff; try done.
        injection Hff as <-. unfold tn_from_index, uadd. destruct Hg as (? & Hg & _). rewrite Hcc.
        eapply N.lt_le_trans; [apply N.mod_lt; lia|done]. }
      rewrite (tn_claim_spec c a b) by (done || lia). by rewrite Hin.
    + done.
    + exfalso. unfold tn_find_free in Hff.
      pose proof (find_free_cases _ _ Hw (tn_sz_lt c a b Hg)) as Hf.
      destruct (it_keys (iterate_free (tn_table r))); rewrite Hf in Hff; done.
  - rewrite (tn_release_spec c a b) by (done || lia). by rewrite Hin.
  - rewrite (tn_update_spec c a b) by (done || lia). by rewrite Hin.
  - split; [|done]. cbn. unfold tn_size, size_op. by rewrite Hem, map_size_empty.
  - split; [|done]. cbn. unfold tn_has. rewrite (tn_validate_spec c a b) by (done || lia).
    by rewrite Hin.
  - split; [|done]. cbn. unfold tn_is_free. rewrite (tn_validate_spec c a b) by (done || lia).
    by rewrite Hin.
  - split; [|done]. done.
  - split; [|done]. cbn [snd refused]. unfold tn_get_all. by rewrite Hga.
  - split; [|done]. cbn [snd refused]. unfold tn_get_by_label. cbv zeta.
    unfold get_all in Hga. by rewrite Hga.
Qed.

(** FindFree on such a table nevertheless reports [start] as free (unless
    start = end+1), although ClaimFree can never deliver it. *)
Lemma C16_find_free_reports_start_pf :
  forall (L : Type) (c : tn_cfg) (start end_ : N) (r : tableN L),
    c ∈ tn_packages -> end_ < start < 2 ^ tn_w c -> tn_reachable c start end_ r ->
    tn_step r TFindFree = (r, TRId (if start =? end_ + 1 then Err ENoFree else Ok start)).
Proof.
  intros L c a b r Hc Hab Hr. apply tn_reachable_wf in Hr as Hwf; [|done|lia|lia].
  apply tn_packages_good in Hc as Hg. pose proof Hwf as (Hcc & Hs & He & Hw & Hk).
  assert (Hem : t_map (tn_table r) = ∅).
  { apply map_empty. intros k. destruct (t_map (tn_table r) !! k) eqn:Hl; [|done].
    destruct (Hk _ _ Hl) as (_ & _ & _ & ?). lia. }
  cbn [tn_step]. f_equal. f_equal. unfold tn_find_free.
  pose proof Hg as (Hg1 & Hg2 & _).
  assert (Hsz : tn_sz c a b = if a =? b + 1 then 0 else b + 2 ^ tn_w c - a + 1).
  { unfold tn_sz, usub, uadd. rewrite (N.mod_small a) by lia.
    rewrite (N.mod_small (b + 2 ^ tn_w c - a)) by lia.
    destruct (N.eqb_spec a (b + 1)) as [->|Hne].
    - replace (b + 2 ^ tn_w c - (b + 1) + 1) with (2 ^ tn_w c) by lia. apply N.mod_same. lia.
    - apply N.mod_small. lia. }
  pose proof (find_free_cases _ _ Hw (tn_sz_lt c a b Hg)) as Hf.
  destruct (it_keys (iterate_free (tn_table r))) as [|x l] eqn:Hkeys; rewrite Hf; cbn [rbind].
  - destruct (N.eqb_spec a (b + 1)) as [|Hne]; [done|].
    exfalso. apply (keys_nil _ _ Hw) with (j := 0) in Hkeys. apply Hkeys.
    split; [lia|]. apply claimed_None. by rewrite Hem.
  - destruct (lowest_head _ _ _ _ Hw Hkeys) as [[Hx _] Hmin].
    destruct (N.eqb_spec a (b + 1)) as [|Hne]; [lia|].
    assert (x = 0).
    { assert (x <= 0); [|lia]. apply Hmin. split; [lia|]. apply claimed_None. by rewrite Hem. }
    subst x. f_equal. unfold tn_from_index. rewrite Hcc, Hs.
    rewrite uwrap_small, uadd_small by lia. lia.
Qed.
