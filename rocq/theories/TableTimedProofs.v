(** Lemmas about what the listing calls of the tables see next to other calls. *)
From Verif Require Import ConcStable IdxTableProofs TableNProofs IPTableProofs IdxConcProofs TableConcProofs.
From Verif Require Export ConcTimed TableConcSpec.
From Coq Require Import Lia ZifyBool ZifyNat ZifyN.
From Verif Require Import IdxTableProofs TableNModel.

Section stable.
Context {T : Type} (St : table T -> Prop).
Notation pok := (pok (R := out T) St (fun _ => True)).
Definition may_store (e : entry T) : Prop :=
  forall d, St d -> validate d (e_id e) = Ok tt -> forall d', St d' -> St (Table (t_size d') (<[e_id e := e]> (t_map d'))).

Lemma pok_add e k : may_store e -> (forall v, pok (k v)) -> pok (p_add e k).
Proof.
  intros He Hk. unfold p_add, p_validate, p_is_free, p_store. cbn [ConcStable.pok]. intros d Hd. destruct (validate d (e_id e)) as [[]|x|] eqn:Hv; [|apply Hk..]. cbn [ConcStable.pok]. intros d1 Hd1.
  destruct (is_free d1 (e_id e)); [|apply Hk]. split; [|apply Hk]. exact (He d Hd Hv).
Qed.
Lemma pok_update e k : may_store e -> (forall v, pok (k v)) -> pok (p_update e k).
Proof.
  intros He Hk. unfold p_update, p_validate, p_is_free, p_store. cbn [ConcStable.pok]. intros d Hd. destruct (validate d (e_id e)) as [[]|x|] eqn:Hv; [|apply Hk..]. cbn [ConcStable.pok]. intros d1 Hd1.
  destruct (is_free d1 (e_id e)); [apply Hk|]. split; [|apply Hk]. exact (He d Hd Hv).
Qed.
Lemma pok_free_loop n id keys k : (forall v, pok (k v)) -> pok (p_free_loop n id keys k).
Proof.
  intros Hk. revert id keys. induction n as [|n IH]; intros id keys; cbn [p_free_loop]; [apply Hk|]. intros d _. apply IH.
Qed.
Lemma pok_iterate_free k : (forall v, pok (k v)) -> pok (p_iterate_free k).
Proof. intros Hk d _. apply pok_free_loop. intros v. apply Hk. Qed.
Lemma pok_find_free_range s n k : (forall v, pok (k v)) -> pok (p_find_free_range s n k).
Proof.
  intros Hk d _. destruct (_ <? s); [apply Hk|]. destruct (_ <? _); [apply Hk|]. apply pok_iterate_free. intros v. apply Hk.
Qed.
Lemma pok_find_free_size n k : (forall v, pok (k v)) -> pok (p_find_free_size n k).
Proof. intros Hk d _. destruct (_ <? _); [apply Hk|]. apply pok_iterate_free. intros v. apply Hk. Qed.
Lemma pok_add_all ids x k : (forall id, may_store (NewEntry id x)) -> (forall v, pok (k v)) -> pok (p_add_all ids x k).
Proof.
  intros He Hk. induction ids as [|id ids IH]; cbn [p_add_all]; [apply Hk|]. apply pok_add; [done|]. intros [| |]; [apply IH|apply Hk..].
Qed.
Lemma pok_add_all_entries ids x acc k : (forall id, may_store (NewEntry id x)) -> (forall v, pok (k v)) -> pok (p_add_all_entries ids x acc k).
Proof.
  intros He Hk. revert acc. induction ids as [|id ids IH]; intros acc; cbn [p_add_all_entries]; [apply Hk|].
  apply pok_add; [done|]. intros [| |]; [apply IH|apply Hk..].
Qed.
Lemma pok_values fuel it acc k : (forall v, pok (k v)) -> pok (p_values fuel it acc k).
Proof.
  intros Hk. revert it acc. induction fuel as [|fuel IH]; intros it acc; cbn [p_values]; [apply Hk|].
  destruct (iter_next it) as [it' more]. destruct more; [|apply Hk]. destruct (iter_id it'); [|apply Hk..]. intros d _. apply IH.
Qed.
Lemma pok_method o : (forall e, stores o e -> may_store e) ->
  (releases o = true -> forall id d, St d -> St (Table (t_size d) (delete id (t_map d)))) -> pok (method o).
Proof.
  intros Hs Hd. destruct o; cbn [releases stores method] in *; unfold rlocked, locked; cbn [ConcStable.pok].
  - intros d0 _. destruct (validate d0 id); [intros ? _|..]; done.
  - apply pok_add; eauto; done.
  - apply pok_iterate_free. intros free. destruct (iter_next free) as [f []]; [|done].
    destruct (iter_id f); [|done..]. apply pok_add; eauto; done.
  - apply pok_find_free_range. intros [| |]; [|done..]. apply pok_add_all; eauto; done.
  - apply pok_find_free_size. intros [| |]; [|done..]. apply pok_add_all_entries; eauto; done.
  - intros d0 _. destruct (validate d0 id); [|done..]. split; [|done]. intros d1 H1. by apply Hd.
  - apply pok_update; eauto; done.
  - done.
  - by apply pok_iterate_free.
  - done.
  - done.
  - done.
  - by apply pok_iterate_free.
  - by apply pok_find_free_range.
  - by apply pok_find_free_size.
  - intros d _. by apply pok_values.
Qed.

(** What holds of the table at every moment. *)
Lemma stable_data {A} (P : op T -> Prop) d0 (todo : list (list (client (table T) (out T) (op T) A))) sched s :
  St d0 -> (forall o e, P o -> stores o e -> may_store e) ->
  (forall o, P o -> releases o = true -> forall id d, St d -> St (Table (t_size d) (delete id (t_map d)))) ->
  (forall c p, call_of todo c = Some p -> only P p) ->
  sys_run method (start d0 todo) sched = Some s -> St (sy_data s).
Proof.
  intros H0 Hs Hd Ho Hrun.
  refine (proj1 (run_stable method St (fun _ _ => True) todo (fun _ _ => True) _ d0 sched s H0 Hrun)).
  intros c p Hp. specialize (Ho c p Hp). clear -Ho Hs Hd. induction p as [a|o k IH|k IH]; cbn in *; [done|..].
  - destruct Ho as [Ho1 Ho2]. split; [apply pok_method; eauto|]. intros r _. apply IH. apply Ho2.
  - intros d _. apply IH. apply Ho.
Qed.
End stable.

(** The listing of the keys, and what is read after it. *)
Section iterate.
Context {T A : Type} (d0 : table T) (todo : list (list (client (table T) (out T) (op T) A))) (sched : list nat).
Notation at_moment := (at_moment method d0 todo sched).
Notation pat := (pat method d0 todo sched).
Notation cat := (cat method d0 todo sched).
Lemma cat_iterate (St : table T -> Prop) c Q n k :
  (forall c n d, at_moment c n d -> St d) -> (forall d, St d -> N.of_nat (size (t_map d)) < 2 ^ 64) ->
  (forall n' d, (n <= n')%nat -> at_moment c n' d -> St d -> cat c Q n' (k (RIds (Ok (it_keys (iterate d)))))) ->
  cat c Q n (CCall OIterate k).
Proof.
  intros Hst Hsize H. cbn [ConcTimed.cat method]. unfold rlocked, p_iterate. cbn [ConcTimed.pat]. intros n' d Hn Hd n'' Hn'.
  assert (E : iter_all (iterate d) = Ok (it_keys (iterate d))); [apply (iter_all_start (it_keys (iterate d)))|rewrite E].
  2: eapply cat_mono; [|by apply H; [|exact Hd|by eapply Hst]]; done.
  rewrite iter_keys_length. apply Hsize. by eapply Hst.
Qed.
Lemma cat_size c Q n k : (forall n' r, (n <= n')%nat -> cat c Q n' (k r)) -> cat c Q n (CCall OSize k).
Proof. intros H. cbn. intros n' d Hn _ n'' Hn'. apply H. lia. Qed.
Lemma cat_any c n p : cat c (fun _ => True) n p.
Proof.
  revert n. induction p as [a|o k IH|k IH]; intros n; [done| |cbn; intros; apply IH]. cbn.
  assert (H : forall (q : prog (table T) (out T)) n, pat c (fun n r => cat c (fun _ => True) n (k r)) n q).
  { induction q; intros n1; cbn; auto. }
  apply H.
Qed.

Lemma cat_impl c (Q Q' : A -> Prop) n p : (forall x, Q x -> Q' x) -> cat c Q n p -> cat c Q' n p.
Proof.
  intros HQ. revert n. induction p as [a|o k IH|k IH]; intros n; cbn; [apply HQ| |intros H n' d Hn Hd; apply IH; eauto].
  generalize (method o) as q. intros q. revert n. induction q; intros n1; cbn; eauto.
Qed.
End iterate.

Lemma timed_call {T A} (d0 : table T) (todo : list (list (client (table T) (out T) (op T) A))) sched s (Q : A -> Prop) k p x :
  sys_run method (start d0 todo) sched = Some s -> call_of todo k = Some p -> EEnd k x ∈ sy_hist s ->
  cat method d0 todo sched k Q 0 p -> Q x.
Proof.
  intros Hrun Hk Hx Hc.
  refine (run_timed method d0 todo sched (fun k' x' => k' = k -> Q x') _ s Hrun k x Hx eq_refl).
  intros k' p' Hp'. destruct (decide (k' = k)) as [->|Hne].
  - assert (p' = p) as -> by congruence. eapply cat_impl; [|exact Hc]. auto.
  - eapply cat_impl; [|apply cat_any]. done.
Qed.

(* ------------------------------------------------------------------ idxtable *)
Section idx.
Context {T : Type} (d0 : table T) (todo : list (list (client (table T) (out T) (op T) (out T)))) (sched : list nat).
Lemma cat_values c (M : nat -> gmap N T -> Prop) n keys vs (Q : out T -> Prop) :
  (forall n d, at_moment method d0 todo sched c n d -> M n (claimed d) /\ forall k e, t_map d !! k = Some e -> e_id e = k) ->
  (forall xs, looked M n keys xs -> Q (RValues (Ok (vs ++ zip_with (fun id x => NewEntry id <$> x) keys xs)))) ->
  cat method d0 todo sched c Q n (c_values keys vs).
Proof.
  intros HM. revert n vs. induction keys as [|k keys IH]; intros n vs HQ; cbn [c_values cat].
  - rewrite <- (app_nil_r vs). apply (HQ []). constructor.
  - intros n' d Hn Hd. destruct (HM _ _ Hd) as [Hm Hid]. apply IH. intros xs Hx. rewrite <- app_assoc. cbn [app].
    assert (E : t_map d !! k = NewEntry k <$> claimed d !! k).
    { rewrite claimed_lookup. destruct (t_map d !! k) as [e|] eqn:He; [|done]. cbn. rewrite <- (Hid _ _ He). by destruct e. }
    rewrite E. apply (HQ (claimed d !! k :: xs)). econstructor; done.
Qed.
End idx.

(* ------------------------------------------------------------------ table16/32/64 *)
Section tn.
Context {L : Type} (c : tn_cfg) (a b : N) (r : tableN L) (todo : list (list (top L))) (sched : list nat).
Hypothesis Hg : tn_good c.
Hypothesis Hab : a <= b < 2 ^ tn_w c.
Hypothesis Hsz : b - a + 1 < 2 ^ 64.
Hypothesis Hr : wfN c a b r.
Notation cat := (cat method (tn_table r) (map (map (tn_call r)) todo) sched).
Notation M := (tn_moment r todo sched).
Notation St := (fun d => wfN c a b (tn_with r d)).

Lemma tn_stable n s : sys_run method (tn_system r todo) (take n sched) = Some s -> St (sy_data s).
Proof.
  intros Hrun. refine (stable_data St (tnop c a b true true) (tn_table r) (map (map (tn_call r)) todo) (take n sched) s _ _ _ _ Hrun).
  - destruct r; done.
  - intros o e Ho He d Hd Hv d' Hd'. destruct Hd as (Hc & Hs & Hn & Hw & Hk), Hd' as (_ & _ & _ & Hw' & Hk'). cbn [tn_table tn_with] in *.
    assert (Hin : e_id e <= b - a /\ te_id (e_data e) = e_id e /\ te_len (e_data e) = tn_idlen c).
    { destruct o; cbn in Ho, He; try done; subst e; cbn.
      - destruct Ho as (Hle & l & ->). done.
      - destruct Ho as (_ & Hle & l & ->). done. }
    split; [done|]. split; [done|]. split; [done|]. split; [|cbn [t_map]].
    + destruct Hw as (Hw1 & Hw2 & Hw3), Hw' as (Hw1' & Hw2' & Hw3'). split; [done|]. cbn [t_map tn_table tn_with]. split.
      * intros k e'. destruct (decide (k = e_id e)) as [->|]; [rewrite lookup_insert; by intros [= <-]|rewrite lookup_insert_ne by done; apply Hw2'].
      * intros k e'. destruct (decide (k = e_id e)) as [->|]; [rewrite lookup_insert; intros _|rewrite lookup_insert_ne by done; apply Hw3'].
        rewrite (validate_spec (tn_sz c a b)) in Hv by (done || by apply tn_sz_lt). by destruct (N.ltb_spec (e_id e) (capacity (tn_sz c a b))).
    + intros k e'. cbn [tn_table tn_with t_map]. destruct (decide (k = e_id e)) as [->|].
      * rewrite lookup_insert. intros [= <-]. repeat split; try done; try apply Hin. lia.
      * rewrite lookup_insert_ne by done. apply Hk'.
  - intros o Ho He id d (Hc & Hs & Hn & Hw & Hk). destruct Hw as (Hw1 & Hw2 & Hw3). cbn [tn_table tn_with] in *.
    split; [done|]. split; [done|]. split; [done|]. split; [split; [done|]; split|]; cbn [t_map tn_table tn_with].
    + intros k e' H. apply lookup_delete_Some in H as [_ H]. by apply Hw2.
    + intros k e' H. apply lookup_delete_Some in H as [_ H]. by eapply Hw3.
    + intros k e' H. apply lookup_delete_Some in H as [_ H]. by apply Hk.
  - intros k p Hp. rewrite call_of_map in Hp. destruct (call_of todo k) as [o|]; [|done]. injection Hp as <-.
    by apply tn_call_only.
Qed.
Lemma tn_at k n d : at_moment method (tn_table r) (map (map (tn_call r)) todo) sched k n d ->
  St d /\ M k n (tn_claimed (tn_with r d)).
Proof.
  intros (s' & Hs' & Hd & <-). split; [by eapply tn_stable|]. exists s'. done.
Qed.

Lemma cat_tn_by_label k sel (Q : tout L -> Prop) n keys ids es :
  ids = map (N.add a) keys -> (forall j, j ∈ keys -> j <= b - a) ->
  (forall ls, looked (M k) n ids (map Some ls) ->
    Q (TREntries (Ok (es ++ List.filter (fun e => sel (te_labels e)) (zip_with (fun id l => TEntry id (tn_outlen c) l) ids ls))))) ->
  (forall id n' m, id ∈ ids -> (n <= n')%nat -> M k n' m -> m !! id = None -> Q (TREntries Panic)) ->
  cat k Q n (c_by_label r sel keys es).
Proof.
  revert n ids es. induction keys as [|j keys IH]; intros n ids es -> Hle HQ HP; cbn [c_by_label ConcTimed.cat map].
  - rewrite <- (app_nil_r es). apply (HQ []). constructor.
  - intros n' d Hn Hd. destruct (tn_at _ _ _ Hd) as [Hw HM].
    assert (Hj : j <= b - a) by (apply Hle; left).
    assert (E : tn_claimed (tn_with r d) !! (a + j) = te_labels ∘ e_data <$> t_map d !! j).
    { rewrite (tn_claimed_lookup c a b) by done. destruct (N.leb_spec a (a + j)); [|lia].
      replace (a + j - a) with j by lia. rewrite claimed_lookup. cbn [tn_table tn_with]. by destruct (t_map d !! j). }
    destruct (t_map d !! j) as [e|] eqn:He.
    + apply (IH n' (map (N.add a) keys)); [done|intros i Hi; apply Hle; by right| |].
      * intros ls Hl. specialize (HQ (te_labels (e_data e) :: ls)). cbn [map zip_with List.filter te_labels] in HQ.
        pose proof Hw as (Hc & Hs & _ & _ & Hk). cbn [tn_table tn_with] in Hk. destruct (Hk _ _ He) as (Hid & _).
        assert (Hout : uwrap (tn_outw (tn_c r)) (tn_from_index r (te_id (e_data e))) = a + j).
        { rewrite Hid. cbn in Hc. rewrite Hc. rewrite (tn_from_index_spec c a b) by (done || lia).
          destruct Hg as (Hg1 & Hg2 & Hg3 & _). apply uwrap_small. lia. }
        rewrite Hout. cbn in Hc. rewrite Hc.
        assert (Hlk : looked (M k) n (a + j :: map (N.add a) keys) (Some (te_labels (e_data e)) :: map Some ls)).
        { replace (Some (te_labels (e_data e))) with (tn_claimed (tn_with r d) !! (a + j)) by (by rewrite E).
          econstructor; done. }
        specialize (HQ Hlk). destruct (sel (te_labels (e_data e))); [rewrite <- app_assoc|]; exact HQ.
      * intros id n2 m Hid Hn2. apply HP; [by right|lia].
    + apply (HP (a + j) n' (tn_claimed (tn_with r d))); [left|done|done|by rewrite E].
Qed.

Lemma tn_by_label_moments s k sel x :
  sys_run method (tn_system r todo) sched = Some s ->
  call_of todo k = Some (TGetByLabel sel) -> EEnd k x ∈ sy_hist s ->
  exists n m ids, M k n m /\ listing m ids /\
    ((exists ls, looked (M k) n ids (map Some ls) /\
        x = TREntries (Ok (List.filter (fun e => sel (te_labels e)) (zip_with (fun id l => TEntry id (tn_outlen c) l) ids ls)))) \/
     (x = TREntries Panic /\ exists id n' m', id ∈ ids /\ (n <= n')%nat /\ M k n' m' /\ m' !! id = None)).
Proof.
  intros Hrun Hk Hx.
  apply (timed_call (tn_table r) (map (map (tn_call r)) todo) sched s (fun x => exists n m ids, M k n m /\ listing m ids /\
    ((exists ls, looked (M k) n ids (map Some ls) /\
        x = TREntries (Ok (List.filter (fun e => sel (te_labels e)) (zip_with (fun id l => TEntry id (tn_outlen c) l) ids ls)))) \/
     (x = TREntries Panic /\ exists id n' m', id ∈ ids /\ (n <= n')%nat /\ M k n' m' /\ m' !! id = None)))
    k (tn_call r (TGetByLabel sel)) x Hrun); [by rewrite call_of_map, Hk|exact Hx|].
  cbn [tn_call]. apply (cat_size _ _ _). intros n0 _ _. apply (cat_iterate _ _ _ St).
  - intros k' n d Hd. by apply tn_at in Hd as [? _].
  - intros d (_ & _ & _ & (Hw1 & _) & Hd). apply (small_size (fun k => k <= b - a)); [apply few_below; lia|]. cbn [tn_table tn_with] in Hw1.
    split; [rewrite Hw1; by apply tn_sz_lt|]. intros j [e He]. by apply Hd in He as (_ & _ & ? & _).
  - intros n d _ Hd Hw. cbn [as_ids]. destruct (iter_keys_spec d) as [Hasc Hin].
    destruct (tn_at _ _ _ Hd) as [_ HM].
    assert (Hle : forall j, j ∈ it_keys (iterate d) -> j <= b - a).
    { intros j Hj. apply Hin, claimed_Some in Hj as [e He]. destruct Hw as (_ & _ & _ & _ & Hd'). by apply Hd' in He as (_ & _ & ? & _). }
    assert (Hlist : listing (tn_claimed (tn_with r d)) (map (N.add a) (it_keys (iterate d)))).
    { split.
      - clear -Hasc. induction Hasc as [|y l Hs IH HF]; cbn; constructor; [done|].
        apply Forall_forall. intros z Hz. apply elem_of_list_fmap in Hz as (w & -> & Hw). rewrite Forall_forall in HF. specialize (HF _ Hw). lia.
      - intros id. rewrite (tn_claimed_lookup c a b) by done. rewrite elem_of_list_fmap. cbn [tn_table tn_with]. split.
        + intros (j & -> & Hj). destruct (N.leb_spec a (a + j)); [|lia]. replace (a + j - a) with j by lia. apply fmap_is_Some. by apply Hin.
        + destruct (N.leb_spec a id); [|by intros [? ?]]. intros H1. apply fmap_is_Some, Hin in H1. exists (id - a). split; [lia|done]. }
    eapply cat_tn_by_label; [done|done|..].
    + intros ls Hl. exists n, (tn_claimed (tn_with r d)), (map (N.add a) (it_keys (iterate d))). split; [done|]. split; [done|]. left. eauto.
    + intros id n' m' Hid Hn' Hm' Hno. exists n, (tn_claimed (tn_with r d)), (map (N.add a) (it_keys (iterate d))). split; [done|]. split; [done|].
      right. split; [done|]. eauto 10.
Qed.
End tn.

(* ------------------------------------------------------------------ iptable *)
Section ip.
Context {S D : Type} (parse : S -> option addr) (from to : addr) (r : iptable D) (todo : list (list (iop S D))) (sched : list nat).
Hypothesis Hip : ip_range from to.
Hypothesis Hr : wfI from to r.
Hypothesis Hsz : a_val to - a_val from + 1 < 2 ^ 64.
Notation cat := (cat method (ip_table r) (map (map (ip_call parse r)) todo) sched).
Notation M := (ip_moment parse r todo sched).
Notation St := (fun d => wfI from to (ip_with r d)).

Lemma ip_stable n s : sys_run method (ip_system parse r todo) (take n sched) = Some s -> St (sy_data s).
Proof.
  pose proof (num_ips_lt _ _ Hip) as Hlt.
  intros Hrun. refine (stable_data St (fun _ => True) (ip_table r) (map (map (ip_call parse r)) todo) (take n sched) s _ _ _ _ Hrun).
  - destruct r; done.
  - intros o e _ He d (Hf & Ht & Hw) Hv d' (_ & _ & Hw'). cbn [ip_table ip_with] in *. split; [done|]. split; [done|].
    destruct Hw as (Hw1 & _), Hw' as (Hw1' & Hw2' & Hw3'). split; [done|]. cbn [t_map ip_table ip_with]. split.
    + intros k e'. destruct (decide (k = e_id e)) as [->|]; [rewrite lookup_insert; by intros [= <-]|rewrite lookup_insert_ne by done; apply Hw2'].
    + intros k e'. destruct (decide (k = e_id e)) as [->|]; [rewrite lookup_insert; intros _|rewrite lookup_insert_ne by done; apply Hw3'].
      rewrite (validate_spec (num_ips from to)) in Hv by done. by destruct (N.ltb_spec (e_id e) (capacity (num_ips from to))).
  - intros o _ _ id d (Hf & Ht & Hw1 & Hw2 & Hw3). cbn [ip_table ip_with] in *.
    split; [done|]. split; [done|]. split; [done|]. cbn [t_map ip_table ip_with]. split.
    + intros k e' H. apply lookup_delete_Some in H as [_ H]. by apply Hw2.
    + intros k e' H. apply lookup_delete_Some in H as [_ H]. by eapply Hw3.
  - intros k p _. apply only_true.
Qed.
Lemma ip_at k n d : at_moment method (ip_table r) (map (map (ip_call parse r)) todo) sched k n d ->
  St d /\ M k n (ip_claimed (ip_with r d)).
Proof. intros (s' & Hs' & Hd & <-). split; [by eapply ip_stable|]. exists s'. done. Qed.

Lemma ip_claimed_at d j : St d -> ip_claimed (ip_with r d) !! (a_val from + j) = e_data <$> t_map d !! j.
Proof.
  intros Hw. rewrite (ip_claimed_lookup from to) by done. destruct (N.leb_spec (a_val from) (a_val from + j)); [|lia].
  replace (a_val from + j - a_val from) with j by lia. rewrite claimed_lookup. done.
Qed.

Lemma cat_ip_by_label k sel (Q : iout D -> Prop) n keys ids es :
  ids = map (N.add (a_val from)) keys ->
  (forall ds, looked_twice (M k) sel n ids ds -> Q (IRDatas (Ok (es ++ ds)))) ->
  (forall id n' m, id ∈ ids -> (n <= n')%nat -> M k n' m -> m !! id = None -> Q (IRDatas Panic)) ->
  cat k Q n (ci_by_label sel keys es).
Proof.
  revert n ids es. induction keys as [|j keys IH]; intros n ids es -> HQ HP; cbn [ci_by_label ConcTimed.cat map].
  - rewrite <- (app_nil_r es). apply HQ. constructor.
  - intros n' d Hn Hd. destruct (ip_at _ _ _ Hd) as [Hw HM]. pose proof (ip_claimed_at d j Hw) as E.
    destruct (t_map d !! j) as [e|] eqn:He.
    2: { apply (HP (a_val from + j) n' (ip_claimed (ip_with r d))); [left|done|done|by rewrite E]. }
    destruct (sel (e_data e)) eqn:Hs.
    + cbn [ConcTimed.cat]. intros n2 d2 Hn2 Hd2. destruct (ip_at _ _ _ Hd2) as [Hw2 HM2]. pose proof (ip_claimed_at d2 j Hw2) as E2.
      destruct (t_map d2 !! j) as [e2|] eqn:He2.
      2: { apply (HP (a_val from + j) n2 (ip_claimed (ip_with r d2))); [left|lia|done|by rewrite E2]. }
      apply (IH n2 (map (N.add (a_val from)) keys)); [done| |].
      * intros ds Hds. rewrite <- app_assoc. apply HQ. cbn [app map]. by eapply (twice_keep _ _ n n' n2).
      * intros id n3 m Hid Hn3. apply HP; [by right|lia].
    + apply (IH n' (map (N.add (a_val from)) keys)); [done| |].
      * intros ds Hds. apply HQ. cbn [map]. by eapply (twice_skip _ _ n n').
      * intros id n3 m Hid Hn3. apply HP; [by right|lia].
Qed.

Lemma ip_by_label_moments s k sel x :
  sys_run method (ip_system parse r todo) sched = Some s ->
  call_of todo k = Some (IGetByLabel sel) -> EEnd k x ∈ sy_hist s ->
  exists n m ids, M k n m /\ listing m ids /\
    ((exists ds, looked_twice (M k) sel n ids ds /\ x = IRDatas (Ok ds)) \/
     (x = IRDatas Panic /\ exists id n' m', id ∈ ids /\ (n <= n')%nat /\ M k n' m' /\ m' !! id = None)).
Proof.
  intros Hrun Hk Hx. pose proof (num_ips_lt _ _ Hip) as Hlt.
  apply (timed_call (ip_table r) (map (map (ip_call parse r)) todo) sched s (fun x => exists n m ids, M k n m /\ listing m ids /\
    ((exists ds, looked_twice (M k) sel n ids ds /\ x = IRDatas (Ok ds)) \/
     (x = IRDatas Panic /\ exists id n' m', id ∈ ids /\ (n <= n')%nat /\ M k n' m' /\ m' !! id = None)))
    k (ip_call parse r (IGetByLabel sel)) x Hrun); [by rewrite call_of_map, Hk|exact Hx|].
  cbn [ip_call]. apply (cat_iterate _ _ _ St).
  - intros k' n d Hd. by apply ip_at in Hd as [? _].
  - intros d (_ & _ & Hw1 & Hw2 & Hw3). apply (small_size (fun k => k <= a_val to - a_val from)); [apply few_below; lia|]. split; [cbn in Hw1; by rewrite Hw1|].
    intros j [e He]. apply Hw3 in He. rewrite num_ips_capacity in He by (done || lia). lia.
  - intros n d _ Hd Hw. cbn [as_ids]. destruct (iter_keys_spec d) as [Hasc Hin].
    destruct (ip_at _ _ _ Hd) as [_ HM].
    assert (Hlist : listing (ip_claimed (ip_with r d)) (map (N.add (a_val from)) (it_keys (iterate d)))).
    { split.
      - clear -Hasc. induction Hasc as [|y l Hs IH HF]; cbn; constructor; [done|].
        apply Forall_forall. intros z Hz. apply elem_of_list_fmap in Hz as (w & -> & Hw). rewrite Forall_forall in HF. specialize (HF _ Hw). lia.
      - intros id. rewrite (ip_claimed_lookup from to) by done. rewrite elem_of_list_fmap. cbn [ip_table ip_with]. split.
        + intros (j & -> & Hj). destruct (N.leb_spec (a_val from) (a_val from + j)); [|lia].
          replace (a_val from + j - a_val from) with j by lia. by apply Hin.
        + destruct (N.leb_spec (a_val from) id); [|by intros [? ?]]. intros H1. apply Hin in H1. exists (id - a_val from). split; [lia|done]. }
    eapply cat_ip_by_label; [done|..].
    + intros ds Hl. exists n, (ip_claimed (ip_with r d)), (map (N.add (a_val from)) (it_keys (iterate d))). split; [done|]. split; [done|]. left. eauto.
    + intros id n' m' Hid Hn' Hm' Hno. exists n, (ip_claimed (ip_with r d)), (map (N.add (a_val from)) (it_keys (iterate d))). split; [done|]. split; [done|].
      right. split; [done|]. eauto 10.
Qed.
End ip.
