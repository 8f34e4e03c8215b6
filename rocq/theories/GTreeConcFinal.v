(** Proofs of the property statements about concurrent executions of tree16,
    tree32 and tree64. *)
From Verif Require Import ConcLin IdProofs GTreeConcLog GTreeProofs GTreeFinal GTreeLoop.
From Verif Require Import GTreeConcOver GTreeConcRelease.
From Verif Require Export GTreeConcSpec.
From Verif Require Import TreeSpec GTreeSpec.
From Coq Require Import Lia ZifyBool ZifyNat ZifyN.
Ltac Zify.zify_post_hook ::= idtac.

(** A call that returns without touching the tree does so on every tree of the
    same size. *)
Lemma refused_now {L} (lstr : L -> string) (c : gcfg) (g : gtree L) o x : gcall_client c g o = CRet x -> g_locked o = true ->
  forall d, g_size d = g_size g -> g_length d = g_length g -> g_seq lstr c d o = (d, x).
Proof.
  intros Hx Hl d Hd Hdl.
  assert (Hbad : forall (y : id) (e : res unit), g_validate g y = e -> g_validate d y = e).
  { intros y e <-. unfold g_validate. by rewrite Hd. }
  destruct o as [y|y l|y l|l|t l|y|sel|y|y|sel| |]; try discriminate Hl; cbn [gcall_client g_seq] in *; try discriminate Hx.
  - destruct (g_validate g y) as [u|e|] eqn:Hv; try discriminate Hx; injection Hx as <-; unfold g_update; by rewrite (Hbad _ _ Hv).
  - destruct (g_validate g y) as [u|e|] eqn:Hv; try discriminate Hx; injection Hx as <-; unfold g_claim_id; by rewrite (Hbad _ _ Hv).
  - unfold c_g_find_free in Hx. cbv zeta in Hx. unfold g_claim_free, g_find_free. rewrite Hdl.
    destruct (add_id _ _ _) as [b|e|]; try discriminate Hx; injection Hx as <-; done.
  - destruct (g_validate g y) as [u|e|] eqn:Hv; try discriminate Hx; injection Hx as <-; unfold g_release_id; by rewrite (Hbad _ _ Hv).
Qed.

(* ------------------------------------------------------------------ C54 *)
Section free.
Context {L : Type} (lstr : L -> string) (c : gcfg) (Hc : c ∈ g_packages_16_32) (n : N).
Context (m : record L) (g : gtree L) (todo : list (list (gcall L))) (sched : list nat) (s : sys (gtree L) (gout L) (gmeth L) (gcout L)).
Hypothesis Hh : g_hist any_op c n m g.
Notation w := (gw c).
Notation spec := (fun d o => alone (gmethod lstr c o) d).

(** The entries of the log of a ClaimFree. *)
Lemma claim_free_logged (R : nat -> record L) l d k lb e : explains spec g (map (map (gcall_client c g)) todo) s l d ->
  (forall p, (p <= length l)%nat -> GInv c n (R p) (log_at spec g l p)) ->
  call_of todo k = Some (CClaimFree lb) -> EEnd k (GREntry (Ok e)) ∈ sy_hist s ->
  exists v p q x u, (p < q)%nat /\ e = TEntry v w lb /\ v < 2 ^ n /\ v < 2 ^ w /\
    l !! p = Some (k, (MChildren (root_id c n), x)) /\
    l !! q = Some (k, (MSet (MyId v w) (TEntry v w lb), u)) /\
    open_id c n (R p) v.
Proof.
  intros He HG Hk Hend. destruct (ex_ended _ _ _ _ _ _ He _ _ Hend) as (p0 & Hp0 & Hf).
  rewrite call_of_map, Hk in Hp0. injection Hp0 as <-.
  apply follows_claim_free in Hf as (b & x & v & u & Hb & Hv & -> & _ & Hcs).
  assert (HG0 : GInv c n m g) by (by eapply hist_G). rewrite (gi_length _ _ _ _ HG0) in *.
  destruct (calls_of_two _ _ _ _ _ Hcs (elem_of_list_here _ _)) as (p & q & Hpq & Hp & Hq).
  assert (Hpl : (p <= length l)%nat) by (apply lookup_lt_Some in Hp; lia). specialize (HG p Hpl).
  pose proof (log_at_result _ _ _ _ _ _ _ _ (ex_seq _ _ _ _ _ _ He) Hp) as Hx. cbv beta in Hx. rewrite alone_gmethod in Hx. cbn [g_spec snd] in Hx. subst x.
  cbn [as_vals] in Hv. assert (Hff : g_find_free c (log_at spec g l p) = Ok v).
  { rewrite find_free_split. cbv zeta. rewrite (gi_length _ _ _ _ HG), Hb. cbn [rbind]. rewrite <- Hv.
    destruct (g_children c (log_at spec g l p) (MyId 0 (gc_root c n))); cbn [rbind]; [|done..].
    apply find_free_in_size. by rewrite (gi_size _ _ _ _ HG), (gi_size _ _ _ _ HG0). }
  destruct (find_free_spec c Hc n _ _ HG) as [(v' & Hch & Hff')|[_ Hff']]; [|congruence].
  rewrite Hff in Hff'. destruct (N.leb_spec (2 ^ n) v') as [Hle|Hlt]; [done|]. injection Hff' as <-.
  apply chosen_open in Hch. exists v, p, q, (OutVals (g_children c (log_at spec g l p) (root_id c n))), u.
  split; [done|]. split; [done|]. split; [done|]. split; [apply Hch|]. done.
Qed.


Hypothesis Hroom : gw c = 16 \/ N.of_nat (size m + length (concat todo)) + 2 <= 2 ^ 31.
Hypothesis Hrun : sys_run (gmethod lstr c) (g_system c g todo) sched = Some s.
(** The log of an execution without ClaimRange and ReleaseByLabel. *)
Hypothesis Hcalls : forall k o, call_of todo k = Some o -> g_ranges o = false /\ g_args_ok c o /\
  (g_releases o = true -> exists x, o = CReleaseID x /\ gid_ok c x).

Lemma call_dels o : g_ranges o = false -> g_args_ok c o -> (g_releases o = true -> exists x, o = CReleaseID x /\ gid_ok c x) ->
  only (del_ok c) (gcall_client c g o).
Proof.
  intros H1 H2 H3. destruct (g_releases o) eqn:Hr.
  - destruct (H3 eq_refl) as (x & -> & Hx). cbn [gcall_client]. destruct (g_validate g x); cbn [only del_ok]; [|done..].
    split; [done|]. intros r. destruct (as_gentry r); cbn [only del_ok]; [|done..]. split; [|done]. split; [done|discriminate].
  - eapply only_mono; [|by apply (call_sets lstr c g o)]. intros mm. by destruct mm.
Qed.
Lemma dtree_log : exists l d ns, explains spec g (map (map (gcall_client c g)) todo) s l d /\ length ns = length l /\ fits c m (sets l) /\
  (forall p, (p <= length l)%nat -> GInv c n (drec_at lstr c m l p) (log_at spec g l p)) /\
  (forall p k x t, l !! p = Some (k, x) -> ns !! p = Some t ->
    exists s', sys_run (gmethod lstr c) (g_system c g todo) (take t sched) = Some s' /\ during (sy_hist s') k /\
      sy_data s' = log_at spec g l p).
Proof.
  assert (Ho : forall k p, call_of (map (map (gcall_client c g)) todo) k = Some p -> only (meth_ok true true) p).
  { intros k p Hk. rewrite call_of_map in Hk. destruct (call_of todo k) as [o|] eqn:Ek; [|done]. injection Hk as <-.
    apply call_only; [|done..]. by eapply Hcalls. }
  destruct (run_explained _ _ _ _ (ok_gmethod lstr c true true) g _ sched s Ho Hrun) as (l & d & ns & He & Hlen & _ & _ & _ & Hmom).
  assert (Hfit : fits c m (sets l)).
  { assert (Hs : (sets l <= length (concat todo))%nat); [|destruct Hroom as [H|H]; [by left|right; lia]].
    apply count_calls. intros k x Hx. destruct (ex_started _ _ _ _ _ _ He _ _ Hx) as (_ & p0 & q & Hp0 & Hf).
    rewrite call_of_map in Hp0. destruct (call_of todo k) as [o|] eqn:Ek; [|done]. injection Hp0 as <-. split; [eauto|].
    apply (sets_once_follows true _ _ _ Hf). apply call_sets_once. by eapply Hcalls. }
  exists l, d, ns. split; [done|]. split; [done|]. split; [done|]. split; [|done]. intros p Hp.
  apply (dlog_inv lstr c Hc n); [by eapply hist_G|done| |done].
  intros k o x Hx. eapply (logged_only spec); [exact He| |exact Hx]. intros k' p' Hk'. rewrite call_of_map in Hk'.
  destruct (call_of todo k') as [o'|] eqn:Ek; [|done]. injection Hk' as <-. destruct (Hcalls _ _ Ek) as (? & ? & ?). by apply call_dels.
Qed.
Lemma was_free k lb e :
  call_of todo k = Some (CClaimFree lb) -> EEnd k (GREntry (Ok e)) ∈ sy_hist s ->
  te_id e < 2 ^ n /\ te_len e = w /\ te_labels e = lb /\
  exists t s' es, sys_run (gmethod lstr c) (g_system c g todo) (take t sched) = Some s' /\ during (sy_hist s') k /\
    g_get_all (sy_data s') = Ok (Some <$> es) /\
    forall e', e' ∈ es -> gc_root c n < te_len e' -> ~ covers w (eid e') (te_id e).
Proof.
  intros Hk Hend. destruct dtree_log as (l & d & ns & He & Hlen & _ & HG & Hmom).
  destruct (claim_free_logged _ l d k lb e He HG Hk Hend) as (v & p & q & x & u & Hpq & -> & Hv & Hvw & Hp & Hq & Hop).
  split; [done|]. split; [done|]. split; [done|].
  destruct (lookup_lt_is_Some_2 ns p) as [t Ht]; [apply lookup_lt_Some in Hp; lia|].
  destruct (Hmom _ _ _ _ Hp Ht) as (s' & Hs' & Hd & Hdat).
  assert (HG' : GInv c n (drec_at lstr c m l p) (log_at spec g l p)) by (apply HG; apply lookup_lt_Some in Hp; lia).
  destruct (get_all_spec c n _ _ HG') as (es & [_ Hes] & Hall).
  exists t, s', es. split; [done|]. split; [done|]. split; [by rewrite Hdat|].
  intros e' He' Hl Hcov. apply Hop. exists (prefix w (eid e')), e'. split; [by apply Hes|]. done.
Qed.


(** The order in which the calls happen. *)
Lemma one_order : (forall k o, call_of todo k = Some o -> g_locked o = true /\ g_ids_ok c o) ->
  exists order : list (cid * (gcall L * gcout L)),
    NoDup order.*1 /\
    log_results order = snd (seq_run (g_seq lstr c) g (log_ops order)) /\
    (forall k o x, (k, (o, x)) ∈ order -> exists o0 x0, call_of todo k = Some o0 /\ g_as_claim o0 x0 = (o, x) /\ EStart k ∈ sy_hist s) /\
    (forall k x, EEnd k x ∈ sy_hist s -> exists o, call_of todo k = Some o /\
       ((k, g_as_claim o x) ∈ order \/ forall d, g_size d = g_size g -> g_length d = g_length g -> g_seq lstr c d o = (d, x))) /\
    (forall k k' i j x x', precedes (sy_hist s) k k' ->
       order !! i = Some (k, x) -> order !! j = Some (k', x') -> (i < j)%nat) /\
    (quiet s -> forall o, g_writes o = false -> g_ids_ok c o ->
       snd (g_seq lstr c (sy_data s) o) = snd (g_seq lstr c (fst (seq_run (g_seq lstr c) g (log_ops order))) o)).
Proof.
  intros Hone. destruct dtree_log as (l & d & ns & He & Hlen & Hfit & HG & Hmom).
  pose proof (hist_G c Hc _ _ _ _ Hh) as HGm. pose proof (ex_seq _ _ _ _ _ _ He) as Hseq.
  assert (Hlog : forall k x, (k, x) ∈ l -> exists o q, call_of todo k = Some o /\ follows (gcall_client c g o) (calls_of k l) q).
  { intros k x Hx. destruct (ex_started _ _ _ _ _ _ He _ _ Hx) as (_ & p & q & Hp & Hf). rewrite call_of_map in Hp.
    destruct (call_of todo k) as [o|] eqn:Ek; [|done]. injection Hp as <-. eauto. }
  destruct (J_all lstr c Hc n m g todo l d HGm Hone Hseq Hlog HG Hfit) as [od HJ].
  set (order := snd <$> od).
  assert (Hops : log_ops order = ocall <$> od) by (unfold order, log_ops; rewrite <- list_fmap_compose; done).
  assert (Hres : log_results order = oout <$> od) by (unfold order, log_results; rewrite <- list_fmap_compose; done).
  assert (Hcid : order.*1 = ocid <$> od) by (unfold order; rewrite <- list_fmap_compose; done).
  assert (Hlodd : (length od <= length (concat todo))%nat).
  { rewrite <- cids_length, <- (fmap_length ocid od). apply submseteq_length, NoDup_submseteq; [apply HJ|].
    intros k Hk. apply elem_of_list_fmap in Hk as (e & -> & Hk). destruct (j_in _ _ _ _ _ _ _ _ _ HJ _ Hk) as ((o & x & Ho & _) & _).
    by eapply cids_in. }
  destruct (valid_run lstr c Hc n m g od) as [Hv1 Hv2].
  { done. }
  { destruct Hroom as [H|H]; [by left|right; lia]. }
  { apply Forall_forall. intros e Hin. destruct (j_in _ _ _ _ _ _ _ _ _ HJ _ Hin) as ((o & x & Ho & Has & H1) & _). split; [done|].
    destruct o; cbn in Has; try (injection Has as <- <-; exact I).
    destruct x as [[e'|e'|]| | |]; injection Has as <- <-; exact I. }
  { apply HJ. }
  exists order. split; [rewrite Hcid; apply HJ|]. split; [by rewrite Hres, Hops|]. split; [|split; [|split]].
  - intros k o x Hin. apply elem_of_list_fmap in Hin as ([a [k1 [o1 x1]]] & [= <- <- <-] & Hin).
    destruct (j_in _ _ _ _ _ _ _ _ _ HJ _ Hin) as ((o0 & x0 & Ho & Has & _) & (i & y & _ & Hi) & _). exists o0, x0. split; [done|].
    split; [done|]. apply elem_of_list_lookup_2 in Hi. by apply (ex_started _ _ _ _ _ _ He) in Hi as [? _].
  - intros k x Hend. destruct (ex_ended _ _ _ _ _ _ He _ _ Hend) as (p & Hp & Hf). rewrite call_of_map in Hp.
    destruct (call_of todo k) as [o|] eqn:Ek; [|done]. injection Hp as <-. exists o. split; [done|].
    pose proof (one_no_peek c g o (Hone _ _ Ek)) as Hn.
    destruct (j_each _ _ _ _ _ _ _ _ _ HJ _ _ Ek) as [(a & y & Ha & Hak & Has & _ & Hf')|(_ & q & Hf' & Hnil)]; rewrite firstn_all in Hf'.
    + left. pose proof (follows_det _ _ _ _ Hn Hf Hf') as [= ->]. apply elem_of_list_fmap. exists a. split; [|done].
      destruct a as [i [k1 [o1 x1]]]. unfold ocid, ocall, oout in *. cbn [fst snd] in *. by rewrite Has, Hak.
    + right. pose proof (follows_det _ _ _ _ Hn Hf Hf') as <-. rewrite firstn_all in Hnil.
      destruct (calls_of k l) as [|y ys] eqn:Ec; [|by discriminate Hnil].
      assert (Hnow : gcall_client c g o = CRet x).
      { clear -Hf Hn. revert Hf Hn. generalize (gcall_client c g o). intros q0 Hf Hn. inversion Hf; subst; done. }
      apply refused_now; [done|]. by eapply Hone.
  - intros k k' i j x x' Hpre Hi Hj. destruct (Nat.lt_ge_cases i j) as [|Hji]; [done|]. exfalso.
    unfold order in Hi, Hj. rewrite list_lookup_fmap in Hi, Hj.
    destruct (od !! i) as [a|] eqn:Ei; [|done]. destruct (od !! j) as [b|] eqn:Ej; [|done].
    injection Hi as Hi. injection Hj as Hj.
    destruct (j_in _ _ _ _ _ _ _ _ _ HJ a) as (_ & _ & ia & ya & Hia & Hla); [by eapply elem_of_list_lookup_2|].
    destruct (j_in _ _ _ _ _ _ _ _ _ HJ b) as (_ & (ib & yb & Hib & Hlb) & _); [by eapply elem_of_list_lookup_2|].
    assert (Hab : (b.1 <= a.1)%nat).
    { apply (sorted_lookup (fst <$> od) j i); [apply HJ|done|rewrite list_lookup_fmap, Ej; done|rewrite list_lookup_fmap, Ei; done]. }
    unfold ocid in *. rewrite Hi in Hla. rewrite Hj in Hlb. cbn in Hla, Hlb.
    pose proof (ex_order _ _ _ _ _ _ He _ _ _ _ _ _ Hpre Hla Hlb). lia.
  - intros Hq o Hw Hid. rewrite Hops. eapply (read_det lstr c Hc n); [| |done|done].
    + rewrite (ex_final _ _ _ _ _ _ He Hq), <- (log_at_end _ _ _ _ _ Hseq). by apply HG.
    + rewrite <- (j_end _ _ _ _ _ _ _ _ _ HJ). done.
Qed.
End free.

Section tree.
Context {L : Type} (lstr : L -> string) (c : gcfg) (Hc : c ∈ g_packages_16_32) (n : N).
Context (m : record L) (g : gtree L) (todo : list (list (gcall L))) (sched : list nat) (s : sys (gtree L) (gout L) (gmeth L) (gcout L)).
Hypothesis Hh : g_hist any_op c n m g.
Hypothesis Hcalls : forall k o, call_of todo k = Some o -> g_ranges o = false /\ g_releases o = false /\ g_args_ok c o.
Hypothesis Hroom : gw c = 16 \/ N.of_nat (size m + length (concat todo)) + 2 <= 2 ^ 31.
Hypothesis Hrun : sys_run (gmethod lstr c) (g_system c g todo) sched = Some s.
Notation w := (gw c).
Notation spec := (fun d o => alone (gmethod lstr c o) d).

Lemma tree_log : exists l d ns, explains spec g (map (map (gcall_client c g)) todo) s l d /\ length ns = length l /\
  (forall p, (p <= length l)%nat -> GInv c n (rec_at c m l p) (log_at spec g l p)) /\
  (forall p k x t, l !! p = Some (k, x) -> ns !! p = Some t ->
    exists s', sys_run (gmethod lstr c) (g_system c g todo) (take t sched) = Some s' /\ during (sy_hist s') k /\
      sy_data s' = log_at spec g l p).
Proof.
  assert (Ho : forall k p, call_of (map (map (gcall_client c g)) todo) k = Some p -> only (meth_ok true true) p).
  { intros k p Hk. rewrite call_of_map in Hk. destruct (call_of todo k) as [o|] eqn:Ek; [|done]. injection Hk as <-.
    apply call_only; [|done..]. by eapply Hcalls. }
  destruct (run_explained _ _ _ _ (ok_gmethod lstr c true true) g _ sched s Ho Hrun) as (l & d & ns & He & Hlen & _ & _ & _ & Hmom).
  exists l, d, ns. split; [done|]. split; [done|]. split; [|done]. intros p Hp.
  apply (log_inv lstr c Hc n); [by eapply hist_G| | |done].
  - assert (Hs : (sets l <= length (concat todo))%nat); [|destruct Hroom as [H|H]; [by left|right; lia]].
    apply count_calls. intros k x Hx. destruct (ex_started _ _ _ _ _ _ He _ _ Hx) as (_ & p0 & q & Hp0 & Hf).
    rewrite call_of_map in Hp0. destruct (call_of todo k) as [o|] eqn:Ek; [|done]. injection Hp0 as <-. split; [eauto|].
    apply (sets_once_follows true _ _ _ Hf). apply call_sets_once. by eapply Hcalls.
  - intros k o x Hx. eapply (logged_only spec); [exact He| |exact Hx]. intros k' p' Hk'. rewrite call_of_map in Hk'.
    destruct (call_of todo k') as [o'|] eqn:Ek; [|done]. injection Hk' as <-. destruct (Hcalls _ _ Ek) as (? & ? & ?). by apply call_sets.
Qed.

(** The entry at the full-length prefix of v is one of v. *)
Lemma full_entry (m' : record L) g' v e : GInv c n m' g' -> v < 2 ^ w -> m' !! prefix w (MyId v w) = Some e ->
  eid e = MyId v w.
Proof.
  intros HG Hv He. destruct (gi_ok _ _ _ _ HG _ _ He) as [Hp [Hi Hl]].
  assert (Hlen : te_len e = w).
  { apply (f_equal length) in Hp. rewrite !TreeBits.prefix_length in Hp. cbn [i_len eid] in Hp. lia. }
  destruct e as [ei el lb]. unfold eid in *. cbn [te_id te_len i_id i_len] in *. subst el. f_equal.
  unfold prefix in Hp. cbn [i_id i_len] in Hp.
  apply bits_div in Hp; [|lia..]. rewrite N2Nat.id, N.sub_diag, N.pow_0_r, !N.div_1_r in Hp. done.
Qed.

Lemma nonoverlapping k k' lb lb' e e' :
  gc_root c n < w ->
  call_of todo k = Some (CClaimFree lb) -> EEnd k (GREntry (Ok e)) ∈ sy_hist s ->
  call_of todo k' = Some (CClaimFree lb') -> EEnd k' (GREntry (Ok e')) ∈ sy_hist s ->
  precedes (sy_hist s) k k' -> te_id e <> te_id e'.
Proof.
  intros Hw Hk Hend Hk' Hend' Hpre. destruct tree_log as (l & d & ns & He & _ & HG & _).
  destruct (claim_free_logged lstr c Hc n m g todo s Hh _ l d k lb e He HG Hk Hend) as (v & p & q & x & u & Hpq & -> & Hv & Hvw & Hp & Hq & _).
  destruct (claim_free_logged lstr c Hc n m g todo s Hh _ l d k' lb' e' He HG Hk' Hend') as (v' & p' & q' & x' & u' & Hpq' & -> & Hv' & Hvw' & Hp' & Hq' & Hop).
  cbn [te_id]. intros <-. pose proof (ex_order _ _ _ _ _ _ He _ _ _ _ _ _ Hpre Hq Hp') as Hlt.
  assert (Hs : is_Some (rec_at c m l p' !! prefix w (MyId v w))).
  { apply (rec_at_mono c m l (S q)); [apply lookup_lt_Some in Hp'; lia|]. rewrite (rec_at_S _ _ _ _ _ _ _ Hq). cbn [rec_step].
    rewrite lookup_insert. eauto. }
  destruct Hs as [e2 He2]. apply Hop. exists (prefix w (MyId v w)), e2. split; [done|].
  assert (HG' : GInv c n (rec_at c m l p') (log_at spec g l p')) by (apply HG; apply lookup_lt_Some in Hp'; lia).
  pose proof (full_entry _ _ _ _ HG' Hvw He2) as Heid. rewrite Heid. split; [|apply (IdProofs.covers_self w (MyId v w))].
  apply (f_equal i_len) in Heid. cbn [i_len eid] in Heid. by rewrite Heid.
Qed.

Lemma stays_claimed k lb e :
  call_of todo k = Some (CClaimFree lb) -> EEnd k (GREntry (Ok e)) ∈ sy_hist s -> quiet s ->
  exists e', g_get (sy_data s) (eid e) = Ok e' /\ eid e' = eid e.
Proof.
  intros Hk Hend Hqu. destruct tree_log as (l & d & ns & He & Hlen & HG & Hmom).
  destruct (claim_free_logged lstr c Hc n m g todo s Hh _ l d k lb e He HG Hk Hend) as (v & p & q & x & u & Hpq & -> & Hv & Hvw & Hp & Hq & Hop).
  rewrite (ex_final _ _ _ _ _ _ He Hqu). rewrite <- (log_at_end _ _ _ _ _ (ex_seq _ _ _ _ _ _ He)).
  specialize (HG (length l) ltac:(lia)). unfold eid at 1 3. cbn [te_id te_len].
  rewrite (get_spec c n _ _ HG) by (split; [done|cbn; lia]). unfold lookup_id.
  assert (Hs : is_Some (rec_at c m l (length l) !! prefix w (MyId v w))).
  { apply (rec_at_mono c m l (S q)); [apply lookup_lt_Some in Hq; lia|]. rewrite (rec_at_S _ _ _ _ _ _ _ Hq). cbn [rec_step].
    rewrite lookup_insert. eauto. }
  destruct Hs as [e2 He2]. rewrite He2. pose proof (full_entry _ _ _ _ HG Hvw He2) as Heid.
  rewrite (proj2 (same_id_eid e2 (MyId v w)) Heid). eauto.
Qed.
End tree.

(** Two ClaimFree calls at the same time return the same id. *)
Lemma C54_same_id_refuted_pf : forall c, c ∈ g_packages_16_32 ->
  exists g sched s,
    g_new (L := N) c 4 = Ok g /\
    sys_run (gmethod dec c) (g_system c g [[CClaimFree 1]; [CClaimFree 2]]) sched = Some s /\
    EEnd (0, 0)%nat (GREntry (Ok (TEntry 0 (gw c) 1))) ∈ sy_hist s /\
    EEnd (1, 0)%nat (GREntry (Ok (TEntry 0 (gw c) 2))) ∈ sy_hist s.
Proof.
  intros c Hc.
  set (sched := [0;1;0;1;0;1;0;1;0;1;0;1;0;1;0;1;0;1;0;1;0;0;0;0;0;1;0;1;0;1;1;1;1;1]%nat).
  assert (H : match g_new (L := N) c 4 with
    | Ok g => match sys_run (gmethod dec c) (g_system c g [[CClaimFree 1]; [CClaimFree 2]]) sched with
      | Some s => sy_hist s = [EStart (0, 0)%nat; EStart (1, 0)%nat; EEnd (0, 0)%nat (GREntry (Ok (TEntry 0 (gw c) 1)));
                    EEnd (1, 0)%nat (GREntry (Ok (TEntry 0 (gw c) 2)))]
      | None => False end
    | _ => False end).
  { unfold g_packages_16_32 in Hc. apply elem_of_cons in Hc as [->|Hc]; [vm_compute; reflexivity|].
    apply elem_of_cons in Hc as [->|Hc]; [vm_compute; reflexivity|]. exfalso. clear -Hc. by apply elem_of_nil in Hc. }
  destruct (g_new (L := N) c 4) as [g|e|]; [|done..]. exists g, sched.
  destruct (sys_run _ _ _) as [s|]; [|done]. exists s. split; [done|]. split; [done|]. rewrite H.
  split; [by do 2 apply elem_of_list_further; apply elem_of_list_here|by do 3 apply elem_of_list_further; apply elem_of_list_here].
Qed.

(** The part that holds, with no releases and no ClaimRange (which does not lock).
    Calls that do not overlap in time return different ids, unless an entry of
    full length is not longer than the id findFree starts from (tree16 of length 0,
    tree32 of length 32, see C45 and C46). *)
Lemma C54_one_after_another_partial_pf :
  forall (L : Type) (lstr : L -> string) (c : gcfg) (n : N) (m : record L) (g : gtree L) (todo : list (list (gcall L))) sched s,
    c ∈ g_packages_16_32 -> g_hist any_op c n m g -> gc_root c n < gw c ->
    (forall k o, call_of todo k = Some o -> g_ranges o = false /\ g_releases o = false /\ g_args_ok c o) ->
    gw c = 16 \/ N.of_nat (size m + length (concat todo)) + 2 <= 2 ^ 31 ->
    sys_run (gmethod lstr c) (g_system c g todo) sched = Some s ->
    forall k k' l l' e e',
      call_of todo k = Some (CClaimFree l) -> EEnd k (GREntry (Ok e)) ∈ sy_hist s ->
      call_of todo k' = Some (CClaimFree l') -> EEnd k' (GREntry (Ok e')) ∈ sy_hist s ->
      precedes (sy_hist s) k k' -> te_id e <> te_id e'.
Proof. intros. eapply (nonoverlapping lstr c) with (k := k) (k' := k'); eassumption. Qed.

(** With ReleaseID as well, the id a ClaimFree returns was, at a moment during the
    call, inside no entry longer than the id findFree starts from. *)
Lemma C54_was_free_partial_pf :
  forall (L : Type) (lstr : L -> string) (c : gcfg) (n : N) (m : record L) (g : gtree L) (todo : list (list (gcall L))) sched s,
    c ∈ g_packages_16_32 -> g_hist any_op c n m g ->
    (forall k o, call_of todo k = Some o -> g_ranges o = false /\ g_args_ok c o /\
       (g_releases o = true -> exists x, o = CReleaseID x /\ gid_ok c x)) ->
    gw c = 16 \/ N.of_nat (size m + length (concat todo)) + 2 <= 2 ^ 31 ->
    sys_run (gmethod lstr c) (g_system c g todo) sched = Some s ->
    forall k l e, call_of todo k = Some (CClaimFree l) -> EEnd k (GREntry (Ok e)) ∈ sy_hist s ->
      te_id e < 2 ^ n /\ te_len e = gw c /\ te_labels e = l /\
      exists t s' es, sys_run (gmethod lstr c) (g_system c g todo) (take t sched) = Some s' /\ during (sy_hist s') k /\
        g_get_all (sy_data s') = Ok (Some <$> es) /\
        forall e', e' ∈ es -> gc_root c n < te_len e' -> ~ covers (gw c) (eid e') (te_id e).
Proof. intros. eapply (was_free lstr c); eassumption. Qed.

(** It is in the tree afterwards (perhaps with the labels of another call). *)
Lemma C54_stays_claimed_partial_pf :
  forall (L : Type) (lstr : L -> string) (c : gcfg) (n : N) (m : record L) (g : gtree L) (todo : list (list (gcall L))) sched s,
    c ∈ g_packages_16_32 -> g_hist any_op c n m g ->
    (forall k o, call_of todo k = Some o -> g_ranges o = false /\ g_releases o = false /\ g_args_ok c o) ->
    gw c = 16 \/ N.of_nat (size m + length (concat todo)) + 2 <= 2 ^ 31 ->
    sys_run (gmethod lstr c) (g_system c g todo) sched = Some s -> quiet s ->
    forall k l e, call_of todo k = Some (CClaimFree l) -> EEnd k (GREntry (Ok e)) ∈ sy_hist s ->
      exists e', g_get (sy_data s) (eid e) = Ok e' /\ eid e' = eid e.
Proof. intros. eapply (stays_claimed lstr c); eassumption. Qed.

(* ------------------------------------------------------------------ C61 *)
(** A Get and a ClaimID on any tree: the writer announces itself between the two
    read locks of Get. *)
Lemma C61_get_and_claim_deadlock_refuted_pf :
  forall (L : Type) (lstr : L -> string) (c : gcfg) (g : gtree L) (x y : id) (l : L),
  i_id y <= g_size g ->
  exists sched s,
    sys_run (gmethod lstr c) (g_system c g [[CGet x]; [CClaimID y l]]) sched = Some s /\
    (forall i, sys_step (gmethod lstr c) s i = None) /\
    (forall k r, EEnd k r ∉ sy_hist s).
Proof.
  intros L lstr c g x y l Hy. exists [0; 1; 0; 1; 0; 1]%nat.
  assert (Hv : g_validate g y = Ok tt).
  { unfold g_validate. destruct (N.ltb_spec (g_size g) (i_id y)); [lia|done]. }
  unfold g_system. cbn [map gcall_client]. rewrite Hv. eexists. split; [cbv -[g_set p_loop get_body new_entry]; reflexivity|]. split.
  - intros [|[|i]]; cbv -[g_set p_loop get_body new_entry]; reflexivity.
  - intros k r H. cbn [sy_hist] in H. apply elem_of_cons in H as [H|H]; [discriminate H|].
    apply elem_of_cons in H as [H|H]; [discriminate H|]. by apply elem_of_nil in H.
Qed.

(** As long as no call locks for reading twice (Get, Children, Parents, ClaimFree,
    ReleaseID do), or none locks for writing, no execution gets stuck before every
    call has returned. *)
Lemma C61_every_call_returns_partial_pf :
  forall (L : Type) (lstr : L -> string) (c : gcfg) (g : gtree L) (todo : list (list (gcall L))) sched s,
    (forall k o, call_of todo k = Some o -> g_nests o = false) \/
    (forall k o, call_of todo k = Some o -> g_write_locks o = false) ->
    sys_run (gmethod lstr c) (g_system c g todo) sched = Some s ->
    (forall i, sys_step (gmethod lstr c) s i = None) ->
    forall k o, call_of todo k = Some o -> exists r, EEnd k r ∈ sy_hist s.
Proof.
  intros L lstr c g todo sched s Hnw Hrun Hstuck k o Hk.
  assert (H : exists nest wr, (nest = false \/ wr = false) /\
    forall k p, call_of (map (map (gcall_client c g)) todo) k = Some p -> only (lmeth_ok nest wr) p).
  { destruct Hnw as [Hnw|Hnw]; [exists false, true|exists true, false]; (split; [auto|]); intros k' p Hk'; rewrite call_of_map in Hk';
      destruct (call_of todo k') as [o'|] eqn:Ek; try done; injection Hk' as <-; apply call_only_locks; rewrite ?(Hnw _ _ Ek); done. }
  destruct H as (nest & wr & H1 & H2).
  eapply (locks_progress _ _ nest wr (lok_gmethod lstr c nest wr) g _ sched s H1 H2 Hrun Hstuck).
  by rewrite call_of_map, Hk.
Qed.

Lemma C61_no_endless_execution_pf :
  forall (L : Type) (lstr : L -> string) (c : gcfg) (f : nat -> sys (gtree L) (gout L) (gmeth L) (gcout L)),
    ~ (forall n, exists i, sys_step (gmethod lstr c) (f n) i = Some (f (S n))).
Proof. intros L lstr c f. apply run_terminates. Qed.

(* ------------------------------------------------------------------ C62 *)
(** Two goroutines whose next steps collide. *)
Lemma racing_at {D R Op A : Type} (s : sys D R Op A) i j b : i <> j ->
  (sy_threads s !! i ≫= next_access) = Some true -> (sy_threads s !! j ≫= next_access) = Some b -> racing s.
Proof.
  intros Hij Hi Hj. destruct (sy_threads s !! i) as [th|] eqn:Ei; [|done]. destruct (sy_threads s !! j) as [th'|] eqn:Ej; [|done].
  by exists i, j, th, th', b.
Qed.

(** A GetAll reads the tree while a ClaimID writes it. *)
Lemma C62_tree_get_all_race_refuted_pf :
  forall (L : Type) (lstr : L -> string) (c : gcfg) (g : gtree L) (y : id) (l : L),
  i_id y <= g_size g ->
  exists sched s, sys_run (gmethod lstr c) (g_system c g [[CGetAll]; [CClaimID y l]]) sched = Some s /\ racing s.
Proof.
  intros L lstr c g y l Hy. exists [0; 0; 0; 0; 0; 0; 1; 1; 1; 1; 1]%nat.
  assert (Hv : g_validate g y = Ok tt).
  { unfold g_validate. destruct (N.ltb_spec (g_size g) (i_id y)); [lia|done]. }
  unfold g_system. cbn [map gcall_client]. rewrite Hv. eexists. split; [cbv -[g_set g_get_all new_entry]; reflexivity|].
  by apply (racing_at _ 1 0 false).
Qed.
(** Two ClaimRange calls with ranges that are not empty write the tree at the same time. *)
Lemma C62_claim_range_race_refuted_pf :
  forall (L : Type) (lstr : L -> string) (c : gcfg) (g : gtree L) (s1 s2 : string) (l1 l2 : L) x xs y ys,
  (do r <- parse_range (gc_id c) s1; range_ids (gc_id c) r) = Ok (x :: xs) ->
  (do r <- parse_range (gc_id c) s2; range_ids (gc_id c) r) = Ok (y :: ys) ->
  exists sched s, sys_run (gmethod lstr c) (g_system c g [[CClaimRange s1 l1]; [CClaimRange s2 l2]]) sched = Some s /\ racing s.
Proof.
  intros L lstr c g s1 s2 l1 l2 x xs y ys Hx Hy. exists [0; 0; 0; 1; 1; 1]%nat.
  unfold g_system. cbn [map gcall_client]. rewrite Hx, Hy. cbn [c_set_all]. eexists. split; [cbv -[g_set new_entry c_set_all]; reflexivity|].
  by apply (racing_at _ 1 0 true).
Qed.
(** The calls that hold the lock during all their accesses never race. *)
Lemma C62_tree_race_free_partial_pf :
  forall (L : Type) (lstr : L -> string) (c : gcfg) (g : gtree L) (todo : list (list (gcall L))) sched s,
    (forall k o, call_of todo k = Some o -> g_locked o = true) \/
    (forall k o, call_of todo k = Some o -> g_writes o = false) ->
    sys_run (gmethod lstr c) (g_system c g todo) sched = Some s -> ~ racing s.
Proof.
  intros L lstr c g todo sched s H Hrun.
  assert (Hex : exists wr, (wr = false \/ forall k p, call_of (map (map (gcall_client c g)) todo) k = Some p -> no_peek p) /\
    forall k p, call_of (map (map (gcall_client c g)) todo) k = Some p -> only (meth_ok true wr) p).
  { destruct H as [H|H].
    - exists true. split; [right|]; intros k p Hk; rewrite call_of_map in Hk;
        (destruct (call_of todo k) as [o|] eqn:Ek; [|done]); injection Hk as <-; specialize (H _ _ Ek).
      + by apply call_no_peek.
      + apply call_only; [|done..]. by destruct o.
    - exists false. split; [by left|]. intros k p Hk. rewrite call_of_map in Hk.
      destruct (call_of todo k) as [o|] eqn:Ek; [|done]. injection Hk as <-. specialize (H _ _ Ek).
      apply call_only; [by destruct o|done|by rewrite H]. }
  destruct Hex as (wr & H1 & H2). by apply (run_race_free _ _ true wr (ok_gmethod lstr c true wr) g _ sched s H1 H2).
Qed.

(* ------------------------------------------------------------------ C63 *)
Section atomic.
Context {L : Type} (lstr : L -> string) (c : gcfg).
Notation spec := (fun d o => alone (gmethod lstr c o) d).
Lemma set_size (g g' : gtree L) x e : g_set c g x e = Ok g' -> g_size g' = g_size g.
Proof. unfold g_set. destruct (tree_Set _ _ _ _); [|done..]. cbn. by intros [= <-]. Qed.
Lemma atomic_last (g : gtree L) o : g_atomic o = true ->
  effect_last spec (g_seq lstr c) (fun d => g_size d = g_size g) eq o (gcall_client c g o).
Proof.
  assert (Hset : forall (x : id) (l : L), g_validate g x = Ok tt -> forall d, g_size d = g_size g ->
    fst (unit_out d (do _ <- g_validate d x; g_set c d x (new_entry x l))) = fst (g_spec lstr c d (MSet x (new_entry x l))) /\
    GRUnit (as_done (snd (g_spec lstr c d (MSet x (new_entry x l))))) = snd (unit_out d (do _ <- g_validate d x; g_set c d x (new_entry x l))) /\
    g_size (fst (g_spec lstr c d (MSet x (new_entry x l)))) = g_size g).
  { intros x l Hv d Hd. assert (g_validate d x = Ok tt) as -> by (unfold g_validate in *; by rewrite Hd).
    cbn [rbind g_spec fst snd as_done]. pose proof (set_size d) as Hs.
    destruct (g_set c d x (new_entry x l)) as [g'|e|] eqn:Es; [|done..]. split; [done|]. split; [done|]. cbn.
    by rewrite (Hs _ _ _ Es). }
  assert (Hbad : forall (x : id) (e : res unit), g_validate g x = e -> e <> Ok tt -> forall (d : gtree L) (f : res (gtree L)), g_size d = g_size g ->
    (do _ <- g_validate d x; f) = match e with Err e => Err e | _ => Panic end).
  { intros x e Hv He d f Hd. assert (g_validate d x = e) as -> by (unfold g_validate in *; by rewrite Hd).
    destruct e as [[]|e|]; done. }
  destruct o; try done; intros _; cbn [gcall_client].
  - cbn [effect_last]. intros d Hd. rewrite alone_gmethod. done.
  - destruct (g_validate g x) as [[]|e|] eqn:Hv; cbn [effect_last]; intros d Hd.
    + rewrite alone_gmethod. cbn [g_seq returns]. unfold g_update. by apply Hset.
    + cbn [g_seq]. unfold g_update. by rewrite (Hbad x (Err e)).
    + cbn [g_seq]. unfold g_update. by rewrite (Hbad x Panic).
  - destruct (g_validate g x) as [[]|e|] eqn:Hv; cbn [effect_last]; intros d Hd.
    + rewrite alone_gmethod. cbn [g_seq returns]. unfold g_claim_id. by apply Hset.
    + cbn [g_seq]. unfold g_claim_id. by rewrite (Hbad x (Err e)).
    + cbn [g_seq]. unfold g_claim_id. by rewrite (Hbad x Panic).
  - cbn [effect_last]. intros d Hd. rewrite alone_gmethod. done.
  - cbn [effect_last]. intros d Hd. rewrite alone_gmethod. done.
Qed.
End atomic.

(** Every execution of Get, Update, ClaimID, Children and Parents calls of one
    tree, of any package, is equivalent to the calls of [order] one after
    another.  A call that has returned occurs in [order] with its result, unless
    it does nothing and has the same result on every tree of this size (an id
    above it). *)
Lemma C63_linearizable_pf :
  forall (L : Type) (lstr : L -> string) (c : gcfg) (g : gtree L) (todo : list (list (gcall L))) sched s,
    (forall k o, call_of todo k = Some o -> g_atomic o = true) ->
    sys_run (gmethod lstr c) (g_system c g todo) sched = Some s ->
    exists order : list (cid * (gcall L * gcout L)),
      NoDup order.*1 /\
      log_results order = snd (seq_run (g_seq lstr c) g (log_ops order)) /\
      (forall k o x, (k, (o, x)) ∈ order -> call_of todo k = Some o /\ EStart k ∈ sy_hist s) /\
      (forall k x, EEnd k x ∈ sy_hist s -> exists o, call_of todo k = Some o /\
         ((k, (o, x)) ∈ order \/ forall d, g_size d = g_size g -> g_seq lstr c d o = (d, x))) /\
      (forall k k' i j x x', precedes (sy_hist s) k k' ->
         order !! i = Some (k, x) -> order !! j = Some (k', x') -> (i < j)%nat) /\
      (quiet s -> sy_data s = fst (seq_run (g_seq lstr c) g (log_ops order))).
Proof.
  intros L lstr c g todo sched s Hc Hrun.
  destruct (run_linearizable (gmethod lstr c) (g_seq lstr c) (gcall_client c g) (fun d => g_size d = g_size g) eq (meth_ok true true) true true
    (ok_gmethod lstr c true true) g todo sched s eq_refl) as (order & H1 & H2 & H3 & H4 & H5 & H6); [|exact Hrun|].
  { intros k o Hk. specialize (Hc _ _ Hk). split; [by apply atomic_last|]. split; [apply call_no_peek; by destruct o|apply call_only; [by destruct o|done..]]. }
  exists order. split; [done|]. split; [clear -H2; induction H2 as [|a b l l' Hab Hl IH]; [done|]; by rewrite Hab, IH|]. done.
Qed.

(* ------------------------------------------------------------------ C64 *)
(** A call of which no other call is going on returns what it returns in the
    sequential model, and leaves the tree it leaves there unless it fails. *)
Lemma C64_tree_call_alone_pf :
  forall (L : Type) (lstr : L -> string) (c : gcfg) (g : gtree L) (o : gcall L),
    let a := client_alone (gmethod lstr c) (gcall_client c g o) g in
    snd a = snd (g_seq lstr c g o) /\
    (match snd a with GREntry (Ok _) | GRVals (Ok _) | GRUnit (Ok _) | GRSize (Ok _) => True | _ => False end ->
     fst a = fst (g_seq lstr c g o)).
Proof. intros L lstr c g o. apply (call_alone lstr c). Qed.

(* ------------------------------------------------------------------ C67 *)
(** A tree with the one entry 0 and, while the loop of a listing stands at it, a
    ClaimID of 128 or a ReleaseID of 0: the listing panics.  All packages, all
    calls that loop without the lock. *)
Lemma C67_listing_crashes_refuted_pf :
  forall (c : gcfg) (o o' : gcall unit), c ∈ g_packages ->
  o ∈ [CGetAll; CGetByLabel (fun _ => true); CSize; CReleaseByLabel (fun _ => true)] ->
  o' ∈ [CClaimID (MyId 128 (gw c)) tt; CReleaseID (MyId 0 (gw c))] ->
  exists g0 g sched s r,
    g_new c 8 = Ok g0 /\ g_claim_id c g0 (MyId 0 (gw c)) tt = Ok g /\
    sys_run (gmethod (fun _ => String.EmptyString) c) (g_system c g [[o]; [o']]) sched = Some s /\
    EEnd (0, 0)%nat r ∈ sy_hist s /\ g_crashed r.
Proof.
  intros c o o' Hc Ho Ho'.
  set (n1 := match o' with CClaimID _ _ => 9%nat | _ => 17%nat end).
  set (n2 := match o', o with CClaimID _ _, CGetAll => 3%nat | CClaimID _ _, CSize => 2%nat | CClaimID _ _, _ => 4%nat | _, _ => 2%nat end).
  set (sched := replicate 7 0%nat ++ replicate n1 1%nat ++ replicate n2 0%nat).
  assert (H : match g_new c 8 with
              | Ok g0 =>
                  match g_claim_id c g0 (MyId 0 (gw c)) tt with
                  | Ok g =>
                      match sys_run (gmethod (fun _ => String.EmptyString) c) (g_system c g [[o]; [o']]) sched with
                      | Some s => match sy_hist s with [_; _; _; EEnd k r] => k = (0, 0)%nat /\ g_crashed r | _ => False end
                      | None => False
                      end
                  | _ => False
                  end
              | _ => False
              end).
  { subst sched n1 n2. unfold g_packages in Hc.
    repeat (apply elem_of_cons in Ho as [->|Ho]; [
      repeat (apply elem_of_cons in Ho' as [->|Ho']; [
        repeat (apply elem_of_cons in Hc as [->|Hc]; [vm_compute; split; reflexivity|]);
        exfalso; clear -Hc; by apply elem_of_nil in Hc|]);
      exfalso; clear -Ho'; by apply elem_of_nil in Ho'|]).
    exfalso. clear -Ho. by apply elem_of_nil in Ho. }
  destruct (g_new c 8) as [g0|e|]; [|done..]. destruct (g_claim_id c g0 (MyId 0 (gw c)) tt) as [g|e|] eqn:Eg; [|done..].
  destruct (sys_run _ _ sched) as [s|] eqn:Es; [|done].
  destruct (sy_hist s) as [|e1 [|e2 [|e3 [|[k|k r] [|e5 l]]]]] eqn:Eh; try done. destruct H as [-> H].
  exists g0, g, sched, s, r. split; [done|]. split; [done|]. split; [done|]. rewrite Eh. split; [|done].
  do 3 apply elem_of_list_further. apply elem_of_list_here.
Qed.

(** The same without goroutines: an iterator that stands at an entry, the tree
    changed, and the next call of Entry or Next panics. *)
Lemma C67_open_iterator_refuted_pf :
  forall c, c ∈ g_packages ->
  exists (g0 g g1 g2 : gtree unit) it,
    g_new c 8 = Ok g0 /\ g_claim_id c g0 (MyId 0 (gw c)) tt = Ok g /\
    iter_next (g_tree g) iterate = Ok (it, true) /\ it_entry g it = Ok (Some (TEntry 0 (gw c) tt)) /\
    g_claim_id c g (MyId 128 (gw c)) tt = Ok g1 /\ iter_next (g_tree g1) it = Panic /\
    g_release_id (fun _ => String.EmptyString) c g (MyId 0 (gw c)) = Ok g2 /\
    it_entry g2 it = Panic /\ iter_next (g_tree g2) it = Panic.
Proof.
  intros c Hc.
  assert (H : match g_new c 8 with
              | Ok g0 =>
                  match g_claim_id c g0 (MyId 0 (gw c)) tt with
                  | Ok g =>
                      match iter_next (g_tree g) iterate, g_claim_id c g (MyId 128 (gw c)) tt,
                            g_release_id (fun _ => String.EmptyString) c g (MyId 0 (gw c)) with
                      | Ok (it, true), Ok g1, Ok g2 =>
                          it_entry g it = Ok (Some (TEntry 0 (gw c) tt)) /\ iter_next (g_tree g1) it = Panic /\
                          it_entry g2 it = Panic /\ iter_next (g_tree g2) it = Panic
                      | _, _, _ => False
                      end
                  | _ => False
                  end
              | _ => False
              end).
  { unfold g_packages in Hc. repeat (apply elem_of_cons in Hc as [->|Hc]; [vm_compute; repeat split; reflexivity|]).
    exfalso. clear -Hc. by apply elem_of_nil in Hc. }
  destruct (g_new c 8) as [g0|e|]; [|done..]. destruct (g_claim_id c g0 (MyId 0 (gw c)) tt) as [g|e|] eqn:Eg; [|done..].
  destruct (iter_next (g_tree g) iterate) as [[it []]|e|] eqn:E1; [|done..].
  destruct (g_claim_id c g (MyId 128 (gw c)) tt) as [g1|e|] eqn:E2; [|done..].
  destruct (g_release_id _ c g (MyId 0 (gw c))) as [g2|e|] eqn:E3; [|done..].
  destruct H as (H1 & H2 & H3 & H4). exists g0, g, g1, g2, it. done.
Qed.

(** Calls that overwrite stored ids but add and remove none do not disturb the
    listings: no call panics, and each returns what it returns alone on the first
    tree, but for labels that one of the calls has replaced. *)
Lemma C67_overwriting_partial_pf :
  forall (L : Type) (lstr : L -> string) (c : gcfg) (n : N) (m : record L) (g : gtree L) (todo : list (list (gcall L))) sched s,
    c ∈ g_packages_16_32 -> g_hist any_op c n m g ->
    (forall k o, call_of todo k = Some o -> g_overwrites c n m o) ->
    gw c = 16 \/ N.of_nat (size m) + 3 <= 2 ^ 31 ->
    sys_run (gmethod lstr c) (g_system c g todo) sched = Some s ->
    exists es es', g_get_all g = Ok (Some <$> es) /\ g_get_all (sy_data s) = Ok (Some <$> es') /\ Forall2 (g_version c todo) es es' /\
    forall k r, EEnd k r ∈ sy_hist s ->
      ~ g_crashed r /\
      exists o, call_of todo k = Some o /\
        match o with
        | CGetByLabel sel => g_selected c todo sel es r
        | _ => g_outcome c todo (snd (g_seq lstr c g o)) r
        end.
Proof.
  intros L lstr c n m g todo sched s Hc Hh Hcalls Hroom Hrun. pose proof (hist_G c Hc _ _ _ _ Hh) as HG.
  assert (Hfit : fits c m 1). { destruct Hroom as [H|H]; [by left|right]. lia. }
  destruct (over_run lstr c Hc n m g todo HG Hfit Hcalls sched s Hrun) as [Hsame Hend].
  destruct (Same_all c n m g todo HG _ Hsame) as (es & es' & H1 & H2 & H3). exists es, es'. split; [done|]. split; [done|]. split; [done|].
  intros k r Hr. destruct (Hend k r Hr) as (o & Ho & Hcr & HQ). split; [done|]. exists o. split; [done|].
  destruct o; try done. destruct HQ as (es1 & He1 & HQ). rewrite H1 in He1. injection He1 as He1.
  apply (inj (fmap Some)) in He1 as <-. done.
Qed.

(** As long as no call changes the tree, every call returns what it returns alone. *)
Lemma C67_without_writers_partial_pf :
  forall (L : Type) (lstr : L -> string) (c : gcfg) (g : gtree L) (todo : list (list (gcall L))) sched s,
    (forall k o, call_of todo k = Some o -> g_writes o = false) ->
    sys_run (gmethod lstr c) (g_system c g todo) sched = Some s ->
    sy_data s = g /\
    forall k r, EEnd k r ∈ sy_hist s -> exists o, call_of todo k = Some o /\ r = snd (g_seq lstr c g o).
Proof.
  intros L lstr c g todo sched s Hw Hrun.
  destruct (run_reads (gmethod lstr c) (meth_ok true false)
    (fun o Ho => ok_no_write _ _ _ _ (ok_gmethod lstr c true false o Ho)) g (map (map (gcall_client c g)) todo) sched s) with (2 := Hrun) as [H1 H2].
  - intros k p Hk. rewrite call_of_map in Hk. destruct (call_of todo k) as [o|] eqn:Ek; [|done]. injection Hk as <-.
    specialize (Hw _ _ Ek). apply call_only; [by destruct o|done|by rewrite Hw].
  - split; [done|]. intros k r Hr. destruct (H2 _ _ Hr) as (p & Hp & ->). rewrite call_of_map in Hp.
    destruct (call_of todo k) as [o|] eqn:Ek; [|done]. injection Hp as <-. exists o. split; [done|]. apply call_alone.
Qed.

(* ------------------------------------------------------------------ C78 *)
(** Every execution of the calls that lock, ReleaseID and ClaimFree included, is
    equivalent to the calls of [order] one after another, where a ClaimFree that
    has returned an entry is a ClaimID of its id.  A call that has returned occurs
    in [order] with its result, unless it does nothing and has the same result on
    every tree of this size and length. *)
Lemma C78_release_atomic_pf :
  forall (L : Type) (lstr : L -> string) (c : gcfg) (n : N) (m : record L) (g : gtree L) (todo : list (list (gcall L))) sched s,
    c ∈ g_packages_16_32 -> g_hist any_op c n m g ->
    (forall k o, call_of todo k = Some o -> g_locked o = true /\ g_ids_ok c o) ->
    gw c = 16 \/ N.of_nat (size m + length (concat todo)) + 2 <= 2 ^ 31 ->
    sys_run (gmethod lstr c) (g_system c g todo) sched = Some s ->
    exists order : list (cid * (gcall L * gcout L)),
      NoDup order.*1 /\
      log_results order = snd (seq_run (g_seq lstr c) g (log_ops order)) /\
      (forall k o x, (k, (o, x)) ∈ order -> exists o0 x0, call_of todo k = Some o0 /\ g_as_claim o0 x0 = (o, x) /\ EStart k ∈ sy_hist s) /\
      (forall k x, EEnd k x ∈ sy_hist s -> exists o, call_of todo k = Some o /\
         ((k, g_as_claim o x) ∈ order \/ forall d, g_size d = g_size g -> g_length d = g_length g -> g_seq lstr c d o = (d, x))) /\
      (forall k k' i j x x', precedes (sy_hist s) k k' ->
         order !! i = Some (k, x) -> order !! j = Some (k', x') -> (i < j)%nat) /\
      (quiet s -> forall o, g_writes o = false -> g_ids_ok c o ->
         snd (g_seq lstr c (sy_data s) o) = snd (g_seq lstr c (fst (seq_run (g_seq lstr c) g (log_ops order))) o)).
Proof.
  intros L lstr c n m g todo sched s Hc Hh Hcalls Hroom Hrun. apply (one_order lstr c Hc n m g todo sched s Hh Hroom Hrun); [|done].
  intros k o Hk. destruct (Hcalls _ _ Hk) as [H1 H2]. destruct o; try discriminate H1; (split; [done|]); (split; [done|]); try (intros H; discriminate H).
  intros _. eauto.
Qed.
