(** Proofs of the property statements about concurrent executions. *)
From Verif Require Import ConcPrune TableLinProofs ConcLin IdxTableProofs TableNProofs IPTableProofs IdxConcProofs TableConcProofs TableTimedProofs.
From Verif Require Export TableConcSpec.
From Coq Require Import Lia ZifyBool ZifyNat ZifyN.
From Verif Require Import TableNModel.

(* ------------------------------------------------------------------ C50 *)
Section direct.
Context {T : Type}.
Lemma follows_direct (o : op T) l q : follows (direct o) l q ->
  (l = [] /\ q = direct o) \/ exists r, l = [(o, r)] /\ q = CRet r.
Proof.
  intros H. inversion H as [p E1 E2 E3|o' k r l' q' Hf E1 E2 E3|]; subst; [by left|].
  inversion Hf; subst. right. eauto.
Qed.
End direct.

(** Every execution of calls of one table is equivalent to the calls of [order] one
    after another: each call occurs at most once; the results are those of the
    sequential program; a call that has returned occurs with its result; calls
    that do not overlap in time keep their order; the table, when no call is
    running, is the one the sequential program ends with. *)
Lemma C50_linearizable_pf :
  forall (T : Type) (d0 : table T) (todo : list (list (op T))) sched s,
    sys_run method (start d0 (map (map direct) todo)) sched = Some s ->
    exists order : list (cid * (op T * out T)),
      NoDup order.*1 /\
      snd (run d0 (log_ops order)) = log_results order /\
      (forall c o r, (c, (o, r)) ∈ order -> call_of todo c = Some o /\ EStart c ∈ sy_hist s) /\
      (forall c r, EEnd c r ∈ sy_hist s -> exists o, (c, (o, r)) ∈ order) /\
      (forall c c' i j x x', precedes (sy_hist s) c c' ->
         order !! i = Some (c, x) -> order !! j = Some (c', x') -> (i < j)%nat) /\
      (quiet s -> sy_data s = fst (run d0 (log_ops order))) /\
      (finished s -> forall c o, call_of todo c = Some o -> exists r, EEnd c r ∈ sy_hist s).
Proof.
  intros T d0 todo sched s Hr. destruct (idx_run _ _ _ _ Hr) as (l & d & _ & He & _ & Hfin & _).
  assert (Hcall : forall c x, (c, x) ∈ l -> exists o r, call_of todo c = Some o /\ calls_of c l = [(o, r)]).
  { intros c x Hx. destruct (ex_started _ _ _ _ _ _ He c x Hx) as (_ & p & q & Hp & Hf).
    rewrite call_of_map in Hp. destruct (call_of todo c) as [o|]; [|done]. injection Hp as <-.
    apply follows_direct in Hf as [[Hf _]|(r & Hf & _)]; [|eauto].
    apply calls_of_in in Hx. rewrite Hf in Hx. by apply elem_of_nil in Hx. }
  pose proof (ex_seq _ _ _ _ _ _ He) as Hseq. rewrite seq_run_step in Hseq.
  exists l. split; [|split; [|split; [|split; [|split; [|split]]]]].
  - apply calls_of_nodup. intros c x Hx. destruct (Hcall c x Hx) as (o & r & _ & ->). done.
  - by rewrite Hseq.
  - intros c o r Hx. split; [|by apply (ex_started _ _ _ _ _ _ He) in Hx as [? _]].
    destruct (Hcall c _ Hx) as (o' & r' & Ho & Hc). apply calls_of_in in Hx. rewrite Hc in Hx.
    apply elem_of_list_singleton in Hx as [= -> ->]. done.
  - intros c r Hx. destruct (ex_ended _ _ _ _ _ _ He c r Hx) as (p & Hp & Hf).
    rewrite call_of_map in Hp. destruct (call_of todo c) as [o|]; [|done]. injection Hp as <-.
    apply follows_direct in Hf as [[_ Hf]|(r' & Hf & [= <-])]; [done|]. exists o. apply calls_of_in. rewrite Hf. by left.
  - apply (ex_order _ _ _ _ _ _ He).
  - rewrite Hseq. apply (ex_final _ _ _ _ _ _ He).
  - intros Hf c o Hc. eapply (Hfin Hf). rewrite call_of_map, Hc. done.
Qed.

(* ------------------------------------------------------------------ C51 *)
(** GetAll locks for reading twice; a writer that arrives in between waits for
    the first read lock to be released, and the second waits for the writer. *)
Lemma C51_get_all_deadlocks_refuted_pf :
  forall (T : Type) (size id : N) (x : T),
  exists sched s,
    sys_run method (start (new_table size) (map (map direct) [[OGetAll]; [OClaim id x]])) sched = Some s /\
    (forall i, sys_step method s i = None) /\
    (forall c r, EEnd c r ∉ sy_hist s).
Proof.
  intros T size id x. exists [0; 0; 0; 1; 1; 1]%nat.
  exists (Sys (new_table size) (RW 1 WWait)
    [Thread [] 0 (Inside OGetAll (match method OGetAll with RLock p => p | p => p end) (fun r => CRet r));
     Thread [] 0 (Inside (OClaim id x) (match method (OClaim id x) with Lock p => Wait p | p => p end) (fun r => CRet r))]
    [EStart (0, 0)%nat; EStart (1, 0)%nat]).
  split; [reflexivity|]. split.
  - intros [|[|i]]; reflexivity.
  - intros c r H. cbn [sy_hist] in H. repeat (apply elem_of_cons in H as [H|H]; [done|]). by apply elem_of_nil in H.
Qed.

(** As long as GetAll is not called, or only methods that do not write, no
    execution gets stuck before every call has returned; and no execution of any
    calls goes on forever. *)
Lemma C51_every_call_returns_partial_pf :
  forall (T : Type) (d0 : table T) (todo : list (list (op T))) sched s,
    (forall c o, call_of todo c = Some o -> nests o = false) \/
    (forall c o, call_of todo c = Some o -> writes_table o = false) ->
    sys_run method (start d0 (map (map direct) todo)) sched = Some s ->
    (forall i, sys_step method s i = None) ->
    forall c o, call_of todo c = Some o -> exists r, EEnd c r ∈ sy_hist s.
Proof.
  intros T d0 todo sched s Hn Hr Hst c o Hc.
  assert (Hall : forall (P : op T -> Prop), (forall c o, call_of todo c = Some o -> P o) ->
    Forall (Forall (only P)) (map (map (direct (T := T))) todo)).
  { intros P HP. apply Forall_map, Forall_forall. intros os Hos. apply Forall_map, Forall_forall. intros o' Ho'. split; [|done].
    apply elem_of_list_lookup in Hos as [i Hi], Ho' as [j Hj]. apply (HP (i, j)). unfold call_of. cbn. by rewrite Hi. }
  destruct Hn as [Hn|Hn].
  - eapply (idx_progress false true); [by left| |done|done|by rewrite call_of_map, Hc].
    apply Hall. intros c' o' Hc'. rewrite (Hn _ _ Hc'). done.
  - eapply (idx_progress true false); [by right| |done|done|by rewrite call_of_map, Hc].
    apply Hall. intros c' o' Hc'. rewrite (Hn _ _ Hc'). done.
Qed.

Lemma C51_no_endless_execution_pf :
  forall (T A : Type) (f : nat -> sys (table T) (out T) (op T) A),
    ~ (forall n, exists i, sys_step method (f n) i = Some (f (S n))).
Proof. intros T A f. apply idx_terminates. Qed.

(* ------------------------------------------------------------------ C52 *)
Section tn.
Context {L : Type} (c : tn_cfg) (a b : N) (r : tableN L).
Hypothesis Hg : tn_good c.
Hypothesis Hab : a <= b < 2 ^ tn_w c.
Hypothesis Hr : wfN c a b r.
Local Notation at_ l := (at_log (tn_table r) l).

Local Lemma calls_only rel upd (todo : list (list (top L))) :
  (forall k o, call_of todo k = Some o -> (t_releases o = true -> rel = true) /\ (t_updates o = true -> upd = true)) ->
  forall k p, call_of (map (map (tn_call r)) todo) k = Some p -> only (tnop c a b rel upd) p.
Proof.
  intros H k p. rewrite call_of_map. destruct (call_of todo k) as [o|] eqn:Ho; [|done]. intros [= <-].
  destruct (H _ _ Ho). by apply tn_call_only.
Qed.
Local Lemma wf_at rel upd todo s l d n :
  explains step (tn_table r) (map (map (tn_call r)) todo) s l d ->
  (forall k o, call_of todo k = Some o -> (t_releases o = true -> rel = true) /\ (t_updates o = true -> upd = true)) ->
  (n <= length l)%nat -> wfN c a b (tn_with r (at_ l n)).
Proof.
  intros He Ho Hn. apply (at_log_keeps (fun d => wfN c a b (tn_with r d)) (tn_table r) l 0 n); [lia| |].
  - change (wfN c a b (tn_with r (tn_table r))). by rewrite tn_with_same.
  - intros k x o y d' _ Hk Hw. eapply (tnop_wf c a b r Hg Hab Hr rel upd); [|exact Hw].
    eapply log_only; [exact He|by apply calls_only|]. by eapply elem_of_list_lookup_2.
Qed.
Local Lemma ended_claim todo s l d k o x id lb :
  explains step (tn_table r) (map (map (tn_call r)) todo) s l d ->
  EEnd k x ∈ sy_hist s -> call_of todo k = Some o -> claims o x = Some (id, lb) ->
  exists p y, tn_validate r id = Ok tt /\ as_unit y = Ok tt /\
    l !! p = Some (k, (OClaim (tn_index r id) (tn_stored r (tn_index r id) lb), y)).
Proof.
  intros He Hend Ho Hc. destruct (ex_ended _ _ _ _ _ _ He _ _ Hend) as (p & Hp & Hf).
  rewrite call_of_map, Ho in Hp. injection Hp as <-.
  destruct (claim_logged c a b r Hg Hab Hr _ _ _ _ _ Hf Hc) as (y & Hv & Hy & Hin).
  apply calls_of_in, elem_of_list_lookup in Hin as [p Hin]. eauto.
Qed.
Lemma claimed_once (todo : list (list (top L))) sched s k k' o o' x x' id lb lb' :
  (forall k o, call_of todo k = Some o -> t_releases o = false) ->
  sys_run method (tn_system r todo) sched = Some s ->
  call_of todo k = Some o -> EEnd k x ∈ sy_hist s -> claims o x = Some (id, lb) ->
  call_of todo k' = Some o' -> EEnd k' x' ∈ sy_hist s -> claims o' x' = Some (id, lb') -> k = k'.
Proof.
  intros Hno Hrun Ho Hx Hc Ho' Hx' Hc'. destruct (idx_run _ _ _ _ Hrun) as (l & d & _ & He & _).
  pose proof (ex_seq _ _ _ _ _ _ He) as Hseq. rewrite seq_run_step in Hseq.
  assert (Honly : forall k o, call_of todo k = Some o -> (t_releases o = true -> false = true) /\ (t_updates o = true -> true = true)).
  { intros k1 o1 H1. rewrite (Hno _ _ H1). done. }
  destruct (ended_claim _ _ _ _ _ _ _ _ _ He Hx Ho Hc) as (p & y & _ & Hy & Hp).
  destruct (ended_claim _ _ _ _ _ _ _ _ _ He Hx' Ho' Hc') as (p' & y' & _ & Hy' & Hp').
  assert (Hlt : forall p p' k k' lb lb' y y', (p < p')%nat -> as_unit y = Ok tt -> as_unit y' = Ok tt ->
    l !! p = Some (k, (OClaim (tn_index r id) (tn_stored r (tn_index r id) lb), y)) ->
    l !! p' = Some (k', (OClaim (tn_index r id) (tn_stored r (tn_index r id) lb'), y')) -> False).
  { clear -He Honly Hseq Hg Hab Hr. intros p p' k k' lb lb' y y' Hlt Hy Hy' Hp Hp'.
    destruct (claim_wins _ _ _ _ _ _ _ _ Hseq Hp Hy) as (_ & _ & Hs).
    destruct (claim_wins _ _ _ _ _ _ _ _ Hseq Hp' Hy') as (Hn & _ & _).
    apply lookup_lt_Some in Hp' as Hl.
    assert (Hsome : is_Some (t_map (at_ l p') !! tn_index r id)).
    { apply (at_log_keeps (fun d => is_Some (t_map d !! tn_index r id)) (tn_table r) l (S p) p'); [lia| |].
      - rewrite Hs. cbn. rewrite lookup_insert. eauto.
      - intros n k1 o1 x1 d1 _ Hn1 Hd1. eapply tnop_stays; [|done].
        eapply log_only; [exact He|by apply calls_only|]. by eapply elem_of_list_lookup_2. }
    rewrite Hn in Hsome. by destruct Hsome. }
  destruct (lt_eq_lt_dec p p') as [[Hpp| ->]|Hpp].
  - exfalso. exact (Hlt p p' _ _ _ _ _ _ Hpp Hy Hy' Hp Hp').
  - congruence.
  - exfalso. exact (Hlt p' p _ _ _ _ _ _ Hpp Hy' Hy Hp' Hp).
Qed.
Lemma labels_kept (todo : list (list (top L))) sched s k o x id lb :
  (forall k o, call_of todo k = Some o -> t_releases o = false /\ t_updates o = false /\ top_uint64 o = true) ->
  sys_run method (tn_system r todo) sched = Some s ->
  call_of todo k = Some o -> EEnd k x ∈ sy_hist s -> claims o x = Some (id, lb) ->
  (quiet s -> tn_claimed (tn_with r (sy_data s)) !! id = Some lb) /\
  (forall k' x', precedes (sy_hist s) k k' -> call_of todo k' = Some (TGet id) -> EEnd k' x' ∈ sy_hist s ->
     exists e, x' = TREntry (Ok e) /\ te_labels e = lb).
Proof.
  intros Hno Hrun Ho Hx Hc. destruct (idx_run _ _ _ _ Hrun) as (l & d & _ & He & _).
  pose proof (ex_seq _ _ _ _ _ _ He) as Hseq. rewrite seq_run_step in Hseq.
  assert (Honly : forall k o, call_of todo k = Some o -> (t_releases o = true -> false = true) /\ (t_updates o = true -> false = true)).
  { intros k1 o1 H1. destruct (Hno _ _ H1) as (-> & -> & _). done. }
  destruct (ended_claim _ _ _ _ _ _ _ _ _ He Hx Ho Hc) as (p & y & Hv & Hy & Hp).
  destruct (claim_wins _ _ _ _ _ _ _ _ Hseq Hp Hy) as (_ & Hvp & Hs).
  destruct (validate_ok c a b r Hg Hab Hr _ Hv) as (Hin & Hi & Hid).
  assert (Hid64 : id < 2 ^ 64).
  { destruct o as [i|i l'|l'|i|i l'| |i|i| | |sel]; try done; cbn [claims] in Hc.
    - destruct x as [[[]|e|]| | | | |]; try done. injection Hc as -> ->. destruct (Hno _ _ Ho) as (_ & _ & Hu). by apply N.ltb_lt in Hu.
    - destruct (ex_ended _ _ _ _ _ _ He _ _ Hx) as (q & Hq & Hf). rewrite call_of_map, Ho in Hq. injection Hq as <-.
      destruct (follows_claim_free _ _ _ _ Hf) as (y1 & cs' & _ & Hf'). destruct x as [|[e|e|]| | | |]; try done. injection Hc as <- ->.
      destruct (as_id y1) as [j|e'|]; [|by destruct Hf' as [_ ?]..].
      destruct (follows_claim _ _ _ _ _ _ Hf') as [(e' & _ & _ & [=])|(_ & [(? & _ & _ & [=])|(x1 & u & _ & Hz & _)])].
      destruct (as_unit u); try done. injection Hz as ->. cbn [te_id]. destruct Hr as (-> & _). destruct Hg as (? & ? & _).
      unfold uwrap. eapply N.lt_le_trans; [apply N.mod_lt; lia|done]. }
  specialize (Hid Hid64). rewrite Hid in *.
  assert (Hlater : forall q, (p < q <= length l)%nat -> t_size (at_ l q) = t_size (at_ l p) /\
    t_map (at_ l q) !! (id - a) = Some (NewEntry (id - a) (TEntry (id - a) (tn_idlen c) lb))).
  { intros q Hq. apply (at_log_keeps (fun d => t_size d = t_size (at_ l p) /\ t_map d !! (id - a) = Some (NewEntry (id - a) (TEntry (id - a) (tn_idlen c) lb)))
      (tn_table r) l (S p) q); [lia| |].
    - rewrite Hs, Hi. rewrite (stored_eq c a b) by (done || lia). cbn. by rewrite lookup_insert.
    - intros n k1 o1 x1 d1 _ Hn1 [Hd1 Hd2].
      assert (Hop : tnop c a b false false o1).
      { eapply log_only; [exact He|by apply calls_only|]. by eapply elem_of_list_lookup_2. }
      split; [|by eapply tnop_keeps]. rewrite <- Hd1. by eapply tnop_step. }
  assert (Hpl : (p < length l)%nat) by (by eapply lookup_lt_Some). split.
  - intros Hq. rewrite (ex_final _ _ _ _ _ _ He Hq). rewrite <- (at_log_end _ _ _ _ Hseq).
    assert (Hw : wfN c a b (tn_with r (at_ l (length l)))) by (eapply wf_at; [exact He|done|done]).
    rewrite (tn_claimed_lookup c a b) by done. destruct (N.leb_spec a id); [|lia]. cbn [tn_table tn_with].
    destruct (Hlater (length l)) as [_ Hl]; [lia|]. unfold claimed. rewrite lookup_fmap, Hl. done.
  - intros k' x' Hpre Hk' Hx'. destruct (ex_ended _ _ _ _ _ _ He _ _ Hx') as (q & Hq & Hf).
    rewrite call_of_map, Hk' in Hq. injection Hq as <-. cbn [tn_call] in Hf. rewrite Hv in Hf.
    apply follows_ccall in Hf as (z & cs' & Hcs & Hf). apply follows_ret in Hf as [-> <-].
    assert (Hz : (k', (OGet (tn_index r id), z)) ∈ l) by (apply calls_of_in; rewrite Hcs; left).
    apply elem_of_list_lookup in Hz as [q Hz].
    assert (Hpq : (p < q)%nat) by (by eapply (ex_order _ _ _ _ _ _ He)). apply lookup_lt_Some in Hz as Hql.
    destruct (Hlater q) as [Hl1 Hl2]; [lia|].
    rewrite (at_log_result _ _ _ _ _ _ _ Hseq Hz). cbn [step snd as_entry]. unfold get.
    replace (validate (at_ l q) (tn_index r id)) with (validate (at_ l p) (tn_index r id)) by (unfold validate; by rewrite Hl1).
    rewrite Hvp. cbn [rbind]. rewrite Hi, Hl2. cbn [rbind]. eexists. split; [done|]. done.
Qed.

Lemma claim_free_fails (todo : list (list (top L))) sched s k lb e :
  b - a + 1 < 2 ^ tn_w c ->
  sys_run method (tn_system r todo) sched = Some s ->
  call_of todo k = Some (TClaimFree lb) -> EEnd k (TREntry (Err e)) ∈ sy_hist s ->
  exists n s', sys_run method (tn_system r todo) (take n sched) = Some s' /\ during (sy_hist s') k /\
    ((forall id, ~ tn_unclaimed a b (tn_claimed (tn_with r (sy_data s'))) id) \/
     exists m s'' id, (n < m < length sched)%nat /\
       sys_run method (tn_system r todo) (take m sched) = Some s'' /\ during (sy_hist s'') k /\
       tn_unclaimed a b (tn_claimed (tn_with r (sy_data s'))) id /\
       is_Some (tn_claimed (tn_with r (sy_data s'')) !! id)).
Proof.
  intros Hsz Hrun Ho Hx. destruct (idx_run _ _ _ _ Hrun) as (l & d & ns & He & Hlen & _ & Hns & Hmono & Hmom).
  pose proof (ex_seq _ _ _ _ _ _ He) as Hseq. rewrite seq_run_step in Hseq.
  destruct (ex_ended _ _ _ _ _ _ He _ _ Hx) as (q & Hq & Hf). rewrite call_of_map, Ho in Hq. injection Hq as <-.
  destruct (follows_claim_free _ _ _ _ Hf) as (y & cs' & Hcs & Hf').
  assert (Hwf : forall n, (n <= length l)%nat -> wfN c a b (tn_with r (at_ l n))).
  { intros n Hn. eapply (wf_at true true); [exact He| |done]. done. }
  assert (Hfind : forall p, l !! p = Some (k, (OFindFree, y)) ->
    as_id y = find_free (at_ l p) /\
    ((exists id, tn_unclaimed a b (tn_claimed (tn_with r (at_ l p))) id /\ tn_find_free (tn_with r (at_ l p)) = Ok id) \/
     ((forall id, ~ tn_unclaimed a b (tn_claimed (tn_with r (at_ l p))) id) /\ tn_find_free (tn_with r (at_ l p)) = Err ENoFree))).
  { intros p Hp. split; [by rewrite (at_log_result _ _ _ _ _ _ _ Hseq Hp)|].
    assert (Hpl : (p <= length l)%nat) by (apply lookup_lt_Some in Hp; lia).
    destruct (tn_find_free_spec c a b _ Hg Hab (Hwf p Hpl)) as [[? _]|[_ [(id & [Hid _] & Hff)|[Hid Hff]]]]; [lia|left; eauto|right; done]. }
  assert (Hmoment : forall p x, l !! p = Some (k, x) -> exists n s', ns !! p = Some n /\
    sys_run method (tn_system r todo) (take n sched) = Some s' /\ during (sy_hist s') k /\ sy_data s' = at_ l p).
  { intros p x Hp. destruct (lookup_lt_is_Some_2 ns p) as [n Hn]; [rewrite Hlen; by eapply lookup_lt_Some|].
    destruct (Hmom _ _ _ _ Hp Hn) as (s' & H1 & H2 & H3). exists n, s'. done. }
  destruct (as_id y) as [kk|e'|] eqn:Hy.
  2: { assert (Hin : (k, (OFindFree, y)) ∈ l) by (apply calls_of_in; rewrite Hcs; left).
       apply elem_of_list_lookup in Hin as [p Hp]. destruct (Hmoment _ _ Hp) as (n & s' & _ & Hs' & Hd & Hdat).
       exists n, s'. split; [done|]. split; [done|]. left. rewrite Hdat.
       destruct (Hfind _ Hp) as (Hyf & [(id & _ & Hff)|[Hid _]]); [|done].
       unfold tn_find_free in Hff. cbn [tn_table tn_with] in Hff. rewrite <- Hyf in Hff. done. }
  2: { by destruct Hf' as [_ [=]]. }
  assert (Hboth : forall p, l !! p = Some (k, (OFindFree, y)) -> kk <= b - a /\ tn_from_index r kk = a + kk /\
    tn_unclaimed a b (tn_claimed (tn_with r (at_ l p))) (a + kk)).
  { intros p Hp. destruct (Hfind _ Hp) as (Hyf & [(id & Hid & Hff)|[_ Hff]]);
      unfold tn_find_free in Hff; cbn [tn_table tn_with] in Hff; rewrite <- Hyf in Hff; [|done]. cbn [rbind] in Hff.
    injection Hff as Hff. change (tn_from_index r kk = id) in Hff.
    assert (Hpl : (p < length l)%nat) by (by eapply lookup_lt_Some).
    assert (Hk : kk <= b - a).
    { symmetry in Hyf. pose proof (proj1 (proj2 (proj2 (proj2 (Hwf p ltac:(lia)))))) as Hw. cbn [tn_table tn_with] in Hw.
      pose proof (find_free_cases _ _ Hw (tn_sz_lt c a b Hg)) as Hffc.
      destruct (it_keys (iterate_free (at_ l p))) as [|x0 l0] eqn:Hkeys; rewrite Hyf in Hffc; [done|]. injection Hffc as <-.
      destruct (lowest_head _ _ _ _ Hw Hkeys) as [[Hlt _] _]. rewrite (tn_sz_eq c a b Hg Hab) in Hlt.
      destruct (N.eqb_spec (b - a + 1) (2 ^ tn_w c)); lia. }
    rewrite (tn_from_index_spec c a b) in Hff by done. subst id. split; [done|]. split; [|done].
    apply (tn_from_index_spec c a b); done. }
  assert (Hdone : forall o' x', (o', x') ∈ cs' ->
    (forall q, l !! q = Some (k, (o', x')) -> is_Some (t_map (at_ l q) !! kk)) ->
    exists n s', sys_run method (tn_system r todo) (take n sched) = Some s' /\ during (sy_hist s') k /\
     ((forall id, ~ tn_unclaimed a b (tn_claimed (tn_with r (sy_data s'))) id) \/
     exists m s'' id, (n < m < length sched)%nat /\
       sys_run method (tn_system r todo) (take m sched) = Some s'' /\ during (sy_hist s'') k /\
       tn_unclaimed a b (tn_claimed (tn_with r (sy_data s'))) id /\
       is_Some (tn_claimed (tn_with r (sy_data s'')) !! id))).
  { intros o' x' Hin Hq. destruct (calls_of_two _ _ _ _ _ Hcs Hin) as (p & q & Hpq & Hp & Hlq).
    destruct (Hboth _ Hp) as (Hk & Hfi & Hun). specialize (Hq _ Hlq).
    destruct (Hmoment _ _ Hp) as (n & s' & Hn & Hs' & Hd & Hdat).
    destruct (Hmoment _ _ Hlq) as (m & s'' & Hm & Hs'' & Hd'' & Hdat'').
    exists n, s'. split; [done|]. split; [done|]. right. exists m, s'', (a + kk). split; [split; [by eapply Hmono|by eapply Hns]|].
    split; [done|]. split; [done|]. rewrite Hdat, Hdat''. split; [done|].
    assert (Hql : (q < length l)%nat) by (by eapply lookup_lt_Some).
    rewrite (tn_claimed_lookup c a b) by (apply Hwf; lia). destruct (N.leb_spec a (a + kk)); [|lia].
    replace (a + kk - a) with kk by lia. apply fmap_is_Some, claimed_Some. done. }
  assert (Hin0 : (k, (OFindFree, y)) ∈ l) by (apply calls_of_in; rewrite Hcs; left).
  apply elem_of_list_lookup in Hin0 as [p0 Hp0]. destruct (Hboth _ Hp0) as (Hk & Hfi & _).
  assert (Hw64 : 2 ^ tn_w c <= 2 ^ 64) by apply Hg.
  destruct (follows_claim _ _ _ _ _ _ Hf') as [(e' & Hv & _)|(Hv & Hcase)].
  { exfalso. rewrite Hfi, (tn_validate_spec c a b) in Hv by (done || lia).
    destruct (N.leb_spec a (a + kk)), (N.leb_spec (a + kk) b); cbn in Hv; (done || lia). }
  rewrite Hfi in Hcase. rewrite (tn_index_spec c a b) in Hcase by (done || lia). replace (a + kk - a) with kk in Hcase by lia.
  destruct Hcase as [(x & Hx0 & -> & _)|(x & u & _ & Hz & ->)].
  - eapply Hdone; [left|]. intros q Hq. rewrite (at_log_result _ _ _ _ _ _ _ Hseq Hq) in Hx0. cbn in Hx0.
    unfold is_free_op, is_free in Hx0. destruct (t_map (at_ l q) !! kk); [eauto|done].
  - eapply Hdone; [right; left|]. intros q Hq. eapply claim_result; [exact Hseq|exact Hq| |].
    + intros Hu. rewrite Hu in Hz. done.
    + assert (Hql : (q < length l)%nat) by (by eapply lookup_lt_Some).
      pose proof (proj1 (proj2 (proj2 (proj2 (Hwf q ltac:(lia)))))) as Hw. cbn [tn_table tn_with] in Hw.
      rewrite (validate_spec _ _ _ (proj1 Hw) (tn_sz_lt c a b Hg)). pose proof (tn_sz_capacity c a b Hg Hab).
      destruct (N.ltb_spec kk (capacity (tn_sz c a b))); [done|lia].
Qed.
End tn.

(** No two calls claim the same id, whatever else happens except Release. *)
Lemma C52_claimed_once_pf :
  forall (L : Type) (c : tn_cfg) (a b : N) (r : tableN L) (todo : list (list (top L))) sched s,
    c ∈ tn_packages -> a <= b < 2 ^ tn_w c -> tn_reachable c a b r ->
    (forall k o, call_of todo k = Some o -> t_releases o = false) ->
    sys_run method (tn_system r todo) sched = Some s ->
    forall k k' o o' x x' id l l',
      call_of todo k = Some o -> EEnd k x ∈ sy_hist s -> claims o x = Some (id, l) ->
      call_of todo k' = Some o' -> EEnd k' x' ∈ sy_hist s -> claims o' x' = Some (id, l') -> k = k'.
Proof.
  intros L c a b r todo sched s Hc Hab Hr Hno Hrun k k' o o' x x' id l l'.
  apply tn_reachable_wf in Hr; [|done|lia..]. apply tn_packages_good in Hc.
  intros. eapply (claimed_once c a b r); done.
Qed.

(** Without Release and Update, the labels of a claim stay: once no call is
    running, the table has them, and every Get that starts after the claim has
    returned returns them. *)
Lemma C52_labels_kept_pf :
  forall (L : Type) (c : tn_cfg) (a b : N) (r : tableN L) (todo : list (list (top L))) sched s,
    c ∈ tn_packages -> a <= b < 2 ^ tn_w c -> tn_reachable c a b r ->
    (forall k o, call_of todo k = Some o -> t_releases o = false /\ t_updates o = false /\ top_uint64 o = true) ->
    sys_run method (tn_system r todo) sched = Some s ->
    forall k o x id l,
      call_of todo k = Some o -> EEnd k x ∈ sy_hist s -> claims o x = Some (id, l) ->
      (quiet s -> tn_claimed (tn_with r (sy_data s)) !! id = Some l) /\
      (forall k' x', precedes (sy_hist s) k k' -> call_of todo k' = Some (TGet id) -> EEnd k' x' ∈ sy_hist s ->
         exists e, x' = TREntry (Ok e) /\ te_labels e = l).
Proof.
  intros L c a b r todo sched s Hc Hab Hr Hno Hrun k o x id l.
  apply tn_reachable_wf in Hr; [|done|lia..]. apply tn_packages_good in Hc.
  intros. eapply (labels_kept c a b r); done.
Qed.

(* ------------------------------------------------------------------ C53 *)
(** A ClaimFree fails although an id is free at every moment. *)
Lemma C53_claim_free_fails_refuted_pf :
  forall (c : tn_cfg), c ∈ tn_packages ->
  exists (todo : list (list (top unit))) sched s k e,
    sys_run method (tn_system (tn_new c 0 1) todo) sched = Some s /\
    call_of todo k = Some (TClaimFree tt) /\ EEnd k (TREntry (Err e)) ∈ sy_hist s /\
    forall n s', sys_run method (tn_system (tn_new c 0 1) todo) (take n sched) = Some s' ->
      tn_unclaimed 0 1 (tn_claimed (tn_with (tn_new c 0 1) (sy_data s'))) 1.
Proof.
  intros c Hc. set (todo := [[TClaimFree tt]; [TClaimFree tt]]).
  set (sched := replicate 8 0%nat ++ replicate 22 1%nat ++ replicate 6 0%nat).
  assert (H : match sys_run method (tn_system (tn_new c 0 1) todo) sched with
              | Some s => exists h, sy_hist s = h ++ [EEnd (0, 0)%nat (TREntry (Err EAlreadyClaimed))]
              | None => False end).
  { unfold tn_packages in Hc. repeat (apply elem_of_cons in Hc as [->|Hc];
      [vm_compute; eexists [_; _; _]; reflexivity|]). by apply elem_of_nil in Hc. }
  assert (Hf : forallb (fun n => match sys_run method (tn_system (tn_new c 0 1) todo) (take n sched) with
              | Some s => is_free (sy_data s) 1 | None => true end) (seq 0 37) = true).
  { clear H. unfold tn_packages in Hc. repeat (apply elem_of_cons in Hc as [->|Hc]; [vm_compute; reflexivity|]).
    by apply elem_of_nil in Hc. }
  destruct (sys_run method (tn_system (tn_new c 0 1) todo) sched) as [s|] eqn:Hs; [|done]. destruct H as [h Hh].
  exists todo, sched, s, (0, 0)%nat, EAlreadyClaimed. split; [done|]. split; [done|]. split.
  { rewrite Hh. apply elem_of_app. right. left. }
  intros n s' Hs'. split; [lia|].
  assert (Hfree : is_free (sy_data s') 1 = true).
  { apply (proj1 (forallb_forall _ _)) with (x := Nat.min n 36) in Hf.
    - replace (take (Nat.min n 36) sched) with (take n sched) in Hf; [by rewrite Hs' in Hf|].
      replace 36%nat with (length sched) by reflexivity. destruct (Nat.le_gt_cases n (length sched)) as [Hle|Hgt].
      + by rewrite Nat.min_l.
      + rewrite Nat.min_r, !take_ge by lia. done.
    - apply in_seq. lia. }
  unfold tn_claimed. cbn [tn_start tn_with tn_new]. change 1 with (0 + 1). rewrite lookup_kmap by apply _.
  rewrite lookup_fmap. cbn [tn_table tn_with]. unfold claimed. rewrite lookup_fmap. unfold is_free in Hfree.
  change (0 + 1) with 1. by destruct (t_map (sy_data s') !! 1).
Qed.

(** A ClaimFree fails only if at some moment during the call no id was free, or
    if the id it has found free has been claimed by another call before it could
    claim it.  The table is not one over the whole range of the package. *)
Lemma C53_why_claim_free_fails_partial_pf :
  forall (L : Type) (c : tn_cfg) (a b : N) (r : tableN L) (todo : list (list (top L))) sched s,
    c ∈ tn_packages -> a <= b < 2 ^ tn_w c -> b - a + 1 < 2 ^ tn_w c -> tn_reachable c a b r ->
    sys_run method (tn_system r todo) sched = Some s ->
    forall k l e, call_of todo k = Some (TClaimFree l) -> EEnd k (TREntry (Err e)) ∈ sy_hist s ->
    exists n s', sys_run method (tn_system r todo) (take n sched) = Some s' /\ during (sy_hist s') k /\
      ((forall id, ~ tn_unclaimed a b (tn_claimed (tn_with r (sy_data s'))) id) \/
       exists m s'' id, (n < m < length sched)%nat /\
         sys_run method (tn_system r todo) (take m sched) = Some s'' /\ during (sy_hist s'') k /\
         tn_unclaimed a b (tn_claimed (tn_with r (sy_data s'))) id /\
         is_Some (tn_claimed (tn_with r (sy_data s'')) !! id)).
Proof.
  intros L c a b r todo sched s Hc Hab Hsz Hr Hrun k l e.
  apply tn_reachable_wf in Hr; [|done|lia..]. apply tn_packages_good in Hc.
  intros. eapply (claim_free_fails c a b r); done.
Qed.

Local Lemma safe_any {T A} Rel (p : client (table T) (out T) (op T) A) d : safe method Rel (fun _ => True) p d.
Proof. revert d. induction p as [a|o k IH|k IH]; intros d; cbn; [done|intros d' _; apply IH..]. Qed.

Lemma find_free_none {T} (d : table T) : t_size d = 0 -> find_free d = Err ENoFree.
Proof.
  intros Hs. unfold find_free. pose proof (free_keys_length d) as Hlen.
  rewrite (iter_next_pos _ 0); [|lia|lia|apply at_pos_0].
  case_bool_decide as Hb; [|done]. lia.
Qed.
(** A table over the whole range of the package: every ClaimFree fails, whatever
    the other goroutines do. *)
Lemma C53_full_range_always_fails_pf :
  forall (L : Type) (c : tn_cfg) (a b : N) (r : tableN L) (todo : list (list (top L))) sched s,
    c ∈ tn_packages -> a <= b < 2 ^ tn_w c -> b - a + 1 = 2 ^ tn_w c -> tn_reachable c a b r ->
    sys_run method (tn_system r todo) sched = Some s ->
    forall k l x, call_of todo k = Some (TClaimFree l) -> EEnd k x ∈ sy_hist s -> x = TREntry (Err ENoFree).
Proof.
  intros L c a b r todo sched s Hc Hab Hn Hr Hrun k l x Hk Hx.
  apply tn_reachable_wf in Hr; [|done|lia..]. apply tn_packages_good in Hc.
  assert (Hsz : t_size (tn_table r) = 0).
  { destruct Hr as (_ & _ & _ & (-> & _) & _). rewrite (tn_sz_eq c a b Hc Hab), Hn, N.eqb_refl. done. }
  refine (idx_safe (fun _ => True) (fun d d' => t_size d' = t_size d) (fun k1 x1 => k1 = k -> x1 = TREntry (Err ENoFree)) (tn_table r)
      (map (map (tn_call r)) todo) sched s _ _ _ _ _ _ Hrun k x Hx eq_refl).
  - done.
  - intros d1 d2 d3 H1 H2. congruence.
  - done.
  - intros o1 _ _ id d. done.
  - apply Forall_map, Forall_forall. intros os _. apply Forall_map, Forall_forall. intros o _.
    induction (tn_call r o) as [z|o1 k1 IH|k1 IH]; cbn; auto.
  - intros k1 p Hp. rewrite call_of_map in Hp. destruct (call_of todo k1) as [o1|] eqn:Ho1; [|done]. injection Hp as <-.
    destruct (decide (k1 = k)) as [->|Hne].
    + assert (o1 = TClaimFree l) as -> by congruence. cbn [tn_call]. unfold c_find_free. cbn [safe].
      intros d' Hd. rewrite alone_method. cbn [step fst snd as_id]. rewrite find_free_none by congruence. done.
    + pose proof (safe_any (fun d d' => t_size d' = t_size d) (tn_call r o1) (tn_table r)) as Hs.
      clear -Hs Hne. revert Hs. generalize (tn_table r) as d. induction (tn_call r o1) as [x1|o2 k2 IH|k2 IH]; intros d; cbn; auto; done.
Qed.

(* ------------------------------------------------------------------ C55 *)
(** A Release between the listing of the keys and the read of an entry. *)
Lemma C55_get_by_label_panics_refuted_pf :
  forall (c : tn_cfg), c ∈ tn_packages ->
  exists (r : tableN unit) sel sched s,
    tn_reachable c 0 1 r /\
    sys_run method (tn_system r [[TGetByLabel sel]; [TRelease 0]]) sched = Some s /\
    EEnd (0, 0)%nat (TREntries Panic) ∈ sy_hist s.
Proof.
  intros c Hc. set (r := fst (tn_run (tn_new c 0 1) [TClaim 0 tt])). set (sel := fun _ : unit => true).
  set (sched := replicate 11 0%nat ++ replicate 9 1%nat ++ replicate 2 0%nat).
  assert (H : match sys_run method (tn_system r [[TGetByLabel sel]; [TRelease 0]]) sched with
              | Some s => exists h, sy_hist s = h ++ [EEnd (0, 0)%nat (TREntries Panic)]
              | None => False end).
  { unfold tn_packages in Hc. repeat (apply elem_of_cons in Hc as [->|Hc];
      [vm_compute; eexists [_; _; _]; reflexivity|]). exfalso. clear -Hc. by apply elem_of_nil in Hc. }
  exists r, sel, sched.
  destruct (sys_run method (tn_system r [[TGetByLabel sel]; [TRelease 0]]) sched) as [s|]; [|done]. destruct H as [h Hh].
  exists s. split; [exists [TClaim 0 tt]; done|]. split; [done|]. rewrite Hh. apply elem_of_app. right. left.
Qed.
Lemma C55_iptable_get_by_label_panics_refuted_pf :
  exists (from to : addr) (r : iptable unit) sel sched s,
    ip_range from to /\ ip_reachable Some from to r /\
    sys_run method (ip_system Some r [[IGetByLabel sel]; [IRelease from]]) sched = Some s /\
    EEnd (0, 0)%nat (IRDatas Panic) ∈ sy_hist s.
Proof.
  set (from := Addr K4 v4_base 0). set (to := Addr K4 (v4_base + 1) 0).
  set (r := fst (ip_run Some (ip_new from to) [IClaim from tt])). set (sel := fun _ : unit => true).
  set (sched := replicate 6 0%nat ++ replicate 9 1%nat ++ replicate 2 0%nat).
  assert (H : match sys_run method (ip_system Some r [[IGetByLabel sel]; [IRelease from]]) sched with
              | Some s => exists h, sy_hist s = h ++ [EEnd (0, 0)%nat (IRDatas Panic)]
              | None => False end).
  { vm_compute. eexists [_; _; _]; reflexivity. }
  exists from, to, r, sel, sched.
  destruct (sys_run method (ip_system Some r [[IGetByLabel sel]; [IRelease from]]) sched) as [s|]; [|done]. destruct H as [h Hh].
  exists s. split; [vm_compute; repeat split; discriminate|]. split; [exists [IClaim from tt]; done|]. split; [done|].
  rewrite Hh. apply elem_of_app. right. left.
Qed.

Lemma tn_no_panic {L : Type} (X : N -> Prop) (r : tableN L) (todo : list (list (top L))) sched s :
  few X -> small X (tn_table r) -> (forall k o j, call_of todo k = Some o -> tn_names r o j -> X j) ->
  sys_run method (tn_system r todo) sched = Some s ->
  forall k o x, call_of todo k = Some o -> EEnd k x ∈ sy_hist s ->
  t_by_label o = false \/ (forall k' o', call_of todo k' = Some o' -> t_releases o' = false) ->
  t_panicked x = false.
Proof.
  intros HX Hsmall Hidx Hrun k o x Hk Hx Hcase.
  assert (Hgen : forall rel,
    (forall k' o', call_of todo k' = Some o' -> t_releases o' = true -> rel = true) ->
    (rel = true -> t_by_label o = false) -> t_panicked x = false).
  { intros rel Hrel Hlab.
    refine (idx_safe (xnop X rel true) (calm X rel) (fun k1 x1 => k1 = k -> t_panicked x1 = false) (tn_table r)
      (map (map (tn_call r)) todo) sched s _ _ _ _ _ _ Hrun k x Hx eq_refl).
    - apply calm_refl.
    - apply calm_trans.
    - intros o1 e d Ho1 He. apply calm_store. destruct o1; try done; cbn [stores] in He; subst e; cbn in *; tauto.
    - intros o1 Ho1 He. apply calm_delete. by destruct o1.
    - apply Forall_map, Forall_forall. intros os Hos. apply Forall_map, Forall_forall. intros o' Ho'.
      apply elem_of_list_lookup in Hos as [i Hi], Ho' as [j Hj].
      assert (Hc : call_of todo (i, j) = Some o') by (unfold call_of; cbn; by rewrite Hi).
      apply x_call_only; eauto.
    - intros k1 p Hp. rewrite call_of_map in Hp. destruct (call_of todo k1) as [o1|] eqn:Ho1; [|done]. injection Hp as <-.
      destruct (decide (k1 = k)) as [->|Hne].
      + assert (o1 = o) as -> by congruence. pose proof (tn_call_safe X rel r HX o (tn_table r) Hsmall Hlab) as Hs.
        clear -Hs. revert Hs. generalize (tn_table r) as d. induction (tn_call r o) as [x1|o1 k1 IH|k1 IH]; intros d; cbn; auto.
      + pose proof (safe_any (calm X rel) (tn_call r o1) (tn_table r)) as Hs.
        clear -Hs Hne. revert Hs. generalize (tn_table r) as d. induction (tn_call r o1) as [x1|o2 k2 IH|k2 IH]; intros d; cbn; auto; done. }
  destruct Hcase as [Hl|Hno].
  - apply (Hgen true); done.
  - apply (Hgen false); [|done]. intros k' o' Ho' Hre. by rewrite (Hno _ _ Ho') in Hre.
Qed.
Lemma ip_no_panic {S D : Type} (X : N -> Prop) (parse : S -> option addr) (r : iptable D) (todo : list (list (iop S D))) sched s :
  few X -> small X (ip_table r) -> (forall k o j, call_of todo k = Some o -> ip_names parse r o j -> X j) ->
  (forall j, j < t_size (ip_table r) -> calculate_ip_from_index (ip_from r) j <> Panic) ->
  sys_run method (ip_system parse r todo) sched = Some s ->
  forall k o x, call_of todo k = Some o -> EEnd k x ∈ sy_hist s ->
  i_by_label o = false \/ (forall k' o', call_of todo k' = Some o' -> i_releases o' = false) ->
  i_panicked x = false.
Proof.
  intros HX Hsmall Hidx Hfi Hrun k o x Hk Hx Hcase.
  assert (Hgen : forall rel,
    (forall k' o', call_of todo k' = Some o' -> i_releases o' = true -> rel = true) ->
    (rel = true -> i_by_label o = false) -> i_panicked x = false).
  { intros rel Hrel Hlab.
    refine (idx_safe (ipop X rel true) (calm X rel) (fun k1 x1 => k1 = k -> i_panicked x1 = false) (ip_table r)
      (map (map (ip_call parse r)) todo) sched s _ _ _ _ _ _ Hrun k x Hx eq_refl).
    - apply calm_refl.
    - apply calm_trans.
    - intros o1 e d Ho1 He. apply calm_store. destruct o1; try done; cbn [stores] in He; subst e; cbn in *; tauto.
    - intros o1 Ho1 He. apply calm_delete. by destruct o1.
    - apply Forall_map, Forall_forall. intros os Hos. apply Forall_map, Forall_forall. intros o' Ho'.
      apply elem_of_list_lookup in Hos as [i Hi], Ho' as [j Hj].
      assert (Hc : call_of todo (i, j) = Some o') by (unfold call_of; cbn; by rewrite Hi).
      apply ip_call_only; eauto.
    - intros k1 p Hp. rewrite call_of_map in Hp. destruct (call_of todo k1) as [o1|] eqn:Ho1; [|done]. injection Hp as <-.
      destruct (decide (k1 = k)) as [->|Hne].
      + assert (o1 = o) as -> by congruence. pose proof (ip_call_safe parse X rel r HX o (ip_table r) Hsmall Hlab Hfi) as Hs.
        clear -Hs. revert Hs. generalize (ip_table r) as d. induction (ip_call parse r o) as [x1|o1 k1 IH|k1 IH]; intros d; cbn; auto.
      + pose proof (safe_any (calm X rel) (ip_call parse r o1) (ip_table r)) as Hs.
        clear -Hs Hne. revert Hs. generalize (ip_table r) as d. induction (ip_call parse r o1) as [x1|o2 k2 IH|k2 IH]; intros d; cbn; auto; done. }
  destruct Hcase as [Hl|Hno].
  - apply (Hgen true); done.
  - apply (Hgen false); [|done]. intros k' o' Ho' Hre. by rewrite (Hno _ _ Ho') in Hre.
Qed.
Lemma few_named {T O : Type} (m : gmap N T) (todo : list (list O)) (f : O -> option N) :
  N.of_nat (size m + length (concat todo)) < 2 ^ 64 ->
  few (fun k => is_Some (m !! k) \/ exists c o, call_of todo c = Some o /\ f o = Some k).
Proof.
  intros Hn. exists ((map_to_list m).*1 ++ omap f (concat todo)). split.
  - rewrite app_length, fmap_length. change (length (map_to_list m)) with (size m).
    assert (length (omap f (concat todo)) <= length (concat todo))%nat; [|lia].
    clear. induction (concat todo) as [|o os IH]; cbn; [done|]. destruct (f o); cbn; lia.
  - intros k [[e He]|([i j] & o & Ho & Hf)]; apply elem_of_app; [left|right].
    + apply elem_of_list_fmap. exists (k, e). split; [done|]. by apply elem_of_map_to_list.
    + apply elem_of_list_omap. exists o. split; [|done]. unfold call_of in Ho. cbn in Ho.
      destruct (todo !! i) as [os|] eqn:Hi; [|done]. apply elem_of_list_In, in_concat. exists os. split; apply elem_of_list_In; by eapply elem_of_list_lookup_2.
Qed.

(** On a table over all uint64 ids a ClaimFree does what FindFree does. *)
Definition t_find (L : Type) (o : top L) : top L := match o with TClaimFree _ => TFindFree | o => o end.
Lemma tn_full_range {L : Type} (r : tableN L) (todo : list (list (top L))) sched s :
  t_size (tn_table r) = 0 -> sys_run method (tn_system r todo) sched = Some s ->
  exists s', sys_run method (tn_system r (map (map (t_find L)) todo)) sched = Some s' /\
    forall k x, EEnd k x ∈ sy_hist s -> exists x', EEnd k x' ∈ sy_hist s' /\ (t_panicked x' = false -> t_panicked x = false).
Proof.
  intros Hsz Hrun.
  destruct (alike_ends method (fun d : table (tentry L) => t_size d = 0) (fun (o : op (tentry L)) x => o = OFindFree -> x = RId (Err ENoFree))
    (fun x x' : tout L => t_panicked x' = false -> t_panicked x = false)) with (d0 := tn_table r) (todo := map (map (tn_call r)) todo)
    (todo' := map (map (tn_call r)) (map (map (t_find L)) todo)) (sched := sched) (s := s)
    as (s' & Hs' & _ & He).
  - intros o. destruct o; try (apply rets_all; done). cbn. intros d ->. cbn. done.
  - intros o. apply (ok_method _ _ _ (fun _ => True)); try done. intros _ id d. done.
  - done.
  - rewrite map_map. apply Forall2_fmap, Forall_Forall2_diag, Forall_forall. intros os _. rewrite map_map.
    apply Forall2_fmap, Forall_Forall2_diag, Forall_forall. intros o _. destruct o; try (apply alike_refl; done).
    cbn. split; [done|]. intros x ->; [done|done].
  - done.
  - exists s'. done.
Qed.
(** A call that is not a GetByLabel never panics; and no call does if there is
    no Release. A table64 over all ids is covered as long as fewer than 2^64 ids
    are claimed before the calls or by them. *)
Lemma C55_no_panic_partial_pf :
  forall (L : Type) (c : tn_cfg) (a b : N) (r : tableN L) (todo : list (list (top L))) sched s,
    c ∈ tn_packages -> a <= b < 2 ^ tn_w c -> tn_reachable c a b r ->
    b - a + 1 < 2 ^ 64 \/ N.of_nat (size (tn_claimed r) + length (concat todo)) < 2 ^ 64 ->
    sys_run method (tn_system r todo) sched = Some s ->
    forall k o x, call_of todo k = Some o -> EEnd k x ∈ sy_hist s ->
    t_by_label o = false \/ (forall k' o', call_of todo k' = Some o' -> t_releases o' = false) ->
    t_panicked x = false.
Proof.
  intros L c a b r todo sched s Hc Hab Hr Hn Hrun k o x Hk Hx Hcase.
  apply tn_reachable_wf in Hr; [|done|lia..]. apply tn_packages_good in Hc.
  destruct (decide (b - a + 1 < 2 ^ 64)) as [Hlt|Hge].
  - eapply (tn_no_panic _ r todo sched s (few_below (b - a) Hlt)); [..|done|done|done|done]; [split|].
    + destruct Hr as (_ & _ & _ & (-> & _) & _). by apply tn_sz_lt.
    + destruct Hr as (_ & _ & _ & _ & Hkeys). intros j [e He]. by apply Hkeys in He as (_ & _ & ? & _).
    + assert (Hidx : forall id, tn_validate r id = Ok tt -> tn_index r id <= b - a).
      { intros id Hv. destruct (validate_ok c a b r Hc Hab Hr id Hv) as (? & -> & _). lia. }
      intros k' o' j _ Hj. destruct o'; cbn in Hj; try done.
      * destruct Hj as [Hv <-]. by apply Hidx.
      * destruct Hj as (id' & Hv & <-). by apply Hidx.
      * destruct Hj as [Hv <-]. by apply Hidx.
  - assert (Hsmall : N.of_nat (size (tn_claimed r) + length (concat todo)) < 2 ^ 64) by (by destruct Hn). clear Hn.
    assert (Hsz : t_size (tn_table r) = 0).
    { destruct Hr as (_ & _ & _ & (-> & _) & _). rewrite (tn_sz_eq c a b Hc Hab).
      assert (b - a + 1 = 2 ^ tn_w c) as ->; [|by rewrite N.eqb_refl].
      destruct Hc as (_ & Hc & _). clear -Hc Hab Hge. lia. }
    destruct (tn_full_range r todo sched s Hsz Hrun) as (s' & Hrun' & Hends). destruct (Hends k x Hx) as (x' & Hx' & Hp). apply Hp.
    set (todo' := map (map (t_find L)) todo) in *.
    assert (Hof : forall k1 o1, call_of todo' k1 = Some o1 -> exists o0, call_of todo k1 = Some o0 /\ o1 = t_find L o0).
    { intros k1 o1 H. unfold todo' in H. rewrite call_of_map in H. destruct (call_of todo k1) as [o0|]; [|done]. injection H as <-. eauto. }
    set (f := fun o : top L => match o with TClaim id _ | TUpdate id _ => Some (tn_index r id) | _ => None end).
    eapply (tn_no_panic _ r todo' sched s' (few_named (t_map (tn_table r)) todo' f _)) with (k := k) (o := t_find L o); [..|done|]; [split|..].
    + by rewrite Hsz.
    + by left.
    + intros k' o' j Ho' Hj. right. exists k', o'. split; [done|]. apply Hof in Ho' as (o0 & _ & ->).
      destruct o0; cbn in *; try done; by destruct Hj as [_ ->].
    + done.
    + unfold todo'. rewrite call_of_map, Hk. done.
    + destruct Hcase as [Hl|Hno]; [left; by destruct o|]. right. intros k' o' Ho'. apply Hof in Ho' as (o0 & Ho0 & ->).
      specialize (Hno _ _ Ho0). by destruct o0.
    Unshelve. unfold tn_claimed, claimed in Hsmall. rewrite size_kmap, !map_size_fmap in Hsmall.
    assert (length (concat todo') = length (concat todo)) as ->; [|done].
    unfold todo'. rewrite <- concat_map. apply map_length.
Qed.
Lemma C55_iptable_no_panic_partial_pf :
  forall (S D : Type) (parse : S -> option addr) (from to : addr) (r : iptable D) (todo : list (list (iop S D))) sched s,
    ip_range from to -> ip_reachable parse from to r ->
    a_val to - a_val from + 1 < 2 ^ 64 \/ N.of_nat (size (ip_claimed r) + length (concat todo)) < 2 ^ 64 ->
    sys_run method (ip_system parse r todo) sched = Some s ->
    forall k o x, call_of todo k = Some o -> EEnd k x ∈ sy_hist s ->
    i_by_label o = false \/ (forall k' o', call_of todo k' = Some o' -> i_releases o' = false) ->
    i_panicked x = false.
Proof.
  intros S D parse from to r todo sched s Hip Hr Hn Hrun k o x Hk Hx Hcase.
  apply ip_reachable_wf in Hr; [|done].
  assert (Hsz : t_size (ip_table r) = num_ips from to) by (by destruct Hr as (_ & _ & Hw & _)).
  pose proof (num_ips_lt _ _ Hip) as Hlt.
  assert (Hfi : forall j, j < t_size (ip_table r) -> calculate_ip_from_index (ip_from r) j <> Panic).
  { intros j Hj. destruct Hr as (-> & _). rewrite (from_index_spec from to); [done|done|].
    rewrite Hsz, num_ips_spec in Hj by done. pose proof (N.mod_le (a_val to - a_val from + 1) (2 ^ 64) ltac:(done)). lia. }
  destruct Hn as [Hn|Hn].
  - set (B := a_val to - a_val from) in *.
    assert (Hcap : capacity (num_ips from to) = B + 1) by (apply num_ips_capacity; [done|lia]).
    eapply (ip_no_panic _ parse r todo sched s (few_below B Hn)); [..|done|done|done|done]; [split| |done].
    + by rewrite Hsz.
    + destruct Hr as (_ & _ & Hw). intros j [e He]. destruct Hw as (_ & _ & Hin). apply Hin in He. lia.
    + assert (Hidx : forall s a, ip_validate parse r s = Ok a -> calculate_index a (ip_from r) <= B).
      { intros s1 a Ha. pose proof (validate_arg parse from to r s1 Hip Hr) as Hv. rewrite Ha in Hv. destruct Hv as [_ Hv].
        destruct Hr as (-> & _). rewrite (calculate_index_small from to) by (done || (destruct Hv as (_ & _ & ?); lia)).
        destruct Hv as (_ & _ & ?). lia. }
      intros k' o' j _ Hj. destruct o'; cbn in Hj; try done; destruct Hj as (a & Ha & <-); by apply (Hidx _ _ Ha).
  - set (f := fun o : iop S D => match o with
                | IClaim s _ | IUpdate s _ => match ip_validate parse r s with Ok a => Some (calculate_index a (ip_from r)) | _ => None end
                | _ => None end).
    eapply (ip_no_panic _ parse r todo sched s (few_named (t_map (ip_table r)) todo f _)); [..|done|done|done|done]; [split| |done].
    + by rewrite Hsz.
    + by left.
    + intros k' o' j Ho' Hj. right. exists k', o'. split; [done|].
      destruct o'; cbn in *; try done; destruct Hj as (a & -> & <-); done.
    Unshelve. unfold ip_claimed, claimed in Hn. rewrite size_kmap, !map_size_fmap in Hn. done.
Qed.

(* ------------------------------------------------------------------ C62 *)
Lemma racing_at {D R Op A : Type} (s : sys D R Op A) i j b : i <> j ->
  (sy_threads s !! i ≫= next_access) = Some true -> (sy_threads s !! j ≫= next_access) = Some b -> racing s.
Proof.
  intros Hij Hi Hj. destruct (sy_threads s !! i) as [th|] eqn:Ei; [|done]. destruct (sy_threads s !! j) as [th'|] eqn:Ej; [|done].
  by exists i, j, th, th', b.
Qed.

(** The calls of an idxtable never race. *)
Lemma C62_idxtable_race_free_pf :
  forall (T : Type) (d0 : table T) (todo : list (list (op T))) sched s,
    sys_run method (start d0 (map (map direct) todo)) sched = Some s -> ~ racing s.
Proof.
  intros T d0 todo sched s. apply (run_race_free method (idx_ok true true) true true (idx_method_ok true true)).
  - right. intros k p Hk. rewrite call_of_map in Hk. destruct (call_of todo k); [|done]. by injection Hk as <-.
  - intros k p Hk. rewrite call_of_map in Hk. destruct (call_of todo k); [|done]. by injection Hk as <-.
Qed.
(** An iterator of an idxtable does race: Value reads the map while another call writes it. *)
Lemma C62_iterator_race_refuted_pf :
  exists (d : table unit) sched s,
    reachable 1 d /\
    sys_run method (start d [[iterate_values]; [direct (ORelease 0)]]) sched = Some s /\ racing s.
Proof.
  set (d := fst (step (new_table 1) (OClaim 0 tt))). set (sched := replicate 6 0%nat ++ replicate 5 1%nat).
  assert (H : match sys_run method (start d [[iterate_values]; [direct (ORelease 0)]]) sched with
              | Some s => (sy_threads s !! 1%nat ≫= next_access) = Some true /\ (sy_threads s !! 0%nat ≫= next_access) = Some false
              | None => False end).
  { vm_compute. split; reflexivity. }
  exists d, sched.
  destruct (sys_run method (start d [[iterate_values]; [direct (ORelease 0)]]) sched) as [s|]; [|done]. destruct H as [H1 H0].
  exists s. split; [|split; [done|by apply (racing_at s 1 0 false)]]. by exists [OClaim 0 tt].
Qed.
(** GetByLabel of table16/32/64 and of iptable reads the map while another call writes it. *)
Lemma C62_get_by_label_race_refuted_pf :
  forall (c : tn_cfg), c ∈ tn_packages ->
  exists (r : tableN unit) sel sched s,
    tn_reachable c 0 1 r /\
    sys_run method (tn_system r [[TGetByLabel sel]; [TRelease 0]]) sched = Some s /\ racing s.
Proof.
  intros c Hc. set (r := fst (tn_run (tn_new c 0 1) [TClaim 0 tt])). set (sel := fun _ : unit => true).
  set (sched := replicate 11 0%nat ++ replicate 5 1%nat).
  assert (H : match sys_run method (tn_system r [[TGetByLabel sel]; [TRelease 0]]) sched with
              | Some s => (sy_threads s !! 1%nat ≫= next_access) = Some true /\ (sy_threads s !! 0%nat ≫= next_access) = Some false
              | None => False end).
  { unfold tn_packages in Hc. repeat (apply elem_of_cons in Hc as [->|Hc]; [vm_compute; split; reflexivity|]).
    exfalso. clear -Hc. by apply elem_of_nil in Hc. }
  exists r, sel, sched.
  destruct (sys_run method (tn_system r [[TGetByLabel sel]; [TRelease 0]]) sched) as [s|]; [|done]. destruct H as [H1 H0].
  exists s. split; [exists [TClaim 0 tt]; done|]. split; [done|]. by apply (racing_at s 1 0 false).
Qed.
Lemma C62_iptable_get_by_label_race_refuted_pf :
  exists (from to : addr) (r : iptable unit) sel sched s,
    ip_range from to /\ ip_reachable Some from to r /\
    sys_run method (ip_system Some r [[IGetByLabel sel]; [IRelease from]]) sched = Some s /\ racing s.
Proof.
  set (from := Addr K4 v4_base 0). set (to := Addr K4 (v4_base + 1) 0).
  set (r := fst (ip_run Some (ip_new from to) [IClaim from tt])). set (sel := fun _ : unit => true).
  set (sched := replicate 6 0%nat ++ replicate 5 1%nat).
  assert (H : match sys_run method (ip_system Some r [[IGetByLabel sel]; [IRelease from]]) sched with
              | Some s => (sy_threads s !! 1%nat ≫= next_access) = Some true /\ (sy_threads s !! 0%nat ≫= next_access) = Some false
              | None => False end).
  { vm_compute. split; reflexivity. }
  exists from, to, r, sel, sched.
  destruct (sys_run method (ip_system Some r [[IGetByLabel sel]; [IRelease from]]) sched) as [s|]; [|done]. destruct H as [H1 H0].
  exists s. split; [vm_compute; repeat split; discriminate|]. split; [exists [IClaim from tt]; done|]. split; [done|].
  by apply (racing_at s 1 0 false).
Qed.
(** Without GetByLabel, or without calls that write, there is no race. *)
Lemma C62_tables_race_free_partial_pf :
  forall (L : Type) (r : tableN L) (todo : list (list (top L))) sched s,
    (forall k o, call_of todo k = Some o -> t_by_label o = false) \/
    (forall k o, call_of todo k = Some o -> t_writes o = false) ->
    sys_run method (tn_system r todo) sched = Some s -> ~ racing s.
Proof.
  intros L r todo sched s H.
  assert (Hex : exists wr, (wr = false \/ forall k p, call_of (map (map (tn_call r)) todo) k = Some p -> no_peek p) /\
    forall k p, call_of (map (map (tn_call r)) todo) k = Some p -> only (idx_ok true wr) p).
  { destruct H as [H|H]; [exists true|exists false]; (split; [|intros k p Hk; rewrite call_of_map in Hk;
      destruct (call_of todo k) as [o|] eqn:Ek; [|done]; injection Hk as <-; apply tn_call_idx_ok; [done|]; try done; by rewrite (H _ _ Ek)]).
    - right. intros k p Hk. rewrite call_of_map in Hk. destruct (call_of todo k) as [o|] eqn:Ek; [|done]. injection Hk as <-.
      apply tn_call_no_peek. by eapply H.
    - by left. }
  destruct Hex as (wr & H1 & H2). by apply (run_race_free method (idx_ok true wr) true wr (idx_method_ok true wr)).
Qed.
Lemma C62_iptable_race_free_partial_pf :
  forall (S D : Type) (parse : S -> option addr) (r : iptable D) (todo : list (list (iop S D))) sched s,
    (forall k o, call_of todo k = Some o -> i_by_label o = false) \/
    (forall k o, call_of todo k = Some o -> i_writes o = false) ->
    sys_run method (ip_system parse r todo) sched = Some s -> ~ racing s.
Proof.
  intros S D parse r todo sched s H.
  assert (Hex : exists wr, (wr = false \/ forall k p, call_of (map (map (ip_call parse r)) todo) k = Some p -> no_peek p) /\
    forall k p, call_of (map (map (ip_call parse r)) todo) k = Some p -> only (idx_ok true wr) p).
  { destruct H as [H|H]; [exists true|exists false]; (split; [|intros k p Hk; rewrite call_of_map in Hk;
      destruct (call_of todo k) as [o|] eqn:Ek; [|done]; injection Hk as <-; apply ip_call_idx_ok; [done|]; try done; by rewrite (H _ _ Ek)]).
    - right. intros k p Hk. rewrite call_of_map in Hk. destruct (call_of todo k) as [o|] eqn:Ek; [|done]. injection Hk as <-.
      apply ip_call_no_peek. by eapply H.
    - by left. }
  destruct Hex as (wr & H1 & H2). by apply (run_race_free method (idx_ok true wr) true wr (idx_method_ok true wr)).
Qed.

(* ------------------------------------------------------------------ C64 *)
(** A call of which no other call is going on does what the call does in the
    sequential model. *)
Lemma C64_tables_call_alone_pf :
  forall (L : Type) (r : tableN L) (o : top L),
    let a := client_alone method (tn_call r o) (tn_table r) in
    (tn_with r (fst a), snd a) = tn_step r o.
Proof. intros L r o. apply tn_call_alone. Qed.
Lemma C64_iptable_call_alone_pf :
  forall (S D : Type) (parse : S -> option addr) (r : iptable D) (o : iop S D),
    let a := client_alone method (ip_call parse r o) (ip_table r) in
    (ip_with r (fst a), snd a) = ip_step parse r o.
Proof. intros S D parse r o. apply ip_call_alone. Qed.

(* ------------------------------------------------------------------ C65 *)
(** A GetAll and a Release on any table: the writer announces itself between the
    two read locks of the GetAll of idxtable. *)
Lemma C65_get_all_deadlocks_refuted_pf :
  forall (L : Type) (r : tableN L) (id : N),
  tn_validate r id = Ok tt ->
  exists sched s,
    sys_run method (tn_system r [[TGetAll]; [TRelease id]]) sched = Some s /\
    (forall i, sys_step method s i = None) /\ (forall k x, EEnd k x ∉ sy_hist s).
Proof.
  intros L r id Hv. exists ([0; 0; 0; 0; 0; 0; 0; 0; 1; 1; 1]%nat).
  exists (Sys (tn_table r) (RW 1 WWait)
    [Thread [] 0 (Inside OGetAll (match method OGetAll with RLock p => p | p => p end)
       (fun x => CRet (TREntries (do es <- as_values x; tn_get_all_loop r es))));
     Thread [] 0 (Inside (ORelease (tn_index r id)) (match method (ORelease (tn_index r id)) with Lock p => Wait p | p => p end)
       (fun x => CRet (TRUnit (as_unit x))))]
    [EStart (0, 0)%nat; EStart (1, 0)%nat]).
  unfold tn_system. cbn [map tn_call]. rewrite Hv. split; [reflexivity|]. split.
  - intros [|[|i]]; reflexivity.
  - intros k x H. cbn [sy_hist] in H. repeat (apply elem_of_cons in H as [H|H]; [discriminate H|]). by apply elem_of_nil in H.
Qed.
Lemma C65_iptable_get_all_deadlocks_refuted_pf :
  forall (S D : Type) (parse : S -> option addr) (r : iptable D) (x : S) (a : addr),
  ip_validate parse r x = Ok a ->
  exists sched s,
    sys_run method (ip_system parse r [[IGetAll]; [IRelease x]]) sched = Some s /\
    (forall i, sys_step method s i = None) /\ (forall k y, EEnd k y ∉ sy_hist s).
Proof.
  intros S D parse r x a Hv. exists [0; 0; 0; 1; 1; 1]%nat. set (id := calculate_index a (ip_from r)).
  exists (Sys (ip_table r) (RW 1 WWait)
    [Thread [] 0 (Inside OGetAll (match method OGetAll with RLock p => p | p => p end)
       (fun x => CRet (IRDatas (do es <- as_values x; ip_data es))));
     Thread [] 0 (Inside (ORelease id) (match method (ORelease id) with Lock p => Wait p | p => p end)
       (fun x => CRet (IRUnit (as_unit x))))]
    [EStart (0, 0)%nat; EStart (1, 0)%nat]).
  unfold ip_system. cbn [map ip_call]. rewrite Hv. split; [reflexivity|]. split.
  - intros [|[|i]]; reflexivity.
  - intros k y H. cbn [sy_hist] in H. repeat (apply elem_of_cons in H as [H|H]; [discriminate H|]). by apply elem_of_nil in H.
Qed.
(** Without GetAll, or without calls that write, no execution gets stuck before
    every call has returned. *)
Lemma C65_tables_every_call_returns_partial_pf :
  forall (L : Type) (r : tableN L) (todo : list (list (top L))) sched s,
    (forall k o, call_of todo k = Some o -> t_gets_all o = false) \/
    (forall k o, call_of todo k = Some o -> t_writes o = false) ->
    sys_run method (tn_system r todo) sched = Some s -> (forall i, sys_step method s i = None) ->
    forall k o, call_of todo k = Some o -> exists x, EEnd k x ∈ sy_hist s.
Proof.
  intros L r todo sched s H Hrun Hst k o Hk.
  assert (Hex : exists nest wr, (nest = false \/ wr = false) /\
    forall k p, call_of (map (map (tn_call r)) todo) k = Some p -> only (idx_ok nest wr) p).
  { destruct H as [H|H]; [exists false, true|exists true, false]; (split; [auto|]); intros k' p Hk'; rewrite call_of_map in Hk';
      (destruct (call_of todo k') as [o'|] eqn:Ek; [|done]); injection Hk' as <-; apply tn_call_idx_ok; try done; by rewrite (H _ _ Ek). }
  destruct Hex as (nest & wr & H1 & H2).
  destruct (run_progress method (idx_ok nest wr) nest wr (idx_method_ok nest wr) _ _ sched s H1 H2 Hrun Hst) as [_ He].
  eapply He. by rewrite call_of_map, Hk.
Qed.
Lemma C65_iptable_every_call_returns_partial_pf :
  forall (S D : Type) (parse : S -> option addr) (r : iptable D) (todo : list (list (iop S D))) sched s,
    (forall k o, call_of todo k = Some o -> i_gets_all o = false) \/
    (forall k o, call_of todo k = Some o -> i_writes o = false) ->
    sys_run method (ip_system parse r todo) sched = Some s -> (forall i, sys_step method s i = None) ->
    forall k o, call_of todo k = Some o -> exists x, EEnd k x ∈ sy_hist s.
Proof.
  intros S D parse r todo sched s H Hrun Hst k o Hk.
  assert (Hex : exists nest wr, (nest = false \/ wr = false) /\
    forall k p, call_of (map (map (ip_call parse r)) todo) k = Some p -> only (idx_ok nest wr) p).
  { destruct H as [H|H]; [exists false, true|exists true, false]; (split; [auto|]); intros k' p Hk'; rewrite call_of_map in Hk';
      (destruct (call_of todo k') as [o'|] eqn:Ek; [|done]); injection Hk' as <-; apply ip_call_idx_ok; try done; by rewrite (H _ _ Ek). }
  destruct Hex as (nest & wr & H1 & H2).
  destruct (run_progress method (idx_ok nest wr) nest wr (idx_method_ok nest wr) _ _ sched s H1 H2 Hrun Hst) as [_ He].
  eapply He. by rewrite call_of_map, Hk.
Qed.

(* ------------------------------------------------------------------ C66 *)
(** Every execution of calls of one table, ClaimFree and GetByLabel left out, is
    equivalent to the calls of [order] one after another: the results are those
    of the sequential program, except that it may be another error; a call that
    has returned occurs with its result, unless it does nothing and has the same
    result on every table (an id outside the range); calls that do not overlap in
    time keep their order; the table, when no call is running, is the one the
    sequential program ends with. *)
Lemma C66_tables_linearizable_pf :
  forall (L : Type) (r : tableN L) (todo : list (list (top L))) sched s,
    (forall k o, call_of todo k = Some o -> t_composite o = false) ->
    sys_run method (tn_system r todo) sched = Some s ->
    exists order : list (cid * (top L * tout L)),
      NoDup order.*1 /\
      Forall2 t_same (log_results order) (snd (tn_run r (log_ops order))) /\
      (forall k o x, (k, (o, x)) ∈ order -> call_of todo k = Some o /\ EStart k ∈ sy_hist s) /\
      (forall k x, EEnd k x ∈ sy_hist s -> exists o, call_of todo k = Some o /\
         ((k, (o, x)) ∈ order \/ forall d, tn_step (tn_with r d) o = (tn_with r d, x))) /\
      (forall k k' i j x x', precedes (sy_hist s) k k' ->
         order !! i = Some (k, x) -> order !! j = Some (k', x') -> (i < j)%nat) /\
      (quiet s -> tn_with r (sy_data s) = fst (tn_run r (log_ops order))).
Proof.
  intros L r todo sched s Hc Hrun.
  destruct (run_linearizable method (tn_on r) (tn_call r) (fun _ => True) t_same (idx_ok true true) true true (idx_method_ok true true)
    (tn_table r) todo sched s I) as (order & H1 & H2 & H3 & H4 & H5 & H6); [|exact Hrun|].
  { intros k o Hk. specialize (Hc _ _ Hk). split; [by apply tn_call_last|]. split; [apply tn_call_no_peek; by destruct o|by apply tn_call_idx_ok]. }
  pose proof (on_run r (tn_table r) (log_ops order)) as Hon. rewrite with_table in Hon.
  exists order. rewrite Hon. cbn [fst snd]. split; [done|]. split; [done|]. split; [done|]. split; [|split; [done|]].
  - intros k x Hx. destruct (H4 _ _ Hx) as (o & Ho & [Hin|Hall]); exists o; (split; [done|]); [by left|right].
    intros d. specialize (Hall d I). unfold tn_on in Hall. pose proof (step_keeps (tn_with r d) o) as Hk.
    destruct (tn_step (tn_with r d) o) as [r1 y]. cbn [fst snd] in *. injection Hall as E1 ->. rewrite Hk, E1. done.
  - intros Hq. by rewrite (H6 Hq).
Qed.
Lemma C66_iptable_linearizable_pf :
  forall (S D : Type) (parse : S -> option addr) (r : iptable D) (todo : list (list (iop S D))) sched s,
    (forall k o, call_of todo k = Some o -> i_composite o = false) ->
    sys_run method (ip_system parse r todo) sched = Some s ->
    exists order : list (cid * (iop S D * iout D)),
      NoDup order.*1 /\
      Forall2 i_same (log_results order) (snd (ip_run parse r (log_ops order))) /\
      (forall k o x, (k, (o, x)) ∈ order -> call_of todo k = Some o /\ EStart k ∈ sy_hist s) /\
      (forall k x, EEnd k x ∈ sy_hist s -> exists o, call_of todo k = Some o /\
         ((k, (o, x)) ∈ order \/ forall d, ip_step parse (ip_with r d) o = (ip_with r d, x))) /\
      (forall k k' i j x x', precedes (sy_hist s) k k' ->
         order !! i = Some (k, x) -> order !! j = Some (k', x') -> (i < j)%nat) /\
      (quiet s -> ip_with r (sy_data s) = fst (ip_run parse r (log_ops order))).
Proof.
  intros S D parse r todo sched s Hc Hrun.
  destruct (run_linearizable method (ip_on parse r) (ip_call parse r) (fun _ => True) i_same (idx_ok true true) true true (idx_method_ok true true)
    (ip_table r) todo sched s I) as (order & H1 & H2 & H3 & H4 & H5 & H6); [|exact Hrun|].
  { intros k o Hk. specialize (Hc _ _ Hk). split; [by apply ip_call_last|]. split; [apply ip_call_no_peek; by destruct o|by apply ip_call_idx_ok]. }
  pose proof (ip_on_run parse r (ip_table r) (log_ops order)) as Hon. rewrite ip_with_table in Hon.
  exists order. rewrite Hon. cbn [fst snd]. split; [done|]. split; [done|]. split; [done|]. split; [|split; [done|]].
  - intros k x Hx. destruct (H4 _ _ Hx) as (o & Ho & [Hin|Hall]); exists o; (split; [done|]); [by left|right].
    intros d. specialize (Hall d I). unfold ip_on in Hall. pose proof (ip_step_keeps parse (ip_with r d) o) as Hk.
    destruct (ip_step parse (ip_with r d) o) as [r1 y]. cbn [fst snd] in *. injection Hall as E1 ->. rewrite Hk, E1. done.
  - intros Hq. by rewrite (H6 Hq).
Qed.

(* ------------------------------------------------------------------ C80 *)
(** Every execution of calls of one table, ClaimFree included and only GetByLabel
    left out, is equivalent to the calls of [order] one after another, with a
    ClaimFree that returned an entry counted as a Claim of the id of that entry,
    and one that failed although ids were free as nothing ([t_counts]). *)
Lemma C80_tables_with_claim_free_pf :
  forall (L : Type) (r : tableN L) (todo : list (list (top L))) sched s,
    (forall k o, call_of todo k = Some o -> t_by_label o = false) ->
    sys_run method (tn_system r todo) sched = Some s ->
    exists order : list (cid * (top L * tout L)),
      let plain := omap t_counts order.*2 in
      NoDup order.*1 /\
      Forall2 t_same plain.*2 (snd (tn_run r plain.*1)) /\
      (forall k o x, (k, (o, x)) ∈ order -> call_of todo k = Some o /\ EStart k ∈ sy_hist s) /\
      (forall k x, EEnd k x ∈ sy_hist s -> exists o, call_of todo k = Some o /\
         ((k, (o, x)) ∈ order \/ forall d, tn_step (tn_with r d) o = (tn_with r d, x))) /\
      (forall k k' i j x x', precedes (sy_hist s) k k' ->
         order !! i = Some (k, x) -> order !! j = Some (k', x') -> (i < j)%nat) /\
      (quiet s -> tn_with r (sy_data s) = fst (tn_run r plain.*1)).
Proof.
  intros L r todo sched s Hc Hrun.
  destruct (run_seen method (tn_seen r) (tn_call r) (fun _ => True) t_same (idx_ok true true) true true (idx_method_ok true true)
    (tn_table r) todo sched s I) as (order & H1 & H2 & H3 & H4 & H5 & H6); [|exact Hrun|].
  { intros k o Hk. specialize (Hc _ _ Hk). split; [by apply tn_call_seen|]. split; [by apply tn_call_no_peek|by apply tn_call_idx_ok]. }
  replace (log_results order) with (order.*2.*2) in H2 by (unfold log_results; by rewrite <- list_fmap_compose).
  destruct (seen_plain r (tn_table r) order.*2 H2) as [H7 H8].
  exists order. cbv zeta. pose proof (on_run r (tn_table r) (omap t_counts order.*2).*1) as Hon. rewrite with_table in Hon.
  rewrite Hon. cbn [fst snd]. split; [done|]. split; [done|]. split; [done|]. split; [|split; [done|]].
  - intros k x Hx. destruct (H4 _ _ Hx) as (o & Ho & [Hin|[Hret Hall]]); exists o; (split; [done|]); [by left|right].
    intros d. specialize (Hall d I). rewrite seen_other in Hall.
    + unfold tn_on in Hall. pose proof (step_keeps (tn_with r d) o) as Hk.
      destruct (tn_step (tn_with r d) o) as [r1 y]. cbn [fst snd] in *. injection Hall as E1 ->. rewrite Hk, E1. done.
    + intros l ->. discriminate Hret.
  - intros Hq. by rewrite (H6 Hq), H8.
Qed.

(* ------------------------------------------------------------------ C83 *)
(** GetByLabel of table16/32/64 next to other calls: at one moment it lists the
    claimed ids; then it looks them up one after another, each at a later moment
    of its own; the result are the entries found whose labels match, or a panic if
    one of the ids is not claimed any more. *)
Lemma C83_get_by_label_moments_pf :
  forall (L : Type) (c : tn_cfg) (a b : N) (r : tableN L) (todo : list (list (top L))) sched s,
    c ∈ tn_packages -> a <= b < 2 ^ tn_w c -> b - a + 1 < 2 ^ 64 -> tn_reachable c a b r ->
    sys_run method (tn_system r todo) sched = Some s ->
    forall k sel x, call_of todo k = Some (TGetByLabel sel) -> EEnd k x ∈ sy_hist s ->
    exists n m ids, tn_moment r todo sched k n m /\ listing m ids /\
      ((exists ls, looked (tn_moment r todo sched k) n ids (map Some ls) /\
          x = TREntries (Ok (List.filter (fun e => sel (te_labels e)) (zip_with (fun id l => TEntry id (tn_outlen c) l) ids ls)))) \/
       (x = TREntries Panic /\ exists id n' m', id ∈ ids /\ (n <= n')%nat /\ tn_moment r todo sched k n' m' /\ m' !! id = None)).
Proof.
  intros L c a b r todo sched s Hc Hab Hsz Hr Hrun k sel x Hk Hx.
  apply tn_reachable_wf in Hr; [|done|lia..]. apply tn_packages_good in Hc. by eapply tn_by_label_moments.
Qed.
Lemma looked_lengths {X} (M : nat -> gmap N X -> Prop) n ids vs : looked M n ids vs -> length ids = length vs.
Proof. induction 1; cbn; [done|lia]. Qed.
Lemma looked_at {X} (M : nat -> gmap N X -> Prop) n ids vs i id v : looked M n ids vs -> ids !! i = Some id -> vs !! i = Some v ->
  exists n' m, (n <= n')%nat /\ M n' m /\ m !! id = v.
Proof.
  intros H. revert i. induction H as [n|n n' m id1 ids vs Hn HM Hl IH]; intros [|i] Hi Hv; try done.
  - injection Hi as ->. injection Hv as <-. eauto.
  - destruct (IH i Hi Hv) as (n2 & m2 & ? & ? & ?). exists n2, m2. split; [lia|done].
Qed.
(** So each entry it returns matches, and was in the table at some moment during
    the call; and an id that is in the table, with the same matching labels, at all
    moments during the call is among them. *)
Lemma C83_get_by_label_entries_pf :
  forall (L : Type) (c : tn_cfg) (a b : N) (r : tableN L) (todo : list (list (top L))) sched s,
    c ∈ tn_packages -> a <= b < 2 ^ tn_w c -> b - a + 1 < 2 ^ 64 -> tn_reachable c a b r ->
    sys_run method (tn_system r todo) sched = Some s ->
    forall k sel es, call_of todo k = Some (TGetByLabel sel) -> EEnd k (TREntries (Ok es)) ∈ sy_hist s ->
    ascending (map te_id es) /\
    (forall e, e ∈ es -> sel (te_labels e) = true /\ te_len e = tn_outlen c /\
       exists n m, tn_moment r todo sched k n m /\ m !! te_id e = Some (te_labels e)) /\
    (forall id l, sel l = true -> (forall n m, tn_moment r todo sched k n m -> m !! id = Some l) ->
       TEntry id (tn_outlen c) l ∈ es).
Proof.
  intros L c a b r todo sched s Hc Hab Hsz Hr Hrun k sel es Hk Hx.
  destruct (C83_get_by_label_moments_pf L c a b r todo sched s Hc Hab Hsz Hr Hrun k sel _ Hk Hx)
    as (n & m & ids & HM & [Hasc Hin] & [(ls & Hl & [= ->])|[[=] _]]).
  pose proof (looked_lengths _ _ _ _ Hl) as Hlen. rewrite map_length in Hlen.
  assert (Hzip : map te_id (zip_with (fun id l => TEntry id (tn_outlen c) l) ids ls) = ids).
  { clear -Hlen. revert ls Hlen. induction ids as [|id ids IH]; intros [|l ls] Hlen; try done. cbn. f_equal. apply IH. cbn in Hlen. lia. }
  split; [|split].
  - rewrite <- Hzip in Hasc. clear -Hasc. induction (zip_with (fun id l => TEntry id (tn_outlen c) l) ids ls) as [|e es IH]; [done|].
    cbn in *. inversion Hasc as [|? ? H1 H2]; subst. destruct (sel (te_labels e)); [|by apply IH]. cbn. constructor; [by apply IH|].
    apply Forall_forall. intros y Hy. apply elem_of_list_fmap in Hy as (e' & -> & He'). rewrite Forall_forall in H2. apply H2.
    apply elem_of_list_fmap. exists e'. split; [done|]. apply elem_of_list_In, filter_In in He' as [He' _]. by apply elem_of_list_In.
  - intros e He. apply elem_of_list_In, filter_In in He as [He Hs]. apply elem_of_list_In, elem_of_lookup_zip_with in He as (i & id & l & -> & Hi & Hv).
    split; [done|]. split; [done|]. destruct (looked_at _ _ _ _ i id (Some l) Hl Hi) as (n' & m' & _ & H1 & H2); [|eauto].
    change (map Some ls) with (Some <$> ls). rewrite list_lookup_fmap. by rewrite Hv.
  - intros id l Hs Hall. assert (Hid : id ∈ ids) by (apply Hin; rewrite (Hall _ _ HM); eauto).
    apply elem_of_list_lookup in Hid as [i Hi]. destruct (lookup_lt_is_Some_2 ls i) as [l' Hl']; [rewrite <- Hlen; by eapply lookup_lt_Some|].
    destruct (looked_at _ _ _ _ i id (Some l') Hl Hi) as (n' & m' & _ & H1 & H2).
    { change (map Some ls) with (Some <$> ls). rewrite list_lookup_fmap. by rewrite Hl'. }
    rewrite (Hall _ _ H1) in H2. injection H2 as <-. apply elem_of_list_In, filter_In. split; [|done].
    apply elem_of_list_In, elem_of_lookup_zip_with. eauto 10.
Qed.

(* ------------------------------------------------------------------ C84 *)
(** GetByLabel of iptable looks an address up a second time: it may return data
    that do not match. *)
Lemma C84_iptable_returns_only_matching_refuted_pf :
  exists (from to : addr) (r : iptable bool) sel sched s,
    ip_range from to /\ ip_reachable Some from to r /\
    sys_run method (ip_system Some r [[IGetByLabel sel]; [IUpdate from false]]) sched = Some s /\
    EEnd (0, 0)%nat (IRDatas (Ok [false])) ∈ sy_hist s /\ sel false = false.
Proof.
  set (from := Addr K4 v4_base 0). set (to := Addr K4 (v4_base + 1) 0).
  set (r := fst (ip_run Some (ip_new from to) [IClaim from true])). set (sel := fun b : bool => b).
  set (sched := replicate 7 0%nat ++ replicate 15 1%nat ++ replicate 2 0%nat).
  assert (H : match sys_run method (ip_system Some r [[IGetByLabel sel]; [IUpdate from false]]) sched with
              | Some s => exists h, sy_hist s = h ++ [EEnd (0, 0)%nat (IRDatas (Ok [false]))]
              | None => False end).
  { vm_compute. eexists [_; _; _]; reflexivity. }
  exists from, to, r, sel, sched.
  destruct (sys_run method (ip_system Some r [[IGetByLabel sel]; [IUpdate from false]]) sched) as [s|]; [|done]. destruct H as [h Hh].
  exists s. split; [vm_compute; repeat split; discriminate|]. split; [exists [IClaim from true]; done|]. split; [done|].
  split; [|done]. rewrite Hh. apply elem_of_app. right. left.
Qed.
(** What it does: at one moment it lists the claimed addresses; then it looks each
    up at a later moment, and again if the data match; it returns the data found
    then, or panics if an address is not claimed any more. *)
Lemma C84_iptable_get_by_label_moments_partial_pf :
  forall (S D : Type) (parse : S -> option addr) (from to : addr) (r : iptable D) (todo : list (list (iop S D))) sched s,
    ip_range from to -> a_val to - a_val from + 1 < 2 ^ 64 -> ip_reachable parse from to r ->
    sys_run method (ip_system parse r todo) sched = Some s ->
    forall k sel x, call_of todo k = Some (IGetByLabel sel) -> EEnd k x ∈ sy_hist s ->
    exists n m ids, ip_moment parse r todo sched k n m /\ listing m ids /\
      ((exists ds, looked_twice (ip_moment parse r todo sched k) sel n ids ds /\ x = IRDatas (Ok ds)) \/
       (x = IRDatas Panic /\ exists id n' m', id ∈ ids /\ (n <= n')%nat /\ ip_moment parse r todo sched k n' m' /\ m' !! id = None)).
Proof.
  intros S D parse from to r todo sched s Hip Hsz Hr Hrun k sel x Hk Hx.
  apply ip_reachable_wf in Hr; [|done]. by eapply ip_by_label_moments.
Qed.

(* ------------------------------------------------------------------ C85 *)
(** An iterator of an idxtable next to other calls: the ids are those claimed at
    one moment, in ascending order; each value is the entry of that id at a later
    moment of its own, nil if it is not claimed then. *)
Lemma C85_iterator_values_moments_pf :
  forall (T : Type) (sz : N) (d0 : table T) (todo : list (list (option (op T)))) sched s,
    0 < sz < 2 ^ 64 -> reachable sz d0 ->
    sys_run method (idx_system d0 todo) sched = Some s ->
    forall k x, call_of todo k = Some None -> EEnd k x ∈ sy_hist s ->
    exists n m ids vs, idx_moment d0 todo sched k n m /\ listing m ids /\ looked (idx_moment d0 todo sched k) n ids vs /\
      x = RValues (Ok (zip_with (fun id v => NewEntry id <$> v) ids vs)).
Proof.
  intros T sz d0 todo sched s Hsz Hr Hrun k x Hk Hx. apply reachable_wf in Hr; [|lia].
  assert (Hat : forall k n d, at_moment method d0 (map (map idx_client) todo) sched k n d -> IdxTableProofs.wf sz d /\ idx_moment d0 todo sched k n (claimed d)).
  { intros k' n d (s' & Hs' & Hd & <-). split; [|by exists s'].
    refine (stable_data (IdxTableProofs.wf sz) (fun _ => True) d0 (map (map idx_client) todo) (take n sched) s' Hr _ _ _ Hs').
    - intros o e _ He d (Hw1 & _) Hv d' (Hw1' & Hw2' & Hw3'). split; [done|]. cbn [t_map]. split.
      + intros i e'. destruct (decide (i = e_id e)) as [->|]; [rewrite lookup_insert; by intros [= <-]|rewrite lookup_insert_ne by done; apply Hw2'].
      + intros i e'. destruct (decide (i = e_id e)) as [->|]; [rewrite lookup_insert; intros _|rewrite lookup_insert_ne by done; apply Hw3'].
        rewrite (validate_spec sz) in Hv by (done || lia). by destruct (N.ltb_spec (e_id e) (capacity sz)).
    - intros o _ _ id d (Hw1 & Hw2 & Hw3). split; [done|]. cbn [t_map]. split; intros i e' H; apply lookup_delete_Some in H as [_ H]; eauto.
    - intros c p _. apply only_true. }
  refine (timed_call d0 (map (map idx_client) todo) sched s (fun x => exists n m ids vs, idx_moment d0 todo sched k n m /\ listing m ids /\
    looked (idx_moment d0 todo sched k) n ids vs /\ x = RValues (Ok (zip_with (fun id v => NewEntry id <$> v) ids vs)))
    k iterate_values x Hrun _ Hx _); [by rewrite call_of_map, Hk|].
  apply (cat_iterate _ _ _ (IdxTableProofs.wf sz)).
  - intros c n d Hd. by apply Hat in Hd as [? _].
  - intros d Hw. eapply N.le_lt_trans; [by apply (size_bound sz)|]. rewrite capacity_nz by lia. lia.
  - intros n d _ Hd Hw. destruct (iter_keys_spec d) as [Hasc Hin]. eapply cat_values.
    + intros n' d' Hd'. apply Hat in Hd' as [Hw' HM']. split; [exact HM'|]. by destruct Hw' as (_ & ? & _).
    + intros xs Hl. exists n, (claimed d), (it_keys (iterate d)), xs. split; [by apply Hat in Hd as [_ ?]|]. done.
Qed.
