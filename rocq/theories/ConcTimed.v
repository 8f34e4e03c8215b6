(** Executions seen from one call: what it reads, and at which moments. *)
From Verif Require Export ConcLocks.
From Verif Require Import ConcProofs.

Section timed.
Context {D R Op A : Type} (method : Op -> prog D R).
Notation prog := (prog D R).
Notation client := (client D R Op A).
Notation sys := (sys D R Op A).
Context (d0 : D) (todo : list (list client)) (sched : list nat).

(** After [n] steps call [c] is running and the data are [d]. *)
Definition at_moment (c : cid) (n : nat) (d : D) : Prop :=
  exists s', sys_run method (start d0 todo) (take n sched) = Some s' /\ during (sy_hist s') c /\ sy_data s' = d.

Fixpoint pat (c : cid) (post : nat -> R -> Prop) (n : nat) (p : prog) : Prop :=
  match p with
  | Ret r => forall n', (n <= n')%nat -> post n' r
  | Read k => forall n' d, (n <= n')%nat -> at_moment c n' d -> pat c post n' (k d)
  | Write _ p | RLock p | RUnlock p | Lock p | Wait p | Unlock p => pat c post n p
  end.
Fixpoint cat (c : cid) (Q : A -> Prop) (n : nat) (p : client) : Prop :=
  match p with
  | CRet a => Q a
  | CCall o k => pat c (fun n r => cat c Q n (k r)) n (method o)
  | CPeek k => forall n' d, (n <= n')%nat -> at_moment c n' d -> cat c Q n' (k d)
  end.
Lemma pat_mono c post n n' p : (n <= n')%nat -> pat c post n p -> pat c post n' p.
Proof.
  intros Hn. induction p as [r|k IH|f p IH|p IH|p IH|p IH|p IH|p IH]; cbn; auto.
  - intros H m Hm. apply H. lia.
  - intros H m d Hm. apply H. lia.
Qed.
Lemma cat_mono c Q n n' p : (n <= n')%nat -> cat c Q n p -> cat c Q n' p.
Proof.
  intros Hn. destruct p as [a|o k|k]; cbn; [done|by apply pat_mono|]. intros H m d Hm. apply H. lia.
Qed.

Context (Q : cid -> A -> Prop).
Definition TI (n : nat) (s : sys) : Prop :=
  (forall i th, sy_threads s !! i = Some th ->
    (th_now th <> Idle -> EStart (i, th_done th) ∈ sy_hist s) /\
    (forall m a, EEnd (i, m) a ∈ sy_hist s -> (m < th_done th)%nat) /\
    match th_now th with
    | Idle => True
    | Between q => cat (i, th_done th) (Q (i, th_done th)) n q
    | Inside o q k => pat (i, th_done th) (fun n r => cat (i, th_done th) (Q (i, th_done th)) n (k r)) n q
    end) /\
  forall c a, EEnd c a ∈ sy_hist s -> Q c a.

Context (Htodo : forall c p, call_of todo c = Some p -> cat c (Q c) 0 p).

Lemma TI_step n s i s' : sys_run method (start d0 todo) (take n sched) = Some s ->
  counted todo s -> TI n s -> sys_step method s i = Some s' -> TI (S n) s'.
Proof.
  intros Hrun [Hlen Hcnt] (Hth & Hend) Hs. unfold sys_step in Hs. destruct (sy_threads s !! i) as [th|] eqn:Eth; [|done].
  destruct (thread_step _ _ _ _ _) as [[[[d m] th'] es]|] eqn:Ht; [|done]. injection Hs as <-.
  pose proof (Hth _ _ Eth) as (Hi1 & Hi2 & Hi3).
  assert (Hat : th_now th <> Idle -> at_moment (i, th_done th) n (sy_data s)).
  { intros Hne. exists s. split; [done|]. split; [|done]. split; [by apply Hi1|]. intros a Ha. apply Hi2 in Ha. lia. }
  assert (Hgo :
    (th_now th' <> Idle -> EStart (i, th_done th') ∈ sy_hist s ++ es) ->
    (forall j m a, EEnd (j, m) a ∈ es -> j = i /\ (m < th_done th')%nat) -> (th_done th <= th_done th')%nat ->
    match th_now th' with
    | Idle => True
    | Between q => cat (i, th_done th') (Q (i, th_done th')) n q
    | Inside o q k => pat (i, th_done th') (fun n r => cat (i, th_done th') (Q (i, th_done th')) n (k r)) n q
    end -> (forall c a, EEnd c a ∈ es -> Q c a) ->
    TI (S n) (Sys d m (<[i := th']> (sy_threads s)) (sy_hist s ++ es))).
  { intros H1 H2 H2' H3 H4. split; cbn.
    - intros j th1 Hj. apply list_lookup_insert_Some in Hj as [(-> & <- & _)|[Hne Hj]].
      + split; [done|]. split.
        * intros m1 a Ha. apply elem_of_app in Ha as [Ha|Ha]; [apply Hi2 in Ha; lia|by apply H2 in Ha as [_ ?]].
        * destruct (th_now th'); [done|by eapply cat_mono; [|exact H3]; lia|by eapply pat_mono; [|exact H3]; lia].
      + destruct (Hth _ _ Hj) as (Hj1 & Hj2 & Hj3). split; [intros Hn; apply elem_of_app; left; by apply Hj1|]. split.
        * intros m1 a Ha. apply elem_of_app in Ha as [Ha|Ha]; [by eapply Hj2|]. by apply H2 in Ha as [-> _].
        * destruct (th_now th1); [done|by eapply cat_mono; [|exact Hj3]; lia|by eapply pat_mono; [|exact Hj3]; lia].
    - intros c a Hc. apply elem_of_app in Hc as [Hc|Hc]; auto. }
  assert (Hnone : forall c a, EEnd c a ∈ ([] : list (event A)) -> Q c a).
  { intros c a Hc. by apply elem_of_nil in Hc. }
  assert (Hnone' : forall j m a, EEnd (j, m) a ∈ ([] : list (event A)) -> j = i /\ (m < th_done th)%nat).
  { intros j m1 a Hc. by apply elem_of_nil in Hc. }
  assert (Hst : th_now th <> Idle -> forall x, x <> Idle -> x <> (Idle : activity D R Op A) -> EStart (i, th_done th) ∈ sy_hist s ++ []).
  { intros Hne x _ _. rewrite app_nil_r. by apply Hi1. }
  destruct (lookup_lt_is_Some_2 todo i) as [ps Hps]; [rewrite <- Hlen; by eapply lookup_lt_Some|].
  unfold thread_step in Ht. destruct (th_now th) as [|p|o p k] eqn:En.
  - destruct (th_todo th) as [|p qs] eqn:Et; [done|]. injection Ht as <- <- <- <-. apply Hgo; cbn.
    + intros _. apply elem_of_app. right. left.
    + intros j m1 a Hc. apply elem_of_list_singleton in Hc. discriminate Hc.
    + lia.
    + eapply cat_mono; [|apply Htodo]; [lia|]. destruct (Hcnt _ _ _ Eth Hps) as [Hdr _]. rewrite En, Et in Hdr.
      unfold call_of. cbn. rewrite Hps. rewrite <- (Nat.add_0_r (th_done th)), <- lookup_drop, <- Hdr. done.
    + intros c a Hc. apply elem_of_list_singleton in Hc. discriminate Hc.
  - assert (Hne : Between p <> Idle) by done. specialize (Hat Hne). specialize (Hi1 Hne).
    destruct p as [a|o k|k]; injection Ht as <- <- <- <-.
    + apply Hgo; cbn; [done| |lia|done|].
      * intros j m1 a1 Hc. apply elem_of_list_singleton in Hc. injection Hc as -> -> ->. split; [done|lia].
      * intros c b Hc. apply elem_of_list_singleton in Hc. by injection Hc as -> ->.
    + apply Hgo; cbn; [intros _; by rewrite app_nil_r|done|lia|done|done].
    + apply Hgo; cbn; [intros _; by rewrite app_nil_r|done|lia| |done]. by apply Hi3.
  - assert (Hne : Inside o p k <> Idle) by done. specialize (Hat Hne). specialize (Hi1 Hne).
    destruct p as [r|kr|f p|p|p|p|p|p]; cbn in Ht, Hi3.
    1: { injection Ht as <- <- <- <-. apply Hgo; cbn; [intros _; by rewrite app_nil_r|done|lia| |done]. by apply Hi3. }
    1: { injection Ht as <- <- <- <-. apply Hgo; cbn; [intros _; by rewrite app_nil_r|done|lia| |done]. by apply Hi3. }
    1: { injection Ht as <- <- <- <-. apply Hgo; cbn; [intros _; by rewrite app_nil_r|done|lia| |done]. done. }
    all: destruct (rw_readers (sy_mutex s)), (rw_writer (sy_mutex s)); try done; injection Ht as <- <- <- <-;
      (apply Hgo; cbn; [intros _; by rewrite app_nil_r|done|lia|done|done]).
Qed.

Lemma run_timed s : sys_run method (start d0 todo) sched = Some s ->
  forall c a, EEnd c a ∈ sy_hist s -> Q c a.
Proof.
  intros Hr.
  assert (H : forall n, (n <= length sched)%nat -> exists s', sys_run method (start d0 todo) (take n sched) = Some s' /\
    counted todo s' /\ TI n s').
  { induction n as [|n IH]; intros Hn.
    - exists (start d0 todo). split; [done|]. split; [apply counted_start|]. split; cbn.
      + intros i th Hth. rewrite list_lookup_fmap in Hth. destruct (todo !! i); [|done]. injection Hth as <-. cbn.
        split; [done|]. split; [|done]. intros m a Ha. by apply elem_of_nil in Ha.
      + intros c a Ha. by apply elem_of_nil in Ha.
    - destruct IH as (s' & Hs' & Hc & HI); [lia|].
      destruct (lookup_lt_is_Some_2 sched n) as [i Hi]; [lia|].
      rewrite <- (take_drop n sched) in Hr. rewrite sys_run_app, Hs' in Hr.
      rewrite (drop_S _ _ _ Hi) in Hr. cbn [sys_run] in Hr.
      destruct (sys_step method s' i) as [s1|] eqn:Hs1; [|done]. exists s1.
      rewrite (take_S_r _ _ _ Hi), sys_run_app, Hs'. cbn [sys_run]. rewrite Hs1. split; [done|].
      split; [by eapply counted_step|]. by eapply TI_step. }
  destruct (H (length sched)) as (s' & Hs' & _ & _ & Hend); [done|]. rewrite take_ge in Hs' by done.
  rewrite Hr in Hs'. by injection Hs' as <-.
Qed.
End timed.
