(** Clients that differ only where a method returns what it never returns behave
    alike under every schedule. *)
From Verif Require Export ConcSpec ConcProofs.
From Coq Require Import Lia.

Section Prune.
Context {D R Op A : Type} (method : Op -> prog D R).
Notation prog := (prog D R).
Notation client := (client D R Op A).
Notation sys := (sys D R Op A).
Notation thread := (thread D R Op A).

(** What is always true of the data, the results a method may have as long as it
    is, and how the results of the two calls are related. *)
Context (J : D -> Prop) (Poss : Op -> R -> Prop) (RA : A -> A -> Prop).

(** Every result of the method is in [Pr], whenever it is run. *)
Fixpoint rets (Pr : R -> Prop) (p : prog) : Prop :=
  match p with
  | Ret r => Pr r
  | Read k => forall d, J d -> rets Pr (k d)
  | Write f p => rets Pr p
  | RLock p | RUnlock p | Lock p | Wait p | Unlock p => rets Pr p
  end.
Lemma rets_all (Pr : R -> Prop) p : (forall r, Pr r) -> rets Pr p.
Proof. intros H. induction p; cbn; auto. Qed.
Lemma rets_step Pr p d m d' m' p' : J d -> rets Pr p -> prog_step d m p = Some (d', m', p') -> rets Pr p'.
Proof.
  intros HJ H Hs. destruct p; cbn in *; try done.
  - injection Hs as _ _ <-. by apply H.
  - by injection Hs as _ _ <-.
  - destruct (rw_writer m); try done. by injection Hs as _ _ <-.
  - destruct (rw_readers m); try done. by injection Hs as _ _ <-.
  - destruct (rw_writer m); try done. by injection Hs as _ _ <-.
  - destruct (rw_readers m), (rw_writer m); try done. by injection Hs as _ _ <-.
  - destruct (rw_writer m); try done. by injection Hs as _ _ <-.
Qed.

Fixpoint alike (p p' : client) : Prop :=
  match p, p' with
  | CRet a, CRet a' => RA a a'
  | CCall o k, CCall o' k' => o' = o /\ forall r, Poss o r -> alike (k r) (k' r)
  | CPeek k, CPeek k' => forall d, alike (k d) (k' d)
  | _, _ => False
  end.
Lemma alike_refl p : (forall a, RA a a) -> alike p p.
Proof. intros H. induction p; cbn; auto. Qed.
Definition now_alike (n n' : activity D R Op A) : Prop :=
  match n, n' with
  | Idle, Idle => True
  | Between p, Between p' => alike p p'
  | Inside o p k, Inside o' p' k' =>
      o' = o /\ p' = p /\ rets (Poss o) p /\ (exists g, ok true true (fun d d' => J d -> J d') g p) /\
      forall r, Poss o r -> alike (k r) (k' r)
  | _, _ => False
  end.
Definition thread_alike (th th' : thread) : Prop :=
  Forall2 alike (th_todo th) (th_todo th') /\ th_done th' = th_done th /\ now_alike (th_now th) (th_now th').
Definition event_alike (e e' : event A) : Prop :=
  match e, e' with
  | EStart c, EStart c' => c' = c
  | EEnd c a, EEnd c' a' => c' = c /\ RA a a'
  | _, _ => False
  end.
Definition sys_alike (s s' : sys) : Prop :=
  J (sy_data s) /\ sy_data s' = sy_data s /\ sy_mutex s' = sy_mutex s /\
  Forall2 thread_alike (sy_threads s) (sy_threads s') /\ Forall2 event_alike (sy_hist s) (sy_hist s').

Hypothesis Hrets : forall o, rets (Poss o) (method o).
Hypothesis Hok : forall o, ok true true (fun d d' => J d -> J d') MOut (method o).

Lemma ok_prog_step g (p : prog) d m d' m' p' : J d -> ok true true (fun d d' => J d -> J d') g p ->
  prog_step d m p = Some (d', m', p') -> J d' /\ exists g', ok true true (fun d d' => J d -> J d') g' p'.
Proof.
  intros HJ H Hs. destruct p; cbn in Hs; try done.
  - injection Hs as <- _ <-. split; [done|]. destruct g; cbn in H; try done; [exists (MRead n); apply H|exists MWrite; apply H].
  - injection Hs as <- _ <-. destruct g; cbn in H; try done. split; [by apply H|]. exists MWrite. apply H.
  - destruct (rw_writer m); try done. injection Hs as <- _ <-. split; [done|].
    destruct g; cbn in H; try done; [by exists (MRead 1)|exists (MRead (S n)); apply H].
  - destruct (rw_readers m); try done. injection Hs as <- _ <-. split; [done|].
    destruct g as [|[|[|n']]| | |]; cbn in H; try done; [by exists MDone|by exists (MRead (S n'))].
  - destruct (rw_writer m); try done. injection Hs as <- _ <-. split; [done|].
    destruct g; cbn in H; try done. by exists MWait.
  - destruct (rw_readers m), (rw_writer m); try done. injection Hs as <- _ <-. split; [done|].
    destruct g; cbn in H; try done. exists MWrite. apply H.
  - destruct (rw_writer m); try done. injection Hs as <- _ <-. split; [done|].
    destruct g; cbn in H; try done. exists MDone. apply H.
Qed.

Lemma alike_step s s' i s1 : sys_alike s s' -> sys_step method s i = Some s1 ->
  exists s1', sys_step method s' i = Some s1' /\ sys_alike s1 s1'.
Proof.
  intros (HJ & Hd & Hm & Hth & Hh) Hs. unfold sys_step in *.
  destruct (sy_threads s !! i) as [th|] eqn:Hi; [|done].
  destruct (Forall2_lookup_l _ _ _ _ _ Hth Hi) as (th' & Hi' & Ha). rewrite Hi', Hd, Hm.
  destruct (thread_step method i (sy_data s) (sy_mutex s) th) as [[[[d1 m1] t1] es]|] eqn:Hts; [|done]. injection Hs as <-.
  assert (Hgoal : exists t1' es', thread_step method i (sy_data s) (sy_mutex s) th' = Some (d1, m1, t1', es') /\
    J d1 /\ thread_alike t1 t1' /\ Forall2 event_alike es es').
  { destruct th as [tl dn now], th' as [tl' dn' now']. destruct Ha as (H1 & H2 & H3). cbn in H1, H2, H3. subst dn'.
    unfold thread_step in *. cbn [th_now th_todo th_done] in *. destruct now as [|p|o p k], now' as [|p'|o' p' k']; cbn in H3; try done.
    - destruct tl as [|q tl]; [done|]. inversion H1 as [|? q' ? tl'' Hq Htl]; subst. injection Hts as <- <- <- <-.
      do 2 eexists. split; [done|]. split; [done|]. split; [done|]. repeat constructor.
    - destruct p as [a|o k|k], p' as [a'|o' k'|k']; cbn in H3; try done; injection Hts as <- <- <- <-.
      + do 2 eexists. split; [done|]. split; [done|]. split; [done|]. repeat constructor. done.
      + destruct H3 as [-> H3]. do 2 eexists. split; [done|]. split; [done|]. split; [|constructor].
        split; [done|]. split; [done|]. cbn. split; [done|]. split; [done|]. split; [apply Hrets|]. split; [by exists MOut|done].
      + do 2 eexists. split; [done|]. split; [done|]. split; [|constructor]. split; [done|]. split; [done|]. cbn. done.
    - destruct H3 as (-> & -> & Hr & (g & Hg) & Hk).
      assert (Hdec : (exists r, p = Ret r) \/ ~ (exists r, p = Ret r)).
      { destruct p; try (right; intros [? ?]; done). left. eauto. }
      destruct Hdec as [[r ->]|Hnr].
      + injection Hts as <- <- <- <-. do 2 eexists. split; [done|]. split; [done|]. split; [|constructor].
        split; [done|]. split; [done|]. cbn. apply Hk. done.
      + assert (Hst : exists p1, prog_step (sy_data s) (sy_mutex s) p = Some (d1, m1, p1) /\
          t1 = Thread tl dn (Inside o p1 k) /\ es = []).
        { destruct p; [by destruct Hnr; eauto|..];
            (destruct (prog_step _ _ _) as [[[? ?] ?]|]; [|done]; injection Hts as <- <- <- <-; eauto). }
        destruct Hst as (p1 & Hp1 & -> & ->). destruct (ok_prog_step _ _ _ _ _ _ _ HJ Hg Hp1) as [HJ1 Hg1].
        exists (Thread tl' dn (Inside o p1 k')), []. split.
        { destruct p; [by destruct Hnr; eauto|..]; rewrite Hp1; done. }
        split; [done|]. split; [|constructor]. split; [done|]. split; [done|]. cbn. split; [done|]. split; [done|].
        split; [exact (rets_step _ _ _ _ _ _ _ HJ Hr Hp1)|done]. }
  destruct Hgoal as (t1' & es' & -> & HJ1 & Hta & Hes). eexists. split; [done|].
  split; [done|]. split; [done|]. split; [done|]. cbn. split; [by apply Forall2_insert|by apply Forall2_app].
Qed.
Lemma alike_run sched : forall s s' s1, sys_alike s s' -> sys_run method s sched = Some s1 ->
  exists s1', sys_run method s' sched = Some s1' /\ sys_alike s1 s1'.
Proof.
  induction sched as [|i sched IH]; intros s s' s1 Ha Hr; cbn in Hr.
  - injection Hr as <-. by exists s'.
  - destruct (sys_step method s i) as [s2|] eqn:Hs; [|done]. destruct (alike_step _ _ _ _ Ha Hs) as (s2' & H2 & Ha2).
    destruct (IH _ _ _ Ha2 Hr) as (s1' & H1 & Hend). exists s1'. cbn. by rewrite H2.
Qed.
(** The calls [todo'] instead of [todo]: the same schedule is possible, and the
    results are related. *)
Lemma alike_ends d0 (todo todo' : list (list client)) sched s :
  J d0 -> Forall2 (Forall2 alike) todo todo' -> sys_run method (start d0 todo) sched = Some s ->
  exists s', sys_run method (start d0 todo') sched = Some s' /\ sy_data s' = sy_data s /\
    forall k a, EEnd k a ∈ sy_hist s -> exists a', EEnd k a' ∈ sy_hist s' /\ RA a a'.
Proof.
  intros HJ Hl Hr. destruct (alike_run sched (start d0 todo) (start d0 todo') s) as (s' & Hs' & (_ & Hd & _ & _ & Hh)); [|done|].
  - split; [done|]. split; [done|]. split; [done|]. split; [|constructor]. cbn. apply Forall2_fmap. eapply Forall2_impl; [exact Hl|].
    intros ps ps' Hp. done.
  - exists s'. split; [done|]. split; [done|]. intros k a Ha. apply elem_of_list_lookup in Ha as [j Hj].
    destruct (Forall2_lookup_l _ _ _ _ _ Hh Hj) as (e' & He' & Hev). destruct e' as [c|c a']; cbn in Hev; [done|].
    destruct Hev as [-> HR]. exists a'. split; [by eapply elem_of_list_lookup_2|done].
Qed.
End Prune.
