(** Executions get stuck only over the lock: progress for methods that use the
    lock correctly, whatever they access without it. *)
From Verif Require Export ConcRuns.
From Coq Require Import Lia.

(** A run that has finished has returned from every call. *)
Section finish.
Context {D R Op A : Type} (method : Op -> prog D R).
Notation client := (client D R Op A).
Notation sys := (sys D R Op A).
Definition counted (todo : list (list client)) (s : sys) : Prop :=
  length (sy_threads s) = length todo /\
  forall i th ps, sy_threads s !! i = Some th -> todo !! i = Some ps ->
    th_todo th = drop (match th_now th with Idle => th_done th | _ => S (th_done th) end) ps /\
    forall n, (n < th_done th)%nat -> exists a, EEnd (i, n) a ∈ sy_hist s.
Lemma counted_start d0 todo : counted todo (start d0 todo).
Proof.
  split; [cbn; by rewrite fmap_length|]. intros i th ps H Hps. cbn in H. rewrite list_lookup_fmap, Hps in H. injection H as <-.
  cbn. split; [done|]. lia.
Qed.
Lemma counted_step todo s i s' : counted todo s -> sys_step method s i = Some s' -> counted todo s'.
Proof.
  intros [Hlen H] Hs. unfold sys_step in Hs. destruct (sy_threads s !! i) as [th|] eqn:Hth; [|done].
  destruct (thread_step _ _ _ _ _) as [[[[d m] th'] es]|] eqn:Ht; [|done]. injection Hs as <-.
  split; [cbn; by rewrite insert_length|]. intros j th1 ps Hj Hps. cbn in Hj. cbn [sy_hist].
  apply list_lookup_insert_Some in Hj as [(-> & <- & _)|[_ Hj]].
  2:{ destruct (H _ _ _ Hj Hps) as [H1 H2]. split; [done|]. intros n Hn. destruct (H2 n Hn) as [a Ha]. exists a. apply elem_of_app. by left. }
  destruct (H _ _ _ Hth Hps) as [H1 H2].
  assert (Hkeep : forall n, (n < th_done th)%nat -> exists a, EEnd (j, n) a ∈ sy_hist s ++ es).
  { intros n Hn. destruct (H2 n Hn) as [a Ha]. exists a. apply elem_of_app. by left. }
  unfold thread_step in Ht. destruct (th_now th) as [|p|o p k] eqn:En.
  - destruct (th_todo th) as [|p qs] eqn:Et; [done|]. injection Ht as <- <- <- <-. cbn. split; [|done].
    replace (S (th_done th)) with (th_done th + 1)%nat by lia. rewrite <- drop_drop, <- H1. done.
  - destruct p as [a|o k|k]; injection Ht as <- <- <- <-; cbn; (split; [done|]); try done.
    intros n Hn. destruct (decide (n = th_done th)) as [->|Hne]; [|apply Hkeep; lia].
    exists a. apply elem_of_app. right. by apply elem_of_list_singleton.
  - destruct p; try (injection Ht as <- <- <- <-; cbn; split; done);
      destruct (prog_step _ _ _) as [[[? ?] ?]|]; try done; injection Ht as <- <- <- <-; cbn; split; done.
Qed.
Lemma counted_run todo s sched s' : counted todo s -> sys_run method s sched = Some s' -> counted todo s'.
Proof.
  revert s. induction sched as [|i sched IH]; intros s H Hr; cbn in Hr; [by injection Hr as <-|].
  destruct (sys_step method s i) as [s1|] eqn:Hs; [|done]. eapply IH; [|done]. by eapply counted_step.
Qed.
Lemma finished_returned todo s : counted todo s -> finished s -> forall c p, call_of todo c = Some p -> exists a, EEnd c a ∈ sy_hist s.
Proof.
  intros [Hlen H] Hf [i n] p Hc. unfold call_of in Hc. cbn in Hc. destruct (todo !! i) as [ps|] eqn:Hps; [|done].
  destruct (lookup_lt_is_Some_2 (sy_threads s) i) as [th Hth]; [rewrite Hlen; by eapply lookup_lt_Some|].
  destruct (H _ _ _ Hth Hps) as [H1 H2]. destruct (Hf _ _ Hth) as [Hn Ht]. rewrite Hn, Ht in H1. apply H2.
  apply lookup_lt_Some in Hc. apply (f_equal length) in H1. rewrite drop_length in H1. cbn in H1. lia.
Qed.
End finish.

Section locks.
Context {D R Op A : Type} (method : Op -> prog D R) (P : Op -> Prop) (nest wr : bool).
Notation prog := (prog D R).
Notation client := (client D R Op A).
Notation sys := (sys D R Op A).

(** The lock is used correctly: every lock is released, by the method that took
    it, and only a method allowed to nests or writes. *)
Fixpoint lok (m : mode) (p : prog) : Prop :=
  match m, p with
  | MOut, Ret _ => True
  | MOut, Read k => forall d, lok MOut (k d)
  | MOut, Write _ p => lok MOut p
  | MOut, RLock p => lok (MRead 1) p
  | MOut, Lock p => wr = true /\ lok MWrite p
  | MRead n, Read k => forall d, lok (MRead n) (k d)
  | MRead n, RLock p => nest = true /\ lok (MRead (S n)) p
  | MRead n, RUnlock p => match n with
                          | O => False
                          | S O => lok MOut p
                          | S (S _ as n') => lok (MRead n') p
                          end
  | MWait, Wait p => wr = true /\ lok MWrite p
  | MWrite, Read k => wr = true /\ forall d, lok MWrite (k d)
  | MWrite, Write f p => wr = true /\ lok MWrite p
  | MWrite, Unlock p => wr = true /\ lok MOut p
  | _, _ => False
  end.
Hypothesis Hlok : forall o, P o -> lok MOut (method o).

Lemma ok_lok Rel m p : ok nest wr Rel m p -> lok (match m with MDone => MOut | _ => m end) p.
Proof.
  revert m. induction p as [r|k IH|f p IH|p IH|p IH|p IH|p IH|p IH]; intros m H; destruct m as [|n| | |]; cbn in *; try done.
  - intros d. by apply (IH d (MRead n)).
  - split; [by destruct H|]. intros d. apply (IH d MWrite), H.
  - split; [by destruct H|]. apply (IH MWrite), H.
  - apply (IH (MRead 1) H).
  - split; [by destruct H|]. apply (IH (MRead (S n))), H.
  - destruct n as [|[|n]]; [done|apply (IH MDone H)|apply (IH (MRead (S n)) H)].
  - split; [by destruct H|]. apply (IH MWrite), H.
  - split; [by destruct H|]. apply (IH MWrite), H.
  - split; [by destruct H|]. apply (IH MDone), H.
Qed.

Record LInv (s : sys) (gm : list mode) : Prop := {
  li_len : length gm = length (sy_threads s);
  li_mutex : mutex_ok (sy_mutex s) gm;
  li_thread i th g : sy_threads s !! i = Some th -> gm !! i = Some g ->
    match th_now th with
    | Inside _ p _ => lok g p /\ (forall n, g = MRead n -> (0 < n)%nat)
    | _ => g = MOut
    end }.

Lemma LInv_start d0 (todo : list (list client)) : LInv (start d0 todo) (replicate (length todo) MOut).
Proof.
  constructor.
  - cbn. by rewrite replicate_length, fmap_length.
  - assert (Hc : forall f, f MOut = 0%nat -> cnt f (replicate (length todo) MOut) = 0%nat).
    { intros f Hf. apply cnt_all. intros i g Hg. by apply lookup_replicate in Hg as [-> _]. }
    split; [by rewrite Hc|]. cbn. by rewrite !Hc.
  - intros i th g Hth Hg. apply lookup_replicate in Hg as [-> _]. cbn in Hth. rewrite list_lookup_fmap in Hth.
    destruct (todo !! i); [|done]. by injection Hth as <-.
Qed.

Lemma LInv_update s gm i th g d' m' th' es g' : LInv s gm -> sy_threads s !! i = Some th -> gm !! i = Some g ->
  mutex_ok m' (<[i := g']> gm) ->
  match th_now th' with
  | Inside _ p _ => lok g' p /\ (forall n, g' = MRead n -> (0 < n)%nat)
  | _ => g' = MOut
  end -> exists gm', LInv (Sys d' m' (<[i := th']> (sy_threads s)) (sy_hist s ++ es)) gm'.
Proof.
  intros HI Hth Hg Hm Ht. exists (<[i := g']> gm). constructor; cbn.
  - rewrite !insert_length. apply (li_len _ _ HI).
  - done.
  - intros j th1 g1 Hj Hgj. apply list_lookup_insert_Some in Hj as [(-> & <- & _)|[Hne Hj]].
    + rewrite list_lookup_insert in Hgj by (by eapply lookup_lt_Some). by injection Hgj as <-.
    + rewrite list_lookup_insert_ne in Hgj by done. by eapply (li_thread _ _ HI).
Qed.

Lemma mutex_same m gm i g : gm !! i = Some g -> mutex_ok m gm -> mutex_ok m (<[i := g]> gm).
Proof. intros Hg Hm. by rewrite list_insert_id. Qed.

Lemma LInv_step s gm i s' : all_only P s -> LInv s gm -> sys_step method s i = Some s' -> exists gm', LInv s' gm'.
Proof.
  intros Hon HI Hs. unfold sys_step in Hs. destruct (sy_threads s !! i) as [th|] eqn:Hth; [|done].
  destruct (thread_step _ _ _ _ _) as [[[[d m] th'] es]|] eqn:Ht; [|done]. injection Hs as <-.
  destruct (lookup_lt_is_Some_2 gm i) as [g Hg]; [rewrite (li_len _ _ HI); by eapply lookup_lt_Some|].
  pose proof (li_thread _ _ HI _ _ _ Hth Hg) as Hin. pose proof (li_mutex _ _ HI) as Hm.
  pose proof (fun f g' => cnt_insert f gm i g g' Hg) as Hc.
  unfold thread_step in Ht. destruct (th_now th) as [|p|o p k] eqn:En.
  - subst g. destruct (th_todo th) as [|p qs] eqn:Et; [done|]. injection Ht as <- <- <- <-.
    eapply (LInv_update _ _ _ _ _ _ _ _ _ MOut HI Hth Hg); [by apply mutex_same|done].
  - subst g. destruct p as [a|o k|k].
    + injection Ht as <- <- <- <-. eapply (LInv_update _ _ _ _ _ _ _ _ _ MOut HI Hth Hg); [by apply mutex_same|done].
    + injection Ht as <- <- <- <-. eapply (LInv_update _ _ _ _ _ _ _ _ _ MOut HI Hth Hg); [by apply mutex_same|]. cbn. split; [|done].
      apply Hlok. destruct (Hon _ _ Hth) as [_ Ho]. rewrite En in Ho. apply Ho.
    + injection Ht as <- <- <- <-. eapply (LInv_update _ _ _ _ _ _ _ _ _ MOut HI Hth Hg); [by apply mutex_same|done].
  - destruct Hin as [Hp Hpos]. unfold mutex_ok in Hm.
    destruct p as [r|kr|f p|p|p|p|p|p].
    + destruct g; try done. injection Ht as <- <- <- <-. eapply (LInv_update _ _ _ _ _ _ _ _ _ MOut HI Hth Hg); [by apply mutex_same|done].
    + injection Ht as <- <- <- <-. eapply (LInv_update _ _ _ _ _ _ _ _ _ g HI Hth Hg); [by apply mutex_same|]. cbn. split; [|done].
      destruct g; try done; cbn in Hp; [apply Hp..|apply Hp].
    + injection Ht as <- <- <- <-. eapply (LInv_update _ _ _ _ _ _ _ _ _ g HI Hth Hg); [by apply mutex_same|]. cbn. split; [|done].
      destruct g; try done; cbn in Hp; apply Hp.
    + (* RLock *) cbn in Ht. destruct (rw_writer (sy_mutex s)) eqn:Hw; try done. injection Ht as <- <- <- <-.
      destruct g as [|n| | |]; try done; cbn in Hp.
      * eapply (LInv_update _ _ _ _ _ _ _ _ _ (MRead 1) HI Hth Hg); [|split; [done|intros ? [= <-]; lia]].
        pose proof (Hc readers (MRead 1)); pose proof (Hc waits (MRead 1)); pose proof (Hc writes (MRead 1)).
        cbn [readers waits writes] in *. unfold mutex_ok. cbn. lia.
      * eapply (LInv_update _ _ _ _ _ _ _ _ _ (MRead (S n)) HI Hth Hg); [|split; [apply Hp|intros ? [= <-]; lia]].
        pose proof (Hc readers (MRead (S n))); pose proof (Hc waits (MRead (S n))); pose proof (Hc writes (MRead (S n))).
        cbn [readers waits writes] in *. unfold mutex_ok. cbn. lia.
    + (* RUnlock *) cbn in Ht. destruct (rw_readers (sy_mutex s)) as [|rd] eqn:Hr; try done. injection Ht as <- <- <- <-.
      destruct g as [|n| | |]; try done; cbn in Hp. destruct n as [|[|n]]; [done|..].
      * eapply (LInv_update _ _ _ _ _ _ _ _ _ MOut HI Hth Hg); [|split; [done|intros ? [=]]].
        pose proof (Hc readers MOut); pose proof (Hc waits MOut); pose proof (Hc writes MOut).
        cbn [readers waits writes] in *. unfold mutex_ok. cbn. destruct (rw_writer (sy_mutex s)); lia.
      * eapply (LInv_update _ _ _ _ _ _ _ _ _ (MRead (S n)) HI Hth Hg); [|split; [done|intros ? [= <-]; lia]].
        pose proof (Hc readers (MRead (S n))); pose proof (Hc waits (MRead (S n))); pose proof (Hc writes (MRead (S n))).
        cbn [readers waits writes] in *. unfold mutex_ok. cbn. destruct (rw_writer (sy_mutex s)); lia.
    + (* Lock *) cbn in Ht. destruct (rw_writer (sy_mutex s)) eqn:Hw; try done. injection Ht as <- <- <- <-.
      destruct g as [|n| | |]; try done; cbn in Hp.
      eapply (LInv_update _ _ _ _ _ _ _ _ _ MWait HI Hth Hg); [|split; [done|intros ? [=]]].
      pose proof (Hc readers MWait); pose proof (Hc waits MWait); pose proof (Hc writes MWait).
      cbn [readers waits writes] in *. unfold mutex_ok. cbn. lia.
    + (* Wait *) cbn in Ht. destruct (rw_readers (sy_mutex s)) as [|rd] eqn:Hr; try done.
      destruct (rw_writer (sy_mutex s)) eqn:Hw; try done. injection Ht as <- <- <- <-.
      destruct g as [|n| | |]; try done; cbn in Hp.
      eapply (LInv_update _ _ _ _ _ _ _ _ _ MWrite HI Hth Hg); [|split; [apply Hp|intros ? [=]]].
      pose proof (Hc readers MWrite); pose proof (Hc waits MWrite); pose proof (Hc writes MWrite).
      cbn [readers waits writes] in *. unfold mutex_ok. cbn. lia.
    + (* Unlock *) cbn in Ht. destruct (rw_writer (sy_mutex s)) eqn:Hw; try done. injection Ht as <- <- <- <-.
      destruct g as [|n| | |]; try done; cbn in Hp.
      eapply (LInv_update _ _ _ _ _ _ _ _ _ MOut HI Hth Hg); [|split; [apply Hp|intros ? [=]]].
      pose proof (Hc readers MOut); pose proof (Hc waits MOut); pose proof (Hc writes MOut).
      cbn [readers waits writes] in *. unfold mutex_ok. cbn. lia.
Qed.
Lemma LInv_run s gm sched s' : all_only P s -> LInv s gm -> sys_run method s sched = Some s' -> exists gm', LInv s' gm'.
Proof.
  revert s gm. induction sched as [|i sched IH]; intros s gm Hon HI Hr; cbn in Hr; [injection Hr as <-; eauto|].
  destruct (sys_step method s i) as [s1|] eqn:Hs; [|done]. destruct (LInv_step _ _ _ _ Hon HI Hs) as [gm1 H1].
  eapply IH; [|exact H1|done]. by eapply only_step.
Qed.

Lemma linside_mode s gm i g : LInv s gm -> gm !! i = Some g -> g <> MOut ->
  exists th o p k, sy_threads s !! i = Some th /\ th_now th = Inside o p k /\ lok g p /\ (forall n, g = MRead n -> (0 < n)%nat).
Proof.
  intros HI Hg Hn. destruct (lookup_lt_is_Some_2 (sy_threads s) i) as [th Hth].
  { rewrite <- (li_len _ _ HI). by eapply lookup_lt_Some. }
  pose proof (li_thread _ _ HI _ _ _ Hth Hg) as H. exists th.
  destruct (th_now th) as [|p|o p k]; [done..|]. exists o, p, k. by destruct H.
Qed.
Lemma lwriter_steps s gm i : LInv s gm -> gm !! i = Some MWrite -> can_step method s.
Proof.
  intros HI Hg. destruct (linside_mode _ _ _ _ HI Hg) as (th & o & p & k & Hth & Hn & Hp & _); [done|].
  eapply inside_steps; [done|done|]. right. destruct p; try done. cbn.
  pose proof (cnt_le writes _ _ _ Hg) as H. cbn in H. pose proof (li_mutex _ _ HI) as Hm. unfold mutex_ok in Hm.
  destruct (rw_writer (sy_mutex s)); [lia|lia|done].
Qed.
Lemma lreader_steps s gm i n : nest = false \/ wr = false -> LInv s gm -> gm !! i = Some (MRead n) -> can_step method s.
Proof.
  intros Hnw HI Hg. destruct (linside_mode _ _ _ _ HI Hg) as (th & o & p & k & Hth & Hn & Hp & Hpos); [done|].
  eapply inside_steps; [done|done|]. right. pose proof (li_mutex _ _ HI) as Hm.
  destruct p; try done; cbn.
  - destruct Hp as [Hnest _]. destruct Hnw as [Hnw|Hnw]; [congruence|].
    destruct (rw_writer (sy_mutex s)) eqn:Hw; [done|..]; exfalso; unfold mutex_ok in Hm; rewrite Hw in Hm.
    + destruct (cnt_pos waits gm) as (j & g & Hj & Hgw); [lia|]. destruct g; cbn in Hgw; try lia.
      destruct (linside_mode _ _ _ _ HI Hj) as (th' & o' & p' & k' & _ & _ & Hp' & _); [done|].
      destruct p'; try done. cbn in Hp'. destruct Hp'; congruence.
    + destruct (cnt_pos writes gm) as (j & g & Hj & Hgw); [lia|]. destruct g; cbn in Hgw; try lia.
      destruct (linside_mode _ _ _ _ HI Hj) as (th' & o' & p' & k' & _ & _ & Hp' & _); [done|].
      destruct p'; try done; cbn in Hp'; destruct Hp'; congruence.
  - pose proof (cnt_le readers _ _ _ Hg) as H. cbn in H. specialize (Hpos n eq_refl). destruct Hm as [Hm _].
    destruct (rw_readers (sy_mutex s)); [lia|done].
Qed.
Lemma finished_dec (s : sys) : finished s \/
  exists i th, sy_threads s !! i = Some th /\ ~ (th_now th = Idle /\ th_todo th = []).
Proof.
  unfold finished. induction (sy_threads s) as [|th ths IH].
  - left. intros i th H. done.
  - assert (Hdec : (th_now th = Idle /\ th_todo th = []) \/ ~ (th_now th = Idle /\ th_todo th = [])).
    { destruct (th_now th) as [|?|? ? ?]; [|right; by intros [? ?]..]. destruct (th_todo th); [by left|right; by intros [? ?]]. }
    destruct Hdec as [Hd|Hd]; [|right; by exists 0%nat, th].
    destruct IH as [IH|(i & t & Hi & Ht)]; [|right; by exists (S i), t].
    left. intros [|i] t Ht; [by injection Ht as <-|by apply (IH i)].
Qed.
Lemma LInv_progress s gm : nest = false \/ wr = false -> LInv s gm -> finished s \/ can_step method s.
Proof.
  intros Hnw HI. destruct (finished_dec s) as [Hf|(i & th & Hth & Hne)]; [by left|right].
  destruct (th_now th) as [|p|o p k] eqn:Hnow.
  - eapply can_step_thread; [done|]. unfold thread_step. rewrite Hnow. destruct (th_todo th); [by destruct Hne|done].
  - eapply can_step_thread; [done|]. unfold thread_step. rewrite Hnow. destruct p; done.
  - destruct (lookup_lt_is_Some_2 gm i) as [g Hg]; [rewrite (li_len _ _ HI); by eapply lookup_lt_Some|].
    pose proof (li_thread _ _ HI _ _ _ Hth Hg) as H. rewrite Hnow in H. destruct H as [Hp Hpos].
    pose proof (li_mutex _ _ HI) as Hm. unfold mutex_ok in Hm.
    assert (Hrd : (0 < rw_readers (sy_mutex s))%nat -> can_step method s).
    { intros Hr. destruct Hm as [Hm _]. destruct (cnt_pos readers gm) as (j & gj & Hj & Hgw); [lia|].
      destruct gj; cbn in Hgw; try lia. by eapply lreader_steps. }
    assert (Hwr : rw_writer (sy_mutex s) <> WNone -> can_step method s).
    { intros Hw. destruct (rw_writer (sy_mutex s)) eqn:Hws; [done|..].
      - destruct (cnt_pos waits gm) as (j & gj & Hj & Hgw); [lia|]. destruct gj; cbn in Hgw; try lia.
        destruct (decide (0 < rw_readers (sy_mutex s))%nat) as [Hr|Hr]; [by apply Hrd|].
        destruct (linside_mode _ _ _ _ HI Hj) as (th' & o' & p' & k' & Hth' & Hn' & Hp' & _); [done|].
        eapply inside_steps; [done|done|]. right. destruct p'; try done. cbn. rewrite Hws.
        destruct (rw_readers (sy_mutex s)); [done|lia].
      - destruct (cnt_pos writes gm) as (j & gj & Hj & Hgw); [lia|]. destruct gj; cbn in Hgw; try lia.
        by eapply lwriter_steps. }
    destruct g as [|n| | |]; [| | | |by destruct p].
    + destruct (rw_writer (sy_mutex s)) eqn:Hw; [|by apply Hwr..].
      eapply inside_steps; [done|done|]. destruct p; try done; [left; eauto|right; cbn; rewrite ?Hw; done..].
    + by eapply lreader_steps.
    + apply Hwr. intros Hw. rewrite Hw in Hm. pose proof (cnt_le waits _ _ _ Hg) as Hc. cbn in Hc. lia.
    + by eapply lwriter_steps.
Qed.

(** No deadlock. *)
Lemma locks_progress d0 (todo : list (list client)) sched s :
  nest = false \/ wr = false -> (forall c p, call_of todo c = Some p -> only P p) ->
  sys_run method (start d0 todo) sched = Some s -> (forall i, sys_step method s i = None) ->
  forall c p, call_of todo c = Some p -> exists a, EEnd c a ∈ sy_hist s.
Proof.
  intros Hnw Ho Hr Hstuck. destruct (LInv_run _ _ _ _ (only_start _ _ _ (only_todo _ _ Ho)) (LInv_start d0 todo) Hr) as [gm HI].
  eapply finished_returned; [eapply counted_run; [apply counted_start|exact Hr]|].
  destruct (LInv_progress _ _ Hnw HI) as [Hf|(i & s' & Hs)]; [done|]. by rewrite Hstuck in Hs.
Qed.
End locks.

(** Runs in which nothing writes: every call returns what it returns alone. *)
Section reads.
Context {D R Op A : Type} (method : Op -> prog D R) (P : Op -> Prop).
Notation prog := (prog D R).
Notation client := (client D R Op A).
Notation sys := (sys D R Op A).
Fixpoint no_write (p : prog) : Prop :=
  match p with
  | Ret _ => True
  | Read k => forall d, no_write (k d)
  | Write _ _ => False
  | RLock p | RUnlock p | Lock p | Wait p | Unlock p => no_write p
  end.
Hypothesis Hnw : forall o, P o -> no_write (method o).
Lemma ok_no_write nest Rel m p : ok nest false Rel m p -> no_write p.
Proof.
  revert m. induction p as [r|k IH|f p IH|p IH|p IH|p IH|p IH|p IH]; intros m H; destruct m as [|n| | |]; cbn in *; try done; eauto;
    try (destruct H as [H _]; discriminate H); try (destruct H; eauto; fail).
  - destruct n as [|[|n]]; [done|eauto..].
Qed.
Lemma alone_no_write p d : no_write p -> fst (alone p d) = d.
Proof. induction p as [| | |p IH|p IH|p IH|p IH|p IH]; cbn; intros Hp; try done; auto. Qed.

Definition RInv (d0 : D) (todo : list (list client)) (s : sys) : Prop :=
  sy_data s = d0 /\
  (forall i th, sy_threads s !! i = Some th ->
    match th_now th with
    | Idle => True
    | Between q => exists p, call_of todo (i, th_done th) = Some p /\
        snd (client_alone method q d0) = snd (client_alone method p d0)
    | Inside o q k => no_write q /\ exists p, call_of todo (i, th_done th) = Some p /\
        snd (client_alone method (k (snd (alone q d0))) d0) = snd (client_alone method p d0)
    end) /\
  forall c a, EEnd c a ∈ sy_hist s -> exists p, call_of todo c = Some p /\ a = snd (client_alone method p d0).

Lemma RInv_step d0 todo s i s' : counted todo s -> all_only P s -> RInv d0 todo s -> sys_step method s i = Some s' -> RInv d0 todo s'.
Proof.
  intros [Hlen Hcnt] Hon (Hd & Hth & Hend) Hs. unfold sys_step in Hs. destruct (sy_threads s !! i) as [th|] eqn:Eth; [|done].
  destruct (thread_step _ _ _ _ _) as [[[[d m] th'] es]|] eqn:Ht; [|done]. injection Hs as <-.
  pose proof (Hth _ _ Eth) as Hi.
  assert (Hgo : d = d0 ->
    match th_now th' with
    | Idle => True
    | Between q => exists p, call_of todo (i, th_done th') = Some p /\
        snd (client_alone method q d0) = snd (client_alone method p d0)
    | Inside o q k => no_write q /\ exists p, call_of todo (i, th_done th') = Some p /\
        snd (client_alone method (k (snd (alone q d0))) d0) = snd (client_alone method p d0)
    end -> (forall c a, EEnd c a ∈ es -> exists p, call_of todo c = Some p /\ a = snd (client_alone method p d0)) ->
    RInv d0 todo (Sys d m (<[i := th']> (sy_threads s)) (sy_hist s ++ es))).
  { intros H1 H2 H3. split; [done|]. cbn. split.
    - intros j th1 Hj. apply list_lookup_insert_Some in Hj as [(-> & <- & _)|[_ Hj]]; [done|by apply Hth].
    - intros c a Hc. apply elem_of_app in Hc as [Hc|Hc]; auto. }
  assert (Hnone : forall c a, EEnd c a ∈ ([] : list (event A)) -> exists p, call_of todo c = Some p /\ a = snd (client_alone method p d0)).
  { intros c a Hc. by apply elem_of_nil in Hc. }
  destruct (lookup_lt_is_Some_2 todo i) as [ps Hps]; [rewrite <- Hlen; by eapply lookup_lt_Some|].
  unfold thread_step in Ht. destruct (th_now th) as [|p|o p k] eqn:En.
  - destruct (th_todo th) as [|p qs] eqn:Et; [done|]. injection Ht as <- <- <- <-. apply Hgo; [done| |].
    + cbn. exists p. split; [|done]. destruct (Hcnt _ _ _ Eth Hps) as [Hdr _]. rewrite En, Et in Hdr.
      unfold call_of. cbn. rewrite Hps. rewrite <- (Nat.add_0_r (th_done th)), <- lookup_drop, <- Hdr. done.
    + intros c a Hc. apply elem_of_list_singleton in Hc. discriminate Hc.
  - destruct Hi as (p0 & Hp0 & Hr). destruct p as [a|o k|k]; injection Ht as <- <- <- <-.
    + apply Hgo; [done|done|]. intros c b Hc. apply elem_of_list_singleton in Hc. injection Hc as -> ->. exists p0. by rewrite <- Hr.
    + apply Hgo; [done| |done]. cbn. assert (Ho : P o) by (destruct (Hon _ _ Eth) as [_ Ho]; rewrite En in Ho; apply Ho).
      split; [by apply Hnw|]. exists p0. split; [done|]. rewrite <- Hr. cbn. pose proof (alone_no_write _ d0 (Hnw o Ho)) as Ha.
      destruct (alone (method o) d0) as [d1 r]. cbn in *. by subst d1.
    + apply Hgo; [done| |done]. cbn. exists p0. split; [done|]. rewrite <- Hr. cbn. by rewrite Hd.
  - destruct Hi as (Hw & p0 & Hp0 & Hr).
    destruct p as [r|kr|f p|p|p|p|p|p]; cbn in Ht, Hw.
    + injection Ht as <- <- <- <-. apply Hgo; [done| |done]. cbn. eauto.
    + injection Ht as <- <- <- <-. apply Hgo; [done| |done]. cbn. split; [apply Hw|]. exists p0. split; [done|]. rewrite <- Hr. cbn. by rewrite Hd.
    + done.
    + destruct (rw_writer (sy_mutex s)); try done. injection Ht as <- <- <- <-. apply Hgo; [done| |done]. cbn. eauto.
    + destruct (rw_readers (sy_mutex s)); try done. injection Ht as <- <- <- <-. apply Hgo; [done| |done]. cbn. eauto.
    + destruct (rw_writer (sy_mutex s)); try done. injection Ht as <- <- <- <-. apply Hgo; [done| |done]. cbn. eauto.
    + destruct (rw_readers (sy_mutex s)); try done. destruct (rw_writer (sy_mutex s)); try done. injection Ht as <- <- <- <-. apply Hgo; [done| |done]. cbn. eauto.
    + destruct (rw_writer (sy_mutex s)); try done. injection Ht as <- <- <- <-. apply Hgo; [done| |done]. cbn. eauto.
Qed.

Lemma run_reads d0 (todo : list (list client)) sched s :
  (forall c p, call_of todo c = Some p -> only P p) -> sys_run method (start d0 todo) sched = Some s ->
  sy_data s = d0 /\ forall c a, EEnd c a ∈ sy_hist s -> exists p, call_of todo c = Some p /\ a = snd (client_alone method p d0).
Proof.
  intros Ho Hr.
  assert (H : forall s0 s sched, counted todo s0 -> all_only P s0 -> RInv d0 todo s0 -> sys_run method s0 sched = Some s -> RInv d0 todo s).
  { clear -Hnw. intros s0 s sched. revert s0. induction sched as [|i sched IH]; intros s0 Hc Ha HI Hr; cbn in Hr; [by injection Hr as <-|].
    destruct (sys_step method s0 i) as [s1|] eqn:Hs; [|done]. eapply IH; [by eapply counted_step|by eapply only_step|by eapply RInv_step|done]. }
  assert (H0 : RInv d0 todo (start d0 todo)).
  { split; [done|]. split.
    - intros i th Hth. cbn in Hth. rewrite list_lookup_fmap in Hth. destruct (todo !! i); [|done]. by injection Hth as <-.
    - intros c a Hc. by apply elem_of_nil in Hc. }
  destruct (H _ _ _ (counted_start d0 todo) (only_start _ _ _ (only_todo _ _ Ho)) H0 Hr) as (H1 & _ & H3). done.
Qed.
End reads.
