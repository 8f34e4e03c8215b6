(** Executions in which something about the data never changes: a predicate that
    every write keeps and every read may use. *)
From Verif Require Export ConcLocks.

Section stable.
Context {D R Op A : Type} (method : Op -> prog D R) (St : D -> Prop) (Post : Op -> R -> Prop).
Notation prog := (prog D R).
Notation client := (client D R Op A).
Notation sys := (sys D R Op A).

Fixpoint pok (post : R -> Prop) (p : prog) : Prop :=
  match p with
  | Ret r => post r
  | Read k => forall d, St d -> pok post (k d)
  | Write f p => (forall d, St d -> St (f d)) /\ pok post p
  | RLock p | RUnlock p | Lock p | Wait p | Unlock p => pok post p
  end.
Fixpoint cok (Q : A -> Prop) (p : client) : Prop :=
  match p with
  | CRet a => Q a
  | CCall o k => pok (Post o) (method o) /\ forall r, Post o r -> cok Q (k r)
  | CPeek k => forall d, St d -> cok Q (k d)
  end.

Context (todo : list (list client)) (Q : cid -> A -> Prop).
Definition SInv (s : sys) : Prop :=
  St (sy_data s) /\
  (forall i th, sy_threads s !! i = Some th ->
    match th_now th with
    | Idle => True
    | Between q => cok (Q (i, th_done th)) q
    | Inside o q k => pok (Post o) q /\ forall r, Post o r -> cok (Q (i, th_done th)) (k r)
    end) /\
  forall c a, EEnd c a ∈ sy_hist s -> Q c a.

Context (Htodo : forall c p, call_of todo c = Some p -> cok (Q c) p).

Lemma SInv_step s i s' : counted todo s -> SInv s -> sys_step method s i = Some s' -> SInv s'.
Proof.
  intros [Hlen Hcnt] (Hd & Hth & Hend) Hs. unfold sys_step in Hs. destruct (sy_threads s !! i) as [th|] eqn:Eth; [|done].
  destruct (thread_step _ _ _ _ _) as [[[[d m] th'] es]|] eqn:Ht; [|done]. injection Hs as <-.
  pose proof (Hth _ _ Eth) as Hi.
  assert (Hgo : St d ->
    match th_now th' with
    | Idle => True
    | Between q => cok (Q (i, th_done th')) q
    | Inside o q k => pok (Post o) q /\ forall r, Post o r -> cok (Q (i, th_done th')) (k r)
    end -> (forall c a, EEnd c a ∈ es -> Q c a) ->
    SInv (Sys d m (<[i := th']> (sy_threads s)) (sy_hist s ++ es))).
  { intros H1 H2 H3. split; [done|]. cbn. split.
    - intros j th1 Hj. apply list_lookup_insert_Some in Hj as [(-> & <- & _)|[_ Hj]]; [done|by apply Hth].
    - intros c a Hc. apply elem_of_app in Hc as [Hc|Hc]; auto. }
  assert (Hnone : forall c a, EEnd c a ∈ ([] : list (event A)) -> Q c a).
  { intros c a Hc. by apply elem_of_nil in Hc. }
  destruct (lookup_lt_is_Some_2 todo i) as [ps Hps]; [rewrite <- Hlen; by eapply lookup_lt_Some|].
  unfold thread_step in Ht. destruct (th_now th) as [|p|o p k] eqn:En.
  - destruct (th_todo th) as [|p qs] eqn:Et; [done|]. injection Ht as <- <- <- <-. apply Hgo; [done| |].
    + cbn. apply Htodo. destruct (Hcnt _ _ _ Eth Hps) as [Hdr _]. rewrite En, Et in Hdr.
      unfold call_of. cbn. rewrite Hps. rewrite <- (Nat.add_0_r (th_done th)), <- lookup_drop, <- Hdr. done.
    + intros c a Hc. apply elem_of_list_singleton in Hc. discriminate Hc.
  - destruct p as [a|o k|k]; injection Ht as <- <- <- <-.
    + apply Hgo; [done|done|]. intros c b Hc. apply elem_of_list_singleton in Hc. by injection Hc as -> ->.
    + by apply Hgo.
    + apply Hgo; [done| |done]. cbn. by apply Hi.
  - destruct Hi as (Hp & Hr).
    destruct p as [r|kr|f p|p|p|p|p|p]; cbn in Ht, Hp.
    + injection Ht as <- <- <- <-. apply Hgo; [done| |done]. cbn. auto.
    + injection Ht as <- <- <- <-. apply Hgo; [done| |done]. cbn. auto.
    + injection Ht as <- <- <- <-. destruct Hp as [Hp1 Hp2]. apply Hgo; [by apply Hp1| |done]. cbn. auto.
    + destruct (rw_writer (sy_mutex s)); try done. injection Ht as <- <- <- <-. by apply Hgo.
    + destruct (rw_readers (sy_mutex s)); try done. injection Ht as <- <- <- <-. by apply Hgo.
    + destruct (rw_writer (sy_mutex s)); try done. injection Ht as <- <- <- <-. by apply Hgo.
    + destruct (rw_readers (sy_mutex s)); try done. destruct (rw_writer (sy_mutex s)); try done. injection Ht as <- <- <- <-. by apply Hgo.
    + destruct (rw_writer (sy_mutex s)); try done. injection Ht as <- <- <- <-. by apply Hgo.
Qed.

Lemma run_stable d0 sched s : St d0 -> sys_run method (start d0 todo) sched = Some s ->
  St (sy_data s) /\ forall c a, EEnd c a ∈ sy_hist s -> Q c a.
Proof.
  intros H0 Hr.
  assert (H : forall s0 s sched, counted todo s0 -> SInv s0 -> sys_run method s0 sched = Some s -> SInv s).
  { clear -Htodo. intros s0 s sched. revert s0. induction sched as [|i sched IH]; intros s0 Hc HI Hr; cbn in Hr; [by injection Hr as <-|].
    destruct (sys_step method s0 i) as [s1|] eqn:Hs; [|done]. eapply IH; [by eapply counted_step|by eapply SInv_step|done]. }
  assert (Hi : SInv (start d0 todo)).
  { split; [done|]. split.
    - intros i th Hth. cbn in Hth. rewrite list_lookup_fmap in Hth. destruct (todo !! i); [|done]. by injection Hth as <-.
    - intros c a Hc. by apply elem_of_nil in Hc. }
  destruct (H _ _ _ (counted_start d0 todo) Hi Hr) as (H1 & _ & H3). done.
Qed.
End stable.
