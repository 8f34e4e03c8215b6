(** The executions of clients that only call disciplined methods. *)
From Verif Require Export ConcProofs.
From Coq Require Import Lia.

Section only.
Context {D R Op A : Type}.
Notation client := (client D R Op A).
Lemma only_todo (P : Op -> Prop) (todo : list (list client)) :
  (forall c p, call_of todo c = Some p -> only P p) -> Forall (Forall (only P)) todo.
Proof.
  intros H. apply Forall_lookup_2. intros i ps Hi. apply Forall_lookup_2. intros j p Hj.
  apply (H (i, j)). unfold call_of. cbn. by rewrite Hi.
Qed.
Lemma only_mono (P P' : Op -> Prop) (p : client) : (forall o, P o -> P' o) -> only P p -> only P' p.
Proof. intros HP. induction p as [a|o k IH|k IH]; cbn; [done|intros [H1 H2]; split; auto|auto]. Qed.
Lemma call_of_map {X Y} (f : X -> Y) todo c : call_of (map (map f) todo) c = f <$> call_of todo c.
Proof.
  unfold call_of. change (map (map f) todo) with (map f <$> todo). rewrite list_lookup_fmap. destruct (todo !! c.1) as [ps|]; cbn; [|done].
  change (map f ps) with (f <$> ps). by rewrite list_lookup_fmap.
Qed.
Lemma calls_of_in c x (l : list (cid * (Op * R))) : x ∈ calls_of c l <-> (c, x) ∈ l.
Proof.
  unfold calls_of. rewrite elem_of_list_fmap. setoid_rewrite elem_of_list_filter. split.
  - intros ([c' y] & -> & <- & H). done.
  - intros H. exists (c, x). done.
Qed.
Lemma follows_only (P : Op -> Prop) (p q : client) cs o x : follows p cs q -> only P p -> (o, x) ∈ cs -> P o.
Proof.
  induction 1 as [p|o' k r cs q H IH|k d cs q H IH]; intros Hp Ho; cbn in Hp.
  - by apply elem_of_nil in Ho.
  - apply elem_of_cons in Ho as [[= -> ->]|Ho]; [apply Hp|]. apply IH; [apply Hp|done].
  - apply IH; [apply Hp|done].
Qed.
Lemma follows_ret (x y : A) (cs : list (Op * R)) :
  follows (CRet x : client) cs (CRet y) -> cs = [] /\ x = y.
Proof. inversion 1; done. Qed.
Lemma follows_ccall o k (z : A) cs : follows (CCall o k : client) cs (CRet z) ->
  exists x cs', cs = (o, x) :: cs' /\ follows (k x) cs' (CRet z).
Proof. inversion 1; subst; eauto. Qed.
End only.

Section log.
Context {D R Op A : Type} (spec : D -> Op -> D * R).
Notation log := (list (cid * (Op * R))).
Notation client := (client D R Op A).
Implicit Types (l : log).

(** The data before the entry number p of the log. *)
Definition log_at d0 l (p : nat) : D := fst (seq_run spec d0 (log_ops (take p l))).
Lemma seq_run_app d os os' : seq_run spec d (os ++ os') =
  (fst (seq_run spec (fst (seq_run spec d os)) os'), snd (seq_run spec d os) ++ snd (seq_run spec (fst (seq_run spec d os)) os')).
Proof.
  revert d. induction os as [|o os IH]; intros d; cbn; [by destruct (seq_run spec d os')|].
  destruct (spec d o) as [d1 r]. rewrite IH. destruct (seq_run spec d1 os) as [d2 rs]. cbn. done.
Qed.
Lemma log_at_S d0 l p c o x : l !! p = Some (c, (o, x)) -> log_at d0 l (S p) = fst (spec (log_at d0 l p) o).
Proof.
  intros Hp. unfold log_at. rewrite (take_S_r _ _ _ Hp). unfold log_ops. rewrite fmap_app, seq_run_app. cbn.
  by destruct (spec _ o).
Qed.
Lemma log_at_end d0 l d xs : seq_run spec d0 (log_ops l) = (d, xs) -> log_at d0 l (length l) = d.
Proof. intros H. unfold log_at. by rewrite firstn_all, H. Qed.
Lemma seq_run_length d os : length (snd (seq_run spec d os)) = length os.
Proof.
  revert d. induction os as [|o os IH]; intros d; [done|]. cbn. destruct (spec d o) as [d1 x].
  specialize (IH d1). destruct (seq_run spec d1 os). cbn in *. lia.
Qed.
Lemma log_at_result d0 l d p c o x : seq_run spec d0 (log_ops l) = (d, log_results l) ->
  l !! p = Some (c, (o, x)) -> x = snd (spec (log_at d0 l p) o).
Proof.
  intros Hr Hp. pose proof (take_drop_middle _ _ _ Hp) as Hl. rewrite <- Hl in Hr. unfold log_ops, log_results in Hr.
  rewrite !fmap_app, seq_run_app, !fmap_cons in Hr. unfold log_at, log_ops. cbn [fst snd] in Hr.
  pose proof (seq_run_length d0 ((fun e => fst (snd e)) <$> take p l)) as Hlen.
  destruct (seq_run spec d0 ((fun e => fst (snd e)) <$> take p l)) as [d1 xs] eqn:E1. cbn [seq_run fst snd] in *.
  destruct (spec d1 o) as [d2 y] eqn:E2. destruct (seq_run spec d2 _) as [d3 ys]. injection Hr as _ Hr.
  apply app_inj_1 in Hr as [_ Hr]; [|by rewrite Hlen, !fmap_length]. injection Hr as -> _. done.
Qed.
Lemma logged_only (P : Op -> Prop) d0 (todo : list (list client)) s l d c o x :
  explains spec d0 todo s l d -> (forall c p, call_of todo c = Some p -> only P p) -> (c, (o, x)) ∈ l -> P o.
Proof.
  intros He Ho Hl. destruct (ex_started _ _ _ _ _ _ He _ _ Hl) as (_ & p & q & Hp & Hf).
  eapply follows_only; [exact Hf|by eapply Ho|]. by apply calls_of_in.
Qed.
End log.

Section runs.
Context {D R Op A : Type} (method : Op -> prog D R) (P : Op -> Prop) (nest wr : bool).
Hypothesis Hok : forall o, P o -> ok nest wr (fun _ _ => True) MOut (method o).
Notation client := (client D R Op A).
Notation spec := (fun d o => alone (method o) d).

Lemma safe_any (p : client) d : safe method (fun _ _ => True) (fun _ => True) p d.
Proof. revert d. induction p as [a|o k IH|k IH]; intros d; cbn; [done|intros d' _; apply IH|intros d' _; apply IH]. Qed.

Lemma run_inv d0 (todo : list (list client)) sched s :
  (forall c p, call_of todo c = Some p -> only P p) -> sys_run method (start d0 todo) sched = Some s ->
  exists l dl gm ns, Inv method nest wr (fun _ _ => True) (fun _ _ => True) d0 todo s l dl gm /\ all_only P s /\ length ns = length l /\
    (forall p n, ns !! p = Some n -> (n < length sched)%nat) /\
    (forall p q n m, (p < q)%nat -> ns !! p = Some n -> ns !! q = Some m -> (n < m)%nat) /\
    (forall p c x n, l !! p = Some (c, x) -> ns !! p = Some n ->
      exists s', sys_run method (start d0 todo) (take n sched) = Some s' /\ during (sy_hist s') c /\
        sy_data s' = fst (seq_run spec d0 (log_ops (take p l)))).
Proof.
  intros Ho Hr. apply (Inv_run method P nest wr (fun _ _ => True) (fun _ _ => True)); try done.
  - intros c p _. apply safe_any.
  - apply only_start. by apply only_todo.
Qed.

Lemma run_explained d0 (todo : list (list client)) sched s :
  (forall c p, call_of todo c = Some p -> only P p) -> sys_run method (start d0 todo) sched = Some s ->
  exists l d ns, explains spec d0 todo s l d /\ length ns = length l /\
    (finished s -> forall c p, call_of todo c = Some p -> exists a, EEnd c a ∈ sy_hist s) /\
    (forall p n, ns !! p = Some n -> (n < length sched)%nat) /\
    (forall p q n m, (p < q)%nat -> ns !! p = Some n -> ns !! q = Some m -> (n < m)%nat) /\
    (forall p c x n, l !! p = Some (c, x) -> ns !! p = Some n ->
      exists s', sys_run method (start d0 todo) (take n sched) = Some s' /\ during (sy_hist s') c /\
        sy_data s' = log_at spec d0 l p).
Proof.
  intros Ho Hr. destruct (run_inv _ _ _ _ Ho Hr) as (l & d & gm & ns & HI & _ & H1 & H2 & H3 & H4).
  exists l, d, ns. split; [by eapply Inv_explains|]. split; [done|]. split; [|done].
  intros Hf. eapply Inv_finished; [exact HI| |done]. apply run_length in Hr. rewrite Hr. cbn. by rewrite fmap_length.
Qed.

(** No deadlock. *)
Lemma run_progress d0 (todo : list (list client)) sched s :
  nest = false \/ wr = false -> (forall c p, call_of todo c = Some p -> only P p) ->
  sys_run method (start d0 todo) sched = Some s -> (forall i, sys_step method s i = None) ->
  finished s /\ forall c p, call_of todo c = Some p -> exists a, EEnd c a ∈ sy_hist s.
Proof.
  intros Hnw Ho Hr Hstuck. destruct (run_inv _ _ _ _ Ho Hr) as (l & d & gm & ns & HI & _).
  assert (Hf : finished s).
  { assert (Hdec : finished s \/ ~ finished s).
    { unfold finished. clear. induction (sy_threads s) as [|th ths IH]; [left; intros i th H; done|].
      assert (Hd : (th_now th = Idle /\ th_todo th = []) \/ ~ (th_now th = Idle /\ th_todo th = [])).
      { destruct (th_now th) as [|?|? ? ?]; [|right; by intros [? ?]..]. destruct (th_todo th); [by left|right; by intros [? ?]]. }
      destruct Hd as [Hd|Hd]; [|right; intros H; apply Hd; by apply (H 0%nat)].
      destruct IH as [IH|IH]; [|right; intros H; apply IH; intros i t Ht; by apply (H (S i))].
      left. intros [|i] t Ht; [by injection Ht as <-|by apply (IH i)]. }
    destruct Hdec as [Hf|Hnf]; [done|]. destruct (Inv_progress _ _ _ _ _ _ _ _ _ _ _ Hnw HI Hnf) as (i & s' & Hs).
    by rewrite Hstuck in Hs. }
  split; [done|]. eapply Inv_finished; [exact HI| |done]. apply run_length in Hr. rewrite Hr. cbn. by rewrite fmap_length.
Qed.
End runs.

(** No data race. *)
Section race.
Context {D R Op A : Type} (method : Op -> prog D R) (P : Op -> Prop) (nest wr : bool).
Hypothesis Hok : forall o, P o -> ok nest wr (fun _ _ => True) MOut (method o).
Notation client := (client D R Op A).
Notation sys := (sys D R Op A).
Fixpoint no_peek (p : client) : Prop :=
  match p with CRet _ => True | CCall _ k => forall r, no_peek (k r) | CPeek _ => False end.
Definition thread_no_peek (th : thread D R Op A) : Prop :=
  Forall no_peek (th_todo th) /\
  match th_now th with
  | Idle => True
  | Between p => no_peek p
  | Inside _ _ k => forall r, no_peek (k r)
  end.
Definition all_no_peek (s : sys) : Prop := forall i th, sy_threads s !! i = Some th -> thread_no_peek th.
Lemma no_peek_step (s s' : sys) i : all_no_peek s -> sys_step method s i = Some s' -> all_no_peek s'.
Proof.
  intros H Hs. unfold sys_step in Hs. destruct (sy_threads s !! i) as [th|] eqn:Hth; [|done].
  destruct (thread_step _ _ _ _ _) as [[[[d m] th'] es]|] eqn:Ht; [|done]. injection Hs as <-.
  intros j th1 Hj. cbn in Hj. apply list_lookup_insert_Some in Hj as [(-> & <- & _)|[_ Hj]]; [|by eapply H].
  destruct (H _ _ Hth) as [H1 H2]. unfold thread_step in Ht. destruct (th_now th) as [|p|o p k] eqn:En.
  - destruct (th_todo th) as [|p ps] eqn:Et; [done|]. injection Ht as <- <- <- <-. inversion H1; subst. split; done.
  - destruct p as [a|o k|k]; injection Ht as <- <- <- <-; split; cbn; try done.
  - assert (Hp : forall r, no_peek (k r)) by exact H2.
    destruct p; try (injection Ht as <- <- <- <-; split; cbn; try done; fail);
      destruct (prog_step _ _ _) as [[[? ?] ?]|]; try done; injection Ht as <- <- <- <-; split; cbn; done.
Qed.
Lemma no_peek_run (s s' : sys) sched : all_no_peek s -> sys_run method s sched = Some s' -> all_no_peek s'.
Proof.
  revert s. induction sched as [|i sched IH]; intros s H Hr; cbn in Hr; [by injection Hr as <-|].
  destruct (sys_step method s i) as [s1|] eqn:Hs; [|done]. eapply IH; [|done]. by eapply no_peek_step.
Qed.

Lemma run_race_free d0 (todo : list (list client)) sched s :
  wr = false \/ (forall c p, call_of todo c = Some p -> no_peek p) ->
  (forall c p, call_of todo c = Some p -> only P p) -> sys_run method (start d0 todo) sched = Some s -> ~ racing s.
Proof.
  intros Hnp Ho Hr (i & j & th & th' & b & Hij & Hi & Hj & Ha & Hb).
  destruct (run_inv method P nest wr Hok _ _ _ _ Ho Hr) as (l & d & gm & ns & HI & _).
  assert (Hmode : forall i th, sy_threads s !! i = Some th -> exists g, gm !! i = Some g /\
    match th_now th with Inside _ p _ => ok nest wr (fun _ _ => True) g p /\ (forall n, g = MRead n -> (0 < n)%nat) | _ => True end).
  { clear -HI. intros i th Hth. destruct (lookup_lt_is_Some_2 gm i) as [g Hg].
    { rewrite (iv_len _ _ _ _ _ _ _ _ _ _ _ HI). by eapply lookup_lt_Some. }
    exists g. split; [done|]. destruct (iv_thread _ _ _ _ _ _ _ _ _ _ _ HI _ _ _ Hth Hg) as (ps & _ & H).
    destruct (th_now th); [done..|]. destruct H as (_ & ? & ? & _ & _ & Hokp & H). split; [done|]. intros n ->. apply H. }
  destruct (Hmode _ _ Hi) as (g & Hg & Hokg). destruct (Hmode _ _ Hj) as (g' & Hg' & Hokg').
  unfold next_access in Ha. destruct (th_now th) as [|[]|o [] k]; try done. destruct Hokg as [Hokg _].
  assert (g = MWrite) as -> by (destruct g; done).
  assert (Hwr : wr = true) by apply Hokg.
  destruct Hnp as [Hnp|Hnp]; [congruence|].
  assert (Hall : all_no_peek s).
  { eapply no_peek_run; [|exact Hr]. intros i1 th1 H1. cbn in H1. rewrite list_lookup_fmap in H1.
    destruct (todo !! i1) as [ps|] eqn:E; [|done]. injection H1 as <-. split; [|done]. cbn. apply Forall_lookup_2.
    intros j1 p1 Hp1. apply (Hnp (i1, j1)). unfold call_of. cbn. by rewrite E. }
  destruct (Hall _ _ Hj) as [_ Hpj].
  pose proof (iv_mutex _ _ _ _ _ _ _ _ _ _ _ HI) as Hm. unfold mutex_ok in Hm.
  pose proof (cnt_le writes _ _ _ Hg) as Hw1. cbn in Hw1. destruct (rw_writer (sy_mutex s)); [lia|lia|].
  destruct Hm as (Hm1 & Hm2 & Hm3 & Hm4).
  unfold next_access in Hb. destruct (th_now th') as [|[]|o' [] k']; try done; destruct Hokg' as [Hokg' Hpos].
  - destruct g'; try done; [|pose proof (cnt_two writes _ _ _ _ _ Hij Hg Hg') as H; cbn in H; lia].
    pose proof (cnt_le readers _ _ _ Hg') as H. cbn in H. specialize (Hpos _ eq_refl). lia.
  - destruct g'; try done. pose proof (cnt_two writes _ _ _ _ _ Hij Hg Hg') as H. cbn in H. lia.
Qed.
End race.

(** No endless execution. *)
Lemma run_terminates {D R Op A : Type} (method : Op -> prog D R) (f : nat -> sys D R Op A) :
  ~ (forall n, exists i, sys_step method (f n) i = Some (f (S n))).
Proof.
  intros H. assert (Ha : forall s, Acc (step_rel method) s -> forall n, f n <> s).
  { intros s Hs. induction Hs as [s _ IH]. intros n <-. destruct (H n) as [i Hi]. eapply (IH (f (S n))); [by exists i|done]. }
  eapply (Ha (f 0%nat)); [apply Acc_sys|done].
Qed.
