(** Every execution of disciplined methods is explained by the order in which they
    acquire the lock. *)
From Verif Require Export ConcSpec.
From Coq Require Import Lia.

(** How far a method is with its lock. *)
Inductive mode : Set := MOut | MRead (n : nat) | MWait | MWrite | MDone.

Section Proofs.
Context {D R Op A : Type} (method : Op -> prog D R).
Notation prog := (prog D R).
Notation client := (client D R Op A).
Notation sys := (sys D R Op A).
Notation thread := (thread D R Op A).
Notation spec := (fun d o => alone (method o) d).

(** The methods the clients call. *)
Context (P : Op -> Prop).
(** Whether a method may take the read lock while it holds it, and whether a
    method may take the write lock. *)
Context (nest wr : bool).
(** What every method may do to the data, and what is claimed of the result of
    every call. *)
Context (Rel : D -> D -> Prop) (Q : cid -> A -> Prop).
Hypothesis Hrefl : forall d, Rel d d.
Hypothesis Htrans : forall d1 d2 d3, Rel d1 d2 -> Rel d2 d3 -> Rel d1 d3.

(** The lock discipline: one critical section, every access inside it, writes
    only under the write lock. *)
Fixpoint ok (m : mode) (p : prog) : Prop :=
  match m, p with
  | MOut, RLock p => ok (MRead 1) p
  | MOut, Lock p => wr = true /\ ok MWrite p
  | MRead n, Read k => forall d, ok (MRead n) (k d)
  | MRead n, RLock p => nest = true /\ ok (MRead (S n)) p
  | MRead n, RUnlock p => match n with
                          | O => False
                          | S O => ok MDone p
                          | S (S _ as n') => ok (MRead n') p
                          end
  | MWait, Wait p => wr = true /\ ok MWrite p
  | MWrite, Read k => wr = true /\ forall d, ok MWrite (k d)
  | MWrite, Write f p => wr = true /\ (forall d, Rel d (f d)) /\ ok MWrite p
  | MWrite, Unlock p => wr = true /\ ok MDone p
  | MDone, Ret _ => True
  | _, _ => False
  end.

Definition readers (m : mode) : nat := match m with MRead n => n | _ => 0 end.
Definition waits (m : mode) : nat := match m with MWait => 1 | _ => 0 end.
Definition writes (m : mode) : nat := match m with MWrite => 1 | _ => 0 end.
Fixpoint cnt (f : mode -> nat) (gm : list mode) : nat := match gm with [] => 0 | g :: gm' => f g + cnt f gm' end.

Lemma cnt_insert f gm i g g' : gm !! i = Some g -> (cnt f (<[i := g']> gm) + f g = cnt f gm + f g')%nat.
Proof.
  revert i. induction gm as [|x gm IH]; intros [|i] H; [done..| |].
  - injection H as ->. cbn [cnt list_insert insert]. lia.
  - change (gm !! i = Some g) in H. specialize (IH _ H). change (<[S i:=g']> (x :: gm)) with (x :: <[i:=g']> gm). cbn [cnt]. lia.
Qed.
Lemma cnt_le f gm i g : gm !! i = Some g -> (f g <= cnt f gm)%nat.
Proof.
  revert i. induction gm as [|x gm IH]; intros [|i] H; [done..| |].
  - injection H as ->. cbn [cnt list_insert insert]. lia.
  - specialize (IH _ H). cbn [cnt list_insert insert] in *; lia.
Qed.
Lemma cnt_zero f gm i g : cnt f gm = 0%nat -> gm !! i = Some g -> f g = 0%nat.
Proof. intros H Hi. pose proof (cnt_le f gm i g Hi). lia. Qed.
Lemma cnt_two f gm i j g g' : i <> j -> gm !! i = Some g -> gm !! j = Some g' -> (f g + f g' <= cnt f gm)%nat.
Proof.
  revert i j. induction gm as [|x gm IH]; intros [|i] [|j] Hn Hi Hj; try done.
  - injection Hi as ->. cbn in Hj. pose proof (cnt_le f gm j g' Hj). cbn [cnt list_insert insert] in *; lia.
  - injection Hj as ->. cbn in Hi. pose proof (cnt_le f gm i g Hi). cbn [cnt list_insert insert] in *; lia.
  - specialize (IH i j ltac:(congruence) Hi Hj). cbn [cnt list_insert insert] in *; lia.
Qed.

(** The state of the mutex and the modes. *)
Definition mutex_ok (m : rwmutex) (gm : list mode) : Prop :=
  rw_readers m = cnt readers gm /\
  match rw_writer m with
  | WNone => cnt waits gm = 0%nat /\ cnt writes gm = 0%nat
  | WWait => cnt waits gm = 1%nat /\ cnt writes gm = 0%nat
  | WHeld => cnt waits gm = 0%nat /\ cnt writes gm = 1%nat /\ rw_readers m = 0%nat
  end.

Lemma calls_of_app c (l l' : list (cid * (Op * R))) : calls_of c (l ++ l') = calls_of c l ++ calls_of c l'.
Proof. unfold calls_of. by rewrite filter_app, fmap_app. Qed.
Lemma calls_of_one c (x : Op * R) : calls_of c [(c, x)] = [x].
Proof. unfold calls_of. by rewrite filter_cons_True. Qed.
Lemma calls_of_other c c' (x : Op * R) : c <> c' -> calls_of c [(c', x)] = [].
Proof. intros H. unfold calls_of. by rewrite filter_cons_False. Qed.
Lemma calls_of_nil c (l : list (cid * (Op * R))) : (forall x, (c, x) ∉ l) -> calls_of c l = [].
Proof.
  intros H. unfold calls_of. induction l as [|[c' x] l IH]; [done|].
  rewrite filter_cons_False; [apply IH|]; cbn.
  - intros y Hy. apply (H y). by right.
  - intros ->. apply (H x). by left.
Qed.

Lemma follows_app (p : client) l q l' r : follows p l q -> follows q l' r -> follows p (l ++ l') r.
Proof. induction 1; intros Hq; cbn; [done|constructor; auto|econstructor; eauto]. Qed.
Lemma follows_snoc (p : client) l o k r : follows p l (CCall o k) -> follows p (l ++ [(o, r)]) (k r).
Proof. intros H. eapply follows_app; [exact H|]. constructor. constructor. Qed.

(** A client that will return a result in Qa whatever the others do in Rel. *)
Fixpoint safe (Qa : A -> Prop) (p : client) (d : D) : Prop :=
  match p with
  | CRet a => Qa a
  | CCall o k => forall d', Rel d d' -> safe Qa (k (snd (alone (method o) d'))) (fst (alone (method o) d'))
  | CPeek k => forall d', Rel d d' -> safe Qa (k d') d'
  end.
Lemma safe_mono Qa p d d' : safe Qa p d -> Rel d d' -> safe Qa p d'.
Proof. destruct p; cbn; eauto. Qed.

(** What is known of thread number [i]. *)
Definition inside_ok (Qa : A -> Prop) (d dl : D) (l0 calls : list (Op * R)) (o : Op) (k : R -> client) (p : prog) (g : mode) : Prop :=
  ok g p /\
  match g with
  | MOut | MWait => calls = l0 /\ (forall d, alone p d = alone (method o) d) /\ safe Qa (CCall o k) d
  | MRead n => (0 < n)%nat /\ exists r, calls = l0 ++ [(o, r)] /\ alone p d = (d, r) /\ safe Qa (k r) d
  | MWrite => exists r, calls = l0 ++ [(o, r)] /\ alone p d = (dl, r) /\ safe Qa (k r) dl
  | MDone => exists r, calls = l0 ++ [(o, r)] /\ p = Ret r /\ safe Qa (k r) d
  end.
Definition thread_ok (todo : list (list client)) (l : list (cid * (Op * R))) (d dl : D) (i : nat)
    (th : thread) (g : mode) : Prop :=
  exists ps, todo !! i = Some ps /\
  match th_now th with
  | Idle => th_todo th = drop (th_done th) ps /\ g = MOut
  | Between p => th_todo th = drop (S (th_done th)) ps /\ g = MOut /\
      exists p0, ps !! th_done th = Some p0 /\ follows p0 (calls_of (i, th_done th) l) p /\ safe (Q (i, th_done th)) p d
  | Inside o p k => th_todo th = drop (S (th_done th)) ps /\
      exists p0 l0, ps !! th_done th = Some p0 /\ follows p0 l0 (CCall o k) /\
        inside_ok (Q (i, th_done th)) d dl l0 (calls_of (i, th_done th) l) o k p g
  end.

(** Which calls have started and ended. *)
Definition started (th : thread) : nat := match th_now th with Idle => th_done th | _ => S (th_done th) end.

Record Inv (d0 : D) (todo : list (list client)) (s : sys) (l : list (cid * (Op * R))) (dl : D) (gm : list mode) : Prop := {
  iv_len : length gm = length (sy_threads s);
  iv_seq : seq_run spec d0 (log_ops l) = (dl, log_results l);
  iv_mutex : mutex_ok (sy_mutex s) gm;
  iv_data : rw_writer (sy_mutex s) <> WHeld -> sy_data s = dl;
  iv_thread i th g : sy_threads s !! i = Some th -> gm !! i = Some g -> thread_ok todo l (sy_data s) dl i th g;
  iv_start c : EStart c ∈ sy_hist s <-> exists th, sy_threads s !! c.1 = Some th /\ (c.2 < started th)%nat;
  iv_ended c : (exists a, EEnd c a ∈ sy_hist s) <-> exists th, sy_threads s !! c.1 = Some th /\ (c.2 < th_done th)%nat;
  iv_rel : Rel d0 (sy_data s);
  iv_end c a : EEnd c a ∈ sy_hist s -> Q c a /\ exists p, call_of todo c = Some p /\ follows p (calls_of c l) (CRet a);
  iv_log c x : (c, x) ∈ l -> exists th, sy_threads s !! c.1 = Some th /\ (c.2 < started th)%nat;
  iv_order c c' i j x x' : precedes (sy_hist s) c c' ->
    l !! i = Some (c, x) -> l !! j = Some (c', x') -> (i < j)%nat }.

Lemma precedes_start (h : list (event A)) c c' c'' : precedes (h ++ [EStart c'']) c c' ->
  precedes h c c' \/ (c' = c'' /\ exists a, EEnd c a ∈ h).
Proof.
  intros (i & j & a & Hij & Hi & Hj).
  assert (Hi' : h !! i = Some (EEnd c a)).
  { destruct (decide (i < length h)%nat) as [H|H]; [by rewrite lookup_app_l in Hi|].
    rewrite lookup_app_r in Hi by lia. destruct (i - length h)%nat; [done|done]. }
  destruct (decide (j < length h)%nat) as [H|H].
  - left. exists i, j, a. rewrite lookup_app_l in Hj by done. done.
  - right. rewrite lookup_app_r in Hj by lia. destruct (j - length h)%nat; [|done]. cbn in Hj. injection Hj as ->.
    split; [done|]. exists a. by eapply elem_of_list_lookup_2.
Qed.
Lemma precedes_end (h : list (event A)) c c' c'' a : precedes (h ++ [EEnd c'' a]) c c' -> precedes h c c'.
Proof.
  intros (i & j & a' & Hij & Hi & Hj).
  destruct (decide (j < length h)%nat) as [H|H].
  - exists i, j, a'. rewrite lookup_app_l in Hj by done. rewrite lookup_app_l in Hi by lia. done.
  - rewrite lookup_app_r in Hj by lia. by destruct (j - length h)%nat.
Qed.

Lemma done_started (th : thread) : (th_done th <= started th)%nat.
Proof. unfold started. destruct (th_now th); lia. Qed.

Lemma thread_ok_other todo l l' d d' dl dl' j (th : thread) g :
  thread_ok todo l d dl j th g -> Rel d d' ->
  ((0 < readers g)%nat -> d' = d) -> (g = MWrite -> d' = d /\ dl' = dl) ->
  calls_of (j, th_done th) l' = calls_of (j, th_done th) l ->
  thread_ok todo l' d' dl' j th g.
Proof.
  intros (ps & Hps & H) HR Hr Hw Hl. exists ps. split; [done|].
  destruct (th_now th) as [|p|o p k]; [done| |].
  { destruct H as (H1 & H2 & p0 & H3 & H4 & H5). rewrite Hl. repeat (split; [done|]). exists p0. repeat (split; [done|]). by eapply safe_mono. }
  destruct H as (Ht & p0 & l0 & Hp0 & Hf & Hok & Hi). split; [done|]. exists p0, l0. split; [done|]. split; [done|].
  split; [done|]. rewrite Hl. destruct g as [|n| | |].
  - destruct Hi as (H1 & H2 & H3). repeat (split; [done|]). by eapply safe_mono.
  - destruct Hi as (Hn & r & Hc & Ha). rewrite (Hr Hn). eauto.
  - destruct Hi as (H1 & H2 & H3). repeat (split; [done|]). by eapply safe_mono.
  - destruct (Hw eq_refl) as [-> ->]. done.
  - destruct Hi as (r & H1 & H2 & H3). exists r. repeat (split; [done|]). by eapply safe_mono.
Qed.

Lemma Inv_update d0 todo s l dl gm i th g d' m' th' es g' l' dl' :
  Inv d0 todo s l dl gm -> sy_threads s !! i = Some th -> gm !! i = Some g ->
  mutex_ok m' (<[i := g']> gm) ->
  seq_run spec d0 (log_ops l') = (dl', log_results l') ->
  (rw_writer m' <> WHeld -> d' = dl') -> Rel (sy_data s) d' ->
  thread_ok todo l' d' dl' i th' g' ->
  (forall j gj, j <> i -> gm !! j = Some gj -> ((0 < readers gj)%nat -> d' = sy_data s) /\
    (gj = MWrite -> d' = sy_data s /\ dl' = dl)) ->
  (l' = l \/ exists x, l' = l ++ [((i, th_done th), x)] /\ es = [] /\ started th = S (th_done th)) ->
  ((es = [] /\ th_done th' = th_done th /\ started th' = started th) \/
   (es = [EStart (i, th_done th)] /\ th_done th' = th_done th /\ started th = th_done th /\ started th' = S (th_done th)) \/
   (exists a p, es = [EEnd (i, th_done th) a] /\ th_done th' = S (th_done th) /\ started th = S (th_done th) /\
     started th' = S (th_done th) /\ Q (i, th_done th) a /\ call_of todo (i, th_done th) = Some p /\
     follows p (calls_of (i, th_done th) l) (CRet a))) ->
  Inv d0 todo (Sys d' m' (<[i := th']> (sy_threads s)) (sy_hist s ++ es)) l' dl' (<[i := g']> gm).
Proof.
  intros HI Hth Hg Hm Hseq Hdata HR Hthr Hoth Hl Hes.
  assert (Hlt : (i < length (sy_threads s))%nat) by (by eapply lookup_lt_Some).
  assert (Hthreads : forall (P : nat -> thread -> Prop) k, (exists t, <[i := th']> (sy_threads s) !! k = Some t /\ P k t) <->
    (k = i /\ P i th') \/ (k <> i /\ exists t, sy_threads s !! k = Some t /\ P k t)).
  { intros Pr k. destruct (decide (k = i)) as [->|Hk].
    - rewrite list_lookup_insert by done. split; [intros (t & [= <-] & H); by left|]. intros [[_ H]|[H _]]; [eauto|done].
    - rewrite list_lookup_insert_ne by done. split; [intros H; by right|]. intros [[H _]|[_ H]]; done. }
  assert (Hold : forall (P : nat -> thread -> Prop) k, (exists t, sy_threads s !! k = Some t /\ P k t) <->
    (k = i /\ P i th) \/ (k <> i /\ exists t, sy_threads s !! k = Some t /\ P k t)).
  { intros Pr k. destruct (decide (k = i)) as [->|Hk].
    - rewrite Hth. split; [intros (t & [= <-] & H); by left|]. intros [[_ H]|[H _]]; [eauto|done].
    - split; [intros H; by right|]. intros [[H _]|[_ H]]; done. }
  assert (Hcalls : forall c, c <> (i, th_done th) -> calls_of c l' = calls_of c l).
  { intros c Hc. destruct Hl as [->|(x & -> & _)]; [done|]. rewrite calls_of_app, calls_of_other by done. by rewrite app_nil_r. }
  constructor; cbn [sy_data sy_mutex sy_threads sy_hist].
  - rewrite !insert_length. apply (iv_len _ _ _ _ _ _ HI).
  - done.
  - done.
  - done.
  - intros j t gj Ht Hgj. destruct (decide (j = i)) as [->|Hj].
    + rewrite list_lookup_insert in Ht by done. injection Ht as <-.
      rewrite list_lookup_insert in Hgj by (rewrite (iv_len _ _ _ _ _ _ HI); done). by injection Hgj as <-.
    + rewrite list_lookup_insert_ne in Ht by done. rewrite list_lookup_insert_ne in Hgj by done.
      destruct (Hoth j gj Hj Hgj) as [H1 H2].
      eapply thread_ok_other; [by eapply (iv_thread _ _ _ _ _ _ HI)|done|done|done|]. apply Hcalls. congruence.
  - intros c. rewrite (Hthreads (fun _ t => (c.2 < started t)%nat)).
    pose proof (iv_start _ _ _ _ _ _ HI c) as H. rewrite (Hold (fun _ t => (c.2 < started t)%nat)) in H.
    rewrite elem_of_app, H. destruct c as [ci cn]. cbn [fst snd] in *.
    destruct Hes as [(-> & Hd & Hs)|[(-> & Hd & Hs & Hs')|(a & p & -> & Hd & Hs & Hs' & _)]].
    + rewrite Hs. split; [intros [H'|H']; [done|by apply elem_of_nil in H']|]. by left.
    + rewrite elem_of_list_singleton, Hs, Hs'. split.
      * intros [[[-> H']|H']|[= -> ->]]; [left; split; [done|lia]|by right|left; split; [done|lia]].
      * intros [[-> H']|H']; [|by left; right]. destruct (decide (cn = th_done th)) as [->|Hn]; [by right|].
        left. left. split; [done|lia].
    + rewrite elem_of_list_singleton, Hs, Hs'. split; [intros [H'|H']; [done|done]|]. by left.
  - intros c. rewrite (Hthreads (fun _ t => (c.2 < th_done t)%nat)).
    pose proof (iv_ended _ _ _ _ _ _ HI c) as H. rewrite (Hold (fun _ t => (c.2 < th_done t)%nat)) in H.
    setoid_rewrite elem_of_app. destruct c as [ci cn]. cbn [fst snd] in *.
    destruct Hes as [(-> & Hd & Hs)|[(-> & Hd & Hs & Hs')|(a & p & -> & Hd & Hs & Hs' & _)]].
    + rewrite Hd, <- H. split; [intros (a & [H'|H']); [eauto|by apply elem_of_nil in H']|]. intros (a & H'). eauto.
    + rewrite Hd, <- H. split; [intros (a & [H'|H']); [eauto|by apply elem_of_list_singleton in H']|]. intros (a & H'). eauto.
    + rewrite Hd. split.
      * intros (a' & [H'|H']).
        -- destruct (proj1 H) as [[-> H1]|H1]; [eauto|left; split; [done|lia]|by right].
        -- apply elem_of_list_singleton in H' as [= -> -> ->]. left. split; [done|lia].
      * intros H'. destruct (decide ((ci, cn) = (i, th_done th))) as [E|E].
        -- injection E as -> ->. exists a. right. by apply elem_of_list_singleton.
        -- destruct (proj2 H) as [a' H1]; [|eauto]. destruct H' as [[-> H']|H']; [|by right].
           left. split; [done|]. assert (cn <> th_done th) by congruence. lia.
  - eapply Htrans; [apply (iv_rel _ _ _ _ _ _ HI)|done].
  - intros c a Ha. apply elem_of_app in Ha as [Ha|Ha].
    + assert (Hc : c <> (i, th_done th)).
      { intros ->. destruct (proj1 (iv_ended _ _ _ _ _ _ HI (i, th_done th))) as (t & Ht & H); [eauto|].
        cbn in *. assert (t = th) by congruence. subst. lia. }
      rewrite Hcalls by done. by apply (iv_end _ _ _ _ _ _ HI).
    + destruct Hes as [(-> & Hd & Hs)|[(-> & Hd & Hs & Hs')|(a' & p & -> & Hd & Hs & Hs' & HQ & Hp & Hf)]].
      * by apply elem_of_nil in Ha.
      * by apply elem_of_list_singleton in Ha.
      * apply elem_of_list_singleton in Ha as [= -> ->]. split; [done|]. exists p. split; [done|].
        destruct Hl as [->|(x & _ & H & _)]; [done|done].
  - intros c x Hx. rewrite (Hthreads (fun _ t => (c.2 < started t)%nat)).
    assert (Hst : (started th <= started th')%nat).
    { destruct Hes as [(_ & _ & ->)|[(_ & _ & -> & ->)|(a' & p & _ & _ & -> & -> & _)]]; lia. }
    assert (H : (c, x) ∈ l \/ (c = (i, th_done th) /\ started th = S (th_done th))).
    { destruct Hl as [->|(y & -> & _ & Hs)]; [by left|]. apply elem_of_app in Hx as [Hx|Hx]; [by left|].
      apply elem_of_list_singleton in Hx as [= -> ->]. by right. }
    destruct H as [H|[-> H]].
    + apply (iv_log _ _ _ _ _ _ HI) in H. rewrite (Hold (fun _ t => (c.2 < started t)%nat)) in H.
      destruct H as [[-> H]|H]; [left; split; [done|lia]|by right].
    + left. cbn. split; [done|lia].
  - intros c c' a b x x' Hp Ha Hb.
    assert (Hnew : forall y, l' = l ++ [((i, th_done th), y)] -> precedes (sy_hist s) c c' -> (a < b)%nat).
    { intros y -> Hp'. destruct (decide (a < length l)%nat) as [Hal|Hal].
      - rewrite lookup_app_l in Ha by done. destruct (decide (b < length l)%nat) as [Hbl|Hbl]; [|lia].
        rewrite lookup_app_l in Hb by done. eapply (iv_order _ _ _ _ _ _ HI); eauto.
      - rewrite lookup_app_r in Ha by lia. destruct (a - length l)%nat; [|done]. cbn in Ha. injection Ha as <- <-.
        destruct Hp' as (i1 & j1 & a1 & _ & He & _). apply elem_of_list_lookup_2 in He.
        destruct (proj1 (iv_ended _ _ _ _ _ _ HI (i, th_done th))) as (t & Ht & Hlt'); [eauto|].
        cbn in *. assert (t = th) by congruence. subst. lia. }
    assert (Hsame : l' = l -> precedes (sy_hist s) c c' -> (a < b)%nat).
    { intros -> Hp'. eapply (iv_order _ _ _ _ _ _ HI); eauto. }
    destruct Hes as [(-> & Hd & Hs)|[(-> & Hd & Hs & Hs')|(a' & p & -> & Hd & Hs & Hs' & _)]].
    + rewrite app_nil_r in Hp. destruct Hl as [Hl|(y & Hl & _)]; eauto.
    + destruct Hl as [->|(y & _ & H & _)]; [|done].
      apply precedes_start in Hp as [Hp|[-> (a1 & Ha1)]]; [by apply Hsame|].
      apply elem_of_list_lookup_2 in Hb. apply (iv_log _ _ _ _ _ _ HI) in Hb as (t & Ht & H). cbn in *.
      assert (t = th) by congruence. subst. lia.
    + apply precedes_end in Hp. destruct Hl as [->|(y & _ & H & _)]; [|done]. by apply Hsame.
Qed.

Lemma seq_run_snoc {D' R' Op' : Type} (sp : D' -> Op' -> D' * R') d os d1 rs o d2 r :
  seq_run sp d os = (d1, rs) -> sp d1 o = (d2, r) -> seq_run sp d (os ++ [o]) = (d2, rs ++ [r]).
Proof.
  revert d rs. induction os as [|x os IH]; intros d rs H Ho; cbn in *.
  - injection H as <- <-. rewrite Ho. done.
  - destruct (sp d x) as [d' r'] eqn:E. destruct (seq_run sp d' os) as [d'' rs'] eqn:E'. injection H as <- <-.
    rewrite (IH _ _ E' Ho). done.
Qed.
Lemma log_snoc d0 l dl c o d2 r : seq_run spec d0 (log_ops l) = (dl, log_results l) ->
  alone (method o) dl = (d2, r) ->
  seq_run spec d0 (log_ops (l ++ [(c, (o, r))])) = (d2, log_results (l ++ [(c, (o, r))])).
Proof. intros H Ho. unfold log_ops, log_results. rewrite !fmap_app. by eapply seq_run_snoc. Qed.

Ltac modes Hg g' :=
  let H1 := fresh in let H2 := fresh in let H3 := fresh in
  pose proof (cnt_insert readers _ _ _ g' Hg) as H1; pose proof (cnt_insert waits _ _ _ g' Hg) as H2;
  pose proof (cnt_insert writes _ _ _ g' Hg) as H3; cbn [readers waits writes] in H1, H2, H3.
Lemma readers_keep n p d : ok (MRead n) p -> fst (alone p d) = d.
Proof.
  revert n d. assert (Hd : forall p d, ok MDone p -> fst (alone p d) = d) by (intros [] d; done).
  induction p as [r|k IH|f p IH|p IH|p IH|p IH|p IH|p IH]; intros n d H; try done; cbn in *.
  - by eapply IH.
  - eapply IH. apply H.
  - destruct n as [|[|n]]; [done|by apply Hd|by eapply IH].
Qed.
Lemma insert_same (gm : list mode) i g : gm !! i = Some g -> <[i := g]> gm = gm.
Proof. apply list_insert_id. Qed.

(** The clients only call the methods in P. *)
Fixpoint only (p : client) : Prop :=
  match p with
  | CRet _ => True
  | CCall o k => P o /\ forall r, only (k r)
  | CPeek k => forall d, only (k d)
  end.
Definition thread_only (th : thread) : Prop :=
  Forall only (th_todo th) /\
  match th_now th with
  | Idle => True
  | Between p => only p
  | Inside o p k => forall r, only (k r)
  end.
Definition all_only (s : sys) : Prop := forall i th, sy_threads s !! i = Some th -> thread_only th.
Lemma only_step s i s' : all_only s -> sys_step method s i = Some s' -> all_only s'.
Proof.
  intros HI Hstep. unfold sys_step in Hstep. destruct (sy_threads s !! i) as [th|] eqn:Hth; [|done].
  destruct (thread_step method i (sy_data s) (sy_mutex s) th) as [[[[d' m'] th'] es]|] eqn:Hts; [|done].
  injection Hstep as <-. intros j t Ht. cbn in Ht. destruct (decide (j = i)) as [->|Hj].
  2: { rewrite list_lookup_insert_ne in Ht by done. by eapply HI. }
  rewrite list_lookup_insert in Ht by (by eapply lookup_lt_Some). injection Ht as <-.
  destruct (HI _ _ Hth) as [Htd Hnow]. unfold thread_step in Hts. destruct th as [tl dn now]. cbn in *.
  destruct now as [|p|o p k].
  - destruct tl as [|p tl]; [done|]. injection Hts as <- <- <- <-. split; cbn; [by eapply Forall_inv_tail|by eapply Forall_inv].
  - destruct p as [a|o k|k]; injection Hts as <- <- <- <-; split; cbn in *; try done. apply Hnow.
  - destruct p; [injection Hts as <- <- <- <-; split; cbn; done|..];
      (destruct (prog_step _ _ _) as [[[? ?] p']|]; [|done]; injection Hts as <- <- <- <-; split; cbn; done).
Qed.

Hypothesis Hok : forall o, P o -> ok MOut (method o).

Definition safe_todo (d0 : D) (todo : list (list client)) : Prop :=
  forall c p, call_of todo c = Some p -> safe (Q c) p d0.
Lemma Inv_step d0 todo s l dl gm i s' : safe_todo d0 todo ->
  Inv d0 todo s l dl gm -> all_only s -> sys_step method s i = Some s' ->
  exists l' dl' gm', Inv d0 todo s' l' dl' gm' /\
    (l' = l \/ exists c x, l' = l ++ [(c, x)] /\ sy_data s = dl /\ during (sy_hist s) c).
Proof.
  intros Hsafe HI Honly Hstep. unfold sys_step in Hstep. destruct (sy_threads s !! i) as [th|] eqn:Hth; [|done].
  destruct (thread_step method i (sy_data s) (sy_mutex s) th) as [[[[d' m'] th'] es]|] eqn:Hts; [|done].
  injection Hstep as <-.
  destruct (lookup_lt_is_Some_2 gm i) as [g Hg]; [rewrite (iv_len _ _ _ _ _ _ HI); by eapply lookup_lt_Some|].
  pose proof (iv_thread _ _ _ _ _ _ HI i th g Hth Hg) as Hthr.
  destruct Hthr as (ps & Hps & Hthr). unfold thread_step in Hts.
  pose proof (iv_mutex _ _ _ _ _ _ HI) as Hmut.
  assert (Hduring : th_now th <> Idle -> during (sy_hist s) (i, th_done th)).
  { intros Hn. split.
    - apply (iv_start _ _ _ _ _ _ HI). exists th. split; [done|]. unfold started. destruct (th_now th); [done|cbn; lia..].
    - intros a Ha. destruct (proj1 (iv_ended _ _ _ _ _ _ HI (i, th_done th))) as (t & Ht & H); [eauto|]. cbn in *.
      assert (t = th) by congruence. subst. lia. }
  destruct th as [tl dn now]. cbn [th_now th_todo th_done] in *.
  destruct now as [|p|o p k].
  - (* a call starts *)
    destruct Hthr as [Htl ->]. destruct tl as [|p tl]; [done|]. injection Hts as <- <- <- <-.
    assert (Hp : ps !! dn = Some p /\ tl = drop (S dn) ps).
    { symmetry in Htl. assert (ps !! dn = Some p) as Hp.
      { rewrite <- (Nat.add_0_r dn). by rewrite <- lookup_drop, Htl. }
      split; [done|]. rewrite (drop_S _ p) in Htl by done. congruence. }
    exists l, dl, (<[i := MOut]> gm). split; [|by left].
    eapply (Inv_update _ _ _ _ _ _ _ _ _ _ _ _ _ _ _ _ HI Hth Hg).
    + by rewrite insert_same.
    + apply (iv_seq _ _ _ _ _ _ HI).
    + apply (iv_data _ _ _ _ _ _ HI).
    + apply Hrefl.
    + exists ps. cbn. split; [done|]. split; [apply Hp|]. split; [done|]. exists p. split; [apply Hp|].
      split; [|eapply safe_mono; [apply Hsafe|apply (iv_rel _ _ _ _ _ _ HI)]; unfold call_of; cbn; rewrite Hps; apply Hp].
      rewrite calls_of_nil; [constructor|]. intros x Hx. apply (iv_log _ _ _ _ _ _ HI) in Hx as (t & Ht & H).
      cbn in *. assert (t = Thread (p :: tl) dn Idle) by congruence. subst t. cbn in H. lia.
    + done.
    + by left.
    + right. left. done.
  - destruct Hthr as (Htl & -> & p0 & Hp0 & Hf & Hsf). destruct p as [a|o k|k]; injection Hts as <- <- <- <-.
    + (* a call ends *)
      exists l, dl, (<[i := MOut]> gm). split; [|by left].
      eapply (Inv_update _ _ _ _ _ _ _ _ _ _ _ _ _ _ _ _ HI Hth Hg).
      * by rewrite insert_same.
      * apply (iv_seq _ _ _ _ _ _ HI).
      * apply (iv_data _ _ _ _ _ _ HI).
      * apply Hrefl.
      * exists ps. cbn. done.
      * done.
      * by left.
      * right. right. exists a, p0. cbn. repeat (split; [done|]). split; [|done]. unfold call_of. cbn. by rewrite Hps.
    + (* a method starts *)
      exists l, dl, (<[i := MOut]> gm). split; [|by left].
      eapply (Inv_update _ _ _ _ _ _ _ _ _ _ _ _ _ _ _ _ HI Hth Hg).
      * by rewrite insert_same.
      * apply (iv_seq _ _ _ _ _ _ HI).
      * apply (iv_data _ _ _ _ _ _ HI).
      * apply Hrefl.
      * exists ps. cbn. split; [done|]. split; [done|]. exists p0, (calls_of (i, dn) l). split; [done|]. split; [done|].
        split; [apply Hok; apply (Honly _ _ Hth)|]. done.
      * done.
      * by left.
      * left. done.
    + (* an access without the lock *)
      exists l, dl, (<[i := MOut]> gm). split; [|by left].
      eapply (Inv_update _ _ _ _ _ _ _ _ _ _ _ _ _ _ _ _ HI Hth Hg).
      * by rewrite insert_same.
      * apply (iv_seq _ _ _ _ _ _ HI).
      * apply (iv_data _ _ _ _ _ _ HI).
      * apply Hrefl.
      * exists ps. cbn. split; [done|]. split; [done|]. split; [done|]. exists p0. split; [done|].
        split; [|apply Hsf, Hrefl]. rewrite <- (app_nil_r (calls_of _ _)). eapply follows_app; [exact Hf|]. eapply follows_peek. constructor.
      * done.
      * by left.
      * left. done.
  - destruct Hthr as (Htl & p0 & l0 & Hp0 & Hf & Hokp & Hin).
    assert (Hdec : (exists r, p = Ret r) \/ ~ (exists r, p = Ret r)).
    { destruct p; try (right; intros [? ?]; done). left. eauto. }
    destruct Hdec as [[r ->]|Hnr].
    + (* a method ends *)
      injection Hts as <- <- <- <-. destruct g; try done. destruct Hin as (r' & Hc & [= <-] & Hsf).
      assert (Hmut' : mutex_ok (sy_mutex s) (<[i := MOut]> gm)).
      { modes Hg MOut. unfold mutex_ok in *. destruct (rw_writer (sy_mutex s)); lia. }
      exists l, dl, (<[i := MOut]> gm). split; [|by left].
      eapply (Inv_update _ _ _ _ _ _ _ _ _ _ _ _ _ _ _ _ HI Hth Hg).
      * done.
      * apply (iv_seq _ _ _ _ _ _ HI).
      * apply (iv_data _ _ _ _ _ _ HI).
      * apply Hrefl.
      * exists ps. cbn. split; [done|]. split; [done|]. split; [done|]. exists p0. split; [done|].
        split; [|done]. rewrite Hc. by apply follows_snoc.
      * done.
      * by left.
      * left. done.
    + (* a step of a method *)
      assert (Hps' : exists p', prog_step (sy_data s) (sy_mutex s) p = Some (d', m', p') /\
        th' = Thread tl dn (Inside o p' k) /\ es = []).
      { destruct p; [by destruct Hnr; eauto|..];
          (destruct (prog_step _ _ _) as [[[? ?] ?]|]; [|done]; injection Hts as <- <- <- <-; eauto). }
      clear Hts Hnr. destruct Hps' as (p' & Hstep & -> & ->).
      destruct g as [|n| | |].
      * (* outside *)
        destruct Hin as (Hc & Ha & Hsf). destruct p; try done.
        -- (* RLock *)
           unfold prog_step in Hstep. destruct (rw_writer (sy_mutex s)) eqn:Hw; try done. injection Hstep as <- <- <-.
           assert (Hd : sy_data s = dl) by (apply (iv_data _ _ _ _ _ _ HI); congruence).
           destruct (alone (method o) (sy_data s)) as [d2 r] eqn:Hal.
           assert (d2 = sy_data s) as ->.
           { cbn in Hokp. specialize (Ha (sy_data s)). cbn in Ha. rewrite Hal in Ha.
             change (sy_data s) with (fst (sy_data s, r)) at 1. pose proof (readers_keep 1 _ (sy_data s) Hokp) as H. by rewrite Ha in H. }
           exists (l ++ [((i, dn), (o, r))]), dl, (<[i := MRead 1]> gm). split; [|right; eexists _, _; split; [done|]; split; [done|]; by apply Hduring].
           eapply (Inv_update _ _ _ _ _ _ _ _ _ _ _ _ _ _ _ _ HI Hth Hg).
           ++ modes Hg (MRead 1). unfold mutex_ok in *. rewrite Hw in Hmut. cbn. lia.
           ++ eapply log_snoc; [apply (iv_seq _ _ _ _ _ _ HI)|congruence].
           ++ done.
           ++ apply Hrefl.
           ++ exists ps. cbn. split; [done|]. split; [done|]. exists p0, l0. split; [done|]. split; [done|].
              split; [done|]. split; [lia|]. exists r. rewrite calls_of_app, calls_of_one, Hc. split; [done|].
              specialize (Ha (sy_data s)). cbn in Ha. split; [congruence|]. specialize (Hsf _ (Hrefl (sy_data s))). by rewrite Hal in Hsf.
           ++ intros j gj Hj Hgj. done.
           ++ right. eexists. done.
           ++ left. done.
        -- (* Lock *)
           destruct Hokp as [Hwr Hokp].
           unfold prog_step in Hstep. destruct (rw_writer (sy_mutex s)) eqn:Hw; try done. injection Hstep as <- <- <-.
           assert (Hd : sy_data s = dl) by (apply (iv_data _ _ _ _ _ _ HI); congruence).
           exists l, dl, (<[i := MWait]> gm). split; [|by left].
           eapply (Inv_update _ _ _ _ _ _ _ _ _ _ _ _ _ _ _ _ HI Hth Hg).
           ++ modes Hg MWait. unfold mutex_ok in *. rewrite Hw in Hmut. cbn. lia.
           ++ apply (iv_seq _ _ _ _ _ _ HI).
           ++ done.
           ++ apply Hrefl.
           ++ exists ps. cbn. split; [done|]. split; [done|]. exists p0, l0. split; [done|]. split; [done|].
              split; [done|]. done.
           ++ done.
           ++ by left.
           ++ left. done.
      * (* under the read lock *)
        destruct Hin as (Hn & r & Hc & Ha & Hsf).
        assert (Hdata : rw_writer (sy_mutex s) <> WHeld).
        { intros Hw. pose proof (cnt_le readers _ _ _ Hg) as H. cbn in H. unfold mutex_ok in Hmut. rewrite Hw in Hmut. lia. }
        assert (Hgoal : exists n', d' = sy_data s /\ rw_writer m' = rw_writer (sy_mutex s) /\
          (rw_readers m' + n = rw_readers (sy_mutex s) + readers n')%nat /\
          waits n' = 0%nat /\ writes n' = 0%nat /\ inside_ok (Q (i, dn)) (sy_data s) dl l0 (calls_of (i, dn) l) o k p' n').
        { destruct p as [|kr|f p|p|p|p|p|p]; try done; unfold prog_step in Hstep.
          - injection Hstep as <- <- <-. exists (MRead n). do 5 (split; [done|]). split; [apply Hokp|]. split; [done|]. exists r. done.
          - destruct (rw_writer (sy_mutex s)) eqn:Hw; try done. injection Hstep as <- <- <-. destruct Hokp as [Hnest Hokp]. exists (MRead (S n)).
            split; [done|]. split; [done|]. split; [cbn; lia|]. split; [done|]. split; [done|].
            split; [done|]. split; [lia|]. exists r. done.
          - destruct (rw_readers (sy_mutex s)) as [|nr] eqn:Hr; [done|]. injection Hstep as <- <- <-.
            destruct n as [|[|n]]; [done| |].
            + exists MDone. split; [done|]. split; [done|]. split; [cbn; lia|]. split; [done|]. split; [done|].
              cbn in Hokp. split; [done|]. destruct p as [r'| | | | | | |]; try done. exists r'. cbn in Ha.
              injection Ha as ->. done.
            + exists (MRead (S n)). split; [done|]. split; [done|]. split; [cbn; lia|]. split; [done|]. split; [done|].
              split; [done|]. split; [lia|]. exists r. done. }
        destruct Hgoal as (g' & -> & Hw & Hr & Hg1 & Hg2 & Hi).
        exists l, dl, (<[i := g']> gm). split; [|by left].
        eapply (Inv_update _ _ _ _ _ _ _ _ _ _ _ _ _ _ _ _ HI Hth Hg).
        -- modes Hg g'. unfold mutex_ok in *. rewrite Hw. destruct (rw_writer (sy_mutex s)); [lia|lia|done].
        -- apply (iv_seq _ _ _ _ _ _ HI).
        -- rewrite Hw. apply (iv_data _ _ _ _ _ _ HI).
        -- apply Hrefl.
        -- exists ps. cbn. split; [done|]. split; [done|]. exists p0, l0. done.
        -- done.
        -- by left.
        -- left. done.
      * (* waiting for the readers *)
        destruct Hin as (Hc & Ha & Hsf). destruct p as [|kr|f p|p|p|p|p|p]; try done. unfold prog_step in Hstep. destruct Hokp as [Hwr Hokp].
        destruct (rw_readers (sy_mutex s)) as [|nr] eqn:Hr; [|done].
        destruct (rw_writer (sy_mutex s)) eqn:Hw; try done. injection Hstep as <- <- <-.
        assert (Hd : sy_data s = dl) by (apply (iv_data _ _ _ _ _ _ HI); congruence).
        destruct (alone (method o) (sy_data s)) as [d2 r] eqn:Hal.
        exists (l ++ [((i, dn), (o, r))]), d2, (<[i := MWrite]> gm). split; [|right; eexists _, _; split; [done|]; split; [done|]; by apply Hduring].
        unfold mutex_ok in Hmut. rewrite Hw, Hr in Hmut.
        eapply (Inv_update _ _ _ _ _ _ _ _ _ _ _ _ _ _ _ _ HI Hth Hg).
        -- modes Hg MWrite. unfold mutex_ok. cbn. lia.
        -- eapply log_snoc; [apply (iv_seq _ _ _ _ _ _ HI)|congruence].
        -- done.
        -- apply Hrefl.
        -- exists ps. cbn. split; [done|]. split; [done|]. exists p0, l0. split; [done|]. split; [done|].
           split; [done|]. exists r. rewrite calls_of_app, calls_of_one, Hc. split; [done|].
           specialize (Ha (sy_data s)). cbn in Ha. split; [congruence|]. specialize (Hsf _ (Hrefl (sy_data s))). by rewrite Hal in Hsf.
        -- intros j gj Hj Hgj. split; [done|]. intros ->. pose proof (cnt_le writes _ _ _ Hgj) as H. cbn in H. lia.
        -- right. eexists. done.
        -- left. done.
      * (* under the write lock *)
        destruct Hin as (r & Hc & Ha & Hsf).
        assert (Hheld : rw_writer (sy_mutex s) = WHeld).
        { pose proof (cnt_le writes _ _ _ Hg) as H. cbn in H. unfold mutex_ok in Hmut.
          destruct (rw_writer (sy_mutex s)); [lia|lia|done]. }
        unfold mutex_ok in Hmut. rewrite Hheld in Hmut.
        assert (Hoth : forall j gj, j <> i -> gm !! j = Some gj -> readers gj = 0%nat /\ gj <> MWrite).
        { intros j gj Hj Hgj. pose proof (cnt_le readers _ _ _ Hgj). split; [lia|]. intros ->.
          pose proof (cnt_two writes _ _ _ _ _ Hj Hgj Hg) as H'. cbn in H'. lia. }
        assert (Hgoal : exists g', (g' = MWrite /\ m' = sy_mutex s \/ g' = MDone /\ m' = RW (rw_readers (sy_mutex s)) WNone /\ d' = dl) /\
          Rel (sy_data s) d' /\ inside_ok (Q (i, dn)) d' dl l0 (calls_of (i, dn) l) o k p' g').
        { destruct p as [|kr|f p|p|p|p|p|p]; try done; unfold prog_step in Hstep.
          - injection Hstep as <- <- <-. exists MWrite. split; [by left|]. split; [first [apply Hrefl|apply Hokp]|]. split; [apply Hokp|]. exists r. done.
          - injection Hstep as <- <- <-. exists MWrite. split; [by left|]. split; [first [apply Hrefl|apply Hokp]|]. split; [apply Hokp|]. exists r. done.
          - rewrite Hheld in Hstep. injection Hstep as <- <- <-. destruct Hokp as [Hwr Hokp]. cbn in Hokp.
            destruct p as [r'| | | | | | |]; try done. cbn in Ha. injection Ha as Hd ->. exists MDone. split; [by right|]. split; [apply Hrefl|].
            split; [done|]. exists r. by rewrite Hd. }
        destruct Hgoal as (g' & Hg' & HR & Hi).
        exists l, dl, (<[i := g']> gm). split; [|by left].
        eapply (Inv_update _ _ _ _ _ _ _ _ _ _ _ _ _ _ _ _ HI Hth Hg).
        -- modes Hg g'. unfold mutex_ok. destruct Hg' as [[-> ->]|(-> & -> & _)]; cbn in *; [rewrite Hheld|]; lia.
        -- apply (iv_seq _ _ _ _ _ _ HI).
        -- destruct Hg' as [[-> ->]|(-> & -> & ->)]; [by rewrite Hheld|done].
        -- done.
        -- exists ps. cbn. split; [done|]. split; [done|]. exists p0, l0. done.
        -- intros j gj Hj Hgj. destruct (Hoth j gj Hj Hgj) as [H1 H2]. split; [lia|done].
        -- by left.
        -- left. done.
      * by destruct p.
Qed.

Lemma cnt_all f gm : (forall i g, gm !! i = Some g -> f g = 0%nat) -> cnt f gm = 0%nat.
Proof.
  induction gm as [|g gm IH]; intros H; [done|]. cbn [cnt]. rewrite IH; [|intros i g' Hg; by apply (H (S i))].
  rewrite (H 0%nat g) by done. done.
Qed.
Lemma Inv_start d0 todo : Inv d0 todo (start d0 todo) [] d0 (replicate (length todo) MOut).
Proof.
  assert (Hrep : forall f, f MOut = 0%nat -> cnt f (replicate (length todo) MOut) = 0%nat).
  { intros f Hf. apply cnt_all. intros i g Hg. apply lookup_replicate in Hg as [-> _]. done. }
  assert (Hth : forall i th, sy_threads (start d0 todo) !! i = Some th ->
    exists ps, todo !! i = Some ps /\ th = Thread ps 0 Idle).
  { intros i th H. cbn in H. rewrite list_lookup_fmap in H. destruct (todo !! i) as [ps|]; [|done]. injection H as <-. eauto. }
  constructor.
  - cbn. by rewrite replicate_length, fmap_length.
  - done.
  - split; cbn; [by rewrite Hrep|]. rewrite !Hrep; done.
  - done.
  - intros i th g Ht Hg. apply lookup_replicate in Hg as [-> _]. apply Hth in Ht as (ps & Hps & ->).
    exists ps. cbn. done.
  - intros c. split; [intros H; by apply elem_of_nil in H|]. intros (th & Ht & H). apply Hth in Ht as (ps & Hps & ->).
    cbn in H. lia.
  - intros c. split; [intros [a H]; by apply elem_of_nil in H|]. intros (th & Ht & H). apply Hth in Ht as (ps & Hps & ->).
    cbn in H. lia.
  - apply Hrefl.
  - intros c a H. by apply elem_of_nil in H.
  - intros c x H. by apply elem_of_nil in H.
  - intros c c' a b x x' _ H. done.
Qed.

Lemma sys_run_app (s : sys) sched sched' : sys_run method s (sched ++ sched') =
  match sys_run method s sched with Some s' => sys_run method s' sched' | None => None end.
Proof.
  revert s. induction sched as [|i sched IH]; intros s; cbn; [done|]. destruct (sys_step method s i); [apply IH|done].
Qed.

(** The moment of every entry of the log: the data was what the entries before
    have led to, and the call was in progress. *)
Lemma Inv_run d0 (todo : list (list client)) sched s : safe_todo d0 todo -> all_only (start d0 todo) ->
  sys_run method (start d0 todo) sched = Some s ->
  exists l dl gm ns, Inv d0 todo s l dl gm /\ all_only s /\ length ns = length l /\
    (forall p n, ns !! p = Some n -> (n < length sched)%nat) /\
    (forall p q n m, (p < q)%nat -> ns !! p = Some n -> ns !! q = Some m -> (n < m)%nat) /\
    (forall p c x n, l !! p = Some (c, x) -> ns !! p = Some n ->
      exists s', sys_run method (start d0 todo) (take n sched) = Some s' /\ during (sy_hist s') c /\
        sy_data s' = fst (seq_run spec d0 (log_ops (take p l)))).
Proof.
  intros Hsafe Ho. revert s. induction sched as [|i sched IH] using rev_ind; intros s Hrun.
  - injection Hrun as <-. exists [], d0, (replicate (length todo) MOut), []. split; [apply Inv_start|]. done.
  - rewrite sys_run_app in Hrun. destruct (sys_run method (start d0 todo) sched) as [s1|] eqn:Hr; [|done].
    cbn in Hrun. destruct (sys_step method s1 i) as [s2|] eqn:Hs; [|done]. injection Hrun as ->.
    destruct (IH s1 eq_refl) as (l & dl & gm & ns & HI & Ho1 & Hlen & Hlt & Hmon & Hmom). clear IH.
    destruct (Inv_step _ _ _ _ _ _ _ _ Hsafe HI Ho1 Hs) as (l' & dl' & gm' & HI' & Hl).
    assert (Htake : forall n, (n <= length sched)%nat -> take n (sched ++ [i]) = take n sched).
    { intros n Hn. by rewrite take_app_le. }
    destruct Hl as [->|(c & x & -> & Hd & Hdur)].
    + exists l, dl', gm', ns. split; [done|]. split; [by eapply only_step|]. split; [done|].
      split. { intros p n Hp. specialize (Hlt _ _ Hp). rewrite app_length. lia. } split; [done|].
      intros p c x n Hp Hn. rewrite Htake by (apply Hlt in Hn; lia). by eapply Hmom.
    + exists (l ++ [(c, x)]), dl', gm', (ns ++ [length sched]). split; [done|]. split; [by eapply only_step|].
      split; [rewrite !app_length; cbn; lia|]. split; [|split].
      * intros p n Hp. rewrite app_length. cbn. apply lookup_app_Some in Hp as [Hp|[_ Hp]]; [specialize (Hlt _ _ Hp); lia|].
        apply list_lookup_singleton_Some in Hp as [_ <-]. lia.
      * intros p q n m Hpq Hp Hq. apply lookup_app_Some in Hp as [Hp|[Hp1 Hp2]], Hq as [Hq|[Hq1 Hq2]].
        -- by eapply Hmon.
        -- apply list_lookup_singleton_Some in Hq2 as [_ <-]. by apply Hlt in Hp.
        -- apply lookup_lt_Some in Hq. lia.
        -- apply list_lookup_singleton_Some in Hq2 as [Hq2 <-], Hp2 as [Hp2 <-]. lia.
      * intros p c' x' n Hp Hn. destruct (decide (p < length l)%nat) as [Hpl|Hpl].
        -- rewrite lookup_app_l in Hp by done. rewrite lookup_app_l in Hn by lia.
           rewrite Htake by (apply Hlt in Hn; lia). rewrite take_app_le by lia. by eapply Hmom.
        -- rewrite lookup_app_r in Hp by lia. rewrite lookup_app_r in Hn by lia.
           apply list_lookup_singleton_Some in Hp as [Hp [= <- <-]], Hn as [_ <-].
           assert (p = length l) as -> by lia. rewrite !take_app.
           exists s1. split; [done|]. split; [done|]. rewrite (iv_seq _ _ _ _ _ _ HI). done.
Qed.

Lemma quiet_modes d0 todo s l dl gm : Inv d0 todo s l dl gm -> quiet s ->
  forall i g, gm !! i = Some g -> g = MOut.
Proof.
  intros HI Hq i g Hg. destruct (lookup_lt_is_Some_2 (sy_threads s) i) as [th Hth].
  { rewrite <- (iv_len _ _ _ _ _ _ HI). by eapply lookup_lt_Some. }
  specialize (Hq _ _ Hth). destruct (iv_thread _ _ _ _ _ _ HI _ _ _ Hth Hg) as (ps & _ & H).
  destruct (th_now th); [by destruct H|by destruct H as (_ & -> & _)|done].
Qed.

Lemma Inv_explains d0 todo s l dl gm : Inv d0 todo s l dl gm -> explains spec d0 todo s l dl.
Proof.
  intros HI. constructor.
  - apply (iv_seq _ _ _ _ _ _ HI).
  - intros c a Ha. by apply (iv_end _ _ _ _ _ _ HI).
  - intros c x Hx. apply (iv_log _ _ _ _ _ _ HI) in Hx as (th & Hth & Hlt).
    split; [apply (iv_start _ _ _ _ _ _ HI); eauto|].
    destruct (decide (c.2 < th_done th)%nat) as [Hd|Hd].
    + destruct (proj2 (iv_ended _ _ _ _ _ _ HI c)) as [a Ha]; [eauto|].
      apply (iv_end _ _ _ _ _ _ HI) in Ha as (_ & p & Hp & Hf). eauto.
    + destruct (lookup_lt_is_Some_2 gm c.1) as [g Hg]; [rewrite (iv_len _ _ _ _ _ _ HI); by eapply lookup_lt_Some|].
      destruct (iv_thread _ _ _ _ _ _ HI _ _ _ Hth Hg) as (ps & Hps & H). unfold started in Hlt.
      unfold call_of. rewrite Hps. destruct c as [ci cn]. cbn [fst snd] in *.
      destruct (th_now th) as [|p|o p k]; [lia| |].
      * assert (cn = th_done th) as -> by lia. destruct H as (_ & _ & p0 & Hp0 & Hf & _). eauto.
      * assert (cn = th_done th) as -> by lia. destruct H as (_ & p0 & l0 & Hp0 & Hf & Hin). exists p0.
        destruct Hin as [_ Hin].
        assert (Hc : calls_of (ci, th_done th) l = l0 \/ exists r, calls_of (ci, th_done th) l = l0 ++ [(o, r)]).
        { destruct g; [left; by destruct Hin|destruct Hin as (_ & r & Hc & _); eauto|left; by destruct Hin|
            destruct Hin as (r & Hc & _); eauto|destruct Hin as (r & Hc & _); eauto]. }
        destruct Hc as [->|[r ->]]; [eauto|]. eexists. split; [done|]. by apply follows_snoc.
  - apply (iv_order _ _ _ _ _ _ HI).
  - intros Hq. apply (iv_data _ _ _ _ _ _ HI). intros Hw.
    pose proof (iv_mutex _ _ _ _ _ _ HI) as Hm. unfold mutex_ok in Hm. rewrite Hw in Hm.
    rewrite (cnt_all writes gm) in Hm; [lia|]. intros i g Hg. by rewrite (quiet_modes _ _ _ _ _ _ HI Hq _ _ Hg).
Qed.

Lemma only_start d0 todo : Forall (Forall only) todo -> all_only (start d0 todo).
Proof.
  intros H i th Hth. cbn in Hth. rewrite list_lookup_fmap in Hth. destruct (todo !! i) as [ps|] eqn:E; [|done].
  injection Hth as <-. split; cbn; [|done]. by eapply Forall_lookup_1 in H.
Qed.
Lemma seq_run_ext (sp sp' : D -> Op -> D * R) d os : (forall d o, sp d o = sp' d o) -> seq_run sp d os = seq_run sp' d os.
Proof.
  intros H. revert d. induction os as [|o os IH]; intros d; cbn; [done|]. rewrite H. destruct (sp' d o) as [d1 r].
  by rewrite IH.
Qed.
Lemma explains_ext (sp sp' : D -> Op -> D * R) d0 todo (s : sys) l d : (forall d o, sp d o = sp' d o) ->
  explains sp d0 todo s l d -> explains sp' d0 todo s l d.
Proof. intros H []. constructor; try done. by rewrite <- (seq_run_ext sp). Qed.

(** ** No deadlock *)
Lemma cnt_pos f gm : (0 < cnt f gm)%nat -> exists i g, gm !! i = Some g /\ (0 < f g)%nat.
Proof.
  induction gm as [|g gm IH]; intros H; cbn [cnt] in H; [lia|].
  destruct (decide (0 < f g)%nat) as [Hg|Hg]; [by exists 0%nat, g|].
  destruct IH as (i & g' & Hi & Hp); [lia|]. by exists (S i), g'.
Qed.
Definition can_step (s : sys) : Prop := exists i s', sys_step method s i = Some s'.
Lemma can_step_thread s i th : sy_threads s !! i = Some th ->
  thread_step method i (sy_data s) (sy_mutex s) th <> None -> can_step s.
Proof.
  intros Hth H. exists i. unfold sys_step. rewrite Hth. destruct (thread_step _ _ _ _ _) as [[[[? ?] ?] ?]|]; [eauto|done].
Qed.
Lemma inside_steps s i th o p k : sy_threads s !! i = Some th -> th_now th = Inside o p k ->
  ((exists r, p = Ret r) \/ prog_step (sy_data s) (sy_mutex s) p <> None) -> can_step s.
Proof.
  intros Hth Hn H. eapply can_step_thread; [done|]. unfold thread_step. rewrite Hn.
  destruct H as [[r ->]|H]; [done|]. destruct p; try done; (destruct (prog_step _ _ _) as [[[? ?] ?]|]; done).
Qed.
Lemma inside_mode d0 todo s l dl gm i g : Inv d0 todo s l dl gm -> gm !! i = Some g -> g <> MOut ->
  exists th o p k, sy_threads s !! i = Some th /\ th_now th = Inside o p k /\ ok g p /\ (forall n, g = MRead n -> (0 < n)%nat).
Proof.
  intros HI Hg Hn. destruct (lookup_lt_is_Some_2 (sy_threads s) i) as [th Hth].
  { rewrite <- (iv_len _ _ _ _ _ _ HI). by eapply lookup_lt_Some. }
  destruct (iv_thread _ _ _ _ _ _ HI _ _ _ Hth Hg) as (ps & _ & H). exists th.
  destruct (th_now th) as [|p|o p k]; [by destruct H|by destruct H as (_ & -> & _)|].
  destruct H as (_ & p0 & l0 & _ & _ & Hokp & Hin). exists o, p, k. repeat (split; [done|]). intros n ->. apply Hin.
Qed.
Lemma writer_steps d0 todo s l dl gm i : Inv d0 todo s l dl gm -> gm !! i = Some MWrite -> can_step s.
Proof.
  intros HI Hg. destruct (inside_mode _ _ _ _ _ _ _ _ HI Hg) as (th & o & p & k & Hth & Hn & Hp & _); [done|].
  eapply inside_steps; [done|done|]. right. destruct p; try done. cbn.
  pose proof (cnt_le writes _ _ _ Hg) as H. cbn in H. pose proof (iv_mutex _ _ _ _ _ _ HI) as Hm. unfold mutex_ok in Hm.
  destruct (rw_writer (sy_mutex s)); [lia|lia|done].
Qed.
Lemma reader_steps d0 todo s l dl gm i n : nest = false \/ wr = false ->
  Inv d0 todo s l dl gm -> gm !! i = Some (MRead n) -> can_step s.
Proof.
  intros Hnw HI Hg. destruct (inside_mode _ _ _ _ _ _ _ _ HI Hg) as (th & o & p & k & Hth & Hn & Hp & Hpos); [done|].
  eapply inside_steps; [done|done|]. right. pose proof (iv_mutex _ _ _ _ _ _ HI) as Hm.
  destruct p; try done; cbn.
  - (* nested read lock *) destruct Hp as [Hnest _]. destruct Hnw as [Hnw|Hnw]; [congruence|].
    destruct (rw_writer (sy_mutex s)) eqn:Hw; [done|..]; exfalso; unfold mutex_ok in Hm; rewrite Hw in Hm.
    + destruct (cnt_pos waits gm) as (j & g & Hj & Hgw); [lia|]. destruct g; cbn in Hgw; try lia.
      destruct (inside_mode _ _ _ _ _ _ _ _ HI Hj) as (th' & o' & p' & k' & _ & _ & Hp' & _); [done|].
      destruct p'; try done. cbn in Hp'. destruct Hp'; congruence.
    + destruct (cnt_pos writes gm) as (j & g & Hj & Hgw); [lia|]. destruct g; cbn in Hgw; try lia.
      destruct (inside_mode _ _ _ _ _ _ _ _ HI Hj) as (th' & o' & p' & k' & _ & _ & Hp' & _); [done|].
      destruct p'; try done; cbn in Hp'; destruct Hp'; congruence.
  - pose proof (cnt_le readers _ _ _ Hg) as H. cbn in H. specialize (Hpos n eq_refl). destruct Hm as [Hm _].
    destruct (rw_readers (sy_mutex s)); [lia|done].
Qed.
Lemma Inv_progress d0 todo s l dl gm : nest = false \/ wr = false ->
  Inv d0 todo s l dl gm -> ~ finished s -> can_step s.
Proof.
  intros Hnw HI Hnf.
  assert (Hex : exists i th, sy_threads s !! i = Some th /\ ~ (th_now th = Idle /\ th_todo th = [])).
  { clear HI. unfold finished in Hnf. induction (sy_threads s) as [|th ths IH].
    - destruct Hnf. intros i th H. done.
    - assert (Hdec : (th_now th = Idle /\ th_todo th = []) \/ ~ (th_now th = Idle /\ th_todo th = [])).
      { destruct (th_now th) as [|?|? ? ?]; [|right; by intros [? ?]..]. destruct (th_todo th); [by left|right; by intros [? ?]]. }
      destruct Hdec as [Hd|Hd]; [|by exists 0%nat, th].
      destruct IH as (i & t & Hi & Ht); [|by exists (S i), t]. intros H. apply Hnf. intros [|i] t Ht; [by injection Ht as <-|by eapply H]. }
  destruct Hex as (i & th & Hth & Hne).
  destruct (th_now th) as [|p|o p k] eqn:Hnow.
  - eapply can_step_thread; [done|]. unfold thread_step. rewrite Hnow. destruct (th_todo th); [by destruct Hne|done].
  - eapply can_step_thread; [done|]. unfold thread_step. rewrite Hnow. destruct p; done.
  - destruct (lookup_lt_is_Some_2 gm i) as [g Hg]; [rewrite (iv_len _ _ _ _ _ _ HI); by eapply lookup_lt_Some|].
    destruct (iv_thread _ _ _ _ _ _ HI _ _ _ Hth Hg) as (ps & _ & H). rewrite Hnow in H.
    destruct H as (_ & p0 & l0 & _ & _ & Hokp & Hin).
    pose proof (iv_mutex _ _ _ _ _ _ HI) as Hm. unfold mutex_ok in Hm.
    assert (Hrd : (0 < rw_readers (sy_mutex s))%nat -> can_step s).
    { intros Hr. destruct Hm as [Hm _]. destruct (cnt_pos readers gm) as (j & gj & Hj & Hgw); [lia|].
      destruct gj; cbn in Hgw; try lia. by eapply reader_steps. }
    assert (Hwait : gm !! i = Some MWait -> can_step s).
    { intros Hgi. destruct (decide (0 < rw_readers (sy_mutex s))%nat) as [Hr|Hr]; [by apply Hrd|].
      destruct (inside_mode _ _ _ _ _ _ _ _ HI Hgi) as (th' & o' & p' & k' & Hth' & Hn' & Hp' & _); [done|].
      eapply inside_steps; [done|done|]. right. destruct p'; try done. cbn.
      pose proof (cnt_le waits _ _ _ Hgi) as Hc. cbn in Hc.
      destruct (rw_readers (sy_mutex s)); [|lia]. destruct (rw_writer (sy_mutex s)); [lia|done|lia]. }
    assert (Hwr : rw_writer (sy_mutex s) <> WNone -> can_step s).
    { intros Hw. destruct (rw_writer (sy_mutex s)) eqn:Hws; [done|..].
      - destruct (cnt_pos waits gm) as (j & gj & Hj & Hgw); [lia|]. destruct gj; cbn in Hgw; try lia.
        destruct (decide (0 < rw_readers (sy_mutex s))%nat) as [Hr|Hr]; [by apply Hrd|].
        destruct (inside_mode _ _ _ _ _ _ _ _ HI Hj) as (th' & o' & p' & k' & Hth' & Hn' & Hp' & _); [done|].
        eapply inside_steps; [done|done|]. right. destruct p'; try done. cbn. rewrite Hws.
        destruct (rw_readers (sy_mutex s)); [done|lia].
      - destruct (cnt_pos writes gm) as (j & gj & Hj & Hgw); [lia|]. destruct gj; cbn in Hgw; try lia.
        by eapply writer_steps. }
    destruct g as [|n| | |].
    + destruct (rw_writer (sy_mutex s)) eqn:Hw; [|by apply Hwr..].
      eapply inside_steps; [done|done|]. right. destruct p; try done; cbn; by rewrite Hw.
    + by eapply reader_steps.
    + by apply Hwait.
    + by eapply writer_steps.
    + eapply inside_steps; [done|done|]. left. destruct p; try done. eauto.
Qed.

(** ** No endless execution *)
Definition step_rel (s' s : sys) : Prop := exists i, sys_step method s i = Some s'.
Definition tstep (th' th : thread) : Prop :=
  exists i d m d' m' es, thread_step method i d m th = Some (d', m', th', es).

Lemma Acc_inside tl dn o p k : (forall r, Acc tstep (Thread tl dn (Between (k r)))) ->
  Acc tstep (Thread tl dn (Inside o p k)).
Proof.
  intros Hk. induction p as [r|kr IH|f p IH|p IH|p IH|p IH|p IH|p IH].
  - constructor. intros th' (i & d & m & d' & m' & es & H). injection H as <- <- <- <-. apply Hk.
  - constructor. intros th' (i & d & m & d' & m' & es & H). injection H as <- <- <- <-. apply IH.
  - constructor. intros th' (i & d & m & d' & m' & es & H). injection H as <- <- <- <-. apply IH.
  - constructor. intros th' (i & d & m & d' & m' & es & H). cbn in H. destruct (rw_writer m); try discriminate H. injection H as <- <- <- <-. apply IH.
  - constructor. intros th' (i & d & m & d' & m' & es & H). cbn in H. destruct (rw_readers m); try discriminate H. injection H as <- <- <- <-. apply IH.
  - constructor. intros th' (i & d & m & d' & m' & es & H). cbn in H. destruct (rw_writer m); try discriminate H. injection H as <- <- <- <-.
    constructor. intros th' (i' & d1 & m1 & d' & m' & es' & H). cbn in H. destruct (rw_readers m1), (rw_writer m1); try discriminate H. injection H as <- <- <- <-. apply IH.
  - constructor. intros th' (i' & d1 & m1 & d' & m' & es' & H). cbn in H. destruct (rw_readers m1), (rw_writer m1); try discriminate H. injection H as <- <- <- <-. apply IH.
  - constructor. intros th' (i & d & m & d' & m' & es & H). cbn in H. destruct (rw_writer m); try discriminate H. injection H as <- <- <- <-. apply IH.
Qed.
Lemma Acc_between tl dn p : (forall n, Acc tstep (Thread tl n Idle)) -> Acc tstep (Thread tl dn (Between p)).
Proof.
  intros Hi. induction p as [a|o k IH|k IH]; constructor; intros th' (i & d & m & d' & m' & es & H); injection H as <- <- <- <-.
  - apply Hi.
  - by apply Acc_inside.
  - apply IH.
Qed.
Lemma Acc_idle tl dn : Acc tstep (Thread tl dn Idle).
Proof.
  revert dn. induction tl as [|p tl IH]; intros dn; constructor; intros th' (i & d & m & d' & m' & es & H); [discriminate H|].
  injection H as <- <- <- <-. by apply Acc_between.
Qed.
Lemma Acc_thread th : Acc tstep th.
Proof.
  destruct th as [tl dn [|p|o p k]]; [apply Acc_idle| |].
  - apply Acc_between, Acc_idle.
  - apply Acc_inside. intros r. apply Acc_between. apply Acc_idle.
Qed.

Definition one {B : Type} (Rb : B -> B -> Prop) (l' l : list B) : Prop :=
  exists i x x', l !! i = Some x /\ Rb x' x /\ l' = <[i := x']> l.
Lemma Acc_one {B : Type} (Rb : B -> B -> Prop) : (forall x, Acc Rb x) -> forall l, Acc (one Rb) l.
Proof.
  intros HR l. induction l as [|x l IHl].
  - constructor. intros l' (i & x & x' & H & _). done.
  - induction (HR x) as [x _ IHx] in l, IHl |- *. induction IHl as [l Hl IHl]. 
    constructor. intros l' ([|i] & y & y' & Hi & Hy & ->).
    + injection Hi as <-. apply (IHx y' Hy). by constructor.
    + change (Acc (one Rb) (x :: <[i := y']> l)). apply IHl. by exists i, y, y'.
Qed.
Lemma Acc_sys s : Acc step_rel s.
Proof.
  remember (sy_threads s) as l eqn:El. revert s El. induction (Acc_one tstep Acc_thread l) as [l _ IH]. intros s ->.
  constructor. intros s' [i Hs]. unfold sys_step in Hs. destruct (sy_threads s !! i) as [th|] eqn:Hth; [|done].
  destruct (thread_step method i (sy_data s) (sy_mutex s) th) as [[[[d' m'] th'] es]|] eqn:Hts; [|done].
  injection Hs as <-. eapply IH; [|done]. cbn. exists i, th, th'. split; [done|]. split; [|done]. by do 6 eexists.
Qed.

Lemma Inv_finished d0 todo s l dl gm : Inv d0 todo s l dl gm -> length (sy_threads s) = length todo -> finished s ->
  forall c p, call_of todo c = Some p -> exists a, EEnd c a ∈ sy_hist s.
Proof.
  intros HI Hlen Hf c p Hc. unfold call_of in Hc. destruct (todo !! c.1) as [ps|] eqn:Hps; [|done].
  destruct (lookup_lt_is_Some_2 (sy_threads s) c.1) as [th Hth]; [rewrite Hlen; by eapply lookup_lt_Some|].
  destruct (lookup_lt_is_Some_2 gm c.1) as [g Hg]; [rewrite (iv_len _ _ _ _ _ _ HI); by eapply lookup_lt_Some|].
  apply (iv_ended _ _ _ _ _ _ HI). exists th. split; [done|].
  destruct (iv_thread _ _ _ _ _ _ HI _ _ _ Hth Hg) as (ps' & Hps' & H). assert (ps' = ps) by congruence. subst ps'.
  destruct (Hf _ _ Hth) as [Hn Ht]. rewrite Hn, Ht in H. destruct H as [H _].
  apply lookup_lt_Some in Hc. apply (f_equal length) in H. rewrite drop_length in H. cbn in H. lia.
Qed.
Lemma step_length (s s' : sys) i : sys_step method s i = Some s' -> length (sy_threads s') = length (sy_threads s).
Proof.
  unfold sys_step. destruct (sy_threads s !! i); [|done]. destruct (thread_step _ _ _ _ _) as [[[[? ?] ?] ?]|]; [|done].
  intros [= <-]. cbn. by rewrite insert_length.
Qed.
Lemma run_length (s s' : sys) sched : sys_run method s sched = Some s' -> length (sy_threads s') = length (sy_threads s).
Proof.
  revert s. induction sched as [|i sched IH]; intros s H; cbn in H; [by injection H as ->|].
  destruct (sys_step method s i) eqn:Hs; [|done]. rewrite (IH _ H). by eapply step_length.
Qed.
End Proofs.
