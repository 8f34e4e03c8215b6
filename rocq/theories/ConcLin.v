(** Linearizability of calls whose last method call does all they do. *)
From Verif Require Export ConcRuns.
From Coq Require Import Lia.

Section follows.
Context {D R Op A : Type}.
Notation client := (client D R Op A).
Lemma follows_det (p q q' : client) cs : no_peek p -> follows p cs q -> follows p cs q' -> q = q'.
Proof.
  intros Hn H. revert q' Hn. induction H as [p|o k r cs q H IH|k d cs q H IH]; intros q' Hn H'.
  - inversion H'; subst; done.
  - inversion H'; subst. apply IH; [apply Hn|done].
  - done.
Qed.
Lemma follows_split (p q : client) cs cs' : follows p (cs ++ cs') q -> no_peek p ->
  exists q', follows p cs q' /\ follows q' cs' q.
Proof.
  revert p. induction cs as [|[o r] cs IH]; intros p H Hn.
  - exists p. split; [constructor|done].
  - cbn in H. inversion H as [|o' k r' cs0 q0 Hf|]; subst; [|done]. destruct (IH _ Hf) as (q' & H1 & H2); [apply Hn|].
    exists q'. split; [by constructor|done].
Qed.
Lemma follows_join (p q q' : client) cs cs' : follows p cs q -> follows q cs' q' -> follows p (cs ++ cs') q'.
Proof. induction 1; intros H'; cbn; [done|constructor; auto|econstructor; eauto]. Qed.
Lemma follows_no_peek (p q : client) cs : follows p cs q -> no_peek p -> no_peek q.
Proof. induction 1 as [p|o k r cs q H IH|k d cs q H IH]; intros Hn; [done|apply IH, Hn|done]. Qed.
End follows.

Section lin.
Context {D R Op A C : Type} (spec : D -> Op -> D * R) (F : D -> C * A -> D * A) (f : C -> client D R Op A).
Context (Inv : D -> Prop) (same : A -> A -> Prop).
Notation client := (client D R Op A).
Notation log := (list (cid * (Op * R))).
Definition returns (p : client) : option A := match p with CRet a => Some a | _ => None end.

(** All method calls but the last leave the data alone, and the last does to the
    data what the call [o] that returns [a] does by itself, [F d (o, a)]; a call
    without method calls does nothing to the data. *)
Fixpoint effect_seen (o : C) (p : client) : Prop :=
  match p with
  | CRet a => forall d, Inv d -> F d (o, a) = (d, a)
  | CCall m k => forall d, Inv d ->
      match returns (k (snd (spec d m))) with
      | Some a => fst (F d (o, a)) = fst (spec d m) /\ same a (snd (F d (o, a))) /\ Inv (fst (spec d m))
      | None => fst (spec d m) = d /\ effect_seen o (k (snd (spec d m)))
      end
  | CPeek _ => False
  end.

Context (todo : list (list C)).
Hypothesis Hlast : forall k o, call_of todo k = Some o -> effect_seen o (f o) /\ no_peek (f o).

(** The order of calls that the log [l] stands for. *)
Record lin_of (d0 : D) (l : log) (d : D) (order : list (cid * (C * A))) : Prop := {
  lo_inv : Inv d;
  lo_final : fst (seq_run F d0 order.*2) = d;
  lo_results : Forall2 same (log_results order) (snd (seq_run F d0 order.*2));
  lo_nodup : NoDup order.*1;
  lo_calls k o a : (k, (o, a)) ∈ order -> call_of todo k = Some o /\ calls_of k l <> [];
  lo_each k o : call_of todo k = Some o ->
    (exists a, (k, (o, a)) ∈ order /\ follows (f o) (calls_of k l) (CRet a) /\ calls_of k l <> []) \/
    (k ∉ order.*1 /\ exists q, follows (f o) (calls_of k l) q /\ effect_seen o q /\
       (calls_of k l <> [] -> returns q = None));
  lo_order i j k x k' x' : (i <= j)%nat -> order !! i = Some (k, x) -> order !! j = Some (k', x') ->
    exists p q y y', (p <= q)%nat /\ l !! p = Some (k, y) /\ l !! q = Some (k', y') }.

Lemma lin_of_log d0 (l : log) : Inv d0 ->
  snd (seq_run spec d0 (log_ops l)) = log_results l ->
  (forall k x, (k, x) ∈ l -> exists o q, call_of todo k = Some o /\ follows (f o) (calls_of k l) q) ->
  exists order, lin_of d0 l (fst (seq_run spec d0 (log_ops l))) order.
Proof.
  intros Hd0. induction l as [|[k0 [m r]] l IH] using rev_ind; intros Hseq Hcalls.
  { exists []. constructor.
    - done.
    - done.
    - constructor.
    - constructor.
    - intros k o a H. by apply elem_of_nil in H.
    - intros k o Hk. right. split; [apply not_elem_of_nil|]. exists (f o). split; [constructor|]. split; [by apply (Hlast k)|done].
    - done. }
  unfold log_ops, log_results in Hseq. rewrite !fmap_app, seq_run_app in Hseq. cbn in Hseq.
  fold (log_ops l) in Hseq. fold (log_results l) in Hseq.
  destruct (spec (fst (seq_run spec d0 (log_ops l))) m) as [d' r'] eqn:Em. cbn in Hseq.
  apply app_inj_2 in Hseq as [Hseq Hr]; [|done]. injection Hr as ->.
  assert (Hpre : forall k, exists cs, calls_of k (l ++ [(k0, (m, r))]) = calls_of k l ++ cs /\
    (k = k0 -> cs = [(m, r)]) /\ (k <> k0 -> cs = [])).
  { intros k. rewrite calls_of_app. eexists. split; [done|]. split; [intros ->; apply calls_of_one|apply calls_of_other]. }
  destruct IH as (order & HL).
  { done. }
  { intros k x Hx. destruct (Hcalls k x) as (o & q & Ho & Hf); [set_solver|]. destruct (Hpre k) as (cs & Hcs & _).
    rewrite Hcs in Hf. apply follows_split in Hf as (q' & Hf & _); [eauto|by eapply Hlast]. }
  destruct (Hcalls k0 (m, r)) as (o & q & Ho & Hf); [set_solver|]. destruct (Hlast _ _ Ho) as [_ Hn].
  destruct (Hpre k0) as (cs0 & Hcs0 & Hcs0' & _). rewrite (Hcs0' eq_refl) in Hcs0. clear cs0 Hcs0'.
  rewrite Hcs0 in Hf. apply follows_split in Hf as (q' & Hf & Hf'); [|done].
  set (d := fst (seq_run spec d0 (log_ops l))) in *.
  assert (Hd' : fst (seq_run spec d0 (log_ops (l ++ [(k0, (m, r))]))) = d').
  { unfold log_ops. rewrite fmap_app, seq_run_app. cbn. fold (log_ops l). fold d. by rewrite Em. }
  rewrite Hd'. pose proof (lo_each _ _ _ _ HL _ _ Ho) as Hk0.
  destruct Hk0 as [(a & _ & Hf1 & _)|(Hnot & q1 & Hf1 & He & Hne)]; pose proof (follows_det _ _ _ _ Hn Hf1 Hf) as E; subst q'.
  { inversion Hf'. }
  assert (Hq1 : exists k, q1 = CCall m k).
  { inversion Hf'; subst; [eauto|done]. }
  destruct Hq1 as [kk ->]. cbn [effect_seen] in He. specialize (He d (lo_inv _ _ _ _ HL)). rewrite Em in He. cbn [fst snd] in He.
  assert (Hf2 : follows (f o) (calls_of k0 (l ++ [(k0, (m, r))])) (kk r)).
  { rewrite Hcs0. eapply follows_join; [exact Hf1|]. constructor. constructor. }
  assert (Hne2 : calls_of k0 (l ++ [(k0, (m, r))]) <> []) by (rewrite Hcs0; intros [_ ?]%app_nil; done).
  assert (Hother : forall k, k <> k0 -> calls_of k (l ++ [(k0, (m, r))]) = calls_of k l).
  { intros k Hk. destruct (Hpre k) as (cs & -> & _ & Hcs). by rewrite (Hcs Hk), app_nil_r. }
  destruct (returns (kk r)) as [a|] eqn:Er.
  - destruct (kk r) as [a'| |] eqn:Ek; try done. injection Er as ->. destruct He as (E1 & E2 & E3).
    exists (order ++ [(k0, (o, a))]).
    assert (Hrun : seq_run F d0 (order ++ [(k0, (o, a))]).*2 = (d', snd (seq_run F d0 order.*2) ++ [snd (F d (o, a))])).
    { rewrite fmap_app, seq_run_app. cbn. rewrite (lo_final _ _ _ _ HL).
      destruct (F d (o, a)) as [d2 a2]. cbn in *. by subst. }
    constructor.
    + done.
    + by rewrite Hrun.
    + rewrite Hrun. cbn [snd]. unfold log_results. rewrite fmap_app. apply Forall2_app; [apply HL|]. by repeat constructor.
    + rewrite fmap_app. apply NoDup_app. split; [apply HL|]. split; [|cbn; apply NoDup_singleton].
      intros k Hk Hin. cbn in Hin. apply elem_of_list_singleton in Hin as ->. done.
    + intros k o' a' Hin. apply elem_of_app in Hin as [Hin|Hin].
      * destruct (lo_calls _ _ _ _ HL _ _ _ Hin) as [H1 H2]. split; [done|]. destruct (Hpre k) as (cs & -> & _).
        intros [? _]%app_nil. done.
      * apply elem_of_list_singleton in Hin as [= -> -> ->]. done.
    + intros k o' Hk. destruct (decide (k = k0)) as [->|Hkk].
      * assert (o' = o) as -> by congruence. left. exists a. split; [set_solver|]. done.
      * rewrite (Hother _ Hkk). destruct (lo_each _ _ _ _ HL _ _ Hk) as [(a1 & H1 & H2)|(H1 & H2)].
        -- left. exists a1. split; [set_solver|done].
        -- right. split; [|done]. rewrite fmap_app, elem_of_app. intros [?|Hin]; [done|]. cbn in Hin.
           by apply elem_of_list_singleton in Hin.
    + intros i j k x k' x' Hij Hi Hj. rewrite lookup_app in Hi, Hj.
      destruct (order !! j) as [y2|] eqn:Ej.
      * injection Hj as ->. assert (Hil : (i < length order)%nat) by (apply lookup_lt_Some in Ej; lia).
        apply lookup_lt_is_Some_2 in Hil as [y1 Ei]. rewrite Ei in Hi. injection Hi as ->.
        destruct (lo_order _ _ _ _ HL _ _ _ _ _ _ Hij Ei Ej) as (p & qq & y & y' & ? & H1 & H2).
        exists p, qq, y, y'. split; [done|]. split; by apply lookup_app_l_Some.
      * apply list_lookup_singleton_Some in Hj as [Hj [= <- <-]].
        destruct (order !! i) as [y1|] eqn:Ei.
        -- injection Hi as ->. destruct (lo_order _ _ _ _ HL i i _ _ _ _ ltac:(lia) Ei Ei) as (p & _ & y & _ & _ & H1 & _).
           exists p, (length l), y, (m, r). split; [apply lookup_lt_Some in H1; lia|]. split; [by apply lookup_app_l_Some|].
           rewrite lookup_app_r, Nat.sub_diag; done.
        -- apply list_lookup_singleton_Some in Hi as [Hi [= <- <-]]. exists (length l), (length l), (m, r), (m, r).
           split; [done|]. rewrite lookup_app_r, Nat.sub_diag; done.
  - destruct He as [-> He]. exists order. constructor.
    + apply HL.
    + apply HL.
    + apply HL.
    + apply HL.
    + intros k o' a' Hin. destruct (lo_calls _ _ _ _ HL _ _ _ Hin) as [H1 H2]. split; [done|]. destruct (Hpre k) as (cs & -> & _).
      intros [? _]%app_nil. done.
    + intros k o' Hk. destruct (decide (k = k0)) as [->|Hkk].
      * assert (o' = o) as -> by congruence. right. split; [done|]. exists (kk r). done.
      * rewrite (Hother _ Hkk). apply (lo_each _ _ _ _ HL _ _ Hk).
    + intros i j k x k' x' Hij Hi Hj. destruct (lo_order _ _ _ _ HL _ _ _ _ _ _ Hij Hi Hj) as (p & qq & y & y' & ? & H1 & H2).
      exists p, qq, y, y'. split; [done|]. split; by apply lookup_app_l_Some.
Qed.
End lin.

Section run_seen.
Context {D R Op A C : Type} (method : Op -> prog D R) (F : D -> C * A -> D * A) (f : C -> client D R Op A).
Context (Inv : D -> Prop) (same : A -> A -> Prop) (P : Op -> Prop) (nest wr : bool).
Notation spec := (fun d o => alone (method o) d).
Hypothesis Hok : forall o, P o -> ok nest wr (fun _ _ => True) MOut (method o).

Lemma run_seen d0 (todo : list (list C)) sched s :
  Inv d0 ->
  (forall k o, call_of todo k = Some o -> effect_seen spec F Inv same o (f o) /\ no_peek (f o) /\ only P (f o)) ->
  sys_run method (start d0 (map (map f) todo)) sched = Some s ->
  exists order : list (cid * (C * A)),
    NoDup order.*1 /\
    Forall2 same (log_results order) (snd (seq_run F d0 order.*2)) /\
    (forall k o a, (k, (o, a)) ∈ order -> call_of todo k = Some o /\ EStart k ∈ sy_hist s) /\
    (forall k a, EEnd k a ∈ sy_hist s -> exists o, call_of todo k = Some o /\
       ((k, (o, a)) ∈ order \/ f o = CRet a /\ forall d, Inv d -> F d (o, a) = (d, a))) /\
    (forall k k' i j x x', precedes (sy_hist s) k k' ->
       order !! i = Some (k, x) -> order !! j = Some (k', x') -> (i < j)%nat) /\
    (quiet s -> sy_data s = fst (seq_run F d0 order.*2)).
Proof.
  intros Hd0 Hcalls Hrun.
  destruct (run_explained method P nest wr Hok d0 (map (map f) todo) sched s) as (l & d & ns & He & _); [|exact Hrun|].
  { intros k p Hk. rewrite call_of_map in Hk. destruct (call_of todo k) as [o|] eqn:Ek; [|done]. injection Hk as <-. by apply Hcalls in Ek as (_ & _ & ?). }
  pose proof (ex_seq _ _ _ _ _ _ He) as Hseq.
  destruct (lin_of_log spec F f Inv same todo) with (l := l) (d0 := d0) as (order & HL).
  - intros k o Hk. by apply Hcalls in Hk as (? & ? & _).
  - done.
  - by rewrite Hseq.
  - intros k x Hx. destruct (ex_started _ _ _ _ _ _ He _ _ Hx) as (_ & p & q & Hp & Hf). rewrite call_of_map in Hp.
    destruct (call_of todo k) as [o|] eqn:Ek; [|done]. injection Hp as <-. eauto.
  - rewrite Hseq in HL. cbn [fst] in HL. exists order. split; [apply HL|]. split; [apply HL|]. split; [|split; [|split]].
    + intros k o a Hin. destruct (lo_calls _ _ _ _ _ _ _ _ _ _ HL _ _ _ Hin) as [H1 H2]. split; [done|].
      destruct (calls_of k l) as [|x xs] eqn:Ex; [done|]. assert (Hx : x ∈ calls_of k l) by (rewrite Ex; left).
      apply calls_of_in in Hx. by apply (ex_started _ _ _ _ _ _ He) in Hx as [? _].
    + intros k a Hend. destruct (ex_ended _ _ _ _ _ _ He _ _ Hend) as (p & Hp & Hf). rewrite call_of_map in Hp.
      destruct (call_of todo k) as [o|] eqn:Ek; [|done]. injection Hp as <-. exists o. split; [done|].
      destruct (Hcalls _ _ Ek) as (Heff & Hn & _).
      destruct (lo_each _ _ _ _ _ _ _ _ _ _ HL _ _ Ek) as [(a' & H1 & H2 & _)|(H1 & q & H2 & _ & H3)].
      * left. pose proof (follows_det _ _ _ _ Hn Hf H2) as [= ->]. done.
      * right. pose proof (follows_det _ _ _ _ Hn Hf H2) as <-. destruct (calls_of k l) as [|x xs] eqn:Ex; [|by discriminate H3].
        destruct (f o) as [a'| |]; inversion Hf; subst; [split; done|done].
    + intros k k' i j x x' Hpre Hi Hj. destruct (Nat.lt_ge_cases i j) as [|Hji]; [done|]. exfalso.
      destruct (lo_order _ _ _ _ _ _ _ _ _ _ HL _ _ _ _ _ _ Hji Hj Hi) as (p & q & y & y' & Hpq & H1 & H2).
      pose proof (ex_order _ _ _ _ _ _ He _ _ _ _ _ _ Hpre H2 H1). lia.
    + intros Hq. rewrite (lo_final _ _ _ _ _ _ _ _ _ _ HL). by apply (ex_final _ _ _ _ _ _ He).
Qed.
End run_seen.

Section last.
Context {D R Op A C : Type} (spec : D -> Op -> D * R) (F : D -> C -> D * A).
Context (Inv : D -> Prop) (same : A -> A -> Prop).

(** The same where what a call does by itself does not depend on its result. *)
Fixpoint effect_last (o : C) (p : client D R Op A) : Prop :=
  match p with
  | CRet a => forall d, Inv d -> F d o = (d, a)
  | CCall m k => forall d, Inv d ->
      match returns (k (snd (spec d m))) with
      | Some a => fst (F d o) = fst (spec d m) /\ same a (snd (F d o)) /\ Inv (fst (spec d m))
      | None => fst (spec d m) = d /\ effect_last o (k (snd (spec d m)))
      end
  | CPeek _ => False
  end.
Lemma effect_last_seen o p : effect_last o p -> effect_seen spec (fun d oa => F d oa.1) Inv same o p.
Proof.
  induction p as [a|m k IH|k IH]; cbn [effect_last effect_seen]; [done| |done].
  intros H d Hd. specialize (H d Hd). destruct (returns (k (snd (spec d m)))); [done|].
  destruct H as [H1 H2]. split; [done|]. by apply IH.
Qed.
Lemma seq_run_fst d0 (xs : list (C * A)) : seq_run (fun d oa => F d oa.1) d0 xs = seq_run F d0 xs.*1.
Proof.
  revert d0. induction xs as [|[o a] xs IH]; intros d0; [done|]. cbn. destruct (F d0 o) as [d1 b]. by rewrite IH.
Qed.
End last.

Section run.
Context {D R Op A C : Type} (method : Op -> prog D R) (F : D -> C -> D * A) (f : C -> client D R Op A).
Context (Inv : D -> Prop) (same : A -> A -> Prop) (P : Op -> Prop) (nest wr : bool).
Notation spec := (fun d o => alone (method o) d).
Hypothesis Hok : forall o, P o -> ok nest wr (fun _ _ => True) MOut (method o).

Lemma run_linearizable d0 (todo : list (list C)) sched s :
  Inv d0 ->
  (forall k o, call_of todo k = Some o -> effect_last spec F Inv same o (f o) /\ no_peek (f o) /\ only P (f o)) ->
  sys_run method (start d0 (map (map f) todo)) sched = Some s ->
  exists order : list (cid * (C * A)),
    NoDup order.*1 /\
    Forall2 same (log_results order) (snd (seq_run F d0 (log_ops order))) /\
    (forall k o a, (k, (o, a)) ∈ order -> call_of todo k = Some o /\ EStart k ∈ sy_hist s) /\
    (forall k a, EEnd k a ∈ sy_hist s -> exists o, call_of todo k = Some o /\
       ((k, (o, a)) ∈ order \/ forall d, Inv d -> F d o = (d, a))) /\
    (forall k k' i j x x', precedes (sy_hist s) k k' ->
       order !! i = Some (k, x) -> order !! j = Some (k', x') -> (i < j)%nat) /\
    (quiet s -> sy_data s = fst (seq_run F d0 (log_ops order))).
Proof.
  intros Hd0 Hcalls Hrun.
  destruct (run_seen method (fun d oa => F d oa.1) f Inv same P nest wr Hok d0 todo sched s Hd0) as (order & H); [|exact Hrun|].
  { intros k o Hk. destruct (Hcalls k o Hk) as (H1 & H2 & H3). split; [by apply effect_last_seen|done]. }
  exists order. rewrite seq_run_fst in H. replace (log_ops order) with (order.*2.*1).
  - destruct H as (H1 & H2 & H3 & H4 & H5). do 3 (split; [done|]). split; [|done].
    intros k a Hk. destruct (H4 k a Hk) as (o & Ho & [Hin|[_ Hall]]); exists o; split; [done|by left|done|by right].
  - unfold log_ops. by rewrite <- list_fmap_compose.
Qed.
End run.
