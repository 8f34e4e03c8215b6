(** The methods of idxtable obey the lock discipline and compute, when run alone,
    what the sequential model computes. *)
From Verif Require Export IdxConcSpec ConcProofs.
From Coq Require Import Lia.

Section methods.
Context {T : Type}.
Notation prog := (prog (table T) (out T)).
Implicit Types (d : table T) (o : op T).

(** ** Run alone *)
Lemma alone_add e (k : res unit -> prog) d :
  alone (p_add e k) d = alone (k (snd (add d e))) (fst (add d e)).
Proof.
  unfold p_add, add, p_validate, p_is_free, p_store. cbn [alone]. destruct (validate d (e_id e)); cbn [alone]; [|done..].
  destruct (is_free d (e_id e)); done.
Qed.
Lemma alone_update e (k : res unit -> prog) d :
  alone (p_update e k) d = alone (k (snd (update d e))) (fst (update d e)).
Proof.
  unfold p_update, update, p_validate, p_is_free, p_store. cbn [alone]. destruct (validate d (e_id e)); cbn [alone]; [|done..].
  destruct (is_free d (e_id e)); done.
Qed.
Lemma alone_delete id (k : res unit -> prog) d :
  alone (p_delete id k) d = alone (k (snd (delete_ d id))) (fst (delete_ d id)).
Proof. unfold p_delete, delete_, p_validate. cbn [alone]. by destruct (validate d id). Qed.
Lemma alone_free_loop n id keys (k : list N -> prog) d :
  alone (p_free_loop n id keys k) d = alone (k (keys ++ free_loop (t_map d) n id)) d.
Proof.
  revert id keys. induction n as [|n IH]; intros id keys; cbn [p_free_loop free_loop].
  - by rewrite app_nil_r.
  - unfold p_is_free. cbn [alone]. rewrite IH. unfold is_free. destruct (t_map d !! id); [done|]. by rewrite <- app_assoc.
Qed.
Lemma alone_iterate_free (k : iterator -> prog) d : alone (p_iterate_free k) d = alone (k (iterate_free d)) d.
Proof. unfold p_iterate_free. cbn [alone]. by rewrite alone_free_loop. Qed.
Lemma alone_find_free_range s n (k : res (list N) -> prog) d :
  alone (p_find_free_range s n k) d = alone (k (find_free_range d s n)) d.
Proof.
  unfold p_find_free_range, find_free_range. cbn [alone]. destruct (_ <? s); [done|]. destruct (_ <? _); [done|].
  by rewrite alone_iterate_free.
Qed.
Lemma alone_find_free_size n (k : res (list N) -> prog) d :
  alone (p_find_free_size n k) d = alone (k (find_free_size d n)) d.
Proof. unfold p_find_free_size, find_free_size. cbn [alone]. destruct (_ <? _); [done|]. by rewrite alone_iterate_free. Qed.
Lemma alone_add_all ids x (k : res unit -> prog) d :
  alone (p_add_all ids x k) d = alone (k (snd (add_all d ids x))) (fst (add_all d ids x)).
Proof.
  revert d. induction ids as [|id ids IH]; intros d; cbn [p_add_all add_all]; [done|].
  rewrite alone_add. destruct (add d (NewEntry id x)) as [d' [|v|]]; cbn [fst snd]; [apply IH|done..].
Qed.
Lemma alone_add_all_entries ids x acc (k : res (list (entry T)) -> prog) d :
  alone (p_add_all_entries ids x acc k) d = alone (k (snd (add_all_entries d ids x acc))) (fst (add_all_entries d ids x acc)).
Proof.
  revert d acc. induction ids as [|id ids IH]; intros d acc; cbn [p_add_all_entries add_all_entries]; [done|].
  rewrite alone_add. destruct (add d (NewEntry id x)) as [d' [|v|]]; cbn [fst snd]; [apply IH|done..].
Qed.
Lemma alone_values fuel it acc (k : res (list (option (entry T))) -> prog) d :
  alone (p_values fuel it acc k) d = alone (k (do vs <- drain_values fuel (t_map d) it; Ok (acc ++ vs))) d.
Proof.
  revert it acc. induction fuel as [|fuel IH]; intros it acc; cbn [p_values drain_values]; [done|].
  destruct (iter_next it) as [it' more]. destruct more; [|cbn [rbind]; by rewrite app_nil_r].
  unfold iter_value. destruct (iter_id it') as [key|x|]; cbn [alone rbind]; [|done..].
  rewrite IH. destruct (drain_values fuel (t_map d) it'); cbn [rbind]; [|done..]. by rewrite <- app_assoc.
Qed.

Lemma alone_method o d : alone (method o) d = step d o.
Proof.
  destruct o; cbn [method step]; unfold rlocked, locked; cbn [alone].
  - unfold get, p_validate. cbn [alone]. destruct (validate d id); cbn [alone rbind]; done.
  - rewrite alone_add. unfold claim. by destruct (add d (NewEntry id d0)).
  - rewrite alone_iterate_free. unfold claim_dynamic. destruct (iter_next (iterate_free d)) as [free more].
    destruct more; [|done]. destruct (iter_id free) as [fid| |]; [|done..]. rewrite alone_add.
    destruct (add d (NewEntry fid d0)) as [d' [| |]]; done.
  - rewrite alone_find_free_range. unfold claim_range. destruct (find_free_range d start size); [|done..].
    rewrite alone_add_all. by destruct (add_all d a d0).
  - rewrite alone_find_free_size. unfold claim_size. destruct (find_free_size d size); [|done..].
    rewrite alone_add_all_entries. by destruct (add_all_entries d a d0 []).
  - rewrite alone_delete. unfold release. by destruct (delete_ d id).
  - rewrite alone_update. unfold update_op. by destruct (update d (NewEntry id d0)).
  - done.
  - by rewrite alone_iterate_free.
  - done.
  - done.
  - done.
  - rewrite alone_iterate_free. unfold find_free. done.
  - by rewrite alone_find_free_range.
  - by rewrite alone_find_free_size.
  - unfold p_iterate. cbn [alone]. rewrite alone_values. unfold get_all. cbn [alone]. by destruct (drain_values _ _ _).
Qed.

(** ** Discipline *)
Section disc.
Context (nest wr : bool) (Rel : table T -> table T -> Prop) (Sto : entry T -> Prop).
Hypothesis Hstore : forall e d, Sto e -> Rel d (Table (t_size d) (<[e_id e := e]> (t_map d))).
Notation ok := (ok (D := table T) (R := out T) nest wr Rel).
Definition plain (g : mode) : Prop := g = MRead 1 \/ (g = MWrite /\ wr = true).
Ltac pl H := destruct H as [->|[-> Hwr]]; cbn [ok]; [|split; [done|]].

Lemma ok_read g k : plain g -> (forall d, ok g (k d)) -> ok g (Read k).
Proof. intros [->|[-> Hw]] Hk; cbn; [done|split; done]. Qed.
Lemma ok_validate g id k : plain g -> (forall v, ok g (k v)) -> ok g (p_validate id k).
Proof. intros Hp Hk. by apply ok_read. Qed.
Lemma ok_is_free g id k : plain g -> (forall v, ok g (k v)) -> ok g (p_is_free id k).
Proof. intros Hp Hk. by apply ok_read. Qed.
Lemma ok_add e k : wr = true -> Sto e -> (forall v, ok MWrite (k v)) -> ok MWrite (p_add e k).
Proof.
  intros Hw He Hk. apply ok_validate; [by right|]. intros [| |]; [|apply Hk..]. apply ok_is_free; [by right|].
  intros []; [|apply Hk]. split; [done|]. split; [intros d; by apply Hstore|]. apply Hk.
Qed.
Lemma ok_update e k : wr = true -> Sto e -> (forall v, ok MWrite (k v)) -> ok MWrite (p_update e k).
Proof.
  intros Hw He Hk. apply ok_validate; [by right|]. intros [| |]; [|apply Hk..]. apply ok_is_free; [by right|].
  intros []; [apply Hk|]. split; [done|]. split; [intros d; by apply Hstore|]. apply Hk.
Qed.
Definition may_delete : Prop := forall id d, Rel d (Table (t_size d) (delete id (t_map d))).
Lemma ok_delete id k : wr = true -> may_delete -> (forall v, ok MWrite (k v)) -> ok MWrite (p_delete id k).
Proof.
  intros Hw Hd Hk. apply ok_validate; [by right|]. intros [| |]; [|apply Hk..]. split; [done|].
  split; [intros d; apply Hd|]. apply Hk.
Qed.
Lemma ok_free_loop g n id keys k : plain g -> (forall v, ok g (k v)) -> ok g (p_free_loop n id keys k).
Proof.
  intros Hp Hk. revert id keys. induction n as [|n IH]; intros id keys; cbn [p_free_loop]; [apply Hk|].
  apply ok_is_free; [done|]. intros v. apply IH.
Qed.
Lemma ok_iterate_free g k : plain g -> (forall v, ok g (k v)) -> ok g (p_iterate_free k).
Proof. intros Hp Hk. apply ok_read; [done|]. intros d. apply ok_free_loop; [done|]. intros v. apply Hk. Qed.
Lemma ok_find_free_range g s n k : plain g -> (forall v, ok g (k v)) -> ok g (p_find_free_range s n k).
Proof.
  intros Hp Hk. apply ok_read; [done|]. intros d. destruct (_ <? s); [apply Hk|]. destruct (_ <? _); [apply Hk|].
  apply ok_iterate_free; [done|]. intros v. apply Hk.
Qed.
Lemma ok_find_free_size g n k : plain g -> (forall v, ok g (k v)) -> ok g (p_find_free_size n k).
Proof.
  intros Hp Hk. apply ok_read; [done|]. intros d. destruct (_ <? _); [apply Hk|].
  apply ok_iterate_free; [done|]. intros v. apply Hk.
Qed.
Lemma ok_add_all ids x k : wr = true -> (forall id, Sto (NewEntry id x)) -> (forall v, ok MWrite (k v)) -> ok MWrite (p_add_all ids x k).
Proof.
  intros Hw He Hk. induction ids as [|id ids IH]; cbn [p_add_all]; [apply Hk|]. apply ok_add; [done|done|].
  intros [| |]; [apply IH|apply Hk..].
Qed.
Lemma ok_add_all_entries ids x acc k : wr = true -> (forall id, Sto (NewEntry id x)) -> (forall v, ok MWrite (k v)) -> ok MWrite (p_add_all_entries ids x acc k).
Proof.
  intros Hw He Hk. revert acc. induction ids as [|id ids IH]; intros acc; cbn [p_add_all_entries]; [apply Hk|].
  apply ok_add; [done|done|]. intros [| |]; [apply IH|apply Hk..].
Qed.
Lemma ok_values g fuel it acc k : plain g -> (forall v, ok g (k v)) -> ok g (p_values fuel it acc k).
Proof.
  intros Hp Hk. revert it acc. induction fuel as [|fuel IH]; intros it acc; cbn [p_values]; [apply Hk|].
  destruct (iter_next it) as [it' more]. destruct more; [|apply Hk]. destruct (iter_id it'); [|apply Hk..].
  apply ok_read; [done|]. intros d. apply IH.
Qed.

(** The entries a call may store. *)
Definition stores (o : op T) (e : entry T) : Prop :=
  match o with
  | OClaim id x | OUpdate id x => e = NewEntry id x
  | OClaimDynamic x | OClaimRange _ _ x | OClaimSize _ x => exists id, e = NewEntry id x
  | _ => False
  end.
Definition releases (o : op T) : bool := match o with ORelease _ => true | _ => false end.

Lemma ok_method o : (nests o = true -> nest = true) -> (writes_table o = true -> wr = true) ->
  (releases o = true -> may_delete) -> (forall e, stores o e -> Sto e) -> ok MOut (method o).
Proof.
  intros Hn Hw Hd Hs. assert (Hpl : plain (MRead 1)) by by left.
  destruct o; cbn [nests writes_table releases stores method] in *; unfold rlocked, locked; cbn [ConcProofs.ok];
    try (specialize (Hw eq_refl); split; [done|]; assert (Hpw : plain MWrite) by (by right)).
  - apply ok_validate; [done|]. intros [| |]; [apply ok_read; [done|]; done|done..].
  - apply ok_add; eauto; done.
  - apply ok_iterate_free; [done|]. intros free. destruct (iter_next free) as [f []]; [|done].
    destruct (iter_id f); [|done..]. apply ok_add; eauto; done.
  - apply ok_find_free_range; [done|]. intros [| |]; [|done..]. apply ok_add_all; eauto; done.
  - apply ok_find_free_size; [done|]. intros [| |]; [|done..]. apply ok_add_all_entries; eauto; done.
  - apply ok_delete; [done|by apply Hd|done].
  - apply ok_update; eauto; done.
  - done.
  - apply ok_iterate_free; done.
  - done.
  - done.
  - done.
  - apply ok_iterate_free; done.
  - apply ok_find_free_range; done.
  - apply ok_find_free_size; done.
  - split; [by apply Hn|]. intros d. apply ok_values; done.
Qed.
End disc.

(** ** Executions of clients of a table *)
Notation client A := (client (table T) (out T) (op T) A).

Lemma seq_run_step d os : seq_run step d os = run d os.
Proof.
  revert d. induction os as [|o os IH]; intros d; cbn [seq_run run]; [done|].
  destruct (step d o) as [d1 r]. by rewrite IH.
Qed.

Lemma only_true {A} (p : client A) : only (fun _ => True) p.
Proof. induction p as [a|o k IH|k IH]; cbn; [done|split; [done|apply IH]|apply IH]. Qed.
Lemma safe_true {A} (p : client A) d : safe method (fun _ _ => True) (fun _ => True) p d.
Proof. revert d. induction p as [a|o k IH|k IH]; intros d; cbn; [done|intros d' _; apply IH|intros d' _; apply IH]. Qed.

Lemma idx_run {A} d0 (todo : list (list (client A))) sched s :
  sys_run method (start d0 todo) sched = Some s ->
  exists l d ns, explains step d0 todo s l d /\ length ns = length l /\
    (finished s -> forall c p, call_of todo c = Some p -> exists a, EEnd c a ∈ sy_hist s) /\
    (forall p n, ns !! p = Some n -> (n < length sched)%nat) /\
    (forall p q n m, (p < q)%nat -> ns !! p = Some n -> ns !! q = Some m -> (n < m)%nat) /\
    (forall p c x n, l !! p = Some (c, x) -> ns !! p = Some n ->
      exists s', sys_run method (start d0 todo) (take n sched) = Some s' /\ during (sy_hist s') c /\
        sy_data s' = fst (run d0 (log_ops (take p l)))).
Proof.
  intros Hr.
  assert (Hok : forall o : op T, True -> ok true true (fun _ _ => True) MOut (method o)).
  { intros o _. apply (ok_method _ _ _ (fun _ => True)); done. }
  destruct (Inv_run method (fun _ => True) true true (fun _ _ => True) (fun _ _ => True) (fun _ => I)
    (fun _ _ _ _ _ => I) Hok d0 todo sched s) as (l & d & gm & ns & HI & _ & H1 & H2 & H3 & H4).
  - intros c p _. apply safe_true.
  - apply only_start. apply Forall_true. intros ps. apply Forall_true. apply only_true.
  - done.
  - exists l, d, ns. split; [|split; [done|split; [|split; [done|split; [done|]]]]].
    + eapply explains_ext; [|by eapply Inv_explains]. intros d' o. apply alone_method.
    + intros Hf. eapply Inv_finished; [exact HI| |done]. apply run_length in Hr. rewrite Hr. cbn. by rewrite fmap_length.
    + intros p c x n Hp Hn. destruct (H4 p c x n Hp Hn) as (s' & Hs' & Hd & He). exists s'. split; [done|]. split; [done|].
      rewrite He. f_equal. rewrite <- seq_run_step. apply seq_run_ext. intros d' o. apply alone_method.
Qed.

(** No deadlock. *)
Lemma idx_progress {A} nest wr d0 (todo : list (list (client A))) sched s :
  nest = false \/ wr = false ->
  Forall (Forall (only (fun o => (nests o = true -> nest = true) /\ (writes_table o = true -> wr = true)))) todo ->
  sys_run method (start d0 todo) sched = Some s -> (forall i, sys_step method s i = None) ->
  finished s /\ forall c p, call_of todo c = Some p -> exists a, EEnd c a ∈ sy_hist s.
Proof.
  intros Hnw Ho Hr Hstuck.
  assert (Hok : forall o : op T, (nests o = true -> nest = true) /\ (writes_table o = true -> wr = true) ->
    ok nest wr (fun _ _ => True) MOut (method o)).
  { intros o [H1 H2]. apply (ok_method _ _ _ (fun _ => True)); done. }
  destruct (Inv_run method (fun o => (nests o = true -> nest = true) /\ (writes_table o = true -> wr = true))
    nest wr (fun _ _ => True) (fun _ _ => True) (fun _ => I)
    (fun _ _ _ _ _ => I) Hok d0 todo sched s) as (l & d & gm & ns & HI & _).
  - intros c p _. apply safe_true.
  - by apply only_start.
  - done.
  - assert (Hf : finished s).
    { assert (Hdec : finished s \/ ~ finished s).
      { unfold finished. clear. induction (sy_threads s) as [|th ths IH]; [left; intros i th H; done|].
        assert (Hd : (th_now th = Idle /\ th_todo th = []) \/ ~ (th_now th = Idle /\ th_todo th = [])).
        { destruct (th_now th) as [|?|? ? ?]; [|right; by intros [? ?]..]. destruct (th_todo th); [by left|right; by intros [? ?]]. }
        destruct Hd as [Hd|Hd]; [|right; intros H; apply Hd; by apply (H 0%nat)].
        destruct IH as [IH|IH]; [|right; intros H; apply IH; intros i t Ht; by apply (H (S i))].
        left. intros [|i] t Ht; [by injection Ht as <-|by apply (IH i)]. }
      destruct Hdec as [Hf|Hnf]; [done|]. destruct (Inv_progress _ _ _ _ _ _ _ _ _ _ _ Hnw HI Hnf) as (i & s' & Hs).
      by rewrite Hstuck in Hs. }
    split; [done|]. eapply Inv_finished; [exact HI| |done]. apply run_length in Hr. rewrite Hr. cbn. by rewrite fmap_length.
Qed.

(** No endless execution. *)
Lemma idx_terminates {A} (f : nat -> sys (table T) (out T) (op T) A) :
  ~ (forall n, exists i, sys_step method (f n) i = Some (f (S n))).
Proof.
  intros H. assert (Ha : forall s, Acc (step_rel method) s -> forall n, f n <> s).
  { intros s Hs. induction Hs as [s _ IH]. intros n <-. destruct (H n) as [i Hi]. eapply (IH (f (S n))); [by exists i|done]. }
  eapply (Ha (f 0%nat)); [apply Acc_sys|done].
Qed.

(** What every client returns. *)
Lemma idx_safe {A} (P : op T -> Prop) (Rel : table T -> table T -> Prop) (Q : cid -> A -> Prop)
    d0 (todo : list (list (client A))) sched s :
  (forall d, Rel d d) -> (forall d1 d2 d3, Rel d1 d2 -> Rel d2 d3 -> Rel d1 d3) ->
  (forall o e d, P o -> stores o e -> Rel d (Table (t_size d) (<[e_id e := e]> (t_map d)))) ->
  (forall o, P o -> releases o = true -> may_delete Rel) ->
  Forall (Forall (only P)) todo ->
  (forall c p, call_of todo c = Some p -> safe method Rel (Q c) p d0) ->
  sys_run method (start d0 todo) sched = Some s ->
  forall c a, EEnd c a ∈ sy_hist s -> Q c a.
Proof.
  intros Hrefl Htrans Hstore Hdel Ho Hsafe Hr c a Ha.
  assert (Hok : forall o : op T, P o -> ok true true Rel MOut (method o)).
  { intros o HP. apply (ok_method _ _ _ (fun e => exists o, P o /\ stores o e)); eauto. intros e d (o' & Ho' & He). by eapply Hstore. }
  destruct (Inv_run method P true true Rel Q Hrefl Htrans Hok d0 todo sched s) as (l & d & gm & ns & HI & _).
  - done.
  - by apply only_start.
  - done.
  - by apply (iv_end _ _ _ _ _ _ _ _ _ _ _ HI) in Ha as [HQ _].
Qed.
End methods.
