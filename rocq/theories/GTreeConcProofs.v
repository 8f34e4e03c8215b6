(** The locked regions of the trees obey the lock discipline and compute, when run
    alone, what the sequential model computes. *)
From Verif Require Export GTreeConcSpec ConcLocks.
From Verif Require Import GTreeProofs GTreeLoop.
From Coq Require Import Lia ZifyBool ZifyNat ZifyN.
Ltac Zify.zify_post_hook ::= idtac.

Section methods.
Context {L : Type} (lstr : L -> string) (c : gcfg).
Notation gmethod := (gmethod lstr c).
Notation prog := (prog (gtree L) (gout L)).
Implicit Types (g : gtree L).

(** ** Run alone *)
Definition keep g (r : res (gtree L)) : gtree L := match r with Ok g' => g' | _ => g end.
Definition unit_of (r : res (gtree L)) : res unit := do _ <- r; Ok tt.
Definition g_spec g (o : gmeth L) : gtree L * gout L :=
  match o with
  | MGet x => (g, OutEntry (g_get g x))
  | MChildren x => (g, OutVals (g_children c g x))
  | MParents x => (g, OutVals (g_parents c g x))
  | MIterate => (g, OutNodes (t_n (g_tree g)))
  | MSet x e | MSetUnlocked x e => (keep g (g_set c g x e), OutUnit (unit_of (g_set c g x e)))
  | MDel x v => (keep g (g_del lstr c g x v), OutUnit (unit_of (g_del lstr c g x v)))
  | MDelAll es => alone (gmethod o) g
  end.

Lemma alone_loop {A} fuel body (a : A) it (k : res A -> prog) g :
  alone (p_loop fuel body a it k) g = alone (k (g_loop fuel g (body g) a it)) g.
Proof.
  revert a it. induction fuel as [|fuel IH]; intros a it; cbn [p_loop g_loop alone]; [done|].
  destruct (iter_next (g_tree g) it) as [[it' b]|e|]; cbn [rbind fst snd]; [|done..].
  destruct b; [|done]. destruct (body g it' a) as [[a' b']|e|]; cbn [rbind fst snd]; [|done..].
  destruct b'; [done|apply IH].
Qed.
Lemma alone_gmethod o g : alone (gmethod o) g = g_spec g o.
Proof.
  destruct o; cbn [GTreeConcModel.gmethod g_spec]; unfold p_for; cbn [alone]; try reflexivity;
    rewrite alone_loop; reflexivity.
Qed.

(** ** The lock discipline *)
Definition locked_meth (o : gmeth L) : Prop := match o with MSetUnlocked _ _ => False | _ => True end.
Definition m_nests (o : gmeth L) : bool := match o with MGet _ | MChildren _ | MParents _ => true | _ => false end.
Definition m_writes (o : gmeth L) : bool := match o with MSet _ _ | MDel _ _ | MDelAll _ => true | _ => false end.
Definition meth_ok (nest wr : bool) (o : gmeth L) : Prop :=
  locked_meth o /\ (m_nests o = true -> nest = true) /\ (m_writes o = true -> wr = true).
Context (nest wr : bool).
Notation ok := (ok nest wr (fun _ _ => True)).
Lemma ok_loop {A} n fuel body (a : A) it (k : res A -> prog) : (forall v, ok (MRead n) (k v)) ->
  ok (MRead n) (p_loop fuel body a it k).
Proof.
  intros Hk. revert a it. induction fuel as [|fuel IH]; intros a it; cbn [p_loop]; [apply Hk|].
  cbn [ConcProofs.ok]. intros g. destruct (iter_next (g_tree g) it) as [[it' b]|e|]; cbn [fst snd]; [|apply Hk..].
  destruct b; [|apply Hk]. destruct (body g it' a) as [[a' b']|e|]; cbn [fst snd]; [|apply Hk..].
  destruct b'; [apply Hk|apply IH].
Qed.
Lemma ok_for {A} body (a : A) (f : res A -> gout L) : nest = true -> ok MOut (p_for body a f).
Proof. intros Hn. unfold p_for. cbn [ConcProofs.ok]. split; [done|]. intros g. apply ok_loop. intros v. cbn [ConcProofs.ok]. done. Qed.
Lemma ok_modify f (k : res unit -> prog) : wr = true -> (forall u, ok MWrite (k u)) -> ok MWrite (p_modify f k).
Proof. intros Hw Hk. cbn. split; [done|]. intros g. split; [done|]. split; [done|apply Hk]. Qed.
Lemma ok_del_all es (k : res unit -> prog) : wr = true -> (forall u, ok MWrite (k u)) -> ok MWrite (p_del_all lstr c es k).
Proof.
  intros Hw Hk. induction es as [|v es IH]; cbn [p_del_all]; [apply Hk|].
  destruct (non_nil v); [|apply Hk..]. apply ok_modify; [done|]. intros [| |]; [apply IH|apply Hk..].
Qed.
Lemma ok_gmethod o : meth_ok nest wr o -> ok MOut (gmethod o).
Proof.
  intros (H1 & H2 & H3). destruct o; cbn [GTreeConcModel.gmethod m_nests m_writes locked_meth] in *.
  - by apply ok_for, H2.
  - by apply ok_for, H2.
  - by apply ok_for, H2.
  - done.
  - specialize (H3 eq_refl). split; [done|]. apply ok_modify; [done|]. intros u. cbn. done.
  - specialize (H3 eq_refl). split; [done|]. apply ok_modify; [done|]. intros u. cbn. done.
  - specialize (H3 eq_refl). split; [done|]. apply ok_del_all; [done|]. intros u. cbn. done.
  - done.
Qed.
Definition lmeth_ok (o : gmeth L) : Prop := (m_nests o = true -> nest = true) /\ (m_writes o = true -> wr = true).
Lemma lok_gmethod o : lmeth_ok o -> lok nest wr MOut (gmethod o).
Proof.
  intros [H2 H3]. destruct o; try (apply (ok_lok nest wr (fun _ _ => True) MOut), ok_gmethod; by split). done.
Qed.
End methods.

Section calls.
Context {L : Type} (lstr : L -> string) (c : gcfg).
Notation gmethod := (gmethod lstr c).
Implicit Types (g : gtree L).

(** ** The calls run alone *)
Lemma find_free_split g : g_find_free c g =
  (let root := MyId 0 (gc_root c (g_length g)) in
   do b <- add_id (gc_id c) builder_zero root;
   do es <- g_children c g root; find_free_in c g b es).
Proof. reflexivity. Qed.

Definition not_failed (r : gcout L) : Prop :=
  match r with GREntry (Ok _) | GRVals (Ok _) | GRUnit (Ok _) | GRSize (Ok _) => True | _ => False end.
Lemma set_all_alone ids l g : exists g', client_alone gmethod (c_set_all ids l) g =
    (g', GRUnit (unit_of (set_all c g ids l))) /\ (forall g1, set_all c g ids l = Ok g1 -> g' = g1).
Proof.
  revert g. induction ids as [|x ids IH]; intros g; cbn [c_set_all client_alone set_all].
  - exists g. split; [done|]. by intros g1 [= <-].
  - rewrite alone_gmethod. cbn [g_spec as_done]. destruct (g_set c g x (new_entry x l)) as [g1|e|]; cbn [rbind unit_of keep client_alone].
    + apply IH.
    + exists g. done.
    + exists g. done.
Qed.
Lemma del_all_alone es g : exists g', alone (gmethod (MDelAll es)) g = (g', OutUnit (unit_of (del_all lstr c g es))) /\
  (forall g1, del_all lstr c g es = Ok g1 -> g' = g1).
Proof.
  cbn [GTreeConcModel.gmethod alone]. revert g. induction es as [|v es IH]; intros g; cbn [p_del_all del_all alone].
  - exists g. split; [done|]. by intros g1 [= <-].
  - destruct (non_nil v) as [e|e|]; cbn [rbind].
    + unfold p_modify. cbn [alone]. destruct (g_del lstr c g (eid e) v) as [g1|x|]; cbn [rbind alone].
      * apply IH.
      * exists g. done.
      * exists g. done.
    + exists g. done.
    + exists g. done.
Qed.
Lemma c_loop_alone {A} fuel (body : iter -> A -> (res A -> _) -> _) gbody (a : A) it k g :
  (forall it a k, client_alone gmethod (body it a k) g = client_alone gmethod (k (gbody it a)) g) ->
  client_alone gmethod (c_loop fuel body a it k) g =
  client_alone gmethod (k (g_loop fuel g (fun it a => do a' <- gbody it a; Ok (a', false)) a it)) g.
Proof.
  intros Hb. revert a it. induction fuel as [|fuel IH]; intros a it; cbn [c_loop g_loop client_alone]; [done|].
  destruct (iter_next (g_tree g) it) as [[it' b]|e|]; cbn [rbind fst snd]; [|done..].
  destruct b; [|done]. rewrite Hb. destruct (gbody it' a) as [a'|e|]; cbn [rbind fst snd]; [apply IH|done..].
Qed.
Lemma g_loop_ext {A} fuel g (b1 b2 : iter -> A -> res (A * bool)) a it : (forall it a, b1 it a = b2 it a) ->
  g_loop fuel g b1 a it = g_loop fuel g b2 a it.
Proof.
  intros H. revert a it. induction fuel as [|fuel IH]; intros a it; cbn [g_loop]; [done|].
  destruct (iter_next (g_tree g) it) as [[it' b]|e|]; cbn [rbind fst snd]; [|done..].
  destruct b; [|done]. rewrite H. destruct (b2 it' a) as [[a' []]|e|]; cbn [rbind fst snd]; auto.
Qed.
Lemma c_for_alone {A} (body : iter -> A -> (res A -> _) -> _) gbody gbody' (a : A) k g :
  (forall it a k, client_alone gmethod (body it a k) g = client_alone gmethod (k (gbody it a)) g) ->
  (forall it a, gbody' it a = do a' <- gbody it a; Ok (a', false)) ->
  client_alone gmethod (c_for body a k) g = client_alone gmethod (k (g_for g gbody' a)) g.
Proof.
  intros Hb Hb'. unfold c_for. cbn [client_alone]. rewrite alone_gmethod. cbn [g_spec as_nodes].
  rewrite (c_loop_alone _ _ gbody) by done. unfold g_for. erewrite g_loop_ext; [done|]. intros. by rewrite Hb'.
Qed.
Lemma label_alone sel k g :
  client_alone gmethod (c_for (c_label_body sel) [] k) g = client_alone gmethod (k (g_get_by_label g sel)) g.
Proof.
  unfold g_get_by_label.
  apply (c_for_alone _ (fun it es => do v <- it_entry g it; do e <- non_nil v; Ok (if sel (te_labels e) then es ++ [v] else es))).
  - intros it es k'. unfold c_label_body. cbn [client_alone]. destruct (it_entry g it) as [v|e|] eqn:Hv; cbn [rbind]; [|done..].
    destruct (non_nil v) as [e|e|]; cbn [rbind]; [|done..]. destruct (sel (te_labels e)); [|done]. cbn [client_alone].
    by rewrite Hv.
  - intros it es. destruct (it_entry g it) as [v|e|]; cbn [rbind]; [|done..]. by destruct (non_nil v).
Qed.
Lemma all_alone k g : client_alone gmethod (c_for c_all_body [] k) g = client_alone gmethod (k (g_get_all g)) g.
Proof.
  unfold g_get_all. apply (c_for_alone _ (fun it es => do v <- it_entry g it; Ok (es ++ [v]))); [done|].
  intros it es. by destruct (it_entry g it).
Qed.
Lemma size_alone k g : client_alone gmethod (c_for c_size_body 0 k) g = client_alone gmethod (k (g_Size g)) g.
Proof. unfold g_Size. by apply (c_for_alone _ (fun it n => Ok (n + 1))). Qed.
Lemma call_alone g o :
  let a := client_alone gmethod (gcall_client c g o) g in
  snd a = snd (g_seq lstr c g o) /\ (not_failed (snd a) -> fst a = fst (g_seq lstr c g o)).
Proof.
  destruct o as [x|x l|x l|l|s l|x|sel|x|x|sel| |]; cbn zeta; cbn [gcall_client g_seq client_alone].
  - rewrite alone_gmethod. done.
  - unfold g_update. destruct (g_validate g x) as [[]|e|]; cbn [rbind client_alone]; [|done..]. rewrite alone_gmethod. cbn [g_spec as_done].
    destruct (g_set c g x (new_entry x l)); done.
  - unfold g_claim_id. destruct (g_validate g x) as [[]|e|]; cbn [rbind client_alone]; [|done..]. rewrite alone_gmethod. cbn [g_spec as_done].
    destruct (g_set c g x (new_entry x l)); done.
  - unfold g_claim_free, c_g_find_free. rewrite find_free_split. cbv zeta.
    destruct (add_id (gc_id c) builder_zero (MyId 0 (gc_root c (g_length g)))) as [b|e|]; cbn [rbind client_alone]; [|done..].
    rewrite alone_gmethod. cbn [g_spec as_vals].
    destruct (do es <- g_children c g (MyId 0 (gc_root c (g_length g))); find_free_in c g b es) as [v|e|]; cbn [rbind client_alone]; [|done..].
    rewrite alone_gmethod. cbn [g_spec as_done]. destruct (g_set c g _ _); done.
  - unfold g_claim_range. destruct (parse_range (gc_id c) s) as [r|e|]; cbn [rbind client_alone]; [|done..].
    destruct (range_ids (gc_id c) r) as [ids|e|]; cbn [client_alone rbind]; [|done..].
    destruct (set_all_alone ids l g) as (g' & -> & Hg). cbn [snd fst]. destruct (set_all c g ids l) as [g1|e|]; cbn; [|done..].
    split; [done|]. intros _. by apply Hg.
  - unfold g_release_id. destruct (g_validate g x) as [[]|e|]; cbn [rbind client_alone]; [|done..]. rewrite alone_gmethod. cbn [g_spec as_gentry].
    destruct (g_get g x) as [e|e|]; cbn [client_alone]; [|done..]. rewrite alone_gmethod. cbn [g_spec as_done].
    destruct (g_del lstr c g x (Some e)); done.
  - rewrite label_alone. unfold g_release_by_label. destruct (g_get_by_label g sel) as [es|e|]; cbn [rbind client_alone]; [|done..].
    destruct (del_all_alone es g) as (g' & -> & Hg). cbn [as_done client_alone snd fst]. destruct (del_all lstr c g es) as [g1|e|]; cbn; [|done..].
    split; [done|]. intros _. by apply Hg.
  - rewrite alone_gmethod. done.
  - rewrite alone_gmethod. done.
  - rewrite label_alone. done.
  - rewrite all_alone. done.
  - rewrite size_alone. done.
Qed.

(** ** The methods the calls use *)
Lemma find_free_only (P : gmeth L -> Prop) g0 k : (forall x, P (MChildren x)) -> (forall v, only P (k v)) ->
  only P (c_g_find_free c g0 k).
Proof. intros HP Hk. unfold c_g_find_free. destruct (add_id _ _ _); cbn; [split; [apply HP|intros r; apply Hk]|apply Hk..]. Qed.
Lemma c_for_only {A} (P : gmeth L -> Prop) body (a : A) k : P MIterate ->
  (forall it a k, (forall r, only P (k r)) -> only P (body it a k)) -> (forall r, only P (k r)) -> only P (c_for body a k).
Proof.
  intros HP Hb Hk. cbn [c_for only]. split; [done|]. intros n. generalize (S (N.to_nat (as_nodes n))) iterate. intros fuel it.
  revert a it. induction fuel as [|fuel IH]; intros a it; cbn [c_loop only]; [done|]. intros g.
  destruct (iter_next (g_tree g) it) as [[it' []]|e|]; cbn [fst snd]; try apply Hk. apply Hb. intros [a'|e|]; auto.
Qed.
Lemma label_body_only (P : gmeth L -> Prop) sel it es k : (forall r, only P (k r)) -> only P (c_label_body sel it es k).
Proof.
  intros Hk. cbn [c_label_body only]. intros g. destruct (do v <- it_entry g it; non_nil v) as [e|e|]; [|done..].
  destruct (sel (te_labels e)); [|done]. cbn [only]. done.
Qed.
Lemma all_body_only (P : gmeth L -> Prop) it es k : (forall r, only P (k r)) -> only P (c_all_body it es k).
Proof. intros Hk. cbn [c_all_body only]. done. Qed.
Lemma call_only nest wr g0 o : g_ranges o = false -> (g_nests o = true -> nest = true) -> (g_writes o = true -> wr = true) ->
  only (meth_ok nest wr) (gcall_client c g0 o).
Proof.
  intros H1 H2 H3. destruct o as [x|x l|x l|l|s l|x|sel|x|x|sel| |]; cbn [gcall_client g_nests g_writes g_ranges] in *; try discriminate H1.
  - cbn [only]. split; [|done]. split; done.
  - destruct (g_validate g0 x); cbn [only]; [split; [|done]; split; done|done..].
  - destruct (g_validate g0 x); cbn [only]; [split; [|done]; split; done|done..].
  - apply find_free_only; [intros; split; done|]. intros [v|e|]; cbn [only]; [split; [|done]; split; done|done..].
  - destruct (g_validate g0 x); cbn [only]; [|done..]. split; [split; done|]. intros r. destruct (as_gentry r); cbn [only]; [split; [|done]; split; done|done..].
  - apply c_for_only; [by split|intros; by apply label_body_only|]. intros [es|e|]; cbn [only]; [split; [|done]; split; done|done..].
  - cbn [only]. split; [|done]. split; done.
  - cbn [only]. split; [|done]. split; done.
  - apply c_for_only; [by split|intros; by apply label_body_only|done].
  - apply c_for_only; [by split|intros; by apply all_body_only|done].
  - apply c_for_only; [by split|intros; unfold c_size_body; auto|done].
Qed.
Lemma call_only_locks nest wr g0 o : (g_nests o = true -> nest = true) -> (g_write_locks o = true -> wr = true) ->
  only (lmeth_ok nest wr) (gcall_client c g0 o).
Proof.
  intros H2 H3. destruct (g_ranges o) eqn:Hr.
  - destruct o; try discriminate Hr. cbn [gcall_client]. destruct (do r <- parse_range (gc_id c) s; range_ids (gc_id c) r) as [ids|e|]; [|done..].
    induction ids as [|x ids IH]; cbn [c_set_all only]; [done|]. split; [done|]. intros u. destruct (as_done u); [apply IH|done..].
  - eapply only_mono; [|apply (call_only nest wr); [done|done|]].
    + intros o' (_ & H). apply H.
    + intros Hw. apply H3. by destruct o.
Qed.
Lemma call_no_peek g0 o : g_locked o = true -> no_peek (gcall_client c g0 o).
Proof.
  intros H. destruct o as [x|x l|x l|l|s l|x|sel|x|x|sel| |]; cbn [gcall_client g_locked] in *; try done.
  - destruct (g_validate g0 x); cbn [no_peek]; done.
  - destruct (g_validate g0 x); cbn [no_peek]; done.
  - unfold c_g_find_free. destruct (add_id _ _ _) as [b|e|]; cbn [no_peek]; try done. intros r.
    destruct (do es <- as_vals r; find_free_in c g0 b es); cbn [no_peek]; done.
  - destruct (g_validate g0 x); cbn [no_peek]; [|done..]. intros r. destruct (as_gentry r); cbn [no_peek]; done.
Qed.
End calls.
