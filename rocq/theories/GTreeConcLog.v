(** Concurrent executions of tree16 and tree32 in which nothing is released: the
    tree after every prefix of the log, and what ClaimFree returns. *)
From Verif Require Export GTreeConcProofs.
From Verif Require Import GTreeProofs GTreeFinal GTreeLoop GTreeSpec.
From Coq Require Import Lia ZifyBool ZifyNat ZifyN.
Ltac Zify.zify_post_hook ::= idtac.

(** ** Calls of a log *)
Section log.
Context {Op R : Type}.
Notation log := (list (cid * (Op * R))).
Lemma calls_of_nodup (l : log) :
  (forall c x, (c, x) ∈ l -> (length (calls_of c l) <= 1)%nat) -> NoDup l.*1.
Proof.
  induction l as [|[c x] l IH]; intros H; cbn; [constructor|].
  assert (Hno : forall y, (c, y) ∉ l).
  { intros y Hy. specialize (H c x (elem_of_list_here _ _)). apply calls_of_in in Hy.
    change ((c, x) :: l) with ([(c, x)] ++ l) in H. rewrite calls_of_app, calls_of_one in H.
    destruct (calls_of c l); [by apply elem_of_nil in Hy|cbn in H; lia]. }
  constructor.
  - intros Hc. apply elem_of_list_fmap in Hc as ([c' y] & E & Hy). cbn in E. subst c'. by apply (Hno y).
  - apply IH. intros c' y Hy. specialize (H c' y (elem_of_list_further _ _ _ Hy)).
    change ((c, x) :: l) with ([(c, x)] ++ l) in H. rewrite calls_of_app, app_length in H. lia.
Qed.
Lemma calls_of_filter (f : Op -> bool) c (l : log) :
  calls_of c (filter (fun e => f (e.2.1) = true) l) = filter (fun x => f (x.1) = true) (calls_of c l).
Proof.
  induction l as [|[c' x] l IH]; [done|]. unfold calls_of in *.
  rewrite (filter_cons (fun e => f (e.2.1) = true)), (filter_cons (fun e => e.1 = c) (c', x) l). cbn [fst snd].
  destruct (decide (c' = c)) as [->|Hn].
  - rewrite fmap_cons, (filter_cons (fun x => f (x.1) = true)). cbn [fst snd]. destruct (decide (f x.1 = true)); [|apply IH].
    rewrite filter_cons_True by done. rewrite fmap_cons. cbn [snd]. by rewrite IH.
  - destruct (decide (f x.1 = true)); [|apply IH]. rewrite filter_cons_False by done. apply IH.
Qed.
(** Entries of which every call makes at most one are at most as many as calls. *)
Definition cids {X} (todo : list (list X)) : list cid :=
  mjoin (imap (fun i ps => (fun j => (i, j)) <$> seq 0 (length ps)) todo).
Lemma cids_in {X} (todo : list (list X)) c o : call_of todo c = Some o -> c ∈ cids todo.
Proof.
  unfold call_of, cids. destruct c as [i j]. cbn. destruct (todo !! i) as [ps|] eqn:Hi; [|done]. intros Hj.
  apply elem_of_list_join. exists ((fun j => (i, j)) <$> seq 0 (length ps)). split.
  - apply elem_of_list_fmap. exists j. split; [done|]. apply elem_of_seq. apply lookup_lt_Some in Hj. lia.
  - apply elem_of_lookup_imap. eauto.
Qed.
Lemma cids_length {X} (todo : list (list X)) : length (cids todo) = length (concat todo).
Proof.
  unfold cids.
  assert (H : forall k, length (mjoin (imap (fun i ps => (fun j => ((k + i)%nat, j)) <$> seq 0 (length ps)) todo)) = length (concat todo)).
  { induction todo as [|ps todo IH]; intros k; [done|]. cbn. rewrite !app_length, fmap_length, seq_length. f_equal.
    rewrite <- (IH (S k)). f_equal. f_equal. apply imap_ext. intros i x _. cbn. apply list_fmap_ext. intros ? j _. f_equal. lia. }
  apply (H 0%nat).
Qed.
Lemma count_calls {X} (todo : list (list X)) (f : Op -> bool) (l : log) :
  (forall c x, (c, x) ∈ l -> is_Some (call_of todo c) /\ (length (filter (fun x => f (x.1) = true) (calls_of c l)) <= 1)%nat) ->
  (length (filter (fun e => f (e.2.1) = true) l) <= length (concat todo))%nat.
Proof.
  intros H. rewrite <- cids_length, <- (fmap_length fst (filter _ l)). apply submseteq_length. apply NoDup_submseteq.
  - apply calls_of_nodup. intros c x Hx. rewrite calls_of_filter. apply elem_of_list_filter in Hx as [_ Hx]. by apply (H _ _ Hx).
  - intros c Hc. apply elem_of_list_fmap in Hc as ([c' x] & -> & Hx). apply elem_of_list_filter in Hx as [_ Hx].
    destruct (proj1 (H _ _ Hx)) as [o Ho]. by eapply cids_in.
Qed.
Lemma calls_of_two c x cs y (l : log) : calls_of c l = x :: cs -> y ∈ cs ->
  exists p q, (p < q)%nat /\ l !! p = Some (c, x) /\ l !! q = Some (c, y).
Proof.
  intros H Hy. revert H. induction l as [|[c' z] l IH]; [done|]. intros H.
  change ((c', z) :: l) with ([(c', z)] ++ l) in H. rewrite calls_of_app in H. destruct (decide (c' = c)) as [->|Hn].
  - rewrite calls_of_one in H. injection H as -> H.
    assert (Hin : (c, y) ∈ l) by (apply calls_of_in; by rewrite H).
    apply elem_of_list_lookup in Hin as [q Hq]. exists 0%nat, (S q). split; [lia|]. done.
  - rewrite calls_of_other in H by done. destruct (IH H) as (p & q & Hpq & Hp & Hq). exists (S p), (S q). split; [lia|]. done.
Qed.

End log.

Section tree.
Context {L : Type} (lstr : L -> string) (c : gcfg) (Hc : c ∈ g_packages_16_32) (n : N).
Notation w := (gw c).
Notation gmethod := (gmethod lstr c).
Notation spec := (fun d o => alone (gmethod o) d).
Notation log := (list (cid * (gmeth L * gout L))).
Implicit Types (g : gtree L) (m : record L) (l : log).

(** The methods of calls that neither release nor claim a range. *)
Definition set_ok (o : gmeth L) : Prop :=
  match o with
  | MSet x e => gid_ok c x /\ exists lb, e = new_entry x lb
  | MDel _ _ | MDelAll _ | MSetUnlocked _ _ => False
  | _ => True
  end.
Definition is_set (o : gmeth L) : bool := match o with MSet _ _ => true | _ => false end.
Definition rec_step m (o : gmeth L) : record L := match o with MSet x e => <[prefix w x := e]> m | _ => m end.
Definition rec_at m l (p : nat) : record L := fold_left rec_step (log_ops (take p l)) m.
Definition sets l : nat := length (filter (fun e => is_set (e.2.1) = true) l).

Lemma rec_at_S m l p k o x : l !! p = Some (k, (o, x)) -> rec_at m l (S p) = rec_step (rec_at m l p) o.
Proof.
  intros Hp. unfold rec_at, log_ops. rewrite (take_S_r _ _ _ Hp), fmap_app, fold_left_app. done.
Qed.
Lemma rec_at_mono m l p q key : (p <= q <= length l)%nat -> is_Some (rec_at m l p !! key) -> is_Some (rec_at m l q !! key).
Proof.
  intros [Hpq Hq] H. induction Hpq as [|q Hpq IH]; [done|]. specialize (IH ltac:(lia)).
  destruct (lookup_lt_is_Some_2 l q) as [[k [o x]] Hl]; [lia|]. rewrite (rec_at_S _ _ _ _ _ _ Hl).
  destruct o as [| | | |x' e| | |]; cbn [rec_step]; try done.
  destruct (decide (key = prefix w x')) as [->|Hn]; [rewrite lookup_insert; eauto|by rewrite lookup_insert_ne].
Qed.
Lemma sets_S l p k o x : l !! p = Some (k, (o, x)) -> sets (take (S p) l) = (sets (take p l) + if is_set o then 1 else 0)%nat.
Proof.
  intros Hp. unfold sets. rewrite (take_S_r _ _ _ Hp), filter_app, app_length. f_equal.
  destruct (is_set o) eqn:Ho; [rewrite filter_cons_True by done|rewrite filter_cons_False by (cbn; congruence)]; done.
Qed.
Lemma sets_le l p : (sets (take p l) <= sets l)%nat.
Proof. unfold sets. rewrite <- (take_drop p l) at 2. rewrite filter_app, app_length. lia. Qed.
Lemma rec_at_size m l p : (p <= length l)%nat -> (size (rec_at m l p) <= size m + sets (take p l))%nat.
Proof.
  induction p as [|p IH]; intros Hp; [change (rec_at m l 0) with m; lia|]. specialize (IH ltac:(lia)).
  destruct (lookup_lt_is_Some_2 l p) as [[k [o x]] Hl]; [lia|]. rewrite (rec_at_S _ _ _ _ _ _ Hl), (sets_S _ _ _ _ _ Hl).
  destruct o as [| | | |x' e| | |]; cbn [rec_step is_set]; try lia.
  pose proof (size_insert (rec_at m l p) (prefix w x') e). lia.
Qed.
Lemma log_inv m g l p : GInv c n m g -> fits c m (sets l) -> (forall k o x, (k, (o, x)) ∈ l -> set_ok o) ->
  (p <= length l)%nat -> GInv c n (rec_at m l p) (log_at spec g l p).
Proof.
  intros HG Hf Hl. induction p as [|p IH]; intros Hp; [done|]. specialize (IH ltac:(lia)).
  destruct (lookup_lt_is_Some_2 l p) as [[k [o x]] Hlp]; [lia|].
  rewrite (rec_at_S _ _ _ _ _ _ Hlp), (log_at_S _ _ _ _ _ _ _ Hlp), alone_gmethod.
  assert (Ho : set_ok o) by (eapply Hl, elem_of_list_lookup_2, Hlp).
  pose proof (sets_S _ _ _ _ _ Hlp) as HS. pose proof (sets_le l (S p)) as Hle.
  pose proof (rec_at_size m l p ltac:(lia)) as Hsz.
  destruct o as [| | | |x' e| | |]; cbn [rec_step g_spec fst is_set] in *; try done.
  destruct Ho as (Hx & lb & ->).
  destruct (set_spec lstr c Hc n (rec_at m l p) (log_at spec g l p) x' lb IH Hx) as (g' & -> & HG').
  { destruct Hf as [Hf|Hf]; [by left|right; lia]. }
  done.
Qed.

(** ** The calls *)
Lemma find_free_in_lt g b es v : find_free_in c g b es = Ok v -> v < 2 ^ w.
Proof.
  unfold find_free_in. intros H.
  destruct (remove_all c b es) as [b'| |]; cbn [rbind] in H; [|done..].
  destruct (ip_set (gc_id c) b') as [[b2 [s es']]| |]; cbn [rbind fst snd] in H; [|done..].
  destruct es'; [|done].
  destruct (remove_free_prefix _ _ _) as [[[x r]|]| |]; cbn [rbind] in H; [|done..].
  destruct (g_validate g x); cbn [rbind] in H; [|done..]. injection H as <-. unfold uwrap. apply N.mod_lt. lia.
Qed.
Lemma find_free_in_size g g' b es : g_size g = g_size g' -> find_free_in c g b es = find_free_in c g' b es.
Proof. intros H. unfold find_free_in, g_validate. by rewrite H. Qed.

Lemma call_sets g0 o : g_ranges o = false -> g_releases o = false -> g_args_ok c o -> only set_ok (gcall_client c g0 o).
Proof.
  intros H1 H2 H3. destruct o as [x|x lb|x lb|lb|s lb|x|sel|x|x|sel| |]; cbn [gcall_client g_ranges g_releases g_args_ok] in *;
    try discriminate H1; try discriminate H2; try (cbn [only set_ok]; done).
  - destruct (g_validate g0 x); cbn [only set_ok]; [|done..]. split; [split; eauto|done].
  - destruct (g_validate g0 x); cbn [only set_ok]; [|done..]. split; [split; eauto|done].
  - unfold c_g_find_free. destruct (add_id _ _ _) as [b|e|]; cbn [only]; [|done..]. split; [done|]. intros r.
    destruct (do es <- as_vals r; find_free_in c g0 b es) as [v|e|] eqn:Hv; cbn [only set_ok]; [|done..].
    split; [|done]. split; [|eauto]. destruct (as_vals r) as [es| |]; cbn [rbind] in Hv; [|done..].
    split; cbn [i_id i_len]; [by eapply find_free_in_lt|lia].
  - apply c_for_only; [done|intros; by apply label_body_only|done].
  - apply c_for_only; [done|intros; by apply all_body_only|done].
  - apply c_for_only; [done|intros; unfold c_size_body; auto|done].
Qed.

(** Every call sets at most once. *)
Fixpoint sets_once (b : bool) (p : client (gtree L) (gout L) (gmeth L) (gcout L)) : Prop :=
  match p with
  | CRet _ => True
  | CCall o k => (is_set o = true -> b = true) /\ forall r, sets_once (b && negb (is_set o)) (k r)
  | CPeek k => forall d, sets_once b (k d)
  end.
Lemma sets_once_follows b p cs q : follows p cs q -> sets_once b p ->
  (length (filter (fun x => is_set (x.1) = true) cs) <= if b then 1 else 0)%nat.
Proof.
  intros H. revert b. induction H as [p|o k r cs q H IH|k d cs q H IH]; intros b Hb; cbn [sets_once] in Hb.
  - cbn. lia.
  - destruct Hb as [Hb1 Hb2]. specialize (IH _ (Hb2 r)). destruct (is_set o) eqn:Ho.
    + rewrite filter_cons_True by done. rewrite (Hb1 eq_refl) in *. cbn in *. lia.
    + rewrite filter_cons_False by (cbn; congruence). rewrite andb_true_r in IH. done.
  - by apply IH.
Qed.
Lemma c_for_once {A} b body (a : A) k :
  (forall it a k, (forall r, sets_once b (k r)) -> sets_once b (body it a k)) -> (forall r, sets_once b (k r)) -> sets_once b (c_for body a k).
Proof.
  intros Hb Hk. cbn [c_for sets_once is_set negb]. rewrite andb_true_r. split; [done|]. intros nn.
  generalize (S (N.to_nat (as_nodes nn))) iterate. intros fuel it.
  revert a it. induction fuel as [|fuel IH]; intros a it; cbn [c_loop sets_once]; [done|]. intros g.
  destruct (iter_next (g_tree g) it) as [[it' []]|e|]; cbn [fst snd]; try apply Hk. apply Hb. intros [a'|e|]; auto.
Qed.
Lemma label_body_once b sel it es k : (forall r, sets_once b (k r)) -> sets_once b (c_label_body sel it es k).
Proof.
  intros Hk. cbn [c_label_body sets_once]. intros g. destruct (do v <- it_entry g it; non_nil v) as [e|e|]; [|done..].
  destruct (sel (te_labels e)); [|done]. cbn [sets_once]. done.
Qed.
Lemma call_sets_once g0 o : g_ranges o = false -> sets_once true (gcall_client c g0 o).
Proof.
  intros H1. destruct o as [x|x lb|x lb|lb|s lb|x|sel|x|x|sel| |]; cbn [gcall_client g_ranges] in *; try discriminate H1; try done.
  - destruct (g_validate g0 x); done.
  - destruct (g_validate g0 x); done.
  - unfold c_g_find_free. destruct (add_id _ _ _) as [b|e|]; cbn [sets_once]; [|done..]. split; [done|]. intros r.
    destruct (do es <- as_vals r; find_free_in c g0 b es); done.
  - destruct (g_validate g0 x); [|done..]. cbn [sets_once]. split; [done|]. intros r. destruct (as_gentry r); done.
  - apply c_for_once; [intros; by apply label_body_once|]. intros [es|e|]; done.
  - apply c_for_once; [intros; by apply label_body_once|done].
  - apply c_for_once; [intros it es k Hk; cbn [c_all_body sets_once]; done|done].
  - apply c_for_once; [intros it es k Hk; apply Hk|done].
Qed.

(** What a ClaimFree that has returned has done. *)
Lemma follows_claim_free g0 lb cs e : follows (gcall_client c g0 (CClaimFree lb)) cs (CRet (GREntry (Ok e))) ->
  exists b x v u, add_id (gc_id c) builder_zero (MyId 0 (gc_root c (g_length g0))) = Ok b /\
    (do es <- as_vals x; find_free_in c g0 b es) = Ok v /\ e = TEntry v w lb /\ as_done u = Ok tt /\
    cs = [(MChildren (MyId 0 (gc_root c (g_length g0))), x); (MSet (MyId v w) (new_entry (MyId v w) lb), u)].
Proof.
  cbn [gcall_client]. unfold c_g_find_free.
  destruct (add_id (gc_id c) builder_zero (MyId 0 (gc_root c (g_length g0)))) as [b|e'|]; [|intros H; apply follows_ret in H as [_ H]; discriminate H..].
  intros H. apply follows_ccall in H as (x & cs' & -> & H).
  destruct (do es <- as_vals x; find_free_in c g0 b es) as [v|e'|] eqn:Hv; [|apply follows_ret in H as [_ H]; discriminate H..].
  apply follows_ccall in H as (u & cs2 & -> & H). apply follows_ret in H as [-> H].
  destruct (as_done u) as [[]|e'|] eqn:Hu; cbn [rbind] in H; try discriminate H. injection H as <-.
  exists b, x, v, u. done.
Qed.
End tree.
