(** Concurrent executions of tree16 and tree32 with ReleaseID: a release whose
    deletion comes too late takes effect before the claim that overtook it. *)
From Verif Require Import ConcLin IdProofs IdFinal TreeFinal TreeMain.
From Verif Require Export GTreeConcLog GTreeConcSpec.
From Verif Require Import GTreeProofs GTreeFinal GTreeLoop TreeSpec GTreeSpec.
From Coq Require Import Lia ZifyBool ZifyNat ZifyN.
Ltac Zify.zify_post_hook ::= idtac.

Section tree.
Context {L : Type} (lstr : L -> string) (c : gcfg) (Hc : c ∈ g_packages_16_32) (n : N).
Notation w := (gw c).
Notation zero := (@None (tentry L)).
Notation gmethod := (gmethod lstr c).
Notation spec := (fun d o => alone (gmethod o) d).
Notation log := (list (cid * (gmeth L * gout L))).
Implicit Types (g : gtree L) (m : record L) (l : log).

Let Hcc := gpack c Hc.
Let Hwide : wide (option (tentry L)) (gc_id c) := proj1 (wide_16_32 _ _ Hcc).
Let Hw : w ∈ [16; 32; 64] := proj2 (wide_16_32 (option (tentry L)) _ Hcc).
Local Existing Instance Hwide.

(** ** The record along the log *)
Definition del_ok (o : gmeth L) : Prop :=
  match o with
  | MSet x e => gid_ok c x /\ exists lb, e = new_entry x lb
  | MDel x v => gid_ok c x /\ v <> None
  | MDelAll _ | MSetUnlocked _ _ => False
  | _ => True
  end.
Definition del_rec m (x : id) (v : option (tentry L)) : record L :=
  match m !! prefix w x with
  | Some e' => if match_entry lstr (Some e') v then delete (prefix w x) m else m
  | None => m
  end.
Definition drec_step m (o : gmeth L) : record L :=
  match o with MSet x e => <[prefix w x := e]> m | MDel x v => del_rec m x v | _ => m end.
Definition drec_at m l (p : nat) : record L := fold_left drec_step (log_ops (take p l)) m.

Lemma drec_at_S m l p k o x : l !! p = Some (k, (o, x)) -> drec_at m l (S p) = drec_step (drec_at m l p) o.
Proof. intros Hp. unfold drec_at, log_ops. rewrite (take_S_r _ _ _ Hp), fmap_app, fold_left_app. done. Qed.
Lemma del_rec_size m x v : (size (del_rec m x v) <= size m)%nat.
Proof.
  unfold del_rec. destruct (m !! prefix w x) as [e|]; [|done]. destruct (match_entry _ _ _); [apply size_delete|done].
Qed.
Lemma drec_at_size m l p : (p <= length l)%nat -> (size (drec_at m l p) <= size m + sets (take p l))%nat.
Proof.
  induction p as [|p IH]; intros Hp; [change (drec_at m l 0) with m; lia|]. specialize (IH ltac:(lia)).
  destruct (lookup_lt_is_Some_2 l p) as [[k [o x]] Hl]; [lia|]. rewrite (drec_at_S _ _ _ _ _ _ Hl), (sets_S _ _ _ _ _ Hl).
  destruct o as [| | | |x' e|x' v| |]; cbn [drec_step is_set]; try lia.
  - pose proof (size_insert (drec_at m l p) (prefix w x') e). lia.
  - pose proof (del_rec_size (drec_at m l p) x' v). lia.
Qed.
Lemma del_gen m g x e : GInv c n m g -> gid_ok c x -> fits c m 0 ->
  exists g', g_del lstr c g x (Some e) = Ok g' /\ GInv c n (del_rec m x (Some e)) g'.
Proof.
  intros HG Hx Hf. destruct HG as [H1 H2 H3 [t Ht] Hok].
  assert (Hok' : forall q e', del_rec m x (Some e) !! q = Some e' -> q = prefix w (eid e') /\ gid_ok c (eid e')).
  { intros q e' He. apply Hok. revert He. unfold del_rec. destruct (m !! prefix w x) as [e1|]; [|done].
    destruct (match_entry _ _ _); [|done]. by intros [_ He]%lookup_delete_Some. }
  assert (Hput : put (GTreeLoop.vmap m) (prefix w x) (delete_list (match_entry lstr) (Some e) (held (GTreeLoop.vmap m) (prefix w x))) =
                 GTreeLoop.vmap (del_rec m x (Some e))).
  { rewrite held_vmap. unfold del_rec. destruct (m !! prefix w x) as [e'|] eqn:Hq.
    - unfold delete_list. cbn [List.filter]. destruct (match_entry lstr (Some e') (Some e)); cbn [negb].
      + by rewrite GTreeLoop.vmap_delete.
      + change (drop_duplicates (match_entry lstr) [Some e']) with [Some e']. rewrite <- GTreeLoop.vmap_insert. by rewrite insert_id.
    - change (delete_list (match_entry lstr) (Some e) []) with (@nil (option (tentry L))). rewrite <- GTreeLoop.vmap_delete. by rewrite delete_notin. }
  destruct (TreeMain.step_spec zero (gc_id c) Hw (g_tree g) (GTreeLoop.vmap m) t (TDelete x (match_entry lstr) (Some e)) Ht)
    as (s' & t' & He & Ht' & _).
  - apply room_vmap; [done..|]. destruct Hf as [Hf|Hf]; [by left|right]. lia.
  - cbn [spec_step fst]. rewrite Hput. apply room_vmap; [done..|]. destruct Hf as [Hf|Hf]; [by left|right].
    pose proof (del_rec_size m x (Some e)). lia.
  - done.
  - cbn [spec_step fst snd t_step] in He, Ht'. rewrite Hput in Ht'. unfold g_del.
    destruct (tree_Delete zero (gc_id c) (g_tree g) x (match_entry lstr) (Some e)) as [[s1 r1]| |];
      cbn [rbind fst snd] in *; [|done..].
    injection He as -> _. eexists. split; [done|]. constructor; cbn [with_tree g_size g_length g_tree]; eauto.
Qed.
Lemma dlog_inv m g l p : GInv c n m g -> fits c m (sets l) -> (forall k o x, (k, (o, x)) ∈ l -> del_ok o) ->
  (p <= length l)%nat -> GInv c n (drec_at m l p) (log_at spec g l p).
Proof.
  intros HG Hf Hl. induction p as [|p IH]; intros Hp; [done|]. specialize (IH ltac:(lia)).
  destruct (lookup_lt_is_Some_2 l p) as [[k [o x]] Hlp]; [lia|].
  rewrite (drec_at_S _ _ _ _ _ _ Hlp), (log_at_S _ _ _ _ _ _ _ Hlp), alone_gmethod.
  assert (Ho : del_ok o) by (eapply Hl, elem_of_list_lookup_2, Hlp).
  pose proof (sets_S _ _ _ _ _ Hlp) as HS. pose proof (sets_le l (S p)) as Hle.
  pose proof (drec_at_size m l p ltac:(lia)) as Hsz.
  destruct o as [| | | |x' e|x' v| |]; cbn [drec_step g_spec fst is_set] in *; try done.
  - destruct Ho as (Hx & lb & ->).
    destruct (set_spec lstr c Hc n (drec_at m l p) (log_at spec g l p) x' lb IH Hx) as (g' & -> & HG').
    { destruct Hf as [Hf|Hf]; [by left|right; lia]. }
    done.
  - destruct Ho as (Hx & Hv). destruct v as [e|]; [|done].
    destruct (del_gen (drec_at m l p) (log_at spec g l p) x' e IH Hx) as (g' & -> & HG').
    { destruct Hf as [Hf|Hf]; [by left|right; lia]. }
    done.
Qed.
(** What is stored was stored before or has been set since. *)
Lemma drec_set m l i p q e : (i <= p <= length l)%nat -> drec_at m l p !! q = Some e -> drec_at m l i !! q <> Some e ->
  exists j k x u, (i <= j < p)%nat /\ l !! j = Some (k, (MSet x e, u)) /\ prefix w x = q.
Proof.
  intros [Hip Hp] He Hn. induction Hip as [|p Hip IH]; [done|].
  destruct (lookup_lt_is_Some_2 l p) as [[k [o x]] Hl]; [lia|]. rewrite (drec_at_S _ _ _ _ _ _ Hl) in He.
  assert (Hkeep : drec_at m l p !! q = Some e -> exists j k x u, (i <= j < S p)%nat /\ l !! j = Some (k, (MSet x e, u)) /\ prefix w x = q).
  { intros H. destruct (IH ltac:(lia) H) as (j & k' & x' & u & Hj & H1 & H2). exists j, k', x', u. split; [lia|done]. }
  destruct o as [| | | |x' e'|x' v| |]; cbn [drec_step] in He; auto.
  - apply lookup_insert_Some in He as [[H1 ->]|[_ He]]; [|auto]. exists p, k, x', x. split; [lia|done].
  - apply Hkeep. revert He. unfold del_rec. destruct (drec_at m l p !! prefix w x') as [e1|]; [|done].
    destruct (match_entry _ _ _); [|done]. by intros [_ He]%lookup_delete_Some.
Qed.

(** ** The calls one after another, on records *)
Definition rstep m (o : gcall L) : record L :=
  match o with
  | CUpdate x lb | CClaimID x lb => if 2 ^ n <=? i_id x then m else <[prefix w x := new_entry x lb]> m
  | CReleaseID x =>
      if 2 ^ n <=? i_id x then m else match lookup_id c m x with Some _ => delete (prefix w x) m | None => m end
  | _ => m
  end.
Definition rres m (o : gcall L) (a : gcout L) : Prop :=
  forall g, GInv c n m g -> fits c m 1 -> snd (g_seq lstr c g o) = a.
Definition g_one (o : gcall L) : Prop := g_locked o = true /\ g_ids_ok c o.
Definition fails_free (o : gcall L) (a : gcout L) : Prop :=
  match o with CClaimFree _ => match a with GREntry (Ok _) => False | _ => True end | _ => True end.
Lemma fits_le m j k : (j <= k)%nat -> fits c m k -> fits c m j.
Proof. intros H [Hf|Hf]; [by left|right; lia]. Qed.
Lemma rstep_size m o : (size (rstep m o) <= S (size m))%nat.
Proof.
  destruct o as [x|x lb|x lb|lb|s lb|x|sel|x|x|sel| |]; cbn [rstep]; try lia.
  - destruct (_ <=? _); [lia|]. pose proof (size_insert m (prefix w x) (new_entry x lb)). lia.
  - destruct (_ <=? _); [lia|]. pose proof (size_insert m (prefix w x) (new_entry x lb)). lia.
  - destruct (_ <=? _); [lia|]. destruct (lookup_id c m x); [|lia]. pose proof (size_delete m (prefix w x)). lia.
Qed.
Lemma release_spec m g x : GInv c n m g -> gid_ok c x -> fits c m 0 -> i_id x < 2 ^ n ->
  exists g', g_release_id lstr c g x = Ok g' /\ GInv c n (rstep m (CReleaseID x)) g'.
Proof.
  intros HG Hx Hf Hlt. unfold g_release_id. rewrite (validate_spec c n m g x HG). cbn [rstep].
  destruct (N.leb_spec (2 ^ n) (i_id x)) as [?|_]; [lia|]. cbn [rbind]. rewrite (get_spec c n m g HG x Hx).
  destruct (lookup_id c m x) as [e|] eqn:Hl; [|by exists g].
  unfold lookup_id in Hl. destruct (m !! prefix w x) as [e'|] eqn:He; [|done].
  destruct (same_id e' x) eqn:Hs; [|done]. injection Hl as ->. apply same_id_eid in Hs. subst x.
  apply (GTreeProofs.del_spec lstr c Hc n m g e HG He Hf).
Qed.
Lemma seq_step m g o : GInv c n m g -> fits c m 1 -> g_one o -> fails_free o (snd (g_seq lstr c g o)) ->
  GInv c n (rstep m o) (fst (g_seq lstr c g o)).
Proof.
  intros HG Hf [Ho Hid] Hff. destruct o as [x|x lb|x lb|lb|s lb|x|sel|x|x|sel| |]; cbn [g_seq rstep fst]; try done.
  - unfold g_update. rewrite (validate_spec c n m g x HG). destruct (2 ^ n <=? i_id x); cbn [rbind unit_out fst]; [done|].
    by destruct (set_spec lstr c Hc n m g x lb HG Hid Hf) as (g' & -> & HG').
  - unfold g_claim_id. rewrite (validate_spec c n m g x HG). destruct (2 ^ n <=? i_id x); cbn [rbind unit_out fst]; [done|].
    by destruct (set_spec lstr c Hc n m g x lb HG Hid Hf) as (g' & -> & HG').
  - cbn [g_seq fails_free] in Hff. by destruct (g_claim_free c g lb) as [[g' e]|e|].
  - pose proof (release_spec m g x HG Hid (fits_le m 0 1 ltac:(lia) Hf)) as H. cbn [rstep] in H.
    unfold g_release_id in *. rewrite (validate_spec c n m g x HG) in *.
    destruct (N.leb_spec (2 ^ n) (i_id x)) as [Hle|Hlt]; cbn [rbind unit_out fst] in *; [done|].
    by destruct (H Hlt) as (g' & -> & HG').
Qed.
(** What a call that only reads returns depends only on the record. *)
Lemma read_det m g g' o : GInv c n m g -> GInv c n m g' -> g_writes o = false -> g_ids_ok c o ->
  snd (g_seq lstr c g o) = snd (g_seq lstr c g' o).
Proof.
  intros H1 H2 Ho Hid. destruct o as [x|x lb|x lb|lb|s lb|x|sel|x|x|sel| |]; cbn [g_seq snd g_writes g_ids_ok] in *; try done.
  - by rewrite (get_spec c n m g H1 x Hid), (get_spec c n m g' H2 x Hid).
  - destruct (children_spec c Hc n m g x H1 Hid) as (es & He & ->). destruct (children_spec c Hc n m g' x H2 Hid) as (es' & He' & ->).
    by rewrite (entries_unique c m es es').
  - destruct (parents_spec c Hc n m g x H1 Hid) as (es & He & ->). destruct (parents_spec c Hc n m g' x H2 Hid) as (es' & He' & ->).
    by rewrite (entries_unique c m es es').
  - destruct (get_by_label_spec c n m g H1 sel) as (es & He & ->). destruct (get_by_label_spec c n m g' H2 sel) as (es' & He' & ->).
    by rewrite (entries_unique c m es es').
  - destruct (get_all_spec c n m g H1) as (es & He & ->). destruct (get_all_spec c n m g' H2) as (es' & He' & ->).
    by rewrite (entries_unique c m es es').
  - destruct (Size_spec c n m g H1) as (es & He & ->). destruct (Size_spec c n m g' H2) as (es' & He' & ->).
    by rewrite (entries_unique c m es es').
Qed.
Lemma find_free_det m g g' : GInv c n m g -> GInv c n m g' -> g_find_free c g = g_find_free c g'.
Proof.
  intros H1 H2. rewrite !find_free_split. cbv zeta. rewrite (gi_length _ _ _ _ H1), (gi_length _ _ _ _ H2).
  destruct (add_id _ _ _) as [b|e|]; cbn [rbind]; [|done..].
  assert (Hroot : gid_ok c (MyId 0 (gc_root c n))).
  { split; [apply IdProofs.pow_pos|]. apply root_le; [done|by apply (gi_n _ _ _ _ H1)]. }
  pose proof (read_det m g g' (CChildren (MyId 0 (gc_root c n))) H1 H2 eq_refl Hroot) as E. cbn [g_seq snd] in E. injection E as ->.
  destruct (g_children c g' _) as [es|e|]; cbn [rbind]; [|done..]. apply find_free_in_size.
  by rewrite (gi_size _ _ _ _ H1), (gi_size _ _ _ _ H2).
Qed.
Lemma free_rres m g lb e : GInv c n m g -> g_find_free c g = Err e -> rres m (CClaimFree lb) (GREntry (Err e)).
Proof.
  intros HG He g' HG' _. cbn [g_seq]. unfold g_claim_free. rewrite <- (find_free_det m g g' HG HG'), He. done.
Qed.
Lemma read_rres m g o : GInv c n m g -> g_writes o = false -> g_ids_ok c o -> rres m o (snd (g_seq lstr c g o)).
Proof. intros HG Ho Hid g' HG' _. by apply (read_det m g' g). Qed.
Lemma claim_rres m o x lb : o = CUpdate x lb \/ o = CClaimID x lb -> gid_ok c x -> i_id x < 2 ^ n -> rres m o (GRUnit (Ok tt)).
Proof.
  intros Ho Hx Hlt g HG Hf. destruct (set_spec lstr c Hc n m g x lb HG Hx Hf) as (g' & Hs & _).
  destruct Ho as [->| ->]; cbn [g_seq]; [unfold g_update|unfold g_claim_id]; rewrite (validate_spec c n m g x HG);
    destruct (N.leb_spec (2 ^ n) (i_id x)); [lia| |lia|]; cbn [rbind]; by rewrite Hs.
Qed.
Lemma release_rres m x : gid_ok c x -> i_id x < 2 ^ n -> rres m (CReleaseID x) (GRUnit (Ok tt)).
Proof.
  intros Hx Hlt g HG Hf. cbn [g_seq].
  by destruct (release_spec m g x HG Hx (fits_le m 0 1 ltac:(lia) Hf) Hlt) as (g' & -> & _).
Qed.

(** An order of calls with the moments (positions in the log) at which they happen. *)
Notation ordered := (list (nat * (cid * (gcall L * gcout L)))).
Definition ocall (e : nat * (cid * (gcall L * gcout L))) : gcall L := e.2.2.1.
Definition oout (e : nat * (cid * (gcall L * gcout L))) : gcout L := e.2.2.2.
Definition ocid (e : nat * (cid * (gcall L * gcout L))) : cid := e.2.1.
Fixpoint valid m (od : ordered) : Prop :=
  match od with [] => True | e :: od' => rres m (ocall e) (oout e) /\ valid (rstep m (ocall e)) od' end.
Definition rend m (od : ordered) : record L := fold_left rstep (ocall <$> od) m.
Lemma rend_app m od od' : rend m (od ++ od') = rend (rend m od) od'.
Proof. unfold rend. by rewrite fmap_app, fold_left_app. Qed.
Lemma valid_app m od od' : valid m (od ++ od') <-> valid m od /\ valid (rend m od) od'.
Proof.
  revert m. induction od as [|e od IH]; intros m; cbn; [tauto|]. rewrite IH.
  change (rend m (e :: od)) with (rend (rstep m (ocall e)) od). tauto.
Qed.
(** Run on the tree. *)
Lemma valid_run m g od : GInv c n m g -> fits c m (length od) -> Forall (fun e => g_one (ocall e) /\ fails_free (ocall e) (oout e)) od -> valid m od ->
  snd (seq_run (g_seq lstr c) g (ocall <$> od)) = oout <$> od /\
  GInv c n (rend m od) (fst (seq_run (g_seq lstr c) g (ocall <$> od))).
Proof.
  revert m g. induction od as [|e od IH]; intros m g HG Hf Ho Hv; [done|]. cbn [length] in Hf.
  apply Forall_cons in Ho as [[Ho1 Hff] Ho]. destruct Hv as [Hr Hv]. rewrite !fmap_cons. cbn [seq_run].
  assert (Hf1 : fits c m 1) by (eapply fits_le; [|exact Hf]; lia).
  pose proof (Hr g HG Hf1) as Hout. rewrite <- Hout in Hff. pose proof (seq_step m g (ocall e) HG Hf1 Ho1 Hff) as HG'.
  destruct (g_seq lstr c g (ocall e)) as [g1 r1]. cbn [fst snd] in *. subst r1.
  destruct (IH _ _ HG') as [H1 H2]; [|done|done|].
  { destruct Hf as [Hf|Hf]; [by left|right]. pose proof (rstep_size m (ocall e)). lia. }
  destruct (seq_run (g_seq lstr c) g1 (ocall <$> od)) as [g2 rs]. cbn [fst snd] in *. by rewrite H1.
Qed.
(** A release put before a claim of the same prefix. *)
Definition is_claim (o : gcall L) (x : id) : Prop :=
  gid_ok c x /\ i_id x < 2 ^ n /\ exists lb, o = CUpdate x lb \/ o = CClaimID x lb.
Lemma valid_insert m od1 od2 e r x x' : gid_ok c x -> i_id x < 2 ^ n ->
  is_claim (ocall e) x' -> oout e = GRUnit (Ok tt) -> prefix w x' = prefix w x ->
  ocall r = CReleaseID x -> oout r = GRUnit (Ok tt) ->
  valid m (od1 ++ e :: od2) -> valid m (od1 ++ r :: e :: od2) /\ rend m (od1 ++ r :: e :: od2) = rend m (od1 ++ e :: od2).
Proof.
  intros Hx Hlt (Hx' & Hlt' & lb & He) Heo Hpx Hr Hro Hv. apply valid_app in Hv as [Hv1 [He1 Hv2]].
  assert (Hs : rstep (rstep (rend m od1) (CReleaseID x)) (ocall e) = rstep (rend m od1) (ocall e)).
  { assert (Hone : forall mm, rstep mm (ocall e) = <[prefix w x := new_entry x' lb]> mm).
    { intros mm. destruct He as [->| ->]; cbn [rstep]; (destruct (N.leb_spec (2 ^ n) (i_id x')); [lia|]); by rewrite Hpx. }
    rewrite !Hone. cbn [rstep]. destruct (N.leb_spec (2 ^ n) (i_id x)); [lia|]. destruct (lookup_id c (rend m od1) x); [|done].
    apply map_eq. intros q. destruct (decide (q = prefix w x)) as [->|Hq]; [by rewrite !lookup_insert|].
    by rewrite !lookup_insert_ne, lookup_delete_ne. }
  split.
  - apply valid_app. split; [done|]. cbn [valid]. rewrite Hr, Hro. split; [by apply release_rres|].
    rewrite Hs, Heo. split; [by eapply claim_rres|done].
  - rewrite !rend_app. change (rend (rend m od1) (r :: e :: od2)) with (rend (rstep (rstep (rend m od1) (ocall r)) (ocall e)) od2).
    change (rend (rend m od1) (e :: od2)) with (rend (rstep (rend m od1) (ocall e)) od2). by rewrite Hr, Hs.
Qed.
Lemma sorted_insert (l1 l2 : list nat) a : StronglySorted le (l1 ++ a :: l2) -> StronglySorted le (l1 ++ a :: a :: l2).
Proof.
  induction l1 as [|b l1 IH]; cbn; intros H.
  - constructor; [done|]. inversion H; subst. constructor; [lia|done].
  - inversion H as [|b' l' H1 H2]; subst. constructor; [by apply IH|].
    apply Forall_app in H2 as [H2 H3]. apply Forall_app. split; [done|]. inversion H3; subst. by constructor.
Qed.
Lemma sorted_snoc (l1 : list nat) a : StronglySorted le l1 -> (forall b, b ∈ l1 -> (b <= a)%nat) -> StronglySorted le (l1 ++ [a]).
Proof.
  induction l1 as [|b l1 IH]; cbn; intros H Ha; [by repeat constructor|]. inversion H as [|b' l' H1 H2]; subst.
  constructor; [apply IH; [done|]; intros b' Hb'; apply Ha; by right|]. apply Forall_app. split; [done|]. constructor; [|done].
  apply Ha. by left.
Qed.
Lemma sorted_lookup (l1 : list nat) i j a b : StronglySorted le l1 -> (i <= j)%nat -> l1 !! i = Some a -> l1 !! j = Some b -> (a <= b)%nat.
Proof.
  intros H. revert i j. induction H as [|x l1 H IH Hx]; intros i j Hij Hi Hj; [done|].
  destruct i as [|i], j as [|j]; cbn in Hi, Hj; try lia.
  - injection Hi as ->. injection Hj as ->. lia.
  - injection Hi as ->. eapply Forall_lookup_1 in Hx; [|exact Hj]. done.
  - eapply IH; [|exact Hi|exact Hj]. lia.
Qed.

(** ** The order of an execution *)
Notation client := (client (gtree L) (gout L) (gmeth L) (gcout L)).
Lemma call_inv mm k cs (q : client) : follows (CCall mm k) cs q ->
  (cs = [] /\ q = CCall mm k) \/ exists r cs', cs = (mm, r) :: cs' /\ follows (k r) cs' q.
Proof. inversion 1; subst; [by left|right; eauto]. Qed.
Lemma ret_inv a cs mm k : ~ follows (CRet a : client) cs (CCall mm k).
Proof. inversion 1. Qed.
Section exec.
Context (m : record L) (g : gtree L) (todo : list (list (gcall L))) (l : log) (d : gtree L).
Notation f := (gcall_client c g).
Hypothesis HGm : GInv c n m g.
Hypothesis Hcalls : forall k o, call_of todo k = Some o -> g_one o.
Hypothesis Hseq : seq_run spec g (log_ops l) = (d, log_results l).
Hypothesis Hlog : forall k x, (k, x) ∈ l -> exists o q, call_of todo k = Some o /\ follows (f o) (calls_of k l) q.
Hypothesis HG : forall p, (p <= length l)%nat -> GInv c n (drec_at m l p) (log_at spec g l p).
Hypothesis Hfit : fits c m (sets l).

Record J (p : nat) (od : ordered) : Prop := {
  j_valid : valid m od;
  j_end : rend m od = drec_at m l p;
  j_nodup : NoDup (ocid <$> od);
  j_in e : e ∈ od -> (exists o x, call_of todo (ocid e) = Some o /\ g_as_claim o x = (ocall e, oout e) /\ g_one (ocall e)) /\
    (exists i x, (i <= e.1)%nat /\ l !! i = Some (ocid e, x)) /\
    (exists i x, (e.1 <= i < p)%nat /\ l !! i = Some (ocid e, x));
  j_sorted : StronglySorted le (fst <$> od);
  j_set j k x e u : (j < p)%nat -> l !! j = Some (k, (MSet x e, u)) ->
    exists a, a ∈ od /\ a.1 = j /\ oout a = GRUnit (Ok tt) /\ is_claim (ocall a) x;
  j_each k o : call_of todo k = Some o ->
    (exists a x, a ∈ od /\ ocid a = k /\ g_as_claim o x = (ocall a, oout a) /\ calls_of k (take p l) <> [] /\ follows (f o) (calls_of k (take p l)) (CRet x)) \/
    (k ∉ ocid <$> od /\ exists q, follows (f o) (calls_of k (take p l)) q /\ (calls_of k (take p l) <> [] -> ConcLin.returns q = None)) }.

Lemma one_no_peek o : g_one o -> no_peek (f o).
Proof. intros [H _]. by apply call_no_peek. Qed.
Lemma calls_take k p : exists cs, calls_of k l = calls_of k (take p l) ++ cs.
Proof. exists (calls_of k (drop p l)). by rewrite <- calls_of_app, take_drop. Qed.
Lemma calls_S k p k0 x : l !! p = Some (k0, x) ->
  calls_of k (take (S p) l) = calls_of k (take p l) ++ (if decide (k = k0) then [x] else []).
Proof.
  intros Hp. rewrite (take_S_r _ _ _ Hp), calls_of_app. f_equal. destruct (decide (k = k0)) as [->|Hn]; [apply calls_of_one|by apply calls_of_other].
Qed.
Lemma others p k0 x (od od' : ordered) k o : l !! p = Some (k0, x) -> k <> k0 ->
  (forall a, a ∈ od -> a ∈ od') -> (k ∉ ocid <$> od -> k ∉ ocid <$> od') ->
  J p od -> call_of todo k = Some o ->
    (exists a x, a ∈ od' /\ ocid a = k /\ g_as_claim o x = (ocall a, oout a) /\ calls_of k (take (S p) l) <> [] /\ follows (f o) (calls_of k (take (S p) l)) (CRet x)) \/
    (k ∉ ocid <$> od' /\ exists q, follows (f o) (calls_of k (take (S p) l)) q /\ (calls_of k (take (S p) l) <> [] -> ConcLin.returns q = None)).
Proof.
  intros Hp Hk Hin Hno HJ Ho. rewrite (calls_S _ _ _ _ Hp). destruct (decide (k = k0)) as [?|_]; [done|]. rewrite app_nil_r.
  destruct (j_each _ _ HJ _ _ Ho) as [(a & y & H1 & H2)|[H1 H2]]; [left; exists a, y; auto|right; auto].
Qed.
(** The call has not returned and is about to make this method call. *)
Lemma next_of p k0 mm r od : l !! p = Some (k0, (mm, r)) -> J p od ->
  exists o kk, call_of todo k0 = Some o /\ g_one o /\ k0 ∉ ocid <$> od /\ follows (f o) (calls_of k0 (take p l)) (CCall mm kk).
Proof.
  intros Hp HJ. destruct (Hlog k0 (mm, r)) as (o & q & Ho & Hf); [by eapply elem_of_list_lookup_2|].
  pose proof (one_no_peek o (Hcalls _ _ Ho)) as Hn.
  destruct (calls_take k0 (S p)) as [cs Hcs]. rewrite Hcs, (calls_S _ _ _ _ Hp), decide_True in Hf by done.
  rewrite <- app_assoc in Hf. apply follows_split in Hf as (q1 & Hf1 & Hf2); [|done].
  pose proof (follows_no_peek _ _ _ Hf1 Hn) as Hn1. cbn [app] in Hf2.
  assert (Hq : exists kk, q1 = CCall mm kk) by (inversion Hf2; subst; [eauto|done]). destruct Hq as [kk ->].
  exists o, kk. split; [done|]. split; [eauto|]. split; [|done].
  destruct (j_each _ _ HJ _ _ Ho) as [(a & y & H1 & H2 & H3 & H4 & H5)|[H1 H2]]; [|done].
  pose proof (follows_det _ _ _ _ Hn Hf1 H5). done.
Qed.

Lemma J_put p k0 mm r od od' o kk new a : l !! p = Some (k0, (mm, r)) -> J p od ->
  call_of todo k0 = Some o -> k0 ∉ ocid <$> od -> follows (f o) (calls_of k0 (take p l)) (CCall mm kk) ->
  kk r = CRet a -> od' ≡ₚ new :: od -> ocid new = k0 -> g_as_claim o a = (ocall new, oout new) -> g_one (ocall new) ->
  (exists i x, (i <= new.1)%nat /\ l !! i = Some (k0, x)) -> (new.1 <= p)%nat ->
  valid m od' -> rend m od' = drec_at m l (S p) -> StronglySorted le (fst <$> od') ->
  (forall x e, mm = MSet x e -> new.1 = p /\ oout new = GRUnit (Ok tt) /\ is_claim (ocall new) x) ->
  J (S p) od'.
Proof.
  intros Hp HJ Ho Hnot Hf Hret Hperm Hk Hcall Hone Hfrom Hto Hv He Hs Hset.
  assert (Hin : forall b, b ∈ od -> b ∈ od') by (intros b Hb; rewrite Hperm; by right).
  constructor; [done|done| | |done| |].
  - rewrite Hperm. cbn. rewrite Hk. constructor; [done|]. apply HJ.
  - intros e Hine. rewrite Hperm in Hine. apply elem_of_cons in Hine as [->|Hine].
    + rewrite Hk. split; [eauto|]. split; [done|]. exists p, (mm, r). split; [lia|done].
    + destruct (j_in _ _ HJ _ Hine) as (H1 & H2 & i & x & H3 & H4). split; [done|]. split; [done|]. exists i, x. split; [lia|done].
  - intros j k x e u Hj Hl. destruct (decide (j = p)) as [->|Hjp].
    + rewrite Hp in Hl. injection Hl as -> -> ->. destruct (Hset x e eq_refl) as (H1 & H2 & H3).
      exists new. rewrite Hperm. split; [left|]. done.
    + destruct (j_set _ _ HJ j k x e u ltac:(lia) Hl) as (b & H1 & H2). exists b. split; [auto|done].
  - intros k o' Ho'. destruct (decide (k = k0)) as [->|Hkk].
    + assert (o' = o) as -> by congruence. left. exists new, a. rewrite Hperm. split; [left|]. split; [done|]. split; [done|].
      rewrite (calls_S _ _ _ _ Hp), decide_True by done. split; [intros [_ ?]%app_nil; done|].
      eapply follows_join; [exact Hf|]. constructor. rewrite Hret. constructor.
    + eapply others; [exact Hp|done|exact Hin| |exact HJ|done].
      intros Hno. rewrite Hperm. cbn. rewrite Hk. apply not_elem_of_cons. done.
Qed.
Lemma J_skip p k0 mm r od o kk : l !! p = Some (k0, (mm, r)) -> J p od ->
  call_of todo k0 = Some o -> k0 ∉ ocid <$> od -> follows (f o) (calls_of k0 (take p l)) (CCall mm kk) ->
  ConcLin.returns (kk r) = None -> drec_at m l (S p) = drec_at m l p -> is_set mm = false -> J (S p) od.
Proof.
  intros Hp HJ Ho Hnot Hf Hret Hd Hset. constructor.
  - apply HJ.
  - rewrite Hd. apply HJ.
  - apply HJ.
  - intros e Hine. destruct (j_in _ _ HJ _ Hine) as (H1 & H2 & i & x & H3 & H4). split; [done|]. split; [done|]. exists i, x. split; [lia|done].
  - apply HJ.
  - intros j k x e u Hj Hl. destruct (decide (j = p)) as [->|Hjp]; [|by apply (j_set _ _ HJ j k x e u ltac:(lia))].
    rewrite Hp in Hl. injection Hl as -> -> ->. done.
  - intros k o' Ho'. destruct (decide (k = k0)) as [->|Hkk].
    + assert (o' = o) as -> by congruence. right. split; [done|]. exists (kk r). rewrite (calls_S _ _ _ _ Hp), decide_True by done.
      split; [|done]. eapply follows_join; [exact Hf|]. constructor. constructor.
    + by eapply (others p k0 (mm, r) od od k o').
Qed.
(** At the end. *)
Lemma J_snoc p k0 mm r od o kk a o' a' : l !! p = Some (k0, (mm, r)) -> J p od ->
  call_of todo k0 = Some o -> k0 ∉ ocid <$> od -> follows (f o) (calls_of k0 (take p l)) (CCall mm kk) ->
  kk r = CRet a -> g_as_claim o a = (o', a') -> g_one o' -> rres (drec_at m l p) o' a' -> rstep (drec_at m l p) o' = drec_at m l (S p) ->
  (forall x e, mm = MSet x e -> a' = GRUnit (Ok tt) /\ is_claim o' x) ->
  J (S p) (od ++ [(p, (k0, (o', a')))]).
Proof.
  intros Hp HJ Ho Hnot Hf Hret Has Hone Hres Hstep Hset.
  eapply (J_put p k0 mm r od _ o kk (p, (k0, (o', a'))) a); try done.
  - by rewrite Permutation_app_comm.
  - exists p, (mm, r). done.
  - apply valid_app. split; [apply HJ|]. rewrite (j_end _ _ HJ). done.
  - rewrite rend_app, (j_end _ _ HJ). done.
  - rewrite fmap_app. apply sorted_snoc; [apply HJ|]. intros b Hb. apply elem_of_list_fmap in Hb as (e & -> & Hb).
    destruct (j_in _ _ HJ _ Hb) as (_ & _ & i & x & Hi & _). cbn. lia.
  - intros x e Hmm. split; [done|]. by apply (Hset x e).
Qed.

Lemma fits_at p : (p < length l)%nat -> fits c (drec_at m l p) 0.
Proof.
  intros Hp. pose proof (drec_at_size m l p ltac:(lia)) as Hsz. pose proof (sets_le l p) as Hle.
  destruct Hfit as [H|H]; [by left|right; lia].
Qed.
Lemma fits_set p k x e u : l !! p = Some (k, (MSet x e, u)) -> fits c (drec_at m l p) 1.
Proof.
  intros Hp. assert (Hlt : (p < length l)%nat) by (by eapply lookup_lt_Some).
  pose proof (drec_at_size m l p ltac:(lia)) as Hsz. pose proof (sets_le l (S p)) as Hle.
  pose proof (sets_S _ _ _ _ _ Hp) as HS. cbn [is_set] in HS. destruct Hfit as [H|H]; [by left|right; lia].
Qed.

Lemma J_step p od : (p < length l)%nat -> J p od -> exists od', J (S p) od'.
Proof.
  intros Hlt HJ. destruct (lookup_lt_is_Some_2 l p Hlt) as [[k0 [mm r]] Hp].
  destruct (next_of _ _ _ _ _ Hp HJ) as (o & kk & Ho & Hone & Hnot & Hf).
  pose proof (log_at_result _ _ _ _ _ _ _ _ Hseq Hp) as Hr. cbv beta in Hr. rewrite alone_gmethod in Hr.
  pose proof (HG p ltac:(lia)) as HGp. pose proof (drec_at_S m l p _ _ _ Hp) as HS.
  set (gp := log_at spec g l p) in *. pose proof Hone as [Hat Hid].
  assert (Hread : forall M (F : gout L -> gcout L), f o = CCall M (fun r => CRet (F r)) -> mm = M /\ forall r, kk r = CRet (F r)).
  { intros M F HF. rewrite HF in Hf. apply call_inv in Hf as [[_ E]|(r' & cs' & _ & Hf')]; [by injection E as -> ->|by apply ret_inv in Hf']. }
  assert (Hclaim : forall x lb, o = CUpdate x lb \/ o = CClaimID x lb -> exists od', J (S p) od').
  { intros x lb Hox. assert (Hx : gid_ok c x) by (by destruct Hox as [->| ->]).
    assert (Hfo : f o = match g_validate g x with
      | Ok _ => CCall (MSet x (new_entry x lb)) (fun u => CRet (GRUnit (as_done u)))
      | Err e => CRet (GRUnit (Err e)) | Panic => CRet (GRUnit Panic) end) by (by destruct Hox as [->| ->]).
    rewrite (validate_spec c n m g x HGm) in Hfo. destruct (N.leb_spec (2 ^ n) (i_id x)) as [Hle|Hxlt].
    { rewrite Hfo in Hf. by apply ret_inv in Hf. }
    destruct (Hread _ _ Hfo) as [-> Hkk]. cbn [g_spec snd drec_step] in Hr, HS.
    destruct (set_spec lstr c Hc n _ _ x lb HGp Hx (fits_set _ _ _ _ _ Hp)) as (g' & Hg' & _). rewrite Hg' in Hr. cbn in Hr. subst r.
    eexists. eapply (J_snoc p _ _ _ _ o _ (GRUnit (Ok tt)) o (GRUnit (Ok tt)) Hp HJ Ho Hnot Hf).
    - apply Hkk.
    - by destruct Hox as [->| ->].
    - done.
    - by eapply claim_rres.
    - rewrite HS. destruct Hox as [->| ->]; cbn [rstep]; (destruct (N.leb_spec (2 ^ n) (i_id x)); [lia|done]).
    - intros x1 e1 [= <- <-]. split; [done|]. split; [done|]. split; [done|]. eauto. }
  assert (Hreads : forall M F, f o = CCall M (fun r => CRet (F r)) -> g_writes o = false -> F (snd (g_spec lstr c gp M)) = snd (g_seq lstr c gp o) ->
    (forall mr, drec_step mr M = mr) -> is_set M = false -> exists od', J (S p) od').
  { intros M F HF Hwr HFr Hd Hs. destruct (Hread M F HF) as [-> Hkk]. eexists.
    eapply (J_snoc p _ _ _ _ o _ (snd (g_seq lstr c gp o)) o (snd (g_seq lstr c gp o)) Hp HJ Ho Hnot Hf).
    - rewrite Hkk, Hr. by rewrite HFr.
    - by destruct o.
    - done.
    - by apply read_rres.
    - rewrite HS, Hd. by destruct o.
    - intros x e ->. done. }
  destruct o as [x|x lb|x lb|lb|s lb|x|sel|x|x|sel| |]; try discriminate Hat.
  - by eapply (Hreads (MGet x)).
  - eauto.
  - eauto.
  - clear Hclaim Hread Hreads. pose proof Hf as Hf0. cbn [gcall_client] in Hf0. unfold c_g_find_free in Hf0. cbv zeta in Hf0.
    assert (Hroot : MyId 0 (gc_root c (g_length g)) = root_id c n) by (by rewrite (gi_length _ _ _ _ HGm)). rewrite Hroot in Hf0.
    destruct (add_id (gc_id c) builder_zero (root_id c n)) as [b|e|] eqn:Hb; [|by apply ret_inv in Hf0..].
    assert (Hfree : forall i, (i <= length l)%nat ->
      (do es <- as_vals (snd (g_spec lstr c (log_at spec g l i) (MChildren (root_id c n)))); find_free_in c g b es) = g_find_free c (log_at spec g l i)).
    { intros i Hi. cbn [g_spec snd as_vals]. rewrite find_free_split. cbv zeta. rewrite (gi_length _ _ _ _ (HG i Hi)).
      fold (root_id c n). rewrite Hb. cbn [rbind]. destruct (g_children c (log_at spec g l i) (root_id c n)); cbn [rbind]; [|done..].
      apply find_free_in_size. by rewrite (gi_size _ _ _ _ HGm), (gi_size _ _ _ _ (HG i Hi)). }
    apply call_inv in Hf0. destruct Hf0 as [[E2 E3]|(r1 & cs1 & E2 & Hf1)]; [injection E3 as -> ->|].
    + (* the children *)
      cbn [drec_step] in HS. pose proof (Hfree p ltac:(lia)) as Hv. fold gp in Hv. rewrite <- Hr in Hv.
      assert (Hcase : (exists v, g_find_free c gp = Ok v) \/ exists e, g_find_free c gp = Err e).
      { destruct (find_free_spec c Hc n _ _ HGp) as [(v & _ & ->)|[_ ->]]; [destruct (_ <=? _)|]; eauto. }
      destruct Hcase as [[v Hfv]|[e Hfv]]; rewrite Hfv in Hv.
      * exists od. eapply (J_skip p _ _ _ _ (CClaimFree lb) _ Hp HJ Ho Hnot Hf); [|done|done]. by rewrite Hv.
      * eexists. eapply (J_snoc p _ _ _ _ (CClaimFree lb) _ (GREntry (Err e)) _ _ Hp HJ Ho Hnot Hf).
        -- by rewrite Hv.
        -- done.
        -- done.
        -- by eapply free_rres.
        -- done.
        -- done.
    + (* the claim *)
      assert (Hi : exists i, (i < p)%nat /\ l !! i = Some (k0, (MChildren (root_id c n), r1))).
      { assert (Hin : (MChildren (root_id c n), r1) ∈ calls_of k0 (take p l)) by (rewrite E2; left). apply calls_of_in in Hin.
        apply elem_of_list_lookup in Hin as [i Hi]. apply lookup_take_Some in Hi as [Hi Hip]. by exists i. }
      destruct Hi as (i & Hip & Hi).
      pose proof (log_at_result _ _ _ _ _ _ _ _ Hseq Hi) as Hri. cbv beta in Hri. rewrite alone_gmethod in Hri.
      rewrite Hri, (Hfree i ltac:(lia)) in Hf1.
      destruct (g_find_free c (log_at spec g l i)) as [v|e|] eqn:Hfv; [|by apply ret_inv in Hf1..].
      apply call_inv in Hf1 as [[_ E3]|(r2 & cs2 & _ & Hf2)]; [injection E3 as -> ->|by apply ret_inv in Hf2].
      assert (Hvok : v < 2 ^ w /\ v < 2 ^ n).
      { destruct (find_free_spec c Hc n _ _ (HG i ltac:(lia))) as [(v' & Hch & Hff')|[_ Hff']]; [|congruence].
        rewrite Hfv in Hff'. destruct (N.leb_spec (2 ^ n) v') as [Hle|Hlt']; [done|]. injection Hff' as ->.
        apply chosen_open in Hch. split; [apply Hch|done]. }
      destruct Hvok as [Hvw Hvn]. assert (Hx : gid_ok c (MyId v w)) by (split; [done|cbn; lia]).
      cbn [g_spec snd drec_step] in Hr, HS.
      destruct (set_spec lstr c Hc n _ _ (MyId v w) lb HGp Hx (fits_set _ _ _ _ _ Hp)) as (g' & Hg' & _).
      rewrite Hg' in Hr. cbn in Hr. subst r.
      eexists. eapply (J_snoc p _ _ _ _ (CClaimFree lb) _ (GREntry (Ok (new_entry (MyId v w) lb))) (CClaimID (MyId v w) lb) (GRUnit (Ok tt)) Hp HJ Ho Hnot Hf).
      * done.
      * done.
      * done.
      * by eapply claim_rres; [right| |].
      * rewrite HS. cbn [rstep i_id]. destruct (N.leb_spec (2 ^ n) v); [lia|done].
      * intros x1 e1 [= <- <-]. split; [done|]. split; [done|]. split; [done|]. eauto.
  - clear Hclaim Hread Hreads. cbn [g_ids_ok] in Hid. pose proof Hf as Hf0. cbn [gcall_client] in Hf0. rewrite (validate_spec c n m g x HGm) in Hf0.
    destruct (N.leb_spec (2 ^ n) (i_id x)) as [Hle|Hxlt]; [by apply ret_inv in Hf0|].
    apply call_inv in Hf0. destruct Hf0 as [[E2 E3]|(r1 & cs1 & E2 & Hf1)]; [injection E3 as -> ->|].
    + (* the Get *)
      cbn [g_spec snd drec_step] in Hr, HS. rewrite (get_spec c n _ _ HGp x Hid) in Hr.
      destruct (lookup_id c (drec_at m l p) x) as [e|] eqn:Hl; subst r.
      * exists od. by eapply (J_skip p _ _ _ _ (CReleaseID x) _ Hp HJ Ho Hnot Hf).
      * eexists. eapply (J_snoc p _ _ _ _ (CReleaseID x) _ (GRUnit (Ok tt)) _ _ Hp HJ Ho Hnot Hf).
        -- done.
        -- done.
        -- done.
        -- by apply release_rres.
        -- cbn [rstep]. rewrite Hl, HS. by destruct (_ <=? _).
        -- done.
    + (* the Del *)
      assert (Hi : exists i, (i < p)%nat /\ l !! i = Some (k0, (MGet x, r1))).
      { assert (Hin : (MGet x, r1) ∈ calls_of k0 (take p l)) by (rewrite E2; left). apply calls_of_in in Hin.
        apply elem_of_list_lookup in Hin as [i Hi]. apply lookup_take_Some in Hi as [Hi Hip]. by exists i. }
      destruct Hi as (i & Hip & Hi).
      pose proof (log_at_result _ _ _ _ _ _ _ _ Hseq Hi) as Hri. cbv beta in Hri. rewrite alone_gmethod in Hri.
      cbn [g_spec snd] in Hri. rewrite (get_spec c n _ _ (HG i ltac:(lia)) x Hid) in Hri.
      destruct (lookup_id c (drec_at m l i) x) as [e|] eqn:Hl; rewrite Hri in Hf1; cbn [as_gentry] in Hf1; [|by apply ret_inv in Hf1].
      apply call_inv in Hf1 as [[_ E3]|(r2 & cs2 & _ & Hf2)]; [injection E3 as -> ->|by apply ret_inv in Hf2].
      unfold lookup_id in Hl. destruct (drec_at m l i !! prefix w x) as [e'|] eqn:He; [|done].
      destruct (same_id e' x) eqn:Hse; [|done]. injection Hl as ->. apply same_id_eid in Hse. subst x.
      cbn [g_spec snd drec_step] in Hr, HS.
      destruct (del_gen _ _ (eid e) e HGp Hid (fits_at p Hlt)) as (g' & Hg' & _). rewrite Hg' in Hr. cbn in Hr. subst r.
      assert (Hend : rstep (drec_at m l p) (CReleaseID (eid e)) = drec_at m l (S p) -> exists od', J (S p) od').
      { intros Hstep. eexists. eapply (J_snoc p _ _ _ _ (CReleaseID (eid e)) _ (GRUnit (Ok tt)) _ _ Hp HJ Ho Hnot Hf); [done|done|done|by apply release_rres|done|done]. }
      cbn [rstep] in Hend. destruct (N.leb_spec (2 ^ n) (i_id (eid e))); [lia|].
      unfold lookup_id in Hend. unfold del_rec in HS. destruct (drec_at m l p !! prefix w (eid e)) as [e'|] eqn:He'; [|by apply Hend].
      destruct (match_entry lstr (Some e') (Some e)) eqn:Hm.
      * destruct (same_id e' (eid e)) eqn:Hse; [by apply Hend|]. exfalso.
        cbn in Hm. unfold entry_equal in Hm. unfold same_id in Hse. unfold eid in Hse. cbn [i_id i_len] in Hse.
        apply andb_true_iff in Hm as [Hm _]. congruence.
      * destruct (same_id e' (eid e)) eqn:Hse; [|by apply Hend].
        destruct (drec_set m l i p (prefix w (eid e)) e') as (j & k' & x' & u & Hj & Hjl & Hpx); [lia|done| |].
        { rewrite He. intros [= ->]. by rewrite match_entry_refl in Hm. }
        destruct (j_set _ _ HJ j k' x' e' u ltac:(lia) Hjl) as (a & Ha & Haj & Hao & Hac).
        apply elem_of_list_split in Ha as (od1 & od2 & ->).
        set (new := (j, (k0, (@CReleaseID L (eid e), @GRUnit L (Ok tt))))  : nat * (cid * (gcall L * gcout L))).
        destruct (valid_insert m od1 od2 a new (eid e) x') as [Hv Hre]; try done; [apply HJ|].
        exists (od1 ++ new :: a :: od2).
        eapply (J_put p k0 _ _ _ _ (CReleaseID (eid e)) _ new (GRUnit (Ok tt)) Hp HJ Ho Hnot Hf); try done.
        -- by rewrite <- Permutation_middle.
        -- exists i. eexists. split; [cbn; lia|exact Hi].
        -- cbn. lia.
        -- rewrite Hre, HS. apply HJ.
        -- pose proof (j_sorted _ _ HJ) as Hs. rewrite fmap_app, fmap_cons in Hs. rewrite fmap_app, !fmap_cons.
           change (fst new) with j. rewrite Haj in *. by apply sorted_insert.
  - by eapply (Hreads (MChildren x)).
  - by eapply (Hreads (MParents x)).
Qed.
Lemma J_all : exists od, J (length l) od.
Proof.
  assert (H : forall p, (p <= length l)%nat -> exists od, J p od); [|by apply (H (length l))].
  induction p as [|p IH]; intros Hp.
  - exists []. constructor; try done; cbn.
    + constructor.
    + intros e He. by apply elem_of_nil in He.
    + constructor.
    + intros; lia.
    + intros k o Ho. right. split; [apply not_elem_of_nil|]. exists (f o). split; [constructor|done].
  - destruct (IH ltac:(lia)) as [od HJ]. by apply (J_step p od).
Qed.
End exec.
End tree.
