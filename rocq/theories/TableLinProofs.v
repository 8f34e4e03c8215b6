(** The calls of table16/32/64 and iptable: run alone, and linearizability. *)
From Verif Require Import IdxTableProofs IdxConcProofs ConcLin.
From Verif Require Export TableConcSpec.
From Coq Require Import Lia.
From Verif Require Import TableNModel.

Section idx.
Context {T : Type}.
Definition idx_ok nest wr (o : op T) : Prop := (nests o = true -> nest = true) /\ (writes_table o = true -> wr = true).
Lemma idx_method_ok nest wr (o : op T) : idx_ok nest wr o -> ok nest wr (fun _ _ => True) MOut (method o).
Proof. intros [H1 H2]. apply (ok_method _ _ _ (fun _ => True)); done. Qed.
Lemma drain_both fuel live (it : iterator) :
  drain_values fuel live it = (do ks <- drain fuel it; Ok ((fun k => live !! k : option (entry T)) <$> ks)).
Proof.
  revert it. induction fuel as [|fuel IH]; intros it; [done|]. cbn [drain_values drain].
  destruct (iter_next it) as [it' []]; [|done]. unfold iter_value. destruct (iter_id it') as [i|e|]; cbn [rbind]; [|done..].
  rewrite IH. by destruct (drain fuel it').
Qed.
End idx.

Section tableN.
Context {L : Type} (r : tableN L).
Notation alone_call o d := (client_alone method (tn_call r o) d).
Definition tn_on (d : table (tentry L)) (o : top L) : table (tentry L) * tout L :=
  (tn_table (fst (tn_step (tn_with r d) o)), snd (tn_step (tn_with r d) o)).

Lemma claim_keeps r' id (l : L) : fst (tn_claim r' id l) = tn_with r' (tn_table (fst (tn_claim r' id l))).
Proof.
  unfold tn_claim. destruct r' as [c t a b]. destruct (tn_validate _ _); [|done..]. destruct (negb _); [done|]. by destruct (claim _ _ _).
Qed.
Lemma step_keeps r' (o : top L) : fst (tn_step r' o) = tn_with r' (tn_table (fst (tn_step r' o))).
Proof.
  destruct o; cbn [tn_step fst]; try (by destruct r').
  - pose proof (claim_keeps r' id l). by destruct (tn_claim r' id l).
  - unfold tn_claim_free. destruct (tn_find_free r') as [i|e|]; [|by destruct r'..].
    pose proof (claim_keeps r' i l). by destruct (tn_claim r' i l) as [r1 [| |]].
  - unfold tn_release. destruct r'. destruct (tn_validate _ _); [|done..]. by destruct (release _ _).
  - unfold tn_update. destruct r'. destruct (tn_validate _ _); [|done..]. by destruct (update_op _ _ _).
Qed.
Lemma on_run d os : tn_run (tn_with r d) os = (tn_with r (fst (seq_run tn_on d os)), snd (seq_run tn_on d os)).
Proof.
  revert d. induction os as [|o os IH]; intros d; [done|]. cbn [tn_run seq_run]. unfold tn_on at 1 3.
  pose proof (step_keeps (tn_with r d) o) as Hk. destruct (tn_step (tn_with r d) o) as [r1 x]. cbn [fst snd] in *.
  rewrite Hk. change (tn_with (tn_with r d) (tn_table r1)) with (tn_with r (tn_table r1)). rewrite IH.
  change (tn_table (tn_with r (tn_table r1))) with (tn_table r1). by destruct (seq_run tn_on (tn_table r1) os).
Qed.
Lemma with_table : tn_with r (tn_table r) = r.
Proof. by destruct r. Qed.

Lemma by_label_alone sel keys es d : client_alone method (c_by_label r sel keys es) d =
  (d, TREntries (do rest <- tn_get_by_label_loop r sel ((fun k => t_map d !! k) <$> keys); Ok (es ++ rest))).
Proof.
  revert es. induction keys as [|k ks IH]; intros es; cbn [c_by_label client_alone fmap list_fmap tn_get_by_label_loop rbind].
  - by rewrite app_nil_r.
  - destruct (t_map d !! k) as [e|]; cbn [client_alone]; [|done]. rewrite IH. change (list_fmap ?A ?B ?f ks) with (f <$> ks).
    destruct (tn_get_by_label_loop r sel _) as [rest|x|]; cbn [rbind]; [|done..].
    destruct (sel (te_labels (e_data e))); cbn [rbind]; [|done]. by rewrite <- app_assoc.
Qed.

(** A call with no other around is the call of TableNModel.v. *)
Lemma tn_call_alone o : (tn_with r (fst (alone_call o (tn_table r))), snd (alone_call o (tn_table r))) = tn_step r o.
Proof.
  assert (Hclaim : forall id l k, client_alone method (c_claim r id l k) (tn_table r) =
    client_alone method (k (snd (tn_claim r id l))) (tn_table (fst (tn_claim r id l)))).
  { intros id l k. unfold c_claim, tn_claim. destruct (tn_validate r id); [|done..]. cbn [client_alone]. rewrite alone_method.
    cbn [step as_bool]. destruct (negb (is_free_op (tn_table r) (tn_index r id))); [done|]. cbn [client_alone]. rewrite alone_method.
    cbn [step]. by destruct (claim _ _ _). }
  destruct o; cbn [tn_call tn_step].
  - unfold tn_get. destruct (tn_validate r id); cbn [client_alone rbind fst snd]; [|by rewrite with_table..].
    rewrite alone_method. cbn [step client_alone fst snd as_entry]. by rewrite with_table.
  - rewrite Hclaim. cbn [client_alone fst snd]. pose proof (claim_keeps r id l) as Hk. destruct (tn_claim r id l) as [r1 x]. cbn [fst snd] in *.
    by rewrite Hk at 2.
  - unfold c_find_free, tn_claim_free, tn_find_free. cbn [client_alone]. rewrite alone_method. cbn [step as_id].
    destruct (find_free (tn_table r)) as [i|e|]; cbn [rbind client_alone fst snd]; [|by rewrite with_table..].
    rewrite Hclaim. cbn [client_alone fst snd]. pose proof (claim_keeps r (tn_from_index r i) l) as Hk.
    destruct (tn_claim r (tn_from_index r i) l) as [r1 [|e|]]; cbn [fst snd rbind] in *; by rewrite Hk at 2.
  - unfold tn_release. destruct (tn_validate r id); cbn [client_alone fst snd]; [|by rewrite with_table..].
    rewrite alone_method. cbn [step]. by destruct (release _ _).
  - unfold tn_update. destruct (tn_validate r id); cbn [client_alone fst snd]; [|by rewrite with_table..].
    rewrite alone_method. cbn [step]. by destruct (update_op _ _ _).
  - cbn [client_alone]. rewrite alone_method. cbn [step client_alone fst snd]. by rewrite with_table.
  - unfold tn_has. destruct (tn_validate r id); cbn [client_alone fst snd]; [|by rewrite with_table..].
    rewrite alone_method. cbn [step client_alone fst snd]. by rewrite with_table.
  - unfold tn_is_free. destruct (tn_validate r id); cbn [client_alone fst snd]; [|by rewrite with_table..].
    rewrite alone_method. cbn [step client_alone fst snd]. by rewrite with_table.
  - unfold c_find_free. cbn [client_alone]. rewrite alone_method. cbn [step client_alone fst snd as_id]. by rewrite with_table.
  - cbn [client_alone]. rewrite !alone_method. cbn [step client_alone fst snd]. rewrite alone_method. cbn [step client_alone fst snd as_values]. by rewrite with_table.
  - cbn [client_alone]. rewrite !alone_method. cbn [step client_alone fst snd]. rewrite alone_method. cbn [step client_alone fst snd as_ids].
    unfold tn_get_by_label. rewrite drain_both. change (drain _ (iterate (tn_table r))) with (iter_all (iterate (tn_table r))).
    destruct (iter_all (iterate (tn_table r))) as [ks|e|]; cbn [client_alone rbind fst snd]; [|by rewrite with_table..].
    rewrite by_label_alone. cbn [fst snd]. rewrite with_table. f_equal. f_equal. by destruct (tn_get_by_label_loop r sel _).
Qed.

Lemma tn_call_no_peek o : t_by_label o = false -> no_peek (tn_call r o).
Proof.
  assert (Hclaim : forall id l k, (forall x, no_peek (k x)) -> no_peek (c_claim r id l k)).
  { intros id l k Hk. unfold c_claim. destruct (tn_validate r id); cbn; [|apply Hk..]. intros x. destruct (negb _); cbn; auto. }
  destruct o; try done; intros _; cbn [tn_call]; try (match goal with |- context [tn_validate r ?i] => destruct (tn_validate r i) end; done).
  - by apply Hclaim.
  - cbn. intros x. destruct (as_id x); [|done..]. by apply Hclaim.
Qed.
Lemma tn_call_idx_ok nest wr o : (t_gets_all o = true -> nest = true) -> (t_writes o = true -> wr = true) ->
  only (idx_ok nest wr) (tn_call r o).
Proof.
  intros Hn Hw. assert (Hclaim : forall id l k, wr = true -> (forall x, only (idx_ok nest wr) (k x)) -> only (idx_ok nest wr) (c_claim r id l k)).
  { intros id l k -> Hk. unfold c_claim. destruct (tn_validate r id); cbn; [|apply Hk..]. split; [done|]. intros x. destruct (negb _); cbn; auto.
    split; done. }
  destruct o; cbn [tn_call t_gets_all t_writes] in *; try (match goal with |- context [tn_validate r ?i] => destruct (tn_validate r i) end; done).
  - apply Hclaim; [auto|done].
  - cbn. split; [done|]. intros x. destruct (as_id x); [|done..]. apply Hclaim; [auto|done].
  - done.
  - done.
  - cbn. split; [done|]. intros _. split; [|done]. split; auto.
  - cbn. split; [done|]. intros _. split; [done|]. intros x. destruct (as_ids x) as [ks|e|]; [|done..].
    generalize (@nil (tentry L)). induction ks as [|k ks IH]; intros es; [done|]. cbn. intros d. destruct (t_map d !! k); [apply IH|done].
Qed.

Notation spec := (fun d o => alone (method o) d).
Lemma tn_call_last o : t_composite o = false -> effect_last spec tn_on (fun _ => True) t_same o (tn_call r o).
Proof.
  assert (Hval : forall d id, tn_validate (tn_with r d) id = tn_validate r id) by done.
  assert (Hidx : forall d id, tn_index (tn_with r d) id = tn_index r id) by done.
  assert (Hsto : forall d i (l : L), tn_stored (tn_with r d) i l = tn_stored r i l) by done.
  assert (Hall : forall d es, tn_get_all_loop (tn_with r d) es = tn_get_all_loop r es).
  { intros d es. induction es as [|[e|] es IH]; [done| |done]. cbn [tn_get_all_loop]. by rewrite IH. }
  intros Ho. destruct o; try done; cbn [tn_call].
  - destruct (tn_validate r id) eqn:Hv; cbn [effect_last]; intros d _; unfold tn_on; cbn [tn_step]; unfold tn_get; rewrite Hval, Hv; [|done..].
    rewrite alone_method. split; [done|]. split; [by left|done].
  - unfold c_claim. destruct (tn_validate r id) eqn:Hv; cbn [effect_last]; intros d _; unfold tn_on; cbn [tn_step]; unfold tn_claim; rewrite Hval, Hv; [|done..].
    rewrite alone_method, Hidx. cbn [step snd fst as_bool tn_table tn_with].
    destruct (is_free_op d (tn_index r id)) eqn:Hfree; cbn [negb returns fst snd].
    + split; [done|]. cbn [effect_last]. intros d1 _. rewrite alone_method. cbn [step returns]. unfold tn_on; cbn [tn_step]; unfold tn_claim.
      rewrite Hval, Hv, Hidx, Hsto. cbn [tn_table tn_with].
      destruct (claim d1 (tn_index r id) (tn_stored r (tn_index r id) l)) as [d2 x] eqn:Ec. cbn [fst snd].
      destruct (is_free_op d1 (tn_index r id)) eqn:Hf1; cbn [negb fst snd returns].
      * split; [done|]. split; [by left|done].
      * unfold claim, add in Ec. cbn [e_id] in Ec. unfold is_free_op in Hf1.
        destruct (validate d1 (tn_index r id)) as [u|e|] eqn:Ev.
        -- rewrite Hf1 in Ec. cbn [negb] in Ec. injection Ec as <- <-. split; [done|]. split; [|done]. right. eauto.
        -- injection Ec as <- <-. split; [done|]. split; [|done]. right. eauto.
        -- unfold validate in Ev. by destruct (_ <? _).
    + split; [done|]. split; [by left|done].
  - destruct (tn_validate r id) eqn:Hv; cbn [effect_last]; intros d _; unfold tn_on; cbn [tn_step]; unfold tn_release; rewrite Hval, Hv; [|done..].
    rewrite alone_method, Hidx. cbn [step tn_table tn_with]. destruct (release d _). split; [done|]. split; [by left|done].
  - destruct (tn_validate r id) eqn:Hv; cbn [effect_last]; intros d _; unfold tn_on; cbn [tn_step]; unfold tn_update; rewrite Hval, Hv; [|done..].
    rewrite alone_method, Hidx, Hsto. cbn [step tn_table tn_with]. destruct (update_op d _ _). split; [done|]. split; [by left|done].
  - cbn [effect_last]. intros d _. rewrite alone_method. split; [done|]. split; [by left|done].
  - destruct (tn_validate r id) eqn:Hv; cbn [effect_last]; intros d _; unfold tn_on; cbn [tn_step]; unfold tn_has; rewrite Hval, Hv; [|done..].
    rewrite alone_method. split; [done|]. split; [by left|done].
  - destruct (tn_validate r id) eqn:Hv; cbn [effect_last]; intros d _; unfold tn_on; cbn [tn_step]; unfold tn_is_free; rewrite Hval, Hv; [|done..].
    rewrite alone_method. split; [done|]. split; [by left|done].
  - unfold c_find_free. cbn [effect_last]. intros d _. rewrite alone_method. split; [done|]. split; [by left|done].
  - cbn [effect_last]. intros d _. rewrite alone_method. cbn [step fst snd returns]. split; [done|]. cbn [effect_last]. intros d1 _.
    rewrite alone_method. split; [done|]. split; [|done]. left. unfold tn_on. cbn [tn_step step snd as_values]. unfold tn_get_all. cbn [tn_table tn_with].
    destruct (get_all d1); cbn [rbind]; [|done..]. by rewrite Hall.
Qed.

(** A call, with its result, on a table. *)
Definition tn_seen (d : table (tentry L)) (ox : top L * tout L) : table (tentry L) * tout L :=
  match t_counts ox with
  | Some (o, x) =>
      (fst (tn_on d o),
       match ox.1, snd (tn_on d o) with
       | TClaimFree _, TRUnit (Ok _) => ox.2
       | _, y => y
       end)
  | None => (d, ox.2)
  end.
Lemma seen_other d o x : (forall l, o <> TClaimFree l) -> tn_seen d (o, x) = tn_on d o.
Proof. intros H. unfold tn_seen. destruct o; try (by destruct (H _ eq_refl)); cbn [t_counts fst snd]; by destruct (tn_on d _). Qed.
Lemma effect_seen_other o p : (forall l, o <> TClaimFree l) ->
  effect_last spec tn_on (fun _ => True) t_same o p -> effect_seen spec tn_seen (fun _ => True) t_same o p.
Proof.
  intros Ho. induction p as [a|m k IH|k IH]; cbn [effect_last effect_seen]; [| |done].
  - intros H d _. rewrite seen_other by done. by apply H.
  - intros H d Hd. specialize (H d Hd). destruct (returns _) as [a|]; [|destruct H; split; [done|by apply IH]].
    by rewrite seen_other.
Qed.
Lemma find_free_err (d : table (tentry L)) e : find_free d = Err e -> e = ENoFree.
Proof.
  unfold find_free. destruct (iter_next (iterate_free d)) as [it []]; [|congruence].
  unfold iter_id. repeat case_match; congruence.
Qed.
Lemma counts_err (l : L) e : e <> ENoFree -> t_counts (TClaimFree l, TREntry (Err e)) = None.
Proof. by destruct e. Qed.
Lemma claim_res (d : table (tentry L)) i v :
  (claim d i v = (Table (t_size d) (<[i := NewEntry i v]> (t_map d)), Ok tt) /\ is_free_op d i = true) \/
  exists e, claim d i v = (d, Err e) /\ e <> ENoFree.
Proof.
  unfold claim, add, is_free_op. cbn [e_id]. unfold validate. destruct (_ <? _); [right; eauto|].
  destruct (is_free d i) eqn:E; cbn [negb]; [by left|right; eauto].
Qed.

Lemma tn_call_seen o : t_by_label o = false -> effect_seen spec tn_seen (fun _ => True) t_same o (tn_call r o).
Proof.
  intros Hb. destruct (t_composite o) eqn:Hcomp; [|apply effect_seen_other; [by destruct o|by apply tn_call_last]].
  destruct o; try done. cbn [tn_call]. unfold c_find_free. cbn [effect_seen]. intros d _. rewrite alone_method.
  cbn [step fst snd as_id].
  destruct (find_free d) as [i|e|] eqn:Hff; cbn [rbind returns].
  - set (id := tn_from_index r i). assert (Hid : uwrap (tn_w (tn_c r)) id = id).
    { unfold id, tn_from_index, uadd, uwrap. apply N.mod_mod, N.pow_nonzero. lia. }
    unfold c_claim. destruct (tn_validate r id) as [[]|e|] eqn:Hv; cbn [returns].
    + split; [done|]. cbn [effect_seen]. intros d1 _. rewrite alone_method. cbn [step fst snd as_bool].
      destruct (negb (is_free_op d1 (tn_index r id))) eqn:Hfree; cbn [returns rbind]; [split; [done|]; split; [by left|done]|].
      split; [done|]. cbn [effect_seen]. intros d2 _. rewrite alone_method. cbn [step fst snd as_unit returns].
      destruct (claim_res d2 (tn_index r id) (tn_stored r (tn_index r id) l)) as [[Ec Hf2]|(e & Ec & He)]; rewrite Ec; cbn [fst snd as_unit rbind].
      * unfold tn_seen. cbn [t_counts fst snd te_id]. rewrite Hid. unfold tn_on. cbn [tn_step]. unfold tn_claim.
        change (tn_validate (tn_with r d2) id) with (tn_validate r id). rewrite Hv.
        change (tn_index (tn_with r d2) id) with (tn_index r id). change (tn_table (tn_with r d2)) with d2. rewrite Hf2. cbn [negb].
        change (tn_stored (tn_with r d2) (tn_index r id) l) with (tn_stored r (tn_index r id) l).
        rewrite Ec. cbn [fst snd]. split; [done|]. split; [by left|done].
      * unfold tn_seen. rewrite counts_err by done. split; [done|]. split; [by left|done].
    + assert (e = EOutsideRange) as -> by (unfold tn_validate in Hv; repeat case_match; congruence).
      split; [done|]. split; [by left|done].
    + exfalso. unfold tn_validate in Hv. repeat case_match; congruence.
  - apply find_free_err in Hff as He. subst e. split; [|split; [left|done]]; unfold tn_seen; cbn [t_counts fst snd];
      unfold tn_on; cbn [tn_step]; unfold tn_claim_free, tn_find_free; cbn [tn_table tn_with]; rewrite Hff; done.
  - split; [|split; [left|done]]; unfold tn_seen; cbn [t_counts fst snd];
      unfold tn_on; cbn [tn_step]; unfold tn_claim_free, tn_find_free; cbn [tn_table tn_with]; rewrite Hff; done.
Qed.

Lemma seen_plain (d : table (tentry L)) (oxs : list (top L * tout L)) :
  Forall2 t_same oxs.*2 (snd (seq_run tn_seen d oxs)) ->
  Forall2 t_same (omap t_counts oxs).*2 (snd (seq_run tn_on d (omap t_counts oxs).*1)) /\
  fst (seq_run tn_seen d oxs) = fst (seq_run tn_on d (omap t_counts oxs).*1).
Proof.
  revert d. induction oxs as [|ox oxs IH]; intros d H; [by repeat constructor|].
  assert (Eomap : omap t_counts (ox :: oxs) = match t_counts ox with Some y => y :: omap t_counts oxs | None => omap t_counts oxs end) by done.
  rewrite Eomap. clear Eomap. rewrite fmap_cons in H. cbn [seq_run] in H |- *.
  destruct (tn_seen d ox) as [d1 y] eqn:Es. specialize (IH d1).
  destruct (seq_run tn_seen d1 oxs) as [d2 ys] eqn:Er. cbn [fst snd] in *.
  apply Forall2_cons_1 in H as [Hy Hys]. destruct (IH Hys) as [IH1 IH2].
  unfold tn_seen in Es. destruct (t_counts ox) as [[o x]|] eqn:Ec; rewrite ?fmap_cons; cbn [seq_run fst snd].
  - destruct (tn_on d o) as [d1' z] eqn:Eo. cbn [fst snd] in Es. injection Es as -> Ey.
    destruct (seq_run tn_on d1 (omap t_counts oxs).*1) as [d3 zs]. cbn [fst snd] in *. split; [|done].
    constructor; [|done].
    assert (Hc : (exists l e, ox = (TClaimFree l, TREntry (Ok e)) /\ x = TRUnit (Ok tt)) \/ (o, x) = ox).
    { clear -Ec. destruct ox as [[] []]; try (injection Ec as <- <-; by right).
      destruct x0 as [e|e|]; [injection Ec as <- <-; left; eauto|destruct e; try discriminate Ec; injection Ec as <- <-; by right|
        injection Ec as <- <-; by right]. }
    destruct Hc as [(l & e & -> & ->)|<-]; cbn [fst snd] in *.
    + cbn [t_counts] in Ec. injection Ec as <-.
      assert (Hz : exists u, z = TRUnit u).
      { unfold tn_on in Eo. cbn [tn_step] in Eo. destruct (tn_claim _ _ _) as [? u]. injection Eo as _ <-. by exists u. }
      destruct Hz as [[[]|e'|] ->]; subst y; [by left|..]; (destruct Hy as [Hy|(? & ? & Hy & _)]; discriminate Hy).
    + assert (y = z) as -> by (destruct o; try done; unfold tn_on in Eo; cbn [tn_step] in Eo; destruct (tn_claim_free _ _); by injection Eo as _ <-).
      done.
  - injection Es as -> _. done.
Qed.
End tableN.

Section iptable.
Context {S D : Type} (parse : S -> option addr) (r : iptable D).
Notation alone_call o d := (client_alone method (ip_call parse r o) d).
Definition ip_on (d : table D) (o : iop S D) : table D * iout D :=
  (ip_table (fst (ip_step parse (ip_with r d) o)), snd (ip_step parse (ip_with r d) o)).

Lemma ip_step_keeps (r' : iptable D) (o : iop S D) : fst (ip_step parse r' o) = ip_with r' (ip_table (fst (ip_step parse r' o))).
Proof.
  destruct o; cbn [ip_step fst]; try (by destruct r').
  - unfold ip_claim. destruct r'. destruct (ip_validate parse _ _); [|done..]. cbv zeta. destruct (negb _); [done|]. by destruct (claim _ _ _).
  - unfold ip_release. destruct r'. destruct (ip_validate parse _ _); [|done..]. by destruct (release _ _).
  - unfold ip_update. destruct r'. destruct (ip_validate parse _ _); [|done..]. cbv zeta. destruct (is_free_op _ _); [done|]. by destruct (update_op _ _ _).
Qed.
Lemma ip_on_run d os : ip_run parse (ip_with r d) os = (ip_with r (fst (seq_run ip_on d os)), snd (seq_run ip_on d os)).
Proof.
  revert d. induction os as [|o os IH]; intros d; [done|]. cbn [ip_run seq_run]. unfold ip_on at 1 3.
  pose proof (ip_step_keeps (ip_with r d) o) as Hk. destruct (ip_step parse (ip_with r d) o) as [r1 x]. cbn [fst snd] in *.
  rewrite Hk. change (ip_with (ip_with r d) (ip_table r1)) with (ip_with r (ip_table r1)). rewrite IH.
  change (ip_table (ip_with r (ip_table r1))) with (ip_table r1). by destruct (seq_run ip_on (ip_table r1) os).
Qed.
Lemma ip_with_table : ip_with r (ip_table r) = r.
Proof. by destruct r. Qed.

Lemma ip_by_label_alone sel keys es (d : table D) : client_alone method (ci_by_label sel keys es) d =
  (d, IRDatas (do rest <- ip_by_label sel ((fun k => t_map d !! k) <$> keys); Ok (es ++ rest))).
Proof.
  revert es. induction keys as [|k ks IH]; intros es; cbn [ci_by_label client_alone fmap list_fmap ip_by_label rbind].
  - by rewrite app_nil_r.
  - destruct (t_map d !! k) as [e|] eqn:Hk; cbn [client_alone]; [|done]. change (list_fmap ?A ?B ?f ks) with (f <$> ks).
    destruct (sel (e_data e)) eqn:Hs; cbn [client_alone]; rewrite ?Hk; rewrite IH;
    destruct (ip_by_label sel _) as [rest|x|]; cbn [rbind]; try done. by rewrite <- app_assoc.
Qed.

Lemma ip_call_alone o : (ip_with r (fst (alone_call o (ip_table r))), snd (alone_call o (ip_table r))) = ip_step parse r o.
Proof.
  destruct o; cbn [ip_call ip_step].
  - unfold ip_get. destruct (ip_validate parse r s); cbn [client_alone rbind fst snd]; [|by rewrite ip_with_table..].
    rewrite alone_method. cbn [step client_alone fst snd as_entry]. by rewrite ip_with_table.
  - unfold ip_claim. destruct (ip_validate parse r s); cbn [client_alone fst snd]; [|by rewrite ip_with_table..]. cbv zeta.
    rewrite alone_method. cbn [step as_bool]. destruct (negb _); cbn [client_alone fst snd]; [by rewrite ip_with_table|].
    rewrite alone_method. cbn [step]. by destruct (claim _ _ _).
  - unfold ip_release. destruct (ip_validate parse r s); cbn [client_alone fst snd]; [|by rewrite ip_with_table..].
    rewrite alone_method. cbn [step]. by destruct (release _ _).
  - unfold ip_update. destruct (ip_validate parse r s); cbn [client_alone fst snd]; [|by rewrite ip_with_table..]. cbv zeta.
    rewrite alone_method. cbn [step as_bool]. destruct (is_free_op _ _); cbn [client_alone fst snd]; [by rewrite ip_with_table|].
    rewrite alone_method. cbn [step]. by destruct (update_op _ _ _).
  - cbn [client_alone]. rewrite alone_method. cbn [step client_alone fst snd]. by rewrite ip_with_table.
  - unfold ip_has. destruct (ip_validate parse r s); cbn [client_alone fst snd]; [|by rewrite ip_with_table..].
    rewrite alone_method. cbn [step client_alone fst snd]. by rewrite ip_with_table.
  - unfold ip_is_free. destruct (ip_validate parse r s); cbn [client_alone fst snd]; [|by rewrite ip_with_table..].
    rewrite alone_method. cbn [step client_alone fst snd]. by rewrite ip_with_table.
  - cbn [client_alone]. rewrite alone_method. cbn [step client_alone fst snd as_id]. by rewrite ip_with_table.
  - cbn [client_alone]. rewrite !alone_method. cbn [step client_alone fst snd as_values]. by rewrite ip_with_table.
  - cbn [client_alone]. rewrite !alone_method. cbn [step client_alone fst snd as_ids].
    unfold ip_get_by_label. rewrite drain_both. change (drain _ (iterate (ip_table r))) with (iter_all (iterate (ip_table r))).
    destruct (iter_all (iterate (ip_table r))) as [ks|e|]; cbn [client_alone rbind fst snd]; [|by rewrite ip_with_table..].
    rewrite ip_by_label_alone. cbn [fst snd]. rewrite ip_with_table. f_equal. f_equal. by destruct (ip_by_label sel _).
Qed.

Lemma ip_call_no_peek o : i_by_label o = false -> no_peek (ip_call parse r o).
Proof.
  destruct o; try done; intros _; cbn [ip_call]; try (destruct (ip_validate parse r s); done).
  - destruct (ip_validate parse r s); [|done..]. cbn. intros x. by destruct (negb _).
  - destruct (ip_validate parse r s); [|done..]. cbn. intros x. by destruct (as_bool x).
Qed.
Lemma ip_call_idx_ok nest wr o : (i_gets_all o = true -> nest = true) -> (i_writes o = true -> wr = true) ->
  only (idx_ok nest wr) (ip_call parse r o).
Proof.
  intros Hn Hw. destruct o; cbn [ip_call i_gets_all i_writes] in *; try done;
    try (destruct (ip_validate parse r s); [|done..]).
  - done.
  - cbn. split; [done|]. intros x. destruct (negb _); [done|]. cbn. split; [|done]. split; auto.
  - cbn. split; [|done]. split; auto.
  - cbn. split; [done|]. intros x. destruct (as_bool x); [done|]. cbn. split; [|done]. split; auto.
  - done.
  - done.
  - cbn. split; [done|]. intros x. destruct (as_ids x) as [ks|e|]; [|done..].
    generalize (@nil D). induction ks as [|k ks IH]; intros es; [done|]. cbn. intros d. destruct (t_map d !! k) as [e|]; [|done].
    destruct (sel (e_data e)); [|apply IH]. cbn. intros d'. destruct (t_map d' !! k); [apply IH|done].
Qed.

Notation spec := (fun d o => alone (method o) d).
Lemma ip_call_last o : i_composite o = false -> effect_last spec ip_on (fun _ => True) i_same o (ip_call parse r o).
Proof.
  assert (Hval : forall d s, ip_validate parse (ip_with r d) s = ip_validate parse r s) by done.
  intros Ho. destruct o; try done; cbn [ip_call].
  - destruct (ip_validate parse r s) as [a|e|] eqn:Hv; cbn [effect_last]; intros d _; unfold ip_on; cbn [ip_step]; unfold ip_get; rewrite Hval, Hv; [|done..].
    rewrite alone_method. split; [done|]. split; [by left|done].
  - destruct (ip_validate parse r s) as [a|e|] eqn:Hv; cbn [effect_last]; [|intros d0 _; unfold ip_on; cbn [ip_step]; unfold ip_claim; rewrite Hval, Hv; done..].
    intros d0 _. unfold ip_on at 1 2; cbn [ip_step]; unfold ip_claim; rewrite Hval, Hv. cbv zeta. cbn [ip_from ip_table ip_with].
    rewrite alone_method. cbn [step snd fst as_bool].
    destruct (is_free_op d0 (calculate_index a (ip_from r))) eqn:Hfree; cbn [negb returns fst snd].
    + split; [done|]. cbn [effect_last]. intros d1 _. rewrite alone_method. cbn [step returns]. unfold ip_on; cbn [ip_step]; unfold ip_claim.
      rewrite Hval, Hv. cbv zeta. cbn [ip_table ip_with ip_from].
      destruct (claim d1 (calculate_index a (ip_from r)) d) as [d2 x] eqn:Ec. cbn [fst snd].
      destruct (is_free_op d1 (calculate_index a (ip_from r))) eqn:Hf1; cbn [negb fst snd returns].
      * split; [done|]. split; [by left|done].
      * unfold claim, add in Ec. cbn [e_id] in Ec. unfold is_free_op in Hf1.
        destruct (validate d1 (calculate_index a (ip_from r))) as [u|e|] eqn:Ev.
        -- rewrite Hf1 in Ec. cbn [negb] in Ec. injection Ec as <- <-. split; [done|]. split; [|done]. right. eauto.
        -- injection Ec as <- <-. split; [done|]. split; [|done]. right. eauto.
        -- unfold validate in Ev. by destruct (_ <? _).
    + split; [done|]. split; [by left|done].
  - destruct (ip_validate parse r s) as [a|e|] eqn:Hv; cbn [effect_last]; intros d _; unfold ip_on; cbn [ip_step]; unfold ip_release; rewrite Hval, Hv; [|done..].
    rewrite alone_method. cbn [step ip_table ip_with ip_from]. destruct (release d _). split; [done|]. split; [by left|done].
  - destruct (ip_validate parse r s) as [a|e|] eqn:Hv; cbn [effect_last]; [|intros d0 _; unfold ip_on; cbn [ip_step]; unfold ip_update; rewrite Hval, Hv; done..].
    intros d0 _. unfold ip_on at 1 2; cbn [ip_step]; unfold ip_update; rewrite Hval, Hv. cbv zeta. cbn [ip_from ip_table ip_with].
    rewrite alone_method. cbn [step snd fst as_bool].
    destruct (is_free_op d0 (calculate_index a (ip_from r))) eqn:Hfree; cbn [negb returns fst snd].
    + split; [done|]. split; [by left|done].
    + split; [done|]. cbn [effect_last]. intros d1 _. rewrite alone_method. cbn [step returns]. unfold ip_on; cbn [ip_step]; unfold ip_update.
      rewrite Hval, Hv. cbv zeta. cbn [ip_table ip_with ip_from].
      destruct (update_op d1 (calculate_index a (ip_from r)) d) as [d2 x] eqn:Ec. cbn [fst snd].
      destruct (is_free_op d1 (calculate_index a (ip_from r))) eqn:Hf1; cbn [negb fst snd returns].
      * unfold update_op, update in Ec. cbn [e_id] in Ec. unfold is_free_op in Hf1.
        destruct (validate d1 (calculate_index a (ip_from r))) as [u|e|] eqn:Ev.
        -- rewrite Hf1 in Ec. injection Ec as <- <-. split; [done|]. split; [|done]. right. eauto.
        -- injection Ec as <- <-. split; [done|]. split; [|done]. right. eauto.
        -- unfold validate in Ev. by destruct (_ <? _).
      * split; [done|]. split; [by left|done].
  - cbn [effect_last]. intros d _. rewrite alone_method. split; [done|]. split; [by left|done].
  - destruct (ip_validate parse r s) as [a|e|] eqn:Hv; cbn [effect_last]; intros d _; unfold ip_on; cbn [ip_step]; unfold ip_has; rewrite Hval, Hv; [|done..].
    rewrite alone_method. split; [done|]. split; [by left|done].
  - destruct (ip_validate parse r s) as [a|e|] eqn:Hv; cbn [effect_last]; intros d _; unfold ip_on; cbn [ip_step]; unfold ip_is_free; rewrite Hval, Hv; [|done..].
    rewrite alone_method. split; [done|]. split; [by left|done].
  - cbn [effect_last]. intros d _. rewrite alone_method. split; [done|]. split; [by left|done].
  - cbn [effect_last]. intros d _. rewrite alone_method. split; [done|]. split; [by left|done].
Qed.
End iptable.
