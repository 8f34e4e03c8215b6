(** The tree over 64-bit ids and the package tree64 against a set of prefixes with
    one value. *)
From Verif Require Import IdProofs IdFinal TreeMain TreeFinal GTreeLoop GTreeProofs TreeSim.
From Verif Require Export TreeSpec GTreeSpec Tree64Spec.
From Coq Require Import Lia ZifyBool ZifyNat ZifyN.
Local Open Scope N_scope.

Lemma unit_eq (a b : unit) : a = b.
Proof. by destruct a, b. Qed.
(** The indexes of the tree of units are bounded by what 2^65 prefixes need. *)
Global Instance kbound_unit : kbound unit := Kbound unit (fun w => w + 4).
Global Instance wide_unit : wide unit cfg_id64.
Proof. split; [right; split; [done|apply unit_eq]|done..]. Qed.
Lemma w64 : id_w cfg_id64 ∈ [16; 32; 64].
Proof. cbn. set_solver. Qed.

Section Cell.
Context {T : Type} (zero : T).
Notation c := cfg_id64.

(** The unit tree's map is the set. *)
Definition of_set (m : pmap unit) (P : pset) : Prop :=
  forall q, m !! q = if decide (q ∈ P) then Some [()] else None.

(** Every prefix has at most 64 bits. *)
Definition short64 (P : pset) : Prop := forall q, q ∈ P -> (length q <= 64)%nat.
Lemma short64_put P x : top_ok (T := T) c (TSet x zero) -> short64 P -> short64 ({[ prefix 64 x ]} ∪ P).
Proof.
  intros [_ Hx] HP q Hq. apply elem_of_union in Hq as [Hq|Hq]; [|by apply HP]. apply elem_of_singleton in Hq as ->.
  rewrite TreeBits.prefix_length. cbn [top_id] in Hx. change (id_w c) with 64 in Hx. lia.
Qed.
Lemma short64_sub P Q : P ⊆ Q -> short64 Q -> short64 P.
Proof. intros H HQ q Hq. by apply HQ, H. Qed.

Record CInv (s : tree T) (st : pset * T) : Prop := MkCInv {
  ci_short : short64 (fst st);
  ci_u : exists u m t, Sim zero (snd st) s u /\ Inv () c u m t /\ of_set m (fst st) }.

Lemma CInv_zero : CInv (tree_zero c) (∅, zero).
Proof.
  constructor; [by intros q Hq|]. exists (tree_zero c), ∅, (GNode 1 [] [] GNil GNil). split; [|split; [apply (Inv_zero ()); try apply w64; try apply _|]].
  - constructor; try done. intros i nd. unfold tree_zero, new_tree. cbn [t_nodes].
    intros H. apply lookup_insert_Some in H as [[_ <-]|[_ H]]; [cbn; lia|].
    apply lookup_insert_Some in H as [[_ <-]|[_ H]]; [cbn; lia|]. done.
  - intros q. rewrite decide_False by (apply not_elem_of_empty). done.
Qed.

Lemma of_set_size m P : of_set m P -> size m = size P.
Proof.
  intros H. unfold pmap in *. rewrite <- size_dom.
  replace (dom m : gset (list bool)) with P; [done|]. apply leibniz_equiv. intros q. rewrite elem_of_dom, H.
  destruct (decide (q ∈ P)); [split; [by eauto|done]|]. split; [done|]. by intros [? ?].
Qed.
Lemma of_set_room m P : of_set m P -> short64 P -> roomK 64 m.
Proof.
  intros H Hs. split.
  - assert (Hk : N.of_nat (size m) + 1 <= 2 ^ N.of_nat 65).
    { apply keys_size. intros q l Hl. apply Hs. rewrite H in Hl. by destruct (decide _). }
    change (kbound_of unit 64 - 1) with 67. change (2 ^ N.of_nat 65) with (2 ^ 65) in Hk. lia.
  - intros q l Hl. rewrite H in Hl. destruct (decide _); [|done]. injection Hl as <-. cbn. discriminate.
Qed.
Lemma of_set_held m P q : of_set m P -> held m q = if decide (q ∈ P) then [()] else [].
Proof. intros H. unfold held. rewrite H. by destruct (decide _). Qed.
Lemma of_set_put m P q : of_set m P -> of_set (put m q [()]) ({[ q ]} ∪ P).
Proof.
  intros H q'. unfold put, pmap in *. destruct (decide (q' = q)) as [->|Hq].
  - rewrite lookup_insert, decide_True by set_solver. done.
  - rewrite lookup_insert_ne by done. rewrite H. destruct (decide (q' ∈ P)), (decide (q' ∈ {[q]} ∪ P)); set_solver.
Qed.
Lemma of_set_del m P q : of_set m P -> of_set (put m q []) (P ∖ {[ q ]}).
Proof.
  intros H q'. unfold put, pmap in *. destruct (decide (q' = q)) as [->|Hq].
  - rewrite lookup_delete, decide_False by set_solver. done.
  - rewrite lookup_delete_ne by done. rewrite H. destruct (decide (q' ∈ P)), (decide (q' ∈ P ∖ {[q]})); set_solver.
Qed.

Lemma cell_step_spec s st o : CInv s st -> top_ok c o -> set_or_delete o ->
  exists s', t_step zero c s o = Ok (s', snd (cell_step zero st o)) /\ CInv s' (fst (cell_step zero st o)) /\
    (t_n s < t_n s' -> t_avail s' = []).
Proof.
  intros [Hsh (u & m & t & Hs & Hi & Hm)] Hok Hsd. destruct st as [P cell]. cbn [fst snd] in *.
  destruct o as [x v|x v mf|x mf v]; [|done|].
  - assert (Hsh' : short64 ({[ prefix 64 x ]} ∪ P)) by (by apply short64_put).
    assert (Hput : put m (prefix 64 x) (set_list () (held m (prefix 64 x))) = put m (prefix 64 x) [()]).
    { rewrite (of_set_held m P) by done. by destruct (decide _). }
    destruct (step_spec () c w64 u m t (TSet x ()) Hi) as (u' & t' & He & Hi' & _ & Hgrow).
    { by apply (of_set_room m P). }
    { change (id_w c) with 64. cbn [spec_step fst]. rewrite Hput.
      by apply (of_set_room _ _ (of_set_put m P _ Hm)). }
    { done. }
    change (id_w c) with 64 in *. cbn [spec_step t_step fst snd] in *.
    pose proof (set_sim zero cell s u x v Hs) as Hsim.
    destruct (tree_Set zero c s x v) as [[s1 r]| |], (tree_Set () c u x ()) as [[u1 r']| |]; cbn [rsim rbind fst snd] in *; try done.
    destruct Hsim as [Hsim E]. cbn [fst snd] in *. subst r'. injection He as -> He He2. eexists. split.
    + f_equal. f_equal. rewrite He, He2. rewrite (of_set_held m P) by done. cbn [cell_step fst snd].
      destruct (decide (prefix 64 x ∈ P)).
      * rewrite bool_decide_false by (intros H'; by apply H'). done.
      * rewrite bool_decide_true by done. done.
    + split.
      * constructor; [done|]. exists u', (put m (prefix 64 x) [()]), t'. cbn [fst snd cell_step].
        split; [done|]. rewrite <- Hput. split; [done|]. rewrite Hput. by apply of_set_put.
      * rewrite <- (sm_n _ _ _ _ Hs), <- (sm_n _ _ _ _ Hsim), <- (sm_avail _ _ _ _ Hsim). done.
  - assert (Hsh' : short64 (P ∖ {[ prefix 64 x ]})) by (eapply short64_sub; [|exact Hsh]; set_solver).
    set (del := bool_decide (prefix 64 x ∈ P) && mf cell v).
    assert (Hput : put m (prefix 64 x) (delete_list (fun _ _ => mf cell v) () (held m (prefix 64 x))) =
      if del then put m (prefix 64 x) [] else m).
    { unfold del. rewrite (of_set_held m P) by done.
      destruct (decide (prefix 64 x ∈ P)) as [Hq|Hq].
      - rewrite bool_decide_true by done. cbn [andb]. unfold delete_list. cbn [List.filter].
        destruct (mf cell v); [done|]. cbn. unfold pmap in *. apply insert_id.
        pose proof (Hm (prefix 64 x)) as E. rewrite decide_True in E by done. exact E.
      - rewrite bool_decide_false by done. cbn [andb]. cbn. unfold pmap in *. apply delete_notin.
        pose proof (Hm (prefix 64 x)) as E. rewrite decide_False in E by done. exact E. }
    assert (Hcm : count_matching (fun _ _ => mf cell v) () (held m (prefix 64 x)) = if del then 1 else 0).
    { unfold del. rewrite (of_set_held m P) by done.
      destruct (decide (prefix 64 x ∈ P)) as [Hq|Hq]; [rewrite bool_decide_true by done|rewrite bool_decide_false by done];
        cbn [andb]; unfold count_matching; cbn [List.filter]; [by destruct (mf cell v)|done]. }
    destruct (step_spec () c w64 u m t (TDelete x (fun _ _ => mf cell v) ()) Hi) as (u' & t' & He & Hi' & _ & Hgrow).
    { by apply (of_set_room m P). }
    { change (id_w c) with 64. cbn [spec_step fst]. rewrite Hput.
      destruct del; [by apply (of_set_room _ _ (of_set_del m P _ Hm))|by apply (of_set_room m P)]. }
    { done. }
    change (id_w c) with 64 in *. cbn [spec_step t_step fst snd] in *. rewrite Hcm in He. rewrite Hput in Hi'.
    pose proof (delete_sim zero cell s u x mf v Hs) as Hsim.
    destruct (tree_Delete zero c s x mf v) as [[s1 r]| |], (tree_Delete () c u x _ ()) as [[u1 r']| |];
      cbn [rsim rbind fst snd] in *; try done.
    destruct Hsim as [E Hsim]. cbn [fst snd] in *. subst r'. injection He as -> He.
    cbn [cell_step fst snd]. fold del. subst r. exists s1.
    rewrite <- (sm_n _ _ _ _ Hs), <- (sm_n _ _ _ _ Hsim), <- (sm_avail _ _ _ _ Hsim).
    destruct del; cbn [fst snd after_delete N.eqb] in *.
    + split; [done|]. split; [|done]. constructor; [done|]. exists u', (put m (prefix 64 x) []), t'. split; [done|]. split; [done|]. by apply of_set_del.
    + split; [done|]. split; [|done]. constructor; [done|]. by exists u', m, t'.
Qed.

Lemma CInv_nodes s st : CInv s st ->
  t_n s <= 2 + 2 * N.of_nat (size (fst st)) + N.of_nat (length (t_avail s)).
Proof.
  intros [_ (u & m & t & Hs & Hi & Hm)]. pose proof (Inv_fp () c u m t Hi) as Hfp.
  pose proof (iv_cnt _ _ _ _ (Iv_inv _ _ _ _ _ Hi)) as Hc.
  rewrite <- (sm_n _ _ _ _ Hs), <- (sm_avail _ _ _ _ Hs), <- (of_set_size m _ Hm). lia.
Qed.

Lemma cell_run_spec os : forall s st, CInv s st ->
  Forall (top_ok c) os -> Forall set_or_delete os ->
  exists s', t_run zero c s os = Ok (s', snd (cell_run zero st os)) /\ CInv s' (fst (cell_run zero st os)) /\
    t_n s' <= N.max (t_n s) (2 + 2 * N.of_nat (cell_peak zero st os)).
Proof.
  induction os as [|o os IH]; intros s st Hi Hok Hsd; [exists s; split; [done|]; split; [done|]; lia|].
  apply Forall_cons in Hok as [Hok Hoks]. apply Forall_cons in Hsd as [Hsd Hsds].
  destruct (cell_step_spec s st o Hi) as (s1 & He & Hi1 & Hg); [done|done|].
  destruct (IH s1 (fst (cell_step zero st o)) Hi1) as (s2 & He2 & Hi2 & Hn2); [done|done|].
  exists s2. cbn [t_run cell_run fst snd]. rewrite He. cbn [rbind fst snd]. rewrite He2. cbn [rbind fst snd].
  split; [done|]. split; [done|]. cbn [cell_peak].
  pose proof (CInv_nodes s1 _ Hi1) as Hn1.
  assert (Hp : (size (fst (fst (cell_step zero st o))) <= cell_peak zero (fst (cell_step zero st o)) os)%nat)
    by (destruct os; cbn [cell_peak]; lia).
  destruct (N.lt_ge_cases (t_n s) (t_n s1)) as [H|H]; [|lia]. rewrite (Hg H) in Hn1. cbn [length] in Hn1. lia.
Qed.

(* ------------------------------------------------------------- iteration *)
Lemma vals_sim cell s u i : Sim zero cell s u ->
  rsim (fun a b => length a = length b /\ Forall (eq cell) a) (vals_for_node zero s i) (vals_for_node () u i).
Proof.
  intros H. unfold vals_for_node. apply rsim_if; [by constructor|intros _].
  eapply rsim_bind; [by apply (get_node_sim zero cell)|]. intros nd nd' (<- & Hc & _). cbn.
  rewrite !fmap_length. split; [done|]. apply Forall_fmap, Forall_forall. intros k Hk. apply elem_of_seq in Hk.
  cbn. rewrite key_0 by first [apply H|lia]. replace (N.of_nat k) with 0 by lia. by rewrite (sm_cell _ _ _ _ H).
Qed.

Lemma next_sim cell s u fuel : Sim zero cell s u -> forall it, next_loop fuel s it = next_loop fuel u it.
Proof.
  intros H. induction fuel as [|fuel IH]; intros it; [done|]. cbn [next_loop].
  assert (E : next_body u it = next_body s it).
  { unfold next_body, get_node. by rewrite (sm_nodes _ _ _ _ H). }
  rewrite E. destruct (next_body s it) as [[it' [b|]]| |]; cbn [rbind fst snd]; try done.
Qed.

Lemma iter_loop_sim cell s u fuel : Sim zero cell s u -> forall it,
  rsim (fun a b => length <$> fst a = length <$> fst b /\ Forall (Forall (eq cell)) (fst a) /\ snd a = snd b)
    (iter_loop zero fuel s it) (iter_loop () fuel u it).
Proof.
  intros H. induction fuel as [|fuel IH]; intros it; [done|]. cbn [iter_loop].
  eapply (rsim_bind eq).
  { unfold iter_next. rewrite (sm_n _ _ _ _ H), (next_sim cell s u _ H). by destruct (next_loop _ u it). }
  intros x ? <-. apply rsim_if; [intros _|by intros _; cbn].
  eapply rsim_bind; [unfold iter_vals; by apply (vals_sim cell)|]. intros a b [Hab Ha].
  eapply rsim_bind; [apply IH|]. intros r1 r2 (H1 & H2 & H3). cbn. rewrite Hab, H1. by split; [|split; [constructor|]].
Qed.

Lemma iter_cell s st : CInv s st ->
  exists it, iter_loop zero (S (N.to_nat (t_n s))) s iterate = Ok (replicate (size (fst st)) [snd st], it) /\
    t_gen s = 0 /\ iter_next s it = Ok (it, false).
Proof.
  intros [_ (u & m & t & Hs & Hi & Hm)]. destruct st as [P cell]. cbn [fst snd] in *.
  destruct (iter_inv () c u t (Iv_inv _ _ _ _ _ Hi)) as (I1 & _ & I3).
  pose proof (Inv_listing _ _ _ _ _ Hi) as Hl. pose proof (listing_size m _ Hl) as Hsz.
  rewrite (of_set_size m P Hm) in Hsz. rewrite <- (pre_vlist t []) in I1.
  pose proof (iter_loop_sim cell s u (S (N.to_nat (t_n s))) Hs iterate) as H.
  rewrite (sm_n _ _ _ _ Hs) in I1. rewrite I1 in H.
  destruct (iter_loop zero _ s iterate) as [[vss it]| |]; cbn [rsim fst snd] in *; try done.
  destruct H as (H1 & H2 & ->). exists (Iter 1 [] NUp). split; [|split; [rewrite <- (sm_gen _ _ _ _ Hs); by eapply Iv_gen|]].
  2: { revert I3. unfold iter_next. by rewrite (next_sim cell s u _ Hs), <- (sm_n _ _ _ _ Hs). }
  f_equal. f_equal. rewrite Hsz. destruct Hl as [_ Hl].
  assert (Hall : Forall (fun x => length (snd x) = 1%nat) (pre [] t)).
  { apply Forall_forall. intros [q l] Hx. apply Hl in Hx. rewrite Hm in Hx. destruct (decide _); [|done].
    injection Hx as <-. done. }
  clear -H1 H2 Hall. revert vss H1 H2. induction Hall as [|x pv Hx Hall IH]; intros [|vs vss] H1 H2; try done.
  cbn in *. injection H1 as H1 H1'. apply Forall_cons in H2 as [H2 H2']. rewrite Hx in H1.
  destruct vs as [|v [|]]; try done. apply Forall_cons in H2 as [<- _]. f_equal. by apply IH.
Qed.
End Cell.
