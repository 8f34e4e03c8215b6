(** Proofs of the property statements about the printing calls, and about the
    values a tree keeps. *)
From Verif Require Import TreePrintModel TreePrintProofs TreeFinal GTreeProofs GTreeFinal.
From Verif Require Import TreeShapeSpec TreeShape.
From Verif Require Import TreeSpec GTreeSpec GTreeLoop.
From Coq Require Import Lia ZifyBool ZifyNat ZifyN.
From Coq Require Strings.String.
Local Open Scope N_scope.

Lemma below_64 c : c ∈ id_packages_16_32 -> id_w c < 64.
Proof.
  unfold id_packages_16_32. intros H. apply elem_of_cons in H as [->|H]; [done|].
  apply elem_of_cons in H as [->|H]; [done|]. by apply elem_of_nil in H.
Qed.
Lemma narrow_16_32 T c : c ∈ id_packages_16_32 -> narrow T c.
Proof. intros Hc. split; [|apply kbits_narrow]; by apply below_64. Qed.

(** The values printed are those the plain map holds, each one as often as it is
    held; nothing of what was overwritten, moved or deleted is left.  The part left
    out: the 64-bit ids, and more than 2^w values at one prefix. *)
Lemma C88_printed_values_partial_pf : forall (T : Type) (zero : T) (c : idcfg) (os : list (top T)) s rs,
  c ∈ id_packages_16_32 -> Forall (top_ok c) os -> roomy (id_w c) ∅ os ->
  t_run zero c (tree_zero c) os = Ok (s, rs) ->
  (print_values s).*2 ≡ₚ concat (map_to_list (fst (spec_run (id_w c) ∅ os))).*2 /\
  NoDup (print_values s).*1.
Proof.
  intros T zero c os s rs Hc Ho Hr Hrun. destruct (wide_16_32 T c Hc) as [Hwide Hw].
  destruct (run_zero zero c Hw os Hr Ho) as (s' & t & H1 & H2 & H3). rewrite H1 in Hrun. injection Hrun as -> <-.
  split; [|apply NoDup_fst_map_to_list]. exact (full_values zero c (narrow_16_32 T c Hc) s _ t H2).
Qed.

(** When every value has been deleted again, nothing is printed. *)
Lemma C88_nothing_left_partial_pf : forall (T : Type) (zero : T) (c : idcfg) (os : list (top T)) s rs,
  c ∈ id_packages_16_32 -> Forall (top_ok c) os -> roomy (id_w c) ∅ os ->
  t_run zero c (tree_zero c) os = Ok (s, rs) -> fst (spec_run (id_w c) ∅ os) = ∅ -> print_values s = [].
Proof.
  intros T zero c os s rs Hc Ho Hr Hrun He.
  destruct (C88_printed_values_partial_pf T zero c os s rs Hc Ho Hr Hrun) as [H _]. rewrite He in H.
  assert (Hz : (print_values s).*2 ≡ₚ []).
  { rewrite H. unfold pmap. by rewrite (map_to_list_empty (M := gmap (list bool))). }
  apply Permutation_nil_r in Hz. by destruct (print_values s).
Qed.

(** The nodes printed are numbered from 0 without gaps, and they are few: for every
    sequence of calls and every width. *)
Lemma C88_printed_nodes_pf : forall (T : Type) (zero : T) (c : idcfg) (os : list (top T)) s rs B,
  c ∈ id_packages -> Forall (top_ok c) os -> at_most_stops zero c os B ->
  t_run zero c (tree_zero c) os = Ok (s, rs) ->
  (print_nodes s).*1 = N.of_nat <$> seq 0 (length (print_nodes s)) /\
  Forall (fun l => is_Some l.2) (print_nodes s) /\
  N.of_nat (length (print_nodes s)) <= 2 + 2 * B.
Proof.
  intros T zero c os s rs B Hc Ho HB Hrun. pose proof (shape_memory zero c Hc os s rs B Ho HB Hrun) as Hm.
  destruct (shape_run zero c Hc os _ _ (SInv_zero c Hc) Ho) as (s' & rs' & P & H1 & [(_ & u & m & t & Hs & Hi & _)] & _).
  rewrite H1 in Hrun. injection Hrun as -> ->.
  unfold print_nodes. rewrite fmap_length, seq_length. split; [|split].
  - by rewrite <- list_fmap_compose.
  - apply Forall_fmap, Forall_forall. intros i Hin. apply elem_of_seq in Hin. unfold compose. cbn [snd].
    assert (Hu : is_Some (t_nodes u !! N.of_nat i)).
    { apply (ao_dom _ _ (iv_alloc _ _ _ _ (Iv_inv _ _ _ _ _ Hi))). rewrite (TreeShape.sh_n _ _ Hs). lia. }
    destruct Hu as [x Hx]. pose proof (TreeShape.sh_nodes _ _ Hs (N.of_nat i)) as Hn. rewrite Hx in Hn. inversion Hn. by eexists.
  - lia.
Qed.

(** The keys of the values printed are those of the nodes printed: a node i with
    ValCount values has the keys from i * 2^w. *)
Lemma C88_keys_of_nodes_partial_pf : forall (T : Type) (zero : T) (c : idcfg) (os : list (top T)) s rs,
  c ∈ id_packages_16_32 -> Forall (top_ok c) os -> roomy (id_w c) ∅ os ->
  t_run zero c (tree_zero c) os = Ok (s, rs) ->
  forall k, k ∈ (print_values s).*1 <->
    exists i nd j, (i, Some nd) ∈ print_nodes s /\ j < n_cnt nd /\ k = i * 2 ^ id_w c + j.
Proof.
  intros T zero c os s rs Hc Ho Hr Hrun. destruct (wide_16_32 T c Hc) as [Hwide Hw].
  destruct (run_zero zero c Hw os Hr Ho) as (s' & t & H1 & H2 & H3). rewrite H1 in Hrun. injection Hrun as -> <-.
  pose proof (narrow_16_32 T c Hc) as Hlt. pose proof (Iv_inv _ _ _ _ _ H2) as Hinv.
  destruct (Iv_tidy _ _ _ _ _ H2 Hlt) as [Ht Hi]. pose proof (inv_small zero c s t Hinv Hi) as Hs.
  assert (Hn : forall i nd, (i, Some nd) ∈ print_nodes s <-> t_nodes s !! i = Some nd).
  { intros i nd. unfold print_nodes. rewrite elem_of_list_fmap. split.
    - by intros (y & [= -> ->] & _).
    - intros Hl. exists (N.to_nat i). rewrite N2Nat.id, Hl. split; [done|]. apply elem_of_seq.
      assert (i < t_n s) by (apply (ao_dom _ _ (iv_alloc _ _ _ _ Hinv)); by eexists). lia. }
  assert (He : forall i nd j, t_nodes s !! i = Some nd -> j < n_cnt nd -> slot s i j = i * 2 ^ id_w c + j).
  { intros i nd j Hl Hj. destruct (proj2 Hs i nd Hl). apply (slot_eq c); [apply (iv_cfg _ _ _ _ Hinv)|done|lia|done]. }
  intros k. unfold print_values. rewrite elem_of_list_fmap. split.
  - intros ([k' v] & -> & Hk). apply elem_of_map_to_list in Hk. cbn [fst].
    destruct (td_in _ Ht k') as (i & j & Hj & ->); [by eexists|]. unfold cnt in Hj.
    destruct (t_nodes s !! i) as [nd|] eqn:Hl; [|lia]. exists i, nd, j. split; [by apply Hn|]. split; [done|].
    by apply (He i nd j).
  - intros (i & nd & j & Hl & Hj & ->). apply Hn in Hl. rewrite <- (He i nd j Hl Hj).
    destruct (td_all _ Ht i j) as [v Hv]; [unfold cnt; by rewrite Hl|].
    exists (slot s i j, v). split; [done|]. by apply elem_of_map_to_list.
Qed.

(** tree16 and tree32 print exactly the entries GetAll returns. *)
Lemma C88_entries_printed_partial_pf : forall (L : Type) (P : gop L -> Prop) (c : gcfg) (n : N) (m : record L) (g : gtree L) es,
  c ∈ g_packages_16_32 -> g_hist P c n m g -> g_get_all g = Ok es ->
  (g_print_values g).*2 ≡ₚ es /\ NoDup (g_print_values g).*1.
Proof.
  intros L P c n m g es Hc Hh Hga. pose proof (hist_G c Hc _ n m g Hh) as HG.
  split; [|apply NoDup_fst_map_to_list].
  destruct (get_all_spec c n m g HG) as (es' & [Hs He] & Hga'). rewrite Hga' in Hga. injection Hga as <-.
  destruct (gi_tree _ _ _ _ HG) as [t Ht]. pose proof (gpack c Hc) as Hcc.
  destruct (wide_16_32 (option (tentry L)) _ Hcc) as [Hwide Hw].
  unfold g_print_values, print_values. rewrite (full_values None (gc_id c) (narrow_16_32 _ _ Hcc) _ _ _ Ht).
  assert (Hp : map_to_list (GTreeLoop.vmap m) ≡ₚ (fun e : tentry L => (prefix (gw c) (eid e), [Some e])) <$> es').
  { apply NoDup_Permutation.
    - apply (NoDup_map_to_list (M := gmap (list bool))).
    - apply (NoDup_fmap_1 fst). rewrite <- list_fmap_compose. change (NoDup ((fun e => prefix (gw c) (eid e)) <$> es')).
      apply sorted_NoDup. clear -Hs. induction Hs as [|e es' Hs IH Hf]; cbn; constructor; [done|]. by apply Forall_fmap.
    - intros [q l]. etransitivity; [apply (elem_of_map_to_list (M := gmap (list bool)))|].
      change (GTreeLoop.vmap m !! q = Some l <-> (q, l) ∈ (fun e : tentry L => (prefix (gw c) (eid e), [Some e])) <$> es').
      rewrite (vmap_lookup m q), elem_of_list_fmap. split.
      + intros Hq. destruct (m !! q) as [e|] eqn:E; [|done]. injection Hq as <-.
        destruct (gi_ok _ _ _ _ HG q e E) as [-> _]. exists e. split; [done|]. by apply He.
      + intros (e & [= -> ->] & Hin). apply He in Hin. by rewrite Hin. }
  rewrite Hp. clear. induction es' as [|e es' IH]; cbn; [done|]. by f_equiv.
Qed.

(** tree64: two entries are listed, one value is kept and printed. *)
Lemma C88_tree64_refuted_pf : exists g rs,
  (do g <- g_new (L := N) cfg_tree64 64;
   g_run dec cfg_tree64 g [GClaimID (MyId 0 64) 1; GClaimID (MyId 1 64) 2]) = Ok (g, rs) /\
  g_Size g = Ok 2 /\ length (g_print_values g) = 1%nat.
Proof. do 2 eexists. split; [vm_compute; reflexivity|]. split; vm_compute; reflexivity. Qed.
