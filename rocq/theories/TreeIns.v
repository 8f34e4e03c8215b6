(** The insertion loop, and Set and Add as a whole. *)
From Verif Require Export TreeAdd.
From Coq Require Import Lia ZifyBool ZifyNat ZifyN.
Local Open Scope N_scope.

Section Ins.
Context {T : Type} {Hkb : kbound T} (zero : T) (c : idcfg).
Notation w := (id_w c).
Context {Hwide : wide T c}.
Let Hw64 : w <= 64. Proof. destruct (@wide_64 T Hkb c Hwide) as [[? _]|[? _]]; lia. Qed.
Let Hw0 : 0 < w. Proof. apply Hwide. Qed.
Notation K := (2 ^ kbound_of T w).
Notation tree := (tree T).
Notation rep := (rep zero c).
Notation same := (same zero c).
Notation vsame := (vsame zero c).
Notation taken := (taken c).
Notation fresh := (@fresh T).
Notation alloc_ok := (alloc_ok c).
Notation can := (can c).
Notation cfg_ok := (cfg_ok c).
Notation vals_at := (vals_at zero).
Notation added := (added zero c).
Notation site := (site zero c).

(** An insertion below node [i] seen from [i]. *)
Record grown (s s' : tree) (t t' : gt T) (q : list bool) (vs : list T) (nw : list N) : Prop := Grown {
  gr_taken : taken s s' nw;
  gr_rep : rep s' (root t') t';
  gr_fp : fp t' ≡ₚ nw ++ fp t;
  gr_look : forall q', glook t' q' = if decide (q' = q) then vs else glook t q';
  gr_frame : forall j, j < K -> j ∉ fp t -> j ∉ nw -> same s s' j }.

Lemma added_below s s' i ic b vs l r nd d c' q2 vs' nw f :
  rep s i (GNode i b vs l r) -> NoDup (fp (GNode i b vs l r)) ->
  (forall j, j ∈ fp (GNode i b vs l r) -> ~ fresh s j) -> t_nodes s !! i = Some nd ->
  added s s' i ic nd (child d l r) c' (d :: q2) vs' nw f ->
  f (root c') nd = (if d : bool then set_right (root c') nd else set_left (root c') nd) ->
  grown s s' (GNode i b vs l r) (GNode i b vs (if d then l else c') (if d then c' else r)) (b ++ d :: q2) vs' nw.
Proof.
  intros Hrep Hnd Hlive Hi [Htk Hrc Hfp Hlook Hp Hpv Hfr] Hf.
  pose proof Hrep as (_ & Hi0 & HiK & Hvl & nd1 & N1 & N2 & N3 & N4 & N5 & N6 & N7).
  rewrite Hi in N1. injection N1 as <-. rewrite Hf in Hp.
  cbn [fp] in Hnd, Hlive. apply NoDup_cons in Hnd as [Hil Hnd].
  apply NoDup_app in Hnd as (Hndl & Hdis & Hndr).
  assert (Hl' : t_length s' = t_length s) by apply Htk.
  assert (Hnw : forall j, j ∈ nw -> j ∉ fp l ++ fp r /\ j <> i).
  { intros j Hj. assert (Hn : j ∉ i :: fp l ++ fp r) by (intros H; by apply (Hlive j H), Htk).
    by apply not_elem_of_cons in Hn as [? ?]. }
  assert (Hoth : rep s' (if d then n_left nd else n_right nd) (child (negb d) l r)).
  { apply (rep_frame zero c s s'); [done| |by destruct d]. intros j Hj.
    assert (Hjlr : j ∈ fp l ++ fp r) by (apply elem_of_app; destruct d; cbn in Hj; tauto).
    apply Hfr.
    - destruct d; cbn in Hj; [exact (rep_lt_K zero c s _ l j N6 Hj)|exact (rep_lt_K zero c s _ r j N7 Hj)].
    - intros Hj'. destruct d; cbn in Hj, Hj'; [exact (Hdis j Hj Hj')|exact (Hdis j Hj' Hj)].
    - intros Hj'. by apply Hnw in Hj' as [? _].
    - intros ->. done. }
  constructor.
  - done.
  - cbn [root TreeHeap.rep]. split; [done|]. split; [done|]. split; [done|]. split; [done|].
    eexists. split; [exact Hp|].
    assert (E : forall X : node -> N, (forall a n, X (set_right a n) = X n) -> (forall a n, X (set_left a n) = X n) ->
       X (if d then set_right (root c') nd else set_left (root c') nd) = X nd) by (intros X H1 H2; by destruct d).
    rewrite (E n_len), (E n_id), (E n_cnt) by done.
    split; [done|]. split; [done|]. split; [done|].
    split; [by apply (vals_at_same zero c s s')|].
    destruct d; cbn [set_right set_left n_left n_right child negb] in *; done.
  - destruct d; cbn [fp child] in *.
    + rewrite Hfp. rewrite (Permutation_app_comm nw (i :: _)). cbn [app]. apply Permutation_cons; [done|].
      rewrite <- app_assoc. apply Permutation_app_head. apply Permutation_app_comm.
    + rewrite Hfp, <- app_assoc. apply Permutation_cons_app. done.
  - intros q'. apply look_below; [|by destruct d]. intros q''. destruct d; cbn [child] in *; apply Hlook.
  - intros j HjK Hj Hjn. cbn [fp] in Hj. apply not_elem_of_cons in Hj as [Hji Hj].
    apply Hfr; [done| |done|done]. intros H. apply Hj, elem_of_app. destruct d; cbn in H; tauto.
Qed.

Lemma grown_added s s' p i pn b vs l r l' r' q vs' nw :
  site s p i pn (GNode i b vs l r) ->
  grown s s' (GNode i b vs l r) (GNode i b vs l' r') q vs' nw ->
  added s s' p i pn (GNode i b vs l r) (GNode i b vs l' r') q vs' nw (fun j n => redirect i j n).
Proof.
  intros [Hc Ha Hrep Hnd Hlive Hp Hpt Hpl HpK Hside] [Htk Hr Hfp Hlook Hfr].
  assert (Hps : same s s' p). { apply Hfr; [done|done|]. intros H. by apply Hpl, Htk. }
  constructor; try done.
  - cbn [root]. rewrite redirect_same by done. by rewrite (proj1 Hps).
  - apply Hps.
  - intros j ? ? ? _. by apply Hfr.
Qed.

(** The loop. *)
Lemma add_loop_spec fuel : forall s p i pn t d h x v mf uf,
  site s p i pn t -> can 2 s -> t <> GNil -> wf d t -> starts h t ->
  idok c x -> (N.to_nat (i_len x) <= d)%nat -> (d <= N.to_nat w)%nat ->
  0 < i_len x -> head (prefix w x) = Some h -> (N.to_nat (i_len x) < fuel)%nat ->
  N.of_nat (length (fst (l_add mf uf v (glook t (prefix w x))))) <= 2 ^ w ->
  exists s' t' nw,
    add_loop zero c fuel s p i x v mf uf =
      Ok (s', (snd (l_add mf uf v (glook t (prefix w x))),
               N.of_nat (length (fst (l_add mf uf v (glook t (prefix w x))))))) /\
    added s s' p i pn t t' (prefix w x) (fst (l_add mf uf v (glook t (prefix w x)))) nw (fun j n => redirect i j n) /\
    wf d t' /\ starts h t' /\ t' <> GNil.
Proof.
  induction fuel as [|fuel IH]; intros s p i pn t d h x v mf uf Hs Hcan Ht Hwf Hst Hx Hxd Hdw Hx0 Hhx Hfuel Hlen; [lia|].
  destruct t as [|i0 b vs l r]; [done|].
  pose proof (si_rep _ _ _ _ _ _ _ Hs) as Hrep.
  pose proof Hrep as (<- & Hi0 & HiK & Hvl & nd & N1 & N2 & N3 & N4 & N5 & N6 & N7).
  destruct Hwf as (Hb0 & Hbd & Hbr & Sl & Sr & Wl & Wr).
  cbn [add_loop]. rewrite (proj2 (N.eqb_neq i 0) Hi0), (get_node_eq s i nd N1). cbn [rbind].
  assert (Hbl : (0 < length b)%nat) by (destruct b; [done|cbn; lia]).
  rewrite (proj2 (N.eqb_neq (n_len nd) 0)) by lia.
  assert (Hmc : N.to_nat (match_count c nd x) = lcp b (prefix w x)).
  { rewrite match_count_lcp; [|lia|apply Hx..]. f_equal. by rewrite N2, Nat2N.id. }
  set (mc := match_count c nd x) in *. clearbody mc.
  pose proof (prefix_length w x) as Hql.
  destruct (lcp_split b (prefix w x)) as (m & p' & q' & Hbm & Hqm & Hlm & Hpq).
  assert (Hmne : m <> []).
  { intros ->. cbn [app] in Hbm, Hqm. subst p'. rewrite <- Hqm in Hpq.
    cbn [starts] in Hst. destruct b as [|b0 b]; [done|]. destruct (prefix w x) as [|q0 qq]; [done|].
    cbn in Hst, Hhx. congruence. }
  assert (Hml0 : (0 < length m)%nat) by (destruct m; [done|cbn; lia]).
  assert (Emc : mc = N.of_nat (length m)) by lia.
  clear Hmc Hlm. subst mc.
  rewrite (proj2 (N.eqb_neq (N.of_nat (length m)) 0)) by lia.
  destruct q' as [|h' q'].
  - (* the id ends here *)
    rewrite app_nil_r in Hqm. subst m.
    assert (El : N.of_nat (length (prefix w x)) = i_len x) by lia.
    rewrite El, N.eqb_refl.
    destruct p' as [|h' b2].
    + rewrite app_nil_r in Hbm. subst b.
      rewrite N2, El, N.eqb_refl.
      assert (Eg : glook (GNode i (prefix w x) vs l r) (prefix w x) = vs).
      { cbn [glook]. by rewrite strip_self_nil. }
      rewrite Eg in *.
      destruct (add_here zero c s p i pn _ vs l r v mf uf Hs Hlen) as (s' & -> & (nd' & Hn' & Hcnt) & Had).
      cbn [rbind fst snd]. rewrite (get_node_eq s' i nd' Hn'). cbn [rbind]. rewrite Hcnt.
      eexists s', _, []. split; [done|]. split; [exact Had|].
      split; [|done]. cbn [wf]. split; [done|]. split; [done|]. split; [|done].
      intros H. by apply l_add_nonempty in H.
    + subst b. rewrite app_length in N2, Hbd, Hbl, Wl, Wr. cbn [length] in N2, Hbd, Hbl, Wl, Wr.
      rewrite (proj2 (N.eqb_neq (i_len x) (n_len nd))) by lia.
      assert (Eg : glook (GNode i (prefix w x ++ h' :: b2) vs l r) (prefix w x) = []).
      { cbn [glook]. rewrite strip_app, strip_self_nil. done. }
      rewrite Eg in *.
      destruct (add_parent zero c s p i pn b2 h' vs l r x v mf uf Hs) as (s' & j & He & Had).
      { destruct Hcan. split; lia. } { done. } { rewrite app_length. cbn [length]. lia. } { done. }
      exists s'. eexists _, [j]. split; [exact He|]. split; [exact Had|].
      assert (Wi : wf (d - length (prefix w x)) (GNode i (h' :: b2) vs l r)).
      { cbn [wf length]. split; [done|]. split; [lia|]. split; [done|]. split; [done|]. split; [done|].
        replace (d - length (prefix w x) - S (length b2))%nat with (d - (length (prefix w x) + S (length b2)))%nat by lia.
        done. }
      split; [|split; [done|done]]. cbn [wf]. split; [done|]. split; [lia|].
      split; [intros H; by apply l_add_nonempty in H|].
      destruct h'; done.
  - assert (Hlt : (length m < N.to_nat (i_len x))%nat).
    { rewrite <- Hql, Hqm, app_length. cbn [length]. lia. }
    rewrite (proj2 (N.eqb_neq (N.of_nat (length m)) (i_len x))) by lia.
    destruct (shift_left_prefix c x (length m) Hx) as (Hx' & Hpx' & Hlx'); [lia|lia|].
    rewrite Hqm, drop_app in Hpx'.
    destruct p' as [|h2 b2].
    + (* below *)
      rewrite app_nil_r in Hbm. subst b. rewrite N2, N.eqb_refl. cbv zeta.
      set (x' := shift_left c x (N.of_nat (length m))) in *.
      assert (Hh' : is_left_bit_set c x' = h').
      { pose proof (is_left_prefix c x' Hx') as H. rewrite Hpx' in H. cbn [head] in H.
        assert (0 < i_len x') by lia. specialize (H H0). congruence. }
      rewrite Hh'.
      assert (Eg : glook (GNode i m vs l r) (prefix w x) = glook (child h' l r) (prefix w x')).
      { rewrite Hqm, Hpx', glook_node. done. }
      rewrite Eg in *.
      assert (Hgo : exists s' c' nw f,
        (if n_left nd =? 0 then True else True) /\
        (if negb h' then if n_left nd =? 0 then add_leaf zero s i false x' v mf uf
           else add_loop zero c fuel s i (n_left nd) x' v mf uf
         else if n_right nd =? 0 then add_leaf zero s i true x' v mf uf
           else add_loop zero c fuel s i (n_right nd) x' v mf uf) =
        Ok (s', (snd (l_add mf uf v (glook (child h' l r) (prefix w x'))),
                 N.of_nat (length (fst (l_add mf uf v (glook (child h' l r) (prefix w x'))))))) /\
        added s s' i (if h' then n_right nd else n_left nd) nd (child h' l r) c' (prefix w x')
          (fst (l_add mf uf v (glook (child h' l r) (prefix w x')))) nw f /\
        f (root c') nd = (if h' then set_right (root c') nd else set_left (root c') nd) /\
        wf (d - length m) c' /\ starts h' c' /\ c' <> GNil).
      { pose proof Hs as [Hc Ha _ Hnd Hlive Hp Hpt Hpl HpK Hside].
        cbn [fp] in Hnd, Hlive, Hpt. apply NoDup_cons in Hnd as [Hil Hnd].
        assert (Hnd' := Hnd). apply NoDup_app in Hnd' as (Hndl & Hdis & Hndr).
        assert (Hrc : rep s (if h' then n_right nd else n_left nd) (child h' l r)) by (by destruct h').
        assert (Hsub : forall j, j ∈ fp (child h' l r) -> j ∈ fp l ++ fp r).
        { intros j Hj. apply elem_of_app. destruct h'; cbn in Hj; tauto. }
        assert (Hil' : ~ fresh s i) by (apply Hlive; left).
        assert (HpL : length (prefix w x') = (N.to_nat (i_len x) - length m)%nat).
        { rewrite prefix_length, Hlx'. lia. }
        destruct (child h' l r) as [|k kb kvs kl kr] eqn:Hch.
        - cbn [TreeHeap.rep] in Hrc. cbn [glook] in *.
          destruct (add_leaf_spec zero c s i h' x' v mf uf nd Hc Ha) as (s' & t' & nw & He & Had & (j & ->));
            [destruct Hcan; split; lia|done|done|done|done|done|].
          exists s', (GNode j (prefix w x') (fst (l_add mf uf v [])) GNil GNil), nw. eexists.
          split; [by destruct (n_left nd =? 0)|]. split.
          { rewrite <- He. destruct h'; cbn [negb]; rewrite Hrc; done. }
          split; [rewrite Hrc; exact Had|]. split; [cbn beta; by destruct h'|].
          split; [|split; [by rewrite Hpx'|done]]. cbn [wf]. rewrite HpL.
          split; [by rewrite Hpx'|]. split; [lia|]. split; [intros H; by apply l_add_nonempty in H|done].
        - rewrite <- Hch in *.
          assert (Hcn : child h' l r <> GNil) by (by rewrite Hch).
          assert (Hn0 : (if h' then n_right nd else n_left nd) <> 0).
          { rewrite (rep_root zero c s _ _ Hrc). rewrite Hch. cbn [root]. rewrite Hch in Hrc.
            by destruct Hrc as (_ & ? & _). }
          destruct (IH s i (if h' then n_right nd else n_left nd) nd (child h' l r) (d - length m)%nat h' x' v mf uf)
            as (s' & t' & nw & He & Had & Hwf' & Hst' & Htn); try done.
          + constructor; try done.
            * by destruct h'.
            * intros j Hj. apply Hlive. right. by apply Hsub.
            * intros Hj. by apply Hil, Hsub.
            * destruct h'; tauto.
          + by destruct h'.
          + by destruct h'.
          + lia.
          + lia.
          + lia.
          + by rewrite Hpx'.
          + lia.
          + exists s', t', nw. eexists. split; [by destruct (n_left nd =? 0)|]. split.
            { rewrite <- He. destruct h'; cbn [negb]; by rewrite (proj2 (N.eqb_neq _ 0)) by done. }
            split; [exact Had|]. split; [|done]. cbn beta. unfold redirect. destruct h'.
            * destruct (N.eqb_spec (n_left nd) (n_right nd)) as [Heq|]; [|done]. exfalso.
              rewrite <- Heq in Hn0. rewrite (rep_root zero c s _ _ N6) in Heq, Hn0.
              rewrite (rep_root zero c s _ _ N7) in Heq.
              assert (Hlnil : l <> GNil) by (by intros ->).
              apply (Hdis (root l)); [by apply root_fp|]. rewrite Heq. by apply root_fp.
            * by rewrite N.eqb_refl. }
      destruct Hgo as (s' & c' & nw & f & _ & He & Had & Hf & Hwf' & Hst' & Hcn).
      exists s', (GNode i m vs (if h' then l else c') (if h' then c' else r)), nw.
      split; [exact He|]. split.
      * apply grown_added; [done|]. rewrite Hqm. rewrite Hpx' in Had |- *.
        apply (added_below s s' i (if h' then n_right nd else n_left nd) m vs l r nd h' c' q' _ nw f); try done; apply Hs.
      * split; [|done]. cbn [wf]. split; [done|]. split; [done|]. split.
        { intros H. destruct (Hbr H). by destruct h'. }
        by destruct h'.
    + (* split *)
      subst b. rewrite app_length in N2, Hbd, Hbl, Wl, Wr. cbn [length] in N2, Hbd, Hbl, Wl, Wr.
      rewrite (proj2 (N.eqb_neq (N.of_nat (length m)) (n_len nd))) by lia.
      assert (h' = negb h2) as -> by (destruct h', h2; done).
      assert (Eg : glook (GNode i (m ++ h2 :: b2) vs l r) (prefix w x) = []).
      { cbn [glook]. rewrite strip_app, Hqm, strip_self. cbn [strip]. by destruct h2. }
      rewrite Eg in *.
      destruct (add_split zero c s p i pn m b2 q' h2 vs l r x v mf uf Hs Hcan Hx Hqm) as (s' & j & k & He & Had).
      { rewrite app_length. cbn [length]. lia. } { done. }
      exists s'. eexists _, [k; j]. split; [exact He|]. split; [exact Had|].
      assert (Wi : wf (d - length m) (GNode i (h2 :: b2) vs l r)).
      { cbn [wf length]. split; [done|]. split; [lia|]. split; [done|]. split; [done|]. split; [done|].
        replace (d - length m - S (length b2))%nat with (d - (length m + S (length b2)))%nat by lia.
        done. }
      assert (Hq'l : (length m + S (length q') = N.to_nat (i_len x))%nat).
      { rewrite <- Hql, Hqm, app_length. done. }
      assert (Wk : wf (d - length m) (GNode k (negb h2 :: q') (fst (l_add mf uf v [])) GNil GNil)).
      { cbn [wf length]. split; [done|]. split; [lia|]. split; [intros H; by apply l_add_nonempty in H|done]. }
      assert (Hsm : head m = Some h).
      { cbn [starts] in Hst. by destruct m. }
      split; [|split; [done|done]]. cbn [wf]. split; [done|]. split; [lia|].
      split; [by destruct h2|]. destruct h2; done.
Qed.
End Ins.
