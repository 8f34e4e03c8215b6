(** The invariant of the tree, and Set and Add as a whole. *)
From Verif Require Export TreeIns.
From Coq Require Import Lia ZifyBool ZifyNat ZifyN.
Local Open Scope N_scope.

Section Inv.
Context {T : Type} {Hkb : kbound T} (zero : T) (c : idcfg).
Notation w := (id_w c).
Context {Hwide : wide T c}.
Let Hw64 : w <= 64. Proof. destruct (@wide_64 T Hkb c Hwide) as [[? _]|[? _]]; lia. Qed.
Let Hw0 : 0 < w. Proof. apply Hwide. Qed.
Notation K := (2 ^ kbound_of T w).
Notation tree := (tree T).
Notation rep := (rep zero c).
Notation same := (same zero c).
Notation vsame := (vsame zero c).
Notation taken := (taken c).
Notation fresh := (@fresh T).
Notation alloc_ok := (alloc_ok c).
Notation can := (can c).
Notation cfg_ok := (cfg_ok c).
Notation vals_at := (vals_at zero).
Notation added := (added zero c).
Notation grown := (grown zero c).
Notation site := (site zero c).
Notation navail s := (N.of_nat (length (t_avail s))).

Record inv (s : tree) (t : gt T) : Prop := Inv {
  iv_cfg : cfg_ok s;
  iv_alloc : alloc_ok s;
  iv_rep : rep s 1 t;
  iv_wf : wfr (N.to_nat w) t;
  iv_nodup : NoDup (fp t);
  iv_live : forall j, j ∈ fp t -> ~ fresh s j;
  iv_cnt : t_n s = 1 + N.of_nat (length (fp t)) + navail s }.

Lemma inv_zero : inv (tree_zero c) (GNode 1 [] [] GNil GNil).
Proof.
  assert (HK : 2 <= K).
  { pose proof (@wide_K T Hkb c Hwide) as Hk. change 2 with (2 ^ 1) at 1. apply N.pow_le_mono_r; lia. }
  constructor.
  - done.
  - constructor; cbn [tree_zero new_tree t_n t_nodes t_avail t_cap]; try lia.
    + intros j. destruct (decide (j = 1)) as [->|H1].
      { rewrite lookup_insert. split; [by eexists|lia]. }
      rewrite lookup_insert_ne by done. destruct (decide (j = 0)) as [->|H0].
      { rewrite lookup_insert. split; [by eexists|lia]. }
      rewrite lookup_insert_ne, lookup_empty by done. split; [lia|by intros []].
    + constructor.
    + intros j Hj. by apply elem_of_nil in Hj.
  - cbn [TreeHeap.rep]. split; [done|]. split; [done|]. split; [lia|]. split; [cbn; lia|].
    exists node_zero. split; [by apply lookup_insert|]. done.
  - done.
  - cbn. apply NoDup_singleton.
  - cbn. intros j Hj. apply elem_of_list_singleton in Hj as ->. intros [H|H]; [by apply elem_of_nil in H|].
    cbn in H. lia.
  - done.
Qed.

Lemma reserve_inv s t : inv s t -> inv (reserve s) t.
Proof.
  intros [Hc Ha Hr Hwf Hnd Hlv Hct]. unfold reserve. destruct (_ <? _) eqn:Hlt; [|done].
  destruct Ha as [D1 D2 D3 D4 D5 D6].
  constructor; try done. { constructor; cbn; try done; lia. }
  by apply (rep_frame zero c s).
Qed.

Lemma reserve_can s t : inv s t -> N.of_nat (length (fp t)) + 3 <= K -> can 2 (reserve s).
Proof.
  intros [Hc Ha Hr Hwf Hnd Hlv Hct] Hroom. destruct Ha as [D1 D2 D3 D4 D5 D6].
  unfold reserve, TreeHeap.can.
  destruct (N.ltb_spec (navail s + t_cap s) (t_n s + 10)) as [H|H]; cbn [t_n t_cap t_avail]; lia.
Qed.

Lemma reserve_fields (s : tree) : t_gen (reserve s) = t_gen s /\ t_n (reserve s) = t_n s /\ t_avail (reserve s) = t_avail s /\
  t_nodes (reserve s) = t_nodes s.
Proof. unfold reserve. by destruct (_ <? _). Qed.

Lemma inv_grown s s' i b vs l r l' r' q vs' nw :
  inv s (GNode i b vs l r) -> grown s s' (GNode i b vs l r) (GNode i b vs l' r') q vs' nw ->
  wfr (N.to_nat w) (GNode i b vs l' r') -> inv s' (GNode i b vs l' r').
Proof.
  intros [Hc Ha Hr Hwf Hnd Hlv Hct] [Htk Hr' Hfp Hlook Hfr] Hwf'.
  assert (Hi : i = 1) by apply Hwf. subst i.
  constructor.
  - destruct Hc. split; [by rewrite (tk_len _ _ _ _ Htk)|by rewrite (tk_fn _ _ _ _ Htk)].
  - apply Htk.
  - exact Hr'.
  - done.
  - rewrite Hfp. apply NoDup_app. split; [apply Htk|]. split; [|done].
    intros j Hj Hj'. apply (Hlv j Hj'). by apply Htk.
  - intros j Hj. rewrite Hfp in Hj. apply elem_of_app in Hj as Hj'. rewrite (tk_fresh _ _ _ _ Htk).
    intros [H1 H2]. destruct Hj' as [Hj'|Hj']; [done|]. by apply (Hlv j Hj').
  - rewrite Hfp, app_length. pose proof (tk_acct _ _ _ _ Htk). lia.
Qed.

Definition updated (t t' : gt T) (q : list bool) (vs : list T) : Prop :=
  forall q', glook t' q' = if decide (q' = q) then vs else glook t q'.

Lemma tree_add_spec s t x v mf uf :
  inv s t -> idok c x -> N.of_nat (length (fp t)) + 3 <= K ->
  N.of_nat (length (fst (l_add mf uf v (glook t (prefix w x))))) <= 2 ^ w ->
  exists s' t',
    tree_add zero c s x v mf uf =
      Ok (s', (snd (l_add mf uf v (glook t (prefix w x))),
               N.of_nat (length (fst (l_add mf uf v (glook t (prefix w x))))))) /\
    inv s' t' /\ updated t t' (prefix w x) (fst (l_add mf uf v (glook t (prefix w x)))) /\
    t_gen s' = t_gen s /\ t_n s <= t_n s' /\ (t_n s < t_n s' -> t_avail s' = []) /\ vsame s s' 0 /\
    (forall j, j ∈ t_avail s' -> j ∈ t_avail s /\ t_nodes s' !! j = t_nodes s !! j) /\
    t_nodes s' !! 0 = t_nodes s !! 0.
Proof.
  intros Hinv0 Hx Hroom Hlen.
  pose proof (reserve_inv s t Hinv0) as Hinv. pose proof (reserve_can s t Hinv0 Hroom) as Hcan.
  destruct (reserve_fields s) as (R1 & R2 & R3 & R4).
  unfold tree_add. cbv zeta. rewrite <- R1, <- R2.
  assert (Hv0 : forall s', vsame (reserve s) s' 0 -> vsame s s' 0).
  { intros s' H k Hk. specialize (H k Hk). unfold reserve in H. by destruct (_ <? _). }
  enough (Hgoal : exists s' t', (do root <- get_node (reserve s) 1;
     if i_len x =? 0 then
       do a <- add_val zero (reserve s) v 1 mf uf; do nd <- get_node (fst a) 1; Ok (fst a, (snd a, n_cnt nd))
     else
       if negb (is_left_bit_set c x) then
         if n_left root =? 0 then add_leaf zero (reserve s) 1 false x v mf uf
         else add_loop zero c (S (N.to_nat (i_len x))) (reserve s) 1 (n_left root) x v mf uf
       else
         if n_right root =? 0 then add_leaf zero (reserve s) 1 true x v mf uf
         else add_loop zero c (S (N.to_nat (i_len x))) (reserve s) 1 (n_right root) x v mf uf) =
      Ok (s', (snd (l_add mf uf v (glook t (prefix w x))),
               N.of_nat (length (fst (l_add mf uf v (glook t (prefix w x))))))) /\
    inv s' t' /\ updated t t' (prefix w x) (fst (l_add mf uf v (glook t (prefix w x)))) /\
    t_gen s' = t_gen (reserve s) /\ t_n (reserve s) <= t_n s' /\ (t_n (reserve s) < t_n s' -> t_avail s' = []) /\
    vsame (reserve s) s' 0 /\
    (forall j, j ∈ t_avail s' -> j ∈ t_avail (reserve s) /\ t_nodes s' !! j = t_nodes (reserve s) !! j) /\
    t_nodes s' !! 0 = t_nodes (reserve s) !! 0).
  { destruct Hgoal as (s' & t' & G1 & G2 & G3 & G4 & G5 & G6 & G7 & G8 & G9). exists s', t'.
    rewrite R3, R4 in G8. rewrite R4 in G9. repeat (split; [done|]). split; [by apply Hv0|done]. }
  clear Hv0. set (s0 := reserve s) in *. clearbody s0. clear Hinv0 R1 R2 R3 R4 s.
  rename s0 into s.
  destruct t as [|i b vs l r]; [by destruct (iv_wf _ _ Hinv)|].
  pose proof Hinv as [Hc Ha Hr Hwf Hnd Hlv Hct].
  destruct Hwf as (-> & -> & Sl & Sr & Wl & Wr).
  pose proof Hr as (_ & Hi0 & HiK & Hvl & nd & N1 & N2 & N3 & N4 & N5 & N6 & N7).
  rewrite (get_node_eq s 1 nd N1). cbn [rbind].
  pose proof (prefix_length w x) as Hql.
  destruct (N.eqb_spec (i_len x) 0) as [Hx0|Hx0].
  - (* at the root *)
    assert (Hq : prefix w x = []) by (unfold prefix; by rewrite Hx0).
    rewrite Hq in *. cbn [glook strip] in *.
    destruct (add_val_spec zero c s v 1 mf uf nd vs Hc HiK N1 N4 N5 Hlen)
      as (s' & -> & Hn' & Hctl & Hv' & Hvf). cbn [rbind fst snd].
    set (vs' := fst (l_add mf uf v vs)) in *.
    assert (Hi' : t_nodes s' !! 1 = Some (set_cnt (N.of_nat (length vs')) nd)) by (by rewrite Hn', lookup_insert).
    rewrite (get_node_eq s' 1 _ Hi'). cbn [rbind set_cnt n_cnt].
    assert (Hl' : t_length s' = t_length s) by apply Hctl.
    assert (Ha' : alloc_ok s').
    { apply (alloc_ctl c s s'); [done| |done]. intros j. rewrite Hn'.
      destruct (decide (j = 1)) as [->|Hji].
      - rewrite lookup_insert, N1. by split; eexists.
      - by rewrite lookup_insert_ne. }
    assert (Hoth : forall j, j < K -> j <> 1 -> same s s' j).
    { intros j HjK Hji. split; [by rewrite Hn', lookup_insert_ne|by apply Hvf]. }
    cbn [fp] in Hnd, Hlv. pose proof Hnd as Hnd'. apply NoDup_cons in Hnd' as [Hil _].
    exists s', (GNode 1 [] vs' l r). split; [done|]. split; [|split].
    + constructor; try done.
      * by apply (cfg_ctl c s).
      * cbn [TreeHeap.rep]. split; [done|]. split; [done|]. split; [done|]. split; [done|].
        eexists. split; [exact Hi'|]. cbn [set_cnt n_len n_id n_cnt n_left n_right].
        split; [done|]. split; [done|]. split; [done|]. split; [done|]. split.
        -- apply (rep_frame zero c s s'); [done| |done]. intros j Hj. apply Hoth.
           ++ exact (rep_lt_K zero c s _ l j N6 Hj).
           ++ intros ->. apply Hil, elem_of_app. by left.
        -- apply (rep_frame zero c s s'); [done| |done]. intros j Hj. apply Hoth.
           ++ exact (rep_lt_K zero c s _ r j N7 Hj).
           ++ intros ->. apply Hil, elem_of_app. by right.
      * intros j Hj. rewrite (fresh_ctl s s') by done. by apply Hlv.
      * destruct Hctl as (_ & _ & A3 & _ & A5 & _). rewrite A3, A5. done.
    + intros q'. apply look_same.
    + destruct Hctl as (_ & _ & A3 & _ & A5 & A6). rewrite A3, A6. split; [done|]. split; [lia|].
      split; [intros H; by apply N.lt_irrefl in H|]. split; [apply Hvf; lia|].
      split; [|by rewrite Hn', lookup_insert_ne].
      intros j Hj. rewrite A5 in Hj. split; [done|]. rewrite Hn', lookup_insert_ne; [done|].
      intros <-. apply (ao_av _ _ Ha) in Hj. lia.
  - assert (Hh : head (prefix w x) = Some (is_left_bit_set c x)) by (apply is_left_prefix; [done|lia]).
    set (h := is_left_bit_set c x) in *. clearbody h.
    destruct (prefix w x) as [|h0 q2] eqn:Hq; [done|]. cbn in Hh. injection Hh as ->.
    assert (Eg : glook (GNode 1 [] vs l r) (h :: q2) = glook (child h l r) (h :: q2)) by done.
    rewrite Eg in *.
    assert (Hgo : exists s' c' nw f,
      (if negb h then if n_left nd =? 0 then add_leaf zero s 1 false x v mf uf
         else add_loop zero c (S (N.to_nat (i_len x))) s 1 (n_left nd) x v mf uf
       else if n_right nd =? 0 then add_leaf zero s 1 true x v mf uf
         else add_loop zero c (S (N.to_nat (i_len x))) s 1 (n_right nd) x v mf uf) =
      Ok (s', (snd (l_add mf uf v (glook (child h l r) (h :: q2))),
               N.of_nat (length (fst (l_add mf uf v (glook (child h l r) (h :: q2))))))) /\
      added s s' 1 (if h then n_right nd else n_left nd) nd (child h l r) c' (h :: q2)
        (fst (l_add mf uf v (glook (child h l r) (h :: q2)))) nw f /\
      f (root c') nd = (if h then set_right (root c') nd else set_left (root c') nd) /\
      wf (N.to_nat w) c' /\ starts h c' /\ c' <> GNil).
    { cbn [fp] in Hnd, Hlv. apply NoDup_cons in Hnd as [Hil Hnd].
      assert (Hnd' := Hnd). apply NoDup_app in Hnd' as (Hndl & Hdis & Hndr).
      assert (Hrc : rep s (if h then n_right nd else n_left nd) (child h l r)) by (by destruct h).
      assert (Hsub : forall j, j ∈ fp (child h l r) -> j ∈ fp l ++ fp r).
      { intros j Hj. apply elem_of_app. destruct h; cbn in Hj; tauto. }
      assert (Hil' : ~ fresh s 1) by (apply Hlv; left).
      destruct (child h l r) as [|k kb kvs kl kr] eqn:Hch.
      - cbn [TreeHeap.rep] in Hrc. cbn [glook] in *.
        destruct (add_leaf_spec zero c s 1 h x v mf uf nd Hc Ha) as (s' & t' & nw & He & Had & (j & ->));
          [destruct Hcan; split; lia|done|done|done|done|done|].
        rewrite Hq in Had.
        exists s', (GNode j (prefix w x) (fst (l_add mf uf v [])) GNil GNil), nw. eexists. rewrite Hq. split.
        { rewrite <- He. destruct h; cbn [negb]; rewrite Hrc; done. }
        split; [rewrite Hrc; exact Had|]. split; [cbn beta; by destruct h|].
        split; [|split; [done|done]]. cbn [wf]. rewrite Hql. destruct Hx as [_ Hx].
        split; [done|]. split; [lia|]. split; [intros H; by apply l_add_nonempty in H|done].
      - rewrite <- Hch in *.
        assert (Hcn : child h l r <> GNil) by (by rewrite Hch).
        assert (Hn0 : (if h then n_right nd else n_left nd) <> 0).
        { rewrite (rep_root zero c s _ _ Hrc). rewrite Hch. cbn [root]. rewrite Hch in Hrc.
          by destruct Hrc as (_ & ? & _). }
        destruct (add_loop_spec zero c (S (N.to_nat (i_len x))) s 1 (if h then n_right nd else n_left nd) nd
          (child h l r) (N.to_nat w) h x v mf uf)
          as (s' & t' & nw & He & Had & Hwf' & Hst' & Htn); try done.
        + constructor; try done.
          * by destruct h.
          * intros j Hj. apply Hlv. right. by apply Hsub.
          * intros Hj. by apply Hil, Hsub.
          * destruct h; tauto.
        + by destruct h.
        + by destruct h.
        + destruct Hx as [_ Hx]. lia.
        + lia.
        + by rewrite Hq.
        + lia.
        + by rewrite Hq.
        + rewrite Hq in He, Had. exists s', t', nw. eexists. split.
          { rewrite <- He. destruct h; cbn [negb]; by rewrite (proj2 (N.eqb_neq _ 0)) by done. }
          split; [exact Had|]. split; [|done]. cbn beta. unfold redirect. destruct h.
          * destruct (N.eqb_spec (n_left nd) (n_right nd)) as [Heq|]; [|done]. exfalso.
            rewrite <- Heq in Hn0. rewrite (rep_root zero c s _ _ N6) in Heq, Hn0.
            rewrite (rep_root zero c s _ _ N7) in Heq.
            assert (Hlnil : l <> GNil) by (by intros ->).
            apply (Hdis (root l)); [by apply root_fp|]. rewrite Heq. by apply root_fp.
          * by rewrite N.eqb_refl. }
    destruct Hgo as (s' & c' & nw & f & He & Had & Hf & Hwf' & Hst' & Hcn).
    pose proof (added_below zero c s s' 1 (if h then n_right nd else n_left nd) [] vs l r nd h c' q2 _ nw f
      Hr Hnd Hlv N1 Had Hf) as Hgr.
    exists s', (GNode 1 [] vs (if h then l else c') (if h then c' else r)).
    split; [exact He|]. split; [|split].
    + eapply inv_grown; [exact Hinv|exact Hgr|]. cbn [wfr]. by destruct h.
    + exact (gr_look _ _ _ _ _ _ _ _ _ Hgr).
    + pose proof (gr_taken _ _ _ _ _ _ _ _ _ Hgr) as Htk. split; [apply Htk|]. split; [apply Htk|].
      split; [apply Htk|].
      assert (H0 : same s s' 0).
      { apply (gr_frame _ _ _ _ _ _ _ _ _ Hgr); [lia| |].
        - intros H. by apply (rep_dom zero c s _ _ 0 Hr) in H as (_ & ? & _).
        - intros H. apply (tk_nw _ _ _ _ Htk) in H as [H|H].
          + apply (ao_av _ _ Ha) in H. lia.
          + pose proof (ao_2 _ _ Ha). lia. }
      split; [apply H0|]. split; [|apply H0].
      * intros j Hj. pose proof (proj1 (tk_fresh _ _ _ _ Htk j) (or_introl Hj)) as [Hfr Hnw].
        pose proof (ao_av _ _ (tk_alloc _ _ _ _ Htk) j Hj) as Hjn.
        destruct (N.lt_ge_cases (t_n s) (t_n s')) as [H|H].
        { rewrite (tk_full _ _ _ _ Htk H) in Hj. by apply elem_of_nil in Hj. }
        split; [destruct Hfr; [done|lia]|]. apply (gr_frame _ _ _ _ _ _ _ _ _ Hgr); [|by intros Hj'; apply (Hlv j Hj')|done].
        pose proof (ao_K _ _ Ha). lia.
Qed.
End Inv.
