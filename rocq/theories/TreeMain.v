(** Every run of the tree follows the plain map. *)
From Verif Require Export TreeVals.
From Coq Require Import Lia ZifyBool ZifyNat ZifyN.
Local Open Scope N_scope.

Lemma held_put {T} (m : pmap T) q l q' : held (put m q l) q' = if decide (q' = q) then l else held m q'.
Proof.
  unfold held, put, pmap in *. destruct l as [|a l].
  - destruct (decide (q' = q)) as [->|Hq]; [by rewrite lookup_delete|by rewrite lookup_delete_ne].
  - destruct (decide (q' = q)) as [->|Hq]; [by rewrite lookup_insert|by rewrite lookup_insert_ne].
Qed.

Lemma put_nonempty {T} (m : pmap T) q l : (forall q', m !! q' <> Some []) -> forall q', put m q l !! q' <> Some [].
Proof.
  unfold put, pmap in *. intros H q'. destruct l as [|a l].
  - destruct (decide (q' = q)) as [->|Hq]; [by rewrite lookup_delete|by rewrite lookup_delete_ne].
  - destruct (decide (q' = q)) as [->|Hq]; [by rewrite lookup_insert|by rewrite lookup_insert_ne].
Qed.

(** [room] for any bound of the indexes. *)
Definition roomK {T : Type} {H : kbound T} (w : N) (m : pmap T) : Prop :=
  N.of_nat (size m) + 2 <= 2 ^ (kbound_of T w - 1) /\ forall q l, m !! q = Some l -> N.of_nat (length l) <= 2 ^ w.

Lemma held_bound {T} {H : kbound T} w (m : pmap T) q : roomK w m -> N.of_nat (length (held m q)) <= 2 ^ w.
Proof.
  intros [_ Hm]. unfold held. destruct (m !! q) as [l|] eqn:Hl; [by eapply Hm|]. cbn. apply N.le_0_l.
Qed.

(** addVal against the lists of the specification. *)
Lemma l_add_Add {T} mf (v : T) l :
  l_add mf None v l = (add_list mf v l, (length l <? length (add_list mf v l))%nat).
Proof.
  destruct mf as [m|].
  - rewrite <- l_add_list. unfold l_add. destruct (list_find _ l) as [[k y]|]; cbn [fst].
    + by rewrite Nat.ltb_irrefl.
    + f_equal. symmetry. apply Nat.ltb_lt. rewrite app_length. cbn [length]. lia.
  - cbn [l_add add_list]. f_equal. symmetry. apply Nat.ltb_lt. rewrite app_length. cbn [length]. lia.
Qed.

Lemma l_add_Set {T} (v : T) l :
  l_add (Some (fun _ _ => true)) (Some (fun _ => v)) v l = (set_list v l, (length l <? length (set_list v l))%nat).
Proof.
  unfold l_add. destruct l as [|a l]; cbn [list_find set_list]; [done|].
  destruct (decide (true = true)); [|done]. cbn [length]. by rewrite Nat.ltb_irrefl.
Qed.

Section Main.
Context {T : Type} {Hkb : kbound T} (zero : T) (c : idcfg).
Notation w := (id_w c).
Context {Hwide : wide T c} (Hw : w ∈ [16; 32; 64]).
Let Hw64 : w <= 64. Proof. destruct (@wide_64 T Hkb c Hwide) as [[? _]|[? _]]; lia. Qed.
Let Hw0 : 0 < w. Proof. apply Hwide. Qed.
Notation K := (2 ^ kbound_of T w).
Notation tree := (tree T).
Notation inv := (inv zero c).

Record Inv (s : tree) (m : pmap T) (t : gt T) : Prop := MkInv {
  Iv_inv : inv s t;
  Iv_look : forall q, held m q = glook t q;
  Iv_ne : forall q, m !! q <> Some [];
  Iv_low : forall k, k < 2 ^ w -> val_at zero s k = zero;
  Iv_gen : t_gen s = 0;
  Iv_tidy : narrow T c -> tidy s /\ idle s }.

Lemma Inv_zero : Inv (tree_zero c) ∅ (GNode 1 [] [] GNil GNil).
Proof.
  constructor; [by apply inv_zero| | |done|done|split; [by apply tidy_zero|apply idle_zero]].
  - intros q. by destruct q as [|[] q].
  - intros q. done.
Qed.

Lemma Inv_listing s m t : Inv s m t -> listing m (pre [] t).
Proof.
  intros [Hi Hl Hn _ _ _]. destruct Hi as [Hc Ha Hr Hwf Hnd Hlv Hct]. split; [by eapply pre_sorted_root|].
  intros q l. rewrite (pre_glook_root _ _ _ _ Hwf), <- Hl. unfold held. split.
  - intros [H Hne]. destruct (m !! q) as [l'|]; cbn in H; by subst.
  - intros H. rewrite H. split; [done|]. intros ->. by apply (Hn q).
Qed.

Lemma listing_size (m : pmap T) pv : listing m pv -> size m = length pv.
Proof.
  unfold pmap. intros [Hs Hin]. apply sorted_NoDup in Hs. unfold size, map_size.
  apply Permutation_length. apply NoDup_Permutation.
  - apply (NoDup_map_to_list (M := gmap (list bool))).
  - by apply NoDup_fmap_1 in Hs.
  - intros [q l]. by rewrite elem_of_map_to_list, Hin.
Qed.

Lemma Inv_fp s m t : Inv s m t -> (length (fp t) <= 1 + 2 * size m)%nat.
Proof.
  intros H. rewrite (listing_size m (pre [] t)) by (by eapply Inv_listing).
  by eapply fp_count_root, iv_wf, Iv_inv.
Qed.

Lemma low_same (s s' : tree) : cfg_ok c s -> vsame zero c s s' 0 -> (forall k, k < 2 ^ w -> val_at zero s k = zero) ->
  forall k, k < 2 ^ w -> val_at zero s' k = zero.
Proof.
  intros Hc Hv Hl k Hk. destruct (@wide_64 T Hkb c Hwide) as [Hlt64|[_ Hsub]]; [|apply Hsub].
  specialize (Hv k Hk). rewrite (slot_eq c) in Hv; [|done| |done|done].
  2: { apply N.neq_0_lt_0, N.pow_nonzero. done. }
  rewrite N.mul_0_l, N.add_0_l in Hv. rewrite Hv. by apply Hl.
Qed.

Lemma add_step s m t x v mf uf lst b :
  Inv s m t -> roomK w m -> roomK w (put m (prefix w x) lst) -> idok c x ->
  l_add mf uf v (held m (prefix w x)) = (lst, b) ->
  exists s' t', tree_add zero c s x v mf uf = Ok (s', (b, N.of_nat (length lst))) /\
    Inv s' (put m (prefix w x) lst) t' /\ t_n s <= t_n s' /\ (t_n s < t_n s' -> t_avail s' = []).
Proof.
  intros HI Hroom Hroom' Hx Hl. pose proof HI as [Hi Hlook Hne Hlow Hgen Htd].
  pose proof (Inv_fp s m t HI) as Hfp.
  destruct (tree_add_spec zero c s t x v mf uf Hi Hx) as (s' & t' & He & Hi' & Hu & Hg & Hn & Hf & Hv & Hfr & Hf0).
  { destruct Hroom as [Hr _]. pose proof (@wide_K T Hkb c Hwide) as HK0. replace (kbound_of T w) with (N.succ (kbound_of T w - 1)) by lia. rewrite N.pow_succ_r'. lia. }
  { rewrite <- Hlook, Hl. cbn [fst]. pose proof (held_bound w _ (prefix w x) Hroom') as H.
    by rewrite held_put, decide_True in H. }
  rewrite <- Hlook, Hl in He, Hu. cbn [fst snd] in He, Hu.
  exists s', t'. split; [done|]. split; [|done]. constructor.
  - done.
  - intros q. rewrite held_put, Hu. destruct (decide _); [done|apply Hlook].
  - by apply put_nonempty.
  - apply (low_same s s'); [apply Hi|done|done].
  - by rewrite Hg.
  - intros Hlt. destruct (Htd Hlt) as [Ht Hid]. split; [by eapply tidy_add|].
    unfold idle, cnt in *. rewrite Hf0. split; [apply (proj1 Hid)|].
    intros j Hj. destruct (Hfr j Hj) as [Hj' ->]. by apply Hid.
Qed.

Lemma step_spec s m t o :
  Inv s m t -> roomK w m -> roomK w (fst (spec_step w m o)) -> top_ok c o ->
  exists s' t', t_step zero c s o = Ok (s', snd (spec_step w m o)) /\ Inv s' (fst (spec_step w m o)) t' /\
    t_n s <= t_n s' /\ (t_n s < t_n s' -> t_avail s' = []).
Proof.
  intros HI Hroom Hroom' Ho. destruct o as [x v|x v mf|x mf v]; cbn [t_step spec_step top_ok top_id fst snd] in *.
  - destruct (add_step s m t x v _ _ _ _ HI Hroom Hroom' Ho (l_add_Set v _)) as (s' & t' & He & H).
    unfold tree_Set. rewrite He. cbn [rbind fst snd]. exists s', t'. split; [done|]. done.
  - destruct (add_step s m t x v mf None _ _ HI Hroom Hroom' Ho (l_add_Add mf v _)) as (s' & t' & He & H).
    unfold tree_Add. rewrite He. cbn [rbind fst snd]. exists s', t'. split; [done|]. done.
  - pose proof HI as [Hi Hlook Hne Hlow Hgen Htd].
    destruct (tree_Delete_spec zero c Hw s t x mf v Hi Ho) as (s' & t' & fr & He & Hi' & Hu & Hg & Hn & Hav & Hv & Hfm).
    rewrite <- Hlook in He, Hu. rewrite He. cbn [rbind fst snd]. exists s', t'. split; [done|]. split.
    + constructor.
      * done.
      * intros q. rewrite held_put, Hu. destruct (decide _); [done|apply Hlook].
      * by apply put_nonempty.
      * apply (low_same s s'); [apply Hi|done|done].
      * by rewrite Hg.
      * intros Hlt. destruct (Htd Hlt) as [Ht Hid].
        destruct (tidy_Delete zero c Hlt s x mf v s' _ Ht (inv_small zero c s t Hi Hid) He) as (Ht' & fr' & Hav' & Hfr').
        split; [done|]. pose proof Hi as [Hc Ha Hrp Hwf Hnd Hlv Hct]. split.
        -- unfold cnt. rewrite Hfm; [apply (proj1 Hid)| |].
           ++ pose proof (ao_2 _ _ Ha). pose proof (ao_K _ _ Ha). lia.
           ++ intros H. by apply (rep_dom zero c s _ _ 0 Hrp) in H as (_ & ? & _).
        -- intros j. rewrite Hav', elem_of_app. intros [Hj|Hj]; [by apply Hfr'|]. unfold cnt. rewrite Hfm; [by apply Hid| |].
           ++ pose proof (ao_av _ _ Ha j Hj). pose proof (ao_K _ _ Ha). lia.
           ++ intros H. apply (Hlv j H). by left.
    + rewrite Hn. split; [lia|]. intros H. by apply N.lt_irrefl in H.
Qed.

Lemma wf_two s i t D j nd : rep zero c s i t -> wf D t -> j ∈ fp t -> t_nodes s !! j = Some nd -> n_cnt nd = 0 ->
  n_left nd <> 0 /\ n_right nd <> 0.
Proof.
  revert i D. induction t as [|k b vs l IHl r IHr]; intros i D Hr Hwf Hj Hnd Hc0; [by apply elem_of_nil in Hj|].
  destruct Hr as (-> & H1 & H2 & H3 & nd1 & N1 & N2 & N3 & N4 & N5 & N6 & N7).
  destruct Hwf as (Hb0 & Hbd & Hbv & Sl & Sr & Wl & Wr).
  cbn [fp] in Hj. apply elem_of_cons in Hj as [->|Hj].
  - rewrite N1 in Hnd. injection Hnd as <-.
    assert (vs = []) as -> by (destruct vs; [done|cbn in N4; lia]).
    destruct (Hbv eq_refl) as [Hl Hrr]. rewrite (rep_root _ _ _ _ _ N6), (rep_root _ _ _ _ _ N7).
    destruct l; [done|]. destruct r; [done|]. destruct N6 as (_ & ? & _). by destruct N7 as (_ & ? & _).
  - apply elem_of_app in Hj as [Hj|Hj]; [by apply (IHl _ _ N6 Wl)|by apply (IHr _ _ N7 Wr)].
Qed.

Lemma inv_two s t j nd : inv s t -> 1 < j -> j ∉ t_avail s -> t_nodes s !! j = Some nd -> n_cnt nd = 0 ->
  n_left nd <> 0 /\ n_right nd <> 0.
Proof.
  intros Hi Hj Hja Hnd Hc0. pose proof Hi as [Hc Ha Hr Hwf Hndp Hlv Hct].
  assert (Hjt : j ∈ fp t).
  { apply (inv_all zero c s t j Hi); [|lia|done]. apply (ao_dom _ _ Ha). by eexists. }
  destruct t as [|i b vs l r]; [done|]. destruct Hwf as (-> & -> & Sl & Sr & Wl & Wr).
  cbn [fp] in Hjt. destruct Hr as (_ & H1 & H2 & H3 & nd1 & N1 & N2 & N3 & N4 & N5 & N6 & N7).
  apply elem_of_cons in Hjt as [->|Hjt]; [lia|].
  apply elem_of_app in Hjt as [Hjt|Hjt]; [exact (wf_two s _ l _ j nd N6 Wl Hjt Hnd Hc0)|exact (wf_two s _ r _ j nd N7 Wr Hjt Hnd Hc0)].
Qed.

(** What Clone keeps. *)
Lemma links_clone (s : tree) i t : links s i t -> links (clone s) i t.
Proof.
  revert i. induction t as [|j b vs l IHl r IHr]; intros i; cbn [links]; [done|].
  intros (-> & H1 & nd & N1 & N4 & N6 & N7). split; [done|]. split; [done|]. exists nd.
  split; [done|]. split; [done|]. split; [by apply IHl|by apply IHr].
Qed.

Lemma clone_stops (s : tree) i t : links s i t ->
  exists vss, Forall2 (fun i vs => vals_for_node zero (clone s) i = Ok vs) (stops t) vss /\
    length <$> vss = length <$> vlist t /\
    (forall B, t_n s + B <= 2 ^ w -> w < 64 ->
       (forall k, k < 2 ^ w -> val_at zero s k = zero) -> (forall j, j ∈ fp t -> j < t_n s) ->
       (forall l, l ∈ vlist t -> N.of_nat (length l) <= B) ->
       Forall (Forall (eq zero)) vss).
Proof.
  revert i. induction t as [|j b vs l IHl r IHr]; intros i.
  { intros _. exists []. split; [constructor|]. done. }
  intros (-> & H1 & nd & N1 & N4 & N6 & N7).
  destruct (IHl _ N6) as (vl & L1 & L2 & L3). destruct (IHr _ N7) as (vr & R1 & R2 & R3).
  cbn [stops vlist fp]. set (hd := fun k => val_at zero (clone s) (slot (clone s) j (N.of_nat k))).
  assert (E : vals_for_node zero (clone s) j = Ok (hd <$> seq 0 (length vs))).
  { unfold vals_for_node. rewrite (proj2 (N.eqb_neq _ _) H1). unfold get_node. cbn [clone t_nodes]. rewrite N1.
    cbn [rbind]. by rewrite N4, Nat2N.id. }
  exists ((match vs with [] => [] | _ => [hd <$> seq 0 (length vs)] end) ++ vl ++ vr).
  split; [|split].
  - apply Forall2_app; [|by apply Forall2_app]. destruct vs; [constructor|]. by repeat constructor.
  - rewrite !fmap_app, L2, R2. f_equal. destruct vs; [done|]. cbn [fmap list_fmap]. by rewrite fmap_length, seq_length.
  - intros B HB H64 Hlow Hfp Hlen. apply Forall_app. split; [|apply Forall_app; split].
    + assert (Hz : N.of_nat (length vs) <= B -> Forall (eq zero) (hd <$> seq 0 (length vs))).
      { intros Hvs. apply Forall_fmap, Forall_forall. intros k Hk. apply elem_of_seq in Hk. unfold compose, hd, val_at.
        assert (Hj : j < t_n s) by (apply Hfp; left).
        assert (H2w : 2 ^ w <= 2 ^ 63) by (apply N.pow_le_mono_r; lia).
        assert (Hs : slot (clone s) j (N.of_nat k) = j + N.of_nat k).
        { unfold slot, key, uadd, ushl, uwrap. cbn [clone t_length]. rewrite N.shiftl_0_r.
          change (2 ^ 64) with (2 * 2 ^ 63). rewrite !N.mod_small by lia. done. }
        rewrite Hs. cbn [clone t_vals]. symmetry. apply (Hlow (j + N.of_nat k)). lia. }
      destruct vs as [|v vs]; [constructor|]. constructor; [|constructor]. apply Hz, Hlen.
      apply elem_of_app. left. by left.
    + apply (L3 B); try done; [intros k Hk; apply Hfp; right; apply elem_of_app; by left|].
      intros k Hk. apply Hlen. rewrite !elem_of_app. tauto.
    + apply (R3 B); try done; [intros k Hk; apply Hfp; right; apply elem_of_app; by right|].
      intros k Hk. apply Hlen. rewrite !elem_of_app. tauto.
Qed.

End Main.

(** Whole runs, with the bound of the keys. *)
Section Run.
Context {T : Type} (zero : T) (c : idcfg).
Notation w := (id_w c).
Context {Hwide : wide T c} (Hw : w ∈ [16; 32; 64]).
Notation Inv := (Inv zero c).

Lemma run_spec os : forall s m t B,
  Inv s m t -> roomy w m os -> Forall (top_ok c) os -> t_n s <= N.max B (2 + 2 * N.of_nat (size m)) ->
  exists s' t', t_run zero c s os = Ok (s', snd (spec_run w m os)) /\ Inv s' (fst (spec_run w m os)) t' /\
    t_n s' <= N.max B (2 + 2 * N.of_nat (peak w m os)).
Proof.
  induction os as [|o os IH]; intros s m t B HI Hr Ho HB.
  - exists s, t. split; [done|]. split; [done|]. cbn [peak]. rewrite Nat.max_0_r. done.
  - destruct Hr as [Hr Hrs]. apply Forall_cons in Ho as [Ho Hos].
    assert (Hr' : room w (fst (spec_step w m o))) by (by destruct os; destruct Hrs).
    destruct (step_spec zero c Hw s m t o HI Hr Hr' Ho) as (s1 & t1 & He & HI1 & Hn1 & Hf1).
    pose proof (Inv_fp zero c s1 _ t1 HI1) as Hfp.
    destruct (IH s1 (fst (spec_step w m o)) t1 (N.max B (2 + 2 * N.of_nat (size m))) HI1 Hrs Hos)
      as (s' & t' & He' & HI' & Hn').
    { destruct (N.lt_ge_cases (t_n s) (t_n s1)) as [H|H]; [|lia].
      pose proof (iv_cnt _ _ _ _ (Iv_inv _ _ _ _ _ HI1)) as Hc. rewrite (Hf1 H) in Hc. cbn [length] in Hc. lia. }
    exists s', t'. cbn [t_run spec_run fst snd]. rewrite He. cbn [rbind fst snd]. rewrite He'. cbn [rbind fst snd].
    split; [done|]. split; [done|]. cbn [peak]. lia.
Qed.

Lemma run_zero os : roomy w ∅ os -> Forall (top_ok c) os ->
  exists s t, t_run zero c (tree_zero c) os = Ok (s, snd (spec_run w ∅ os)) /\ Inv s (fst (spec_run w ∅ os)) t /\
    t_n s <= 2 + 2 * N.of_nat (peak w (∅ : pmap T) os).
Proof.
  intros Hr Ho. destruct (run_spec os (tree_zero c) ∅ _ 2 (Inv_zero zero c) Hr Ho) as (s & t & H1 & H2 & H3).
  { cbn. lia. }
  exists s, t. split; [done|]. split; [done|]. lia.
Qed.

End Run.
