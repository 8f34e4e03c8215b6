(** deleteNode, the search, and Delete as a whole. *)
From Verif Require Export TreeDel.
From Coq Require Import Lia ZifyBool ZifyNat ZifyN.
Local Open Scope N_scope.

Lemma gt_nil_dec {T} (t : gt T) : {t = GNil} + {t <> GNil}.
Proof. destruct t; [by left|by right]. Qed.

Section Delete.
Context {T : Type} {Hkb : kbound T} (zero : T) (c : idcfg).
Notation w := (id_w c).
Context {Hwide : wide T c} (Hw : w ∈ [16; 32; 64]).
Let Hw64 : w <= 64. Proof. destruct (@wide_64 T Hkb c Hwide) as [[? _]|[? _]]; lia. Qed.
Let Hw0 : 0 < w. Proof. apply Hwide. Qed.
Notation K := (2 ^ kbound_of T w).
Notation tree := (tree T).
Notation rep := (rep zero c).
Notation same := (same zero c).
Notation vsame := (vsame zero c).
Notation fresh := (@fresh T).
Notation alloc_ok := (alloc_ok c).
Notation cfg_ok := (cfg_ok c).
Notation vals_at := (vals_at zero).
Notation shrunk := (shrunk zero c).
Notation inv := (inv zero c).

(** Well-formed, at the root or below. *)
Definition okp (p : N) (D : nat) (t : gt T) : Prop :=
  (D <= N.to_nat w)%nat /\ ((p = 1 /\ wfr D t) \/ (1 < p /\ wf D t)).

Lemma wf_nodeD D p pb pvs d t o :
  wf D (nodeD p pb pvs d t o : gt T) <->
  pb <> [] /\ (length pb <= D)%nat /\ (pvs = [] -> t <> GNil /\ o <> GNil) /\
  starts d t /\ starts (negb d) o /\ wf (D - length pb) t /\ wf (D - length pb) o.
Proof. unfold nodeD. destruct d; cbn [wf negb]; tauto. Qed.

Lemma wfr_nodeD D p pb pvs d t o :
  wfr D (nodeD p pb pvs d t o : gt T) <->
  p = 1 /\ pb = [] /\ starts d t /\ starts (negb d) o /\ wf D t /\ wf D o.
Proof. unfold nodeD. destruct d; cbn [wfr negb]; tauto. Qed.

Lemma okp_nodeD p D pb pvs d t o :
  okp p D (nodeD p pb pvs d t o) <->
  (D <= N.to_nat w)%nat /\ (length pb <= D)%nat /\
  starts d t /\ starts (negb d) o /\ wf (D - length pb) t /\ wf (D - length pb) o /\
  ((p = 1 /\ pb = []) \/ (1 < p /\ pb <> [] /\ (pvs = [] -> t <> GNil /\ o <> GNil))).
Proof.
  unfold okp. rewrite wf_nodeD, wfr_nodeD. split.
  - intros [HD [(-> & _ & -> & H)|H]].
    + cbn [length]. rewrite Nat.sub_0_r. split; [done|]. split; [lia|]. tauto.
    + tauto.
  - intros (HD & Hl & Hs & Ho & H1 & H2 & [[-> ->]|H]).
    + cbn [length] in H1, H2. rewrite Nat.sub_0_r in H1, H2. tauto.
    + tauto.
Qed.

(** The only child takes the place of the node. *)
Lemma lift_spec s p pb pvs d i b e l o :
  cfg_ok s -> p <> i -> i ∉ fp o ->
  rep s p (nodeD p pb pvs d (nodeD i b [] e l GNil) o) ->
  NoDup (fp (nodeD p pb pvs d (nodeD i b [] e l GNil) o)) ->
  l <> GNil -> head b <> None ->
  (forall lb lvs ll lr li, l = GNode li lb lvs ll lr -> (length b + length lb <= N.to_nat w)%nat) ->
  forall li lb lvs ll lr, l = GNode li lb lvs ll lr ->
  exists s', 
    (do s1 <- lift_child s i p li;
     do s2 <- upd_node s1 i (fun n => set_right 0 (set_left 0 n));
     Ok (with_avail s2 (i :: t_avail s2))) = Ok s' /\
    shrunk s s' (nodeD p pb pvs d (nodeD i b [] e l GNil) o)
                (nodeD p pb pvs d (GNode li (b ++ lb) lvs ll lr) o) [i].
Proof.
  intros Hc Hpi Hio Hr Hnd _ _ Hlen li lb lvs ll lr ->. specialize (Hlen _ _ _ _ _ eq_refl).
  rewrite fp_nodeD in Hnd. rewrite (fp_nodeD i) in Hnd. cbn [fp] in Hnd. rewrite app_nil_r in Hnd.
  change ((i :: li :: fp ll ++ fp lr) ++ fp o) with (i :: li :: (fp ll ++ fp lr) ++ fp o) in Hnd.
  apply NoDup_cons in Hnd as [Hp Hnd]. apply NoDup_cons in Hnd as [Hi Hnd].
  apply NoDup_cons in Hnd as [Hli Hnd]. apply NoDup_app in Hnd as (Hnd1 & Hdis & _).
  rewrite !elem_of_cons, elem_of_app in Hp. rewrite elem_of_cons, elem_of_app in Hi. rewrite elem_of_app in Hli.
  assert (Hpli : p <> li) by tauto. assert (Hili : i <> li) by tauto.
  pose proof Hr as (Hp0 & HpK & Hpvl & pn & P1 & P2 & P3 & P4 & P5 & P6 & P7)%rep_nodeD.
  pose proof (rep_root _ _ _ _ _ P6) as Pd. cbn [root nodeD] in Pd. rewrite Pd in P6.
  pose proof P6 as (Hi0 & HiK & Hivl & nd & N1 & N2 & N3 & N4 & N5 & N6 & N7)%rep_nodeD.
  pose proof (rep_root _ _ _ _ _ N6) as Nd. cbn [root] in Nd. rewrite Nd in N6.
  pose proof N6 as (_ & Hl0 & HlK & Hlvl & ln & L1 & L2 & L3 & L4 & L5 & L6 & L7).
  unfold lift_child. rewrite (get_node_eq s p pn P1). cbn [rbind].
  assert (Hset : (if n_left pn =? i then set_left li else set_right li) = set_dir d li).
  { unfold n_dir in Pd. destruct d.
    - destruct (N.eqb_spec (n_left pn) i) as [He|]; [|done]. exfalso. cbn [n_dir negb] in P7.
      rewrite (rep_root _ _ _ _ _ P7) in He. destruct o as [|oi ob ovs ol or]; [by subst|]. cbn [root] in He.
      apply Hio. subst. left.
    - by rewrite Pd, N.eqb_refl. }
  rewrite Hset, (upd_node_eq s p _ pn P1). cbn [rbind]. set (s1 := with_nodes s _).
  assert (Ni1 : t_nodes s1 !! i = Some nd) by (cbn [s1 with_nodes t_nodes]; by rewrite lookup_insert_ne).
  assert (Nl1 : t_nodes s1 !! li = Some ln) by (cbn [s1 with_nodes t_nodes]; by rewrite lookup_insert_ne).
  rewrite (get_node_eq s1 i nd Ni1), (get_node_eq s1 li ln Nl1). cbn [rbind].
  destruct (merge_nodes_bits w nd ln (length b) (length lb) Hw N2 L2) as (mi & Hm & Hmb); [lia|].
  assert (Hl1 : t_length s1 = w) by apply Hc. rewrite Hl1, Hm. cbn [rbind fst snd].
  rewrite (upd_node_eq s1 li _ ln Nl1). cbn [rbind]. set (s2 := with_nodes s1 _).
  assert (Ni2 : t_nodes s2 !! i = Some nd) by (cbn [s2 with_nodes t_nodes]; by rewrite lookup_insert_ne).
  rewrite (upd_node_eq s2 i _ nd Ni2). cbn [rbind].
  eexists. split; [done|]. set (s' := with_avail _ _).
  assert (Hp' : t_nodes s' !! p = Some (set_dir d li pn)).
  { cbn [s' s2 s1 with_nodes with_avail t_nodes]. rewrite !lookup_insert_ne by done. by rewrite lookup_insert. }
  assert (Hl' : t_nodes s' !! li = Some (set_id mi (N.of_nat (length b + length lb)) ln)).
  { cbn [s' s2 s1 with_nodes with_avail t_nodes]. rewrite lookup_insert_ne by done. by rewrite lookup_insert. }
  assert (Hn' : forall j, j <> p -> j <> i -> j <> li -> t_nodes s' !! j = t_nodes s !! j).
  { intros j ? ? ?. cbn [s' s2 s1 with_nodes with_avail t_nodes]. by rewrite !lookup_insert_ne by done. }
  assert (Hoth : forall j, j <> p -> j <> i -> j <> li -> same s s' j).
  { intros j ? ? ?. split; [by apply Hn'|done]. }
  constructor; try done.
  - intros j. destruct (decide (j = p)) as [->|Hjp]; [rewrite Hp', P1; by split; eexists|].
    destruct (decide (j = li)) as [->|Hjl]; [rewrite Hl', L1; by split; eexists|].
    destruct (decide (j = i)) as [->|Hji].
    { rewrite N1. cbn [s' s2 s1 with_nodes with_avail t_nodes]. rewrite lookup_insert. by split; eexists. }
    by rewrite Hn'.
  - cbn [root nodeD]. apply rep_nodeD. split; [done|]. split; [done|]. split; [done|].
    exists (set_dir d li pn). split; [done|].
    rewrite (set_dir_other n_len), (set_dir_other n_id), (set_dir_other n_cnt) by done.
    split; [done|]. split; [done|]. split; [done|]. split; [done|]. split.
    + rewrite n_dir_set. cbn [TreeHeap.rep]. split; [done|]. split; [done|]. split; [done|]. split; [done|].
      eexists. split; [exact Hl'|]. cbn [set_id n_len n_id n_cnt n_left n_right]. rewrite app_length.
      split; [done|]. split; [by rewrite Hmb, N3, L3|]. split; [done|]. split; [done|]. split.
      * apply (rep_frame zero c s s'); [done| |done]. intros j Hj. apply Hoth; intros ->; rewrite elem_of_app in *; tauto.
      * apply (rep_frame zero c s s'); [done| |done]. intros j Hj. apply Hoth; intros ->; rewrite elem_of_app in *; tauto.
    + rewrite n_dir_set_ne. apply (rep_frame zero c s s'); [done| |done]. intros j Hj. apply Hoth; intros ->; tauto.
  - rewrite !fp_nodeD. cbn [fp app]. rewrite app_nil_r. constructor.
  - intros j HjK Hj. rewrite fp_nodeD, (fp_nodeD i) in Hj. cbn [fp app] in Hj.
    apply Hoth; intros ->; apply Hj; rewrite ?elem_of_cons; tauto.
Qed.

(** A leaf is unhooked. *)
Lemma unhook_spec s p pb pvs d i b o :
  cfg_ok s -> p <> i -> i ∉ fp o -> p ∉ fp o ->
  rep s p (nodeD p pb pvs d (GNode i b [] GNil GNil) o) ->
  exists pn, t_nodes s !! p = Some pn /\ n_cnt pn = N.of_nat (length pvs) /\ (n_left pn =? i) = negb d /\
    n_dir (negb d) pn = root o /\
    let s1 := with_nodes s (<[p := set_dir d 0 pn]> (t_nodes s)) in
    rep s1 p (nodeD p pb pvs d GNil o) /\
    exists nd, t_nodes s1 !! i = Some nd.
Proof.
  intros Hc Hpi Hio Hpo Hr.
  pose proof Hr as (Hp0 & HpK & Hpvl & pn & P1 & P2 & P3 & P4 & P5 & P6 & P7)%rep_nodeD.
  pose proof (rep_root _ _ _ _ _ P6) as Pd. cbn [root] in Pd. rewrite Pd in P6.
  pose proof P6 as (_ & Hi0 & HiK & Hivl & nd & N1 & N2 & N3 & N4 & N5 & N6 & N7).
  exists pn. split; [done|]. split; [done|]. split.
  { unfold n_dir in Pd. destruct d; cbn [negb].
    - destruct (N.eqb_spec (n_left pn) i) as [He|]; [|done]. exfalso. cbn [n_dir negb] in P7.
      rewrite (rep_root _ _ _ _ _ P7) in He. destruct o as [|oi ob ovs ol or]; [by subst|]. cbn [root] in He.
      apply Hio. subst. left.
    - by rewrite Pd, N.eqb_refl. }
  split; [by rewrite (rep_root _ _ _ _ _ P7)|].
  split.
  - apply rep_nodeD. split; [done|]. split; [done|]. split; [done|].
    exists (set_dir d 0 pn). split; [cbn [with_nodes t_nodes]; by rewrite lookup_insert|].
    rewrite (set_dir_other n_len), (set_dir_other n_id), (set_dir_other n_cnt) by done.
    split; [done|]. split; [done|]. split; [done|]. split; [done|]. split; [by rewrite n_dir_set|].
    rewrite n_dir_set_ne. apply (rep_frame zero c s); [done| |done]. intros j Hj.
    split; [|done]. cbn [with_nodes t_nodes]. rewrite lookup_insert_ne; [done|]. by intros ->.
  - exists nd. cbn [with_nodes t_nodes]. by rewrite lookup_insert_ne.
Qed.

(** The sibling is merged into its parent. *)
Lemma merge_sibling_spec s p pb d sb sbb svs sl sr :
  cfg_ok s -> rep s p (nodeD p pb [] d GNil (GNode sb sbb svs sl sr)) ->
  NoDup (fp (nodeD p pb [] d GNil (GNode sb sbb svs sl sr))) ->
  (length pb + length sbb <= N.to_nat w)%nat ->
  exists s', merge_sibling zero s p sb = Ok s' /\
    shrunk s s' (nodeD p pb [] d GNil (GNode sb sbb svs sl sr)) (GNode p (pb ++ sbb) svs sl sr) [sb].
Proof.
  intros Hc Hr Hnd Hlen.
  rewrite fp_nodeD in Hnd. cbn [fp app] in Hnd. apply NoDup_cons in Hnd as [Hp Hnd].
  apply NoDup_cons in Hnd as [Hsb Hnd]. rewrite elem_of_cons, elem_of_app in Hp. rewrite elem_of_app in Hsb.
  assert (Hps : p <> sb) by tauto.
  pose proof Hr as (Hp0 & HpK & Hpvl & pn & P1 & P2 & P3 & P4 & P5 & P6 & P7)%rep_nodeD.
  pose proof (rep_root _ _ _ _ _ P7) as Pd. cbn [root] in Pd. rewrite Pd in P7.
  pose proof P7 as (_ & Hs0 & HsK & Hsvl & sn & L1 & L2 & L3 & L4 & L5 & L6 & L7).
  unfold merge_sibling. rewrite (get_node_eq s p pn P1), (get_node_eq s sb sn L1). cbn [rbind].
  destruct (merge_nodes_bits w pn sn (length pb) (length sbb) Hw P2 L2) as (mi & Hm & Hmb); [lia|].
  assert (Hl : t_length s = w) by apply Hc. rewrite Hl, Hm. cbn [rbind fst snd].
  rewrite (upd_node_eq s p _ pn P1). cbn [rbind]. set (s1 := with_nodes s _).
  set (pn1 := set_id mi (N.of_nat (length pb + length sbb)) pn) in *.
  assert (Hp1 : t_nodes s1 !! p = Some pn1) by (cbn [s1 with_nodes t_nodes]; by rewrite lookup_insert).
  assert (Hs1 : t_nodes s1 !! sb = Some sn) by (cbn [s1 with_nodes t_nodes]; by rewrite lookup_insert_ne).
  destruct (move_tags_spec zero c s1 sb p sn pn1 svs) as (s2 & -> & Hn2 & Hctl & Hv2 & Hf2); try done.
  cbn [rbind].
  assert (Hs2 : t_nodes s2 !! sb = Some (set_cnt 0 sn)) by (by rewrite Hn2, lookup_insert).
  rewrite (get_node_eq s2 sb _ Hs2). cbn [rbind set_cnt n_left n_right].
  assert (Hp2 : t_nodes s2 !! p = Some (set_cnt (N.of_nat (length svs)) pn1)).
  { by rewrite Hn2, lookup_insert_ne, lookup_insert by done. }
  rewrite (upd_node_eq s2 p _ _ Hp2). cbn [rbind].
  eexists. split; [done|]. set (s' := with_avail _ _).
  assert (Hctl' : t_leftfn s2 = t_leftfn s /\ t_length s2 = t_length s /\ t_n s2 = t_n s /\ t_cap s2 = t_cap s /\
    t_avail s2 = t_avail s /\ t_gen s2 = t_gen s) by apply Hctl.
  destruct Hctl' as (C1 & C2 & C3 & C4 & C5 & C6).
  assert (Hn' : forall j, j <> p -> j <> sb -> t_nodes s' !! j = t_nodes s !! j).
  { intros j ? ?. cbn [s' with_nodes with_avail t_nodes]. rewrite lookup_insert_ne by done. rewrite Hn2.
    rewrite !lookup_insert_ne by done. cbn [s1 with_nodes t_nodes]. by rewrite lookup_insert_ne. }
  assert (Hoth : forall j, j < K -> j <> p -> j <> sb -> same s s' j).
  { intros j ? ? ?. split; [by apply Hn'|]. intros k Hk. by apply Hf2. }
  constructor; try done.
  - cbn [s' with_nodes with_avail t_avail app]. by rewrite C5.
  - intros j. destruct (decide (j = p)) as [->|Hjp].
    { rewrite P1. cbn [s' with_nodes with_avail t_nodes]. rewrite lookup_insert. by split; eexists. }
    destruct (decide (j = sb)) as [->|Hjs].
    { rewrite L1. cbn [s' with_nodes with_avail t_nodes]. rewrite lookup_insert_ne, Hs2 by done. by split; eexists. }
    by rewrite Hn'.
  - cbn [root nodeD TreeHeap.rep]. split; [done|]. split; [done|]. split; [done|]. split; [done|].
    eexists. split; [cbn [s' with_nodes with_avail t_nodes]; by rewrite lookup_insert|].
    cbn [pn1 set_id set_cnt set_left set_right n_len n_id n_cnt n_left n_right]. rewrite app_length.
    split; [done|]. split; [by rewrite Hmb, P3, L3|]. split; [done|]. split.
    { intros k x Hx. rewrite <- (Hv2 k x Hx). done. }
    split.
    + apply (rep_frame zero c s s'); [done| |done]. intros j Hj. apply Hoth.
      * exact (rep_lt_K zero c s _ sl j L6 Hj).
      * intros ->; tauto.
      * intros ->; tauto.
    + apply (rep_frame zero c s s'); [done| |done]. intros j Hj. apply Hoth.
      * exact (rep_lt_K zero c s _ sr j L7 Hj).
      * intros ->; tauto.
      * intros ->; tauto.
  - rewrite fp_nodeD. cbn [fp app]. constructor.
  - intros j HjK Hj. rewrite fp_nodeD in Hj. cbn [fp app] in Hj.
    apply Hoth; [done|intros ->..]; apply Hj; rewrite ?elem_of_cons; tauto.
Qed.

Lemma shrunk_free s s2 p pn pn' pb pvs d i b o t' fr nd :
  t_nodes s !! p = Some pn -> p <> i -> i ∉ fp o -> p < K ->
  shrunk (with_nodes s (<[p := pn']> (t_nodes s))) s2 (nodeD p pb pvs d GNil o) t' fr ->
  t_nodes s2 !! i = Some nd -> is_Some (t_nodes s !! i) ->
  let f := fun n => set_right 0 (set_left 0 n) in
  exists s', (do s3 <- upd_node s2 i f; Ok (with_avail s3 (i :: t_avail s3))) = Ok s' /\
    shrunk s s' (nodeD p pb pvs d (GNode i b [] GNil GNil) o) t' (i :: fr).
Proof.
  intros Hp Hpi Hio HpK H Hi Hsi f. rewrite (upd_node_eq s2 i f nd Hi). cbn [rbind]. eexists. split; [done|].
  set (s' := with_avail _ _).
  assert (Hit : i ∉ fp t').
  { intros Hj. assert (Hj' : i ∈ fp (nodeD p pb pvs d GNil o)).
    { rewrite (sh_fp _ _ _ _ _ _ _ H). apply elem_of_app. by right. }
    rewrite fp_nodeD in Hj'. cbn [fp app] in Hj'. apply elem_of_cons in Hj' as [->|Hj']; done. }
  constructor.
  - exact (sh_len _ _ _ _ _ _ _ H).
  - exact (sh_fn _ _ _ _ _ _ _ H).
  - exact (sh_gen _ _ _ _ _ _ _ H).
  - exact (sh_n _ _ _ _ _ _ _ H).
  - exact (sh_cap _ _ _ _ _ _ _ H).
  - cbn [s' with_avail with_nodes t_avail app]. f_equal. exact (sh_avail _ _ _ _ _ _ _ H).
  - intros j. cbn [s' with_avail with_nodes t_nodes]. destruct (decide (j = i)) as [->|Hj].
    { rewrite lookup_insert. by split; [|eexists]. }
    rewrite lookup_insert_ne by done. rewrite (sh_dom _ _ _ _ _ _ _ H). cbn [with_nodes t_nodes].
    destruct (decide (j = p)) as [->|Hjp].
    { rewrite lookup_insert, Hp. by split; eexists. }
    by rewrite lookup_insert_ne.
  - rewrite (sh_root _ _ _ _ _ _ _ H). done.
  - apply (rep_frame zero c s2 s'); [done| |apply H]. intros j Hj. split; [|done].
    cbn [s' with_avail with_nodes t_nodes]. rewrite lookup_insert_ne; [done|]. by intros ->.
  - rewrite <- app_comm_cons. rewrite <- (sh_fp _ _ _ _ _ _ _ H). rewrite !fp_nodeD. cbn [fp app]. constructor.
  - intros j HjK Hj. rewrite fp_nodeD in Hj. cbn [fp app] in Hj. rewrite !not_elem_of_cons in Hj.
    destruct Hj as (Hjp & Hji & Hjo).
    destruct (sh_frame _ _ _ _ _ _ _ H j HjK) as [F1 F2].
    { rewrite fp_nodeD. cbn [fp app]. by rewrite not_elem_of_cons. }
    split.
    + cbn [s' with_avail with_nodes t_nodes] in *. rewrite lookup_insert_ne by done. rewrite F1.
      by rewrite lookup_insert_ne.
    + intros k Hk. exact (F2 k Hk).
Qed.

Lemma delete_node_spec s p D pb pvs d i b vs0 l r o :
  cfg_ok s -> rep s p (nodeD p pb pvs d (GNode i b [] l r) o) ->
  NoDup (fp (nodeD p pb pvs d (GNode i b [] l r) o)) -> 1 < i ->
  okp p D (nodeD p pb pvs d (GNode i b vs0 l r) o) ->
  exists s' t' fr, delete_node zero s i p = Ok s' /\
    shrunk s s' (nodeD p pb pvs d (GNode i b [] l r) o) t' fr /\ okp p D t' /\
    (forall q', glook t' q' = glook (nodeD p pb pvs d (GNode i b [] l r) o) q') /\
    (1 < p -> forall h, starts h (nodeD p pb pvs d (GNode i b [] l r) o) -> starts h t').
Proof.
  intros Hc Hr Hnd Hi1 Hok.
  pose proof Hr as (Hp0 & HpK & Hpvl & pn & P1 & P2 & P3 & P4 & P5 & P6 & P7)%rep_nodeD.
  pose proof (rep_root _ _ _ _ _ P6) as Pd. cbn [root] in Pd. rewrite Pd in P6.
  pose proof P6 as (_ & Hi0 & HiK & Hivl & nd & N1 & N2 & N3 & N4 & N5 & N6 & N7).
  pose proof (rep_root _ _ _ _ _ N6) as Nl. pose proof (rep_root _ _ _ _ _ N7) as Nr.
  unfold delete_node. rewrite (proj2 (N.eqb_neq i 1)) by lia. rewrite (get_node_eq s i nd N1). cbn [rbind].
  rewrite Nl, Nr.
  assert (R0 : forall (t : gt T) k, rep s k t -> t <> GNil -> (root t =? 0) = false).
  { intros t k Ht Hn. destruct t as [|ti tb tvs tl tr]; [done|]. cbn [root]. apply N.eqb_neq.
    by destruct Ht as (_ & ? & _). }
  pose proof Hok as (HD & Hpl & St & So & Wt & Wo & Hpp)%okp_nodeD.
  destruct Wt as (Hb0 & Hbd & Hbv & Sl & Sr & Wl & Wr).
  assert (Hdup := Hnd). rewrite fp_nodeD in Hdup. cbn [fp] in Hdup.
  apply NoDup_cons in Hdup as [Hpn Hdup]. rewrite <- app_comm_cons in Hdup. apply NoDup_cons in Hdup as [Hin Hdup].
  rewrite elem_of_app, elem_of_cons in Hpn. rewrite elem_of_app in Hin.
  assert (Hpi : p <> i) by tauto. assert (Hio : i ∉ fp o) by tauto. assert (Hpo : p ∉ fp o) by tauto.
  destruct (gt_nil_dec l) as [->|Hl]; destruct (gt_nil_dec r) as [->|Hrn].
  - (* a leaf *)
    cbn [root]. rewrite N.eqb_refl. cbn [negb andb].
    destruct (unhook_spec s p pb pvs d i b o Hc Hpi Hio Hpo Hr) as (pn' & P1' & Hcnt & Hside & Hoth & Hr1 & nd1 & Hnd1).
    rewrite P1 in P1'. injection P1' as <-.
    rewrite (get_node_eq s p pn P1). cbn [rbind]. rewrite Hside.
    set (s1 := with_nodes s (<[p := set_dir d 0 pn]> (t_nodes s))) in *.
    assert (Hu : forall e, upd_node s p (set_dir e 0) = Ok (with_nodes s (<[p := set_dir e 0 pn]> (t_nodes s)))).
    { intros e. apply (upd_node_eq s p _ pn P1). }
    assert (Hgo : (if negb d then
        do s2 <- upd_node s p (set_left 0);
        if (1 <? p) && (n_cnt pn =? 0) && negb (n_right pn =? 0) then merge_sibling zero s2 p (n_right pn) else Ok s2
      else
        do s2 <- upd_node s p (set_right 0);
        if (1 <? p) && (n_cnt pn =? 0) && negb (n_left pn =? 0) then merge_sibling zero s2 p (n_left pn) else Ok s2) =
      if (1 <? p) && (n_cnt pn =? 0) && negb (root o =? 0) then merge_sibling zero s1 p (root o) else Ok s1).
    { rewrite <- Hoth. unfold s1. destruct d; cbn [negb n_dir].
      - by rewrite (Hu true : upd_node s p (set_right 0) = _).
      - by rewrite (Hu false : upd_node s p (set_left 0) = _). }
    rewrite Hgo. clear Hgo Hu.
    assert (Hc1 : cfg_ok s1) by done.
    assert (Hnd1' : NoDup (fp (nodeD p pb pvs d GNil o))).
    { rewrite fp_nodeD. cbn [fp app]. cbn [fp app] in Hdup. by apply NoDup_cons. }
    destruct ((1 <? p) && (n_cnt pn =? 0) && negb (root o =? 0)) eqn:Hcond.
    + (* merge *)
      apply andb_true_iff in Hcond as [Hcond Hor]. apply andb_true_iff in Hcond as [Hp1 Hp0'].
      assert (pvs = []) as ->. { destruct pvs; [done|]. cbn [length] in Hcnt. lia. }
      destruct o as [|sb sbb svs sl sr]; [done|]. cbn [root].
      assert (Hlen : (length pb + length sbb <= N.to_nat w)%nat).
      { destruct Wo as (_ & Hsl & _). lia. }
      destruct (merge_sibling_spec s1 p pb d sb sbb svs sl sr Hc1 Hr1 Hnd1' Hlen) as (s2 & -> & Hsh). cbn [rbind].
      destruct (sh_frame _ _ _ _ _ _ _ Hsh i HiK) as [F1 _].
      { rewrite fp_nodeD. cbn [fp app]. rewrite not_elem_of_cons. split; [by apply not_eq_sym|done]. }
      destruct (shrunk_free s s2 p pn (set_dir d 0 pn) pb [] d i b (GNode sb sbb svs sl sr) _ [sb] nd1 P1 Hpi Hio HpK Hsh)
        as (s' & He & Hsh'); [by rewrite F1|by eexists|].
      exists s', (GNode p (pb ++ sbb) svs sl sr), [i; sb].
      split; [exact He|]. split; [exact Hsh'|].
      destruct Hpp as [[-> _]|(_ & Hpb & _)]; [lia|]. destruct Wo as (Hsb0 & Hsl & Hsv & S1 & S2 & W1 & W2).
      split; [|split].
      * split; [done|]. right. split; [lia|]. cbn [wf]. rewrite app_length.
        split; [by destruct pb|]. split; [lia|]. split; [done|]. split; [done|]. split; [done|].
        replace (D - (length pb + length sbb))%nat with (D - length pb - length sbb)%nat by lia. done.
      * intros q'. rewrite (look_compress p p sb pb (negb d) sbb svs sl sr q') by done.
        assert (E : nodeD p pb [] (negb d) (GNode sb sbb svs sl sr) GNil = nodeD p pb [] d GNil (GNode sb sbb svs sl sr))
          by (by destruct d).
        rewrite E. apply look_nodeD_same. intros q''. cbn [glook].
        by destruct (strip b q'') as [[|[] ?]|].
      * intros _ h Hh. cbn [starts nodeD] in *. by destruct pb.
    + (* just unhooked *)
      cbn [rbind].
      destruct (shrunk_free s s1 p pn (set_dir d 0 pn) pb pvs d i b o (nodeD p pb pvs d GNil o) [] nd1 P1 Hpi Hio HpK)
        as (s' & He & Hsh'); [by apply shrunk_refl|done|by eexists|].
      exists s', (nodeD p pb pvs d GNil o), [i]. split; [exact He|]. split; [exact Hsh'|]. split; [|split].
      * apply okp_nodeD. split; [done|]. split; [done|]. split; [done|]. split; [done|]. split; [done|]. split; [done|].
        destruct Hpp as [?|(Hp1 & Hpb & Hpv)]; [by left|]. right. split; [done|]. split; [done|].
        intros ->. exfalso. destruct (Hpv eq_refl) as [_ Hon].
        apply andb_false_iff in Hcond as [Hcond|Hcond]; [apply andb_false_iff in Hcond as [Hcond|Hcond]|].
        -- lia.
        -- cbn [length] in Hcnt. lia.
        -- apply negb_false_iff in Hcond. rewrite (R0 o _ P7 Hon) in Hcond. done.
      * intros q'. apply look_nodeD_same. intros q''. cbn [glook].
        by destruct (strip b q'') as [[|[] ?]|].
      * intros _ h Hh. done.
  - (* only a right child *)
    cbn [root]. rewrite N.eqb_refl. cbn [negb andb]. rewrite (R0 r _ N7 Hrn). cbn [negb].
    destruct r as [|li lb lvs ll lr]; [done|]. clear Hrn. cbn [root].
    assert (E : GNode i b [] GNil (GNode li lb lvs ll lr) = nodeD i b [] true (GNode li lb lvs ll lr) GNil) by done.
    rewrite E in *. destruct Wr as (Hlb0 & Hlbd & Hlv & S1 & S2 & W1 & W2).
    destruct (lift_spec s p pb pvs d i b true (GNode li lb lvs ll lr) o Hc Hpi Hio Hr Hnd) with (li := li) (lb := lb)
      (lvs := lvs) (ll := ll) (lr := lr) as (s' & He & Hsh); [done|by destruct b|intros ? ? ? ? ? [= <- <- <- <- <-]; lia|done|].
    exists s'. eexists _, [i]. split; [exact He|]. split; [exact Hsh|]. split; [|split].
    + apply okp_nodeD. split; [done|]. split; [done|]. split; [by destruct b|]. split; [done|]. split.
      { cbn [wf]. rewrite app_length. split; [by destruct b|]. split; [lia|]. split; [done|]. split; [done|]. split; [done|].
        replace (D - length pb - (length b + length lb))%nat with (D - length pb - length b - length lb)%nat by lia. done. }
      split; [done|]. destruct Hpp as [?|(Hp1 & Hpb & Hpv)]; [by left|]. right. split; [done|]. split; [done|].
      intros H. split; [done|]. by apply Hpv.
    + intros q'. apply look_nodeD_same. intros q''. by apply look_compress.
    + intros _ h Hh. done.
  - (* only a left child *)
    rewrite (R0 l _ N6 Hl). cbn [root negb andb N.eqb].
    destruct l as [|li lb lvs ll lr]; [done|]. clear Hl. cbn [root].
    assert (E : GNode i b [] (GNode li lb lvs ll lr) GNil = nodeD i b [] false (GNode li lb lvs ll lr) GNil) by done.
    rewrite E in *. destruct Wl as (Hlb0 & Hlbd & Hlv & S1 & S2 & W1 & W2).
    destruct (lift_spec s p pb pvs d i b false (GNode li lb lvs ll lr) o Hc Hpi Hio Hr Hnd) with (li := li) (lb := lb)
      (lvs := lvs) (ll := ll) (lr := lr) as (s' & He & Hsh); [done|by destruct b|intros ? ? ? ? ? [= <- <- <- <- <-]; lia|done|].
    exists s'. eexists _, [i]. split; [exact He|]. split; [exact Hsh|]. split; [|split].
    + apply okp_nodeD. split; [done|]. split; [done|]. split; [by destruct b|]. split; [done|]. split.
      { cbn [wf]. rewrite app_length. split; [by destruct b|]. split; [lia|]. split; [done|]. split; [done|]. split; [done|].
        replace (D - length pb - (length b + length lb))%nat with (D - length pb - length b - length lb)%nat by lia. done. }
      split; [done|]. destruct Hpp as [?|(Hp1 & Hpb & Hpv)]; [by left|]. right. split; [done|]. split; [done|].
      intros H. split; [done|]. by apply Hpv.
    + intros q'. apply look_nodeD_same. intros q''. by apply look_compress.
    + intros _ h Hh. done.
  - (* both children stay *)
    rewrite (R0 l _ N6 Hl), (R0 r _ N7 Hrn). cbn [negb andb].
    exists s, (nodeD p pb pvs d (GNode i b [] l r) o), []. split; [done|]. split; [by apply shrunk_refl|].
    split; [|split; done].
    apply okp_nodeD. split; [done|]. split; [done|]. split; [done|]. split; [done|]. split; [done|]. split; [done|].
    destruct Hpp as [?|(Hp1 & Hpb & Hpv)]; [by left|]. right. split; [done|]. split; [done|].
    intros H. split; [done|]. by apply Hpv.
Qed.

(** The rest of Delete, once the target has been found. *)
Definition del_rest (s : tree) (target : option (N * N)) (mf : T -> T -> bool) (v : T) : res (tree * N) :=
  match target with
  | None => Ok (s, 0)
  | Some (t, p) =>
      do tn <- get_node s t;
      if n_cnt tn =? 0 then Ok (s, 0)
      else
        do a <- delete_val zero s t v mf;
        let '(s1, (del, keep)) := a in
        if 0 <? keep then Ok (s1, del)
        else do s2 <- delete_node zero s1 t p; Ok (s2, del)
  end.

Lemma tree_Delete_eq s x mf v :
  tree_Delete zero c s x mf v =
  (do root <- get_node s 1;
   do target <-
    (if i_len x =? 0 then Ok (Some (1, 0))
     else del_find c (S (N.to_nat (i_len x))) s 1
            (if negb (is_left_bit_set c x) then n_left root else n_right root) x);
   del_rest s target mf v).
Proof. reflexivity. Qed.

(** deleteVal on a node of the tree. *)
Lemma delete_val_node s i b vs l r m v :
  cfg_ok s -> rep s i (GNode i b vs l r) -> NoDup (fp (GNode i b vs l r)) -> vs <> [] ->
  exists s', delete_val zero s i v m =
      Ok (s', (count_matching m v vs, N.of_nat (length (List.filter (fun y => negb (m y v)) vs)))) /\
    shrunk s s' (GNode i b vs l r) (GNode i b (delete_list m v vs) l r) [].
Proof.
  intros Hc Hr Hnd Hne. pose proof Hr as (_ & Hi0 & HiK & Hivl & nd & N1 & N2 & N3 & N4 & N5 & N6 & N7).
  destruct (delete_val_spec zero c s i nd vs m v Hc Hi0 HiK N1 N4 N5 Hivl Hne) as (s' & He & Hn & Hctl & Hv & Hf).
  exists s'. split; [done|]. set (vs' := delete_list m v vs) in *.
  assert (Hl' : (length vs' <= length vs)%nat) by apply delete_list_length.
  destruct Hctl as (C1 & C2 & C3 & C4 & C5 & C6).
  cbn [fp] in Hnd. apply NoDup_cons in Hnd as [Hin Hnd]. rewrite elem_of_app in Hin.
  assert (Hoth : forall j, j < K -> j <> i -> same s s' j).
  { intros j HjK Hji. split; [by rewrite Hn, lookup_insert_ne|by apply Hf]. }
  constructor; try done.
  - intros j. rewrite Hn. destruct (decide (j = i)) as [->|Hj].
    + rewrite lookup_insert, N1. by split; eexists.
    + by rewrite lookup_insert_ne.
  - cbn [root TreeHeap.rep]. split; [done|]. split; [done|]. split; [done|]. split; [lia|].
    eexists. split; [by rewrite Hn, lookup_insert|]. cbn [set_cnt n_len n_id n_cnt n_left n_right].
    split; [done|]. split; [done|]. split; [done|]. split; [done|]. split.
    + apply (rep_frame zero c s s'); [done| |done]. intros j Hj. apply Hoth; [|intros ->; tauto].
      exact (rep_lt_K zero c s _ l j N6 Hj).
    + apply (rep_frame zero c s s'); [done| |done]. intros j Hj. apply Hoth; [|intros ->; tauto].
      exact (rep_lt_K zero c s _ r j N7 Hj).
  - intros j HjK Hj. apply Hoth; [done|]. intros ->. apply Hj. left.
Qed.

Lemma delete_list_empty m v : delete_list m v ([] : list T) = [].
Proof. done. Qed.

Lemma count_matching_nil m v : count_matching m v ([] : list T) = 0.
Proof. done. Qed.

Lemma del_spec m v fuel : forall s p D pb pvs d t o x,
  cfg_ok s -> rep s p (nodeD p pb pvs d t o) -> NoDup (fp (nodeD p pb pvs d t o)) ->
  (forall j, j ∈ fp t ++ fp o -> 1 < j) -> okp p D (nodeD p pb pvs d t o) ->
  idok c x -> head (prefix w x) = Some d -> (N.to_nat (i_len x) < fuel)%nat ->
  exists target s' t' fr,
    del_find c fuel s p (root t) x = Ok target /\
    del_rest s target m v = Ok (s', count_matching m v (glook t (prefix w x))) /\
    shrunk s s' (nodeD p pb pvs d t o) t' fr /\ okp p D t' /\
    (forall q', glook t' q' = if decide (q' = pb ++ prefix w x) then delete_list m v (glook t (prefix w x))
                              else glook (nodeD p pb pvs d t o) q') /\
    (1 < p -> forall h, starts h (nodeD p pb pvs d t o) -> starts h t').
Proof.
  induction fuel as [|fuel IH]; intros s p D pb pvs d t o x Hc Hr Hnd Hgt Hok Hx Hhx Hfuel; [lia|].
  destruct (prefix w x) as [|d0 q2] eqn:Hq; [done|]. cbn in Hhx. injection Hhx as ->.
  pose proof (prefix_length w x) as Hql. rewrite Hq in Hql. cbn [length] in Hql.
  assert (Hnone : glook t (d :: q2) = [] -> forall s', s' = s ->
    exists s'' t' fr, Ok (s', 0) = Ok (s'', count_matching m v (glook t (d :: q2))) /\
    shrunk s s'' (nodeD p pb pvs d t o) t' fr /\ okp p D t' /\
    (forall q', glook t' q' = if decide (q' = pb ++ d :: q2) then delete_list m v (glook t (d :: q2))
                              else glook (nodeD p pb pvs d t o) q') /\
    (1 < p -> forall h, starts h (nodeD p pb pvs d t o) -> starts h t')).
  { intros Hg s' ->. exists s, (nodeD p pb pvs d t o), []. rewrite Hg. split; [done|].
    split; [by apply shrunk_refl|]. split; [done|]. split; [|done]. intros q'.
    destruct (decide (q' = pb ++ d :: q2)) as [->|]; [|done]. rewrite delete_list_empty.
    unfold nodeD. rewrite glook_node. rewrite <- Hg. by destruct d. }
  destruct t as [|i b vs l r].
  { exists None. cbn [root del_find]. rewrite N.eqb_refl. edestruct Hnone as (s'' & t' & fr & H); [done|done|].
    exists s'', t', fr. split; [done|]. exact H. }
  pose proof Hr as (Hp0 & HpK & Hpvl & pn & P1 & P2 & P3 & P4 & P5 & P6 & P7)%rep_nodeD.
  pose proof (rep_root _ _ _ _ _ P6) as Pd. cbn [root] in Pd. rewrite Pd in P6.
  pose proof P6 as (_ & Hi0 & HiK & Hivl & nd & N1 & N2 & N3 & N4 & N5 & N6 & N7).
  pose proof Hok as (HD & Hpl & St & So & Wt & Wo & Hpp)%okp_nodeD.
  pose proof Wt as (Hb0 & Hbd & Hbv & Sl & Sr & Wl & Wr).
  cbn [root del_find]. rewrite (proj2 (N.eqb_neq i 0) Hi0), (get_node_eq s i nd N1). cbn [rbind].
  assert (Hmc : N.to_nat (match_count c nd x) = lcp b (d :: q2)).
  { rewrite match_count_lcp; [|lia|apply Hx..]. f_equal; [|by rewrite <- Hq]. by rewrite N2, Nat2N.id. }
  set (mc := match_count c nd x) in *. clearbody mc.
  destruct (lcp_split b (d :: q2)) as (mm & p' & q' & Hbm & Hqm & Hlm & Hpq).
  assert (Emc : mc = N.of_nat (length mm)) by lia. clear Hmc Hlm. subst mc.
  destruct p' as [|h2 b2].
  2: { (* the paths part *)
    assert (Hlt : N.of_nat (length mm) <? n_len nd = true).
    { rewrite N2, Hbm, app_length. cbn [length]. lia. }
    rewrite Hlt. exists None. edestruct Hnone as (s'' & t' & fr & H); [|done|].
    { cbn [glook]. rewrite Hbm, strip_app, Hqm, strip_self. cbn [strip]. destruct q' as [|a q']; [done|].
      destruct (Bool.eqb_spec h2 a) as [->|]; done. }
    exists s'', t', fr. split; [done|]. exact H. }
  rewrite app_nil_r in Hbm. subst mm.
  assert (Hlt : N.of_nat (length b) <? n_len nd = false) by lia. rewrite Hlt.
  assert (Hgti : 1 < i) by (apply Hgt; left).
  assert (Hndt : NoDup (fp (GNode i b vs l r))).
  { assert (H := Hnd). rewrite fp_nodeD in H. apply NoDup_cons in H as [_ H]. by apply NoDup_app in H as [? _]. }
  destruct q' as [|e q'].
  - (* found *)
    rewrite app_nil_r in Hqm.
    assert (Hbx : N.of_nat (length b) = i_len x) by (rewrite <- Hqm; cbn [length]; lia).
    rewrite Hbx, N.eqb_refl. exists (Some (i, p)).
    assert (Hg : glook (GNode i b vs l r) (d :: q2) = vs) by (rewrite Hqm; cbn [glook]; by rewrite strip_self_nil).
    cbn [del_rest]. rewrite (get_node_eq s i nd N1). cbn [rbind].
    destruct (N.eqb_spec (n_cnt nd) 0) as [Hc0|Hc0].
    { edestruct Hnone as (s'' & t' & fr & H); [|done|].
      { rewrite Hg. destruct vs; [done|]. cbn [length] in N4. lia. }
      exists s'', t', fr. split; [done|]. exact H. }
    assert (Hvs : vs <> []) by (intros ->; cbn in N4; lia).
    destruct (delete_val_node s i b vs l r m v Hc P6 Hndt Hvs) as (s1 & -> & Hsh). cbn [rbind].
    pose proof (shrunk_below zero c s s1 p pb pvs d _ _ o [] Hr Hnd Hsh) as Hsh1.
    assert (Hlook1 : forall q', glook (nodeD p pb pvs d (GNode i b (delete_list m v vs) l r) o) q' =
      if decide (q' = pb ++ d :: q2) then delete_list m v vs else glook (nodeD p pb pvs d (GNode i b vs l r) o) q').
    { intros q'. apply look_nodeD. intros q''. rewrite Hqm. apply look_same. }
    rewrite Hg.
    destruct (N.ltb_spec 0 (N.of_nat (length (List.filter (fun y => negb (m y v)) vs)))) as [Hk|Hk].
    + (* values left *)
      exists s1. eexists _, []. split; [done|]. split; [done|]. split; [exact Hsh1|].
      assert (Hne : delete_list m v vs <> []).
      { rewrite delete_list_nil. by destruct (List.filter _ vs); [cbn in Hk; lia|]. }
      split; [|split; [exact Hlook1|done]].
      apply okp_nodeD. split; [done|]. split; [done|]. split; [done|]. split; [done|].
      split; [|split; [done|]].
      { cbn [wf]. split; [done|]. split; [done|]. split; [done|]. done. }
      destruct Hpp as [?|(Hp1 & Hpb & Hpv)]; [by left|]. right. split; [done|]. split; [done|].
      intros H. split; [done|]. by apply Hpv.
    + assert (Hne : delete_list m v vs = []).
      { apply delete_list_nil. destruct (List.filter _ vs); [done|]. cbn [length] in Hk. lia. }
      rewrite Hne in *.
      destruct (delete_node_spec s1 p D pb pvs d i b vs l r o) as (s2 & t2 & fr & -> & Hsh2 & Hok2 & Hlook2 & Hst2).
      * by apply (shrunk_cfg zero c s s1 _ _ _ Hsh).
      * apply Hsh1.
      * rewrite fp_nodeD. rewrite fp_nodeD in Hnd. exact Hnd.
      * done.
      * done.
      * cbn [rbind]. exists s2, t2, fr. split; [done|]. split; [done|]. split.
        { rewrite <- (app_nil_r fr). by apply (shrunk_trans zero c s s1 s2 _ _ _ [] fr Hsh1). }
        split; [done|]. split; [|done].
        intros q'. rewrite Hlook2. apply Hlook1.
  - (* below *)
    assert (Hbx : (length b < N.to_nat (i_len x))%nat).
    { rewrite <- Hql. pose proof (f_equal length Hqm) as H. rewrite app_length in H. cbn [length] in H. lia. }
    rewrite (proj2 (N.eqb_neq (N.of_nat (length b)) (i_len x))) by lia. cbv zeta.
    destruct (shift_left_prefix c x (length b) Hx) as (Hx' & Hpx' & Hlx'); [lia|lia|].
    rewrite Hq, Hqm, drop_app in Hpx'. set (x' := shift_left c x (N.of_nat (length b))) in *.
    assert (He : is_left_bit_set c x' = e).
    { pose proof (is_left_prefix c x' Hx') as H. rewrite Hpx' in H. cbn [head] in H.
      assert (0 < i_len x') by lia. specialize (H H0). congruence. }
    rewrite He.
    assert (Hroot : (if negb e then n_left nd else n_right nd) = root (child e l r)).
    { destruct e; cbn [negb child]; [by apply (rep_root zero c s)|by apply (rep_root zero c s)]. }
    rewrite Hroot.
    rewrite (nodeD_child i b vs l r e) in P6, Hndt, Wt.
    destruct (IH s i (D - length pb)%nat b vs e (child e l r) (child (negb e) l r) x' Hc P6 Hndt) as
      (target & s' & t' & fr & Hf & Hrest & Hsh & Hok' & Hlook & Hst).
    { intros j Hj. apply Hgt. cbn [fp]. rewrite elem_of_app, elem_of_cons, elem_of_app. apply elem_of_app in Hj.
      destruct e; cbn [child negb] in Hj; tauto. }
    { split; [lia|]. by right. }
    { done. } { by rewrite Hpx'. }
    { assert ((0 < length b)%nat) by (destruct b; [done|cbn [length]; lia]). lia. }
    rewrite Hpx' in *. rewrite <- (nodeD_child i b vs l r e) in *.
    assert (Hg : glook (GNode i b vs l r) (d :: q2) = glook (child e l r) (e :: q')) by (by rewrite Hqm, glook_node).
    rewrite Hg. exists target, s', (nodeD p pb pvs d t' o), fr. split; [done|]. split; [done|].
    split; [by apply shrunk_below|].
    assert (Hroot' : root t' = i) by apply (sh_root _ _ _ _ _ _ _ Hsh).
    assert (Hst' : starts d t') by (by apply Hst).
    destruct Hok' as [_ [[-> _]|[_ Wt']]]; [lia|].
    split; [|split; [|done]].
    + apply okp_nodeD. split; [done|]. split; [done|]. split; [done|]. split; [done|]. split; [done|]. split; [done|].
      destruct Hpp as [?|(Hp1 & Hpb & Hpv)]; [by left|]. right. split; [done|]. split; [done|].
      intros H. split; [|by apply Hpv]. intros ->. cbn in Hroot'. lia.
    + intros q''. apply look_nodeD. intros q3. rewrite Hlook. by rewrite Hqm.
Qed.

(** Delete. *)
Lemma tree_Delete_spec s t x m v :
  inv s t -> idok c x ->
  exists s' t' fr,
    tree_Delete zero c s x m v = Ok (s', count_matching m v (glook t (prefix w x))) /\
    inv s' t' /\ updated t t' (prefix w x) (delete_list m v (glook t (prefix w x))) /\
    t_gen s' = t_gen s /\ t_n s' = t_n s /\ t_avail s' = fr ++ t_avail s /\ vsame s s' 0 /\
    (forall j, j < K -> j ∉ fp t -> t_nodes s' !! j = t_nodes s !! j).
Proof.
  intros Hinv Hx. pose proof Hinv as [Hc Ha Hr Hwf Hnd Hlv Hct].
  destruct t as [|i b vs l r]; [done|]. pose proof Hwf as (-> & -> & Sl & Sr & Wl & Wr).
  pose proof Hr as (_ & Hi0 & HiK & Hvl & nd & N1 & N2 & N3 & N4 & N5 & N6 & N7).
  assert (Hfin : forall s' t' fr, shrunk s s' (GNode 1 [] vs l r) t' fr -> okp 1 (N.to_nat w) t' ->
    inv s' t' /\ t_gen s' = t_gen s /\ t_n s' = t_n s /\ t_avail s' = fr ++ t_avail s /\ vsame s s' 0 /\
    (forall j, j < K -> j ∉ fp (GNode 1 [] vs l r) -> t_nodes s' !! j = t_nodes s !! j)).
  { intros s' t' fr Hsh [_ [[_ Hw']|[H _]]]; [|lia].
    split; [|split; [apply Hsh|split; [apply Hsh|split; [apply Hsh|split]]]].
    3: { intros j Hj1 Hj2. by apply (sh_frame _ _ _ _ _ _ _ Hsh). }
    2: { apply (sh_frame _ _ _ _ _ _ _ Hsh); [lia|]. intros H.
         by apply (rep_dom zero c s _ _ 0 Hr) in H as (_ & ? & _). }
    assert (Hroot : root t' = 1) by (by rewrite (sh_root _ _ _ _ _ _ _ Hsh)).
    pose proof (sh_fp _ _ _ _ _ _ _ Hsh) as Hfp.
    assert (Hnd' : NoDup (fr ++ fp t')) by (by rewrite <- Hfp).
    apply NoDup_app in Hnd' as (Hf1 & Hf2 & Hf3).
    assert (Hin : forall j, j ∈ fr ++ fp t' -> j ∈ fp (GNode 1 [] vs l r)) by (intros j; by rewrite Hfp).
    constructor.
    - by apply (shrunk_cfg zero c s s' _ _ _ Hsh).
    - destruct Ha as [D1 D2 D3 D4 D5 D6]. constructor.
      + intros j. rewrite (sh_n _ _ _ _ _ _ _ Hsh), (sh_dom _ _ _ _ _ _ _ Hsh). apply D1.
      + rewrite (sh_avail _ _ _ _ _ _ _ Hsh). apply NoDup_app. split; [done|]. split; [|done].
        intros j Hj Hj'. apply (Hlv j); [apply Hin, elem_of_app; by left|]. by left.
      + intros j. rewrite (sh_avail _ _ _ _ _ _ _ Hsh), (sh_n _ _ _ _ _ _ _ Hsh), elem_of_app.
        intros [Hj|Hj]; [|by apply D3].
        assert (Hjt : j ∈ fp (GNode 1 [] vs l r)) by (apply Hin, elem_of_app; by left).
        destruct (rep_dom zero c s _ _ j Hr Hjt) as (Hj1 & Hj2 & Hj3).
        assert (j <> 1). { intros ->. apply (Hf2 1 Hj). rewrite <- Hroot. apply root_fp. by intros ->. }
        apply D1 in Hj1. lia.
      + rewrite (sh_n _ _ _ _ _ _ _ Hsh), (sh_cap _ _ _ _ _ _ _ Hsh). done.
      + by rewrite (sh_n _ _ _ _ _ _ _ Hsh).
      + by rewrite (sh_n _ _ _ _ _ _ _ Hsh).
    - rewrite <- Hroot. apply Hsh.
    - done.
    - done.
    - intros j Hj. unfold TreeHeap.fresh. rewrite (sh_avail _ _ _ _ _ _ _ Hsh), (sh_n _ _ _ _ _ _ _ Hsh), elem_of_app.
      intros [[H|H]|H].
      + by apply (Hf2 j).
      + apply (Hlv j); [apply Hin, elem_of_app; by right|]. by left.
      + apply (Hlv j); [apply Hin, elem_of_app; by right|]. by right.
    - rewrite (sh_n _ _ _ _ _ _ _ Hsh), (sh_avail _ _ _ _ _ _ _ Hsh), Hct, Hfp, !app_length. lia. }
  rewrite tree_Delete_eq, (get_node_eq s 1 nd N1). cbn [rbind].
  destruct (N.eqb_spec (i_len x) 0) as [Hx0|Hx0].
  - assert (Hq : prefix w x = []) by (unfold prefix; by rewrite Hx0).
    rewrite Hq. cbn [rbind del_rest glook strip]. rewrite (get_node_eq s 1 nd N1). cbn [rbind].
    assert (Hrefl : okp 1 (N.to_nat w) (GNode 1 [] vs l r)) by (split; [lia|by left]).
    destruct (N.eqb_spec (n_cnt nd) 0) as [Hc0|Hc0].
    + assert (vs = []) as -> by (destruct vs; [done|cbn in N4; lia]).
      destruct (Hfin s (GNode 1 [] [] l r) []) as (H1 & H2 & H3 & H4); [by apply shrunk_refl|done|].
      exists s, (GNode 1 [] [] l r), []. split; [done|]. split; [done|]. split; [|done].
      intros q'. cbn [glook strip]. destruct q'; done.
    + assert (Hvs : vs <> []) by (intros ->; cbn in N4; lia).
      destruct (delete_val_node s 1 [] vs l r m v Hc Hr Hnd Hvs) as (s1 & -> & Hsh). cbn [rbind].
      destruct (Hfin s1 _ [] Hsh) as (H1 & H2 & H3 & H4); [split; [lia|by left]|].
      exists s1, (GNode 1 [] (delete_list m v vs) l r), [].
      split. { destruct (_ <? _); [done|]. unfold delete_node. rewrite N.eqb_refl. done. }
      split; [done|]. split; [|done]. intros q'. apply look_same.
  - assert (Hh : head (prefix w x) = Some (is_left_bit_set c x)) by (apply is_left_prefix; [done|lia]).
    set (d := is_left_bit_set c x) in *. clearbody d.
    assert (Hroot : (if negb d then n_left nd else n_right nd) = root (child d l r)).
    { destruct d; cbn [negb child]; [by apply (rep_root zero c s)|by apply (rep_root zero c s)]. }
    rewrite Hroot.
    rewrite (nodeD_child 1 [] vs l r d) in Hr, Hnd.
    destruct (del_spec m v (S (N.to_nat (i_len x))) s 1 (N.to_nat w) [] vs d (child d l r) (child (negb d) l r) x Hc Hr Hnd)
      as (target & s' & t' & fr & Hf & Hrest & Hsh & Hok' & Hlook & _).
    { intros j Hj. rewrite fp_nodeD in Hnd. apply NoDup_cons in Hnd as [H1 _].
      assert (Hj' : j ∈ fp (GNode 1 [] vs l r)).
      { rewrite (nodeD_child 1 [] vs l r d), fp_nodeD. by right. }
      rewrite <- (nodeD_child 1 [] vs l r d) in Hr.
      destruct (rep_dom zero c s _ _ j Hr Hj') as (_ & Hj2 & _).
      assert (j <> 1) by (by intros ->). lia. }
    { rewrite <- (nodeD_child 1 [] vs l r d). split; [lia|by left]. }
    { done. } { done. } { lia. }
    rewrite <- (nodeD_child 1 [] vs l r d) in *.
    rewrite Hf. cbn [rbind]. rewrite Hrest.
    assert (Hg : glook (GNode 1 [] vs l r) (prefix w x) = glook (child d l r) (prefix w x)).
    { destruct (prefix w x) as [|d0 q2]; [done|]. cbn in Hh. injection Hh as ->. done. }
    rewrite Hg. destruct (Hfin s' t' fr Hsh Hok') as (H1 & H2 & H3 & H4).
    exists s', t', fr. split; [done|]. split; [done|]. split; [|done]. intros q'. apply Hlook.
Qed.
End Delete.
