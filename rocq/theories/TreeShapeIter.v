(** What an iteration stops at, whatever happened to the values: the nodes of the
    stored prefixes in order, and the values there are the ones a Delete reads. *)
From Verif Require Export TreeShapeSpec.
From Verif Require Import TreeMain TreeFinal TreeSim TreeShape.
From Verif Require Import TreeGhost.
From Coq Require Import Lia ZifyBool ZifyNat ZifyN.
Local Open Scope N_scope.

(** The nodes that hold values, with their paths, in preorder; the node at a path. *)
Fixpoint spots {A} (p : list bool) (t : gt A) : list (list bool * N) :=
  match t with
  | GNil => []
  | GNode i b vs l r => (match vs with [] => [] | _ => [(p ++ b, i)] end) ++ spots (p ++ b) l ++ spots (p ++ b) r
  end.
Fixpoint gidx {A} (t : gt A) (q : list bool) : option N :=
  match t with
  | GNil => None
  | GNode i b _ l r =>
      match strip b q with
      | None => None
      | Some [] => Some i
      | Some (d :: q') => gidx (if d then r else l) (d :: q')
      end
  end.

Lemma spots_stops {A} (t : gt A) : forall p, (spots p t).*2 = stops t.
Proof.
  induction t as [|i b vs l IHl r IHr]; intros p; cbn [spots stops]; [done|].
  rewrite !fmap_app, IHl, IHr. by destruct vs.
Qed.
Lemma spots_pre {A} (t : gt A) : forall p, (spots p t).*1 = (pre p t).*1.
Proof.
  induction t as [|i b vs l IHl r IHr]; intros p; cbn [spots pre]; [done|].
  rewrite !fmap_app, IHl, IHr. by destruct vs.
Qed.

Lemma gidx_starts {A} D d (t : gt A) q i : wf D t -> starts d t -> gidx t q = Some i -> exists q', q = d :: q'.
Proof.
  destruct t as [|j b vs l r]; cbn [wf starts gidx]; [done|]. intros (Hb & _) Hs.
  destruct b as [|a b]; [done|]. cbn in Hs. injection Hs as ->. cbn [strip].
  destruct q as [|a q]; [done|]. destruct (Bool.eqb_spec d a) as [->|]; [by eauto|done].
Qed.

Lemma spots_gidx_node {A} D i b vs (l r : gt A) p q j :
  (forall p q j, (q, j) ∈ spots p l -> exists q', q = p ++ q' /\ gidx l q' = Some j) ->
  (forall p q j, (q, j) ∈ spots p r -> exists q', q = p ++ q' /\ gidx r q' = Some j) ->
  wf D l -> wf D r -> starts false l -> starts true r ->
  (q, j) ∈ spots p (GNode i b vs l r) -> exists q', q = p ++ q' /\ gidx (GNode i b vs l r) q' = Some j.
Proof.
  intros IHl IHr Wl Wr Sl Sr. cbn [spots]. rewrite !elem_of_app. intros [H|[H|H]].
  - destruct vs; [by apply elem_of_nil in H|]. apply elem_of_list_singleton in H. injection H as -> ->.
    exists b. split; [done|]. cbn [gidx]. pose proof (strip_self b []) as E. rewrite app_nil_r in E. by rewrite E.
  - apply IHl in H as (q' & -> & H). exists (b ++ q'). rewrite app_assoc. split; [done|].
    destruct (gidx_starts D false l q' j Wl Sl H) as [q2 ->]. cbn [gidx]. by rewrite strip_self.
  - apply IHr in H as (q' & -> & H). exists (b ++ q'). rewrite app_assoc. split; [done|].
    destruct (gidx_starts D true r q' j Wr Sr H) as [q2 ->]. cbn [gidx]. by rewrite strip_self.
Qed.
Lemma spots_gidx {A} (t : gt A) : forall D p q j, wf D t -> (q, j) ∈ spots p t -> exists q', q = p ++ q' /\ gidx t q' = Some j.
Proof.
  induction t as [|i b vs l IHl r IHr]; intros D p q j Hwf; [by intros H%elem_of_nil|].
  destruct Hwf as (Hb & Hbd & Hbv & Sl & Sr & Wl & Wr).
  apply (spots_gidx_node (D - length b)); try done; intros; [by eapply IHl|by eapply IHr].
Qed.
Lemma spots_gidx_root {A} (t : gt A) D q j : wfr D t -> (q, j) ∈ spots [] t -> gidx t q = Some j.
Proof.
  destruct t as [|i b vs l r]; [done|]. intros (-> & -> & Sl & Sr & Wl & Wr) H.
  apply (spots_gidx_node D) in H as (q' & -> & H); try done; intros; by eapply spots_gidx.
Qed.

(* ------------------------------------------------------------ the search *)
Section Find.
Context {A : Type} {Hkb : kbound A} (zero : A) (c : idcfg).
Notation w := (id_w c).
Context {Hwide : wide A c}.
Notation rep := (rep zero c).

Lemma find_spec fuel : forall (s : tree A) p D t x i, rep s (root t) t -> wf D t -> (D <= N.to_nat w)%nat ->
  idok c x -> gidx t (prefix w x) = Some i -> (N.to_nat (i_len x) < fuel)%nat ->
  exists p', del_find c fuel s p (root t) x = Ok (Some (i, p')).
Proof.
  assert (Hw64 : w <= 64) by (destruct (@wide_64 A Hkb c Hwide) as [[? _]|[? _]]; lia).
  induction fuel as [|fuel IH]; intros s p D t x i Hr Hwf HD Hx Hg Hfuel; [lia|].
  destruct t as [|j b vs l r]; [done|].
  pose proof Hr as (_ & Hi0 & HiK & Hivl & nd & N1 & N2 & N3 & N4 & N5 & N6 & N7).
  pose proof Hwf as (Hb0 & Hbd & Hbv & Sl & Sr & Wl & Wr).
  cbn [root del_find]. rewrite (proj2 (N.eqb_neq j 0) Hi0), (get_node_eq s j nd N1). cbn [rbind].
  assert (Hmc : N.to_nat (match_count c nd x) = lcp b (prefix w x)).
  { rewrite match_count_lcp; [|lia|apply Hx..]. f_equal. by rewrite N2, Nat2N.id. }
  set (mc := match_count c nd x) in *. clearbody mc.
  cbn [gidx] in Hg. destruct (strip b (prefix w x)) as [q'|] eqn:Hs; [|done]. apply strip_Some in Hs.
  pose proof (TreeBits.prefix_length w x) as Hql. rewrite Hs, app_length in Hql.
  destruct (lcp_split b (prefix w x)) as (mm & p' & q2 & Hbm & Hqm & Hlm & Hpq).
  assert (p' = []) as ->.
  { destruct p' as [|h p']; [done|]. rewrite Hs, Hbm, <- app_assoc in Hqm. apply app_inv_head in Hqm.
    rewrite <- Hqm in Hpq. by destruct Hpq. }
  rewrite app_nil_r in Hbm. subst mm. assert (mc = N.of_nat (length b)) as -> by lia.
  assert (Hlt : N.of_nat (length b) <? n_len nd = false) by lia. rewrite Hlt.
  destruct q' as [|e q'].
  - injection Hg as <-. cbn [length] in Hql. rewrite (proj2 (N.eqb_eq (N.of_nat (length b)) (i_len x))) by lia. by eauto.
  - cbn [length] in Hql. rewrite (proj2 (N.eqb_neq (N.of_nat (length b)) (i_len x))) by lia. cbv zeta.
    destruct (shift_left_prefix c x (length b) Hx) as (Hx' & Hpx' & Hlx'); [lia|lia|].
    rewrite Hs, drop_app in Hpx'. set (x' := shift_left c x (N.of_nat (length b))) in *.
    assert (He : is_left_bit_set c x' = e).
    { pose proof (is_left_prefix c x' Hx') as H. rewrite Hpx' in H. cbn [head] in H.
      assert (0 < i_len x') by lia. specialize (H H0). congruence. }
    rewrite He. rewrite <- Hpx' in Hg.
    assert ((0 < length b)%nat) by (destruct b; [done|cbn [length]; lia]).
    destruct e; cbn [negb].
    + rewrite (rep_root _ _ _ _ _ N7). rewrite (rep_root _ _ _ _ _ N7) in N7.
      apply (IH s j (D - length b)%nat r x' i); try done; lia.
    + rewrite (rep_root _ _ _ _ _ N6). rewrite (rep_root _ _ _ _ _ N6) in N6.
      apply (IH s j (D - length b)%nat l x' i); try done; lia.
Qed.
End Find.

(* ------------------------------------------------------------ the values *)
Section Values.
Context {T : Type} (zero : T) (c : idcfg).
Notation w := (id_w c).

Lemma put_back_count i (m : T -> T -> bool) v buf : forall s d k s' d' k',
  put_back zero s i m v buf d k = Ok (s', (d', k')) -> d' = d + count_matching m v buf.
Proof.
  induction buf as [|y buf IH]; intros s d k s' d' k' H; cbn [put_back] in H.
  { injection H as _ -> _. unfold count_matching. cbn. lia. }
  unfold count_matching in *. cbn [List.filter]. destruct (m y v).
  - apply IH in H as ->. cbn [length]. lia.
  - destruct (add_val zero s y i (Some m) None) as [a| |]; cbn [rbind] in H; [|done..]. by apply IH in H.
Qed.

Lemma delete_val_count s i (m : T -> T -> bool) v buf s' d k : vals_for_node zero s i = Ok buf ->
  delete_val zero s i v m = Ok (s', (d, k)) -> d = count_matching m v buf.
Proof.
  intros Hv. unfold delete_val. rewrite Hv. cbn [rbind]. destruct buf as [|y buf]; [by intros [= _ <- _]|].
  destruct (get_node s i) as [nd| |]; cbn [rbind]; [|done..].
  destruct (upd_node _ i (set_cnt 0)) as [s2| |]; cbn [rbind]; [|done..].
  intros H. by apply put_back_count in H as ->.
Qed.

Lemma next_body_sh s u it : @Shape T s u -> next_body s it = next_body u it.
Proof.
  intros H. unfold next_body. pose proof (get_node_sh s u (it_idx it) H) as Hn.
  destruct (get_node s (it_idx it)) as [a| |], (get_node u (it_idx it)) as [b| |]; cbn [rsim] in Hn; try done; try (by subst).
  destruct Hn as [Hn _]. cbn [rbind]. pose proof Hn as (-> & -> & _ & _ & Hc & _).
  replace (n_cnt b =? 0) with (n_cnt a =? 0) by (clear -Hc; lia).
  destruct (_ && _); [done|]. cbv zeta.
  match goal with |- context [match it_hist ?x with [] => _ | _ :: _ => _ end] => generalize x; intros it3 end.
  destruct (it_next it3); [done..|]. destruct (it_hist it3) as [|prev h]; [done|].
  pose proof (get_node_sh s u prev H) as Hj.
  destruct (get_node s prev) as [pa| |], (get_node u prev) as [pb| |]; cbn [rsim] in Hj; try done; try (by subst).
  destruct Hj as [Hj _]. cbn [rbind]. by destruct Hj as (-> & -> & _).
Qed.

Lemma goes_sh s u it n o res : @Shape T s u -> goes u it n o res -> goes s it n o res.
Proof.
  intros H G. induction G as [it res G|it it1 n o res G1 G2 IH|it it1 n o res G1 G2 IH]; rewrite <- (next_body_sh s u) in * by done.
  - by apply goes_last.
  - by eapply goes_step.
  - by eapply goes_out.
Qed.

(** The stops of the trie of marks are nodes with values in the tree. *)
Lemma stops_cnt (u : tree mark) (t : gt mark) : forall i, links u i t ->
  Forall (fun j => j <> 0 /\ exists nd, t_nodes u !! j = Some nd /\ n_cnt nd <> 0) (stops t).
Proof.
  induction t as [|j b vs l IHl r IHr]; intros i; cbn [links stops]; [constructor|].
  intros (-> & Hj & nd & N1 & N2 & N3 & N4).
  apply Forall_app. split; [|apply Forall_app; split; [by eapply IHl|by eapply IHr]].
  destruct vs as [|v vs]; [constructor|]. constructor; [|constructor]. split; [done|]. exists nd. split; [done|].
  cbn [length] in N2. lia.
Qed.
Lemma vals_sh s u js : @Shape T s u ->
  Forall (fun j => j <> 0 /\ exists nd, t_nodes u !! j = Some nd /\ n_cnt nd <> 0) js ->
  exists vss, Forall2 (fun i vs => vals_for_node zero s i = Ok vs) js vss /\ Forall (fun l => l <> []) vss.
Proof.
  intros H. induction js as [|j js IH]; intros Hj; [exists []; by split|].
  apply Forall_cons in Hj as [(Hj0 & nd & Hnd & Hc) Hj]. destruct (IH Hj) as (vss & H1 & H2).
  pose proof (sh_nodes _ _ H j) as Hn. rewrite Hnd in Hn. inversion Hn as [nd' ? Hnn E1 E2|]; subst.
  destruct Hnn as (_ & _ & _ & _ & Hcc & _).
  eexists (_ :: vss). split; constructor; [|done| |done].
  - unfold vals_for_node. rewrite (proj2 (N.eqb_neq _ _) Hj0). unfold get_node. rewrite <- E1. cbn [rbind]. reflexivity.
  - intros E. apply (f_equal length) in E. rewrite fmap_length, seq_length in E. cbn in E.
    apply Hc, Hcc. lia.
Qed.
End Values.

(* ---------------------------------------------------------------- runs *)
Section Runs.
Context {T : Type} (zero : T) (c : idcfg) (Hc : c ∈ id_packages).
Notation w := (id_w c).
Let Hwide : wide mark c := proj1 (wide_mark c Hc).
Let Hw : w ∈ [16; 32; 64] := proj2 (wide_mark c Hc).
Local Existing Instance Hwide.

(** Delete of a prefix with a node that holds values counts the matching ones. *)
Lemma delete_count s u m t x q i (mf : T -> T -> bool) v buf s' r :
  Shape s u -> Inv Mark c u m t -> gidx t q = Some i -> vals_for_node zero s i = Ok buf ->
  idok c x -> prefix w x = q ->
  t_step zero c s (TDelete x mf v) = Ok (s', r) -> r = RDeleted (count_matching mf v buf).
Proof.
  intros Hs Hi Hg Hv Hx Hq. cbn [t_step]. unfold tree_Delete.
  destruct (Iv_inv _ _ _ _ _ Hi) as [Hcf Ha Hr Hwf Hnd Hlv Hct].
  destruct t as [|j b vs l r0]; [done|]. pose proof Hwf as (-> & -> & Sl & Sr & Wl & Wr).
  pose proof Hr as (_ & Hi0 & HiK & Hvl & nd & N1 & N2 & N3 & N4 & N5 & N6 & N7).
  pose proof (get_node_sh s u 1 Hs) as Hroot. rewrite (get_node_eq u 1 nd N1) in Hroot.
  destruct (get_node s 1) as [rt| |]; cbn [rsim] in Hroot; [|done..]. destruct Hroot as [(El & Er & _) _].
  cbn [rbind]. rewrite El, Er. clear El Er rt.
  assert (Hf : exists p', (if i_len x =? 0 then Ok (Some (1, 0))
     else del_find c (S (N.to_nat (i_len x))) s 1 (if negb (is_left_bit_set c x) then n_left nd else n_right nd) x) = Ok (Some (i, p'))).
  { subst q. destruct (N.eqb_spec (i_len x) 0) as [Hx0|Hx0].
    - assert (Hq : prefix w x = []) by (unfold prefix; by rewrite Hx0). rewrite Hq in Hg. cbn in Hg.
      injection Hg as <-. by eauto.
    - assert (Hpos : 0 < i_len x) by lia.
      pose proof (is_left_prefix c x Hx Hpos) as Hh. pose proof (TreeBits.prefix_length w x) as Hql.
      destruct (prefix w x) as [|d q'] eqn:Hq; [cbn in Hql; lia|]. cbn [head] in Hh. injection Hh as Hh.
      cbn [gidx strip] in Hg. rewrite <- Hh.
      set (ch := if d then r0 else l) in *.
      assert (E : (if negb d then n_left nd else n_right nd) = root ch).
      { unfold ch. destruct d; cbn [negb]; by apply (rep_root Mark c u). }
      assert (Hrc : TreeHeap.rep Mark c u (root ch) ch).
      { rewrite <- E. unfold ch. by destruct d. }
      assert (Hwc : wf (N.to_nat w) ch) by (unfold ch; by destruct d).
      rewrite <- Hq in Hg.
      destruct (find_spec Mark c (S (N.to_nat (i_len x))) u 1 (N.to_nat w) ch x i Hrc Hwc) as [p' Hp']; [lia|done|done|lia|].
      pose proof (del_find_sh c (S (N.to_nat (i_len x))) s u 1 (root ch) x Hs) as Hsim. rewrite Hp' in Hsim.
      rewrite E. destruct (del_find c _ s 1 (root ch) x) as [tg| |]; cbn [rsim] in Hsim; [|done..].
      destruct Hsim as [-> _]. by eauto. }
  destruct Hf as [p' ->]. cbn [rbind].
  destruct (get_node s i) as [tn| |] eqn:Htn; cbn [rbind]; [|done..].
  destruct (N.eqb_spec (n_cnt tn) 0) as [E0|E0].
  - cbn [fst snd rbind]. intros H. injection H as _ <-. do 2 f_equal.
    unfold vals_for_node in Hv. destruct (i =? 0); [by injection Hv as <-|]. rewrite Htn in Hv. cbn [rbind] in Hv.
    rewrite E0 in Hv. by injection Hv as <-.
  - destruct (delete_val zero s i v mf) as [[s1 [d k]]| |] eqn:Hd; cbn [rbind]; [|done..].
    pose proof (delete_val_count zero s i mf v buf s1 d k Hv Hd) as ->.
    destruct (0 <? k); cbn [rbind fst snd].
    + intros H. by injection H as _ <-.
    + destruct (delete_node zero s1 i p') as [s2| |]; cbn [rbind fst snd]; [|done..]. intros H. by injection H as _ <-.
Qed.

Lemma shape_stops s P : SInv c s P ->
  exists ps vss it, (forall q, q ∈ ps <-> q ∈ P) /\ StronglySorted pbefore ps /\
    iter_loop zero (S (N.to_nat (t_n s))) s iterate = Ok (vss, it) /\ iter_next s it = Ok (it, false) /\
    Forall (fun l => l <> []) vss /\
    Forall2 (fun q vs => forall x mf v, idok c x -> prefix w x = q ->
      exists s', t_step zero c s (TDelete x mf v) = Ok (s', RDeleted (count_matching mf v vs))) ps vss.
Proof.
  intros HS. pose proof HS as [(_ & u & m & t & Hs & Hi & Hm)].
  destruct (Iv_inv _ _ _ _ _ Hi) as [Hcf Ha Hr Hwf Hnd Hlv Hct].
  pose proof (rep_links Mark c u 1 t Hr) as Hlk.
  destruct (vals_sh zero s u (stops t) Hs (stops_cnt u t 1 Hlk)) as (vss & Hv & Hne).
  pose proof (Inv_listing _ _ _ _ _ Hi) as [Hsort Hin].
  assert (Hnil : t <> GNil) by (by intros ->).
  assert (exists nd, t_nodes u !! 1 = Some nd) as [nd Hnode].
  { destruct t; [done|]. destruct Hlk as (<- & _ & nd & H & _). by exists nd. }
  pose proof (goes_node u t 1 [] _ Hlk Hnil Hnd (root_up u nd Hnode)) as G.
  apply (goes_sh s u _ _ _ _ Hs) in G.
  pose proof (stops_length t) as Hsl. rewrite (sh_n _ _ Hs) in Hct.
  exists (spots [] t).*1, vss, (Iter 1 [] NUp). split; [|split; [|split; [|split; [|split; [done|]]]]].
  - intros q. rewrite spots_pre, elem_of_list_fmap. split.
    + intros ([q' l] & -> & H). apply Hin in H. rewrite Hm in H. cbn. by destruct (decide _).
    + intros H. exists (q, [Mark]). split; [done|]. apply Hin. rewrite Hm. by rewrite decide_True.
  - by rewrite spots_pre.
  - eapply goes_iter_loop; [exact G|lia|lia|done].
  - unfold iter_next. cbn [next_loop]. rewrite (next_body_sh s u _ Hs), (root_up u nd Hnode). done.
  - rewrite <- (spots_stops t []) in Hv.
    assert (Hsub : forall q i, (q, i) ∈ spots [] t -> gidx t q = Some i) by (intros q i; by apply (spots_gidx_root t (N.to_nat w))).
    revert Hv Hsub. generalize (spots [] t). clear - HS Hs Hi Hc Hwide. intros l. revert vss.
    induction l as [|[q i] l IH]; intros vss Hv Hsub; cbn [fmap list_fmap fst snd] in *.
    { apply Forall2_nil_inv_l in Hv as ->. constructor. }
    apply Forall2_cons_inv_l in Hv as (vs & vss' & Hvs & Hv & ->). constructor.
    2:{ apply IH; [done|]. intros q' i' H. apply Hsub. by right. }
    intros x mf v Hx Hq.
    destruct (shape_step zero c Hc s P (TDelete x mf v) HS Hx) as (s' & r & P' & He & _).
    pose proof (delete_count s u m t x q i mf v vs s' r Hs Hi (Hsub q i (elem_of_list_here _ _)) Hvs Hx Hq He) as ->.
    by eauto.
Qed.
End Runs.
