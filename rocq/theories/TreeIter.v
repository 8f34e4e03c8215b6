(** The iterator on the representation. *)
From Verif Require Export TreeDelete.
From Coq Require Import Lia ZifyBool ZifyNat ZifyN.
Local Open Scope N_scope.

Fixpoint vlist {T} (t : gt T) : list (list T) :=
  match t with
  | GNil => []
  | GNode _ _ vs l r => (match vs with [] => [] | _ => [vs] end) ++ vlist l ++ vlist r
  end.

Lemma pre_vlist {T} (t : gt T) p : (pre p t).*2 = vlist t.
Proof.
  revert p. induction t as [|i b vs l IHl r IHr]; intros p; cbn [pre vlist]; [done|].
  rewrite !fmap_app, IHl, IHr. by destruct vs.
Qed.

Lemma vlist_length {T} (t : gt T) : (length (vlist t) <= length (fp t))%nat.
Proof.
  induction t as [|i b vs l IHl r IHr]; cbn [vlist fp length]; [lia|]. rewrite !app_length.
  destruct vs; cbn [length]; lia.
Qed.

Section Iter.
Context {T : Type} (zero : T) (s : tree T).

(** n silent turns and the stops o, then a turn with result res. *)
Inductive goes : iter -> nat -> list N -> iter * option bool -> Prop :=
| goes_last it res : next_body s it = Ok res -> goes it 0 [] res
| goes_step it it1 n o res : next_body s it = Ok (it1, None) -> goes it1 n o res -> goes it (S n) o res
| goes_out it it1 n o res : next_body s it = Ok (it1, Some true) -> goes it1 n o res ->
    goes it n (it_idx it1 :: o) res.

Lemma goes_ext it it' n o res : next_body s it = next_body s it' -> goes it n o res -> goes it' n o res.
Proof.
  intros H G. destruct G as [it res G|it it1 n o res G1 G2|it it1 n o res G1 G2]; rewrite H in *.
  - by apply goes_last.
  - by eapply goes_step.
  - by eapply goes_out.
Qed.

Lemma goes_app it n o it1 n2 o2 res : goes it n o (it1, None) -> goes it1 n2 o2 res ->
  goes it (S n + n2) (o ++ o2) res.
Proof.
  intros G H. remember (it1, None) as r eqn:Hr. induction G as [it r' G|it it2 n o r' G1 G2 IH|it it2 n o r' G1 G2 IH].
  - subst r'. cbn. by eapply goes_step.
  - cbn. eapply goes_step; [done|]. by apply IH.
  - cbn. eapply goes_out; [done|]. by apply IH.
Qed.

Lemma goes_next_nil it n it' b f : goes it n [] (it', Some b) -> (n < f)%nat -> next_loop f s it = Ok (it', b).
Proof.
  intros G Hf. remember (it', Some b) as r eqn:Hr. remember [] as o eqn:Ho. revert f Hf.
  induction G as [it r' G|it it2 n o r' G1 G2 IH|it it2 n o r' G1 G2 IH]; intros f Hf; [| |done].
  - destruct f; [lia|]. cbn [next_loop]. rewrite G. subst r'. done.
  - destruct f; [lia|]. cbn [next_loop]. rewrite G1. cbn [rbind snd fst]. apply IH; [done|done|lia].
Qed.

Lemma goes_next_cons it n i o res f : goes it n (i :: o) res -> (n < f)%nat ->
  exists it1 n', next_loop f s it = Ok (it1, true) /\ it_idx it1 = i /\ goes it1 n' o res /\ (n' <= n)%nat.
Proof.
  intros G Hf. remember (i :: o) as o' eqn:Ho. revert f Hf.
  induction G as [it r' G|it it2 n o' r' G1 G2 IH|it it2 n o' r' G1 G2 IH]; intros f Hf; [done| |].
  - destruct f; [lia|]. cbn [next_loop]. rewrite G1. cbn [rbind snd fst].
    destruct (IH Ho f) as (it1 & n' & H1 & H2 & H3 & H4); [lia|]. exists it1, n'.
    split; [done|]. split; [done|]. split; [done|]. lia.
  - injection Ho as <- <-. destruct f; [lia|]. cbn [next_loop]. rewrite G1. cbn [rbind snd fst].
    exists it2, n. split; [done|]. split; [done|]. done.
Qed.

Lemma goes_iter_loop it n o it' vss fuel :
  goes it n o (it', Some false) -> (n < S (S (2 * N.to_nat (t_n s))))%nat -> (length o < fuel)%nat ->
  Forall2 (fun i vs => vals_for_node zero s i = Ok vs) o vss ->
  iter_loop zero fuel s it = Ok (vss, it').
Proof.
  revert it n vss fuel. induction o as [|i o IH]; intros it n vss fuel G Hn Hf Hv.
  - apply Forall2_nil_inv_l in Hv as ->. destruct fuel; [cbn in Hf; lia|]. cbn [iter_loop].
    unfold iter_next. rewrite (goes_next_nil _ _ _ _ _ G Hn). done.
  - apply Forall2_cons_inv_l in Hv as (vs & vss' & Hvs & Hv & ->). destruct fuel; [cbn in Hf; lia|]. cbn [iter_loop].
    destruct (goes_next_cons _ _ _ _ _ _ G Hn) as (it1 & n' & H1 & H2 & H3 & H4).
    unfold iter_next. rewrite H1. cbn [rbind snd fst]. unfold iter_vals. rewrite H2, Hvs. cbn [rbind].
    rewrite (IH it1 n' vss'); [done|done|lia|cbn [length] in Hf; lia|done].
Qed.

(** The trie as the iterator sees it: the nodes and their links. *)
Fixpoint links (i : N) (t : gt T) : Prop :=
  match t with
  | GNil => i = 0
  | GNode j _ vs l r => i = j /\ j <> 0 /\ exists nd, t_nodes s !! j = Some nd /\
      n_cnt nd = N.of_nat (length vs) /\ links (n_left nd) l /\ links (n_right nd) r
  end.

Fixpoint stops (t : gt T) : list N :=
  match t with
  | GNil => []
  | GNode i _ vs l r => (match vs with [] => [] | _ => [i] end) ++ stops l ++ stops r
  end.

Lemma links_root i t : links i t -> i = root t.
Proof. by destruct t; [|intros (-> & _)]. Qed.

(** The step up. *)
Lemma body_up p pn i nd h d : t_nodes s !! p = Some pn -> t_nodes s !! i = Some nd ->
  (if d : bool then n_right pn = i /\ n_left pn <> i else n_left pn = i) ->
  next_body s (Iter i (p :: h) NUp) = Ok (Iter p h (if d then NUp else NRight), None).
Proof.
  intros Hp Hi Hd. unfold next_body. cbn [it_idx it_hist it_next]. rewrite (get_node_eq s i nd Hi). cbn [rbind andb].
  rewrite (get_node_eq s p pn Hp). cbn [rbind]. destruct d.
  - destruct Hd as [H1 H2]. rewrite (proj2 (N.eqb_neq _ _) H2), (proj2 (N.eqb_eq _ _) H1). done.
  - rewrite (proj2 (N.eqb_eq _ _) Hd). done.
Qed.

(** Everything below and including a node, up to its step up. *)
Lemma goes_node t : forall i H res, links i t -> t <> GNil -> NoDup (fp t) ->
  next_body s (Iter i H NUp) = Ok res ->
  goes (Iter i H NSelf) (2 * (length (fp t) - 1)) (stops t) res.
Proof.
  induction t as [|i0 b vs l IHl r IHr]; intros i H res Hr Hn Hnd Hup; [done|].
  destruct Hr as (-> & Hi0 & nd & N1 & N4 & N6 & N7).
  pose proof (links_root _ _ N6) as Nl. pose proof (links_root _ _ N7) as Nr.
  cbn [fp] in Hnd. apply NoDup_cons in Hnd as [Hin Hnd]. apply NoDup_app in Hnd as (Hndl & Hdis & Hndr).
  rewrite elem_of_app in Hin.
  assert (R0 : forall (t : gt T) k, links k t -> t <> GNil -> root t <> 0).
  { intros t k Ht Htn. destruct t; [done|]. by destruct Ht as (_ & ? & _). }
  cbn [fp length stops]. rewrite app_length.
  (* from the state NRight *)
  assert (HR : goes (Iter i0 H NRight) (2 * length (fp r)) (stops r) res).
  { destruct (gt_nil_dec r) as [->|Hrn].
    - apply goes_last. rewrite <- Hup. unfold next_body. cbn [it_idx it_hist it_next].
      rewrite (get_node_eq s i0 nd N1). cbn [rbind andb]. rewrite Nr. cbn [root N.eqb negb it_idx it_hist it_next]. done.
    - assert (Hdown : next_body s (Iter i0 H NRight) = Ok (Iter (root r) (i0 :: H) NSelf, None)).
      { unfold next_body. cbn [it_idx it_hist it_next]. rewrite (get_node_eq s i0 nd N1). cbn [rbind andb].
        rewrite Nr. rewrite (proj2 (N.eqb_neq _ 0) (R0 r _ N7 Hrn)). done. }
      assert (Hrep := N7). rewrite Nr in Hrep.
      assert (Hback : goes (Iter (root r) (i0 :: H) NSelf) (2 * (length (fp r) - 1)) (stops r) (Iter i0 H NUp, None)).
      { apply IHr; [done|done|done|]. destruct r as [|ri rb rvs rl rr]; [done|]. cbn [root] in *.
        destruct N7 as (_ & Hri0 & rnd & R1 & _).
        apply (body_up i0 nd ri rnd H true N1 R1). split; [done|]. rewrite Nl. intros He.
        destruct (gt_nil_dec l) as [->|Hln]; [cbn in He; by subst|].
        apply (Hdis ri); [rewrite <- He; by apply root_fp|left]. }
      assert (Hlast : goes (Iter i0 H NUp) 0 [] res) by (by apply goes_last).
      pose proof (goes_app _ _ _ _ _ _ _ Hback Hlast) as G. rewrite app_nil_r in G.
      assert ((0 < length (fp r))%nat) by (destruct r; [done|cbn; lia]).
      replace (2 * length (fp r))%nat with (S (S (2 * (length (fp r) - 1)) + 0)) by lia.
      by eapply goes_step. }
  (* from the state NLeft *)
  assert (HL : goes (Iter i0 H NLeft) (2 * (length (fp l) + length (fp r))) (stops l ++ stops r) res).
  { destruct (gt_nil_dec l) as [->|Hln].
    - cbn [fp length stops app plus]. eapply goes_ext; [|exact HR]. unfold next_body. cbn [it_idx it_hist it_next].
      rewrite (get_node_eq s i0 nd N1). cbn [rbind andb]. rewrite Nl. cbn [root N.eqb negb it_idx it_hist it_next]. done.
    - assert (Hdown : next_body s (Iter i0 H NLeft) = Ok (Iter (root l) (i0 :: H) NSelf, None)).
      { unfold next_body. cbn [it_idx it_hist it_next]. rewrite (get_node_eq s i0 nd N1). cbn [rbind andb].
        rewrite Nl. rewrite (proj2 (N.eqb_neq _ 0) (R0 l _ N6 Hln)). done. }
      assert (Hrep := N6). rewrite Nl in Hrep.
      assert (Hback : goes (Iter (root l) (i0 :: H) NSelf) (2 * (length (fp l) - 1)) (stops l) (Iter i0 H NRight, None)).
      { apply IHl; [done|done|done|]. destruct l as [|ri rb rvs rl rr]; [done|]. cbn [root] in *.
        destruct N6 as (_ & _ & rnd & R1 & _).
        by apply (body_up i0 nd ri rnd H false N1 R1). }
      pose proof (goes_app _ _ _ _ _ _ _ Hback HR) as G.
      assert ((0 < length (fp l))%nat) by (destruct l; [done|cbn; lia]).
      replace (2 * (length (fp l) + length (fp r)))%nat with (S (S (2 * (length (fp l) - 1)) + 2 * length (fp r))) by lia.
      by eapply goes_step. }
  replace (2 * (S (length (fp l) + length (fp r)) - 1))%nat with (2 * (length (fp l) + length (fp r)))%nat by lia.
  destruct vs as [|v vs].
  - cbn [app]. eapply goes_ext; [|exact HL]. unfold next_body. cbn [it_idx it_hist it_next].
    rewrite (get_node_eq s i0 nd N1). cbn [rbind andb]. rewrite N4. done.
  - cbn [app]. apply (goes_out (Iter i0 H NSelf) (Iter i0 H NLeft)); [|done].
    unfold next_body. cbn [it_idx it_hist it_next]. rewrite (get_node_eq s i0 nd N1). cbn [rbind andb].
    rewrite N4. cbn [length]. rewrite (proj2 (N.eqb_neq _ 0)) by lia. done.
Qed.

Lemma root_up nd : t_nodes s !! 1 = Some nd -> next_body s (Iter 1 [] NUp) = Ok (Iter 1 [] NUp, Some false).
Proof.
  intros H. unfold next_body. cbn [it_idx it_hist it_next]. rewrite (get_node_eq s 1 nd H). done.
Qed.

Lemma stops_length t : (length (stops t) <= length (fp t))%nat.
Proof.
  induction t as [|i b vs l IHl r IHr]; cbn [stops fp length]; [lia|]. rewrite !app_length.
  destruct vs; cbn [length]; lia.
Qed.

Lemma iter_links t vss : links 1 t -> t <> GNil -> NoDup (fp t) -> (length (fp t) < N.to_nat (t_n s))%nat ->
  Forall2 (fun i vs => vals_for_node zero s i = Ok vs) (stops t) vss ->
  iter_loop zero (S (N.to_nat (t_n s))) s iterate = Ok (vss, Iter 1 [] NUp) /\
  iter_all zero s = Ok vss /\ iter_next s (Iter 1 [] NUp) = Ok (Iter 1 [] NUp, false).
Proof.
  intros Hl Hn Hnd Hlen Hv.
  assert (exists nd, t_nodes s !! 1 = Some nd) as [nd Hnode].
  { destruct t; [done|]. destruct Hl as (<- & _ & nd & H & _). by exists nd. }
  pose proof (root_up nd Hnode) as Hup.
  pose proof (goes_node t 1 [] _ Hl Hn Hnd Hup) as G.
  pose proof (stops_length t) as Hsl.
  assert (E : iter_loop zero (S (N.to_nat (t_n s))) s iterate = Ok (vss, Iter 1 [] NUp)).
  { eapply goes_iter_loop; [exact G| |lia|done]. lia. }
  split; [done|]. split.
  - unfold iter_all. rewrite E. done.
  - unfold iter_next. cbn [next_loop]. rewrite Hup. done.
Qed.
End Iter.

Section IterRep.
Context {T : Type} {Hkb : kbound T} (zero : T) (c : idcfg).
Notation w := (id_w c).
Context {Hwide : wide T c}.
Notation rep := (rep zero c).
Notation inv := (inv zero c).

Lemma rep_links (s : tree T) i t : rep s i t -> links s i t.
Proof.
  revert i. induction t as [|j b vs l IHl r IHr]; intros i; cbn [TreeHeap.rep links]; [done|].
  intros (-> & H1 & H2 & H3 & nd & N1 & N2 & N3 & N4 & N5 & N6 & N7).
  split; [done|]. split; [done|]. exists nd. split; [done|]. split; [done|]. split; [by apply IHl|by apply IHr].
Qed.

Lemma rep_stops (s : tree T) i t : rep s i t ->
  Forall2 (fun i vs => vals_for_node zero s i = Ok vs) (stops t) (vlist t).
Proof.
  revert i. induction t as [|j b vs l IHl r IHr]; intros i; cbn [TreeHeap.rep stops vlist]; [constructor|].
  intros (-> & H1 & H2 & H3 & nd & N1 & N2 & N3 & N4 & N5 & N6 & N7).
  apply Forall2_app; [|apply Forall2_app; [by eapply IHl|by eapply IHr]].
  assert (E : vals_for_node zero s j = Ok vs) by (by apply (vals_for_node_spec zero s j nd vs)).
  destruct vs as [|v vs]; [constructor|]. by repeat constructor.
Qed.

Lemma iter_inv s t : inv s t ->
  iter_loop zero (S (N.to_nat (t_n s))) s iterate = Ok (vlist t, Iter 1 [] NUp) /\
  iter_all zero s = Ok (vlist t) /\ iter_next s (Iter 1 [] NUp) = Ok (Iter 1 [] NUp, false).
Proof.
  intros [Hc Ha Hr Hwf Hnd Hlv Hct]. apply (iter_links zero s t).
  - by apply rep_links.
  - by intros ->.
  - done.
  - lia.
  - by eapply rep_stops.
Qed.
End IterRep.
