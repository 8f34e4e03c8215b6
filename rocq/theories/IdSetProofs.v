From Verif Require Import IdSetSpec TableNProofs IdProofs IdFinal.
From Coq Require Import Lia ZifyBool ZifyNat ZifyN.
Ltac Zify.zify_post_hook ::= idtac.

Notation fr r := (i_id (r_from r)).
Notation to_ r := (i_id (r_to r)).

(** Non-empty ranges of full length below [lim]. *)
Definition vr (c : idcfg) (lim : N) (r : range) : Prop :=
  i_len (r_from r) = id_w c /\ i_len (r_to r) = id_w c /\ fr r <= to_ r /\ to_ r < lim.

(** Ranges that start where Prev is right, which matters for the removed ones. *)
Definition low (plim : N) (r : range) : Prop := fr r < plim.

(** What the set code needs of the id code, for values below [lim], and for
    removed ranges that start below [plim]. *)
Record setcfg (c : idcfg) (lim plim : N) : Prop := {
  sc_masks : cfg_masks c;
  sc_lim : lim <= 2 ^ id_w c;
  sc_sub : forall v, 1 <= v -> v < plim -> id_subone c v = v - 1 }.

Definition sep (l : list range) : Prop := StronglySorted (fun r o => to_ r + 1 < fr o) l.

Lemma members_nil v : members [] v <-> False.
Proof. split; [|done]. intros (r & Hr & _). by apply elem_of_nil in Hr. Qed.
Lemma members_cons r l v : members (r :: l) v <-> in_range r v \/ members l v.
Proof.
  split.
  - intros (x & Hx & Hv). apply elem_of_cons in Hx as [->|Hx]; [by left|]. right. by exists x.
  - intros [H|(x & Hx & Hv)]; [exists r|exists x]; (split; [|done]); [left|by right].
Qed.
Lemma members_app l1 l2 v : members (l1 ++ l2) v <-> members l1 v \/ members l2 v.
Proof.
  induction l1 as [|r l1 IH]; cbn [app].
  - rewrite members_nil. tauto.
  - rewrite !members_cons, IH. tauto.
Qed.
Lemma members_perm l1 l2 v : l1 ≡ₚ l2 -> members l1 v <-> members l2 v.
Proof.
  intros Hp. unfold members. split; intros (r & Hr & Hv); exists r; (split; [|done]);
    [by rewrite <- Hp|by rewrite Hp].
Qed.

Section SetP.
  Context (c : idcfg) (lim plim : N) (Hsc : setcfg c lim plim).
  Let w := id_w c.
  Let max := 2 ^ id_w c - 1.

  Lemma vr_valid r : vr c lim r -> is_valid r = true.
  Proof.
    intros (H1 & H2 & H3 & _). unfold is_valid. rewrite H1, H2, N.eqb_refl.
    destruct (N.ltb_spec (to_ r) (fr r)); [lia|done].
  Qed.

  Lemma vr_to r : vr c lim r -> in_range r (to_ r).
  Proof. intros (_ & _ & H & _). split; [done|lia]. Qed.
  Lemma vr_from r : vr c lim r -> in_range r (fr r).
  Proof. intros (_ & _ & H & _). split; [lia|done]. Qed.
  Lemma vr_lt r v : vr c lim r -> in_range r v -> v < lim.
  Proof. intros (_ & _ & _ & H) [_ H']. lia. Qed.

  Lemma less_tf a b : vr c lim a -> vr c lim b -> id_less (r_to a) (r_from b) = (to_ a <? fr b).
  Proof. intros Ha Hb. apply (id_less_same (id_w c)); [apply Ha|apply Hb]. Qed.
  Lemma less_tt a b : vr c lim a -> vr c lim b -> id_less (r_to a) (r_to b) = (to_ a <? to_ b).
  Proof. intros Ha Hb. apply (id_less_same (id_w c)); [apply Ha|apply Hb]. Qed.
  Lemma less_ff a b : vr c lim a -> vr c lim b -> id_less (r_from a) (r_from b) = (fr a <? fr b).
  Proof. intros Ha Hb. apply (id_less_same (id_w c)); [apply Ha|apply Hb]. Qed.
  Lemma leq_ff a b : vr c lim a -> vr c lim b -> less_or_eq (r_from a) (r_from b) = (fr a <=? fr b).
  Proof. intros Ha Hb. apply (less_or_eq_same (id_w c)); [apply Ha|apply Hb]. Qed.
  Lemma leq_tt a b : vr c lim a -> vr c lim b -> less_or_eq (r_to a) (r_to b) = (to_ a <=? to_ b).
  Proof. intros Ha Hb. apply (less_or_eq_same (id_w c)); [apply Ha|apply Hb]. Qed.

  Lemma sc_pos : 1 < 2 ^ id_w c.
  Proof. apply w_bound. apply (sc_masks c lim plim Hsc). Qed.

  Lemma next_eqb a b : vr c lim a -> vr c lim b ->
    id_eqb (id_next c (r_to a)) (r_from b) =
    if to_ a =? max then fr b =? 1 else to_ a + 1 =? fr b.
  Proof.
    intros (Ha1 & Ha2 & Ha3 & Ha4) (Hb1 & Hb2 & Hb3 & Hb4). pose proof sc_pos as Hp.
    pose proof (sc_lim c lim plim Hsc) as Hl. pose proof (sc_masks c lim plim Hsc) as Hm. unfold max.
    destruct (N.eqb_spec (to_ a) (2 ^ id_w c - 1)) as [He|Hne].
    - rewrite next_max by done. unfold id_eqb. cbn [i_id i_len]. rewrite Ha2, Hb1, N.eqb_refl, andb_true_r.
      apply N.eqb_sym.
    - rewrite next_small by (done || lia). unfold id_eqb. cbn [i_id i_len].
      by rewrite Ha2, Hb1, N.eqb_refl, andb_true_r.
  Qed.

  (* ---------------------------------------------- mergeRanges *)
  Lemma merge_loop_acc acc prev rr :
    merge_loop c acc prev rr = (fun o => rev acc ++ o) <$> merge_loop c [] prev rr.
  Proof.
    revert acc prev. induction rr as [|r rr IH]; intros acc prev; cbn [merge_loop]; [done|].
    destruct (negb (is_valid r)); [done|].
    destruct (id_eqb _ _); [by apply IH|].
    destruct (id_less (r_to prev) (r_from r)).
    - rewrite IH, (IH [prev]). rewrite <- option_fmap_compose. apply option_fmap_ext. intros o.
      cbn [rev]. unfold compose. by rewrite <- app_assoc.
    - destruct (id_less _ _); by apply IH.
  Qed.

  Definition ordsafe (l : list range) : Prop :=
    ForallOrdPairs (fun r1 r2 => to_ r1 = max -> fr r2 = 1 -> to_ r2 = max) l.

  Definition froms (l : list range) : Prop := StronglySorted (fun a b => fr a <= fr b) l.

  Lemma sep_cons r l : sep (r :: l) <-> sep l /\ forall o, o ∈ l -> to_ r + 1 < fr o.
  Proof.
    unfold sep. split.
    - intros H. inversion H; subst. split; [done|]. by apply Forall_forall.
    - intros [H1 H2]. constructor; [done|]. by apply Forall_forall.
  Qed.

  Lemma merge_loop_spec rr : forall prev,
    Forall (vr c lim) (prev :: rr) -> froms (prev :: rr) ->
    exists out, merge_loop c [] prev rr = Some out /\ Forall (vr c lim) out /\ sep out /\
      (forall r, r ∈ out -> fr prev <= fr r) /\
      (Forall (low plim) (prev :: rr) -> Forall (low plim) out) /\
      (ordsafe (prev :: rr) -> forall v, members out v <-> members (prev :: rr) v).
  Proof.
    induction rr as [|r rr IH]; intros prev Hv Hs; cbn [merge_loop].
    - exists [prev]. split; [done|]. split; [done|]. split; [by repeat constructor|].
      split; [|done]. intros x Hx. apply elem_of_list_singleton in Hx. subst. lia.
    - apply Forall_cons in Hv as [Hp Hv]. pose proof Hv as Hv0. apply Forall_cons in Hv as [Hr Hv].
      apply StronglySorted_inv in Hs as [Hs Hsp]. pose proof Hs as Hs0.
      apply StronglySorted_inv in Hs as [Hs Hsr]. rewrite Forall_forall in Hsp.
      assert (Hpr : fr prev <= fr r) by (apply Hsp; left).
      rewrite (vr_valid r Hr). cbn [negb]. rewrite next_eqb, less_tf, less_tt by done.
      pose proof Hr as (Hr1 & Hr2 & Hr3 & Hr4). pose proof Hp as (Hp1 & Hp2 & Hp3 & Hp4).
      (* the three cases that keep prev's lower bound *)
      assert (Hkeep : forall t, i_len t = w -> fr prev <= i_id t -> i_id t < lim ->
        (ordsafe (prev :: r :: rr) -> forall o, o ∈ rr -> i_id t = max -> fr o = 1 -> to_ o = max) ->
        (ordsafe (prev :: r :: rr) -> forall v, in_range (Range (r_from prev) t) v <-> in_range prev v \/ in_range r v) ->
        exists out, merge_loop c [] (Range (r_from prev) t) rr = Some out /\ Forall (vr c lim) out /\ sep out /\
          (forall o, o ∈ out -> fr prev <= fr o) /\
          (Forall (low plim) (prev :: r :: rr) -> Forall (low plim) out) /\
          (ordsafe (prev :: r :: rr) -> forall v, members out v <-> members (prev :: r :: rr) v)).
      { intros t Ht1 Ht2 Ht3 Ht4 Ht5. destruct (IH (Range (r_from prev) t)) as (out & H1 & H2 & H3 & H4 & H6 & H5).
        - constructor; [|done]. split; [done|]. split; [done|]. cbn [r_from r_to]. lia.
        - constructor; [done|]. apply Forall_forall. intros o Ho. cbn [r_from]. apply Hsp. by right.
        - exists out. split; [done|]. split; [done|]. split; [done|]. split; [exact H4|]. split.
          { intros Hl. apply Forall_cons in Hl as [Hl1 Hl]. apply Forall_cons in Hl as [_ Hl]. apply H6. by constructor. }
          intros Hsafe v. rewrite H5.
          + rewrite !members_cons. rewrite Ht5 by done. tauto.
          + constructor.
            * apply Forall_forall. intros o Ho. cbn [r_to]. by apply Ht4.
            * inversion Hsafe as [|? ? _ Hs1]; subst. by inversion Hs1. }
      assert (Hsafe_r : ordsafe (prev :: r :: rr) -> forall o, o ∈ rr -> to_ r = max -> fr o = 1 -> to_ o = max).
      { intros Hsafe o Ho. inversion Hsafe as [|? ? _ Hs1]; subst. inversion Hs1 as [|? ? Hs2 _]; subst.
        rewrite Forall_forall in Hs2. by apply Hs2. }
      assert (Hsafe_p : ordsafe (prev :: r :: rr) -> forall o, o ∈ r :: rr -> to_ prev = max -> fr o = 1 -> to_ o = max).
      { intros Hsafe o Ho. inversion Hsafe as [|? ? Hs1 _]; subst.
        rewrite Forall_forall in Hs1. by apply Hs1. }
      pose proof (sc_lim c lim plim Hsc) as Hlim.
      destruct (if to_ prev =? max then fr r =? 1 else to_ prev + 1 =? fr r) eqn:Hn.
      { apply Hkeep; [done|lia|done|done|].
        intros Hsafe v. unfold in_range. cbn [r_from r_to].
        destruct (N.eqb_spec (to_ prev) max) as [He|Hne].
        - apply N.eqb_eq in Hn. assert (to_ r = max) by (apply Hsafe_p; [done|left|done|done]). lia.
        - apply N.eqb_eq in Hn. lia. }
      destruct (N.ltb_spec (to_ prev) (fr r)) as [Hlt|Hge].
      { rewrite merge_loop_acc. destruct (IH r) as (out & H1 & H2 & H3 & H4 & H6 & H5); [done..|].
        rewrite H1. cbn [fmap option_fmap option_map rev app]. exists (prev :: out). split; [done|].
        split; [by constructor|]. split.
        - apply sep_cons. split; [done|]. intros o Ho. apply H4 in Ho.
          destruct (N.eqb_spec (to_ prev) max) as [He|Hne].
          + unfold max in He. lia.
          + apply N.eqb_neq in Hn. lia.
        - split.
          + intros o Ho. apply elem_of_cons in Ho as [->|Ho]; [lia|]. apply H4 in Ho. lia.
          + split; [intros Hl; apply Forall_cons in Hl as [Hl1 Hl]; constructor; [done|by apply H6]|].
            intros Hsafe v. rewrite members_cons, (members_cons prev). rewrite H5; [done|].
            by inversion Hsafe. }
      destruct (N.ltb_spec (to_ prev) (to_ r)) as [Hlt2|Hge2].
      { apply Hkeep; [done|lia|done|done|].
        intros _ v. unfold in_range. cbn [r_from r_to]. lia. }
      assert (He : Range (r_from prev) (r_to prev) = prev) by (by destruct prev).
      specialize (Hkeep (r_to prev)). rewrite He in Hkeep.
      apply Hkeep; [done|done|done| |].
      + intros Hsafe o Ho. apply Hsafe_p; [done|by right].
      + intros _ v. unfold in_range. cbn [r_from r_to]. lia.
  Qed.

  Global Instance range_le_total : Total range_le.
  Proof.
    intros a b. unfold range_le. destruct C20_range_less_is_a_strict_total_order_pf as (_ & Hir & Htr & Htri).
    destruct (range_less b a) eqn:H1; [|by left]. destruct (range_less a b) eqn:H2; [|by right].
    exfalso. pose proof (Htr a b a H2 H1) as H. by rewrite Hir in H.
  Qed.
  Global Instance range_le_trans : Transitive range_le.
  Proof.
    intros a b d. unfold range_le. destruct C20_range_less_is_a_strict_total_order_pf as (_ & Hir & Htr & Htri).
    intros H1 H2. apply not_true_is_false. intros H3.
    destruct (Htri a b) as [H|[->|H]]; [|congruence|congruence].
    rewrite (Htr d a b H3 H) in H2. done.
  Qed.

  (** Merging is exact unless the list has a range reaching the largest value
      from 0 or 1 and a shorter range starting at 1. *)
  Definition safe (l : list range) : Prop :=
    forall r1 r2, r1 ∈ l -> r2 ∈ l -> to_ r1 = max -> fr r1 <= 1 -> fr r2 = 1 -> to_ r2 = max.

  Lemma range_le_from a b : vr c lim a -> vr c lim b -> range_le a b -> fr a <= fr b.
  Proof.
    intros (Ha & _) (Hb & _) H. unfold range_le, range_less in H.
    pose proof (id_compare_spec (r_from b) (r_from a)) as Hc. rewrite Ha, Hb in Hc.
    destruct (id_compare (r_from b) (r_from a)); [|done|].
    - rewrite Hc. lia.
    - lia.
  Qed.

  Lemma sorted_froms l : Forall (vr c lim) l -> StronglySorted range_le l -> froms l.
  Proof.
    intros Hv Hs. induction Hs as [|r l Hs IH Hf]; [constructor|].
    apply Forall_cons in Hv as [Hr Hv]. constructor; [by apply IH|].
    rewrite Forall_forall in Hf. rewrite Forall_forall in Hv. apply Forall_forall. intros o Ho.
    apply range_le_from; [done|by apply Hv|by apply Hf].
  Qed.

  Lemma safe_ordsafe l : froms l -> safe l -> ordsafe l.
  Proof.
    intros Hs. induction Hs as [|r l Hs IH Hf]; intros Hsafe; [constructor|]. constructor.
    - rewrite Forall_forall in Hf. apply Forall_forall. intros o Ho H1 H2. apply Hf in Ho as Hle.
      apply (Hsafe r o); [left|by right|done|lia|done].
    - apply IH. intros r1 r2 H1 H2. apply Hsafe; by right.
  Qed.

  Lemma merge_ranges_spec l : Forall (vr c lim) l ->
    exists out, merge_ranges c l = Some out /\ Forall (vr c lim) out /\ sep out /\
      (Forall (low plim) l -> Forall (low plim) out) /\
      (safe l -> forall v, members out v <-> members l v).
  Proof.
    intros Hv. unfold merge_ranges.
    destruct l as [|r1 [|r2 l]].
    - exists []. split; [done|]. split; [done|]. split; [constructor|done].
    - exists [r1]. split; [done|]. split; [done|]. split; [by repeat constructor|done].
    - set (L := r1 :: r2 :: l) in *.
      pose proof (merge_sort_Permutation range_le L) as Hperm. fold (sort_ranges L) in Hperm.
      pose proof (StronglySorted_merge_sort range_le L) as Hsort. fold (sort_ranges L) in Hsort.
      assert (Hv' : Forall (vr c lim) (sort_ranges L)) by (by rewrite Hperm).
      assert (Hs : safe L -> safe (sort_ranges L)).
      { intros H a b Ha Hb. apply H; by rewrite <- Hperm. }
      destruct (sort_ranges L) as [|r rr] eqn:HL.
      { exfalso. by apply Permutation_nil in Hperm. }
      pose proof (sorted_froms _ Hv' Hsort) as Hfroms.
      destruct (merge_loop_spec rr r Hv' Hfroms) as (out & H1 & H2 & H3 & _ & H6 & H5).
      exists out. split; [done|]. split; [done|]. split; [done|]. split; [by rewrite <- Hperm|].
      intros Hsafe v. rewrite H5 by (apply safe_ordsafe; auto). by apply members_perm.
  Qed.

  (* ---------------------------------------------- normalize *)
  Definition res_app (min : list range) (x : res (list range)) : res (list range) :=
    match x with Ok x => Ok (min ++ x) | Err e => Err e | Panic => Panic end.
  Lemma res_app_app a b x : res_app (a ++ b) x = res_app a (res_app b x).
  Proof. destruct x; cbn [res_app]; try done. by rewrite <- app_assoc. Qed.

  Lemma normalize_loop_acc fuel in_ out min :
    normalize_loop c fuel in_ out min = res_app min (normalize_loop c fuel in_ out []).
  Proof.
    revert in_ out min. induction fuel as [|fuel IH]; intros in_ out min; cbn [normalize_loop]; [done|].
    destruct in_ as [|rin in']; [done|]. destruct out as [|rout out']; [done|].
    destruct (_ || _); [done|]. destruct (entirely_before rout rin); [apply IH|].
    destruct (entirely_before rin rout).
    { cbn [app]. rewrite IH, (IH _ _ [rin]). by rewrite !res_app_app. }
    destruct (covered_by rin rout); [apply IH|].
    destruct (in_middle_of rout rin).
    { cbn [app]. rewrite IH. rewrite (IH _ _ [_]). by rewrite !res_app_app. }
    destruct (overlaps_start_of rout rin); [apply IH|].
    destruct (overlaps_end_of rout rin); [|done].
    cbn [app]. rewrite IH. rewrite (IH _ _ [_]). by rewrite !res_app_app.
  Qed.

  Lemma sep_above r l v : sep (r :: l) -> members l v -> to_ r + 1 < v.
  Proof.
    intros Hs (o & Ho & Hv). apply sep_cons in Hs as [_ Hs]. apply Hs in Ho. unfold in_range in Hv. lia.
  Qed.
  Lemma sep_tail r l : sep (r :: l) -> sep l.
  Proof. intros H. by apply sep_cons in H as [H _]. Qed.
  Lemma sep_replace r r' l : sep (r :: l) -> to_ r' = to_ r -> sep (r' :: l).
  Proof. intros H He. apply sep_cons in H as [H1 H2]. apply sep_cons. rewrite He. done. Qed.
  Lemma sep_push r l : sep l -> Forall (vr c lim) l -> (forall v, members l v -> to_ r + 1 < v) -> sep (r :: l).
  Proof.
    intros Hs Hv H. apply sep_cons. split; [done|]. intros o Ho. apply H.
    exists o. split; [done|]. apply vr_from. rewrite Forall_forall in Hv. by apply Hv.
  Qed.

  Lemma next_vr r : vr c lim r -> to_ r + 1 < lim -> id_next c (r_to r) = MyId (to_ r + 1) w.
  Proof.
    intros (_ & H2 & _) Hl. rewrite next_small; [by rewrite H2|apply (sc_masks c lim plim Hsc)|].
    pose proof (sc_lim c lim plim Hsc). lia.
  Qed.
  Lemma prev_vr r : vr c lim r -> low plim r -> 1 <= fr r -> id_prev c (r_from r) = MyId (fr r - 1) w.
  Proof.
    unfold low. intros (H1 & _ & H3 & H4) Hlow Hl. unfold id_prev. destruct (N.eqb_spec (fr r) 0); [lia|].
    rewrite (sc_sub c lim plim Hsc) by lia. by rewrite H1.
  Qed.

  (** Removed ranges that start inside of an added one do so where Prev is right. *)
  Definition okp (in_ out : list range) : Prop :=
    forall i o, i ∈ in_ -> o ∈ out -> fr i < fr o -> fr o <= to_ i -> low plim o.
  Lemma okp_low in_ out : Forall (low plim) out -> okp in_ out.
  Proof. intros H i o _ Ho _ _. rewrite Forall_forall in H. by apply H. Qed.

  Lemma normalize_loop_spec fuel : forall in_ out,
    Forall (vr c lim) in_ -> Forall (vr c lim) out -> okp in_ out -> sep in_ -> sep out ->
    (length in_ + length out < fuel)%nat ->
    exists x, normalize_loop c fuel in_ out [] = Ok x /\ Forall (vr c lim) x /\ sep x /\
      (forall v, members x v <-> members in_ v /\ ~ members out v).
  Proof.
    induction fuel as [|fuel IH]; intros in_ out Hvi Hvo Hlo Hsi Hso Hf; [lia|]. cbn [normalize_loop].
    destruct in_ as [|rin in'].
    { exists []. split; [done|]. split; [done|]. split; [constructor|]. intros v. rewrite members_nil. tauto. }
    destruct out as [|rout out'].
    { exists (rin :: in'). split; [done|]. split; [done|]. split; [done|]. intros v. rewrite (members_nil v). tauto. }
    pose proof Hvi as Hvi0. pose proof Hvo as Hvo0. 
    apply Forall_cons in Hvi as [Hi Hvi]. apply Forall_cons in Hvo as [Ho Hvo].
    assert (Hia : forall v, members in' v -> to_ rin + 1 < v) by (intros v; by apply sep_above).
    assert (Hoa : forall v, members out' v -> to_ rout + 1 < v) by (intros v; by apply sep_above).
    pose proof (sep_tail _ _ Hsi) as Hsi'. pose proof (sep_tail _ _ Hso) as Hso'.
    assert (Hok1 : okp (rin :: in') out').
    { intros i o Hii Hoo. apply Hlo; [done|by right]. }
    assert (Hok2 : okp in' (rout :: out')).
    { intros i o Hii Hoo. apply Hlo; [by right|done]. }
    assert (Hok3 : forall r, to_ r = to_ rin -> fr rin <= fr r -> okp (r :: in') out').
    { intros r Hr1 Hr2 i o Hii Hoo Hlt Hle. apply elem_of_cons in Hii as [->|Hii].
      - apply (Hlo rin o); [left|by right|lia|lia].
      - apply (Hlo i o); [by right|by right|done|done]. }
    rewrite (vr_valid _ Hi), (vr_valid _ Ho). cbn [negb orb].
    unfold entirely_before, covered_by, in_middle_of, overlaps_start_of, overlaps_end_of.
    rewrite !less_tf, !less_ff, !less_tt, !leq_ff, !leq_tt by done.
    cbn [length] in Hf. pose proof Hi as (Hi1 & Hi2 & Hi3 & Hi4). pose proof Ho as (Ho1 & Ho2 & Ho3 & Ho4).
    destruct (N.ltb_spec (to_ rout) (fr rin)) as [C1|C1].
    { destruct (IH (rin :: in') out') as (x & H1 & H2 & H3 & H4); [done..|cbn; lia|].
      exists x. split; [done|]. split; [done|]. split; [done|]. intros v. rewrite H4.
      rewrite (members_cons rout), (members_cons rin). unfold in_range.
      split; [|tauto]. intros [Hin Hout]. split; [done|]. intros [H|H]; [|done].
      destruct Hin as [Hin|Hin]; [lia|]. apply Hia in Hin. lia. }
    destruct (N.ltb_spec (to_ rin) (fr rout)) as [C2|C2].
    { destruct (IH in' (rout :: out')) as (x & H1 & H2 & H3 & H4); [done..|cbn; lia|].
      rewrite normalize_loop_acc, H1. exists (rin :: x). split; [done|]. split; [by constructor|].
      split.
      - apply sep_push; [done|done|]. intros v Hv. apply H4 in Hv as [Hv _]. by apply Hia.
      - intros v. rewrite (members_cons rin), H4, (members_cons rin).
        split; [|tauto]. intros [H|H]; [|tauto]. split; [by left|].
        rewrite members_cons. unfold in_range in *. intros [H'|H']; [lia|]. apply Hoa in H'. lia. }
    destruct (N.leb_spec (fr rout) (fr rin)) as [C3|C3]; cbn [andb].
    - destruct (N.leb_spec (to_ rin) (to_ rout)) as [C4|C4]; cbn [andb].
      { destruct (IH in' (rout :: out')) as (x & H1 & H2 & H3 & H4); [done..|cbn; lia|].
        exists x. split; [done|]. split; [done|]. split; [done|]. intros v. rewrite H4.
        rewrite (members_cons rin), (members_cons rout). unfold in_range. split; [tauto|].
        intros [[H|H] H']; [|tauto]. exfalso. apply H'. left. lia. }
      destruct (N.ltb_spec (fr rin) (fr rout)) as [D1|D1]; [lia|]. cbn [andb].
      destruct (N.ltb_spec (to_ rout) (to_ rin)) as [D2|D2]; [|lia]. cbn [andb].
      rewrite next_vr by (done || lia).
      set (rin' := set_from rin (MyId (to_ rout + 1) w)).
      assert (Hrin' : vr c lim rin').
      { split; [done|]. split; [done|]. cbn [rin' set_from r_from r_to i_id]. lia. }
      destruct (IH (rin' :: in') out') as (x & H1 & H2 & H3 & H4); [by constructor|done|apply Hok3; cbn; lia| |done|cbn; lia|].
      { by apply (sep_replace rin). }
      exists x. split; [done|]. split; [done|]. split; [done|]. intros v. rewrite H4.
      rewrite (members_cons rin'), (members_cons rin), (members_cons rout). unfold in_range.
      cbn [rin' set_from r_from r_to i_id]. split.
      + intros [[H|H] H'].
        * split; [left; lia|]. intros [H''|H'']; [lia|done].
        * split; [by right|]. intros [H''|H'']; [apply Hia in H; lia|done].
      + intros [[H|H] H']; split; [left|tauto|by right|tauto].
        destruct (N.lt_ge_cases (to_ rout) v); [lia|]. exfalso. apply H'. left. lia.
    - destruct (N.ltb_spec (fr rin) (fr rout)) as [D1|D1]; [|lia]. cbn [andb].
      rewrite prev_vr; [|done|apply (Hlo rin rout); [left|left|lia|lia]|lia].
      set (piece := Range (r_from rin) (MyId (fr rout - 1) w)).
      assert (Hpiece : vr c lim piece).
      { split; [done|]. split; [done|]. cbn [piece r_from r_to i_id]. lia. }
      destruct (N.ltb_spec (to_ rout) (to_ rin)) as [C5|C5]; cbn [andb].
      { rewrite next_vr by (done || lia).
        set (rin' := set_from rin (MyId (to_ rout + 1) w)).
        assert (Hrin' : vr c lim rin').
        { split; [done|]. split; [done|]. cbn [rin' set_from r_from r_to i_id]. lia. }
        destruct (IH (rin' :: in') out') as (x & H1 & H2 & H3 & H4); [by constructor|done|apply Hok3; cbn; lia| |done|cbn; lia|].
        { by apply (sep_replace rin). }
        rewrite normalize_loop_acc, H1. exists (piece :: x). split; [done|]. split; [by constructor|].
        split.
        - apply sep_push; [done|done|]. intros v Hv. apply H4 in Hv as [Hv _].
          rewrite members_cons in Hv. unfold in_range in Hv.
          cbn [piece rin' set_from r_from r_to i_id] in *.
          destruct Hv as [Hv|Hv]; [lia|]. apply Hia in Hv. lia.
        - intros v. rewrite (members_cons piece), H4.
          rewrite (members_cons rin'), (members_cons rin), (members_cons rout). unfold in_range.
          cbn [piece rin' set_from r_from r_to i_id]. split.
          + intros [H0|[[H0|H0] H']].
            * split; [left; lia|]. intros [H''|H'']; [lia|]. apply Hoa in H''. lia.
            * split; [left; lia|]. intros [H''|H'']; [lia|done].
            * split; [by right|]. intros [H''|H'']; [apply Hia in H0; lia|done].
          + intros [[H0|H0] H'].
            * destruct (N.lt_ge_cases v (fr rout)); [left; lia|]. right.
              destruct (N.lt_ge_cases (to_ rout) v); [split; [left; lia|tauto]|].
              exfalso. apply H'. left. lia.
            * right. split; [by right|tauto]. }
      destruct (N.leb_spec (fr rout) (fr rin)) as [D3|D3]; [lia|]. cbn [andb].
      destruct (N.leb_spec (to_ rin) (to_ rout)) as [D4|D4]; [|lia]. cbn [andb].
      destruct (IH in' (rout :: out')) as (x & H1 & H2 & H3 & H4); [done..|cbn; lia|].
      rewrite normalize_loop_acc, H1. exists (piece :: x). split; [done|]. split; [by constructor|].
      split.
      + apply sep_push; [done|done|]. intros v Hv. apply H4 in Hv as [Hv _]. apply Hia in Hv.
        cbn [piece r_from r_to i_id]. lia.
      + intros v. rewrite (members_cons piece), H4.
        rewrite (members_cons rin), (members_cons rout). unfold in_range. cbn [piece r_from r_to i_id].
        split.
        * intros [H5|[H5 H']]; [|tauto]. split; [left; lia|]. intros [H''|H'']; [lia|]. apply Hoa in H''. lia.
        * intros [[H5|H5] H']; [|tauto]. left.
          destruct (N.lt_ge_cases v (fr rout)); [lia|]. exfalso. apply H'. left. lia.
  Qed.

  Definition binv (s : builder) : Prop :=
    Forall (vr c lim) (b_in s) /\ Forall (vr c lim) (b_out s) /\ Forall (low plim) (b_out s).

  Lemma normalize_spec s : binv s ->
    exists x, normalize c s = Ok (Builder x [] (b_errs s)) /\ Forall (vr c lim) x /\ sep x /\
      (safe (b_in s) -> safe (b_out s) ->
       forall v, members x v <-> members (b_in s) v /\ ~ members (b_out s) v).
  Proof.
    intros (Hi & Ho & Hl). unfold normalize.
    destruct (merge_ranges_spec _ Hi) as (in_ & Hm1 & Hv1 & Hs1 & _ & Hx1).
    destruct (merge_ranges_spec _ Ho) as (out & Hm2 & Hv2 & Hs2 & Hl2 & Hx2).
    rewrite Hm1, Hm2.
    destruct (normalize_loop_spec (S (length in_ + length out)) in_ out) as (x & H1 & H2 & H3 & H4);
      [done|done|by apply okp_low, Hl2|done|done|lia|].
    rewrite H1. cbn [rbind]. exists x. split; [done|]. split; [done|]. split; [done|].
    intros S1 S2 v. rewrite H4, Hx1, Hx2 by done. done.
  Qed.
End SetP.

(* ------------------------------------------------ builder calls *)
Section Builder.
  Context (c : idcfg) (lim plim : N) (Hsc : setcfg c lim plim).
  Let w := id_w c.
  Let max := 2 ^ id_w c - 1.

  (** Two conditions on sets under which merging stays exact. *)
  Definition gsem (g : bool) (P : N -> Prop) : Prop := if g then ~ P (2 ^ id_w c - 1) else (P 0 <-> P 1).
  Definition gst (g : bool) (s : builder) : Prop :=
    Forall (fun r => gsem g (in_range r)) (b_in s) /\ Forall (fun r => gsem g (in_range r)) (b_out s).

  Definition sem (s : builder) (v : N) : Prop := members (b_in s) v /\ ~ members (b_out s) v.

  Lemma gsem_ext g P Q : (forall v, P v <-> Q v) -> gsem g P -> gsem g Q.
  Proof. intros H. unfold gsem. destruct g; by rewrite <- !H. Qed.

  Lemma gsem_members g l : Forall (fun r => gsem g (in_range r)) l -> gsem g (members l).
  Proof.
    unfold gsem. destruct g; intros H; rewrite Forall_forall in H.
    - intros (r & Hr & Hv). by apply (H r).
    - split; intros (r & Hr & Hv); exists r; (split; [done|]); by apply (H r Hr).
  Qed.

  Lemma sep_adjacent l r1 r2 v :
    sep l -> r1 ∈ l -> r2 ∈ l -> in_range r1 v -> in_range r2 (v + 1) -> r1 = r2.
  Proof.
    unfold sep, in_range. induction 1 as [|r l Hs IH Hf]; intros H1 H2 Hv1 Hv2; [by apply elem_of_nil in H1|].
    rewrite Forall_forall in Hf.
    apply elem_of_cons in H1 as [->|H1]; apply elem_of_cons in H2 as [->|H2]; [done| | |by apply IH].
    - apply Hf in H2. lia.
    - apply Hf in H1. lia.
  Qed.

  Lemma gsem_sep g l : sep l -> gsem g (members l) -> Forall (fun r => gsem g (in_range r)) l.
  Proof.
    intros Hs H. apply Forall_forall. intros r Hr. unfold gsem in *. destruct g.
    - intros Hv. apply H. by exists r.
    - split; intros Hv.
      + destruct (proj1 H) as (r' & Hr' & Hv'); [by exists r|].
        by rewrite (sep_adjacent l r r' 0).
      + destruct (proj2 H) as (r' & Hr' & Hv'); [by exists r|].
        by rewrite <- (sep_adjacent l r' r 0).
  Qed.

  Lemma gsem_safe g l : Forall (vr c lim) l -> Forall (fun r => gsem g (in_range r)) l -> safe c l.
  Proof.
    intros Hv Hg r1 r2 H1 H2 Hmax Hle H1'. rewrite Forall_forall in Hg, Hv. unfold gsem in Hg. destruct g.
    - exfalso. apply (Hg r1 H1). destruct (Hv r1 H1) as (_ & _ & Ha & _). split; lia.
    - exfalso. destruct (Hv r2 H2) as (_ & _ & Ha & _).
      assert (in_range r2 0) as [Hz _]; [|lia]. apply (Hg r2 H2). split; lia.
  Qed.

  Lemma normalize_g g s : binv c lim plim s -> gst g s ->
    exists x, normalize c s = Ok (Builder x [] (b_errs s)) /\ Forall (vr c lim) x /\ sep x /\
      Forall (fun r => gsem g (in_range r)) x /\
      forall v, members x v <-> sem s v.
  Proof.
    intros Hb [Hg1 Hg2]. destruct (normalize_spec c lim plim Hsc s Hb) as (x & H1 & H2 & H3 & H4).
    destruct Hb as (Hb1 & Hb2 & Hb3).
    assert (Hx : forall v, members x v <-> sem s v).
    { intros v. apply H4; by eapply gsem_safe. }
    exists x. split; [done|]. split; [done|]. split; [done|]. split; [|done].
    apply gsem_sep; [done|]. apply gsem_members in Hg1, Hg2. unfold gsem in *.
    destruct g; rewrite !Hx; unfold sem; tauto.
  Qed.

  (** Range arguments, possibly reversed. *)
  Definition rg (r : range) : Prop :=
    i_len (r_from r) = id_w c /\ i_len (r_to r) = id_w c /\ (nonempty r -> to_ r < lim).

  Lemma rg_valid r : rg r -> is_valid r = negb (reversed r).
  Proof. intros (H1 & H2 & _). unfold is_valid, reversed. by rewrite H1, H2, N.eqb_refl. Qed.
  Lemma rg_vr r : rg r -> reversed r = false -> vr c lim r.
  Proof.
    intros (H1 & H2 & H3) Hr. unfold reversed in Hr. apply N.ltb_ge in Hr. split; [done|]. split; [done|].
    split; [done|]. by apply H3.
  Qed.
  Definition rg_low (r : range) : Prop := rg r /\ (reversed r = false -> low plim r).
  Lemma reversed_empty r v : reversed r = true -> ~ in_range r v.
  Proof. unfold reversed, in_range. intros H. apply N.ltb_lt in H. lia. Qed.

  Lemma add_range_step s r : binv c lim plim s -> rg r ->
    exists s', add_range c s r = Ok s' /\ binv c lim plim s' /\
      b_errs s' = b_errs s ++ (if reversed r then [EAddRange] else []) /\
      forall g, gst g s -> gsem g (in_range r) ->
        gst g s' /\ forall v, sem s' v <-> sem s v \/ in_range r v.
  Proof.
    intros Hb Hr. unfold add_range. rewrite rg_valid by done. rewrite negb_involutive.
    destruct (reversed r) eqn:Hrev.
    { eexists. split; [done|]. split; [exact Hb|]. split; [done|]. intros g Hg _. split; [exact Hg|].
      intros v. unfold sem. cbn [b_in b_out]. pose proof (reversed_empty r v Hrev). tauto. }
    pose proof (rg_vr r Hr Hrev) as Hvr. rewrite app_nil_r.
    destruct (b_out s) as [|o out] eqn:Ho; cbn [length Nat.ltb Nat.leb].
    - cbn [rbind]. eexists. split; [done|]. cbn [b_in b_out b_errs].
      split. { destruct Hb as [Hb1 Hb2]. split; cbn [b_in b_out]; [apply Forall_app; by split; [|constructor]|by rewrite Ho]. }
      split; [done|]. intros g [Hg1 Hg2] Hgr. split.
      { split; cbn [b_in b_out]; [apply Forall_app; by split; [|constructor]|by rewrite Ho]. }
      intros v. unfold sem. cbn [b_in b_out]. rewrite Ho, members_app, members_cons, !members_nil. tauto.
    - destruct (normalize_spec c lim plim Hsc s Hb) as (x & H1 & H2 & H3 & _). rewrite H1. cbn [rbind].
      eexists. split; [done|]. cbn [b_in b_out b_errs].
      split. { split; cbn [b_in b_out]; [apply Forall_app; by split; [|constructor]|done]. }
      split; [done|]. intros g Hg Hgr.
      destruct (normalize_g g s Hb Hg) as (x' & H1' & _ & _ & H4 & H5). rewrite H1 in H1'. injection H1' as <-.
      split. { split; cbn [b_in b_out]; [apply Forall_app; by split; [|constructor]|done]. }
      intros v. unfold sem at 1. cbn [b_in b_out]. rewrite members_app, members_cons, !members_nil, H5. tauto.
  Qed.

  Lemma remove_range_step s r : binv c lim plim s -> rg_low r ->
    binv c lim plim (remove_range s r) /\
    b_errs (remove_range s r) = b_errs s ++ (if reversed r then [ERemoveRange] else []) /\
    forall g, gst g s -> gsem g (in_range r) ->
      gst g (remove_range s r) /\ forall v, sem (remove_range s r) v <-> sem s v /\ ~ in_range r v.
  Proof.
    intros (Hb1 & Hb2 & Hb3) [Hr Hlow]. unfold remove_range. rewrite rg_valid by done.
    destruct (reversed r) eqn:Hrev; cbn [negb].
    - split; [done|]. split; [done|]. intros g [Hg1 Hg2] _. split; [done|].
      intros v. unfold sem. cbn [b_in b_out]. pose proof (reversed_empty r v Hrev). tauto.
    - pose proof (rg_vr r Hr Hrev) as Hvr.
      split. { split; cbn [b_in b_out]; [done|]. split; apply Forall_app; (split; [done|]); constructor; [done|done|auto|done]. }
      split; [by rewrite app_nil_r|]. intros g [Hg1 Hg2] Hgr. split.
      { split; cbn [b_in b_out]; [done|]. apply Forall_app. by split; [|constructor]. }
      intros v. unfold sem. cbn [b_in b_out]. rewrite members_app, members_cons, !members_nil. tauto.
  Qed.

  Lemma add_set_step l : forall s, binv c lim plim s -> Forall rg l ->
    exists s', add_set c s l = Ok s' /\ binv c lim plim s' /\
      b_errs s' = b_errs s ++ map (fun _ => EAddRange) (List.filter reversed l) /\
      forall g, gst g s -> Forall (fun r => gsem g (in_range r)) l ->
        gst g s' /\ forall v, sem s' v <-> sem s v \/ members l v.
  Proof.
    induction l as [|r l IH]; intros s Hb Hl; cbn [add_set].
    - exists s. split; [done|]. split; [done|]. split; [by rewrite app_nil_r|].
      intros g Hg _. split; [done|]. intros v. rewrite members_nil. tauto.
    - apply Forall_cons in Hl as [Hr Hl].
      destruct (add_range_step s r Hb Hr) as (s1 & H1 & H2 & H3 & H4). rewrite H1. cbn [rbind].
      destruct (IH s1 H2 Hl) as (s2 & E1 & E2 & E3 & E4). exists s2. split; [done|]. split; [done|].
      split.
      { rewrite E3, H3, <- app_assoc. f_equal. cbn [List.filter]. by destruct (reversed r). }
      intros g Hg Hgl. apply Forall_cons in Hgl as [Hgr Hgl].
      destruct (H4 g Hg Hgr) as [Hg1 Hs1]. destruct (E4 g Hg1 Hgl) as [Hg2 Hs2]. split; [done|].
      intros v. rewrite Hs2, Hs1, members_cons. tauto.
  Qed.

  (** Arguments on which the model is analysed. *)
  Definition idg (x : id) : Prop :=
    exists r, range_of_id c x = Ok (Some r) /\ vr c lim r /\ forall v, in_range r v <-> covers w x v.
  Definition idg_low (x : id) : Prop :=
    exists r, range_of_id c x = Ok (Some r) /\ vr c lim r /\ low plim r /\ forall v, in_range r v <-> covers w x v.
  Definition op_good (o : bop) : Prop :=
    match o with
    | BAddId x => idg x
    | BRemoveId x => idg_low x
    | BAddRange r => rg r
    | BRemoveRange r => rg_low r
    | BAddSet s => Forall rg s
    | BIPSet => True
    end.
  Definition gop (g : bool) (o : bop) : Prop :=
    match o with
    | BAddId x | BRemoveId x => gsem g (covers w x)
    | BAddRange r | BRemoveRange r => gsem g (in_range r)
    | BAddSet s => Forall (fun r => gsem g (in_range r)) s
    | BIPSet => True
    end.

  Lemma vr_rg r : vr c lim r -> rg r /\ reversed r = false.
  Proof.
    intros (H1 & H2 & H3 & H4). split; [by repeat split|]. unfold reversed. by apply N.ltb_ge.
  Qed.

  Lemma ip_set_step s : binv c lim plim s ->
    exists x, ip_set c s = Ok (Builder x [] [], (x, b_errs s)) /\ Forall (vr c lim) x /\ sep x /\
      forall g, gst g s -> gst g (Builder x [] []) /\ forall v, members x v <-> sem s v.
  Proof.
    intros Hb. destruct (normalize_spec c lim plim Hsc s Hb) as (x & H1 & H2 & H3 & _).
    unfold ip_set. rewrite H1. cbn [rbind b_in b_out b_errs]. exists x. split; [done|]. split; [done|].
    split; [done|]. intros g Hg.
    destruct (normalize_g g s Hb Hg) as (x' & H1' & _ & _ & H4 & H5). rewrite H1 in H1'. injection H1' as <-.
    split; [|done]. split; [done|constructor].
  Qed.

  Lemma b_step_spec s o : binv c lim plim s -> op_good o ->
    exists s', b_step c s o = Ok s' /\ binv c lim plim s' /\
      b_errs s' = match o with BIPSet => [] | _ => b_errs s ++ op_errs o end /\
      forall g, gst g s -> gop g o ->
        gst g s' /\ forall v, sem s' v <-> op_apply c (sem s) o v.
  Proof.
    intros Hb Ho. destruct o as [x|x|r|r|l|]; cbn [b_step op_good gop op_apply op_errs] in *.
    - destruct Ho as (r & Hr & Hvr & Hcov). unfold add_id. rewrite Hr. cbn [rbind].
      rewrite (vr_valid c lim) by done. destruct (vr_rg r Hvr) as [Hrg Hrev].
      destruct (add_range_step s r Hb Hrg) as (s1 & H1 & H2 & H3 & H4). rewrite Hrev in H3.
      exists s1. split; [done|]. split; [done|]. split; [done|]. intros g Hg Hgo.
      destruct (H4 g Hg) as [Hg1 Hs1]; [by eapply gsem_ext; [intros v; symmetry; apply Hcov|]|].
      split; [done|]. intros v. by rewrite Hs1, Hcov.
    - destruct Ho as (r & Hr & Hvr & Hlow & Hcov). unfold remove_id. rewrite Hr. cbn [rbind].
      rewrite (vr_valid c lim) by done. destruct (vr_rg r Hvr) as [Hrg Hrev].
      destruct (remove_range_step s r Hb (conj Hrg (fun _ => Hlow))) as (H2 & H3 & H4). rewrite Hrev in H3.
      eexists. split; [done|]. split; [done|]. split; [done|]. intros g Hg Hgo.
      destruct (H4 g Hg) as [Hg1 Hs1]; [by eapply gsem_ext; [intros v; symmetry; apply Hcov|]|].
      split; [done|]. intros v. by rewrite Hs1, Hcov.
    - by apply add_range_step.
    - eexists. split; [done|]. by apply remove_range_step.
    - by apply add_set_step.
    - destruct (ip_set_step s Hb) as (x & H1 & H2 & H3 & H4). rewrite H1. cbn [rbind fst].
      eexists. split; [done|]. split; [split; [done|split; constructor]|]. split; [done|]. intros g Hg _.
      destruct (H4 g Hg) as [Hg1 Hs1]. split; [done|]. intros v. unfold sem at 1. cbn [b_in b_out].
      rewrite members_nil, Hs1. tauto.
  Qed.

  Lemma op_apply_ext P Q o : (forall v, P v <-> Q v) -> forall v, op_apply c P o v <-> op_apply c Q o v.
  Proof. intros H v. destruct o; cbn [op_apply]; by rewrite H. Qed.
  Lemma fold_apply_ext os : forall P Q, (forall v, P v <-> Q v) ->
    forall v, fold_left (op_apply c) os P v <-> fold_left (op_apply c) os Q v.
  Proof.
    induction os as [|o os IH]; intros P Q H; cbn [fold_left]; [done|].
    apply IH. by apply op_apply_ext.
  Qed.

  Lemma b_run_spec os : forall s, binv c lim plim s -> Forall op_good os ->
    exists s', b_run c s os = Ok s' /\ binv c lim plim s' /\
      b_errs s' = fold_left (fun e o => match o with BIPSet => [] | _ => e ++ op_errs o end) os (b_errs s) /\
      forall g, gst g s -> Forall (gop g) os ->
        gst g s' /\ forall v, sem s' v <-> fold_left (op_apply c) os (sem s) v.
  Proof.
    induction os as [|o os IH]; intros s Hb Ho; cbn [b_run fold_left].
    - exists s. split; [done|]. split; [done|]. split; [done|]. intros g Hg _. done.
    - apply Forall_cons in Ho as [Ho Hos].
      destruct (b_step_spec s o Hb Ho) as (s1 & H1 & H2 & H3 & H4). rewrite H1. cbn [rbind].
      destruct (IH s1 H2 Hos) as (s2 & E1 & E2 & E3 & E4). exists s2. split; [done|]. split; [done|].
      split; [by rewrite E3, H3|]. intros g Hg Hgo. apply Forall_cons in Hgo as [Hgo Hgos].
      destruct (H4 g Hg Hgo) as [Hg1 Hs1]. destruct (E4 g Hg1 Hgos) as [Hg2 Hs2]. split; [done|].
      intros v. rewrite Hs2. by apply fold_apply_ext.
  Qed.

  Lemma build_spec os : Forall op_good os ->
    exists s, build c os = Ok (s, errors os) /\ Forall (vr c lim) s /\ sep s /\
      forall g, Forall (gop g) os -> forall v, members s v <-> history c os v.
  Proof.
    intros Ho. assert (Hb : binv c lim plim builder_zero) by (split; [constructor|split; constructor]).
    destruct (b_run_spec os builder_zero Hb Ho) as (s1 & H1 & H2 & H3 & H4).
    unfold build. rewrite H1. cbn [rbind].
    destruct (ip_set_step s1 H2) as (x & E1 & E2 & E3 & E4). rewrite E1. cbn [rbind snd].
    exists x. rewrite H3. split; [done|]. split; [done|]. split; [done|].
    intros g Hg v. destruct (H4 g) as [Hg1 Hs1]; [by split; constructor|done|].
    destruct (E4 g Hg1) as [_ Hs2]. rewrite Hs2, Hs1. apply fold_apply_ext.
    intros u. unfold sem. cbn. rewrite members_nil. tauto.
  Qed.
End Builder.

Lemma vr_low c lim r : vr c lim r -> low lim r.
Proof. unfold low. intros (_ & _ & H1 & H2). lia. Qed.
Lemma binv_full c lim s : Forall (vr c lim) (b_in s) -> Forall (vr c lim) (b_out s) -> binv c lim lim s.
Proof.
  intros Hi Ho. split; [done|]. split; [done|]. eapply Forall_impl; [exact Ho|]. intros r. apply vr_low.
Qed.

Lemma setcfg_full c : cfg_full c -> setcfg c (2 ^ id_w c) (2 ^ id_w c).
Proof.
  intros Hc. split; [by destruct Hc|done|]. intros v H1 H2. rewrite cf_sub by done.
  apply sub_one_spec; [|done]. apply cm_w. by destruct Hc.
Qed.

Lemma setcfg_64 : setcfg cfg_id64 (2 ^ 64) (2 ^ 32).
Proof.
  split.
  - apply packages_masks. unfold id_packages. set_solver.
  - done.
  - intros v H1 H2. change (id_subone cfg_id64 v) with (sub_one 32 (uwrap 32 v)).
    unfold uwrap. rewrite N.mod_small by done. by apply sub_one_spec.
Qed.
