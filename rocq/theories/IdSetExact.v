(** What the builder of pkg/tree/id16 and id32 computes, the wrap-around of Next
    included. *)
From Verif Require Import IdSetSpec TableNProofs IdProofs IdFinal IdSetProofs IdSetFinal.
From Coq Require Import Lia ZifyBool ZifyNat ZifyN.
Ltac Zify.zify_post_hook ::= idtac.

Section Exact.
  Context (c : idcfg).
  Let lim := 2 ^ id_w c.
  Context (plim : N) (Hsc : setcfg c lim plim).
  Let max := 2 ^ id_w c - 1.
  Notation vr := (vr c lim).

  (** Sorted as mergeRanges sorts. *)
  Definition desc (a b : range) : Prop := fr a <= fr b /\ (fr a = fr b -> to_ b <= to_ a).

  Lemma range_le_desc a b : vr a -> vr b -> range_le a b -> desc a b.
  Proof.
    intros Ha Hb H. split; [by eapply range_le_from|]. intros He. unfold range_le, range_less in H.
    pose proof (id_compare_spec (r_from b) (r_from a)) as Hc.
    destruct Ha as (Ha1 & Ha2 & _). destruct Hb as (Hb1 & Hb2 & _). rewrite Ha1, Hb1 in Hc.
    destruct (id_compare (r_from b) (r_from a)) eqn:E; [|done|lia].
    rewrite (id_less_same (id_w c)) in H by done. apply N.ltb_ge in H. done.
  Qed.
  Lemma sorted_desc l : Forall vr l -> StronglySorted range_le l -> StronglySorted desc l.
  Proof.
    intros Hv Hs. induction Hs as [|r l Hs IH Hf]; [constructor|].
    apply Forall_cons in Hv as [Hr Hv]. constructor; [by apply IH|].
    rewrite Forall_forall in Hf. rewrite Forall_forall in Hv. apply Forall_forall. intros o Ho.
    apply range_le_desc; [done|by apply Hv|by apply Hf].
  Qed.

  Definition has_wide (l : list range) : Prop := exists r, r ∈ l /\ near_full c r.
  Definition has_one (l : list range) : Prop := exists r, r ∈ l /\ from_one c r.
  Lemma ex_cons (P : range -> Prop) r l : (exists o, o ∈ r :: l /\ P o) <-> P r \/ exists o, o ∈ l /\ P o.
  Proof.
    split.
    - intros (o & Ho & HP). apply elem_of_cons in Ho as [->|Ho]; [by left|right; eauto].
    - intros [H|(o & Ho & HP)]; [exists r|exists o]; (split; [|done]); [left|by right].
  Qed.
  Lemma lossy_cons r l : lossy c (r :: l) <-> (near_full c r \/ has_wide l) /\ (from_one c r \/ has_one l).
  Proof. unfold lossy. rewrite !ex_cons. done. Qed.

  Lemma hw_cons r l : has_wide (r :: l) <-> near_full c r \/ has_wide l.
  Proof. apply ex_cons. Qed.
  Lemma ho_cons r l : has_one (r :: l) <-> from_one c r \/ has_one l.
  Proof. apply ex_cons. Qed.
  Ltac fatoms := unfold near_full, from_one, in_range in *; cbn [r_from r_to] in *; try fold max; repeat match goal with H : context [2 ^ id_w c - 1] |- _ => progress fold max in H end.
  (** Truth values, for lia. *)
  Definition dec_ (P : Prop) : Prop := exists b : bool, P <-> b = true.
  Lemma dec_ex (P : range -> Prop) (l : list range) : (forall r, dec_ (P r)) -> dec_ (exists o, o ∈ l /\ P o).
  Proof.
    intros HP. induction l as [|r l [b Hb]].
    - exists false. split; [|done]. intros (o & Ho & _). by apply elem_of_nil in Ho.
    - destruct (HP r) as [b' Hb']. exists (b' || b). rewrite ex_cons, Hb, Hb'. by rewrite orb_true_iff.
  Qed.
  Lemma hw_dec l : dec_ (has_wide l).
  Proof.
    apply dec_ex. intros r. exists ((fr r <=? 1) && (to_ r =? 2 ^ id_w c - 1)). unfold near_full.
    by rewrite andb_true_iff, N.leb_le, N.eqb_eq.
  Qed.
  Lemma one_dec r : dec_ (from_one c r).
  Proof.
    exists ((fr r =? 1) && (to_ r <? 2 ^ id_w c - 1)). unfold from_one.
    by rewrite andb_true_iff, N.ltb_lt, N.eqb_eq.
  Qed.
  Lemma ho_dec l : dec_ (has_one l).
  Proof. apply dec_ex, one_dec. Qed.
  Lemma lossy_dec l : dec_ (lossy c l).
  Proof.
    destruct (hw_dec l) as [b Hb], (ho_dec l) as [b' Hb']. exists (b && b').
    by rewrite andb_true_iff, <- Hb, <- Hb'.
  Qed.
  Lemma in_range_dec r v : dec_ (in_range r v).
  Proof. exists ((fr r <=? v) && (v <=? to_ r)). unfold in_range. by rewrite andb_true_iff, !N.leb_le. Qed.
  Lemma members_dec l v : dec_ (members l v).
  Proof. apply dec_ex. intros r. apply in_range_dec. Qed.
  (** The part of one range that counts, given whether the list is lossy. *)
  Definition part (b : Prop) (r : range) (v : N) : Prop :=
    in_range r v /\ (b -> v = 0 \/ 1 < fr r \/ from_one c r).
  Definition parts (b : Prop) (l : list range) (v : N) : Prop := exists r, r ∈ l /\ part b r v.
  Lemma parts_dec k l v : dec_ (parts (lossy c k) l v).
  Proof.
    apply dec_ex. intros r. unfold part.
    destruct (in_range_dec r v) as [b Hb], (lossy_dec k) as [b' Hb'], (one_dec r) as [b2 Hb2].
    exists (b && (negb b' || (v =? 0) || (1 <? fr r) || b2)). rewrite Hb, Hb', Hb2. clear. destruct b, b', b2; rewrite ?orb_true_r, ?orb_false_r, ?andb_true_r, ?andb_false_r; cbn [andb orb negb]; rewrite ?orb_true_iff, ?N.eqb_eq, ?N.ltb_lt; intuition congruence.
  Qed.
  Ltac atom P d := let b := fresh "b" in let E := fresh "E" in
    destruct d as [b E]; rewrite ?E in *; clear E.
  Ltac tauto_lia := repeat match goal with
    | |- context [parts (lossy c ?k) ?l ?v] => atom (parts (lossy c k) l v) (parts_dec k l v)
    | |- context [has_wide ?l] => atom (has_wide l) (hw_dec l)
    | |- context [has_one ?l] => atom (has_one l) (ho_dec l)
    | |- context [lossy c ?l] => atom (lossy c l) (lossy_dec l)
    | |- context [members ?l ?v] => atom (members l v) (members_dec l v)
    end; repeat match goal with H : forall _ : range, _ |- _ => clear H | H : forall _ : id, _ |- _ => clear H end;
    repeat match goal with H : _ -> forall _ : range, _ |- _ => clear H | H : Forall _ _ |- _ => clear H | H : vr _ |- _ => clear H end; clearbody max lim;
    repeat match goal with |- context [i_id ?x] => let a := fresh "a" in set (a := i_id x) in *; clearbody a end;
    repeat match goal with b : bool |- _ => destruct b end; lia.

  Lemma amounts_parts l v : amounts c l v <-> parts (lossy c l) l v.
  Proof. done. Qed.
  Lemma parts_cons b r l v : parts b (r :: l) v <-> part b r v \/ parts b l v.
  Proof. apply ex_cons. Qed.
  Lemma parts_ext (b b' : Prop) l v : (b <-> b') -> parts b l v <-> parts b' l v.
  Proof. unfold parts, part. intros H. by setoid_rewrite H. Qed.
  Lemma parts_no (b : Prop) l v : ~ b -> parts b l v <-> members l v.
  Proof.
    intros H. unfold parts, part, members. split.
    - intros (r & H1 & H2 & _). eauto.
    - intros (r & H1 & H2). exists r. split; [done|split; [done|intros Hb; by destruct H]].
  Qed.
  (** Lists in which every range counts whole. *)
  Lemma parts_whole (b : Prop) l v : (forall o, o ∈ l -> 1 < fr o \/ from_one c o) -> parts b l v <-> members l v.
  Proof.
    intros H. unfold parts, part, members. split.
    - intros (r & H1 & H2 & _). eauto.
    - intros (r & H1 & H2). exists r. split; [done|split; [done|]]. intros _. right. by apply H.
  Qed.

  Lemma merge_loop_exact rr : forall prev,
    Forall vr (prev :: rr) -> (forall o, o ∈ rr -> desc prev o) -> StronglySorted desc rr ->
    exists out, merge_loop c [] prev rr = Some out /\ forall v, members out v <-> amounts c (prev :: rr) v.
  Proof.
    induction rr as [|r rr IH]; intros prev Hv Hp Hs; cbn [merge_loop].
    - exists [prev]. split; [done|]. intros v. rewrite amounts_parts, parts_no; [done|].
      rewrite lossy_cons. unfold has_wide, has_one, near_full, from_one.
      intros [[H1|(? & H1 & _)] [H2|(? & H2 & _)]]; try (by apply elem_of_nil in H1); try (by apply elem_of_nil in H2). lia.
    - apply Forall_cons in Hv as [Hvp Hv]. pose proof Hv as Hv0. apply Forall_cons in Hv as [Hr Hv].
      apply StronglySorted_inv in Hs as [Hs Hsr]. rewrite Forall_forall in Hsr. rewrite Forall_forall in Hv.
      assert (Hpr : desc prev r) by (apply Hp; left). destruct Hpr as [Hpr1 Hpr2].
      assert (Hprr : forall o, o ∈ rr -> desc prev o) by (intros o Ho; apply Hp; by right).
      rewrite (vr_valid c lim r Hr). cbn [negb]. rewrite (next_eqb c lim plim Hsc), (less_tf c lim), (less_tt c lim) by done.
      pose proof Hr as (Hr1 & Hr2 & Hr3 & Hr4). pose proof Hvp as (Hp1 & Hp2 & Hp3 & Hp4).
      fold max.
      assert (Hrmax : to_ r <= max) by (unfold max; fold lim; lia).
      assert (Hpmax : to_ prev <= max) by (unfold max; fold lim; lia).
      assert (Homax : forall o, o ∈ rr -> fr o <= to_ o <= max).
      { intros o Ho. destruct (Hv o Ho) as (_ & _ & H3 & H4). unfold max. fold lim. lia. }
      assert (Hgt : 1 < fr r -> forall o, o ∈ rr -> 1 < fr o).
      { intros H o Ho. destruct (Hsr o Ho) as [H1 _]. lia. }
      assert (Hno_w : 1 < fr r -> ~ has_wide rr).
      { intros H (o & Ho & [H1 _]). specialize (Hgt H o Ho). lia. }
      assert (Hno_1 : 1 < fr r -> ~ has_one rr).
      { intros H (o & Ho & [H1 _]). specialize (Hgt H o Ho). lia. }
      (* the continuation with a new upper bound t *)
      assert (Hkeep : forall t, i_len t = id_w c -> fr prev <= i_id t -> i_id t <= max ->
        (forall o, o ∈ rr -> fr prev = fr o -> to_ o <= i_id t) ->
        (forall v, amounts c (Range (r_from prev) t :: rr) v <-> amounts c (prev :: r :: rr) v) ->
        exists out, merge_loop c [] (Range (r_from prev) t) rr = Some out /\
          forall v, members out v <-> amounts c (prev :: r :: rr) v).
      { intros t Ht1 Ht2 Ht3 Ht4 Ht5. destruct (IH (Range (r_from prev) t)) as (out & H1 & H2).
        - constructor; [|by apply Forall_forall]. split; [done|]. split; [done|]. cbn [r_from r_to].
          unfold max in Ht3. fold lim in Ht3. pose proof (sc_pos c lim plim Hsc). fold lim in H. lia.
        - intros o Ho. split; cbn [r_from r_to]; [apply Hprr; done|by apply Ht4].
        - done.
        - exists out. split; [done|]. intros v. by rewrite H2. }
      destruct (if to_ prev =? max then fr r =? 1 else to_ prev + 1 =? fr r) eqn:Hn.
      { apply Hkeep; [done|lia|done| |].
        - intros o Ho He. destruct (Hsr o Ho) as [H1 H2].
          apply H2. lia.
        - intros v. rewrite !amounts_parts, !parts_cons.
          destruct (N.eqb_spec (to_ prev) max) as [He|Hne]; apply N.eqb_eq in Hn.
          + destruct (N.eq_dec (to_ r) max) as [Hm|Hm].
            * assert (HL : lossy c (Range (r_from prev) (r_to r) :: rr) <-> lossy c (prev :: r :: rr)).
              { rewrite !lossy_cons, !hw_cons, !ho_cons. fatoms. tauto_lia. }
              rewrite (parts_ext _ _ rr v HL). unfold part. rewrite HL. fatoms. tauto_lia.
            * assert (HL : ~ lossy c (Range (r_from prev) (r_to r) :: rr)).
              { rewrite !lossy_cons. intros [[H1|(o & Ho & H1)] _].
                - fatoms. lia.
                - destruct (Hsr o Ho) as [Hd1 Hd2]. fatoms. assert (Hd3 : to_ o <= to_ r) by lia. lia. }
              rewrite (parts_no _ rr v HL).
              rewrite (parts_whole _ rr v).
              2:{ intros o Ho. destruct (Hsr o Ho) as [Hd1 Hd2]. fatoms. lia. }
              assert (HL2 : lossy c (prev :: r :: rr)).
              { rewrite !lossy_cons, !hw_cons, !ho_cons. fatoms. split; [left; lia|right; left; lia]. }
              unfold part. fatoms. tauto_lia.
          + destruct (N.lt_ge_cases 1 (fr r)) as [Hr1'|Hr1'].
            * assert (HL : ~ lossy c (Range (r_from prev) (r_to r) :: rr)).
              { rewrite !lossy_cons. specialize (Hno_w Hr1'). specialize (Hno_1 Hr1'). fatoms. tauto_lia. }
              assert (HL2 : ~ lossy c (prev :: r :: rr)).
              { rewrite !lossy_cons, !hw_cons, !ho_cons. specialize (Hno_w Hr1'). specialize (Hno_1 Hr1'). fatoms. tauto_lia. }
              rewrite (parts_no _ rr v HL), (parts_no _ rr v HL2). unfold part. fatoms. tauto_lia.
            * assert (HL : lossy c (Range (r_from prev) (r_to r) :: rr) <-> lossy c (prev :: r :: rr)).
              { rewrite !lossy_cons, !hw_cons, !ho_cons.
                assert (Hw : has_wide rr -> to_ r = max).
                { intros (o & Ho & H1). destruct (Hsr o Ho) as [Hd1 Hd2]. specialize (Homax o Ho). fatoms. lia. }
                fatoms. tauto_lia. }
              rewrite (parts_ext _ _ rr v HL). unfold part. rewrite HL.
              assert (Hw : lossy c (prev :: r :: rr) -> to_ r = max).
              { rewrite !lossy_cons, !hw_cons, !ho_cons. intros [[H1|[H1|(o & Ho & H1)]] _]; [fatoms; lia|fatoms; lia|].
                destruct (Hsr o Ho) as [Hd1 Hd2]. specialize (Homax o Ho). fatoms. lia. }
              fatoms. tauto_lia. }
      destruct (N.ltb_spec (to_ prev) (fr r)) as [Hlt|Hge].
      { rewrite merge_loop_acc. destruct (IH r) as (out & H1 & H2); [done|done|done|].
        rewrite H1. cbn [fmap option_fmap option_map rev app]. exists (prev :: out). split; [done|].
        assert (Hr1' : 1 < fr r).
        { destruct (N.eqb_spec (to_ prev) max) as [He|Hne]; [lia|]. apply N.eqb_neq in Hn. lia. }
        intros v. rewrite members_cons, H2, !amounts_parts, !parts_cons.
        specialize (Hno_w Hr1'). specialize (Hno_1 Hr1').
        assert (HL : ~ lossy c (r :: rr)).
        { rewrite !lossy_cons. fatoms. tauto_lia. }
        assert (HL2 : ~ lossy c (prev :: r :: rr)).
        { rewrite !lossy_cons, !hw_cons, !ho_cons. fatoms. tauto_lia. }
        rewrite (parts_no _ rr v HL), (parts_no _ rr v HL2). unfold part. fatoms. tauto_lia. }
      destruct (N.ltb_spec (to_ prev) (to_ r)) as [Hlt2|Hge2].
      { assert (Hne : fr prev <> fr r) by (intros He; specialize (Hpr2 He); lia).
        apply Hkeep; [done|lia|done| |].
        - intros o Ho He. destruct (Hprr o Ho) as [_ H2]. specialize (H2 He). lia.
        - intros v. rewrite !amounts_parts, !parts_cons.
          destruct (N.lt_ge_cases 1 (fr r)) as [Hr1'|Hr1'].
          + specialize (Hno_w Hr1'). specialize (Hno_1 Hr1').
            assert (HL : ~ lossy c (Range (r_from prev) (r_to r) :: rr)).
            { rewrite !lossy_cons. fatoms. tauto_lia. }
            assert (HL2 : ~ lossy c (prev :: r :: rr)).
            { rewrite !lossy_cons, !hw_cons, !ho_cons. fatoms. tauto_lia. }
            rewrite (parts_no _ rr v HL), (parts_no _ rr v HL2). unfold part. fatoms. tauto_lia.
          + assert (HL : lossy c (Range (r_from prev) (r_to r) :: rr) <-> lossy c (prev :: r :: rr)).
            { rewrite !lossy_cons, !hw_cons, !ho_cons.
              assert (Hw : has_wide rr -> to_ r = max).
              { intros (o & Ho & H1). destruct (Hsr o Ho) as [Hd1 Hd2]. specialize (Homax o Ho). fatoms. lia. }
              fatoms. tauto_lia. }
            rewrite (parts_ext _ _ rr v HL). unfold part. rewrite HL.
            assert (Hw : lossy c (prev :: r :: rr) -> to_ r = max).
            { rewrite !lossy_cons, !hw_cons, !ho_cons. intros [[H1|[H1|(o & Ho & H1)]] _]; [fatoms; lia|fatoms; lia|].
              destruct (Hsr o Ho) as [Hd1 Hd2]. specialize (Homax o Ho). fatoms. lia. }
            fatoms. tauto_lia. }
      assert (He : Range (r_from prev) (r_to prev) = prev) by (by destruct prev).
      specialize (Hkeep (r_to prev)). rewrite He in Hkeep.
      apply Hkeep; [done|done|done| |].
      + intros o Ho Heq. by apply Hprr.
      + intros v. rewrite !amounts_parts, !parts_cons.
        assert (Hn' : to_ prev = max -> fr r <> 1).
        { intros Hm. rewrite Hm, N.eqb_refl in Hn. by apply N.eqb_neq in Hn. }
        assert (HL : lossy c (prev :: rr) <-> lossy c (prev :: r :: rr)).
        { rewrite !lossy_cons, !hw_cons, !ho_cons.
          assert (Hw : fr r = 1 -> to_ r < max -> ~ has_wide rr).
          { intros H1 H2 (o & Ho & H3). destruct (Hsr o Ho) as [Hd1 Hd2]. specialize (Homax o Ho). fatoms. lia. }
          fatoms. tauto_lia. }
        rewrite (parts_ext _ _ rr v HL). unfold part. rewrite HL.
        assert (Hw : lossy c (prev :: r :: rr) -> fr r = 0).
        { rewrite <- HL, !lossy_cons. intros [H1 H2].
          assert (fr r <= 1).
          { destruct (N.lt_ge_cases 1 (fr r)) as [H3|H3]; [|done].
            specialize (Hno_w H3). specialize (Hno_1 H3). revert H1 H2 Hno_w Hno_1. fatoms. tauto_lia. }
          assert (fr r <> 1); [|lia]. intros H3.
          destruct H1 as [H1|(o & Ho & H1)]; [fatoms; lia|].
          destruct (Hsr o Ho) as [Hd1 Hd2]. specialize (Homax o Ho). fatoms. lia. }
        fatoms. tauto_lia.
  Qed.

  Lemma merge_ranges_exact l : Forall vr l ->
    exists out, merge_ranges c l = Some out /\ Forall vr out /\ sep out /\
      (Forall (low plim) l -> Forall (low plim) out) /\ forall v, members out v <-> amounts c l v.
  Proof.
    intros Hv. destruct (merge_ranges_spec c lim plim Hsc l Hv) as (out & H1 & H2 & H3 & H4 & _).
    exists out. split; [done|]. split; [done|]. split; [done|]. split; [done|]. revert H1. unfold merge_ranges.
    destruct l as [|r1 [|r2 l]].
    - intros [= <-] v. split; [|by intros (r & Hr & _); apply elem_of_nil in Hr].
      intros (r & Hr & _). by apply elem_of_nil in Hr.
    - intros [= <-] v. rewrite amounts_parts, parts_no; [done|]. rewrite lossy_cons.
      unfold has_wide, has_one, near_full, from_one.
      intros [[Ha|(? & Ha & _)] [Hb|(? & Hb & _)]]; try (by apply elem_of_nil in Ha); try (by apply elem_of_nil in Hb). lia.
    - set (L := r1 :: r2 :: l) in *.
      pose proof (merge_sort_Permutation range_le L) as Hperm. fold (sort_ranges L) in Hperm.
      pose proof (StronglySorted_merge_sort range_le L) as Hsort. fold (sort_ranges L) in Hsort.
      assert (Hv' : Forall vr (sort_ranges L)) by (by rewrite Hperm).
      pose proof (sorted_desc _ Hv' Hsort) as Hd.
      assert (Hex : forall P, (exists r, r ∈ sort_ranges L /\ P r) <-> (exists r, r ∈ L /\ P r)).
      { intros P. by setoid_rewrite Hperm. }
      assert (Ha : forall v, amounts c (sort_ranges L) v <-> amounts c L v).
      { intros v. unfold amounts. rewrite Hex. unfold lossy. by setoid_rewrite Hex. }
      destruct (sort_ranges L) as [|r rr] eqn:HL.
      { exfalso. by apply Permutation_nil in Hperm. }
      apply StronglySorted_inv in Hd as [Hd Hdr]. rewrite Forall_forall in Hdr.
      destruct (merge_loop_exact rr r Hv') as (out' & E1 & E2); [done|done|].
      intros E. rewrite E in E1. injection E1 as <-. intros v. by rewrite E2, Ha.
  Qed.

  Lemma normalize_exact s : binv c lim plim s ->
    exists x, normalize c s = Ok (Builder x [] (b_errs s)) /\ put_together c (b_in s) (b_out s) x.
  Proof.
    intros (Hi & Ho & Hl). unfold normalize.
    destruct (merge_ranges_exact _ Hi) as (in_ & Hm1 & Hv1 & Hs1 & _ & Hx1).
    destruct (merge_ranges_exact _ Ho) as (out & Hm2 & Hv2 & Hs2 & Hl2 & Hx2).
    rewrite Hm1, Hm2.
    destruct (normalize_loop_spec c lim plim Hsc (S (length in_ + length out)) in_ out) as (x & H1 & H2 & H3 & H4);
      [done|done|by apply okp_low, Hl2|done|done|clear; lia|].
    rewrite H1. cbn [rbind]. exists x. split; [done|]. split.
    - split; [|done]. eapply Forall_impl; [exact H2|]. intros r (? & ? & ? & ?).
      split; [|done]. split; [done|]. split; [done|]. fold lim. lia.
    - intros v. by rewrite H4, Hx1, Hx2.
  Qed.

  Definition held (s : builder) (ins outs : list range) : Prop := b_in s = ins /\ b_out s = outs.

  Lemma add_range_exact s r : binv c lim plim s -> rg c lim r ->
    exists s', add_range c s r = Ok s' /\ holds_add c (b_in s) (b_out s) r (b_in s') (b_out s').
  Proof.
    intros Hb Hr. unfold add_range. rewrite (rg_valid c lim) by done. rewrite negb_involutive.
    destruct (reversed r) eqn:Hrev.
    { eexists. split; [done|]. by apply ha_reversed. }
    destruct (b_out s) as [|o out] eqn:Ho; cbn [length Nat.ltb Nat.leb].
    - cbn [rbind]. eexists. split; [done|]. cbn [b_in b_out]. rewrite Ho. by apply ha_add.
    - destruct (normalize_exact s Hb) as (x & H1 & H2). rewrite H1. cbn [rbind].
      eexists. split; [done|]. cbn [b_in b_out]. rewrite Ho in H2. by apply ha_first.
  Qed.

  Lemma add_set_exact l : forall s, binv c lim plim s -> Forall (rg c lim) l ->
    exists s', add_set c s l = Ok s' /\ holds_add_all c (b_in s) (b_out s) l (b_in s') (b_out s').
  Proof.
    induction l as [|r l IH]; intros s Hb Hl; cbn [add_set].
    - exists s. split; [done|]. constructor.
    - apply Forall_cons in Hl as [Hr Hl].
      destruct (add_range_exact s r Hb Hr) as (s1 & H1 & H2). rewrite H1. cbn [rbind].
      destruct (add_range_step c lim plim Hsc s r Hb Hr) as (s1' & H1' & Hb1 & _). rewrite H1 in H1'. injection H1' as <-.
      destruct (IH s1 Hb1 Hl) as (s2 & E1 & E2). exists s2. split; [done|]. by econstructor.
  Qed.

  Lemma idg_id_range x r : range_of_id c x = Ok (Some r) -> vr r -> (forall v, in_range r v <-> covers (id_w c) x v) ->
    id_range c x r.
  Proof. intros _ (? & ? & ? & ?) Hc. split; [|done]. split; [done|]. split; [done|]. fold lim. lia. Qed.

  Lemma b_step_exact s o : binv c lim plim s -> op_good c lim plim o ->
    exists s', b_step c s o = Ok s' /\ holds_step c (b_in s) (b_out s) o (b_in s') (b_out s').
  Proof.
    intros Hb Ho. destruct o as [x|x|r|r|l|]; cbn [b_step op_good] in *.
    - destruct Ho as (r & Hr & Hvr & Hcov). unfold add_id. rewrite Hr. cbn [rbind].
      rewrite (vr_valid c lim) by done. destruct (vr_rg c lim r Hvr) as [Hrg Hrev].
      destruct (add_range_exact s r Hb Hrg) as (s1 & H1 & H2). exists s1. split; [done|].
      eapply hs_add_id; [|done]. by eapply idg_id_range.
    - destruct Ho as (r & Hr & Hvr & _ & Hcov). unfold remove_id. rewrite Hr. cbn [rbind].
      rewrite (vr_valid c lim) by done. destruct (vr_rg c lim r Hvr) as [Hrg Hrev].
      eexists. split; [done|]. unfold remove_range. rewrite (rg_valid c lim) by done. rewrite Hrev. cbn [negb b_in b_out].
      apply hs_remove_id. by eapply idg_id_range.
    - destruct (add_range_exact s r Hb Ho) as (s1 & H1 & H2). exists s1. split; [done|]. by apply hs_add_range.
    - destruct Ho as [Ho _]. eexists. split; [done|]. unfold remove_range. rewrite (rg_valid c lim) by done.
      destruct (reversed r) eqn:Hrev; cbn [negb b_in b_out]; [by apply hs_remove_reversed|by apply hs_remove_range].
    - destruct (add_set_exact l s Hb Ho) as (s1 & H1 & H2). exists s1. split; [done|]. by apply hs_add_set.
    - destruct (normalize_exact s Hb) as (x & H1 & H2). unfold ip_set. rewrite H1. cbn [rbind fst].
      eexists. split; [done|]. cbn [b_in b_out]. by apply hs_ip_set.
  Qed.

  Lemma b_run_exact os : forall s, binv c lim plim s -> Forall (op_good c lim plim) os ->
    exists s', b_run c s os = Ok s' /\ binv c lim plim s' /\ holds c (b_in s) (b_out s) os (b_in s') (b_out s').
  Proof.
    induction os as [|o os IH]; intros s Hb Ho; cbn [b_run].
    - exists s. split; [done|]. split; [done|]. constructor.
    - apply Forall_cons in Ho as [Ho Hos].
      destruct (b_step_exact s o Hb Ho) as (s1 & H1 & H2). rewrite H1. cbn [rbind].
      destruct (b_step_spec c lim plim Hsc s o Hb Ho) as (s1' & H1' & Hb1 & _). rewrite H1 in H1'. injection H1' as <-.
      destruct (IH s1 Hb1 Hos) as (s2 & E1 & E2 & E3). exists s2. split; [done|]. split; [done|]. by econstructor.
  Qed.

  Lemma build_exact os : Forall (op_good c lim plim) os ->
    exists s ins outs, build c os = Ok (s, errors os) /\ holds c [] [] os ins outs /\ put_together c ins outs s.
  Proof.
    intros Ho. assert (Hb : binv c lim plim builder_zero) by (split; [constructor|split; constructor]).
    destruct (build_spec c lim plim Hsc os Ho) as (s & Hs & _).
    destruct (b_run_exact os builder_zero Hb Ho) as (s1 & H1 & H2 & H3).
    destruct (normalize_exact s1 H2) as (x & E1 & E2).
    exists x, (b_in s1), (b_out s1). split; [|by split].
    revert Hs. unfold build. rewrite H1. cbn [rbind]. unfold ip_set. rewrite E1. cbn [rbind snd b_in b_errs].
    intros [= _ ->]. done.
  Qed.

  (** The relation is a function. *)
  Lemma put_together_unique ins outs s s' : put_together c ins outs s -> put_together c ins outs s' -> s = s'.
  Proof. intros [H1 H2] [H3 H4]. eapply (C28_canonical_representation_is_unique_pf c); [exact H1|exact H3|]. intros v. by rewrite H2, H4. Qed.
  Lemma holds_add_unique ins outs r i1 o1 i2 o2 :
    holds_add c ins outs r i1 o1 -> holds_add c ins outs r i2 o2 -> i1 = i2 /\ o1 = o2.
  Proof.
    intros H1 H2. destruct H1; inversion H2; subst; try congruence; try done.
    split; [|done]. f_equal. by eapply put_together_unique.
  Qed.
  Lemma holds_add_all_unique l : forall ins outs i1 o1 i2 o2,
    holds_add_all c ins outs l i1 o1 -> holds_add_all c ins outs l i2 o2 -> i1 = i2 /\ o1 = o2.
  Proof.
    induction l as [|r l IH]; intros ins outs i1 o1 i2 o2 H1 H2; inversion H1; inversion H2; subst; [done|].
    match goal with A : holds_add _ _ _ _ ?a _, B : holds_add _ _ _ _ ?b _ |- _ =>
      destruct (holds_add_unique _ _ _ _ _ _ _ A B); subst end.
    by eapply IH.
  Qed.
  Lemma id_range_unique x r r' : id_range c x r -> id_range c x r' -> r = r'.
  Proof.
    intros [(A1 & A2 & A3 & A4) A5] [(B1 & B2 & B3 & B4) B5].
    assert (Hu : covers (id_w c) x (i_id x)) by done.
    assert (He : forall v, in_range r v <-> in_range r' v) by (intros v; by rewrite A5, B5).
    assert (Ha : fr r <= to_ r) by (apply A5 in Hu; unfold in_range in Hu; clear -Hu; lia).
    assert (Hb : fr r' <= to_ r') by (apply B5 in Hu; unfold in_range in Hu; clear -Hu; lia).
    unfold in_range in He. pose proof (He (fr r)). pose proof (He (to_ r)). pose proof (He (fr r')). pose proof (He (to_ r')).
    assert (E1 : fr r = fr r') by (clear A5 B5 He; clearbody lim max; lia).
    assert (E2 : to_ r = to_ r') by (clear A5 B5 He; clearbody lim max; lia).
    destruct r as [[f lf] [t lt]], r' as [[f' lf'] [t' lt']]. cbn in *. by subst.
  Qed.
  Lemma holds_step_unique ins outs o i1 o1 i2 o2 :
    holds_step c ins outs o i1 o1 -> holds_step c ins outs o i2 o2 -> i1 = i2 /\ o1 = o2.
  Proof.
    intros H1 H2. destruct H1; inversion H2; subst; try congruence; try done;
      try (match goal with A : id_range _ ?x ?r, B : id_range _ ?x ?r' |- _ =>
        rewrite (id_range_unique _ _ _ A B) in * end); try done.
    - by eapply holds_add_unique.
    - by eapply holds_add_unique.
    - by eapply holds_add_all_unique.
    - split; [|done]. by eapply put_together_unique.
  Qed.
  Lemma holds_unique os : forall ins outs i1 o1 i2 o2,
    holds c ins outs os i1 o1 -> holds c ins outs os i2 o2 -> i1 = i2 /\ o1 = o2.
  Proof.
    induction os as [|o os IH]; intros ins outs i1 o1 i2 o2 H1 H2; inversion H1; inversion H2; subst; [done|].
    match goal with A : holds_step _ _ _ _ ?a _, B : holds_step _ _ _ _ ?b _ |- _ =>
      destruct (holds_step_unique _ _ _ _ _ _ _ A B); subst end.
    by eapply IH.
  Qed.
End Exact.
