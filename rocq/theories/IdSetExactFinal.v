(** Proofs of the property statements about what an IDSetBuilder of pkg/tree/id16,
    id32 and id64 computes when ranges touch the largest value and 1. *)
From Verif Require Import IdSetSpec TableNProofs IdProofs IdFinal IdSetProofs IdSetFinal IdSetExact.
From Coq Require Import Lia ZifyBool ZifyNat ZifyN.
Ltac Zify.zify_post_hook ::= idtac.

Lemma ops_good c os : cfg_full c -> Forall (op_wf c) os -> Forall (op_len c) os -> Forall (op_good c (2 ^ id_w c) (2 ^ id_w c)) os.
Proof.
  intros Hc Hwf Hlen. rewrite Forall_forall in Hwf, Hlen. apply Forall_forall. intros o Ho. apply op_good_full; auto.
Qed.

(* ------------------------------------------------------------------ C86 *)
(** id16 and id32, all calls: the set is determined by the ranges the builder holds. *)
Lemma C86_built_set_is_what_the_calls_amount_to_pf :
  forall c os, c ∈ id_packages_16_32 -> Forall (op_wf c) os -> Forall (op_len c) os ->
    exists s, build c os = Ok (s, errors os) /\
      (exists ins outs, holds c [] [] os ins outs /\ put_together c ins outs s) /\
      (forall ins outs s', holds c [] [] os ins outs -> put_together c ins outs s' -> s' = s).
Proof.
  intros c os Hc Hwf Hlen. apply packages_full in Hc.
  destruct (build_exact c _ (setcfg_full c Hc) os (ops_good c os Hc Hwf Hlen)) as (s & ins & outs & H1 & H2 & H3).
  exists s. split; [done|]. split; [by exists ins, outs|].
  intros ins' outs' s' E1 E2. destruct (holds_unique c os _ _ _ _ _ _ H2 E1) as [-> ->].
  by eapply put_together_unique.
Qed.

(** id64: the same for ids of length 1 to 32 and removals that start below 2^32. *)
Lemma C86_id64_built_set_pf :
  forall os, Forall (op_wf cfg_id64) os ->
    Forall (fun o => match o with BAddId x | BRemoveId x => 1 <= i_len x <= 32 | _ => True end) os ->
    (forall (o : bop) (a b : N), o ∈ os -> removes o -> op_interval cfg_id64 o a b -> a < 2 ^ 32) ->
    exists s, build cfg_id64 os = Ok (s, errors os) /\
      (exists ins outs, holds cfg_id64 [] [] os ins outs /\ put_together cfg_id64 ins outs s) /\
      (forall ins outs s', holds cfg_id64 [] [] os ins outs -> put_together cfg_id64 ins outs s' -> s' = s).
Proof.
  intros os Hwf Hlen Hlow.
  destruct (build_exact cfg_id64 _ setcfg_64 os (op_good_64 os Hwf Hlen Hlow)) as (s & ins & outs & H1 & H2 & H3).
  exists s. split; [done|]. split; [by exists ins, outs|].
  intros ins' outs' s' E1 E2. destruct (holds_unique cfg_id64 os _ _ _ _ _ _ H2 E1) as [-> ->].
  by eapply put_together_unique.
Qed.

Lemma packages_cases c : c ∈ id_packages -> c ∈ id_packages_16_32 \/ c = cfg_id64.
Proof. unfold id_packages, id_packages_16_32. set_solver. Qed.

Lemma nonempty_not_reversed r : nonempty r -> reversed r = false.
Proof. intros H. unfold reversed. by apply N.ltb_ge. Qed.

Lemma holds_adds c l : Forall nonempty l -> forall ins, holds c ins [] (map BAddRange l) (ins ++ l) [].
Proof.
  induction 1 as [|r l Hr Hl IH]; intros ins; cbn [map].
  - rewrite app_nil_r. constructor.
  - eapply holds_next; [apply hs_add_range, ha_add; by apply nonempty_not_reversed|].
    rewrite (app_assoc ins [r] l : ins ++ r :: l = _). apply IH.
Qed.
Lemma holds_removes c l : Forall nonempty l -> forall ins outs, holds c ins outs (map BRemoveRange l) ins (outs ++ l).
Proof.
  induction 1 as [|r l Hr Hl IH]; intros ins outs; cbn [map].
  - rewrite app_nil_r. constructor.
  - eapply holds_next; [apply hs_remove_range; by apply nonempty_not_reversed|].
    rewrite (app_assoc outs [r] l : outs ++ r :: l = _). apply IH.
Qed.
Lemma holds_app c os1 : forall os2 i0 o0 i1 o1 i2 o2,
  holds c i0 o0 os1 i1 o1 -> holds c i1 o1 os2 i2 o2 -> holds c i0 o0 (os1 ++ os2) i2 o2.
Proof.
  induction os1 as [|o os1 IH]; intros os2 i0 o0 i1 o1 i2 o2 H1 H2; inversion H1; subst; cbn [app]; [done|].
  eapply holds_next; [done|]. by eapply IH.
Qed.

(** Ranges added and then ranges removed. *)
Lemma C86_additions_then_removals_pf :
  forall c adds removes, c ∈ id_packages ->
    (c = cfg_id64 -> Forall (fun r => i_id (r_from r) < 2 ^ 32) removes) ->
    Forall (fun r => range_ok c r /\ nonempty r) adds -> Forall (fun r => range_ok c r /\ nonempty r) removes ->
    exists s, build c (map BAddRange adds ++ map BRemoveRange removes) = Ok (s, []) /\
      forall v, members s v <-> amounts c adds v /\ ~ amounts c removes v.
Proof.
  intros c adds removes Hc Hlow Ha Hr.
  assert (Hna : Forall nonempty adds) by (eapply Forall_impl; [exact Ha|]; by intros r [_ ?]).
  assert (Hnr : Forall nonempty removes) by (eapply Forall_impl; [exact Hr|]; by intros r [_ ?]).
  set (os := map BAddRange adds ++ map BRemoveRange removes).
  assert (Hall : forall P : bop -> Prop, (forall r, range_ok c r -> nonempty r -> P (BAddRange r)) ->
    (forall r, range_ok c r -> nonempty r -> P (BRemoveRange r)) -> Forall P os).
  { intros P H1 H2. apply Forall_app. rewrite Forall_forall in Ha, Hr. split; apply Forall_forall; intros o Ho;
      apply elem_of_list_fmap in Ho as (r & -> & Hin);
      [destruct (Ha r Hin); by apply H1|destruct (Hr r Hin); by apply H2]. }
  assert (Hbuilt : exists s, build c os = Ok (s, errors os) /\
    (exists ins outs, holds c [] [] os ins outs /\ put_together c ins outs s)).
  { apply packages_cases in Hc as [Hc| ->].
    - destruct (C86_built_set_is_what_the_calls_amount_to_pf c os Hc) as (s & H1 & H2 & _);
        [apply Hall; by intros|apply Hall; by intros|]. by exists s.
    - destruct (C86_id64_built_set_pf os) as (s & H1 & H2 & _);
        [apply Hall; by intros|apply Hall; by intros| |by exists s].
      intros o a b Ho Hrem Hi. apply elem_of_app in Ho as [Ho|Ho];
        apply elem_of_list_fmap in Ho as (r & -> & Hin); [done|]. destruct Hi as (_ & -> & _).
      specialize (Hlow eq_refl). rewrite Forall_forall in Hlow. by apply Hlow. }
  destruct Hbuilt as (s & H1 & ins & outs & H2 & H3).
  rewrite errors_valid in H1 by (apply Hall; by intros).
  exists s. split; [done|].
  assert (Hh : holds c [] [] os adds removes).
  { eapply holds_app; [apply (holds_adds c adds Hna [])|apply (holds_removes c removes Hnr adds [])]. }
  destruct (holds_unique c os _ _ _ _ _ _ H2 Hh) as [-> ->]. apply H3.
Qed.

(** The union is lost exactly when one range is [0,max] or [1,max], another one
    starts at 1 and ends earlier, and some value from 1 up is in no range that
    starts above 1 or ends before max and starts at 1. *)
Lemma C86_union_is_lost_exactly_when_pf :
  forall c adds s, c ∈ id_packages -> Forall (fun r => range_ok c r /\ nonempty r) adds ->
    build c (map BAddRange adds) = Ok (s, []) ->
    ((forall v, members s v <-> members adds v) <->
     (lossy c adds -> forall v, 1 <= v < 2 ^ id_w c ->
        exists r, r ∈ adds /\ in_range r v /\ (1 < i_id (r_from r) \/ from_one c r))).
Proof.
  intros c adds s Hc Ha Hb.
  destruct (C86_additions_then_removals_pf c adds [] Hc ltac:(by constructor) Ha ltac:(constructor)) as (s' & H1 & H2).
  cbn [map] in H1. rewrite app_nil_r, Hb in H1. injection H1 as <-.
  assert (Hm : forall v, members s v <-> amounts c adds v).
  { intros v. rewrite H2. split; [by intros [? _]|]. intros H. split; [done|].
    intros (r & Hr & _). by apply elem_of_nil in Hr. }
  split.
  - intros Hs Hl v Hv. pose proof Hl as [(r & Hr & Hw1 & Hw2) _].
    assert (Hin : members adds v).
    { exists r. split; [done|]. unfold in_range. rewrite Hw2. clear -Hw1 Hv. lia. }
    apply Hs, Hm in Hin as (r' & Hr' & Hin & Hc'). exists r'. split; [done|]. split; [done|].
    destruct (Hc' Hl) as [->|?]; [clear -Hv; lia|done].
  - intros Hl v. rewrite Hm. split.
    + intros (r & Hr & Hin & _). by exists r.
    + intros (r & Hr & Hin). destruct (lossy_dec c adds) as [b Hb'].
      destruct (N.eq_dec v 0) as [->|Hv].
      { exists r. split; [done|]. split; [done|]. by left. }
      destruct b.
      * assert (Hlt : v < 2 ^ id_w c).
        { rewrite Forall_forall in Ha. destruct (Ha r Hr) as [(_ & _ & _ & H4) _]. unfold in_range in Hin.
          clear -H4 Hin. lia. }
        destruct (Hl (proj2 Hb' eq_refl) v) as (r' & Hr' & Hin' & Hc'); [clear -Hlt Hv; lia|].
        exists r'. split; [done|]. split; [done|]. intros _. by right.
      * exists r. split; [done|]. split; [done|]. intros Hlo. by apply Hb' in Hlo.
Qed.

(* ------------------------------------------------------------------ C87 *)
Lemma mask6_total c l : c ∈ id_packages -> l <= id_masklim c -> exists m, mask6 c l = Ok m.
Proof.
  intros Hc Hl. pose proof (packages_masks c Hc) as Hm.
  destruct (N.eq_dec l 0) as [->|Hne].
  - unfold id_packages in Hc.
    apply elem_of_cons in Hc as [->|Hc]; [by eexists|].
    apply elem_of_cons in Hc as [->|Hc]; [by eexists|].
    apply elem_of_cons in Hc as [->|Hc]; [by eexists|]. by apply elem_of_nil in Hc.
  - eexists. apply (cm_mask c Hm); [clear -Hne; lia|]. etransitivity; [exact Hl|]. unfold id_packages in Hc.
    apply elem_of_cons in Hc as [->|Hc]; [done|].
    apply elem_of_cons in Hc as [->|Hc]; [done|].
    apply elem_of_cons in Hc as [->|Hc]; [done|]. by apply elem_of_nil in Hc.
Qed.
(** All widths, all ids: RangeOfID never panics; its range is zero exactly when
    Mask refuses the length of the id, and then AddId and RemoveId panic, in any
    state of the builder. *)
Lemma C87_zero_range_pf :
  forall c x, c ∈ id_packages ->
    exists r, range_of_id c x = Ok r /\
      (range_is_zero r = true <-> exists e, id_mask c x (i_len x) = Err e) /\
      (range_is_zero r = true <-> id_masklim c < i_len x) /\
      (range_is_zero r = true -> forall s, add_id c s x = Panic /\ remove_id c s x = Panic).
Proof.
  intros c x Hc. unfold add_id, remove_id, range_of_id, id_masked, id_mask.
  destruct (N.ltb_spec (id_masklim c) (i_len x)) as [Hl|Hl].
  - exists None. split; [done|]. split; [split; [by eexists|done]|]. split; [done|]. intros _ s. done.
  - destruct (mask6_total c (i_len x) Hc Hl) as [m Hm]. rewrite Hm. cbn [rbind].
    eexists. split; [done|]. cbn [range_is_zero].
    split; [split; [done|by intros [e He]]|]. split; [split; [done|clear -Hl; lia]|done].
Qed.
